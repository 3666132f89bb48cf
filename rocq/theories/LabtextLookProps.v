(** C34 from the texts: files of specifications, opened and looked up in. *)
From Verif Require Import Base LabelModel LabelSpec LabelProofs LabelPathProofs LabelDemo LoginModel LoginProofs LabtextModel LabtextProofs.
From Verif Require LoginSpec LabtextSpec.
From Coq Require Import String Sorted Permutation.
Open Scope N_scope.
Open Scope list_scope.

(** If the three files say these specifications line by line, then a database opened from the files answers like the flat list of them. The
    conditions are those of C34_lookup_partial. *)
Theorem C34_from_text_partial : forall E qsort prefix validating baseonly subs dist base homedirs local lb lh ll b h l D key mode k,
  sorts qsort -> match prefix with Some p => LoginSpec.no_nul p | None => True end -> LabtextSpec.part_ok prefix ->
  LoginSpec.lines_of base lb -> LoginSpec.lines_of homedirs lh -> LoginSpec.lines_of local ll -> short lb -> short lh -> short ll ->
  Forall2 LabtextSpec.line_says lb b -> Forall2 LabtextSpec.line_says lh h -> Forall2 LabtextSpec.line_says ll l ->
  init_text qsort prefix validating baseonly subs dist base homedirs local = Some D ->
  key <> [] -> no_nul key -> (forall src dst, In (src, dst) (subs ++ dist) -> canonical dst /\ no_nul dst) ->
  Effective subs dist (canon key) k -> in_subset (option_map (@tl N) prefix) k ->
  (forall s, In s (all_specs baseonly b h l) -> ~ literal (sp_regex s) -> kinds_meet (mode_kind mode) (sp_kind s) ->
    decided E (sp_regex s) k /\ honest E (sp_regex s) k) ->
  none_last E (all_specs baseonly b h l) k (mode_kind mode) ->
  Flat E (all_specs baseonly b h l) k (mode_kind mode) (option_map f_spec (lookup E D key mode)).
Proof.
  intros E qs prefix v bo subs dist base hd lc lb lh ll b h l D key mode k Q NZ PO LB LH LL SB SH SL FB FH FL I NE NK CD EF IS OK NO.
  assert (PK : prefix_ok prefix = true) by (apply prefix_part; assumption).
  assert (RD : forall f ls o, LoginSpec.lines_of f ls -> Forall2 LabtextSpec.line_says ls o -> process_text_file prefix f = Some o).
  { intros f ls o A B. unfold process_text_file. rewrite (lines_fun _ _ A). apply lines_spec; assumption. }
  assert (LEN : forall (ls : list (list N)) o, Forall2 LabtextSpec.line_says ls o -> short ls -> short o).
  { intros ls o F. unfold short. assert (X : List.length ls = List.length o) by (induction F; cbn [List.length]; congruence). rewrite X. auto. }
  unfold init_text in I. rewrite (RD _ _ _ LB FB), (RD _ _ _ LH FH), (RD _ _ _ LL FL) in I.
  destruct bo.
  - assert (X : init qs (option_map (@tl N) prefix) v true subs dist b h l = Some D) by exact I.
    apply (lookup_flat E qs (option_map (@tl N) prefix) v true subs dist b h l D key mode k Q (LEN _ _ FB SB) (LEN _ _ FH SH) (LEN _ _ FL SL) X NE NK CD EF IS OK NO).
  - apply (lookup_flat E qs (option_map (@tl N) prefix) v false subs dist b h l D key mode k Q (LEN _ _ FB SB) (LEN _ _ FH SH) (LEN _ _ FL SL) I NE NK CD EF IS OK NO).
Qed.
Print Assumptions C34_from_text_partial.

Definition text_base : list N := LabtextSpec.bytes "# all
/.* system_u:object_r:default_t
/etc/.* -- etc_t
" ++ LabtextSpec.bytes "/etc/x\.conf.* conf_t".
Definition text_local : list N := LabtextSpec.bytes "/srv/.+   srv_t
".
Definition said_base : list (option (list N * N * list N)) := [None; line "/.*" 0 "system_u:object_r:default_t"; line "/etc/.*" 7 "etc_t"; line "/etc/x\.conf.*" 0 "conf_t"].
Definition said_local : list (option (list N * N * list N)) := [line "/srv/.+" 0 "srv_t"].
Example C34_from_text_case : exists lb lh ll D,
  LoginSpec.lines_of text_base lb /\ LoginSpec.lines_of [] lh /\ LoginSpec.lines_of text_local ll
  /\ Forall2 LabtextSpec.line_says lb said_base /\ Forall2 LabtextSpec.line_says lh [] /\ Forall2 LabtextSpec.line_says ll said_local
  /\ init_text stable_sort None false false [] [] text_base [] text_local = Some D
  /\ Effective [] [] (canon (txt "/etc//x.confd/")) (txt "/etc/x.confd")
  /\ (forall s, In s (all_specs false said_base [] said_local) -> ~ literal (sp_regex s) -> kinds_meet (mode_kind 33188) (sp_kind s) -> decided mini (sp_regex s) (txt "/etc/x.confd") /\ honest mini (sp_regex s) (txt "/etc/x.confd"))
  /\ none_last mini (all_specs false said_base [] said_local) (txt "/etc/x.confd") (mode_kind 33188)
  /\ option_map f_spec (lookup mini D (txt "/etc//x.confd/") 33188) = Some (mkSpec (txt "/etc/x\.conf.*") 0 (txt "conf_t") 0 4).
Proof.
  exists (getlines text_base), (getlines []), (getlines text_local). eexists.
  do 3 (split; [apply getlines_lines|]). do 3 (split; [apply (lines_spec None); [reflexivity|vm_compute; reflexivity]|]).
  split; [vm_compute; reflexivity|]. split.
  { apply Eff_none; intros src dst []. }
  split; [apply fine_specs; vm_compute; reflexivity|]. split; [apply none_lasts; vm_compute; reflexivity|]. vm_compute. reflexivity.
Qed.
