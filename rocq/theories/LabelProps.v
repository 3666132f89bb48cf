(** File label lookup (C34), path cleaning and substitution (C35), best match (C36), partial match (C58). *)
From Verif Require Import Base LabelModel LabelSpec LabelProofs LabelPathProofs LabelDemo.
From Coq Require Import String Sorted Permutation.

(** A database opened from its files answers like the flat list of its specifications. Missing with respect to the full
    claim: it is required that every expression matches only below its own leading literal components and that the engine
    can tell, that only the last expression that matches says <<none>>, and that the path is in the part asked for; each of
    these is needed (C34_refuted_stems, C34_refuted_none, C34_refuted_subset). *)
Theorem C34_lookup_partial : forall E qsort prefix validating baseonly subs dist base homedirs local D key mode k,
  sorts qsort -> short base -> short homedirs -> short local ->
  init qsort prefix validating baseonly subs dist base homedirs local = Some D ->
  key <> [] -> no_nul key -> (forall src dst, In (src, dst) (subs ++ dist) -> canonical dst /\ no_nul dst) ->
  Effective subs dist (canon key) k -> in_subset prefix k ->
  (forall s, In s (all_specs baseonly base homedirs local) -> ~ literal (sp_regex s) -> kinds_meet (mode_kind mode) (sp_kind s) ->
    decided E (sp_regex s) k /\ honest E (sp_regex s) k) ->
  none_last E (all_specs baseonly base homedirs local) k (mode_kind mode) ->
  Flat E (all_specs baseonly base homedirs local) k (mode_kind mode) (option_map f_spec (lookup E D key mode)).
Proof. exact lookup_flat. Qed.
Print Assumptions C34_lookup_partial.
Definition specs1 : list spec := all_specs false base1 home1 local1.
Lemma dst1 : forall src dst, In (src, dst) (subs1 ++ dist1) -> canonical dst /\ no_nul dst.
Proof. intros src dst [[= <- <-]|[[= <- <-]|[[= <- <-]|[]]]]; (split; [vm_compute; reflexivity|vm_compute; intuition discriminate]). Qed.
Example C34_case : exists D, init stable_sort None false false subs1 dist1 base1 home1 local1 = Some D /\
  Effective subs1 dist1 (canon (txt "/opt/etc//x.confd/")) (txt "/etc/x.confd") /\
  (forall s, In s specs1 -> ~ literal (sp_regex s) -> kinds_meet (mode_kind 33188) (sp_kind s) -> decided mini (sp_regex s) (txt "/etc/x.confd") /\ honest mini (sp_regex s) (txt "/etc/x.confd")) /\
  none_last mini specs1 (txt "/etc/x.confd") (mode_kind 33188) /\
  option_map f_spec (lookup mini D (txt "/opt/etc//x.confd/") 33188) = Some (mkSpec (txt "/etc/x\.conf.*") 7 (txt "conf_t") 0 6).
Proof.
  eexists. split; [vm_compute; reflexivity|]. split.
  { apply Eff_local; [apply (Sub_here (txt "/opt/etc") (txt "/etc") _ _ (txt "/x.confd")); [vm_compute; reflexivity|right; exists (txt "x.confd"); vm_compute; reflexivity]|].
    intros src dst [[= <- <-]|[]] (r & Q & _). vm_compute in Q. discriminate. }
  split; [apply fine_specs; vm_compute; reflexivity|]. split; [apply none_lasts; vm_compute; reflexivity|]. vm_compute. reflexivity.
Qed.

(** For a fragment of expressions (characters, escapes, the dot, the three repetition operators) the condition on
    components follows from a condition on the expression alone: it begins with a slash and no slash is repeated. *)
Theorem C34_honest : forall r key, absolute r = true -> tidy r -> canonical key -> honest mini r key.
Proof. exact mini_honest. Qed.
Print Assumptions C34_honest.
Example C34_honest_case : tidy (txt "/usr/lib/.*\.so.*") /\ mini (txt "/usr/lib/.*\.so.*") (txt "/usr/lib/x/a.so.1") false = RxMatch /\
  Leads (txt "/usr/lib/.*\.so.*") [txt "usr"; txt "lib"].
Proof.
  split; [apply tidyb_ok; vm_compute; reflexivity|]. split; [vm_compute; reflexivity|].
  assert (LIT : forall s, forallb (fun c => negb (existsb (N.eqb c) (92 :: metas))) s = true -> Lit s s).
  { induction s as [|c s IH]; intros H; [constructor|]. cbn [forallb] in H. apply andb_true_iff in H as [A B]. apply negb_true_iff in A. cbn [existsb] in A.
    apply orb_false_iff in A as [A1 A2]. constructor; [|apply N.eqb_neq, A1|apply IH, B]. intros I. assert (X : existsb (N.eqb c) metas = true) by (apply existsb_exists; exists c; split; [exact I|apply N.eqb_refl]). congruence. }
  apply (Leads_cons 47 (txt "usr") (txt "usr") (txt "lib/.*\.so.*") [txt "lib"]); [discriminate|vm_compute; intuition discriminate|apply LIT; vm_compute; reflexivity|].
  apply (Leads_cons 47 (txt "lib") (txt "lib") (txt ".*\.so.*") []); [discriminate|vm_compute; intuition discriminate|apply LIT; vm_compute; reflexivity|constructor].
Qed.

(** Without any condition on expressions, engine, aliases or part asked for: what is returned is a specification of the files
    for that kind of file, with a label, which matches the path behind the key. *)
Theorem C34_found_real : forall E qsort prefix validating baseonly subs dist base homedirs local D key mode k f,
  sorts qsort -> short base -> short homedirs -> short local ->
  init qsort prefix validating baseonly subs dist base homedirs local = Some D ->
  key <> [] -> no_nul key -> (forall src dst, In (src, dst) subs -> no_nul dst) ->
  Effective subs dist (canon key) k -> lookup E D key mode = Some f ->
  Real E (all_specs baseonly base homedirs local) k (mode_kind mode) false f.
Proof.
  intros E qs prefix v bo subs dist base hd lc D key mode k f Q SB SH SL I NE NK CD EF L.
  pose proof (init_genuine E qs prefix v bo subs dist base hd lc D key mode false false Q SB SH SL I NE) as G.
  destruct (init_holds _ _ _ _ _ _ _ _ _ _ Q SB SH SL I) as (_ & _ & ES & ED & _). rewrite <- ES, <- ED in EF. rewrite <- ES in CD.
  rewrite (effective_self D (canon key) (canon_nul key NK) CD k EF) in G. unfold lookup in L. destruct (lookup_all E D key mode false false) as [|g gs]; [discriminate|].
  injection L as ->. exact (proj1 (genuine_real _ _ _ _ _ _ _ (Forall_inv G))).
Qed.
Print Assumptions C34_found_real.

(** A database opened with validation has no two specifications for the same text or expression and overlapping kinds among
    those of its base file, so that the result does not depend on how equal literals were sorted. *)
Theorem C34_validated_unique : forall qsort baseonly subs dist base homedirs local D, sorts qsort -> short base ->
  init qsort None true baseonly subs dist base homedirs local = Some D ->
  forall s s', In s (numbered 0 1 base) -> In s' (numbered 0 1 base) -> kinds_overlap (sp_kind s) (sp_kind s') ->
  ((exists t, Lit (sp_regex s) t /\ Lit (sp_regex s') t) \/ sp_regex s = sp_regex s') -> s = s'.
Proof. exact validated_unique. Qed.
Print Assumptions C34_validated_unique.
Example C34_validated_case : (exists D, init stable_sort None true false subs1 dist1 [line "/etc/passwd" 1 "a"; line "/etc/passwd" 7 "b"; line "/etc/.*" 0 "c"] home1 local1 = Some D) /\
  init stable_sort None true false subs1 dist1 [line "/etc/pass\.wd" 0 "a"; line "/etc/.*" 0 "c"; line "/etc/pass\.wd" 7 "b"] home1 local1 = None.
Proof. split; [eexists|]; vm_compute; reflexivity. Qed.

(** The tree is as the asserts of sort_spec_node want it: components are not empty, and no node but the root is empty; and no
    component occurs twice among the children of a node. *)
Theorem C34_tree_sound : forall qsort prefix validating baseonly subs dist base homedirs local D,
  sorts qsort -> short base -> short homedirs -> short local ->
  init qsort prefix validating baseonly subs dist base homedirs local = Some D -> forall p m, Reach (d_root D) p m ->
  NoDup (map fst (n_children m)) /\ (forall s c, In (s, c) (n_children m) -> s <> []) /\ (p <> [] -> n_lits m <> [] \/ n_regs m <> [] \/ n_children m <> []).
Proof.
  intros qs prefix v bo subs dist base hd lc D Q SB SH SL I p m R. destruct (init_holds _ _ _ _ _ _ _ _ _ _ Q SB SH SL I) as (H & _).
  apply (tree_sound _ _ _ H p m). apply reach_at; [exact R|]. exact (h_dist _ _ _ H).
Qed.
Print Assumptions C34_tree_sound.
Example C34_tree_case : match db1 with Some D => map fst (n_children (d_root D)) | None => [] end = [txt "etc"; txt "home"; txt "srv"; txt "tmp"; txt "usr"].
Proof. vm_compute. reflexivity. Qed.

(** What the theorems above ask of the sorting procedure is what sorting by the comparison of the code gives. *)
Theorem C34_comparison : forall q : list lspec -> list lspec,
  (forall l, Permutation l (q l) /\ StronglySorted (fun a b => compare_literal_spec a b <> Gt) (q l)) -> sorts q.
Proof.
  intros q H l. destruct (H l) as [P S]. split; [exact P|]. clear P. induction S as [|a m S IH F]; [apply SSorted_nil|]. apply SSorted_cons; [exact IH|].
  eapply Forall_impl; [|exact F]. intros b. apply compare_le.
Qed.
Print Assumptions C34_comparison.
Example C34_comparison_case : forall l, Permutation l (stable_sort l) /\ StronglySorted (fun a b => compare_literal_spec a b <> Gt) (stable_sort l).
Proof.
  intros l. destruct (stable_sorts l) as [P S]. split; [exact P|]. clear P. induction S as [|a m S IH F]; [apply SSorted_nil|]. apply SSorted_cons; [exact IH|].
  eapply Forall_impl; [|exact F]. intros b. apply compare_le.
Qed.

(** The flat reading leaves no choice if no literal applies. *)
Theorem C34_flat_unique : forall E l key kind r r', (forall s, In s l -> ~ lit_applies key kind s) -> Flat E l key kind r -> Flat E l key kind r' -> r = r'.
Proof. exact flat_unique. Qed.
Print Assumptions C34_flat_unique.

(** The full claim fails. An expression whose literal component ends in a repeated slash is only looked for below that
    component: /foo/?bar is not found for /foobar. *)
Theorem C34_refuted_stems : exists D s, init stable_sort None false true [] [] [line "/foo/?bar" 0 "x"] [] [] = Some D /\
  Flat mini (all_specs true [line "/foo/?bar" 0 "x"] [] []) (txt "/foobar") 0 (Some s) /\ lookup mini D (txt "/foobar") 0 = None.
Proof.
  eexists. exists (mkSpec (txt "/foo/?bar") 0 (txt "x") 0 1). split; [vm_compute; reflexivity|]. split; [|vm_compute; reflexivity].
  assert (NL : ~ literal (txt "/foo/?bar")) by (intros L; apply has_meta_literal in L; vm_compute in L; discriminate).
  apply (Flat_reg mini _ _ 0 [] (mkSpec (txt "/foo/?bar") 0 (txt "x") 0 1) []).
  - intros s [<-|[]] [_ L]. apply NL. eexists. exact L.
  - reflexivity.
  - split; [left; reflexivity|]. split; [exact NL|vm_compute; reflexivity].
  - intros s [].
Qed.
Print Assumptions C34_refuted_stems.

(** An older <<none>> for a deeper directory hides a newer expression that is kept at a shallower one. *)
Definition base_none := [line "/foo/.*" 0 "<<none>>"; line "/.*oo/bar" 0 "x"].
Theorem C34_refuted_none : exists D s, init stable_sort None false true [] [] base_none [] [] = Some D /\
  (forall z, In z (all_specs true base_none [] []) -> decided mini (sp_regex z) (txt "/foo/bar") /\ honest mini (sp_regex z) (txt "/foo/bar")) /\
  Flat mini (all_specs true base_none [] []) (txt "/foo/bar") 0 (Some s) /\ lookup mini D (txt "/foo/bar") 0 = None.
Proof.
  eexists. exists (mkSpec (txt "/.*oo/bar") 0 (txt "x") 0 2). split; [vm_compute; reflexivity|].
  assert (NL : forall z, In z (all_specs true base_none [] []) -> ~ literal (sp_regex z)).
  { intros z [<-|[<-|[]]] L; apply has_meta_literal in L; vm_compute in L; discriminate. }
  split; [|split; [|vm_compute; reflexivity]].
  - intros z I. apply (fine_specs (all_specs true base_none [] []) _ 0); [vm_compute; reflexivity|vm_compute; reflexivity|exact I|exact (NL z I)|left; reflexivity].
  - apply (Flat_reg mini _ _ 0 [mkSpec (txt "/foo/.*") 0 (txt "<<none>>") 0 1] (mkSpec (txt "/.*oo/bar") 0 (txt "x") 0 2) []).
    + intros s I [_ L]. apply (NL s I). eexists; exact L.
    + reflexivity.
    + split; [left; reflexivity|]. split; [apply NL; right; left; reflexivity|vm_compute; reflexivity].
    + intros s [].
Qed.
Print Assumptions C34_refuted_none.

(** With a part asked for (SELABEL_OPT_SUBSET "/etc", given to the tree as "etc"; process_line refuses parts of more than one
    component, C79_subset) an expression for paths outside that part is dropped, as intended. *)
Theorem C34_refuted_subset : exists D s, init stable_sort (Some (txt "etc")) false true [] [] [line "/etc/foo/.*" 0 "x"; line "/usr/.*" 0 "y"] [] [] = Some D /\
  Flat mini (all_specs true [line "/etc/foo/.*" 0 "x"; line "/usr/.*" 0 "y"] [] []) (txt "/usr/bar") 0 (Some s) /\ lookup mini D (txt "/usr/bar") 0 = None.
Proof.
  eexists. exists (mkSpec (txt "/usr/.*") 0 (txt "y") 0 2). split; [vm_compute; reflexivity|]. split; [|vm_compute; reflexivity].
  assert (NL : forall z, In z (all_specs true [line "/etc/foo/.*" 0 "x"; line "/usr/.*" 0 "y"] [] []) -> ~ literal (sp_regex z)).
  { intros z [<-|[<-|[]]] L; apply has_meta_literal in L; vm_compute in L; discriminate. }
  apply (Flat_reg mini _ _ 0 [mkSpec (txt "/etc/foo/.*") 0 (txt "x") 0 1] (mkSpec (txt "/usr/.*") 0 (txt "y") 0 2) []).
  - intros s I [_ L]. apply (NL s I). eexists; exact L.
  - reflexivity.
  - split; [left; reflexivity|]. split; [apply NL; right; left; reflexivity|vm_compute; reflexivity].
  - intros s [].
Qed.
Print Assumptions C34_refuted_subset.

(** A literal in the local file does not override the same literal in the base file: with a stable sort the base file wins. *)
Theorem C34_refuted_local : exists D f, init stable_sort None false false [] [] [line "/etc/motd" 0 "base_t"] [] [line "/etc/motd" 0 "local_t"] = Some D /\
  lookup mini D (txt "/etc/motd") 0 = Some f /\ sp_ctx (f_spec f) = txt "base_t".
Proof. eexists. eexists. split; [vm_compute; reflexivity|]. split; vm_compute; reflexivity. Qed.
Print Assumptions C34_refuted_local.

(** ** C35 *)
(** Only the components of the key, and whether it begins with a slash, matter. *)
Theorem C35_clean : forall E D key key' mode partial find_all, key <> [] -> key' <> [] -> components key = components key' -> absolute key = absolute key' ->
  lookup_all E D key mode partial find_all = lookup_all E D key' mode partial find_all.
Proof. intros E D key key' mode p fa A B C AB. apply lookup_canon; try assumption. unfold canon. rewrite C, AB. reflexivity. Qed.
Print Assumptions C35_clean.
Example C35_clean_case : components (txt "//etc///passwd//") = [txt "etc"; txt "passwd"] /\ components (txt "/etc/passwd") = [txt "etc"; txt "passwd"] /\
  absolute (txt "//etc///passwd//") = absolute (txt "/etc/passwd").
Proof. repeat split; vm_compute; reflexivity. Qed.

(** Cleaning gives the canonical form, which is left alone by cleaning. *)
Theorem C35_clean_idempotent : forall key, key <> [] -> exists k, clean_key key = Some k /\ canonical k /\ clean_key k = Some k /\
  components k = components key /\ absolute k = absolute key.
Proof.
  intros key NE. exists (canon key). split; [apply clean_canon, NE|]. split; [apply canon_canonical|].
  assert (NC : canon key <> []).
  { intros Z. destruct key as [|c t]; [congruence|]. unfold canon in Z. destruct (absolute (c :: t)) eqn:A; [discriminate|]. cbn [app] in Z.
    unfold absolute in A. apply N.eqb_neq in A. destruct (split_rel c t A) as (w & ws & S). unfold components in Z. rewrite S in Z. cbn [filter] in Z. destruct (filter _ ws); discriminate. }
  split; [rewrite (clean_canon _ NC); f_equal; apply canon_canonical|]. split; [apply canon_components|apply canon_absolute].
Qed.
Print Assumptions C35_clean_idempotent.

(** Looking up a key is looking up the path behind the first alias that covers it, with no further replacement. *)
Theorem C35_substitution : forall E D key k mode partial find_all, key <> [] -> no_nul key ->
  (forall src dst, In (src, dst) (d_subs D ++ d_dist D) -> src <> [] /\ dst <> [] /\ canonical dst /\ no_nul dst) ->
  Effective (d_subs D) (d_dist D) (canon key) k ->
  lookup_all E D key mode partial find_all = lookup_all E (mkData (d_root D) (d_num D) [] []) k mode partial find_all.
Proof. exact lookup_substituted. Qed.
Print Assumptions C35_substitution.
(** There is exactly one such path. *)
Theorem C35_effective : forall subs dist key, no_nul key -> (forall src dst, In (src, dst) subs -> no_nul dst) ->
  exists k, Effective subs dist key k /\ forall k', Effective subs dist key k' -> k' = k.
Proof.
  intros subs dist key NK ND. pose proof (effective_ok (mkData empty_node 0 subs dist) key NK ND) as A. cbn [d_subs d_dist] in A.
  eexists. split; [exact A|]. intros k' B. exact (effective_fun _ _ _ _ _ B A).
Qed.
Print Assumptions C35_effective.
(** An alias is never applied inside a component, and the replaced path ends like the key. *)
Theorem C35_whole_components : forall subs key k, Substituted subs key k -> exists src dst rest, In (src, dst) subs /\ key = (src ++ rest)%list /\
  (rest = [] \/ exists r, rest = 47 :: r) /\ (k = (dst ++ rest)%list \/ (dst = [47] /\ k = 47 :: tl rest)).
Proof.
  intros subs key k S. induction S as [src dst l key rest E R|src dst l key res NC S IH].
  - exists src, dst, rest. split; [left; reflexivity|]. split; [exact E|]. split; [exact R|]. destruct (list_eq_dec N.eq_dec dst [47]); [right|left]; auto.
  - destruct IH as (s & d & r & I & H). exists s, d, r. split; [right; exact I|exact H].
Qed.
Print Assumptions C35_whole_components.
Example C35_case : Effective subs1 dist1 (txt "/opt/etcetera") (txt "/opt/etcetera") /\ Effective subs1 dist1 (txt "/rootlink/usr/lib64/x") (txt "/usr/lib/x") /\
  Effective subs1 dist1 (txt "/opt/etc") (txt "/etc").
Proof.
  assert (H : forall key, no_nul key -> Effective subs1 dist1 key (sub_or (mkData empty_node 0 subs1 dist1) key)).
  { intros key NK. apply (effective_ok (mkData empty_node 0 subs1 dist1) key NK). intros a b I. apply (dst1 a b), in_app_iff. left; exact I. }
  split; [|split]; [exact (H (txt "/opt/etcetera") ltac:(vm_compute; intuition discriminate))|exact (H (txt "/rootlink/usr/lib64/x") ltac:(vm_compute; intuition discriminate))|
    exact (H (txt "/opt/etc") ltac:(vm_compute; intuition discriminate))].
Qed.

(** ** C36 *)
(** The best of the key and its aliases is returned, if the key itself matches or no alias matches only by an expression
    without a fixed prefix. The restriction is needed (C36_refuted). *)
Theorem C36_best_partial : forall E D key aliases mode,
  (lookup E D key mode <> None \/ forall a g, In a aliases -> lookup E D a mode = Some g -> f_plen g <> 0 \/ f_meta g = false) ->
  Best (map (fun a => lookup E D a mode) (key :: aliases)) (lookup_best_match E D key aliases mode).
Proof. exact best_ok. Qed.
Print Assumptions C36_best_partial.
Example C36_best_case : exists D f, db1 = Some D /\ lookup mini D (txt "/nowhere") 0 <> None /\
  lookup_best_match mini D (txt "/nowhere") [txt "/etc/hosts"; txt "/etc/x.confd"; txt "/srv/a"] 32768 = Some f /\ sp_ctx (f_spec f) = txt "conf_t" /\ f_plen f = 11.
Proof. eexists. eexists. split; [vm_compute; reflexivity|]. split; [vm_compute; discriminate|]. repeat split; vm_compute; reflexivity. Qed.
(** What is compared is the length of the fixed text an expression begins with. *)
Theorem C36_prefix : forall E qsort prefix validating baseonly subs dist base homedirs local D key mode f,
  sorts qsort -> short base -> short homedirs -> short local ->
  init qsort prefix validating baseonly subs dist base homedirs local = Some D -> lookup E D key mode = Some f ->
  fixed_prefix (sp_regex (f_spec f)) (f_plen f) /\ (f_meta f = false <-> literal (sp_regex (f_spec f))).
Proof.
  intros E qs prefix v bo subs dist base hd lc D key mode f Q SB SH SL I L.
  assert (NE : key <> []) by (intros ->; unfold lookup, lookup_all in L; rewrite clean_empty in L; destruct (d_num D =? 0); discriminate).
  pose proof (init_genuine E qs prefix v bo subs dist base hd lc D key mode false false Q SB SH SL I NE) as G.
  unfold lookup in L. destruct (lookup_all E D key mode false false) as [|g gs]; [discriminate|]. injection L as ->. apply Forall_inv in G.
  destruct (genuine_real _ _ _ _ _ _ _ G) as [R P]. split; [rewrite P; apply plen_fixed|]. destruct R as [_ _ _ RL RR]. destruct (f_meta f).
  - split; [discriminate|]. intros Z. destruct (proj1 (RR eq_refl) Z).
  - split; [|reflexivity]. intros _. destruct (RL eq_refl) as (t & T & _). exists t. exact T.
Qed.
Print Assumptions C36_prefix.
(** The claim as stated fails: the key does not match, an alias matches by an expression without fixed prefix, nothing is
    returned. *)
Theorem C36_refuted : exists D key alias, init stable_sort None false true [] [] [line ".*/b" 0 "x"] [] [] = Some D /\
  lookup mini D alias 0 <> None /\ lookup_best_match mini D key [alias] 0 = None.
Proof. eexists. exists (txt "/a"), (txt "/b"). split; [vm_compute; reflexivity|]. split; [vm_compute; discriminate|vm_compute; reflexivity]. Qed.
Print Assumptions C36_refuted.

(** ** C58 *)
(** If a partial match is reported there is a specification with a label such that the path is the beginning of its text, or
    the engine reports a partial match of it. Missing: the converse, see C58_refuted. *)
Theorem C58_sound_partial : forall E qsort prefix validating baseonly subs dist base homedirs local D key k,
  sorts qsort -> short base -> short homedirs -> short local ->
  init qsort prefix validating baseonly subs dist base homedirs local = Some D ->
  key <> [] -> no_nul key -> (forall src dst, In (src, dst) subs -> no_nul dst) ->
  Effective subs dist (canon key) k -> partial_match E D key = true ->
  exists f, Real E (all_specs baseonly base homedirs local) k 0 true f.
Proof.
  intros E qs prefix v bo subs dist base hd lc D key k Q SB SH SL I NE NK CD EF L.
  pose proof (init_genuine E qs prefix v bo subs dist base hd lc D key 0 true false Q SB SH SL I NE) as G.
  destruct (init_holds _ _ _ _ _ _ _ _ _ _ Q SB SH SL I) as (_ & _ & ES & ED & _). rewrite <- ES, <- ED in EF. rewrite <- ES in CD.
  rewrite (effective_self D (canon key) (canon_nul key NK) CD k EF) in G. unfold partial_match in L. destruct (lookup_all E D key 0 true false) as [|g gs]; [discriminate|].
  exists g. exact (proj1 (genuine_real _ _ _ _ _ _ _ (Forall_inv G))).
Qed.
Print Assumptions C58_sound_partial.
Example C58_case : match db1 with Some D => (partial_match mini D (txt "/etc/pas"), partial_match mini D (txt "/home/u")) | None => (false, false) end = (true, true).
Proof. vm_compute. reflexivity. Qed.
(** The converse fails: a specification for paths below /usr/bin does not make /usr a partial match, since it is kept at a
    deeper directory than is looked at; nor does a literal specification below a deeper directory. *)
Theorem C58_refuted : exists D D', init stable_sort None false true [] [] [line "/usr/bin/.*" 0 "x"] [] [] = Some D /\
  mini (txt "/usr/bin/.*") (txt "/usr") true = RxPartial /\ partial_match mini D (txt "/usr") = false /\
  init stable_sort None false true [] [] [line "/usr/bin/x/y" 0 "x"] [] [] = Some D' /\ partial_match mini D' (txt "/usr") = false.
Proof. eexists. eexists. repeat split; vm_compute; reflexivity. Qed.
Print Assumptions C58_refuted.
