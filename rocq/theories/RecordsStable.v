(** Proofs about the text files of records: what is read can be written. *)
From Coq Require Import Permutation.
From Verif Require Import Base MlsModel ContextModel ContextProofs LoginModel RecordsModel RecordsSpec RecordsProofs.

Definition no10 (l : list N) : Prop := ~ In 10 l.
Definition clean (s : pst) : Prop := match ps_cur s with Some m => no10 m | None => True end /\ Forall no10 (ps_rest s).
Definition solid_at (s : pst) : Prop := match ps_cur s with Some (c :: _) => solid c | Some [] => False | None => True end.

Lemma buffers_clean t : Forall no10 (buffers t).
Proof.
  induction t as [|c t IH]; cbn [buffers]; [constructor|]. destruct (c =? 10) eqn:E.
  - constructor; [|exact IH]. unfold no10. cbn. intuition discriminate.
  - destruct (buffers t) as [|b bs].
    + constructor; [|constructor]. unfold no10. cbn. lia.
    + inversion IH as [|? ? A B]; subst. constructor; [|exact B]. apply in_cons_not; [lia|exact A].
Qed.
Lemma skip_mem_clean m r : no10 m -> skip_mem m = Some r -> no10 r.
Proof.
  induction m as [|c m IH]; cbn [skip_mem]; [discriminate|]. intros A.
  destruct (c =? 0); [intros E; injection E as <-; exact A|]. destruct (isspace c); [|intros E; injection E as <-; exact A].
  apply IH. intros X. apply A. right. exact X.
Qed.
Lemma skip_mem_head m c t : skip_mem m = Some (c :: t) -> c <> 0 -> solid c.
Proof.
  induction m as [|x m IH]; cbn [skip_mem]; [discriminate|]. destruct (x =? 0) eqn:X0; [intros E; injection E as -> ->; lia|].
  destruct (isspace x) eqn:X1; [exact IH|]. intros E Z. injection E as -> ->. split; [exact Z|]. intros W. apply isspace_white in W. congruence.
Qed.
Lemma load_post bs s : Forall no10 bs -> load_line bs = POk tt s -> clean s /\ solid_at s.
Proof.
  intros F. induction F as [|b bs A F IH]; cbn [load_line].
  - intros E. injection E as <-. split; [split; [exact I|constructor]|exact I].
  - destruct (skip_mem b) as [[|c t]|] eqn:E; try discriminate. destruct ((c =? 0) || (c =? 35)) eqn:Z; [exact IH|].
    intros X. injection X as <-. apply orb_false_iff in Z. split; [split; [apply (skip_mem_clean b _ A E)|exact F]|]. apply (skip_mem_head b c t E). lia.
Qed.
Lemma skip_post s u s' : clean s -> parse_skip_space s = POk u s' -> clean s' /\ solid_at s'.
Proof.
  destruct u. intros [A B]. unfold parse_skip_space. destruct (ps_cur s) as [m|] eqn:C; [|apply load_post; exact B].
  destruct (skip_mem m) as [[|c t]|] eqn:E; try discriminate. destruct (c =? 0) eqn:Z; [apply load_post; exact B|].
  intros X. injection X as <-. split; [split; [apply (skip_mem_clean m _ A E)|exact B]|]. apply (skip_mem_head m c t E). lia.
Qed.
Lemma begin_post s u s' : clean s -> parse_begin s = POk u s' -> clean s' /\ solid_at s'.
Proof.
  intros A. unfold parse_begin. destruct (parse_skip_space s) as [v s1| | | |] eqn:E; try discriminate. cbn [pbind].
  destruct (ps_cur s1); [|discriminate]. intros X. injection X as _ <-. apply (skip_post s v); assumption.
Qed.
Lemma space_post s u s' : clean s -> parse_assert_space s = POk u s' -> clean s' /\ solid_at s'.
Proof.
  intros A. unfold parse_assert_space. destruct (ps_cur s) as [[|c t]|]; try discriminate. destruct (_ && _); [discriminate|]. apply skip_post. exact A.
Qed.
Lemma ch_post c s u s' : clean s -> parse_assert_ch c s = POk u s' -> clean s'.
Proof.
  intros [A B]. unfold parse_assert_ch. destruct (ps_cur s) as [[|x t]|]; try discriminate. destruct (negb _); [discriminate|]. intros E. injection E as _ <-.
  split; [intros X; apply A; right; exact X|exact B].
Qed.
Lemma optch_post c s u s' : clean s -> parse_optional_ch c s = POk u s' -> clean s' /\ (solid_at s -> u = false -> solid_at s').
Proof.
  intros [A B]. unfold parse_optional_ch. destruct (ps_cur s) as [[|x t]|] eqn:C; try discriminate.
  - destruct (negb _); intros E; injection E as <- <-.
    + split; [split; [rewrite C; exact A|exact B]|tauto].
    + split; [|discriminate]. split; [intros X; apply A; right; exact X|exact B].
  - intros E. injection E as <- <-. split; [split; [rewrite C; exact I|exact B]|tauto].
Qed.
Lemma prefix_clean w : forall m r, no10 m -> prefix_mem w m = Some (Some r) -> no10 r.
Proof.
  induction w as [|a w IH]; intros m r A; cbn [prefix_mem].
  - destruct m; intros E; injection E as <-; exact A.
  - destruct m as [|c m]; [discriminate|]. destruct (a =? c); [|discriminate]. apply IH. intros X. apply A. right. exact X.
Qed.
Lemma str_post w s u s' : clean s -> parse_assert_str w s = POk u s' -> clean s'.
Proof.
  intros [A B]. unfold parse_assert_str. destruct (ps_cur s) as [m|]; [|discriminate]. destruct (prefix_mem w m) as [[r|]|] eqn:E; try discriminate.
  intros X. injection X as _ <-. split; [apply (prefix_clean w m r A E)|exact B].
Qed.
Lemma optstr_post w s u s' : clean s -> parse_optional_str w s = POk u s' -> clean s' /\ (solid_at s -> u = false -> solid_at s').
Proof.
  intros [A B]. unfold parse_optional_str. destruct (ps_cur s) as [m|] eqn:C; [|discriminate]. destruct (prefix_mem w m) as [[r|]|] eqn:E; try discriminate;
  intros X; injection X as <- <-.
  - split; [split; [apply (prefix_clean w m r A E)|exact B]|discriminate].
  - split; [split; [rewrite C; exact A|exact B]|tauto].
Qed.
Lemma take_inv d a m : forall w r, take_mem d a m = Some (w, r) -> m = w ++ r /\ Forall (inside d a) w.
Proof.
  induction m as [|c m IH]; intros w r; cbn [take_mem]; [discriminate|].
  destruct (negb (c =? 0) && (a || negb (isspace c)) && negb (c =? d)) eqn:E.
  - destruct (take_mem d a m) as [[w' r']|]; [|discriminate]. intros X. injection X as <- <-. destruct (IH w' r' eq_refl) as [-> F].
    split; [reflexivity|]. constructor; [|exact F]. apply andb_true_iff in E. destruct E as [E E3]. apply andb_true_iff in E. destruct E as [E1 E2].
    split; [lia|]. split; [lia|]. intros -> W. apply isspace_white in W. rewrite W in E2. discriminate.
  - intros X. injection X as <- <-. split; [reflexivity|constructor].
Qed.
Lemma fetch_post d a s w s' : clean s -> parse_fetch_string d a s = POk w s' ->
  clean s' /\ no10 w /\ Forall (inside d a) w /\ w <> [] /\ (solid_at s -> exists c t, w = c :: t /\ solid c).
Proof.
  intros [A B]. unfold parse_fetch_string, solid_at. destruct (ps_cur s) as [m|]; [|discriminate]. destruct (take_mem d a m) as [[w' r]|] eqn:E; [|discriminate].
  destruct (take_inv d a m w' r E) as [-> F]. destruct w' as [|c t]; [discriminate|]. intros X. injection X as <- <-.
  split; [split; [intros X; apply A; apply in_app_iff; right; exact X|exact B]|].
  split; [intros X; apply A; apply in_app_iff; left; exact X|]. split; [exact F|]. split; [discriminate|]. cbn [app]. intros S. exists c, t. split; [reflexivity|exact S].
Qed.
Lemma fetch_word d s w s' : clean s -> parse_fetch_string d false s = POk w s' -> clean s' /\ word w /\ ~ In d w.
Proof.
  intros A E. destruct (fetch_post d false s w s' A E) as (B & _ & F & Ne & _). split; [exact B|]. split.
  - split; [exact Ne|]. revert F. apply Forall_impl. intros c (X & _ & Y). split; [exact X|apply Y; reflexivity].
  - intros X. pose proof (proj1 (Forall_forall _ _) F d X) as (_ & Y & _). contradiction.
Qed.
Lemma fetch_phrase d s w s' : clean s -> solid_at s -> parse_fetch_string d true s = POk w s' -> clean s' /\ phrase w /\ ~ In d w.
Proof.
  intros A S E. destruct (fetch_post d true s w s' A E) as (B & N10 & F & Ne & H). split; [exact B|]. split.
  - split; [|destruct (H S) as (c & t & -> & X); exists c, t; split; [reflexivity|apply X]]. apply Forall_forall. intros c Hc.
    pose proof (proj1 (Forall_forall _ _) F c Hc) as (X & _). split; [exact X|]. intros ->. contradiction.
  - intros X. pose proof (proj1 (Forall_forall _ _) F d X) as (_ & Y & _). contradiction.
Qed.
Lemma long_range n : (- 2 ^ 31 <= long_to_int n < 2 ^ 31)%Z.
Proof.
  unfold long_to_int. generalize (Z.of_N (N.min n (2 ^ 63 - 1))). intros l. change (2 ^ 31)%Z with 2147483648%Z. change (2 ^ 32)%Z with 4294967296%Z.
  pose proof (Z.mod_pos_bound l 4294967296 ltac:(lia)) as B. revert B. generalize (l mod 4294967296)%Z. intros u B. destruct (u <? 2147483648)%Z eqn:E; lia.
Qed.
Lemma int_post d s z s' : clean s -> parse_fetch_int d s = POk z s' -> clean s' /\ (- 2 ^ 31 <= z < 2 ^ 31)%Z.
Proof.
  intros A. unfold parse_fetch_int. destruct (parse_fetch_string d false s) as [w s1| | | |] eqn:E; try discriminate. cbn [pbind].
  destruct (fetch_word d s w s1 A E) as [B _]. destruct w as [|c w]; [discriminate|]. destruct (isdigit c); [|discriminate].
  destruct (digits_value 0 (c :: w)) as [n|]; [|discriminate]. intros X. injection X as <- <-. split; [exact B|apply long_range].
Qed.
Lemma context_back w c : word w -> sepol_context_from_string w = ROk (Some c) -> context_ok c.
Proof.
  intros [_ G] H. apply rec_from_inv in H. destruct H as (-> & U & R & T). unfold ContextSpec.context_text in G. unfold graphic in G.
  apply Forall_app in G. destruct G as [G1 G]. inversion G as [|? ? _ G']; subst. apply Forall_app in G'. destruct G' as [G2 G']. inversion G' as [|? ? _ G3]; subst.
  apply Forall_app in G3. destruct G3 as [G3 G4]. unfold context_ok, graphic.
  split; [exact G1|]. split; [exact G2|]. split; [exact G3|]. split; [exact U|]. split; [exact R|]. split; [exact T|]. destruct (cr_mls c); [|exact I]. inversion G4; assumption.
Qed.
Lemma context_post s c s' : clean s -> parse_context_some s = POk c s' -> clean s' /\ context_ok c.
Proof.
  intros A. unfold parse_context_some, parse_context. destruct (parse_fetch_string 32 false s) as [w s1| | | |] eqn:E; try discriminate. cbn [pbind].
  destruct (fetch_word 32 s w s1 A E) as (B & W & _). destruct (sepol_context_from_string w) as [[c'|]| |] eqn:F; try discriminate.
  cbn [pbind]. intros X. injection X as <- <-. split; [exact B|]. apply (context_back w c' W F).
Qed.

(** A file of records: each record read satisfies [post]. *)
Lemma read_post {A} (parse : pst -> pres A) (post : A -> Prop) :
  (forall s r s', clean s -> parse s = POk r s' -> clean s' /\ post r) ->
  forall text rs s, read_file parse text = POk rs s -> Forall post rs.
Proof.
  intros Hp text rs s. unfold read_file. assert (C : clean (mkPS None (buffers text))) by (split; [exact I|apply buffers_clean]).
  revert C. generalize (mkPS None (buffers text)). generalize (S (length text)). intros fuel. revert rs s.
  induction fuel as [|fuel IH]; intros rs s s0 C; cbn [read_loop]; [discriminate|].
  destruct (parse s0) as [r s1| | | |] eqn:E; try discriminate.
  - destruct (Hp s0 r s1 C E) as [C1 P]. destruct (read_loop parse fuel s1) as [l s2| | | |] eqn:E2; try discriminate. cbn [pbind].
    intros X. injection X as <- _. constructor; [exact P|]. apply (IH l s2 s1 C1 E2).
  - intros X. injection X as <- _. constructor.
Qed.

Ltac one :=
  match goal with
  | H : pbind ?x _ = POk _ _ |- _ => let E := fresh "E" in destruct x eqn:E; try discriminate H; cbn [pbind] in H
  end.
Ltac post :=
  match goal with
  | C : clean ?s, E : parse_skip_space ?s = POk _ _ |- _ => apply (skip_post _ _ _ C) in E; destruct E
  | C : clean ?s, E : parse_begin ?s = POk _ _ |- _ => apply (begin_post _ _ _ C) in E; destruct E
  | C : clean ?s, E : parse_assert_space ?s = POk _ _ |- _ => apply (space_post _ _ _ C) in E; destruct E
  | C : clean ?s, E : parse_assert_ch _ ?s = POk _ _ |- _ => apply (ch_post _ _ _ _ C) in E
  | C : clean ?s, E : parse_assert_str _ ?s = POk _ _ |- _ => apply (str_post _ _ _ _ C) in E
  | C : clean ?s, E : parse_optional_ch _ ?s = POk _ _ |- _ => apply (optch_post _ _ _ _ C) in E; destruct E
  | C : clean ?s, E : parse_optional_str _ ?s = POk _ _ |- _ => apply (optstr_post _ _ _ _ C) in E; destruct E
  | C : clean ?s, E : parse_fetch_string _ false ?s = POk _ _ |- _ => apply (fetch_word _ _ _ _ C) in E; destruct E as (? & ? & ?)
  | C : clean ?s, S : solid_at ?s, E : parse_fetch_string _ true ?s = POk _ _ |- _ => apply (fetch_phrase _ _ _ _ C S) in E; destruct E as (? & ? & ?)
  | C : clean ?s, E : parse_fetch_int _ ?s = POk _ _ |- _ => apply (int_post _ _ _ _ C) in E; destruct E
  | C : clean ?s, E : parse_context_some ?s = POk _ _ |- _ => apply (context_post _ _ _ C) in E; destruct E
  end.

Lemma seuser_post s r s' : clean s -> seuser_parse s = POk r s' -> clean s' /\ (~ hash (se_name r) -> seuser_ok r).
Proof.
  unfold seuser_parse. intros C H. repeat (one; post). destruct a6; cbn [negb] in H.
  - repeat (one; post). injection H as <- <-. split; [assumption|]. intros X. unfold seuser_ok. cbn [se_name se_sename se_mls] in *. tauto.
  - injection H as <- <-. split; [assumption|]. intros X. unfold seuser_ok. cbn [se_name se_sename se_mls] in *. tauto.
Qed.
Lemma bool_value_post s v s' : clean s -> bool_value_parse s = POk v s' -> clean s'.
Proof.
  unfold bool_value_parse. intros C H. repeat (one; post; match goal with b : bool |- _ => destruct b; [injection H as _ <-; assumption|] end).
  post. assumption.
Qed.
Lemma bool_post s r s' : clean s -> bool_parse s = POk r s' -> clean s' /\ (~ hash (bo_name r) -> bool_ok r).
Proof.
  unfold bool_parse. intros C H. do 5 (one; post). one. match goal with E : bool_value_parse _ = _ |- _ => apply bool_value_post in E; [|assumption] end. destruct (negb _) eqn:V in H; [discriminate|]. one. post.
  injection H as <- <-. split; [assumption|]. intros X. unfold bool_ok. cbn [bo_name bo_value] in *. split; [assumption|]. split; [assumption|]. split; [assumption|].
  apply negb_false_iff, orb_true_iff in V. lia.
Qed.
Lemma userx_post s r s' : clean s -> userx_parse s = POk r s' -> clean s' /\ userx_ok r.
Proof.
  unfold userx_parse. intros C H. repeat (one; post). injection H as <- <-. split; [assumption|]. unfold userx_ok. cbn [ux_name ux_prefix]. tauto.
Qed.
Definition nonneg (r : portrec) : Prop := (0 <= po_low r)%Z /\ (0 <= po_high r)%Z.
Lemma proto_small w p : proto_parse w = Some p -> p < 4.
Proof. unfold proto_parse. repeat (destruct (same_word _ w); [intros E; injection E as <-; lia|]). discriminate. Qed.
Lemma range_post low s r s' : clean s -> (- 2 ^ 31 <= low < 2 ^ 31)%Z -> port_range_parse low s = POk r s' ->
  clean s' /\ fst r = low /\ (- 2 ^ 31 <= snd r < 2 ^ 31)%Z.
Proof.
  unfold port_range_parse. intros C L H. destruct (ps_cur s) as [[|c t]|]; try discriminate. one.
  assert (C0 : clean s0).
  { destruct (negb (c =? 0) && negb (c =? 45)); [post; assumption|]. injection E as _ <-. exact C. }
  one. post. destruct a0.
  - repeat (one; post). injection H as <- <-. cbn [fst snd]. auto.
  - injection H as <- <-. cbn [fst snd]. auto.
Qed.
Lemma port_post s r s' : clean s -> port_parse s = POk r s' -> clean s' /\ (nonneg r -> (po_low r = po_high r -> ~ dash (cr_user (po_con r))) -> port_ok r).
Proof.
  unfold port_parse. intros C H. do 4 (one; post). destruct (proto_parse a2) as [p|] eqn:P; [|discriminate]. do 2 (one; post). one.
  match goal with E : port_range_parse _ _ = _ |- _ => apply range_post in E; [|assumption|assumption]; destruct E as (? & R1 & R2) end. do 2 (one; post). injection H as <- <-. split; [assumption|].
  intros [N1 N2] D. unfold port_ok. cbn [po_proto po_low po_high po_con] in *. apply proto_small in P. split; [assumption|]. rewrite R1 in *. split; [lia|]. split; [lia|]. split; assumption.
Qed.
Lemma iface_post s r s' : clean s -> iface_parse s = POk r s' -> clean s' /\ iface_ok r.
Proof.
  unfold iface_parse. intros C H. repeat (one; post). injection H as <- <-. split; [assumption|]. unfold iface_ok. cbn [if_name if_con if_msg]. tauto.
Qed.
Lemma type_small w t : type_parse w = Some t -> t < 8.
Proof. unfold type_parse. repeat (destruct (same_word _ w); [intros E; injection E as <-; lia|]). discriminate. Qed.
Lemma con_back w o : word w -> sepol_context_from_string w = ROk o -> con_ok o.
Proof. intros W H. destruct o as [c|]; [|exact I]. apply (context_back w c W H). Qed.
Lemma fcontext_post s r s' : clean s -> fcontext_parse s = POk r s' -> clean s' /\ (~ hash (fc_expr r) -> fcontext_ok r).
Proof.
  unfold fcontext_parse. intros C H. do 4 (one; post). destruct (type_parse a2) as [t|] eqn:T.
  - do 2 (one; post). destruct (sepol_context_from_string a4) as [o| |] eqn:O; try discriminate. one. post. injection H as <- <-. split; [assumption|].
    intros X. unfold fcontext_ok. cbn [fc_expr fc_type fc_con] in *. split; [assumption|]. split; [assumption|]. split; [apply (type_small _ _ T)|].
    refine (con_back a4 o _ O). assumption.
  - destruct (sepol_context_from_string a2) as [o| |] eqn:O; try discriminate. one. post. injection H as <- <-. split; [assumption|].
    intros X. unfold fcontext_ok. cbn [fc_expr fc_type fc_con] in *. split; [assumption|]. split; [assumption|]. split; [lia|].
    refine (con_back a2 o _ O). assumption.
Qed.

(** ** SELinux users *)
Lemma role_inv m : forall w r, role_mem m = Some (w, r) -> m = w ++ r /\ graphic w /\ ~ In 59 w /\ ~ In 125 w.
Proof.
  induction m as [|c m IH]; intros w r; cbn [role_mem]; [discriminate|].
  destruct ((c =? 0) || (c =? 59) || (c =? 125) || isspace c) eqn:E.
  - intros X. injection X as <- <-. split; [reflexivity|]. split; [constructor|]. split; intros [].
  - destruct (role_mem m) as [[w' r']|]; [|discriminate]. intros X. injection X as <- <-. destruct (IH w' r' eq_refl) as (-> & G & A & B).
    repeat (apply orb_false_iff in E; destruct E as [E ?]). split; [reflexivity|]. split; [|split; apply in_cons_not; try assumption; lia].
    constructor; [|exact G]. split; [lia|]. intros W. apply isspace_white in W. congruence.
Qed.
Lemma add_role_post roles x : NoDup roles -> NoDup (add_role roles x) /\ (forall y, In y (add_role roles x) <-> In y roles \/ y = x).
Proof.
  intros ND. unfold add_role. destruct (existsb (str_eqb x) roles) eqn:E.
  - apply existsb_exists in E. destruct E as (y & Y & E). apply str_eqb_eq in E. subst y. split; [exact ND|]. intros y. split; [tauto|]. intros [H| ->]; assumption.
  - assert (Nx : ~ In x roles). { intros X. assert (T : existsb (str_eqb x) roles = true) by (apply existsb_exists; exists x; split; [exact X|apply str_eqb_eq; reflexivity]). congruence. }
    split.
    + apply (Permutation_NoDup (l := x :: roles)); [apply Permutation_cons_append|]. constructor; assumption.
    + intros y. rewrite in_app_iff. cbn. intuition.
Qed.
Definition role_head (s : pst) : Prop := match ps_cur s with Some (c :: _) => solid c /\ c <> 59 /\ c <> 125 | Some [] => False | None => ps_rest s = [] end.
Definition roles_good (l : list (list N)) : Prop := l = [[]] \/ (l <> [] /\ NoDup l /\ Forall role_ok l).
Lemma add_role_good roles w : NoDup roles -> Forall role_ok roles -> role_ok w -> roles_good (add_role roles w) /\ NoDup (add_role roles w) /\ Forall role_ok (add_role roles w).
Proof.
  intros ND F W. destruct (add_role_post roles w ND) as [ND' I']. assert (F' : Forall role_ok (add_role roles w)).
  { apply Forall_forall. intros y Y. apply I' in Y. destruct Y as [Y| ->]; [|exact W]. apply (proj1 (Forall_forall _ _) F y Y). }
  split; [|split; assumption]. right. split; [|split; assumption]. intros X. assert (Y : In w (add_role roles w)) by (apply I'; right; reflexivity). rewrite X in Y. destruct Y.
Qed.
Lemma optch_not c s s' : parse_optional_ch c s = POk false s' -> s' = s /\ match ps_cur s with Some (x :: _) => x <> c | _ => True end.
Proof.
  unfold parse_optional_ch. destruct (ps_cur s) as [[|x t]|]; try discriminate; [|intros E; injection E as <-; auto].
  destruct (negb (x =? c)) eqn:E; [|discriminate]. intros X. injection X as <-. split; [reflexivity|]. lia.
Qed.
Lemma load_none bs s : load_line bs = POk tt s -> ps_cur s = None -> ps_rest s = [].
Proof.
  induction bs as [|b bs IH]; cbn [load_line].
  - intros E. injection E as <-. reflexivity.
  - destruct (skip_mem b) as [[|c t]|]; try discriminate. destruct (_ || _); [exact IH|]. intros E. injection E as <-. discriminate.
Qed.
Lemma skip_none s u s' : parse_skip_space s = POk u s' -> ps_cur s' = None -> ps_rest s' = [].
Proof.
  destruct u. unfold parse_skip_space. destruct (ps_cur s) as [m|]; [|apply load_none].
  destruct (skip_mem m) as [[|c t]|]; try discriminate. destruct (c =? 0); [apply load_none|]. intros E. injection E as <-. discriminate.
Qed.
Lemma roles_post fuel : forall islist roles s r s', clean s -> NoDup roles -> Forall role_ok roles -> roles = [] \/ role_head s ->
  roles_parse fuel islist roles s = POk r s' -> clean s' /\ roles_good (fst r).
Proof.
  induction fuel as [|fuel IH]; intros islist roles s r s' C ND F Hd; cbn [roles_parse]; [discriminate|]. intros H.
  destruct (parse_skip_space s) as [u s0| | | |] eqn:Sk; try discriminate. cbn [pbind] in H.
  destruct (skip_post s u s0 C Sk) as [C0 S0].
  unfold parse_assert_noeof in H. destruct (ps_cur s0) as [m|] eqn:Cu0; [|discriminate]. cbn [pbind] in H. rewrite Cu0 in H.
  assert (Hd0 : roles = [] \/ exists c t, m = c :: t /\ solid c /\ c <> 59 /\ c <> 125).
  { destruct Hd as [Hd|Hd]; [left; exact Hd|]. right. unfold role_head in Hd. destruct s as [[[|c t]|] re]; cbn [ps_cur ps_rest] in Hd; [destruct Hd| |].
    - change (mkPS (Some (c :: t)) re) with (st (c :: t) re) in Sk. rewrite skip_solid in Sk by apply Hd. injection Sk as _ <-. cbn [ps_cur st] in Cu0. injection Cu0 as <-. exists c, t. split; [reflexivity|exact Hd].
    - subst re. cbn in Sk. injection Sk as _ <-. discriminate. }
  destruct (role_mem m) as [[w [|delim rest]]|] eqn:R; try discriminate. destruct (role_inv m w _ R) as (Em & G & A59 & A125).
  assert (C1 : clean (mkPS (Some rest) (ps_rest s0))).
  { destruct C0 as [C0 C0']. rewrite Cu0 in C0. split; [|exact C0']. cbn [ps_cur]. intros X. apply C0. rewrite Em. apply in_app_iff. right. right. exact X. }
  cbv zeta in H. destruct w as [|x w].
  - (* an empty name: only the first, and the loop ends *)
    assert (Sd : solid delim). { unfold solid_at in S0. rewrite Cu0, Em in S0. exact S0. }
    assert (Er : roles = []). { destruct Hd0 as [Hd0|(c & t & E' & Sc & Nc1 & Nc2)]; [exact Hd0|]. exfalso. cbn [app] in Em. rewrite E' in Em. injection Em as -> ->. subst m. cbn [role_mem] in R.
      destruct Sc as [Z W]. assert (Q : (delim =? 0) || (delim =? 59) || (delim =? 125) || isspace delim = false) by (rewrite (isspace_not delim W); lia). rewrite Q in R.
      destruct (role_mem rest) as [[? ?]|]; discriminate. }
    subst roles. destruct Sd as [Z W]. rewrite (isspace_not delim W) in H. assert (Z' : (delim =? 0) = false) by lia. rewrite Z' in H. cbn [negb andb] in H.
    destruct (islist && (delim =? 125)); [injection H as <- <-; split; [exact C1|left; reflexivity]|].
    destruct (negb islist && (delim =? 59)); [injection H as <- <-; split; [exact C1|left; reflexivity]|discriminate].
  - assert (Rw : role_ok (x :: w)) by (split; [split; [discriminate|exact G]|split; assumption]).
    destruct (add_role_good roles (x :: w) ND F Rw) as (Gd & ND' & F').
    destruct (negb (delim =? 0) && negb (isspace delim)).
    + destruct (islist && (delim =? 125)); [injection H as <- <-; split; [exact C1|exact Gd]|].
      destruct (negb islist && (delim =? 59)); [injection H as <- <-; split; [exact C1|exact Gd]|discriminate].
    + destruct (parse_skip_space (mkPS (Some rest) (ps_rest s0))) as [u2 s2| | | |] eqn:Sk2; try discriminate. cbn [pbind] in H.
      destruct (skip_post _ u2 s2 C1 Sk2) as [C2 S2]. pose proof (skip_none _ _ _ Sk2) as Nn.
      destruct (parse_optional_ch 59 s2) as [b s3| | | |] eqn:O1; try discriminate. cbn [pbind] in H. destruct (optch_post _ _ _ _ C2 O1) as [C3 _].
      destruct b; [injection H as <- <-; split; [exact C3|exact Gd]|]. destruct (optch_not _ _ _ O1) as [-> N59].
      destruct (parse_optional_ch 125 s2) as [b s4| | | |] eqn:O2; try discriminate. cbn [pbind] in H. destruct (optch_post _ _ _ _ C2 O2) as [C4 _].
      destruct b; [injection H as <- <-; split; [exact C4|exact Gd]|]. destruct (optch_not _ _ _ O2) as [-> N125].
      destruct islist; [|injection H as <- <-; split; [exact C2|exact Gd]].
      apply (IH true (add_role roles (x :: w)) s2 r s' C2 ND' F'); [|exact H]. right. unfold role_head, solid_at in *. destruct (ps_cur s2) as [[|c t]|]; [exact S2|auto|apply Nn; reflexivity].
Qed.
Lemma mls_post s v s' : clean s -> user_mls_parse s = POk v s' -> clean s' /\ match v with Some (l, g) => word l /\ phrase g /\ ~ In 59 g | None => True end.
Proof.
  unfold user_mls_parse. intros C H. do 2 (one; post). destruct a0; cbn [negb] in H.
  - one. match goal with X : pbind _ _ = POk _ _ |- _ => lazymatch type of X with _ = POk v _ => fail | _ => rename X into E end end.
    repeat (match type of E with pbind ?x _ = _ => let Q := fresh "Q" in destruct x eqn:Q; try discriminate E; cbn [pbind] in E; post end).
    injection E as <- <-. repeat (one; post). injection H as <- <-. split; [assumption|]. tauto.
  - cbn [pbind] in H. repeat (one; post). injection H as <- <-. split; [assumption|exact I].
Qed.
Lemma user_post s r s' : clean s -> user_parse s = POk r s' -> clean s' /\ user_ok r.
Proof.
  unfold user_parse. intros C H. do 8 (one; post). one. 
  match goal with E : roles_parse _ _ _ _ = _ |- _ => apply roles_post in E; [|assumption|constructor|constructor|left; reflexivity]; destruct E as [? G] end.
  destruct a7 as [roles e]. cbn [fst snd] in *. destruct e.
  - injection H as <- <-. split; [assumption|]. unfold user_ok. cbn [us_name us_level us_range us_roles]. split; [assumption|]. split; [exact G|exact I].
  - one. match goal with E : user_mls_parse _ = _ |- _ => apply mls_post in E; [|assumption]; destruct E as [? M] end.
    injection H as <- <-. split; [assumption|]. unfold user_ok. cbn [us_name us_level us_range us_roles]. split; [assumption|]. split; [exact G|].
    match goal with o : option (list N * list N) |- _ => destruct o as [[l g]|] end; cbn [option_map fst snd]; assumption.
Qed.
