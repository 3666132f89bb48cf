(** Proofs about file name transitions: histories, expansion and the two formats. *)
From Coq Require Import Permutation Sorted.
From Verif Require Import Base EbitmapModel EbitmapSpec EbitmapProofs AvtabModel HashtabModel HashtabSpec HashtabProofs AssertModel AssertProofs CodecModel CodecSpec CodecProofs FtransModel FtransSpec FtransProofs.

(** ** Histories *)
Lemma init_inv : Inv ft_init [].
Proof. split; [exact init_rep|]. split; [constructor|]. split; [reflexivity|cbn [length]; lia]. Qed.
Lemma consistent_same l l' : (forall x, In x l <-> In x l') -> consistent l -> consistent l'.
Proof. intros H C a b A B. apply H in A, B. apply C; assumption. Qed.

Lemma insert_all_spec rest : forall t l seen, Inv t l -> (forall x, In x (rules_of l) <-> In x seen) -> consistent (seen ++ rest) ->
  Forall (fun r => 1 <= f_src r <= 4294967232) rest -> N.of_nat (length l) + N.of_nat (length rest) < 4294967296 ->
  exists t' l', insert_all t rest = (t', answers seen rest) /\ Inv t' l' /\ (forall x, In x (rules_of l') <-> In x seen \/ In x rest) /\
    (forall k o, pair_in l' k o -> pair_in l k o \/ exists r, In r rest /\ f_key r = k /\ f_new r = o).
Proof.
  induction rest as [|r rest IH]; intros t l seen I S C F B; cbn [insert_all answers].
  - exists t, l. split; [reflexivity|]. split; [exact I|]. split; [intros x; rewrite S; cbn; tauto|auto].
  - apply Forall_cons_iff in F as [F1 F]. cbn [length] in B. destruct (insert_spec t l r I F1) as [(HL & _)|[(o & -> & X)|(t1 & l1 & -> & I1 & L1 & R1 & NX & PR & _)]]; [lia| |].
    + assert (o = f_new r) as ->.
      { destruct (N.eq_dec o (f_new r)) as [E|E]; [exact E|]. exfalso. apply (C (mkRule (f_src r) (f_key r) o) r).
        - apply in_app_iff. left. apply S, X.
        - apply in_app_iff. right. left. reflexivity.
        - unfold conflict. cbn [f_src f_key f_new]. auto. }
      assert (RS : In r seen) by (apply S; destruct r; exact X). destruct (IH t l (r :: seen) I) as (t' & l' & -> & I' & R' & P').
      * intros x. rewrite S. cbn. intuition congruence.
      * apply (consistent_same (seen ++ r :: rest)); [|exact C]. intros x. cbn [app In]. rewrite !in_app_iff. cbn [In]. tauto.
      * exact F.
      * lia.
      * exists t', l'. destruct (in_dec rule_eq_dec r seen) as [_|NI]; [|contradiction]. split; [reflexivity|]. split; [exact I'|]. split; [intros x; rewrite R'; cbn; tauto|].
        intros k o2 H. destruct (P' k o2 H) as [H1|(r2 & H1 & H2)]; [auto|right; exists r2; split; [right; exact H1|exact H2]].
    + destruct (IH t1 l1 (r :: seen) I1) as (t' & l' & -> & I' & R' & P').
      * intros x. rewrite R1, S. cbn. intuition congruence.
      * apply (consistent_same (seen ++ r :: rest)); [|exact C]. intros x. cbn [app In]. rewrite !in_app_iff. cbn [In]. tauto.
      * exact F.
      * lia.
      * exists t', l'. destruct (in_dec rule_eq_dec r seen) as [IN|_]; [exfalso; apply NX, S, IN|]. split; [reflexivity|]. split; [exact I'|]. split; [intros x; rewrite R'; cbn; tauto|].
        intros k o2 H. destruct (P' k o2 H) as [H1|(r2 & H1 & H2)]; [|right; exists r2; split; [right; exact H1|exact H2]].
        destruct (PR k o2 H1) as [H2|[-> ->]]; [auto|right; exists r; split; [left; reflexivity|auto]].
Qed.
Lemma inv_count t l U : Inv t l -> NoDup U -> (forall x, has t x <-> In x U) -> ft_count t = N.of_nat (length U) mod 4294967296.
Proof.
  intros I ND H. pose proof I as (R & F & C & _). rewrite C. unfold wrap32. change W32 with 4294967296. f_equal. f_equal. rewrite <- rules_len. apply Permutation_length, NoDup_Permutation; [apply rules_nodup; [exact F|apply R]|exact ND|].
  intros x. rewrite <- (has_in t l x I). apply H.
Qed.
Lemma inv_rules t l : Inv t l -> NoDup (rules_of l).
Proof. intros (R & F & _). apply rules_nodup; [exact F|apply R]. Qed.

(** ** Expansion *)
Fixpoint helper_run (t : ftable) (l : list rule) : option ftable :=
  match l with [] => Some t | r :: l' => match expand_helper t (f_src r) (f_key r) (f_new r) with Some t' => helper_run t' l' | None => None end end.
Definition flat_rule (r : frule) : list rule := map (fun p : N * N => mkRule (fst p + 1) (mkFK (snd p + 1) (fr_tclass r) (fr_name r)) (fr_otype r)) (rule_pairs r).
Lemma helper_app a b t : helper_run t (a ++ b) = match helper_run t a with Some t' => helper_run t' b | None => None end.
Proof. revert t. induction a as [|x a IH]; intros t; cbn [app helper_run]; [reflexivity|]. destruct (expand_helper t (f_src x) (f_key x) (f_new x)); [apply IH|reflexivity]. Qed.
Lemma expand_pairs_run r l t : expand_pairs r l t = helper_run t (map (fun p : N * N => mkRule (fst p + 1) (mkFK (snd p + 1) (fr_tclass r) (fr_name r)) (fr_otype r)) l).
Proof.
  revert t. induction l as [|[i j] l IH]; intros t; cbn [expand_pairs map helper_run fst snd f_src f_key f_new]; [reflexivity|].
  destruct (expand_helper t (i + 1) (mkFK (j + 1) (fr_tclass r) (fr_name r)) (fr_otype r)); [apply IH|reflexivity].
Qed.
Lemma expand_run l t : expand_filename_trans l t = helper_run t (flat_map flat_rule l).
Proof.
  revert t. induction l as [|r l IH]; intros t; cbn [expand_filename_trans flat_map helper_run]; [reflexivity|]. rewrite helper_app, expand_pairs_run. fold (flat_rule r).
  destruct (helper_run t (flat_rule r)); [apply IH|reflexivity].
Qed.
Lemma helper_table rules : forall t l t', Inv t l -> Forall (fun r => 1 <= f_src r <= 4294967232) rules -> helper_run t rules = Some t' ->
  exists l', Inv t' l' /\ forall x, In x (rules_of l') <-> In x (rules_of l) \/ In x rules.
Proof.
  induction rules as [|r rules IH]; intros t l t' I F E; cbn [helper_run] in E; [injection E as <-; exists l; split; [exact I|intros x; cbn; tauto]|].
  apply Forall_cons_iff in F as [F1 F]. unfold expand_helper in E. destruct (insert_spec t l r I F1) as [(_ & X)|[(o & X & Y)|(t1 & l1 & X & I1 & _ & R1 & _)]]; rewrite X in E; [discriminate| |].
  - destruct (N.eqb_spec o (f_new r)) as [EO|_]; [|discriminate]. rewrite EO in Y. destruct (IH t l t' I F E) as (l' & I' & R'). exists l'. split; [exact I'|]. intros x. rewrite R'. cbn.
    assert (In r (rules_of l)) by (destruct r; exact Y). intuition congruence.
  - destruct (IH t1 l1 t' I1 F E) as (l' & I' & R'). exists l'. split; [exact I'|]. intros x. rewrite R', R1. cbn. intuition congruence.
Qed.
Lemma lcount_ge l : Forall (fun x : entry => (1 <= dcount (snd x))%nat) l -> (length l <= lcount l)%nat.
Proof. unfold lcount. induction 1; cbn [length fold_right]; [lia|]. lia. Qed.
Lemma helper_accepts rules : forall t l (all : list rule), Inv t l -> Forall (fun x => (1 <= dcount (snd x))%nat) l -> Forall (fun r => 1 <= f_src r <= 4294967232) rules ->
  (forall x, In x (rules_of l) -> In x all) -> (forall x, In x rules -> In x all) -> consistent all ->
  (forall U, NoDup U -> (forall x, In x U -> In x all) -> N.of_nat (length U) < 4294967295) -> helper_run t rules <> None.
Proof.
  induction rules as [|r rules IH]; intros t l all I NE F A1 A2 C B; cbn [helper_run]; [discriminate|].
  apply Forall_cons_iff in F as [F1 F]. unfold expand_helper. destruct (insert_spec t l r I F1) as [(HL & _)|[(o & X & Y)|(t1 & l1 & X & I1 & _ & R1 & _ & _ & NE1)]]; [| |].
  - exfalso. pose proof (B (rules_of l) (inv_rules t l I) A1) as X. rewrite rules_len in X. pose proof (lcount_ge l NE). lia.
  - rewrite X. destruct (N.eqb_spec o (f_new r)) as [->|NEQ].
    + apply (IH t l all); try assumption. intros x Z. apply A2. right. exact Z.
    + exfalso. apply (C (mkRule (f_src r) (f_key r) o) r); [apply A1, Y|apply A2; left; reflexivity|]. unfold conflict. cbn [f_src f_key f_new]. auto.
  - rewrite X. apply (IH t1 l1 all); try assumption; [apply NE1, NE| |intros x Z; apply A2; right; exact Z]. intros x Z. apply R1 in Z. destruct Z as [Z| ->]; [apply A1, Z|apply A2; left; reflexivity].
Qed.

(** ** Names *)
Lemma cstring_plain s : plain_name s -> cstring s = s.
Proof. induction 1 as [|c s H F IH]; cbn [cstring]; [reflexivity|]. destruct (N.eqb_spec c 0); [lia|]. rewrite IH. reflexivity. Qed.
Lemma plain_cstring s : Forall octet s -> plain_name (cstring s).
Proof. induction 1 as [|c s H F IH]; cbn [cstring]; [constructor|]. destruct (N.eqb_spec c 0); [constructor|]. constructor; [unfold octet in H; lia|exact IH]. Qed.
Lemma cstring_len s : (length (cstring s) <= length s)%nat.
Proof. induction s as [|c s IH]; cbn [cstring]; [reflexivity|]. destruct (c =? 0); cbn [length]; lia. Qed.
Definition name_ok (s : list N) : Prop := plain_name s /\ s <> [] /\ short s.
Lemma plain_octets s : plain_name s -> Forall octet s.
Proof. intros H. eapply Forall_impl; [|exact H]. cbn. unfold octet. lia. Qed.
Lemma str_read_trip s rest : name_ok s -> str_read (N.of_nat (length s)) (s ++ rest) = Some (s, rest).
Proof.
  intros (P & NE & _). unfold str_read. assert (E1 : N.of_nat (length s) =? 0 = false) by (apply N.eqb_neq; destruct s; [congruence|cbn [length]; lia]).
  assert (E2 : N.of_nat (length (s ++ rest)) <? N.of_nat (length s) = false) by (apply N.ltb_ge; rewrite app_length; lia). rewrite E1, E2. cbn [orb].
  rewrite Nat2N.id, firstn_app, Nat.sub_diag, firstn_all, skipn_app, Nat.sub_diag, skipn_all. cbn [firstn skipn app]. rewrite app_nil_r, cstring_plain by exact P. reflexivity.
Qed.
Lemma str_read_only len : word len -> only (str_read len) (fun s => plain_name s /\ short s).
Proof.
  intros W bs x rest O E. unfold str_read in E. destruct (_ || _) eqn:B; [discriminate|]. injection E as <- <-. split; [split|].
  - apply plain_cstring. apply Forall_forall. intros y Y. rewrite Forall_forall in O. apply O. rewrite <- (firstn_skipn (N.to_nat len) bs). apply in_app_iff. left. exact Y.
  - unfold short. pose proof (cstring_len (firstn (N.to_nat len) bs)). pose proof (firstn_le_length (N.to_nat len) bs). unfold word in W. lia.
  - exists (firstn (N.to_nat len) bs). symmetry. apply firstn_skipn.
Qed.

(** ** Data *)
Definition disj (a b : ebitmap * N) : Prop := forall x, member (fst a) x -> ~ member (fst b) x.
Definition fitting (x : ebitmap * N) : Prop := snd x < 4294967232.
Lemma check_spec d : forall st ot, valid st -> valid ot -> Forall (fun x => valid (fst x)) d -> Forall (fun x => word (snd x)) d ->
  (check_datum st ot d = true <-> NoDup (map snd d) /\ Forall fitting d /\ (forall x, In x d -> ~ member ot (snd x)) /\ ForallOrdPairs disj d /\ Forall (fun x => forall b, member st b -> ~ member (fst x) b) d).
Proof.
  induction d as [|[e o] d IH]; intros st ot VS VO V W; cbn [check_datum].
  - split; [|reflexivity]. intros _. split; [constructor|]. split; [constructor|]. split; [intros x []|]. split; constructor.
  - apply Forall_cons_iff in V as [V1 V]. apply Forall_cons_iff in W as [W1 W]. cbn [fst snd] in *. destruct (ebitmap_get_bit ot o) eqn:GB.
    { apply (get_bit_member ot o VO) in GB. split; [discriminate|]. intros (_ & _ & H & _). exfalso. apply (H (e, o)); [left; reflexivity|exact GB]. }
    assert (NO : ~ member ot o) by (intros M; apply (get_bit_member ot o VO) in M; congruence).
    destruct (N.lt_ge_cases o 4294967232) as [LT|GE].
    2:{ rewrite set_bit_refused by assumption. split; [discriminate|]. intros (_ & H & _). apply Forall_cons_iff in H as [H _]. unfold fitting in H. cbn [snd] in H. lia. }
    destruct (set_bit_ok ot o true VO LT) as (ot' & -> & VO' & G).
    assert (GM : forall x, member ot' x <-> member ot x \/ x = o) by (intros x; rewrite <- (nget_member ot' x VO'), G, <- (nget_member ot x VO); destruct (N.eqb_spec x o); intuition congruence).
    destruct (ebitmap_match_any st e) eqn:MA.
    { apply (any_in st e VS V1) in MA. destruct MA as (x & X1 & X2). split; [discriminate|]. intros (_ & _ & _ & _ & H). apply Forall_cons_iff in H as [H _]. exfalso. exact (H x X1 X2). }
    rewrite (IH (ebitmap_union st e) ot' (union_valid _ _ VS V1) VO' V W). split.
    + intros (ND & FT & OT & OP & DS). split; [|split; [constructor; [exact LT|exact FT]|split; [|split]]].
      * cbn [map snd]. constructor; [|exact ND]. intros X. apply in_map_iff in X. destruct X as (y & Y1 & Y2). apply (OT y Y2). rewrite Y1. apply GM. right. reflexivity.
      * intros x [<-|X]; [exact NO|]. intros M. apply (OT x X). apply GM. left. exact M.
      * constructor; [|exact OP]. eapply Forall_impl; [|exact DS]. intros y Y x X. apply Y. apply (union_in st e x VS V1). right. exact X.
      * constructor; [intros b B1 B2; assert (ebitmap_match_any st e = true) by (apply (any_in st e VS V1); exists b; auto); congruence|]. eapply Forall_impl; [|exact DS]. intros y Y x X. apply Y. apply (union_in st e x VS V1). left. exact X.
    + intros (ND & FT & OT & OP & DS). cbn [map snd] in ND. inversion ND as [|? ? ND1 ND2]; subst. apply Forall_cons_iff in FT as [_ FT]. inversion OP as [|? ? OP1 OP2]; subst. apply Forall_cons_iff in DS as [_ DS].
      split; [exact ND2|]. split; [exact FT|]. split; [|split; [exact OP2|]].
      * intros x X M. apply GM in M. destruct M as [M|M]; [exact (OT x (or_intror X) M)|]. apply ND1. rewrite <- M. apply in_map, X.
      * rewrite Forall_forall in *. intros y Y b B. apply (union_in st e b VS V1) in B. destruct B as [B|B]; [exact (DS y Y b B)|exact (OP1 y Y b B)].
Qed.
Lemma functional_disj d : NoDup (map snd d) -> (forall b o1 o2, dmem d b o1 -> dmem d b o2 -> o1 = o2) -> ForallOrdPairs disj d.
Proof.
  induction d as [|[e o] d IH]; intros ND H; [constructor|]. cbn [map snd] in ND. inversion ND as [|? ? N1 N2]; subst. constructor.
  - apply Forall_forall. intros [e2 o2] Y x X M. cbn [fst] in *. apply N1. rewrite (H x o o2); [exact (in_map snd d (e2, o2) Y)| |].
    + exists e. split; [left; reflexivity|exact X].
    + exists e2. split; [right; exact Y|exact M].
  - apply IH; [exact N2|]. intros b o1 o2 (e1 & A1 & A2) (e2 & B1 & B2). apply (H b); [exists e1; split; [right; exact A1|exact A2]|exists e2; split; [right; exact B1|exact B2]].
Qed.
Lemma disj_functional d : ForallOrdPairs disj d -> forall b o1 o2, dmem d b o1 -> dmem d b o2 -> o1 = o2.
Proof.
  induction 1 as [|[e o] d F P IH]; intros b o1 o2 (e1 & A1 & A2) (e2 & B1 & B2); [destruct A1|]. rewrite Forall_forall in F. destruct A1 as [[= <- <-]|A1], B1 as [[= <- <-]|B1].
  - reflexivity.
  - exfalso. exact (F _ B1 b A2 B2).
  - exfalso. exact (F _ A1 b B2 A2).
  - apply (IH b); [exists e1; auto|exists e2; auto].
Qed.
Lemma consistent_data l k d : consistent (rules_of l) -> Forall (fun x => data_ok (snd x)) l -> In (k, d) l -> forall b o1 o2, dmem d b o1 -> dmem d b o2 -> o1 = o2.
Proof.
  intros C F X b o1 o2 M1 M2. destruct (N.eq_dec o1 o2) as [E|E]; [exact E|]. exfalso. apply (C (mkRule (b + 1) k o1) (mkRule (b + 1) k o2)).
  - apply rules_in; [exact F|]. cbn [f_src f_key f_new]. exists d. replace (b + 1 - 1) with b by lia. repeat split; [exact X|lia|exact M1].
  - apply rules_in; [exact F|]. cbn [f_src f_key f_new]. exists d. replace (b + 1 - 1) with b by lia. repeat split; [exact X|lia|exact M2].
  - unfold conflict. cbn [f_src f_key f_new]. auto.
Qed.
Lemma data_consistent l : Forall (fun x => data_ok (snd x)) l -> NoDup (map fst l) -> (forall k d, In (k, d) l -> forall b o1 o2, dmem d b o1 -> dmem d b o2 -> o1 = o2) -> consistent (rules_of l).
Proof.
  intros F ND H [s1 k1 o1] [s2 k2 o2] A B (E1 & E2 & E3). cbn [f_src f_key f_new] in *. subst s2 k2. apply (rules_in _ _ F) in A, B. cbn [f_src f_key f_new] in *. destruct A as (d1 & A1 & _ & A2), B as (d2 & B1 & _ & B2).
  assert (d2 = d1) as ->; [|apply E3, (H k1 d1 A1 (s1 - 1)); assumption].
  pose proof (proj2 (assoc_in _ key_order l k1 d1 ND) A1) as Q1. pose proof (proj2 (assoc_in _ key_order l k1 d2 ND) B1) as Q2. congruence.
Qed.

(** ** The newer format *)
Definition storable_entry (x : entry) : Prop :=
  name_ok (fk_name (fst x)) /\ word (fk_ttype (fst x)) /\ word (fk_tclass (fst x)) /\ short (snd x) /\ Forall (fun y => word (snd y)) (snd x) /\
  ((length (snd x) <= 1)%nat \/ Forall fitting (snd x)).
Lemma datum_rt : rt (fun d : ebitmap * N => ebitmap_write (fst d) ++ put32 (snd d)) read_datum (fun d => valid (fst d) /\ word (snd d)).
Proof.
  intros [e o] [V W]. cbn [fst snd] in *. unfold read_datum. split; [oct|]. split; [apply nonnil_l, ebitmap_write_nil|]. intros rest. rewrite <- !app_assoc, get_bitmap by exact V. cbn [rbind]. rewrite get_put by exact W. reflexivity.
Qed.
Lemma datum_only : only read_datum (fun d => valid (fst d) /\ word (snd d)).
Proof. unfold read_datum. apply (only_bind _ _ _ _ ebitmap_only). intros e V. apply (only_bind _ _ _ _ get32_only). intros o W. apply only_ret. split; assumption. Qed.
Lemma count_fold d : Forall (fun x => valid (fst x)) d -> forall n, fold_left (fun c (e : ebitmap * N) => wrap32 (c + ebitmap_cardinality (fst e))) d (wrap32 (N.of_nat n)) = wrap32 (N.of_nat (dcount d + n)).
Proof.
  induction 1 as [|x d V F IH]; intros n; cbn [fold_left dcount fold_right]; [reflexivity|]. rewrite <- bits_card by exact V.
  replace (wrap32 (wrap32 (N.of_nat n) + N.of_nat (length (bits (fst x))))) with (wrap32 (N.of_nat (length (bits (fst x)) + n))); [rewrite IH; f_equal; unfold dcount; lia|].
  unfold wrap32. rewrite N.add_mod_idemp_l by discriminate. f_equal. lia.
Qed.
Lemma read_one_trip t l k d rest : Inv t l -> ~ In k (map fst l) -> N.of_nat (length l) < 4294967295 -> data_ok d -> (forall b o1 o2, dmem d b o1 -> dmem d b o2 -> o1 = o2) ->
  storable_entry (k, d) -> exists t', read_one t (write_one (k, d) ++ rest) = Some (t', rest) /\ Inv t' ((k, d) :: l).
Proof.
  intros (R & F & C & L) NI B DO FN (NM & W1 & W2 & SD & WO & FT). pose proof DO as (DN & V & ND). cbn [fst snd] in *. unfold write_one, read_one. cbn [fst snd]. pose proof NM as (_ & _ & SN).
  rewrite <- !app_assoc, get_put by exact SN. cbn [rbind]. rewrite str_read_trip by exact NM. cbn [rbind]. rewrite get_put by exact W1. cbn [rbind]. rewrite get_put by exact W2. cbn [rbind].
  assert (WS : wrap32 (N.of_nat (length d)) = N.of_nat (length d)) by (unfold wrap32; apply N.mod_small, SD). rewrite WS. rewrite get_put by exact SD. cbn [rbind].
  assert (Z : N.of_nat (length d) =? 0 = false) by (apply N.eqb_neq; destruct d; [congruence|cbn [length]; lia]). rewrite Z.
  destruct (read_n_rt _ _ _ datum_rt d) as [_ RD]; [rewrite Forall_forall in *; auto|].
  rewrite rounds_ok; [|rewrite app_length; pose proof (write_all_len (fun d : ebitmap * N => ebitmap_write (fst d) ++ put32 (snd d)) d ltac:(intros x _; apply nonnil_l, ebitmap_write_nil)); lia].
  rewrite RD. cbn [rbind]. assert (CK : (1 <? N.of_nat (length d)) && negb (check_datum ebitmap_init ebitmap_init d) = false).
  { destruct (N.ltb_spec 1 (N.of_nat (length d))) as [LT|_]; [|reflexivity]. destruct FT as [FT|FT]; [lia|]. assert (check_datum ebitmap_init ebitmap_init d = true) as ->; [|reflexivity].
    apply check_spec; try assumption; try exact valid_init. split; [exact ND|]. split; [exact FT|]. split; [intros x _; apply init_empty|]. split; [apply functional_disj; assumption|].
    apply Forall_forall. intros x _ b M. destruct (init_empty b M). }
  rewrite CK. destruct (add_ok (ft_tab t) k d l R NI ltac:(lia)) as (h' & A & R'). replace (mkFK (fk_ttype k) (fk_tclass k) (fk_name k)) with k by (destruct k; reflexivity). rewrite A. eexists. split; [reflexivity|].
  split; [exact R'|]. split; [constructor; assumption|]. cbn [ft_count length]. split; [|lia]. rewrite C, count_fold by exact V. reflexivity.
Qed.
Lemma read_rounds_trip L : forall t l rest, Inv t l -> NoDup (map fst L) -> (forall k, In k (map fst L) -> ~ In k (map fst l)) -> N.of_nat (length l) + N.of_nat (length L) < 4294967296 ->
  Forall (fun x => data_ok (snd x)) L -> (forall k d, In (k, d) L -> forall b o1 o2, dmem d b o1 -> dmem d b o2 -> o1 = o2) -> Forall storable_entry L ->
  exists t', read_rounds read_one (length L) t (concat (map write_one L) ++ rest) = Some (t', rest) /\ Inv t' (rev L ++ l).
Proof.
  induction L as [|[k d] L IH]; intros t l rest I ND DJ B DO FN SE; cbn [length map concat read_rounds rev app]; [exists t; auto|].
  cbn [map fst] in ND. inversion ND as [|? ? N1 N2]; subst. apply Forall_cons_iff in DO as [D1 DO]. apply Forall_cons_iff in SE as [S1 SE]. cbn [length snd] in *.
  destruct (read_one_trip t l k d (concat (map write_one L) ++ rest) I) as (t1 & E1 & I1); [apply DJ; left; reflexivity|lia|exact D1|intros b; apply (FN k d); left; reflexivity|exact S1|].
  rewrite <- app_assoc, E1. cbn [rbind]. destruct (IH t1 ((k, d) :: l) rest I1 N2) as (t' & E' & I').
  - intros k' X [<-|Y]; [contradiction|]. apply (DJ k'); [right; exact X|exact Y].
  - cbn [length]. lia.
  - exact DO.
  - intros k' d' X. apply (FN k' d'). right. exact X.
  - exact SE.
  - exists t'. split; [exact E'|]. rewrite <- app_assoc. exact I'.
Qed.

(** ** The older format *)
Definition entry_of (r : rule) : list N := write_compat_entry (f_key r) (f_new r) (f_src r - 1).
Lemma compat_rules l : concat (map write_one_compat l) = concat (map entry_of (rules_of l)).
Proof.
  unfold rules_of. induction l as [|[k d] l IH]; [reflexivity|]. cbn [map concat flat_map fst snd]. rewrite map_app, concat_app, <- IH. f_equal. unfold write_one_compat. cbn [fst snd]. clear IH.
  induction d as [|[e o] d IH]; [reflexivity|]. cbn [map concat flat_map fst snd]. rewrite map_app, concat_app, <- IH. f_equal. rewrite map_map. f_equal. apply map_ext. intros b. unfold entry_of. cbn [f_src f_key f_new].
  replace (b + 1 - 1) with b by lia. reflexivity.
Qed.
Definition storable_rule (r : rule) : Prop :=
  1 <= f_src r <= 4294967232 /\ word (f_new r) /\ word (fk_ttype (f_key r)) /\ word (fk_tclass (f_key r)) /\ name_ok (fk_name (f_key r)).
Lemma read_compat_trip R : forall t seen rest, Forall storable_rule R -> snd (insert_all t R) = answers seen R ->
  read_rounds read_one_compat (length R) t (concat (map entry_of R) ++ rest) = Some (fst (insert_all t R), rest).
Proof.
  induction R as [|r R IH]; intros t seen rest F A; cbn [length map concat read_rounds insert_all]; [reflexivity|]. apply Forall_cons_iff in F as [(W1 & W2 & W3 & W4 & NM) F]. pose proof NM as (_ & _ & SN).
  unfold read_one_compat, entry_of, write_compat_entry. rewrite <- !app_assoc, get_put by exact SN. cbn [rbind]. rewrite str_read_trip by exact NM. cbn [rbind].
  assert (WS : wrap32 (f_src r - 1 + 1) = f_src r) by (unfold wrap32; change W32 with 4294967296; rewrite N.mod_small; lia). rewrite WS.
  rewrite get_put by (unfold word; lia). cbn [rbind]. rewrite get_put by exact W3. cbn [rbind]. rewrite get_put by exact W4. cbn [rbind]. rewrite get_put by exact W2. cbn [rbind].
  destruct (N.eqb_spec (f_src r) 0); [lia|]. replace (mkFK (fk_ttype (f_key r)) (fk_tclass (f_key r)) (fk_name (f_key r))) with (f_key r) by (destruct (f_key r); reflexivity).
  cbn [insert_all answers] in A. destruct (filetrans_insert t (f_src r) (f_key r) (f_new r)) as [t1 a]. destruct (insert_all t1 R) as [t2 as_] eqn:IA. cbn [snd fst] in *. injection A as A1 A2.
  specialize (IH t1 (r :: seen) rest F). rewrite IA in IH. cbn [fst snd] in IH. specialize (IH A2). destruct a; [cbn [rbind]; exact IH|cbn [rbind]; exact IH|]. destruct (in_dec rule_eq_dec r seen); discriminate.
Qed.
Lemma member_low e b : valid e -> member e b -> b < 4294967232.
Proof. intros V M. apply (nget_member e b V) in M. apply nget_high in M; [|exact V]. pose proof (valid_high_bound e V). lia. Qed.
Lemma rules_storable l : Forall (fun x => data_ok (snd x)) l -> Forall storable_entry l -> Forall storable_rule (rules_of l).
Proof.
  intros F S. apply Forall_forall. intros [s k o] X. apply (rules_in _ _ F) in X. cbn [f_src f_key f_new] in X. destruct X as (d & X & G & e & Y & M). rewrite Forall_forall in F, S. destruct (F _ X) as (_ & V & _). destruct (S _ X) as (NM & A & B & _ & WO & _).
  rewrite Forall_forall in V, WO. specialize (V _ Y). specialize (WO _ Y). cbn [fst snd] in *. pose proof (member_low _ _ V M). unfold storable_rule. cbn [f_src f_key f_new]. split; [lia|]. auto.
Qed.

(** ** Both *)
Lemma io_trip t l v rest : Inv t l -> consistent (rules_of l) -> Forall storable_entry l -> 25 <= v -> (v < 33 -> N.of_nat (lcount l) < 4294967296) ->
  exists t', filename_trans_read v (filename_trans_write v t ++ rest) = Some (t', rest) /\ (forall r, has t' r <-> has t r) /\ ft_count t' = ft_count t /\ exists l', Inv t' l'.
Proof.
  intros I C SE HV HC. set (L := concat (h_slots (ft_tab t))). assert (P : Permutation l L) by (symmetry; apply I). pose proof (inv_perm _ _ _ I P) as IL. pose proof IL as (R & F & CT & LB).
  assert (CL : consistent (rules_of L)).
  { apply (consistent_same (rules_of l)); [|exact C]. intros x. rewrite <- (has_in t l x I), <- (has_in t L x IL). tauto. }
  assert (SL : Forall storable_entry L) by (eapply Permutation_Forall; eassumption).
  unfold filename_trans_write, filename_trans_read. destruct (N.ltb_spec v 25) as [X|_]; [lia|]. destruct (N.ltb_spec v 33) as [LT|GE].
  - specialize (HC LT). fold L. rewrite <- app_assoc. rewrite (lcount_perm _ _ P) in HC. assert (CE : ft_count t = N.of_nat (length (rules_of L))) by (rewrite CT, rules_len; unfold wrap32; apply N.mod_small, HC).
    rewrite CE. rewrite get_put by (unfold word; rewrite rules_len; exact HC). cbn [rbind]. rewrite compat_rules.
    destruct (insert_all_spec (rules_of L) ft_init [] [] init_inv) as (t' & l' & E & I' & R' & _).
    + intros x. reflexivity.
    + exact CL.
    + eapply Forall_impl; [|apply (rules_storable L F SL)]. intros x X. apply X.
    + cbn [length]. rewrite rules_len. lia.
    + exists t'. rewrite rounds_ok.
      * rewrite (read_compat_trip (rules_of L) ft_init [] rest (rules_storable L F SL)); [|rewrite E; reflexivity]. rewrite E. cbn [fst]. split; [reflexivity|].
        assert (HE : forall r, has t' r <-> has t r) by (intros r; rewrite (has_in t' l' r I'), (has_in t L r IL), R'; cbn; tauto). split; [exact HE|]. split; [|exists l'; exact I'].
        rewrite (inv_count t' l' (rules_of L) I' (inv_rules t L IL)); [|intros x; rewrite HE; apply has_in, IL]. rewrite rules_len. apply N.mod_small, HC.
      * rewrite app_length. assert (Q : (length (rules_of L) <= length (concat (map entry_of (rules_of L))))%nat); [|lia].
        change (concat (map entry_of (rules_of L))) with (write_all_of entry_of (rules_of L)). apply write_all_len. intros x _. unfold entry_of, write_compat_entry. apply nonnil_l, put_nil.
  - fold L. rewrite (rep_len _ _ _ _ R), <- app_assoc, get_put by exact LB. cbn [rbind]. rewrite rounds_ok.
    + destruct (read_rounds_trip L ft_init [] rest init_inv) as (t' & E & I').
      * apply R.
      * intros k _ [].
      * cbn [length]. lia.
      * exact F.
      * intros k d X. apply (consistent_data L k d CL F X).
      * exact SL.
      * rewrite app_nil_r in I'. exists t'. split; [exact E|]. assert (IR : Inv t' L) by (apply (inv_perm _ _ _ I'); symmetry; apply Permutation_rev). split; [|split; [|exists L; exact IR]].
        -- intros r. rewrite (has_in t' L r IR), (has_in t L r IL). tauto.
        -- destruct IR as (_ & _ & -> & _). symmetry. exact CT.
    + rewrite app_length. assert (Q : (length L <= length (concat (map write_one L)))%nat); [|lia]. change (concat (map write_one L)) with (write_all_of write_one L). apply write_all_len. intros x _. unfold write_one. apply nonnil_l, put_nil.
Qed.

(** ** Arbitrary bytes *)
Lemma read_one_ok t l bs t' rest : Inv t l -> Forall octet bs -> read_one t bs = Some (t', rest) ->
  (exists used, bs = used ++ rest) /\ exists k d, Inv t' ((k, d) :: l) /\ (forall b o1 o2, dmem d b o1 -> dmem d b o2 -> o1 = o2) /\ (fk_name k <> [] -> storable_entry (k, d)).
Proof.
  intros I O E. pose proof I as (R & F & C & L). unfold read_one in E. assert (U : only (fun bs => read_one t bs) (fun t' => exists k d, Inv t' ((k, d) :: l) /\ (forall b o1 o2, dmem d b o1 -> dmem d b o2 -> o1 = o2) /\ (fk_name k <> [] -> storable_entry (k, d)))).
  { unfold read_one. apply (only_bind _ _ _ _ get32_only). intros len WL. apply (only_bind _ _ _ _ (str_read_only len WL)). intros name [PN SN].
    apply (only_bind _ _ _ _ get32_only). intros tt WT. apply (only_bind _ _ _ _ get32_only). intros tc WC. apply (only_bind _ _ _ _ get32_only). intros nd WN. apply only_if; intros NZ; [apply only_none|].
    intros b5 x r5 O5 E5. destruct (read_n read_datum (rounds nd b5) b5) as [[d b6]|] eqn:RN; [|discriminate]. cbn [rbind] in E5. destruct (read_n_only _ _ datum_only _ _ _ _ O5 RN) as [[FD LD] US].
    destruct ((1 <? nd) && negb (check_datum ebitmap_init ebitmap_init d)) eqn:CK; [discriminate|]. destruct (ft_add (ft_tab t) (mkFK tt tc name) d) as [h|] eqn:A; [|discriminate]. injection E5 as <- <-. split; [|exact US].
    destruct (add_rep _ _ _ _ _ R A) as (R' & NI & NL). exists (mkFK tt tc name), d. assert (FV : Forall (fun x => valid (fst x)) d) by (eapply Forall_impl; [|exact FD]; intros y Y; apply Y).
    assert (FW : Forall (fun x => word (snd x)) d) by (eapply Forall_impl; [|exact FD]; intros y Y; apply Y). apply N.eqb_neq in NZ. assert (LB : N.of_nat (length d) <= nd) by (rewrite LD; apply rounds_le).
    assert (DNE : d <> []) by (intros ->; cbn [length] in LD; unfold rounds in LD; lia).
    assert (Q : NoDup (map snd d) /\ ForallOrdPairs disj d /\ ((length d <= 1)%nat \/ Forall fitting d)).
    { destruct (N.ltb_spec 1 nd) as [LT|GE].
      - cbn [andb] in CK. apply negb_false_iff in CK. destruct (proj1 (check_spec d _ _ valid_init valid_init FV FW) CK) as (Q1 & Q2 & _ & Q4 & _). auto.
      - assert (LE : (length d <= 1)%nat) by lia. destruct d as [|y [|z d]]; [congruence| |cbn [length] in LE; lia]. split; [constructor; [intros []|constructor]|]. split; [repeat constructor|left; exact LE]. }
    destruct Q as (Q1 & Q2 & Q3). split; [|split].
    - split; [exact R'|]. split; [constructor; [split; [exact DNE|split; [exact FV|exact Q1]]|exact F]|]. cbn [ft_count length]. split; [|lia]. rewrite C, count_fold by exact FV. reflexivity.
    - apply disj_functional, Q2.
    - intros NE. unfold storable_entry. cbn [fst snd fk_name fk_ttype fk_tclass] in *. split; [split; [exact PN|split; assumption]|]. split; [exact WT|]. split; [exact WC|]. split; [unfold short; unfold word in WN; lia|]. split; [exact FW|exact Q3]. }
  destruct (U bs t' rest O E) as [A B]. auto.
Qed.
Lemma read_rounds_ok n : forall t l bs t' rest, Inv t l -> Forall octet bs -> read_rounds read_one n t bs = Some (t', rest) ->
  (forall k d, In (k, d) l -> forall b o1 o2, dmem d b o1 -> dmem d b o2 -> o1 = o2) -> Forall (fun x => fk_name (fst x) <> [] -> storable_entry x) l ->
  (exists used, bs = used ++ rest) /\ exists l', Inv t' l' /\ (forall k d, In (k, d) l' -> forall b o1 o2, dmem d b o1 -> dmem d b o2 -> o1 = o2) /\ Forall (fun x => fk_name (fst x) <> [] -> storable_entry x) l'.
Proof.
  induction n as [|n IH]; intros t l bs t' rest I O E FN SE; cbn [read_rounds] in E.
  - injection E as <- <-. split; [exists []; reflexivity|]. exists l. auto.
  - destruct (read_one t bs) as [[t1 b1]|] eqn:R1; [|discriminate]. cbn [rbind] in E. destruct (read_one_ok t l bs t1 b1 I O R1) as ((u & ->) & k & d & I1 & FN1 & SE1).
    destruct (IH t1 ((k, d) :: l) b1 t' rest I1 (octet_rest _ _ O) E) as ((u2 & ->) & RES).
    + intros k' d' [[= <- <-]|X]; [exact FN1|exact (FN k' d' X)].
    + constructor; [exact SE1|exact SE].
    + split; [exists (u ++ u2); apply app_assoc|exact RES].
Qed.
Lemma read_compat_ok n : forall t l bs t' rest, Inv t l -> Forall octet bs -> read_rounds read_one_compat n t bs = Some (t', rest) ->
  (exists used, bs = used ++ rest) /\ exists l', Inv t' l'.
Proof.
  assert (ONE : forall t l, Inv t l -> only (read_one_compat t) (fun t' => exists l', Inv t' l')).
  { intros t l I. unfold read_one_compat. apply (only_bind _ _ _ _ get32_only). intros len WL. apply (only_bind _ _ _ _ (str_read_only len WL)). intros name [PN SN].
    apply (only_bind _ _ _ _ get32_only). intros st WS. apply (only_bind _ _ _ _ get32_only). intros tt WT. apply (only_bind _ _ _ _ get32_only). intros tc WC. apply (only_bind _ _ _ _ get32_only). intros ot WO. apply only_if; intros NZ; [apply only_none|].
    apply N.eqb_neq in NZ. destruct (N.le_gt_cases st 4294967232) as [LE|GT].
    - destruct (insert_spec t l (mkRule st (mkFK tt tc name) ot) I) as [(_ & X)|[(o & X & Y)|(t1 & l1 & X & I1 & _)]]; cbn [f_src f_key f_new] in *; [lia| | |]; rewrite X; [apply only_none|apply only_ret; exists l; exact I|apply only_ret; exists l1; exact I1].
    - intros bs x rest O E. exfalso. destruct (filetrans_insert t st (mkFK tt tc name) ot) as [t1 a] eqn:FI. assert (PB : pred32 st = st - 1) by (apply pred32_ok; [lia|exact WS]).
      assert (SF : forall e, set_in_place e (pred32 st) = (e, false)) by (intros e; unfold set_in_place; rewrite set_bit_refused by (rewrite PB; unfold word in WS; lia); reflexivity).
      assert (WK : forall d, Forall (fun x => valid (fst x)) d -> exists d', ft_walk st ot d = FPlaced d' false).
      { induction d as [|[e o] d IH]; intros V; cbn [ft_walk]; [rewrite SF; eexists; reflexivity|]. apply Forall_cons_iff in V as [V1 V]. cbn [fst] in V1. destruct (ebitmap_get_bit e (pred32 st)) eqn:GB.
        - apply (get_bit_member e _ V1) in GB. apply (member_low e _ V1) in GB. lia.
        - destruct (o =? ot); [rewrite SF; eexists; reflexivity|]. destruct (IH V) as (d' & ->). eexists. reflexivity. }
      unfold filetrans_insert in FI. destruct (ft_search t (mkFK tt tc name)) as [d|] eqn:SR.
      + apply (proj1 (search_in t l _ d (proj1 I))) in SR. destruct I as (_ & F & _). rewrite Forall_forall in F. destruct (F _ SR) as (_ & V & _). destruct (WK d V) as (d' & W). rewrite W in FI. injection FI as <- <-. discriminate.
      + destruct (WK [] (Forall_nil _)) as (d' & W). rewrite W in FI. destruct (ft_add (ft_tab t) (mkFK tt tc name) d'); injection FI as <- <-; discriminate. }
  induction n as [|n IH]; intros t l bs t' rest I O E; cbn [read_rounds] in E.
  - injection E as <- <-. split; [exists []; reflexivity|]. exists l. auto.
  - destruct (read_one_compat t bs) as [[t1 b1]|] eqn:R1; [|discriminate]. cbn [rbind] in E. destruct (ONE t l I bs t1 b1 O R1) as ((l1 & I1) & u & ->).
    destruct (IH t1 l1 b1 t' rest I1 (octet_rest _ _ O) E) as ((u2 & ->) & RES). split; [exists (u ++ u2); apply app_assoc|exact RES].
Qed.

(** ** In terms of the specification *)
Lemma flat_rule_in r x : valid (fr_stypes r) -> valid (fr_ttypes r) -> (In x (flat_rule r) <-> asked r x).
Proof.
  intros V1 V2. unfold flat_rule, rule_pairs, asked. rewrite in_map_iff. split.
  - intros ([i j] & <- & H). apply in_flat_map in H. destruct H as (i' & I1 & H). rewrite bits_in in I1 by exact V1. cbn [f_src f_key f_new fk_tclass fk_ttype fk_name fst snd]. apply in_app_iff in H. destruct H as [H|H].
    + apply in_map_iff in H. destruct H as (j' & [= -> ->] & H). rewrite bits_in in H by exact V2. replace (i + 1 - 1) with i by lia. replace (j + 1 - 1) with j by lia.
      split; [lia|]. split; [exact I1|]. do 3 (split; [reflexivity|]). left. split; [lia|exact H].
    + destruct (fr_self r) eqn:SF; [|destruct H]. destruct H as [[= -> ->]|[]]. replace (j + 1 - 1) with j by lia. split; [lia|]. split; [exact I1|]. do 3 (split; [reflexivity|]). right. auto.
  - destruct x as [s [tt tc nm] o]. cbn [f_src f_key f_new fk_tclass fk_ttype fk_name]. intros (G & M & -> & -> & -> & H). exists (s - 1, tt - 1). cbn [fst snd]. split.
    + f_equal; [lia|]. f_equal. destruct H as [[H _]|[_ ->]]; lia.
    + apply in_flat_map. exists (s - 1). split; [apply bits_in; assumption|]. apply in_app_iff. destruct H as [[H1 H2]|[-> ->]].
      * left. apply in_map_iff. exists (tt - 1). split; [reflexivity|]. apply bits_in; assumption.
      * right. left. reflexivity.
Qed.
Lemma flat_in l x : sets_ok l -> (In x (flat_map flat_rule l) <-> asked_by l x).
Proof.
  intros S. rewrite in_flat_map. unfold asked_by. unfold sets_ok in S. rewrite Forall_forall in S. split; intros (r & R & H); exists r; (split; [exact R|]); destruct (S r R); apply (flat_rule_in r x); assumption.
Qed.
Lemma flat_src l : sets_ok l -> Forall (fun r => 1 <= f_src r <= 4294967232) (flat_map flat_rule l).
Proof.
  intros S. apply Forall_forall. intros x X. apply (flat_in l x S) in X. destruct X as (r & R & G & M & _). unfold sets_ok in S. rewrite Forall_forall in S. destruct (S r R) as [V _]. pose proof (member_low _ _ V M). lia.
Qed.
Lemma inv_counted t l : Inv t l -> counted t.
Proof.
  intros I. exists (rules_of l). split; [apply (inv_rules t l I)|]. split; [intros r; apply has_in, I|]. apply (inv_count t l); [exact I|apply (inv_rules t l I)|]. intros x. apply has_in, I.
Qed.
Lemma pigeon (l : list N) n : NoDup l -> Forall (fun x => x < n) l -> N.of_nat (length l) <= n.
Proof.
  intros ND F. assert (H : (length (map N.to_nat l) <= length (seq 0 (N.to_nat n)))%nat); [|rewrite map_length, seq_length in H; lia].
  apply NoDup_incl_length; [apply FinFun.Injective_map_NoDup; [intros a b E; lia|exact ND]|]. intros x X. apply in_map_iff in X. destruct X as (y & <- & Y). rewrite Forall_forall in F. specialize (F y Y). apply in_seq. lia.
Qed.
Lemma storable_entries t l (R : list rule) : Inv t l -> Forall storable R -> (forall k o, pair_in l k o -> exists r, In r R /\ f_key r = k /\ f_new r = o) -> Forall storable_entry l.
Proof.
  intros (_ & F & _) S P. apply Forall_forall. intros [k d] X. rewrite Forall_forall in F, S. destruct (F _ X) as (NE & V & ND). cbn [snd] in *.
  assert (E : forall e o, In (e, o) d -> exists r, In r R /\ f_key r = k /\ f_new r = o) by (intros e o Y; apply P; exists d, e; auto).
  assert (FT : Forall fitting d) by (apply Forall_forall; intros [e o] Y; destruct (E e o Y) as (r & R1 & _ & <-); apply (S r R1)).
  unfold storable_entry. cbn [fst snd]. destruct d as [|[e o] d0] eqn:D; [congruence|]. rewrite <- D in *. assert (Y : In (e, o) d) by (rewrite D; left; reflexivity). destruct (E e o Y) as (r & R1 & <- & _).
  destruct (S r R1) as ((_ & _ & W1 & W2 & PN) & NN & SN & _). split; [split; [exact PN|split; [exact NN|exact SN]]|]. split; [exact W1|]. split; [exact W2|]. split; [|split].
  - unfold short. pose proof (pigeon (map snd d) 4294967232 ND). rewrite map_length in H. assert (Forall (fun x => x < 4294967232) (map snd d)) by (apply Forall_map; exact FT). specialize (H H0). lia.
  - eapply Forall_impl; [|exact FT]. intros y. unfold fitting, word. lia.
  - right. exact FT.
Qed.
