(** * Proofs about the loop that drops rules given twice, and what follows for labels *)
From Coq Require Import NArith List Bool Lia ZifyBool Permutation Sorting.Sorted Arith.
From Verif Require Import MlsModel ContextModel CilctxModel CilctxSpec CilctxProofs.
Import ListNotations.
Local Open Scope N_scope.

Definition le_rule (a b : rule) : Prop := compar a b <> Gt.
Definition lt_rule (a b : rule) : Prop := compar a b = Lt.
(** Rules of one object are accepted. *)
Definition pair_ok (many : bool) (a b : rule) : Prop :=
  compar a b = Eq -> many = true /\ Forall2 near (gives a) (gives b) /\ ~ In None (gives a) /\ ~ In None (gives b).

Lemma eq_trans a b c : fits a -> fits b -> fits c -> compar a b = Eq -> compar b c = Eq -> compar a c = Eq.
Proof. intros A B C. rewrite !compar_key by assumption. rewrite !lex_eq. congruence. Qed.
Lemma eq_sym a b : fits a -> fits b -> compar a b = Eq -> compar b a = Eq.
Proof. intros A B H. rewrite compar_opp, H by assumption. reflexivity. Qed.
Lemma lt_le_trans a b c : fits a -> fits b -> fits c -> compar a b = Lt -> compar b c <> Gt -> compar a c = Lt.
Proof.
  intros A B C H K. destruct (compar a c) eqn:E; [|reflexivity|exfalso; apply (compar_trans a b c); congruence].
  exfalso. apply K. rewrite compar_opp by assumption. rewrite (compar_key c b) by assumption.
  rewrite (compar_key a c) in E by assumption. apply lex_eq in E. rewrite <- E, <- compar_key, H by assumption. reflexivity.
Qed.
Lemma eq_le_trans a b c : fits a -> fits b -> fits c -> compar a b = Eq -> compar b c <> Gt -> compar a c <> Gt.
Proof. intros A B C H K. apply (compar_trans a b c); congruence. Qed.
Lemma eq_code a b : fits a -> fits b -> compar a b = Eq -> same_code a b.
Proof. intros A B. apply compar_eq; assumption. Qed.
Lemma near_none l : forall m, Forall2 near l m -> In None m -> In None l.
Proof.
  induction l as [|a l IH]; intros m H K; inversion H; subst; [exact K|]. destruct K as [K|K]; [|right; eauto].
  subst. destruct a; [destruct H2|left; reflexivity].
Qed.
Lemma pair_sym many a b : fits a -> fits b -> pair_ok many a b -> pair_ok many b a.
Proof.
  intros A B H K. apply eq_sym in K; try assumption. destruct (H K) as (M & F & Na & Nb).
  split; [exact M|]. split; [apply nears_sym, F|]. tauto.
Qed.

Lemma dedup_bad many rest : forall done cur conf rem r, dedup many done cur conf rem true rest = ROk r -> fst (fst r) = true.
Proof.
  induction rest as [|x rest IH]; intros done cur conf rem r; cbn [dedup].
  - intros H. injection H as <-. reflexivity.
  - destruct (compar cur x); try apply IH.
    destruct (if many then concompar cur x else ROk Lt) as [[| |]| |]; try apply IH; discriminate.
Qed.

Lemma dedup_good many rest : forall done cur rem front rem',
  Forall fits (cur :: rest) -> StronglySorted le_rule (cur :: rest) ->
  dedup many done cur 0 rem false rest = ROk (false, front, rem') ->
  exists tail, front = done ++ tail /\ (length tail + N.to_nat rem' = 1 + length rest + N.to_nat rem)%nat /\
    StronglySorted lt_rule tail /\ incl tail (cur :: rest) /\
    (forall r, In r (cur :: rest) -> exists r', In r' tail /\ compar r r' = Eq /\ Forall2 near (gives r) (gives r')) /\
    ForallOrdPairs (pair_ok many) (cur :: rest).
Proof.
  induction rest as [|x rest IH]; intros done cur rem front rem' F S; cbn [dedup].
  - intros H. injection H as <- <-. exists [cur]. split; [reflexivity|]. split; [reflexivity|].
    split; [constructor; [constructor|constructor]|]. split; [apply incl_refl|]. split.
    + intros r [<-|[]]. exists cur. split; [left; reflexivity|]. split; [apply compar_refl; inversion F; assumption|apply nears_refl].
    + constructor; [constructor|constructor].
  - assert (Fc : fits cur) by (inversion F; assumption). assert (F' : Forall fits (x :: rest)) by (inversion F; assumption).
    assert (Fx : fits x) by (inversion F'; assumption).
    assert (S' : StronglySorted le_rule (x :: rest)) by (inversion S; assumption).
    assert (Sx : Forall (le_rule x) rest) by (inversion S'; assumption).
    assert (Sc : Forall (le_rule cur) (x :: rest)) by (inversion S; assumption).
    assert (Fr : forall y, In y rest -> fits y) by (intros y Hy; rewrite Forall_forall in F'; apply F'; right; exact Hy).
    destruct (compar cur x) eqn:E.
    + destruct (if many then concompar cur x else ROk Lt) as [[| |]| |] eqn:C; try discriminate;
        try (intros H; apply dedup_bad in H; discriminate H).
      destruct many; [|discriminate C].
      pose proof (concompar_same cur x (eq_code _ _ Fc Fx E)) as K. rewrite C in K. destruct K as [K Kn].
      assert (Knx : ~ In None (gives x)) by (intros J; apply Kn; eapply near_none; eauto).
      intros H. cbn [N.eqb] in H. change (0 =? 0) with true in H. cbn [N.eqb] in H.
      destruct (IH done x (rem + 1) front rem' F' S' H) as (tail & T1 & T2 & T3 & T4 & T5 & T6).
      exists tail. split; [exact T1|]. split; [cbn [length]; lia|]. split; [exact T3|].
      split; [intros y Hy; right; apply T4; exact Hy|]. split.
      * intros r [<-|Hr]; [|apply T5; exact Hr]. destruct (T5 x (or_introl eq_refl)) as (r' & R1 & R2 & R3). exists r'.
        assert (Fr' : fits r') by (rewrite Forall_forall in F'; apply F', T4, R1).
        split; [exact R1|]. split; [apply (eq_trans _ x); assumption|eapply nears_trans; eauto].
      * constructor; [|exact T6]. constructor.
        -- intros _. split; [reflexivity|]. tauto.
        -- rewrite Forall_forall. intros y Hy J. inversion T6 as [|z zs P _]; subst. rewrite Forall_forall in P.
           destruct (P y Hy) as (M & N1 & N2 & N3); [apply (eq_trans x cur y); auto; apply eq_sym; assumption|].
           split; [exact M|]. split; [eapply nears_trans; eauto|]. tauto.
    + intros H. destruct (IH (done ++ [cur]) x rem front rem' F' S' H) as (tail & T1 & T2 & T3 & T4 & T5 & T6).
      assert (L : forall y, In y (x :: rest) -> compar cur y = Lt).
      { intros y [<-|Hy]; [exact E|]. apply (lt_le_trans _ x); auto. rewrite Forall_forall in Sx. apply Sx, Hy. }
      exists (cur :: tail). split; [rewrite T1, <- app_assoc; reflexivity|]. split; [cbn [length] in *; lia|].
      split; [constructor; [exact T3|rewrite Forall_forall; intros y Hy; apply L, T4, Hy]|].
      split; [intros y [<-|Hy]; [left; reflexivity|right; apply T4, Hy]|]. split.
      * intros r [<-|Hr].
        -- exists cur. split; [left; reflexivity|]. split; [apply compar_refl, Fc|apply nears_refl].
        -- destruct (T5 r Hr) as (r' & R1 & R2). exists r'. split; [right; exact R1|exact R2].
      * constructor; [|exact T6]. rewrite Forall_forall. intros y Hy J. rewrite (L y Hy) in J. discriminate J.
    + rewrite Forall_forall in Sc. exfalso. exact (Sc x (or_introl eq_refl) E).
Qed.

Lemma dedup_accepts many rest : forall done cur rem,
  Forall fits (cur :: rest) -> ForallOrdPairs (pair_ok many) (cur :: rest) ->
  exists front rem', dedup many done cur 0 rem false rest = ROk (false, front, rem').
Proof.
  induction rest as [|x rest IH]; intros done cur rem F P; cbn [dedup]; [eauto|].
  assert (Fc : fits cur) by (inversion F; assumption). assert (F' : Forall fits (x :: rest)) by (inversion F; assumption).
  assert (Fx : fits x) by (inversion F'; assumption).
  inversion P as [|z zs Pc P']; subst. inversion Pc as [|z zs Px _]; subst.
  destruct (compar cur x) eqn:E; [|apply IH; assumption|apply IH; assumption].
  destruct (Px E) as (-> & N1 & N2 & N3).
  pose proof (concompar_same cur x (eq_code _ _ Fc Fx E)) as K.
  destruct (concompar cur x) as [[| |]| |].
  - change (0 =? 0) with true. cbn iota. apply IH; assumption.
  - contradiction.
  - contradiction.
  - contradiction.
  - destruct K; contradiction.
Qed.

(** ** The whole *)
Lemma process_good many s out : Forall fits s -> StronglySorted le_rule s -> process_sorted many s = ROk out ->
  StronglySorted lt_rule out /\ incl out s /\
  (forall r, In r s -> exists r', In r' out /\ compar r r' = Eq /\ Forall2 near (gives r) (gives r')) /\
  ForallOrdPairs (pair_ok many) s.
Proof.
  intros F S. destruct s as [|x [|y rest]].
  - intros H. injection H as <-. split; [constructor|]. split; [apply incl_refl|]. split; [intros r []|constructor].
  - intros H. injection H as <-. split; [constructor; constructor|]. split; [apply incl_refl|]. split.
    + intros r Hr. exists r. split; [exact Hr|]. rewrite Forall_forall in F. split; [apply compar_refl, F, Hr|apply nears_refl].
    + constructor; constructor.
  - cbn [process_sorted]. destruct (dedup many [] x 0 0 false (y :: rest)) as [[[bad front] rem]| |] eqn:E; try discriminate.
    destruct bad; [discriminate|]. intros H. injection H as H.
    destruct (dedup_good many (y :: rest) [] x 0 front rem F S E) as (tail & T1 & T2 & T3 & T4 & T5 & T6). cbn [app] in T1. subst tail.
    assert (out = front) as ->; [|auto].
    rewrite <- H. change (N.to_nat 0) with 0%nat in T2.
    assert (E0 : (length (x :: y :: rest) - N.to_nat rem = length front + 0)%nat) by (cbn [length] in T2 |- *; lia).
    match goal with |- firstn ?k _ = _ => replace k with (length front + 0)%nat by (symmetry; exact E0) end.
    rewrite firstn_app_2. cbn [firstn]. apply app_nil_r.
Qed.
Lemma process_accepts many s : Forall fits s -> ForallOrdPairs (pair_ok many) s -> exists out, process_sorted many s = ROk out.
Proof.
  intros F P. destruct s as [|x [|y rest]]; [exists []; reflexivity|exists [x]; reflexivity|].
  destruct (dedup_accepts many (y :: rest) [] x 0 F P) as (front & rem & E). cbn [process_sorted]. rewrite E. eauto.
Qed.

Lemma pairs_perm {A} (R : A -> A -> Prop) l m : Permutation l m -> (forall a b, In a l -> In b l -> R a b -> R b a) ->
  ForallOrdPairs R l -> ForallOrdPairs R m.
Proof.
  intros H. induction H as [|x l m H IH|x y l|l m n H1 IH1 H2 IH2]; intros Sy P.
  - exact P.
  - inversion P as [|z zs Px P']; subst. constructor.
    + rewrite Forall_forall in Px |- *. intros y Hy. apply Px. eapply Permutation_in; [apply Permutation_sym, H|exact Hy].
    + apply IH; [intros a b Ha Hb; apply Sy; right; assumption|exact P'].
  - inversion P as [|z zs Px P']; subst. inversion P' as [|z zs Py P'']; subst. inversion Px as [|z zs Q Q']; subst.
    constructor; [constructor|constructor].
    + apply Sy; [left; reflexivity|right; left; reflexivity|exact Q].
    + exact Py.
    + exact Q'.
    + exact P''.
  - apply IH2; [|apply IH1; assumption]. intros a b Ha Hb. apply Sy; eapply Permutation_in; try (apply Permutation_sym, H1); assumption.
Qed.
Lemma pairs_impl {A} (R Q : A -> A -> Prop) l : (forall a b, In a l -> In b l -> R a b -> Q a b) -> ForallOrdPairs R l -> ForallOrdPairs Q l.
Proof.
  induction l as [|x l IH]; intros H P; [constructor|]. inversion P as [|z zs Px P']; subst. constructor.
  - rewrite Forall_forall in Px |- *. intros y Hy. apply H; [left; reflexivity|right; exact Hy|apply Px, Hy].
  - apply IH; [|exact P']. intros a b Ha Hb. apply H; right; assumption.
Qed.
Lemma fits_perm l s : Permutation l s -> Forall fits l -> Forall fits s.
Proof. intros P F. rewrite Forall_forall in *. intros x Hx. apply F. eapply Permutation_in; [apply Permutation_sym, P|exact Hx]. Qed.
Lemma pairs_ok_perm many l s : Forall fits l -> Permutation l s -> ForallOrdPairs (pair_ok many) l -> ForallOrdPairs (pair_ok many) s.
Proof.
  intros F P. apply pairs_perm; [exact P|]. rewrite Forall_forall in F. intros a b Ha Hb. apply pair_sym; auto.
Qed.

(** Same object, when classes agree. *)
Lemma code_object l a b : classes_agree l -> In a l -> In b l -> same_code a b -> same_object a b.
Proof.
  intros C A B [H|(f & p & t & t' & c & c' & -> & ->)]; [exact H|]. rewrite (C f p t t' c c' A B). constructor.
Qed.
Lemma object_eq a b : fits a -> fits b -> same_object a b -> compar a b = Eq.
Proof. intros A B H. apply compar_eq; try assumption. left. exact H. Qed.

Lemma strict_distinct l : Forall fits l -> StronglySorted lt_rule l -> distinct l.
Proof.
  intros F S. unfold distinct. induction S as [|x l S IH L]; [constructor|]. inversion F as [|z zs Fx F']; subst. constructor; [|apply IH, F'].
  rewrite Forall_forall in *. intros y Hy K. apply object_eq in K; [|exact Fx|apply F', Hy]. pose proof (L y Hy) as J. unfold lt_rule in J. congruence.
Qed.
Lemma strict_same l : forall m, Forall fits l -> Forall fits m -> StronglySorted lt_rule l -> StronglySorted lt_rule m ->
  (forall r, In r l <-> In r m) -> l = m.
Proof.
  induction l as [|x l IH]; intros [|y m] Fl Fm Sl Sm H.
  - reflexivity.
  - exfalso. apply (H y). left. reflexivity.
  - exfalso. apply (H x). left. reflexivity.
  - assert (Fx : fits x) by (inversion Fl; assumption). assert (Fy : fits y) by (inversion Fm; assumption).
    inversion Sl as [|z zs Sl' Lx]; subst. inversion Sm as [|z zs Sm' Ly]; subst. rewrite Forall_forall in Lx, Ly.
    assert (irr : forall a, fits a -> ~ lt_rule a a) by (intros a A K; unfold lt_rule in K; rewrite compar_refl in K by exact A; discriminate K).
    assert (as2 : forall a b, fits a -> fits b -> lt_rule a b -> lt_rule b a -> False).
    { intros a b A B K J. unfold lt_rule in *. rewrite compar_opp, K in J by assumption. discriminate J. }
    assert (x = y) as ->.
    { destruct (proj1 (H x) (or_introl eq_refl)) as [K|K]; [auto|]. destruct (proj2 (H y) (or_introl eq_refl)) as [J|J]; [auto|].
      exfalso. apply (as2 x y Fx Fy); [apply Lx, J|apply Ly, K]. }
    f_equal. apply IH; [inversion Fl; assumption|inversion Fm; assumption|assumption|assumption|].
    intros r. split; intros K.
    + destruct (proj1 (H r) (or_intror K)) as [<-|J]; [|exact J]. exfalso. exact (irr y Fy (Lx y K)).
    + destruct (proj2 (H r) (or_intror K)) as [<-|J]; [|exact J]. exfalso. exact (irr y Fy (Ly y K)).
Qed.

(** ** The rule that applies *)
Lemma covers_object q a b : same_object a b -> covers q a -> covers q b.
Proof. intros H; destruct H, q; cbn; auto. Qed.
Lemma covers_code q a b : same_code a b -> covers q a -> covers q b.
Proof. intros [H|(f & p & t & t' & c & c' & -> & ->)]; [apply covers_object, H|destruct q; auto]. Qed.
Lemma extent_object a b e : same_object a b -> extent a e -> extent b e.
Proof. intros H K; destruct H; inversion K; subst; constructor; assumption. Qed.
Lemma covers_dec q r : covers q r \/ ~ covers q r.
Proof.
  destruct q, r; cbn; try (right; intros []; fail).
  - destruct (N.eq_dec proto proto0), (N.le_gt_cases low port), (N.le_gt_cases port high); try tauto; right; lia.
  - destruct (list_eq_dec N.eq_dec subnet subnet0), (N.le_gt_cases low n), (N.le_gt_cases n high); try tauto; right; lia.
  - destruct (Bool.bool_dec v6 v0), (N.eq_dec (N.land addr mask) addr0); tauto.
  - destruct (N.le_gt_cases low a), (N.le_gt_cases a high); try tauto; right; lia.
  - destruct (N.le_gt_cases low a), (N.le_gt_cases a high); try tauto; right; lia.
Qed.
Lemma first_exists q l r : In r l -> covers q r -> exists r', first_match q l r'.
Proof.
  induction l as [|x l IH]; [intros []|]. intros H C. destruct (covers_dec q x) as [D|D].
  - exists x, [], l. split; [reflexivity|]. split; [exact D|constructor].
  - destruct H as [->|H]; [contradiction|]. destruct (IH H C) as (r' & a & b & E & C' & A).
    exists r', (x :: a), b. split; [rewrite E; reflexivity|]. split; [exact C'|]. constructor; assumption.
Qed.
Lemma ones_mono k k' w : k <= w -> k' <= w -> N.ones w - N.ones k' <= N.ones w - N.ones k -> k <= k'.
Proof.
  intros A B H. destruct (N.le_gt_cases k k') as [L|L]; [exact L|exfalso].
  assert (P : 2 ^ k' < 2 ^ k) by (apply N.pow_lt_mono_r; lia). assert (Q : 2 ^ k <= 2 ^ w) by (apply N.pow_le_mono_r; lia).
  rewrite !N.ones_equiv in H. pose proof (N.pow_nonzero 2 k' ltac:(lia)) as Nz. revert H P Q Nz. generalize (2 ^ k) (2 ^ k') (2 ^ w). intros; lia.
Qed.
Lemma le_extent q a b e e' : fits a -> fits b -> covers q a -> covers q b -> extent a e -> extent b e' -> compar a b <> Gt -> e <= e'.
Proof.
  intros Fa Fb Ca Cb Ea Eb L. destruct Ea, q; cbn in Ca; try contradiction; destruct Eb; cbn in Cb; try contradiction;
    cbn [compar fits] in *; unfold spaceship in L.
  - destruct Fa as (_ & F1 & F2), Fb as (_ & F3 & F4). rewrite !(proj1 (minus_spec _ _ _ F2 F1)), !(proj1 (minus_spec _ _ _ F4 F3)) in L by lia.
    destruct (N.compare_spec (h - l) (h0 - l0)); cbn [then_cmp] in L; try lia. congruence.
  - destruct Ca as [-> Ca], Cb as [-> Cb]. rewrite (proj2 (strcmp_eq s0 s0) eq_refl) in L. cbn [then_cmp] in L.
    destruct Fa as (F1 & F2), Fb as (F3 & F4). rewrite !(proj1 (minus_spec _ _ _ F2 F1)), !(proj1 (minus_spec _ _ _ F4 F3)) in L by lia.
    destruct (N.compare_spec (h - l) (h0 - l0)); cbn [then_cmp] in L; try lia. congruence.
  - destruct Fa as (F1 & F2), Fb as (F3 & F4). rewrite !(proj1 (minus_spec _ _ _ F2 F1)), !(proj1 (minus_spec _ _ _ F4 F3)) in L by lia.
    destruct (N.compare_spec (h - l) (h0 - l0)); cbn [then_cmp] in L; try lia. congruence.
  - destruct Fa as (F1 & F2), Fb as (F3 & F4). rewrite !(proj1 (minus_spec _ _ _ F2 F1)), !(proj1 (minus_spec _ _ _ F4 F3)) in L by lia.
    destruct (N.compare_spec (h - l) (h0 - l0)); cbn [then_cmp] in L; try lia. congruence.
  - destruct Ca as [-> Ca], Cb as [-> Cb]. 
    assert (K : N.ones (if v0 then 128 else 32) - N.ones k0 <= N.ones (if v0 then 128 else 32) - N.ones k).
    { destruct v0.
      - destruct (N.compare_spec (N.ones 128 - N.ones k) (N.ones 128 - N.ones k0)) as [E|E|E]; cbn [CompOpp then_cmp] in L.
        + rewrite E. apply N.le_refl. 
        + congruence.
        + apply N.lt_le_incl, E.
      - destruct (N.compare_spec (N.ones 32 - N.ones k) (N.ones 32 - N.ones k0)) as [E|E|E]; cbn [CompOpp then_cmp] in L.
        + rewrite E. apply N.le_refl. 
        + congruence.
        + apply N.lt_le_incl, E. }
    eapply ones_mono; eauto.
Qed.
Lemma strict_split a r b x : StronglySorted lt_rule (a ++ r :: b) -> In x (a ++ r :: b) -> In x a \/ x = r \/ lt_rule r x.
Proof.
  intros S H. apply in_app_or in H. destruct H as [H|[H|H]]; [auto|auto|]. right. right.
  induction a as [|y a IH]; cbn [app] in S; inversion S as [|z zs S' L]; subst; [|apply IH, S'].
  rewrite Forall_forall in L. apply L, H.
Qed.
Lemma narrowest many s out q r : Forall fits s -> StronglySorted le_rule s -> process_sorted many s = ROk out ->
  first_match q out r -> forall r' e e', In r' s -> covers q r' -> extent r e -> extent r' e' -> e <= e'.
Proof.
  intros F S P (a & b & E & C & A) r' e e' Hr Cr Ee Ee'.
  destruct (process_good many s out F S P) as (G1 & G2 & G3 & _). destruct (G3 r' Hr) as (x & X1 & X2 & _).
  rewrite Forall_forall in F. assert (Fx : fits x) by (apply F, G2, X1). assert (Fr' : fits r') by (apply F, Hr).
  assert (Fr : fits r) by (apply F, G2; rewrite E; apply in_elt).
  pose proof (eq_code _ _ Fr' Fx X2) as K. assert (Cx : covers q x) by (eapply covers_code; eauto).
  assert (Ex : extent x e').
  { destruct K as [K|(f & p & t & t' & c & c' & -> & ->)]; [eapply extent_object; eauto|inversion Ee']. }
  rewrite E in X1, G1. destruct (strict_split a r b x G1 X1) as [H|[H|H]].
  - rewrite Forall_forall in A. exfalso. exact (A x H Cx).
  - subst x. apply (le_extent q r r e e' Fr Fr C Cx Ee Ex). rewrite compar_refl by exact Fr. discriminate.
  - apply (le_extent q r x e e' Fr Fx C Cx Ee Ex). unfold lt_rule in H. rewrite H. discriminate.
Qed.

(** ** Paths *)
Fixpoint lead (u : list bool) : N := match u with false :: u' => 1 + lead u' | _ => 0 end.
Lemma special_b c : existsb (fun x => x =? c) [46; 94; 36; 63; 42; 43; 124; 91; 40; 123] = true <-> special c.
Proof.
  unfold special. rewrite existsb_exists. split.
  - intros (x & H & E). apply N.eqb_eq in E. subst. exact H.
  - intros H. exists c. split; [exact H|apply N.eqb_refl].
Qed.
Lemma fill_pieces p u : pieces p u -> forall meta stem len,
  fc_fill meta stem len p = (meta || existsb (fun b => b) u, stem + (if meta then 0 else lead u), len + N.of_nat (length u)).
Proof.
  intros H. induction H as [|c p u Sp H IH|c p u Sp Ne H IH|c p u H IH|]; intros meta stem len; cbn [fc_fill].
  - cbn. rewrite orb_false_r. destruct meta; rewrite !N.add_0_r; reflexivity.
  - rewrite (proj2 (special_b c) Sp). rewrite IH. cbn [existsb lead length]. rewrite orb_true_r. cbn [orb].
    f_equal; [f_equal; destruct meta; lia|lia].
  - destruct (existsb (fun x => x =? c) _) eqn:E; [apply special_b in E; contradiction|]. destruct (N.eqb_spec c 92); [contradiction|].
    rewrite IH. cbn [existsb lead length orb]. f_equal; [f_equal; destruct meta; lia|lia].
  - change (existsb (fun x => x =? 92) [46; 94; 36; 63; 42; 43; 124; 91; 40; 123]) with false. cbn iota. change (92 =? 92) with true. cbn iota.
    rewrite IH. cbn [existsb lead length orb]. f_equal; [f_equal; destruct meta; lia|lia].
  - change (existsb (fun x => x =? 92) [46; 94; 36; 63; 42; 43; 124; 91; 40; 123]) with false. cbn iota. change (92 =? 92) with true. cbn iota.
    cbn [existsb lead length orb]. rewrite orb_false_r. destruct meta; rewrite ?N.add_0_r; reflexivity.
Qed.
Lemma fixed_lead u s : fixed_start u s -> s = lead u.
Proof.
  intros H. destruct H as [u H|a b H].
  - induction u as [|[] u IH]; [reflexivity|exfalso; apply H; left; reflexivity|]. cbn [lead length]. rewrite <- IH; [lia|]. intros K. apply H. right. exact K.
  - induction a as [|[] a IH]; [reflexivity|exfalso; apply H; left; reflexivity|]. cbn [lead length app]. rewrite <- IH; [lia|]. intros K. apply H. right. exact K.
Qed.
Lemma in_true u : existsb (fun b : bool => b) u = true <-> In true u.
Proof. rewrite existsb_exists. split; [intros (b & H & ->); exact H|intros H; exists true; auto]. Qed.
Lemma le_specific a b : compar a b <> Gt -> not_more_specific a b.
Proof.
  destruct a, b; cbn [not_more_specific]; auto. cbn [compar]. intros L u u' s s' Pu Pu' Su Su'.
  rewrite (fill_pieces _ _ Pu), (fill_pieces _ _ Pu') in L. cbn [orb] in L. rewrite !N.add_0_l in L.
  rewrite (fixed_lead _ _ Su), (fixed_lead _ _ Su'). rewrite <- !in_true.
  destruct (existsb (fun b => b) u), (existsb (fun b => b) u'); cbn [andb negb] in L.
  - split; [left; reflexivity|]. intros _. destruct (N.compare_spec (lead u) (lead u')); cbn [then_cmp] in L; try lia. congruence.
  - split; [left; reflexivity|]. intros [K _]. discriminate (K eq_refl).
  - congruence.
  - split; [right; discriminate|]. intros _. destruct (N.compare_spec (lead u) (lead u')); cbn [then_cmp] in L; try lia. congruence.
Qed.
Lemma strict_specific l : StronglySorted lt_rule l -> specific_last l.
Proof.
  intros S. unfold specific_last. induction S as [|x l S IH L]; [constructor|]. constructor; [|exact IH].
  rewrite Forall_forall in *. intros y Hy. apply le_specific. pose proof (L y Hy) as K. unfold lt_rule in K. rewrite K. discriminate.
Qed.
