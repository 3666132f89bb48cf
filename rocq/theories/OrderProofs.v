(** * Proofs about the order made of several statements *)
From Coq Require Import NArith List Bool Lia.
From Verif Require Import OrderModel OrderSpec.
Import ListNotations.
Local Open Scope N_scope.

(** ** Lists in lists *)
Lemma among_in s l x : Among s l -> In x s -> In x l.
Proof. induction 1 as [l|y s l _ IH|y s l _ IH]; intros I; [destruct I|destruct I as [->|I]; [left; reflexivity|right; auto]|right; auto]. Qed.
Lemma among_refl l : Among l l.
Proof. induction l as [|x l IH]; constructor. exact IH. Qed.
Lemma among_trans a b c : Among a b -> Among b c -> Among a c.
Proof.
  intros H K. revert a H. induction K as [c|x b c _ IH|x b c _ IH]; intros a H.
  - inversion H. constructor.
  - inversion H as [l|y s l H'|y s l H']; subst; [constructor|apply Among_take; auto|apply Among_skip; auto].
  - apply Among_skip. auto.
Qed.
Lemma among_pre p a b : Among a b -> Among a (p ++ b).
Proof. induction p; intros H; [exact H|]. cbn. apply Among_skip. auto. Qed.
Lemma among_app a b c d : Among a b -> Among c d -> Among (a ++ c) (b ++ d).
Proof. induction 1 as [l|x s l _ IH|x s l _ IH]; intros H; cbn; [apply among_pre; exact H|apply Among_take; auto|apply Among_skip; auto]. Qed.
Lemma among_nodup a b : Among a b -> NoDup b -> NoDup a.
Proof.
  induction 1 as [l|x s l H IH|x s l _ IH]; intros N; [constructor| |]; apply NoDup_cons_iff in N as [A B]; [|auto]. constructor; [|auto]. intros I. apply A. eapply among_in; eassumption.
Qed.
Lemma among_single x l : In x l -> Among [x] l.
Proof. induction l as [|y l IH]; intros I; [destruct I|]. destruct I as [->|I]; [apply Among_take; constructor|apply Among_skip; auto]. Qed.
Lemma among_infix p s q : Among s (p ++ s ++ q).
Proof. apply among_pre. rewrite <- (app_nil_r s) at 1. apply among_app; [apply among_refl|constructor]. Qed.
Lemma within_in x l : within x l = true <-> In x l.
Proof. unfold within. rewrite existsb_exists. split; [intros (y & I & E); apply N.eqb_eq in E; subst; exact I|intros I; exists x; split; [exact I|apply N.eqb_refl]]. Qed.
Lemma within_not x l : within x l = false <-> ~ In x l.
Proof. rewrite <- within_in. destruct (within x l); split; intros H; [discriminate|destruct H; reflexivity|discriminate|reflexivity]. Qed.

(** ** Inserting and merging *)
Definition inv (flags comp : list N) : Prop := NoDup comp /\ forall x, In x flags <-> In x comp.
Lemma nodup_mid (a b : list N) x : NoDup (a ++ b) -> ~ In x (a ++ b) -> NoDup (a ++ x :: b).
Proof.
  induction a as [|y a IH]; cbn; intros N I; [constructor; assumption|]. apply NoDup_cons_iff in N as [A B]. constructor.
  - rewrite in_app_iff in *. cbn. intros [H|[H|H]]; [tauto|subst; apply I; left; reflexivity|tauto].
  - apply IH; [exact B|tauto].
Qed.
Lemma insert_ok xs : forall flags pre post b f p, inv flags (pre ++ post) -> list_insert flags pre xs = (b, f, p) ->
  inv f (p ++ post) /\ exists ys, p = pre ++ ys /\ (b = true -> ys = xs) /\ incl ys xs.
Proof.
  induction xs as [|x xs IH]; intros flags pre post b f p V E; cbn [list_insert] in E.
  - injection E as <- <- <-. split; [exact V|]. exists []. split; [rewrite app_nil_r; reflexivity|]. split; [reflexivity|apply incl_refl].
  - destruct (within x flags) eqn:W.
    + injection E as <- <- <-. split; [exact V|]. exists []. split; [rewrite app_nil_r; reflexivity|]. split; [discriminate|intros y []].
    + apply within_not in W. destruct V as [V1 V2]. apply (IH _ _ post) in E.
      * destruct E as [V (ys & -> & B & I)]. split; [exact V|]. exists (x :: ys). split; [rewrite <- app_assoc; reflexivity|]. split; [intros T; rewrite (B T); reflexivity|].
        intros y [->|J]; [left; reflexivity|right; auto].
      * rewrite <- app_assoc. cbn. split; [apply nodup_mid; [exact V1|rewrite <- V2; exact W]|]. intros y. cbn [In]. rewrite V2, !in_app_iff. cbn. tauto.
Qed.
Lemma find_some x post b a : find_in x post = Some (b, a) -> post = b ++ x :: a /\ ~ In x b.
Proof.
  revert b a. induction post as [|y post IH]; intros b a E; cbn [find_in] in E; [discriminate|]. destruct (N.eqb_spec x y) as [->|NE].
  - injection E as <- <-. split; [reflexivity|intros []].
  - destruct (find_in x post) as [[b' a']|]; [|discriminate]. injection E as <- <-. destruct (IH b' a' eq_refl) as [-> H]. split; [reflexivity|]. intros [Q|Q]; [congruence|auto].
Qed.
Lemma find_none x post : find_in x post = None <-> ~ In x post.
Proof.
  induction post as [|y post IH]; cbn [find_in]; [split; [intros _ []|reflexivity]|]. destruct (N.eqb_spec x y) as [->|NE].
  - split; [discriminate|]. intros H. destruct H. left. reflexivity.
  - destruct (find_in x post) as [[b a]|]; cbn [In].
    + split; [discriminate|]. intros H. exfalso. apply H. right. destruct IH as [_ IH]. destruct (in_dec N.eq_dec x post) as [I|I]; [exact I|discriminate (IH I)].
    + split; [|reflexivity]. intros _ [Q|Q]; [congruence|]. exact (proj1 IH eq_refl Q).
Qed.
Lemma loop_ok n : forall flags pre post sk b f c, inv flags (pre ++ post) -> (post = [] -> sk = []) -> merge_loop flags pre post sk n = (b, f, c) ->
  inv f c /\ exists c2, c = pre ++ c2 /\ Among post c2 /\ (b = true -> Among (sk ++ n) c2) /\ forall x, In x c2 -> In x post \/ In x (sk ++ n).
Proof.
  induction n as [|x n IH]; intros flags pre post sk b f c V K E; cbn [merge_loop] in E.
  - injection E as <- <- <-. split; [exact V|]. exists post. split; [reflexivity|]. split; [apply among_refl|]. split; [|auto]. destruct sk; [constructor|discriminate].
  - destruct post as [|y post].
    + rewrite (K eq_refl). apply (insert_ok (x :: n) flags pre []) in E; [|exact V]. rewrite app_nil_r in E. destruct E as [V' (ys & -> & B & I)]. split; [exact V'|]. exists ys. split; [reflexivity|].
      split; [constructor|]. cbn [app]. split; [intros T; rewrite (B T); apply among_refl|auto].
    + set (po := y :: post) in *. assert (PN : po <> []) by discriminate. clearbody po. destruct (find_in x po) as [[b0 a]|] eqn:F.
      * apply find_some in F as [-> _]. destruct (list_insert flags (pre ++ b0) sk) as [[b1 f1] p1] eqn:L. apply (insert_ok sk flags (pre ++ b0) (x :: a)) in L; [|rewrite <- app_assoc; exact V].
        destruct L as [V1 (ys & -> & B1 & I1)]. destruct b1.
        -- rewrite (B1 eq_refl) in *. apply IH in E; [|rewrite <- app_assoc; exact V1|reflexivity]. destruct E as [V2 (c2 & -> & A2 & B2 & I2)]. split; [exact V2|].
           exists (b0 ++ sk ++ x :: c2). split; [rewrite <- !app_assoc; reflexivity|]. split; [|split].
           ++ apply among_app; [apply among_refl|]. apply among_pre. apply Among_take. exact A2.
           ++ intros T. apply among_pre. apply among_app; [apply among_refl|]. apply Among_take. exact (B2 T).
           ++ intros z. rewrite !in_app_iff. cbn. intros [Z|[Z|[Z|Z]]]; auto. destruct (I2 z Z); auto.
        -- injection E as <- <- <-. split; [exact V1|]. exists (b0 ++ ys ++ x :: a). split; [rewrite <- !app_assoc; reflexivity|]. split; [|split].
           ++ apply among_app; [apply among_refl|]. apply among_pre. apply among_refl.
           ++ discriminate.
           ++ intros z. rewrite !in_app_iff. cbn. intros [Z|[Z|[Z|Z]]]; auto.
      * apply IH in E; [|exact V|intros Q; contradiction]. destruct E as [V2 (c2 & -> & A2 & B2 & I2)]. split; [exact V2|]. exists c2. split; [reflexivity|]. split; [exact A2|]. rewrite <- app_assoc in B2, I2. split; assumption.
Qed.
Lemma merge_ok flags old new b f c : inv flags old -> merge flags old new = (b, f, c) ->
  inv f c /\ Among old c /\ (b = true -> Among new c) /\ forall x, In x c -> In x old \/ In x new.
Proof.
  intros V E. unfold merge in E. destruct new as [|x new].
  - injection E as <- <- <-. split; [exact V|]. split; [apply among_refl|]. split; [constructor|auto].
  - set (nw := x :: new) in *. clearbody nw. destruct old as [|y old].
    + apply (insert_ok nw flags [] []) in E; [|exact V]. rewrite app_nil_r in E. destruct E as [V1 (ys & -> & B & I)]. split; [exact V1|]. split; [constructor|]. cbn [app] in *. split; [intros T; rewrite (B T); apply among_refl|auto].
    + apply loop_ok in E; [|exact V|discriminate]. destruct E as [V1 (c2 & -> & A & B & I)]. auto.
Qed.

(** ** The rounds *)
Definition waits (stmts : list (bool * list N)) : nat := length (filter (fun s => negb (fst s)) stmts).
Definition placed (c : list N) (stmts : list (bool * list N)) : Prop := Forall (fun s => fst s = true -> Among (snd s) c) stmts.
Lemma placed_mono c c' stmts : Among c c' -> placed c stmts -> placed c' stmts.
Proof. intros A. apply Forall_impl. intros [m s] H T. eapply among_trans; [exact (H T)|exact A]. Qed.
Lemma round_ok stmts : forall flags comp f c r w ch, inv flags comp -> placed comp stmts -> round flags comp stmts = (f, c, r, w, ch) ->
  inv f c /\ Among comp c /\ placed c r /\ map snd r = map snd stmts /\ N.to_nat w = waits r /\ (waits r <= waits stmts)%nat /\ (ch = true -> (waits r < waits stmts)%nat) /\
  (forall x, In x c -> In x comp \/ exists s, In s (map snd stmts) /\ In x s).
Proof.
  induction stmts as [|[m s] stmts IH]; intros flags comp f c r w ch V P E; cbn [round] in E.
  - injection E as <- <- <- <- <-. split; [exact V|]. split; [apply among_refl|]. split; [constructor|]. split; [reflexivity|]. split; [reflexivity|]. split; [auto|]. split; [discriminate|auto].
  - apply Forall_cons_iff in P as [P1 P2]. destruct m.
    + destruct (round flags comp stmts) as [[[[f0 c0] r0] w0] ch0] eqn:R. injection E as <- <- <- <- <-. destruct (IH _ _ _ _ _ _ _ V P2 R) as (V1 & A1 & Q1 & M1 & W1 & L1 & C1 & I1).
      split; [exact V1|]. split; [exact A1|]. split; [constructor; [intros T; eapply among_trans; [exact (P1 T)|exact A1]|exact Q1]|]. cbn [map snd]. split; [f_equal; exact M1|].
      unfold waits in *. cbn [filter fst negb length]. split; [exact W1|]. split; [exact L1|]. split; [exact C1|]. intros x I. destruct (I1 x I) as [H|(u & H & K)]; [auto|]. right. exists u. split; [right; exact H|exact K].
    + destruct (merge flags comp s) as [[b f1] c1] eqn:M. destruct (merge_ok _ _ _ _ _ _ V M) as (V1 & A1 & B1 & I1). destruct (round f1 c1 stmts) as [[[[f0 c0] r0] w0] ch0] eqn:R.
      destruct (IH _ _ _ _ _ _ _ V1 (placed_mono _ _ _ A1 P2) R) as (V2 & A2 & Q2 & M2 & W2 & L2 & C2 & I2).
      assert (I : forall x, In x c0 -> In x comp \/ exists u, In u (s :: map snd stmts) /\ In x u).
      { intros x I. destruct (I2 x I) as [H|(u & H & K)]; [|right; exists u; split; [right; exact H|exact K]]. destruct (I1 x H) as [H'|H']; [auto|]. right. exists s. split; [left; reflexivity|exact H']. }
      destruct b; injection E as <- <- <- <- <-; (split; [exact V2|]); (split; [eapply among_trans; eassumption|]).
      * split; [constructor; [intros _; eapply among_trans; [exact (B1 eq_refl)|exact A2]|exact Q2]|]. cbn [map snd]. split; [f_equal; exact M2|]. unfold waits in *. cbn [filter fst negb length].
        split; [exact W2|]. split; [lia|]. split; [intros _; lia|exact I].
      * split; [constructor; [discriminate|exact Q2]|]. cbn [map snd]. split; [f_equal; exact M2|]. unfold waits in *. cbn [filter fst negb length].
        split; [lia|]. split; [lia|]. split; [intros T; specialize (C2 T); lia|exact I].
Qed.
Lemma waits_zero r c : waits r = 0%nat -> placed c r -> Forall (fun s => Among s c) (map snd r).
Proof.
  induction r as [|[m s] r IH]; intros W P; [constructor|]. apply Forall_cons_iff in P as [P1 P2]. unfold waits in W. cbn in W. destruct m; [|discriminate]. constructor; [exact (P1 eq_refl)|]. apply IH; assumption.
Qed.
Lemma rounds_ok fuel : forall flags comp stmts, inv flags comp -> placed comp stmts -> (waits stmts < fuel)%nat -> (forall x, In x comp -> exists s, In s (map snd stmts) /\ In x s) ->
  match rounds fuel flags comp stmts with
  | Made (f, c) => inv f c /\ Forall (fun s => Among s c) (map snd stmts) /\ (forall x, In x c -> exists s, In s (map snd stmts) /\ In x s)
  | Refused => True
  | Endless => False
  end.
Proof.
  induction fuel as [|fuel IH]; intros flags comp stmts V P W I; [lia|]. cbn [rounds]. destruct (round flags comp stmts) as [[[[f c] r] w] ch] eqn:R.
  destruct (round_ok _ _ _ _ _ _ _ _ V P R) as (V1 & A1 & Q1 & M1 & W1 & L1 & C1 & I1).
  assert (J : forall x, In x c -> exists s, In s (map snd stmts) /\ In x s) by (intros x H; destruct (I1 x H) as [H'|H']; auto).
  destruct (N.eqb_spec w 0) as [->|NE].
  - split; [exact V1|]. split; [|exact J]. rewrite <- M1. apply waits_zero; [symmetry; exact W1|exact Q1].
  - destruct ch; [|exact Logic.I]. specialize (IH f c r V1 Q1). rewrite M1 in IH. apply IH; [specialize (C1 eq_refl); lia|exact J].
Qed.

(** ** The check *)
Section Check.
Context (ts : list (option N * N * option N)).
Definition pok (prev : option N) (c : N) : Prop := exists op on, In (op, c, on) ts /\ alike prev op = true.
Definition nok (next : option N) (c : N) : Prop := exists op on, In (op, c, on) ts /\ alike next on = true.
Fixpoint chk (prev : option N) (l : list N) : Prop :=
  match l with [] => True | c :: r => pok prev c /\ nok (hd_error r) c /\ chk (Some c) r end.
Definition marks (v : vst) : Prop :=
  match v_rest v with [] => True | c :: r => (v_fp v = true -> pok (v_prev v) c) /\ (v_fn v = true -> nok (hd_error r) c) /\ v_fp v && v_fn v = false end.
Lemma scan_sound l : incl l ts -> forall v, marks v -> let v' := fold_left scan_item l v in marks v' /\ (chk (v_prev v') (v_rest v') -> chk (v_prev v) (v_rest v)).
Proof.
  induction l as [|[[op oc] on] l IH]; intros I v M; [auto|]. cbn [fold_left].
  assert (S : marks (scan_item v (op, oc, on)) /\ (chk (v_prev (scan_item v (op, oc, on))) (v_rest (scan_item v (op, oc, on))) -> chk (v_prev v) (v_rest v))).
  { unfold scan_item. destruct v as [pv rest fp fn ch]. cbn [v_prev v_rest v_fp v_fn v_change] in *. destruct rest as [|c rest]; [auto|]. destruct (N.eqb_spec c oc) as [->|NE]; [|auto].
    destruct M as (MP & MN & MB). cbn [v_prev v_rest v_fp v_fn v_change] in *.
    assert (P : fp || negb fp && alike pv op = true -> pok pv oc).
    { destruct fp; [auto|]. cbn. intros A. exists op, on. split; [apply I; left; reflexivity|exact A]. }
    assert (Q : fn || negb fn && alike (hd_error rest) on = true -> nok (hd_error rest) oc).
    { destruct fn; [auto|]. cbn. intros A. exists op, on. split; [apply I; left; reflexivity|exact A]. }
    destruct (fp || negb fp && alike pv op), (fn || negb fn && alike (hd_error rest) on); cbn [andb]; cbn [v_prev v_rest v_fp v_fn v_change].
    - split; [destruct rest as [|z rest']; [exact Logic.I|unfold marks; cbn; split; [discriminate|split; [discriminate|reflexivity]]]|]. cbn [chk]. auto.
    - split; [unfold marks; cbn; auto|auto].
    - split; [unfold marks; cbn; auto|auto].
    - split; [unfold marks; cbn; auto|auto]. }
  destruct S as [S1 S2]. destruct (IH (fun x H => I x (or_intror H)) _ S1) as [T1 T2]. cbv zeta. auto.
Qed.
Definition b2n (b : bool) : nat := if b then 1%nat else 0%nat.
Definition measure (v : vst) : nat := match v_rest v with [] => 0%nat | _ => (3 * length (v_rest v) - b2n (v_fp v) - b2n (v_fn v))%nat end.
Lemma scan_measure l : forall v, let v' := fold_left scan_item l v in
  (measure v' <= measure v)%nat /\ (v_change v = true -> v_change v' = true) /\ (v_change v' = true -> v_change v = false -> (measure v' < measure v)%nat).
Proof.
  induction l as [|[[op oc] on] l IH]; intros v; cbv zeta; [cbn [fold_left]; split; [auto|]; split; [auto|congruence]|]. cbn [fold_left].
  assert (S : (measure (scan_item v (op, oc, on)) <= measure v)%nat /\ (v_change v = true -> v_change (scan_item v (op, oc, on)) = true) /\ (v_change (scan_item v (op, oc, on)) = true -> v_change v = false -> (measure (scan_item v (op, oc, on)) < measure v)%nat)).
  { unfold scan_item. destruct v as [pv rest fp fn ch]. unfold measure. cbn [v_prev v_rest v_fp v_fn v_change]. destruct rest as [|c rest]; [cbn [v_rest v_change]; split; [auto|]; split; [auto|congruence]|].
    destruct (N.eqb_spec c oc) as [->|NE]; [|cbn [v_rest v_change v_fp v_fn]; split; [auto|]; split; [auto|congruence]].
    destruct fp, fn, (alike pv op), (alike (hd_error rest) on), ch; cbn [andb orb negb v_prev v_rest v_fp v_fn v_change b2n length]; (split; [destruct rest; cbn [length]; lia|]); (split; [auto|]); intros A B; try discriminate; destruct rest; cbn [length]; lia. }
  destruct S as (S1 & S2 & S3). destruct (IH (scan_item v (op, oc, on))) as (T1 & T2 & T3). cbv zeta in T1, T2, T3. split; [lia|]. split; [auto|]. intros A B.
  destruct (v_change (scan_item v (op, oc, on))) eqn:C; [specialize (S3 eq_refl B); lia|specialize (T3 A eq_refl); lia].
Qed.
Lemma scan_same l : forall v, marks v -> v_change v = false -> v_change (fold_left scan_item l v) = false -> fold_left scan_item l v = v /\
  forall c r, v_rest v = c :: r -> forall op on, In (op, c, on) l -> (v_fp v = false -> alike (v_prev v) op = false) /\ (v_fn v = false -> alike (hd_error r) on = false).
Proof.
  induction l as [|[[op oc] on] l IH]; intros v M C F; [split; [reflexivity|intros c r _ op on []]|]. cbn [fold_left] in *.
  assert (CS : v_change (scan_item v (op, oc, on)) = false). { destruct (v_change (scan_item v (op, oc, on))) eqn:Q; [|reflexivity]. destruct (scan_measure l (scan_item v (op, oc, on))) as (_ & T & _). rewrite (T Q) in F. discriminate. }
  assert (S : scan_item v (op, oc, on) = v /\ forall c r, v_rest v = c :: r -> c = oc -> (v_fp v = false -> alike (v_prev v) op = false) /\ (v_fn v = false -> alike (hd_error r) on = false)).
  { unfold scan_item in *. unfold marks in M. destruct v as [pv rest fp fn ch]. cbn [v_prev v_rest v_fp v_fn v_change] in *. destruct rest as [|c rest]; [split; [reflexivity|discriminate]|].
    destruct (N.eqb_spec c oc) as [->|NE]; [|split; [reflexivity|intros c0 r Q ->; injection Q as -> ->; contradiction]]. destruct M as (_ & _ & MB). subst ch.
    destruct fp, fn, (alike pv op), (alike (hd_error rest) on) eqn:AN; cbn [andb orb negb v_change] in *; try discriminate; (split; [reflexivity|]); intros c0 r Q _; injection Q as Q1 Q2; subst c0 r; cbn [v_fp v_fn v_prev]; split; auto; try discriminate. }
  destruct S as [S1 S2]. rewrite S1 in *. destruct (IH v M C F) as [T1 T2]. split; [exact T1|]. intros c r Q op' on' [J|J].
  - injection J as J1 J2 J3. subst op' on'. apply (S2 c r Q). symmetry. exact J2.
  - eapply T2; eassumption.
Qed.
Lemma verify_bad fuel : forall v, match verify_loop fuel ts v false with Made b => b = false | _ => True end.
Proof.
  induction fuel as [|fuel IH]; intros v; cbn [verify_loop]; [exact Logic.I|]. destruct (v_rest v); [reflexivity|]. cbv zeta. destruct (v_rest _) as [|c rest]; [reflexivity|]. destruct (v_change _); apply IH.
Qed.
Lemma verify_ends fuel : forall v rc, marks v -> (measure v < fuel)%nat -> exists b, verify_loop fuel ts v rc = Made b.
Proof.
  induction fuel as [|fuel IH]; intros v rc M L; [lia|]. cbn [verify_loop]. destruct (v_rest v) as [|c rest] eqn:E; [eauto|]. cbv zeta.
  set (v0 := mkV (v_prev v) (c :: rest) (v_fp v) (v_fn v) false). assert (M0 : marks v0) by (unfold marks in *; rewrite E in M; exact M).
  assert (E0 : measure v0 = measure v) by (unfold measure; rewrite E; reflexivity).
  destruct (scan_sound ts (incl_refl _) v0 M0) as [M1 _]. destruct (scan_measure ts v0) as (_ & _ & S3). cbv zeta in M1, S3. pose proof (scan_same ts v0 M0 eq_refl) as SS.
  set (v1 := fold_left scan_item ts v0) in *. clearbody v1. destruct (v_rest v1) as [|c1 r1] eqn:E1; [eauto|]. destruct (v_change v1) eqn:CH.
  - apply IH; [exact M1|]. specialize (S3 eq_refl eq_refl). lia.
  - destruct (SS eq_refl) as [-> _]. cbn in E1. injection E1 as <- <-. apply IH.
    + unfold marks. cbn. destruct rest; [exact Logic.I|]. split; [discriminate|]. split; [discriminate|reflexivity].
    + unfold marks in M0. cbn in M0. destruct M0 as (_ & _ & MB). unfold measure in *. cbn [v_rest v_fp v_fn v0 length] in *. rewrite E in L. destruct (v_fp v), (v_fn v); try discriminate; cbn [b2n length] in *; destruct rest; cbn [length] in *; lia.
Qed.
Lemma verify_sound fuel : forall v, marks v -> verify_loop fuel ts v true = Made true -> chk (v_prev v) (v_rest v).
Proof.
  induction fuel as [|fuel IH]; intros v M E; cbn [verify_loop] in E; [discriminate|]. destruct (v_rest v) as [|c rest] eqn:R; [exact Logic.I|]. cbv zeta in E.
  set (v0 := mkV (v_prev v) (c :: rest) (v_fp v) (v_fn v) false) in *. assert (M0 : marks v0) by (unfold marks in *; rewrite R in M; exact M).
  destruct (scan_sound ts (incl_refl _) v0 M0) as [M1 S]. cbv zeta in M1, S. change (chk (v_prev v0) (v_rest v0)). set (v1 := fold_left scan_item ts v0) in *. clearbody v1.
  apply S. destruct (v_rest v1) as [|c1 r1] eqn:E1; [exact Logic.I|]. destruct (v_change v1).
  - rewrite <- E1. apply IH; assumption.
  - pose proof (verify_bad fuel (mkV (Some c1) r1 false false false)) as B. rewrite E in B. discriminate.
Qed.
Lemma chk_scan l : forall v, chk (v_prev v) (v_rest v) -> chk (v_prev (fold_left scan_item l v)) (v_rest (fold_left scan_item l v)).
Proof.
  induction l as [|[[op oc] on] l IHl]; intros v K; [exact K|]. cbn [fold_left]. apply IHl. unfold scan_item. destruct v as [pv rest fp fn ch]. cbn [v_prev v_rest v_fp v_fn v_change] in *.
  destruct rest as [|c rest]; [exact K|]. destruct (c =? oc); [|exact K]. destruct (_ && _); cbn [v_prev v_rest]; [apply K|exact K].
Qed.
Lemma verify_complete fuel : forall v, marks v -> (measure v < fuel)%nat -> chk (v_prev v) (v_rest v) -> verify_loop fuel ts v true = Made true.
Proof.
  induction fuel as [|fuel IH]; intros v M L K; [lia|]. cbn [verify_loop]. destruct (v_rest v) as [|c rest] eqn:E; [reflexivity|]. cbv zeta.
  set (v0 := mkV (v_prev v) (c :: rest) (v_fp v) (v_fn v) false). assert (M0 : marks v0) by (unfold marks in *; rewrite E in M; exact M).
  assert (E0 : measure v0 = measure v) by (unfold measure; rewrite E; reflexivity).
  assert (K0 : chk (v_prev v0) (v_rest v0)) by exact K.
  destruct (scan_sound ts (incl_refl _) v0 M0) as [M1 _]. destruct (scan_measure ts v0) as (_ & _ & S3). cbv zeta in M1, S3. pose proof (scan_same ts v0 M0 eq_refl) as SS.
  assert (K1 : chk (v_prev (fold_left scan_item ts v0)) (v_rest (fold_left scan_item ts v0))) by (apply chk_scan; exact K0).
  assert (CH : v_change (fold_left scan_item ts v0) = true).
  { destruct (v_change (fold_left scan_item ts v0)) eqn:Q; [reflexivity|]. destruct (SS eq_refl) as [_ H]. specialize (H c rest eq_refl). destruct K0 as ((o1 & n1 & J1 & A1) & (o2 & n2 & J2 & A2) & _).
    destruct M0 as (_ & _ & MB). destruct (v_fp v0) eqn:FP.
    - destruct (v_fn v0) eqn:FN; [discriminate|]. destruct (H _ _ J2) as [_ Z]. cbn in A2. rewrite (Z eq_refl) in A2. discriminate.
    - destruct (H _ _ J1) as [Z _]. rewrite (Z eq_refl) in A1. discriminate. }
  specialize (S3 CH eq_refl). rewrite CH. set (v1 := fold_left scan_item ts v0) in *. clearbody v1. destruct (v_rest v1) as [|c1 r1] eqn:E1; [reflexivity|]. apply IH; [exact M1|lia|rewrite E1; exact K1].
Qed.
End Check.
