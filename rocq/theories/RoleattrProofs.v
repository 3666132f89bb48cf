(** Proofs about the expansion of role attributes. *)
From Verif Require Import Base MlsModel ContextModel RoleattrModel RoleattrSpec.

Lemma in_numbers n x : In x (numbers_below n) <-> (x < N.of_nat n)%N.
Proof.
  induction n as [|n IH]; cbn [numbers_below].
  - split; [intros []|lia].
  - rewrite in_app_iff, IH. cbn [In]. lia.
Qed.
Lemma numbers_nodup n : NoDup (numbers_below n).
Proof.
  induction n as [|n IH]; cbn [numbers_below]; [constructor|]. apply NoDup_remove_1 with (a := N.of_nat n) (l' := []) || idtac.
  assert (H : NoDup (N.of_nat n :: numbers_below n)) by (constructor; [rewrite in_numbers; lia|exact IH]).
  revert H. generalize (numbers_below n) as l, (N.of_nat n) as a. clear. intros l a H.
  apply (NoDup_Add (a := a) (l := l) (l' := l ++ [a])).
  - rewrite <- (app_nil_r l) at 1. apply Add_app.
  - inversion H; auto.
Qed.
Lemma numbers_len n : length (numbers_below n) = n.
Proof. induction n as [|n IH]; cbn [numbers_below]; [reflexivity|]. rewrite app_length, IH. cbn. lia. Qed.

Lemma bit_below_size m i : N.testbit m i = true -> (i < N.size m)%N.
Proof.
  intros H. destruct (N.lt_ge_cases i (N.size m)) as [L|L]; [exact L|]. exfalso.
  destruct (N.eq_dec m 0) as [->|Nz]; [rewrite N.bits_0 in H; discriminate|].
  rewrite N.bits_above_log2 in H; [discriminate|]. pose proof (N.size_log2 m Nz). lia.
Qed.

Section Expand.
  Context (attr : N -> bool) (rank : N -> nat).

  (** The scan, if the attribute itself is not in the set. *)
  Lemma scan_ok R self l : forall m, N.testbit m self = false ->
    (scan_bits attr R self m l = Done m /\ forall i, In i l -> N.testbit m i = true -> attr i = false) \/
    exists i, In i l /\ N.testbit m i = true /\ attr i = true /\ i <> self /\ scan_bits attr R self m l = Again (N.lor (N.clearbit m i) (R i)).
  Proof.
    induction l as [|i l IH]; intros m Hs; cbn [scan_bits].
    - left. split; [reflexivity|intros i []].
    - destruct (N.testbit m i) eqn:T.
      + destruct (attr i) eqn:A; cbn [negb].
        * right. exists i. assert (Ne : i <> self) by (intros ->; congruence).
          destruct (i =? self) eqn:E; [lia|]. split; [left; reflexivity|]. auto.
        * destruct (IH m Hs) as [[X Y]|(k & X & Y)]; [left; split; [exact X|intros j [<-|Hj] Tj; auto]|right; exists k; split; [right; exact X|exact Y]].
      + destruct (IH m Hs) as [[X Y]|(k & X & Y)]; [left; split; [exact X|intros j [<-|Hj] Tj; [congruence|auto]]|right; exists k; split; [right; exact X|exact Y]].
  Qed.

  (** Weight of the attributes in a set. *)
  Definition weight1 (B : nat) (m : N) (i : N) : nat := if N.testbit m i && attr i then B ^ rank i else 0.
  Fixpoint weight (B : nat) (l : list N) (m : N) : nat := match l with [] => 0 | i :: r => weight1 B m i + weight B r m end.

  Lemma weight_lor B l a b : (weight B l (N.lor a b) <= weight B l a + weight B l b)%nat.
  Proof.
    induction l as [|i l IH]; cbn [weight]; [lia|]. assert (weight1 B (N.lor a b) i <= weight1 B a i + weight1 B b i)%nat; [|lia].
    unfold weight1. rewrite N.lor_spec. destruct (N.testbit a i), (N.testbit b i), (attr i); cbn; lia.
  Qed.
  Lemma weight_clear_out B l m i : ~ In i l -> weight B l (N.clearbit m i) = weight B l m.
  Proof.
    induction l as [|j l IH]; intros H; cbn [weight]; [reflexivity|]. rewrite IH by (intros X; apply H; right; exact X). f_equal.
    unfold weight1. rewrite N.clearbit_neq; [reflexivity|]. intros ->. apply H. left. reflexivity.
  Qed.
  Lemma weight_clear B l m i : NoDup l -> In i l -> N.testbit m i = true -> attr i = true ->
    (weight B l (N.clearbit m i) + B ^ rank i = weight B l m)%nat.
  Proof.
    intros Nd. induction Nd as [|j l Nj Nd IH]; intros Hi T A; [destruct Hi|]. cbn [weight]. destruct Hi as [->|Hi].
    - rewrite weight_clear_out by exact Nj. unfold weight1. rewrite N.clearbit_eq, T, A. cbn. lia.
    - specialize (IH Hi T A). assert (Ne : i <> j) by (intros ->; contradiction).
      assert (E : weight1 B (N.clearbit m i) j = weight1 B m j) by (unfold weight1; rewrite N.clearbit_neq by exact Ne; reflexivity). lia.
  Qed.
  Lemma weight_bound B l m r : (1 <= B)%nat -> (forall k, N.testbit m k = true -> attr k = true -> (rank k <= r)%nat) ->
    (weight B l m <= length l * B ^ r)%nat.
  Proof.
    intros HB H. induction l as [|i l IH]; cbn [weight length]; [lia|]. assert (weight1 B m i <= B ^ r)%nat; [|lia].
    unfold weight1. destruct (N.testbit m i) eqn:T; [|cbn; lia]. destruct (attr i) eqn:A; [|cbn; lia]. cbn [andb].
    apply Nat.pow_le_mono_r; [lia|]. apply H; assumption.
  Qed.
  Lemma weight_none B l m : (forall k, N.testbit m k = true -> attr k = false) -> weight B l m = 0%nat.
  Proof.
    intros H. induction l as [|i l IH]; cbn [weight]; [reflexivity|]. rewrite IH. unfold weight1.
    destruct (N.testbit m i) eqn:T; [rewrite (H i T)|]; reflexivity.
  Qed.

  Definition bounded (n : nat) (R : N -> N) : Prop := forall i j, N.testbit (R i) j = true -> (j < N.of_nat n)%N.

  Lemma weight_step n R m i : bounded n R -> ranked attr R rank -> (forall j, N.testbit m j = true -> (j < N.of_nat n)%N) ->
    N.testbit m i = true -> attr i = true ->
    (weight (S n) (numbers_below n) (N.lor (N.clearbit m i) (R i)) < weight (S n) (numbers_below n) m)%nat.
  Proof.
    intros Bd Rk Bm T A. pose proof (weight_lor (S n) (numbers_below n) (N.clearbit m i) (R i)) as L.
    pose proof (weight_clear (S n) (numbers_below n) m i (numbers_nodup n) ltac:(apply in_numbers; apply Bm; exact T) T A) as C.
    assert (W : (weight (S n) (numbers_below n) (R i) < S n ^ rank i)%nat); [|lia].
    destruct (rank i) as [|r] eqn:E.
    - rewrite weight_none; [cbn; lia|]. intros k Tk. destruct (attr k) eqn:Ak; [|reflexivity]. specialize (Rk i k A Ak Tk). lia.
    - pose proof (weight_bound (S n) (numbers_below n) (R i) r ltac:(lia)) as Wb.
      assert (X : forall k, N.testbit (R i) k = true -> attr k = true -> (rank k <= r)%nat).
      { intros k Tk Ak. specialize (Rk i k A Ak Tk). lia. }
      specialize (Wb X). rewrite numbers_len in Wb. cbn [Nat.pow].
      assert (1 <= S n ^ r)%nat by (pose proof (Nat.pow_nonzero (S n) r ltac:(lia)); lia). lia.
  Qed.

  (** Replacing an attribute by its members keeps what is contained. *)
  Definition put (R : N -> N) (self m : N) : N -> N := fun i => if i =? self then m else R i.
  Lemma put_same R self m : put R self m self = m.
  Proof. unfold put. rewrite N.eqb_refl. reflexivity. Qed.
  Lemma put_other R self m i : i <> self -> put R self m i = R i.
  Proof. intros H. unfold put. destruct (i =? self) eqn:E; [lia|reflexivity]. Qed.

  Lemma bit_step m r i j : N.testbit (N.lor (N.clearbit m i) r) j = true <-> (N.testbit m j = true /\ j <> i) \/ N.testbit r j = true.
  Proof.
    rewrite N.lor_spec, orb_true_iff. destruct (N.eq_dec j i) as [->|Ne].
    - rewrite N.clearbit_eq. split; [intros [X|X]; [discriminate|auto]|intros [[_ X]|X]; [contradiction|auto]].
    - rewrite N.clearbit_neq by auto. tauto.
  Qed.

  Lemma within_step R self m i : N.testbit m i = true -> attr i = true -> i <> self ->
    let R1 := put R self m in let R2 := put R self (N.lor (N.clearbit m i) (R i)) in
    forall x j, within attr R2 x j <-> within attr R1 x j.
  Proof.
    intros T A Ne R1 R2.
    assert (Ei : R1 i = R i) by (apply put_other; exact Ne). assert (Ei2 : R2 i = R i) by (apply put_other; exact Ne).
    assert (Es : R1 self = m) by apply put_same. assert (Es2 : R2 self = N.lor (N.clearbit m i) (R i)) by apply put_same.
    assert (O1 : forall y, y <> self -> R1 y = R y) by (intros y; apply put_other).
    assert (O2 : forall y, y <> self -> R2 y = R y) by (intros y; apply put_other).
    clearbody R1 R2. intros x j. split; intros H.
    - induction H as [x j H Aj|x k j H Ak W IH]; destruct (N.eq_dec x self) as [->|Nx].
      + rewrite Es2 in H. apply bit_step in H. destruct H as [[H _]|H]; [apply within_direct; [rewrite Es; exact H|exact Aj]|].
        apply (within_via attr R1 self i j); [rewrite Es; exact T|exact A|]. apply within_direct; [rewrite Ei; exact H|exact Aj].
      + apply within_direct; [|exact Aj]. rewrite O1 by exact Nx. rewrite O2 in H by exact Nx. exact H.
      + rewrite Es2 in H. apply bit_step in H. destruct H as [[H _]|H]; [apply (within_via attr R1 self k j); [rewrite Es; exact H|exact Ak|exact IH]|].
        apply (within_via attr R1 self i j); [rewrite Es; exact T|exact A|]. apply (within_via attr R1 i k j); [rewrite Ei; exact H|exact Ak|exact IH].
      + apply (within_via attr R1 x k j); [|exact Ak|exact IH]. rewrite O1 by exact Nx. rewrite O2 in H by exact Nx. exact H.
    - induction H as [x j H Aj|x k j H Ak W IH]; destruct (N.eq_dec x self) as [->|Nx].
      + apply within_direct; [|exact Aj]. rewrite Es in H. rewrite Es2. apply bit_step. left. split; [exact H|]. intros ->. congruence.
      + apply within_direct; [|exact Aj]. rewrite O2 by exact Nx. rewrite O1 in H by exact Nx. exact H.
      + rewrite Es in H. destruct (N.eq_dec k i) as [->|Nk].
        * inversion IH as [? ? H1 H2|? k2 ? H1 H2 H3]; subst; rewrite Ei2 in H1.
          -- apply within_direct; [rewrite Es2; apply bit_step; right; exact H1|exact H2].
          -- apply (within_via attr R2 self k2 j); [rewrite Es2; apply bit_step; right; exact H1|exact H2|exact H3].
        * apply (within_via attr R2 self k j); [rewrite Es2; apply bit_step; left; auto|exact Ak|exact IH].
      + apply (within_via attr R2 x k j); [|exact Ak|exact IH]. rewrite O2 by exact Nx. rewrite O1 in H by exact Nx. exact H.
  Qed.

  Lemma within_ext R1 R2 : (forall i, R1 i = R2 i) -> forall x j, within attr R1 x j -> within attr R2 x j.
  Proof.
    intros E x j H. induction H as [x j H A|x k j H A W IH]; rewrite E in H; [apply within_direct; assumption|apply (within_via attr R2 x k j); assumption].
  Qed.

  (** One attribute. *)
  Lemma expand_loop_ok n R self : attr self = true ->
    forall fuel m, bounded n (put R self m) -> ranked attr (put R self m) rank ->
    (weight (S n) (numbers_below n) m < fuel)%nat ->
    exists m', expand_loop fuel attr R self m = Some (ROk m') /\
      bounded n (put R self m') /\ ranked attr (put R self m') rank /\
      (forall j, N.testbit m' j = true -> attr j = false) /\
      forall x j, within attr (put R self m') x j <-> within attr (put R self m) x j.
  Proof.
    intros As. induction fuel as [|fuel IH]; intros m Bd Rk Hf; [lia|]. cbn [expand_loop].
    assert (Ns : N.testbit m self = false).
    { destruct (N.testbit m self) eqn:T; [|reflexivity]. specialize (Rk self self As As). rewrite put_same in Rk. specialize (Rk T). lia. }
    destruct (scan_ok R self (numbers_below (N.to_nat (N.size m))) m Ns) as [[E D]|(i & _ & T & A & Ne & E)]; rewrite E.
    - exists m. split; [reflexivity|]. split; [exact Bd|]. split; [exact Rk|]. split; [|tauto].
      intros j Tj. apply D; [|exact Tj]. apply in_numbers. rewrite N2Nat.id. apply bit_below_size. exact Tj.
    - set (m2 := N.lor (N.clearbit m i) (R i)).
      assert (Ri : forall j, N.testbit (R i) j = true -> N.testbit (put R self m i) j = true) by (intros j; rewrite put_other by exact Ne; auto).
      assert (Bd2 : bounded n (put R self m2)).
      { intros x j H. destruct (N.eq_dec x self) as [->|Nx].
        - rewrite put_same in H. unfold m2 in H. apply bit_step in H. destruct H as [[H _]|H].
          + apply (Bd self). rewrite put_same. exact H.
          + apply (Bd i). apply Ri. exact H.
        - apply (Bd x). rewrite put_other in H |- * by exact Nx. exact H. }
      assert (Rk2 : ranked attr (put R self m2) rank).
      { intros x k Ax Ak H. destruct (N.eq_dec x self) as [->|Nx].
        - rewrite put_same in H. unfold m2 in H. apply bit_step in H. destruct H as [[H _]|H].
          + apply Rk; [exact As|exact Ak|rewrite put_same; exact H].
          + assert (rank k < rank i)%nat by (apply Rk; [exact A|exact Ak|apply Ri; exact H]).
            assert (rank i < rank self)%nat by (apply Rk; [exact As|exact A|rewrite put_same; exact T]). lia.
        - apply Rk; [exact Ax|exact Ak|]. rewrite put_other in H |- * by exact Nx. exact H. }
      assert (Wt : (weight (S n) (numbers_below n) m2 < weight (S n) (numbers_below n) m)%nat).
      { pose proof (weight_step n (put R self m) m i Bd Rk) as W. rewrite (put_other R self m i Ne) in W. apply W; [|exact T|exact A].
        intros j Tj. apply (Bd self). rewrite put_same. exact Tj. }
      destruct (IH m2 Bd2 Rk2 ltac:(lia)) as (m' & E' & B' & R' & D' & W').
      exists m'. split; [exact E'|]. split; [exact B'|]. split; [exact R'|]. split; [exact D'|].
      intros x j. rewrite W'. apply (within_step R self m i T A Ne).
  Qed.

  (** All attributes: enough fuel. *)
  Definition fuel_for (n : nat) : nat := S (n * S n ^ list_max (map rank (numbers_below n))).

  Lemma weight_max n m : (forall j, N.testbit m j = true -> (j < N.of_nat n)%N) -> (weight (S n) (numbers_below n) m < fuel_for n)%nat.
  Proof.
    intros Bm. unfold fuel_for. pose proof (weight_bound (S n) (numbers_below n) m (list_max (map rank (numbers_below n))) ltac:(lia)) as W.
    rewrite numbers_len in W. assert (X : forall k, N.testbit m k = true -> attr k = true -> (rank k <= list_max (map rank (numbers_below n)))%nat).
    { intros k T _. assert (H : In (rank k) (map rank (numbers_below n))) by (apply in_map; apply in_numbers; apply Bm; exact T).
      pose proof (proj1 (list_max_le (map rank (numbers_below n)) _) (Nat.le_refl _)) as F. rewrite Forall_forall in F. apply F. exact H. }
    specialize (W X). lia.
  Qed.

  Lemma expand_role_ok n fuel R self : attr 0 = false -> bounded n R -> ranked attr R rank -> (fuel_for n <= fuel)%nat ->
    exists R', expand_role fuel attr R self = Some (ROk R') /\ bounded n R' /\ ranked attr R' rank /\
      (forall x j, within attr R' x j <-> within attr R x j) /\
      (forall i, i <> self \/ attr i = false -> R' i = R i) /\
      (attr self = true -> forall j, N.testbit (R' self) j = true -> attr j = false).
  Proof.
    intros A0 Bd Rk Hf. unfold expand_role. destruct (self =? 0) eqn:E0.
    { exists R. split; [reflexivity|]. split; [exact Bd|]. split; [exact Rk|]. split; [tauto|]. split; [auto|].
      intros As. assert (self = 0) by lia. subst self. congruence. }
    destruct (attr self) eqn:As; cbn [negb].
    2: { exists R. split; [reflexivity|]. split; [exact Bd|]. split; [exact Rk|]. split; [tauto|]. split; [auto|]. discriminate. }
    assert (Same : forall i, put R self (R self) i = R i).
    { intros i. unfold put. destruct (i =? self) eqn:E; [replace i with self by lia; reflexivity|reflexivity]. }
    destruct (expand_loop_ok n R self As fuel (R self)) as (m & E & B & K & D & W).
    - intros i j. rewrite Same. apply Bd.
    - intros i k Ai Ak. rewrite Same. apply Rk; assumption.
    - pose proof (weight_max n (R self) (Bd self)). lia.
    - rewrite E. exists (put R self m). split; [reflexivity|]. split; [exact B|]. split; [exact K|]. split; [|split].
      + intros x j. rewrite W. split; apply within_ext; [exact Same|intros i; symmetry; apply Same].
      + intros i [Ne|Ai]; apply put_other; [exact Ne|]. intros ->. congruence.
      + intros _ j. rewrite put_same. apply D.
  Qed.

  Lemma expand_roles_ok n fuel : attr 0 = false -> (fuel_for n <= fuel)%nat -> forall l R, bounded n R -> ranked attr R rank ->
    exists R', expand_roles fuel attr R l = Some (ROk R') /\
      (forall x j, within attr R' x j <-> within attr R x j) /\
      (forall i, attr i = false -> R' i = R i) /\
      (forall i, In i l \/ (forall j, N.testbit (R i) j = true -> attr j = false) -> attr i = true -> forall j, N.testbit (R' i) j = true -> attr j = false).
  Proof.
    intros A0 Hf. induction l as [|i l IH]; intros R Bd Rk; cbn [expand_roles].
    - exists R. split; [reflexivity|]. split; [tauto|]. split; [auto|]. intros i [[]|H] _. exact H.
    - destruct (expand_role_ok n fuel R i A0 Bd Rk Hf) as (R1 & E & B1 & K1 & W1 & U1 & D1). rewrite E.
      destruct (IH R1 B1 K1) as (R' & E' & W' & U' & D'). exists R'. split; [exact E'|]. split; [|split].
      + intros x j. rewrite W'. apply W1.
      + intros x Ax. rewrite U' by exact Ax. apply U1. right. exact Ax.
      + intros x Hx Ax. apply D'; [|exact Ax]. destruct (N.eq_dec x i) as [->|Ne]; [right; apply D1; exact Ax|].
        destruct Hx as [[Hx|Hx]|Hx]; [congruence|left; exact Hx|]. right. rewrite U1 by (left; exact Ne). exact Hx.
  Qed.

  Lemma within_plain R i j : (forall k, N.testbit (R i) k = true -> attr k = false) -> (within attr R i j <-> N.testbit (R i) j = true).
  Proof.
    intros H. split; [|intros T; apply within_direct; auto]. intros W. inversion W as [? ? T _|? k ? T A _]; subst; [exact T|]. specialize (H k T). congruence.
  Qed.
End Expand.

Lemma endless R : R 2 = 2 ^ 3 -> R 3 = 2 ^ 2 -> forall fuel m, m = 2 ^ 2 \/ m = 2 ^ 3 -> expand_loop fuel (fun i => (1 <=? i) && (i <=? 3)) R 1 m = None.
Proof.
  intros R2 R3. induction fuel as [|fuel IH]; intros m H; [reflexivity|]. cbn [expand_loop]. destruct H as [-> | ->].
  - assert (E : scan_bits (fun i => (1 <=? i) && (i <=? 3)) R 1 (2 ^ 2) (numbers_below (N.to_nat (N.size (2 ^ 2)))) = Again (N.lor 0 (R 2))) by reflexivity.
    rewrite E, R2. apply IH. right. reflexivity.
  - assert (E : scan_bits (fun i => (1 <=? i) && (i <=? 3)) R 1 (2 ^ 3) (numbers_below (N.to_nat (N.size (2 ^ 3)))) = Again (N.lor 0 (R 3))) by reflexivity.
    rewrite E, R3. apply IH. left. reflexivity.
Qed.
