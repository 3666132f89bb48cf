(** Blocks, padding and uniqueness, shared by the two hash functions. *)
From Verif Require Import Base MlsModel ContextModel Sha1Model ShaSpec ShaBits.

(** ** Absorbing whole blocks *)

Section Absorb.
Context (comp : list N -> list N -> list N).

Fixpoint absorb (n : nat) (st p : list N) : list N :=
  match n with O => st | S k => absorb k (comp st (firstn 64 p)) (skipn 64 p) end.

Lemma absorb_app n : forall m st a b, length a = (64 * n)%nat ->
  absorb (n + m) st (a ++ b) = absorb m (absorb n st a) b.
Proof.
  induction n as [|n IH]; intros m st a b L.
  - destruct a; [reflexivity|discriminate].
  - cbn [Nat.add absorb].
    assert (F : firstn 64 (a ++ b) = firstn 64 a).
    { rewrite firstn_app. replace (64 - length a)%nat with 0%nat by lia. rewrite firstn_O, app_nil_r. reflexivity. }
    assert (K : skipn 64 (a ++ b) = skipn 64 a ++ b).
    { rewrite skipn_app. replace (64 - length a)%nat with 0%nat by lia. reflexivity. }
    rewrite F, K. apply IH. rewrite skipn_length. lia.
Qed.

Lemma absorb_one st a : length a = 64%nat -> absorb 1 st a = comp st a.
Proof. intros L. cbn [absorb]. rewrite firstn_all2 by lia. reflexivity. Qed.

Lemma absorb_prefix n st a b : length a = (64 * n)%nat -> absorb n st (a ++ b) = absorb n st a.
Proof. intros L. replace n with (n + 0)%nat at 1 by lia. rewrite absorb_app by exact L. reflexivity. Qed.
End Absorb.

(** ** memcpy *)

Lemma copy64_ok buf off src : length buf = 64%nat -> (N.to_nat off + length src <= 64)%nat ->
  exists b, copy64 buf off src = ROk b /\ length b = 64%nat /\
    firstn (N.to_nat off + length src) b = firstn (N.to_nat off) buf ++ src.
Proof.
  intros L H. unfold copy64. replace (off + N.of_nat (length src) <=? 64) with true by lia.
  eexists. split; [reflexivity|]. split.
  - rewrite !app_length, firstn_length, skipn_length. lia.
  - rewrite app_assoc, firstn_app.
    assert (E : length (firstn (N.to_nat off) buf ++ src) = (N.to_nat off + length src)%nat)
      by (rewrite app_length, firstn_length; lia).
    rewrite E, Nat.sub_diag, firstn_O, app_nil_r. apply firstn_all2. lia.
Qed.

Lemma copy64_bad buf off src : (64 < N.to_nat off + length src)%nat -> copy64 buf off src = RUB.
Proof. intros H. unfold copy64. replace (off + N.of_nat (length src) <=? 64) with false by lia. reflexivity. Qed.

(** ** Building a sequence from its own past *)

Section History.
Context (G : nat -> list N -> N).
Fixpoint hist (n : nat) : list N :=
  match n with O => [] | S k => let l := hist k in l ++ [G k l] end.
Lemma hist_length n : length (hist n) = n.
Proof. induction n as [|n IH]; [reflexivity|]. cbn [hist]. rewrite app_length, IH. cbn. lia. Qed.
Definition seqv (t : nat) : N := nth t (hist (S t)) 0.
Lemma hist_nth n t : (t < n)%nat -> nth t (hist n) 0 = seqv t.
Proof.
  induction n as [|n IH]; intros H; [lia|]. destruct (Nat.eq_dec t n) as [->|E]; [reflexivity|].
  cbn [hist]. rewrite app_nth1 by (rewrite hist_length; lia). apply IH. lia.
Qed.
Lemma seqv_eq t : seqv t = G t (hist t).
Proof.
  unfold seqv. cbn [hist]. rewrite app_nth2 by (rewrite hist_length; lia). rewrite hist_length, Nat.sub_diag. reflexivity.
Qed.
End History.

(** ** Padding *)

Lemma padded_fun m p p' : padded m p -> padded m p' -> p = p'.
Proof.
  intros (k & Hk & -> & H) (k' & Hk' & -> & H'). f_equal. f_equal. f_equal. f_equal.
  rewrite app_length in H, H'. cbn [length] in H, H'. rewrite !app_length, repeat_length, be_bytes_len in H, H'.
  generalize dependent (length m). intros n H H'.
  pose proof (Nat.div_mod (n + S (k + 8)) 64 ltac:(lia)). pose proof (Nat.div_mod (n + S (k' + 8)) 64 ltac:(lia)). lia.
Qed.

(** ** Chains *)

Lemma chain_fun {H} (block : H -> list N -> H -> Prop) :
  (forall h b h1 h2, length b = 64%nat -> block h b h1 -> block h b h2 -> h1 = h2) ->
  forall h p h1, chain block h p h1 -> forall h2, chain block h p h2 -> h1 = h2.
Proof.
  intros F h p h1 C. induction C as [h|h b ha p h1 Lb B C IH]; intros h2 C2.
  - inversion C2 as [|? b ? ? ? Lb]; subst; [reflexivity|].
    match goal with X : _ ++ _ = [] |- _ => apply app_eq_nil in X; destruct X as [-> _] end. discriminate.
  - inversion C2 as [? E1 E2 E3|? b' hb p' ? Lb' B' C' E1 E2 E3]; subst.
    + destruct b; discriminate.
    + assert (X : b' = b /\ p' = p).
      { assert (Y : firstn 64 (b' ++ p') = firstn 64 (b ++ p)) by (rewrite E2; reflexivity).
        assert (Z : skipn 64 (b' ++ p') = skipn 64 (b ++ p)) by (rewrite E2; reflexivity).
        rewrite !firstn_app, Lb, Lb', Nat.sub_diag, !firstn_O, !app_nil_r in Y.
        rewrite !skipn_app, Lb, Lb', Nat.sub_diag in Z. rewrite (skipn_all2 b), (skipn_all2 b') in Z by lia.
        rewrite !firstn_all2 in Y by lia. split; assumption. }
      destruct X as [-> ->]. apply IH. rewrite (F _ _ _ _ Lb B B'). exact C'.
Qed.
