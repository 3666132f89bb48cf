(** Shared definitions: machine words, bits, little-endian bytes.
    Nothing here models a particular C function except where a line reference is given. *)
From Coq Require Export List NArith ZArith Lia Bool Arith.
From Coq Require Export ZifyBool ZifyNat ZifyN.
From Coq Require Import Sorted.
Export ListNotations.
Global Open Scope N_scope.
Global Open Scope bool_scope.
#[global] Arguments N.add : simpl never.
#[global] Arguments N.sub : simpl never.
#[global] Arguments N.mul : simpl never.
#[global] Arguments N.pow : simpl never.
#[global] Arguments N.div : simpl never.
#[global] Arguments N.modulo : simpl never.
#[global] Arguments N.testbit : simpl never.
#[global] Arguments N.eqb : simpl never.
#[global] Arguments N.ltb : simpl never.
#[global] Arguments N.leb : simpl never.
#[global] Arguments N.land : simpl never.
#[global] Arguments N.lor : simpl never.
#[global] Arguments N.lxor : simpl never.
#[global] Arguments N.ldiff : simpl never.
#[global] Arguments N.shiftl : simpl never.
#[global] Arguments N.shiftr : simpl never.

(** C's [uint32_t] (2^32). Kept as a constant so that [lia] sees a numeral. *)
Definition W32 : N := 4294967296.
(** C's [uint64_t] (2^64). *)
Definition W64 : N := 18446744073709551616.
(** Conversion to [uint32_t]. *)
Definition wrap32 (x : N) : N := x mod W32.

Lemma W32_pow : W32 = 2 ^ 32. Proof. reflexivity. Qed.
Lemma W64_pow : W64 = 2 ^ 64. Proof. reflexivity. Qed.

Lemma wrap32_small x : x < W32 -> wrap32 x = x.
Proof. intros; unfold wrap32; apply N.mod_small; assumption. Qed.

(** ** Bits *)

Lemma testbit_high m k i : m < 2 ^ k -> k <= i -> N.testbit m i = false.
Proof.
  intros Hm Hk. destruct (N.eq_dec m 0) as [->|Hz]; [apply N.bits_0|].
  apply N.bits_above_log2.
  assert (N.log2 m < k) by (apply N.log2_lt_pow2; lia). lia.
Qed.

Lemma lt_pow2_bits m k : (forall i, k <= i -> N.testbit m i = false) -> m < 2 ^ k.
Proof.
  intros H. destruct (N.eq_dec m 0) as [->|Hz].
  - pose proof (N.pow_nonzero 2 k ltac:(lia)). lia.
  - destruct (N.lt_ge_cases m (2 ^ k)) as [Hlt|Hge]; [exact Hlt|exfalso].
    assert (k <= N.log2 m) by (apply N.log2_le_pow2; lia).
    specialize (H _ H0). rewrite N.bit_log2 in H by exact Hz. discriminate.
Qed.

Lemma nonzero_bit m : m <> 0 -> exists i, N.testbit m i = true.
Proof. intros H. exists (N.log2 m). apply N.bit_log2; exact H. Qed.

Lemma bits_zero m : (forall i, N.testbit m i = false) -> m = 0.
Proof. intros H. apply N.bits_inj. intro i. rewrite H, N.bits_0. reflexivity. Qed.

Lemma lor_lt a b k : a < 2 ^ k -> b < 2 ^ k -> N.lor a b < 2 ^ k.
Proof.
  intros Ha Hb. apply lt_pow2_bits. intros i Hi.
  rewrite N.lor_spec, (testbit_high a k), (testbit_high b k) by assumption. reflexivity.
Qed.

Lemma lxor_lt a b k : a < 2 ^ k -> b < 2 ^ k -> N.lxor a b < 2 ^ k.
Proof.
  intros Ha Hb. apply lt_pow2_bits. intros i Hi.
  rewrite N.lxor_spec, (testbit_high a k), (testbit_high b k) by assumption. reflexivity.
Qed.

Lemma land_lt_l a b k : a < 2 ^ k -> N.land a b < 2 ^ k.
Proof.
  intros Ha. apply lt_pow2_bits. intros i Hi.
  rewrite N.land_spec, (testbit_high a k) by assumption. reflexivity.
Qed.

Lemma ldiff_lt_l a b k : a < 2 ^ k -> N.ldiff a b < 2 ^ k.
Proof.
  intros Ha. apply lt_pow2_bits. intros i Hi.
  rewrite N.ldiff_spec, (testbit_high a k) by assumption. reflexivity.
Qed.

Lemma ones_bit n i : N.testbit (N.ones n) i = (i <? n).
Proof.
  destruct (N.ltb_spec i n).
  - apply N.ones_spec_low; assumption.
  - apply N.ones_spec_high; assumption.
Qed.

Lemma shiftl1_bit n i : N.testbit (N.shiftl 1 n) i = (i =? n).
Proof.
  rewrite N.shiftl_1_l, N.pow2_bits_eqb. apply N.eqb_sym.
Qed.

(** Number of one bits. *)
Fixpoint pos_popcount (p : positive) : N :=
  match p with
  | xH => 1
  | xO q => pos_popcount q
  | xI q => 1 + pos_popcount q
  end.
(** [__builtin_popcountll]. *)
Definition popcount (m : N) : N := match m with N0 => 0 | Npos p => pos_popcount p end.

(** ** Little-endian bytes *)

(** A byte. *)
Definition byte_ok (b : N) : bool := b <? 256.

(** [cpu_to_le32]/[cpu_to_le64] followed by writing [k] bytes. *)
Fixpoint le_enc (k : nat) (n : N) : list N :=
  match k with
  | O => []
  | S k' => (n mod 256) :: le_enc k' (n / 256)
  end.

(** Reading [k] bytes ([next_entry], libsepol/src/services.c / policydb.c) followed by [le32_to_cpu]/[le64_to_cpu].
    [None] is the short read. *)
Fixpoint le_dec (k : nat) (bs : list N) : option (N * list N) :=
  match k with
  | O => Some (0, bs)
  | S k' =>
      match bs with
      | [] => None
      | b :: bs' =>
          match le_dec k' bs' with
          | None => None
          | Some (v, rest) => Some (b + 256 * v, rest)
          end
      end
  end.

Lemma le_dec_enc k : forall n rest, n < 256 ^ N.of_nat k ->
  le_dec k (le_enc k n ++ rest) = Some (n, rest).
Proof.
  induction k as [|k IH]; intros n rest Hn.
  - cbn in Hn. cbn [le_enc le_dec app]. f_equal. f_equal. change (256 ^ 0) with 1 in Hn. lia.
  - cbn [le_enc le_dec app]. rewrite IH.
    + f_equal. f_equal. pose proof (N.div_mod n 256 ltac:(lia)). lia.
    + apply N.div_lt_upper_bound; [lia|].
      rewrite Nat2N.inj_succ, N.pow_succ_r' in Hn. exact Hn.
Qed.

Lemma le_enc_bytes k : forall n, forallb byte_ok (le_enc k n) = true.
Proof.
  induction k as [|k IH]; intros n; cbn [le_enc forallb]; [reflexivity|].
  rewrite IH, andb_true_r. unfold byte_ok. apply N.ltb_lt. apply N.mod_lt. lia.
Qed.

Lemma le_enc_length k : forall n, length (le_enc k n) = k.
Proof. induction k as [|k IH]; intros n; cbn [le_enc length]; [|rewrite IH]; reflexivity. Qed.

Lemma le_dec_bound k : forall bs v rest,
  forallb byte_ok bs = true -> le_dec k bs = Some (v, rest) ->
  v < 256 ^ N.of_nat k /\ forallb byte_ok rest = true.
Proof.
  induction k as [|k IH]; intros bs v rest Hb; cbn [le_dec].
  - intros [= <- <-]. split; [cbn; lia|exact Hb].
  - destruct bs as [|b bs']; [discriminate|].
    cbn [forallb] in Hb. apply andb_prop in Hb as [Hb1 Hb2].
    destruct (le_dec k bs') as [[v' r']|] eqn:E; [|discriminate].
    intros [= <- <-]. destruct (IH _ _ _ Hb2 E) as [Hv Hr]. split; [|exact Hr].
    rewrite Nat2N.inj_succ, N.pow_succ_r'. unfold byte_ok in Hb1. apply N.ltb_lt in Hb1. lia.
Qed.

Lemma le_dec_split k : forall bs v rest,
  forallb byte_ok bs = true -> le_dec k bs = Some (v, rest) -> bs = le_enc k v ++ rest.
Proof.
  induction k as [|k IH]; intros bs v rest Hb; cbn [le_dec].
  - intros [= <- <-]. reflexivity.
  - destruct bs as [|b bs']; [discriminate|].
    cbn [forallb] in Hb. apply andb_prop in Hb as [Hb1 Hb2].
    destruct (le_dec k bs') as [[v' r']|] eqn:E; [|discriminate].
    intros [= <- <-]. unfold byte_ok in Hb1. apply N.ltb_lt in Hb1.
    cbn [le_enc app]. rewrite (IH _ _ _ Hb2 E) at 1. f_equal; [|f_equal; f_equal].
    + replace (b + 256 * v') with (b + v' * 256) by lia.
      rewrite N.mod_add by lia. symmetry. apply N.mod_small; lia.
    + replace (b + 256 * v') with (b + v' * 256) by lia.
      rewrite N.div_add by lia. rewrite N.div_small by lia. lia.
Qed.

(** ** Lists *)

Lemma forallb_Forall {A} (f : A -> bool) l : forallb f l = true <-> Forall (fun x => f x = true) l.
Proof.
  rewrite forallb_forall, Forall_forall. reflexivity.
Qed.

Lemma existsb_false {A} (f : A -> bool) l :
  existsb f l = false <-> (forall x, In x l -> f x = false).
Proof.
  split.
  - intros H x Hx. destruct (f x) eqn:E; [|reflexivity].
    assert (existsb f l = true) by (apply existsb_exists; eauto). congruence.
  - intros H. destruct (existsb f l) eqn:E; [|reflexivity].
    apply existsb_exists in E as (x & Hx & Hf). rewrite (H x Hx) in Hf. discriminate.
Qed.

Lemma bool_ext (a b : bool) : (a = true <-> b = true) -> a = b.
Proof. destruct a, b; intuition congruence. Qed.
