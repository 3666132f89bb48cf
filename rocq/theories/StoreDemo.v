(** A store with a policy, a backup and a sandbox. *)
From Verif Require Import Base StoreModel StoreSpec.

(** A sequence of calls that all succeed, and ones of which some fail. *)
Definition never : nat -> sysret := fun _ => SOk.
Definition fails (l : list nat) : nat -> sysret := fun n => if existsb (Nat.eqb n) l then SFail else SOk.
Definition across (k : nat) (l : list nat) : nat -> sysret := fun n => if (n =? k)%nat then SXdev else fails l n.
Definition old : dir := [(0, 4); (1, 100); (2, 200)].
Definition sandbox : dir := [(0, 4); (1, 101); (3, 301)].
Definition new : dir := [(0, 5); (1, 101); (3, 301)].
Definition files (k : N) : N -> option file := fun i => if existsb (N.eqb i) [1; 3; 7] then Some (i * 100 + k) else None.
Definition start : world := mkW (Some old) (Some [(1, 99)]) (Some sandbox) (files 0) (files 1) (Some 700).
Definition result {A} (x : A * world * list world) : A := fst (fst x).
Definition after {A} (x : A * world * list world) : world := snd (fst x).
Definition passed {A} (x : A * world * list world) : list world := snd x.

Lemma fails_one k : one_failure (fails [k]).
Proof.
  intros a b A B. unfold fails in *. cbn [existsb] in *. rewrite orb_false_r in *.
  destruct (Nat.eqb_spec a k); [|congruence]. destruct (Nat.eqb_spec b k); [|congruence]. congruence.
Qed.
Lemma fails_local l : one_filesystem (fails l).
Proof. intros n. unfold fails. destruct (existsb _ _); discriminate. Qed.

