(** Property C63: label digests are SHA-1. *)
From Verif Require Import Base MlsModel ContextModel Sha1Model ShaSpec ShaBits ShaStream Sha1Proofs.

(** Data of the cases. *)
Definition abc : list N := [97; 98; 99].
Definition abc_sha1 : list N :=
  [169; 153; 62; 54; 71; 6; 129; 106; 186; 62; 37; 113; 120; 80; 194; 108; 156; 208; 216; 157].
(** What a big-endian machine computes for the same data. *)
Definition abc_big : list N :=
  [20; 194; 6; 144; 246; 83; 251; 22; 57; 110; 79; 128; 76; 157; 175; 180; 110; 81; 61; 79].
(** What the context holds before it is initialised. *)
Definition old_memory : list N := repeat 170 64.

(** The digest is the one SHA-1 digest of the pieces put together. *)
Theorem C63_digest : forall memory pieces,
  length memory = 64%nat -> Forall (Forall byte) pieces ->
  Forall (fun d : list N => N.of_nat (length d) <= 2 ^ 32 - 64) pieces ->
  N.of_nat (length (concat pieces)) < 2 ^ 61 ->
  exists d, sha1_digest false memory pieces = ROk d /\ forall d', sha1_of (concat pieces) d' <-> d' = d.
Proof.
  intros memory pieces L F B T. change (2 ^ 32 - 64) with 4294967232 in B. change (2 ^ 61) with 2305843009213693952 in T.
  destruct (digest_claim memory pieces L F) as (d & E & H).
  - revert B. apply Forall_impl. intros a Ha. unfold two32. lia.
  - unfold W64. lia.
  - exists d. split; [exact E|]. intros d'. split; [intros H'; exact (sha1_of_fun _ _ _ H' H)|intros ->; exact H].
Qed.
Print Assumptions C63_digest.

Example C63_digest_case :
  sha1_digest false old_memory [[97]; []; [98; 99]] = ROk abc_sha1
  /\ sha1_digest false old_memory [abc] = ROk abc_sha1
  /\ sha1_of abc abc_sha1
  /\ sha1_digest false old_memory [repeat 97 60; repeat 97 70; abc]
     = sha1_digest false old_memory [repeat 97 131; [98]; [99]].
Proof.
  split; [vm_compute; reflexivity|]. split; [vm_compute; reflexivity|]. split; [|vm_compute; reflexivity].
  destruct (C63_digest old_memory [abc]) as (d & E & H); try reflexivity;
    try (repeat constructor; cbn; lia || reflexivity).
  apply H. enough (X : ROk d = ROk abc_sha1) by congruence. rewrite <- E. vm_compute. reflexivity.
Qed.

(** The digest of a label database: the specfiles one after the other. *)
Theorem C63_specfiles : forall memory specfiles,
  length memory = 64%nat -> Forall byte specfiles -> N.of_nat (length specfiles) < 2 ^ 33 - 64 ->
  exists d, digest_gen_hash false memory specfiles = ROk d /\ forall d', sha1_of specfiles d' <-> d' = d.
Proof.
  intros memory b L F B. destruct (gen_hash_ok memory b L F) as (d & E & H); [exact B|].
  exists d. split; [exact E|]. intros d'. split; [intros H'; exact (sha1_of_fun _ _ _ H' H)|intros ->; exact H].
Qed.
Print Assumptions C63_specfiles.

Example C63_specfiles_case : digest_gen_hash false old_memory abc = ROk abc_sha1.
Proof. vm_compute. reflexivity. Qed.

(** From 2^33 - 64 bytes on, the check of the free space wraps around and the update writes past
    the buffer in the hash context. *)
Theorem C63_refuted_size : forall memory,
  length memory = 64%nat ->
  (forall specfiles, 2 ^ 33 - 64 <= N.of_nat (length specfiles) -> digest_gen_hash false memory specfiles = RUB)
  /\ (forall first second, (0 < length first < 64)%nat -> N.of_nat (length second) < 2 ^ 32 ->
        2 ^ 32 <= N.of_nat (length first) + N.of_nat (length second) ->
        sha1_digest false memory [first; second] = RUB).
Proof.
  intros memory L. split; [intros b H; apply gen_hash_bad; [exact L|exact H]|].
  intros a b La Lb H. unfold sha1_digest. cbn [sha1_updates].
  destruct (update_holds (sha1_init memory) [] a (holds_init memory L)) as (c & E & Hc); [unfold two32; lia|].
  rewrite E. rewrite app_nil_l in Hc. rewrite (update_wraps c a b Hc Lb); [reflexivity|].
  rewrite N.mod_small by lia. exact H.
Qed.
Print Assumptions C63_refuted_size.

Example C63_refuted_size_case : length old_memory = 64%nat
  /\ (exists b : list N, 2 ^ 33 - 64 <= N.of_nat (length b))
  /\ (exists a b : list N, (0 < length a < 64)%nat /\ N.of_nat (length b) < 2 ^ 32
        /\ 2 ^ 32 <= N.of_nat (length a) + N.of_nat (length b)).
Proof.
  assert (G : forall n, exists l : list N, N.of_nat (length l) = n).
  { intros n. exists (repeat 0 (N.to_nat n)). rewrite repeat_length. apply N2Nat.id. }
  split; [reflexivity|]. split.
  - destruct (G (2 ^ 33 - 64)) as [l E]. exists l. rewrite E. discriminate.
  - destruct (G (2 ^ 32 - 1)) as [l E]. exists [0], l. rewrite E. split; [cbn; lia|]. split; [reflexivity|discriminate].
Qed.

(** On a big-endian machine the words are swapped all the same: the digest is not SHA-1. *)
Theorem C63_refuted_endian : exists memory data d,
  length memory = 64%nat /\ Forall byte data /\ sha1_digest true memory [data] = ROk d /\ ~ sha1_of data d.
Proof.
  exists old_memory, abc, abc_big. split; [reflexivity|]. split; [repeat constructor|].
  split; [vm_compute; reflexivity|]. intros H. destruct C63_digest_case as (_ & _ & R & _).
  assert (X : abc_big <> abc_sha1) by (unfold abc_big, abc_sha1; discriminate).
  apply X. revert H R. generalize abc_big abc_sha1. intros d d' H R. exact (sha1_of_fun abc d d' H R).
Qed.
Print Assumptions C63_refuted_endian.

Example C63_refuted_endian_case : sha1_digest true old_memory [abc] <> sha1_digest false old_memory [abc].
Proof. vm_compute. discriminate. Qed.
