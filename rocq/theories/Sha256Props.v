(** Property C64: module checksums are SHA-256. *)
From Verif Require Import Base MlsModel ContextModel Sha1Model Sha256Model ShaSpec ShaBits ShaStream Sha1Proofs Sha256Proofs.

(** Data of the cases. *)
Definition msg_abc : list N := [97; 98; 99].
Definition abc_sha256 : list N :=
  [186;120;22;191;143;1;207;234;65;65;64;222;93;174;34;35;176;3;97;163;150;23;122;156;180;16;255;97;242;0;21;173].
(** What the context holds before it is initialised. *)
Definition stale : list N := repeat 85 64.

(** The digest is the one SHA-256 digest of the pieces put together. *)
Theorem C64_digest : forall memory pieces,
  length memory = 64%nat -> Forall (Forall byte) pieces ->
  N.of_nat (length (concat pieces)) < 2 ^ 61 ->
  exists d, sha256_digest memory pieces = ROk (Some d) /\ forall d', sha256_of (concat pieces) d' <-> d' = d.
Proof.
  intros memory pieces L F T. change (2 ^ 61) with 2305843009213693952 in T.
  destruct (digest2_claim memory pieces L F) as (d & E & H); [unfold W64; lia|].
  exists d. split; [exact E|]. intros d'. split; [intros H'; exact (sha256_of_fun _ _ _ H' H)|intros ->; exact H].
Qed.
Print Assumptions C64_digest.

Example C64_digest_case :
  sha256_digest stale [[97]; []; [98; 99]] = ROk (Some abc_sha256)
  /\ sha256_digest stale [msg_abc] = ROk (Some abc_sha256)
  /\ sha256_digest stale [repeat 97 60; repeat 97 70; msg_abc]
     = sha256_digest stale [repeat 97 131; [98]; [99]].
Proof. split; [vm_compute; reflexivity|]. split; vm_compute; reflexivity. Qed.

(** The checksum of a module: "sha256:" and the digest in hexadecimal. *)
Theorem C64_checksum : forall memory data,
  length memory = 64%nat -> Forall byte data -> N.of_nat (length data) < 2 ^ 61 ->
  exists d, sha256_calculate memory data = ROk (Some d)
    /\ length (checksum_string d) = 72%nat
    /\ forall text, checksum_of data text <-> text = checksum_string d.
Proof.
  intros memory data L F T. change (2 ^ 61) with 2305843009213693952 in T.
  destruct (digest2_claim memory [data] L) as (d & E & H); [repeat constructor; exact F|cbn [concat]; rewrite app_nil_r; unfold W64; lia|].
  cbn [concat] in H. rewrite app_nil_r in H. exists d. split; [exact E|].
  destruct (sha256_bytes _ _ H) as [B Ln].
  assert (C : checksum_of data (checksum_string d)).
  { exists d, (flat_map (fun b => [hex_digit (b / 16); hex_digit (b mod 16)]) d).
    split; [exact H|]. split; [apply checksum_hex; exact B|reflexivity]. }
  split.
  - unfold checksum_string. do 33 (destruct d as [|? d]; try discriminate). reflexivity.
  - intros text. split; [intros X; exact (checksum_of_fun _ _ _ X C)|intros ->; exact C].
Qed.
Print Assumptions C64_checksum.

(** "sha256:ba7816bf..." *)
Example C64_checksum_case :
  sha256_calculate stale msg_abc = ROk (Some abc_sha256)
  /\ firstn 15 (checksum_string abc_sha256) = [115;104;97;50;53;54;58; 98;97;55;56;49;54;98;102].
Proof. split; vm_compute; reflexivity. Qed.
