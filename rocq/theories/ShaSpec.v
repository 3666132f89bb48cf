(** FIPS 180-4: SHA-1 and SHA-256 on messages of whole bytes. Independent of the models. *)
From Verif Require Import Base.

Definition byte (x : N) : Prop := x < 256.
Definition two32 : N := 4294967296.

(** ** Operations on 32-bit words (FIPS 180-4, 2.2.2, 3.2) *)

(** Rotation to the left: what leaves at the top enters at the bottom. *)
Definition rotl (n x : N) : N := (x * 2 ^ n) mod two32 + x / 2 ^ (32 - n).
Definition rotr (n x : N) : N := (x * 2 ^ (32 - n)) mod two32 + x / 2 ^ n.
Definition shr (n x : N) : N := x / 2 ^ n.
Definition complement (x : N) : N := (two32 - 1) - x.
Definition xor (x y : N) : N := N.lxor x y.
Definition both (x y : N) : N := N.land x y.

Definition ch (x y z : N) : N := xor (both x y) (both (complement x) z).
Definition parity (x y z : N) : N := xor (xor x y) z.
Definition maj (x y z : N) : N := xor (xor (both x y) (both x z)) (both y z).

(** ** Messages (5.1.1, 5.2.1) *)

(** The message followed by a one bit, the fewest zero bits, and its length in bits as 64 bits. *)
Definition be_bytes (n : nat) (x : N) : list N :=
  map (fun i => (x / 256 ^ N.of_nat (n - 1 - i)) mod 256) (seq 0 n).
Definition padded (m p : list N) : Prop :=
  exists k, (k < 64)%nat /\ p = m ++ 128 :: repeat 0 k ++ be_bytes 8 (8 * N.of_nat (length m)) /\
    Nat.modulo (length p) 64 = 0%nat.

(** Big-endian words. *)
Fixpoint words (bytes : list N) : list N :=
  match bytes with
  | a :: b :: c :: d :: t => (a * 2 ^ 24 + b * 2 ^ 16 + c * 2 ^ 8 + d) :: words t
  | _ => []
  end.

(** The hash value after all blocks of 64 bytes. *)
Inductive chain {H : Type} (block : H -> list N -> H -> Prop) : H -> list N -> H -> Prop :=
| chain_nil h : chain block h [] h
| chain_cons h b h1 p h2 :
    length b = 64%nat -> block h b h1 -> chain block h1 p h2 -> chain block h (b ++ p) h2.

(** ** SHA-1 (4.1.1, 4.2.1, 5.3.1, 6.1) *)

Definition hash5 : Type := (N * N * N * N * N).

(** [k] is the integer part of 2^30 times the square root of [n]. *)
Definition root30 (n k : N) : Prop := k * k <= n * 2 ^ 60 < (k + 1) * (k + 1).

Definition sha1_f (t : nat) (x y z : N) : N :=
  if Nat.ltb t 20 then ch x y z
  else if Nat.ltb t 40 then parity x y z
  else if Nat.ltb t 60 then maj x y z
  else parity x y z.
Definition sha1_constants (k : nat -> N) : Prop :=
  forall t, (t < 80)%nat ->
    root30 (if Nat.ltb t 20 then 2 else if Nat.ltb t 40 then 3 else if Nat.ltb t 60 then 5 else 10) (k t).

Definition sha1_schedule (m : list N) (w : nat -> N) : Prop :=
  (forall t, (t < 16)%nat -> nth_error m t = Some (w t)) /\
  (forall t, (16 <= t < 80)%nat ->
     w t = rotl 1 (xor (xor (xor (w (t - 3)%nat) (w (t - 8)%nat)) (w (t - 14)%nat)) (w (t - 16)%nat))).

Fixpoint sha1_rounds (k w : nat -> N) (n : nat) (h : hash5) : hash5 :=
  match n with
  | O => h
  | S t =>
      let '(a, b, c, d, e) := sha1_rounds k w t h in
      ((rotl 5 a + sha1_f t b c d + e + k t + w t) mod two32, a, rotl 30 b, c, d)
  end.

Definition sha1_block (h : hash5) (bytes : list N) (h' : hash5) : Prop :=
  exists k w, sha1_constants k /\ sha1_schedule (words bytes) w /\
    let '(h0, h1, h2, h3, h4) := h in
    let '(a, b, c, d, e) := sha1_rounds k w 80 h in
    h' = ((h0 + a) mod two32, (h1 + b) mod two32, (h2 + c) mod two32, (h3 + d) mod two32, (h4 + e) mod two32).

Definition sha1_start : hash5 := (0x67452301, 0xefcdab89, 0x98badcfe, 0x10325476, 0xc3d2e1f0).

Definition sha1_of (message digest : list N) : Prop :=
  exists p h0 h1 h2 h3 h4, padded message p /\ chain sha1_block sha1_start p (h0, h1, h2, h3, h4) /\
    digest = flat_map (be_bytes 4) [h0; h1; h2; h3; h4].

(** ** SHA-256 (4.1.2, 4.2.2, 5.3.3, 6.2) *)

Definition hash8 : Type := (N * N * N * N * N * N * N * N).

Definition prime (n : N) : Prop := 1 < n /\ forall d, 1 < d < n -> n mod d <> 0.
(** [p] is the prime number [i], counted from 0: exactly [i] primes are smaller. *)
Definition nth_prime (i : nat) (p : N) : Prop :=
  prime p /\ exists l, NoDup l /\ length l = i /\ forall q, In q l <-> prime q /\ q < p.

(** [k] is made of the first 32 bits of the fractional part of the cube root (square root) of [n]. *)
Definition cube_root_bits (n k : N) : Prop :=
  k < two32 /\ exists i, (i * two32 + k) ^ 3 <= n * two32 ^ 3 < (i * two32 + k + 1) ^ 3.
Definition square_root_bits (n k : N) : Prop :=
  k < two32 /\ exists i, (i * two32 + k) ^ 2 <= n * two32 ^ 2 < (i * two32 + k + 1) ^ 2.

Definition sha256_constants (k : nat -> N) : Prop :=
  forall t, (t < 64)%nat -> exists p, nth_prime t p /\ cube_root_bits p (k t).
Definition sha256_start (h : hash8) : Prop :=
  let '(a, b, c, d, e, f, g, h) := h in
  forall t x, nth_error [a; b; c; d; e; f; g; h] t = Some x -> exists p, nth_prime t p /\ square_root_bits p x.

Definition big0 (x : N) : N := xor (xor (rotr 2 x) (rotr 13 x)) (rotr 22 x).
Definition big1 (x : N) : N := xor (xor (rotr 6 x) (rotr 11 x)) (rotr 25 x).
Definition small0 (x : N) : N := xor (xor (rotr 7 x) (rotr 18 x)) (shr 3 x).
Definition small1 (x : N) : N := xor (xor (rotr 17 x) (rotr 19 x)) (shr 10 x).

Definition sha256_schedule (m : list N) (w : nat -> N) : Prop :=
  (forall t, (t < 16)%nat -> nth_error m t = Some (w t)) /\
  (forall t, (16 <= t < 64)%nat ->
     w t = (small1 (w (t - 2)%nat) + w (t - 7)%nat + small0 (w (t - 15)%nat) + w (t - 16)%nat) mod two32).

Fixpoint sha256_rounds (k w : nat -> N) (n : nat) (h : hash8) : hash8 :=
  match n with
  | O => h
  | S t =>
      let '(a, b, c, d, e, f, g, h) := sha256_rounds k w t h in
      let t1 := h + big1 e + ch e f g + k t + w t in
      let t2 := big0 a + maj a b c in
      ((t1 + t2) mod two32, a, b, c, (d + t1) mod two32, e, f, g)
  end.

Definition sha256_block (h : hash8) (bytes : list N) (h' : hash8) : Prop :=
  exists k w, sha256_constants k /\ sha256_schedule (words bytes) w /\
    let '(h0, h1, h2, h3, h4, h5, h6, h7) := h in
    let '(a, b, c, d, e, f, g, i) := sha256_rounds k w 64 h in
    h' = ((h0 + a) mod two32, (h1 + b) mod two32, (h2 + c) mod two32, (h3 + d) mod two32,
          (h4 + e) mod two32, (h5 + f) mod two32, (h6 + g) mod two32, (h7 + i) mod two32).

Definition sha256_of (message digest : list N) : Prop :=
  exists p h h0 h1 h2 h3 h4 h5 h6 h7, padded message p /\ sha256_start h /\
    chain sha256_block h p (h0, h1, h2, h3, h4, h5, h6, h7) /\
    digest = flat_map (be_bytes 4) [h0; h1; h2; h3; h4; h5; h6; h7].

(** ** Checksums of modules *)

(** Two lower-case hexadecimal digits. *)
Definition hex_char (d c : N) : Prop := nth_error [48;49;50;51;52;53;54;55;56;57;97;98;99;100;101;102] (N.to_nat d) = Some c.
Inductive hex_text : list N -> list N -> Prop :=
| hex_nil : hex_text [] []
| hex_cons h l c d bytes text : h < 16 -> l < 16 -> hex_char h c -> hex_char l d ->
    hex_text bytes text -> hex_text (16 * h + l :: bytes) (c :: d :: text).
(** "sha256:" and the digest, with a final NUL. *)
Definition checksum_of (message text : list N) : Prop :=
  exists d t, sha256_of message d /\ hex_text d t /\ text = [115;104;97;50;53;54;58] ++ t ++ [0].
