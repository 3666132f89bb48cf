(** Model of SHA-1, libselinux/src/sha1.c, and of the digest of specfiles. *)
From Verif Require Import Base MlsModel ContextModel.

(** libselinux/src/sha1.c:46 (rol), on uint32_t. *)
Definition rol (value bits : N) : N := wrap32 (N.lor (N.shiftl value bits) (N.shiftr value (32 - bits))).

(** libselinux/src/sha1.c:49-60: assignment to an array element (the index is in bounds wherever it is used). *)
Definition upd (l : list N) (i : nat) (v : N) : list N := firstn i l ++ v :: skipn (S i) l.

(** libselinux/src/sha1.c:174, 188: memcpy to offset [off] of a 64-byte array; out of bounds is undefined. *)
Definition copy64 (buf : list N) (off : N) (src : list N) : res (list N) :=
  if off + N.of_nat (length src) <=? 64
  then ROk (firstn (N.to_nat off) buf ++ src ++ skipn (N.to_nat off + length src) buf)
  else RUB.

(** libselinux/src/sha1.c:35-39, 83 (CHAR64LONG16): four bytes read as a uint32_t on a host that is
    little-endian or big-endian. *)
Definition host_word (big : bool) (b0 b1 b2 b3 : N) : N :=
  if big then b3 + 256 * (b2 + 256 * (b1 + 256 * b0)) else b0 + 256 * (b1 + 256 * (b2 + 256 * b3)).
(** libselinux/src/sha1.c:83: the 64 bytes as 16 words. *)
Fixpoint host_words (big : bool) (bytes : list N) : list N :=
  match bytes with
  | b0 :: b1 :: b2 :: b3 :: t => host_word big b0 b1 b2 b3 :: host_words big t
  | _ => []
  end.

(** libselinux/src/sha1.c:49-50 (blk0): the value and the new block. *)
Definition blk0 (block : list N) (i : nat) : N * list N :=
  let x := nth i block 0 in
  let v := N.lor (N.land (rol x 24) 4278255360) (N.land (rol x 8) 16711935) in
  (v, upd block i v).

(** libselinux/src/sha1.c:52-53 (blk). *)
Definition blk (block : list N) (i : nat) : N * list N :=
  let at_ k := nth (Nat.modulo k 16) block 0 in
  let v := rol (N.lxor (N.lxor (N.lxor (at_ (i + 13)%nat) (at_ (i + 8)%nat)) (at_ (i + 2)%nat)) (at_ i)) 1 in
  (v, upd block (Nat.modulo i 16) v).

(** libselinux/src/sha1.c:56-60: the five kinds of rounds. *)
Inductive kind := R0 | R1 | R2 | R3 | R4.
(** libselinux/src/sha1.c:76-80: the working variables. *)
Inductive var := Va | Vb | Vc | Vd | Ve.
(** libselinux/src/sha1.c:76-80: their positions in the list of working variables. *)
Definition pos (v : var) : nat := match v with Va => 0 | Vb => 1 | Vc => 2 | Vd => 3 | Ve => 4 end.
(** libselinux/src/sha1.c:56-60: the value of a working variable. *)
Definition getv (s : list N) (v : var) : N := nth (pos v) s 0.
(** libselinux/src/sha1.c:56-60: assignment to a working variable. *)
Definition setv (s : list N) (v : var) (x : N) : list N := upd s (pos v) x.

(** libselinux/src/sha1.c:56-60: the function of each kind of round. *)
Definition mix (k : kind) (w x y : N) : N :=
  match k with
  | R0 | R1 => N.lxor (N.land w (N.lxor x y)) y
  | R2 | R4 => N.lxor (N.lxor w x) y
  | R3 => N.lor (N.land (N.lor w x) y) (N.land w x)
  end.
(** libselinux/src/sha1.c:56-60: the block word of each kind of round. *)
Definition expand_word (k : kind) (block : list N) (i : nat) : N * list N :=
  match k with R0 => blk0 block i | _ => blk block i end.
(** libselinux/src/sha1.c:56-60: the constant of each kind of round. *)
Definition constant (k : kind) : N :=
  match k with R0 | R1 => 1518500249 | R2 => 1859775393 | R3 => 2400959708 | R4 => 3395469782 end.

(** libselinux/src/sha1.c:56-60: one round on the variables and the block. *)
Definition sha1_round (st : list N * list N) (r : kind * (var * var * var * var * var) * nat) : list N * list N :=
  let '(s, block) := st in
  let '(k, (v, w, x, y, z), i) := r in
  let '(bw, block') := expand_word k block i in
  let s1 := setv s z (wrap32 (getv s z + (mix k (getv s w) (getv s x) (getv s y) + bw + constant k + rol (getv s v) 5))) in
  (setv s1 w (rol (getv s1 w) 30), block').

(** libselinux/src/sha1.c:93-112: the unrolled rounds. *)
Definition sha1_table : list (kind * (var * var * var * var * var) * nat) :=
  ([ (R0, (Va,Vb,Vc,Vd,Ve), 0); (R0, (Ve,Va,Vb,Vc,Vd), 1); (R0, (Vd,Ve,Va,Vb,Vc), 2); (R0, (Vc,Vd,Ve,Va,Vb), 3);
    (R0, (Vb,Vc,Vd,Ve,Va), 4); (R0, (Va,Vb,Vc,Vd,Ve), 5); (R0, (Ve,Va,Vb,Vc,Vd), 6); (R0, (Vd,Ve,Va,Vb,Vc), 7);
    (R0, (Vc,Vd,Ve,Va,Vb), 8); (R0, (Vb,Vc,Vd,Ve,Va), 9); (R0, (Va,Vb,Vc,Vd,Ve), 10); (R0, (Ve,Va,Vb,Vc,Vd), 11);
    (R0, (Vd,Ve,Va,Vb,Vc), 12); (R0, (Vc,Vd,Ve,Va,Vb), 13); (R0, (Vb,Vc,Vd,Ve,Va), 14); (R0, (Va,Vb,Vc,Vd,Ve), 15);
    (R1, (Ve,Va,Vb,Vc,Vd), 16); (R1, (Vd,Ve,Va,Vb,Vc), 17); (R1, (Vc,Vd,Ve,Va,Vb), 18); (R1, (Vb,Vc,Vd,Ve,Va), 19);
    (R2, (Va,Vb,Vc,Vd,Ve), 20); (R2, (Ve,Va,Vb,Vc,Vd), 21); (R2, (Vd,Ve,Va,Vb,Vc), 22); (R2, (Vc,Vd,Ve,Va,Vb), 23);
    (R2, (Vb,Vc,Vd,Ve,Va), 24); (R2, (Va,Vb,Vc,Vd,Ve), 25); (R2, (Ve,Va,Vb,Vc,Vd), 26); (R2, (Vd,Ve,Va,Vb,Vc), 27);
    (R2, (Vc,Vd,Ve,Va,Vb), 28); (R2, (Vb,Vc,Vd,Ve,Va), 29); (R2, (Va,Vb,Vc,Vd,Ve), 30); (R2, (Ve,Va,Vb,Vc,Vd), 31);
    (R2, (Vd,Ve,Va,Vb,Vc), 32); (R2, (Vc,Vd,Ve,Va,Vb), 33); (R2, (Vb,Vc,Vd,Ve,Va), 34); (R2, (Va,Vb,Vc,Vd,Ve), 35);
    (R2, (Ve,Va,Vb,Vc,Vd), 36); (R2, (Vd,Ve,Va,Vb,Vc), 37); (R2, (Vc,Vd,Ve,Va,Vb), 38); (R2, (Vb,Vc,Vd,Ve,Va), 39);
    (R3, (Va,Vb,Vc,Vd,Ve), 40); (R3, (Ve,Va,Vb,Vc,Vd), 41); (R3, (Vd,Ve,Va,Vb,Vc), 42); (R3, (Vc,Vd,Ve,Va,Vb), 43);
    (R3, (Vb,Vc,Vd,Ve,Va), 44); (R3, (Va,Vb,Vc,Vd,Ve), 45); (R3, (Ve,Va,Vb,Vc,Vd), 46); (R3, (Vd,Ve,Va,Vb,Vc), 47);
    (R3, (Vc,Vd,Ve,Va,Vb), 48); (R3, (Vb,Vc,Vd,Ve,Va), 49); (R3, (Va,Vb,Vc,Vd,Ve), 50); (R3, (Ve,Va,Vb,Vc,Vd), 51);
    (R3, (Vd,Ve,Va,Vb,Vc), 52); (R3, (Vc,Vd,Ve,Va,Vb), 53); (R3, (Vb,Vc,Vd,Ve,Va), 54); (R3, (Va,Vb,Vc,Vd,Ve), 55);
    (R3, (Ve,Va,Vb,Vc,Vd), 56); (R3, (Vd,Ve,Va,Vb,Vc), 57); (R3, (Vc,Vd,Ve,Va,Vb), 58); (R3, (Vb,Vc,Vd,Ve,Va), 59);
    (R4, (Va,Vb,Vc,Vd,Ve), 60); (R4, (Ve,Va,Vb,Vc,Vd), 61); (R4, (Vd,Ve,Va,Vb,Vc), 62); (R4, (Vc,Vd,Ve,Va,Vb), 63);
    (R4, (Vb,Vc,Vd,Ve,Va), 64); (R4, (Va,Vb,Vc,Vd,Ve), 65); (R4, (Ve,Va,Vb,Vc,Vd), 66); (R4, (Vd,Ve,Va,Vb,Vc), 67);
    (R4, (Vc,Vd,Ve,Va,Vb), 68); (R4, (Vb,Vc,Vd,Ve,Va), 69); (R4, (Va,Vb,Vc,Vd,Ve), 70); (R4, (Ve,Va,Vb,Vc,Vd), 71);
    (R4, (Vd,Ve,Va,Vb,Vc), 72); (R4, (Vc,Vd,Ve,Va,Vb), 73); (R4, (Vb,Vc,Vd,Ve,Va), 74); (R4, (Va,Vb,Vc,Vd,Ve), 75);
    (R4, (Ve,Va,Vb,Vc,Vd), 76); (R4, (Vd,Ve,Va,Vb,Vc), 77); (R4, (Vc,Vd,Ve,Va,Vb), 78); (R4, (Vb,Vc,Vd,Ve,Va), 79) ])%nat.

(** libselinux/src/sha1.c:68-120 (TransformFunction). *)
Definition sha1_transform (big : bool) (state : list N) (buffer : list N) : list N :=
  let '(s, _) := fold_left sha1_round sha1_table (state, host_words big buffer) in
  map (fun p : N * N => wrap32 (fst p + snd p)) (combine state s).

(** libselinux/src/sha1.h:28-33 (Sha1Context). *)
Record sha1 := mkS1 { s1_state : list N; s1_count0 : N; s1_count1 : N; s1_buffer : list N }.

(** libselinux/src/sha1.c:131-146 (Sha1Initialise); the buffer keeps what was in memory. *)
Definition sha1_init (memory : list N) : sha1 :=
  mkS1 [1732584193; 4023233417; 2562383102; 271733878; 3285377520] 0 0 memory.

(** libselinux/src/sha1.c:177-180: the whole blocks in the data from offset [i]; the sum in the
    condition is a uint32_t. *)
Fixpoint sha1_blocks (big : bool) (fuel : nat) (state data : list N) (i : N) : res (list N * N) :=
  match fuel with
  | O => RErr
  | S f =>
      let n := N.of_nat (length data) in
      if wrap32 (i + 63) <? n
      then if n <? i + 64 then RUB
           else sha1_blocks big f (sha1_transform big state (firstn 64 (skipn (N.to_nat i) data))) data (wrap32 (i + 64))
      else ROk (state, i)
  end.

(** libselinux/src/sha1.c:154-189 (Sha1Update); [data] has a length below 2^32. *)
Definition sha1_update (big : bool) (c : sha1) (data : list N) : res sha1 :=
  let n := N.of_nat (length data) in
  let j := N.land (N.shiftr (s1_count0 c) 3) 63 in
  let bits := wrap32 (N.shiftl n 3) in
  let c0 := wrap32 (s1_count0 c + bits) in
  let c1 := if c0 <? bits then wrap32 (s1_count1 c + 1) else s1_count1 c in
  let c1 := wrap32 (c1 + N.shiftr n 29) in
  if 63 <? wrap32 (j + n) then
    let i := 64 - j in
    if n <? i then RUB
    else
      match copy64 (s1_buffer c) j (firstn (N.to_nat i) data) with
      | ROk buf =>
          match sha1_blocks big (S (length data)) (sha1_transform big (s1_state c) buf) data i with
          | ROk (state, i') =>
              match copy64 buf 0 (skipn (N.to_nat i') data) with
              | ROk buf' => ROk (mkS1 state c0 c1 buf')
              | RErr => RErr | RUB => RUB
              end
          | RErr => RErr | RUB => RUB
          end
      | RErr => RErr | RUB => RUB
      end
  else
    match copy64 (s1_buffer c) j data with
    | ROk buf => ROk (mkS1 (s1_state c) c0 c1 buf)
    | RErr => RErr | RUB => RUB
    end.

(** libselinux/src/sha1.c:206-210, 218-221: the bytes of a word, most significant first. *)
Definition word_bytes (x : N) : list N :=
  map (fun i : N => N.land (N.shiftr x ((3 - i) * 8)) 255) [0; 1; 2; 3].

(** libselinux/src/sha1.c:212-215: the padding loop. *)
Fixpoint sha1_pad (big : bool) (fuel : nat) (c : sha1) : res sha1 :=
  match fuel with
  | O => RErr
  | S f =>
      if N.land (s1_count0 c) 504 =? 448 then ROk c
      else match sha1_update big c [0] with
           | ROk c' => sha1_pad big f c'
           | RErr => RErr | RUB => RUB
           end
  end.

(** libselinux/src/sha1.c:197-223 (Sha1Finalise). *)
Definition sha1_final (big : bool) (c : sha1) : res (list N) :=
  let finalcount := word_bytes (s1_count1 c) ++ word_bytes (s1_count0 c) in
  match sha1_update big c [128] with
  | ROk c1 =>
      match sha1_pad big 65 c1 with
      | ROk c2 =>
          match sha1_update big c2 finalcount with
          | ROk c3 => ROk (flat_map word_bytes (s1_state c3))
          | RErr => RErr | RUB => RUB
          end
      | RErr => RErr | RUB => RUB
      end
  | RErr => RErr | RUB => RUB
  end.

(** A sequence of updates, as the callers make them (libselinux/src/label_file.c:2011-2025). *)
Fixpoint sha1_updates (big : bool) (c : sha1) (pieces : list (list N)) : res sha1 :=
  match pieces with
  | [] => ROk c
  | d :: t => match sha1_update big c d with ROk c' => sha1_updates big c' t | RErr => RErr | RUB => RUB end
  end.
(** libselinux/src/label_file.c:2011-2025: initialise, update, finalise. *)
Definition sha1_digest (big : bool) (memory : list N) (pieces : list (list N)) : res (list N) :=
  match sha1_updates big (sha1_init memory) pieces with
  | ROk c => sha1_final big c
  | RErr => RErr | RUB => RUB
  end.

(** libselinux/src/label_support.c:136-144: pieces of UINT32_MAX bytes while more remain. *)
Fixpoint gen_hash_loop (big : bool) (fuel : nat) (c : sha1) (hashbuf : list N) : res sha1 :=
  match fuel with
  | O => RErr
  | S f =>
      if 4294967295 <? N.of_nat (length hashbuf) then
        match sha1_update big c (firstn (N.to_nat 4294967295) hashbuf) with
        | ROk c' => gen_hash_loop big f c' (skipn (N.to_nat 4294967295) hashbuf)
        | RErr => RErr | RUB => RUB
        end
      else sha1_update big c hashbuf
  end.
(** libselinux/src/label_support.c:124-150 (digest_gen_hash). *)
Definition digest_gen_hash (big : bool) (memory hashbuf : list N) : res (list N) :=
  match gen_hash_loop big (S (length hashbuf)) (sha1_init memory) hashbuf with
  | ROk c => sha1_final big c
  | RErr => RErr | RUB => RUB
  end.
