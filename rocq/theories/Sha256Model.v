(** Model of SHA-256, libsemanage/src/sha256.c. *)
From Verif Require Import Base MlsModel ContextModel Sha1Model.

(** libsemanage/src/sha256.c:22 (ror), on uint32_t. *)
Definition ror (value bits : N) : N := wrap32 (N.lor (N.shiftr value bits) (N.shiftl value (32 - bits))).

(** libsemanage/src/sha256.c:30-34 (LOAD32H). *)
Definition load32h (y0 y1 y2 y3 : N) : N :=
  N.lor (N.lor (N.lor (N.shiftl (N.land y0 255) 24) (N.shiftl (N.land y1 255) 16))
               (N.shiftl (N.land y2 255) 8)) (N.land y3 255).
(** libsemanage/src/sha256.c:26-28 (STORE32H). *)
Definition store32h (x : N) : list N :=
  [N.land (N.shiftr x 24) 255; N.land (N.shiftr x 16) 255; N.land (N.shiftr x 8) 255; N.land x 255].
(** libsemanage/src/sha256.c:36-40 (STORE64H). *)
Definition store64h (x : N) : list N :=
  [N.land (N.shiftr x 56) 255; N.land (N.shiftr x 48) 255; N.land (N.shiftr x 40) 255;
   N.land (N.shiftr x 32) 255; N.land (N.shiftr x 24) 255; N.land (N.shiftr x 16) 255;
   N.land (N.shiftr x 8) 255; N.land x 255].

(** libsemanage/src/sha256.c:47-61 (K). *)
Definition K256 : list N :=
  [ 1116352408; 1899447441; 3049323471; 3921009573; 961987163; 1508970993;
    2453635748; 2870763221; 3624381080; 310598401; 607225278; 1426881987;
    1925078388; 2162078206; 2614888103; 3248222580; 3835390401; 4022224774;
    264347078; 604807628; 770255983; 1249150122; 1555081692; 1996064986;
    2554220882; 2821834349; 2952996808; 3210313671; 3336571891; 3584528711;
    113926993; 338241895; 666307205; 773529912; 1294757372; 1396182291;
    1695183700; 1986661051; 2177026350; 2456956037; 2730485921; 2820302411;
    3259730800; 3345764771; 3516065817; 3600352804; 4094571909; 275423344;
    430227734; 506948616; 659060556; 883997877; 958139571; 1322822218;
    1537002063; 1747873779; 1955562222; 2024104815; 2227730452; 2361852424;
    2428436474; 2756734187; 3204031479; 3329325298 ].

(** libsemanage/src/sha256.c:70. *)
Definition Ch (x y z : N) : N := N.lxor z (N.land x (N.lxor y z)).
(** libsemanage/src/sha256.c:71. *)
Definition Maj (x y z : N) : N := N.lor (N.land (N.lor x y) z) (N.land x y).
(** libsemanage/src/sha256.c:73 (R). *)
Definition Rsh (x n : N) : N := N.shiftr (N.land x 4294967295) n.
(** libsemanage/src/sha256.c:74. *)
Definition Sigma0 (x : N) : N := N.lxor (N.lxor (ror x 2) (ror x 13)) (ror x 22).
(** libsemanage/src/sha256.c:75. *)
Definition Sigma1 (x : N) : N := N.lxor (N.lxor (ror x 6) (ror x 11)) (ror x 25).
(** libsemanage/src/sha256.c:76. *)
Definition Gamma0 (x : N) : N := N.lxor (N.lxor (ror x 7) (ror x 18)) (Rsh x 3).
(** libsemanage/src/sha256.c:77. *)
Definition Gamma1 (x : N) : N := N.lxor (N.lxor (ror x 17) (ror x 19)) (Rsh x 10).

(** libsemanage/src/sha256.c:114-117: W[0..15]. *)
Fixpoint load_words (bytes : list N) : list N :=
  match bytes with
  | b0 :: b1 :: b2 :: b3 :: t => load32h b0 b1 b2 b3 :: load_words t
  | _ => []
  end.

(** libsemanage/src/sha256.c:120-123: W[16..63], as a list that grows. *)
Fixpoint fill (n : nat) (W : list N) : list N :=
  match n with
  | O => W
  | S k =>
      let i := length W in
      let w j := nth (i - j) W 0 in
      fill k (W ++ [wrap32 (Gamma1 (w 2%nat) + w 7%nat + Gamma0 (w 15%nat) + w 16%nat)])
  end.

(** libsemanage/src/sha256.c:79-83, 126-138: one round and the moves after it. *)
Definition sha256_round (W : list N) (S : list N) (i : nat) : list N :=
  match S with
  | [a; b; c; d; e; f; g; h] =>
      let t0 := wrap32 (h + Sigma1 e + Ch e f g + nth i K256 0 + nth i W 0) in
      let t1 := wrap32 (Sigma0 a + Maj a b c) in
      [wrap32 (t0 + t1); a; b; c; wrap32 (d + t0); e; f; g]
  | _ => S
  end.

(** libsemanage/src/sha256.c:90-145 (TransformFunction). *)
Definition sha256_transform (state buffer : list N) : list N :=
  let W := fill 48 (load_words buffer) in
  let s := fold_left (sha256_round W) (seq 0 64) state in
  map (fun p : N * N => wrap32 (fst p + snd p)) (combine state s).

(** libsemanage/src/sha256.h:20-26 (Sha256Context). *)
Record sha256 := mkS2 { s2_length : N; s2_state : list N; s2_curlen : N; s2_buf : list N }.

(** libsemanage/src/sha256.c:156-173 (Sha256Initialise). *)
Definition sha256_init (memory : list N) : sha256 :=
  mkS2 0 [1779033703; 3144134277; 1013904242; 2773480762; 1359893119; 2600822924; 528734635; 1541459225] 0 memory.

(** libsemanage/src/sha256.c:192-218: the loop of Sha256Update. *)
Fixpoint sha256_loop (fuel : nat) (c : sha256) (data : list N) : res sha256 :=
  match fuel with
  | O => RErr
  | S f =>
      let size := N.of_nat (length data) in
      if size =? 0 then ROk c
      else if (s2_curlen c =? 0) && (64 <=? size) then
        sha256_loop f (mkS2 ((s2_length c + 512) mod W64) (sha256_transform (s2_state c) (firstn 64 data))
                            (s2_curlen c) (s2_buf c)) (skipn 64 data)
      else
        let n := wrap32 (N.min size (64 - s2_curlen c)) in
        match copy64 (s2_buf c) (s2_curlen c) (firstn (N.to_nat n) data) with
        | ROk buf =>
            let cur := s2_curlen c + n in
            let rest := skipn (N.to_nat n) data in
            if cur =? 64
            then sha256_loop f (mkS2 ((s2_length c + 512) mod W64) (sha256_transform (s2_state c) buf) 0 buf) rest
            else sha256_loop f (mkS2 (s2_length c) (s2_state c) cur buf) rest
        | RErr => RErr | RUB => RUB
        end
  end.
(** libsemanage/src/sha256.c:181-219 (Sha256Update). *)
Definition sha256_update (c : sha256) (data : list N) : res sha256 :=
  if 64 <? s2_curlen c then ROk c else sha256_loop (S (length data)) c data.

(** libsemanage/src/sha256.c:250-253, 259-262: zeros up to [n] bytes. *)
Definition zero_to (c : sha256) (n : N) : sha256 :=
  if s2_curlen c <? n then
    mkS2 (s2_length c) (s2_state c) n
         (firstn (N.to_nat (s2_curlen c)) (s2_buf c) ++ repeat 0 (N.to_nat (n - s2_curlen c))
          ++ skipn (N.to_nat n) (s2_buf c))
  else c.

(** libsemanage/src/sha256.c:227-273 (Sha256Finalise); [None] if the digest is not written. *)
Definition sha256_final (c : sha256) : option (list N) :=
  if 64 <=? s2_curlen c then None
  else
    let len := (s2_length c + s2_curlen c * 8) mod W64 in
    let c1 := mkS2 len (s2_state c) (s2_curlen c + 1) (upd (s2_buf c) (N.to_nat (s2_curlen c)) 128) in
    let c2 := if 56 <? s2_curlen c1
              then let z := zero_to c1 64 in
                   mkS2 len (sha256_transform (s2_state z) (s2_buf z)) 0 (s2_buf z)
              else c1 in
    let c3 := zero_to c2 56 in
    let buf := firstn 56 (s2_buf c3) ++ store64h (s2_length c3) in
    Some (flat_map store32h (sha256_transform (s2_state c3) buf)).

(** A sequence of updates (libsemanage/src/direct_api.c:1023-1067). *)
Fixpoint sha256_updates (c : sha256) (pieces : list (list N)) : res sha256 :=
  match pieces with
  | [] => ROk c
  | d :: t => match sha256_update c d with ROk c' => sha256_updates c' t | RErr => RErr | RUB => RUB end
  end.
(** libsemanage/src/direct_api.c:1023-1067: initialise, update, finalise. *)
Definition sha256_digest (memory : list N) (pieces : list (list N)) : res (option (list N)) :=
  match sha256_updates (sha256_init memory) pieces with
  | ROk c => ROk (sha256_final c)
  | RErr => RErr | RUB => RUB
  end.
(** libsemanage/src/sha256.c:281-294 (Sha256Calculate). *)
Definition sha256_calculate (memory data : list N) : res (option (list N)) := sha256_digest memory [data].

(** libsemanage/src/modules.c:989: a hexadecimal digit as printed by %02x. *)
Definition hex_digit (d : N) : N := if d <? 10 then 48 + d else 87 + d.
(** libsemanage/src/modules.c:983-991 (semanage_hash_to_checksum_string), with the final NUL. *)
Definition checksum_string (hash : list N) : list N :=
  [115; 104; 97; 50; 53; 54; 58] ++ flat_map (fun b => [hex_digit (b / 16); hex_digit (b mod 16)]) hash ++ [0].
