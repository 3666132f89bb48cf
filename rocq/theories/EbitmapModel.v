(** Model of libsepol/src/ebitmap.c and libsepol/include/sepol/policydb/ebitmap.h.
    The singly linked node list is a Coq list; [malloc] failure, [free] and pointer identity are
    not modelled. *)
From Verif Require Import Base.

(** libsepol/include/sepol/policydb/ebitmap.h:27-28 (MAPSIZE, as size_t, so that sums of a
    uint32_t and MAPSIZE do not wrap). *)
Definition MAPSIZE : N := 64.

(** libsepol/include/sepol/policydb/ebitmap.h:31-35 (ebitmap_node_t: startbit, map). *)
Notation node := (N * N)%type (only parsing).

(** libsepol/include/sepol/policydb/ebitmap.h:37-40 (ebitmap_t). *)
Record ebitmap := mkE { e_nodes : list node; e_high : N }.

(** libsepol/include/sepol/policydb/ebitmap.h:55-58 (ebitmap_init). *)
Definition ebitmap_init : ebitmap := mkE [] 0.

(** libsepol/include/sepol/policydb/ebitmap.h:42 (ebitmap_is_empty). *)
Definition ebitmap_is_empty (e : ebitmap) : bool :=
  match e_nodes e with [] => true | _ => false end.

(** libsepol/include/sepol/policydb/ebitmap.h:43 (ebitmap_length). *)
Definition ebitmap_length (e : ebitmap) : N :=
  match e_nodes e with [] => 0 | _ => e_high e end.

(** libsepol/include/sepol/policydb/ebitmap.h:44 (ebitmap_startbit). *)
Definition ebitmap_startbit (e : ebitmap) : N :=
  match e_nodes e with [] => 0 | (s, _) :: _ => s end.

(** libsepol/src/ebitmap.c:28-53 (the merge loop of ebitmap_or). *)
Fixpoint or_nodes (l1 : list node) : list node -> list node :=
  fix aux (l2 : list node) : list node :=
    match l1, l2 with
    | [], [] => []
    | n1 :: t1, [] => n1 :: or_nodes t1 []
    | [], n2 :: t2 => n2 :: aux t2
    | (s1, m1) :: t1, (s2, m2) :: t2 =>
        if s1 =? s2 then (s1, N.lor m1 m2) :: or_nodes t1 t2
        else if s1 <? s2 then (s1, m1) :: or_nodes t1 l2
        else (s2, m2) :: aux t2
    end.

(** libsepol/src/ebitmap.c:18-57 (ebitmap_or). *)
Definition ebitmap_or (e1 e2 : ebitmap) : ebitmap :=
  mkE (or_nodes (e_nodes e1) (e_nodes e2))
      (if e_high e2 <? e_high e1 then e_high e1 else e_high e2).

(** libsepol/src/ebitmap.c:59-70 (ebitmap_union: dst becomes dst|e1). *)
Definition ebitmap_union (dst e1 : ebitmap) : ebitmap :=
  let tmp := ebitmap_or dst e1 in mkE (e_nodes tmp) (e_high tmp).

(** libsepol/src/ebitmap.c:82-105 (the loop of ebitmap_and). *)
Fixpoint and_nodes (l1 : list node) : list node -> list node :=
  fix aux (l2 : list node) : list node :=
    match l1, l2 with
    | (s1, m1) :: t1, (s2, m2) :: t2 =>
        if s1 =? s2 then
          (if negb (N.land m1 m2 =? 0) then [(s1, N.land m1 m2)] else []) ++ and_nodes t1 t2
        else if s2 <? s1 then aux t2
        else and_nodes t1 l2
    | _, _ => []
    end.

(** libsepol/src/ebitmap.c:107-108, 156-157, 203-204 (highbit from the last node created, stored
    in a uint32_t; 0 from ebitmap_init when none was created). *)
Fixpoint high_of_last (l : list node) : N :=
  match l with
  | [] => 0
  | [(s, _)] => wrap32 (s + MAPSIZE)
  | _ :: t => high_of_last t
  end.

(** libsepol/src/ebitmap.c:72-111 (ebitmap_and). *)
Definition ebitmap_and (e1 e2 : ebitmap) : ebitmap :=
  let l := and_nodes (e_nodes e1) (e_nodes e2) in mkE l (high_of_last l).

(** libsepol/src/ebitmap.c:141-153 (ebitmap_xor appends a node only when map != 0). *)
Definition cons_nz (s m : N) (l : list node) : list node :=
  if m =? 0 then l else (s, m) :: l.

(** libsepol/src/ebitmap.c:125-154 (the loop of ebitmap_xor). *)
Fixpoint xor_nodes (l1 : list node) : list node -> list node :=
  fix aux (l2 : list node) : list node :=
    match l1, l2 with
    | [], [] => []
    | (s1, m1) :: t1, [] => cons_nz s1 m1 (xor_nodes t1 [])
    | [], (s2, m2) :: t2 => cons_nz s2 m2 (aux t2)
    | (s1, m1) :: t1, (s2, m2) :: t2 =>
        if s1 =? s2 then cons_nz s1 (N.lxor m1 m2) (xor_nodes t1 t2)
        else if s1 <? s2 then cons_nz s1 m1 (xor_nodes t1 l2)
        else cons_nz s2 m2 (aux t2)
    end.

(** libsepol/src/ebitmap.c:113-160 (ebitmap_xor). *)
Definition ebitmap_xor (e1 e2 : ebitmap) : ebitmap :=
  let l := xor_nodes (e_nodes e1) (e_nodes e2) in mkE l (high_of_last l).

(** libsepol/src/ebitmap.c:174-185 (the word computed by one round of ebitmap_not; all ones is
    2^64-1, [~m] on 64 bits is [lxor m (2^64-1)]). *)
Definition not_word (maxbit cur : N) (m : N) : N :=
  let map := N.lxor m (N.ones 64) in
  if maxbit - cur <? MAPSIZE then N.land map (N.shiftl 1 (maxbit - cur) - 1) else map.

(** libsepol/src/ebitmap.c:173-201 (the loop of ebitmap_not). The cursor is a uint32_t and wraps.
    The loop is run for [fuel] rounds; [None] means it has not left the loop by then. *)
Fixpoint not_loop (fuel : nat) (maxbit cur : N) (n : list node) : option (list node) :=
  if cur <? maxbit then
    match fuel with
    | O => None
    | S f =>
        let '(m, n') :=
          match n with
          | (s, m) :: t => if s =? cur then (m, t) else (0, n)
          | [] => (0, n)
          end in
        match not_loop f maxbit (wrap32 (cur + MAPSIZE)) n' with
        | None => None
        | Some rest => Some (cons_nz cur (not_word maxbit cur m) rest)
        end
    end
  else Some [].

(** Rounds that suffice when the cursor does not wrap. *)
Definition not_fuel (maxbit : N) : nat := N.to_nat (maxbit / MAPSIZE + 1).

(** libsepol/src/ebitmap.c:162-207 (ebitmap_not), [None] when the loop does not end within the given rounds. *)
Definition ebitmap_not_fuel (fuel : nat) (e1 : ebitmap) (maxbit : N) : option ebitmap :=
  match not_loop fuel maxbit 0 (e_nodes e1) with
  | None => None
  | Some l => Some (mkE l (high_of_last l))
  end.

(** libsepol/src/ebitmap.c:162-207 (ebitmap_not). *)
Definition ebitmap_not (e1 : ebitmap) (maxbit : N) : option ebitmap :=
  ebitmap_not_fuel (not_fuel maxbit) e1 maxbit.

(** libsepol/src/ebitmap.c:209-222 (ebitmap_andnot). *)
Definition ebitmap_andnot (e1 e2 : ebitmap) (maxbit : N) : option ebitmap :=
  match ebitmap_not e2 maxbit with
  | None => None
  | Some e3 => Some (ebitmap_and e1 e3)
  end.

(** libsepol/src/ebitmap.c:224-233 (ebitmap_cardinality, an unsigned int sum). *)
Fixpoint card_nodes (acc : N) (l : list node) : N :=
  match l with
  | [] => acc
  | (_, m) :: t => card_nodes (wrap32 (acc + popcount m)) t
  end.
Definition ebitmap_cardinality (e : ebitmap) : N := card_nodes 0 (e_nodes e).

(** libsepol/src/ebitmap.c:259-263 (the comparison loop of ebitmap_cmp). *)
Fixpoint cmp_nodes (l1 l2 : list node) : bool :=
  match l1, l2 with
  | (s1, m1) :: t1, (s2, m2) :: t2 =>
      if (s1 =? s2) && (m1 =? m2) then cmp_nodes t1 t2 else false
  | [], [] => true
  | _, _ => false
  end.

(** libsepol/src/ebitmap.c:250-269 (ebitmap_cmp; true is the return value 1). *)
Definition ebitmap_cmp (e1 e2 : ebitmap) : bool :=
  if negb (e_high e1 =? e_high e2) then false else cmp_nodes (e_nodes e1) (e_nodes e2).

(** libsepol/src/ebitmap.c:235-248 (ebitmap_hamming_distance; the unsigned cardinality is stored
    in an int, so it is read back as two's complement). *)
Definition ebitmap_hamming_distance (e1 e2 : ebitmap) : Z :=
  if ebitmap_cmp e1 e2 then 0%Z
  else
    let c := ebitmap_cardinality (ebitmap_xor e1 e2) in
    if c <? 2147483648 then Z.of_N c else (Z.of_N c - 4294967296)%Z.

(** libsepol/src/ebitmap.c:271-297 (ebitmap_cpy). *)
Definition ebitmap_cpy (src : ebitmap) : ebitmap :=
  mkE (map (fun n : node => (fst n, snd n)) (e_nodes src)) (e_high src).

(** libsepol/src/ebitmap.c:306-323 (the loop of ebitmap_contains). *)
Fixpoint contains_nodes (l1 l2 : list node) : bool :=
  match l2 with
  | [] => true
  | (s2, m2) :: t2 =>
      match l1 with
      | [] => false
      | (s1, m1) :: t1 =>
          if s1 <=? s2 then
            if s1 <? s2 then contains_nodes t1 l2
            else if negb (N.land m1 m2 =? m2) then false
            else contains_nodes t1 t2
          else false
      end
  end.

(** libsepol/src/ebitmap.c:299-324 (ebitmap_contains: e1 contains e2). *)
Definition ebitmap_contains (e1 e2 : ebitmap) : bool :=
  if e_high e1 <? e_high e2 then false else contains_nodes (e_nodes e1) (e_nodes e2).

(** libsepol/src/ebitmap.c:326-346 (ebitmap_match_any). *)
Fixpoint match_nodes (l1 : list node) : list node -> bool :=
  fix aux (l2 : list node) : bool :=
    match l1, l2 with
    | (s1, m1) :: t1, (s2, m2) :: t2 =>
        if s1 <? s2 then match_nodes t1 l2
        else if s2 <? s1 then aux t2
        else if negb (N.land m1 m2 =? 0) then true
        else match_nodes t1 t2
    | _, _ => false
    end.
Definition ebitmap_match_any (e1 e2 : ebitmap) : bool := match_nodes (e_nodes e1) (e_nodes e2).

(** libsepol/src/ebitmap.c:355-366 (the search loop of ebitmap_get_bit). *)
Fixpoint get_nodes (l : list node) (bit : N) : bool :=
  match l with
  | [] => false
  | (s, m) :: t =>
      if s <=? bit then
        if bit <? s + MAPSIZE then negb (N.land m (N.shiftl 1 (bit - s)) =? 0)
        else get_nodes t bit
      else false
  end.

(** libsepol/src/ebitmap.c:348-367 (ebitmap_get_bit). *)
Definition ebitmap_get_bit (e : ebitmap) (bit : N) : bool :=
  if e_high e <? bit then false else get_nodes (e_nodes e) bit.

(** libsepol/src/ebitmap.c:380-438 (the walk of ebitmap_set_bit). [prev] is the start bit of the
    previous node, if any; the result is the new tail and the new value of e->highbit, [None]
    meaning that highbit is not assigned. *)
Fixpoint set_nodes (prev : option N) (l : list node) (bit : N) (value : bool)
    (startbit hb : N) : list node * option N :=
  match l with
  | [] => if value then ([(startbit, N.shiftl 1 (bit - startbit))], Some hb) else ([], None)
  | (s, m) :: t =>
      if s <=? bit then
        if bit <? s + MAPSIZE then
          if value then ((s, N.lor m (N.shiftl 1 (bit - s))) :: t, None)
          else
            let m' := N.ldiff m (N.shiftl 1 (bit - s)) in
            if m' =? 0 then
              (t, match t with
                  | [] => match prev with Some p => Some (wrap32 (p + MAPSIZE)) | None => Some 0 end
                  | _ => None
                  end)
            else ((s, m') :: t, None)
        else
          let '(t', h) := set_nodes (Some s) t bit value startbit hb in ((s, m) :: t', h)
      else
        if value then ((startbit, N.shiftl 1 (bit - startbit)) :: l, None) else (l, None)
  end.

(** libsepol/src/ebitmap.c:369-441 (ebitmap_set_bit). [None] is the return value -EINVAL, in which
    case the bitmap is untouched. [value] is the C int tested for non-zero. *)
Definition ebitmap_set_bit (e : ebitmap) (bit : N) (value : bool) : option ebitmap :=
  let startbit := wrap32 (bit - bit mod MAPSIZE) in
  let hb := wrap32 (startbit + MAPSIZE) in
  if hb =? 0 then None
  else
    let '(l, h) := set_nodes None (e_nodes e) bit value startbit hb in
    Some (mkE l (match h with Some x => x | None => e_high e end)).

(** libsepol/src/ebitmap.c:471-480 (the word stored by one round of ebitmap_init_range; shifts of
    a uint64_t drop the bits above 63). *)
Definition range_word (minbit maxbit minstart maxstart s : N) : N :=
  if negb (s =? minstart) && negb (s =? maxstart) then N.ones 64
  else if negb (s =? maxstart) then N.land (N.shiftl (N.ones 64) (minbit - s)) (N.ones 64)
  else if negb (s =? minstart) then N.shiftr (N.ones 64) (MAPSIZE - (maxbit - s + 1))
  else N.land (N.shiftl (N.shiftr (N.ones 64) (MAPSIZE - (maxbit - minbit + 1))) (minbit - s))
              (N.ones 64).

(** libsepol/src/ebitmap.c:463-484 (the loop of ebitmap_init_range, [None] when still looping
    after [fuel] rounds). *)
Fixpoint range_loop (fuel : nat) (minbit maxbit minstart maxstart s : N) : option (list node) :=
  if s <=? maxstart then
    match fuel with
    | O => None
    | S f =>
        match range_loop f minbit maxbit minstart maxstart (wrap32 (s + MAPSIZE)) with
        | None => None
        | Some rest => Some ((s, range_word minbit maxbit minstart maxstart s) :: rest)
        end
    end
  else Some [].

(** Outcomes of ebitmap_init_range: success, the two error codes, or still looping. *)
Inductive range_res := RangeOk (e : ebitmap) | RangeEINVAL | RangeEOVERFLOW | RangeLoop.

(** libsepol/src/ebitmap.c:443-489 (ebitmap_init_range). *)
Definition ebitmap_init_range (minbit maxbit : N) : range_res :=
  let minstart := wrap32 (minbit - minbit mod MAPSIZE) in
  let maxstart := wrap32 (maxbit - maxbit mod MAPSIZE) in
  let minhigh := wrap32 (minstart + MAPSIZE) in
  let maxhigh := wrap32 (maxstart + MAPSIZE) in
  if maxbit <? minbit then RangeEINVAL
  else if (minhigh =? 0) || (maxhigh =? 0) then RangeEOVERFLOW
  else
    match range_loop (not_fuel (maxbit + MAPSIZE)) minbit maxbit minstart maxstart minstart with
    | None => RangeLoop
    | Some l => RangeOk (mkE l maxhigh)
    end.

(** libsepol/src/ebitmap.c:491-509 (ebitmap_highest_set_bit; the shift loop counts the position of
    the top bit, modelled by [N.log2]). *)
Fixpoint highest_nodes (l : list node) : N :=
  match l with
  | [] => 0
  | [(s, m)] => wrap32 (s + N.log2 m)
  | _ :: t => highest_nodes t
  end.
Definition ebitmap_highest_set_bit (e : ebitmap) : N := highest_nodes (e_nodes e).

(** libsepol/include/sepol/policydb/ebitmap.h:70-75 (ebitmap_node_get_bit). *)
Definition node_get_bit (n : node) (bit : N) : bool :=
  negb (N.land (snd n) (N.shiftl 1 (bit - fst n)) =? 0).

(** libsepol/include/sepol/policydb/ebitmap.h:60-68 (ebitmap_next on the current node and the rest
    of the list). *)
Definition ebitmap_next (cur : node) (rest : list node) (bit : N) : node * list node * N :=
  match rest with
  | n' :: rest' =>
      if bit =? fst cur + MAPSIZE - 1 then (n', rest', fst n') else (cur, rest, wrap32 (bit + 1))
  | [] => (cur, rest, wrap32 (bit + 1))
  end.

(** libsepol/include/sepol/policydb/ebitmap.h:77-78 (ebitmap_for_each_bit): the (node, bit) pairs
    visited, [None] when still looping after [fuel] rounds. *)
Fixpoint each_bit_loop (fuel : nat) (len : N) (cur : node) (rest : list node) (bit : N)
  : option (list (node * N)) :=
  if bit <? len then
    match fuel with
    | O => None
    | S f =>
        let '(cur', rest', bit') := ebitmap_next cur rest bit in
        match each_bit_loop f len cur' rest' bit' with
        | None => None
        | Some l => Some ((cur, bit) :: l)
        end
    end
  else Some [].

(** libsepol/include/sepol/policydb/ebitmap.h:47-53, 77-78 (ebitmap_start and the loop). *)
Definition each_bit (fuel : nat) (e : ebitmap) : option (list (node * N)) :=
  match e_nodes e with
  | [] => Some []
  | n :: rest => each_bit_loop fuel (ebitmap_length e) n rest (ebitmap_startbit e)
  end.

(** Rounds that suffice for iteration: 64 per node. *)
Definition each_fuel (e : ebitmap) : nat := (64 * length (e_nodes e))%nat.

(** libsepol/include/sepol/policydb/ebitmap.h:77-78 (bits visited by ebitmap_for_each_bit, with
    the value of the bit in the current node). *)
Definition visited_bits (e : ebitmap) : option (list (N * bool)) :=
  match each_bit (each_fuel e) e with
  | None => None
  | Some l => Some (map (fun p : node * N => (snd p, node_get_bit (fst p) (snd p))) l)
  end.

(** libsepol/include/sepol/policydb/ebitmap.h:80-81 (ebitmap_for_each_positive_bit). *)
Definition positive_bits (e : ebitmap) : option (list N) :=
  match visited_bits e with
  | None => None
  | Some l => Some (map fst (filter snd l))
  end.

(** libsepol/src/write.c:62-94 (ebitmap_write). *)
Definition ebitmap_write (e : ebitmap) : list N :=
  le_enc 4 MAPSIZE ++ le_enc 4 (e_high e) ++ le_enc 4 (N.of_nat (length (e_nodes e))) ++
  flat_map (fun n : node => le_enc 4 (fst n) ++ le_enc 8 (snd n)) (e_nodes e).

(** libsepol/src/ebitmap.c:566-615 (the node loop of ebitmap_read). [prev] is l->startbit. The
    count is a nat (it is at most the number of bytes read); [high - MAPSIZE] is a size_t
    subtraction, high being a positive multiple of MAPSIZE here. *)
Fixpoint read_nodes (count : nat) (high : N) (prev : option N) (bs : list N)
  : option (list node * list N) :=
  match count with
  | O => Some ([], bs)
  | S c =>
      match le_dec 4 bs with
      | None => None
      | Some (s, bs1) =>
          if negb (s mod MAPSIZE =? 0) then None
          else if high - MAPSIZE <? s then None
          else
            match le_dec 8 bs1 with
            | None => None
            | Some (m, bs2) =>
                if m =? 0 then None
                else if match prev with Some p => s <=? p | None => false end then None
                else
                  match read_nodes c high (Some s) bs2 with
                  | None => None
                  | Some (l, bs3) => Some ((s, m) :: l, bs3)
                  end
            end
      end
  end.

(** n->startbit for the last node read (libsepol/src/ebitmap.c:614-616). *)
Fixpoint last_startbit (l : list node) : option N :=
  match l with
  | [] => None
  | [(s, _)] => Some s
  | _ :: t => last_startbit t
  end.

(** libsepol/src/ebitmap.c:530-633 (ebitmap_read): the bitmap and the unread bytes, [None] for any
    error return. To keep the model executable the node count is capped by the number of remaining
    bytes plus one, which gives the same short-read error as the uncapped count. *)
Definition ebitmap_read (bs : list N) : option (ebitmap * list N) :=
  match le_dec 4 bs with
  | None => None
  | Some (mapsize, bs1) =>
  match le_dec 4 bs1 with
  | None => None
  | Some (high, bs2) =>
  match le_dec 4 bs2 with
  | None => None
  | Some (count, bs3) =>
      if negb (mapsize =? MAPSIZE) then None
      else if high =? 0 then Some (mkE [] 0, bs3)
      else if negb (high mod MAPSIZE =? 0) then None
      else if count =? 0 then None
      else
        let c := N.to_nat (N.min count (N.of_nat (length bs3) + 1)) in
        match read_nodes c high None bs3 with
        | None => None
        | Some (l, rest) =>
            match last_startbit l with
            | Some s => if s + MAPSIZE =? high then Some (mkE l high, rest) else None
            | None => None
            end
        end
  end end end.
