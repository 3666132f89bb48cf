(** Model of the generic hash table (libsepol/src/hashtab.c) and of the symbol tables built on it
    (libsepol/src/symtab.c). A table is a list of chains. The hash function (which depends on the table size)
    and the key comparison are parameters, as they are in the C code. *)
From Verif Require Import Base AvtabModel.

(** hashtab_val_t, libsepol/include/sepol/policydb/hashtab.h:37-43 (size is the number of chains). *)
Record htab (K V : Type) := mkH { h_slots : list (list (K * V)); h_nel : N }.
Arguments mkH {K V}. Arguments h_slots {K V}. Arguments h_nel {K V}.

Section Hashtab.
Context {K V : Type} (hash : N -> K -> N) (cmp : K -> K -> comparison).

(** h->size. *)
Definition h_size (h : htab K V) : N := N.of_nat (length (h_slots h)).

(** libsepol/src/hashtab.c:37-65 (hashtab_create, allocations succeeding). *)
Definition hashtab_create (size : N) : htab K V := mkH (repeat [] (N.to_nat size)) 0.

(** libsepol/src/hashtab.c:72-73 (doubling; 32 steps are enough, see HashtabProofs). *)
Fixpoint grow (fuel : nat) (new_size nel : N) : N :=
  match fuel with
  | O => new_size
  | S f => if (new_size <=? nel) && negb (wrap32 (new_size * 2) =? 0) then grow f (wrap32 (new_size * 2)) nel else new_size
  end.

(** libsepol/src/hashtab.c:90-97 (moving one node: it goes before the first node with a key not smaller). *)
Fixpoint chain_move (k : K) (v : V) (l : list (K * V)) : list (K * V) :=
  match l with
  | [] => [(k, v)]
  | (k', v') :: r => match cmp k k' with Gt => (k', v') :: chain_move k v r | _ => (k, v) :: l end
  end.

(** libsepol/src/hashtab.c:86-101 (all nodes, in chain order). *)
Fixpoint move_all (size : N) (l : list (K * V)) (new : list (list (K * V))) : list (list (K * V)) :=
  match l with
  | [] => new
  | (k, v) :: r =>
      let hv := N.to_nat (hash size k) in
      move_all size r (set_nth hv (chain_move k v (nth hv new [])) new)
  end.

(** libsepol/src/hashtab.c:67-104 (hashtab_check_resize; [mem] tells whether calloc succeeds). *)
Definition check_resize (mem : bool) (h : htab K V) : htab K V :=
  let new_size := grow 32 (h_size h) (h_nel h) in
  if (h_size h =? new_size) || negb mem then h
  else mkH (move_all new_size (concat (h_slots h)) (repeat [] (N.to_nat new_size))) (h_nel h).

(** Results of insertions and removals. *)
Inductive hres := HOk | HEexist | HEnoent | HNomem.

(** libsepol/src/hashtab.c:118-142 (walk of the chain and insertion). [None]: the key is there. *)
Fixpoint chain_add (k : K) (v : V) (l : list (K * V)) : option (list (K * V)) :=
  match l with
  | [] => Some [(k, v)]
  | (k', v') :: r =>
      match cmp k k' with
      | Gt => option_map (cons (k', v')) (chain_add k v r)
      | Eq => None
      | Lt => Some ((k, v) :: l)
      end
  end.

(** libsepol/src/hashtab.c:106-146 (hashtab_insert); [m1], [m2]: success of the two allocations. *)
Definition hashtab_insert (h : htab K V) (k : K) (v : V) (m1 m2 : bool) : htab K V * hres :=
  if h_nel h =? 4294967295 then (h, HNomem)
  else
    let h := check_resize m1 h in
    let hv := N.to_nat (hash (h_size h) k) in
    match chain_add k v (nth hv (h_slots h) []) with
    | None => (h, HEexist)
    | Some l => if m2 then (mkH (set_nth hv l (h_slots h)) (h_nel h + 1), HOk) else (h, HNomem)
    end.

(** libsepol/src/hashtab.c:160-177 (walk and unlinking). [None]: not found. *)
Fixpoint chain_del (k : K) (l : list (K * V)) : option (list (K * V)) :=
  match l with
  | [] => None
  | (k', v') :: r =>
      match cmp k k' with
      | Gt => option_map (cons (k', v')) (chain_del k r)
      | Eq => Some r
      | Lt => None
      end
  end.

(** libsepol/src/hashtab.c:148-184 (hashtab_remove). *)
Definition hashtab_remove (h : htab K V) (k : K) : htab K V * hres :=
  let hv := N.to_nat (hash (h_size h) k) in
  match chain_del k (nth hv (h_slots h) []) with
  | None => (h, HEnoent)
  | Some l => (mkH (set_nth hv l (h_slots h)) (h_nel h - 1), HOk)
  end.

(** libsepol/src/hashtab.c:196-205 (walk of the chain). *)
Fixpoint chain_get (k : K) (l : list (K * V)) : option V :=
  match l with
  | [] => None
  | (k', v') :: r => match cmp k k' with Gt => chain_get k r | Eq => Some v' | Lt => None end
  end.

(** libsepol/src/hashtab.c:186-208 (hashtab_search). *)
Definition hashtab_search (h : htab K V) (k : K) : option V :=
  chain_get k (nth (N.to_nat (hash (h_size h) k)) (h_slots h) []).

(** libsepol/src/hashtab.c:243-251 (loop of hashtab_map over the entries: stops at the first non-zero result). *)
Fixpoint map_loop {A : Type} (apply : A -> K -> V -> A * Z) (l : list (K * V)) (a : A) : A * Z :=
  match l with
  | [] => (a, 0%Z)
  | (k, v) :: r => let (a', ret) := apply a k v in if Z.eqb ret 0 then map_loop apply r a' else (a', ret)
  end.
(** libsepol/src/hashtab.c:232-253 (hashtab_map). *)
Definition hashtab_map {A : Type} (apply : A -> K -> V -> A * Z) (h : htab K V) (a : A) : A * Z :=
  map_loop apply (concat (h_slots h)) a.

(** Operations of a history. *)
Inductive hop := HInsert (k : K) (v : V) (m1 m2 : bool) | HRemove (k : K) | HSearch (k : K).
(** What an operation returns. *)
Inductive hout := HRes (r : hres) | HFound (v : option V).

(** Running one operation (libsepol/src/hashtab.c entry points). *)
Definition hstep (h : htab K V) (o : hop) : htab K V * hout :=
  match o with
  | HInsert k v m1 m2 => let (h', r) := hashtab_insert h k v m1 m2 in (h', HRes r)
  | HRemove k => let (h', r) := hashtab_remove h k in (h', HRes r)
  | HSearch k => (h, HFound (hashtab_search h k))
  end.

(** Running a history, with everything returned. *)
Fixpoint hrun (h : htab K V) (l : list hop) : htab K V * list hout :=
  match l with
  | [] => (h, [])
  | o :: l' => let (h1, x) := hstep h o in let (h2, xs) := hrun h1 l' in (h2, x :: xs)
  end.
End Hashtab.
Arguments HInsert {K V}. Arguments HRemove {K V}. Arguments HSearch {K V}. Arguments HRes {V}. Arguments HFound {V}.

(** libsepol/src/symtab.c:17-24 (running value of symhash over unsigned characters). *)
Fixpoint symhash_from (h : N) (s : list N) : N :=
  match s with [] => h | c :: r => symhash_from (wrap32 (N.lxor (wrap32 (wrap32 (N.shiftl h 5) + h)) c)) r end.
(** libsepol/src/symtab.c:26. *)
Definition symhash (size : N) (s : list N) : N := N.land (symhash_from 5381 s) (size - 1).
(** libsepol/src/symtab.c:29-34 (symcmp: strcmp compares unsigned characters; the end of a string is the
    smallest). *)
Fixpoint symcmp (a b : list N) : comparison :=
  match a, b with
  | [], [] => Eq
  | [], _ :: _ => Lt
  | _ :: _, [] => Gt
  | x :: a', y :: b' => match N.compare x y with Eq => symcmp a' b' | c => c end
  end.
