(** Specification of the access vector table: a collection of entries. *)
From Coq Require Import Permutation.
From Verif Require Import Base AvtabModel.

(** The entry has the same source, target and class, and its specifier shares a bit with the one
    asked for (the enabled flag 0x8000 of the asked key is ignored). *)
Definition entry_matches (k : akey) (n : anode) : bool :=
  (k_src k =? k_src (n_key n)) && (k_tgt k =? k_tgt (n_key n)) && (k_cls k =? k_cls (n_key n)) &&
  negb (N.land (N.land (k_spec k) 32767) (k_spec (n_key n)) =? 0).

(** The key asks for an extended permission rule. *)
Definition is_xperm_key (k : akey) : bool := negb (N.land (k_spec k) 1792 =? 0).

(** What an accepted insertion stores: the key and the datum as given; only an extended permission rule given
    without its permissions is completed, with empty ones. *)
Definition stored (k : akey) (d : adatum) : anode :=
  match is_xperm_key k, d_xperms d with
  | true, None => mkNode k (mkD (d_data d) (Some (mkX 0 0 [0; 0; 0; 0; 0; 0; 0; 0])))
  | _, _ => mkNode k d
  end.

(** Operations on a table; [true] in [OpIns] is the unique insertion. *)
Inductive avop := OpIns (uniq : bool) (k : akey) (d : adatum).

(** What a history of insertions means: the list of entries, newest first. A unique insertion of a
    key that is not an extended permission key is refused when a matching entry is present. *)
Fixpoint entries (h : list avop) (acc : list anode) : list anode :=
  match h with
  | [] => acc
  | OpIns uniq k d :: t =>
      if uniq && negb (is_xperm_key k) && existsb (entry_matches k) acc then entries t acc
      else entries t (stored k d :: acc)
  end.

(** Running a history on a table; refused insertions leave the table as it was. *)
Fixpoint run (h : list avop) (a : avtab) : avtab :=
  match h with
  | [] => a
  | OpIns uniq k d :: t =>
      run t (match avtab_insert_gen uniq a k d with InsOk a' => a' | _ => a end)
  end.

(** The parts of an operation. *)
Definition op_key (o : avop) : akey := match o with OpIns _ k _ => k end.
(** The parts of an operation. *)
Definition op_datum (o : avop) : adatum := match o with OpIns _ _ d => d end.
(** The parts of an operation. *)
Definition op_unique (o : avop) : bool := match o with OpIns u _ _ => u end.

(** The datum of the first insertion in the history whose key has the same source, target, class and
    specifier (the enabled flag apart). *)
Definition first_inserted (h : list avop) (k : akey) : option adatum :=
  match find (fun o => (k_src k =? k_src (op_key o)) && (k_tgt k =? k_tgt (op_key o)) &&
                       (k_cls k =? k_cls (op_key o)) &&
                       (N.land (k_spec k) 32767 =? N.land (k_spec (op_key o)) 32767)) h with
  | Some o => Some (op_datum o)
  | None => None
  end.

(** Exactly one specifier bit (the enabled flag apart), as in every rule. *)
Definition one_spec (s : N) : Prop := exists i, N.land s 32767 = 2 ^ i.
