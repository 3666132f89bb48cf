(** Expansion of role attributes when modules are linked. *)
From Verif Require Import Base MlsModel ContextModel.

(** Role [i] is the role with value i + 1; its set of roles is a number whose bit [j] is role [j]
    (role_datum_t.roles, an ebitmap: see EbitmapModel for the operations on nodes). *)
Definition roleset : Type := N.

(** libsepol/src/ebitmap.c:387-408: after a bit has been cleared, the node of 64 bits that held it is
    empty and has been freed. *)
Definition node_freed (m : roleset) (i : N) : bool := N.shiftr m (64 * (i / 64)) mod 2 ^ 64 =? 0.

(** One scan over the bits of a set: the end was reached, a restart with a new set, or a node was
    read after it had been freed. *)
Inductive scan := Done (m : roleset) | Again (m : roleset) | Freed.

(** libsepol/src/link.c:2376-2402: the loop over the bits [l] of the set of attribute [self]. [attr]:
    role_datum_t.flavor is ROLE_ATTRIB; [R]: the sets of all roles. ebitmap_next (ebitmap.h:60-68) reads
    the node of the current bit. Every bit is the number of a role (role_val_to_struct); memory
    shortage is not modelled. *)
Fixpoint scan_bits (attr : N -> bool) (R : N -> roleset) (self : N) (m : roleset) (l : list N) : scan :=
  match l with
  | [] => Done m
  | i :: r =>
      if N.testbit m i then
        if negb (attr i) then scan_bits attr R self m r
        else
          let m' := N.clearbit m i in
          if i =? self then if node_freed m' i then Freed else scan_bits attr R self m' r
          else Again (N.lor m' (R i))
      else scan_bits attr R self m r
  end.

(** The numbers below [n]. *)
Fixpoint numbers_below (n : nat) : list N := match n with O => [] | S k => numbers_below k ++ [N.of_nat k] end.

(** libsepol/src/link.c:2375-2403: goto restart, with fuel ([None]: not finished). *)
Fixpoint expand_loop (fuel : nat) (attr : N -> bool) (R : N -> roleset) (self : N) (m : roleset) : option (res roleset) :=
  match fuel with
  | O => None
  | S f =>
      match scan_bits attr R self m (numbers_below (N.to_nat (N.size m))) with
      | Done m' => Some (ROk m')
      | Freed => Some RUB
      | Again m' => expand_loop f attr R self m'
      end
  end.

(** libsepol/src/link.c:2351-2369 (expand_role_attributes): one entry of the role table. Role 0 is
    object_r (policydb.c:789-819 roles_init, value 1), recognised by its name in the code. *)
Definition expand_role (fuel : nat) (attr : N -> bool) (R : N -> roleset) (self : N) : option (res (N -> roleset)) :=
  if self =? 0 then Some (ROk R)
  else if negb (attr self) then Some (ROk R)
  else
    match expand_loop fuel attr R self (R self) with
    | Some (ROk m) => Some (ROk (fun i => if i =? self then m else R i))
    | Some RUB => Some RUB
    | Some RErr => Some RErr
    | None => None
    end.

(** libsepol/src/link.c:2570-2576: hashtab_map over the roles, in the order [l]. *)
Fixpoint expand_roles (fuel : nat) (attr : N -> bool) (R : N -> roleset) (l : list N) : option (res (N -> roleset)) :=
  match l with
  | [] => Some (ROk R)
  | i :: r =>
      match expand_role fuel attr R i with
      | Some (ROk R') => expand_roles fuel attr R' r
      | x => x
      end
  end.
