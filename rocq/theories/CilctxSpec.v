(** * What labelling rules of CIL are expected to mean

    Only the types of rules and contexts come from the model. *)
From Coq Require Import NArith List Bool.
From Verif Require Import CilctxModel.
Import ListNotations.
Local Open Scope N_scope.

(** Numbers are those of C types: 32 bits, 64 for memory, 128 for addresses. *)
Definition fits (r : rule) : Prop :=
  match r with
  | Rport q l h _ => q < 2 ^ 32 /\ l < 2 ^ 32 /\ h < 2 ^ 32
  | Rpkey _ l h _ | Rioport l h _ => l < 2 ^ 32 /\ h < 2 ^ 32
  | Riomem l h _ => l < 2 ^ 64 /\ h < 2 ^ 64
  | Rnode v6 a m _ => a < 2 ^ (if v6 then 128 else 32) /\ m < 2 ^ (if v6 then 128 else 32)
  | _ => True
  end.

(** Two rules name the same object. *)
Inductive same_object : rule -> rule -> Prop :=
| so_port q l h c c' : same_object (Rport q l h c) (Rport q l h c')
| so_pkey s l h c c' : same_object (Rpkey s l h c) (Rpkey s l h c')
| so_endport d p c c' : same_object (Rendport d p c) (Rendport d p c')
| so_node v a m c c' : same_object (Rnode v a m c) (Rnode v a m c')
| so_netif n c c' d d' : same_object (Rnetif n c d) (Rnetif n c' d')
| so_genfs f p t c c' : same_object (Rgenfs f p t c) (Rgenfs f p t c')
| so_fsuse t f c c' : same_object (Rfsuse t f c) (Rfsuse t f c')
| so_file p t c c' : same_object (Rfile p t c) (Rfile p t c')
| so_pirq n c c' : same_object (Rpirq n c) (Rpirq n c')
| so_iomem l h c c' : same_object (Riomem l h c) (Riomem l h c')
| so_ioport l h c c' : same_object (Rioport l h c) (Rioport l h c')
| so_pci d c c' : same_object (Rpci d c) (Rpci d c')
| so_tree p c c' : same_object (Rtree p c) (Rtree p c').

(** The contexts a rule gives; None: a file that is not to be labelled. *)
Definition gives (r : rule) : list (option ctx) :=
  match r with
  | Rport _ _ _ c | Rpkey _ _ _ c | Rendport _ _ c | Rnode _ _ _ c | Rgenfs _ _ _ c | Rfsuse _ _ c | Rpirq _ c | Riomem _ _ c
  | Rioport _ _ c | Rpci _ c | Rtree _ c => [Some c]
  | Rnetif _ c d => [Some c; Some d]
  | Rfile _ _ c => [c]
  end.
(** Two levels that differ at most in which categories they list. *)
Definition near_level (a b : lvl) : Prop := lv_sens a = lv_sens b /\ (lv_cats a = None <-> lv_cats b = None).
(** Two contexts that differ at most in which categories their levels list. *)
Definition near (a b : option ctx) : Prop :=
  match a, b with
  | Some a, Some b => cx_user a = cx_user b /\ cx_role a = cx_role b /\ cx_type a = cx_type b /\ near_level (cx_low a) (cx_low b) /\
                      near_level (cx_high a) (cx_high b)
  | None, None => True
  | _, _ => False
  end.
(** Two rules that differ at most in categories. *)
Definition alike (r r' : rule) : Prop := same_object r r' /\ Forall2 near (gives r) (gives r').

(** File systems with rules for one path and different classes of files: see the refutation. *)
Definition classes_agree (l : list rule) : Prop :=
  forall f p t t' c c', In (Rgenfs f p t c) l -> In (Rgenfs f p t' c') l -> t = t'.
(** No two of the rules name one object. *)
Definition distinct (l : list rule) : Prop := ForallOrdPairs (fun a b => ~ same_object a b) l.

(** ** Which rule applies *)
(** Questions the kernel has: a port, a pkey, an address, memory, an I/O port. *)
Inductive question := Qport (proto port : N) | Qpkey (subnet : list N) (n : N) | Qnode (v6 : bool) (addr : N) | Qiomem (a : N) | Qioport (a : N).
(** The rule covers the object. *)
Definition covers (q : question) (r : rule) : Prop :=
  match q, r with
  | Qport p n, Rport p' l h _ => p = p' /\ l <= n <= h
  | Qpkey s n, Rpkey s' l h _ => s = s' /\ l <= n <= h
  | Qnode v a, Rnode v' b m _ => v = v' /\ N.land a m = b
  | Qiomem a, Riomem l h _ => l <= a <= h
  | Qioport a, Rioport l h _ => l <= a <= h
  | _, _ => False
  end.
(** Number of objects of a rule, as an exponent for addresses with [k] free bits. *)
Inductive extent : rule -> N -> Prop :=
| ex_port q l h c : extent (Rport q l h c) (h - l)
| ex_pkey s l h c : extent (Rpkey s l h c) (h - l)
| ex_iomem l h c : extent (Riomem l h c) (h - l)
| ex_ioport l h c : extent (Rioport l h c) (h - l)
| ex_node (v : bool) a k c : k <= (if v then 128 else 32) -> extent (Rnode v a (N.ones (if v then 128 else 32) - N.ones k) c) k.
(** [r] is the first rule of [l] that covers the object. *)
Definition first_match (q : question) (l : list rule) (r : rule) : Prop :=
  exists a b, l = a ++ r :: b /\ covers q r /\ Forall (fun x => ~ covers q x) a.

(** ** Paths *)
(** The characters with a meaning in regular expressions. *)
Definition special (c : N) : Prop := In c [46; 94; 36; 63; 42; 43; 124; 91; 40; 123].
(** A path as a list of single matches, each special or not; a backslash takes the meaning from the next character. *)
Inductive pieces : list N -> list bool -> Prop :=
| pc_nil : pieces [] []
| pc_special c p u : special c -> pieces p u -> pieces (c :: p) (true :: u)
| pc_plain c p u : ~ special c -> c <> 92 -> pieces p u -> pieces (c :: p) (false :: u)
| pc_escape c p u : pieces p u -> pieces (92 :: c :: p) (false :: u)
| pc_end : pieces [92] [false].
(** Length of the fixed beginning. *)
Inductive fixed_start : list bool -> N -> Prop :=
| fs_all u : ~ In true u -> fixed_start u (N.of_nat (length u))
| fs_part a b : ~ In true a -> fixed_start (a ++ true :: b) (N.of_nat (length a)).
(** File rule [r] is not more specific than [r']. *)
Definition not_more_specific (r r' : rule) : Prop :=
  match r, r' with
  | Rfile p _ _, Rfile p' _ _ =>
      forall u u' s s', pieces p u -> pieces p' u' -> fixed_start u s -> fixed_start u' s' ->
      (In true u \/ ~ In true u') /\ ((In true u <-> In true u') -> s <= s')
  | _, _ => True
  end.
(** In every pair, the first is not more specific. The last match is used for a file. *)
Definition specific_last (l : list rule) : Prop := ForallOrdPairs not_more_specific l.
