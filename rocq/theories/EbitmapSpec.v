(** Specification vocabulary for bitmaps: membership and canonical form, independent of the
    algorithms. *)
From Verif Require Import Base EbitmapModel.

(** [b] is in the set stored by [e]: some node covers [b] and its word has the bit set. *)
Definition member (e : ebitmap) (b : N) : Prop :=
  exists s m, In (s, m) (e_nodes e) /\ s <= b /\ b < s + 64 /\ N.testbit m (b - s) = true.

(** Node lists in canonical form from position [lo] on: aligned start bits, strictly increasing,
    64-bit non-zero words, all positions below 2^32-64. *)
Fixpoint valid_nodes (lo : N) (l : list node) : Prop :=
  match l with
  | [] => True
  | (s, m) :: t =>
      lo <= s /\ s mod 64 = 0 /\ 0 < m /\ m < 18446744073709551616 /\
      s + 128 <= 4294967296 /\ valid_nodes (s + 64) t
  end.

(** Where the last node starts. *)
Fixpoint last_start (l : list node) : option N :=
  match l with
  | [] => None
  | [(s, _)] => Some s
  | _ :: t => last_start t
  end.

(** A canonical bitmap: canonical nodes, and the high bit is the end of the last node. *)
Definition valid (e : ebitmap) : Prop :=
  valid_nodes 0 (e_nodes e) /\
  e_high e = match last_start (e_nodes e) with Some s => s + 64 | None => 0 end.

(** What a history of writes (oldest first) leaves at [b]. Writes to positions at or above
    2^32-64 are refused and so do not count. *)
Definition last_write (h : list (N * bool)) (b : N) : bool :=
  fold_left (fun cur w => if (fst w =? b) && (fst w <? 4294967232) then snd w else cur) h false.

(** Applying a history through the API; a refused write is ignored by the caller. *)
Definition write_all (h : list (N * bool)) (e : ebitmap) : ebitmap :=
  fold_left (fun e w => match ebitmap_set_bit e (fst w) (snd w) with Some e' => e' | None => e end) h e.

(** Bitmaps obtainable through the public interface. *)
Inductive built : ebitmap -> Prop :=
| b_init : built ebitmap_init
| b_set e b v e' : built e -> b < 4294967296 -> ebitmap_set_bit e b v = Some e' -> built e'
| b_cpy e : built e -> built (ebitmap_cpy e)
| b_or e1 e2 : built e1 -> built e2 -> built (ebitmap_or e1 e2)
| b_union e1 e2 : built e1 -> built e2 -> built (ebitmap_union e1 e2)
| b_and e1 e2 : built e1 -> built e2 -> built (ebitmap_and e1 e2)
| b_xor e1 e2 : built e1 -> built e2 -> built (ebitmap_xor e1 e2)
| b_not e mx e' : built e -> mx <= 4294967232 -> ebitmap_not e mx = Some e' -> built e'
| b_andnot e1 e2 mx e' : built e1 -> built e2 -> mx <= 4294967232 ->
    ebitmap_andnot e1 e2 mx = Some e' -> built e'
| b_range mn mx e : mn < 4294967296 -> mx < 4294967296 ->
    ebitmap_init_range mn mx = RangeOk e -> built e
| b_read bs e rest : forallb byte_ok bs = true -> ebitmap_read bs = Some (e, rest) -> built e.
