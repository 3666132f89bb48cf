(** What users of the status functions rely on. *)
From Verif Require Import Base StatusModel.

(** The kernel when the history begins: no update going on; the page is the only thing published. The library has not
    opened the page. *)
Definition starts (y : sys) : Prop :=
  k_new (y_k y) = None /\ N.even (k_cnt (y_k y)) = true /\ k_hist (y_k y) = [(k_cnt (y_k y), k_cur (y_k y))] /\
  l_status (y_l y) = SNull /\ exists r, y_a y = Idle r.
Definition reachable (y : sys) : Prop := exists y0 l, starts y0 /\ sexec y0 l = Some y.

(** From [k0] to [k1], the update with these values was the newest completed one at some moment. *)
Definition published_during (k0 k1 : kern) (s : snap) : Prop :=
  exists d c, k_hist k1 = d ++ k_hist k0 /\ In (c, s) (d ++ firstn 1 (k_hist k0)).

(** Steps of the kernel and of a running call only. *)
Definition no_calls (l : list label) : Prop := forall b, In b l -> match b with LCall _ _ => False | _ => True end.
Definition is_idle (y : sys) : Prop := exists r, y_a y = Idle r.
(** A call of [c] that begins in [y] and has ended with [r] in [y']. *)
Definition calls (y : sys) (c : op) (r : res) (y' : sys) : Prop :=
  is_idle y /\ exists o l, no_calls l /\ sexec y (LCall c o :: l) = Some y' /\ y_a y' = Idle r.

(** As the functions return truth values. *)
Definition truth (n : N) : N := if n =? 0 then 0 else 1.

(** The library has the sequence of a completed update, and the mode of that update or of a later one. *)
Definition synced (y : sys) : Prop :=
  l_status (y_l y) = SPage /\ l_set (y_l y) = false /\
  exists c s c' s', In (c, s) (k_hist (y_k y)) /\ In (c', s') (k_hist (y_k y)) /\ c <= c' /\ l_seq (y_l y) = c mod 4294967296 /\ l_enf (y_l y) = s_enf s'.
(** Calls that do not open, close or fix the mode. *)
Definition plain_calls (l : list label) : Prop := forall b, In b l -> match b with LCall (OpAvcOpen _) _ | LCall OpClose _ => False | _ => True end.
