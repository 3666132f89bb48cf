(** What the calls on the attributes of a thread mean. *)
From Verif Require Import Base ProcattrModel.

(** The last success of setting an attribute in a history (newest first): what it was set to ([None]: it was cleared). [raw_of] is the
    translation of what is set by the calls that translate. *)
Inductive last_set (raw_of : list N -> list N) (a : attr) : list (call * answer) -> option (list N) -> Prop :=
| ls_raw c h : last_set raw_of a ((SetRaw a c, Done) :: h) c
| ls_trans c h : last_set raw_of a ((Set_ a c, Done) :: h) (option_map raw_of c)
| ls_other o r h c : (forall c', (o, r) <> (SetRaw a c', Done)) -> (forall c', (o, r) <> (Set_ a c', Done)) -> last_set raw_of a h c ->
    last_set raw_of a ((o, r) :: h) c.
Definition never_set (a : attr) (h : list (call * answer)) : Prop :=
  forall c, ~ In (SetRaw a c, Done) h /\ ~ In (Set_ a c, Done) h.
(** The last write of an attribute that the kernel accepted. *)
Inductive last_write (a : attr) : list kwrite -> option (list N) -> Prop :=
| lw_this c l : last_write a (mkWr a c true :: l) c
| lw_other w l c : (wr_attr w <> a \/ wr_ok w = false) -> last_write a l c -> last_write a (w :: l) c.
Definition never_written (a : attr) (l : list kwrite) : Prop := forall c, ~ In (mkWr a c true) l.
(** What the content of an attribute file says: nothing, or a context, with or without a 0 behind it. *)
Inductive says : list N -> option (list N) -> Prop :=
| says_nothing : says [] None
| says_text t : t <> [] -> ~ In 0 t -> says t (Some t)
| says_zero t r : ~ In 0 t -> says (t ++ 0 :: r) (Some t).
(** A translation that the daemon gave for a text, or the text itself if it failed, at some time up to [n]. *)
Definition given (daemon : nat -> way -> list N -> option (list N)) (n : nat) (w : way) (s a : list N) : Prop :=
  exists k, (k <= n)%nat /\ (daemon k w s = Some a \/ daemon k w s = None /\ a = s).
(** A daemon whose answers do not change: [tr] is what it answers, or the text itself where it fails. *)
Definition steady (daemon : nat -> way -> list N -> option (list N)) (has : bool) (tr : way -> list N -> list N) : Prop :=
  forall w s, if has then forall n, (daemon n w s = Some (tr w s) \/ daemon n w s = None /\ tr w s = s) else tr w s = s.
