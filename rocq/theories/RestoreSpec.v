(** Specification of labelling: what is remembered about inodes, what a file is set to, which types are customizable. *)
From Verif Require Import Base.
From Verif Require Import ContextSpec LoginSpec.
From Verif Require Import RestoreModel.
From Coq Require Import ZArith.
Open Scope N_scope.

(** ** Associations *)
(** A visit: an inode, the context wanted for it, the path it was met under, and the inodes of the paths at that time. *)
Record visit := mkVisit { v_ino : N; v_con : list N; v_file : list N; v_stat : list N -> option N }.
(** What is remembered for an inode (a context and a path) after visits, the latest first. *)
Inductive remembers : list visit -> N -> option (list N * list N) -> Prop :=
| rem_start i : remembers [] i None
| rem_other v vs i o : v_ino v <> i -> remembers vs i o -> remembers (v :: vs) i o
| rem_new v vs : remembers vs (v_ino v) None -> remembers (v :: vs) (v_ino v) (Some (v_con v, v_file v))
| rem_gone v vs c f : remembers vs (v_ino v) (Some (c, f)) -> v_stat v f <> Some (v_ino v) ->
    remembers (v :: vs) (v_ino v) (Some (v_con v, v_file v))
| rem_same v vs c f : remembers vs (v_ino v) (Some (c, f)) -> v_stat v f = Some (v_ino v) -> v_con v = c ->
    remembers (v :: vs) (v_ino v) (Some (c, f))
| rem_conflict v vs c f : remembers vs (v_ino v) (Some (c, f)) -> v_stat v f = Some (v_ino v) -> v_con v <> c ->
    remembers (v :: vs) (v_ino v) (Some (c, v_file v)).
(** The answer to a visit after others: 0 the inode is new; 1 it is known; -1 (if asked for) or 1 with a message if the context
    differs from the one that was remembered. *)
Inductive answer (conflicterror : bool) (vs : list visit) (v : visit) : reply -> Prop :=
| ans_new : remembers vs (v_ino v) None -> answer conflicterror vs v (mkRep 0 None)
| ans_gone c f : remembers vs (v_ino v) (Some (c, f)) -> v_stat v f <> Some (v_ino v) -> answer conflicterror vs v (mkRep 1 None)
| ans_same c f : remembers vs (v_ino v) (Some (c, f)) -> v_stat v f = Some (v_ino v) -> v_con v = c ->
    answer conflicterror vs v (mkRep 1 None)
| ans_conflict c f : remembers vs (v_ino v) (Some (c, f)) -> v_stat v f = Some (v_ino v) -> v_con v <> c ->
    answer conflicterror vs v (mkRep (if conflicterror then -1 else 1)%Z (Some (v_file v, f, c))).

(** The calls for visits, and the table after some calls, the earliest first (both are runs of the code). *)
Definition visit_add (ce : bool) (T : ftable) (v : visit) : ftable * reply := filespec_add (v_stat v) ce (v_ino v) (v_con v) (v_file v) T.
Definition after (ce : bool) (vs : list visit) : ftable := fold_left (fun T v => fst (visit_add ce T v)) vs no_specs.

(** ** A walk *)
(** The first file of the walk that is this inode and for which there is a context. *)
Definition first_for (fs : list wfile) (d i : N) (c : list N) : Prop :=
  exists a f b, fs = a ++ f :: b /\ w_dev f = d /\ w_ino f = i /\ w_lk f = LkCon c /\
    forall g, In g a -> w_dev g = d -> w_ino g = i -> forall c', w_lk g <> LkCon c'.

(** ** What a file is set to *)
(** Contexts of the usual form. *)
Record fields := mkFields { d_user : list N; d_role : list N; d_type : list N; d_range : option (list N) }.
Definition written (x : fields) : list N := context_text (d_user x) (d_role x) (d_type x) (d_range x).
Definition proper (x : fields) : Prop :=
  word_text (d_user x) /\ word_text (d_role x) /\ word_text (d_type x) /\ d_user x <> [] /\ d_role x <> [] /\ d_type x <> [] /\
  match d_range x with None => True | Some m => range_text m /\ m <> [] /\ colons m <= 2 end.
(** The context a file with context [cur] gets where [new] is specified, the whole not being asked for: the type, and user and
    role if asked for, of the specification; the rest, the range in any case, of the file. *)
Definition mixed (user_role : bool) (cur new : fields) : fields :=
  mkFields (if user_role then d_user new else d_user cur) (if user_role then d_role new else d_role cur) (d_type new) (d_range cur).
(** The context a file ends up with. *)
Inductive ends_with (types : list (list N)) (F : rflags) (cur new : fields) : fields -> Prop :=
| E_nochange : f_nochange F = true -> ends_with types F cur new cur
| E_all : f_nochange F = false -> f_set_specctx F = true -> ends_with types F cur new new
| E_custom : f_nochange F = false -> f_set_specctx F = false -> In (d_type cur) types -> ends_with types F cur new cur
| E_mixed : f_nochange F = false -> f_set_specctx F = false -> ~ In (d_type cur) types ->
    ends_with types F cur new (mixed (f_set_user_role F) cur new).

(** ** Customizable types *)
(** A text of lines, each ended by a newline. *)
Definition text_lines (ls : list (list N)) : list N := flat_map (fun l => l ++ [10]) ls.
