(** Model of the SID table of libsepol (libsepol/src/sidtab.c) and of loading a new policy into the running
    security server (libsepol/src/services.c: sepol_load_policy). *)
From Verif Require Import Base EbitmapModel MlsModel ContextModel AvtabModel.

(** sidtab_t, libsepol/include/sepol/policydb/sidtab.h:34-39. [None]: htable is NULL. *)
Record sidtab := mkST { st_table : option (list (list (N * context))); st_nel : N; st_next : N; st_shut : bool }.

(** libsepol/src/sidtab.c:27-37 (sepol_sidtab_init; [mem]: calloc succeeds). *)
Definition sidtab_init (mem : bool) : sidtab := mkST (if mem then Some (repeat [] 128) else None) 0 1 false.

(** libsepol/src/sidtab.c:20-21 with SIDTAB_HASH_MASK, libsepol/include/sepol/policydb/sidtab.h:28-32. *)
Definition sid_hash (sid : N) : nat := N.to_nat (N.land sid 127).

(** libsepol/include/sepol/policydb/context.h:100-105, 138-143 (context_cmp). *)
Definition context_cmp (a b : context) : bool :=
  (c_user a =? c_user b) && (c_role a =? c_role b) && (c_type a =? c_type b) && mls_range_eq (c_range a) (c_range b).

(** libsepol/src/sidtab.c:49-76 (place in the chain; [None]: the SID is there). *)
Fixpoint sid_add (sid : N) (c : context) (l : list (N * context)) : option (list (N * context)) :=
  match l with
  | [] => Some [(sid, c)]
  | (s, c') :: r =>
      if s <? sid then option_map (cons (s, c')) (sid_add sid c r)
      else if sid =? s then None else Some ((sid, c) :: l)
  end.

(** Results of the table functions. *)
Inductive tres := TOk | TExist | TNomem.

(** libsepol/src/sidtab.c:39-82 (sepol_sidtab_insert; [mem]: malloc and context_cpy succeed). *)
Definition sidtab_insert (s : sidtab) (sid : N) (c : context) (mem : bool) : sidtab * tres :=
  match st_table s with
  | None => (s, TNomem)
  | Some t =>
      match sid_add sid c (nth (sid_hash sid) t []) with
      | None => (s, TExist)
      | Some l =>
          if mem
          then (mkST (Some (set_nth (sid_hash sid) l t)) (wrap32 (st_nel s + 1))
                     (if st_next s <=? sid then wrap32 (sid + 1) else st_next s) (st_shut s), TOk)
          else (s, TNomem)
      end
  end.

(** libsepol/src/sidtab.c:93-97 (walk of one chain). *)
Fixpoint sid_get (sid : N) (l : list (N * context)) : option context :=
  match l with
  | [] => None
  | (s, c) :: r => if s <? sid then sid_get sid r else if sid =? s then Some c else None
  end.

(** libsepol/src/flask.h (SECINITSID_UNLABELED). *)
Definition SECINITSID_UNLABELED : N := 3.

(** libsepol/src/sidtab.c:84-109 (sepol_sidtab_search). *)
Definition sidtab_search (s : sidtab) (sid : N) : option context :=
  match st_table s with
  | None => None
  | Some t =>
      match sid_get sid (nth (sid_hash sid) t []) with
      | Some c => Some c
      | None => sid_get SECINITSID_UNLABELED (nth (sid_hash SECINITSID_UNLABELED) t [])
      end
  end.

(** libsepol/src/sidtab.c:172-188 (sepol_sidtab_search_context): 0 when not found. *)
Definition search_context (t : list (list (N * context))) (c : context) : N :=
  match find (fun e => context_cmp (snd e) c) (concat t) with Some e => fst e | None => 0 end.

(** libsepol/src/sidtab.c:190-224 (sepol_sidtab_context_to_sid); a NULL table is dereferenced. *)
Definition context_to_sid (s : sidtab) (c : context) (mem : bool) : res (sidtab * (tres * N)) :=
  match st_table s with
  | None => RUB
  | Some t =>
      let sid := search_context t c in
      if negb (sid =? 0) then ROk (s, (TOk, sid))
      else if (st_next s =? 4294967295) || st_shut s then ROk (s, (TNomem, 0))
      else
        let sid := st_next s in
        let s1 := mkST (st_table s) (st_nel s) (wrap32 (sid + 1)) (st_shut s) in
        match sidtab_insert s1 sid c mem with
        | (s2, TOk) => ROk (s2, (TOk, sid))
        | (s2, r) => ROk (mkST (st_table s2) (st_nel s2) (wrap32 (st_next s2 + 4294967295)) (st_shut s2), (r, 0))
        end
  end.

(** libsepol/src/sidtab.c:253-275 (sepol_sidtab_destroy). *)
Definition sidtab_destroy (s : sidtab) : sidtab :=
  match st_table s with None => s | Some _ => mkST None 0 1 (st_shut s) end.
(** libsepol/src/sidtab.c:277-285 (sepol_sidtab_set: dst takes over the table of src). *)
Definition sidtab_set (src : sidtab) : sidtab := mkST (st_table src) (st_nel src) (st_next src) false.
(** libsepol/src/sidtab.c:287-292 (sepol_sidtab_shutdown). *)
Definition sidtab_shutdown (s : sidtab) : sidtab := mkST (st_table s) (st_nel s) (st_next s) true.

(** libsepol/src/sidtab.c:111-132 (sepol_sidtab_map) applied to clone_sid (libsepol/src/services.c:1594-1600):
    [mem] tells for each SID whether the allocations succeed. *)
Fixpoint clone_all (mem : N -> bool) (l : list (N * context)) (new : sidtab) : sidtab * tres :=
  match l with
  | [] => (new, TOk)
  | (sid, c) :: r =>
      match sidtab_insert new sid c (mem sid) with
      | (new', TOk) => clone_all mem r new'
      | (new', e) => (new', e)
      end
  end.

(** libsepol/src/services.c:1630-1696 (convert_context, with 1602-1616): the converted context or an error.
    [mem]: context_cpy succeeds. A value without a name under the old policy is read out of bounds. *)
Definition convert_context (oldp newp : policy) (enforcing mem : bool) (c : context) : res context :=
  if negb mem then RErr
  else
    match p_user_name oldp (c_user c) with
    | None => RUB
    | Some un =>
        match p_user_find newp un with
        | None => RErr
        | Some u =>
            match p_role_name oldp (c_role c) with
            | None => RUB
            | Some rn =>
                match p_role_find newp rn with
                | None => RErr
                | Some r =>
                    match p_type_name oldp (c_type c) with
                    | None => RUB
                    | Some tn =>
                        match p_type_find newp tn with
                        | None => RErr
                        | Some (t, _) =>
                            match mls_convert_context oldp newp (c_range c) with
                            | None => RErr
                            | Some rng =>
                                let c' := MlsModel.mkC u r t rng in
                                if context_is_valid newp c' then ROk c' else if enforcing then RErr else ROk c'
                            end
                        end
                    end
                end
            end
        end
    end.

(** libsepol/src/sidtab.c:145-167 (one chain of sepol_sidtab_map_remove_on_error): entries whose conversion
    fails are unlinked, the others keep the converted context. *)
Fixpoint remove_chain (f : N -> context -> res context) (l : list (N * context)) : res (list (N * context)) :=
  match l with
  | [] => ROk []
  | (sid, c) :: r =>
      match f sid c with
      | RUB => RUB
      | RErr => remove_chain f r
      | ROk c' => match remove_chain f r with ROk r' => ROk ((sid, c') :: r') | e => e end
      end
  end.
(** libsepol/src/sidtab.c:145-167 (all chains). *)
Fixpoint remove_chains (f : N -> context -> res context) (t : list (list (N * context))) : res (list (list (N * context))) :=
  match t with
  | [] => ROk []
  | l :: r =>
      match remove_chain f l with
      | ROk l' => match remove_chains f r with ROk r' => ROk (l' :: r') | e => e end
      | RErr => RErr
      | RUB => RUB
      end
  end.
(** libsepol/src/sidtab.c:134-170 (sepol_sidtab_map_remove_on_error). *)
Definition remove_on_error (f : N -> context -> res context) (s : sidtab) : res sidtab :=
  match st_table s with
  | None => ROk s
  | Some t =>
      match remove_chains f t with
      | ROk t' => ROk (mkST (Some t') (st_nel s - (N.of_nat (length (concat t)) - N.of_nat (length (concat t')))) (st_next s) (st_shut s))
      | RErr => RErr
      | RUB => RUB
      end
  end.

(** A class as validate_class sees it (libsepol/src/services.c:1544-1592): name, value, the permissions of its
    common (if it has one) and its own. *)
Record classdef := mkCD { cd_name : list N; cd_value : N; cd_common : option (list (list N * N)); cd_perms : list (list N * N) }.

(** libsepol/src/services.c:1519-1542 (validate_perm over a permission table). *)
Definition perms_kept (old new : list (list N * N)) : bool :=
  forallb (fun e => match find (fun e' => str_eqb (fst e) (fst e')) new with Some e' => snd e =? snd e' | None => false end) old.

(** libsepol/src/services.c:1544-1592 (validate_class). *)
Definition class_kept (new : list classdef) (c : classdef) : bool :=
  match find (fun c' => str_eqb (cd_name c) (cd_name c')) new with
  | None => false
  | Some c' =>
      (cd_value c =? cd_value c') &&
      match cd_common c, cd_common c' with
      | None, None => true
      | Some p, Some p' => perms_kept p p'
      | _, _ => false
      end && perms_kept (cd_perms c) (cd_perms c')
  end.

(** A policy: what contexts need and its classes. *)
Record lpolicy := mkLP { lp_policy : policy; lp_classes : list classdef }.

(** The running server: the policy in use ([None] after it was destroyed), the SID table, selinux_enforcing
    (libsepol/src/services.c:72-75; policydb and sidtab point to mypolicydb and mysidtab). *)
Record server := mkServer { sv_pol : option lpolicy; sv_sids : sidtab; sv_enf : bool }.

(** libsepol/src/services.c:1807-1871 (sepol_load_policy). [read]: what policydb_read makes of the data;
    [init_ok], [tab_ok], [clone_mem], [conv_mem]: luck of policydb_init, sepol_sidtab_init (its result is not
    checked) and the allocations for each SID. Freed memory is used when the policy was destroyed before. *)
Definition load_policy (S : server) (init_ok tab_ok : bool) (clone_mem conv_mem : N -> bool) (read : option lpolicy) : res (server * bool) :=
  if negb init_ok then ROk (S, false)
  else
    match read with
    | None => ROk (mkServer None (sv_sids S) (sv_enf S), false)
    | Some new =>
        match sv_pol S with
        | None => RUB
        | Some old =>
            let newtab := sidtab_init tab_ok in
            if negb (forallb (class_kept (lp_classes new)) (lp_classes old)) then ROk (S, false)
            else
              let sids := sidtab_shutdown (sv_sids S) in
              match clone_all clone_mem (match st_table sids with None => [] | Some t => concat t end) newtab with
              | (newtab', TOk) =>
                  match remove_on_error (fun sid => convert_context (lp_policy old) (lp_policy new) (sv_enf S) (conv_mem sid)) newtab' with
                  | ROk newtab'' => ROk (mkServer (Some new) (sidtab_set newtab'') (sv_enf S), true)
                  | _ => RUB
                  end
              | (_, _) => ROk (mkServer (sv_pol S) sids (sv_enf S), false)
              end
        end
    end.

(** Operations on one SID table. *)
Inductive top := TInsert (sid : N) (c : context) (mem : bool) | TToSid (c : context) (mem : bool).
(** What an operation returns: a code and, for TToSid, the SID. *)
Definition tout : Type := tres * N.
(** Running one operation (libsepol/src/sidtab.c entry points). *)
Definition tstep (s : sidtab) (o : top) : res (sidtab * tout) :=
  match o with
  | TInsert sid c mem => let (s', r) := sidtab_insert s sid c mem in ROk (s', (r, sid))
  | TToSid c mem => context_to_sid s c mem
  end.
(** Running a history; the trace is newest first. *)
Fixpoint trun (s : sidtab) (tr : list (top * tout)) (l : list top) : res (sidtab * list (top * tout)) :=
  match l with
  | [] => ROk (s, tr)
  | o :: l' => match tstep s o with ROk (s', x) => trun s' ((o, x) :: tr) l' | RErr => RErr | RUB => RUB end
  end.
