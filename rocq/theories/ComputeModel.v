(** Model of the computation of labels for new and relabelled objects: sepol_compute_sid
    (libsepol/src/services.c) and mls_compute_sid (libsepol/src/mls.c). *)
From Verif Require Import Base EbitmapModel MlsModel ContextModel AvtabModel SidtabModel.

(** The default_* fields of class_datum_t (libsepol/include/sepol/policydb/policydb.h:112-135). *)
Record cdefaults := mkDef { df_user : N; df_role : N; df_type : N; df_range : N }.

(** The parts of policydb_t used here: rule tables, class_val_to_struct ([None]: NULL), role transitions in list
    order (role_trans_t, policydb.h), range transitions (a symbol table, see C22, as an association list). *)
Record cpolicy := mkCP {
  cp_base : policy;
  cp_te : avtab;
  cp_cond : avtab;
  cp_nclasses : N;
  cp_class : N -> option cdefaults;
  cp_process : N;
  cp_role_tr : list ((N * N * N) * N);
  cp_range_tr : list ((N * N * N) * mrange) }.

(** libsepol/include/sepol/policydb/policydb.h:121-122. *)
Definition DEFAULT_SOURCE : N := 1.
(** libsepol/include/sepol/policydb/policydb.h:122. *)
Definition DEFAULT_TARGET : N := 2.
(** libsepol/include/sepol/policydb/policydb.h (OBJECT_R_VAL). *)
Definition OBJECT_R_VAL : N := 1.

(** libsepol/src/services.c:1376-1377 (class lookup). *)
Definition class_of (P : cpolicy) (cls : N) : option cdefaults :=
  if negb (cls =? 0) && (cls <=? cp_nclasses P) then cp_class P cls else None.

(** A default field has a value. *)
Definition dflt (P : cpolicy) (cls : N) (f : cdefaults -> N) (v : N) : bool :=
  match class_of P cls with Some d => f d =? v | None => false end.

(** A triple equals another. *)
Definition triple_eqb (a b : N * N * N) : bool :=
  match a, b with (x, y, z), (x', y', z') => (x =? x') && (y =? y') && (z =? z') end.

(** libsepol/src/mls.c:453-468 (mls_copy_context) and libsepol/include/sepol/policydb/context.h:45-53 (mls_context_cpy). *)
Definition copy_range (c : context) : mrange := mkR (mls_level_cpy (r_low (c_range c))) (mls_level_cpy (r_high (c_range c))).
(** libsepol/include/sepol/policydb/context.h:58-73 (mls_context_cpy_low), libsepol/src/mls.c:473-488 (mls_scopy_context). *)
Definition copy_low (c : context) : mrange := mkR (mls_level_cpy (r_low (c_range c))) (mls_level_cpy (r_low (c_range c))).
(** libsepol/include/sepol/policydb/context.h:78-93 (mls_context_cpy_high). *)
Definition copy_high (c : context) : mrange := mkR (mls_level_cpy (r_high (c_range c))) (mls_level_cpy (r_high (c_range c))).

(** libsepol/src/mls.c:651-657 (AVTAB_CHANGE, also reached by falling through from AVTAB_TRANSITION). *)
Definition change_range (P : cpolicy) (s : context) (cls : N) : mrange :=
  if cls =? cp_process P then copy_range s else copy_low s.

(** libsepol/src/mls.c:603-665 (mls_compute_sid): the range of the new context, which starts as zeros when the policy
    is not MLS; [None]: -EINVAL. Allocation failures in copies are not modelled. *)
Definition mls_compute_sid (P : cpolicy) (s t : context) (cls specified : N) : option mrange :=
  if negb (p_mls (cp_base P)) then Some (mkR (mkL 0 ebitmap_init) (mkL 0 ebitmap_init))
  else if specified =? AVTAB_TRANSITION then
    match find (fun e => triple_eqb (fst e) (c_type s, c_type t, cls)) (cp_range_tr P) with
    | Some e => Some (mkR (mls_level_cpy (r_low (snd e))) (mls_level_cpy (r_high (snd e))))
    | None =>
        let d := match class_of P cls with Some d => df_range d | None => 0 end in
        if d =? 1 then Some (copy_low s)
        else if d =? 2 then Some (copy_high s)
        else if d =? 3 then Some (copy_range s)
        else if d =? 4 then Some (copy_low t)
        else if d =? 5 then Some (copy_high t)
        else if d =? 6 then Some (copy_range t)
        else if d =? 7 then mls_range_glblub (c_range s) (c_range t)
        else Some (change_range P s cls)
    end
  else if specified =? AVTAB_CHANGE then Some (change_range P s cls)
  else if specified =? AVTAB_MEMBER then Some (copy_low s)
  else None.

(** libsepol/src/services.c:1381-1397 (user). *)
Definition new_user (P : cpolicy) (s t : context) (cls specified : N) : N :=
  if (specified =? AVTAB_TRANSITION) || (specified =? AVTAB_CHANGE) then
    if dflt P cls df_user DEFAULT_TARGET then c_user t else c_user s
  else if specified =? AVTAB_MEMBER then c_user t
  else 0.

(** libsepol/src/services.c:1399-1410 (role by default). *)
Definition default_role (P : cpolicy) (s t : context) (cls : N) : N :=
  if dflt P cls df_role DEFAULT_SOURCE then c_role s
  else if dflt P cls df_role DEFAULT_TARGET then c_role t
  else if cls =? cp_process P then c_role s else OBJECT_R_VAL.

(** libsepol/src/services.c:1412-1426 (type by default). *)
Definition default_type (P : cpolicy) (s t : context) (cls : N) : N :=
  if dflt P cls df_type DEFAULT_SOURCE then c_type s
  else if dflt P cls df_type DEFAULT_TARGET then c_type t
  else if cls =? cp_process P then c_type s else c_type t.

(** libsepol/src/services.c:1428-1446 (type rule, first the permanent table, then enabled conditional rules). *)
Definition type_rule (P : cpolicy) (s t : context) (cls specified : N) : option adatum :=
  let k := mkK (c_type s) (c_type t) cls specified in
  match avtab_search (cp_te P) k with
  | Some d => Some d
  | None => option_map n_datum (find (fun n => negb (N.land (k_spec (n_key n)) AVTAB_ENABLED =? 0)) (avtab_nodes_for (cp_cond P) k))
  end.

(** libsepol/src/services.c:1448-1451 (type). *)
Definition new_type (P : cpolicy) (s t : context) (cls specified : N) : N :=
  match type_rule P s t cls specified with Some d => d_data d | None => default_type P s t cls end.

(** libsepol/src/services.c:1453-1466 (role transition). *)
Definition new_role (P : cpolicy) (s t : context) (cls specified : N) : N :=
  if negb (N.land specified AVTAB_TRANSITION =? 0) then
    match find (fun e => triple_eqb (fst e) (c_role s, c_type t, cls)) (cp_role_tr P) with
    | Some e => snd e
    | None => default_role P s t cls
    end
  else default_role P s t cls.

(** libsepol/src/services.c:1349-1482 (sepol_compute_sid) with 1321-1347 (an invalid result is an error in enforcing
    mode; in permissive mode the class name is printed, which reads outside the array for an unknown class). *)
Definition compute_sid (P : cpolicy) (tab : sidtab) (enforcing : bool) (ssid tsid cls specified : N) (mem : bool)
  : res (sidtab * option N) :=
  match sidtab_search tab ssid with
  | None => ROk (tab, None)
  | Some s =>
      match sidtab_search tab tsid with
      | None => ROk (tab, None)
      | Some t =>
          match mls_compute_sid P s t cls specified with
          | None => ROk (tab, None)
          | Some rng =>
              let c := MlsModel.mkC (new_user P s t cls specified) (new_role P s t cls specified)
                                    (new_type P s t cls specified) rng in
              let get := match context_to_sid tab c mem with
                         | ROk (tab', (TOk, sid)) => ROk (tab', Some sid)
                         | ROk (tab', (_, _)) => ROk (tab', None)
                         | RErr => RErr
                         | RUB => RUB
                         end in
              if context_is_valid (cp_base P) c then get
              else if enforcing then ROk (tab, None)
              else if (cls =? 0) || (cp_nclasses P <? cls) then RUB
              else get
          end
      end
  end.

(** libsepol/src/services.c:1488-1520 (sepol_transition_sid, sepol_member_sid, sepol_change_sid). *)
Definition transition_sid P tab enf ssid tsid cls mem := compute_sid P tab enf ssid tsid cls AVTAB_TRANSITION mem.
(** libsepol/src/services.c:1500-1506. *)
Definition member_sid P tab enf ssid tsid cls mem := compute_sid P tab enf ssid tsid cls AVTAB_MEMBER mem.
(** libsepol/src/services.c:1512-1518. *)
Definition change_sid P tab enf ssid tsid cls mem := compute_sid P tab enf ssid tsid cls AVTAB_CHANGE mem.
