(** The checksum over all modules and the decision of semanage_commit to rebuild the policy. *)
From Verif Require Import Base MlsModel ContextModel Sha1Model Sha256Model.

(** libsemanage/src/direct_api.c:993-998 (struct extra_checksum_params). *)
Record options := mkO { o_dontaudit : Z; o_tunables : Z; o_platform : Z; o_policyvers : Z }.

(** An active module (libsemanage/src/modules.h, semanage_module_info_t) with what the code asks the
    file system and the compiler about it: the contents of its CIL file, if there is one
    (direct_api.c:1041-1049), and the output of the compiler for its language, if it succeeds
    (direct_api.c:901-952). Simplified: paths, permissions and compression are not modelled, a
    failure to read counts as failure of the compiler. *)
Record module := mkMod { m_name : list N; m_lang : list N; m_cil : option (list N); m_output : option (list N) }.

(** libsemanage/src/direct_api.c:985-991 (modinfo_cmp: strcmp compares unsigned characters). *)
Fixpoint name_cmp (a b : list N) : comparison :=
  match a, b with
  | [], [] => Eq
  | [], _ :: _ => Lt
  | _ :: _, [] => Gt
  | x :: a', y :: b' => match N.compare x y with Eq => name_cmp a' b' | c => c end
  end.
(** libsemanage/src/direct_api.c:1019 (qsort). Simplified: insertion sort; the order of modules with
    one name is whatever this gives. *)
Fixpoint insert_module (m : module) (l : list module) : list module :=
  match l with
  | [] => [m]
  | h :: t => match name_cmp (m_name m) (m_name h) with Gt => h :: insert_module m t | _ => m :: l end
  end.
(** libsemanage/src/direct_api.c:1019. *)
Definition sort_modules (l : list module) : list module := fold_right insert_module [] l.

(** libsemanage/src/direct_api.c:868-871: the bytes of a size, least significant first. *)
Fixpoint len_bytes (n : nat) (s : N) : list N :=
  match n with O => [] | S k => N.land s 255 :: len_bytes k (N.shiftr s 8) end.
(** libsemanage/src/direct_api.c:863-873 (update_checksum_with_len): what is hashed. *)
Definition with_len (s : N) : list N := len_bytes 8 s.
(** libsemanage/src/direct_api.c:875-881 (update_checksum_with_bool). *)
Definition with_bool (b : bool) : list N := [if b then 1 else 0].
(** (size_t) of an int, libsemanage/src/direct_api.c:1025-1026. *)
Definition to_size (i : Z) : N := Z.to_N (i mod 18446744073709551616)%Z.

(** strcasecmp with "cil", libsemanage/src/direct_api.c:899. *)
Definition lower (c : N) : N := if (65 <=? c) && (c <=? 90) then c + 32 else c.
(** libsemanage/src/direct_api.c:899. *)
Definition is_cil_ext (ext : list N) : bool := str_eqb (map lower ext) [99; 105; 108].

(** libsemanage/src/direct_api.c:883-983 (semanage_compile_module): the updates it makes.
    Simplified: removal of the HLL file is not modelled. *)
Definition compile_module (m : module) : res (list (list N)) :=
  if is_cil_ext (m_lang m) then ROk []
  else match m_output m with
       | Some d => ROk [with_len (N.of_nat (length d)); d]
       | None => RErr
       end.
(** libsemanage/src/direct_api.c:1031-1066: the body of the loop over the modules. *)
Definition hash_module (ignore_cache : bool) (m : module) : res (list (list N)) :=
  if negb ignore_cache then
    match m_cil m with
    | Some d => ROk [with_len (N.of_nat (length d)); d]
    | None => compile_module m
    end
  else compile_module m.
(** libsemanage/src/direct_api.c:1031-1066: the loop. *)
Fixpoint hash_modules (ignore_cache : bool) (l : list module) : res (list (list N)) :=
  match l with
  | [] => ROk []
  | m :: t =>
      match hash_module ignore_cache m with
      | ROk p => match hash_modules ignore_cache t with ROk q => ROk (p ++ q) | RErr => RErr | RUB => RUB end
      | RErr => RErr | RUB => RUB
      end
  end.
(** libsemanage/src/direct_api.c:1022-1029: the updates before the loop (epoch, options, count). *)
Definition hash_head (o : options) (count : nat) : list (list N) :=
  [with_len 2; with_bool (negb (o_dontaudit o =? 0)%Z); with_bool (negb (o_tunables o =? 0)%Z);
   with_len (to_size (o_platform o)); with_len (to_size (o_policyvers o)); with_len (N.of_nat count)].

(** libsemanage/src/direct_api.c:1000-1072 (semanage_compile_hll_modules): the checksum text with its
    final NUL; [memory] is what the hash context holds before. A digest that is not written would be
    read uninitialised. *)
Definition compile_hll_modules (memory : list N) (ignore_cache : bool) (o : options) (mods : list module) : res (list N) :=
  match hash_modules ignore_cache (sort_modules mods) with
  | ROk pieces =>
      match sha256_digest memory (hash_head o (length mods) ++ pieces) with
      | ROk (Some d) => ROk (checksum_string d)
      | ROk None => RUB
      | RErr => RErr | RUB => RUB
      end
  | RErr => RErr | RUB => RUB
  end.

(** libsemanage/src/direct_api.c:1074-1115 (semanage_compare_checksum): [true] to rebuild. [recorded]
    is the contents of the file, if it exists. Simplified: errors of open, fstat, mmap are not modelled. *)
Definition compare_checksum (recorded : option (list N)) (reference : list N) : bool :=
  match recorded with
  | None => true
  | Some data => if negb (Nat.eqb (length data) 72) then true else negb (str_eqb data reference)
  end.

(** Inputs of the decision (libsemanage/src/direct_api.c:1205-1290): a rebuild was requested or modules
    were changed through the library, the flag files exist, a computed file is missing, external
    changes are to be checked. *)
Record request := mkQ { q_requested : bool; q_dontaudit_file : bool; q_tunables_file : bool;
                        q_missing : bool; q_check_ext : bool; q_ignore_cache : bool }.
(** What semanage_direct_commit does next: error, stop without modules, or go on with or without a
    rebuild; the checksum is the one written to the file, if any. *)
Inductive decision := DError | DStop | DGo (rebuild : bool) (written : option (list N)).

(** libsemanage/src/direct_api.c:1204-1290: do_rebuild before the modules are looked at. *)
Definition rebuild_asked (q : request) (o : options) : bool :=
  let r := q_requested q in
  let r := r || (if q_dontaudit_file q then negb (o_dontaudit o =? 1)%Z else (o_dontaudit o =? 1)%Z) in
  let r := r || (if q_tunables_file q then negb (o_tunables o =? 1)%Z else (o_tunables o =? 1)%Z) in
  r || q_missing q.

(** libsemanage/src/direct_api.c:1292-1330: the decision. *)
Definition decide (memory : list N) (q : request) (o : options) (mods : list module) (recorded : option (list N)) : decision :=
  let do_rebuild := rebuild_asked q o in
  if do_rebuild || q_check_ext q then
    match mods with
    | [] => DStop
    | _ :: _ =>
        match compile_hll_modules memory (q_ignore_cache q) o mods with
        | ROk text =>
            let do_rebuild := if negb do_rebuild && q_check_ext q then compare_checksum recorded text else do_rebuild in
            DGo do_rebuild (Some text)
        | RErr | RUB => DError
        end
    end
  else DGo do_rebuild None.
