(** Model of the module store of libsemanage: modules of a name may be installed at several priorities, the store lists them, enables
    and disables them, hands them out and compiles the active ones (libsemanage/src/direct_api.c, modules.c, semanage_store.c). The
    sandbox directory of a transaction is the state. System calls do not fail, except that what is absent cannot be opened; compression
    of the files, the messages, and the file modes are left out. The compilers of the high-level languages, programs of their own, are
    a parameter; sorting (scandir with versionsort, qsort) is a parameter of which only the order it makes is used. *)
From Verif Require Import Base MlsModel.

(** The files of one module directory PRIORITY/NAME: lang_ext, hll, cil (libsemanage/src/modules.c:500-510). *)
Record mfiles := mkFiles { f_ext : list N; f_hll : option (list N); f_cil : option (list N) }.
(** One module directory. *)
Record mdir := mkDir { d_prio : N; d_name : list N; d_files : mfiles }.
(** The directory modules: the priority directories, the module directories in them, the files in modules/disabled. *)
Record mstore := mkStore { s_dirs : list N; s_mods : list mdir; s_off : list (list N) }.
(** libsemanage/src/modules.h:36-41 (struct semanage_module_info), with the enabled flag as read from a store. *)
Record minfo := mkInfo { i_prio : N; i_name : list N; i_ext : list N; i_on : bool }.
(** A store with no modules. *)
Definition empty_store : mstore := mkStore [] [] [].

(** isalpha, isdigit and isalnum in the C locale. *)
Definition is_alpha (c : N) : bool := ((65 <=? c) && (c <=? 90)) || ((97 <=? c) && (c <=? 122)).
(** See is_alpha. *)
Definition is_digit (c : N) : bool := (48 <=? c) && (c <=? 57).
(** libsemanage/src/modules.c:827 and 882 (ISVALIDCHAR). *)
Definition valid_char (c : N) : bool := is_alpha c || is_digit c || (c =? 95) || (c =? 45).
(** libsemanage/src/modules.c:794-801 (semanage_module_validate_priority). *)
Definition valid_prio (p : N) : bool := (1 <=? p) && (p <=? 999).
(** libsemanage/src/modules.c:829-838: the loop over the characters after the first. *)
Fixpoint name_rest (s : list N) : bool :=
  match s with
  | [] => true
  | c :: r => if valid_char c then name_rest r
              else if c =? 46 then match r with [] => false | c' :: r' => if valid_char c' then name_rest r' else false end
              else false
  end.
(** libsemanage/src/modules.c:812-845 (semanage_module_validate_name). *)
Definition valid_name (s : list N) : bool := match s with [] => false | c :: r => if is_alpha c then name_rest r else false end.
(** libsemanage/src/modules.c:853-860 (semanage_module_validate_enabled). *)
Definition valid_enabled (e : Z) : bool := ((e =? 1) || (e =? 0) || (e =? -1))%Z.
(** libsemanage/src/modules.c:871-897 (semanage_module_validate_lang_ext). *)
Definition valid_ext (s : list N) : bool :=
  match s with [] => false | c :: r => if is_alpha c || is_digit c then forallb valid_char r else false end.

(** tolower in the C locale, as in strcasecmp. *)
Definition lower (c : N) : N := if (65 <=? c) && (c <=? 90) then c + 32 else c.
(** !strcasecmp(ext, "cil"), libsemanage/src/direct_api.c:899 and 2830. *)
Definition is_cil_any_case (ext : list N) : bool := str_eqb (map lower ext) [99; 105; 108].
(** strcmp(ext, "cil") == 0, libsemanage/src/direct_api.c:1841 and 1858. *)
Definition is_cil (ext : list N) : bool := str_eqb ext [99; 105; 108].

(** The name of a priority directory, "%03u" (libsemanage/src/modules.c:451-455). *)
Definition pad3 (p : N) : list N := [48 + p / 100; 48 + (p / 10) mod 10; 48 + p mod 10].
(** The value of a string of decimal digits, as strtoul. *)
Fixpoint digits_value (acc : N) (s : list N) : option N :=
  match s with [] => Some acc | c :: r => if is_digit c then digits_value (10 * acc + (c - 48)) r else None end.
(** libsemanage/src/modules.c:744-771 (semanage_string_to_priority), for names without spaces and signs before the digits. *)
Definition prio_of_text (s : list N) : option N :=
  match s with
  | [] => None
  | _ => match digits_value 0 s with Some v => if (v <=? 65535) && valid_prio v then Some v else None | None => None end
  end.

(** strverscmp of the C library, which scandir's versionsort in direct_api.c:2589-2592 and 2635-2638 uses: the states S_N = 0, S_I = 1,
    S_F = 2, S_Z = 3 of its automaton. The class of a character: 0 other, 1 a digit but zero, 2 zero. *)
Definition vclass (c : N) : N := if c =? 48 then 2 else if is_digit c then 1 else 0.
(** strverscmp: the state after a character of the given class (next_state, and the class is added). *)
Definition vnext (st cl : N) : N :=
  if cl =? 0 then 0
  else if cl =? 1 then (if st =? 0 then 1 else if st =? 1 then 1 else 2)
  else (if st =? 0 then 3 else if st =? 1 then 1 else if st =? 2 then 2 else 3).
(** strverscmp, case LEN: the longer run of digits is the greater number. *)
Fixpoint vlen (d : comparison) (a b : list N) : comparison :=
  match a, b with
  | x :: a', y :: b' => if is_digit x then (if is_digit y then vlen d a' b' else Gt) else (if is_digit y then Lt else d)
  | x :: _, [] => if is_digit x then Gt else d
  | [], y :: _ => if is_digit y then Lt else d
  | [], [] => d
  end.
(** strverscmp: the verdict at the first difference (result_type), in state [st], of characters of classes [c] and [c'] and order [d]. *)
Definition vresult (st c c' : N) (d : comparison) (a b : list N) : comparison :=
  if st =? 0 then (if (c =? 1) && (c' =? 1) then vlen d a b else d)
  else if st =? 1 then
    (if c =? 0 then (if c' =? 0 then d else Lt) else if c' =? 0 then Gt else vlen d a b)
  else if st =? 2 then d
  else (if c =? 0 then (if c' =? 0 then d else Gt) else if c' =? 0 then Lt else d).
(** strverscmp: the loop. The end of a string is the character 0. *)
Fixpoint vers (st : N) (a b : list N) : comparison :=
  match a, b with
  | [], [] => Eq
  | [], y :: b' => vresult st 0 (vclass y) (0 ?= y) [] b'
  | x :: a', [] => vresult st (vclass x) 0 (x ?= 0) a' []
  | x :: a', y :: b' => if x =? y then vers (vnext st (vclass x)) a' b' else vresult st (vclass x) (vclass y) (x ?= y) a' b'
  end.
(** strcmp, of libsemanage/src/semanage_store.c:1037. *)
Fixpoint scmp (a b : list N) : comparison :=
  match a, b with
  | [], [] => Eq
  | [], _ :: _ => Lt
  | _ :: _, [] => Gt
  | x :: a', y :: b' => if x =? y then scmp a' b' else (x ?= y)
  end.

(** Is this the directory of the name at the priority? *)
Definition at_key (p : N) (n : list N) (d : mdir) : bool := (d_prio d =? p) && str_eqb (d_name d) n.
(** The files at PRIORITY/NAME. *)
Definition look (st : mstore) (p : N) (n : list N) : option mfiles := option_map d_files (find (at_key p n) (s_mods st)).
(** Is there a file modules/disabled/NAME? *)
Definition is_off (st : mstore) (n : list N) : bool := existsb (str_eqb n) (s_off st).
(** Writing the files at PRIORITY/NAME, making the directories as needed (semanage_mkdir, direct_api.c:2414-2445). *)
Definition store_put (st : mstore) (p : N) (n : list N) (f : mfiles) : mstore :=
  mkStore (if existsb (N.eqb p) (s_dirs st) then s_dirs st else p :: s_dirs st)
          (mkDir p n f :: filter (fun d => negb (at_key p n d)) (s_mods st)) (s_off st).
(** semanage_remove_directory of PRIORITY/NAME. *)
Definition store_del (st : mstore) (p : N) (n : list N) : mstore :=
  mkStore (s_dirs st) (filter (fun d => negb (at_key p n d)) (s_mods st)) (s_off st).
(** Creating and unlinking modules/disabled/NAME. *)
Definition put_off (st : mstore) (n : list N) : mstore := mkStore (s_dirs st) (s_mods st) (n :: s_off st).
(** See put_off. *)
Definition del_off (st : mstore) (n : list N) : mstore := mkStore (s_dirs st) (s_mods st) (filter (fun m => negb (str_eqb n m)) (s_off st)).

(** libsemanage/src/direct_api.c:2263-2375: semanage_direct_get_module_info with a priority other than 0. *)
Definition info_at (st : mstore) (p : N) (n : list N) : option minfo :=
  if valid_name n then
    if valid_prio p then
      match look st p n with Some f => Some (mkInfo p n (f_ext f) (negb (is_off st n))) | None => None end
    else None
  else None.
(** All of them or nothing. *)
Fixpoint map_all {A B} (f : A -> option B) (l : list A) : option (list B) :=
  match l with
  | [] => Some []
  | x :: r => match f x with Some y => match map_all f r with Some ys => Some (y :: ys) | None => None end | None => None end
  end.

Section Store.
Context (vsort : list (list N) -> list (list N)).
Context (nsort : list minfo -> list minfo).
Context (compile : list N -> list N -> option (list N)).

(** libsemanage/src/direct_api.c:2600-2711: one priority directory. *)
Definition list_dir (st : mstore) (t : list N) : option (list minfo) :=
  match prio_of_text t with
  | Some p => map_all (info_at st p) (vsort (map d_name (filter (fun d => d_prio d =? p) (s_mods st))))
  | None => None
  end.
(** libsemanage/src/direct_api.c:2545-2752 (semanage_direct_list_all): from the last directory to the first. *)
Definition list_all (st : mstore) : option (list minfo) :=
  option_map (@concat minfo) (map_all (list_dir st) (rev (vsort (map pad3 (s_dirs st))))).
(** libsemanage/src/direct_api.c:2194-2384 (semanage_direct_get_module_info): priority 0 is the highest there is. *)
Definition get_info (st : mstore) (p : N) (n : list N) : option minfo :=
  if valid_name n then
    if p =? 0 then match list_all st with Some l => find (fun i => str_eqb (i_name i) n) l | None => None end
    else info_at st p n
  else None.
(** libsemanage/src/direct_api.c:1981-2036 (semanage_direct_get_enabled). *)
Definition get_enabled (st : mstore) (p : N) (n : list N) : option bool :=
  match get_info st p n with Some i => Some (negb (is_off st (i_name i))) | None => None end.
(** libsemanage/src/direct_api.c:2038-2163 (semanage_direct_set_enabled): the status and the store. *)
Definition set_enabled (st : mstore) (p : N) (n : list N) (e : Z) : Z * mstore :=
  if negb (valid_name n) then (-1, st)%Z
  else if negb (valid_enabled e) then (-1, st)%Z
  else match get_info st p n with
       | None => (-1, st)%Z
       | Some i => if (e =? 0)%Z then (0%Z, put_off st (i_name i))
                   else if (e =? 1)%Z then (0%Z, del_off st (i_name i)) else (0%Z, st)
       end.
(** libsemanage/src/direct_api.c:2386-2526 (semanage_direct_set_module_info), of a module that semanage_module_info_validate accepts. *)
Definition set_module_info (st : mstore) (p : N) (n ext : list N) (e : Z) : Z * mstore :=
  let old := match look st p n with Some f => f | None => mkFiles [] None None end in
  let st1 := store_put st p n (mkFiles ext (f_hll old) (f_cil old)) in
  let e' := (if e =? -1 then match get_info st1 0 n with Some i => if i_on i then 1 else 0 | None => 1 end else e)%Z in
  set_enabled st1 0 n e'.
(** libsemanage/src/direct_api.c:2754-2881 (semanage_direct_install_info); semanage_direct_install (1669-1713) is this with the enabled
    status -1. *)
Definition install_info (st : mstore) (p : N) (n ext : list N) (e : Z) (data : list N) : Z * mstore :=
  if negb (valid_prio p && valid_name n && valid_ext ext && valid_enabled e) then (-2, st)%Z
  else let (ret, st1) := set_module_info st p n ext e in
       if negb (ret =? 0)%Z then (-2, st1)%Z
       else let old := match look st1 p n with Some f => f | None => mkFiles ext None None end in
            if is_cil_any_case ext then (0%Z, store_put st1 p n (mkFiles (f_ext old) (f_hll old) (Some data)))
            else (0%Z, store_put st1 p n (mkFiles (f_ext old) (Some data) None)).
(** libsemanage/src/direct_api.c:2883-2992 (semanage_direct_remove_key). *)
Definition remove_key (st : mstore) (p : N) (n : list N) : Z * mstore :=
  if negb (valid_prio p) then (-1, st)%Z
  else if negb (valid_name n) then (-1, st)%Z
  else match look st p n with
       | None => (-2, st)%Z
       | Some _ => let st1 := store_del st p n in
                   match get_info st1 0 n with None => (0%Z, del_off st1 n) | Some _ => (0%Z, st1) end
       end.
(** libsemanage/src/semanage_store.c:1137-1161: the loop over all modules with the names already seen. *)
Fixpoint firsts (seen : list (list N)) (l : list minfo) : list minfo :=
  match l with
  | [] => []
  | i :: r => if i_on i then (if existsb (str_eqb (i_name i)) seen then firsts seen r else i :: firsts (i_name i :: seen) r)
              else firsts seen r
  end.
(** libsemanage/src/semanage_store.c:1098-1207 (semanage_get_active_modules); semanage_module_list (direct_api.c:1945-1979) gives this
    to the caller. *)
Definition active (st : mstore) : option (list minfo) :=
  match list_all st with Some l => Some (nsort (firsts [] l)) | None => None end.

(** libsemanage/src/direct_api.c:883-983 (semanage_compile_module), with the option remove-hll of semanage.conf. [None]: failure. *)
Definition compile_module (rm : bool) (st : mstore) (i : minfo) : option mstore :=
  if is_cil_any_case (i_ext i) then Some st
  else match look st (i_prio i) (i_name i) with
       | Some f => match f_hll f with
                   | Some h => match compile (i_ext i) h with
                               | Some c => if rm then Some (store_put st (i_prio i) (i_name i) (mkFiles [99; 105; 108] None (Some c)))
                                           else Some (store_put st (i_prio i) (i_name i) (mkFiles (f_ext f) (f_hll f) (Some c)))
                               | None => None
                               end
                   | None => None
                   end
       | None => None
       end.
(** Is there a file PRIORITY/NAME/cil? *)
Definition cil_at (st : mstore) (p : N) (n : list N) : option (list N) := match look st p n with Some f => f_cil f | None => None end.
(** libsemanage/src/direct_api.c:1001-1073 (semanage_compile_hll_modules), the checksum left out (ChecksumModel has it): [ign] is the
    handle's ignore_module_cache. The store is that at the end or at the failure. *)
Fixpoint compile_modules (rm ign : bool) (st : mstore) (l : list minfo) : bool * mstore :=
  match l with
  | [] => (true, st)
  | i :: r =>
    match (if ign then None else cil_at st (i_prio i) (i_name i)) with
    | Some _ => compile_modules rm ign st r
    | None => match compile_module rm st i with Some st' => compile_modules rm ign st' r | None => (false, st) end
    end
  end.
(** libsemanage/src/direct_api.c:1293-1366: the modules that go into the policy when it is rebuilt, each with its text in CIL
    (semanage_get_cil_paths, semanage_load_files), in the order in which they are loaded. *)
Definition rebuild (rm ign : bool) (st : mstore) : option (list (list N * list N)) * mstore :=
  match active st with
  | None => (None, st)
  | Some l => let (ok, st') := compile_modules rm ign st l in
              if ok then (map_all (fun i => option_map (pair (i_name i)) (cil_at st' (i_prio i) (i_name i))) l, st') else (None, st')
  end.
(** libsemanage/src/direct_api.c:1802-1900 (semanage_direct_extract): the data and the extension of the module. *)
Definition extract (rm want_cil : bool) (st : mstore) (p : N) (n : list N) : option (list N * list N) * mstore :=
  if negb (valid_prio p && valid_name n) then (None, st)
  else match look st p n with
       | None => (None, st)
       | Some _ =>
         match get_info st p n with
         | None => (None, st)
         | Some i =>
           let st1 := if want_cil && negb (is_cil (i_ext i)) && (match cil_at st p n with None => true | Some _ => false end)
                      then compile_module rm st i else Some st in
           match st1 with
           | None => (None, st)
           | Some st1 =>
             match (match look st1 p n with
                    | Some f => if want_cil || is_cil (i_ext i) then f_cil f else f_hll f
                    | None => None end) with
             | Some data => (Some (data, i_ext i), st1)
             | None => (None, st1)
             end
           end
         end
       end.

(** What a caller can do to a store in a transaction. *)
Inductive mop :=
| MInstall (p : N) (n ext : list N) (e : Z) (data : list N)
| MRemove (p : N) (n : list N)
| MEnable (p : N) (n : list N) (e : Z)
| MRebuild (rm ign : bool)
| MExtract (rm want_cil : bool) (p : N) (n : list N).
(** The functions of libsemanage/src/direct_api.c above, by operation: whether it succeeded, and the store after it. *)
Definition mstep (st : mstore) (o : mop) : bool * mstore :=
  match o with
  | MInstall p n ext e data => let (r, st') := install_info st p n ext e data in ((r =? 0)%Z, st')
  | MRemove p n => let (r, st') := remove_key st p n in ((r =? 0)%Z, st')
  | MEnable p n e => let (r, st') := set_enabled st p n e in ((r =? 0)%Z, st')
  | MRebuild rm ign => let (r, st') := rebuild rm ign st in ((match r with Some _ => true | None => false end), st')
  | MExtract rm c p n => let (r, st') := extract rm c st p n in ((match r with Some _ => true | None => false end), st')
  end.
(** A sequence of operations on a store (libsemanage/src/direct_api.c, one call after another): the store at the end, and the
    operations that succeeded, the latest first. *)
Fixpoint mrun (st : mstore) (done : list mop) (ops : list mop) : mstore * list mop :=
  match ops with
  | [] => (st, done)
  | o :: r => let (ok, st') := mstep st o in mrun st' (if ok then o :: done else done) r
  end.
End Store.
