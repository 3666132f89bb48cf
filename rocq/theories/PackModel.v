(** Model of libsepol/src/module.c: policy module packages, the files that hold a policy module together with the texts that go with
    it. Files are memory (PF_USE_MEMORY). The binary policy inside a package is taken as given: its writer, its reader and its kind are
    parameters (CodecModel has the parts of that format). Allocation failures and failing writes are not modelled; malloc(0) gives a
    buffer, as with glibc. *)
From Verif Require Import Base CodecModel ContextModel FtransModel.

(** libsepol/include/sepol/policydb/module.h:31 (SEPOL_MODULE_PACKAGE_MAGIC). *)
Definition PACKAGE_MAGIC : N := 0xf97cff8f.
(** libsepol/src/module.c:35. *)
Definition SECTION_FC : N := 0xf97cff90.
(** libsepol/src/module.c:36. *)
Definition SECTION_SEUSER : N := 0x97cff91.
(** libsepol/src/module.c:37. *)
Definition SECTION_USER_EXTRA : N := 0x97cff92.
(** libsepol/src/module.c:38. *)
Definition SECTION_NETFILTER : N := 0x97cff93.
(** libsepol/include/sepol/policydb/flask_types.h:49 (SELINUX_MOD_MAGIC). *)
Definition MOD_MAGIC : N := 0xf97cff8d.
(** libsepol/src/module.c:372 (MAXSECTIONS). *)
Definition MAXSECTIONS : N := 100.
(** The pieces that files are read in: BUFSIZ of glibc. *)
Definition BUFSIZ : N := 8192.
(** uint32_t arithmetic. *)
Definition u32 (x : N) : N := x mod 2 ^ 32.
(** libsepol/include/sepol/policydb/module.h:37-48 (struct sepol_module_package): the texts are [None] while the pointers are NULL. *)
Record package (P : Type) := mkPkg { pk_version : N; pk_policy : P; pk_fc : option (list N); pk_seusers : option (list N);
  pk_user_extra : option (list N); pk_netfilter : option (list N) }.
Arguments mkPkg {P}. Arguments pk_version {P}. Arguments pk_policy {P}. Arguments pk_fc {P}. Arguments pk_seusers {P}.
Arguments pk_user_extra {P}. Arguments pk_netfilter {P}.
(** libsepol/src/module.c:103-116 (set_char), as in sepol_module_package_set_file_contexts and its like (194-232). *)
Definition set_char (data : list N) : option (list N) := match data with [] => None | _ => Some data end.

(** ** Writing *)

(** libsepol/src/module.c:905-934: the offsets of the sections of the texts, in uint32_t arithmetic; the four blocks of the code are
    one loop here. *)
Fixpoint text_offsets (prev len : N) (fields : list (option (list N))) : list N :=
  match fields with
  | [] => []
  | None :: r => text_offsets prev len r
  | Some d :: r => let o := u32 (prev + len) in o :: text_offsets o (u32 (N.of_nat (length d) + 4)) r
  end.
(** libsepol/src/module.c:943-982 and 845-863 (write_helper): a text section; the pieces of BUFSIZ bytes are the data itself. *)
Definition text_section (k : N) (field : option (list N)) : list N := match field with Some d => put32 k ++ d | None => [] end.
(** libsepol/src/module.c:888-897: one more section. *)
Definition present (field : option (list N)) : N := match field with Some _ => 1 | None => 0 end.
(** libsepol/src/module.c:865-985 (sepol_module_package_write). [pol_write] is policydb_write, [is_base] the test of policy_type. *)
Definition package_write {P} (pol_write : P -> option (list N)) (is_base : P -> bool) (p : package P) : option (list N) :=
  match pol_write (pk_policy p) with
  | None => None
  | Some w =>
      if N.of_nat (length w) =? 0 then None
      else if negb ((present (pk_seusers p) =? 0) && (present (pk_user_extra p) =? 0)) && negb (is_base (pk_policy p)) then None
      else
        let nsec := 1 + present (pk_fc p) + present (pk_seusers p) + present (pk_user_extra p) + present (pk_netfilter p) in
        let o0 := u32 ((nsec + 3) * 4) in
        Some (put32 PACKAGE_MAGIC ++ put32 (pk_version p) ++ put32 nsec
              ++ write_words (o0 :: text_offsets o0 (u32 (N.of_nat (length w))) [pk_fc p; pk_seusers p; pk_user_extra p; pk_netfilter p])
              ++ w ++ text_section SECTION_FC (pk_fc p) ++ text_section SECTION_SEUSER (pk_seusers p)
              ++ text_section SECTION_USER_EXTRA (pk_user_extra p) ++ text_section SECTION_NETFILTER (pk_netfilter p))
  end.

(** ** Reading *)

(** libsepol/src/module.c:350-370 (read_helper): in pieces. *)
Fixpoint read_helper (fuel : nat) (nel : N) (bs : list N) : option (list N) :=
  match fuel with
  | O => None
  | S f =>
      if nel =? 0 then Some []
      else
        let r := if nel <? BUFSIZ then nel else BUFSIZ in
        if N.of_nat (length bs) <? r then None
        else match read_helper f (nel - r) (skipn (N.to_nat r) bs) with
             | Some x => Some (firstn (N.to_nat r) bs ++ x)
             | None => None
             end
  end.
(** libsepol/src/module.c:430-438: the offsets do not decrease. *)
Fixpoint increasing (l : list N) : bool :=
  match l with
  | a :: ((b :: _) as r) => negb (b <? a) && increasing r
  | _ => true
  end.
(** libsepol/src/module.c:376-458 (module_package_read_offsets): the version, and the offsets with the length of the file after them. *)
Definition read_offsets (file : list N) : option (N * list N) :=
  get magic, b1 <- get32 file; get version, b2 <- get32 b1; get nsec, b3 <- get32 b2;
  if negb (magic =? PACKAGE_MAGIC) then None
  else if MAXSECTIONS <? nsec then None
  else get ws, b4 <- read_n get32 (N.to_nat nsec) b3;
       if negb (increasing ws) then None
       else let len := N.of_nat (length file) in
            if negb (nsec =? 0) && (len <? last ws 0) then None else Some (version, ws ++ [len]).
(** What has been read so far; a field is set exactly if its bit of [seen] is. *)
Record pstate (P : Type) := mkPS { ps_mod : option P; ps_fc : option (list N); ps_seusers : option (list N);
  ps_user_extra : option (list N); ps_netfilter : option (list N) }.
Arguments mkPS {P}. Arguments ps_mod {P}. Arguments ps_fc {P}. Arguments ps_seusers {P}. Arguments ps_user_extra {P}. Arguments ps_netfilter {P}.
(** libsepol/src/module.c:508-606: reading a text section. The length goes through a uint32_t: if it does not fit, part of the text is
    never filled in ([RUB]). *)
Definition read_text (seen : option (list N)) (n : N) (bs : list N) : res (list N) :=
  match seen with
  | Some _ => RErr
  | None => if 2 ^ 32 <=? n then RUB else match read_helper (S (N.to_nat n)) n bs with Some d => ROk d | None => RErr end
  end.
(** "goto cleanup" or go on. *)
Definition then_do {A B} (r : res A) (k : A -> res B) : res B := match r with ROk a => k a | RErr => RErr | RUB => RUB end.
(** libsepol/src/module.c:482-636: one section. [pol_read] is policydb_read, on the rest of the file. *)
Definition read_section {P} (pol_read : list N -> option P) (file : list N) (o e : N) (st : pstate P) : res (pstate P) :=
  if N.of_nat (length file) <? o then RErr
  else if e - o <? 4 then RErr
  else match get32 (skipn (N.to_nat o) file) with
       | None => RErr
       | Some (k, rest) =>
           let n := e - o - 4 in
           if k =? SECTION_FC then
             then_do (read_text (ps_fc st) n rest) (fun d => ROk (mkPS (ps_mod st) (Some d) (ps_seusers st) (ps_user_extra st) (ps_netfilter st)))
           else if k =? SECTION_SEUSER then
             then_do (read_text (ps_seusers st) n rest) (fun d => ROk (mkPS (ps_mod st) (ps_fc st) (Some d) (ps_user_extra st) (ps_netfilter st)))
           else if k =? SECTION_USER_EXTRA then
             then_do (read_text (ps_user_extra st) n rest) (fun d => ROk (mkPS (ps_mod st) (ps_fc st) (ps_seusers st) (Some d) (ps_netfilter st)))
           else if k =? SECTION_NETFILTER then
             then_do (read_text (ps_netfilter st) n rest) (fun d => ROk (mkPS (ps_mod st) (ps_fc st) (ps_seusers st) (ps_user_extra st) (Some d)))
           else if k =? MOD_MAGIC then
             match ps_mod st with
             | Some _ => RErr
             | None => match pol_read (skipn (N.to_nat o) file) with
                       | None => RErr
                       | Some p => ROk (mkPS (Some p) (ps_fc st) (ps_seusers st) (ps_user_extra st) (ps_netfilter st))
                       end
             end
           else ROk st
       end.
(** libsepol/src/module.c:480-637: the loop over the sections. *)
Fixpoint read_sections {P} (pol_read : list N -> option P) (file : list N) (offsets : list N) (st : pstate P) : res (pstate P) :=
  match offsets with
  | o :: ((e :: _) as r) => then_do (read_section pol_read file o e st) (read_sections pol_read file r)
  | _ => ROk st
  end.
(** libsepol/src/module.c:467-650 (sepol_module_package_read), into a fresh package. *)
Definition package_read {P} (pol_read : list N -> option P) (file : list N) : res (package P) :=
  match read_offsets file with
  | None => RErr
  | Some (version, offsets) =>
      then_do (read_sections pol_read file offsets (mkPS None None None None None)) (fun st =>
        match ps_mod st with
        | None => RErr
        | Some p => ROk (mkPkg version p (ps_fc st) (ps_seusers st) (ps_user_extra st) (ps_netfilter st))
        end)
  end.

(** ** The short look into a package *)

(** libsepol/include/sepol/policydb.h:65-66 (SEPOL_POLICY_BASE, SEPOL_POLICY_MOD). *)
Definition POLICY_BASE : N := 1.
(** The other kind. *)
Definition POLICY_MOD : N := 2.
(** libsepol/src/module.c:659: the bits of [seen], and what has been found out. *)
Record istate := mkIS { is_fc : bool; is_seusers : bool; is_user_extra : bool; is_netfilter : bool; is_mod : option (N * option (list N * list N)) }.
(** libsepol/src/module.c:741-823: the header of the module. *)
Definition info_module (second : N) (bs : list N) : option (N * option (list N * list N)) :=
  if negb (second =? 15) then None
  else if N.of_nat (length bs) <? 15 then None
  else get ty, b1 <- get32 (skipn 15 bs); get v, b2 <- get32 b1; get c, b3 <- get32 b2; get s, b4 <- get32 b3; get o, b5 <- get32 b4;
       if ty =? POLICY_BASE then Some (ty, None)
       else if negb (ty =? POLICY_MOD) then None
       else get n, b6 <- get32 b5; get name, b7 <- str_read n b6; get m, b8 <- get32 b7; get vers, b9 <- str_read m b8;
            Some (ty, Some (name, vers)).
(** libsepol/src/module.c:671-828: one section. *)
Definition info_section (file : list N) (o e : N) (st : istate) : option istate :=
  if N.of_nat (length file) <? o then None
  else if u32 (e - o) <? 4 then None
  else get k, b1 <- get32 (skipn (N.to_nat o) file); get second, rest <- get32 b1;
       if k =? SECTION_FC then
         if is_fc st then None else Some (mkIS true (is_seusers st) (is_user_extra st) (is_netfilter st) (is_mod st))
       else if k =? SECTION_SEUSER then
         if is_seusers st then None else Some (mkIS (is_fc st) true (is_user_extra st) (is_netfilter st) (is_mod st))
       else if k =? SECTION_USER_EXTRA then
         if is_user_extra st then None else Some (mkIS (is_fc st) (is_seusers st) true (is_netfilter st) (is_mod st))
       else if k =? SECTION_NETFILTER then
         if is_netfilter st then None else Some (mkIS (is_fc st) (is_seusers st) (is_user_extra st) true (is_mod st))
       else if k =? MOD_MAGIC then
         match is_mod st with
         | Some _ => None
         | None => match info_module second rest with
                   | None => None
                   | Some i => Some (mkIS (is_fc st) (is_seusers st) (is_user_extra st) (is_netfilter st) (Some i))
                   end
         end
       else Some st.
(** libsepol/src/module.c:669-830: the loop. *)
Fixpoint info_sections (file : list N) (offsets : list N) (st : istate) : option istate :=
  match offsets with
  | o :: ((e :: _) as r) => match info_section file o e st with None => None | Some st' => info_sections file r st' end
  | _ => Some st
  end.
(** libsepol/src/module.c:652-843 (sepol_module_package_info): the type, and for a module its name and version. *)
Definition package_info (file : list N) : option (N * option (list N * list N)) :=
  match read_offsets file with
  | None => None
  | Some (_, offsets) =>
      match info_sections file offsets (mkIS false false false false None) with
      | None => None
      | Some st => is_mod st
      end
  end.

(** ** Putting packages together *)

(** libsepol/src/module.c:245-270 (link_file_contexts) and 277-306 (link_netfilter_contexts): the texts of the modules are appended one
    after another, so the field is set even if there are none. *)
Definition link_texts (base : option (list N)) (modules : list (option (list N))) : option (list N) :=
  let text f := match f with Some d => d | None => [] end in
  Some (fold_left (fun acc m => acc ++ text m) modules (text base)).
(** libsepol/src/module.c:310-346 (sepol_link_packages): the policies are linked by [pol_link] first; seusers and user_extra of the
    modules are not looked at. *)
Definition link_packages {P} (pol_link : P -> list P -> option P) (base : package P) (modules : list (package P)) : option (package P) :=
  match pol_link (pk_policy base) (map pk_policy modules) with
  | None => None
  | Some p => Some (mkPkg (pk_version base) p (link_texts (pk_fc base) (map pk_fc modules)) (pk_seusers base) (pk_user_extra base)
                          (link_texts (pk_netfilter base) (map pk_netfilter modules)))
  end.
