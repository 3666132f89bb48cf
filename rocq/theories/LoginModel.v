(** Model of libselinux/src/seusers.c (login name to SELinux user), of libsemanage/src/seusers_file.c
    (how the mapping file is written) and of libselinux/src/get_context_list.c (the contexts a login
    program may choose from). Allocation failures, logging and errno values are not modelled. *)
From Verif Require Import Base MlsModel ContextModel.

(** isspace() in the C locale, as used at libselinux/src/seusers.c:32 and
    libselinux/src/get_context_list.c:170. *)
Definition isspace (c : N) : bool := (c =? 32) || ((9 <=? c) && (c <=? 13)).

(** The successive results of getline() on a file (libselinux/src/seusers.c:212 and 304,
    libselinux/src/get_context_list.c:164): each line keeps its newline, the last may have none. *)
Fixpoint getlines (file : list N) : list (list N) :=
  match file with
  | [] => []
  | c :: t =>
      if c =? 10 then [c] :: getlines t
      else match getlines t with
           | [] => [[c]]
           | l :: ls => (c :: l) :: ls
           end
  end.

(** Outcome of libselinux/src/seusers.c:19-93: comment or empty line (-1), error (-2), or the three
    fields; the level may be NULL. *)
Inductive sline := SComment | SBad | SRec (luser seuser : list N) (level : option (list N)).

(** libselinux/src/seusers.c:19-93 (process_seusers). The buffer is used as a C string. *)
Definition process_seusers (buffer : list N) (mls_enabled : bool) : sline :=
  let '(_, start) := span isspace (cstr buffer) in
  match start with
  | [] => SComment
  | c :: _ =>
      if c =? 35 then SComment
      else
        match split_colon start with
        | None => SBad
        | Some (luser, r) =>
            match split_colon r with
            | None =>
                let '(seuser, _) := span (fun c => negb (isspace c)) r in
                match seuser with
                | [] => SBad
                | _ => SRec luser seuser None
                end
            | Some (seuser, r2) =>
                match seuser with
                | [] => SBad
                | _ =>
                    if negb mls_enabled then SRec luser seuser None
                    else
                      let '(level, _) := span (fun c => negb (isspace c)) r2 in
                      match level with
                      | [] => SBad
                      | _ => SRec luser seuser (Some level)
                      end
                end
            end
        end
  end.

(** libselinux/src/seusers.c:132-186 (check_group). [getgr] is getgrnam_r (the group's gid), [gids]
    the result of getgrouplist for the user being looked up. *)
Definition check_group (getgr : list N -> option N) (gids : list N) (group : list N) : bool :=
  match getgr group with
  | None => false
  | Some g => existsb (N.eqb g) gids
  end.

(** The bytes of "__default__" (libselinux/src/seusers.c:234). *)
Definition default_name : list N := [95;95;100;101;102;97;117;108;116;95;95].

(** A SELinux user and an optional level. *)
Definition seinfo : Type := list N * option (list N).

(** libselinux/src/seusers.c:212-245: the loop over the lines; the entry for the name itself, or the
    group and default entries when the end of the file is reached. *)
Fixpoint seusers_loop (getgr : list N -> option N) (gids : list N) (name : list N) (mls : bool)
    (lines : list (list N)) (grp def : option seinfo)
    : option seinfo * option seinfo * option seinfo :=
  match lines with
  | [] => (None, grp, def)
  | buffer :: rest =>
      match process_seusers buffer mls with
      | SComment => seusers_loop getgr gids name mls rest grp def
      | SBad => seusers_loop getgr gids name mls rest grp def
      | SRec username seuser level =>
          if str_eqb username name then (Some (seuser, level), grp, def)
          else
            let is_group :=
              match username with
              | c :: g => (c =? 37) && (match grp with None => true | Some _ => false end)
                          && check_group getgr gids g
              | [] => false
              end in
            if is_group then seusers_loop getgr gids name mls rest (Some (seuser, level)) def
            else if (match def with None => true | Some _ => false end)
                    && str_eqb username default_name
            then seusers_loop getgr gids name mls rest grp (Some (seuser, level))
            else seusers_loop getgr gids name mls rest grp def
      end
  end.

(** libselinux/src/seusers.c:188-285 (getseuserbyname). [cfg] is the file, [None] if it cannot be
    opened; [require] the variable require_seusers; the result [None] is -1. *)
Definition getseuserbyname (getgr : list N -> option N) (gids : list N) (mls require : bool)
    (cfg : option (list N)) (name : list N) : option seinfo :=
  let nomatch := if require then None else Some (name, None) in
  match cfg with
  | None => nomatch
  | Some file =>
      let '(user, grp, def) := seusers_loop getgr gids name mls (getlines file) None None in
      match user with
      | Some r => Some r
      | None =>
          match grp with
          | Some r => Some r
          | None =>
              match def with
              | Some r => Some r
              | None => nomatch
              end
          end
      end
  end.

(** Does [s] start with [p] (strncmp(s, p, strlen(p)) == 0)? *)
Fixpoint starts (p s : list N) : bool :=
  match p, s with
  | [], _ => true
  | a :: p', b :: s' => (a =? b) && starts p' s'
  | _ :: _, [] => false
  end.

(** libselinux/src/seusers.c:304-319: the line chosen for the service. *)
Fixpoint logins_loop (service : option (list N)) (lines : list (list N)) (rec : option (list N))
    : option (list N) :=
  match lines with
  | [] => rec
  | buffer :: rest =>
      let b := cstr buffer in
      if starts [42; 58] b then logins_loop service rest (Some b)
      else
        match service with
        | None => logins_loop service rest rec
        | Some sv =>
            if starts (sv ++ [58]) b then Some b else logins_loop service rest rec
        end
  end.

(** libselinux/src/seusers.c:333-335: a final newline is removed. *)
Definition chomp (s : list N) : list N :=
  match rev s with
  | c :: r => if c =? 10 then rev r else s
  | [] => s
  end.

(** libselinux/src/seusers.c:287-350 (getseuser). [logins] is the file logins/<username>. *)
Definition getseuser (getgr : list N -> option N) (gids : list N) (mls require : bool)
    (cfg logins : option (list N)) (username : list N) (service : option (list N))
    : option seinfo :=
  let fallback := getseuserbyname getgr gids mls require cfg username in
  match logins with
  | None => fallback
  | Some file =>
      match logins_loop service (getlines file) None with
      | None => fallback
      | Some rec =>
          match split_colon rec with
          | None => fallback
          | Some (_, r) =>
              match split_colon r with
              | None => fallback
              | Some (seuser, level) => Some (seuser, Some (chomp level))
              end
          end
      end
  end.

(** libsemanage/src/seuser_record.c:22-32 (struct semanage_seuser). *)
Record seuser_rec := mkSU { su_name : list N; su_sename : list N; su_mls : option (list N) }.

(** libsemanage/src/seusers_file.c:22-43 (seuser_print). *)
Definition seuser_print (r : seuser_rec) : list N :=
  su_name r ++ [58] ++ su_sename r ++
  (match su_mls r with None => [] | Some m => 58 :: m end) ++ [10].

(** ** The contexts a login program may choose from *)

(** libselinux/src/get_context_list.c:166-193: the role and type at the start of a line and the text
    after its first word; [None] when the line is skipped. *)
Definition line_head (line : list N) : option (list N * list N * list N) :=
  let l := cstr (chomp line) in
  let '(_, start) := span isspace l in
  match start with
  | [] => None
  | _ =>
      let '(_, e) := span (fun c => negb (isspace c)) start in
      match e with
      | [] => None
      | _ :: rest =>
          let '(linerole, r) := span (fun c => negb (isspace c) && negb (c =? 58)) start in
          match r with
          | c :: r' =>
              if c =? 58 then
                let '(linetype, _) := span (fun c => negb (isspace c) && negb (c =? 58)) r' in
                Some (linerole, linetype, rest)
              else None
          | [] => None
          end
      end
  end.

(** libselinux/src/get_context_list.c:164-199: the rest of the first line for the role and type. *)
Fixpoint find_line (fromrole fromtype : list N) (lines : list (list N)) : option (list N) :=
  match lines with
  | [] => None
  | l :: ls =>
      match line_head l with
      | Some (r, t, rest) =>
          if str_eqb fromrole r && str_eqb fromtype t then Some rest
          else find_line fromrole fromtype ls
      | None => find_line fromrole fromtype ls
      end
  end.

(** Outcome of security_check_context(): valid, refused, or not checkable (errno ENOENT). *)
Inductive chk := ChkValid | ChkInvalid | ChkNoent.

(** libselinux/src/get_context_list.c:119-130 (is_in_reachable). *)
Definition is_in_reachable (reachable : list (list N)) (s : list N) : bool :=
  existsb (str_eqb s) reachable.

(** libselinux/src/get_context_list.c:207-290: the loop over the partial contexts of the line;
    [fuel] is more than the length of the text. [None] is -1. *)
Fixpoint partials_loop (fuel : nat) (check : list N -> chk) (user : list N)
    (fromlevel : option (list N)) (start : list N) (reachable : list (list N))
    : res (list (list N)) :=
  match fuel with
  | O => RUB
  | S f =>
      let '(_, s) := span isspace start in
      match s with
      | [] => ROk reachable
      | _ =>
          let '(word, e) := span (fun c => negb (isspace c)) s in
          let next := match e with [] => [] | _ :: e' => e' end in
          match context_new (user ++ [58] ++ word) with
          | None => partials_loop f check user fromlevel next reachable
          | Some usercon =>
              match ctx_set usercon CRange fromlevel with
              | None => RErr
              | Some usercon' =>
                  match context_str usercon' with
                  | ROk str2 =>
                      if is_in_reachable reachable str2
                      then partials_loop f check user fromlevel next reachable
                      else
                        match check str2 with
                        | ChkValid =>
                            partials_loop f check user fromlevel next (reachable ++ [str2])
                        | _ => partials_loop f check user fromlevel next reachable
                        end
                  | RErr => RErr
                  | RUB => RUB
                  end
              end
          end
      end
  end.

(** libselinux/src/get_context_list.c:132-295 (get_context_user). On failure the list keeps what
    was added; since only allocation failures stop the loop half way, it is the list passed in. *)
Definition get_context_user (check : list N -> chk) (file : list N) (fromcon : ctx) (user : list N)
    (reachable : list (list N)) : res (list (list N)) :=
  match x_role fromcon, x_type fromcon with
  | Some fromrole, Some fromtype =>
      match find_line fromrole fromtype (getlines file) with
      | None => RErr
      | Some rest => partials_loop (S (length rest)) check user (x_range fromcon) rest reachable
      end
  | _, _ => RErr
  end.

(** fgets(buf, 255, fp) at libselinux/src/get_context_list.c:308: at most 254 bytes, up to and
    including a newline; [None] at the end of the file. *)
Fixpoint fgets (n : nat) (file : list N) : list N :=
  match n, file with
  | S n', c :: t => if c =? 10 then [c] else c :: fgets n' t
  | _, _ => []
  end.

(** libselinux/src/get_context_list.c:297-340 (get_failsafe_context). When the string read is empty,
    line 314 accesses buf[-1]: [RUB]. *)
Definition get_failsafe_context (check : list N -> chk) (failsafe : option (list N))
    (user : list N) : res (list N) :=
  match failsafe with
  | None => RErr
  | Some [] => RErr
  | Some file =>
      match cstr (fgets 254 file) with
      | [] => RUB
      | ptr =>
          let newcon := user ++ [58] ++ chomp ptr in
          match check newcon with
          | ChkInvalid => RErr
          | _ => ROk newcon
          end
      end
  end.

(** libselinux/src/get_context_list.c:435-447 and 449-460: one of the two files; a failure leaves the
    list as it is. *)
Definition try_file (check : list N -> chk) (con : ctx) (user : list N) (file : option (list N))
    (acc : res (list (list N))) : res (list (list N)) :=
  match acc with
  | ROk l =>
      match file with
      | None => ROk l
      | Some f =>
          match get_context_user check f con user l with
          | ROk l' => ROk l'
          | RErr => ROk l
          | RUB => RUB
          end
      end
  | other => other
  end.

(** libselinux/src/get_context_list.c:402-496 (get_ordered_context_list). [userfile] is the per-user
    file, [deffile] default_contexts; [None] when they cannot be opened. [fromcon] is not NULL. *)
Definition get_ordered_context_list (check : list N -> chk)
    (userfile deffile failsafe : option (list N)) (user fromcon : list N) : res (list (list N)) :=
  let try_failsafe :=
    match get_failsafe_context check failsafe user with
    | ROk c => ROk [c]
    | RErr => RErr
    | RUB => RUB
    end in
  match context_new fromcon with
  | None => try_failsafe
  | Some con =>
      match try_file check con user deffile (try_file check con user userfile (ROk [])) with
      | ROk [] => try_failsafe
      | other => other
      end
  end.

(** libselinux/src/get_context_list.c:342-380 (get_ordered_context_list_with_level). *)
Definition get_ordered_context_list_with_level (check : list N -> chk)
    (userfile deffile failsafe : option (list N)) (user : list N) (level : option (list N))
    (fromcon : list N) : res (list (list N)) :=
  match level with
  | None => get_ordered_context_list check userfile deffile failsafe user fromcon
  | Some lv =>
      match context_new fromcon with
      | None => RErr
      | Some con =>
          match ctx_set con CRange (Some lv) with
          | None => RErr
          | Some con' =>
              match context_str con' with
              | ROk newfromcon =>
                  get_ordered_context_list check userfile deffile failsafe user newfromcon
              | RErr => RErr
              | RUB => RUB
              end
          end
      end
  end.

(** libselinux/src/get_context_list.c:102-117 and 383-400 (get_default_context and
    get_default_context_with_level): the first of the list. *)
Definition first_context (l : res (list (list N))) : res (list N) :=
  match l with
  | ROk (c :: _) => ROk c
  | ROk [] => RErr
  | RErr => RErr
  | RUB => RUB
  end.

(** libselinux/src/get_context_list.c:31-41: the first context of the list with the role. *)
Fixpoint with_role (role : list N) (l : list (list N)) : option (list N) :=
  match l with
  | [] => None
  | c :: t =>
      match context_new c with
      | None => with_role role t
      | Some con =>
          match x_role con with
          | Some r => if str_eqb role r then Some c else with_role role t
          | None => with_role role t
          end
      end
  end.

(** libselinux/src/get_context_list.c:16-55 and 58-100 (get_default_context_with_role and
    get_default_context_with_rolelevel), applied to the list obtained. *)
Definition role_context (role : list N) (l : res (list (list N))) : res (list N) :=
  match l with
  | ROk l => match with_role role l with Some c => ROk c | None => RErr end
  | RErr => RErr
  | RUB => RUB
  end.
