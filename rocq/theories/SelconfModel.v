(** Model of the reading of /etc/selinux/config (libselinux/src/selinux_config.c) and of the default types of roles
    (libselinux/src/get_default_type.c). Allocation failures are left out, and so are the paths made from the policy type. *)
From Verif Require Import Base MlsModel ContextModel LoginModel LabtextModel RestoreModel.
From Coq Require Import ZArith.
Open Scope N_scope.

(** tolower, for strncasecmp at libselinux/src/selinux_config.c:108-123. *)
Definition tolower (c : N) : N := if (65 <=? c) && (c <=? 90) then c + 32 else c.
(** strncmp(s, w, strlen(w)) == 0 at libselinux/src/selinux_config.c:103. *)
Fixpoint starts (w s : list N) : bool :=
  match w, s with [], _ => true | x :: w', y :: s' => (x =? y) && starts w' s' | _, [] => false end.
(** strncasecmp(s, w, strlen(w)) == 0 at libselinux/src/selinux_config.c:108-109. *)
Fixpoint starts_ci (w s : list N) : bool :=
  match w, s with [], _ => true | x :: w', y :: s' => (tolower x =? tolower y) && starts_ci w' s' | _, [] => false end.
(** libselinux/src/selinux_config.c:106-107: blanks skipped. *)
Definition skip (s : list N) : list N := snd (span isspace s).
(** libselinux/src/selinux_config.c:18 (SELINUXTAG): SELINUX= *)
Definition SELINUX : list N := [83; 69; 76; 73; 78; 85; 88; 61].
(** libselinux/src/selinux_config.c:17 (SELINUXTYPETAG): SELINUXTYPE= *)
Definition SELINUXTYPE : list N := [83; 69; 76; 73; 78; 85; 88; 84; 89; 80; 69; 61].
(** libselinux/src/selinux_config.c:19 (REQUIRESEUSERS): REQUIRESEUSERS= *)
Definition REQUIRESEUSERS : list N := [82; 69; 81; 85; 73; 82; 69; 83; 69; 85; 83; 69; 82; 83; 61].
(** libselinux/src/selinux_config.c:109 "enforcing". *)
Definition ENFORCING : list N := [101; 110; 102; 111; 114; 99; 105; 110; 103].
(** libselinux/src/selinux_config.c:115 "permissive". *)
Definition PERMISSIVE : list N := [112; 101; 114; 109; 105; 115; 115; 105; 118; 101].
(** libselinux/src/selinux_config.c:122 "disabled". *)
Definition DISABLED : list N := [100; 105; 115; 97; 98; 108; 101; 100].
(** libselinux/src/selinux_config.c:16 (SELINUXDEFAULT): targeted. *)
Definition TARGETED : list N := [116; 97; 114; 103; 101; 116; 101; 100].
(** libselinux/src/selinux_config.c:103-127: what one piece says. *)
Definition mode_line (buf : list N) : option Z :=
  if negb (starts SELINUX buf) then None
  else let tag := skip (skipn (length SELINUX) buf) in
       if starts_ci ENFORCING tag then Some 1%Z else if starts_ci PERMISSIVE tag then Some 0%Z
       else if starts_ci DISABLED tag then Some (-1)%Z else None.
(** libselinux/src/selinux_config.c:102-128: the loop. *)
Fixpoint mode_loop (ps : list (list N)) : option Z :=
  match ps with [] => None | p :: r => match mode_line (cstr p) with Some m => Some m | None => mode_loop r end end.
(** libselinux/src/selinux_config.c:89-133 (selinux_getenforcemode): the mode, or -1 is returned ([None]). *)
Definition getenforcemode (page : nat) (file : option (list N)) : option Z :=
  match file with None => None | Some f => mode_loop (pieces (length f) (page - 1) f) end.

(** libselinux/src/selinux_config.c:191-196: isspace or iscntrl at the end, the first character excepted. For an empty text the end is
    before its start and nothing is done. *)
Definition trailing (c : N) : bool := (c <=? 32) || (c =? 127).
(** libselinux/src/selinux_config.c:191-196: the end trimmed. *)
Definition trim_end (s : list N) : list N :=
  match s with [] => [] | c :: t => c :: rev (snd (span trailing (rev t))) end.
(** isdigit and atoi at libselinux/src/selinux_config.c:215-216; the overflow of atoi is left out. *)
Definition isdig (c : N) : bool := (48 <=? c) && (c <=? 57).
(** atoi at libselinux/src/selinux_config.c:216. *)
Definition atoi (s : list N) : N := fold_left (fun v c => 10 * v + (c - 48)) (fst (span isdig s)) 0.
(** libselinux/src/selinux_config.c:215-221; strncasecmp there is nonzero for texts that differ. *)
Definition require_value (old : N) (v : list N) : N :=
  match v with
  | c :: _ => if isdig c then atoi v
              else if negb (starts_ci [116; 114; 117; 101] v) then 1
              else if negb (starts_ci [102; 97; 108; 115; 101] v) then 0 else old
  | [] => if negb (starts_ci [116; 114; 117; 101] v) then 1 else old
  end.
(** libselinux/src/selinux_config.c:172-221: one line, with the policy type (if set) and require_seusers before. *)
Definition config_line (st : option (list N) * N) (line : list N) : option (list N) * N :=
  let line := match rev line with 10 :: r => rev r | _ => line end in
  let p := skip (cstr line) in
  match p with
  | [] => st
  | c :: _ => if c =? 35 then st
              else if starts_ci SELINUXTYPE p then (Some (trim_end (skip (skipn (length SELINUXTYPE) p))), snd st)
              else if starts REQUIRESEUSERS p then (fst st, require_value (snd st) (skip (skipn (length REQUIRESEUSERS) p)))
              else st
  end.
(** libselinux/src/selinux_config.c:157-228 (init_selinux_config): the policy type and require_seusers (0 before, libselinux/src/seusers.c:95). *)
Definition init_config (file : option (list N)) : list N * N :=
  let st := match file with None => (None, 0) | Some f => fold_left config_line (getlines f) (None, 0) end in
  (match fst st with Some t => t | None => TARGETED end, snd st).

(** libselinux/src/get_default_type.c:36-62: the loop. [RErr]: -1; [RUB]: a store before the buffer. *)
Fixpoint type_loop (role : list N) (ps : list (list N)) : res (list N) :=
  match ps with
  | [] => RErr
  | p :: r =>
    match chop p with
    | ROk buf =>
      let q := skip buf in
      match q with
      | [] => type_loop role r
      | _ => if starts role q
             then match skipn (length role) q with
                  | c :: t => if c =? 58 then ROk (firstn (length buf - length role - 1) t) else type_loop role r
                  | [] => type_loop role r
                  end
             else type_loop role r
      end
    | _ => RUB
    end
  end.
(** libselinux/src/get_default_type.c:10-70 (get_default_type, find_default_type). *)
Definition get_default_type (role : list N) (file : option (list N)) : res (list N) :=
  match file with None => RErr | Some f => type_loop role (pieces (length f) 249 f) end.
