(** Text files of the local databases of libsemanage. Texts are lists of bytes. *)
From Verif Require Import Base MlsModel ContextModel LoginModel.

(** ** The parser (libsemanage/src/parse_utils.c) *)

(** libsemanage/src/parse_utils.h (parse_info_t): [ps_cur] the memory from info->ptr to the end of the
    line's buffer (its last byte is the NUL that getline adds), None if ptr is NULL; [ps_rest] the
    buffers of the lines not read yet. File name, line number and copy of the line only serve messages. *)
Record pst := mkPS { ps_cur : option (list N); ps_rest : list (list N) }.

(** getline and the removal of the newline, parse_utils.c:97-103: the buffers of all lines. A newline is
    replaced by NUL; getline adds another one. *)
Fixpoint buffers (text : list N) : list (list N) :=
  match text with
  | [] => []
  | c :: r =>
      if c =? 10 then [0; 0] :: buffers r
      else match buffers r with [] => [[c; 0]] | b :: bs => (c :: b) :: bs end
  end.

(** Outcomes of parsing: a value, an error, the end of the file (STATUS_NODATA), undefined behaviour, or a loop
    that did not end within the fuel. *)
Inductive pres (A : Type) := POk (a : A) (s : pst) | PErr | PEnd | PUB | PLoop.
Arguments POk {A}. Arguments PErr {A}. Arguments PEnd {A}. Arguments PUB {A}. Arguments PLoop {A}.
(** Sequence of two steps; the second is not reached after an error. *)
Definition pbind {A B} (x : pres A) (f : A -> pst -> pres B) : pres B :=
  match x with POk a s => f a s | PErr => PErr | PEnd => PEnd | PUB => PUB | PLoop => PLoop end.

(** parse_utils.c:90-91, 105-107: ptr moves over white space. None: beyond the buffer. *)
Fixpoint skip_mem (m : list N) : option (list N) :=
  match m with
  | [] => None
  | c :: t => if c =? 0 then Some m else if isspace c then skip_mem t else Some m
  end.
(** parse_utils.c:98-123: the next line that is neither blank nor a comment. *)
Fixpoint load_line (bs : list (list N)) : pres unit :=
  match bs with
  | [] => POk tt (mkPS None [])
  | b :: r =>
      match skip_mem b with
      | Some (c :: t) => if (c =? 0) || (c =? 35) then load_line r else POk tt (mkPS (Some (c :: t)) r)
      | _ => PUB
      end
  end.
(** parse_utils.c:80-134 (parse_skip_space). *)
Definition parse_skip_space (s : pst) : pres unit :=
  match ps_cur s with
  | None => load_line (ps_rest s)
  | Some m =>
      match skip_mem m with
      | Some (c :: t) => if c =? 0 then load_line (ps_rest s) else POk tt (mkPS (Some (c :: t)) (ps_rest s))
      | _ => PUB
      end
  end.
(** parse_utils.c:136-146 (parse_assert_noeof). *)
Definition parse_assert_noeof (s : pst) : pres unit := match ps_cur s with None => PErr | Some _ => POk tt s end.
(** parse_utils.c:148-164 (parse_assert_space). *)
Definition parse_assert_space (s : pst) : pres unit :=
  match ps_cur s with
  | None => PErr
  | Some [] => PUB
  | Some (c :: _) => if negb (c =? 0) && negb (isspace c) then PErr else parse_skip_space s
  end.
(** parse_utils.c:166-182 (parse_assert_ch). *)
Definition parse_assert_ch (ch : N) (s : pst) : pres unit :=
  match ps_cur s with
  | None => PErr
  | Some [] => PUB
  | Some (c :: t) => if negb (c =? ch) then PErr else POk tt (mkPS (Some t) (ps_rest s))
  end.
(** strncmp of memory with a string without NUL, over the length of the string: the memory behind it if equal. *)
Fixpoint prefix_mem (w m : list N) : option (option (list N)) :=
  match w, m with
  | [], _ => Some (Some m)
  | _ :: _, [] => None
  | a :: w', c :: m' => if a =? c then prefix_mem w' m' else Some None
  end.
(** parse_utils.c:184-205 (parse_assert_str). *)
Definition parse_assert_str (w : list N) (s : pst) : pres unit :=
  match ps_cur s with
  | None => PErr
  | Some m => match prefix_mem w m with None => PUB | Some None => PErr | Some (Some m') => POk tt (mkPS (Some m') (ps_rest s)) end
  end.
(** parse_utils.c:207-218 (parse_optional_ch): true is STATUS_SUCCESS, false STATUS_NODATA. *)
Definition parse_optional_ch (ch : N) (s : pst) : pres bool :=
  match ps_cur s with
  | None => POk false s
  | Some [] => PUB
  | Some (c :: t) => if negb (c =? ch) then POk false s else POk true (mkPS (Some t) (ps_rest s))
  end.
(** parse_utils.c:220-229 (parse_optional_str): does not check for NULL. *)
Definition parse_optional_str (w : list N) (s : pst) : pres bool :=
  match ps_cur s with
  | None => PUB
  | Some m => match prefix_mem w m with None => PUB | Some None => POk false s | Some (Some m') => POk true (mkPS (Some m') (ps_rest s)) end
  end.
(** parse_utils.c:277-281: the string and the memory behind it; None: beyond the buffer. *)
Fixpoint take_mem (delim : N) (allow : bool) (m : list N) : option (list N * list N) :=
  match m with
  | [] => None
  | c :: t =>
      if negb (c =? 0) && (allow || negb (isspace c)) && negb (c =? delim)
      then match take_mem delim allow t with Some (w, r) => Some (c :: w, r) | None => None end
      else Some ([], m)
  end.
(** parse_utils.c:265-305 (parse_fetch_string). *)
Definition parse_fetch_string (delim : N) (allow : bool) (s : pst) : pres (list N) :=
  match ps_cur s with
  | None => PErr
  | Some m =>
      match take_mem delim allow m with
      | None => PUB
      | Some ([], _) => PErr
      | Some (w, r) => POk w (mkPS (Some r) (ps_rest s))
      end
  end.
(** isdigit(). *)
Definition isdigit (c : N) : bool := (48 <=? c) && (c <=? 57).
(** strtol in base 10 on a string of digits; the rest must be empty, otherwise None. *)
Fixpoint digits_value (acc : N) (w : list N) : option N :=
  match w with [] => Some acc | c :: t => if isdigit c then digits_value (10 * acc + (c - 48)) t else None end.
(** The conversion of strtol's result (at most LONG_MAX, 64 bit) to int. *)
Definition long_to_int (n : N) : Z :=
  let l := Z.of_N (N.min n (2 ^ 63 - 1)) in
  let u := (l mod 2 ^ 32)%Z in if (u <? 2 ^ 31)%Z then u else (u - 2 ^ 32)%Z.
(** parse_utils.c:231-263 (parse_fetch_int). *)
Definition parse_fetch_int (delim : N) (s : pst) : pres Z :=
  pbind (parse_fetch_string delim false s) (fun w s =>
    match w with
    | [] => PErr
    | c :: _ => if isdigit c then match digits_value 0 w with Some n => POk (long_to_int n) s | None => PErr end else PErr
    end).

(** strcasecmp with a lower-case ASCII word. *)
Definition lower_ascii (c : N) : N := if (65 <=? c) && (c <=? 90) then c + 32 else c.
(** strcasecmp(str, w) == 0. *)
Definition same_word (w str : list N) : bool := str_eqb (map lower_ascii str) w.

(** printf "%d" of a non-negative number, with fuel for its digits. *)
Fixpoint digits (fuel : nat) (n : N) (acc : list N) : list N :=
  match fuel with
  | O => acc
  | S f => let acc' := (48 + n mod 10) :: acc in if n / 10 =? 0 then acc' else digits f (n / 10) acc'
  end.
(** printf "%d" of a 32-bit integer. *)
Definition print_int (z : Z) : list N :=
  if (z <? 0)%Z then 45 :: digits 11 (Z.to_N (- z)) [] else digits 11 (Z.to_N z) [].

(** parse_skip_space and the test for the end of the file at the start of each parse function, for example
    seusers_file.c:50-53. *)
Definition parse_begin (s : pst) : pres unit :=
  pbind (parse_skip_space s) (fun _ s => match ps_cur s with None => PEnd | Some _ => POk tt s end).

(** Words in the files: "user", "roles", "prefix", "level", "range", "portcon", "netifcon". *)
Definition w_user : list N := [117;115;101;114].
(** users_base_file.c:85 "roles". *)
Definition w_roles : list N := [114;111;108;101;115].
(** users_extra_file.c:64 "prefix". *)
Definition w_prefix : list N := [112;114;101;102;105;120].
(** users_base_file.c:139 "level". *)
Definition w_level : list N := [108;101;118;101;108].
(** users_base_file.c:155 "range". *)
Definition w_range : list N := [114;97;110;103;101].
(** ports_file.c:70 "portcon". *)
Definition w_portcon : list N := [112;111;114;116;99;111;110].
(** interfaces_file.c:67 "netifcon". *)
Definition w_netifcon : list N := [110;101;116;105;102;99;111;110].
(** booleans_file.c:66-73 "true", "TRUE", "false", "FALSE". *)
Definition w_true : list N := [116;114;117;101].
(** booleans_file.c:68. *)
Definition w_TRUE : list N := [84;82;85;69].
(** booleans_file.c:70. *)
Definition w_false : list N := [102;97;108;115;101].
(** booleans_file.c:72. *)
Definition w_FALSE : list N := [70;65;76;83;69].
(** port_record.c (sepol_port_get_proto_str): "udp", "tcp", "dccp", "sctp". *)
Definition w_udp : list N := [117;100;112].
(** port_record.c "tcp". *)
Definition w_tcp : list N := [116;99;112].
(** port_record.c "dccp". *)
Definition w_dccp : list N := [100;99;99;112].
(** port_record.c "sctp". *)
Definition w_sctp : list N := [115;99;116;112].

(** ** Login mappings *)

(** libsemanage/src/seuser_record.c (struct semanage_seuser): name, sename, mls_range. *)
Record seuser := mkSe { se_name : list N; se_sename : list N; se_mls : option (list N) }.
(** seusers_file.c:18-42 (seuser_print). *)
Definition seuser_print (r : seuser) : list N :=
  se_name r ++ 58 :: se_sename r ++ (match se_mls r with Some m => 58 :: m | None => [] end) ++ [10].
(** seusers_file.c:44-110 (seuser_parse). *)
Definition seuser_parse (s : pst) : pres seuser :=
  pbind (parse_begin s) (fun _ s =>
  pbind (parse_fetch_string 58 true s) (fun name s =>
  pbind (parse_skip_space s) (fun _ s =>
  pbind (parse_assert_ch 58 s) (fun _ s =>
  pbind (parse_skip_space s) (fun _ s =>
  pbind (parse_fetch_string 58 true s) (fun sename s =>
  pbind (parse_skip_space s) (fun _ s =>
  pbind (parse_optional_ch 58 s) (fun more s =>
  if negb more then POk (mkSe name sename None) s
  else
  pbind (parse_skip_space s) (fun _ s =>
  pbind (parse_fetch_string 32 false s) (fun mls s =>
  pbind (parse_assert_space s) (fun _ s => POk (mkSe name sename (Some mls)) s))))))))))).

(** ** Booleans *)

(** libsepol/src/boolean_record.c (struct sepol_bool): name and value. *)
Record boolrec := mkBo { bo_name : list N; bo_value : Z }.
(** booleans_file.c:23-37 (bool_print). *)
Definition bool_print (r : boolrec) : list N := bo_name r ++ 61 :: print_int (bo_value r) ++ [10].
(** booleans_file.c:66-75: the value. *)
Definition bool_value_parse (s : pst) : pres Z :=
  pbind (parse_optional_str w_true s) (fun b s => if b then POk 1%Z s else
  pbind (parse_optional_str w_TRUE s) (fun b s => if b then POk 1%Z s else
  pbind (parse_optional_str w_false s) (fun b s => if b then POk 0%Z s else
  pbind (parse_optional_str w_FALSE s) (fun b s => if b then POk 0%Z s else
  parse_fetch_int 32 s)))).
(** booleans_file.c:39-99 (bool_parse). *)
Definition bool_parse (s : pst) : pres boolrec :=
  pbind (parse_begin s) (fun _ s =>
  pbind (parse_fetch_string 61 false s) (fun name s =>
  pbind (parse_skip_space s) (fun _ s =>
  pbind (parse_assert_ch 61 s) (fun _ s =>
  pbind (parse_skip_space s) (fun _ s =>
  pbind (bool_value_parse s) (fun v s =>
  if negb ((v =? 0)%Z || (v =? 1)%Z) then PErr
  else pbind (parse_assert_space s) (fun _ s => POk (mkBo name v) s))))))).

(** ** User prefixes *)

(** libsemanage/src/user_extra_record.c (struct semanage_user_extra). *)
Record userx := mkUx { ux_name : list N; ux_prefix : list N }.
(** users_extra_file.c:23-38 (user_extra_print). *)
Definition userx_print (r : userx) : list N :=
  w_user ++ 32 :: ux_name r ++ 32 :: w_prefix ++ 32 :: ux_prefix r ++ [59; 10].
(** users_extra_file.c:40-98 (user_extra_parse). *)
Definition userx_parse (s : pst) : pres userx :=
  pbind (parse_begin s) (fun _ s =>
  pbind (parse_assert_str w_user s) (fun _ s =>
  pbind (parse_assert_space s) (fun _ s =>
  pbind (parse_fetch_string 32 false s) (fun name s =>
  pbind (parse_assert_space s) (fun _ s =>
  pbind (parse_assert_str w_prefix s) (fun _ s =>
  pbind (parse_assert_space s) (fun _ s =>
  pbind (parse_fetch_string 59 true s) (fun prefix s =>
  pbind (parse_skip_space s) (fun _ s =>
  pbind (parse_assert_ch 59 s) (fun _ s => POk (mkUx name prefix) s)))))))))).

(** ** Contexts in files *)

(** The token of a context: parse_fetch_string and semanage_context_from_string, for example
    ports_file.c:122-127; None is "<<none>>". *)
Definition parse_context (s : pst) : pres (option crec) :=
  pbind (parse_fetch_string 32 false s) (fun w s =>
    match sepol_context_from_string w with ROk c => POk c s | RErr => PErr | RUB => PUB end).
(** The same where "<<none>>" is refused (ports_file.c:128-133). *)
Definition parse_context_some (s : pst) : pres crec :=
  pbind (parse_context s) (fun o s => match o with Some c => POk c s | None => PErr end).

(** ** Ports *)

(** libsepol/src/port_record.c (struct sepol_port). *)
Record portrec := mkPo { po_proto : N; po_low : Z; po_high : Z; po_con : crec }.
(** port_record.c:173-188 (sepol_port_get_proto_str). *)
Definition proto_str (p : N) : list N :=
  if p =? 0 then w_udp else if p =? 1 then w_tcp else if p =? 2 then w_dccp else if p =? 3 then w_sctp else [63;63;63].
(** ports_file.c:20-56 (port_print). *)
Definition port_print (r : portrec) : list N :=
  w_portcon ++ 32 :: proto_str (po_proto r) ++ 32 ::
  (if (po_low r =? po_high r)%Z then print_int (po_low r) ++ [32]
   else print_int (po_low r) ++ [32; 45; 32] ++ print_int (po_high r) ++ [32]) ++
  sepol_context_to_string (po_con r) ++ [10].
(** ports_file.c:79-91: the protocol. *)
Definition proto_parse (w : list N) : option N :=
  if same_word w_tcp w then Some 1 else if same_word w_udp w then Some 0
  else if same_word w_dccp w then Some 2 else if same_word w_sctp w then Some 3 else None.
(** ports_file.c:102-119: the port or range behind the first number. *)
Definition port_range_parse (low : Z) (s : pst) : pres (Z * Z) :=
  match ps_cur s with
  | None | Some [] => PUB
  | Some (c :: _) =>
      pbind (if negb (c =? 0) && negb (c =? 45) then parse_assert_space s else POk tt s) (fun _ s =>
      pbind (parse_optional_ch 45 s) (fun dash s =>
      if dash then
        pbind (parse_skip_space s) (fun _ s =>
        pbind (parse_fetch_int 32 s) (fun high s =>
        pbind (parse_assert_space s) (fun _ s => POk (low, high) s)))
      else POk (low, low) s))
  end.
(** ports_file.c:58-160 (port_parse). *)
Definition port_parse (s : pst) : pres portrec :=
  pbind (parse_begin s) (fun _ s =>
  pbind (parse_assert_str w_portcon s) (fun _ s =>
  pbind (parse_assert_space s) (fun _ s =>
  pbind (parse_fetch_string 32 false s) (fun w s =>
  match proto_parse w with
  | None => PErr
  | Some p =>
      pbind (parse_assert_space s) (fun _ s =>
      pbind (parse_fetch_int 45 s) (fun low s =>
      pbind (port_range_parse low s) (fun r s =>
      pbind (parse_context_some s) (fun c s =>
      pbind (parse_assert_space s) (fun _ s => POk (mkPo p (fst r) (snd r) c) s)))))
  end)))).

(** ** Network interfaces *)

(** libsepol/src/iface_record.c (struct sepol_iface). *)
Record ifacerec := mkIf { if_name : list N; if_con : crec; if_msg : crec }.
(** interfaces_file.c:21-54 (iface_print). *)
Definition iface_print (r : ifacerec) : list N :=
  w_netifcon ++ 32 :: if_name r ++ 32 :: sepol_context_to_string (if_con r) ++ 32 :: sepol_context_to_string (if_msg r) ++ [10].
(** interfaces_file.c:56-146 (iface_parse). *)
Definition iface_parse (s : pst) : pres ifacerec :=
  pbind (parse_begin s) (fun _ s =>
  pbind (parse_assert_str w_netifcon s) (fun _ s =>
  pbind (parse_assert_space s) (fun _ s =>
  pbind (parse_fetch_string 32 false s) (fun name s =>
  pbind (parse_assert_space s) (fun _ s =>
  pbind (parse_context_some s) (fun c1 s =>
  pbind (parse_assert_space s) (fun _ s =>
  pbind (parse_context_some s) (fun c2 s =>
  pbind (parse_assert_space s) (fun _ s => POk (mkIf name c1 c2) s))))))))).

(** ** File contexts *)

(** libsemanage/src/fcontext_record.c (struct semanage_fcontext): expression, kind of file, context (None: no label). *)
Record fcrec := mkFc { fc_expr : list N; fc_type : N; fc_con : option crec }.
(** fcontexts_file.c:22-43 (type_str), numbers of semanage/fcontext_record.h:44-51. *)
Definition type_str (t : N) : list N :=
  if t =? 1 then [45;45] else if t =? 2 then [45;100] else if t =? 3 then [45;99] else if t =? 4 then [45;98]
  else if t =? 5 then [45;115] else if t =? 6 then [45;108] else if t =? 7 then [45;112] else [32;32].
(** fcontexts_file.c:45-79 (fcontext_print). *)
Definition fcontext_print (r : fcrec) : list N :=
  fc_expr r ++ 32 :: type_str (fc_type r) ++ 32 ::
  (match fc_con r with Some c => sepol_context_to_string c | None => none_str end) ++ [10].
(** fcontexts_file.c:105-120: the kind of file, None: the word is the context. *)
Definition type_parse (w : list N) : option N :=
  if same_word [45;115] w then Some 5 else if same_word [45;112] w then Some 7 else if same_word [45;98] w then Some 4
  else if same_word [45;108] w then Some 6 else if same_word [45;99] w then Some 3 else if same_word [45;100] w then Some 2
  else if same_word [45;45] w then Some 1 else None.
(** fcontexts_file.c:81-158 (fcontext_parse). *)
Definition fcontext_parse (s : pst) : pres fcrec :=
  pbind (parse_begin s) (fun _ s =>
  pbind (parse_fetch_string 32 false s) (fun expr s =>
  pbind (parse_assert_space s) (fun _ s =>
  pbind (parse_fetch_string 32 false s) (fun w s =>
  let context (w : list N) (t : N) (s : pst) :=
    match sepol_context_from_string w with
    | ROk c => pbind (parse_assert_space s) (fun _ s => POk (mkFc expr t c) s)
    | RErr => PErr
    | RUB => PUB
    end in
  match type_parse w with
  | None => context w 0 s
  | Some t =>
      pbind (parse_assert_space s) (fun _ s =>
      pbind (parse_fetch_string 32 false s) (fun w s => context w t s))
  end)))).

(** ** SELinux users *)

(** libsepol/src/user_record.c (struct sepol_user): name, level, range, roles. *)
Record userrec := mkUs { us_name : list N; us_level : option (list N); us_range : option (list N); us_roles : list (list N) }.
(** users_base_file.c:22-61 (user_base_print). *)
Definition user_print (r : userrec) : list N :=
  w_user ++ 32 :: us_name r ++ 32 :: w_roles ++ [32; 123; 32] ++ flat_map (fun x => x ++ [32]) (us_roles r) ++ [125; 32] ++
  (match us_level r, us_range r with
   | Some l, Some g => w_level ++ 32 :: l ++ 32 :: w_range ++ 32 :: g
   | _, _ => []
   end) ++ [59; 10].
(** libsepol/src/user_record.c:172-203 (sepol_user_add_role). *)
Definition add_role (roles : list (list N)) (x : list N) : list (list N) :=
  if existsb (str_eqb x) roles then roles else roles ++ [x].
(** users_base_file.c:105-109: a role name and the memory from its end on; None: beyond the buffer. *)
Fixpoint role_mem (m : list N) : option (list N * list N) :=
  match m with
  | [] => None
  | c :: t =>
      if (c =? 0) || (c =? 59) || (c =? 125) || isspace c then Some ([], m)
      else match role_mem t with Some (w, r) => Some (c :: w, r) | None => None end
  end.
(** How the loop over the roles ended. *)
Inductive roles_end := Rsemicolon | Rmls.
(** users_base_file.c:95-133: the loop over the roles. The byte behind a name is overwritten with NUL and skipped. *)
Fixpoint roles_parse (fuel : nat) (islist : bool) (roles : list (list N)) (s : pst) : pres (list (list N) * roles_end) :=
  match fuel with
  | O => PLoop
  | S f =>
      pbind (parse_skip_space s) (fun _ s =>
      pbind (parse_assert_noeof s) (fun _ s =>
      match ps_cur s with
      | None => PUB
      | Some m =>
          match role_mem m with
          | Some (w, delim :: r) =>
              let s := mkPS (Some r) (ps_rest s) in
              let roles := add_role roles w in
              if negb (delim =? 0) && negb (isspace delim) then
                if islist && (delim =? 125) then POk (roles, Rmls) s
                else if negb islist && (delim =? 59) then POk (roles, Rsemicolon) s
                else PErr
              else
                pbind (parse_skip_space s) (fun _ s =>
                pbind (parse_optional_ch 59 s) (fun b s =>
                if b then POk (roles, Rsemicolon) s
                else
                pbind (parse_optional_ch 125 s) (fun b s =>
                let islist := if b then false else islist in
                if islist then roles_parse f islist roles s else POk (roles, Rmls) s)))
          | _ => PUB
          end
      end))
  end.
(** users_base_file.c:136-171: level and range; then the semicolon. *)
Definition user_mls_parse (s : pst) : pres (option (list N * list N)) :=
  pbind (parse_skip_space s) (fun _ s =>
  pbind (parse_optional_str w_level s) (fun b s =>
  pbind (if negb b then POk None s else
    pbind (parse_assert_space s) (fun _ s =>
    pbind (parse_fetch_string 32 false s) (fun level s =>
    pbind (parse_assert_space s) (fun _ s =>
    pbind (parse_assert_str w_range s) (fun _ s =>
    pbind (parse_assert_space s) (fun _ s =>
    pbind (parse_fetch_string 59 true s) (fun range s => POk (Some (level, range)) s))))))) (fun v s =>
  pbind (parse_skip_space s) (fun _ s =>
  pbind (parse_assert_ch 59 s) (fun _ s => POk v s))))).
(** users_base_file.c:63-191 (user_base_parse). The fuel is the number of bytes left. *)
Definition user_parse (s : pst) : pres userrec :=
  pbind (parse_begin s) (fun _ s =>
  pbind (parse_assert_str w_user s) (fun _ s =>
  pbind (parse_assert_space s) (fun _ s =>
  pbind (parse_fetch_string 32 false s) (fun name s =>
  pbind (parse_assert_space s) (fun _ s =>
  pbind (parse_assert_str w_roles s) (fun _ s =>
  pbind (parse_assert_space s) (fun _ s =>
  pbind (parse_optional_ch 123 s) (fun islist s =>
  pbind (roles_parse (S (length (match ps_cur s with Some m => m | None => [] end) + length (concat (ps_rest s)))) islist [] s) (fun r s =>
  match snd r with
  | Rsemicolon => POk (mkUs name None None (fst r)) s
  | Rmls => pbind (user_mls_parse s) (fun v s =>
      POk (mkUs name (option_map fst v) (option_map snd v) (fst r)) s)
  end))))))))).

(** ** Files *)

(** database_file.c:66-97: the main loop of dbase_file_cache, records in the order of the file. *)
Fixpoint read_loop {A} (parse : pst -> pres A) (fuel : nat) (s : pst) : pres (list A) :=
  match fuel with
  | O => PLoop
  | S f =>
      match parse s with
      | POk a s' => pbind (read_loop parse f s') (fun l s'' => POk (a :: l) s'')
      | PEnd => POk [] s
      | PErr => PErr | PUB => PUB | PLoop => PLoop
      end
  end.
(** database_file.c:41-110 (dbase_file_cache): each record is put in front of the cache, which is written from its
    tail: the order in the file is kept. The fuel is the length of the text. *)
Definition read_file {A} (parse : pst -> pres A) (text : list N) : pres (list A) :=
  read_loop parse (S (length text)) (mkPS None (buffers text)).
(** "# This file is auto-generated by libsemanage\n# Do not edit directly.\n\n" (database_file.c:139-140). *)
Definition file_header : list N :=
  [35;32;84;104;105;115;32;102;105;108;101;32;105;115;32;97;117;116;111;45;103;101;110;101;114;97;116;101;100;32;98;121;32;108;105;98;115;101;109;97;110;97;103;101;10;
   35;32;68;111;32;110;111;116;32;101;100;105;116;32;100;105;114;101;99;116;108;121;46;10;10].
(** database_file.c:113-163 (dbase_file_flush): the text written. *)
Definition write_file {A} (print : A -> list N) (l : list A) : list N := file_header ++ flat_map print l.
