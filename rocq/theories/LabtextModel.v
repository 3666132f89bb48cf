(** Model of how libselinux reads the text files behind selabel_open: file contexts (libselinux/src/label_support.c and
    label_file.h, process_line), path substitutions (label_file.c), and the files of the media, X and database backends
    (label_media.c, label_x.c, label_db.c) with their lookups. Bytes are numbers below 256; isspace is that of the C locale
    (LoginModel). Allocation failures, logging, digests, options other than the path, and the checking of contexts are not
    modelled. *)
From Verif Require Import Base MlsModel ContextModel LoginModel LabelModel.

(** libselinux/src/label_support.c:37-45: the bytes up to a blank or the end, at [p]; a byte above 127 is an error. The end
    of the list is the terminating NUL. *)
Fixpoint take_entry (p : list N) : option (list N * list N) :=
  match p with
  | [] => Some ([], [])
  | c :: t =>
      if isspace c then Some ([], p)
      else if 128 <=? c then None
      else match take_entry t with Some (w, r) => Some (c :: w, r) | None => None end
  end.
(** libselinux/src/label_support.c:25-60 (read_spec_entry): the entry (the empty one is NULL) and what follows it. *)
Definition read_spec_entry (p : list N) : option (list N * list N) :=
  match take_entry (snd (span isspace p)) with
  | None => None
  | Some (w, r) => if 65535 <=? N.of_nat (length w) then None else Some (w, r)
  end.
(** The outcomes of read_spec_entries (libselinux/src/label_support.c:73-120): the entries (their number is the result), with
    whether va_arg was used more often than there are arguments; -1; a store through an argument that is not there; or the
    model's fuel ran out (it does not). *)
Inductive rents := Items (l : list (list N)) (past : bool) | ItemsErr | ItemsWild | ItemsFuel.
(** libselinux/src/label_support.c:100-118: the loop; [todo] is num_args - items, [args] the arguments not yet taken. *)
Fixpoint entries_loop (fuel todo args : nat) (got : list (list N)) (past : bool) (p : list N) : rents :=
  match fuel with
  | O => ItemsFuel
  | S f =>
      match todo with
      | O => Items got past
      | S k =>
          let past' := past || match args with O => true | _ => false end in
          match p with
          | [] => Items got past'
          | _ =>
              match args with
              | O => ItemsWild
              | S a =>
                  match read_spec_entry p with
                  | None => ItemsErr
                  | Some ([], r) => entries_loop f todo a got past' r
                  | Some (w, r) => entries_loop f k a (got ++ [w]) past' r
                  end
              end
          end
      end
  end.
(** libselinux/src/label_support.c:73-98: the line without its newline, as a C string; blank lines and comments. The second
    test at line 106 (the end of the line is reached) holds only where the first holds too. *)
Definition read_spec_entries (line : list N) (num_args : nat) : rents :=
  let buf := cstr (if last line 0 =? 10 then removelast line else line) in
  match snd (span isspace buf) with
  | [] => Items [] false
  | c :: t => if c =? 35 then Items [] false else entries_loop (S (S (S num_args))) num_args num_args [] false (c :: t)
  end.

(** libselinux/src/label_file.h:181-203 (string_to_file_kind), the kinds of label_file.h:44-52; 255 is invalid. *)
Definition string_to_file_kind (mode : list N) : N :=
  if negb (nth 0 mode 0 =? 45) || (nth 1 mode 0 =? 0) || negb (nth 2 mode 0 =? 0) then 255
  else match nth 1 mode 0 with
       | 98 => 3 | 99 => 2 | 100 => 1 | 112 => 5 | 108 => 6 | 115 => 4 | 45 => 7 | _ => 255
       end.

(** libselinux/src/label_file.h:808-815: a prefix (SELABEL_OPT_SUBSET) is a slash and one component. *)
Definition prefix_ok (prefix : option (list N)) : bool :=
  match prefix with
  | None => true
  | Some p => (nth 0 p 0 =? 47) && negb (nth 1 p 0 =? 0) && negb (existsb (N.eqb 47) (tl p))
  end.
(** Outcome of a line (libselinux/src/label_file.h:797-870, process_line) before insert_spec: nothing, a specification, -1, or
    the store of [ItemsWild]. *)
Inductive pl := PL_skip | PL_spec (regex : list N) (kind : N) (context : list N) | PL_err | PL_wild.
(** libselinux/src/label_file.h:797-870 (process_line), without insert_spec, which is in LabelModel. *)
Definition process_line (prefix : option (list N)) (line : list N) : pl :=
  if negb (prefix_ok prefix) then PL_err
  else match read_spec_entries line 3 with
       | Items [] _ => PL_skip
       | Items [_] _ => PL_err
       | Items [r; c] _ => PL_spec r 0 c
       | Items (r :: t :: c :: _) _ => if string_to_file_kind t =? 255 then PL_err else PL_spec r (string_to_file_kind t) c
       | ItemsErr => PL_err
       | ItemsWild | ItemsFuel => PL_wild
       end.
(** libselinux/src/label_file.c:194-211 (process_text_file): the lines in order; the first error ends it. *)
Fixpoint process_lines (prefix : option (list N)) (ls : list (list N)) : option (list (option (list N * N * list N))) :=
  match ls with
  | [] => Some []
  | l :: ls' =>
      match process_line prefix l with
      | PL_skip => match process_lines prefix ls' with Some r => Some (None :: r) | None => None end
      | PL_spec x k c => match process_lines prefix ls' with Some r => Some (Some (x, k, c) :: r) | None => None end
      | PL_err | PL_wild => None
      end
  end.
(** The same from the bytes of the file (getline of LoginModel). *)
Definition process_text_file (prefix : option (list N)) (file : list N) : option (list (option (list N * N * list N))) :=
  process_lines prefix (getlines file).
(** libselinux/src/label_file.c:1394-1506 (init): the three texts read and inserted (LabelModel); in the code reading and
    inserting alternate line by line, and any error of either is the error of the whole. [prefix] here has its slash. *)
Definition init_text (qsort : list lspec -> list lspec) (prefix : option (list N)) (validating baseonly : bool)
    (subs dist : list (list N * list N)) (base homedirs local : list N) : option data :=
  match process_text_file prefix base, (if baseonly then Some [] else process_text_file prefix homedirs),
        (if baseonly then Some [] else process_text_file prefix local) with
  | Some b, Some h, Some l => init qsort (option_map (@tl N) prefix) validating baseonly subs dist b h l
  | _, _, _ => None
  end.

(** ** Substitutions: libselinux/src/label_file.c:1264-1371 *)

(** libselinux/src/label_file.c:1268: the buffer; [None] is a byte never written. *)
Definition fresh_buf : list (option N) := repeat None 1024.
(** libselinux/src/label_file.c:1285: fgets of at most 1022 bytes, up to and with a newline: the bytes and the rest of the
    file. *)
Fixpoint fgets (n : nat) (file : list N) : list N * list N :=
  match n, file with
  | O, _ => ([], file)
  | _, [] => ([], [])
  | S k, c :: t => if c =? 10 then ([c], t) else let '(a, b) := fgets k t in (c :: a, b)
  end.
(** The buffer after fgets: the bytes, a NUL, and what was there before. *)
Definition put_line (chunk : list N) (buf : list (option N)) : list (option N) :=
  map Some chunk ++ Some 0 :: skipn (S (length chunk)) buf.
(** The loops of libselinux/src/label_file.c:1291-1292, 1295-1296, 1301-1302 and 1304-1305: going on while the byte is not NUL
    and satisfies [f]; [None] if a byte never written (or behind the buffer) is read. *)
Fixpoint bspan (f : N -> bool) (p : list (option N)) : option (list N * list (option N)) :=
  match p with
  | Some c :: t =>
      if negb (c =? 0) && f c then match bspan f t with Some (a, r) => Some (c :: a, r) | None => None end
      else Some ([], p)
  | _ => None
  end.
(** Outcome of one round of the loop: a byte never written was read, or the buffer afterwards and the pair found. *)
Inductive sround := SUB | SNext (buf : list (option N)) (pair : option (list N * list N)).
(** libselinux/src/label_file.c:1285-1307: one round. The NULs written into the buffer stay there. *)
Definition subs_round (buf : list (option N)) : sround :=
  match bspan isspace buf with
  | None => SUB
  | Some (sp, src) =>
      match src with
      | Some 35 :: _ => SNext buf None
      | _ =>
          match bspan (fun c => negb (isspace c)) src with
          | None => SUB
          | Some (w, r) =>
              let buf1 := map Some sp ++ map Some w ++ Some 0 :: tl r in
              match w with
              | [] => SNext buf1 None
              | _ =>
                  match bspan isspace (tl r) with
                  | None => SUB
                  | Some (sp2, dst) =>
                      match bspan (fun c => negb (isspace c)) dst with
                      | None => SUB
                      | Some (w2, r2) =>
                          let buf2 := map Some sp ++ map Some w ++ Some 0 :: map Some sp2 ++ map Some w2 ++ Some 0 :: tl r2 in
                          SNext buf2 (match w2 with [] => None | _ => Some (w, w2) end)
                      end
                  end
              end
          end
      end
  end.
(** libselinux/src/label_file.c:1285-1343: the loop; every round takes bytes from the file, so that its length is fuel
    enough. The lengths are below 1023, so that the tests at 1310 and 1316 never fail. *)
Fixpoint subs_loop (fuel : nat) (file : list N) (buf : list (option N)) : res (list (list N * list N)) :=
  match file with
  | [] => ROk []
  | _ =>
      match fuel with
      | O => RErr
      | S f =>
          let '(chunk, rest) := fgets 1022 file in
          match subs_round (put_line chunk buf) with
          | SUB => RUB
          | SNext buf' pr =>
              match subs_loop f rest buf' with
              | ROk l => ROk (match pr with Some x => x :: l | None => l end)
              | other => other
              end
          end
      end
  end.
(** libselinux/src/label_file.c:1264-1371 (selabel_subs_init) of a file that exists. *)
Definition selabel_subs_init (file : list N) : res (list (list N * list N)) := subs_loop (length file) file fresh_buf.

(** ** Media, X and database files *)

(** sscanf with "%ms %ms ..." of [n] directives: the words, as long as there are some. *)
Fixpoint scan_words (n : nat) (s : list N) : list (list N) :=
  match n with
  | O => []
  | S k =>
      match span (fun c => negb (isspace c)) (snd (span isspace s)) with
      | ([], _) => []
      | (w, r) => w :: scan_words k r
      end
  end.
(** libselinux/src/label_media.c:43-47, label_x.c:45-49: a comment or empty line. *)
Definition comment_line (s : list N) : bool :=
  match snd (span isspace s) with [] => true | c :: _ => c =? 35 end.
(** An element of the array (struct spec of the three files): kind of object, key, context. *)
Record lrec := mkLR { r_type : N; r_key : list N; r_ctx : list N }.
(** Outcome of a line: not counted; counted, with what the second pass stores (nothing: an unknown kind). *)
Inductive mline := MSkip | MLine (r : option lrec).
(** libselinux/src/label_media.c:33-68 (process_line). *)
Definition media_line (line : list N) : mline :=
  let s := cstr line in
  if comment_line s then MSkip
  else match scan_words 2 s with [k; c] => MLine (Some (mkLR 0 k c)) | _ => MSkip end.
(** The names of libselinux/src/label_x.c:63-76, the values of libselinux/include/selinux/label.h:174-180. *)
Definition x_types : list (list N * N) :=
  [([112;114;111;112;101;114;116;121], 1); ([101;120;116;101;110;115;105;111;110], 2); ([99;108;105;101;110;116], 3);
   ([101;118;101;110;116], 4); ([115;101;108;101;99;116;105;111;110], 5);
   ([112;111;108;121;95;112;114;111;112;101;114;116;121], 6); ([112;111;108;121;95;115;101;108;101;99;116;105;111;110], 7)].
(** The names of libselinux/src/label_db.c:122-145, the values of libselinux/include/selinux/label.h:183-194. *)
Definition db_types : list (list N * N) :=
  let db l := [100;98;95] ++ l in
  [(db [100;97;116;97;98;97;115;101], 1); (db [115;99;104;101;109;97], 2); (db [116;97;98;108;101], 3);
   (db [99;111;108;117;109;110], 4); (db [115;101;113;117;101;110;99;101], 5); (db [118;105;101;119], 6);
   (db [112;114;111;99;101;100;117;114;101], 7); (db [98;108;111;98], 8); (db [116;117;112;108;101], 9);
   (db [108;97;110;103;117;97;103;101], 10); (db [101;120;99;101;112;116;105;111;110], 11);
   (db [100;97;116;97;116;121;112;101], 12)].
(** The chains of strcmp (libselinux/src/label_x.c:63-81, label_db.c:122-150). *)
Fixpoint type_of (ts : list (list N * N)) (s : list N) : option N :=
  match ts with [] => None | (n, v) :: ts' => if str_eqb s n then Some v else type_of ts' s end.
(** libselinux/src/label_x.c:35-95 (process_line). *)
Definition x_line (line : list N) : mline :=
  let s := cstr line in
  if comment_line s then MSkip
  else match scan_words 3 s with
       | [t; k; c] => MLine (match type_of x_types t with Some v => Some (mkLR v k c) | None => None end)
       | _ => MSkip
       end.
(** libselinux/src/label_media.c:121-132 and label_x.c:148-159, the first pass: the lines counted, at most [max]. *)
Fixpoint pass0 (f : list N -> mline) (max : N) (n : N) (ls : list (list N)) : N :=
  match ls with
  | [] => n
  | l :: ls' => if n <? max then pass0 f max (match f l with MSkip => n | MLine _ => n + 1 end) ls' else n
  end.
(** The same, the second pass: what is stored; the array has [max] elements; [None]: a store behind it. *)
Fixpoint pass1 (f : list N -> mline) (max : N) (arr : list lrec) (ls : list (list N)) : option (list lrec) :=
  match ls with
  | [] => Some arr
  | l :: ls' =>
      if N.of_nat (length arr) <? max
      then match f l with
           | MLine (Some r) => if N.of_nat (length arr) <? max then pass1 f max (arr ++ [r]) ls' else None
           | _ => pass1 f max arr ls'
           end
      else Some arr
  end.
(** libselinux/src/label_media.c:71-158 and label_x.c:98-185 (init); [max] is UINT_MAX / sizeof(spec_t). *)
Definition two_pass (f : list N -> mline) (max : N) (file : list N) : option (list lrec) :=
  let n := pass0 f max 0 (getlines file) in
  if n =? 0 then Some [] else pass1 f n [] (getlines file).
(** strchr(line_buf, '#') and the NUL written there (libselinux/src/label_db.c:98-101). *)
Fixpoint cut_comment (s : list N) : list N :=
  match s with [] => [] | c :: t => if c =? 35 then [] else c :: cut_comment t end.
(** libselinux/src/label_db.c:90-167 (process_line). *)
Definition db_line (line : list N) : option lrec :=
  match scan_words 4 (cut_comment (cstr line)) with
  | [t; k; c] => match type_of db_types t with Some v => Some (mkLR v k c) | None => None end
  | _ => None
  end.
(** libselinux/src/label_db.c:317-342: the lines in order; the array grows. *)
Definition db_specs (file : list N) : list lrec :=
  flat_map (fun l => match db_line l with Some r => [r] | None => [] end) (getlines file).
(** libselinux/src/label_media.c:187-211 (lookup): strncmp over the length of the key and its NUL. *)
Fixpoint media_lookup (arr : list lrec) (key : list N) : option (list N) :=
  match arr with
  | [] => None
  | r :: arr' =>
      match sncmp (S (length key)) (r_key r) key with
      | Eq => Some (r_ctx r)
      | _ => match sncmp 2 (r_key r) [42] with Eq => Some (r_ctx r) | _ => media_lookup arr' key end
      end
  end.
(** libselinux/src/label_x.c:215-238 (lookup), label_db.c:198-220 (db_lookup); [fnm] is fnmatch(pattern, key, 0) == 0. *)
Fixpoint glob_lookup (fnm : list N -> list N -> bool) (arr : list lrec) (key : list N) (type : N) : option (list N) :=
  match arr with
  | [] => None
  | r :: arr' =>
      if negb (r_type r =? type) then glob_lookup fnm arr' key type
      else if fnm (r_key r) key then Some (r_ctx r)
      else glob_lookup fnm arr' key type
  end.
