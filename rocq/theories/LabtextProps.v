(** Properties C79 (file contexts texts), C80 (substitution files) and C81 (media, X and database objects). *)
From Verif Require Import Base MlsModel ContextModel LoginModel LabelModel LoginSpec LoginProofs LabtextModel LabtextSpec LabtextProofs
  FcsortModel FcsortSpec FcsortProofs.
From Coq Require Import String Ascii Sorted Permutation.
Open Scope N_scope.
Open Scope list_scope.

(** ** C79 *)

(** A file of specifications is accepted exactly if every line says something, and then what is kept is what the lines say,
    line by line. *)
Theorem C79_read : forall prefix file ls, match prefix with Some p => no_nul p | None => True end -> part_ok prefix -> lines_of file ls ->
  forall out, process_text_file prefix file = Some out <-> Forall2 line_says ls out.
Proof.
  intros prefix file ls NZ PO LO out. unfold process_text_file. rewrite (lines_fun _ _ LO). apply lines_spec.
  apply prefix_part; assumption.
Qed.
Print Assumptions C79_read.

(** What a line says is determined. *)
Theorem C79_one_meaning : forall b o o', line_says b o -> line_says b o' -> o = o'.
Proof.
  intros b o o' H H'. apply (says_fun (body b) o o'); [apply body_nul|apply body_says; exact H|apply body_says; exact H'].
Qed.
Print Assumptions C79_one_meaning.

Definition case79 : list N := bytes "# rules
" ++ bytes "/etc(/.*)?  --  system_u:object_r:etc_t more" ++ [10; 10] ++ bytes "/x <<none>>".
Example C79_case : process_text_file None case79 =
  Some [None; Some (bytes "/etc(/.*)?", 7, bytes "system_u:object_r:etc_t"); None; Some (bytes "/x", 0, bytes "<<none>>")] /\
  process_text_file None (bytes "/etc -x c") = None /\ process_text_file None (bytes "/etc") = None /\
  (exists ls, lines_of case79 ls).
Proof. do 3 (split; [vm_compute; reflexivity|]). eexists. apply getlines_lines. Qed.

(** The option for a part of the tree is refused, with every line, if it is not a slash and one component. *)
Theorem C79_subset : forall p file, no_nul p -> ~ part_ok (Some p) -> file <> [] -> process_text_file (Some p) file = None.
Proof.
  intros p file NZ NP NE. unfold process_text_file.
  assert (PO : prefix_ok (Some p) = false).
  { destruct (prefix_ok (Some p)) eqn:E; [|reflexivity]. destruct NP. apply (prefix_part (Some p) NZ). exact E. }
  destruct (getlines file) as [|l ls] eqn:G.
  - exfalso. destruct file as [|c file]; [congruence|]. cbn [getlines] in G. destruct (c =? 10); [discriminate G|]. destruct (getlines file); discriminate G.
  - cbn [process_lines]. unfold process_line. rewrite PO. reflexivity.
Qed.
Print Assumptions C79_subset.
Example C79_subset_case : ~ part_ok (Some (bytes "/etc/foo")) /\ part_ok (Some (bytes "/etc")).
Proof.
  split.
  - intros (comp & [= <-] & _ & H). apply H. cbn. auto 10.
  - exists (bytes "etc"). split; [reflexivity|]. split; [discriminate|]. cbn. intuition discriminate.
Qed.

(** Sorting a text of file contexts (C62) and reading the result gives the entries of the text, in the sorted order. *)
Theorem C79_sorted : forall buf ls es, no_nul buf -> lines_of buf ls -> ended buf -> entries_of ls es ->
  Forall (fun e => ~ dangling (e_path e)) es -> Forall (fun e => exists sp, reads_as e sp) es ->
  exists out text specs, stably_sorted es out /\ fc_sort buf = ROk (text ++ [0]) /\
    Forall2 reads_as out specs /\ process_text_file None text = Some (map Some specs).
Proof.
  intros buf ls es NZ LO EN EO ND RD.
  destruct (sort_claim buf ls es LO EN EO) as (out & SS & FS).
  { revert ND. apply Forall_impl. intros e H [X _]. exact (H X). }
  destruct (sorted_read out) as (specs & R & P).
  { destruct SS as [PM _]. apply (Permutation_Forall PM). assert (E := entries_are _ _ EO). apply Forall_forall. intros e I. rewrite Forall_forall in E, RD. auto. }
  exists out, (flat_map entry_text out), specs. auto.
Qed.
Print Assumptions C79_sorted.
Example C79_sorted_case : exists text, fc_sort (bytes "/etc/x c" ++ [10] ++ bytes "/e.* -d d" ++ [10]) = ROk (text ++ [0]) /\
  process_text_file None text = Some [Some (bytes "/e.*", 1, bytes "d"); Some (bytes "/etc/x", 0, bytes "c")] /\
  reads_as (mkFC (bytes "/e.*") (Some (bytes "-d")) (bytes "d")) (bytes "/e.*", 1, bytes "d").
Proof.
  exists (bytes "/e.*" ++ [9] ++ bytes "-d" ++ [9] ++ bytes "d" ++ [10] ++ bytes "/etc/x" ++ [9] ++ bytes "c" ++ [10]).
  split; [vm_compute; reflexivity|]. split; [vm_compute; reflexivity|].
  assert (EW : forall s : list N, forallb (fun c => c <? 128) s = true -> (List.length s < 100)%nat -> entry_word s).
  { intros s F L. split; [|lia]. apply Forall_forall. intros c I. rewrite forallb_forall in F. specialize (F c I). lia. }
  split; [apply EW; [reflexivity|cbn; lia]|]. split; [apply EW; [reflexivity|cbn; lia]|].
  clear EW. split; [unfold no_nul; cbn; intuition discriminate|]. split; [unfold no_nul; cbn; intuition discriminate|].
  exists 1. split; [reflexivity|]. right. exists (bytes "-d"). split; [reflexivity|constructor].
Qed.

(** No line makes read_spec_entries store through an argument that was not passed. *)
Theorem C79_no_wild_store : forall prefix line, process_line prefix line <> PL_wild.
Proof. exact no_wild. Qed.
Print Assumptions C79_no_wild_store.

(** But for a line of two words followed by a blank one more argument is taken with va_arg than was passed. *)
Theorem C79_refuted_arguments : forall r c, first_word r -> no_blank c -> c <> [] -> no_nul c -> entry_word r -> entry_word c ->
  read_spec_entries (r ++ 32 :: c ++ [32; 10]) 3 = Items [r; c] true.
Proof. exact past_end. Qed.
Print Assumptions C79_refuted_arguments.
Example C79_refuted_arguments_case : read_spec_entries (bytes "/x c " ++ [10]) 3 = Items [bytes "/x"; bytes "c"] true /\
  read_spec_entries (bytes "/x c" ++ [10]) 3 = Items [bytes "/x"; bytes "c"] false.
Proof. split; vm_compute; reflexivity. Qed.

(** ** C80 *)

(** A substitution file whose lines fit into the buffer and which does not end in the middle of a first word is read as the
    pairs of its lines, in order. *)
Theorem C80_read_partial : forall file ls ps, no_nul file -> lines_of file ls ->
  Forall (fun l => (List.length l <= 1022)%nat /\ ~ one_word l) ls -> pairs_of ls ps -> selabel_subs_init file = ROk ps.
Proof. intros file ls ps NZ LO F P. exact (subs_loop_spec file ls LO NZ F ps (List.length file) fresh_buf P (Nat.le_refl _)). Qed.
Print Assumptions C80_read_partial.

(** Every file has such pairs, and only one list of them. *)
Theorem C80_pairs : forall ls, (exists ps, pairs_of ls ps) /\ (forall ps qs, pairs_of ls ps -> pairs_of ls qs -> ps = qs).
Proof. intros ls. split; [apply pairs_ex|]. intros ps qs P Q. exact (pairs_fun ls ps P qs Q). Qed.
Print Assumptions C80_pairs.
Example C80_case : selabel_subs_init (bytes "# local" ++ [10] ++ bytes "/run /var/run x" ++ [10] ++ bytes "/lone " ++ [10] ++ bytes "  /srv/home /home")
  = ROk [(bytes "/run", bytes "/var/run"); (bytes "/srv/home", bytes "/home")].
Proof. vm_compute. reflexivity. Qed.

(** Written as lines, any list of pairs is read back. *)
Theorem C80_round_trip : forall ps : list (list N * list N),
  Forall (fun p => first_word (fst p) /\ first_word (snd p) /\ (List.length (fst p) + List.length (snd p) <= 1020)%nat) ps ->
  selabel_subs_init (flat_map (fun p => fst p ++ 32 :: snd p ++ [10]) ps) = ROk ps.
Proof.
  intros ps F. assert (B32 : blank 32) by (unfold blank; auto). assert (B10 : blank 10) by (unfold blank; auto).
  assert (NNb : forall s, no_blank s -> no_newline s) by (intros s NB I; unfold no_blank in NB; rewrite Forall_forall in NB; exact (NB 10 I B10)).
  assert (W : forall a b, first_word a -> first_word b -> words ((a ++ 32 :: b) ++ [10]) [a; b]).
  { intros a b (NEa & NBa & _) (NEb & NBb & _). apply words_snoc. apply (words_word [] a (32 :: b) [b]); [constructor|exact NEa|exact NBa|exact B32|].
    rewrite <- (app_nil_r b) at 1. apply (words_word [32] b [] []); [constructor; [exact B32|constructor]|exact NEb|exact NBb|exact I|]. constructor. constructor. }
  apply (C80_read_partial _ (map (fun p => (fst p ++ 32 :: snd p) ++ [10]) ps)).
  - intros I. apply in_flat_map in I as (p & Ip & I). rewrite Forall_forall in F. destruct (F p Ip) as ((_ & _ & Za & _) & (_ & _ & Zb & _) & _).
    rewrite in_app_iff in I. cbn [In] in I. rewrite in_app_iff in I. cbn [In] in I. unfold no_nul in *. intuition discriminate.
  - induction F as [|[a b] ps (FA & FB & L) F IH]; cbn [map flat_map fst snd]; [constructor|].
    assert (E : forall r, (a ++ 32 :: b ++ [10]) ++ r = (a ++ 32 :: b) ++ 10 :: r) by (intros r; rewrite <- !app_assoc; cbn [app]; rewrite <- app_assoc; reflexivity).
    rewrite E. apply lines_cons; [|exact IH]. intros I. rewrite in_app_iff in I. cbn [In] in I. destruct FA as (_ & NBa & _), FB as (_ & NBb & _).
    destruct I as [I|[I|I]]; [exact (NNb _ NBa I)|discriminate|exact (NNb _ NBb I)].
  - apply Forall_forall. intros l I. apply in_map_iff in I as ([a b] & <- & Ip). rewrite Forall_forall in F. destruct (F _ Ip) as (FA & FB & L). cbn [fst snd] in *.
    split; [rewrite !app_length; cbn [List.length]; lia|]. intros (ws & w & E & B & NE & NB & _).
    assert (X : words ((a ++ 32 :: b) ++ [10]) [w]).
    { rewrite E. rewrite <- (app_nil_r w) at 1. apply (words_word ws w [] []); [exact B|exact NE|exact NB|exact I|constructor; constructor]. }
    assert (Y := words_fun _ _ (W a b FA FB) _ X). discriminate Y.
  - induction F as [|[a b] ps (FA & FB & L) F IH]; cbn [map fst snd]; [constructor|]. apply pairs_cons; [|exact IH]. cbn [fst snd] in *.
    exists []. split; [apply W; assumption|]. exact (not_comment_words _ _ _ (W a b FA FB) (first_hd a FA)).
Qed.
Print Assumptions C80_round_trip.
Example C80_round_trip_case : first_word (bytes "/run") /\ selabel_subs_init (bytes "/run /var/run" ++ [10]) = ROk [(bytes "/run", bytes "/var/run")].
Proof.
  split; [|vm_compute; reflexivity]. split; [discriminate|]. split; [|split; [unfold no_nul; cbn; intuition discriminate|cbn; discriminate]].
  unfold no_blank, blank. cbn. repeat (constructor; [lia|]). constructor.
Qed.

(** A last line of one word and without newline takes the target of the line before it. *)
Theorem C80_refuted_stale : forall a b c, first_word a -> first_word b -> first_word c -> no_newline (a ++ b ++ c) ->
  List.length c = List.length a -> (List.length a + List.length b + 2 <= 1022)%nat ->
  selabel_subs_init (a ++ 32 :: b ++ 10 :: c) = ROk [(a, b); (c, b)].
Proof. exact stale. Qed.
Print Assumptions C80_refuted_stale.
Example C80_refuted_stale_case : selabel_subs_init (bytes "/run /var/run" ++ [10] ++ bytes "/srv") =
  ROk [(bytes "/run", bytes "/var/run"); (bytes "/srv", bytes "/var/run")].
Proof. vm_compute. reflexivity. Qed.

(** If it is the only line, bytes of the buffer are read that were never written. *)
Theorem C80_refuted_uninitialised : forall c, first_word c -> (List.length c <= 1022)%nat -> no_newline c -> selabel_subs_init c = RUB.
Proof. exact uninit. Qed.
Print Assumptions C80_refuted_uninitialised.
Example C80_refuted_uninitialised_case : selabel_subs_init (bytes "/srv") = RUB.
Proof. vm_compute. reflexivity. Qed.

(** The end of a long comment is read as a line of its own. *)
Theorem C80_refuted_long : forall t a b, List.length t = 1021%nat -> no_newline t -> no_nul t -> first_word a -> first_word b ->
  no_newline (a ++ b) -> (List.length a + List.length b + 2 <= 1022)%nat ->
  lines_of (35 :: t ++ a ++ 32 :: b ++ [10]) [35 :: t ++ a ++ 32 :: b ++ [10]] /\ pairs_of [35 :: t ++ a ++ 32 :: b ++ [10]] [] /\
  selabel_subs_init (35 :: t ++ a ++ 32 :: b ++ [10]) = ROk [(a, b)].
Proof.
  intros t a b LT NT ZT FA FB NN L. split; [|split; [|exact (long_comment t a b LT NT ZT FA FB NN L)]].
  - assert (E : 35 :: t ++ a ++ 32 :: b ++ [10] = (35 :: t ++ a ++ 32 :: b) ++ 10 :: []) by (cbn [app]; rewrite <- !app_assoc; reflexivity).
    rewrite E. apply lines_cons; [|constructor]. intros I. cbn [app In] in I. rewrite !in_app_iff in I. cbn [In] in I.
    destruct I as [I|[I|[I|[I|I]]]]; try discriminate; [exact (NT I)| |]; apply NN; apply in_app_iff; auto.
  - apply pairs_skip; [|constructor]. intros p (more & _ & NC). apply NC. exists [], (t ++ a ++ 32 :: b ++ [10]). split; [reflexivity|constructor].
Qed.
Print Assumptions C80_refuted_long.

(** ** C81 *)

(** Media: the first line with the key or a star decides; no such line, no label. *)
Theorem C81_media : forall max file ls key ctx, lines_of file ls -> N.of_nat (List.length ls) <= max -> no_nul key ->
  exists arr, two_pass media_line max file = Some arr /\
  (media_lookup arr key = Some ctx <->
     exists b k, first_such (fun b => exists k c, media_says b k c /\ (k = key \/ k = bytes "*")) ls b /\ media_says b k ctx) /\
  (media_lookup arr key = None <-> forall b k c, In b ls -> media_says b k c -> k <> key /\ k <> bytes "*").
Proof. exact media_exact. Qed.
Print Assumptions C81_media.
Definition media_case : list N := bytes "# media" ++ [10] ++ bytes "cdrom c1 extra" ++ [10] ++ bytes "lone" ++ [10] ++ bytes "* c2" ++ [10] ++ bytes "floppy c3".
Example C81_media_case : exists arr, two_pass media_line 1000 media_case = Some arr /\ media_lookup arr (bytes "cdrom") = Some (bytes "c1") /\
  media_lookup arr (bytes "cdro") = Some (bytes "c2") /\ media_lookup arr (bytes "floppy") = Some (bytes "c2").
Proof. eexists. split; [vm_compute; reflexivity|]. do 2 (split; [vm_compute; reflexivity|]). vm_compute. reflexivity. Qed.

(** X objects: the first line of that kind whose pattern matches decides; [fnm] is what fnmatch says. *)
Theorem C81_x : forall fnm max file ls key v ctx, lines_of file ls -> N.of_nat (List.length ls) <= max ->
  exists arr, two_pass x_line max file = Some arr /\
  (glob_lookup fnm arr key v = Some ctx <->
     exists b k, first_such (fun b => exists k c, x_says b v k c /\ fnm k key = true) ls b /\ x_says b v k ctx) /\
  (glob_lookup fnm arr key v = None <-> forall b k c, In b ls -> x_says b v k c -> fnm k key = false).
Proof. exact x_exact. Qed.
Print Assumptions C81_x.
Definition starts_with (p k : list N) : bool := str_eqb (firstn (List.length p) k) p.
Definition x_case : list N := bytes "property WM_ c1" ++ [10] ++ bytes "bogus x y" ++ [10] ++ bytes "client W c2" ++ [10] ++ bytes "property W c3" ++ [10].
Example C81_x_case : exists arr, two_pass x_line 1000 x_case = Some arr /\ glob_lookup starts_with arr (bytes "WM_NAME") 1 = Some (bytes "c1") /\
  glob_lookup starts_with arr (bytes "WIN") 1 = Some (bytes "c3") /\ glob_lookup starts_with arr (bytes "WM_NAME") 3 = Some (bytes "c2") /\
  glob_lookup starts_with arr (bytes "WM_NAME") 4 = None.
Proof. eexists. split; [vm_compute; reflexivity|]. do 3 (split; [vm_compute; reflexivity|]). vm_compute. reflexivity. Qed.

(** Database objects: the same; here a line with a fourth word does not count and '#' starts a comment anywhere. *)
Theorem C81_database : forall fnm file ls key v ctx, lines_of file ls ->
  (glob_lookup fnm (db_specs file) key v = Some ctx <->
     exists b k, first_such (fun b => exists k c, db_says b v k c /\ fnm k key = true) ls b /\ db_says b v k ctx) /\
  (glob_lookup fnm (db_specs file) key v = None <-> forall b k c, In b ls -> db_says b v k c -> fnm k key = false).
Proof. exact db_exact. Qed.
Print Assumptions C81_database.
Definition db_case : list N := bytes "db_table a c1 # first" ++ [10] ++ bytes "db_table b c2 c3" ++ [10] ++ bytes "db_table b c4" ++ [10].
Example C81_database_case : glob_lookup starts_with (db_specs db_case) (bytes "abc") 3 = Some (bytes "c1") /\
  glob_lookup starts_with (db_specs db_case) (bytes "bcd") 3 = Some (bytes "c4") /\ glob_lookup starts_with (db_specs db_case) (bytes "abc") 2 = None.
Proof. do 2 (split; [vm_compute; reflexivity|]). vm_compute. reflexivity. Qed.

(** Whatever the file, the second pass over a media or X file never stores behind the array sized by the first. *)
Theorem C81_array : forall f max file, two_pass f max file <> None.
Proof.
  intros f max file. unfold two_pass. destruct (pass0 f max 0 (getlines file) =? 0); [discriminate|]. apply pass1_safe.
Qed.
Print Assumptions C81_array.

(** The deciding line is one: there cannot be two first ones. *)
Theorem C81_one : forall (P : list N -> Prop) ls b b', first_such P ls b -> first_such P ls b' -> b = b'.
Proof. intros P ls b b'. apply first_such_one. Qed.
Print Assumptions C81_one.
