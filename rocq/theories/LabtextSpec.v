(** Specification of the label configuration texts, independent of the model. Blanks, lines, C strings and "first such" are
    those of LoginSpec. *)
From Verif Require Import Base LoginSpec.
From Coq Require Import String Ascii.
Open Scope N_scope.
Open Scope list_scope.

(** A string as bytes. *)
Fixpoint bytes (s : string) : list N := match s with EmptyString => [] | String c s' => N_of_ascii c :: bytes s' end.

(** The words of a text, in order: what is between blanks. *)
Inductive words : list N -> list (list N) -> Prop :=
| words_end ws : Forall blank ws -> words ws []
| words_word ws w rest fs : Forall blank ws -> w <> [] -> no_blank w -> stops rest -> words rest fs ->
    words (ws ++ w ++ rest) (w :: fs).
(** The first character that is not blank is '#'. *)
Definition comment (s : list N) : Prop := exists ws r, s = ws ++ 35 :: r /\ Forall blank ws.

(** ** File contexts *)
(** A word that can be an entry: ASCII and shorter than 65535. *)
Definition entry_word (w : list N) : Prop := Forall (fun c => c < 128) w /\ N.of_nat (List.length w) < 65535.
(** The names of the kinds of files and their codes (0 is any kind). *)
Inductive kind_name : list N -> N -> Prop :=
| K_dir : kind_name (bytes "-d") 1 | K_chr : kind_name (bytes "-c") 2 | K_blk : kind_name (bytes "-b") 3
| K_sock : kind_name (bytes "-s") 4 | K_fifo : kind_name (bytes "-p") 5 | K_lnk : kind_name (bytes "-l") 6
| K_reg : kind_name (bytes "--") 7.
(** What a line says: nothing (blank or comment), or expression, kind and context; a fourth word and what follows it is
    not looked at. Other lines are not allowed. *)
Inductive says : list N -> option (list N * N * list N) -> Prop :=
| Says_blank s : Forall blank s -> says s None
| Says_comment s : comment s -> says s None
| Says_two s r c : words s [r; c] -> ~ comment s -> entry_word r -> entry_word c -> says s (Some (r, 0, c))
| Says_three s r t c more k : words s (r :: t :: c :: more) -> ~ comment s -> entry_word r -> entry_word t -> entry_word c ->
    kind_name t k -> says s (Some (r, k, c)).
(** A line as read (up to a NUL, if there is one). *)
Definition line_says (b : list N) (o : option (list N * N * list N)) : Prop := exists s, text_of b s /\ says s o.
(** The option SELABEL_OPT_SUBSET: absent, or a slash and one component. *)
Definition part_ok (prefix : option (list N)) : Prop :=
  match prefix with None => True | Some p => exists comp, p = 47 :: comp /\ comp <> [] /\ ~ In 47 comp end.

(** ** Substitutions *)
(** The pair of a line: its first two words, if it is not a comment and has two. *)
Definition pair_of (s : list N) (p : list N * list N) : Prop := exists more, words s (fst p :: snd p :: more) /\ ~ comment s.
Inductive pairs_of : list (list N) -> list (list N * list N) -> Prop :=
| pairs_nil : pairs_of [] []
| pairs_cons l ls p ps : pair_of l p -> pairs_of ls ps -> pairs_of (l :: ls) (p :: ps)
| pairs_skip l ls ps : (forall p, ~ pair_of l p) -> pairs_of ls ps -> pairs_of (l :: ls) ps.
(** A line that ends in the middle of its first word (only the last line of a file can). *)
Definition one_word (l : list N) : Prop := exists ws w, l = ws ++ w /\ Forall blank ws /\ w <> [] /\ no_blank w /\ ~ comment l.
(** A word that can stand at the start of a line. *)
Definition first_word (w : list N) : Prop := w <> [] /\ no_blank w /\ no_nul w /\ hd 0 w <> 35.

(** ** Media, X and database objects *)
(** A line of the media file: key and context. *)
Definition media_says (b k c : list N) : Prop := exists s more, text_of b s /\ ~ comment s /\ words s (k :: c :: more).
(** The kinds of X objects and of database objects (selinux/label.h). *)
Definition x_names : list (string * N) :=
  [("property", 1); ("extension", 2); ("client", 3); ("event", 4); ("selection", 5); ("poly_property", 6); ("poly_selection", 7)]%string.
Definition db_names : list (string * N) :=
  [("db_database", 1); ("db_schema", 2); ("db_table", 3); ("db_column", 4); ("db_sequence", 5); ("db_view", 6);
   ("db_procedure", 7); ("db_blob", 8); ("db_tuple", 9); ("db_language", 10); ("db_exception", 11); ("db_datatype", 12)]%string.
Definition named (t : list (string * N)) (w : list N) (v : N) : Prop := exists n, In (n, v) t /\ w = bytes n.
(** A line of the X file: kind, pattern, context; further words are not looked at. *)
Definition x_says (b : list N) (v : N) (k c : list N) : Prop :=
  exists s t more, text_of b s /\ ~ comment s /\ words s (t :: k :: c :: more) /\ named x_names t v.
(** A text up to the first '#'. *)
Definition uncommented (s u : list N) : Prop := ~ In 35 u /\ (s = u \/ exists r, s = u ++ 35 :: r).
(** A line of the database file: kind, pattern, context, and nothing more but a comment. *)
Definition db_says (b : list N) (v : N) (k c : list N) : Prop :=
  exists s u t, text_of b s /\ uncommented s u /\ words u [t; k; c] /\ named db_names t v.

(** ** Sorted file contexts *)
From Verif Require Import FcsortSpec.
(** What an entry of a file-contexts text (FcsortSpec) means to the label backend, if it can be read by it. *)
Definition reads_as (e : fc_entry) (sp : list N * N * list N) : Prop :=
  entry_word (e_path e) /\ entry_word (e_context e) /\ no_nul (e_path e) /\ no_nul (e_context e) /\
  exists k, sp = (e_path e, k, e_context e) /\
    ((e_type e = None /\ k = 0) \/ exists t, e_type e = Some t /\ kind_name t k).
