(** What CIL text means: a grammar of texts and the trees they write down. *)
From Verif Require Import Base CilparseModel.

(** The characters of a symbol: printable ASCII except double quote, parentheses, semicolon and backslash. *)
Definition word_char (c : N) : Prop := 33 <= c <= 126 /\ c <> 34 /\ c <> 40 /\ c <> 41 /\ c <> 59 /\ c <> 92.

(** The text is empty or starts with a character that cannot continue a symbol. *)
Definition breaks (s : list N) : Prop := match s with [] => True | c :: _ => ~ word_char c end.

(** [written p s f]: inside [p] parentheses, the text [s] writes down the trees [f] one after the other.
    Blanks and newlines separate; a comment goes from a semicolon to the end of the line; a symbol is a longest
    run of symbol characters; a quoted string has no newline, NUL or quote in it and is the same as the symbol;
    symbols and strings only stand inside parentheses; parentheses nest at most 4096 deep. *)
Inductive written : nat -> list N -> list ptree -> Prop :=
| W_end p : written p [] []
| W_blank p c s f : c = 32 \/ c = 9 \/ c = 10 -> written p s f -> written p (c :: s) f
| W_comment p body s f : ~ In 10 body -> written p s f -> written p (59 :: body ++ 10 :: s) f
| W_symbol p w s f : w <> [] -> Forall word_char w -> breaks s -> written (S p) s f ->
    written (S p) (w ++ s) (PName w :: f)
| W_string p w s f : ~ In 34 w -> ~ In 10 w -> ~ In 0 w -> written (S p) s f ->
    written (S p) (34 :: w ++ 34 :: s) (PName w :: f)
| W_list p a g s f : (p < N.to_nat 4096)%nat -> written (S p) a g -> written p s f ->
    written p (40 :: a ++ 41 :: s) (PList g :: f).

(** A whole file: no parenthesis is open, and the last line may be a comment without end. *)
Definition written_file (s : list N) (f : list ptree) : Prop :=
  exists s1, written 0 s1 f /\ (s = s1 \/ exists body, s = s1 ++ 59 :: body /\ ~ In 10 body).

(** No line starts with ";;*" (a line mark). *)
Definition no_marks (s : list N) : Prop :=
  forall a b, s = a ++ 59 :: 59 :: 42 :: b -> exists a' c, a = a' ++ [c] /\ c <> 10.

(** Token level, with line marks: [derives p m ts f] inside [p] parentheses and [m] line marks.  A line mark
    "lms" or "lmx" makes a list of what follows up to its "lme". *)
Inductive derives : nat -> nat -> list token -> list ptree -> Prop :=
| D_end p m : derives p m [] []
| D_newline p m ts f : derives p m ts f -> derives p m (NEWLINE :: ts) f
| D_comment p m junk ts f : ~ In NEWLINE junk -> derives p m ts f ->
    derives p m (COMMENT :: junk ++ NEWLINE :: ts) f
| D_symbol p m w ts f : derives (S p) m ts f -> derives (S p) m (SYMBOL w :: ts) (PName w :: f)
| D_string p m w ts f : derives (S p) m ts f -> derives (S p) m (QSTRING w :: ts) (PName w :: f)
| D_list p m a g ts f : (p < N.to_nat 4096)%nat -> derives (S p) m a g -> derives p m ts f ->
    derives p m (OPAREN :: a ++ CPAREN :: ts) (PList g :: f)
| D_mark p m k n q ts g us f : k = LMS \/ k = LMX -> (m < N.to_nat 4096)%nat ->
    (exists w, q = SYMBOL w \/ q = QSTRING w) ->
    derives p (S m) ts g -> derives p m us f ->
    derives p m (HLL_LINEMARK :: SYMBOL k :: SYMBOL n :: q :: NEWLINE :: ts ++
                 HLL_LINEMARK :: SYMBOL LME :: NEWLINE :: us)
      (PList (PName SRC_INFO :: PName k :: PName n ::
              PName (match q with SYMBOL w => w | QSTRING w => w | _ => [] end) :: g) :: f).

(** The tokens of a whole file. *)
Definition derives_file (ts : list token) (f : list ptree) : Prop :=
  exists t1, derives 0 0 t1 f /\ (ts = t1 \/ exists junk, ts = t1 ++ COMMENT :: junk /\ ~ In NEWLINE junk).
