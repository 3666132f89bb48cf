(** Property C75: reading CIL text. *)
From Verif Require Import Base CilparseModel CilparseSpec CilparseProofs CilparseMain.

(** C75: a text without line marks and carriage returns is accepted exactly when it is written by the grammar, and the
    tree is the one the grammar gives.  In particular no text has two readings. *)
Theorem C75_exact s f : no_marks s -> ~ In 13 s -> (cil_parser s = Parsed f <-> written_file s f).
Proof. exact (parser_exact s f). Qed.
Print Assumptions C75_exact.

(** The text
      (allow a 'b c' (x)) ; c '
      (q)
      ;z
    with double quotes for the single ones; the last line has no end. *)
Definition demo : list N :=
  [40;97;108;108;111;119;32;97;32;34;98;32;99;34;32;40;120;41;41;32;59;32;99;32;34;10;40;113;41;10;59;122].
Definition demo_forest : list ptree :=
  [PList [PName [97;108;108;111;119]; PName [97]; PName [98;32;99]; PList [PName [120]]]; PList [PName [113]]].

Lemma demo_marks : no_marks demo.
Proof.
  intros a b E. exfalso. assert (H : forall n, nth_error demo n = Some 59 -> nth_error demo (S n) <> Some 59).
  { intros n. do 33 (destruct n as [|n]; [vm_compute; congruence|]). intros F. vm_compute in F. destruct n; discriminate F. }
  apply (H (length a)); rewrite E.
  - rewrite nth_error_app2, PeanoNat.Nat.sub_diag by apply le_n. reflexivity.
  - rewrite nth_error_app2 by (constructor; apply le_n). replace (S (length a) - length a)%nat with 1%nat by lia. reflexivity.
Qed.

Example C75_exact_case : no_marks demo /\ ~ In 13 demo /\ cil_parser demo = Parsed demo_forest /\ written_file demo demo_forest.
Proof.
  assert (N13 : ~ In 13 demo) by (vm_compute; intuition discriminate).
  assert (E : cil_parser demo = Parsed demo_forest) by (vm_compute; reflexivity).
  split; [exact demo_marks|]. split; [exact N13|]. split; [exact E|].
  apply (C75_exact demo demo_forest demo_marks N13). exact E.
Qed.

(** A missing parenthesis, a symbol outside parentheses and an unfinished string are refused. *)
Example C75_refused_case :
  cil_parser [40;97] = Refused /\ cil_parser [97] = Refused /\ cil_parser [40;34;97;41] = Refused /\ cil_parser [40;41;41] = Refused.
Proof. vm_compute. auto. Qed.

(** C75: a file whose tokens follow the grammar with properly nested line marks is read as the grammar says. *)
Theorem C75_line_marks ts f : derives_file ts f -> parse_tokens ts = Parsed f.
Proof. exact (derives_file_P ts f). Qed.
Print Assumptions C75_line_marks.

(** The text
      ;;* lms 1 f
      (a)
      ;;* lme
      (b)                                                            *)
Definition marked : list N :=
  [59;59;42;32;108;109;115;32;49;32;102;10;40;97;41;10;59;59;42;32;108;109;101;10;40;98;41;10].

Example C75_line_marks_case :
  derives_file (lex (length marked) true marked)
     [PList [PName SRC_INFO; PName LMS; PName [49]; PName [102]; PList [PName [97]]]; PList [PName [98]]].
Proof.
  exists (HLL_LINEMARK :: SYMBOL LMS :: SYMBOL [49] :: SYMBOL [102] :: NEWLINE ::
          [OPAREN; SYMBOL [97]; CPAREN; NEWLINE] ++ HLL_LINEMARK :: SYMBOL LME :: NEWLINE :: [OPAREN; SYMBOL [98]; CPAREN; NEWLINE]).
  split; [|left; vm_compute; reflexivity].
  assert (D : forall m c, derives 0 m [OPAREN; SYMBOL [c]; CPAREN; NEWLINE] [PList [PName [c]]]).
  { intros m c. apply (D_list 0 m [SYMBOL [c]] [PName [c]] [NEWLINE] []); [vm_compute; lia| |].
    - apply D_symbol. apply D_end.
    - apply D_newline. apply D_end. }
  apply (D_mark 0 0 LMS [49] (SYMBOL [102]) [OPAREN; SYMBOL [97]; CPAREN; NEWLINE] [PList [PName [97]]]
           [OPAREN; SYMBOL [98]; CPAREN; NEWLINE] [PList [PName [98]]]).
  - left. reflexivity.
  - vm_compute. lia.
  - exists [102]. left. reflexivity.
  - apply D.
  - apply D.
Qed.

(** C75: no text, well formed or not, takes the reader outside the tree of the file. *)
Theorem C75_safe s : cil_parser s <> Wild.
Proof. exact (parser_safe s). Qed.
Print Assumptions C75_safe.

Example C75_safe_case : cil_parser [59;59;42;108;109;101;10;41;41;34] = Refused.
Proof. vm_compute. reflexivity. Qed.

(** C75 fails for line marks that are not nested properly.  In
      (a
      ;;* lms 1 f
      )
      (b)
      ;;* lme
    the statement (b) comes after the parenthesis that closes the first statement, is accepted, and becomes a part of the
    first statement. *)
Theorem C75_refuted_line_marks :
  cil_parser [40;97;10; 59;59;42;32;108;109;115;32;49;32;102;10; 41;10; 40;98;41;10; 59;59;42;32;108;109;101;10] =
  Parsed [PList [PName [97]; PList [PName SRC_INFO; PName LMS; PName [49]; PName [102]]; PList [PName [98]]]].
Proof. vm_compute. reflexivity. Qed.
Print Assumptions C75_refuted_line_marks.

(** C75 fails for lines ended by carriage returns alone: in the three lines
      ; QUOTE
      (a)
      ; QUOTE
    (QUOTE for one double quote) the statement is lost, while with newlines it is read. *)
Theorem C75_refuted_carriage_return :
  exists s, cil_parser s = Parsed [] /\
    cil_parser (map (fun c => if c =? 13 then 10 else c) s) = Parsed [PList [PName [97]]].
Proof. exists [59;34;13;40;97;41;13;59;34;13]. vm_compute. auto. Qed.
Print Assumptions C75_refuted_carriage_return.
