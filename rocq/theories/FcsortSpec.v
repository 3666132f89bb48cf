(** Specification of the sorting of file contexts, independent of the model. Blanks, lines and
    "first such" are those of LoginSpec. *)
From Verif Require Import Base LoginSpec.
From Coq Require Import Sorted Permutation.

(** An entry of a file-contexts text. *)
Record fc_entry := mkFC { e_path : list N; e_type : option (list N); e_context : list N }.

(** A complete line: blanks, path, blanks, maybe a type ('-' and one more character), context, and
    nothing or a blank. A path does not start with '#'; a context starting with '-' is read as a
    type. *)
Definition is_entry (line : list N) (e : fc_entry) : Prop :=
  exists ws ws1 body rest,
    line = ws ++ e_path e ++ ws1 ++ body /\ Forall blank ws /\ Forall blank ws1 /\ ws1 <> [] /\
    no_blank (e_path e) /\ (exists c p, e_path e = c :: p /\ c <> 35) /\
    no_blank (e_context e) /\ e_context e <> [] /\ stops rest /\
    ((e_type e = None /\ body = e_context e ++ rest /\ hd 0 (e_context e) <> 45)
     \/ (exists x ws2, e_type e = Some [45; x] /\ Forall blank ws2 /\
         body = 45 :: x :: ws2 ++ e_context e ++ rest)).

(** The entries of a sequence of lines, in order. *)
Inductive entries_of : list (list N) -> list fc_entry -> Prop :=
| ents_nil : entries_of [] []
| ents_cons l ls e es : is_entry l e -> entries_of ls es -> entries_of (l :: ls) (e :: es)
| ents_skip l ls es : (forall e, ~ is_entry l e) -> entries_of ls es -> entries_of (l :: ls) es.

(** A path as a sequence of characters, each plain or escaped by a backslash; a final unpaired
    backslash counts for nothing. *)
Inductive item := Plain (c : N) | Escaped (c : N).
Fixpoint items (p : list N) : list item :=
  match p with
  | [] => []
  | c :: t =>
      if N.eq_dec c 92
      then match t with [] => [] | d :: t' => Escaped d :: items t' end
      else Plain c :: items t
  end.

(** The path ends in an unpaired backslash. *)
Inductive dangling : list N -> Prop :=
| dang_end : dangling [92]
| dang_esc d t : dangling t -> dangling (92 :: d :: t)
| dang_plain c t : c <> 92 -> dangling t -> dangling (c :: t).

(** Metacharacters of regular expressions: . ^ $ ? * + | [ ( { *)
Definition meta (i : item) : Prop :=
  match i with
  | Plain c => In c [46; 94; 36; 63; 42; 43; 124; 91; 40; 123]
  | Escaped _ => False
  end.

(** The path has a metacharacter after exactly [n] other characters. *)
Definition stem (p : list N) (n : nat) : Prop :=
  exists a i b, items p = a ++ i :: b /\ meta i /\ Forall (fun x => ~ meta x) a /\ length a = n.
Definition literal (p : list N) : Prop := Forall (fun x => ~ meta x) (items p).

Definition typed (e : fc_entry) : Prop := e_type e <> None.
Definition same_stem (p q : list N) : Prop :=
  (literal p /\ literal q) \/ (exists n, stem p n /\ stem q n).

(** Entry [a] is less specific than [b]. *)
Definition less_specific (a b : fc_entry) : Prop :=
  (~ literal (e_path a) /\ literal (e_path b))
  \/ (exists n m, stem (e_path a) n /\ stem (e_path b) m /\ (n < m)%nat)
  \/ (same_stem (e_path a) (e_path b) /\ (length (items (e_path a)) < length (items (e_path b)))%nat)
  \/ (same_stem (e_path a) (e_path b) /\ length (items (e_path a)) = length (items (e_path b)) /\
      ~ typed a /\ typed b).
Definition equally_specific (a b : fc_entry) : Prop := ~ less_specific a b /\ ~ less_specific b a.

(** [sub] is the subsequence of [l] of the elements with a property. *)
Inductive subseq {A} (P : A -> Prop) : list A -> list A -> Prop :=
| sub_nil : subseq P [] []
| sub_in x l s : P x -> subseq P l s -> subseq P (x :: l) (x :: s)
| sub_out x l s : ~ P x -> subseq P l s -> subseq P (x :: l) s.

(** [out] is [l] stably sorted: the same entries, no entry before a less specific one, and equally
    specific entries in their original order. *)
Definition stably_sorted (l out : list fc_entry) : Prop :=
  Permutation l out /\ StronglySorted (fun a b => ~ less_specific b a) out /\
  forall e s, In e l -> subseq (equally_specific e) l s -> subseq (equally_specific e) out s.

(** An entry as text. *)
Definition entry_text (e : fc_entry) : list N :=
  e_path e ++ 9 :: (match e_type e with Some t => t ++ [9] | None => [] end) ++ e_context e ++ [10].

(** A text whose last line is ended by a newline. *)
Definition ended (buf : list N) : Prop := exists b, buf = b ++ [10].
