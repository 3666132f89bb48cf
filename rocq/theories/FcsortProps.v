(** Property C62: sorting of file contexts. *)
From Verif Require Import Base MlsModel ContextModel LoginModel LoginSpec LoginProofs FcsortModel FcsortSpec FcsortProofs.
From Coq Require Import Sorted Permutation.

(** Texts of the cases. *)
Definition fc_plain : list N := (* "/etc\tc" *) [47;101;116;99; 9; 99].
Definition fc_regex : list N := (* "/e.*\t--\td" *) [47;101;46;42; 9; 45;45; 9; 100].
Definition fc_open : list N := (* "/x\\" : an unpaired backslash at the end *) [47;120;92; 9; 101].

(** The lines of the text are what the function works on: every complete line that is an entry
    gives exactly that entry, no other line gives one. *)
Theorem C62_line : forall line,
  (forall e, is_entry line e -> ~ dangling (e_path e) ->
     exists n, parse_fc_line line = PNode n /\ print_node n = entry_text e)
  /\ ((forall e, ~ is_entry line e) -> parse_fc_line line = PSkip)
  /\ (forall e e', is_entry line e -> is_entry line e' -> e = e').
Proof.
  intros line. split; [|split].
  - intros e H D. exists (node_of e). split; [|reflexivity]. rewrite (entry_parse _ _ H).
    apply make_node_spec. intros [X _]. exact (D X).
  - intros H. destruct (parse_fc_line line) eqn:P; [reflexivity|..];
      destruct (parse_entry line) as [e X]; try congruence; destruct (H e X).
  - intros e e'. apply entry_unique.
Qed.
Print Assumptions C62_line.

Example C62_line_case :
  is_entry (fc_regex ++ [10]) (mkFC [47;101;46;42] (Some [45;45]) [100])
  /\ parse_fc_line ([35] ++ fc_regex ++ [10]) = PSkip /\ parse_fc_line [47;120;32;10] = PSkip.
Proof.
  split; [|split; reflexivity].
  exists [], [9], [45;45;9;100;10], [10]. split; [reflexivity|]. split; [constructor|].
  split; [constructor; [unfold blank; auto|constructor]|]. split; [discriminate|].
  split; [repeat constructor; unfold blank; lia|]. split; [eexists _, _; split; [reflexivity|lia]|].
  split; [repeat constructor; unfold blank; cbn; lia|]. split; [discriminate|]. split; [cbn; unfold blank; auto|].
  right. exists 45, [9]. split; [reflexivity|]. split; [constructor; [unfold blank; auto|constructor]|reflexivity].
Qed.

(** Sorting: nothing lost, nothing added, in order of specificity, stably. *)
Theorem C62_sort : forall buf ls es,
  no_nul buf -> lines_of buf ls -> ended buf -> entries_of ls es ->
  Forall (fun e => ~ dangling (e_path e)) es ->
  exists out, stably_sorted es out /\ fc_sort buf = ROk (flat_map entry_text out ++ [0]).
Proof.
  intros buf ls es _ Hl He Hes F. apply (sort_claim buf ls es Hl He Hes).
  revert F. apply Forall_impl. intros e H [X _]. exact (H X).
Qed.
Print Assumptions C62_sort.

(** Every text has lines and every sequence of lines has entries: the hypotheses only name them. *)
Theorem C62_sort_any : forall buf, no_nul buf -> ended buf ->
  exists ls es, lines_of buf ls /\ entries_of ls es /\
    (Forall (fun e => ~ dangling (e_path e)) es ->
       exists out, stably_sorted es out /\ fc_sort buf = ROk (flat_map entry_text out ++ [0])).
Proof.
  intros buf Hn He. exists (getlines buf).
  destruct (parse_lines buf _ (getlines_lines buf) (or_intror He) [] (S (length buf))) as (es & E & _);
    try (intros []); [lia|].
  exists es. split; [apply getlines_lines|]. split; [exact E|]. intros F.
  apply (C62_sort buf (getlines buf) es); auto. apply getlines_lines.
Qed.
Print Assumptions C62_sort_any.

Example C62_sort_case :
  fc_sort (fc_plain ++ [10] ++ fc_regex ++ [10]) = ROk (fc_regex ++ [10] ++ fc_plain ++ [10; 0]).
Proof. reflexivity. Qed.

(** Sorting the result again does not change it. *)
Theorem C62_idempotent : forall buf text, no_nul buf ->
  fc_sort buf = ROk (text ++ [0]) -> text <> [] -> fc_sort text = ROk (text ++ [0]).
Proof. intros buf text _. apply idem_claim. Qed.
Print Assumptions C62_idempotent.

Example C62_idempotent_case :
  fc_sort (fc_regex ++ [10] ++ fc_plain ++ [10]) = ROk ((fc_regex ++ [10] ++ fc_plain ++ [10]) ++ [0]).
Proof. reflexivity. Qed.

(** Not so for a path without metacharacters that ends in an unpaired backslash: the search for
    metacharacters then reads behind the end of the string. *)
Theorem C62_refuted_backslash : forall buf ls es e,
  no_nul buf -> lines_of buf ls -> ended buf -> entries_of ls es ->
  In e es -> dangling (e_path e) -> literal (e_path e) -> fc_sort buf = RUB.
Proof. intros buf ls es e _. apply ub_claim. Qed.
Print Assumptions C62_refuted_backslash.

Example C62_refuted_backslash_case : fc_sort (fc_open ++ [10]) = RUB.
Proof. reflexivity. Qed.

(** And text after the last line end is dropped silently, even if it is a whole entry. *)
Theorem C62_refuted_last : forall buf tail, no_nul (buf ++ tail) -> ended buf ->
  ~ In 10 tail -> ~ In 13 tail -> ~ In 255 tail -> fc_sort (buf ++ tail) = fc_sort buf.
Proof. intros buf tail _. apply tail_claim. Qed.
Print Assumptions C62_refuted_last.

Example C62_refuted_last_case :
  fc_sort (fc_plain ++ [10] ++ fc_regex) = ROk (fc_plain ++ [10; 0]).
Proof. reflexivity. Qed.
