(** Lemmas for C89. *)
From Verif Require Import Base ContextModel ContextProofs LoginModel RestoreModel RestoreProofs HomedirModel HomedirSpec HomedirProofs SplitfcModel SplitfcSpec.
From Verif Require RestoreSpec.

Lemma path_max : PATH_MAX = Z.to_nat 4096.
Proof. reflexivity. Qed.
Global Opaque PATH_MAX.
Lemma split_pieces ls : Forall fits ls -> pieces (length (file_of ls)) (PATH_MAX - 1) (file_of ls) = map (fun l => l ++ [10]) ls.
Proof.
  intros F. assert (E : file_of ls = RestoreSpec.text_lines ls) by (unfold file_of, RestoreSpec.text_lines; rewrite flat_map_concat_map; reflexivity).
  rewrite E. apply pieces_lines; [|lia]. revert F. apply Forall_impl. intros l (A & B & C). split; [exact A|]. split; [exact B|]. rewrite path_max. lia.
Qed.
Lemma template_word l : for_template (l ++ [10]) = true <-> has_word l.
Proof.
  unfold for_template, has_word. change HOME_DIR with home_dir. change HOME_ROOT with home_root. change ROLE with role_word. change USER with user_word.
  rewrite !orb_true_iff, !is_prefix_begins, !begins_line by (apply not_in_by; reflexivity).
  rewrite <- (occurs_line role_word l), <- (occurs_line user_word l), <- !strstr_occurs; [|discriminate|apply not_in_by; reflexivity|discriminate|apply not_in_by; reflexivity].
  assert (X : forall o : option (list N * list N), match o with Some _ => true | None => false end = true <-> exists p, o = Some p).
  { intros [p|]; split; [exists p; reflexivity|reflexivity|discriminate|intros (p & E); discriminate]. }
  rewrite !X. tauto.
Qed.
Lemma split_is ls fc hd : Forall fits ls -> those (fun l => ~ has_word l) ls fc -> those has_word ls hd -> split_fc (file_of ls) = (file_of fc, file_of hd).
Proof.
  intros F A B. unfold split_fc. rewrite split_pieces by exact F. revert fc hd A B. induction F as [|l ls (O & NZ & L) F IH]; intros fc hd A B.
  - inversion A; inversion B; subst. reflexivity.
  - cbn [map split_loop]. assert (C : cstr (l ++ [10]) = l ++ [10]) by (apply cstr_id; rewrite in_app_iff; cbn; intuition discriminate). rewrite C.
    pose proof (template_word l) as W. inversion A as [|? ? fc' NW A'|? ? fc' NW A']; subst; inversion B as [|? ? hd' W' B'|? ? hd' W' B']; subst.
    + contradiction.
    + rewrite (IH fc' hd A' B'). destruct (for_template (l ++ [10])); [exfalso; apply NW, W; reflexivity|]. reflexivity.
    + rewrite (IH fc hd' A' B'). rewrite (proj2 W W'). reflexivity.
    + contradiction.
Qed.
Lemma those_exists pred P ls : (forall l, pred (l ++ [10]) = true <-> P l) -> exists o, those P ls o.
Proof.
  intros H. induction ls as [|l ls (o & IH)]; [exists []; constructor|]. destruct (pred (l ++ [10])) eqn:E.
  - exists (l :: o). constructor; [apply H; exact E|exact IH].
  - exists o. apply those_no; [intros X; apply H in X; congruence|exact IH].
Qed.
Lemma words_split ls : Forall fits ls -> exists fc hd, those (fun l => ~ has_word l) ls fc /\ those has_word ls hd /\ split_fc (file_of ls) = (file_of fc, file_of hd).
Proof.
  intros F. destruct (those_exists for_template has_word ls template_word) as (hd & B).
  destruct (those_exists (fun l => negb (for_template l)) (fun l => ~ has_word l) ls) as (fc & A).
  { intros l. rewrite negb_true_iff, <- not_true_iff_false, template_word. reflexivity. }
  exists fc, hd. split; [exact A|]. split; [exact B|]. apply split_is; assumption.
Qed.
Lemma those_twice (P Q : list N -> Prop) ls hd o : (forall l, Q l -> P l) -> those P ls hd -> those Q hd o -> those Q ls o.
Proof.
  intros I A. revert o. induction A as [|l ls hd Y A IH|l ls hd Y A IH]; intros o B; [exact B| |].
  - inversion B; subst; constructor; auto.
  - apply those_no; [intros X; apply Y, I, X|]. apply IH. exact B.
Qed.
Lemma those_in P ls o : those P ls o -> forall l, In l o -> In l ls.
Proof. induction 1 as [|l ls o Y T IH|l ls o Y T IH]; intros x X; [exact X|destruct X as [-> |X]; [left; reflexivity|right; auto]|right; auto]. Qed.
Lemma same_template pred Q ls : Forall fits ls -> (forall l, one_line l -> (pred (l ++ [10]) = true <-> Q l)) -> (forall l, one_line l -> Q l -> has_word l) ->
  make_template (snd (split_fc (file_of ls))) pred = make_template (file_of ls) pred.
Proof.
  intros F H I. destruct (words_split ls F) as (fc & hd & A & B & ->). cbn [snd].
  assert (O : Forall one_line ls) by (revert F; apply Forall_impl; intros l X; apply X).
  assert (OH : Forall one_line hd) by (apply Forall_forall; intros l X; rewrite Forall_forall in O; apply O, (those_in _ _ _ B), X).
  set (Q' := fun l => one_line l /\ Q l).
  assert (HQ : forall l, one_line l -> (pred (l ++ [10]) = true <-> Q' l)) by (intros l X; rewrite (H l X); unfold Q'; tauto).
  assert (EX : forall ks, Forall one_line ks -> exists o, those Q' ks o).
  { induction 1 as [|l ks X FK (o & IH)]; [exists []; constructor|]. destruct (pred (l ++ [10])) eqn:E.
    - exists (l :: o). constructor; [apply HQ; assumption|exact IH].
    - exists o. apply those_no; [intros Y; apply (HQ l X) in Y; congruence|exact IH]. }
  destruct (EX hd OH) as (o & T). rewrite (template_is Q' pred hd o OH HQ T).
  rewrite (template_is Q' pred ls o O HQ); [reflexivity|]. apply (those_twice has_word Q' ls hd); [intros l [X Y]; exact (I l X Y)|exact B|exact T].
Qed.
