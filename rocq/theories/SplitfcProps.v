(** C89: the file contexts split. *)
From Verif Require Import Base ContextModel LoginModel RestoreModel HomedirModel HomedirSpec HomedirProofs SplitfcModel SplitfcSpec SplitfcProofs.
From Coq Require Import String.
Open Scope string_scope.
Open Scope list_scope.
Open Scope N_scope.

(** file_contexts gets the lines without a word of the template, the template those with one, in order and as they are. *)
Theorem C89_split : forall lines fc hd, Forall fits lines -> those (fun l => ~ has_word l) lines fc -> those has_word lines hd ->
  split_fc (file_of lines) = (file_of fc, file_of hd).
Proof. exact split_is. Qed.
(** Nothing that is written for users is lost by splitting: from the template they get what they would get from the whole file. *)
Theorem C89_same_for_users : forall valid mls lines u dir, Forall fits lines ->
  write_home_dir valid mls (snd (split_fc (file_of lines))) u = write_home_dir valid mls (file_of lines) u
  /\ write_home_root valid (snd (split_fc (file_of lines))) dir = write_home_root valid (file_of lines) dir
  /\ write_username valid mls (snd (split_fc (file_of lines))) u = write_username valid mls (file_of lines) u
  /\ write_user valid mls (snd (split_fc (file_of lines))) u = write_user valid mls (file_of lines) u.
Proof.
  intros valid mls lines u dir F.
  assert (B : forall w l, one_line w -> (is_prefix w (l ++ [10]) = true <-> begins w l)) by (intros w l O; rewrite is_prefix_begins; apply begins_line; exact O).
  assert (IN : forall l, occurs username_word l \/ occurs userid_word l -> occurs user_word l).
  { intros l [(a & b & ->)|(a & b & ->)]; [exists (a ++ letters "%{"), (letters "NAME}" ++ b)|exists (a ++ letters "%{"), (letters "ID}" ++ b)]; rewrite <- !app_assoc; reflexivity. }
  split; [|split; [|split]].
  - unfold write_home_dir. rewrite (same_template (is_prefix HOME_DIR) (begins home_dir)); [reflexivity|exact F|intros l _; apply (B home_dir); apply not_in_by; reflexivity|].
    intros l _ X. left. exact X.
  - unfold write_home_root. rewrite (same_template (is_prefix HOME_ROOT) (begins home_root)); [reflexivity|exact F|intros l _; apply (B home_root); apply not_in_by; reflexivity|].
    intros l _ X. right. left. exact X.
  - unfold write_username. rewrite (same_template username_pred (fun l => occurs username_word l \/ occurs userid_word l)); [reflexivity|exact F| |].
    + intros l _. rewrite username_is, !occurs_line; [reflexivity|discriminate|apply not_in_by; reflexivity|discriminate|apply not_in_by; reflexivity].
    + intros l _ X. right. right. right. exact (IN l X).
  - unfold write_user. rewrite (same_template user_pred (fun l => occurs user_word l /\ ~ occurs username_word l /\ ~ occurs userid_word l)); [reflexivity|exact F| |].
    + intros l _. rewrite user_is, !occurs_line; [reflexivity|discriminate|apply not_in_by; reflexivity|discriminate|apply not_in_by; reflexivity|discriminate|apply not_in_by; reflexivity].
    + intros l _ (X & _). right. right. right. exact X.
Qed.
Definition f1 := letters "/etc(/.*)? system_u:object_r:etc_t:s0".
Definition f2 := letters "HOME_DIR/.ssh(/.*)? system_u:object_r:ssh_home_t:s0".
Definition f3 := letters "/opt/CONTROLER(/.*)? system_u:object_r:usr_t:s0".
Definition f4 := letters "HOME_DIR/USERDATA system_u:object_r:user_home_t:s0".
Lemma fits_by l : existsb (N.eqb 10) l = false -> existsb (N.eqb 0) l = false -> (N.of_nat (List.length l) + 1 <? 4096) = true -> fits l.
Proof. intros A B C. split; [apply not_in_by; exact A|]. split; [apply not_in_by; exact B|]. apply N.ltb_lt. exact C. Qed.
Example C89_case : Forall fits [f1; f2; f3] /\ those (fun l => ~ has_word l) [f1; f2; f3] [f1] /\ those has_word [f1; f2; f3] [f2; f3].
Proof.
  assert (W1 : ~ has_word f1) by (intros X; apply template_word in X; discriminate).
  assert (W2 : has_word f2) by (apply template_word; reflexivity). assert (W3 : has_word f3) by (apply template_word; reflexivity).
  split; [repeat (constructor; [apply fits_by; reflexivity|]); constructor|]. split.
  - apply those_yes; [exact W1|]. apply those_no; [tauto|]. apply those_no; [tauto|constructor].
  - apply those_no; [exact W1|]. apply those_yes; [exact W2|]. apply those_yes; [exact W3|constructor].
Qed.
Print Assumptions C89_split.
Print Assumptions C89_same_for_users.
(** A line with the letters ROLE (as in CONTROLER) and none of the other words is in neither result: it is moved to the template, and none
    of the four writers takes it, for any user. *)
Theorem C89_refuted_lost : Forall fits [f3] /\ fst (split_fc (file_of [f3])) = []
  /\ forall valid mls u dir, write_home_dir valid mls (snd (split_fc (file_of [f3]))) u = ROk [] /\ write_home_root valid (snd (split_fc (file_of [f3]))) dir = ROk []
     /\ write_username valid mls (snd (split_fc (file_of [f3]))) u = ROk [] /\ write_user valid mls (snd (split_fc (file_of [f3]))) u = ROk [].
Proof.
  assert (F : Forall fits [f3]) by (constructor; [apply fits_by; reflexivity|constructor]).
  assert (W3 : has_word f3) by (apply template_word; reflexivity).
  split; [exact F|]. split.
  - rewrite (C89_split [f3] [] [f3] F); [reflexivity|apply those_no; [tauto|constructor]|apply those_yes; [exact W3|constructor]].
  - intros valid mls u dir. destruct (C89_same_for_users valid mls [f3] u dir F) as (-> & -> & -> & ->). repeat split; reflexivity.
Qed.
(** A line of a home directory with the letters USER in it is also written for the name of the user, with HOME_DIR left in its path. *)
Theorem C89_refuted_twice : exists u out, Forall fits [f4] /\ write_user (fun _ => true) true (snd (split_fc (file_of [f4]))) u = ROk out /\ begins (letters "HOME_DIR/joeDATA") out
  /\ exists out', write_home_dir (fun _ => true) true (snd (split_fc (file_of [f4]))) u = ROk out' /\ begins (letters "/home/joe/USERDATA") out'.
Proof.
  exists (mkUE (letters "joe") (letters "1000") (letters "staff_u") (letters "staff") (letters "/home/joe") (letters "s0") None).
  assert (F : Forall fits [f4]) by (constructor; [apply fits_by; reflexivity|constructor]).
  eexists. split; [exact F|]. split; [rewrite (proj2 (proj2 (proj2 (C89_same_for_users _ _ [f4] _ [] F)))); reflexivity|]. split; [apply is_prefix_begins; reflexivity|].
  eexists. split; [rewrite (proj1 (C89_same_for_users _ _ [f4] _ [] F)); reflexivity|]. apply is_prefix_begins. reflexivity.
Qed.
Print Assumptions C89_refuted_lost.
Print Assumptions C89_refuted_twice.
(** A line that does not fit the buffer is read in pieces that are sorted one by one: the end of a home directory's line lands in file_contexts. *)
Definition f5 := letters "HOME_DIR/" ++ List.repeat 97 (N.to_nat 4100) ++ letters " system_u:object_r:user_home_t:s0".
Theorem C89_refuted_long : has_word f5 /\ one_line f5 /\ ~ In 0 f5 /\ exists rest, fst (split_fc (file_of [f5])) = rest /\ begins (letters "aaa") rest /\ occurs (letters " system_u:object_r:user_home_t:s0") rest.
Proof.
  split; [apply template_word; vm_compute; reflexivity|]. split; [apply not_in_by; vm_compute; reflexivity|]. split; [apply not_in_by; vm_compute; reflexivity|].
  eexists. split; [vm_compute; reflexivity|]. split; [apply is_prefix_begins; reflexivity|]. exists (List.repeat 97 14), [10]. reflexivity.
Qed.
Print Assumptions C89_refuted_long.
