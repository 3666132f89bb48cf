(** C86: the file contexts written for home directories. *)
From Verif Require Import Base MlsModel ContextModel LoginModel HomedirModel HomedirSpec HomedirProofs.
From Coq Require Import String Ascii.
Open Scope string_scope.
Open Scope list_scope.
Open Scope N_scope.

(** Replacing a word: the outcome is determined and always there; if it fits into memory it is what is returned. Nothing is written outside
    of the buffer and the assertion at the end holds (they would give [RUB]). *)
Theorem C86_replace : forall w r s lim, w <> [] -> short s ->
  exists out, replaced w r (limit lim) s out /\ (forall out', replaced w r (limit lim) s out' -> out' = out)
    /\ (short out -> str_replace w r s lim = ROk out).
Proof.
  intros w r s lim W S. destruct (replace_is w r s lim W S) as (out & R & H). exists out. split; [exact R|]. split; [|exact H].
  intros o R'. exact (replaced_unique _ _ _ _ _ R' _ R).
Qed.
Example C86_replace_case : letters "aa" <> [] /\ short (letters "baaab aa") /\ replaced (letters "aa") (letters "aab") None (letters "baaab aa") (letters "baabab aab")
  /\ str_replace (letters "aa") (letters "aab") (letters "baaab aa") 0 = ROk (letters "baabab aab")
  /\ str_replace (letters "aa") (letters "") (letters "baaab aa") 1 = ROk (letters "bab aa").
Proof.
  split; [discriminate|]. split; [apply short_by; cbn; lia|]. split; [|split; reflexivity].
  apply (rep_all (letters "aa") (letters "aab") _ (letters "b") (letters "ab aa") (letters "ab aab")); [apply at_by; reflexivity|].
  apply (once_by _ _ _ (letters "ab ") []); reflexivity.
Qed.
Print Assumptions C86_replace.

(** The lines for a home directory: those of the template that begin with HOME_DIR, in order, each with the home put in for HOME_DIR and then
    the prefix for ROLE, and the context with the SELinux user, level and role of the user. A line whose context the policy does not know is
    left out. *)
Theorem C86_home_dir : forall valid mls lines tpl outs u, Forall one_line lines -> those (begins home_dir) lines tpl ->
  Forall2 (line_written valid mls (ue_sename u) (ue_level u) (ue_role u) [(home_dir, ue_home u); (role_word, ue_prefix u)]) tpl outs ->
  write_home_dir valid mls (file_of lines) u = ROk (List.concat outs).
Proof.
  intros valid mls lines tpl outs u O T F. unfold write_home_dir.
  rewrite (template_is (begins home_dir) (is_prefix HOME_DIR) lines tpl O); [apply contexts_are; exact F| |exact T].
  intros l _. change HOME_DIR with home_dir. rewrite is_prefix_begins. apply begins_line. apply not_in_by. reflexivity.
Qed.
(** The lines for the parents of home directories: the context is left as it is. *)
Theorem C86_home_root : forall valid lines tpl outs dir, Forall one_line lines -> those (begins home_root) lines tpl ->
  Forall2 (root_written valid [(home_root, dir)]) tpl outs -> write_home_root valid (file_of lines) dir = ROk (List.concat outs).
Proof.
  intros valid lines tpl outs dir O T F. unfold write_home_root.
  rewrite (template_is (begins home_root) (is_prefix HOME_ROOT) lines tpl O); [apply replacements_are; exact F| |exact T].
  intros l _. change HOME_ROOT with home_root. rewrite is_prefix_begins. apply begins_line. apply not_in_by. reflexivity.
Qed.
(** The lines for the names of users: those with %{USERNAME} or %{USERID} anywhere, and those with USER but neither of them. *)
Theorem C86_username : forall valid mls lines tpl outs u, Forall one_line lines ->
  those (fun l => occurs username_word l \/ occurs userid_word l) lines tpl ->
  Forall2 (line_written valid mls (ue_sename u) (ue_level u) (ue_role u)
    [(username_word, ue_name u); (userid_word, ue_uid u); (role_word, ue_prefix u)]) tpl outs ->
  write_username valid mls (file_of lines) u = ROk (List.concat outs).
Proof.
  intros valid mls lines tpl outs u O T F. unfold write_username.
  rewrite (template_is (fun l => occurs username_word l \/ occurs userid_word l) username_pred lines tpl O); [apply contexts_are; exact F| |exact T].
  intros l _. rewrite username_is, !occurs_line; [reflexivity|discriminate|apply not_in_by; reflexivity|discriminate|apply not_in_by; reflexivity].
Qed.
Theorem C86_user : forall valid mls lines tpl outs u, Forall one_line lines ->
  those (fun l => occurs user_word l /\ ~ occurs username_word l /\ ~ occurs userid_word l) lines tpl ->
  Forall2 (line_written valid mls (ue_sename u) (ue_level u) (ue_role u) [(user_word, ue_name u); (role_word, ue_prefix u)]) tpl outs ->
  write_user valid mls (file_of lines) u = ROk (List.concat outs).
Proof.
  intros valid mls lines tpl outs u O T F. unfold write_user.
  rewrite (template_is (fun l => occurs user_word l /\ ~ occurs username_word l /\ ~ occurs userid_word l) user_pred lines tpl O); [apply contexts_are; exact F| |exact T].
  intros l _. rewrite user_is, !occurs_line; [reflexivity|discriminate|apply not_in_by; reflexivity|discriminate|apply not_in_by; reflexivity
    |discriminate|apply not_in_by; reflexivity].
Qed.
(** A template of three lines, one of them for home directories with the word ROLE in its type and one with no context. *)
Definition l1 := letters "HOME_DIR/.ssh(/.*)? system_u:object_r:ROLE_ssh_t:s0".
Definition l2 := letters "HOME_ROOT -d system_u:object_r:home_root_t:s0".
Definition l3 := letters "HOME_DIR/lost <<none>>".
Definition joe := mkUE (letters "joe") (letters "1000") (letters "staff_u") (letters "staff") (letters "/home/joe") (letters "s0-s1") (Some (letters "staff_r")).
Definition knows (c : crec) : bool := str_eqb (cr_type c) (letters "staff_ssh_t").
Definition o1 := letters "/home/joe/.ssh(/.*)? staff_u:staff_r:staff_ssh_t:s0-s1" ++ [10].
Definition o3 := letters "/home/joe/lost <<none>>" ++ [10].
Example C86_home_dir_case : Forall one_line [l1; l2; l3] /\ those (begins home_dir) [l1; l2; l3] [l1; l3]
  /\ Forall2 (line_written knows true (ue_sename joe) (ue_level joe) (ue_role joe) [(home_dir, ue_home joe); (role_word, ue_prefix joe)]) [l1; l3] [o1; o3]
  /\ write_home_dir knows true (file_of [l1; l2; l3]) joe = ROk (o1 ++ o3).
Proof.
  split; [repeat constructor; apply not_in_by; reflexivity|]. split.
  { apply those_yes; [apply is_prefix_begins; reflexivity|]. apply those_no; [intros X; apply is_prefix_begins in X; discriminate|].
    apply those_yes; [apply is_prefix_begins; reflexivity|constructor]. }
  split; [|reflexivity]. constructor; [|constructor; [|constructor]].
  - apply (lw_context _ _ _ _ _ _ l1 (letters "/home/joe/.ssh(/.*)? system_u:object_r:staff_ssh_t:s0") (letters "/home/joe/.ssh(/.*)? ")
      (letters "system_u") (letters "object_r") (letters "staff_ssh_t") (Some (letters "s0")) (letters "staff_u:staff_r:staff_ssh_t:s0-s1")).
    + apply (turn_cons _ _ _ _ (letters "/home/joe/.ssh(/.*)? system_u:object_r:ROLE_ssh_t:s0")); [discriminate|apply short_by; cbn; lia| |apply short_by; cbn; lia|].
      { apply (once_by _ _ _ [] (letters "/.ssh(/.*)? system_u:object_r:ROLE_ssh_t:s0")); reflexivity. }
      apply (turn_cons _ _ _ _ (letters "/home/joe/.ssh(/.*)? system_u:object_r:staff_ssh_t:s0")); [discriminate|apply short_by; cbn; lia| |apply short_by; cbn; lia|constructor].
      apply (once_by _ _ _ (letters "/home/joe/.ssh(/.*)? system_u:object_r:") (letters "_ssh_t:s0")); reflexivity.
    + apply short_by. cbn. lia.
    + split; [reflexivity|]. split; [exists (letters "/home/joe/.ssh(/.*)?"), 32; split; [reflexivity|left; reflexivity]|].
      split; [apply no_blank_by; reflexivity|]. do 3 (split; [apply not_in_by; reflexivity|]). apply at_by. reflexivity.
    + reflexivity.
    + apply no_blank_by. reflexivity.
    + apply not_in_by. reflexivity.
    + apply not_in_by. reflexivity.
    + apply short_by. cbn. lia.
    + reflexivity.
  - apply (lw_none _ _ _ _ _ _ l3 (letters "/home/joe/lost ")); [|exists (letters "/home/joe/lost"), 32; split; [reflexivity|left; reflexivity]].
    apply (turn_cons _ _ _ _ (letters "/home/joe/lost <<none>>")); [discriminate|apply short_by; cbn; lia| |apply short_by; cbn; lia|].
    { apply (once_by _ _ _ [] (letters "/lost <<none>>")); reflexivity. }
    apply (turn_cons _ _ _ _ (letters "/home/joe/lost <<none>>")); [discriminate|apply short_by; cbn; lia| |apply short_by; cbn; lia|constructor].
    apply rep_nowhere, nowhere_by. reflexivity.
Qed.
Example C86_home_root_case : those (begins home_root) [l1; l2; l3] [l2]
  /\ Forall2 (root_written (fun _ => true) [(home_root, letters "/home")]) [l2] [letters "/home -d system_u:object_r:home_root_t:s0" ++ [10]].
Proof.
  split.
  { apply those_no; [intros X; apply is_prefix_begins in X; discriminate|]. apply those_yes; [apply is_prefix_begins; reflexivity|].
    apply those_no; [intros X; apply is_prefix_begins in X; discriminate|constructor]. }
  constructor; [|constructor].
  apply (rw_context _ _ l2 (letters "/home -d system_u:object_r:home_root_t:s0") (letters "/home -d ") (letters "system_u") (letters "object_r") (letters "home_root_t") (Some (letters "s0"))).
  - apply (turn_cons _ _ _ _ (letters "/home -d system_u:object_r:home_root_t:s0")); [discriminate|apply short_by; cbn; lia| |apply short_by; cbn; lia|constructor].
    apply (once_by _ _ _ [] (letters " -d system_u:object_r:home_root_t:s0")); reflexivity.
  - split; [reflexivity|]. split; [exists (letters "/home -d"), 32; split; [reflexivity|left; reflexivity]|].
    split; [apply no_blank_by; reflexivity|]. do 3 (split; [apply not_in_by; reflexivity|]). apply at_by. reflexivity.
  - reflexivity.
Qed.
Definition l4 := letters "/tmp/%{USERNAME}-%{USERID} system_u:object_r:ROLE_ssh_t:s0".
Definition l5 := letters "/tmp/USER <<none>>".
Example C86_username_case : Forall one_line [l1; l4; l5]
  /\ those (fun l => occurs username_word l \/ occurs userid_word l) [l1; l4; l5] [l4]
  /\ those (fun l => occurs user_word l /\ ~ occurs username_word l /\ ~ occurs userid_word l) [l1; l4; l5] [l5]
  /\ Forall2 (line_written knows true (ue_sename joe) (ue_level joe) (ue_role joe) [(user_word, ue_name joe); (role_word, ue_prefix joe)]) [l5] [letters "/tmp/joe <<none>>" ++ [10]]
  /\ write_username knows true (file_of [l1; l4; l5]) joe = ROk (letters "/tmp/joe-1000 staff_u:staff_r:staff_ssh_t:s0-s1" ++ [10])
  /\ write_user knows true (file_of [l1; l4; l5]) joe = ROk (letters "/tmp/joe <<none>>" ++ [10]).
Proof.
  split; [repeat constructor; apply not_in_by; reflexivity|]. split.
  { apply those_no; [intros X; apply username_is in X; discriminate|]. apply those_yes; [apply username_is; reflexivity|].
    apply those_no; [intros X; apply username_is in X; discriminate|constructor]. }
  split.
  { apply those_no; [intros X; apply user_is in X; discriminate|]. apply those_no; [intros X; apply user_is in X; discriminate|].
    apply those_yes; [apply user_is; reflexivity|constructor]. }
  split; [|split; reflexivity]. constructor; [|constructor].
  apply (lw_none _ _ _ _ _ _ l5 (letters "/tmp/joe ")); [|exists (letters "/tmp/joe"), 32; split; [reflexivity|left; reflexivity]].
  apply (turn_cons _ _ _ _ (letters "/tmp/joe <<none>>")); [discriminate|apply short_by; cbn; lia| |apply short_by; cbn; lia|].
  { apply (once_by _ _ _ (letters "/tmp/") (letters " <<none>>")); reflexivity. }
  apply (turn_cons _ _ _ _ (letters "/tmp/joe <<none>>")); [discriminate|apply short_by; cbn; lia| |apply short_by; cbn; lia|constructor].
  apply rep_nowhere, nowhere_by. reflexivity.
Qed.
Print Assumptions C86_home_dir.
Print Assumptions C86_home_root.
Print Assumptions C86_username.
Print Assumptions C86_user.

(** A line whose last field is neither a context nor <<none>> fails the generation, whatever is behind it. *)
Theorem C86_all_or_nothing : forall valid mls lines before outs line after u head field, Forall one_line lines ->
  those (begins home_dir) lines (before ++ line :: after) ->
  Forall2 (line_written valid mls (ue_sename u) (ue_level u) (ue_role u) [(home_dir, ue_home u); (role_word, ue_prefix u)]) before outs ->
  in_turn [(home_dir, ue_home u); (role_word, ue_prefix u)] line (head ++ field) -> ends_blank head -> malformed field ->
  write_home_dir valid mls (file_of lines) u = RErr.
Proof.
  intros valid mls lines before outs line after u head field O T F IT E M. unfold write_home_dir.
  rewrite (template_is (begins home_dir) (is_prefix HOME_DIR) lines (before ++ line :: after) O); [|intros l _; change HOME_DIR with home_dir; rewrite is_prefix_begins; apply begins_line; apply not_in_by; reflexivity|exact T].
  apply (malformed_file valid mls _ u before outs); [exact F|]. exact (malformed_line valid mls _ u line head field IT E M).
Qed.
(** The text put in first is subject to the later replacements: the home of a user called ROLEX is not the one labelled. *)
Theorem C86_refuted_home : exists valid mls lines u out, Forall one_line lines
  /\ write_home_dir valid mls (file_of lines) u = ROk out /\ ue_home u = letters "/home/ROLEX" /\ begins (letters "/home/staffX") out.
Proof.
  exists (fun _ => true), true, [l1], (mkUE (letters "ROLEX") (letters "1000") (letters "staff_u") (letters "staff") (letters "/home/ROLEX") (letters "s0") None).
  eexists. split; [repeat constructor; apply not_in_by; reflexivity|]. split; [reflexivity|]. split; [reflexivity|]. apply is_prefix_begins. reflexivity.
Qed.
(** A line without a context and with a blank at its end makes the writing fail. *)
Theorem C86_refuted_blank : exists valid mls u, write_home_dir valid mls (file_of [l1; l3]) u = ROk (o1 ++ o3)
  /\ write_home_dir valid mls (file_of [l1; l3 ++ [32]]) u = RErr.
Proof. exists knows, true, joe. split; reflexivity. Qed.
Definition l6 := letters "HOME_DIR/x bin_t".
Example C86_all_or_nothing_case : those (begins home_dir) [l2; l6] ([] ++ l6 :: [])
  /\ in_turn [(home_dir, ue_home joe); (role_word, ue_prefix joe)] l6 (letters "/home/joe/x " ++ letters "bin_t") /\ ends_blank (letters "/home/joe/x ") /\ malformed (letters "bin_t").
Proof.
  split; [apply those_no; [intros X; apply is_prefix_begins in X; discriminate|]; apply those_yes; [apply is_prefix_begins; reflexivity|constructor]|].
  split; [|split; [exists (letters "/home/joe/x"), 32; split; [reflexivity|left; reflexivity]|]].
  - apply (turn_cons _ _ _ _ (letters "/home/joe/x bin_t")); [discriminate|apply short_by; cbn; lia| |apply short_by; cbn; lia|].
    { apply (once_by _ _ _ [] (letters "/x bin_t")); reflexivity. }
    apply (turn_cons _ _ _ _ (letters "/home/joe/x bin_t")); [discriminate|apply short_by; cbn; lia| |apply short_by; cbn; lia|constructor].
    apply rep_nowhere, nowhere_by. reflexivity.
  - split; [discriminate|]. split; [apply no_blank_by; reflexivity|]. split; [discriminate|]. intros u r t E. apply (not_in_by 58 (letters "bin_t")); [reflexivity|].
    rewrite E. apply in_or_app. right. left. reflexivity.
Qed.
(** A path that contains the text of its own context gets the new context in the path, not behind it. *)
Theorem C86_refuted_path : exists valid mls u line out, begins home_dir line /\ one_line line
  /\ write_home_dir valid mls (file_of [line]) u = ROk out /\ ~ occurs (32 :: ue_sename u) out.
Proof.
  exists (fun _ => true), true, joe, (letters "HOME_DIR/a:b:c a:b:c"). eexists. split; [apply is_prefix_begins; reflexivity|].
  split; [apply not_in_by; reflexivity|]. split; [reflexivity|]. intros X. apply strstr_occurs in X. destruct X as (p & X). discriminate.
Qed.
Print Assumptions C86_all_or_nothing.
Print Assumptions C86_refuted_home.
Print Assumptions C86_refuted_blank.
Print Assumptions C86_refuted_path.
