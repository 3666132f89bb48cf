(** C40 and C41: what a commit leaves behind. *)
From Verif Require Import Base StoreModel StoreSpec StoreProofs StoreMoveProofs StoreDemo.

(** C40. Wherever the machine stops, the active directory is completely the old or completely the new one, or it is absent and both
    lie beside it under their own names; and each installed file is completely the old or the new one. Partial: in the window
    the store has no active directory, and the installed files may be a mixture (both below); one file system is assumed. *)
Theorem C40_crash_partial : forall o nohome reload save w0 old d r w' l, one_filesystem o -> w_active w0 = Some old -> w_tmp w0 = Some d ->
  exec (commit_sandbox o nohome reload save) w0 = (r, w', l) ->
  exists new k, numbered d new k /\ forall w, In w l -> whole old new w /\ each_whole w0 w.
Proof.
  intros o nohome reload save w0 old d r w' l NX A T E. exists (new_of d), (next d). split; [apply numbered_new|]. apply (commit_exec o nohome reload save w0 old d r w' l NX A T E).
Qed.
Print Assumptions C40_crash_partial.

(** C40. A commit that reports success made the sandbox the active directory, with the commit number it reports; the backup is
    there exactly if it is to be kept; if no call failed, all that was prepared is installed and, if asked for, loaded. *)
Theorem C40_committed : forall o nohome reload save w0 old d k w' l, one_filesystem o -> w_active w0 = Some old -> w_tmp w0 = Some d ->
  exec (commit_sandbox o nohome reload save) w0 = (Committed k, w', l) ->
  exists new, numbered d new k /\ w_active w' = Some new /\ w_prev w' = (if save then Some old else None) /\ each_whole w0 w' /\
    ((forall n, o n = SOk) -> installed nohome w0 w') /\ w_loaded w' = (if reload then w_final w' kernel_file else w_loaded w0).
Proof.
  intros o nohome reload save w0 old d k w' l NX A T E. destruct (commit_exec o nohome reload save w0 old d _ w' l NX A T E) as [(n' & H) _]. cbn [final_state] in H. rewrite T in H.
  destruct H as (H1 & -> & H2 & H3 & H4 & H5). exists (new_of d). split; [apply numbered_new|]. split; [exact H1|]. split; [exact H5|]. split; [exact H2|]. split; [|exact H4].
  intros OK. apply H3. intros (j & _ & Z). apply Z, OK.
Qed.
Print Assumptions C40_committed.

(** C40. The same holds where directories have to be copied from one file system to another, one file at a time: if success is
    reported the sandbox is the active directory and is gone from its old place, and the backup is a full copy. *)
Theorem C40_anywhere : forall o nohome reload save w0 old d k w' l, w_active w0 = Some old -> w_tmp w0 = Some d -> NoDup (map fst old) -> NoDup (map fst d) ->
  exec (commit_sandbox o nohome reload save) w0 = (Committed k, w', l) ->
  exists new, numbered d new k /\ w_active w' = Some new /\ w_tmp w' = None /\ w_prev w' = (if save then Some old else None) /\ each_whole w0 w' /\
    w_loaded w' = (if reload then w_final w' kernel_file else w_loaded w0).
Proof. exact commit_anywhere. Qed.
Print Assumptions C40_anywhere.
(** The second move of the example is across file systems. *)
Example C40_anywhere_case : NoDup (map fst old) /\ NoDup (map fst sandbox) /\ w_active start = Some old /\ w_tmp start = Some sandbox /\
  result (exec (commit_sandbox (across 13 []) false true true) start) = Committed 5 /\ across 13 [] 13 = SXdev.
Proof. split; [repeat constructor; cbn; intuition discriminate|]. split; [repeat constructor; cbn; intuition discriminate|]. repeat split; vm_compute; reflexivity. Qed.

(** C40. Preparing a sandbox never changes anything but the sandbox, wherever the machine stops; if it reports success the sandbox
    is a full copy of the active directory. *)
Theorem C40_sandbox : forall o w0 c b w' l, w_active w0 = Some c -> NoDup (map fst c) -> exec (make_sandbox o) w0 = (b, w', l) ->
  (b = true -> w_tmp w' = Some c) /\
  forall w, In w l -> w_active w = w_active w0 /\ w_prev w = w_prev w0 /\ untouched w0 w /\ w_ftmp w = w_ftmp w0.
Proof.
  intros o w0 c b w' l A ND E. destruct (sandbox_exec o w0 c b w' l A ND E) as [H1 H2]. split; [exact H1|]. intros w I. destruct (H2 w I) as (d & ->).
  split; [reflexivity|]. split; [reflexivity|]. split; [split; reflexivity|reflexivity].
Qed.
Print Assumptions C40_sandbox.
Example C40_sandbox_case : w_active start = Some old /\ result (exec (make_sandbox never) start) = true /\ w_tmp (after (exec (make_sandbox never) start)) = Some old /\
  result (exec (make_sandbox (fails [9%nat])) start) = false /\ length (passed (exec (make_sandbox never) start)) = 9%nat.
Proof. repeat split; vm_compute; reflexivity. Qed.

(** Without a failing call a commit does succeed. *)
Theorem C40_succeeds : forall o nohome reload save w0 old d r w' l, (forall n, o n = SOk) -> w_active w0 = Some old -> w_tmp w0 = Some d ->
  exec (commit_sandbox o nohome reload save) w0 = (r, w', l) -> exists k, r = Committed k.
Proof.
  intros o nohome reload save w0 old d r w' l OK A T E. assert (NX : one_filesystem o) by (intros n Z; rewrite OK in Z; discriminate).
  destruct (commit_exec o nohome reload save w0 old d r w' l NX A T E) as [(n' & H) _].
  assert (NF : forall a b, ~ fail o a b) by (intros a b (j & _ & Z); apply Z, OK).
  destruct r as [k| | |again| |]; cbn [final_state] in H; [exists k; reflexivity|..]; exfalso.
  - destruct H as (_ & _ & F). exact (NF _ _ F).
  - destruct H as (_ & _ & F). exact (NF _ _ F).
  - destruct H as (_ & _ & _ & F). exact (NF _ _ F).
  - destruct H as (_ & k1 & _ & _ & Z & _). apply Z, OK.
  - destruct H as (_ & _ & _ & _ & F). exact (NF _ _ F).
Qed.
Print Assumptions C40_succeeds.

(** The commit of the example succeeds, passes through fourteen further states, and ends with the new directory. *)
Example C40_case : one_filesystem never /\ w_active start = Some old /\ w_tmp start = Some sandbox /\ numbered sandbox new 5 /\
  result (exec (commit_sandbox never false true false) start) = Committed 5 /\ w_active (after (exec (commit_sandbox never false true false) start)) = Some new /\
  w_loaded (after (exec (commit_sandbox never false true false) start)) = Some 701 /\ length (passed (exec (commit_sandbox never false true false) start)) = 15%nat.
Proof.
  split; [discriminate|]. do 2 (split; [reflexivity|]). split; [exact (numbered_new sandbox)|]. repeat split; vm_compute; reflexivity.
Qed.

(** C40 fails in its plain form: if the machine stops between the two renames there is no active directory at all. *)
Theorem C40_refuted_window : exists w, In w (passed (exec (commit_sandbox never false true false) start)) /\ w_active w = None.
Proof. eexists. split; [vm_compute; do 9 right; left; reflexivity|reflexivity]. Qed.
Print Assumptions C40_refuted_window.

(** ... and the next session does not put it right: without creating a store, preparing a sandbox fails and destroys the new
    directory; with the creation of a store it succeeds, and after the next commit neither directory exists any more. *)
Theorem C40_refuted_recovery : exists w, In w (passed (exec (commit_sandbox never false true false) start)) /\
  (let x := exec (make_sandbox never) w in result x = false /\ w_active (after x) = None /\ w_tmp (after x) = None) /\
  (let x := exec (create_store never) w in let y := exec (make_sandbox never) (after x) in let z := exec (commit_sandbox never false false false) (after y) in
   result x = true /\ result y = true /\ result z = Committed 1 /\ w_active (after z) = Some [(commit_num, 1)] /\ w_prev (after z) = None /\ w_tmp (after z) = None).
Proof.
  eexists. split; [vm_compute; do 9 right; left; reflexivity|]. split; vm_compute; repeat split; reflexivity.
Qed.
Print Assumptions C40_refuted_recovery.

(** The installed files are replaced one by one: at one point some are new and some are old. *)
Theorem C40_refuted_installed : exists w, In w (passed (exec (commit_sandbox never false true false) start)) /\
  w_final w 1 = w_ftmp start 1 /\ w_final w 1 <> w_final start 1 /\ w_final w kernel_file = w_final start kernel_file /\ w_final w kernel_file <> w_ftmp start kernel_file.
Proof. eexists. split; [vm_compute; do 7 right; left; reflexivity|]. split; [reflexivity|]. split; [discriminate|]. split; [reflexivity|discriminate]. Qed.
Print Assumptions C40_refuted_installed.

(** Where rename answers EXDEV the files are copied one by one, and at one point the active directory is a proper part of the new one. *)
Theorem C40_refuted_copy : exists w part, result (exec (commit_sandbox (across 13 []) false true false) start) = Committed 5 /\
  In w (passed (exec (commit_sandbox (across 13 []) false true false) start)) /\ w_active w = Some part /\ (exists c, holds part 1 c) /\ lacks part 3 /\ holds new 3 301.
Proof.
  assert (H : exists w, In w (passed (exec (commit_sandbox (across 13 []) false true false) start)) /\ w_active w = Some [(0, 5); (1, 101)]).
  { apply Exists_exists. vm_compute. repeat first [solve [apply Exists_cons_hd; reflexivity]|apply Exists_cons_tl]. }
  destruct H as (w & I & A). exists w, [(0, 5); (1, 101)]. split; [vm_compute; reflexivity|]. split; [exact I|]. split; [exact A|]. split; [exists 101; exists [(0, 5)], []; split; [reflexivity|cbn; intuition discriminate]|].
  split; [unfold lacks; cbn; intuition discriminate|]. exists [(0, 5); (1, 101)], []. split; [reflexivity|cbn; intuition discriminate].
Qed.
Print Assumptions C40_refuted_copy.

(** C41. Of a commit that reports failure: if a single call failed, the old directory is the active one, and nothing was installed
    or loaded, unless installing was what failed; the only exception is the removal of the backup. Partial: see below. *)
Theorem C41_failure_partial : forall o nohome reload save w0 old d r w' l, one_filesystem o -> one_failure o -> w_active w0 = Some old -> w_tmp w0 = Some d ->
  exec (commit_sandbox o nohome reload save) w0 = (r, w', l) -> failed r ->
  (w_active w' = Some old /\ (untouched w0 w' \/ (exists again, r = Undone again) /\ each_whole w0 w' /\ w_prev w' = None)) \/
  (r = Backup_left /\ save = false /\ exists new k, numbered d new k /\ w_active w' = Some new /\ each_whole w0 w').
Proof.
  intros o nohome reload save w0 old d r w' l NX OF A T E FL. destruct (commit_exec o nohome reload save w0 old d r w' l NX A T E) as [(n' & H) _].
  destruct r as [k| | |again| |]; cbn [final_state] in H.
  - destruct (FL k eq_refl).
  - left. destruct H as (H1 & H2 & _). auto.
  - left. destruct H as (H1 & H2 & _). auto.
  - left. destruct H as (H1 & H2 & H3 & _). split; [exact H1|]. right. split; [exists again; reflexivity|]. auto.
  - exfalso. destruct H as (_ & k1 & k2 & NE & F1 & F2). apply NE, OF; assumption.
  - right. split; [reflexivity|]. destruct H as (H1 & H2 & H3 & _). split; [exact H2|]. exists (new_of d), (next d). split; [apply numbered_new|]. auto.
Qed.
Print Assumptions C41_failure_partial.

(** Whatever fails, and however often: the old directory is not lost as long as the commit has not made the new one active. *)
Theorem C41_nothing_lost : forall o nohome reload save w0 old d r w' l, one_filesystem o -> w_active w0 = Some old -> w_tmp w0 = Some d ->
  exec (commit_sandbox o nohome reload save) w0 = (r, w', l) -> failed r ->
  exists new k, numbered d new k /\ whole old new w' /\ (r = Refused \/ r = Kept -> w_active w' = Some old /\ untouched w0 w').
Proof.
  intros o nohome reload save w0 old d r w' l NX A T E FL. destruct (commit_exec o nohome reload save w0 old d r w' l NX A T E) as [(n' & H) _].
  exists (new_of d), (next d). split; [apply numbered_new|].
  destruct r as [k| | |again| |]; cbn [final_state] in H.
  - destruct (FL k eq_refl).
  - destruct H as (H1 & H2 & _). split; [left; exact H1|auto].
  - destruct H as (H1 & H2 & _). split; [left; exact H1|auto].
  - destruct H as (H1 & H2 & _). split; [left; exact H1|]. intros [Z|Z]; discriminate.
  - destruct H as (H1 & _). split; [exact H1|]. intros [Z|Z]; discriminate.
  - destruct H as (H1 & _). split; [right; left; exact H1|]. intros [Z|Z]; discriminate.
Qed.
Print Assumptions C41_nothing_lost.

(** A commit whose second rename fails. *)
Example C41_case : one_filesystem (fails [13%nat]) /\ one_failure (fails [13%nat]) /\
  (let x := exec (commit_sandbox (fails [13%nat]) false true false) start in result x = Kept /\ failed (result x) /\ w_active (after x) = Some old).
Proof.
  split; [apply fails_local|]. split; [apply fails_one|]. split; [vm_compute; reflexivity|]. split; [|vm_compute; reflexivity].
  replace (result (exec (commit_sandbox (fails [13%nat]) false true false) start)) with Kept by (vm_compute; reflexivity). discriminate.
Qed.

(** C41 fails in its plain form. When loading the new policy fails, the commit reports failure and the old directory is active
    again, but the roll back installs and loads the new files once more. *)
Theorem C41_refuted_rollback : let x := exec (commit_sandbox (fails [29%nat]) false true false) start in
  result x = Undone true /\ w_active (after x) = Some old /\ w_final (after x) kernel_file = w_ftmp start kernel_file /\ w_final (after x) kernel_file <> w_final start kernel_file /\
  w_loaded (after x) = w_ftmp start kernel_file.
Proof. vm_compute. do 3 (split; [reflexivity|]). split; [discriminate|reflexivity]. Qed.
Print Assumptions C41_refuted_rollback.

(** When only the backup cannot be removed, the commit reports failure though the new policy is active, installed and loaded. *)
Theorem C41_refuted_backup : let x := exec (commit_sandbox (fails [30%nat]) false true false) start in
  result x = Backup_left /\ w_active (after x) = Some new /\ w_loaded (after x) = w_ftmp start kernel_file.
Proof. vm_compute. repeat split; reflexivity. Qed.
Print Assumptions C41_refuted_backup.

(** When the second rename and moving the old directory back both fail, no directory is active. *)
Theorem C41_refuted_stuck : let x := exec (commit_sandbox (fails [13%nat; 14%nat]) false true false) start in
  result x = Stuck /\ w_active (after x) = None.
Proof. vm_compute. repeat split; reflexivity. Qed.
Print Assumptions C41_refuted_stuck.

(** When looking at a prepared file fails, the file is skipped, and the commit reports success with the old file installed. *)
Theorem C41_refuted_skipped : let x := exec (commit_sandbox (fails [24%nat]) false true false) start in
  result x = Committed 5 /\ w_final (after x) kernel_file = w_final start kernel_file /\ w_final (after x) kernel_file <> w_ftmp start kernel_file.
Proof. vm_compute. do 2 (split; [reflexivity|]). discriminate. Qed.
Print Assumptions C41_refuted_skipped.
