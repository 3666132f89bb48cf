(** The status page: what reads return, and when a change of the enforcing mode is noticed. *)
From Verif Require Import Base StatusModel StatusSpec StatusProofs.

(** ** Names used by the cases *)
Definition ok : oracle := mkO true true true true true true true.
Definition nomap : oracle := mkO false true true true true true true.
Definition lib0 : lib := mkLib SNull 0 false 0 0 0 0 0 [].
(** Permissive, policy loaded 3 times, unknown permissions denied; sequence 8. *)
Definition page0 : snap := mkSn 0 3 1.
Definition boot : sys := mkSys (mkKn 8 page0 None [(8, page0)] 0 []) lib0 (Idle (RInt 0)).
Definition open_it : list label := [LCall (OpAvcOpen None) ok; LLoad ok; LLoad ok; LLoad ok].
Definition first_poll : list label := [LCall OpUpdated ok; LLoad ok].
(** setenforce 1, and a policy load, as the kernel does them. *)
Definition enforce_on : list label := [LKern (KMode 1); LKern (KBegin (mkSn 1 3 1)); LKern (KWrite FEnf); LKern KEnd].
Definition after (l : list label) : sys := match sexec boot l with Some y => y | None => boot end.
Lemma boot_starts : starts boot.
Proof. unfold starts. cbn. split; [reflexivity|]. split; [reflexivity|]. split; [reflexivity|]. split; [reflexivity|]. eexists. reflexivity. Qed.
Lemma after_reachable l : match sexec boot l with Some _ => true | None => false end = true -> reachable (after l).
Proof. unfold after. destruct (sexec boot l) as [y|] eqn:E; [|discriminate]. intros _. exists boot, l. split; [exact boot_starts|exact E]. Qed.

(** ** C31 *)
(** Whatever the schedule: the mode returned is the mode of an update that was the newest completed one at some moment of
    the call. *)
Theorem C31_getenforce : forall y r y', reachable y -> l_status (y_l y) = SPage -> calls y OpGetEnforce r y' ->
  exists s, published_during (y_k y) (y_k y') s /\ r = RInt (truth (s_enf s)).
Proof. intros y r y' R ST C. destruct (call_single WEnf y r y' ltac:(discriminate) (proj1 (reachable_kfine y R)) ST C) as (s & P & E & _). exists s. auto. Qed.
Print Assumptions C31_getenforce.
Theorem C31_policyload : forall y r y', reachable y -> l_status (y_l y) = SPage -> calls y OpPolicyload r y' ->
  exists s, published_during (y_k y) (y_k y') s /\ r = RInt (s_load s).
Proof. intros y r y' R ST C. destruct (call_single WLoad y r y' ltac:(discriminate) (proj1 (reachable_kfine y R)) ST C) as (s & P & E & _). exists s. auto. Qed.
Print Assumptions C31_policyload.
Theorem C31_deny_unknown : forall y r y', reachable y -> l_status (y_l y) = SPage -> calls y OpDenyUnknown r y' ->
  exists s, published_during (y_k y) (y_k y') s /\ r = RInt (truth (s_deny s)).
Proof. intros y r y' R ST C. destruct (call_single WDeny y r y' ltac:(discriminate) (proj1 (reachable_kfine y R)) ST C) as (s & P & E & _). exists s. auto. Qed.
Print Assumptions C31_deny_unknown.

(** A read that begins before the mode is switched, meets the page being written, and ends after: it returns 1, the new
    mode. *)
Definition racing : list label :=
  [LCall OpGetEnforce ok; LLoad ok; LKern (KBegin (mkSn 1 3 1)); LKern (KWrite FEnf); LLoad ok; LLoad ok; LKern KEnd; LLoad ok; LLoad ok; LLoad ok; LLoad ok].
Example C31_getenforce_case : reachable (after open_it) /\ l_status (y_l (after open_it)) = SPage /\ exists y', calls (after open_it) OpGetEnforce (RInt 1) y'.
Proof.
  split; [apply (after_reachable open_it); vm_compute; reflexivity|]. split; [vm_compute; reflexivity|]. exists (after (open_it ++ racing)). split; [eexists; vm_compute; reflexivity|]. exists ok, (tl racing). split; [|split; vm_compute; reflexivity].
  intros b H. cbn in H. repeat (destruct H as [<-|H]; [exact Coq.Init.Logic.I|]). destruct H.
Qed.
Example C31_policyload_case : exists y', calls (after open_it) OpPolicyload (RInt 3) y'.
Proof.
  exists (after (open_it ++ [LCall OpPolicyload ok; LLoad ok; LLoad ok; LLoad ok])). split; [eexists; vm_compute; reflexivity|]. exists ok, [LLoad ok; LLoad ok; LLoad ok]. split; [|split; vm_compute; reflexivity].
  intros b H. cbn in H. repeat (destruct H as [<-|H]; [exact Coq.Init.Logic.I|]). destruct H.
Qed.
Example C31_deny_unknown_case : exists y', calls (after open_it) OpDenyUnknown (RInt 1) y'.
Proof.
  exists (after (open_it ++ [LCall OpDenyUnknown ok; LLoad ok; LLoad ok; LLoad ok])). split; [eexists; vm_compute; reflexivity|]. exists ok, [LLoad ok; LLoad ok; LLoad ok]. split; [|split; vm_compute; reflexivity].
  intros b H. cbn in H. repeat (destruct H as [<-|H]; [exact Coq.Init.Logic.I|]). destruct H.
Qed.

(** selinux_status_updated: 0 changes neither the mode nor the policy count the library goes by; otherwise the mode taken
    over (unless fixed by the application), and with 1 the policy count too, are those of one update published during the
    call. For calls during which the sequence does not go round. *)
Theorem C31_updated_partial : forall y r y', reachable y -> l_status (y_l y) = SPage -> calls y OpUpdated r y' -> k_cnt (y_k y') - k_cnt (y_k y) < 4294967296 ->
  (r = RInt 0 /\ l_enf (y_l y') = l_enf (y_l y) /\ l_load (y_l y') = l_load (y_l y)) \/
  (exists s, published_during (y_k y) (y_k y') s /\ (r = RInt 1 \/ r = RErr) /\ (l_set (y_l y) = false -> l_enf (y_l y') = s_enf s) /\ (r = RInt 1 -> l_load (y_l y') = s_load s)).
Proof. exact updated_ok. Qed.
Print Assumptions C31_updated_partial.
Definition before_update : list label := open_it ++ first_poll ++ enforce_on.
(** The kernel loads a policy in the middle of the call. *)
Definition update_racing : list label :=
  [LCall OpUpdated ok; LLoad ok; LLoad ok; LKern (KBegin (mkSn 1 4 1)); LKern (KWrite FLoad); LLoad ok; LLoad ok; LKern KEnd; LLoad ok; LLoad ok; LLoad ok; LLoad ok].
Example C31_updated_case : reachable (after before_update) /\ l_status (y_l (after before_update)) = SPage /\
  exists y', calls (after before_update) OpUpdated (RInt 1) y' /\ k_cnt (y_k y') - k_cnt (y_k (after before_update)) = 2 /\ l_enf (y_l y') = 1 /\ l_load (y_l y') = 4.
Proof.
  split; [apply (after_reachable before_update); vm_compute; reflexivity|]. split; [vm_compute; reflexivity|]. exists (after (before_update ++ update_racing)). split; [|split; [|split]; vm_compute; reflexivity]. split; [eexists; vm_compute; reflexivity|]. exists ok, (tl update_racing). split; [|split; vm_compute; reflexivity].
  intros b H. cbn in H. repeat (destruct H as [<-|H]; [exact Coq.Init.Logic.I|]). destruct H.
Qed.

(** Without that condition the pair taken over need not have been published by any update. *)
Theorem C31_wrap_refuted : exists y y', reachable y /\ l_status (y_l y) = SPage /\ l_set (y_l y) = false /\ calls y OpUpdated (RInt 1) y' /\
  forall c s, In (c, s) (k_hist (y_k y')) -> ~ (l_enf (y_l y') = s_enf s /\ l_load (y_l y') = s_load s).
Proof.
  destruct (as_many 2147483647) as (n & EN).
  set (y := after before_update). set (s2 := mkSn 0 4 1).
  set (m1 := [LCall OpUpdated ok; LLoad ok; LLoad ok; LKern (KBegin s2); LKern (KWrite FEnf); LKern (KWrite FLoad); LKern KEnd]).
  assert (E1 : exists k1 l1, sexec y m1 = Some (mkSys (mkKn 12 s2 None k1 1 [MEnf 1]) l1 (ULoad false 10 1)) /\ l_enf l1 = 0 /\ l_load l1 = 3 /\ l_set l1 = false /\ k1 = [(12, s2); (10, mkSn 1 3 1); (8, page0)])
    by (eexists; eexists; split; [vm_compute; reflexivity|]; split; [reflexivity|]; split; [reflexivity|]; split; reflexivity).
  destruct E1 as (h1 & l1 & E1 & LE & LL & LS & EH). destruct (again_ok s2 l1 (ULoad false 10 1) n 12 h1 1 [MEnf 1]) as (h' & E2 & F). rewrite EN in E2.
  set (k2 := mkKn (12 + 2 * 2147483647) s2 None (h' ++ h1) 1 [MEnf 1]) in *.
  assert (E3 : exists l3, sexec (mkSys k2 l1 (ULoad false 10 1)) [LLoad ok; LLoad ok] = Some (mkSys k2 l3 (Idle (RInt 1))) /\ l_enf l3 = 1 /\ l_load l3 = 4).
  { cbn [sexec sstep load y_k y_l y_a]. assert (SQ : seq_field k2 = 10) by (vm_compute; reflexivity). rewrite SQ. change (odd 10) with false. change (10 =? 10) with true. cbv iota. change (s_load (k_cur k2)) with 4.
    unfold updated_finish. rewrite LE. change (0 =? 1) with false. cbn [negb]. unfold process_setenforce. rewrite LS. change (1 =? 0) with false. cbn [negb andb o_reset1 o_cb1 ok l_load]. rewrite LL. change (3 =? 4) with false. cbn [negb]. unfold process_policyload. cbn [o_reset2 o_cb2 ok negb].
    eexists. split; [reflexivity|]. split; reflexivity. }
  destruct E3 as (l3 & E3 & L1 & L2). exists y, (mkSys k2 l3 (Idle (RInt 1))).
  split; [apply (after_reachable before_update); vm_compute; reflexivity|]. split; [vm_compute; reflexivity|]. split; [vm_compute; reflexivity|]. split.
  - split; [eexists; vm_compute; reflexivity|]. exists ok, (tl m1 ++ again s2 n ++ [LLoad ok; LLoad ok]). split; [|split; [|reflexivity]].
    + intros b H. apply in_app_or in H as [H|H]; [|apply in_app_or in H as [H|H]]; [cbn in H|exact (again_no_calls s2 n b H)|cbn in H]; repeat (destruct H as [<-|H]; [exact Coq.Init.Logic.I|]); destruct H.
    + change (LCall OpUpdated ok :: tl m1 ++ again s2 n ++ [LLoad ok; LLoad ok]) with (m1 ++ again s2 n ++ [LLoad ok; LLoad ok]). rewrite sexec_app, E1, sexec_app, E2. exact E3.
  - cbn [y_k y_l]. rewrite L1, L2. intros c s H [H1 H2]. change (k_hist k2) with (h' ++ h1) in H. apply in_app_or in H as [H|H].
    + rewrite Forall_forall in F. specialize (F _ H). cbn [snd] in F. subst s. discriminate.
    + rewrite EH in H. destruct H as [[= _ <-]|[[= _ <-]|[[= _ <-]|[]]]]; discriminate.
Qed.
Print Assumptions C31_wrap_refuted.

(** Opening succeeds with the page mapped, and remembers the policy count of a published update. *)
Theorem C31_open : forall fb y y', reachable y -> l_status (y_l y) = SNull -> calls y (OpOpen fb) (RInt 0) y' ->
  l_status (y_l y') = SPage /\ exists s, published_during (y_k y) (y_k y') s /\ l_load (y_l y') = s_load s.
Proof. intros fb y y' R ST C. destruct (open_ok (OpOpen fb) y y' (proj1 (reachable_kfine y R)) ST (or_introl (ex_intro _ fb eq_refl)) C) as (A & _ & _ & _ & B). auto. Qed.
Print Assumptions C31_open.
Example C31_open_case : l_status (y_l boot) = SNull /\ exists y', calls boot (OpOpen true) (RInt 0) y' /\ l_load (y_l y') = 3.
Proof.
  split; [vm_compute; reflexivity|]. exists (after [LCall (OpOpen true) ok; LLoad ok; LLoad ok; LLoad ok]). split; [|vm_compute; reflexivity]. split; [eexists; vm_compute; reflexivity|]. exists ok, [LLoad ok; LLoad ok; LLoad ok]. split; [|split; vm_compute; reflexivity].
  intros b H. cbn in H. repeat (destruct H as [<-|H]; [exact Coq.Init.Logic.I|]). destruct H.
Qed.

(** A running call ends within six loads once the kernel leaves the page alone. *)
Theorem C31_ends : forall y o, reachable y -> k_new (y_k y) = None -> ~ is_idle y ->
  exists n y', (1 <= n <= 6)%nat /\ sexec y (repeat (LLoad o) n) = Some y' /\ is_idle y'.
Proof. intros y o R. exact (quiet_done y o (proj1 (reachable_kfine y R))). Qed.
Print Assumptions C31_ends.
Example C31_ends_case : let y := after (before_update ++ firstn 8 update_racing) in
  k_new (y_k y) = None /\ y_a y = USeq2 false 10 1 4 /\ seq_field (y_k y) = 12 /\ ~ is_idle y.
Proof. cbv zeta. split; [vm_compute; reflexivity|]. split; [vm_compute; reflexivity|]. split; [vm_compute; reflexivity|]. intros (r & E). vm_compute in E. discriminate. Qed.

(** Before opening and after closing every function returns -1. *)
Theorem C31_not_open : forall y c o y', l_status (y_l y) = SNull -> In c [OpUpdated; OpGetEnforce; OpPolicyload; OpDenyUnknown] -> sstep y (LCall c o) = Some y' -> y_a y' = Idle RErr /\ y_l y' = y_l y.
Proof.
  intros y c o y' ST H E. cbn [sstep] in E. destruct (y_a y); try discriminate. destruct H as [<-|[<-|[<-|[<-|[]]]]]; cbn [call] in E; rewrite ST in E; injection E as <-; split; reflexivity.
Qed.
Print Assumptions C31_not_open.
Example C31_not_open_case : l_status (y_l (after (open_it ++ [LCall OpClose ok]))) = SNull /\ exists y', sstep (after (open_it ++ [LCall OpClose ok])) (LCall OpGetEnforce ok) = Some y'.
Proof. split; [vm_compute; reflexivity|]. eexists. vm_compute. reflexivity. Qed.

(** Without the page, as long as the resets of the cache succeed: selinux_status_getenforce fails or returns the mode of
    the moment of the call. *)
Theorem C31_fallback_getenforce : forall y0 l y o y', starts y0 -> (forall b, In b l -> match b with LCall _ o | LLoad o => o_reset1 o = true | _ => True end) -> sexec y0 l = Some y ->
  l_status (y_l y) = SFail -> o_reset1 o = true -> sstep y (LCall OpGetEnforce o) = Some y' -> y_a y' = Idle RErr \/ y_a y' = Idle (RInt (truth (k_mode (y_k y)))).
Proof. intros y0 l y o y' (_ & _ & _ & ST & _) O E. refine (fallback_mode l y0 y o y' O _ E). intros X. congruence. Qed.
Print Assumptions C31_fallback_getenforce.
Definition fallback_on : list label := [LCall (OpOpen true) nomap; LCall OpUpdated nomap; LKern (KMode 1)].
Example C31_fallback_getenforce_case : l_status (y_l (after fallback_on)) = SFail /\ exists y', sstep (after fallback_on) (LCall OpGetEnforce nomap) = Some y' /\ y_a y' = Idle (RInt 1).
Proof. split; [vm_compute; reflexivity|]. eexists. split; vm_compute; reflexivity. Qed.
(** But selinux_status_updated, called after an event, goes on to read through the address that mmap returned as failure. *)
Theorem C31_fallback_refuted : exists y y', reachable y /\ l_status (y_l y) = SFail /\ calls y OpUpdated RUB y'.
Proof.
  exists (after fallback_on), (after (fallback_on ++ [LCall OpUpdated nomap])). split; [apply (after_reachable fallback_on); vm_compute; reflexivity|]. split; [vm_compute; reflexivity|]. split; [eexists; vm_compute; reflexivity|]. exists nomap, []. split; [intros b []|]. split; vm_compute; reflexivity.
Qed.
Print Assumptions C31_fallback_refuted.

(** ** C32 *)
(** Open, then nothing but the kernel, then a first check, during all of which the mode published is the one avc_open
    read. From then on, whatever calls (but opening and closing) and kernel steps follow: a check uses the mode of an update
    published during that check, so the mode in force at its beginning or a newer one. *)
Theorem C32_noticed_partial : forall y0 y1 l1 y2 r2 y3 l3 y4 r y5, reachable y0 -> l_status (y_l y0) = SNull ->
  calls y0 (OpAvcOpen None) (RInt 0) y1 -> (forall b, In b l1 -> exists a, b = LKern a) -> sexec y1 l1 = Some y2 -> calls y2 OpCheck r2 y3 ->
  (forall s, published_during (y_k y0) (y_k y3) s -> s_enf s = truth (k_mode (y_k y0))) ->
  plain_calls l3 -> sexec y3 l3 = Some y4 -> calls y4 OpCheck r y5 -> k_cnt (y_k y5) < 4294967296 ->
  exists s, published_during (y_k y4) (y_k y5) s /\ r = RMode (s_enf s).
Proof. exact whole_story. Qed.
Print Assumptions C32_noticed_partial.
Definition check_new : list label := [LCall OpCheck ok; LLoad ok; LLoad ok; LLoad ok; LLoad ok].
Example C32_noticed_case : l_status (y_l boot) = SNull /\ calls boot (OpAvcOpen None) (RInt 0) (after open_it) /\ calls (after open_it) OpCheck (RMode 0) (after (open_it ++ [LCall OpCheck ok; LLoad ok])) /\
  (forall s, published_during (y_k boot) (y_k (after (open_it ++ [LCall OpCheck ok; LLoad ok]))) s -> s_enf s = truth (k_mode (y_k boot))) /\
  plain_calls enforce_on /\ sexec (after (open_it ++ [LCall OpCheck ok; LLoad ok])) enforce_on = Some (after (open_it ++ [LCall OpCheck ok; LLoad ok] ++ enforce_on)) /\
  calls (after (open_it ++ [LCall OpCheck ok; LLoad ok] ++ enforce_on)) OpCheck (RMode 1) (after (open_it ++ [LCall OpCheck ok; LLoad ok] ++ enforce_on ++ check_new)).
Proof.
  assert (NC : forall l, (forall b, In b l -> b = LLoad ok) -> no_calls l) by (intros l H b Hb; rewrite (H b Hb); exact Coq.Init.Logic.I).
  split; [reflexivity|]. split; [split; [eexists; reflexivity|]; exists ok, [LLoad ok; LLoad ok; LLoad ok]; split; [apply NC; intros b [<-|[<-|[<-|[]]]]; reflexivity|split; vm_compute; reflexivity]|].
  split; [split; [eexists; vm_compute; reflexivity|]; exists ok, [LLoad ok]; split; [apply NC; intros b [<-|[]]; reflexivity|split; vm_compute; reflexivity]|].
  split. { intros s (d & c & E & H). replace (k_hist (y_k (after (open_it ++ [LCall OpCheck ok; LLoad ok])))) with [(8, page0)] in E by (vm_compute; reflexivity). change (k_hist (y_k boot)) with [(8, page0)] in E. destruct d as [|x d]; [|apply (f_equal (@length _)) in E; rewrite app_length in E; cbn in E; lia]. vm_compute in H. destruct H as [[= _ <-]|[]]. reflexivity. }
  split; [intros b [<-|[<-|[<-|[<-|[]]]]]; exact Coq.Init.Logic.I|]. split; [vm_compute; reflexivity|].
  split; [eexists; vm_compute; reflexivity|]. exists ok, [LLoad ok; LLoad ok; LLoad ok; LLoad ok]. split; [apply NC; intros b [<-|[<-|[<-|[<-|[]]]]]; reflexivity|split; vm_compute; reflexivity].
Qed.

(** The same from any state in step with the page. *)
Theorem C32_in_step : forall y r y', reachable y -> synced y -> calls y OpCheck r y' -> k_cnt (y_k y') < 4294967296 -> exists s, published_during (y_k y) (y_k y') s /\ r = RMode (s_enf s).
Proof. exact check_ok. Qed.
Print Assumptions C32_in_step.
Theorem C32_stays_in_step : forall l y y', reachable y -> is_idle y -> synced y -> plain_calls l -> sexec y l = Some y' -> k_cnt (y_k y') < 4294967296 -> synced y'.
Proof. intros l y y' R ID S P E HW. apply syn_synced, (syn_exec l y y'); [exact (syn_of y (reachable_kfine y R) ID S)|exact P|exact E|exact HW]. Qed.
Print Assumptions C32_stays_in_step.
Example C32_in_step_case : let y := after (open_it ++ first_poll) in reachable y /\ is_idle y /\ synced y.
Proof.
  cbv zeta. split; [apply (after_reachable (open_it ++ first_poll)); vm_compute; reflexivity|]. split; [eexists; vm_compute; reflexivity|]. split; [vm_compute; reflexivity|]. split; [vm_compute; reflexivity|]. exists 8, page0, 8, page0.
  split; [vm_compute; auto|]. split; [vm_compute; auto|]. split; [lia|]. split; vm_compute; reflexivity.
Qed.

(** A policy load taken over flushes the cache. *)
Theorem C32_policyload_flushes : forall (chk : bool) y r y', reachable y -> l_status (y_l y) = SPage -> calls y (if chk then OpCheck else OpUpdated) r y' ->
  l_load (y_l y') <> l_load (y_l y) -> exists t, l_resets (y_l y') = l_load (y_l y') :: t.
Proof. exact load_flushes. Qed.
Print Assumptions C32_policyload_flushes.
Example C32_policyload_flushes_case : l_load (y_l (after (before_update ++ update_racing))) = 4 /\ l_load (y_l (after before_update)) = 3.
Proof. split; vm_compute; reflexivity. Qed.

(** The claim as stated fails: the mode is switched between avc_open and the first check. That check, and every later one
    until something else is published, uses the old mode. *)
Definition lost : list label := open_it ++ enforce_on.
Theorem C32_refuted : exists y y1 y2, reachable y /\ k_hist (y_k y) = [(10, mkSn 1 3 1); (8, page0)] /\ l_status (y_l y) = SPage /\ l_set (y_l y) = false /\
  calls y OpCheck (RMode 0) y1 /\ calls y1 OpCheck (RMode 0) y2 /\ y_l y2 = y_l y1 /\ y_k y2 = y_k y.
Proof.
  exists (after lost), (after (lost ++ [LCall OpCheck ok; LLoad ok])), (after (lost ++ [LCall OpCheck ok; LLoad ok; LCall OpCheck ok; LLoad ok])).
  split; [apply (after_reachable lost); vm_compute; reflexivity|]. split; [vm_compute; reflexivity|]. split; [vm_compute; reflexivity|]. split; [vm_compute; reflexivity|].
  assert (NC : no_calls [LLoad ok]) by (intros b [<-|[]]; exact Coq.Init.Logic.I).
  split; [split; [eexists; vm_compute; reflexivity|]; exists ok, [LLoad ok]; split; [exact NC|split; vm_compute; reflexivity]|].
  split; [split; [eexists; vm_compute; reflexivity|]; exists ok, [LLoad ok]; split; [exact NC|split; vm_compute; reflexivity]|]. split; vm_compute; reflexivity.
Qed.
Print Assumptions C32_refuted.
