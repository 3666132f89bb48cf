(** A commit that succeeds, wherever the directories lie: copying across file systems gives the same result as renaming. *)
From Verif Require Import Base StoreModel StoreSpec StoreProofs.

Section Move.
Context (o : nat -> sysret).
Definition yields {A} (n : nat) (w : world) (c : M A) (Q : A -> world -> Prop) : Prop :=
  forall lg, let (a, s) := c (mkSt n w lg) in Q a (s_w s).
Lemma yields_ret {A} n w (a : A) (Q : A -> world -> Prop) : Q a w -> yields n w (ret a) Q.
Proof. intros H lg. exact H. Qed.
Lemma yields_bind {A B} n w (c : M A) (k : A -> M B) Q R : yields n w c R -> (forall a n' w', R a w' -> yields n' w' (k a) Q) -> yields n w (bind c k) Q.
Proof.
  intros H G lg. specialize (H lg). unfold bind. destruct (c (mkSt n w lg)) as [a s]. specialize (G a (s_n s) (s_w s) H (s_log s)). destruct s. exact G.
Qed.
Lemma yields_conseq {A} n w (c : M A) (Q R : A -> world -> Prop) : yields n w c R -> (forall a w', R a w' -> Q a w') -> yields n w c Q.
Proof. intros H G lg. specialize (H lg). destruct (c _) as [a s]. apply G. exact H. Qed.
Lemma yields_any {A} n w (c : M A) : yields n w c (fun _ _ => True).
Proof. intros lg. destruct (c _). exact I. Qed.
Lemma yields_sys n w : yields n w (sys o) (fun _ w' => w' = w).
Proof. intros lg. reflexivity. Qed.
Lemma yields_ask n w : yields n w (ask o) (fun _ w' => w' = w).
Proof. intros lg. reflexivity. Qed.
Lemma yields_upd n w f : yields n w (upd f) (fun _ w' => w' = f w).
Proof. intros lg. reflexivity. Qed.
Lemma yields_look {A} n w (f : world -> A) : yields n w (look f) (fun a w' => w' = w /\ a = f w).
Proof. intros lg. split; reflexivity. Qed.
Lemma runs_yields {A} n w (c : M A) I (Q : A -> nat -> world -> Prop) (R : A -> world -> Prop) : runs n w c I Q -> (forall a n' w', Q a n' w' -> R a w') -> yields n w c R.
Proof. intros H G lg. specialize (H lg). destruct (c _) as [a s]. destruct H as [H _]. apply (G _ _ _ H). Qed.

Ltac sysstep := eapply yields_bind; [apply yields_sys|]; let b := fresh "b" in intros b ? ? ->; destruct b.
Ltac lookstep := eapply yields_bind; [apply yields_look|]; intros ? ? ? [-> ->].
Ltac updstep := eapply yields_bind; [apply yields_upd|]; intros ? ? ? ->.

Lemma put_new n c d : ~ In n (map fst d) -> put_file n c d = d ++ [(n, c)].
Proof.
  induction d as [|[m x] d IH]; cbn [put_file app map]; intros H; [reflexivity|]. assert (E : (m =? n) = false) by (cbn in H; lia). rewrite E, IH; [reflexivity|].
  intros X. apply H. right. exact X.
Qed.
Lemma copy_loop_moves q l : forall n w d0, get q w = Some d0 -> NoDup (map fst (d0 ++ l)) ->
  yields n w (copy_loop o q l) (fun b w' => b = true -> w' = set q (Some (d0 ++ l)) w).
Proof.
  induction l as [|[x c] l IH]; intros n w d0 G ND; cbn [copy_loop].
  - apply yields_ret. intros _. rewrite app_nil_r. pose proof (set_get q w) as X. rewrite G in X. symmetry. exact X.
  - sysstep; cbn [negb]; [|apply yields_ret; discriminate]. sysstep; cbn [negb]; [|apply yields_ret; discriminate]. updstep.
    rewrite G. cbn [option_map]. rewrite put_new.
    + assert (G' : get q (set q (Some (d0 ++ [(x, c)])) w) = Some (d0 ++ [(x, c)])) by apply get_set.
      eapply yields_conseq; [apply (IH _ _ _ G'); rewrite <- app_assoc; exact ND|]. intros b' w' H E. rewrite (H E), set_set, <- app_assoc. reflexivity.
    + rewrite map_app in ND. cbn [map fst] in ND. apply NoDup_remove_2 in ND. intros X. apply ND. apply in_app_iff. left. exact X.
Qed.
Lemma get_other p q a w : p <> q -> get p (set q a w) = get p w.
Proof. destruct p, q, w; intros H; try reflexivity; contradiction. Qed.
Lemma copy_dir_moves p q n w c : p <> q -> get p w = Some c -> get q w = None -> NoDup (map fst c) ->
  yields n w (copy_dir o p q) (fun b w' => b = true -> w' = set q (Some c) w).
Proof.
  intros PQ G1 G2 ND. unfold copy_dir. sysstep; lookstep; rewrite G1; cbn [negb]; [|apply yields_ret; discriminate].
  lookstep. rewrite G2. eapply yields_bind with (R := fun b w' => b = true -> w' = set q (Some []) w).
  - sysstep; [|apply yields_ret; discriminate]. updstep. apply yields_ret. reflexivity.
  - intros ok n1 w1 E. destruct ok; cbn [negb]; [|apply yields_ret; discriminate]. rewrite (E eq_refl).
    eapply yields_conseq; [apply (copy_loop_moves q c n1 (set q (Some []) w) [] (get_set q _ _) ND)|]. intros b' w' H X. rewrite (H X). apply set_set.
Qed.
Lemma rename_moves p q n w c : p <> q -> get p w = Some c -> get q w = None -> NoDup (map fst c) ->
  yields n w (sem_rename o p q) (fun b w' => b = true -> w' = set p None (set q (Some c) w)).
Proof.
  intros PQ G1 G2 ND. unfold sem_rename. eapply yields_bind with (R := fun r w' => match r with SOk => w' = set p None (set q (Some c) w) | _ => w' = w end).
  - unfold do_rename. eapply yields_bind; [apply yields_ask|]. intros r n1 ? ->. destruct r; [|apply yields_ret; reflexivity ..]. lookstep. lookstep. rewrite G1, G2. updstep. apply yields_ret. reflexivity.
  - intros r n1 w1 H. destruct r; [apply yields_ret; auto|apply yields_ret; discriminate|]. subst w1.
    eapply yields_bind; [apply (copy_dir_moves p q n1 w c PQ G1 G2 ND)|]. intros ok n2 w2 E. destruct ok; [|apply yields_ret; discriminate]. rewrite (E eq_refl).
    eapply runs_yields; [apply (remove_directory_ok o p (fun _ => True) n2 _ c); [rewrite get_other by exact PQ; exact G1|auto]|].
    intros ? ? ? (_ & H & _). exact H.
Qed.
Lemma put_nodup n c d : NoDup (map fst d) -> NoDup (map fst (put_file n c d)).
Proof.
  intros ND. assert (H : (In n (map fst d) /\ map fst (put_file n c d) = map fst d) \/ (~ In n (map fst d) /\ put_file n c d = d ++ [(n, c)])).
  { clear ND. induction d as [|[m x] d IH]; cbn [put_file map fst].
    - right. split; [intros []|reflexivity].
    - destruct (N.eqb_spec m n) as [->|NE]; [left; split; [left; reflexivity|reflexivity]|]. destruct IH as [[A B]|[A B]].
      + left. split; [right; exact A|]. cbn [map fst]. rewrite B. reflexivity.
      + right. split; [intros [X|X]; contradiction|]. rewrite B. reflexivity. }
  destruct H as [[_ ->]|[A ->]]; [exact ND|]. rewrite map_app. cbn [map fst].
  clear -ND A. induction (map fst d) as [|y l IH]; cbn [app]; [constructor; [intros []|constructor]|]. inversion ND as [|? ? N1 N2]; subst.
  constructor; [|apply IH; [exact N2|intros X; apply A; right; exact X]]. intros X. apply in_app_iff in X. destruct X as [X|[X|[]]]; [contradiction|]. apply A. left. symmetry. exact X.
Qed.

Definition done (w0 : world) (old new : dir) (k : file) (save reload : bool) (r : outcome) (w : world) : Prop :=
  forall j, r = Committed j -> j = k /\ w_active w = Some new /\ w_tmp w = None /\ w_prev w = (if save then Some old else None) /\ each_whole w0 w /\
    w_loaded w = (if reload then w_final w kernel_file else w_loaded w0).
Lemma done_other w0 old new k save reload r n w : (forall j, r <> Committed j) -> yields n w (ret r) (done w0 old new k save reload).
Proof. intros H. apply yields_ret. intros j E. destruct (H j E). Qed.
Lemma commit_moves nohome reload save w0 old d n : w_active w0 = Some old -> w_tmp w0 = Some d -> NoDup (map fst old) -> NoDup (map fst d) ->
  yields n w0 (commit_sandbox o nohome reload save) (done w0 old (new_of d) (next d) save reload).
Proof.
  intros A0 T0 N1 N2. unfold commit_sandbox. sysstep; lookstep; cbn [negb]; [|apply done_other; discriminate].
  change (get Tmp w0) with (w_tmp w0). rewrite T0. fold (next d). sysstep; cbn [negb]; [|apply done_other; discriminate]. updstep.
  change (get Tmp w0) with (w_tmp w0). rewrite T0. cbn [option_map]. sysstep; cbn [negb]; [|apply done_other; discriminate]. updstep.
  change (get Tmp (set Tmp (Some (put_file commit_num 0 d)) w0)) with (Some (put_file commit_num 0 d)). cbn [option_map]. rewrite set_set. fold (new_of d).
  set (w1 := set Tmp (Some (new_of d)) w0).
  assert (A1 : w_active w1 = Some old) by exact A0. assert (T1 : w_tmp w1 = Some (new_of d)) by reflexivity.
  assert (F1 : w_final w1 = w_final w0) by reflexivity. assert (FT1 : w_ftmp w1 = w_ftmp w0) by reflexivity. assert (L1 : w_loaded w1 = w_loaded w0) by reflexivity.
  assert (NN : NoDup (map fst (new_of d))) by (unfold new_of; apply put_nodup, put_nodup; exact N2).
  clearbody w1.
  eapply yields_bind; [apply yields_sys|]. intros s1 ? ? ->.
  eapply yields_bind with (R := fun _ w' => w' = w1); [destruct s1; [apply yields_sys|apply yields_ret; reflexivity]|]. intros s2 ? ? ->.
  eapply yields_bind with (R := fun _ w' => w' = w1); [destruct s2; [apply yields_sys|apply yields_ret; reflexivity]|]. intros s3 ? ? ->.
  eapply yields_bind with (R := fun _ w' => w' = w1); [destruct s3; [apply yields_sys|apply yields_ret; reflexivity]|]. intros s4 ? ? ->.
  destruct s4; cbn [negb]; [|apply done_other; discriminate].
  eapply yields_bind; [apply yields_sys|]. intros s5 ? ? ->. lookstep.
  eapply yields_bind with (R := fun b w' => b = true -> w' = set Previous None w1).
  { destruct s5; cbn [negb]; [|apply yields_ret; discriminate]. destruct (get Previous w1) as [pd|] eqn:PD.
    - eapply runs_yields; [apply (remove_directory_ok o Previous (fun _ => True) _ w1 pd PD); auto|]. intros ? ? ? (_ & H & _). exact H.
    - apply yields_ret. intros _. rewrite <- PD. symmetry. apply set_get. }
  intros cleared n9 w2 E2. destruct cleared; cbn [negb]; [|apply done_other; discriminate]. rewrite (E2 eq_refl). clear E2 w2.
  set (w2 := set Previous None w1).
  eapply yields_bind; [apply (rename_moves Active Previous n9 w2 old); [discriminate|exact A1|reflexivity|exact N1]|].
  intros r1 n10 w3 E3. destruct r1; cbn [negb]; [|apply done_other; discriminate]. rewrite (E3 eq_refl). clear E3 w3.
  set (w3 := set Active None (set Previous (Some old) w2)).
  eapply yields_bind; [apply (rename_moves Tmp Active n10 w3 (new_of d)); [discriminate|exact T1|reflexivity|exact NN]|].
  intros r2 n11 w4 E4. destruct r2; cbn [negb].
  2: { eapply yields_bind; [apply yields_any|]. intros r3 ? ? _. apply done_other. destruct r3; discriminate. }
  rewrite (E4 eq_refl). clear E4 w4. set (w4 := set Tmp None (set Active (Some (new_of d)) w3)).
  eapply yields_bind with (R := fun b w' => b = true -> exists F, mixed w4 F /\ w' = with_final F (if reload then F kernel_file else w_loaded w4) w4).
  { eapply runs_yields; [apply (install_ok o nohome reload w4 (fun _ => True)); auto|].
    intros bb nn ww (_ & _ & F & L & M & E & _ & X) B. exists F. split; [exact M|]. rewrite E, (X B). reflexivity. }
  intros ins n12 w5 E5. destruct ins; cbn [negb].
  2: { eapply yields_bind; [apply yields_any|]. intros r4 ? ? _. destruct r4; cbn [negb]; [|apply done_other; discriminate].
    eapply yields_bind; [apply yields_any|]. intros r5 ? ? _. destruct r5; cbn [negb]; [|apply done_other; discriminate].
    eapply yields_bind; [apply yields_any|]. intros r6 ? ? _. apply done_other. discriminate. }
  destruct (E5 eq_refl) as (F & M & ->). clear E5.
  assert (EW : forall i, F i = w_final w0 i \/ (w_ftmp w0 i <> None /\ F i = w_ftmp w0 i)).
  { intros i. specialize (M i). change (w_final w4 i) with (w_final w1 i) in M. change (w_ftmp w4 i) with (w_ftmp w1 i) in M. rewrite F1, FT1 in M. exact M. }
  destruct save.
  - apply yields_ret. intros j E. injection E as <-. split; [reflexivity|]. split; [reflexivity|]. split; [reflexivity|]. split; [reflexivity|]. split; [exact EW|].
    cbn. destruct reload; [reflexivity|exact L1].
  - eapply yields_bind.
    { eapply runs_yields with (R := fun b w' => b = true -> w' = set Previous None _); [apply (remove_directory_ok o Previous (fun _ => True) n12 _ old); [reflexivity|auto]|].
      intros ? ? ? (_ & H & _). exact H. }
    intros gone n13 w6 E6. destruct gone; [|apply done_other; discriminate]. rewrite (E6 eq_refl). apply yields_ret. intros j E. injection E as <-.
    split; [reflexivity|]. split; [reflexivity|]. split; [reflexivity|]. split; [reflexivity|]. split; [exact EW|]. cbn. destruct reload; [reflexivity|exact L1].
Qed.
End Move.

Lemma commit_anywhere o nohome reload save w0 old d k w' l : w_active w0 = Some old -> w_tmp w0 = Some d -> NoDup (map fst old) -> NoDup (map fst d) ->
  exec (commit_sandbox o nohome reload save) w0 = (Committed k, w', l) ->
  exists new, numbered d new k /\ w_active w' = Some new /\ w_tmp w' = None /\ w_prev w' = (if save then Some old else None) /\ each_whole w0 w' /\
    w_loaded w' = (if reload then w_final w' kernel_file else w_loaded w0).
Proof.
  intros A T N1 N2 E. pose proof (commit_moves o nohome reload save w0 old d 0 A T N1 N2 [w0]) as H. unfold exec in E.
  destruct (commit_sandbox o nohome reload save (mkSt 0 w0 [w0])) as [r s]. injection E as -> <- _. destruct (H k eq_refl) as (-> & H1).
  exists (new_of d). split; [apply numbered_new|exact H1].
Qed.

(** ** Preparing a sandbox *)
Section Sandbox.
Context (o : nat -> sysret).
Definition only_tmp (w0 w : world) : Prop := exists d, w = set Tmp d w0.
Lemma copy_loop_sandbox w0 l : forall n w d0, only_tmp w0 w -> w_tmp w = Some d0 -> NoDup (map fst (d0 ++ l)) ->
  runs n w (copy_loop o Tmp l) (only_tmp w0) (fun b n' w' => only_tmp w0 w' /\ exists d', w_tmp w' = Some d' /\ (b = true -> d' = d0 ++ l)).
Proof.
  induction l as [|[x c] l IH]; intros n w d0 (d & ->) T ND; cbn [copy_loop].
  - apply runs_ret. split; [exists d; reflexivity|]. exists d0. split; [exact T|]. intros _. rewrite app_nil_r. reflexivity.
  - assert (STOP : forall n1, runs n1 (set Tmp d w0) (ret false) (only_tmp w0) (fun b n' w' => only_tmp w0 w' /\ exists d', w_tmp w' = Some d' /\ (b = true -> d' = d0 ++ (x, c) :: l))).
    { intros n1. apply runs_ret. split; [exists d; reflexivity|]. exists d0. split; [exact T|discriminate]. }
    apply runs_bind, (runs_sys o); intros _; cbn [negb]; [|apply STOP]. apply runs_bind, (runs_sys o); intros _; cbn [negb]; [|apply STOP].
    cbn in T. subst d. apply runs_bind, runs_upd; [eexists; rewrite set_set; reflexivity|]. rewrite set_set, get_set. cbn [option_map].
    rewrite put_new. 2: { rewrite map_app in ND. cbn [map fst] in ND. apply NoDup_remove_2 in ND. intros X. apply ND. apply in_app_iff. left. exact X. }
    eapply runs_conseq; [apply (IH _ _ (d0 ++ [(x, c)])); [eexists; reflexivity|reflexivity|rewrite <- app_assoc; exact ND]|].
    intros b n' w' (H & d' & T' & E). split; [exact H|]. exists d'. split; [exact T'|]. intros B. rewrite (E B), <- app_assoc. reflexivity.
Qed.
Lemma remove_tmp w0 n w (Q : bool -> nat -> world -> Prop) : only_tmp w0 w -> (forall b n' w', only_tmp w0 w' -> (b = true -> w_tmp w' = None) -> Q b n' w') ->
  runs n w (remove_directory o Tmp) (only_tmp w0) Q.
Proof.
  intros (d & ->) H. destruct d as [d|].
  - eapply runs_conseq; [apply (remove_directory_ok o Tmp (only_tmp w0) n (set Tmp (Some d) w0) d); [apply get_set|intros d'; exists d'; apply set_set]|].
    intros b n' w' (_ & E1 & E2). apply H.
    + destruct b; [rewrite (E1 eq_refl); exists None; apply set_set|]. destruct (E2 eq_refl) as [(d' & ->) _]. exists (Some d'). apply set_set.
    + intros B. rewrite (E1 B). reflexivity.
  - unfold remove_directory. apply runs_bind, (runs_sys o); intros _; apply runs_bind, runs_look; rewrite get_set; apply runs_ret; apply H; try discriminate; exists None; reflexivity.
Qed.
Lemma sandbox_ok w0 c n : w_active w0 = Some c -> NoDup (map fst c) ->
  runs n w0 (make_sandbox o) (only_tmp w0) (fun b n' w' => only_tmp w0 w' /\ (b = true -> w_tmp w' = Some c)).
Proof.
  intros A ND. unfold make_sandbox. assert (O0 : only_tmp w0 w0) by (exists (w_tmp w0); symmetry; apply (set_get Tmp)).
  apply runs_bind, (runs_sys o). 
  all: intros _; apply runs_bind, runs_look, runs_bind.
  all: assert (REST : forall n1 w1 (cleared : bool), only_tmp w0 w1 ->
    runs n1 w1 (if negb cleared then ret false else do b <- sys o; if negb b then remove_directory o Tmp ;; ret false
       else upd (set Tmp (Some [])) ;; do x <- copy_dir o Active Tmp; if x then ret true else remove_directory o Tmp ;; ret false)
     (only_tmp w0) (fun b n' w' => only_tmp w0 w' /\ (b = true -> w_tmp w' = Some c))).
  1, 3: intros n1 w1 cleared O1; destruct cleared; cbn [negb]; [|apply runs_ret; split; [exact O1|discriminate]];
    apply runs_bind, (runs_sys o); intros _; cbn [negb];
    [|apply runs_bind, (remove_tmp w0); [exact O1|]; intros b n' w' H _; apply runs_ret; split; [exact H|discriminate]];
    destruct O1 as (d & ->); apply runs_bind, runs_upd; [exists (Some []); apply set_set|]; rewrite set_set; apply runs_bind;
    unfold copy_dir; apply runs_bind, (runs_sys o); intros _; apply runs_bind, runs_look; change (get Active (set Tmp (Some []) w0)) with (w_active w0); rewrite A; cbn [negb].
  1, 3: apply runs_bind, runs_look; change (get Tmp (set Tmp (Some []) w0)) with (Some (@nil (N * file))); apply runs_bind, runs_ret; cbn [negb];
    (eapply runs_conseq; [apply (copy_loop_sandbox w0 c _ _ []); [exists (Some []); reflexivity|reflexivity|exact ND]|]);
    intros b n' w' (H & d' & T' & E); destruct b;
    [apply runs_ret; split; [exact H|]; intros _; rewrite T', (E eq_refl); reflexivity|];
    apply runs_bind, (remove_tmp w0); [exact H|]; intros b n2 w2 H2 _; apply runs_ret; split; [exact H2|discriminate].
  1, 2: apply runs_ret; apply runs_bind, (remove_tmp w0); [exists (Some []); reflexivity|]; intros b n2 w2 H2 _; apply runs_ret; split; [exact H2|discriminate].
  all: destruct (get Tmp w0) as [t|].
  - apply (remove_tmp w0); [exact O0|]. intros b n' w' H _. apply REST. exact H.
  - apply runs_ret. apply REST. exact O0.
  - apply runs_ret. apply REST. exact O0.
  - apply runs_ret. apply REST. exact O0.
Qed.
End Sandbox.
Lemma sandbox_exec o w0 c b w' l : w_active w0 = Some c -> NoDup (map fst c) -> exec (make_sandbox o) w0 = (b, w', l) ->
  (b = true -> w_tmp w' = Some c) /\ forall w, In w l -> exists d, w = set Tmp d w0.
Proof.
  intros A ND E. pose proof (runs_exec _ w0 _ _ (sandbox_ok o w0 c 0 A ND)) as H. rewrite E in H.
  destruct H as [(n' & _ & H1) H2]; [exists (w_tmp w0); symmetry; apply (set_get Tmp)|]. split; [exact H1|]. apply Forall_forall, H2.
Qed.
