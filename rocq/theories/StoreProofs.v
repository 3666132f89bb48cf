(** Proofs about commits. *)
From Verif Require Import Base StoreModel StoreSpec.

Section Store.
Context (o : nat -> sysret).
Definition fail (n n' : nat) : Prop := exists k, (n <= k < n')%nat /\ o k <> SOk.

Definition runs {A} (n : nat) (w : world) (c : M A) (I : world -> Prop) (Q : A -> nat -> world -> Prop) : Prop :=
  forall lg, let (a, s) := c (mkSt n w lg) in Q a (s_n s) (s_w s) /\ exists l, s_log s = l ++ lg /\ Forall I l.
Lemma runs_ret {A} n w (a : A) I (Q : A -> nat -> world -> Prop) : Q a n w -> runs n w (ret a) I Q.
Proof. intros H lg. cbn. split; [exact H|]. exists []. split; [reflexivity|constructor]. Qed.
Lemma runs_bind {A B} n w (c : M A) (k : A -> M B) I Q : runs n w c I (fun a n' w' => runs n' w' (k a) I Q) -> runs n w (bind c k) I Q.
Proof.
  intros H lg. specialize (H lg). unfold bind. destruct (c (mkSt n w lg)) as [a s] eqn:E. destruct H as [H (l & L & F)]. specialize (H (s_log s)). destruct s as [n1 w1 lg1]. cbn [s_n s_w s_log] in *.
  destruct (k a (mkSt n1 w1 lg1)) as [b s2]. destruct H as [Q2 (l2 & L2 & F2)]. split; [exact Q2|]. exists (l2 ++ l). rewrite L2, L, app_assoc. split; [reflexivity|]. apply Forall_app. auto.
Qed.
Lemma runs_conseq {A} n w (c : M A) I (Q Q' : A -> nat -> world -> Prop) : runs n w c I Q -> (forall a n' w', Q a n' w' -> Q' a n' w') -> runs n w c I Q'.
Proof. intros H G lg. specialize (H lg). destruct (c _) as [a s]. destruct H as [H L]. split; [apply G, H|exact L]. Qed.
Lemma runs_sys n w I (Q : bool -> nat -> world -> Prop) : (o n = SOk -> Q true (S n) w) -> (o n <> SOk -> Q false (S n) w) -> runs n w (sys o) I Q.
Proof.
  intros H1 H2 lg. unfold sys, bind, ask, ret. cbn [s_n s_w s_log]. split; [|exists []; split; [reflexivity|constructor]].
  destruct (o n) eqn:E; [apply H1; reflexivity|apply H2; discriminate|apply H2; discriminate].
Qed.
Lemma runs_upd n w f (I : world -> Prop) (Q : unit -> nat -> world -> Prop) : I (f w) -> Q tt n (f w) -> runs n w (upd f) I Q.
Proof. intros H1 H2 lg. cbn. split; [exact H2|]. exists [f w]. split; [reflexivity|]. constructor; [exact H1|constructor]. Qed.
Lemma runs_look {A} n w (f : world -> A) I (Q : A -> nat -> world -> Prop) : Q (f w) n w -> runs n w (look f) I Q.
Proof. intros H lg. cbn. split; [exact H|]. exists []. split; [reflexivity|constructor]. Qed.

Lemma fail_in n k n' : (n <= k < n')%nat -> o k <> SOk -> fail n n'.
Proof. intros H E. exists k. auto. Qed.
Lemma fail_widen n n' m m' : fail n n' -> (m <= n)%nat -> (n' <= m')%nat -> fail m m'.
Proof. intros (k & H & E) A B. exists k. split; [lia|exact E]. Qed.
Lemma set_set p a b w : set p a (set p b w) = set p a w.
Proof. destruct p, w; reflexivity. Qed.
Lemma get_set p a w : get p (set p a w) = a.
Proof. destruct p, w; reflexivity. Qed.
Lemma set_get p w : set p (get p w) w = w.
Proof. destruct p, w; reflexivity. Qed.

Lemma remove_loop_ok p (I : world -> Prop) : forall names n w d, get p w = Some d -> (forall d', I (set p d' w)) ->
  runs n w (remove_loop o p names) I (fun b n' w' => (n <= n')%nat /\ (exists d', w' = set p (Some d') w) /\ (b = false -> fail n n')).
Proof.
  induction names as [|x names IH]; intros n w d G HI; cbn [remove_loop].
  - apply runs_ret. split; [lia|]. split; [|discriminate]. exists d. rewrite <- G, set_get. reflexivity.
  - apply runs_bind, runs_sys; intros E1; cbn [negb].
    2: { apply runs_ret. split; [lia|]. split; [exists d; rewrite <- G, set_get; reflexivity|]. intros _. apply (fail_in n n); [lia|exact E1]. }
    apply runs_bind, runs_sys; intros E2; cbn [negb].
    2: { apply runs_ret. split; [lia|]. split; [exists d; rewrite <- G, set_get; reflexivity|]. intros _. apply (fail_in n (S n)); [lia|exact E2]. }
    apply runs_bind, runs_upd; [apply HI|]. rewrite G. cbn [option_map]. eapply runs_conseq; [apply (IH _ _ (del_file x d))|].
    + apply get_set.
    + intros d'. rewrite set_set. apply HI.
    + intros b n' w' (L & (d' & ->) & F). split; [lia|]. rewrite set_set. split; [exists d'; reflexivity|]. intros B. eapply fail_widen; [apply F, B|lia|lia].
Qed.
Lemma remove_directory_ok p (I : world -> Prop) n w d : get p w = Some d -> (forall d', I (set p d' w)) ->
  runs n w (remove_directory o p) I (fun b n' w' => (n <= n')%nat /\ (b = true -> w' = set p None w) /\ (b = false -> (exists d', w' = set p (Some d') w) /\ fail n n')).
Proof.
  intros G HI. unfold remove_directory. apply runs_bind, runs_sys; intros E1; apply runs_bind, runs_look; rewrite G; cbn [negb].
  2: { apply runs_ret. split; [lia|]. split; [discriminate|]. intros _. split; [exists d; rewrite <- G, set_get; reflexivity|]. apply (fail_in n n); [lia|exact E1]. }
  apply runs_bind. eapply runs_conseq; [apply (remove_loop_ok p I _ _ w d G HI)|]. intros b n' w' (L & (d' & ->) & F). destruct b; cbn [negb].
  2: { apply runs_ret. split; [lia|]. split; [discriminate|]. intros _. split; [exists d'; reflexivity|]. eapply fail_widen; [apply F; reflexivity|lia|lia]. }
  apply runs_bind, runs_sys; intros E2.
  - apply runs_bind, runs_upd; [rewrite set_set; apply HI|]. apply runs_ret. split; [lia|]. split; [intros _; apply set_set|discriminate].
  - apply runs_ret. split; [lia|]. split; [discriminate|]. intros _. split; [exists d'; reflexivity|]. apply (fail_in n n'); [lia|exact E2].
Qed.
Lemma sem_rename_ok p q (I : world -> Prop) n w c (Q : bool -> nat -> world -> Prop) : (forall n, o n <> SXdev) -> get p w = Some c -> get q w = None ->
  (o n = SOk -> I (set p None (set q (Some c) w)) /\ Q true (S n) (set p None (set q (Some c) w))) -> (o n <> SOk -> Q false (S n) w) ->
  runs n w (sem_rename o p q) I Q.
Proof.
  intros NX G1 G2 H1 H2. unfold sem_rename, do_rename. apply runs_bind, runs_bind. intros lg. unfold ask. cbn [s_n s_w s_log]. split; [|exists []; split; [reflexivity|constructor]].
  destruct (o n) eqn:E.
  - apply runs_bind, runs_look, runs_bind, runs_look. rewrite G1, G2. destruct (H1 eq_refl) as [I1 Q1]. apply runs_bind, runs_upd; [exact I1|]. apply runs_ret, runs_ret. exact Q1.
  - apply runs_ret, runs_ret. apply H2. discriminate.
  - destruct (NX n E).
Qed.
(** Installing changes only the installed files and the loaded policy. *)
Definition with_final (F : N -> option file) (L : option file) (w : world) : world := mkW (w_active w) (w_prev w) (w_tmp w) F (w_ftmp w) L.
Definition mixed (w : world) (F : N -> option file) : Prop := forall i, F i = w_final w i \/ (w_ftmp w i <> None /\ F i = w_ftmp w i).
Lemma install_loop_ok nohome w (I : world -> Prop) : forall l n F L, mixed w F -> (forall F', mixed w F' -> I (with_final F' L w)) -> NoDup l ->
  runs n (with_final F L w) (install_loop o nohome l) I (fun b n' w' => (n <= n')%nat /\ (b = false -> fail n n') /\
    exists F', mixed w F' /\ w' = with_final F' L w /\ (forall i, ~ In i l -> F' i = F i) /\
      (~ fail n n' -> forall i c, In i l -> w_ftmp w i = Some c -> ~ (nohome = true /\ i = homedirs_file) -> F' i = Some c)).
Proof.
  induction l as [|x l IH]; intros n F L MX HI ND; cbn [install_loop].
  - apply runs_ret. split; [lia|]. split; [discriminate|]. exists F. split; [exact MX|]. split; [reflexivity|]. split; [reflexivity|]. intros _ i c [].
  - apply NoDup_cons_iff in ND as [NI ND].
    assert (SKIP : forall n0, (n <= n0)%nat -> (forall c, w_ftmp w x = Some c -> fail n n0 \/ (nohome = true /\ x = homedirs_file)) ->
      runs n0 (with_final F L w) (install_loop o nohome l) I (fun b n' w' => (n <= n')%nat /\ (b = false -> fail n n') /\
        exists F', mixed w F' /\ w' = with_final F' L w /\ (forall i, ~ In i (x :: l) -> F' i = F i) /\
          (~ fail n n' -> forall i c, In i (x :: l) -> w_ftmp w i = Some c -> ~ (nohome = true /\ i = homedirs_file) -> F' i = Some c))).
    { intros n0 LE SK. eapply runs_conseq; [apply (IH n0 F L MX HI ND)|]. intros b n' w' (L1 & FB & F' & M1 & E & K & DN). split; [lia|].
      split; [intros B; eapply fail_widen; [apply FB, B|lia|lia]|]. exists F'. split; [exact M1|]. split; [exact E|]. split; [intros i Z; apply K; intros Z2; apply Z; right; exact Z2|].
      intros NF i c [<-|J] FT NH; [|apply DN; try assumption; intros Z; apply NF; eapply fail_widen; [exact Z|lia|lia]].
      exfalso. destruct (SK c FT) as [Z|Z]; [apply NF; eapply fail_widen; [exact Z|lia|lia]|apply NH, Z]. }
    apply runs_bind, runs_sys; intros E1; apply runs_bind, runs_look; change (w_ftmp (with_final F L w) x) with (w_ftmp w x); destruct (w_ftmp w x) as [c|] eqn:FT; cbn [negb].
    3: { apply SKIP; [lia|]. intros c' _. left. apply (fail_in n n); [lia|exact E1]. }
    3: { apply SKIP; [lia|]. intros c' Z. congruence. }
    2: { apply SKIP; [lia|]. intros c' Z. congruence. }
    destruct (nohome && (x =? homedirs_file)) eqn:NH.
    { apply SKIP; [lia|]. intros c' _. right. apply andb_true_iff in NH as [A B]. apply N.eqb_eq in B. auto. }
    assert (STOP : forall n0 k, (n <= k < n0)%nat -> o k <> SOk -> runs n0 (with_final F L w) (ret false) I (fun b n' w' => (n <= n')%nat /\ (b = false -> fail n n') /\
        exists F', mixed w F' /\ w' = with_final F' L w /\ (forall i, ~ In i (x :: l) -> F' i = F i) /\
          (~ fail n n' -> forall i c, In i (x :: l) -> w_ftmp w i = Some c -> ~ (nohome = true /\ i = homedirs_file) -> F' i = Some c))).
    { intros n0 k LK EK. apply runs_ret. split; [lia|]. split; [intros _; apply (fail_in n k); [lia|exact EK]|]. exists F. split; [exact MX|]. split; [reflexivity|]. split; [reflexivity|].
      intros NF. exfalso. apply NF, (fail_in n k); [lia|exact EK]. }
    apply runs_bind, runs_sys; intros E2; cbn [negb]; [|apply (STOP _ (S n)); [lia|exact E2]].
    apply runs_bind, runs_sys; intros E3; cbn [negb]; [|apply (STOP _ (S (S n))); [lia|exact E3]].
    set (F1 := fun j => if j =? x then Some c else F j).
    assert (M1 : mixed w F1).
    { intros i. unfold F1. destruct (N.eqb_spec i x) as [->|_]; [right; rewrite FT; split; [discriminate|reflexivity]|apply MX]. }
    apply runs_bind, runs_upd; [exact (HI F1 M1)|]. change (set_final x c (with_final F L w)) with (with_final F1 L w).
    eapply runs_conseq; [apply (IH _ F1 L M1 HI ND)|]. intros b n' w' (L1 & FB & F' & M2 & E & K & DN). split; [lia|].
    split; [intros B; eapply fail_widen; [apply FB, B|lia|lia]|]. exists F'. split; [exact M2|]. split; [exact E|]. split.
    + intros i Z. rewrite K by (intros Z2; apply Z; right; exact Z2). unfold F1. destruct (N.eqb_spec i x) as [->|_]; [destruct Z; left; reflexivity|reflexivity].
    + intros NF i c' [<-|J] FT' NH'; [|apply DN; try assumption; intros Z; apply NF; eapply fail_widen; [exact Z|lia|lia]].
      rewrite K by exact NI. unfold F1. rewrite N.eqb_refl. congruence.
Qed.
Lemma install_ok nohome reload w (I : world -> Prop) n : (forall F L, mixed w F -> I (with_final F L w)) ->
  runs n w (install_final_tmp o nohome reload) I (fun b n' w' => (n <= n')%nat /\ (b = false -> fail n n') /\
    exists F L, mixed w F /\ w' = with_final F L w /\
      (~ fail n n' -> forall i c, In i final_files -> w_ftmp w i = Some c -> ~ (nohome = true /\ i = homedirs_file) -> F i = Some c) /\
      (b = true -> L = (if reload then F kernel_file else w_loaded w))).
Proof.
  intros HI. assert (EW : w = with_final (w_final w) (w_loaded w) w) by (destruct w; reflexivity).
  assert (MX : mixed w (w_final w)) by (intros i; left; reflexivity). unfold install_final_tmp. apply runs_bind. rewrite EW at 1.
  assert (NDF : NoDup final_files) by (repeat constructor; cbn; intuition discriminate).
  eapply runs_conseq; [apply (install_loop_ok nohome w I final_files n (w_final w) (w_loaded w) MX); [intros F' M'; apply HI, M'|exact NDF]|].
  intros b n' w' (L1 & FB & F & M1 & -> & _ & DN). destruct b; cbn [negb].
  2: { apply runs_ret. split; [lia|]. split; [exact FB|]. exists F, (w_loaded w). split; [exact M1|]. split; [reflexivity|]. split; [exact DN|discriminate]. }
  destruct reload; cbn [negb].
  2: { apply runs_ret. split; [lia|]. split; [discriminate|]. exists F, (w_loaded w). split; [exact M1|]. split; [reflexivity|]. split; [exact DN|reflexivity]. }
  apply runs_bind, runs_sys; intros E.
  - apply runs_bind, runs_upd; [apply HI, M1|]. apply runs_ret. split; [lia|]. split; [discriminate|]. exists F, (F kernel_file). split; [exact M1|]. split; [reflexivity|].
    split; [intros NF; apply DN; intros Z; apply NF; eapply fail_widen; [exact Z|lia|lia]|reflexivity].
  - apply runs_ret. split; [lia|]. split; [intros _; apply (fail_in n n'); [lia|exact E]|]. exists F, (w_loaded w). split; [exact M1|]. split; [reflexivity|].
    split; [intros NF; exfalso; apply NF, (fail_in n n'); [lia|exact E]|discriminate].
Qed.

(** ** The commit *)
Lemma holds_read d n c : holds d n c <-> read_file n d = Some c.
Proof.
  induction d as [|[m x] d IH]; cbn [read_file].
  - split; [intros ([|p a] & b & E & _); discriminate|discriminate].
  - destruct (N.eqb_spec m n) as [->|NE].
    + split.
      * intros ([|p a] & b & E & N); cbn [app] in E; injection E as E1 E2; [congruence|]. subst p. destruct N. left. reflexivity.
      * intros E. injection E as ->. exists [], d. split; [reflexivity|intros []].
    + rewrite <- IH. split.
      * intros ([|p a] & b & E & N); cbn [app] in E; injection E as E1 E2; [congruence|]. subst p. exists a, b. split; [exact E2|]. intros Z. apply N. right. exact Z.
      * intros (a & b & -> & N). exists ((m, x) :: a), b. split; [reflexivity|]. intros [Z|Z]; [cbn in Z; congruence|exact (N Z)].
Qed.
Lemma lacks_read d n : lacks d n <-> read_file n d = None.
Proof.
  unfold lacks. induction d as [|[m x] d IH]; cbn [read_file map fst In]; [tauto|]. destruct (N.eqb_spec m n) as [->|NE]; [split; [intros H; destruct H; left; reflexivity|discriminate]|].
  rewrite <- IH. intuition.
Qed.
Lemma read_put n c d m : read_file m (put_file n c d) = if m =? n then Some c else read_file m d.
Proof.
  induction d as [|[k x] d IH]; cbn [put_file read_file].
  - rewrite (N.eqb_sym n m). reflexivity.
  - destruct (N.eqb_spec k n) as [->|NE]; cbn [read_file].
    + rewrite (N.eqb_sym n m). destruct (m =? n); reflexivity.
    + destruct (N.eqb_spec k m) as [->|NM]; [|exact IH]. rewrite (proj2 (N.eqb_neq _ _) NE). reflexivity.
Qed.
Definition next (d : dir) : file := match read_file commit_num d with Some c => c | None => 0 end + 1.
Definition new_of (d : dir) : dir := put_file commit_num (next d) (put_file commit_num 0 d).
Lemma numbered_new d : numbered d (new_of d) (next d).
Proof.
  unfold numbered, new_of. split; [|split].
  - apply holds_read. rewrite read_put, N.eqb_refl. reflexivity.
  - intros n c NE. rewrite !holds_read, !read_put, !(proj2 (N.eqb_neq _ _) NE). tauto.
  - unfold next. destruct (read_file commit_num d) as [c|] eqn:E; [right; exists c; rewrite holds_read; auto|left; rewrite lacks_read; auto].
Qed.

(** What is known at the end. *)
Definition final_state (w0 : world) (old new : dir) (save nohome reload : bool) (n : nat) (r : outcome) (n' : nat) (w : world) : Prop :=
  match r with
  | Committed k => w_active w = Some new /\ k = next (match w_tmp w0 with Some d => d | None => [] end) /\ each_whole w0 w /\ (~ fail n n' -> installed nohome w0 w) /\ w_loaded w = (if reload then w_final w kernel_file else w_loaded w0) /\
      w_prev w = (if save then Some old else None)
  | Refused | Kept => w_active w = Some old /\ untouched w0 w /\ fail n n'
  | Undone again => w_active w = Some old /\ each_whole w0 w /\ w_prev w = None /\ fail n n'
  | Stuck => whole old new w /\ exists k1 k2, k1 <> k2 /\ o k1 <> SOk /\ o k2 <> SOk
  | Backup_left => w_active w = Some new /\ save = false /\ each_whole w0 w /\ w_loaded w = (if reload then w_final w kernel_file else w_loaded w0) /\ fail n n'
  end.
Lemma commit_ok nohome reload save w0 old d : (forall n, o n <> SXdev) -> w_active w0 = Some old -> w_tmp w0 = Some d ->
  forall n, runs n w0 (commit_sandbox o nohome reload save) (fun w => whole old (new_of d) w /\ each_whole w0 w)
    (final_state w0 old (new_of d) save nohome reload n).
Proof.
  intros NX A0 T0 n. unfold commit_sandbox.
  assert (EW0 : each_whole w0 w0) by (intros i; left; reflexivity).
  assert (UT0 : untouched w0 w0) by (split; reflexivity).
  apply runs_bind, runs_sys; intros E1; apply runs_bind, runs_look; cbn [negb].
  2: { apply runs_ret. cbn. split; [exact A0|]. split; [exact UT0|]. apply (fail_in n n); [lia|exact E1]. }
  change (get Tmp w0) with (w_tmp w0). rewrite T0. fold (next d).
  apply runs_bind, runs_sys; intros E2; cbn [negb].
  2: { apply runs_ret. cbn. split; [exact A0|]. split; [exact UT0|]. apply (fail_in n (S n)); [lia|exact E2]. }
  apply runs_bind, runs_upd; [split; [left; exact A0|exact EW0]|]. change (get Tmp w0) with (w_tmp w0). rewrite T0. cbn [option_map].
  set (w1 := set Tmp (Some (put_file commit_num 0 d)) w0). assert (A1 : w_active w1 = Some old) by exact A0.
  apply runs_bind, runs_sys; intros E3; cbn [negb].
  2: { apply runs_ret. cbn [final_state]. split; [exact A1|]. split; [exact UT0|]. apply (fail_in n (S (S n))); [lia|exact E3]. }
  apply runs_bind, runs_upd; [split; [left; exact A0|exact EW0]|]. change (get Tmp w1) with (Some (put_file commit_num 0 d)). cbn [option_map]. unfold w1. rewrite set_set. clear w1 A1. fold (new_of d).
  set (w1 := set Tmp (Some (new_of d)) w0). assert (A1 : w_active w1 = Some old) by exact A0. assert (T1 : w_tmp w1 = Some (new_of d)) by reflexivity.
  assert (P1 : w_prev w1 = w_prev w0) by reflexivity. assert (F1 : w_final w1 = w_final w0) by reflexivity. assert (FT1 : w_ftmp w1 = w_ftmp w0) by reflexivity. assert (L1 : w_loaded w1 = w_loaded w0) by reflexivity.
  assert (REF : forall w n1 k I, w_active w = Some old -> untouched w0 w -> (n <= k < n1)%nat -> o k <> SOk -> runs n1 w (ret Refused) I (final_state w0 old (new_of d) save nohome reload n)).
  { intros w n1 k I AW UW LK EK. apply runs_ret. cbn. split; [exact AW|]. split; [exact UW|]. apply (fail_in n k); [lia|exact EK]. }
  clearbody w1. set (n3 := S (S (S n))) in *.
  assert (UT1 : untouched w0 w1) by (split; [intros i; rewrite F1; reflexivity|exact L1]).
  apply runs_bind, runs_sys; intros E4.
  2: { apply runs_bind, runs_ret, runs_bind, runs_ret, runs_bind, runs_ret. cbn [negb]. apply (REF _ _ n3); try assumption. subst n3; lia. }
  apply runs_bind, runs_sys; intros E5.
  2: { apply runs_bind, runs_ret, runs_bind, runs_ret. cbn [negb]. apply (REF _ _ (S n3)); try assumption. subst n3; lia. }
  apply runs_bind, runs_sys; intros E6.
  2: { apply runs_bind, runs_ret. cbn [negb]. apply (REF _ _ (S (S n3))); try assumption. subst n3; lia. }
  apply runs_bind, runs_sys; intros E7; cbn [negb].
  2: { apply (REF _ _ (S (S (S n3)))); try assumption. subst n3; lia. }
  apply runs_bind, runs_sys; intros E8; apply runs_bind, runs_look; cbn [negb].
  2: { apply runs_bind, runs_ret. cbn [negb]. apply (REF _ _ (S (S (S (S n3))))); try assumption. subst n3; lia. }
  set (n8 := S (S (S (S (S n3))))) in *. assert (L8 : (n <= n8)%nat) by (subst n8 n3; lia). clearbody n8. clear E1 E2 E3 E4 E5 E6 E7 E8 n3.
  set (I := fun w => whole old (new_of d) w /\ each_whole w0 w).
  (* after clearing the backup *)
  assert (REST : forall n9 w2, (n <= n9)%nat -> w2 = set Previous None w1 ->
    runs n9 w2 (do r1 <- sem_rename o Active Previous;
                      if negb r1 then ret Refused
                      else
                        do r2 <- sem_rename o Tmp Active;
                        if negb r2 then
                          do r3 <- sem_rename o Previous Active; ret (if r3 then Kept else Stuck)
                        else
                          do ins <- install_final_tmp o nohome reload;
                          if negb ins then
                            do r4 <- sem_rename o Active Tmp;
                            if negb r4 then ret Stuck
                            else do r5 <- sem_rename o Previous Active;
                                 if negb r5 then ret Stuck
                                 else do again <- install_final_tmp o nohome reload; ret (Undone again)
                          else if save then ret (Committed (next d))
                          else do gone <- remove_directory o Previous; ret (if gone then Committed (next d) else Backup_left)) I (final_state w0 old (new_of d) save nohome reload n)).
  { intros n9 w2 L9 E2. assert (A2 : w_active w2 = Some old) by (rewrite E2; exact A1). assert (T2 : w_tmp w2 = Some (new_of d)) by (rewrite E2; exact T1). assert (P2 : w_prev w2 = None) by (rewrite E2; reflexivity).
    assert (F2 : w_final w2 = w_final w0) by (rewrite E2; exact F1). assert (FT2 : w_ftmp w2 = w_ftmp w0) by (rewrite E2; exact FT1). assert (LD2 : w_loaded w2 = w_loaded w0) by (rewrite E2; exact L1).
    clear E2. apply runs_bind. apply sem_rename_ok with (c := old); [exact NX|exact A2|exact P2| |].
    2: { intros E. cbn [negb]. apply (REF _ _ n9); try assumption; [split; [intros i; rewrite F2; reflexivity|exact LD2]|lia]. }
    intros _. cbn [negb]. set (w3 := set Active None (set Previous (Some old) w2)).
    split; [split; [right; right; split; [reflexivity|split; [reflexivity|exact T2]]|intros i; left; change (w_final w3 i) with (w_final w2 i); rewrite F2; reflexivity]|].
    apply runs_bind. apply sem_rename_ok with (c := new_of d); [exact NX|exact T2|reflexivity| |].
    2: { intros E. cbn [negb]. apply runs_bind. apply sem_rename_ok with (c := old); [exact NX|reflexivity|reflexivity| |].
      - intros _. split.
        + split; [left; reflexivity|]. intros i. left. cbn. rewrite F2. reflexivity.
        + apply runs_ret. cbn. split; [reflexivity|]. split; [split; [intros i; rewrite F2; reflexivity|exact LD2]|]. apply (fail_in n (S n9)); [lia|exact E].
      - intros E'. apply runs_ret. cbn. split; [right; right; split; [reflexivity|split; [reflexivity|exact T2]]|]. exists (S n9), (S (S n9)). split; [lia|auto]. }
    intros _. cbn [negb]. set (w4 := set Tmp None (set Active (Some (new_of d)) w3)).
    assert (MX : forall w F, w_final w = w_final w0 \/ (each_whole w0 w) -> w_ftmp w = w_ftmp w0 -> mixed w F -> forall i, F i = w_final w0 i \/ (w_ftmp w0 i <> None /\ F i = w_ftmp w0 i)).
    { intros w F HW HF M i. specialize (M i). rewrite HF in M. destruct M as [M|M]; [|right; exact M]. destruct HW as [HW|HW]; [left; congruence|]. rewrite M. apply HW. }
    assert (EW4 : each_whole w0 w4) by (intros i; left; change (w_final w4 i) with (w_final w2 i); rewrite F2; reflexivity).
    split; [split; [right; left; reflexivity|exact EW4]|]. assert (FT4 : w_ftmp w4 = w_ftmp w0) by exact FT2.
    apply runs_bind. eapply runs_conseq; [apply (install_ok nohome reload w4 I)|].
    { intros F L M. split; [right; left; reflexivity|]. intros i. apply (MX w4 F); [left; exact F2|exact FT4|exact M]. }
    intros b n' w' (LN & FB & F & L & M & -> & DN & LD). assert (MF : forall i, F i = w_final w0 i \/ (w_ftmp w0 i <> None /\ F i = w_ftmp w0 i)) by (apply (MX w4 F); [left; exact F2|exact FT4|exact M]).
    destruct b; cbn [negb].
    - destruct save.
      + apply runs_ret. cbn [final_state]. split; [reflexivity|]. split; [rewrite T0; reflexivity|]. split; [exact MF|]. split; [|split; [cbn; rewrite LD by reflexivity; destruct reload; [reflexivity|exact LD2]|reflexivity]].
        intros NF i c IF FT NH. apply DN; [intros Z; apply NF; eapply fail_widen; [exact Z|lia|lia]|exact IF|rewrite FT4; exact FT|exact NH].
      + apply runs_bind. eapply runs_conseq; [apply (remove_directory_ok Previous I n' _ old)|].
        * reflexivity.
        * intros d'. split; [right; left; reflexivity|exact MF].
        * intros b n2 w' (LN2 & BT & BF). apply runs_ret. destruct b; cbn [final_state].
          -- rewrite (BT eq_refl). split; [reflexivity|]. split; [rewrite T0; reflexivity|]. split; [exact MF|]. split; [|split; [cbn; rewrite LD by reflexivity; destruct reload; [reflexivity|exact LD2]|reflexivity]].
             intros NF i c IF FT NH. apply DN; [intros Z; apply NF; eapply fail_widen; [exact Z|lia|lia]|exact IF|rewrite FT4; exact FT|exact NH].
          -- destruct (BF eq_refl) as [(d' & ->) FF]. split; [reflexivity|]. split; [reflexivity|]. split; [exact MF|]. split; [cbn; rewrite LD by reflexivity; destruct reload; [reflexivity|exact LD2]|].
             eapply fail_widen; [exact FF|lia|lia].
    - specialize (FB eq_refl). set (w5 := with_final F L w4). apply runs_bind. apply sem_rename_ok with (c := new_of d); [exact NX|reflexivity|reflexivity| |].
      2: { intros E. cbn [negb]. apply runs_ret. cbn. split; [right; left; reflexivity|]. destruct FB as (k & LK & EK). exists k, n'. split; [lia|auto]. }
      intros _. cbn [negb]. split; [split; [right; right; split; [reflexivity|split; reflexivity]|exact MF]|].
      apply runs_bind. apply sem_rename_ok with (c := old); [exact NX|reflexivity|reflexivity| |].
      2: { intros E. cbn [negb]. apply runs_ret. cbn. split; [right; right; split; [reflexivity|split; reflexivity]|]. destruct FB as (k & LK & EK). exists k, (S n'). split; [lia|auto]. }
      intros _. cbn [negb]. set (w6 := set Previous None (set Active (Some old) (set Active None (set Tmp (Some (new_of d)) w5)))).
      split; [split; [left; reflexivity|exact MF]|]. apply runs_bind. eapply runs_conseq; [apply (install_ok nohome reload w6 I)|].
      { intros F' L' M'. split; [left; reflexivity|]. intros i. apply (MX w6 F'); [right; exact MF|exact FT4|exact M']. }
      intros b n2 w' (LN2 & FB2 & F' & L' & M' & -> & _). apply runs_ret. cbn [final_state]. split; [reflexivity|].
      split; [intros i; apply (MX w6 F'); [right; exact MF|exact FT4|exact M']|]. split; [reflexivity|]. eapply fail_widen; [exact FB|lia|lia]. }
  change (get Previous w1) with (w_prev w1). destruct (w_prev w1) as [pd|] eqn:PD.
  - apply runs_bind. eapply runs_conseq; [apply (remove_directory_ok Previous I n8 w1 pd PD)|].
    + intros d'. split; [left; exact A1|]. intros i. left. change (w_final (set Previous d' w1) i) with (w_final w1 i). rewrite F1. reflexivity.
    + intros b n' w' (LN & BT & BF). destruct b; cbn [negb].
      * apply REST; [lia|apply BT; reflexivity].
      * destruct (BF eq_refl) as [(d' & ->) (k & LK & EK)]. apply (REF _ _ k); [exact A1| |lia|exact EK]. split; [intros i; cbn; rewrite F1; reflexivity|exact L1].
  - apply runs_bind, runs_ret. cbn [negb]. apply REST; [lia|]. rewrite <- PD. symmetry. apply (set_get Previous).
Qed.
End Store.

(** ** Whole runs *)
Lemma runs_exec {A} (c : M A) w I Q : runs 0 w c I Q -> I w ->
  let '(a, w', l) := exec c w in (exists n, Q a n w') /\ Forall I l.
Proof.
  intros H Iw. unfold exec. specialize (H [w]). destruct (c (mkSt 0 w [w])) as [a s]. destruct H as [HQ (l & L & F)]. split; [exists (s_n s); exact HQ|].
  rewrite L. apply Forall_app. split; [exact F|]. constructor; [exact Iw|constructor].
Qed.
Lemma commit_exec o nohome reload save w0 old d r w' l : one_filesystem o -> w_active w0 = Some old -> w_tmp w0 = Some d ->
  exec (commit_sandbox o nohome reload save) w0 = (r, w', l) ->
  (exists n', final_state o w0 old (new_of d) save nohome reload 0 r n' w') /\ (forall w, In w l -> whole old (new_of d) w /\ each_whole w0 w).
Proof.
  intros NX A T E. pose proof (runs_exec _ w0 _ _ (commit_ok o nohome reload save w0 old d NX A T 0)) as H. rewrite E in H.
  destruct H as [H1 H2]; [split; [left; exact A|intros i; left; reflexivity]|]. split; [exact H1|]. apply Forall_forall, H2.
Qed.
