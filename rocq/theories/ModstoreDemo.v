(** Sorting functions as C85 asks for, and a history to try the theorems on. *)
From Verif Require Import Base MlsModel ModstoreModel ModstoreSpec ModstoreProofs.
From Coq Require Import Sorted Permutation.
Open Scope list_scope.

Fixpoint insert {A} (key : A -> list N) (x : A) (l : list A) : list A :=
  match l with [] => [x] | y :: r => match scmp (key x) (key y) with Gt => y :: insert key x r | _ => x :: l end end.
Definition isort {A} (key : A -> list N) (l : list A) : list A := fold_right (insert key) [] l.
Lemma insert_perm {A} (key : A -> list N) x l : Permutation (insert key x l) (x :: l).
Proof.
  induction l as [|y l IH]; cbn; [apply Permutation_refl|]. destruct (scmp (key x) (key y)); try apply Permutation_refl.
  eapply Permutation_trans; [apply perm_skip, IH|apply perm_swap].
Qed.
Lemma isort_perm {A} (key : A -> list N) l : Permutation (isort key l) l.
Proof. induction l as [|x l IH]; [apply Permutation_refl|]. cbn. eapply Permutation_trans; [apply insert_perm|apply perm_skip, IH]. Qed.
Lemma scmp_opp a : forall b, scmp b a = CompOpp (scmp a b).
Proof.
  induction a as [|x a IH]; intros [|y b]; cbn; try reflexivity. rewrite (N.eqb_sym y x). destruct (x =? y); [apply IH|apply N.compare_antisym].
Qed.
Lemma scmp_trans a : forall b c, scmp a b <> Gt -> scmp b c <> Gt -> scmp a c <> Gt.
Proof.
  induction a as [|x a IH]; intros [|y b] [|z c]; cbn; try congruence.
  destruct (N.eqb_spec x y) as [->|XY].
  - destruct (N.eqb_spec y z) as [->|YZ]; [apply IH|]. auto.
  - destruct (N.eqb_spec y z) as [->|YZ].
    + replace (x =? z) with false by lia. auto.
    + rewrite !N.compare_gt_iff. intros A B. replace (x =? z) with false by lia. rewrite N.compare_gt_iff. lia.
Qed.
Lemma isort_sorted {A} (key : A -> list N) l : StronglySorted (fun a b => scmp (key a) (key b) <> Gt) (isort key l).
Proof.
  induction l as [|x l IH]; [constructor|]. change (isort key (x :: l)) with (insert key x (isort key l)). revert IH. generalize (isort key l). clear l. intros l S.
  induction S as [|y l S IH F]; cbn; [constructor; constructor|]. destruct (scmp (key x) (key y)) eqn:E.
  1,2: constructor; [constructor; assumption|]; constructor; [congruence|]; revert F; apply Forall_impl; intros z Z; apply scmp_trans with (key y); [congruence|assumption].
  constructor; [assumption|]. apply Forall_forall. intros z I. apply (Permutation_in _ (insert_perm key x l)) in I. destruct I as [<-|I].
  - rewrite scmp_opp, E. discriminate.
  - rewrite Forall_forall in F. apply F. assumption.
Qed.
Lemma demo_versions : sorts_versions (isort (fun s => s)).
Proof.
  split; [apply isort_perm|]. intros l T. pose proof (isort_sorted (fun s => s) l) as S.
  assert (T' : Forall three_figures (isort (fun s => s) l)).
  { rewrite Forall_forall in T |- *. intros x I. apply T. apply (Permutation_in _ (isort_perm (fun s => s) l)). assumption. }
  revert T'. induction S as [|x m S IH F]; intros T'; [constructor|]. inversion T' as [|? ? TX TM]; subst. constructor; [auto|].
  apply Forall_forall. intros y I. rewrite Forall_forall in F, TM. destruct TX as [L1 F1]. destruct (TM y I) as [L2 F2].
  rewrite vers_figures by congruence. apply F. assumption.
Qed.
Lemma demo_names : sorts_names (isort i_name).
Proof. intros l. split; [apply isort_perm|apply isort_sorted]. Qed.
(** A compiler that cannot compile data beginning with 0. *)
Definition demo_compile (ext data : list N) : option (list N) := match data with 0 :: _ => None | _ => Some (40 :: data) end.
Definition pp : list N := [112; 112].
Definition cil : list N := [99; 105; 108].
(** Module a at 100 and 400, b disabled on installation and then enabled, c disabled, d installed and removed. *)
Definition demo_ops : list mop :=
  [MInstall 100 [97] pp (-1) [1]; MInstall 400 [97] cil (-1) [2]; MInstall 90 [98] pp 0 [3]; MEnable 0 [98] 1; MInstall 5 [99] pp 0 [0];
   MInstall 1000 [97] pp 1 [9]; MInstall 7 [100] pp 0 [4]; MRemove 7 [100]; MRemove 8 [100]; MRebuild false false; MEnable 0 [101] 0].
Definition demo_run (ops : list mop) : mstore * list mop := mrun (isort (fun s => s)) (isort i_name) demo_compile empty_store [] ops.
