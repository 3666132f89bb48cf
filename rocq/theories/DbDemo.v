(** Concrete cases for the record databases. *)
From Verif Require Import Base LabelModel LabelSpec LabelProofs DbModel DbSpec DbProofs DbJoinProofs.
From Coq Require Import Sorted Permutation.

(** Numbered records. *)
Definition rec : Type := N * N.
Definition rcmp (r : rec) (k : N) : comparison := fst r ?= k.
Lemma rcmp_key r k : rcmp r k = Eq <-> fst r = k.
Proof. apply N.compare_eq_iff. Qed.
Definition empty {R} : llist R := mkLl (fun _ => None) 0 None None 0 (-1) false.

(** Sorting by insertion. *)
Section Isort.
Context {A : Type} (name : A -> list N).
Fixpoint ins (x : A) (l : list A) : list A := match l with [] => [x] | y :: l' => match scmp (name x) (name y) with Gt => y :: ins x l' | _ => x :: l end end.
Definition isort (l : list A) : list A := fold_right ins [] l.
Lemma scmp_text a b : scmp a b <> Gt -> text_le a b.
Proof.
  revert b. induction a as [|x a IH]; intros [|y b] H; cbn in H; [constructor|constructor|congruence|]. destruct (N.compare_spec x y); [subst; apply text_eq, IH, H|apply text_lt; assumption|congruence].
Qed.
Lemma text_trans a b c : text_le a b -> text_le b c -> text_le a c.
Proof.
  intros H. revert c. induction H as [b|x y a b L|x a b H IH]; intros c G; [constructor| |]; inversion G; subst.
  - apply text_lt. lia.
  - apply text_lt. exact L.
  - apply text_lt. assumption.
  - apply text_eq. apply IH. assumption.
Qed.
Let le (a b : A) := text_le (name a) (name b).
Lemma ins_perm x l : Permutation (x :: l) (ins x l).
Proof. induction l as [|y l IH]; cbn; [reflexivity|]. destruct (scmp _ _); try reflexivity. rewrite perm_swap. constructor. exact IH. Qed.
Lemma ins_sorted x l : StronglySorted le l -> StronglySorted le (ins x l).
Proof.
  induction 1 as [|y l S IH F]; cbn [ins]; [repeat constructor|]. destruct (scmp (name x) (name y)) eqn:C.
  1,2: assert (L : le x y) by (apply scmp_text; congruence); constructor; [constructor; assumption|]; constructor; [exact L|]; eapply Forall_impl; [|exact F]; intros z Z; eapply text_trans; eassumption.
  constructor; [exact IH|]. assert (L : le y x) by (apply scmp_text; rewrite scmp_anti, C; discriminate).
  eapply Permutation_Forall; [apply ins_perm|]. constructor; assumption.
Qed.
Lemma isort_ok : sorts_by name isort.
Proof.
  intros l. split; induction l as [|x l IH]; cbn [isort fold_right]; [reflexivity| |constructor|].
  - rewrite <- ins_perm. constructor. exact IH.
  - apply ins_sorted. exact IH.
Qed.
End Isort.

(** Two tables of users. *)
Definition ann : list N := [97]. Definition bob : list N := [98]. Definition cat : list N := [99].
Definition bases : list ubase := [mkUb cat (Some [115]) (Some [115]) [[114]]; mkUb ann None None [[114]; [115]]].
Definition extras : list uextra := [mkUe bob [112]; mkUe ann [113]].
Definition jempty : jdb := mkJ empty empty empty.
Definition zed : user := mkU [122] (mkUb [122] None None [[114]]) (mkUe [122] [112]).
