(** Role attributes expand to the roles they contain (C68). *)
From Verif Require Import Base MlsModel ContextModel RoleattrModel RoleattrSpec RoleattrProofs.

(** If no attribute contains itself through others, expansion terminates, for every order [l] of the roles that
    includes all attributes; then each attribute holds exactly the roles that were in it directly or through other
    attributes, and the sets of other roles are unchanged. [n]: the number of roles; role 0 is object_r. *)
Theorem C68_expanded :
  forall attr R rank n l, attr 0 = false -> (forall i j, N.testbit (R i) j = true -> j < N.of_nat n) -> ranked attr R rank ->
  (forall i, attr i = true -> In i l) ->
  exists R' fuel0, (forall fuel, (fuel0 <= fuel)%nat -> exists R'', expand_roles fuel attr R l = Some (ROk R'') /\ forall i, R'' i = R' i) /\
    (forall i, attr i = true -> forall j, N.testbit (R' i) j = true <-> attr j = false /\ within attr R i j) /\
    (forall i, attr i = false -> R' i = R i).
Proof.
  intros attr R rank n l A0 Bd Rk All.
  assert (Ok : forall fuel, (fuel_for rank n <= fuel)%nat -> exists R', expand_roles fuel attr R l = Some (ROk R') /\
    (forall i, attr i = true -> forall j, N.testbit (R' i) j = true <-> attr j = false /\ within attr R i j) /\
    (forall i, attr i = false -> R' i = R i)).
  { intros fuel Hf. destruct (expand_roles_ok attr rank n fuel A0 Hf l R Bd Rk) as (R' & E & W & U & D). exists R'. split; [exact E|].
    split; [|exact U]. intros i Ai j. assert (P : forall k, N.testbit (R' i) k = true -> attr k = false) by (apply D; [left; apply All; exact Ai|exact Ai]).
    rewrite <- (within_plain attr R' i j P), W. split; [intros H; split; [|exact H]|tauto].
    apply P. apply (within_plain attr R' i j P). apply W. exact H. }
  destruct (Ok (fuel_for rank n) (Nat.le_refl _)) as (R' & E & W & U). exists R', (fuel_for rank n). split; [|split; [exact W|exact U]].
  intros fuel Hf. destruct (Ok fuel Hf) as (R'' & E' & W' & U'). exists R''. split; [exact E'|]. intros i. destruct (attr i) eqn:Ai.
  - apply N.bits_inj. intros j. specialize (W i Ai j). specialize (W' i Ai j).
    destruct (N.testbit (R'' i) j), (N.testbit (R' i) j); try reflexivity; [symmetry; apply W; apply W'; reflexivity|apply W'; apply W; reflexivity].
  - rewrite U, U' by exact Ai. reflexivity.
Qed.
Print Assumptions C68_expanded.

(** Attributes 1, 2, 3: 1 contains 2, 3 and role 5; 2 contains 3 and role 70; 3 contains role 6. Role 4 has a set of its own. *)
Definition case_attr (i : N) : bool := (1 <=? i) && (i <=? 3).
Definition case_sets (i : N) : N :=
  if i =? 1 then 2 ^ 2 + 2 ^ 3 + 2 ^ 5 else if i =? 2 then 2 ^ 3 + 2 ^ 70 else if i =? 3 then 2 ^ 6 else if i =? 4 then 2 ^ 1 else 0.
Example C68_case : exists R' fuel0, (forall fuel, (fuel0 <= fuel)%nat -> exists R'', expand_roles fuel case_attr case_sets [0; 2; 1; 4; 3] = Some (ROk R'') /\ forall i, R'' i = R' i) /\
    (forall i, case_attr i = true -> forall j, N.testbit (R' i) j = true <-> case_attr j = false /\ within case_attr case_sets i j) /\
    (forall i, case_attr i = false -> R' i = case_sets i).
Proof.
  apply (C68_expanded case_attr case_sets (fun i => N.to_nat (4 - i)) 71).
  - reflexivity.
  - intros i j H. unfold case_sets in H. apply bit_below_size in H.
    destruct (i =? 1); [|destruct (i =? 2); [|destruct (i =? 3); [|destruct (i =? 4)]]]; vm_compute N.size in H; lia.
  - intros i k Ai Ak H. unfold case_attr in Ai, Ak. unfold case_sets in H.
    assert (K : k = 1 \/ k = 2 \/ k = 3) by lia. assert (J : i = 1 \/ i = 2 \/ i = 3) by lia.
    destruct K as [->|[->| ->]], J as [->|[->| ->]]; vm_compute in H; try discriminate; vm_compute; lia.
  - intros i Ai. unfold case_attr in Ai. assert (J : i = 1 \/ i = 2 \/ i = 3) by lia. cbn. lia.
Qed.
Example C68_case_value : exists R', expand_roles 20 case_attr case_sets [0; 2; 1; 4; 3] = Some (ROk R') /\
  map R' [1; 2; 3; 4] = [2 ^ 5 + 2 ^ 6 + 2 ^ 70; 2 ^ 6 + 2 ^ 70; 2 ^ 6; 2 ^ 1].
Proof. eexists. split; [vm_compute; reflexivity|vm_compute; reflexivity]. Qed.

(** Not true of attributes that contain each other, which the policy compiler accepts: two attributes
    with nothing else in them make the expansion read freed memory. *)
Theorem C68_refuted_freed :
  exists attr R l, attr 0 = false /\ (forall i, attr i = true -> In i l) /\ attr 1 = true /\ attr 2 = true /\ R 1 = 2 ^ 2 /\ R 2 = 2 ^ 1 /\
    exists fuel, expand_roles fuel attr R l = Some RUB.
Proof.
  exists (fun i => (1 <=? i) && (i <=? 2)), (fun i => if i =? 1 then 2 ^ 2 else 2 ^ 1), [0; 1; 2].
  split; [reflexivity|]. split; [intros i H; cbn; lia|]. repeat (split; [reflexivity|]). exists 5%nat. vm_compute. reflexivity.
Qed.
Print Assumptions C68_refuted_freed.

(** And an attribute 1 that contains 2, which contains 3, which contains 2, makes it never end. *)
Theorem C68_refuted_endless :
  exists attr R l, attr 0 = false /\ (forall i, attr i = true -> In i l) /\ R 1 = 2 ^ 2 /\ R 2 = 2 ^ 3 /\ R 3 = 2 ^ 2 /\
    forall fuel, expand_roles fuel attr R l = None.
Proof.
  exists (fun i => (1 <=? i) && (i <=? 3)), (fun i => if i =? 2 then 2 ^ 3 else 2 ^ 2), [1; 2; 3].
  split; [reflexivity|]. split; [intros i H; cbn; lia|]. repeat (split; [reflexivity|]). intros fuel. cbn [expand_roles].
  unfold expand_role. cbn [N.eqb Pos.eqb negb]. change ((1 <=? 1) && (1 <=? 3)) with true. cbn [negb].
  rewrite endless; [reflexivity|reflexivity|reflexivity|left; reflexivity].
Qed.
Print Assumptions C68_refuted_endless.
