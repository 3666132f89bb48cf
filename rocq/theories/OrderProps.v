(** * C71: one order of several statements *)
From Coq Require Import Arith NArith List Bool Lia.
From Verif Require Import OrderModel OrderSpec OrderProofs OrderMore.
Import ListNotations.
Local Open Scope N_scope.

(** The compiler ends; if it makes an order, the order agrees with all the statements, no other one does, classes of unordered
    statements follow as first listed, each symbol is there once and every declared symbol is there. *)
Theorem C71_only declared ordered unordered :
  resolve_order declared ordered unordered <> Endless /\
  forall l, resolve_order declared ordered unordered = Made l ->
    exists l1 l2, l = l1 ++ l2 /\ agrees l1 ordered /\ (forall m, agrees m ordered -> m = l1) /\ Firsts l1 (concat unordered) l2 /\ NoDup l /\ incl declared l.
Proof.
  pose proof (resolve_ok declared ordered unordered) as H. split; [intros E; rewrite E in H; exact H|]. intros l E. rewrite E in H. exact H.
Qed.
Print Assumptions C71_only.
(** (sensitivityorder (1 2 3)) (sensitivityorder (5 6)) (sensitivityorder (3 4 5)), and with unordered classes. *)
Example C71_only_case : resolve_order [6; 4; 1; 2; 3; 5] [[1; 2; 3]; [5; 6]; [3; 4; 5]] [] = Made [1; 2; 3; 4; 5; 6] /\
  resolve_order [1; 2; 3; 7; 8] [[1; 2]; [2; 3]] [[7]; [8; 3; 7]] = Made [1; 2; 3; 7; 8].
Proof. vm_compute. split; reflexivity. Qed.
(** Contradictory or undecided statements are refused. *)
Theorem C71_refuses declared ordered unordered : (forall m, ~ agrees m ordered) \/ (exists m m', agrees m ordered /\ agrees m' ordered /\ m <> m') ->
  resolve_order declared ordered unordered = Refused.
Proof.
  intros H. pose proof (resolve_ok declared ordered unordered) as R. destruct (resolve_order declared ordered unordered) as [l| |]; [|reflexivity|contradiction].
  destruct R as (l1 & l2 & _ & A & U & _). destruct H as [H|(m & m' & A1 & A2 & NE)]; [destruct (H l1 A)|]. destruct NE. rewrite (U m A1), (U m' A2). reflexivity.
Qed.
Print Assumptions C71_refuses.
Example C71_refuses_case : resolve_order [1; 2] [[1; 2]; [2; 1]] [] = Refused /\ resolve_order [1; 2; 3] [[1; 2]; [1; 3]] [] = Refused /\
  (exists m m', agrees m [[1; 2]; [1; 3]] /\ agrees m' [[1; 2]; [1; 3]] /\ m <> m').
Proof.
  split; [vm_compute; reflexivity|]. split; [vm_compute; reflexivity|]. exists [1; 2; 3], [1; 3; 2].
  assert (K : forall a b, a <> b -> a <> 1 -> b <> 1 -> (a = 2 /\ b = 3 \/ a = 3 /\ b = 2) -> agrees [1; a; b] [[1; 2]; [1; 3]]).
  { intros a b NE A B C. split.
    - constructor; [intros [Q|[Q|[]]]; congruence|]. constructor; [intros [Q|[]]; congruence|]. constructor; [intros []|constructor].
    - split.
      + intros x. split.
        * intros [<-|[<-|[<-|[]]]]; [exists [1; 2]; split; [left; reflexivity|left; reflexivity]| |].
          -- destruct C as [[-> ->]|[-> ->]]; [exists [1; 2]|exists [1; 3]]; (split; [cbn; auto|cbn; auto]).
          -- destruct C as [[-> ->]|[-> ->]]; [exists [1; 3]|exists [1; 2]]; (split; [cbn; auto|cbn; auto]).
        * intros (s & [<-|[<-|[]]] & [<-|[<-|[]]]); destruct C as [[-> ->]|[-> ->]]; cbn; auto.
      + constructor; [|constructor; [|constructor]]; apply Among_take; destruct C as [[-> ->]|[-> ->]]; first [apply Among_take; constructor|apply Among_skip, Among_take; constructor]. }
  split; [apply K; [discriminate..|left; split; reflexivity]|]. split; [apply K; [discriminate..|right; split; reflexivity]|discriminate].
Qed.
(** The sequence of the statements does not change the order that is made. *)
Theorem C71_sequence declared o1 o2 l1 l2 : (forall s, In s o1 <-> In s o2) -> resolve_order declared o1 [] = Made l1 -> resolve_order declared o2 [] = Made l2 -> l1 = l2.
Proof.
  intros P E1 E2. pose proof (resolve_ok declared o1 []) as H1. pose proof (resolve_ok declared o2 []) as H2. rewrite E1 in H1. rewrite E2 in H2.
  destruct H1 as (a1 & b1 & -> & A1 & _ & F1 & _). destruct H2 as (a2 & b2 & -> & _ & U2 & F2 & _). cbn in F1, F2. inversion F1. inversion F2. subst. rewrite !app_nil_r. apply U2.
  destruct A1 as (D & I & M). split; [exact D|]. split.
  - intros x. rewrite I. split; intros (s & J & K); exists s; (split; [apply P; exact J|exact K]).
  - rewrite Forall_forall in *. intros s J. apply M, P, J.
Qed.
Print Assumptions C71_sequence.
Example C71_sequence_case : resolve_order [1; 2; 3; 4] [[1; 2]; [3; 4]; [2; 3]] [] = Made [1; 2; 3; 4] /\ resolve_order [1; 2; 3; 4] [[3; 4]; [2; 3]; [1; 2]] [] = Made [1; 2; 3; 4].
Proof. vm_compute. split; reflexivity. Qed.
(** An order is found, in whatever sequence the statements are, if each of them is a run of neighbours of it and any two
    neighbours are neighbours in one of them. *)
Theorem C71_found_partial m declared ordered unordered : NoDup m -> (forall s, In s ordered -> run_of s m) ->
  (forall a b, next_to a b m -> exists s, In s ordered /\ next_to a b s) -> (forall x, In x m -> exists s, In s ordered /\ In x s) -> incl declared (m ++ concat unordered) ->
  exists l2, resolve_order declared ordered unordered = Made (m ++ l2) /\ Firsts m (concat unordered) l2.
Proof. intros D R N C I. apply resolve_run; assumption. Qed.
Print Assumptions C71_found_partial.
Example C71_found_case : let m := [1; 2; 3] in let os := [[2; 3]; [1; 2]] in NoDup m /\ (forall s, In s os -> run_of s m) /\ (forall a b, next_to a b m -> exists s, In s os /\ next_to a b s).
Proof.
  cbv zeta. split; [|split].
  - constructor; [intros [Q|[Q|[]]]; discriminate|]. constructor; [intros [Q|[]]; discriminate|]. constructor; [intros []|constructor].
  - intros s [<-|[<-|[]]]; [exists [1], []; reflexivity|exists [], [3]; reflexivity].
  - intros a b (l1 & l2 & E). destruct l1 as [|x [|y [|z [|]]]]; cbn in E; try discriminate.
    + injection E as -> -> ->. exists [a; b]. split; [right; left; reflexivity|exists [], []; reflexivity].
    + injection E as -> -> -> <-. exists [a; b]. split; [left; reflexivity|exists [], []; reflexivity].
Qed.
(** In general it is not: (1 2 3) (4 1) (4 2) makes 4 1 2 3, (1 2 3) (4 2) (4 1) is refused. *)
Theorem C71_refuted_found : resolve_order [1; 2; 3; 4] [[1; 2; 3]; [4; 1]; [4; 2]] [] = Made [4; 1; 2; 3] /\ resolve_order [1; 2; 3; 4] [[1; 2; 3]; [4; 2]; [4; 1]] [] = Refused.
Proof. vm_compute. split; reflexivity. Qed.
Print Assumptions C71_refuted_found.
(** The value of a category grows with the order: one listed before another in a statement has the smaller value. *)
Theorem C71_values declared ordered l s x y : resolve_order declared ordered [] = Made l -> In s ordered -> Among [x; y] s ->
  exists vx vy, value_from 0 l x = Some vx /\ value_from 0 l y = Some vy /\ vx < vy.
Proof.
  intros E J A. pose proof (resolve_ok declared ordered []) as H. rewrite E in H. destruct H as (l1 & l2 & -> & (D & _ & F) & _ & R & _). inversion R. subst. rewrite app_nil_r.
  rewrite Forall_forall in F. pose proof (among_trans _ _ _ A (F s J)) as B. clear - D B. generalize 0 as v. induction l1 as [|z l IH]; intros v; [inversion B|].
  apply NoDup_cons_iff in D as [D1 D2]. cbn [value_from]. inversion B as [|u t q B'|u t q B']; subst.
  - rewrite N.eqb_refl. assert (Y : In y l) by (eapply among_in; [exact B'|left; reflexivity]). destruct (N.eqb_spec y z) as [->|NE]; [contradiction|].
    assert (G : forall l v, In y l -> exists w, value_from v l y = Some w /\ v <= w).
    { clear. induction l as [|z l IH]; intros v Y; [destruct Y|]. cbn [value_from]. destruct (N.eqb_spec y z) as [->|NE]; [exists v; split; [reflexivity|lia]|]. destruct Y as [Y|Y]; [congruence|]. destruct (IH (v + 1) Y) as (w & -> & L). exists w. split; [reflexivity|lia]. }
    destruct (G l (v + 1) Y) as (w & -> & L). exists v, w. split; [reflexivity|]. split; [reflexivity|lia].
  - assert (X : In x l) by (eapply among_in; [exact B'|left; reflexivity]). assert (Y : In y l) by (eapply among_in; [exact B'|right; left; reflexivity]).
    destruct (N.eqb_spec x z) as [->|NX]; [contradiction|]. destruct (N.eqb_spec y z) as [->|NY]; [contradiction|]. apply IH; assumption.
Qed.
Print Assumptions C71_values.
