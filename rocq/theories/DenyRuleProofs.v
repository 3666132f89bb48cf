(** * Proofs about deny rules: one rule against one deny rule *)
From Coq Require Import NArith List Bool Lia Btauto.
From Verif Require Import Base DenyModel DenySpec DenyProofs.
Import ListNotations.
Local Open Scope N_scope.

(** ** The set operations *)
(** The result of an operation: a good, larger database and the set wanted. *)
Definition yields (D : db) (x : out (db * option datum)) (f : N -> bool) : Prop :=
  exists D' d, x = Good (D', d) /\ ext D D' /\ good D' /\ odatum_ok D' d /\ forall v, v < d_types D -> omem d v = f v.
Lemma make_ok D d types (f : N -> bool) : good D -> (forall v, N.testbit types v = true -> v < d_types D) -> (forall v, v < d_types D -> N.testbit types v = f v) ->
  yields D (make_datum D d types) f.
Proof.
  intros G B F. unfold yields, make_datum. destruct (N.eqb_spec types 0) as [->|NZ].
  - exists D, None. split; [reflexivity|]. split; [apply ext_refl|]. split; [exact G|]. split; [exact I|]. intros v L. cbn. rewrite <- (F v L). symmetry. apply N.bits_0.
  - destruct (N.eqb_spec (popcount types) 1) as [E|NE].
    + exists D, (Some (DType (N.log2 types))). split; [reflexivity|]. split; [apply ext_refl|]. split; [exact G|].
      split; [cbn; apply B; rewrite (popcount_one types E); apply N.eqb_refl|]. intros v L. cbn. rewrite <- (F v L). symmetry. apply popcount_one. exact E.
    + destruct (previously_defined D types d) as [a|] eqn:PD.
      * apply previously_ok in PD as [IA TA]. exists D, (Some (DAttr a)). split; [reflexivity|]. split; [apply ext_refl|]. split; [exact G|]. split; [exact IA|].
        intros v L. cbn. rewrite TA. apply F. exact L.
      * destruct (insert_ok D d types G B) as (D' & a & -> & X & G' & IA & TA). exists D', (Some (DAttr a)). split; [reflexivity|]. split; [exact X|]. split; [exact G'|]. split; [exact IA|].
        intros v L. cbn. rewrite TA. apply F. exact L.
Qed.
Lemma keep_ok D d (f : N -> bool) : good D -> odatum_ok D d -> (forall v, v < d_types D -> omem d v = f v) -> yields D (Good (D, d)) f.
Proof. intros G O F. exists D, d. split; [reflexivity|]. split; [apply ext_refl|]. auto. Qed.
Lemma testbit_ones_lt n v : N.testbit (N.ones n) v = (v <? n).
Proof. destruct (N.ltb_spec v n); [apply N.ones_spec_low; assumption|apply N.ones_spec_high; assumption]. Qed.
Lemma all_and_not_ok D d : good D -> datum_ok D d -> yields D (all_and_not D (Some d)) (fun v => negb (mem d v)).
Proof.
  intros G O. unfold all_and_not, datum_not. destruct d as [w|a| | |]; cbn in O; try contradiction; cbn [bits andthen].
  - apply make_ok; [exact G| |]; intros v; rewrite N.ldiff_spec, testbit_ones_lt, single_bit; cbn [mem].
    + intros E. apply andb_prop in E as [E _]. apply N.ltb_lt in E. exact E.
    + intros L. apply N.ltb_lt in L. rewrite L. reflexivity.
  - apply make_ok; [exact G| |]; intros v; rewrite N.ldiff_spec, testbit_ones_lt; cbn [mem].
    + intros E. apply andb_prop in E as [E _]. apply N.ltb_lt in E. exact E.
    + intros L. apply N.ltb_lt in L. rewrite L. reflexivity.
Qed.
Lemma testbit_if (b : bool) x y v : N.testbit (if b then x else y) v = if b then N.testbit x v else N.testbit y v.
Proof. destruct b; reflexivity. Qed.
Lemma and_not_ok D d1 d2 : good D -> odatum_ok D d1 -> odatum_ok D d2 -> yields D (and_not D d1 d2) (fun v => omem d1 v && negb (omem d2 v)).
Proof.
  intros G O1 O2. unfold and_not. destruct d2 as [e2|]; [|apply keep_ok; [exact G|exact O1|intros v _; cbn; btauto]].
  destruct d1 as [e1|]; [|apply keep_ok; [exact G|exact I|reflexivity]]. cbn in O1, O2. destruct (same e1 e2) eqn:S.
  - pose proof (same_mem D e1 e2 (proj1 G) O1 O2 S). subst e2. apply keep_ok; [exact G|exact I|]. intros v _. cbn. btauto.
  - assert (BM : forall v, mem e1 v = true -> v < d_types D) by (intros v; apply mem_below; [exact (proj1 G)|exact O1]).
    assert (T : exists e, datums_andnot e1 e2 = Good e /\ forall v, N.testbit e v = mem e1 v && negb (mem e2 v)).
    { destruct e1 as [v1|a1| | |]; cbn in O1; try contradiction; destruct e2 as [v2|a2| | |]; cbn in O2; try contradiction; cbn [datums_andnot];
        (eexists; split; [reflexivity|]); intros v; cbn [mem].
      - rewrite testbit_if, N.bits_0, single_bit. destruct (N.eqb_spec v1 v2), (N.eqb_spec v v1), (N.eqb_spec v v2); cbn; try reflexivity; lia.
      - rewrite testbit_if, N.bits_0, single_bit. destruct (N.eqb_spec v v1) as [Q|Q]; [rewrite Q|]; destruct (N.testbit _ v1); reflexivity.
      - rewrite N.clearbit_eqb. rewrite (N.eqb_sym v2 v). reflexivity.
      - apply N.ldiff_spec. }
    destruct T as (e & -> & T). cbn [andthen omem]. apply make_ok; [exact G| |].
    + intros v E. rewrite T in E. apply andb_prop in E as [E _]. apply BM. exact E.
    + intros v _. apply T.
Qed.
Lemma and_both_ok D d1 d2 : good D -> odatum_ok D d1 -> odatum_ok D d2 -> yields D (and_both D d1 d2) (fun v => omem d1 v && omem d2 v).
Proof.
  intros G O1 O2. unfold and_both. destruct d1 as [e1|]; [|apply keep_ok; [exact G|exact I|reflexivity]].
  destruct d2 as [e2|]; [|apply keep_ok; [exact G|exact I|intros v _; cbn; btauto]]. cbn in O1, O2. destruct (same e1 e2) eqn:S.
  - pose proof (same_mem D e1 e2 (proj1 G) O1 O2 S). subst e2. apply keep_ok; [exact G|exact O1|]. intros v _. cbn. btauto.
  - assert (BM : forall v, mem e1 v = true -> v < d_types D) by (intros v; apply mem_below; [exact (proj1 G)|exact O1]).
    assert (T : exists e, datums_and e1 e2 = Good e /\ forall v, N.testbit e v = mem e1 v && mem e2 v).
    { destruct e1 as [v1|a1| | |]; cbn in O1; try contradiction; destruct e2 as [v2|a2| | |]; cbn in O2; try contradiction; cbn [datums_and];
        (eexists; split; [reflexivity|]); intros v; cbn [mem].
      - rewrite testbit_if, N.bits_0, single_bit. destruct (N.eqb_spec v1 v2), (N.eqb_spec v v1), (N.eqb_spec v v2); cbn; try reflexivity; lia.
      - rewrite testbit_if, N.bits_0, single_bit. destruct (N.eqb_spec v v1) as [Q|Q]; [rewrite Q|]; destruct (N.testbit _ v1); reflexivity.
      - rewrite testbit_if, N.bits_0, single_bit. destruct (N.eqb_spec v v2) as [Q|Q]; [rewrite Q|]; destruct (N.testbit (a_types a1) v2); btauto.
      - apply N.land_spec. }
    destruct T as (e & -> & T). cbn [andthen omem]. apply make_ok; [exact G| |].
    + intros v E. rewrite T in E. apply andb_prop in E as [E _]. apply BM. exact E.
    + intros v _. apply T.
Qed.

(** ** What a list of rules grants *)
(** The pairs of a rule, computed; the target is below the number of types. *)
Definition tmem (src tgt : datum) (s t : N) : bool :=
  match tgt with DSelf => t =? s | DNotself => negb (t =? s) | DOther => mem src t && negb (t =? s) | _ => mem tgt t end.
Definition cov (src tgt : datum) (s t : N) : bool := mem src s && tmem src tgt s t.
Lemma pairs_cov n src tgt s t : t < n -> (pairs n src tgt s t <-> cov src tgt s t = true).
Proof.
  intros L. unfold pairs, cov. rewrite andb_true_iff, <- mem_iff. apply and_iff_compat_l.
  destruct tgt; cbn [tmem]; rewrite <- ?mem_iff; rewrite ?andb_true_iff, ?negb_true_iff, ?N.eqb_eq, ?N.eqb_neq; tauto.
Qed.
Section Access.
Context (s t c p : N).
Definition gives (r : avrule) : bool := cov (r_src r) (r_tgt r) s t && class_perm_in c p (r_perms r).
(** What one added rule gives. *)
Definition otmem (src tgt : option datum) : bool := match src, tgt with Some a, Some b => tmem a b s t | _, _ => false end.
Lemma gives_add a b l : existsb gives (add_rule a b l) = omem a s && otmem a b && class_perm_in c p l.
Proof.
  destruct a as [a|], b as [b|]; cbn [add_rule existsb omem otmem andb]; try btauto. unfold gives, cov. cbn [r_src r_tgt r_perms]. btauto.
Qed.
Lemma otmem_plain D a b : odatum_ok D b -> omem a s && otmem a b = omem a s && omem b t.
Proof.
  intros O. destruct a as [a|]; cbn; [|reflexivity]. destruct b as [b|]; cbn; [|btauto]. destruct b; cbn in O; try contradiction; reflexivity.
Qed.
Lemma gives_plain D a b l : odatum_ok D b -> existsb gives (add_rule a b l) = omem a s && omem b t && class_perm_in c p l.
Proof. intros O. rewrite gives_add, (otmem_plain D a b O). reflexivity. Qed.
Lemma gives_self a l : existsb gives (add_rule a (Some DSelf) l) = omem a s && (t =? s) && class_perm_in c p l.
Proof. rewrite gives_add. destruct a; cbn; reflexivity. Qed.
Lemma gives_notself a l : existsb gives (add_rule a (Some DNotself) l) = omem a s && negb (t =? s) && class_perm_in c p l.
Proof. rewrite gives_add. destruct a; cbn; reflexivity. Qed.
Lemma gives_other_rule a l : existsb gives (add_rule a (Some DOther) l) = omem a s && (omem a t && negb (t =? s)) && class_perm_in c p l.
Proof. rewrite gives_add. destruct a; cbn; reflexivity. Qed.
End Access.
Lemma add_other_ok D a l : odatum_ok D a ->
  exists o, add_other a l = Good o /\ (forall r, In r o -> r = mkRule Allowed false (match a with Some d => d | None => DSelf end) DOther l /\ a <> None) /\
    forall s t c p, existsb (gives s t c p) o = omem a s && (omem a t && negb (t =? s)) && class_perm_in c p l.
Proof.
  intros O. unfold add_other. assert (C : exists n, cardinality a = Good n /\ (n <= 1 -> forall v w, omem a v = true -> omem a w = true -> v = w)).
  { destruct a as [d|]; [|exists 0; split; [reflexivity|discriminate]]. destruct d as [v|b| | |]; cbn in O; try contradiction.
    - exists 1. split; [reflexivity|]. intros _ x y X Y. cbn in X, Y. apply N.eqb_eq in X, Y. congruence.
    - exists (popcount (a_types b)). split; [reflexivity|]. intros L x y X Y. cbn in X, Y. eapply popcount_two; eassumption. }
  destruct C as (n & -> & C). cbn [andthen]. destruct (N.ltb_spec 1 n) as [L|L].
  - eexists. split; [reflexivity|]. split; [|intros; apply gives_other_rule]. destruct a as [d|]; cbn; [|tauto]. intros r [<-|[]]. split; [reflexivity|discriminate].
  - exists []. split; [reflexivity|]. split; [intros r []|]. intros s t c p. cbn. destruct (omem a s) eqn:A; [|reflexivity]. destruct (omem a t) eqn:B; [|reflexivity].
    rewrite (C L t s B A), N.eqb_refl. reflexivity.
Qed.

(** Rules that were added name sources and targets that exist. *)
Definition added (D : db) (r : avrule) : Prop := r_kind r = Allowed /\ r_ext r = false /\ datum_ok D (r_src r) /\ target_ok D (r_tgt r).
Lemma added_ext D D' r : ext D D' -> added D r -> added D' r.
Proof. intros X (K & E & S & T). split; [exact K|]. split; [exact E|]. split; [eapply datum_ext; eassumption|eapply target_ext; eassumption]. Qed.
Lemma added_rule D a b l : odatum_ok D a -> (match b with Some d => target_ok D d | None => True end) -> Forall (added D) (add_rule a b l).
Proof. intros A B. destruct a as [a|], b as [b|]; cbn; constructor; [|constructor]. split; [reflexivity|]. split; [reflexivity|]. split; assumption. Qed.
Lemma odatum_target D b : odatum_ok D b -> match b with Some d => target_ok D d | None => True end.
Proof. destruct b; cbn; [left; assumption|auto]. Qed.
Lemma added_other D a l o : odatum_ok D a -> add_other a l = Good o -> Forall (added D) o.
Proof.
  intros O E. destruct (add_other_ok D a l O) as (o' & E' & H & _). rewrite E in E'. inversion E'; subst o'. apply Forall_forall. intros r I. apply H in I as [-> NN].
  destruct a as [d|]; [|congruence]. split; [reflexivity|]. split; [reflexivity|]. split; [exact O|right; right; right; reflexivity].
Qed.

(** ** One step *)
(** The rules [l] added from database [D] on grant [f]. *)
Definition leaves (D : db) (x : out (db * list avrule)) (f : N -> N -> N -> N -> bool) : Prop :=
  exists D' l, x = Good (D', l) /\ ext D D' /\ good D' /\ Forall (added D') l /\
    forall s t c p, s < d_types D -> t < d_types D -> existsb (gives s t c p) l = f s t c p.

Lemma leave D x f : yields D x f -> forall n D0, ext D0 D -> d_types D = n ->
  exists D' d, x = Good (D', d) /\ ext D D' /\ ext D0 D' /\ good D' /\ d_types D' = n /\ odatum_ok D' d /\ forall v, v < n -> omem d v = f v.
Proof.
  intros (D' & d & E & X & G & O & M) n D0 X0 N. exists D', d. split; [exact E|]. split; [exact X|]. split; [eapply ext_trans; eassumption|]. split; [exact G|].
  split; [rewrite (proj1 X); exact N|]. split; [exact O|]. rewrite <- N. exact M.
Qed.
(** A target that is a type or an attribute. *)
Lemma plain_same D d : datum_ok D d -> same d DSelf = false /\ same d DNotself = false /\ same d DOther = false /\ forall src s t, tmem src d s t = mem d t.
Proof. destruct d; cbn; try contradiction; repeat split; reflexivity. Qed.
Definition tadd (a : option datum) (d : datum) (s t : N) : bool :=
  match d with DSelf => t =? s | DNotself => negb (t =? s) | DOther => omem a t && negb (t =? s) | _ => mem d t end.
Lemma gives_target a b l s t c p : existsb (gives s t c p) (add_rule a (Some b) l) = omem a s && tadd a b s t && class_perm_in c p l.
Proof. rewrite gives_add. destruct a; cbn; [|reflexivity]. destruct b; reflexivity. Qed.
Lemma tadd_plain D a d s t : datum_ok D d -> tadd a d s t = mem d t.
Proof. destruct d; cbn; try contradiction; reflexivity. Qed.


(** From one database to the next. *)
Ltac push D X := repeat match goal with
  | H : odatum_ok D _ |- _ => apply (odatum_ext _ _ _ X) in H
  | H : datum_ok D _ |- _ => apply (datum_ext _ _ _ X) in H
  | H : target_ok D _ |- _ => apply (target_ext _ _ _ X) in H
  | H : ext ?D0 D |- _ => apply (fun H => ext_trans _ _ _ H X) in H
  end.
Ltac have L := match type of L with yields ?D ?x ?f => match goal with G : good D, N : d_types D = ?n |- _ =>
    let Y := fresh "Y" in let D' := fresh "D" in let d := fresh "d" in let E := fresh "E" in let X := fresh "X" in let G' := fresh "G" in let N' := fresh "N" in let O := fresh "O" in let M := fresh "M" in
    pose proof L as Y; destruct (leave _ _ _ Y n D (ext_refl D) N) as (D' & d & E & X & _ & G' & N' & O & M); clear Y; rewrite E; clear E; cbn [andthen]; push D X; clear X end end.
(** What must come out, given what is granted already. *)
Definition completes (D0 : db) (x : out (db * list avrule)) (n : N) (already want : N -> N -> N -> N -> bool) : Prop :=
  exists D' l, x = Good (D', l) /\ ext D0 D' /\ good D' /\ Forall (added D') l /\
    forall s t c p, s < n -> t < n -> already s t c p || existsb (gives s t c p) l = want s t c p.
Ltac atoms := repeat match goal with |- context [mem ?d ?v] => let b := fresh "b" in set (b := mem d v); clearbody b end;
  repeat match goal with |- context [class_perm_in ?c ?p ?l] => let b := fresh "b" in set (b := class_perm_in c p l); clearbody b end.
Lemma special_ok D n s1 t1 s2 t2 p4 s3 s4 : good D -> d_types D = n -> datum_ok D s1 -> datum_ok D s2 -> target_ok D t1 -> target_ok D t2 -> odatum_ok D s3 -> odatum_ok D s4 ->
  (forall v, v < n -> omem s3 v = mem s1 v && negb (mem s2 v)) -> (forall v, v < n -> omem s4 v = mem s1 v && mem s2 v) ->
  t1 = DNotself \/ t1 = DOther \/ t2 = DNotself \/ t2 = DOther -> ~ (t1 = DNotself /\ t2 = DNotself) ->
  ~ (t1 = DSelf /\ (t2 = DNotself \/ t2 = DOther)) -> ~ (t2 = DSelf /\ (t1 = DNotself \/ t1 = DOther)) ->
  completes D (special_rule D s1 t1 s2 t2 p4 s3 s4) n (fun s t c p => omem s3 s && tadd s3 t1 s t && class_perm_in c p p4) (fun s t c p => cov s1 t1 s t && negb (cov s2 t2 s t) && class_perm_in c p p4).
Proof.
  intros G N O1 O2 T1 T2 O3 O4 M3 M4 SP N1 N2 N3. unfold special_rule. pose proof (ext_refl D) as X0.
  destruct T1 as [T1|[->|[->| ->]]].
  - destruct (plain_same D t1 T1) as (PA & PB & PC & PT). rewrite PB, PC. have (and_both_ok D s4 (Some t1) G O4 T1).
    destruct T2 as [T2|[->|[->| ->]]].
    + destruct (plain_same D0 t2 T2) as (QA & QB & QC & QT). exfalso. destruct SP as [->|[->|[->| ->]]]; cbn in *; congruence.
    + exfalso. destruct SP as [->|[->|[SP|SP]]]; cbn in *; congruence.
    + cbn [same]. eexists _, _. split; [reflexivity|]. split; [exact X0|]. split; [exact G0|]. split; [apply added_rule; [exact O|right; left; reflexivity]|].
      intros s t c p LS LT. rewrite gives_self. unfold cov, tmem. rewrite (tadd_plain D0 s3 t1 s t T1). fold (tmem s1 t1 s t). rewrite PT. rewrite M, M4, M3 by assumption. cbn [omem].
      destruct (N.eqb_spec t s) as [->|]; atoms; btauto.
    + cbn [same]. have (and_not_ok D0 (Some t1) (Some s2) G0 T1 O2). eexists _, _. split; [reflexivity|]. split; [exact X0|]. split; [assumption|].
      split; [apply Forall_app; split; apply added_rule; [exact O|right; left; reflexivity|exact O4|apply odatum_target; assumption]|].
      intros s t c p LS LT. rewrite existsb_app, gives_self. match goal with H : odatum_ok ?E d0 |- _ => rewrite (gives_plain s t c p E _ _ _ H) end.
      unfold cov. rewrite (tadd_plain _ s3 t1 s t T1). rewrite PT. cbn [tmem]. rewrite M, M0, !M4, !M3 by assumption. cbn [omem].
      destruct (N.eqb_spec t s) as [->|]; atoms; btauto.
  - exfalso. destruct SP as [SP|[SP|[SP|SP]]]; [discriminate..|apply N2; auto|apply N2; auto].
  - cbn [same]. destruct T2 as [T2|[->|[->| ->]]].
    + destruct (plain_same D t2 T2) as (QA & QB & QC & QT). rewrite QC.
      have (and_not_ok D s4 (Some t2) G O4 T2). have (and_both_ok D0 s4 (Some t2) G0 O4 T2). have (all_and_not_ok D1 t2 G1 T2). have (and_not_ok D2 d1 s4 G2 O5 O4).
      destruct (add_other_ok D3 d p4 O) as (o & EO & HO & GO). pose proof (added_other D3 d p4 o O EO) as AO. rewrite EO. cbn [andthen].
      eexists _, _. split; [reflexivity|]. split; [exact X0|]. split; [assumption|].
      split; [apply Forall_app; split; [apply added_rule; [assumption|apply odatum_target; assumption]|apply Forall_app; split; [apply added_rule; [assumption|apply odatum_target; assumption]|exact AO]]|].
      intros s t c p LS LT. rewrite !existsb_app, GO. rewrite (gives_plain s t c p D3 _ _ _ O5), (gives_plain s t c p D3 _ _ _ O6). unfold cov. rewrite QT. cbn [tmem tadd].
      rewrite ?M2, ?M1, ?M0, ?M, ?M3, ?M4 by assumption. cbn [omem]. destruct (N.eqb_spec t s) as [->|]; atoms; btauto.
    + exfalso. apply N3. auto.
    + exfalso. apply N1. auto.
    + have (all_and_not_ok D s2 G O2). eexists _, _. split; [reflexivity|]. split; [exact X0|]. split; [assumption|]. split; [apply added_rule; [assumption|apply odatum_target; assumption]|].
      intros s t c p LS LT. rewrite (gives_plain s t c p D0 _ _ _ O). unfold cov. cbn [tmem tadd]. rewrite !M, !M3, !M4 by assumption. destruct (N.eqb_spec t s) as [->|]; atoms; btauto.
  - cbn [same]. destruct T2 as [T2|[->|[->| ->]]].
    + destruct (plain_same D t2 T2) as (QA & QB & QC & QT). rewrite QB, QC.
      have (and_not_ok D s4 (Some t2) G O4 T2). have (and_both_ok D0 s4 (Some t2) G0 O4 T2). have (and_not_ok D1 (Some s1) (Some t2) G1 O1 T2). have (and_not_ok D2 s3 (Some t2) G2 O3 T2).
      destruct (add_other_ok D3 d p4 O) as (o & EO & HO & GO). pose proof (added_other D3 d p4 o O EO) as AO. rewrite EO. cbn [andthen].
      eexists _, _. split; [reflexivity|]. split; [exact X0|]. split; [assumption|].
      split; [apply Forall_app; split; [apply added_rule; [assumption|apply odatum_target; assumption]|apply Forall_app; split; [apply added_rule; [assumption|apply odatum_target; assumption]|apply Forall_app; split; [apply added_rule; [assumption|apply odatum_target; assumption]|exact AO]]]|].
      intros s t c p LS LT. rewrite !existsb_app, GO. rewrite (gives_plain s t c p D3 _ _ _ O4), (gives_plain s t c p D3 _ _ _ O5), (gives_plain s t c p D3 _ _ _ O6). unfold cov. rewrite QT. cbn [tmem tadd].
      rewrite ?M2, ?M1, ?M0, ?M, ?M3, ?M4 by assumption. cbn [omem]. destruct (N.eqb_spec t s) as [->|]; atoms; btauto.
    + exfalso. apply N3. auto.
    + eexists _, _. split; [reflexivity|]. split; [exact X0|]. split; [assumption|]. split; [apply added_rule; [assumption|apply odatum_target; assumption]|].
      intros s t c p LS LT. rewrite (gives_plain s t c p D _ _ _ O4). unfold cov. cbn [tmem tadd]. rewrite !M3, !M4 by assumption. destruct (N.eqb_spec t s) as [->|]; atoms; btauto.
    + eexists _, _. split; [reflexivity|]. split; [exact X0|]. split; [assumption|]. split; [apply Forall_app; split; (apply added_rule; [assumption|apply odatum_target; assumption])|].
      intros s t c p LS LT. rewrite existsb_app, (gives_plain s t c p D _ _ _ O4), (gives_plain s t c p D _ _ _ O3). unfold cov. cbn [tmem tadd]. rewrite !M3, !M4 by assumption. destruct (N.eqb_spec t s) as [->|]; atoms; btauto.
Qed.
