(** * Proofs about deny rules: permissions and sets of types *)
From Coq Require Import NArith List Bool Lia Btauto.
From Verif Require Import Base DenyModel DenySpec.
Import ListNotations.
Local Open Scope N_scope.

(** ** Class permissions *)
Section Ind.
Context (P : cp -> Prop) (H1 : forall c ps, P (CClass c ps)) (H2 : forall m ms, Forall (fun y => Forall P (snd y)) ms -> P (CMap m ms)) (H3 : forall n l, Forall P l -> P (CSet n l)).
Fixpoint cp_all (x : cp) : P x :=
  let fix lst (l : list cp) : Forall P l := match l with [] => Forall_nil P | y :: l' => Forall_cons y (cp_all y) (lst l') end in
  match x with
  | CClass c ps => H1 c ps
  | CMap m ms => H2 m ms ((fix go (ms : list (N * list cp)) : Forall (fun y => Forall P (snd y)) ms :=
      match ms with [] => Forall_nil _ | y :: ms' => Forall_cons y (lst (snd y)) (go ms') end) ms)
  | CSet n l => H3 n l (lst l)
  end.
End Ind.
Lemma existsb_ext_in {A} (f g : A -> bool) l : Forall (fun x => f x = g x) l -> existsb f l = existsb g l.
Proof. induction 1 as [|x l E _ IH]; cbn; [reflexivity|]. rewrite E, IH. reflexivity. Qed.
Lemma existsb_true {A} (f : A -> bool) l : existsb f l = true <-> exists x, In x l /\ f x = true.
Proof. apply existsb_exists. Qed.
Lemma existsb_false {A} (f : A -> bool) l : existsb f l = false <-> forall x, In x l -> f x = false.
Proof.
  split.
  - intros E x I. destruct (f x) eqn:F; [|reflexivity]. assert (existsb f l = true) by (apply existsb_true; eauto). congruence.
  - intros H. destruct (existsb f l) eqn:E; [|reflexivity]. apply existsb_true in E as (x & I & F). rewrite (H x I) in F. discriminate.
Qed.
Lemma perm_in ps p : existsb (fun q => q =? p) ps = true <-> In p ps.
Proof. rewrite existsb_true. split; [intros (q & I & E); apply N.eqb_eq in E; subst; exact I|intros I; exists p; split; [exact I|apply N.eqb_refl]]. Qed.
Lemma in_app c p l l' : class_perm_in c p (l ++ l') = class_perm_in c p l || class_perm_in c p l'.
Proof. apply existsb_app. Qed.
Lemma in_flat {A} c p (f : A -> list cp) l : class_perm_in c p (flat_map f l) = existsb (fun x => class_perm_in c p (f x)) l.
Proof. induction l as [|x l IH]; cbn [flat_map existsb]; [reflexivity|]. rewrite in_app, IH. reflexivity. Qed.

Lemma names_item c p : forall x, class_perm_match c p x = true -> Names c p [x].
Proof.
  induction x as [c' ps|m ms IH|n l IH] using cp_all; cbn [class_perm_match]; intros E.
  - apply andb_prop in E as [E1 E2]. apply N.eqb_eq in E1. subst c'. apply perm_in in E2. eapply Names_class; [left; reflexivity|exact E2].
  - apply existsb_true in E as ([k l] & I & E). apply existsb_true in E as (z & J & E). rewrite Forall_forall in IH. pose proof (IH _ I) as F. cbn in F, J.
    rewrite Forall_forall in F. pose proof (F z J E) as NZ. eapply Names_map; [left; reflexivity|exact I|]. revert NZ. clear - J. intros NZ.
    inversion NZ; subst; match goal with H : In _ [z] |- _ => destruct H as [H|[]]; subst z end.
    + eapply Names_class; eassumption.
    + eapply Names_map; eassumption.
    + eapply Names_set; eassumption.
  - apply existsb_true in E as (z & J & E). rewrite Forall_forall in IH. pose proof (IH z J E) as NZ. eapply Names_set; [left; reflexivity|].
    revert NZ. clear - J. intros NZ. inversion NZ; subst; match goal with H : In _ [z] |- _ => destruct H as [H|[]]; subst z end.
    + eapply Names_class; eassumption.
    + eapply Names_map; eassumption.
    + eapply Names_set; eassumption.
Qed.
Lemma names_iff c p l : class_perm_in c p l = true <-> Names c p l.
Proof.
  split.
  - intros E. apply existsb_true in E as (z & J & E). apply names_item in E. inversion E; subst; match goal with H : In _ [z] |- _ => destruct H as [H|[]]; subst z end.
    + eapply Names_class; eassumption.
    + eapply Names_map; eassumption.
    + eapply Names_set; eassumption.
  - induction 1 as [l ps I J|l m ms x l' I J _ IH|l n l' I _ IH]; apply existsb_true; (eexists; split; [exact I|]); cbn [class_perm_match].
    + rewrite N.eqb_refl. apply perm_in in J. rewrite J. reflexivity.
    + apply existsb_true. exists (x, l'). split; [exact J|exact IH].
    + exact IH.
Qed.

(** The item is contained in the list. *)
Lemma all_sound l2 : forall x, match_all l2 x = true -> forall c p, class_perm_match c p x = true -> class_perm_in c p l2 = true.
Proof.
  induction x as [c' ps|m ms IH|n l IH] using cp_all; cbn [match_all class_perm_match]; intros A c p E.
  - apply andb_prop in E as [E1 E2]. apply N.eqb_eq in E1. subst c'. apply perm_in in E2. rewrite forallb_forall in A. apply A. exact E2.
  - rewrite forallb_forall in A. apply existsb_true in E as (y & I & E). apply existsb_true in E as (z & J & E). rewrite Forall_forall in IH. pose proof (IH y I) as F.
    rewrite Forall_forall in F. pose proof (A y I) as G. rewrite forallb_forall in G. exact (F z J (G z J) c p E).
  - rewrite forallb_forall in A. apply existsb_true in E as (z & J & E). rewrite Forall_forall in IH. exact (IH z J (A z J) c p E).
Qed.
Lemma all_list l2 l : forallb (match_all l2) l = true -> forall c p, class_perm_in c p l = true -> class_perm_in c p l2 = true.
Proof. intros A c p E. rewrite forallb_forall in A. apply existsb_true in E as (z & J & E). exact (all_sound l2 z (A z J) c p E). Qed.
(** The item has nothing in common with the list. *)
Lemma any_sound l2 : forall x, match_any l2 x = false -> forall c p, class_perm_match c p x = true -> class_perm_in c p l2 = false.
Proof.
  induction x as [c' ps|m ms IH|n l IH] using cp_all; cbn [match_any class_perm_match]; intros A c p E.
  - apply andb_prop in E as [E1 E2]. apply N.eqb_eq in E1. subst c'. apply perm_in in E2. rewrite existsb_false in A. apply A. exact E2.
  - rewrite existsb_false in A. apply existsb_true in E as (y & I & E). apply existsb_true in E as (z & J & E). rewrite Forall_forall in IH. pose proof (IH y I) as F.
    rewrite Forall_forall in F. pose proof (A y I) as G. cbv beta in G. rewrite existsb_false in G. exact (F z J (G z J) c p E).
  - rewrite existsb_false in A. apply existsb_true in E as (z & J & E). rewrite Forall_forall in IH. exact (IH z J (A z J) c p E).
Qed.
Lemma any_list l2 l : existsb (match_any l2) l = false -> forall c p, class_perm_in c p l = true -> class_perm_in c p l2 = false.
Proof. intros A c p E. rewrite existsb_false in A. apply existsb_true in E as (z & J & E). exact (any_sound l2 z (A z J) c p E). Qed.

Lemma filter_class (f : N -> bool) c p c' ps : (forall q, In q ps -> c' = c -> q = p -> f q = f p) ->
  class_perm_in c p (match filter f ps with [] => [] | q => [CClass c' q] end) = class_perm_match c p (CClass c' ps) && f p.
Proof.
  intros F. cbn [class_perm_match].
  assert (E : class_perm_in c p (match filter f ps with [] => [] | q => [CClass c' q] end) = (c' =? c) && existsb (fun q => q =? p) (filter f ps)).
  { destruct (filter f ps); cbn; [destruct (c' =? c); reflexivity|]. rewrite orb_false_r. reflexivity. }
  rewrite E. clear E F. destruct (c' =? c); cbn [andb]; [|reflexivity]. induction ps as [|q ps IH]; cbn; [reflexivity|].
  destruct (f q) eqn:G; cbn; rewrite IH.
  - destruct (N.eqb_spec q p) as [->|]; cbn; [rewrite G; reflexivity|reflexivity].
  - destruct (N.eqb_spec q p) as [->|]; cbn; [rewrite G, andb_false_r; reflexivity|reflexivity].
Qed.
Lemma filter_map_in (f : N * list cp -> bool) c p m ms :
  class_perm_in c p (match filter f ms with [] => [] | q => [CMap m q] end) = existsb (fun y => f y && class_perm_in c p (snd y)) ms.
Proof.
  assert (E : class_perm_in c p (match filter f ms with [] => [] | q => [CMap m q] end) = existsb (fun y => class_perm_in c p (snd y)) (filter f ms)).
  { destruct (filter f ms); cbn; [reflexivity|]. rewrite orb_false_r. reflexivity. }
  rewrite E. clear E. induction ms as [|y ms IH]; cbn; [reflexivity|]. destruct (f y); cbn; rewrite IH; reflexivity.
Qed.
Lemma existsb_or {A} (f g : A -> bool) l : existsb f l || existsb g l = existsb (fun x => f x || g x) l.
Proof. induction l as [|x l IH]; cbn; [reflexivity|]. rewrite <- IH. btauto. Qed.
Lemma existsb_and {A} (f : A -> bool) l b : existsb f l && b = existsb (fun x => f x && b) l.
Proof. induction l as [|x l IH]; cbn; [reflexivity|]. rewrite <- IH. btauto. Qed.
Lemma and_item l2 c p : forall x, class_perm_in c p (cp_and l2 x) = class_perm_match c p x && class_perm_in c p l2.
Proof.
  induction x as [c' ps|m ms IH|n l IH] using cp_all; cbn [cp_and].
  - destruct (match_all l2 (CClass c' ps)) eqn:A.
    + cbn [class_perm_in existsb]. rewrite orb_false_r. fold (class_perm_in c p l2). destruct (class_perm_match c p (CClass c' ps)) eqn:E; [|reflexivity].
      rewrite (all_sound l2 _ A c p E). reflexivity.
    + assert (G : class_perm_in c p (match filter (fun q => class_perm_in c' q l2) ps with [] => [] | q => [CClass c' q] end) = class_perm_match c p (CClass c' ps) && class_perm_in c' p l2)
        by (apply filter_class; intros q _ _ ->; reflexivity).
      rewrite G. cbn [class_perm_match]. destruct (N.eqb_spec c' c) as [->|]; reflexivity.
  - cbn [class_perm_match]. rewrite in_app, filter_map_in, in_flat, existsb_or, existsb_and. apply existsb_ext_in. apply Forall_forall. intros y I.
    rewrite Forall_forall in IH. specialize (IH y I). fold (class_perm_in c p (snd y)).
    destruct (forallb (match_all l2) (snd y)) eqn:A; cbn [andb orb].
    + rewrite orb_false_r. destruct (class_perm_in c p (snd y)) eqn:E; [|reflexivity]. rewrite (all_list l2 _ A c p E). reflexivity.
    + rewrite in_flat. unfold class_perm_in at 2. rewrite existsb_and. apply existsb_ext_in. exact IH.
  - cbn [class_perm_match]. destruct (forallb (match_all l2) l) eqn:A.
    + cbn [class_perm_in existsb class_perm_match]. rewrite orb_false_r. fold (class_perm_in c p l). fold (class_perm_in c p l2).
      destruct (class_perm_in c p l) eqn:E; [|reflexivity]. rewrite (all_list l2 _ A c p E). reflexivity.
    + rewrite in_flat, existsb_and. apply existsb_ext_in. exact IH.
Qed.
Lemma and_list c p l1 l2 : class_perm_in c p (list_and l1 l2) = class_perm_in c p l1 && class_perm_in c p l2.
Proof.
  unfold list_and. destruct (forallb (match_all l2) l1) eqn:A.
  - destruct (class_perm_in c p l1) eqn:E; [|reflexivity]. rewrite (all_list l2 _ A c p E). reflexivity.
  - rewrite in_flat. unfold class_perm_in at 2. rewrite existsb_and. apply existsb_ext_in. apply Forall_forall. intros x _. apply and_item.
Qed.
Lemma andnot_item l2 c p : forall x, class_perm_in c p (cp_andnot l2 x) = class_perm_match c p x && negb (class_perm_in c p l2).
Proof.
  induction x as [c' ps|m ms IH|n l IH] using cp_all; cbn [cp_andnot].
  - destruct (match_any l2 (CClass c' ps)) eqn:A; cbn [negb].
    + assert (G : class_perm_in c p (match filter (fun q => negb (class_perm_in c' q l2)) ps with [] => [] | q => [CClass c' q] end) = class_perm_match c p (CClass c' ps) && negb (class_perm_in c' p l2))
        by (apply filter_class; intros q _ _ ->; reflexivity).
      rewrite G. cbn [class_perm_match]. destruct (N.eqb_spec c' c) as [->|]; reflexivity.
    + cbn [class_perm_in existsb]. rewrite orb_false_r. fold (class_perm_in c p l2). destruct (class_perm_match c p (CClass c' ps)) eqn:E; [|reflexivity].
      rewrite (any_sound l2 _ A c p E). reflexivity.
  - cbn [class_perm_match]. rewrite in_app, filter_map_in, in_flat, existsb_or, existsb_and. apply existsb_ext_in. apply Forall_forall. intros y I.
    rewrite Forall_forall in IH. specialize (IH y I). fold (class_perm_in c p (snd y)).
    destruct (existsb (match_any l2) (snd y)) eqn:A; cbn [andb orb negb].
    + rewrite in_flat. unfold class_perm_in at 2. rewrite existsb_and. apply existsb_ext_in. exact IH.
    + cbn [class_perm_in existsb]. rewrite orb_false_r. fold (class_perm_in c p (snd y)). fold (class_perm_in c p l2).
      destruct (class_perm_in c p (snd y)) eqn:E; [|reflexivity]. rewrite (any_list l2 _ A c p E). reflexivity.
  - cbn [class_perm_match]. destruct (existsb (match_any l2) l) eqn:A.
    + rewrite in_flat, existsb_and. apply existsb_ext_in. exact IH.
    + cbn [class_perm_in existsb class_perm_match]. rewrite orb_false_r. fold (class_perm_in c p l). fold (class_perm_in c p l2).
      destruct (class_perm_in c p l) eqn:E; [|reflexivity]. rewrite (any_list l2 _ A c p E). reflexivity.
Qed.
Lemma andnot_list c p l1 l2 : class_perm_in c p (list_andnot l1 l2) = class_perm_in c p l1 && negb (class_perm_in c p l2).
Proof.
  unfold list_andnot. destruct (existsb (match_any l2) l1) eqn:A.
  - rewrite in_flat. unfold class_perm_in at 2. rewrite existsb_and. apply existsb_ext_in. apply Forall_forall. intros x _. apply andnot_item.
  - destruct (class_perm_in c p l1) eqn:E; [|reflexivity]. rewrite (any_list l2 _ A c p E). reflexivity.
Qed.
(** The search of cil_find.c. *)
Lemma find_class c ps : forall y, find_class_any c ps y = true <-> exists p, In p ps /\ class_perm_match c p y = true.
Proof.
  induction y as [c' qs|m ms IH|n l IH] using cp_all; cbn [find_class_any class_perm_match].
  - split.
    + intros E. apply andb_prop in E as [E1 E2]. apply N.eqb_eq in E1. subst c'. apply existsb_true in E2 as (p & I & E2). apply existsb_true in E2 as (q & J & E2). apply N.eqb_eq in E2. subst q.
      exists p. split; [exact I|]. rewrite N.eqb_refl. apply perm_in in J. rewrite J. reflexivity.
    + intros (p & I & E). apply andb_prop in E as [E1 E2]. apply N.eqb_eq in E1. subst c'. rewrite N.eqb_refl. cbn [andb]. apply existsb_true. exists p. split; [exact I|].
      apply perm_in in E2. apply existsb_true. exists p. split; [exact E2|apply N.eqb_refl].
  - rewrite existsb_true. split.
    + intros (y & I & E). apply existsb_true in E as (z & J & E). rewrite Forall_forall in IH. pose proof (IH y I) as F. rewrite Forall_forall in F. apply (F z J) in E as (p & K & E).
      exists p. split; [exact K|]. apply existsb_true. exists y. split; [exact I|]. apply existsb_true. eauto.
    + intros (p & K & E). apply existsb_true in E as (y & I & E). apply existsb_true in E as (z & J & E). exists y. split; [exact I|]. apply existsb_true. exists z. split; [exact J|].
      rewrite Forall_forall in IH. pose proof (IH y I) as F. rewrite Forall_forall in F. apply (F z J). eauto.
  - rewrite existsb_true. rewrite Forall_forall in IH. split.
    + intros (z & J & E). apply (IH z J) in E as (p & K & E). exists p. split; [exact K|]. apply existsb_true. eauto.
    + intros (p & K & E). apply existsb_true in E as (z & J & E). exists z. split; [exact J|]. apply (IH z J). eauto.
Qed.
Lemma find_item l2 : forall x, find_perms_any l2 x = true <-> exists c p, class_perm_match c p x = true /\ class_perm_in c p l2 = true.
Proof.
  induction x as [c ps|m ms IH|n l IH] using cp_all; cbn [find_perms_any class_perm_match].
  - rewrite existsb_true. split.
    + intros (y & I & E). apply find_class in E as (p & J & E). exists c, p. rewrite N.eqb_refl. apply perm_in in J. rewrite J. split; [reflexivity|]. apply existsb_true. eauto.
    + intros (c' & p & E & F). apply andb_prop in E as [E1 E2]. apply N.eqb_eq in E1. subst c'. apply perm_in in E2. apply existsb_true in F as (y & I & F). exists y. split; [exact I|].
      apply find_class. eauto.
  - rewrite existsb_true. rewrite Forall_forall in IH. split.
    + intros (y & I & E). apply existsb_true in E as (z & J & E). pose proof (IH y I) as F. rewrite Forall_forall in F. apply (F z J) in E as (c & p & E & G).
      exists c, p. split; [|exact G]. apply existsb_true. exists y. split; [exact I|]. apply existsb_true. eauto.
    + intros (c & p & E & G). apply existsb_true in E as (y & I & E). apply existsb_true in E as (z & J & E). exists y. split; [exact I|]. apply existsb_true. exists z. split; [exact J|].
      pose proof (IH y I) as F. rewrite Forall_forall in F. apply (F z J). eauto.
  - rewrite existsb_true. rewrite Forall_forall in IH. split.
    + intros (z & J & E). apply (IH z J) in E as (c & p & E & G). exists c, p. split; [|exact G]. apply existsb_true. eauto.
    + intros (c & p & E & G). apply existsb_true in E as (z & J & E). exists z. split; [exact J|]. apply (IH z J). eauto.
Qed.
Lemma find_list l1 l2 : existsb (find_perms_any l2) l1 = true <-> exists c p, class_perm_in c p l1 = true /\ class_perm_in c p l2 = true.
Proof.
  rewrite existsb_true. split.
  - intros (x & I & E). apply find_item in E as (c & p & E & G). exists c, p. split; [|exact G]. apply existsb_true. eauto.
  - intros (c & p & E & G). apply existsb_true in E as (x & I & E). exists x. split; [exact I|]. apply find_item. eauto.
Qed.

(** ** Sets of types *)
Definition mem (d : datum) (v : N) : bool :=
  match d with DType w => v =? w | DAttr a => N.testbit (a_types a) v | _ => false end.
Definition omem (d : option datum) (v : N) : bool := match d with Some d => mem d v | None => false end.
Lemma mem_iff d v : mem d v = true <-> of_type d v.
Proof. destruct d; cbn; [apply N.eqb_eq|tauto|split; [discriminate|tauto]..]. Qed.
Lemma single_bit v w : N.testbit (N.setbit 0 v) w = (w =? v).
Proof. rewrite N.setbit_eqb, N.bits_0, orb_false_r, N.eqb_sym. reflexivity. Qed.
Lemma pos_popcount_pos p : 1 <= pos_popcount p.
Proof. induction p; cbn [pos_popcount]; lia. Qed.
Lemma popcount_one : forall e, popcount e = 1 -> forall v, N.testbit e v = (v =? N.log2 e).
Proof.
  intros [|p]; cbn [popcount]; [discriminate|]. induction p as [p IH|p IH|]; cbn [pos_popcount]; intros E v.
  - pose proof (pos_popcount_pos p). lia.
  - specialize (IH E). change (N.pos p~0) with (2 * N.pos p). rewrite N.log2_double by lia.
    destruct (N.eq_dec v 0) as [->|NZ].
    + rewrite N.testbit_even_0. symmetry. apply N.eqb_neq. lia.
    + replace v with (N.succ (N.pred v)) at 1 by lia. rewrite N.testbit_even_succ by lia. rewrite IH.
      destruct (N.eqb_spec (N.pred v) (N.log2 (N.pos p))); symmetry; [apply N.eqb_eq|apply N.eqb_neq]; lia.
  - change (N.log2 1) with 0. destruct (N.eqb_spec v 0) as [->|]; [reflexivity|]. change 1%positive with 1%positive. rewrite <- (N.succ_pred v) by lia.
    change (N.pos 1) with (2 * 0 + 1). rewrite N.testbit_odd_succ by lia. apply N.bits_0.
Qed.
Lemma popcount_two e : popcount e <= 1 -> forall v w, N.testbit e v = true -> N.testbit e w = true -> v = w.
Proof.
  intros L v w V W. destruct (N.eq_dec (popcount e) 1) as [E|NE].
  - rewrite (popcount_one e E) in V, W. apply N.eqb_eq in V, W. congruence.
  - destruct e as [|p]; [rewrite N.bits_0 in V; discriminate|]. cbn [popcount] in *. pose proof (pos_popcount_pos p). lia.
Qed.
(** The database only grows. *)
Definition ext (D D' : db) : Prop := d_types D' = d_types D /\ incl (d_attrs D) (d_attrs D').
Lemma ext_refl D : ext D D.
Proof. split; [reflexivity|apply incl_refl]. Qed.
Lemma ext_trans A B C : ext A B -> ext B C -> ext A C.
Proof. intros [T1 I1] [T2 I2]. split; [congruence|eapply incl_tran; eassumption]. Qed.
Lemma datum_ext D D' d : ext D D' -> datum_ok D d -> datum_ok D' d.
Proof. intros [T I]. destruct d; cbn; [rewrite T; auto|apply I|tauto..]. Qed.
Lemma target_ext D D' d : ext D D' -> target_ok D d -> target_ok D' d.
Proof. intros X [O|O]; [left; eapply datum_ext; eassumption|right; exact O]. Qed.
Definition odatum_ok (D : db) (d : option datum) : Prop := match d with Some d => datum_ok D d | None => True end.
Lemma odatum_ext D D' d : ext D D' -> odatum_ok D d -> odatum_ok D' d.
Proof. intros X. destruct d; cbn; [apply datum_ext; exact X|auto]. Qed.
Definition good (D : db) : Prop := db_ok D /\ names_free D.
Lemma mem_below D d v : db_ok D -> datum_ok D d -> mem d v = true -> v < d_types D.
Proof.
  intros [_ F] O M. destruct d as [w|a| | |]; cbn in *; try tauto; [apply N.eqb_eq in M; subst; exact O|]. rewrite Forall_forall in F. exact (proj2 (F a O) v M).
Qed.
Lemma same_mem D d1 d2 : db_ok D -> datum_ok D d1 -> datum_ok D d2 -> same d1 d2 = true -> d1 = d2.
Proof.
  intros [ND _] O1 O2 S. destruct d1 as [v|a| | |], d2 as [w|b| | |]; cbn in *; try discriminate; try tauto; apply N.eqb_eq in S; [congruence|]. f_equal.
  unfold attr_ok in *. revert O1 O2. induction (d_attrs D) as [|x l IH]; intros A B; [contradiction|]. inversion ND as [|? ? NI ND']; subst.
  destruct A as [->|A], B as [->|B]; [reflexivity|exfalso; apply NI; rewrite S; apply in_map; exact B|exfalso; apply NI; rewrite <- S; apply in_map; exact A|auto].
Qed.
Lemma in_symtab_ok D sc types a : in_symtab D sc types = Some a -> In a (d_attrs D) /\ a_types a = types.
Proof.
  unfold in_symtab. assert (G : forall l r, fold_left (fun r a => if (a_scope a =? sc) && (a_types a =? types) then Some a else r) l r = Some a -> (In a l /\ a_types a = types) \/ r = Some a).
  { induction l as [|x l IH]; intros r E; cbn in E; [right; exact E|]. apply IH in E as [[I E]|E]; [left; split; [right; exact I|exact E]|].
    destruct ((a_scope x =? sc) && (a_types x =? types)) eqn:B; [|right; exact E]. left. inversion E; subst. apply andb_prop in B as [_ B]. apply N.eqb_eq in B. split; [left; reflexivity|exact B]. }
  intros E. apply G in E as [E|E]; [exact E|discriminate].
Qed.
Lemma previously_ok D types d a : previously_defined D types d = Some a -> In a (d_attrs D) /\ a_types a = types.
Proof.
  unfold previously_defined. destruct (if scope_of D d =? 0 then None else in_symtab D (scope_of D d) types) eqn:E.
  - intros H. inversion H; subst. destruct (scope_of D d =? 0); [discriminate|]. eapply in_symtab_ok; exact E.
  - apply in_symtab_ok.
Qed.
Lemma nodup_snoc {A} (l : list A) x : NoDup l -> ~ In x l -> NoDup (l ++ [x]).
Proof. intros ND NI. apply (NoDup_Add (a := x) (l := l)); [rewrite <- (app_nil_r l) at 1; apply Add_app|]. split; assumption. Qed.
Lemma insert_ok D d types : good D -> (forall v, N.testbit types v = true -> v < d_types D) ->
  exists D' a, insert_attribute D d types = Good (D', DAttr a) /\ ext D D' /\ good D' /\ In a (d_attrs D') /\ a_types a = types.
Proof.
  intros [[ND F] FR] B. unfold insert_attribute. destruct (existsb _ (d_taken D)) eqn:E.
  - apply existsb_true in E as ([sc k] & I & E). apply andb_prop in E as [_ E]. apply N.eqb_eq in E. cbn in E. subst k. apply FR in I. lia.
  - eexists _, _. split; [reflexivity|]. split; [split; [reflexivity|cbn; apply incl_appl, incl_refl]|]. split; [|split; [cbn; apply in_or_app; right; left; reflexivity|reflexivity]].
    split; [split|].
    + cbn. rewrite map_app. cbn. apply nodup_snoc; [exact ND|]. intros I. apply in_map_iff in I as (a & E' & I). rewrite Forall_forall in F. pose proof (proj1 (F a I)). cbn in E'. lia.
    + cbn. apply Forall_app. split; [|constructor; [split; [cbn; lia|exact B]|constructor]]. eapply Forall_impl; [|exact F]. cbn. intros a [L H]. split; [lia|exact H].
    + intros sc k I. cbn in *. apply FR in I. lia.
Qed.
