(** Property theorems: bounds checking when a policy is built. *)
From Verif Require Import Base EbitmapModel EbitmapSpec EbitmapProofs MlsDemo AvtabModel AvtabSpec AvtabProofs AssertModel AssertSpec AssertProofs HierModel HierSpec HierProofs.

(** ** A small policy *)
(** Demo data, models no code: types 1 to 4, each alone in its set. *)
Definition hattr (v : N) : ebitmap := if (1 <=? v) && (v <=? 4) then demo_set [v - 1] else ebitmap_init.
(** Demo data, models no code: allow p t:5 { 0 1 }; allow p.c t:5 { 0 }. *)
Definition hte_ops : list avop := [OpIns true (mkK 1 3 5 1) (mkD 3 None); OpIns true (mkK 2 3 5 1) (mkD 1 None)].
(** As above. *)
Definition hte : avtab := run hte_ops (avtab_alloc avtab_init 16).
(** Demo data, models no code: if (a) { allow p t:5 { 2 }; allow p.c t.x:5 { 2 } } else { allow p t:5 { 3 } }. *)
Definition hconds : list (list anode * list anode) :=
  [([mkNode (mkK 1 3 5 1) (mkD 4 None); mkNode (mkK 2 4 5 1) (mkD 4 None)], [mkNode (mkK 1 3 5 1) (mkD 8 None)])].
(** Demo data, models no code: the child's conditional rule is in the other branch. *)
Definition hconds_bad : list (list anode * list anode) :=
  [([mkNode (mkK 1 3 5 1) (mkD 4 None)], [mkNode (mkK 1 3 5 1) (mkD 8 None); mkNode (mkK 2 4 5 1) (mkD 4 None)])].
(** Demo data, models no code: if (a) { allow p.c t:5 { 4 }; auditallow p t:5 { 4 } }. *)
Definition hconds_audit : list (list anode * list anode) :=
  [([mkNode (mkK 2 3 5 1) (mkD 16 None); mkNode (mkK 1 3 5 2) (mkD 16 None)], [])].
(** Demo policy, models no code. *)
Definition hpol (cs : list (list anode * list anode)) : apolicy := mkAP hte avtab_init cs hattr hattr.
(** Demo table, models no code: types p, p.c, t and t.x. *)
Definition htypes : htab :=
  mkHT [mkHE [112] 1 0; mkHE [112; 46; 99] 2 0; mkHE [116] 3 0; mkHE [116; 46; 120] 4 0]
       (fun i => if i =? 0 then [112] else if i =? 1 then [112; 46; 99] else if i =? 2 then [116] else [116; 46; 120])
       (fun i => if i <? 4 then Some (N.to_nat i) else None).
(** Demo table, models no code: roles r and s, s bounded by r. *)
Definition hroles : htab :=
  mkHT [mkHE [114] 1 0; mkHE [115] 2 1] (fun i => if i =? 0 then [114] else [115]) (fun i => if i <? 2 then Some (N.to_nat i) else None).
(** Demo sets, model no code: role r has types 0, 1, 2; role s has 0, 2. *)
Definition hrsets (j : nat) : ebitmap := match j with O => demo_set [0; 1; 2] | _ => demo_set [0; 2] end.
(** Demo table, models no code: one user. *)
Definition husers : htab := mkHT [mkHE [117] 1 0] (fun _ => [117]) (fun i => if i =? 0 then Some O else None).
(** Demo table, models no code: a type whose parent is not there. *)
Definition horphan : htab := mkHT [mkHE [112; 46; 99] 1 0] (fun _ => [112; 46; 99]) (fun i => if i =? 0 then Some O else None).
(** Demo data, models no code: the bounds of [htypes] after names are taken into account. *)
Definition hbof (i : N) : N := if i =? 1 then 1 else if i =? 3 then 3 else 0.

Ltac vset := first [apply valid_init|apply valid_check; vm_compute; reflexivity].
Lemma hattr_eq v : hattr v = (if v =? 1 then demo_set [0] else if v =? 2 then demo_set [1] else if v =? 3 then demo_set [2] else if v =? 4 then demo_set [3] else ebitmap_init).
Proof.
  unfold hattr. destruct (N.eqb_spec v 1) as [->|N1]; [reflexivity|]. destruct (N.eqb_spec v 2) as [->|N2]; [reflexivity|]. destruct (N.eqb_spec v 3) as [->|N3]; [reflexivity|].
  destruct (N.eqb_spec v 4) as [->|N4]; [reflexivity|]. destruct ((1 <=? v) && (v <=? 4)) eqn:E; [exfalso; lia|reflexivity].
Qed.
Lemma hattr_valid v : valid (hattr v).
Proof. rewrite hattr_eq. repeat (destruct (_ =? _); [vset|]). vset. Qed.
Lemma hattr_in v s : member (hattr v) s <-> 1 <= v /\ v <= 4 /\ s = v - 1.
Proof.
  rewrite hattr_eq. destruct (N.eqb_spec v 1) as [->|N1]; [rewrite (demo_in _ [0]) by first [vset|vm_compute; reflexivity]; cbn [In]; lia|].
  destruct (N.eqb_spec v 2) as [->|N2]; [rewrite (demo_in _ [1]) by first [vset|vm_compute; reflexivity]; cbn [In]; lia|].
  destruct (N.eqb_spec v 3) as [->|N3]; [rewrite (demo_in _ [2]) by first [vset|vm_compute; reflexivity]; cbn [In]; lia|].
  destruct (N.eqb_spec v 4) as [->|N4]; [rewrite (demo_in _ [3]) by first [vset|vm_compute; reflexivity]; cbn [In]; lia|].
  rewrite init_in. cbn [In]. lia.
Qed.
Lemma hsets cs : sets_ok (hpol cs).
Proof. intros v. split; apply hattr_valid. Qed.
Lemma hte_list : avtab_map_list hte = [mkNode (mkK 2 3 5 1) (mkD 1 None); mkNode (mkK 1 3 5 1) (mkD 3 None)] \/ avtab_map_list hte = [mkNode (mkK 1 3 5 1) (mkD 3 None); mkNode (mkK 2 3 5 1) (mkD 1 None)].
Proof. first [left; vm_compute; reflexivity|right; vm_compute; reflexivity]. Qed.
Lemma hte_in n : In n (avtab_map_list hte) <-> n = mkNode (mkK 1 3 5 1) (mkD 3 None) \/ n = mkNode (mkK 2 3 5 1) (mkD 1 None).
Proof. destruct hte_list as [-> | ->]; cbn [In]; intuition congruence. Qed.
Lemma hconds_nodes cs tl fl n : In cs [hconds; hconds_bad; hconds_audit] -> In (tl, fl) cs -> In n tl \/ In n fl -> k_cls (n_key n) = 5.
Proof.
  intros HC H Hn. destruct HC as [<-|[<-|[<-|[]]]]; destruct H as [E|[]]; injection E as <- <-; cbn [In] in Hn; intuition (subst; reflexivity).
Qed.
Lemma hsmall cs : In cs [hconds; hconds_bad; hconds_audit] -> small_types (hpol cs) hbof.
Proof.
  intros HC. split; [|split; [|split]].
  - intros v t H. change (ap_attr (hpol cs) v) with (hattr v) in H. apply hattr_in in H. lia.
  - intros t. unfold hbof. repeat (destruct (_ =? _); [lia|]). lia.
  - intros n Hn. change (ap_te (hpol cs)) with hte in Hn. destruct (proj1 (hte_in n) Hn) as [-> | ->]; cbn [n_key k_cls]; lia.
  - intros tl fl n H Hn. change (ap_conds (hpol cs)) with cs in H. rewrite (hconds_nodes cs tl fl n HC H Hn). lia.
Qed.
Lemma hallow cs b : In cs [hconds; hconds_bad] -> allow_only (hpol cs) b.
Proof.
  intros HC tl fl n H Hn _. cbn [hpol ap_conds In] in *. destruct HC as [<-|[<-|[]]]; cbn [hconds hconds_bad In] in H; destruct H as [[= <- <-]|[]]; cbn [In] in Hn; intuition (subst; reflexivity).
Qed.
Lemma hnames : unique_names htypes /\ unique_names hroles /\ unique_names husers /\ no_orphan htypes /\ no_orphan hroles /\ no_orphan husers.
Proof.
  assert (A : unique_names htypes /\ unique_names hroles /\ unique_names husers).
  { unfold unique_names. cbn [htypes hroles husers ht_list map h_key]. split; [|split]; repeat constructor; cbn [In]; intuition discriminate. }
  destruct A as (A & B & C). split; [exact A|]. split; [exact B|]. split; [exact C|].
  split; [apply (orphan_iff htypes A); reflexivity|]. split; [apply (orphan_iff hroles B); reflexivity|apply (orphan_iff husers C); reflexivity].
Qed.
Lemma hstruct i : struct_bound htypes i (hbof i).
Proof.
  destruct hnames as (A & _ & _ & D & _). apply bounds_of_struct; [exact A|exact D|]. unfold hbof. destruct (N.ltb_spec i 4) as [L|L].
  - assert (X : i = 0 \/ i = 1 \/ i = 2 \/ i = 3) by lia. destruct X as [->|[->|[->| ->]]]; reflexivity.
  - unfold bounds_of. cbn [add_all fst ht_struct htypes]. destruct (N.ltb_spec i 4); [lia|]. destruct (N.eqb_spec i 1); [lia|]. destruct (N.eqb_spec i 3); [lia|reflexivity].
Qed.
Lemma hfinal e b : In e (ht_list htypes) -> final_bound htypes e (Some b) -> b = 0 \/ b = 1 \/ b = 3.
Proof.
  destruct hnames as (A & _ & _ & D & _). intros He F. apply (added_final htypes A e D He) in F. subst b. cbn [htypes ht_list In] in He. destruct He as [<-|[<-|[<-|[<-|[]]]]]; vm_compute; auto.
Qed.

(** Bounds checking succeeds exactly when, however the conditionals turn out, no bounded type may do anything that its
    bound may not (on targets' bounds), no bounded role has a type and no bounded user has a role that its bound lacks. A
    type, role or user is bounded by a declaration or by a name with dots. Partial: the bounding types have no
    conditional rules other than allow rules (see the refutation below), and each conditional is taken on its own. *)
Theorem C21_bounds_exact_partial : forall P types roles users rsets usets bof,
  sets_ok P -> small_types P bof ->
  unique_names types -> unique_names roles -> unique_names users ->
  no_orphan types -> no_orphan roles -> no_orphan users ->
  (forall j, valid (rsets j)) -> (forall j, valid (usets j)) ->
  (forall e b, In e (ht_list types) -> final_bound types e (Some b) -> b <> 0 -> b < 65536 /\ allow_only P b) ->
  (forall i, struct_bound types i (bof i)) ->
  (hierarchy_check P types roles users rsets usets = HOk <->
     sets_within users usets /\ sets_within roles rsets /\
     forall e b, In e (ht_list types) -> final_bound types e (Some b) -> b <> 0 -> type_within P bof (h_val e) b) /\
  hierarchy_check P types roles users rsets usets <> HError.
Proof.
  intros P T R U rs us bof HP HS NT NR NU OT OR OU VR VU HB SB. destruct (hier_exact P T R U rs us bof HP HS NT NR NU OT OR OU VR VU HB SB) as [E H]. split; [exact H|].
  rewrite E. match goal with |- (if ?c then _ else _) <> _ => destruct c; discriminate end.
Qed.
Print Assumptions C21_bounds_exact_partial.
Example C21_bounds_exact_case :
  (forall cs, In cs [hconds; hconds_bad] -> sets_ok (hpol cs) /\ small_types (hpol cs) hbof /\
     (forall e b, In e (ht_list htypes) -> final_bound htypes e (Some b) -> b <> 0 -> b < 65536 /\ allow_only (hpol cs) b)) /\
  unique_names htypes /\ unique_names hroles /\ unique_names husers /\ no_orphan htypes /\ no_orphan hroles /\ no_orphan husers /\
  (forall j, valid (hrsets j)) /\ (forall i, struct_bound htypes i (hbof i)) /\
  hierarchy_check (hpol hconds) htypes hroles husers hrsets (fun _ => demo_set [0]) = HOk /\
  hierarchy_check (hpol hconds_bad) htypes hroles husers hrsets (fun _ => demo_set [0]) = HViolation /\
  hierarchy_check (hpol hconds) htypes hroles husers (fun j => match j with O => demo_set [0; 1] | _ => demo_set [2] end) (fun _ => demo_set [0]) = HViolation.
Proof.
  destruct hnames as (A & B & C & D & E & F).
  split.
  { intros cs HC. split; [apply hsets|]. split; [apply hsmall; cbn [In] in *; tauto|]. intros e b He FB NZ. split; [pose proof (hfinal e b He FB); lia|apply hallow; exact HC]. }
  split; [exact A|]. split; [exact B|]. split; [exact C|]. split; [exact D|]. split; [exact E|]. split; [exact F|].
  split; [intros [|j]; vset|]. split; [exact hstruct|]. split; [vm_compute; reflexivity|]. split; vm_compute; reflexivity.
Qed.

(** A name with dots whose parent does not exist is always reported. *)
Theorem C21_orphan_reported : forall P types roles users rsets usets,
  unique_names types -> unique_names roles -> unique_names users ->
  (exists T e, In T [types; roles; users] /\ In e (ht_list T) /\ final_bound T e None) ->
  hierarchy_check P types roles users rsets usets = HViolation.
Proof.
  intros P T R U rs us NT NR NU (X & e & HX & He & F). apply hier_orphan; [assumption..|]. intros (A & B & C). cbn [In] in HX. destruct HX as [<-|[<-|[<-|[]]]]; [exact (A e He F)|exact (B e He F)|exact (C e He F)].
Qed.
Print Assumptions C21_orphan_reported.
Example C21_orphan_case : unique_names horphan /\ final_bound horphan (mkHE [112; 46; 99] 1 0) None /\
  hierarchy_check (hpol hconds) horphan hroles husers hrsets (fun _ => demo_set [0]) = HViolation.
Proof.
  split; [repeat constructor; intros []|]. split; [|vm_compute; reflexivity]. apply (fb_orphan _ _ [112]); [reflexivity|exists [99]; split; [reflexivity|cbn [In]; lia]|].
  intros x [<-|[]]. discriminate.
Qed.

(** For one bounded type the number of errors reported is zero exactly when the type is within its bound. *)
Theorem C21_type_exact_partial : forall P bof child parent,
  sets_ok P -> small_types P bof -> parent < 65536 -> allow_only P parent ->
  exists k, bounds_check_type P bof child parent = Some k /\ (k = 0 <-> type_within P bof child parent).
Proof. intros P bof child parent HP HS HB HA. exact (type_exact P HP parent bof child HS HB HA). Qed.
Print Assumptions C21_type_exact_partial.
Example C21_type_exact_case : sets_ok (hpol hconds_bad) /\ small_types (hpol hconds_bad) hbof /\ allow_only (hpol hconds_bad) 1 /\
  bounds_check_type (hpol hconds_bad) hbof 2 1 = Some 1 /\ bounds_check_type (hpol hconds) hbof 2 1 = Some 0.
Proof. split; [apply hsets|]. split; [apply hsmall; cbn; tauto|]. split; [apply hallow; cbn; tauto|]. split; vm_compute; reflexivity. Qed.

(** The full claim is false: conditional rules of the bound that are not allow rules count as if they were. *)
Theorem C21_bounds_sound_refuted : ~ (forall P types roles users rsets usets bof,
  sets_ok P -> small_types P bof ->
  unique_names types -> unique_names roles -> unique_names users ->
  no_orphan types -> no_orphan roles -> no_orphan users ->
  (forall j, valid (rsets j)) -> (forall j, valid (usets j)) ->
  (forall e b, In e (ht_list types) -> final_bound types e (Some b) -> b < 65536) ->
  (forall i, struct_bound types i (bof i)) ->
  hierarchy_check P types roles users rsets usets = HOk ->
  forall e b, In e (ht_list types) -> final_bound types e (Some b) -> b <> 0 -> type_within P bof (h_val e) b).
Proof.
  intros H. destruct hnames as (A & B & C & D & E & F).
  assert (X : type_within (hpol hconds_audit) hbof 2 1).
  { apply (H (hpol hconds_audit) htypes hroles husers hrsets (fun _ => demo_set [0]) hbof) with (e := mkHE [112; 46; 99] 2 0); try assumption.
    - apply hsets.
    - apply hsmall. cbn. tauto.
    - intros [|j]; vset.
    - intros j. vset.
    - intros e b He FB. pose proof (hfinal e b He FB). lia.
    - exact hstruct.
    - vm_compute. reflexivity.
    - right. left. reflexivity.
    - apply (fb_parent htypes _ (mkHE [112] 1 0)); [reflexivity|left; reflexivity|]. exists [99]. split; [reflexivity|cbn [In]; lia].
    - discriminate. }
  destruct (X [true] eq_refl 2 5 4) as (n & Hn & CV).
  - exists (mkNode (mkK 2 3 5 1) (mkD 16 None)). split; [unfold in_force; apply in_or_app; right; left; reflexivity|]. unfold covers. cbn [n_key n_datum k_spec k_cls k_src k_tgt d_data hpol ap_attr]. rewrite !hattr_in.
    split; [reflexivity|]. split; [reflexivity|]. split; [lia|]. split; [lia|reflexivity].
  - destruct CV as (A1 & _ & M1 & M2 & D1). unfold in_force in Hn; apply in_app_or in Hn as [Hn|Hn].
    + change (ap_te (hpol hconds_audit)) with hte in Hn. destruct (proj1 (hte_in n) Hn) as [-> | ->]; discriminate D1.
    + cbn [hpol ap_conds hconds_audit chosen app In] in Hn. destruct Hn as [<-|[<-|[]]]; [|discriminate A1]. cbn [n_key k_src hpol ap_attr] in M1. apply hattr_in in M1. lia.
Qed.
Print Assumptions C21_bounds_sound_refuted.
