(** Property theorems: type sets and role sets denote what is written. *)
From Verif Require Import Base EbitmapModel EbitmapSpec EbitmapProofs MlsDemo AssertModel AssertProofs TypesetModel TypesetSpec TypesetProofs.

(** Demo data, models no code: types 0, 1, 3 and 5; attribute 2 = { 0 1 }; attribute 4 = { 1 3 }, always expanded. *)
Definition dts : list (option tinfo) :=
  [Some (mkTI false false ebitmap_init); Some (mkTI false false ebitmap_init); Some (mkTI true false (demo_set [0; 1]));
   Some (mkTI false false ebitmap_init); Some (mkTI true true (demo_set [1; 3])); Some (mkTI false false ebitmap_init)].
Ltac dset := first [apply valid_init|apply valid_check; vm_compute; reflexivity].
Ltac ixs i := destruct i as [|[|[|[|[|[|?]]]]]].
Lemma dattr i : attribute dts i <-> i = 2 \/ i = 4.
Proof.
  unfold attribute. split.
  - intros (ti & E & A). assert (H : i = N.of_nat (N.to_nat i)) by lia. revert E H. generalize (N.to_nat i) as k. intros k E ->. ixs k; cbn in E; try (injection E as <-; cbn in A; first [discriminate|lia]). destruct n; discriminate.
  - intros [-> | ->]; eexists; split; reflexivity.
Qed.
Lemma dts_ok : attributes_ok dts.
Proof.
  split; [vm_compute; reflexivity|]. intros i ti E A. ixs i; cbn in E; try (injection E as <-; try discriminate A); [| |destruct n; discriminate].
  - cbn [ti_types]. split; [dset|]. intros t. rewrite (demo_in _ [0; 1]) by first [dset|vm_compute; reflexivity]. rewrite dattr. cbn [In length dts]. lia.
  - cbn [ti_types]. split; [dset|]. intros t. rewrite (demo_in _ [1; 3]) by first [dset|vm_compute; reflexivity]. rewrite dattr. cbn [In length dts]. lia.
Qed.
Lemma dts_names e l : valid e -> positive_bits e = Some l -> Forall (fun i => (N.to_nat i < 6)%nat) l -> names_exist dts e.
Proof.
  intros V E F. split; [exact V|]. intros i Hi. apply (demo_in e l V E) in Hi. rewrite Forall_forall in F. specialize (F i Hi). unfold dts.
  destruct (N.to_nat i) as [|[|[|[|[|[|?]]]]]]; try (eexists; reflexivity). lia.
Qed.

(** C25: for a policy whose attributes contain types, expanding a type set whose names exist succeeds, and the result -
    reading an attribute left in it as its members - contains exactly the types the written set means: "*" all types but
    the excluded ones, otherwise the named types and attribute members but the excluded ones, "~" the complement. *)
Theorem C25_type_set_exact ts s always : attributes_ok ts -> set_ok ts s ->
  exists e, type_set_expand ts s always = SOk e /\ valid e /\
    forall t, names ts e t <-> ts_meaning ts (names ts (ts_types s)) (names ts (ts_neg s)) (ts_flags s) t.
Proof. intros HA HS. destruct (expand_exact ts HA s always HS) as (e & E & V & _ & H & _). exists e. auto. Qed.
Print Assumptions C25_type_set_exact.

(** { 4 2 -0 }, left unexpanded or not, means types 1 and 3; ~{ 2 } means 3 and 5; { 2 4 } keeps attribute 2. *)
Example C25_type_set_exact_case :
  attributes_ok dts /\ set_ok dts (mkTS (demo_set [2; 4]) (demo_set [0]) 0) /\
  type_set_expand dts (mkTS (demo_set [2; 4]) (demo_set [0]) 0) false = SOk (demo_set [1; 3]) /\
  type_set_expand dts (mkTS (demo_set [2]) ebitmap_init 2) false = SOk (demo_set [3; 5]) /\
  type_set_expand dts (mkTS (demo_set [2; 4]) ebitmap_init 0) false = SOk (demo_set [1; 2; 3]) /\
  type_set_expand dts (mkTS ebitmap_init (demo_set [4]) 1) false = SOk (demo_set [0; 5]).
Proof.
  split; [apply dts_ok|]. split.
  - split; [apply (dts_names _ [2; 4])|apply (dts_names _ [0])]; try dset; try (vm_compute; reflexivity); repeat (constructor; [vm_compute; lia|]); constructor.
  - repeat split; vm_compute; reflexivity.
Qed.

(** C25: if expansion is demanded, or the set has exclusions or flags, no attribute remains: the result is the set of types
    itself. *)
Theorem C25_expanded_is_types ts s always : attributes_ok ts -> set_ok ts s ->
  always = true \/ (exists i, member (ts_neg s) i) \/ ts_flags s <> 0 ->
  exists e, type_set_expand ts s always = SOk e /\
    forall t, member e t <-> ts_meaning ts (names ts (ts_types s)) (names ts (ts_neg s)) (ts_flags s) t.
Proof.
  intros HA HS HX. destruct (expand_exact ts HA s always HS) as (e & E & V & _ & H & NA). exists e. split; [exact E|].
  intros t. rewrite <- H. split.
  - intros M. exists t. split; [exact M|]. left. split; [reflexivity|]. apply NA; assumption.
  - intros (i & M & [[-> _]|(ti & Ei & A & _)]); [exact M|]. exfalso. apply (NA HX i M). exists ti. auto.
Qed.
Print Assumptions C25_expanded_is_types.

Example C25_expanded_is_types_case :
  set_ok dts (mkTS (demo_set [2; 5]) ebitmap_init 0) /\ type_set_expand dts (mkTS (demo_set [2; 5]) ebitmap_init 0) true = SOk (demo_set [0; 1; 5]).
Proof.
  split; [|vm_compute; reflexivity]. split; [apply (dts_names _ [2; 5])|apply (dts_names _ [])]; try dset; try (vm_compute; reflexivity); repeat (constructor; [vm_compute; lia|]); constructor.
Qed.

(** C25: the same through a type map: names that the map drops disappear, the others are replaced. *)
Theorem C25_converted_exact ts m s always : attributes_ok ts -> map_ok ts m (ts_types s) -> map_ok ts m (ts_neg s) ->
  exists e, expand_convert_type_set ts m s always = SOk e /\ valid e /\
    forall t, names ts e t <-> ts_meaning ts (fun x => exists j, mapped m (ts_types s) j /\ stands_for ts j x)
                                             (fun x => exists j, mapped m (ts_neg s) j /\ stands_for ts j x) (ts_flags s) t.
Proof. intros HA H1 H2. exact (convert_exact ts HA m s always H1 H2). Qed.
Print Assumptions C25_converted_exact.

(** The map sends 0 to attribute 2, drops 1, sends 2 to type 5: { 0 1 2 -3 } with 3 sent to type 0 means { 1 5 }. *)
Example C25_converted_exact_case :
  map_ok dts [3; 0; 6; 1] (demo_set [0; 1; 2]) /\ map_ok dts [3; 0; 6; 1] (demo_set [3]) /\
  expand_convert_type_set dts [3; 0; 6; 1] (mkTS (demo_set [0; 1; 2]) (demo_set [3]) 0) false = SOk (demo_set [1; 5]).
Proof.
  split; [|split; [|vm_compute; reflexivity]].
  - split; [dset|]. intros i. rewrite (demo_in _ [0; 1; 2]) by first [dset|vm_compute; reflexivity].
    intros [<-|[<-|[<-|[]]]]; eexists; (split; [reflexivity|]); intros NZ; try contradiction; eexists; reflexivity.
  - split; [dset|]. intros i. rewrite (demo_in _ [3]) by first [dset|vm_compute; reflexivity].
    intros [<-|[]]; eexists; (split; [reflexivity|]); intros NZ; eexists; reflexivity.
Qed.

(** C25: a set naming a type that does not exist is refused. *)
Theorem C25_missing_type_refused ts s always : attributes_ok ts -> valid (ts_types s) ->
  (exists i, member (ts_types s) i /\ forall ti, nth_error ts (N.to_nat i) <> Some (Some ti)) -> type_set_expand ts s always = SErr.
Proof. intros HA. apply types_missing; exact HA. Qed.
Print Assumptions C25_missing_type_refused.

Example C25_missing_type_refused_case :
  (member (demo_set [0; 9]) 9 /\ forall ti, nth_error dts (N.to_nat 9) <> Some (Some ti)) /\ type_set_expand dts (mkTS (demo_set [0; 9]) ebitmap_init 0) false = SErr.
Proof.
  split; [|vm_compute; reflexivity]. split; [|intros ti; discriminate]. apply (demo_in _ [0; 9]); [dset|vm_compute; reflexivity|cbn; auto].
Qed.

(** C25: an excluded name that does not exist is not refused: the code reads outside the array of types. *)
Theorem C25_missing_exclusion_refuted : exists ts s, attributes_ok ts /\ names_exist ts (ts_types s) /\ valid (ts_neg s) /\ type_set_expand ts s true = SUB.
Proof.
  exists dts, (mkTS (demo_set [0]) (demo_set [9]) 0). split; [apply dts_ok|]. split; [|split; [dset|vm_compute; reflexivity]].
  apply (dts_names _ [0]); [dset|vm_compute; reflexivity|]. constructor; [vm_compute; lia|constructor].
Qed.
Print Assumptions C25_missing_exclusion_refuted.

(** C25: an attribute that contains an attribute makes a complement stop the program (the assert), so [attributes_ok] is
    needed. *)
Theorem C25_nested_attribute_refuted : exists ts s, set_ok ts s /\ type_set_expand ts s true = SAbort.
Proof.
  exists [Some (mkTI true false (demo_set [1])); Some (mkTI true false ebitmap_init)], (mkTS (demo_set [0]) ebitmap_init 2). split; [|vm_compute; reflexivity].
  split; split; try dset; intros i.
  - rewrite (demo_in _ [0]) by first [dset|vm_compute; reflexivity]. intros [<-|[]]. eexists. reflexivity.
  - rewrite init_in. intros [].
Qed.
Print Assumptions C25_nested_attribute_refuted.

(** C25: role sets mean what is written: "*" every role, "~" the complement; through the role map, role attributes stand
    for their members. *)
Theorem C25_role_set_exact nprim maps x : roles_ok nprim maps (rs_roles x) ->
  exists e, role_set_expand nprim maps x = SOk e /\ valid e /\ forall r, member e r <-> rs_meaning nprim (named_roles maps (rs_roles x)) (rs_flags x) r.
Proof. apply role_exact. Qed.
Print Assumptions C25_role_set_exact.

(** Base roles 0, 1 and attribute 2 = { 0 1 }; the map drops 0 and sends 1 to 2: ~{ 2 } is { 0 1 } of three roles. *)
Example C25_role_set_exact_case :
  let maps := Some ([Some (mkRI false ebitmap_init); Some (mkRI false ebitmap_init); Some (mkRI true (demo_set [0; 1]))], [0; 3; 0]) in
  roles_ok 3 maps (demo_set [2]) /\ role_set_expand 3 maps (mkRS (demo_set [2]) 2) = SOk (demo_set [0; 1]) /\
  role_set_expand 3 maps (mkRS (demo_set [2]) 0) = SOk (demo_set [2]).
Proof.
  cbv zeta. split; [|split; vm_compute; reflexivity]. split; [dset|]. split; [vm_compute; reflexivity|]. split; [cbn; lia|]. split; [vm_compute; reflexivity|].
  split; [repeat constructor; vm_compute; lia|]. split.
  - intros i. rewrite (demo_in _ [2]) by first [dset|vm_compute; reflexivity]. intros [<-|[]]. eexists. reflexivity.
  - intros i ri E A. ixs i; cbn in E; try (injection E as <-; try discriminate A); try discriminate.
    + split; [dset|]. intros j. cbn [ri_roles]. rewrite (demo_in _ [0; 1]) by first [dset|vm_compute; reflexivity]. cbn [In length]. lia.
Qed.
