(** Concrete policies and SID tables used beside the theorems on SIDs and policy loading. *)
From Verif Require Import Base EbitmapModel EbitmapSpec EbitmapProofs MlsModel MlsSpec MlsProofs MlsDemo ContextModel AvtabModel
  SidtabModel SidtabSpec SidtabProofs LoadProofs.

(** Demo data, models no code: types renumbered (the second is gone), categories renumbered. *)
Definition demo2 : policy :=
  mkP true 2 200 1 2 3
      (demo_name 115 2) (fun v => demo_name 99 200 (201 - v)) (demo_name 117 1) (demo_name 114 2)
      (fun v => if v =? 2 then None else demo_name 116 3 (4 - v))
      (fun s => match demo_find 115 2 s with Some v => Some (mkL v demo_all) | None => None end)
      (fun s => match demo_find 99 200 s with Some v => Some (201 - v) | None => None end)
      (demo_find 117 1) (demo_find 114 2)
      (fun s => match demo_find 116 3 s with Some v => if v =? 2 then None else Some (4 - v, false) | None => None end)
      (fun u => if u =? 1 then Some (demo_set [0; 1], mkR (mkL 1 ebitmap_init) (mkL 2 demo_all)) else None)
      (fun r => if r =? 2 then Some (demo_set [0; 2]) else if r =? 1 then Some ebitmap_init else None).

(** Demo data, models no code. *)
Definition dctx (t : N) (cats : list N) : context :=
  MlsModel.mkC 1 2 t (mkR (mkL 1 ebitmap_init) (mkL 2 (demo_set cats))).
(** Demo data, models no code. *)
Definition dclasses : list classdef := [mkCD [102; 105] 1 (Some [([114], 1); ([119], 2)]) [([120], 3)]; mkCD [100] 2 None [([97], 1)]].
(** Demo data, models no code. *)
Definition dops : list top := [TInsert 3 (dctx 1 []) true; TInsert 7 (dctx 1 [4]) true; TToSid (dctx 3 [1; 199]) true; TToSid (dctx 2 [5]) true].
(** Demo data, models no code. *)
Definition dtab : sidtab := match trun (sidtab_init true) [] dops with ROk (s, _) => s | _ => sidtab_init true end.
(** Demo data, models no code. *)
Definition dserver : server := mkServer (Some (mkLP demo dclasses)) dtab true.

Lemma dtab_inv : inv dtab.
Proof.
  destruct (run_init dops) as (s & tr & E & A).
  { repeat constructor; cbn; lia. }
  unfold dtab. rewrite E. apply A.
Qed.

(** Entries of a table; models no code. *)
Definition entries (s : sidtab) : list (N * context) := match st_table s with Some t => concat t | None => [] end.

Lemma holds_entries s sid c : holds s sid c <-> In (sid, c) (entries s).
Proof.
  unfold holds, entries. destruct (st_table s) as [t|].
  - split; [intros (t0 & [= <-] & H); exact H|eauto].
  - split; [intros (t0 & Q & _); discriminate|intros []].
Qed.

Lemma dtab_entries : entries dtab = [(3, dctx 1 []); (7, dctx 1 [4]); (8, dctx 3 [1; 199]); (9, dctx 2 [5])].
Proof. vm_compute. reflexivity. Qed.

Lemma demo2_canonical : policy_canonical demo2.
Proof.
  split; [|split].
  - intros k ld. cbn [demo2 p_level_find]. destruct (demo_find 115 2 k); [|discriminate]. intros [= <-]. apply demo_all_valid.
  - intros u roles rng. cbn [demo2 p_user_struct]. destruct (u =? 1); [|discriminate]. intros [= <- <-].
    split; [apply valid_check; vm_compute; reflexivity|]. split; [apply valid_init|apply demo_all_valid].
  - intros r types. cbn [demo2 p_role_struct]. destruct (r =? 2); [intros [= <-]; apply valid_check; vm_compute; reflexivity|].
    destruct (r =? 1); [|discriminate]. intros [= <-]. apply valid_init.
Qed.

Lemma demo2_small : cats_small demo2.
Proof.
  intros nm v. cbn [demo2 p_cat_find]. destruct (demo_find 99 200 nm) as [x|] eqn:E; [|discriminate]. intros [= <-].
  assert (1 <= x /\ x <= 200); [|lia]. revert E. unfold demo_find. destruct nm as [|c [|a [|b [|]]]]; try discriminate.
  destruct (_ && _)%bool eqn:Q; [|discriminate]. intros [= <-]. lia.
Qed.

Lemma dctx_named t cats l : positive_bits (demo_set cats) = Some l -> valid (demo_set cats) -> forallb (fun b => b <? 200) l = true ->
  1 <= t -> t <= 3 -> valid_mrange (c_range (dctx t cats)) /\ context_named demo (dctx t cats).
Proof.
  intros E V F H1 H2. split; [split; [apply valid_init|exact V]|].
  split; [discriminate|]. split; [discriminate|]. split.
  - cbn [dctx demo p_type_name c_type]. unfold demo_name. destruct (N.leb_spec 1 t); [|lia]. destruct (N.leb_spec t 3); [discriminate|lia].
  - intros _. cbn [dctx c_range r_low r_high]. split; apply demo_named; cbn [l_cat l_sens]; try lia; try exact V; try apply valid_init.
    + intros b Hb. apply init_in in Hb. destruct Hb.
    + intros b Hb. apply (demo_in _ l V E) in Hb. rewrite forallb_forall in F. apply F in Hb. lia.
Qed.

Lemma dserver_contexts sid c : holds (sv_sids dserver) sid c -> valid_mrange (c_range c) /\ context_named demo c.
Proof.
  rewrite holds_entries. cbn [sv_sids dserver]. rewrite dtab_entries. cbn [In].
  intros [[= <- <-]|[[= <- <-]|[[= <- <-]|[[= <- <-]|[]]]]]; (eapply dctx_named; [vm_compute; reflexivity|apply valid_check; vm_compute; reflexivity|vm_compute; reflexivity|lia|lia]).
Qed.

Lemma clone_failure : exists S new clone_mem S' c,
  (exists S1, context_to_sid (sv_sids S) c true = ROk (S1, (TOk, 10))) /\
  load_policy S true true clone_mem (fun _ => true) (Some new) = ROk (S', false) /\
  forall l s tr, Forall sane_op l -> (forall i m, ~ In (TInsert i c m) l) -> trun (sv_sids S') [] l = ROk (s, tr) ->
    context_to_sid s c true = ROk (s, (TNomem, 0)).
Proof.
  exists dserver, (mkLP demo2 dclasses), (fun sid => sid <? 8), (mkServer (sv_pol dserver) (sidtab_shutdown dtab) true), (dctx 3 [17]).
  split; [eexists; vm_compute; reflexivity|]. split; [vm_compute; reflexivity|]. cbn [sv_sids].
  intros l s tr F Hn R.
  assert (I : inv (sidtab_shutdown dtab)) by (destruct dtab_inv as (t & Q); exists t; exact Q).
  apply (shut_refuses l (sidtab_shutdown dtab) [] s tr (dctx 3 [17]) I eq_refl F Hn); [|exact R].
  intros sid. rewrite holds_entries. change (entries (sidtab_shutdown dtab)) with (entries dtab). rewrite dtab_entries. cbn [In].
  intros [[= _ Q]|[[= _ Q]|[[= _ Q]|[[= _ Q]|[]]]]]; vm_compute in Q; discriminate.
Qed.

Lemma numbers_reused : exists S S1 S2 s3 new c d,
  holds (sv_sids S) 9 c /\
  load_policy S true true (fun _ => true) (fun _ => true) (Some new) = ROk (S1, true) /\
  load_policy S1 true true (fun _ => true) (fun _ => true) (Some new) = ROk (S2, true) /\
  context_to_sid (sv_sids S2) d true = ROk (s3, (TOk, 9)) /\
  ~ renamed demo demo2 c d.
Proof.
  exists dserver. do 3 eexists. exists (mkLP demo2 dclasses), (dctx 2 [5]), (dctx 3 [17]).
  split; [rewrite holds_entries; cbn [sv_sids dserver]; rewrite dtab_entries; cbn [In]; auto|].
  split; [vm_compute; reflexivity|]. split; [vm_compute; reflexivity|]. split; [vm_compute; reflexivity|].
  intros (_ & _ & (nm & a & E1 & E2) & _). vm_compute in E1. injection E1 as <-. vm_compute in E2. discriminate.
Qed.
