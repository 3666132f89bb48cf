(** Presence of symbols after linking (C66) and the set of enabled optional blocks (C67). *)
From Verif Require Import Base LinkModel LinkSpec LinkScopeProofs LinkProofs.

(** ** C66 *)

(** A symbol is present exactly if a block that declares it, in the base or a module, is enabled:
    if no block declares a symbol it required before, and, for roles and users, if in a source that
    declares the symbol no other block only requires it. *)
Theorem C66_present :
  forall base mods t k en, linked_table base mods t -> tidy k base -> Forall (fun m => tidy k (snd m)) mods ->
  (id_enabled t en k = true <-> exists b, linked_declares base mods k b /\ en b = true).
Proof. exact linked_present. Qed.
Print Assumptions C66_present.

(** Roles and users need no condition for one direction. *)
Theorem C66_declared_roles :
  forall base mods t k en b, linked_table base mods t -> fst k = 2 \/ fst k = 4 ->
  linked_declares base mods k b -> en b = true -> id_enabled t en k = true.
Proof. exact linked_present_roles. Qed.
Print Assumptions C66_declared_roles.

(** The base requires type 7 in block 1 and declares role 5 in blocks 1 and 2; a module declares type 7 in its
    block 2, requires it in block 1 after that, and declares role 5 in block 1. Its blocks become 11 and 12. *)
Definition case_base : list event :=
  [mkE (3, 7) false false 1; mkE (2, 5) false true 1; mkE (2, 5) false true 2].
Definition case_module : list event :=
  [mkE (3, 7) false true 2; mkE (3, 7) false false 1; mkE (2, 5) false true 1].
Definition case_mods : list ((N -> N) * list event) := [(N.add 10, case_module)].
Definition case_table : table := fun k =>
  if sym_eqb k (3, 7) then Some (mkScope true [11; 12] false)
  else if sym_eqb k (2, 5) then Some (mkScope true [1; 2; 11] false)
  else None.
Example case_linked : linked_table case_base case_mods case_table.
Proof.
  eexists. eexists. split; [reflexivity|]. split; [constructor; [reflexivity|constructor]|].
  intros k. cbn. unfold table_set, case_table. cbn.
  destruct (sym_eqb k (2, 5)) eqn:A; [apply sym_eqb_eq in A; subst k; reflexivity|].
  destruct (sym_eqb k (3, 7)) eqn:B; [apply sym_eqb_eq in B; subst k; reflexivity|]. reflexivity.
Qed.
Example C66_case_type : forall en, id_enabled case_table en (3, 7) = true <-> exists b, linked_declares case_base case_mods (3, 7) b /\ en b = true.
Proof.
  intros en. apply C66_present; [exact case_linked| |constructor; [|constructor]]; (split; [intros [H|H]; discriminate|]); intros _ _ h1 h2 a b E [a' R].
  - destruct h1 as [|e1 [|e2 [|e3 [|? ?]]]]; cbn in E; discriminate.
  - destruct h1 as [|e1 [|e2 [|e3 [|? ?]]]]; cbn in E; try discriminate. destruct R.
Qed.
Example C66_case_role : id_enabled case_table (N.eqb 11) (2, 5) = true.
Proof.
  apply (C66_declared_roles case_base case_mods case_table (2, 5) (N.eqb 11) 11 case_linked); [left; reflexivity| |reflexivity].
  right. exists (N.add 10), case_module, 1. split; [left; reflexivity|]. split; [|reflexivity]. exists false. cbn. tauto.
Qed.

(** Not true of every role: block 2 only requires role 5, and keeps it present after the block that
    declares it has been disabled. *)
Theorem C66_refuted_roles :
  exists base t en, linked_table base [] t /\ orderly (2, 5) base /\ en 2 = true /\ ~ declares base (2, 5) 2 /\
    id_enabled t en (2, 5) = true /\ ~ exists b, linked_declares base [] (2, 5) b /\ en b = true.
Proof.
  exists [mkE (2, 5) false true 1; mkE (2, 5) false false 2].
  eexists. exists (N.eqb 2). split; [eexists; exists []; split; [reflexivity|]; split; [constructor|]; intros k; reflexivity|].
  split. { intros h1 h2 a b E [a' R]. destruct h1 as [|e1 [|e2 [|? ?]]]; cbn in E; try discriminate. destruct R. }
  split; [reflexivity|]. split. { intros [a [H|[H|[]]]]; discriminate. }
  split; [reflexivity|]. intros (b & [(a & [H|[H|[]]])|(f & h & c & [] & _)] & E); [|discriminate].
  injection H as <- <-. discriminate.
Qed.
Print Assumptions C66_refuted_roles.

(** Not true of a type that block 1 requires before it declares it, if another block requires it in between:
    the entry then names the other block, whether that is enabled or not. *)
Theorem C66_refuted_order :
  exists base t, linked_table base [] t /\ declares base (3, 7) 1 /\ ~ declares base (3, 7) 2 /\
    id_enabled t (N.eqb 1) (3, 7) = false /\ id_enabled t (N.eqb 2) (3, 7) = true.
Proof.
  exists [mkE (3, 7) false false 1; mkE (3, 7) false false 2; mkE (3, 7) false true 1].
  eexists. split; [eexists; exists []; split; [reflexivity|]; split; [constructor|]; intros k; reflexivity|].
  split. { exists false. cbn. tauto. }
  split. { intros [a [H|[H|[H|[]]]]]; discriminate. }
  split; reflexivity.
Qed.
Print Assumptions C66_refuted_order.

(** ** C67 *)

(** [t]: the linked table; block numbers are distinct, every block has a branch, the permissions that are
    required exist, and no flag is set for numbers of no block. *)
Definition linkable (base : source) (mods : list ((N -> N) * source)) (t : table) (known : N -> N -> bool) (bl : list block) (en0 : N -> bool) : Prop :=
  linked_table base mods t /\ (forall k, tidy k base /\ Forall (fun m => tidy k (snd m)) mods) /\
  Forall (fun b => exists d r, b_branches b = d :: r /\
            forall c ps p, nth_error (d_classes d) c = Some ps -> In p ps -> known (N.of_nat c) p = true) bl /\
  NoDup (flat_map (fun b => map d_id (b_branches b)) bl) /\
  (forall x, ~ In x (flat_map (fun b => map d_id (b_branches b)) bl) -> en0 x = false).
Lemma linkable_honest base mods t known bl en0 : linkable base mods t known bl en0 -> honest t (linked_declares base mods).
Proof. intros (L & T & _) en k. destruct (T k) as [T0 Ts]. apply linked_present; assumption. Qed.

(** Linking succeeds exactly if all mandatory blocks are in the largest set of blocks that provides for itself. *)
Theorem C67_success :
  forall base mods t known bl en0, linkable base mods t known bl en0 ->
  ((exists r, enable_avrules t known bl en0 = LOk r) <->
   (forall b d, In b bl -> main b d -> b_optional b = false -> sustained (linked_declares base mods) bl (d_id d))).
Proof.
  intros base mods t known bl en0 L. pose proof (linkable_honest _ _ _ _ _ _ L) as H. destruct L as (_ & _ & G & ND & F).
  rewrite (whole_success t known _ bl en0 H G ND F). split; [intros X b d Hb [r E]; exact (X b d r Hb E)|intros X b d r Hb E; apply (X b d Hb); exists r; exact E].
Qed.
Print Assumptions C67_success.

(** Then it enables the first branches of exactly this set; the second branch exactly of the other blocks
    behind the first block; and no further branch. *)
Theorem C67_enabled :
  forall base mods t known bl en0 en q, linkable base mods t known bl en0 -> enable_avrules t known bl en0 = LOk (en, q) ->
  (forall b d, In b bl -> main b d -> (en (d_id d) = true <-> sustained (linked_declares base mods) bl (d_id d))) /\
  (forall b d e r, In b (tl bl) -> b_branches b = d :: e :: r -> (en (d_id e) = true <-> ~ sustained (linked_declares base mods) bl (d_id d))) /\
  (forall b d e r x, In b bl -> b_branches b = d :: e :: r -> In x r -> en (d_id x) = false).
Proof.
  intros base mods t known bl en0 en q L E. pose proof (linkable_honest _ _ _ _ _ _ L) as H. destruct L as (_ & _ & G & ND & F).
  destruct (whole_flags t known _ bl en0 H G ND F en q E) as (A & _ & B & C & _).
  split; [intros b d Hb [r X]; exact (A b d r Hb X)|]. split; [exact B|exact C].
Qed.
Print Assumptions C67_enabled.

(** Each block then points to the branch that is in force: the first branch if it belongs to the set, else the second one
    if there is one (the first block has no else branch). *)
Theorem C67_branch_in_force :
  forall base mods t known bl en0 en q, linkable base mods t known bl en0 -> enable_avrules t known bl en0 = LOk (en, q) ->
  (forall b0 rest d, bl = b0 :: rest -> main b0 d -> sustained (linked_declares base mods) bl (d_id d) ->
     exists q', q = Some (d_id d) :: q') /\
  Forall2 (fun b p => exists d r, b_branches b = d :: r /\
     (sustained (linked_declares base mods) bl (d_id d) -> p = Some (d_id d)) /\
     (~ sustained (linked_declares base mods) bl (d_id d) -> p = match r with [] => None | e :: _ => Some (d_id e) end)) (tl bl) (tl q).
Proof.
  intros base mods t known bl en0 en q L E. pose proof (linkable_honest _ _ _ _ _ _ L) as H. destruct L as (_ & _ & G & ND & F).
  destruct (whole_pointers t known _ bl en0 H G ND F en q E) as (A & B). split; [|exact B].
  intros b0 rest d Eb [r X]. exact (A b0 rest d r Eb X).
Qed.
Print Assumptions C67_branch_in_force.

(** It ends, and fails in no other way than by a missing requirement (or by reading an unset message). *)
Theorem C67_terminates :
  forall base mods t known bl en0, linkable base mods t known bl en0 ->
  enable_avrules t known bl en0 <> LFuel /\ enable_avrules t known bl en0 <> LErr.
Proof.
  intros base mods t known bl en0 L. pose proof (linkable_honest _ _ _ _ _ _ L) as H. destruct L as (_ & _ & G & ND & F).
  pose proof (whole t known _ bl en0 H G ND F) as W. split; intros E; rewrite E in W; exact W.
Qed.
Print Assumptions C67_terminates.

(** Two optional blocks (11, 12) that need each other's types stay; block 13 needs a type of a block that
    nobody declares, and its else branch 14 is taken; block 15 needs the type of block 13 and goes too. *)
Definition c67_base : list event :=
  [mkE (1, 0) false true 10; mkE (3, 1) false true 11; mkE (3, 2) false true 12; mkE (3, 3) false true 13; mkE (3, 4) false false 13].
Definition c67_table : table := match compile (fun _ => None) c67_base with Some t => t | None => fun _ => None end.
Definition c67_blocks : list block :=
  [mkB false [mkD 10 [] [[0]]]; mkB true [mkD 15 [(3, 3)] [[0]]]; mkB true [mkD 11 [(3, 2)] []]; mkB true [mkD 12 [(3, 1)] []];
   mkB true [mkD 13 [(3, 4)] []; mkD 14 [] []]].
Definition c67_known (c p : N) : bool := (c =? 0) && (p <? 2).
Example c67_linkable : linkable c67_base [] c67_table c67_known c67_blocks (fun _ => false).
Proof.
  split; [eexists; exists []; split; [reflexivity|]; split; [constructor|]; intros k; reflexivity|].
  split; [|split; [|split]].
  - intros k. split; [split|constructor].
    + intros R b c [a D] [a' Q]. cbn in D, Q. exfalso. destruct D as [D|[D|[D|[D|[D|[]]]]]]; (discriminate || injection D as <- <- <-); cbn in R; lia.
    + intros _ _. apply (decls_first k [mkE (3, 4) false false 13] ltac:(constructor; [reflexivity|constructor])
        [mkE (1, 0) false true 10; mkE (3, 1) false true 11; mkE (3, 2) false true 12; mkE (3, 3) false true 13]).
      repeat (apply Forall_cons; [reflexivity|]). constructor.
  - repeat (apply Forall_cons; [eexists; eexists; split; [reflexivity|]; intros [|[|c]] ps p H I; cbn in H; try discriminate; injection H as <-; destruct I as [<-|[]]; reflexivity|]). constructor.
  - cbn. repeat (constructor; [cbn; intuition discriminate|]). constructor.
  - reflexivity.
Qed.
Example c67_result : exists en q, enable_avrules c67_table c67_known c67_blocks (fun _ => false) = LOk (en, q) /\
  map en [10; 11; 12; 13; 14; 15] = [true; true; true; false; true; false].
Proof. eexists. eexists. split; [vm_compute; reflexivity|vm_compute; reflexivity]. Qed.
Example C67_branch_case : exists en, enable_avrules c67_table c67_known c67_blocks (fun _ => false) =
  LOk (en, [Some 10; None; Some 11; Some 12; Some 14]).
Proof. eexists. vm_compute. reflexivity. Qed.
Example C67_case : sustained (linked_declares c67_base []) c67_blocks 11 /\ ~ sustained (linked_declares c67_base []) c67_blocks 15 /\
  ~ sustained (linked_declares c67_base []) c67_blocks 13.
Proof.
  destruct c67_result as (en & q & E & M). cbn in M. injection M as M10 M11 M12 M13 M14 M15.
  destruct (C67_enabled _ _ _ _ _ _ en q c67_linkable E) as (A & B & _).
  split; [|split].
  - apply (A (mkB true [mkD 11 [(3, 2)] []]) (mkD 11 [(3, 2)] [])); [cbn; tauto|exists []; reflexivity|exact M11].
  - intros S. apply (A (mkB true [mkD 15 [(3, 3)] [[0]]]) (mkD 15 [(3, 3)] [[0]])) in S; [cbn in S; congruence|cbn; tauto|exists []; reflexivity].
  - apply (B (mkB true [mkD 13 [(3, 4)] []; mkD 14 [] []]) (mkD 13 [(3, 4)] []) (mkD 14 [] []) []); [cbn; tauto|reflexivity|exact M14].
Qed.

(** The error does not always say what is missing. A module that needs a class nobody declares makes linking
    read a message that was never written; or it reports the requirement of another, optional block. *)
Theorem C67_refuted_message :
  (exists base t known bl, linkable base [] t known bl (fun _ => false) /\ enable_avrules t known bl (fun _ => false) = LUB) /\
  (exists base t known bl m, linkable base [] t known bl (fun _ => false) /\ enable_avrules t known bl (fun _ => false) = LEreq m /\
     forall b d, In b bl -> main b d -> b_optional b = false -> ~ needs d (x_type m, x_value m - 1)).
Proof.
  assert (T : forall k, tidy k ([] : source)).
  { intros k. split; [intros _ b c [a []]|]. intros _ _ h1 h2 a b E. destruct h1; discriminate. }
  split.
  - exists [], (fun _ => None), (fun _ _ => true), [mkB false [mkD 1 [] [[]]]]. split; [|vm_compute; reflexivity].
    split; [eexists; exists []; split; [reflexivity|]; split; [constructor|]; intros k; reflexivity|].
    split; [intros k; split; [apply T|constructor]|]. split; [|split; [|reflexivity]].
    + constructor; [|constructor]. eexists. eexists. split; [reflexivity|reflexivity].
    + cbn. constructor; [intros []|constructor].
  - exists [], (fun _ => None), (fun _ _ => true), [mkB true [mkD 2 [(3, 7)] []]; mkB false [mkD 1 [] [[]]]], (mkMiss 3 8 0).
    split; [|split; [vm_compute; reflexivity|]].
    + split; [eexists; exists []; split; [reflexivity|]; split; [constructor|]; intros k; reflexivity|].
      split; [intros k; split; [apply T|constructor]|]. split; [|split; [|reflexivity]].
      * constructor; [eexists; eexists; split; [reflexivity|reflexivity]|]. constructor; [|constructor]. eexists. eexists. split; [reflexivity|reflexivity].
      * cbn. constructor; [intros [H|[]]; discriminate|]. constructor; [intros []|constructor].
    + intros b d [<-|[<-|[]]] [r E] O; [discriminate|]. injection E as <- <-. intros [[]|(c & _ & X)]. discriminate.
Qed.
Print Assumptions C67_refuted_message.
