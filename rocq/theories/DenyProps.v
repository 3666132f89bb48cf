(** * C70: deny rules of CIL policies *)
From Coq Require Import NArith List Bool.
From Verif Require Import Base DenyModel DenySpec DenyProofs DenyRuleProofs DenyTreeProofs DenyDemo.
Import ListNotations.
Local Open Scope N_scope.

(** Processing succeeds; afterwards an access is granted at a place exactly if it was before and no deny rule in force names it. *)
Theorem C70_exact D l : policy_ok D l -> names_free D ->
  exists D' l', process D l = Good (D', l') /\ policy_ok D' l' /\ d_types D' = d_types D /\
    forall path x, x_src x < d_types D -> x_tgt x < d_types D ->
      (granted (d_types D) path l' x <-> granted (d_types D) path l x /\ (live path -> ~ denied (d_types D) l x)).
Proof.
  intros P F. destruct (process_ok D l P F) as (D' & l' & E & T & _ & O & G & _). exists D', l'. split; [exact E|]. split; [exact O|]. split; [exact T|exact G].
Qed.
Print Assumptions C70_exact.
Example C70_exact_case : policy_ok d_db d_tree /\ names_free d_db /\
  granted 4 [] d_tree (mkAcc 1 2 1 10) /\ denied 4 d_tree (mkAcc 1 2 1 10) /\ granted 4 [] d_tree (mkAcc 0 2 1 10) /\ ~ denied 4 d_tree (mkAcc 1 2 1 11) /\ granted 4 [(2, true)] d_tree (mkAcc 1 2 1 10).
Proof.
  split; [exact d_tree_ok|]. split; [exact d_free|].
  assert (N1 : forall p, p = 10 \/ p = 11 -> Names 1 p d_perms) by (intros p H; eapply Names_class; [left; reflexivity|]; destruct H as [->| ->]; cbn; auto).
  assert (G : forall s p, s < 3 -> p = 10 \/ p = 11 -> grants 4 (mkRule Allowed false (DAttr d_a) (DAttr d_b) d_perms) (mkAcc s 2 1 p)).
  { intros s p L H. split; [reflexivity|]. split; [reflexivity|]. split; [|exact (N1 p H)]. split; [|reflexivity]. cbn. destruct s as [|[[]|[]|]]; cbn; try reflexivity; discriminate. }
  split; [eexists; split; [constructor; left; reflexivity|apply G; [reflexivity|auto]]|].
  split. { exists [], d_deny. split; [constructor|]. split; [constructor; right; right; left; reflexivity|]. split; [split; reflexivity|]. eapply Names_class; [left; reflexivity|left; reflexivity]. }
  split; [eexists; split; [constructor; left; reflexivity|apply G; [reflexivity|auto]]|].
  split.
  { intros (path & y & L & H & [P Q]). assert (I : In y (flat_map node_denies d_tree)) by (apply denies_tree; eauto). cbn in I. destruct I as [<-|[<-|[]]].
    - destruct P as [P _]. discriminate.
    - apply names_iff in Q. discriminate. }
  eexists. split; [econstructor; [right; right; right; right; left; reflexivity|constructor; left; reflexivity]|apply G; [reflexivity|auto]].
Qed.

(** All else stays as it was: rules other than plain allow rules, other statements, abstract blocks and macros with all that is
    in them; the blocks are the same. *)
Theorem C70_rest D l D' l' : policy_ok D l -> names_free D -> process D l = Good (D', l') ->
  (forall path r, r_kind r <> Allowed \/ r_ext r = true -> (Holds path l' (NRule r) <-> Holds path l (NRule r))) /\
  (forall path n, Holds path l' (NOther n) <-> Holds path l (NOther n)) /\
  (forall path id l0, Holds path l' (NBox id true l0) <-> Holds path l (NBox id true l0)) /\
  (forall path id, (exists l0, Holds path l' (NBox id false l0)) <-> (exists l0, Holds path l (NBox id false l0))) /\
  (forall path x, ~ live path -> (Holds path l' x <-> Holds path l x)) /\
  incl (d_attrs D) (d_attrs D').
Proof.
  intros P F E. destruct (process_ok D l P F) as (D1 & l1 & E1 & _ & I & _ & _ & R & B & _). rewrite E in E1. injection E1 as <- <-.
  split; [|split; [|split; [|split; [|split]]]].
  - intros path r H. apply R. left. intros [K X]. destruct H; congruence.
  - intros path n. apply R. left. exact Logic.I.
  - intros path id l0. apply R. left. reflexivity.
  - exact B.
  - intros path x H. apply R. right. exact H.
  - exact I.
Qed.
Print Assumptions C70_rest.
(** No deny rule in force is left. *)
Theorem C70_gone D l D' l' : policy_ok D l -> names_free D -> process D l = Good (D', l') -> forall path y, live path -> ~ Holds path l' (NDeny y).
Proof.
  intros P F E. destruct (process_ok D l P F) as (D1 & l1 & E1 & _ & _ & _ & _ & _ & _ & G). rewrite E in E1. injection E1 as <- <-. exact G.
Qed.
Print Assumptions C70_gone.
(** The place of a deny rule among the statements does not matter: two policies that grant the same at a place in force and deny
    the same grant the same there afterwards. *)
Theorem C70_order D l1 l2 D1 D2 l1' l2' : policy_ok D l1 -> policy_ok D l2 -> names_free D -> process D l1 = Good (D1, l1') -> process D l2 = Good (D2, l2') ->
  (forall path x, granted (d_types D) path l1 x <-> granted (d_types D) path l2 x) -> (forall x, denied (d_types D) l1 x <-> denied (d_types D) l2 x) ->
  forall path x, x_src x < d_types D -> x_tgt x < d_types D -> (granted (d_types D) path l1' x <-> granted (d_types D) path l2' x).
Proof.
  intros P1 P2 F E1 E2 G N path x Ls Lt.
  destruct (process_ok D l1 P1 F) as (A1 & b1 & Q1 & _ & _ & _ & H1 & _). rewrite E1 in Q1. injection Q1 as <- <-.
  destruct (process_ok D l2 P2 F) as (A2 & b2 & Q2 & _ & _ & _ & H2 & _). rewrite E2 in Q2. injection Q2 as <- <-.
  rewrite (H1 path x Ls Lt), (H2 path x Ls Lt), G, N. tauto.
Qed.
Print Assumptions C70_order.
Example C70_rest_case :
  match process d_db d_tree with
  | Good (_, l') =>
      firstn 2 l' = [NRule (mkRule Allowed false (DType 0) (DAttr d_b) [CClass 1 [10]]); NRule (mkRule Allowed false (DAttr d_b) (DAttr d_b) [CClass 1 [11]])] /\
      skipn 3 l' = [NRule (mkRule Dontaudit false (DAttr d_a) (DAttr d_b) d_perms); NBox 2 true [NRule (mkRule Allowed false (DAttr d_a) (DAttr d_b) d_perms); NDeny d_deny]]
  | _ => False
  end.
Proof. vm_compute. split; reflexivity. Qed.

(** Without [names_free] this fails: if the policy itself declares the name a new attribute would get (deny_rule_attr_6), the
    bitmap is freed twice. *)
Theorem C70_refuted_name : policy_ok d_clash d_small /\ process d_clash d_small = Undefined.
Proof. split; [exact d_clash_ok|]. vm_compute. reflexivity. Qed.
Print Assumptions C70_refuted_name.
