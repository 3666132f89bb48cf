(** * Policies for the theorems about deny rules *)
From Coq Require Import NArith List Bool Lia.
From Verif Require Import Base DenyModel DenySpec DenyProofs DenyRuleProofs DenyTreeProofs.
Import ListNotations.
Local Open Scope N_scope.

(** The statements in force, for checking [policy_ok] of given policies; models no code. *)
Fixpoint flat (x : node) : list node := x :: match x with NBox _ false l => flat_map flat l | _ => [] end.
Lemma holds_flat path l x : Holds path l x -> live path -> In x (flat_map flat l).
Proof.
  induction 1 as [l x J|l id sk l' path x J _ IH]; intros L; apply in_flat_map.
  - exists x. split; [exact J|]. destruct x; left; reflexivity.
  - apply live_cons in L as [E L]. cbn in E. subst sk. eexists. split; [exact J|]. cbn [flat]. right. auto.
Qed.
Lemma flat_ok D l : db_ok D -> Forall (fun x => match x with NRule r => rule_ok D r | NDeny y => deny_ok D y | _ => True end) (flat_map flat l) -> policy_ok D l.
Proof. intros O F. split; [exact O|]. intros path x L H. rewrite Forall_forall in F. apply F. eapply holds_flat; eassumption. Qed.

(** Four types, an attribute with types 0, 1 and 2, one with 1 and 2. *)
Definition d_a : attr := mkAttr 0 0 7.
Definition d_b : attr := mkAttr 1 0 6.
Definition d_db : db := mkDb 4 (fun _ => 0) [d_a; d_b] 6 [(0, 3); (1, 5)] 2.
(** (allow a b (c (r w))), a block with (allow a other (map ...)), (deny b a (c (r))), (dontaudit a b (c (r))), (deny 0 notself
    (c (w))) in a block, and an abstract block with (allow a b (c (r))) and (deny a b (c (r))). *)
Definition d_perms : list cp := [CClass 1 [10; 11]].
Definition d_map : list cp := [CMap 2 [(20, [CClass 1 [10]; CClass 3 [12]]); (21, [CSet 4 [CClass 1 [11]]])]].
Definition d_deny : deny := mkDeny (DAttr d_b) (DAttr d_a) [CClass 1 [10]].
Definition d_tree : list node :=
  [NRule (mkRule Allowed false (DAttr d_a) (DAttr d_b) d_perms);
   NBox 1 false [NRule (mkRule Allowed false (DAttr d_a) DOther d_map); NOther 5; NDeny (mkDeny (DType 0) DNotself [CClass 1 [11]])];
   NDeny d_deny;
   NRule (mkRule Dontaudit false (DAttr d_a) (DAttr d_b) d_perms);
   NBox 2 true [NRule (mkRule Allowed false (DAttr d_a) (DAttr d_b) d_perms); NDeny d_deny]].
Lemma d_db_ok : db_ok d_db.
Proof.
  split.
  - constructor; [cbn; intros [E|[]]; discriminate|]. constructor; [intros []|constructor].
  - constructor; [|constructor; [|constructor]]; (split; [reflexivity|]); cbn [a_types d_a d_b d_types d_db]; intros v T; destruct (N.lt_ge_cases v 4) as [L|L]; try exact L; exfalso;
      rewrite N.bits_above_log2 in T; try discriminate; (eapply N.lt_le_trans; [|exact L]); reflexivity.
Qed.
Lemma d_tree_ok : policy_ok d_db d_tree.
Proof.
  apply flat_ok; [exact d_db_ok|]. rewrite Forall_forall. intros x I. cbn in I.
  assert (A : datum_ok d_db (DAttr d_a)) by (left; reflexivity). assert (B : datum_ok d_db (DAttr d_b)) by (right; left; reflexivity). assert (Z : datum_ok d_db (DType 0)) by reflexivity.
  repeat (destruct I as [<-|I]; [first [exact I | intros _ _; split; [exact A|unfold target_ok; cbn [r_tgt]; auto] | split; [assumption|unfold target_ok; cbn [y_tgt]; auto]]|]). destruct I.
Qed.
Lemma d_free : names_free d_db.
Proof. intros sc k [E|[E|[]]]; injection E as _ <-; reflexivity. Qed.
(** The same where (typeattribute deny_rule_attr_6) is declared by the policy itself. *)
Definition d_clash : db := mkDb 5 (fun _ => 0) [d_a; mkAttr 1 0 30] 6 [(0, 6)] 2.
Definition d_small : list node := [NRule (mkRule Allowed false (DAttr (mkAttr 1 0 30)) (DAttr d_a) d_perms); NDeny (mkDeny (DType 1) (DType 1) d_perms)].
Lemma d_clash_ok : policy_ok d_clash d_small.
Proof.
  apply flat_ok.
  - split.
    + constructor; [cbn; intros [E|[]]; discriminate|]. constructor; [intros []|constructor].
    + constructor; [|constructor; [|constructor]]; (split; [reflexivity|]); cbn [a_types d_a d_types d_clash]; intros v T; destruct (N.lt_ge_cases v 5) as [L|L]; try exact L; exfalso;
        rewrite N.bits_above_log2 in T; try discriminate; (eapply N.lt_le_trans; [|exact L]); reflexivity.
  - constructor; [|constructor; [|constructor]].
    + intros _ _. split; [right; left; reflexivity|left; left; reflexivity].
    + split; [|left]; reflexivity.
Qed.
