(** C74: the conditions of CIL. *)
From Verif Require Import Base CondModel CondSpec CondProofs CilexprModel CilexprSpec CilcondModel CilcondSpec CilcondProofs CilcondMain.

(** A tunableif is accepted exactly if its condition and its blocks are right, and then leaves exactly the
    statements of the block its condition selects. *)
Theorem C74_tunable : forall (S : Type) tb tv t (bl : list (block S)), plain_table tb ->
  match tunableif tb tv t bl with
  | Some out => condition_ok FTunable tb t /\ blocks_ok bl /\ forall s, In s out <-> statements (condition tv t) bl s
  | None => ~ (condition_ok FTunable tb t /\ blocks_ok bl)
  end.
Proof. exact tunableif_exact. Qed.
Print Assumptions C74_tunable.

(** Tunables 1 and 2 with 1 on; (not (eq 1 (xor 1 2))) with a false and a true block, then with (1 2). *)
Definition tb_demo : table := fun n => if n =? 1 then Some (DLeaf 0) else if n =? 2 then Some (DLeaf 1) else None.
Definition t_demo : tree := TList [TKey KNot; TList [TKey KEq; TName 1; TList [TKey KXor; TName 1; TName 2]]].
Lemma tb_demo_plain : plain_table tb_demo.
Proof. intros n. unfold tb_demo. destruct (n =? 1); [right; eauto|]. destruct (n =? 2); [right; eauto|left; reflexivity]. Qed.
Example C74_tunable_case :
  plain_table tb_demo /\
  tunableif tb_demo (fun n => n =? 1) t_demo [(Some false, [10; 11]); (Some true, [20])] = Some [10; 11] /\
  tunableif tb_demo (fun n => n =? 1) (TList [TName 2; TName 1]) [(Some false, [10; 11]); (Some true, [20])] = Some [20] /\
  tunableif tb_demo (fun n => n =? 1) (TList [TName 2; TName 3]) [(Some false, [10; 11])] = None.
Proof. split; [exact tb_demo_plain|]. split; [reflexivity|]. split; reflexivity. Qed.

(** The condition of a booleanif is accepted exactly if it is right and needs no more than ten intermediate
    results; the expression in the policy then means, for all values of the booleans, what was written. *)
Theorem C74_expression : forall tb t, plain_table tb ->
  match condition_expr tb t with
  | Some l => condition_ok FBool tb t /\ (depth t <= 10)%nat /\
      exists e, writes l e /\ forall asg, truth asg e = condition (fun n => asg (number tb n)) t
  | None => ~ (condition_ok FBool tb t /\ (depth t <= 10)%nat)
  end.
Proof. exact condition_expr_exact. Qed.
Print Assumptions C74_expression.

(** (or (1 2 (not 1)) 2), and a condition that needs eleven results. *)
Definition deep : nat -> tree := fix go n := match n with O => TName 1 | S m => TList [TKey KAnd; TName 2; go m] end.
Example C74_expression_case :
  plain_table tb_demo /\
  condition_expr tb_demo (TList [TKey KOr; TList [TName 1; TName 2; TList [TKey KNot; TName 1]]; TName 2]) =
    Some [mkT 1 1; mkT 1 2; mkT 3 0; mkT 1 1; mkT 2 0; mkT 3 0; mkT 1 2; mkT 3 0] /\
  depth (deep 10) = 11%nat /\ condition_expr tb_demo (deep 10) = None /\ condition_expr tb_demo (deep 9) <> None.
Proof.
  split; [exact tb_demo_plain|]. split; [reflexivity|]. split; [reflexivity|]. split; [reflexivity|]. discriminate.
Qed.

(** All booleanif statements of a policy are accepted exactly if each is. *)
Theorem C74_accepted : forall (W : Type) tb bs (cs : list (tree * list (block W))), booleans_ok tb bs ->
  (booleanifs tb bs cs [] <> None <-> Forall (bif_ok tb) cs).
Proof. exact bifs_accepted. Qed.
Print Assumptions C74_accepted.

(** For all values of the booleans, the rules in force in the compiled policy are exactly those in the blocks
    that the conditions, as written, select.  Missing from the full claim: conditions over the same booleans in
    a different order, which the compiler may take for equal (see C74_refuted_in_force). *)
Theorem C74_in_force_partial : forall (W : Type) tb bs (cs : list (tree * list (block W))) l, booleans_ok tb bs ->
  (forall t u, In t (map fst cs) -> In u (map fst cs) -> same_first_order t u) ->
  booleanifs tb bs cs [] = Some l ->
  forall asg w, out_in_force l asg w <->
    exists t bl, In (t, bl) cs /\ statements (condition (fun n => asg (number tb n)) t) bl w.
Proof. exact bifs_in_force. Qed.
Print Assumptions C74_in_force_partial.

(** The state stored with every conditional is the one the declared values of the booleans give. *)
Theorem C74_start : forall (W : Type) tb bs (cs : list (tree * list (block W))) l, booleans_ok tb bs ->
  booleanifs tb bs cs [] = Some l ->
  forall c, In c l -> exists e, writes (c_expr c) e /\
    c_state c = (if truth (asg_of bs) e then 1 else 0)%Z.
Proof. exact bifs_start. Qed.
Print Assumptions C74_start.

(** (not (and 1 2)) and (or 2 1) negated twice share no node; (and 1 2) shares the node of its negation. *)
Definition bs_demo : bools := [Some 1%Z; Some 0%Z].
Definition cs_demo : list (tree * list (block N)) :=
  [(TList [TKey KNot; TList [TKey KAnd; TName 1; TName 2]], [(Some true, [10]); (Some false, [11])]);
   (TList [TKey KAnd; TName 1; TName 2], [(Some false, [12])]);
   (TList [TKey KNot; TList [TKey KNot; TList [TKey KOr; TName 1; TName 2]]], [(Some true, [13])])].
Lemma bs_demo_ok : booleans_ok tb_demo bs_demo.
Proof.
  split; [exact tb_demo_plain|]. split; [constructor; [right; reflexivity|constructor; [left; reflexivity|constructor]]|].
  unfold tb_demo. split.
  - intros n v. destruct (n =? 1); [intros E; inversion E; reflexivity|]. destruct (n =? 2); intros E; inversion E; reflexivity.
  - intros n m v. destruct (N.eqb_spec n 1), (N.eqb_spec m 1), (N.eqb_spec n 2), (N.eqb_spec m 2); intros E F; inversion E; subst; inversion F; subst; congruence.
Qed.
Example C74_in_force_case :
  booleans_ok tb_demo bs_demo /\ Forall (bif_ok tb_demo) cs_demo /\
  (forall t u, In t (map fst cs_demo) -> In u (map fst cs_demo) -> same_first_order t u) /\
  option_map (map (fun c => (c_state c, c_expr c, c_true c, c_false c))) (booleanifs tb_demo bs_demo cs_demo []) =
    Some [(0%Z, [mkT 1 1; mkT 1 2; mkT 3 0; mkT 2 0], [], [13]); (0%Z, [mkT 1 1; mkT 1 2; mkT 4 0], [11], [10; 12])].
Proof.
  split; [exact bs_demo_ok|]. split; [|split; [|vm_compute; reflexivity]].
  - assert (Nm : forall n, n = 1 \/ n = 2 -> tb_demo n <> None) by (intros n [->| ->]; discriminate).
    do 3 (constructor; [split; [split; [reflexivity|intros n H; apply Nm; cbn in H; intuition]|]; split;
      [cbn; lia|first [apply (two_blocks true)|apply one_block]]|]). constructor.
  - intros t u Ht Hu _. cbn in Ht, Hu.
    destruct Ht as [<-|[<-|[<-|[]]]]; destruct Hu as [<-|[<-|[<-|[]]]]; reflexivity.
Qed.

(** The full claim fails: (and 1 (not 2)) and (and 2 (not 1)) are taken for the same condition, so with 1 on
    and 2 off the rule of the second is in force as well. *)
Theorem C74_refuted_in_force : exists tb bs (cs : list (tree * list (block N))) l asg w,
  booleans_ok tb bs /\ booleanifs tb bs cs [] = Some l /\ out_in_force l asg w /\
  ~ exists t bl, In (t, bl) cs /\ statements (condition (fun n => asg (number tb n)) t) bl w.
Proof. exact merged_wrongly. Qed.
Print Assumptions C74_refuted_in_force.
