(** C73: the set expressions of CIL. *)
From Coq Require Import Relations Permutation.
From Verif Require Import Base EbitmapModel CilexprModel CilexprSpec CilexprProofs CilexprMain.

(** Attributes of types, roles and users, and category sets: the policy is accepted exactly if it is
    acceptable, there is then one way to give every name a set that agrees with all statements, and the
    compiler finds that one. *)
Theorem C73_exact : forall f tb mx order ids stmts,
  table_ok tb mx -> kinds_ok f tb mx order stmts -> lists tb ids ->
  exists F, forall fuel, (F <= fuel)%nat ->
    match compile_sets fuel f tb mx order ids stmts with
    | Fine (d, s) =>
        acceptable f tb mx stmts /\
        exists S, solution tb mx stmts S /\
          (forall S', solution tb mx stmts S' -> forall a v, tb a <> None -> S' a v = S a v) /\
          forall a v, defined_by_expr tb a -> (contains d s a v <-> S a v = true)
    | Bad => ~ acceptable f tb mx stmts
    | Crash => False
    | Deep => False
    end.
Proof. exact compile_exact. Qed.
Print Assumptions C73_exact.

(** Three types t0 t1 t2, an alias a2 of t2, and the attributes 10 = (and (not t0) (or a2 11)), 11 = (t1 t0),
    12 = (xor 10 (all)) plus t1. *)
Definition tb_demo : table := fun n =>
  if n =? 0 then Some (DLeaf 0) else if n =? 1 then Some (DLeaf 1) else if n =? 2 then Some (DLeaf 2)
  else if n =? 5 then Some (DAlias 2) else if (10 <=? n) && (n <=? 12) then Some DAttr else None.
Definition st_demo : list (N * tree) :=
  [(12, TList [TKey KXor; TName 10; TList [TKey KAll]]);
   (10, TList [TKey KAnd; TList [TKey KNot; TName 0]; TList [TKey KOr; TName 5; TName 11]]);
   (11, TList [TName 1; TName 0]); (12, TName 1)].

Lemma demo_table : table_ok tb_demo 3 /\ kinds_ok FType tb_demo 3 [] st_demo /\ lists tb_demo [12; 11; 10].
Proof.
  assert (C : forall n, tb_demo n = None \/ (n = 0 /\ tb_demo n = Some (DLeaf 0)) \/ (n = 1 /\ tb_demo n = Some (DLeaf 1)) \/
    (n = 2 /\ tb_demo n = Some (DLeaf 2)) \/ (n = 5 /\ tb_demo n = Some (DAlias 2)) \/
    ((n = 10 \/ n = 11 \/ n = 12) /\ tb_demo n = Some DAttr)).
  { intros n. unfold tb_demo. destruct (N.eqb_spec n 0), (N.eqb_spec n 1), (N.eqb_spec n 2), (N.eqb_spec n 5);
      try (subst; auto 8; fail). destruct (N.leb_spec 10 n), (N.leb_spec n 12); cbn [andb]; auto.
    do 5 right. split; [lia|reflexivity]. }
  split; [|split].
  - split; [reflexivity|]. split.
    + intros n v E. destruct (C n) as [H|[[_ H]|[[_ H]|[[_ H]|[[_ H]|[_ H]]]]]]; rewrite H in E; inversion E; reflexivity.
    + intros n m E. destruct (C n) as [H|[[_ H]|[[_ H]|[[_ H]|[[_ H]|[_ H]]]]]]; rewrite H in E; inversion E.
      exists 2. reflexivity.
  - intros n E. destruct (C n) as [H|[[_ H]|[[_ H]|[[_ H]|[[_ H]|[_ H]]]]]]; rewrite H in E; inversion E.
  - intros a. unfold defined_by_expr. split.
    + intros Da. destruct (C a) as [H|[[_ H]|[[_ H]|[[_ H]|[[_ H]|[I H]]]]]]; rewrite H in Da;
        destruct Da as [Da|Da]; inversion Da. cbn. destruct I as [->|[->| ->]]; auto.
    + intros [<-|[<-|[<-|[]]]]; left; reflexivity.
Qed.

Example C73_exact_case :
  (table_ok tb_demo 3 /\ kinds_ok FType tb_demo 3 [] st_demo /\ lists tb_demo [12; 11; 10]) /\
  match compile_sets 20 FType tb_demo 3 [] [12; 11; 10] st_demo with
  | Fine (_, s) =>
      option_map (fun e => map (ebitmap_get_bit e) [0; 1; 2; 3]) (s_attr s 10) = Some [false; true; true; false] /\
      option_map (fun e => map (ebitmap_get_bit e) [0; 1; 2; 3]) (s_attr s 12) = Some [true; true; false; false]
  | _ => False
  end.
Proof. split; [exact demo_table|]. vm_compute. split; reflexivity. Qed.

(** The order of the statements and of the declarations does not matter. *)
Theorem C73_order : forall f tb mx order ids ids' stmts stmts',
  table_ok tb mx -> kinds_ok f tb mx order stmts -> lists tb ids -> lists tb ids' -> Permutation stmts stmts' ->
  exists F, forall fuel fuel', (F <= fuel)%nat -> (F <= fuel')%nat ->
    match compile_sets fuel f tb mx order ids stmts, compile_sets fuel' f tb mx order ids' stmts' with
    | Fine (d, s), Fine (d', s') => forall a v, defined_by_expr tb a -> (contains d s a v <-> contains d' s' a v)
    | Bad, Bad => True
    | _, _ => False
    end.
Proof. exact order_free. Qed.
Print Assumptions C73_order.

Example C73_order_case :
  Permutation st_demo (rev st_demo) /\ lists tb_demo [12; 11; 10] /\
  match compile_sets 20 FType tb_demo 3 [] [12; 11; 10] (rev st_demo) with Fine _ => True | _ => False end.
Proof. split; [apply Permutation_rev|]. split; [exact (proj2 (proj2 demo_table))|]. vm_compute. exact I. Qed.

(** An attribute or category set that refers to itself, directly or through others, is always refused. *)
Theorem C73_circles_refused : forall f tb mx order ids stmts a,
  table_ok tb mx -> kinds_ok f tb mx order stmts -> lists tb ids -> clos_trans N (uses stmts) a a ->
  exists F, forall fuel, (F <= fuel)%nat -> compile_sets fuel f tb mx order ids stmts = Bad.
Proof. exact circles_refused. Qed.
Print Assumptions C73_circles_refused.

Example C73_circles_refused_case :
  clos_trans N (uses ((11, TList [TKey KNot; TName 12]) :: st_demo)) 10 10 /\
  kinds_ok FType tb_demo 3 [] ((11, TList [TKey KNot; TName 12]) :: st_demo).
Proof.
  split; [|exact (proj1 (proj2 demo_table))].
  apply t_trans with 11; [|apply t_trans with 12]; apply t_step.
  - eexists. split; [right; right; left; reflexivity|]. cbn. auto.
  - eexists. split; [left; reflexivity|]. cbn. auto.
  - eexists. split; [right; left; reflexivity|]. cbn. auto.
Qed.

(** The permissions of a class in an access rule. *)
Theorem C73_permissions : forall tb mx order t, perms_ok tb mx order ->
  exists F, forall fuel, (F <= fuel)%nat ->
    match perm_set fuel tb mx order t with
    | Fine l => perms_acceptable tb mx t /\ forall v, In v l <-> holds (itself (place tb)) (place tb) mx t v = true
    | Bad => ~ perms_acceptable tb mx t
    | Crash => False
    | Deep => False
    end.
Proof. exact perms_exact. Qed.
Print Assumptions C73_permissions.

(** Permissions read, write, open of a file class: (and (all) (not (read))) gives write and open. *)
Example C73_permissions_case :
  let tb := fun n => if n <? 3 then Some (DLeaf n) else None in
  perms_ok tb 3 [0; 1; 2] /\
  perm_set 10 tb 3 [0; 1; 2] (TList [TKey KAnd; TList [TKey KAll]; TList [TKey KNot; TList [TName 0]]]) = Fine [1; 2].
Proof.
  split; [|vm_compute; reflexivity]. split; [split; [reflexivity|split]|split].
  - intros n v. destruct (N.ltb_spec n 3); intros E; inversion E. subst. exact H.
  - intros n m. destruct (n <? 3); discriminate.
  - intros n. destruct (n <? 3); eauto.
  - intros v Hv. assert (X : v = 0 \/ v = 1 \/ v = 2) by lia. cbn. destruct X as [->|[->| ->]]; auto.
Qed.

(** Extended permissions. *)
Theorem C73_extended_permissions : forall number t,
  exists F, forall fuel, (F <= fuel)%nat ->
    match permx_set fuel number t with
    | Fine e => permx_acceptable number t /\
        forall v, ebitmap_get_bit e v = holds (itself (number16 number)) (number16 number) 65536 t v
    | Bad => ~ permx_acceptable number t
    | Crash => False
    | Deep => False
    end.
Proof. exact permx_exact. Qed.
Print Assumptions C73_extended_permissions.

(** (not (range 0x10 0xfff0)) *)
Example C73_extended_permissions_case :
  match permx_set 10 (fun n => Some (Z.of_N n)) (TList [TKey KNot; TList [TKey KRange; TName 16; TName 65520]]) with
  | Fine e => map (ebitmap_get_bit e) [0; 15; 16; 65520; 65521; 65535; 65536] = [true; true; false; false; true; true; false]
  | _ => False
  end.
Proof. vm_compute. reflexivity. Qed.

(** "(all)" is refused for a class without permissions, although the set it stands for is simply empty. *)
Theorem C73_refuted_all_of_nothing : forall fuel,
  perms_ok (fun _ => None) 0 [] /\ shape FPerm (TList [TKey KAll]) = true /\
  (forall v, holds (itself (fun _ => None)) (fun _ => None) 0 (TList [TKey KAll]) v = false) /\
  perm_set fuel (fun _ => None) 0 [] (TList [TKey KAll]) = Bad.
Proof. exact all_of_nothing. Qed.
Print Assumptions C73_refuted_all_of_nothing.
