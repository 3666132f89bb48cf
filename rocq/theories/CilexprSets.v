(** Proofs about CIL set expressions: attributes, category sets and the check for self-reference. *)
From Coq Require Import Relations Permutation Arith.
From Verif Require Import Base EbitmapModel EbitmapSpec EbitmapProofs CilexprModel CilexprSpec CilexprProofs
  CilexprEval.

(** ** Reading the statements *)

Definition expr_of (tb : table) (t : tree) : list item := items_of (tm (dat tb) t).

Lemma expr_as_list tb t : forall f, shape f t = true ->
  exists l, items_of (tm IStr t) = map (tm IStr) l /\ expr_of tb t = map (tm (dat tb)) l /\
            children t = l /\ names t = names (TList l) /\ forall x, In x l -> operator_of x = None -> True.
Proof.
  intros f H. destruct t as [n|k|l]; [|discriminate H|].
  - exists [TName n]. repeat split.
  - exists l. repeat split.
Qed.

Lemma resolve_expr_fwd tb f t e : shape f t = true -> resolve_expr tb (items_of (tm IStr t)) = Some e ->
  e = expr_of tb t /\ forall x, In x (names t) -> tb x <> None.
Proof.
  intros Sh E. destruct (expr_as_list tb t f Sh) as (l & E1 & E2 & _ & E3 & _).
  unfold resolve_expr in E. rewrite E1 in E. change (IList (map (tm IStr) l)) with (tm IStr (TList l)) in E.
  destruct (resolve_item tb false (tm IStr (TList l))) as [i|] eqn:R; [|discriminate E].
  destruct (resolve_fwd tb (TList l) false i R) as [-> D]. cbn [tm] in E. inversion E; subst.
  rewrite E2, E3. split; [reflexivity|exact D].
Qed.

Lemma resolve_expr_bwd tb mx f t : table_ok tb mx -> shape f t = true ->
  (forall x, In x (names t) -> tb x <> None) -> ordered (place tb) t = true ->
  resolve_expr tb (items_of (tm IStr t)) = Some (expr_of tb t).
Proof.
  intros T Sh D O. unfold resolve_expr, expr_of.
  destruct t as [n|k|l]; [|discriminate Sh|].
  - cbn [tm items_of]. rewrite resolve_unfold. cbn [res_list resolve_item].
    rewrite (resolve_name_decl tb n (D n (or_introl eq_refl))), andb_false_r. reflexivity.
  - cbn [tm items_of]. change (IList (map (tm IStr) l)) with (tm IStr (TList l)).
    rewrite (resolve_bwd tb mx f (TList l) T Sh D O). reflexivity.
Qed.

Lemma has_expr_def tb n : has_expr tb n = true <-> defined_by_expr tb n.
Proof.
  unfold has_expr, defined_by_expr. destruct (tb n) as [[v|m| |]|]; split; intros H; try tauto; try discriminate;
    destruct H; discriminate.
Qed.

Lemma actual_def tb n : defined_by_expr tb n -> actual tb n = n.
Proof. unfold actual. intros [->| ->]; reflexivity. Qed.

Lemma def_actual tb mx n : table_ok tb mx -> has_expr tb (actual tb n) = true -> actual tb n = n.
Proof.
  intros (_ & _ & A) H. unfold actual in *. destruct (tb n) as [[v|m| |]|] eqn:E; try reflexivity.
  destruct (A n m E) as [v Ev]. unfold has_expr in H. rewrite Ev in H. discriminate H.
Qed.

Lemma read_fwd f tb mx stmts : table_ok tb mx -> forall r, read_all f tb stmts = Some r ->
  r = map (fun p => (fst p, expr_of tb (snd p))) stmts /\
  forall n t, In (n, t) stmts -> defined_by_expr tb n /\ shape f t = true /\ forall x, In x (names t) -> tb x <> None.
Proof.
  intros T. induction stmts as [|[n t] l IH]; intros r E.
  - inversion E. split; [reflexivity|]. intros n t [].
  - cbn [read_all] in E. rewrite gen_ok in E. destruct (shape f t) eqn:Sh; [|discriminate E].
    destruct (resolve_name tb n) as [a|] eqn:Rn; [|discriminate E].
    destruct (has_expr tb a) eqn:Ha; [|discriminate E].
    destruct (resolve_expr tb (items_of (tm IStr t))) as [e|] eqn:Re; [|discriminate E].
    destruct (read_all f tb l) as [r'|] eqn:Rr; [|discriminate E]. inversion E; subst.
    destruct (IH r' eq_refl) as [-> Hl]. destruct (resolve_name_some tb n a Rn) as [-> Dn].
    pose proof (def_actual tb mx n T Ha) as An. rewrite An in *. destruct (resolve_expr_fwd tb f t e Sh Re) as [-> Nm].
    split; [reflexivity|]. intros m u [Eq|Hi]; [|exact (Hl m u Hi)]. inversion Eq; subst.
    split; [apply has_expr_def; rewrite <- An; rewrite ?An; exact Ha|]. split; [exact Sh|exact Nm].
Qed.

Lemma read_bwd f tb mx stmts : table_ok tb mx ->
  (forall n t, In (n, t) stmts -> defined_by_expr tb n /\ shape f t = true /\
     (forall x, In x (names t) -> tb x <> None) /\ ordered (place tb) t = true) ->
  read_all f tb stmts <> None.
Proof.
  intros T. induction stmts as [|[n t] l IH]; intros H; [discriminate|].
  cbn [read_all]. destruct (H n t (or_introl eq_refl)) as (D & Sh & Nm & O).
  rewrite gen_ok, Sh, resolve_name_decl by (destruct D as [D|D]; rewrite D; discriminate).
  rewrite (actual_def tb n D). apply has_expr_def in D. rewrite D.
  rewrite (resolve_expr_bwd tb mx f t T Sh Nm O).
  specialize (IH (fun m u Hm => H m u (or_intror Hm))).
  destruct (read_all f tb l); [discriminate|congruence].
Qed.

(** ** The check *)

Lemma check_items_fine {A} (ck : A -> out unit) l :
  check_items ck l = Fine tt <-> Forall (fun x => ck x = Fine tt) l.
Proof.
  induction l as [|x l IH]; cbn [check_items]; [split; [constructor|reflexivity]|].
  split.
  - intros H. destruct (ck x) as [[]| | |] eqn:E; cbn [thn] in H; try discriminate H.
    constructor; [exact E|apply IH; exact H].
  - intros H. inversion H as [|? ? Hx Hl]; subst. rewrite Hx. cbn [thn]. apply IH. exact Hl.
Qed.

Lemma check_items_first {A} (ck : A -> out unit) l r : r <> Fine tt -> check_items ck l = r ->
  exists x, In x l /\ ck x = r.
Proof.
  intros Hr. induction l as [|x l IH]; cbn [check_items]; intros H; [congruence|].
  destruct (ck x) as [[]| | |] eqn:E; cbn [thn] in H.
  - destruct (IH H) as (y & Hy & Ey). exists y. split; [right; exact Hy|exact Ey].
  - exists x. split; [left; reflexivity|congruence].
  - exists x. split; [left; reflexivity|congruence].
  - exists x. split; [left; reflexivity|congruence].
Qed.

Lemma check_items_nocrash {A} (ck : A -> out unit) l :
  (forall x, In x l -> ck x <> Crash) -> check_items ck l <> Crash.
Proof.
  intros H E. destruct (check_items_first ck l Crash ltac:(discriminate) E) as (x & Hx & Ex). exact (H x Hx Ex).
Qed.

Section Db.
Context (f : flavor) (tb : table) (mx : N) (order : list N) (num : N -> option Z) (stmts : list (N * tree)).
Context (T : table_ok tb mx).
Context (W : forall n t, In (n, t) stmts ->
   defined_by_expr tb n /\ shape f t = true /\ forall x, In x (names t) -> tb x <> None).

Let d := mkDb tb (exprs_of (map (fun p => (fst p, expr_of tb (snd p))) stmts)) mx order num.

Definition ts (a : N) : list tree := map snd (filter (fun p => fst p =? a) stmts).

Lemma ts_in a t : In t (ts a) <-> In (a, t) stmts.
Proof.
  unfold ts. rewrite in_map_iff. split.
  - intros ([n u] & E & Hi). cbn in E. subst. apply filter_In in Hi. destruct Hi as [Hi E].
    cbn in E. apply N.eqb_eq in E. subst. exact Hi.
  - intros H. exists (a, t). split; [reflexivity|]. apply filter_In. split; [exact H|apply N.eqb_refl].
Qed.

Lemma exprs_ts a : d_exprs d a = map (expr_of tb) (ts a).
Proof.
  unfold d, d_exprs, exprs_of, ts. clear. induction stmts as [|[n t] l IH]; [reflexivity|].
  cbn [map filter fst snd]. destruct (n =? a); cbn [map snd]; rewrite IH; reflexivity.
Qed.

Definition ckd (k : nat) (stack : list N) (a : N) : Prop := check_item k d stack (IDatum a) = Fine tt.

(** From the check of an item to the names below it. *)
Lemma check_names k : forall stack t, check_item k d stack (tm (dat tb) t) = Fine tt ->
  forall n, In n (names t) -> exists k', (k' <= k)%nat /\ ckd k' stack (actual tb n).
Proof.
  induction k as [|k IH]; intros stack t H n Hn; [discriminate H|].
  destruct t as [m|key|l]; [|destruct Hn|].
  - destruct Hn as [<-|[]]. exists (S k). split; [lia|exact H].
  - cbn [tm check_item] in H. apply check_items_fine in H. rewrite Forall_forall in H.
    cbn [names] in Hn. apply in_flat_map in Hn. destruct Hn as (x & Hx & Hn).
    destruct (IH stack x (H _ (in_map _ _ _ Hx)) n Hn) as (k' & Hk & C). exists k'. split; [lia|exact C].
Qed.

Lemma check_expr_names k stack t : check_items (check_item k d stack) (expr_of tb t) = Fine tt ->
  forall n, In n (names t) -> exists k', (k' <= k)%nat /\ ckd k' stack (actual tb n).
Proof.
  intros H n Hn. apply check_items_fine in H. rewrite Forall_forall in H.
  destruct t as [m|key|l]; [|destruct Hn|].
  - apply (check_names k stack (TName m)); [apply H; left; reflexivity|exact Hn].
  - cbn [names] in Hn. apply in_flat_map in Hn. destruct Hn as (x & Hx & Hn).
    apply (check_names k stack x); [|exact Hn]. apply H. unfold expr_of. cbn [tm items_of]. apply in_map. exact Hx.
Qed.

Lemma ckd_inv k stack a : ckd k stack a ->
  exists k', k = S k' /\ ~ In a stack /\
    (has_expr tb a = true -> forall t, In t (ts a) ->
       check_items (check_item k' d (a :: stack)) (expr_of tb t) = Fine tt).
Proof.
  unfold ckd. destruct k as [|k]; [discriminate|]. cbn [check_item]. intros H. exists k. split; [reflexivity|].
  destruct (existsb (N.eqb a) stack) eqn:E; [discriminate H|]. split.
  - intros Hi. assert (X : existsb (N.eqb a) stack = true).
    { apply existsb_exists. exists a. split; [exact Hi|apply N.eqb_refl]. }
    congruence.
  - intros Ha t Ht. change (d_table d) with tb in H. rewrite Ha, exprs_ts in H.
    apply check_items_fine in H. rewrite Forall_forall in H. exact (H _ (in_map _ _ _ Ht)).
Qed.

Lemma ckd_names k stack a : ckd k stack a -> has_expr tb a = true -> forall t n, In (a, t) stmts -> In n (names t) ->
  exists k', (k' < k)%nat /\ ckd k' (a :: stack) (actual tb n).
Proof.
  intros C Ha t n Ht Hn. destruct (ckd_inv k stack a C) as (k' & -> & _ & H).
  apply ts_in in Ht. destruct (check_expr_names k' (a :: stack) t (H Ha t Ht) n Hn) as (k2 & L & C2).
  exists k2. split; [lia|exact C2].
Qed.

(** *** Nothing that passes depends on itself *)

Lemma uses_def a b : uses stmts a b -> defined_by_expr tb a.
Proof. intros (t & Ht & _). exact (proj1 (W a t Ht)). Qed.

Lemma pass_acyclic k : forall stack a b, ckd k stack a -> clos_trans_1n N (uses stmts) a b ->
  defined_by_expr tb b -> ~ In b (a :: stack).
Proof.
  induction k as [k IH] using lt_wf_ind. intros stack a b C P Db.
  destruct P as [b U|x b U P].
  - pose proof (uses_def a b U) as Da. apply has_expr_def in Da. destruct U as (t & Ht & Hn).
    destruct (ckd_names k stack a C Da t b Ht Hn) as (k' & L & C'). rewrite (actual_def tb b Db) in C'.
    destruct (ckd_inv k' _ _ C') as (? & _ & Hi & _). exact Hi.
  - pose proof (uses_def a x U) as Da. apply has_expr_def in Da. destruct U as (t & Ht & Hn).
    assert (Dx : defined_by_expr tb x).
    { destruct P as [y U2|y z U2 _]; exact (uses_def _ _ U2). }
    destruct (ckd_names k stack a C Da t x Ht Hn) as (k' & L & C'). rewrite (actual_def tb x Dx) in C'.
    intros Hi. apply (IH k' L (a :: stack) x b C' P Db). right. exact Hi.
Qed.

(** *** What does not pass depends on itself *)

Lemma fail_cycle k : forall stack top i t,
  check_item k d (top :: stack) i = Bad -> i = tm (dat tb) t ->
  (forall n, In n (names t) -> uses stmts top n) ->
  (forall y, In y (top :: stack) -> defined_by_expr tb y /\ clos_refl_trans N (uses stmts) y top) ->
  exists c, clos_trans N (uses stmts) c c.
Proof.
  induction k as [|k IH]; intros stack top i t E -> Hu Hs; [discriminate E|].
  destruct t as [n|key|l].
  - cbn [tm check_item] in E. unfold dat in E. cbn [check_item] in E.
    pose proof (Hu n (or_introl eq_refl)) as Un.
    destruct (existsb (N.eqb (actual tb n)) (top :: stack)) eqn:Ex.
    + apply existsb_exists in Ex. destruct Ex as (y & Hy & Ey). apply N.eqb_eq in Ey. subst y.
      destruct (Hs _ Hy) as [Dy Py]. pose proof Dy as Dy'. apply has_expr_def in Dy'.
      pose proof (def_actual tb mx n T Dy') as An. rewrite An in Py. exists n.
      apply clos_rt_t with (y := top); [exact Py|]. apply t_step. exact Un.
    + change (d_table d) with tb in E. destruct (has_expr tb (actual tb n)) eqn:Ha; [|discriminate E].
      pose proof (def_actual tb mx n T Ha) as An. rewrite An in E, Ha. rewrite exprs_ts in E.
      destruct (check_items_first _ _ Bad ltac:(discriminate) E) as (e & He & Ee).
      apply in_map_iff in He. destruct He as (t' & <- & Ht').
      destruct (check_items_first _ _ Bad ltac:(discriminate) Ee) as (j & Hj & Ej).
      assert (Hj' : exists u, j = tm (dat tb) u /\ forall m, In m (names u) -> In m (names t')).
      { destruct t' as [m|key|l].
        - destruct Hj as [<-|[]]. exists (TName m). split; [reflexivity|auto].
        - destruct Hj as [<-|[]]. exists (TKey key). split; [reflexivity|auto].
        - unfold expr_of in Hj. cbn [tm items_of] in Hj. apply in_map_iff in Hj. destruct Hj as (u & <- & Hu').
          exists u. split; [reflexivity|]. intros m Hm. cbn [names]. apply in_flat_map. exists u. auto. }
      destruct Hj' as (u & Ej' & Nu).
      apply (IH (top :: stack) n j u Ej Ej').
      * intros m Hm. exists t'. split; [apply ts_in; exact Ht'|exact (Nu m Hm)].
      * intros y [<-|Hy].
        -- split; [apply has_expr_def; exact Ha|apply rt_refl].
        -- destruct (Hs y Hy) as [Dy Py]. split; [exact Dy|].
           apply rt_trans with (y := top); [exact Py|]. apply rt_step. exact Un.
  - discriminate E.
  - cbn [tm check_item] in E. destruct (check_items_first _ _ Bad ltac:(discriminate) E) as (j & Hj & Ej).
    apply in_map_iff in Hj. destruct Hj as (u & <- & Hu').
    apply (IH stack top _ u Ej eq_refl); [|exact Hs].
    intros m Hm. apply Hu. cbn [names]. apply in_flat_map. exists u. auto.
Qed.

Lemma fail_cycle_top k a : defined_by_expr tb a -> check_item k d [] (IDatum a) = Bad ->
  exists c, clos_trans N (uses stmts) c c.
Proof.
  intros Da E. destruct k as [|k]; [discriminate E|]. cbn [check_item existsb] in E.
  change (d_table d) with tb in E. pose proof Da as Ha. apply has_expr_def in Ha. rewrite Ha, exprs_ts in E.
  destruct (check_items_first _ _ Bad ltac:(discriminate) E) as (e & He & Ee).
  apply in_map_iff in He. destruct He as (t' & <- & Ht').
  destruct (check_items_first _ _ Bad ltac:(discriminate) Ee) as (j & Hj & Ej).
  assert (Hj' : exists u, j = tm (dat tb) u /\ forall m, In m (names u) -> In m (names t')).
  { destruct t' as [m|key|l].
    - destruct Hj as [<-|[]]. exists (TName m). split; [reflexivity|auto].
    - destruct Hj as [<-|[]]. exists (TKey key). split; [reflexivity|auto].
    - unfold expr_of in Hj. cbn [tm items_of] in Hj. apply in_map_iff in Hj. destruct Hj as (u & <- & Hu').
      exists u. split; [reflexivity|]. intros m Hm. cbn [names]. apply in_flat_map. exists u. auto. }
  destruct Hj' as (u & Ej' & Nu).
  apply (fail_cycle k [] a j u Ej Ej').
  - intros m Hm. exists t'. split; [apply ts_in; exact Ht'|exact (Nu m Hm)].
  - intros y [<-|[]]. split; [exact Da|apply rt_refl].
Qed.

Lemma check_nocrash k : forall stack i, check_item k d stack i <> Crash.
Proof.
  induction k as [|k IH]; intros stack i; [discriminate|]. destruct i as [x|n|op|l]; cbn [check_item]; try discriminate.
  - destruct (existsb (N.eqb x) stack); [discriminate|]. destruct (has_expr (d_table d) x); [|discriminate].
    apply check_items_nocrash. intros l _. apply check_items_nocrash. intros y _. apply IH.
  - apply check_items_nocrash. intros y _. apply IH.
Qed.

(** *** The check ends *)

Fixpoint height (t : tree) : nat :=
  match t with TList l => S (list_max (map height l)) | _ => O end.

Definition tall : nat := list_max (map (fun p => height (snd p)) stmts).

Lemma in_list_max (l : list nat) x : In x l -> (x <= list_max l)%nat.
Proof.
  intros H. pose proof (proj1 (list_max_le l (list_max l)) (le_n _)) as F. rewrite Forall_forall in F. exact (F x H).
Qed.

Lemma tall_in a t : In t (ts a) -> (height t <= tall)%nat.
Proof.
  intros H. apply ts_in in H. unfold tall. apply in_list_max. apply in_map_iff. exists (a, t). auto.
Qed.

Context (ids : list N) (Ids : forall a, defined_by_expr tb a -> In a ids).

Lemma check_ends k : forall stack t, NoDup stack -> incl stack ids ->
  ((length ids - length stack) * S tall + height t < k)%nat ->
  check_item k d stack (tm (dat tb) t) <> Deep.
Proof.
  induction k as [|k IH]; intros stack t Nd Inc Hk E; [exact (Nat.nlt_0_r _ Hk)|].
  destruct t as [n|key|l].
  - cbn [tm] in E. unfold dat in E. cbn [check_item] in E. cbn [height] in Hk.
    set (x := actual tb n) in *. destruct (existsb (N.eqb x) stack) eqn:Ex; [discriminate E|].
    change (d_table d) with tb in E. destruct (has_expr tb x) eqn:Hx; [|discriminate E].
    assert (Nx : ~ In x stack).
    { intros Hi. assert (Y : existsb (N.eqb x) stack = true)
        by (apply existsb_exists; exists x; split; [exact Hi|apply N.eqb_refl]). congruence. }
    assert (Nd' : NoDup (x :: stack)) by (constructor; assumption).
    assert (Inc' : incl (x :: stack) ids).
    { intros y [<-|Hy]; [apply Ids; apply has_expr_def; exact Hx|exact (Inc y Hy)]. }
    pose proof (NoDup_incl_length Nd' Inc') as Len. cbn [length] in Len.
    rewrite exprs_ts in E. destruct (check_items_first _ _ Deep ltac:(discriminate) E) as (e & He & Ee).
    apply in_map_iff in He. destruct He as (t' & <- & Ht').
    destruct (check_items_first _ _ Deep ltac:(discriminate) Ee) as (j & Hj & Ej).
    assert (Hj' : exists u, j = tm (dat tb) u /\ (height u <= height t')%nat).
    { destruct t' as [m|key|l].
      - destruct Hj as [<-|[]]. exists (TName m). split; [reflexivity|lia].
      - destruct Hj as [<-|[]]. exists (TKey key). split; [reflexivity|lia].
      - unfold expr_of in Hj. cbn [tm items_of] in Hj. apply in_map_iff in Hj. destruct Hj as (u & <- & Hu').
        exists u. split; [reflexivity|]. cbn [height]. pose proof (in_list_max _ _ (in_map height _ _ Hu')). lia. }
    destruct Hj' as (u & -> & Hu). pose proof (tall_in x t' Ht') as Ht.
    assert (B : ((length ids - length (x :: stack)) * S tall + height u < k)%nat).
    { cbn [length].
      assert (Q : (length ids - length stack = S (length ids - S (length stack)))%nat) by lia.
      rewrite Q in Hk. set (z := (length ids - S (length stack))%nat) in *. clearbody z. nia. }
    exact (IH (x :: stack) u Nd' Inc' B Ej).
  - discriminate E.
  - cbn [tm check_item] in E. destruct (check_items_first _ _ Deep ltac:(discriminate) E) as (j & Hj & Ej).
    apply in_map_iff in Hj. destruct Hj as (u & <- & Hu'). apply (IH stack u Nd Inc); [|exact Ej].
    cbn [height] in Hk. pose proof (in_list_max _ _ (in_map height _ _ Hu')). lia.
Qed.
End Db.
