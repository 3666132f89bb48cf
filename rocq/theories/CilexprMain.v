(** Proofs about CIL set expressions: whole compilations. *)
From Coq Require Import Relations Permutation Arith Bool.
From Verif Require Import Base EbitmapModel EbitmapSpec EbitmapProofs CilexprModel CilexprSpec CilexprProofs
  CilexprEval CilexprSets CilexprSolve.

Lemma kinds_ts f tb mx order stmts : kinds_ok f tb mx order stmts ->
  (f <> FPermx /\ f <> FBool /\ f <> FTunable) /\
  match f with
  | FCat => (forall n, tb n <> Some DAttr) /\ (forall a, (length (ts stmts a) <= 1)%nat) /\
            (forall v, v < mx -> In v order)
  | _ => forall n, tb n <> Some DSet
  end.
Proof.
  intros K. unfold kinds_ok in K. destruct f; try contradiction;
    try (split; [repeat split; discriminate|exact K]).
  destruct K as (A & Nd & O). split; [repeat split; discriminate|]. split; [exact A|]. split; [|exact O].
  intros a. clear A O. unfold ts. rewrite map_length.
  induction stmts as [|[n t] l IH]; [cbn; lia|]. cbn [map fst] in Nd. inversion Nd as [|x y Hn Nd']; subst.
  cbn [filter fst]. specialize (IH Nd'). destruct (N.eqb_spec n a) as [->|]; [|exact IH].
  replace (filter (fun p => fst p =? a) l) with (@nil (N * tree)); [cbn; lia|].
  symmetry. clear - Hn. induction l as [|[m u] l IH]; [reflexivity|]. cbn [filter fst].
  cbn [map fst] in Hn. destruct (N.eqb_spec m a) as [->|]; [exfalso; apply Hn; left; reflexivity|].
  apply IH. intros H. apply Hn. right. exact H.
Qed.

Lemma Inv_st0 tb mx stmts So stack : Inv tb mx stmts So stack st0.
Proof. intros a _. split; intros x E; discriminate E. Qed.

Lemma tok_parts pl mx t : tok pl mx t = true <-> ordered pl t = true /\ (mx = 0 -> uses_all t = false).
Proof.
  unfold tok. rewrite andb_true_iff, orb_true_iff, !negb_true_iff, N.eqb_neq. split.
  - intros [O [H|H]]; split; auto. intros E. contradiction.
  - intros [O H]. split; [exact O|]. destruct (N.eq_dec mx 0) as [E|E]; auto.
Qed.

Lemma compile_exact f tb mx order ids stmts :
  table_ok tb mx -> kinds_ok f tb mx order stmts -> lists tb ids ->
  exists F, forall fuel, (F <= fuel)%nat ->
    match compile_sets fuel f tb mx order ids stmts with
    | Fine (d, s) =>
        acceptable f tb mx stmts /\
        exists S, solution tb mx stmts S /\
          (forall S', solution tb mx stmts S' -> forall a v, tb a <> None -> S' a v = S a v) /\
          forall a v, defined_by_expr tb a -> (contains d s a v <-> S a v = true)
    | Bad => ~ acceptable f tb mx stmts
    | Crash => False
    | Deep => False
    end.
Proof.
  intros T K Ids. destruct (kinds_ts _ _ _ _ _ K) as [Fok Kinds].
  exists (S (length ids * S (tall stmts)))%nat. intros fuel Hf. unfold compile_sets.
  destruct (read_all f tb stmts) as [r|] eqn:R.
  2:{ intros (A & _). revert R. apply (read_bwd f tb mx stmts T). intros n t Ht.
      destruct (A n t Ht) as (D & Sh & Nm & O & _). auto. }
  destruct (read_fwd f tb mx stmts T r R) as [-> W].
  set (num := fun _ : N => @None Z). set (d := mkDb tb _ mx order num).
  assert (Ends : forall a, In a ids -> check_item fuel d [] (IDatum a) <> Deep).
  { intros a Ha. pose proof (check_ends f tb mx order num stmts W ids (fun a H => proj1 (Ids a) H) fuel [] (TName a)
      (NoDup_nil _) (incl_nil_l _)) as E. cbn [length height] in E. cbn [tm] in E. unfold dat in E.
    rewrite (actual_def tb a (proj2 (Ids a) Ha)) in E. apply E. rewrite Nat.sub_0_r, Nat.add_0_r. exact Hf. }
  unfold check_all. destruct (check_items (fun a => check_item fuel d [] (IDatum a)) ids) as [[]| | |] eqn:Ck; cbn [thn].
  - apply check_items_fine in Ck. rewrite Forall_forall in Ck.
    assert (C : forall a, In a ids -> ckd tb mx order num stmts fuel [] a) by (intros a Ha; exact (Ck a Ha)).
    set (So := val tb mx stmts fuel).
    pose proof (val_solution f tb mx order num stmts T W fuel (fun a Ha => C a (proj1 (Ids a) Ha))) as Sol.
    fold So in Sol.
    assert (S_leaf : forall n x v, tb n = Some (DLeaf x) -> So n v = (v =? x)).
    { intros n x v E. specialize (Sol n v). rewrite E in Sol. exact Sol. }
    assert (S_alias : forall n m v, tb n = Some (DAlias m) -> So n v = So m v).
    { intros n m v E. specialize (Sol n v). rewrite E in Sol. exact Sol. }
    assert (S_def : forall n v, has_expr tb n = true ->
      So n v = existsb (fun t => holds So (place tb) mx t v) (ts stmts n)).
    { intros n v E. apply eq_true_iff_eq. specialize (Sol n v). unfold has_expr in E.
      assert (X : So n v = true <-> exists t, In (n, t) stmts /\ holds So (place tb) mx t v = true)
        by (destruct (tb n) as [[]|]; try discriminate E; exact Sol).
      rewrite X, existsb_exists. split; intros (t & Ht & H); exists t; (split; [apply ts_in; exact Ht|exact H]). }
    assert (S_lt : forall n v, So n v = true -> v < mx) by (intros n v; apply (val_lt tb mx stmts T)).
    assert (Acyc : forall a, ~ clos_trans N (uses stmts) a a).
    { intros a P. apply clos_trans_t1n in P.
      assert (Da : defined_by_expr tb a).
      { clear - P W. inversion P as [b (t & Ht & _)|b c (t & Ht & _) _]; exact (proj1 (W _ t Ht)). }
      exact (pass_acyclic f tb mx order num stmts W fuel [] a a (C a (proj1 (Ids a) Da)) P Da (or_introl eq_refl)). }
    pose proof (visit_all_ok f tb mx order num stmts T W So S_leaf S_alias S_def S_lt Fok Kinds fuel ids st0 C
      (Inv_st0 tb mx stmts So [])) as V. fold d in V.
    destruct (visit_all fuel d f ids st0) as [s| | |]; cbn [thn]; try contradiction.
    + destruct V as (Is & _ & Dn).
      assert (DC : forall a v, defined_by_expr tb a -> (contains d s a v <-> So a v = true) /\
        forall t, In t (ts stmts a) -> tok (place tb) mx t = true).
      { intros a v Da. apply (done_contains f tb mx order num stmts T W So S_leaf S_alias S_def S_lt Fok Kinds s a v Is Da).
        exact (Dn a (proj1 (Ids a) Da)). }
      split.
      * split; [|exact Acyc]. intros n t Ht. destruct (W n t Ht) as (Da & Sh & Nm). do 3 (split; [assumption|]).
        apply tok_parts. apply (proj2 (DC n 0 Da)). apply ts_in. exact Ht.
      * exists So. split; [exact Sol|]. split.
        -- intros S' Sol' a v Na. 
           destruct (actual_cases tb mx T a Na) as [[x Ex]|[Da Ea]].
           ++ pose proof (So_actual tb So S_alias a v) as E1. rewrite <- E1.
              pose proof (Sol' a v) as E2. pose proof (Sol' (actual tb a) v) as E3. rewrite Ex in E3.
              rewrite (S_leaf _ _ v Ex), <- E3. unfold actual in *.
              destruct (tb a) as [[y|m| |]|] eqn:Et; try reflexivity. exact E2.
           ++ pose proof (C a (proj1 (Ids a) Da)) as Ca. rewrite <- Ea in Ca.
              exact (solution_unique f tb mx order num stmts T W S' Sol' fuel [] a v Ca Na).
        -- intros a v Da. exact (proj1 (DC a v Da)).
    + intros (A & _). apply V. intros a t Ht. apply tok_parts. apply ts_in in Ht. destruct (A a t Ht) as (_ & _ & _ & O). exact O.
  - intros (_ & A). destruct (check_items_first _ _ Bad ltac:(discriminate) Ck) as (a & Ha & Ea).
    destruct (fail_cycle_top tb mx order num stmts T fuel a (proj2 (Ids a) Ha) Ea) as [c P]. exact (A c P).
  - destruct (check_items_first _ _ Crash ltac:(discriminate) Ck) as (a & Ha & Ea).
    exact (check_nocrash tb mx order num stmts fuel [] _ Ea).
  - destruct (check_items_first _ _ Deep ltac:(discriminate) Ck) as (a & Ha & Ea). exact (Ends a Ha Ea).
Qed.

(** ** Permissions of a class *)

Lemma perm_ordered pl t : shape FPerm t = true -> ordered pl t = true.
Proof.
  induction t as [n|k|l IH] using tree_ind2; intros Sh; try reflexivity.
  rewrite Forall_forall in IH.
  apply shape_form in Sh. destruct Sh as [F1 F2|a A|a b A B|a b A B|a b A B|a b [F|F]|a b [F|F]|a b [F|F]|h c O A];
    try discriminate.
  - reflexivity.
  - change (true && (ordered pl a && true) = true). rewrite (IH a) by (cbn; auto). reflexivity.
  - change (true && (ordered pl a && (ordered pl b && true)) = true). rewrite (IH a), (IH b) by (cbn; auto). reflexivity.
  - change (true && (ordered pl a && (ordered pl b && true)) = true). rewrite (IH a), (IH b) by (cbn; auto). reflexivity.
  - change (true && (ordered pl a && (ordered pl b && true)) = true). rewrite (IH a), (IH b) by (cbn; auto). reflexivity.
  - rewrite forallb_forall in A.
    assert (G : forallb (ordered pl) (h :: c) = true).
    { apply forallb_forall. intros x Hx. exact (IH x Hx (A x Hx)). }
    destruct h as [n|k|q]; [exact G|discriminate O|exact G].
Qed.

Lemma check_leafy d lf t : (forall n, has_expr (d_table d) n = false) ->
  (forall n, match lf n with IDatum _ => True | IStr _ => True | _ => False end) -> forall k,
  (height t < k)%nat -> check_item k d [] (tm lf t) = Fine tt.
Proof.
  intros H L. induction t as [n|key|l IH] using tree_ind2; intros k Hk; (destruct k as [|k]; [lia|]).
  - specialize (L n). cbn [tm]. destruct (lf n); try contradiction; cbn [check_item existsb]; rewrite ?H; reflexivity.
  - reflexivity.
  - cbn [tm check_item]. apply check_items_fine. rewrite Forall_forall in *. intros i Hi.
    apply in_map_iff in Hi. destruct Hi as (x & <- & Hx). apply (IH x Hx k).
    cbn [height] in Hk. pose proof (in_list_max (map height l) (height x) (in_map height l x Hx)). lia.
Qed.

Lemma child_height t x : In x (children t) -> (height x <= height t)%nat.
Proof.
  destruct t as [n|k|l]; intros H; try (destruct H as [<-|[]]; lia). cbn [children] in H. cbn [height].
  pose proof (in_list_max (map height l) (height x) (in_map height l x H)). lia.
Qed.

Lemma child_names t x n : In x (children t) -> In n (names x) -> In n (names t).
Proof.
  destruct t as [m|k|l]; intros H Hn; try (destruct H as [<-|[]]; exact Hn).
  cbn [names]. apply in_flat_map. exists x. split; assumption.
Qed.

Lemma perms_exact tb mx order t : perms_ok tb mx order ->
  exists F, forall fuel, (F <= fuel)%nat ->
    match perm_set fuel tb mx order t with
    | Fine l => perms_acceptable tb mx t /\ forall v, In v l <-> holds (itself (place tb)) (place tb) mx t v = true
    | Bad => ~ perms_acceptable tb mx t
    | Crash => False
    | Deep => False
    end.
Proof.
  intros (T & Lf & Or). exists (S (height t)). intros fuel Hf. unfold perm_set. rewrite gen_ok.
  destruct (shape FPerm t) eqn:Sh.
  2:{ intros (A & _). congruence. }
  destruct (resolve_expr tb (items_of (tm IStr t))) as [e|] eqn:R.
  2:{ intros (_ & A & _). rewrite (resolve_expr_bwd tb mx FPerm t T Sh A (perm_ordered _ t Sh)) in R. discriminate R. }
  destruct (resolve_expr_fwd tb FPerm t e Sh R) as [-> Nm].
  set (num := fun _ : N => @None Z).
  change (mkDb tb (fun _ => []) mx order num) with
    (mkDb tb (exprs_of (map (fun p => (fst p, expr_of tb (snd p))) [])) mx order num).
  set (d := mkDb tb _ mx order num).
  set (So := itself (place tb)).
  assert (NoE : forall n, has_expr tb n = false).
  { intros n. unfold has_expr. destruct (Lf n) as [->|[v ->]]; reflexivity. }
  assert (S_leaf : forall n x v, tb n = Some (DLeaf x) -> So n v = (v =? x)).
  { intros n x v E. unfold So, itself, place. rewrite E. reflexivity. }
  assert (S_alias : forall n m v, tb n = Some (DAlias m) -> So n v = So m v).
  { intros n m v E. destruct (Lf n) as [X|[y X]]; congruence. }
  assert (S_def : forall n v, has_expr tb n = true ->
    So n v = existsb (fun u => holds So (place tb) mx u v) (ts [] n)) by (intros n v E; rewrite NoE in E; discriminate E).
  assert (S_lt : forall n v, So n v = true -> v < mx).
  { intros n v. unfold So, itself. destruct (place tb n) as [x|] eqn:E; [|discriminate].
    intros H. apply N.eqb_eq in H. subst. exact (place_lt tb mx T n x E). }
  assert (W : forall n u, In (n, u) [] -> defined_by_expr tb n /\ shape FPerm u = true /\
    forall x, In x (names u) -> tb x <> None) by (intros n u []).
  assert (Fok : FPerm <> FPermx /\ FPerm <> FBool /\ FPerm <> FTunable) by (repeat split; discriminate).
  assert (Kinds : forall n, tb n <> Some DSet) by (intros n; destruct (Lf n) as [->|[v ->]]; discriminate).
  assert (Acc : tok (place tb) mx t = true -> perms_acceptable tb mx t).
  { intros H. apply tok_parts in H. split; [exact Sh|]. split; [exact Nm|]. exact (proj2 H). }
  unfold evaluate_perms.
  assert (Pl : forallb (fun i => match i with IList _ => false | IOp _ => false | _ => true end) (expr_of tb t) =
               plain_cats d (expr_of tb t)).
  { unfold plain_cats. generalize (expr_of tb t). intros l. induction l as [|i l IH]; [reflexivity|].
    cbn [forallb]. rewrite IH. destruct i as [x| | |]; try reflexivity. change (d_table d) with tb. unfold is_catset.
    destruct (Lf x) as [->|[v ->]]; reflexivity. }
  rewrite Pl. destruct (plain_cats d (expr_of tb t)) eqn:P.
  - destruct (plain_tree FPerm tb mx order num [] So t Sh P) as (ns & En & Hv & Tk & Hn).
    destruct (item_values_ok tb mx order num [] So S_leaf S_alias ns) as (l & El & Hl).
    { intros n Hi. destruct (actual_cases tb mx T n (Nm n (proj1 (Hn n Hi)))) as [X|[X _]]; [exact X|].
      apply has_expr_def in X. rewrite NoE in X. discriminate X. }
    fold d in El. rewrite En, El. split; [exact (Acc Tk)|]. intros v. rewrite Hl, Hv. reflexivity.
  - pose proof (expr_ok FPerm tb mx order num [] T W So S_leaf S_alias S_def S_lt Fok Kinds
      (item_bm fuel d FPerm) [] t st0 Sh Nm) as G.
    assert (Ch : forall x s, In x (children t) -> shape FPerm x = true -> Inv tb mx [] So [] s ->
      rgood So (place tb) d (Inv tb mx [] So []) (keeps []) (all_ok tb mx []) x s (item_bm fuel d FPerm (tm (dat tb) x) s)).
    { intros x s Hx Shx Is.
      apply (item_ok FPerm tb mx order num [] T W So S_leaf S_alias S_def S_lt Fok Kinds fuel [] x s); [|exact Shx| |exact Is].
      - apply check_leafy; [exact NoE|intros n; exact Logic.I|]. pose proof (child_height t x Hx). lia.
      - intros n Hn. apply Nm. exact (child_names t x n Hx Hn). }
    specialize (G Ch (Inv_st0 tb mx [] So [])). fold d in G.
    destruct (expr_bm (item_bm fuel d FPerm) d FPerm (expr_of tb t) ebitmap_init st0) as [[e s']| | |]; cbn [thn fst snd];
      cbn [rgood] in G; try contradiction.
    + destruct G as (Ve & Ge & _ & _ & Tk). split; [exact (Acc Tk)|]. intros v. rewrite filter_In, get_bit_nget by exact Ve.
      rewrite Ge. change (d_max d) with mx. split; [tauto|]. intros H. split; [|exact H]. apply Or.
      apply (holds_lt So (place tb) mx v t); [|exact (place_lt tb mx T)|exact H]. intros n _ Hs. exact (S_lt n v Hs).
    + intros A. assert (X : tok (place tb) mx t = false) by (apply G; intros a u []).
      assert (Y : tok (place tb) mx t = true).
      { apply tok_parts. split; [exact (perm_ordered _ t Sh)|]. exact (proj2 (proj2 A)). }
      congruence.
Qed.

(** ** Extended permissions *)

Lemma thn_fine {A B} (o : out A) (g : A -> out B) b : thn o g = Fine b -> exists a, o = Fine a /\ g a = Fine b.
Proof. destruct o as [a| | |]; cbn [thn]; intros E; try discriminate E. exists a. split; [reflexivity|exact E]. Qed.

Section Permx.
Context (number : N -> option Z).
Let d := mkDb (fun _ => None) (fun _ => []) 65536 [] number.
Notation num := (number16 number).

Lemma str_to_int n : permx_str_to_int d n = match num n with Some v => Fine v | None => Bad end.
Proof.
  unfold permx_str_to_int, number16. change (d_number d n) with (number n). destruct (number n) as [z|]; [|reflexivity].
  destruct (Z.ltb_spec z 0), (Z.ltb_spec 65535 z), (Z.leb_spec 0 z), (Z.leb_spec z 65535);
    cbn [orb andb]; try reflexivity; lia.
Qed.

Lemma num_lt n v : num n = Some v -> v < 65536.
Proof.
  unfold number16. destruct (number n) as [z|]; [|discriminate].
  destruct (Z.leb_spec 0 z), (Z.leb_spec z 65535); cbn [andb]; try discriminate. intros E. inversion E. lia.
Qed.

Lemma permx_range_ok a b : range_good (itself num) num d a b (permx_range d (IStr a) (IStr b)).
Proof.
  unfold permx_range, range_good. rewrite !str_to_int. cbn [holds ordered].
  destruct (num a) as [x|] eqn:Ea; cbn [thn]; [|reflexivity].
  destruct (num b) as [y|] eqn:Eb; cbn [thn]; [|reflexivity].
  pose proof (num_lt a x Ea). pose proof (num_lt b y Eb).
  pose proof (init_range_spec x y ltac:(lia) ltac:(lia)) as H1. unfold range_bm.
  destruct (ebitmap_init_range x y) as [e| | |].
  - destruct H1 as (L & _ & V & G). split; [exact V|]. split; [exact G|]. apply N.leb_le. exact L.
  - apply N.leb_gt. exact H1.
  - lia.
  - exact H1.
Qed.

Lemma permx_item t0 k : forall t s, (height t < k)%nat -> shape FPermx t = true ->
  (forall n, In n (names t) -> In n (names t0)) ->
  rgood (itself num) num d (fun _ => True) (fun _ _ => True) (forall n, In n (names t0) -> num n <> None)
    t s (item_bm k d FPermx (tm IStr t) s) /\
  rgood (itself num) num d (fun _ => True) (fun _ _ => True) (forall n, In n (names t0) -> num n <> None)
    t s (expr_bm (item_bm k d FPermx) d FPermx (items_of (tm IStr t)) ebitmap_init s).
Proof.
  induction k as [|k IH]; intros t s Hk Sh Nm; [lia|].
  assert (EX : forall k', (k' = k \/ k' = S k) ->
    (forall x s, In x (children t) -> shape FPermx x = true ->
       rgood (itself num) num d (fun _ => True) (fun _ _ => True) (forall n, In n (names t0) -> num n <> None)
         x s (item_bm k' d FPermx (tm IStr x) s)) ->
    rgood (itself num) num d (fun _ => True) (fun _ _ => True) (forall n, In n (names t0) -> num n <> None)
      t s (expr_bm (item_bm k' d FPermx) d FPermx (items_of (tm IStr t)) ebitmap_init s)).
  { intros k' _ H. apply (expr_good IStr (itself num) num d FPermx (fun _ => True) (fun _ _ => True) _
      (fun n => Logic.I) (fun _ => Logic.I) (fun _ _ _ _ _ => Logic.I) eq_refl (fun _ => True)
      (fun a b _ _ _ => permx_range_ok a b) (item_bm k' d FPermx) t s); try discriminate; auto. }
  assert (IT : forall t s, (height t < S k)%nat -> shape FPermx t = true ->
    (forall n, In n (names t) -> In n (names t0)) ->
    rgood (itself num) num d (fun _ => True) (fun _ _ => True) (forall n, In n (names t0) -> num n <> None)
      t s (item_bm (S k) d FPermx (tm IStr t) s)).
  { clear t s Hk Sh Nm EX. intros t s Hk Sh Nm. destruct t as [n|key|l]; [|discriminate Sh|].
    - cbn [tm item_bm]. rewrite str_to_int. destruct (num n) as [v|] eqn:En; cbn [thn].
      + unfold set_one. pose proof (num_lt n v En).
        destruct (set_bit_ok ebitmap_init v true valid_init ltac:(lia)) as (e & -> & V' & G'). cbn [thn rgood].
        split; [exact V'|]. split.
        { intros x. rewrite G'. cbn [holds]. unfold itself. rewrite En. destruct (x =? v); reflexivity. }
        do 2 (split; [exact Logic.I|]). reflexivity.
      + cbn [rgood]. intros A. exfalso. apply (A n); [apply Nm; left; reflexivity|exact En].
    - change (item_bm (S k) d FPermx (tm IStr (TList l)) s) with
        (expr_bm (item_bm k d FPermx) d FPermx (items_of (tm IStr (TList l))) ebitmap_init s).
      apply (expr_good IStr (itself num) num d FPermx (fun _ => True) (fun _ _ => True) _
        (fun n => Logic.I) (fun _ => Logic.I) (fun _ _ _ _ _ => Logic.I) eq_refl (fun _ => True)
        (fun a b _ _ _ => permx_range_ok a b) (item_bm k d FPermx) (TList l) s); try discriminate; auto.
      intros x q Hx Shx _. apply IH; [|exact Shx|].
      + cbn [children] in Hx. cbn [height] in Hk.
        pose proof (in_list_max (map height l) (height x) (in_map height l x Hx)). lia.
      + intros n Hn. apply Nm. exact (child_names (TList l) x n Hx Hn). }
  split; [exact (IT t s Hk Sh Nm)|]. apply EX; [right; reflexivity|].
  intros x q Hx Shx. apply IT; [|exact Shx|].
  - pose proof (child_height t x Hx). lia.
  - intros n Hn. apply Nm. exact (child_names t x n Hx Hn).
Qed.

Lemma union_fine ev l : forall acc s r, union_items ev l acc s = Fine r ->
  forall i, In i l -> exists s' r', ev i s' = Fine r'.
Proof.
  induction l as [|i l IH]; intros acc s r E j Hj; [destruct Hj|]. cbn [union_items] in E.
  destruct (thn_fine _ _ _ E) as (a & Ea & E'). destruct Hj as [<-|Hj]; [eauto|exact (IH _ _ _ E' j Hj)].
Qed.

Lemma permx_expr_names ev t s r : shape FPermx t = true ->
  (forall x s r, In x (children t) -> shape FPermx x = true -> ev (tm IStr x) s = Fine r ->
     forall n, In n (names x) -> num n <> None) ->
  expr_bm ev d FPermx (items_of (tm IStr t)) ebitmap_init s = Fine r -> forall n, In n (names t) -> num n <> None.
Proof.
  intros Sh Hev E n Hn. destruct t as [m|key|l]; [|discriminate Sh|].
  - cbn [tm items_of expr_bm] in E. destruct (thn_fine _ _ _ E) as (a & Ea & _). cbn [union_items] in Ea.
    destruct (thn_fine _ _ _ Ea) as (b & Eb & _). exact (Hev (TName m) s b (or_introl eq_refl) eq_refl Eb n Hn).
  - cbn [tm items_of] in E. cbn [children] in Hev. cbn [names] in Hn. apply in_flat_map in Hn. destruct Hn as (x & Hx & Hn).
    apply shape_form in Sh.
    destruct Sh as [F1 F2|a A|a b A B|a b A B|a b A B|a b [F|F]|a b [F|F]|a b F|h c O A]; try discriminate F.
    + destruct Hx as [<-|[]]. destruct Hn.
    + cbn [map tm expr_bm] in E. destruct (thn_fine _ _ _ E) as (p & Ep & _).
      destruct (thn_fine _ _ _ Ep) as (q & Eq & _).
      destruct Hx as [<-|[<-|[]]]; [destruct Hn|]. exact (Hev a s q ltac:(cbn; auto) A Eq n Hn).
    + cbn [map tm expr_bm] in E. destruct (thn_fine _ _ _ E) as (p & Ep & _).
      destruct (thn_fine _ _ _ Ep) as (q & Eq & Ep2). destruct (thn_fine _ _ _ Ep2) as (q2 & Eq2 & _).
      destruct Hx as [<-|[<-|[<-|[]]]]; [destruct Hn| |].
      * exact (Hev a s q ltac:(cbn; auto) A Eq n Hn).
      * exact (Hev b _ q2 ltac:(cbn; auto) B Eq2 n Hn).
    + cbn [map tm expr_bm] in E. destruct (thn_fine _ _ _ E) as (p & Ep & _).
      destruct (thn_fine _ _ _ Ep) as (q & Eq & Ep2). destruct (thn_fine _ _ _ Ep2) as (q2 & Eq2 & _).
      destruct Hx as [<-|[<-|[<-|[]]]]; [destruct Hn| |].
      * exact (Hev a s q ltac:(cbn; auto) A Eq n Hn).
      * exact (Hev b _ q2 ltac:(cbn; auto) B Eq2 n Hn).
    + cbn [map tm expr_bm] in E. destruct (thn_fine _ _ _ E) as (p & Ep & _).
      destruct (thn_fine _ _ _ Ep) as (q & Eq & Ep2). destruct (thn_fine _ _ _ Ep2) as (q2 & Eq2 & _).
      destruct Hx as [<-|[<-|[<-|[]]]]; [destruct Hn| |].
      * exact (Hev a s q ltac:(cbn; auto) A Eq n Hn).
      * exact (Hev b _ q2 ltac:(cbn; auto) B Eq2 n Hn).
    + cbn [map tm expr_bm] in E. destruct (thn_fine _ _ _ E) as (p & Ep & _).
      destruct (thn_fine _ _ _ Ep) as (q & Eq & _). unfold permx_range in Eq. rewrite !str_to_int in Eq.
      destruct (num a) as [u|] eqn:Ea; [|discriminate Eq]. destruct (num b) as [w|] eqn:Eb; [|discriminate Eq].
      destruct Hx as [<-|[<-|[<-|[]]]]; [destruct Hn| |]; destruct Hn as [<-|[]]; congruence.
    + assert (E2 : thn (union_items ev (map (tm IStr) (h :: c)) ebitmap_init s)
                       (fun r => Fine (ebitmap_union ebitmap_init (fst r), snd r)) = Fine r).
      { destruct h as [m|k|q]; [exact E|discriminate O|exact E]. }
      destruct (thn_fine _ _ _ E2) as (p & Ep & _). rewrite forallb_forall in A.
      destruct (union_fine ev _ _ _ _ Ep (tm IStr x) (in_map _ _ _ Hx)) as (s' & r' & Er).
      exact (Hev x s' r' Hx (A x Hx) Er n Hn).
Qed.

Lemma permx_item_names k : forall t s r, shape FPermx t = true -> item_bm k d FPermx (tm IStr t) s = Fine r ->
  forall n, In n (names t) -> num n <> None.
Proof.
  induction k as [|k IH]; intros t s r Sh E n Hn; [discriminate E|].
  destruct t as [m|key|l]; [|discriminate Sh|].
  - cbn [tm item_bm] in E. rewrite str_to_int in E. destruct Hn as [<-|[]].
    destruct (num m); [discriminate|discriminate E].
  - apply (permx_expr_names (item_bm k d FPermx) (TList l) s r Sh); [|exact E|exact Hn].
    intros x q r' Hx Shx Ex. exact (IH x q r' Shx Ex).
Qed.

Lemma permx_exact t :
  exists F, forall fuel, (F <= fuel)%nat ->
    match permx_set fuel number t with
    | Fine e => permx_acceptable number t /\
        forall v, ebitmap_get_bit e v = holds (itself num) num 65536 t v
    | Bad => ~ permx_acceptable number t
    | Crash => False
    | Deep => False
    end.
Proof.
  exists (S (height t)). intros fuel Hf. unfold permx_set. rewrite gen_ok. destruct (shape FPermx t) eqn:Sh.
  2:{ intros (A & _). congruence. }
  fold d. unfold evaluate_permx.
  pose proof (proj2 (permx_item t fuel t st0 Hf Sh (fun n H => H))) as G.
  destruct (expr_bm (item_bm fuel d FPermx) d FPermx (items_of (tm IStr t)) ebitmap_init st0) as [[e s']| | |] eqn:E;
    cbn [thn fst]; cbn [rgood] in G; try contradiction.
  - destruct G as (V & Gv & _ & _ & Tk). split.
    + split; [exact Sh|]. split.
      * apply (permx_expr_names (item_bm fuel d FPermx) t st0 (e, s') Sh); [|exact E].
        intros x q r' Hx Shx Ex. exact (permx_item_names fuel x q r' Shx Ex).
      * apply tok_parts in Tk. exact (proj1 Tk).
    + intros v. rewrite get_bit_nget by exact V. apply Gv.
  - intros (_ & A & O). specialize (G A).
    assert (Y : tok num 65536 t = true) by (apply tok_parts; split; [exact O|discriminate]).
    change (d_max d) with 65536 in G. congruence.
Qed.
End Permx.

(** ** Consequences *)

Lemma acceptable_perm f tb mx l l' : Permutation l l' -> acceptable f tb mx l -> acceptable f tb mx l'.
Proof.
  intros P (A & C). split.
  - intros n t H. apply A. apply (Permutation_in _ (Permutation_sym P)). exact H.
  - intros a X. apply (C a). clear - P X. revert X.
    assert (G : forall x y, clos_trans N (uses l') x y -> clos_trans N (uses l) x y).
    { intros x y X. induction X as [x y (t & Ht & Hn)|x y z _ IH1 _ IH2].
      - apply t_step. exists t. split; [|exact Hn]. apply (Permutation_in _ (Permutation_sym P)). exact Ht.
      - exact (t_trans _ _ _ _ _ IH1 IH2). }
    apply G.
Qed.

Lemma solution_perm tb mx l l' S : Permutation l l' -> solution tb mx l S -> solution tb mx l' S.
Proof.
  intros P Sol n v. specialize (Sol n v). destruct (tb n) as [[]|]; try exact Sol.
  - rewrite Sol. split; intros (t & Ht & H); exists t; (split; [|exact H]);
      [apply (Permutation_in _ P)|apply (Permutation_in _ (Permutation_sym P))]; exact Ht.
  - rewrite Sol. split; intros (t & Ht & H); exists t; (split; [|exact H]);
      [apply (Permutation_in _ P)|apply (Permutation_in _ (Permutation_sym P))]; exact Ht.
Qed.

Lemma kinds_perm f tb mx order l l' : Permutation l l' -> kinds_ok f tb mx order l -> kinds_ok f tb mx order l'.
Proof.
  intros P. unfold kinds_ok. destruct f; auto. intros (A & Nd & O). split; [exact A|]. split; [|exact O].
  exact (Permutation_NoDup (Permutation_map fst P) Nd).
Qed.

Lemma order_free f tb mx order ids ids' stmts stmts' :
  table_ok tb mx -> kinds_ok f tb mx order stmts -> lists tb ids -> lists tb ids' -> Permutation stmts stmts' ->
  exists F, forall fuel fuel', (F <= fuel)%nat -> (F <= fuel')%nat ->
    match compile_sets fuel f tb mx order ids stmts, compile_sets fuel' f tb mx order ids' stmts' with
    | Fine (d, s), Fine (d', s') => forall a v, defined_by_expr tb a -> (contains d s a v <-> contains d' s' a v)
    | Bad, Bad => True
    | _, _ => False
    end.
Proof.
  intros T K L L' P. destruct (compile_exact f tb mx order ids stmts T K L) as [F1 H1].
  destruct (compile_exact f tb mx order ids' stmts' T (kinds_perm _ _ _ _ _ _ P K) L') as [F2 H2].
  exists (Nat.max F1 F2). intros fuel fuel' G G'. specialize (H1 fuel ltac:(lia)). specialize (H2 fuel' ltac:(lia)).
  destruct (compile_sets fuel f tb mx order ids stmts) as [[d s]| | |]; try contradiction;
    destruct (compile_sets fuel' f tb mx order ids' stmts') as [[d' s']| | |]; try contradiction.
  - destruct H1 as (_ & S1 & Sol1 & U1 & C1). destruct H2 as (_ & S2 & Sol2 & U2 & C2). intros a v Da.
    assert (Na : tb a <> None) by (destruct Da as [Da|Da]; rewrite Da; discriminate).
    rewrite (C1 a v Da), (C2 a v Da), (U2 S1 (solution_perm _ _ _ _ _ P Sol1) a v Na). reflexivity.
  - apply H2. exact (acceptable_perm _ _ _ _ _ P (proj1 H1)).
  - apply H1. exact (acceptable_perm _ _ _ _ _ (Permutation_sym P) (proj1 H2)).
  - exact Logic.I.
Qed.

Lemma circles_refused f tb mx order ids stmts a :
  table_ok tb mx -> kinds_ok f tb mx order stmts -> lists tb ids -> clos_trans N (uses stmts) a a ->
  exists F, forall fuel, (F <= fuel)%nat -> compile_sets fuel f tb mx order ids stmts = Bad.
Proof.
  intros T K L C. destruct (compile_exact f tb mx order ids stmts T K L) as [F H]. exists F. intros fuel G.
  specialize (H fuel G). destruct (compile_sets fuel f tb mx order ids stmts) as [[d s]| | |]; try contradiction.
  - destruct H as ((_ & A) & _). destruct (A a C).
  - reflexivity.
Qed.

Lemma all_of_nothing fuel :
  perms_ok (fun _ => None) 0 [] /\ shape FPerm (TList [TKey KAll]) = true /\
  (forall v, holds (itself (fun _ => None)) (fun _ => None) 0 (TList [TKey KAll]) v = false) /\
  perm_set fuel (fun _ => None) 0 [] (TList [TKey KAll]) = Bad.
Proof.
  split.
  { split; [split; [reflexivity|split; intros; discriminate]|]. split; [intros n; left; reflexivity|].
    intros v Hv. exfalso. lia. }
  split; [reflexivity|]. split; [|reflexivity].
  intros v. apply N.ltb_ge. lia.
Qed.
