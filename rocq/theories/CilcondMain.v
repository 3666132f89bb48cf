(** Proofs about booleanif statements: what the conditional nodes of the policy put in force. *)
From Coq Require Import Arith.
From Verif Require Import Base AvtabModel CondModel CondSpec CondProofs CondProofs2.
From Verif Require Import CilexprModel CilexprSpec CilexprProofs CilexprSets CilcondModel CilcondSpec CilcondProofs.

Section Main.
Context {W : Type} (tb : table) (bs : bools) (B : booleans_ok tb bs).

Lemma number_ok n : tb n <> None -> var_ok bs (number tb n).
Proof using B.
  destruct B as (P & _ & Lt & _). intros H. unfold number, var_ok. destruct (P n) as [E|(v & E)]; [congruence|].
  rewrite E. specialize (Lt n v E). lia.
Qed.

Lemma number_inj n m : tb n <> None -> tb m <> None -> number tb n = number tb m -> n = m.
Proof using B.
  destruct B as (P & _ & _ & Inj). unfold number. destruct (P n) as [E|(v & E)]; [congruence|].
  destruct (P m) as [F|(w & F)]; [congruence|]. rewrite E, F. intros _ _ H. apply (Inj n m v E). rewrite F. f_equal. f_equal. lia.
Qed.

Definition from (done : list tree) (c : cnode (list W) unit) : Prop :=
  exists e u, normal c e /\ c_state c = b2z (truth (asg_of bs) e) /\ In u done /\ vars e = map (number tb) (names u).

Lemma order_bx t u : condition_ok FBool tb t -> condition_ok FBool tb u -> same_first_order t u ->
  forall d1 d2, vars d1 = map (number tb) (names t) -> vars d2 = map (number tb) (names u) -> same_order d1 d2.
Proof using B.
  intros (_ & Nt) (_ & Nu) O d1 d2 V1 V2 Heq. rewrite V1, V2 in *.
  assert (Inj : forall a b, In a (names t ++ names u) -> In b (names t ++ names u) -> number tb a = number tb b -> a = b).
  { intros a b Ha Hb. apply number_inj; [apply in_app_or in Ha as [Ha|Ha]|apply in_app_or in Hb as [Hb|Hb]]; auto. }
  assert (Hs : forall n, In n (names t) <-> In n (names u)).
  { intros n. specialize (Heq (number tb n)). rewrite !in_map_iff in Heq. split; intros Hn.
    - destruct (proj1 Heq (ex_intro _ n (conj eq_refl Hn))) as (m & Em & Hm).
      rewrite <- (Inj m n); [exact Hm|apply in_or_app; right; exact Hm|apply in_or_app; left; exact Hn|exact Em].
    - destruct (proj2 Heq (ex_intro _ n (conj eq_refl Hn))) as (m & Em & Hm).
      rewrite <- (Inj m n); [exact Hm|apply in_or_app; left; exact Hm|apply in_or_app; right; exact Hn|exact Em]. }
  change (@nil N) with (map (number tb) []).
  rewrite !first_occ_map; [rewrite (O Hs); reflexivity|..];
    intros a b Ha Hb; cbn [app] in *; apply Inj; apply in_or_app; auto.
Qed.

Lemma bif_step t (bl : list (block W)) l : bif_ok tb (t, bl) ->
  exists l', booleanif tb bs t bl l = Some l' /\
    forall done, Forall (from done) l ->
      Forall (from (t :: done)) l' /\
      ((forall u, In u done -> condition_ok FBool tb u /\ same_first_order t u) ->
       forall asg w, out_in_force l' asg w <->
         out_in_force l asg w \/ statements (condition (fun n => asg (number tb n)) t) bl w).
Proof using B.
  intros (C & D & Bl). cbn [fst snd] in *. pose proof B as (P & Bo & Lt & Inj).
  unfold booleanif. rewrite (proj2 (verify_blocks_ok bl) Bl).
  destruct (proj1 (condition_expr_ok tb t P) (conj C D)) as (el & -> & We & Ze).
  assert (Vb := bx_vars tb t (proj1 C)).
  assert (Te : toks_ok bs el).
  { intros x Hx Tx. assert (Hv : In (t_bool x) (vars (bx tb t))) by (apply (writes_vars _ _ We); exists x; auto).
    rewrite Vb in Hv. apply in_map_iff in Hv as (n & <- & Hn). apply number_ok. exact (proj2 C n Hn). }
  assert (Ce : (cells (bx tb t) <= 10)%nat) by (rewrite (bx_cells tb t (proj1 C)); exact D).
  destruct (normalize_normal bs (mkC 0%Z el true false tt tt 0 [] 0 0) (bx tb t) Bo Te Ze We Ce)
    as (tmp & e' & swap & E1 & N1 & T1 & Z1 & V1 & K1 & K2 & A1 & A2 & _ & _).
  rewrite E1. cbn [c_true c_false] in A1, A2.
  assert (Sw : c_false tmp = swap) by (rewrite A2; destruct swap; reflexivity). rewrite Sw.
  set (tn := if swap then pick_last false bl else pick_last true bl).
  set (fn := if swap then pick_last true bl else pick_last false bl).
  assert (Tr : forall asg w, In w (in_force (truth asg e') tn fn) <-> statements (condition (fun n => asg (number tb n)) t) bl w).
  { intros asg w. rewrite <- (bx_truth tb asg t (proj1 C)), <- (pick_two_ok _ bl Bl). unfold tn, fn, in_force.
    rewrite !(pick_last_two _ bl Bl). destruct swap.
    - rewrite (K1 eq_refl). cbn [truth]. destruct (truth asg e'); reflexivity.
    - rewrite (proj1 (K2 eq_refl)). destruct (truth asg (bx tb t)); reflexivity. }
  assert (Ve : vars e' = map (number tb) (names t)) by (rewrite V1; exact Vb).
  unfold cond_node_search.
  match goal with |- context[cond_find_from ?n l 0] => set (nd := n) end.
  assert (Nn : normal nd e').
  { destruct N1 as (n1 & n2 & n3 & n4). unfold normal, nd. cbn [c_expr c_ids c_nbools c_pre]. split; [exact n1|]. split; [exact n2|]. split; [exact n3|exact n4]. }
  assert (Mono : forall done c, from done c -> from (t :: done) c).
  { intros done c (e & u & H1 & H2 & H3 & H4). exists e, u. split; [exact H1|]. split; [exact H2|]. split; [right; exact H3|exact H4]. }
  destruct (cond_find_from nd l 0) as [i|] eqn:Ef.
  - destruct (find_from_spec _ _ _ _ Ef) as (j & nc & Ej & Hj & Heq). cbn in Ej. subst j. rewrite Hj.
    eexists. split; [reflexivity|]. intros done Fl. rewrite Forall_forall in Fl.
    pose proof (Fl nc (nth_error_In _ _ Hj)) as (e & u & H1 & H2 & H3 & H4).
    split.
    + rewrite Forall_forall. intros x Hx. rewrite (in_set_nth _ _ _ _ Hj) in Hx.
      destruct Hx as [->|(k & _ & Hk)]; [|apply Mono, Fl; eapply nth_error_In; exact Hk].
      exists e, u. split; [|split; [exact H2|split; [right; exact H3|exact H4]]].
      destruct H1 as (n1 & n2 & n3 & n4). split; [exact n1|]. split; [exact n2|]. split; [exact n3|exact n4].
    + intros Hord asg w.
      assert (Same : forall asg, truth asg e' = truth asg e).
      { destruct (Hord u H3) as (Cu & Ou).
        apply (normal_equal nd nc e' e Nn H1); [|exact Heq]. exact (order_bx t u C Cu Ou e' e Ve H4). }
      rewrite (force_set l i nc _ e tn fn asg w Hj (proj1 H1)) by reflexivity.
      rewrite <- (Tr asg w), (Same asg). reflexivity.
  - unfold cond_node_create. change (c_expr nd) with (c_expr tmp).
    rewrite (eval_writes bs _ _ Bo T1 (proj1 N1)).
    cbn [nth_error set_nth]. eexists. split; [reflexivity|]. intros done Fl. split.
    + constructor; [|eapply Forall_impl; [|exact Fl]; intros x; apply Mono].
      exists e', t. split; [|split; [|split; [left; reflexivity|exact Ve]]].
      * destruct N1 as (n1 & n2 & n3 & n4). split; [exact n1|]. split; [exact n2|]. split; [exact n3|exact n4].
      * cbn [c_state]. destruct (Nat.leb_spec (cells e') 10) as [_|Hc]; [reflexivity|].
        exfalso. destruct N1 as (_ & n2 & _). clear - n2 Hc. lia.
    + intros _ asg w. match goal with |- out_in_force (?x :: l) _ _ <-> _ => set (nc := x) end. split.
      * intros (x & ex & Hx & Wx & Hw). destruct Hx as [<-|Hx].
        { right. unfold nc in Wx, Hw. cbn [c_expr c_true c_false app] in Wx, Hw.
          rewrite (writes_unique _ _ _ Wx (proj1 N1)) in Hw. apply Tr. exact Hw. }
        { left. exists x, ex. split; [exact Hx|split; assumption]. }
      * intros [(x & ex & Hx & Wx & Hw)|Hw].
        { exists x, ex. split; [right; exact Hx|split; assumption]. }
        { exists nc, e'. split; [left; reflexivity|]. split; [exact (proj1 N1)|].
          unfold nc. cbn [c_true c_false app]. apply Tr. exact Hw. }
Qed.

Lemma bif_none t (bl : list (block W)) l : ~ bif_ok tb (t, bl) -> booleanif tb bs t bl l = None.
Proof using B.
  intros H. unfold booleanif. destruct (verify_blocks bl) eqn:V; [|reflexivity]. apply verify_blocks_ok in V.
  rewrite (proj2 (condition_expr_ok tb t (proj1 B))); [reflexivity|]. intros (C & D). apply H.
  split; [exact C|split; [exact D|exact V]].
Qed.

Lemma bifs_all cs : Forall (bif_ok tb) cs -> forall done l, Forall (from done) l ->
  exists l', booleanifs tb bs cs l = Some l' /\ Forall (from (rev (map fst cs) ++ done)) l' /\
    ((forall u, In u done -> condition_ok FBool tb u) ->
     (forall t u, In t (map fst cs) -> In u (map fst cs ++ done) -> same_first_order t u) ->
     forall asg w, out_in_force l' asg w <->
       out_in_force l asg w \/
       exists t bl, In (t, bl) cs /\ statements (condition (fun n => asg (number tb n)) t) bl w).
Proof using B.
  induction 1 as [|[t bl] cs Hp Hcs IH]; intros done l Fl.
  - exists l. split; [reflexivity|]. split; [exact Fl|]. intros _ _ asg w. split; [left; assumption|].
    intros [H|(t & bl & [] & _)]; exact H.
  - cbn [booleanifs]. destruct (bif_step t bl l Hp) as (l1 & -> & H1). destruct (H1 done Fl) as (F1 & G1).
    destruct (IH (t :: done) l1 F1) as (l2 & -> & F2 & G2). exists l2. split; [reflexivity|]. split.
    { cbn [map fst rev]. rewrite <- app_assoc. exact F2. }
    intros Cd Ord asg w. rewrite G2.
    + rewrite G1.
      * split.
        { intros [[H|H]|(u & bu & Hu & Hw)]; [left; exact H|right|right].
          - exists t, bl. split; [left; reflexivity|exact H].
          - exists u, bu. split; [right; exact Hu|exact Hw]. }
        { intros [H|(u & bu & [E|Hu] & Hw)]; [left; left; exact H| |].
          - inversion E; subst. left; right; exact Hw.
          - right. exists u, bu. split; assumption. }
      * intros u Hu. split; [exact (Cd u Hu)|]. apply Ord; [left; reflexivity|]. apply in_or_app; right; exact Hu.
    + intros u [<-|Hu]; [exact (proj1 Hp)|exact (Cd u Hu)].
    + intros u v Hu Hv. apply Ord; [right; exact Hu|]. cbn [map fst app]. apply in_app_or in Hv.
      cbn [In] in *. rewrite in_app_iff. tauto.
Qed.

Lemma bif_dec p : bif_ok tb p \/ ~ @bif_ok W tb p.
Proof using.
  destruct p as [t bl]. unfold bif_ok, condition_ok. cbn [fst snd].
  destruct (verify_blocks bl) eqn:V.
  2:{ right. intros (_ & _ & H). apply verify_blocks_ok in H. congruence. }
  apply verify_blocks_ok in V.
  destruct (le_lt_dec (depth t) 10) as [D|D]; [|right; lia].
  destruct (shape FBool t) eqn:Sh; [|right; intros ((H & _) & _); congruence].
  assert (Dn : forall l : list N, (forall n, In n l -> tb n <> None) \/ ~ (forall n, In n l -> tb n <> None)).
  { induction l as [|x l [IH|IH]].
    - left. intros n [].
    - destruct (tb x) as [d|] eqn:E; [left|right].
      + intros n [<-|Hn]; [congruence|exact (IH n Hn)].
      + intros H. exact (H x (or_introl eq_refl) E).
    - right. intros H. apply IH. intros n Hn. apply H. right. exact Hn. }
  destruct (Dn (names t)) as [H|H]; [left|right; tauto].
  split; [split; [reflexivity|exact H]|split; assumption].
Qed.

Lemma bifs_some (cs : list (tree * list (block W))) : forall l l', booleanifs tb bs cs l = Some l' -> Forall (bif_ok tb) cs.
Proof using B.
  induction cs as [|[t bl] cs IH]; intros l l' H; [constructor|]. cbn [booleanifs] in H.
  destruct (booleanif tb bs t bl l) as [l1|] eqn:E; [|discriminate H].
  constructor; [|exact (IH l1 l' H)].
  destruct (bif_dec (t, bl)) as [G|G]; [exact G|]. rewrite (bif_none t bl l G) in E. discriminate E.
Qed.
End Main.

Lemma tunableif_exact : forall (S : Type) tb tv t (bl : list (block S)), plain_table tb ->
  match tunableif tb tv t bl with
  | Some out => condition_ok FTunable tb t /\ blocks_ok bl /\ forall s, In s out <-> statements (condition tv t) bl s
  | None => ~ (condition_ok FTunable tb t /\ blocks_ok bl)
  end.
Proof.
  intros S tb tv t bl P. destruct (tunableif_ok tb tv t bl P) as [Y No].
  destruct (tunableif tb tv t bl) as [out|] eqn:E.
  - unfold tunableif in E. rewrite gen_ok in E. destruct (shape FTunable t) eqn:Sh; [|discriminate E].
    destruct (verify_blocks bl) eqn:V; [|discriminate E]. apply verify_blocks_ok in V.
    destruct (resolve_expr tb (items_of (tm IStr t))) as [e|] eqn:R; [|discriminate E].
    assert (C : condition_ok FTunable tb t) by (split; [exact Sh|exact (proj2 (resolve_expr_fwd tb FTunable t e Sh R))]).
    specialize (Y (conj C V)).
    assert (Eo : out = pick_two (condition tv t) bl) by congruence. subst out.
    split; [exact C|]. split; [exact V|]. intros s. apply pick_two_ok. exact V.
  - intros H. discriminate (Y H).
Qed.

Lemma condition_expr_exact : forall tb t, plain_table tb ->
  match condition_expr tb t with
  | Some l => condition_ok FBool tb t /\ (depth t <= 10)%nat /\
      exists e, writes l e /\ forall asg, truth asg e = condition (fun n => asg (number tb n)) t
  | None => ~ (condition_ok FBool tb t /\ (depth t <= 10)%nat)
  end.
Proof.
  intros tb t P. destruct (condition_expr_ok tb t P) as [Y No].
  destruct (condition_expr tb t) as [l|] eqn:E.
  - destruct (@bif_dec unit tb (t, [(Some true, [])])) as [(C & D & _)|Nb]; cbn [fst] in *.
    + split; [exact C|]. split; [exact D|]. destruct (Y (conj C D)) as (l' & E' & We & _).
      assert (l' = l) by congruence. subst l'. exists (bx tb t). split; [exact We|].
      intros asg. apply bx_truth. exact (proj1 C).
    + exfalso. assert (Z : Some l = None); [|discriminate Z]. apply No. intros (C & D). apply Nb.
      split; [exact C|]. split; [exact D|apply one_block].
  - intros H. destruct (Y H) as (l & E' & _). congruence.
Qed.

Lemma bifs_accepted : forall (W : Type) tb bs (cs : list (tree * list (block W))), booleans_ok tb bs ->
  (booleanifs tb bs cs [] <> None <-> Forall (bif_ok tb) cs).
Proof.
  intros W tb bs cs B. split.
  - intros H. destruct (booleanifs tb bs cs []) as [l|] eqn:E; [|congruence]. exact (bifs_some tb bs B cs [] l E).
  - intros F. destruct (bifs_all tb bs B cs F [] [] (Forall_nil _)) as (l & -> & _). discriminate.
Qed.

Lemma bifs_in_force : forall (W : Type) tb bs (cs : list (tree * list (block W))) l, booleans_ok tb bs ->
  (forall t u, In t (map fst cs) -> In u (map fst cs) -> same_first_order t u) ->
  booleanifs tb bs cs [] = Some l ->
  forall asg w, out_in_force l asg w <->
    exists t bl, In (t, bl) cs /\ statements (condition (fun n => asg (number tb n)) t) bl w.
Proof.
  intros W tb bs cs l B O E asg w. pose proof (bifs_some tb bs B cs [] l E) as F.
  destruct (bifs_all tb bs B cs F [] [] (Forall_nil _)) as (l' & E' & _ & G). assert (l' = l) by congruence. subst l'.
  rewrite G.
  - split; [|right; assumption]. intros [(c & e & [] & _)|H]; exact H.
  - intros u [].
  - intros t u Ht Hu. rewrite app_nil_r in Hu. exact (O t u Ht Hu).
Qed.

Lemma bifs_start : forall (W : Type) tb bs (cs : list (tree * list (block W))) l, booleans_ok tb bs ->
  booleanifs tb bs cs [] = Some l ->
  forall c, In c l -> exists e, writes (c_expr c) e /\
    c_state c = (if truth (asg_of bs) e then 1 else 0)%Z.
Proof.
  intros W tb bs cs l B E c Hc. pose proof (bifs_some tb bs B cs [] l E) as F.
  destruct (bifs_all tb bs B cs F [] [] (Forall_nil _)) as (l' & E' & H & _). assert (l' = l) by congruence. subst l'.
  rewrite Forall_forall in H. destruct (H c Hc) as (e & u & (We & _) & St & _). exists e. split; [exact We|].
  rewrite St. destruct (truth (asg_of bs) e); reflexivity.
Qed.

Lemma merged_wrongly : exists tb bs (cs : list (tree * list (block N))) l asg w,
  booleans_ok tb bs /\ booleanifs tb bs cs [] = Some l /\ out_in_force l asg w /\
  ~ exists t bl, In (t, bl) cs /\ statements (condition (fun n => asg (number tb n)) t) bl w.
Proof.
  set (tb := fun n => if n =? 1 then Some (DLeaf 0) else if n =? 2 then Some (DLeaf 1) else None).
  exists tb, [Some 0%Z; Some 0%Z],
    [(TList [TKey KAnd; TName 1; TList [TKey KNot; TName 2]], [(Some true, [10])]);
     (TList [TKey KAnd; TName 2; TList [TKey KNot; TName 1]], [(Some true, [20])])].
  eexists. exists (fun v => v =? 1), 20. split; [|split; [vm_compute; reflexivity|split]].
  - split.
    { intros n. unfold tb. destruct (n =? 1); [right; eauto|]. destruct (n =? 2); [right; eauto|left; reflexivity]. }
    split; [constructor; [left; reflexivity|constructor; [left; reflexivity|constructor]]|].
    unfold tb. split.
    + intros n v. destruct (n =? 1); [intros E; inversion E; reflexivity|]. destruct (n =? 2); intros E; inversion E; reflexivity.
    + intros n m v. destruct (N.eqb_spec n 1), (N.eqb_spec m 1), (N.eqb_spec n 2), (N.eqb_spec m 2); intros E F; inversion E; subst; inversion F; subst; congruence.
  - eexists. exists (BAnd (BVar 1) (BNot (BVar 2))). split; [left; reflexivity|]. split.
    + apply (W_and [mkT 1 1] (BVar 1) [mkT 1 2; mkT 2 0] (BNot (BVar 2)) 0); [constructor|].
      apply (W_not [mkT 1 2] (BVar 2) 0). constructor.
    + vm_compute. auto.
  - intros (t & bl & [E|[E|[]]] & (x & Hx & Hw)); inversion E; subst; vm_compute in Hx;
      destruct Hx as [Hx|[]]; inversion Hx; subst; destruct Hw as [Hw|[]]; discriminate Hw.
Qed.
