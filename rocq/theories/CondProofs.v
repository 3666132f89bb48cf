(** Proofs about conditionals. *)
From Coq Require Import Permutation.
From Verif Require Import Base AvtabModel AvtabSpec AvtabProofs CondModel CondSpec.
Ltac Zify.zify_post_hook ::= Z.div_mod_to_equations.

(** ** Evaluation *)

Definition binb (ty : N) (a b : bool) : bool :=
  if ty =? 3 then a || b else if ty =? 4 then a && b else if ty =? 5 then xorb a b
  else if ty =? 6 then Bool.eqb a b else negb (Bool.eqb a b).

Fixpoint asem (asg : N -> bool) (l : list tok) (st : list bool) : option (list bool) :=
  match l with
  | [] => Some st
  | t :: l' =>
      if t_type t =? 1 then
        if Nat.eqb (length st) 10 then None else asem asg l' (asg (t_bool t) :: st)
      else if t_type t =? 2 then
        match st with a :: r => asem asg l' (negb a :: r) | [] => None end
      else if (3 <=? t_type t) && (t_type t <=? 7) then
        match st with b :: a :: r => asem asg l' (binb (t_type t) a b :: r) | _ => None end
      else None
  end.

Definition Rst (s : list (option Z)) (sp : Z) (st : list bool) : Prop :=
  length s = 10%nat /\ sp = (Z.of_nat (length st) - 1)%Z /\ (length st <= 10)%nat /\
  (forall i, (i < length st)%nat -> nth_error s i = Some (Some (b2z (nth i (rev st) false)))) /\
  (st = [] -> nth_error s 0 = Some (Some (-1)%Z)).

Lemma set_nth_error {A} (l : list A) : forall i v j, (i < length l)%nat ->
  nth_error (set_nth i v l) j = if Nat.eqb i j then Some v else nth_error l j.
Proof.
  induction l as [|x l IH]; intros i v j H; cbn in H; [lia|].
  destruct i; destruct j; cbn; try reflexivity. apply IH. lia.
Qed.

Lemma asg_of_state bs v : asg_of bs v = match bool_state bs v with Some 1%Z => true | _ => false end.
Proof.
  unfold asg_of, bool_state. destruct (N.eqb_spec v 0) as [->|N0]; cbn [orb negb].
  - destruct (nth_error bs _) as [[[|[]|]|]|]; reflexivity.
  - destruct (N.ltb_spec (N.of_nat (length bs)) v) as [L|L].
    + replace (nth_error bs (N.to_nat (v - 1))) with (@None (option Z)); [reflexivity|]. symmetry. apply nth_error_None. lia.
    + destruct (nth_error bs _) as [[z|]|]; reflexivity.
Qed.
Lemma set_state bs v : match v, nth_error bs (N.to_nat (v - 1)) with Npos _, Some (Some s) => Some s | _, _ => None end = bool_state bs v.
Proof.
  unfold bool_state. destruct v as [|p]; [reflexivity|]. cbn [N.eqb orb].
  destruct (N.ltb_spec (N.of_nat (length bs)) (N.pos p)) as [L|L].
  - replace (nth_error bs (N.to_nat (N.pos p - 1))) with (@None (option Z)); [reflexivity|]. symmetry. apply nth_error_None. lia.
  - destruct (nth_error bs _) as [[z|]|]; reflexivity.
Qed.

Lemma bool_state_ok bs v : bools_ok bs -> var_ok bs v -> bool_state bs v = Some (b2z (asg_of bs v)).
Proof.
  intros B V. rewrite asg_of_state. unfold bool_state, var_ok in *.
  replace ((v =? 0) || (N.of_nat (length bs) <? v)) with false by lia.
  destruct (nth_error bs (N.to_nat (v - 1))) as [o|] eqn:E.
  - assert (o = Some 0%Z \/ o = Some 1%Z) as [-> | ->]; [|reflexivity..].
    apply nth_error_In in E. unfold bools_ok in B. rewrite Forall_forall in B. apply B; assumption.
  - apply nth_error_None in E. lia.
Qed.

Lemma rd_R s sp st i : Rst s sp st -> (0 <= i < Z.of_nat (length st))%Z ->
  rd s i = Some (b2z (nth (Z.to_nat i) (rev st) false)).
Proof.
  intros (L & _ & _ & H & _) Hi. unfold rd. replace (i <? 0)%Z with false by lia.
  rewrite H by lia. reflexivity.
Qed.

Lemma nth_rev_top st r : nth (length r) (rev (st :: r)) false = st.
Proof. cbn [rev]. rewrite app_nth2; rewrite rev_length; [|lia]. rewrite Nat.sub_diag. reflexivity. Qed.
Lemma nth_rev_low st r i : (i < length r)%nat -> nth i (rev (st :: r)) false = nth i (rev r) false.
Proof. intros. cbn [rev]. rewrite app_nth1; rewrite ?rev_length; [reflexivity|lia]. Qed.

Lemma wr_R s sp r x sp' : length s = 10%nat -> (length r <= 9)%nat ->
  (forall i, (i < length r)%nat -> nth_error s i = Some (Some (b2z (nth i (rev r) false)))) ->
  sp = Z.of_nat (length r) -> sp' = sp ->
  exists s', wr s sp (b2z x) = Some s' /\ Rst s' sp' (x :: r).
Proof.
  intros L Lr H -> ->. unfold wr.
  replace ((Z.of_nat (length r) <? 0)%Z || (Z.of_nat (length s) <=? Z.of_nat (length r))%Z) with false by lia.
  eexists. split; [reflexivity|]. rewrite Nat2Z.id.
  split; [rewrite set_nth_length; exact L|]. split; [cbn [length]; lia|]. split; [cbn [length]; lia|].
  split; [|discriminate].
  intros i Hi. rewrite set_nth_error by lia. destruct (Nat.eqb_spec (length r) i) as [<-|Hne].
  - rewrite nth_rev_top. reflexivity.
  - cbn [length] in Hi. rewrite nth_rev_low by lia. apply H. lia.
Qed.

Lemma binop_ok ty a b : 3 <= ty <= 7 -> cond_binop ty (b2z a) (b2z b) = Some (b2z (binb ty a b)).
Proof.
  intros H. assert (ty = 3 \/ ty = 4 \/ ty = 5 \/ ty = 6 \/ ty = 7) as E by lia.
  destruct E as [->|[->|[->|[->| ->]]]]; destruct a, b; reflexivity.
Qed.

Definition fin (o : option (list bool)) : Z :=
  match o with
  | None => (-1)%Z
  | Some st => match rev st with [] => (-1)%Z | b :: _ => b2z b end
  end.

Lemma eval_asem bs l : bools_ok bs -> toks_ok bs l -> forall s sp st, Rst s sp st ->
  eval_loop bs s sp l = Some (fin (asem (asg_of bs) l st)).
Proof.
  intros B. induction l as [|t l IH]; intros T s sp st HR.
  - cbn [eval_loop asem fin]. destruct st as [|b r].
    + destruct HR as (_ & _ & _ & _ & H). specialize (H eq_refl). unfold rd.
      change (0 <? 0)%Z with false. change (Z.to_nat 0) with O. cbn iota. rewrite H. reflexivity.
    + rewrite (rd_R _ _ _ _ HR) by (cbn [length]; lia). change (Z.to_nat 0) with O.
      destruct (rev (b :: r)) eqn:E; [|reflexivity].
      exfalso. apply (f_equal (@length bool)) in E. rewrite rev_length in E. discriminate.
  - assert (T' : toks_ok bs l) by (intros t' Ht'; apply T; right; exact Ht').
    assert (HT := T t (or_introl eq_refl)). specialize (IH T').
    pose proof HR as (Ls & Hsp & Lst & Hn & He).
    cbn [eval_loop asem]. unfold eval_step.
    unfold COND_BOOL, COND_NOT, COND_OR, COND_NEQ, COND_EXPR_MAXDEPTH.
    destruct (N.eqb_spec (t_type t) 1) as [E1|E1].
    + destruct (Nat.eqb_spec (length st) 10) as [E10|E10].
      * replace (sp =? 10 - 1)%Z with true by lia. reflexivity.
      * replace (sp =? 10 - 1)%Z with false by lia.
        rewrite (bool_state_ok bs _ B (HT E1)).
        destruct (wr_R s (sp + 1) st (asg_of bs (t_bool t)) (sp + 1) Ls ltac:(lia) Hn ltac:(lia) eq_refl)
          as (s' & -> & HR'). apply IH. exact HR'.
    + destruct (N.eqb_spec (t_type t) 2) as [E2|E2].
      * destruct st as [|a r].
        { replace (sp <? 0)%Z with true by (cbn in Hsp; lia). reflexivity. }
        cbn [length] in *. replace (sp <? 0)%Z with false by lia.
        rewrite (rd_R _ _ _ _ HR) by (cbn [length]; lia).
        replace (Z.to_nat sp) with (length r) by lia. rewrite nth_rev_top.
        replace (b2z (b2z a =? 0)%Z) with (b2z (negb a)) by (destruct a; reflexivity).
        assert (Hr : forall i, (i < length r)%nat -> nth_error s i = Some (Some (b2z (nth i (rev r) false)))).
        { intros i Hi. rewrite Hn by lia. rewrite nth_rev_low by lia. reflexivity. }
        destruct (wr_R s sp r (negb a) sp Ls ltac:(lia) Hr ltac:(lia) eq_refl) as (s' & -> & HR').
        apply IH. exact HR'.
      * destruct ((3 <=? t_type t) && (t_type t <=? 7)) eqn:E3; [|reflexivity].
        destruct st as [|b [|a r]].
        { replace (sp <? 1)%Z with true by (cbn in Hsp; lia). reflexivity. }
        { replace (sp <? 1)%Z with true by (cbn in Hsp; lia). reflexivity. }
        cbn [length] in *. replace (sp <? 1)%Z with false by lia.
        rewrite !(rd_R _ _ _ _ HR) by (cbn [length]; lia).
        replace (Z.to_nat sp) with (length (a :: r)) by (cbn [length]; lia). rewrite nth_rev_top.
        replace (Z.to_nat (sp - 1)) with (length r) by lia.
        rewrite nth_rev_low by (cbn [length]; lia). rewrite nth_rev_top.
        rewrite binop_ok by lia.
        assert (Hr : forall i, (i < length r)%nat -> nth_error s i = Some (Some (b2z (nth i (rev r) false)))).
        { intros i Hi. rewrite Hn by lia. rewrite !nth_rev_low by (cbn [length]; lia). reflexivity. }
        destruct (wr_R s (sp - 1) r (binb (t_type t) a b) (sp - 1) Ls ltac:(lia) Hr ltac:(lia) eq_refl)
          as (s' & -> & HR'). apply IH. exact HR'.
Qed.

Lemma eval_spec bs l : bools_ok bs -> toks_ok bs l ->
  cond_evaluate_expr bs l = Some (fin (asem (asg_of bs) l [])).
Proof.
  intros B T. unfold cond_evaluate_expr. apply eval_asem; try assumption.
  split; [reflexivity|]. split; [reflexivity|]. split; [cbn; lia|]. split; [cbn; intros; lia|reflexivity].
Qed.

(** ** Written formulas *)

Lemma writes_asem asg l e : writes l e -> forall r st, (length st <= 10)%nat ->
  asem asg (l ++ r) st =
  if Nat.leb (length st + cells e) 10 then asem asg r (truth asg e :: st) else None.
Proof.
  intros W. induction W as [v|l a x W IH|l a m b x W1 IH1 W2 IH2|l a m b x W1 IH1 W2 IH2|l a m b x W1 IH1 W2 IH2|l a m b x W1 IH1 W2 IH2|l a m b x W1 IH1 W2 IH2];
    intros r st Hst.
  1: { cbn [app asem t_type t_bool cells truth]. change (1 =? 1) with true. cbn iota.
       destruct (Nat.eqb_spec (length st) 10) as [E|E]; destruct (Nat.leb_spec (length st + 1) 10) as [F|F];
         try reflexivity; lia. }
  1: { rewrite <- app_assoc. cbn [app]. rewrite IH by lia. cbn [cells].
       destruct (Nat.leb_spec (length st + cells a) 10); reflexivity. }
  all: rewrite <- !app_assoc; rewrite IH1 by lia; cbn [cells].
  all: destruct (Nat.leb_spec (length st + cells a) 10) as [F1|F1];
       [|destruct (Nat.leb_spec (length st + Nat.max (cells a) (S (cells b))) 10); [lia|reflexivity]].
  all: assert (1 <= cells a)%nat by (clear; induction a; cbn; lia).
  all: rewrite IH2 by (cbn [length]; lia); cbn [length].
  all: destruct (Nat.leb_spec (S (length st) + cells b) 10) as [F2|F2];
       destruct (Nat.leb_spec (length st + Nat.max (cells a) (S (cells b))) 10) as [F3|F3]; try lia; try reflexivity.
Qed.

Lemma cells_pos e : (1 <= cells e)%nat.
Proof. induction e; cbn; lia. Qed.

Lemma writes_fin asg l e : writes l e ->
  asem asg l [] = if Nat.leb (cells e) 10 then Some [truth asg e] else None.
Proof.
  intros W. pose proof (writes_asem asg l e W [] [] ltac:(cbn; lia)) as H. rewrite app_nil_r in H.
  rewrite H. reflexivity.
Qed.

Lemma eval_writes bs l e : bools_ok bs -> toks_ok bs l -> writes l e ->
  cond_evaluate_expr bs l =
  Some (if Nat.leb (cells e) 10 then b2z (truth (asg_of bs) e) else (-1)%Z).
Proof.
  intros B T W. rewrite (eval_spec bs l B T), (writes_fin _ _ _ W).
  destruct (Nat.leb (cells e) 10); reflexivity.
Qed.

(** Symbolic execution: the formulas on the stack, with their tokens. *)
Lemma asem_app asg l : forall r st, asem asg (l ++ r) st =
  match asem asg l st with Some st' => asem asg r st' | None => None end.
Proof.
  induction l as [|t l IH]; intros r st; cbn [app asem]; [reflexivity|].
  destruct (t_type t =? 1); [destruct (Nat.eqb (length st) 10); [reflexivity|apply IH]|].
  destruct (t_type t =? 2); [destruct st; [reflexivity|apply IH]|].
  destruct ((3 <=? t_type t) && (t_type t <=? 7)); [|reflexivity].
  destruct st as [|b [|a st]]; try reflexivity. apply IH.
Qed.

Lemma several_snoc_parts (ls : list (list tok)) es l e : Forall2 writes ls es -> writes l e ->
  Forall2 writes (ls ++ [l]) (es ++ [e]).
Proof. intros. apply Forall2_app; [assumption|constructor; [assumption|constructor]]. Qed.

Lemma forall2_snoc_inv {A B} (P : A -> B -> Prop) la b lb : Forall2 P la (lb ++ [b]) ->
  exists la' a, la = la' ++ [a] /\ Forall2 P la' lb /\ P a b.
Proof.
  intros H. apply Forall2_app_inv_r in H as (l1 & l2 & H1 & H2 & ->).
  inversion H2; subst. inversion H5; subst. exists l1, x. repeat split; assumption.
Qed.

Lemma several_build asg l : forall st, asem asg l [] = Some st ->
  exists es, several l es /\ st = rev (map (truth asg) es).
Proof.
  induction l as [|t l IH] using rev_ind; intros st H.
  - injection H as <-. exists []. split; [|reflexivity]. split.
    + exists []. split; [reflexivity|constructor].
    + intros i e Hi. destruct i; discriminate.
  - rewrite asem_app in H. destruct (asem asg l []) as [st'|] eqn:E; [|discriminate].
    destruct (IH st' eq_refl) as (es & ((ls & -> & F2) & D) & ->). cbn [asem] in H.
    destruct t as [ty v]; cbn [t_type t_bool] in H.
    destruct (N.eqb_spec ty 1) as [->|N1].
    + destruct (Nat.eqb_spec (length (rev (map (truth asg) es))) 10) as [L|L]; [discriminate|].
      injection H as <-. rewrite rev_length, map_length in L.
      exists (es ++ [BVar v]). split; [|rewrite map_app, rev_app_distr; reflexivity]. split.
      * exists (ls ++ [[mkT 1 v]]). split; [rewrite concat_app; reflexivity|].
        apply several_snoc_parts; [exact F2|constructor].
      * intros i e Hi. destruct (Nat.lt_ge_cases i (length es)) as [Hl|Hl].
        { rewrite nth_error_app1 in Hi by lia. exact (D _ _ Hi). }
        rewrite nth_error_app2 in Hi by lia.
        destruct (i - length es)%nat as [|k] eqn:Ek; [|destruct k; discriminate].
        injection Hi as <-. cbn [cells].
        enough (length es <= 9)%nat by lia.
        assert (length es <= 10)%nat; [|lia].
        destruct es as [|x es] using rev_ind; [cbn; lia|]. clear IHes.
        rewrite app_length in *. cbn [length] in *.
        specialize (D (length es) x). rewrite nth_error_app2, Nat.sub_diag in D by lia.
        specialize (D eq_refl). pose proof (cells_pos x). lia.
    + destruct (N.eqb_spec ty 2) as [->|N2].
      * destruct es as [|x es _] using rev_ind; [discriminate|].
        rewrite map_app, rev_app_distr in H. cbn [map rev app] in H. injection H as <-.
        apply forall2_snoc_inv in F2 as (ls' & lx & -> & F2 & Wx).
        exists (es ++ [BNot x]). split; [|rewrite map_app, rev_app_distr; reflexivity]. split.
        { exists (ls' ++ [lx ++ [mkT 2 v]]). split.
          - rewrite !concat_app. cbn [concat]. rewrite !app_nil_r, app_assoc. reflexivity.
          - apply several_snoc_parts; [exact F2|constructor; exact Wx]. }
        intros i e Hi. destruct (Nat.lt_ge_cases i (length es)) as [Hl|Hl].
        { rewrite nth_error_app1 in Hi by lia. apply (D i e). rewrite nth_error_app1 by lia. exact Hi. }
        rewrite nth_error_app2 in Hi by lia.
        destruct (i - length es)%nat as [|k] eqn:Ek; [|destruct k; discriminate].
        injection Hi as <-. apply (D i x). rewrite nth_error_app2 by lia. rewrite Ek. reflexivity.
      * destruct ((3 <=? ty) && (ty <=? 7)) eqn:E3; [|discriminate].
        destruct es as [|y es _] using rev_ind; [discriminate|].
        rewrite map_app, rev_app_distr in H. cbn [map rev app] in H.
        destruct es as [|x es _] using rev_ind; [discriminate|].
        rewrite map_app, rev_app_distr in H. cbn [map rev app] in H. injection H as <-.
        apply forall2_snoc_inv in F2 as (ls1 & ly & -> & F2 & Wy).
        apply forall2_snoc_inv in F2 as (ls' & lx & -> & F2 & Wx).
        assert (exists z, writes (lx ++ ly ++ [mkT ty v]) z /\
                  truth asg z = binb ty (truth asg x) (truth asg y) /\
                  cells z = Nat.max (cells x) (S (cells y))) as (z & Wz & Tz & Cz).
        { assert (ty = 3 \/ ty = 4 \/ ty = 5 \/ ty = 6 \/ ty = 7) as C by lia.
          destruct C as [->|[->|[->|[->| ->]]]];
            [exists (BOr x y)|exists (BAnd x y)|exists (BXor x y)|exists (BEq x y)|exists (BNeq x y)];
            (split; [constructor; assumption|split; reflexivity]). }
        exists (es ++ [z]). split; [|rewrite map_app, rev_app_distr; cbn [map rev app]; rewrite Tz; reflexivity].
        split.
        { exists (ls' ++ [lx ++ ly ++ [mkT ty v]]). split.
          - rewrite !concat_app. cbn [concat]. rewrite !app_nil_r, <- !app_assoc. reflexivity.
          - apply several_snoc_parts; assumption. }
        intros i e Hi. destruct (Nat.lt_ge_cases i (length es)) as [Hl|Hl].
        { rewrite nth_error_app1 in Hi by lia. apply (D i e). rewrite <- app_assoc, nth_error_app1 by lia. exact Hi. }
        rewrite nth_error_app2 in Hi by lia.
        destruct (i - length es)%nat as [|k] eqn:Ek; [|destruct k; discriminate].
        injection Hi as <-. rewrite Cz.
        assert (i = length es) by lia. subst i.
        assert (Dx := D (length es) x). rewrite <- app_assoc, nth_error_app2, Nat.sub_diag in Dx by lia.
        specialize (Dx eq_refl).
        assert (Dy := D (S (length es)) y). rewrite nth_error_app2 in Dy by (rewrite app_length; cbn; lia).
        rewrite app_length in Dy. cbn [length] in Dy.
        replace (S (length es) - (length es + 1))%nat with O in Dy by lia. specialize (Dy eq_refl). lia.
Qed.

Lemma several_run asg l es : several l es -> asem asg l [] = Some (rev (map (truth asg) es)).
Proof.
  intros ((ls & -> & F2) & D).
  assert (H : forall ls es st, Forall2 writes ls es ->
             (forall i e, nth_error es i = Some e -> (length st + i + cells e <= 10)%nat) ->
             (length st <= 10)%nat ->
             asem asg (concat ls) st = Some (rev (map (truth asg) es) ++ st)).
  { clear. intros ls es st F. revert st. induction F as [|l e ls es W F IH]; intros st D Hst; [reflexivity|].
    cbn [concat]. rewrite (writes_asem asg l e W) by exact Hst.
    pose proof (D O e eq_refl) as D0. destruct (Nat.leb_spec (length st + cells e) 10); [|lia].
    rewrite IH.
    - cbn [map rev]. rewrite <- app_assoc. reflexivity.
    - intros i e' Hi. cbn [length]. specialize (D (S i) e' Hi). lia.
    - cbn [length]. pose proof (cells_pos e). lia. }
  rewrite (H ls es []); [rewrite app_nil_r; reflexivity|exact F2| |cbn; lia].
  intros i e Hi. cbn. exact (D i e Hi).
Qed.

(** ** Validation *)

Lemma validate_asem okb asg l : forall st, (length st <= 10)%nat ->
  validate_loop okb (Z.of_nat (length st) - 1) l = true ->
  (exists b, asem asg l st = Some [b]) /\
  forall t, In t l -> (t_type t = 1 -> okb (t_bool t) = true) /\ (t_type t <> 1 -> t_bool t = 0).
Proof.
  induction l as [|t l IH]; intros st L H.
  - cbn in H. destruct st as [|b [|c st]]; cbn [length] in H; try lia. split; [exists b; reflexivity|].
    intros t [].
  - cbn [validate_loop asem] in *. unfold COND_BOOL, COND_NOT, COND_OR, COND_NEQ, COND_EXPR_MAXDEPTH in H.
    destruct (N.eqb_spec (t_type t) 1) as [E1|E1].
    + destruct (okb (t_bool t)) eqn:Eo; [|discriminate]. cbn [negb] in H.
      destruct (10 - 1 <=? Z.of_nat (length st) - 1)%Z eqn:Ed; [discriminate|].
      destruct (Nat.eqb_spec (length st) 10); [lia|].
      destruct (IH (asg (t_bool t) :: st)) as [Hb Ht].
      { cbn [length]; lia. }
      { cbn [length]. replace (Z.of_nat (S (length st)) - 1)%Z with (Z.of_nat (length st) - 1 + 1)%Z by lia. exact H. }
      split; [exact Hb|]. intros u [<-|Hu]; [split; [intros; exact Eo|congruence]|exact (Ht u Hu)].
    + destruct (N.eqb_spec (t_type t) 2) as [E2|E2].
      * destruct (Z.of_nat (length st) - 1 <? 0)%Z eqn:Ed; [discriminate|].
        destruct (N.eqb_spec (t_bool t) 0) as [E0|E0]; [|discriminate]. cbn [negb] in H.
        destruct st as [|a r]; [cbn in Ed; lia|].
        destruct (IH (negb a :: r)) as [Hb Ht]; [exact L|exact H|].
        split; [exact Hb|]. intros u [<-|Hu]; [split; [congruence|intros; exact E0]|exact (Ht u Hu)].
      * destruct ((3 <=? t_type t) && (t_type t <=? 7)) eqn:E3; [|discriminate].
        destruct (Z.of_nat (length st) - 1 <? 1)%Z eqn:Ed; [discriminate|].
        destruct (N.eqb_spec (t_bool t) 0) as [E0|E0]; [|discriminate]. cbn [negb] in H.
        destruct st as [|b [|a r]]; cbn [length] in *; try lia.
        destruct (IH (binb (t_type t) a b :: r)) as [Hb Ht].
        { cbn [length]; lia. }
        { cbn [length]. replace (Z.of_nat (S (length r)) - 1)%Z with (Z.of_nat (S (S (length r))) - 1 - 1)%Z by lia. exact H. }
        split; [exact Hb|]. intros u [<-|Hu]; [split; [congruence|intros; exact E0]|exact (Ht u Hu)].
Qed.

Lemma asem_validate okb asg l : forall st b, (length st <= 10)%nat ->
  (forall t, In t l -> (t_type t = 1 -> okb (t_bool t) = true) /\ (t_type t <> 1 -> t_bool t = 0)) ->
  asem asg l st = Some [b] -> validate_loop okb (Z.of_nat (length st) - 1) l = true.
Proof.
  induction l as [|t l IH]; intros st b L HT H.
  - cbn in H. injection H as ->. reflexivity.
  - cbn [validate_loop asem] in *. unfold COND_BOOL, COND_NOT, COND_OR, COND_NEQ, COND_EXPR_MAXDEPTH.
    destruct (HT t (or_introl eq_refl)) as [H1 H2].
    assert (HT' : forall u, In u l -> (t_type u = 1 -> okb (t_bool u) = true) /\ (t_type u <> 1 -> t_bool u = 0))
      by (intros u Hu; apply HT; right; exact Hu).
    destruct (N.eqb_spec (t_type t) 1) as [E1|E1].
    + rewrite (H1 E1). cbn [negb]. destruct (Nat.eqb_spec (length st) 10); [discriminate|].
      replace (10 - 1 <=? Z.of_nat (length st) - 1)%Z with false by lia.
      specialize (IH (asg (t_bool t) :: st) b ltac:(cbn [length]; lia) HT' H). cbn [length] in IH.
      replace (Z.of_nat (length st) - 1 + 1)%Z with (Z.of_nat (S (length st)) - 1)%Z by lia. exact IH.
    + rewrite (H2 E1). change (negb (0 =? 0)) with false.
      destruct (N.eqb_spec (t_type t) 2) as [E2|E2].
      * destruct st as [|a r]; [discriminate|]. cbn [length] in *.
        replace (Z.of_nat (S (length r)) - 1 <? 0)%Z with false by lia.
        specialize (IH (negb a :: r) b ltac:(cbn [length]; lia) HT' H). exact IH.
      * destruct ((3 <=? t_type t) && (t_type t <=? 7)); [|discriminate].
        destruct st as [|y [|x r]]; try discriminate. cbn [length] in *.
        replace (Z.of_nat (S (S (length r))) - 1 <? 1)%Z with false by lia.
        specialize (IH (binb (t_type t) x y :: r) b ltac:(cbn [length]; lia) HT' H). cbn [length] in IH.
        replace (Z.of_nat (S (S (length r))) - 1 - 1)%Z with (Z.of_nat (S (length r)) - 1)%Z by lia. exact IH.
Qed.

Lemma several_one l e : several l [e] -> writes l e /\ (cells e <= 10)%nat.
Proof.
  intros ((ls & -> & F) & D). inversion F as [|x y ls' es' W F' E1 E2]; subst. inversion F'; subst. cbn. rewrite app_nil_r.
  split; [assumption|]. exact (D O e eq_refl).
Qed.
Lemma one_several l e : writes l e -> (cells e <= 10)%nat -> several l [e].
Proof.
  intros W C. split.
  - exists [l]. split; [cbn; rewrite app_nil_r; reflexivity|constructor; [exact W|constructor]].
  - intros [|i] e' Hi; [injection Hi as <-; exact C|destruct i; discriminate].
Qed.

Lemma writes_nonempty l e : writes l e -> l <> [].
Proof. destruct 1; intros E; try discriminate; apply (f_equal (@length tok)) in E; rewrite ?app_length in E; cbn in E; lia. Qed.

Lemma validate_iff okb l :
  validate_cond_expr okb l = true <->
  (exists e, writes l e /\ (cells e <= 10)%nat) /\
  (forall t, In t l -> (t_type t = 1 -> okb (t_bool t) = true) /\ (t_type t <> 1 -> t_bool t = 0)).
Proof.
  unfold validate_cond_expr. split.
  - intros H. destruct l as [|t0 l0] eqn:El; [discriminate|]. rewrite <- El in *.
    destruct (validate_asem okb (fun _ => false) l [] ltac:(cbn; lia) H) as ((b & Hb) & HT).
    split; [|exact HT]. destruct (several_build _ _ _ Hb) as (es & S & E).
    destruct es as [|e [|e' es]].
    + discriminate.
    + exists e. apply several_one. exact S.
    + apply (f_equal (@length bool)) in E. rewrite rev_length, map_length in E. discriminate.
  - intros ((e & W & C) & HT). pose proof (writes_nonempty _ _ W). destruct l as [|t0 l0] eqn:El; [congruence|].
    rewrite <- El in *. clear El.
    change (-1)%Z with (Z.of_nat (length (@nil bool)) - 1)%Z.
    apply asem_validate with (asg := fun _ => false) (b := truth (fun _ => false) e); [cbn; lia|exact HT|].
    rewrite (writes_fin _ _ _ W). destruct (Nat.leb_spec (cells e) 10); [reflexivity|lia].
Qed.

(** ** Booleans *)

Lemma bools_ok_state bs v : bools_ok bs -> bool_state bs v <> None <-> var_ok bs v.
Proof.
  intros B. split.
  - unfold bool_state, var_ok. destruct ((v =? 0) || (N.of_nat (length bs) <? v)) eqn:E; [congruence|lia].
  - intros V. rewrite (bool_state_ok _ _ B V). discriminate.
Qed.

Lemma set_bool_ok bs v b : bools_ok bs -> var_ok bs v ->
  exists bs', set_bool bs v (b2z b) = Some bs' /\ bools_ok bs' /\ length bs' = length bs /\
    forall w, bool_state bs' w = if w =? v then Some (b2z b) else bool_state bs w.
Proof.
  intros B V. unfold set_bool. rewrite (bool_state_ok _ _ B V).
  eexists. split; [reflexivity|]. unfold var_ok in V.
  assert (Lv : (N.to_nat (v - 1) < length bs)%nat) by lia. split; [|split].
  - unfold bools_ok in *. rewrite Forall_forall in *. intros x Hx.
    apply In_nth_error in Hx as (i & Hi). rewrite set_nth_error in Hi by exact Lv.
    destruct (Nat.eqb (N.to_nat (v - 1)) i).
    + injection Hi as <-. destruct b; [right|left]; reflexivity.
    + apply B. eapply nth_error_In; exact Hi.
  - apply set_nth_length.
  - intros w. unfold bool_state. rewrite set_nth_length.
    destruct (N.eqb_spec w v) as [->|Hn].
    + replace ((v =? 0) || (N.of_nat (length bs) <? v)) with false by lia.
      rewrite set_nth_error, Nat.eqb_refl by exact Lv. reflexivity.
    + destruct ((w =? 0) || (N.of_nat (length bs) <? w)) eqn:E; [reflexivity|].
      rewrite set_nth_error by exact Lv. destruct (Nat.eqb_spec (N.to_nat (v - 1)) (N.to_nat (w - 1))); [lia|reflexivity].
Qed.

Lemma bools_ext bs bs' : bools_ok bs -> bools_ok bs' -> length bs = length bs' ->
  (forall v, bool_state bs v = bool_state bs' v) -> bs = bs'.
Proof.
  intros B B' L H. apply nth_ext with (d := None) (d' := None); [exact L|]. intros i Hi.
  specialize (H (N.of_nat i + 1)). unfold bool_state in H.
  replace ((N.of_nat i + 1 =? 0) || (N.of_nat (length bs) <? N.of_nat i + 1)) with false in H by lia.
  replace ((N.of_nat i + 1 =? 0) || (N.of_nat (length bs') <? N.of_nat i + 1)) with false in H by lia.
  replace (N.to_nat (N.of_nat i + 1 - 1)) with i in H by lia.
  rewrite (nth_nth_error bs i None), (nth_nth_error bs' i None) in H by (rewrite <- ?L; exact Hi).
  assert (P : forall x l, bools_ok l -> In x l -> x <> None).
  { intros x l Bl Hx. unfold bools_ok in Bl. rewrite Forall_forall in Bl. destruct (Bl x Hx); congruence. }
  assert (Hi' : (i < length bs')%nat) by (rewrite <- L; exact Hi).
  pose proof (P _ _ B (nth_In bs None Hi)) as P1. pose proof (P _ _ B' (nth_In bs' None Hi')) as P2.
  destruct (nth i bs None), (nth i bs' None); congruence.
Qed.

Lemma asg_ext bs bs' v : bool_state bs v = bool_state bs' v -> asg_of bs v = asg_of bs' v.
Proof. rewrite !asg_of_state. intros ->. reflexivity. Qed.

(** ** Collecting the booleans *)

Lemma collect_spec e : forall ids n ids' n', collect e ids n = (ids', n') ->
  (n <= 5 -> N.of_nat (length ids) = n) -> NoDup ids -> n' <= 5 ->
  n <= 5 /\ N.of_nat (length ids') = n' /\ NoDup ids' /\ incl ids ids' /\
  (forall t, In t e -> t_type t = 1 -> In (t_bool t) ids') /\
  (forall v, In v ids' -> In v ids \/ exists t, In t e /\ t_type t = 1 /\ t_bool t = v).
Proof.
  induction e as [|t e IH]; intros ids n ids' n' H L ND N5; cbn [collect] in H.
  - injection H as <- <-. split; [exact N5|]. split; [apply L; exact N5|]. split; [exact ND|].
    split; [apply incl_refl|]. split; [intros t []|]. intros v Hv; left; exact Hv.
  - unfold COND_BOOL, COND_MAX_BOOLS in H. destruct (N.eqb_spec (t_type t) 1) as [E1|E1].
    + destruct (bool_present (t_bool t) ids n) eqn:Ep.
      * destruct (IH _ _ _ _ H L ND N5) as (A & B & C & D & E & F). repeat (split; [assumption|]). split.
        { intros u [<-|Hu] Tu; [|exact (E u Hu Tu)]. apply D.
          unfold bool_present, COND_MAX_BOOLS in Ep. destruct (5 <? n) eqn:En; [discriminate|].
          rewrite <- (L ltac:(lia)), Nat2N.id, firstn_all in Ep.
          apply existsb_exists in Ep as (w & Hw & Ew). apply N.eqb_eq in Ew. subst; exact Hw. }
        { intros v Hv. destruct (F v Hv) as [Hi|(u & Hu & Tu & <-)]; [left; exact Hi|right]. exists u. split; [right; exact Hu|split; [exact Tu|reflexivity]]. }
      * destruct (n <? 5) eqn:En.
        { assert (NotIn : ~ In (t_bool t) ids).
          { intros Hin. unfold bool_present, COND_MAX_BOOLS in Ep. replace (5 <? n) with false in Ep by lia.
            rewrite <- (L ltac:(lia)), Nat2N.id, firstn_all in Ep.
            rewrite existsb_false in Ep.
            specialize (Ep _ Hin). cbv beta in Ep. rewrite N.eqb_refl in Ep. discriminate. }
          destruct (IH _ _ _ _ H) as (A & B & C & D & E & F).
          - intros _. rewrite app_length. cbn [length]. rewrite Nat2N.inj_add, (L ltac:(lia)). reflexivity.
          - clear - ND NotIn. apply NoDup_rev in ND. rewrite <- (rev_involutive (ids ++ [t_bool t])).
            apply NoDup_rev. rewrite rev_app_distr. cbn. constructor; [rewrite <- in_rev; exact NotIn|exact ND].
          - exact N5.
          - split; [lia|]. split; [exact B|]. split; [exact C|]. split; [|split].
            + intros v Hv. apply D. apply in_or_app; left; exact Hv.
            + intros u [<-|Hu] Tu; [|exact (E u Hu Tu)]. apply D. apply in_or_app; right; left; reflexivity.
            + intros v Hv. destruct (F v Hv) as [Hi|(u & Hu & Tu & <-)].
              * apply in_app_or in Hi as [Hi|[<-|[]]]; [left; exact Hi|right]. exists t. split; [left; reflexivity|split; [exact E1|reflexivity]].
              * right. exists u. split; [right; exact Hu|split; [exact Tu|reflexivity]]. }
        { exfalso. assert (G : forall e ids n ids' n', collect e ids n = (ids', n') -> n <= n').
          { clear. induction e as [|t e IH]; intros ids n ids' n' H; cbn [collect] in H; [injection H as <- <-; lia|].
            destruct (t_type t =? COND_BOOL); [|exact (IH _ _ _ _ H)].
            destruct (bool_present (t_bool t) ids n); [exact (IH _ _ _ _ H)|].
            destruct (n <? COND_MAX_BOOLS); apply IH in H; lia. }
          apply G in H. lia. }
    + destruct (IH _ _ _ _ H L ND N5) as (A & B & C & D & E & F). repeat (split; [assumption|]). split.
      * intros u [<-|Hu] Tu; [congruence|exact (E u Hu Tu)].
      * intros v Hv. destruct (F v Hv) as [Hi|(u & Hu & Tu & <-)]; [left; exact Hi|right]. exists u. split; [right; exact Hu|split; [exact Tu|reflexivity]].
Qed.

(** ** The truth table *)

Fixpoint index_of (v : N) (ids : list N) : nat :=
  match ids with [] => O | w :: r => if w =? v then O else S (index_of v r) end.
Definition asg_test (ids : list N) (test : N) (v : N) : bool := N.testbit test (N.of_nat (index_of v ids)).

Lemma set_all_spec ids test : forall j bs, bools_ok bs -> Forall (var_ok bs) ids -> NoDup ids ->
  exists bs', set_all ids j test bs = Some bs' /\ bools_ok bs' /\ length bs' = length bs /\
    (forall v, ~ In v ids -> bool_state bs' v = bool_state bs v) /\
    (forall v, In v ids -> bool_state bs' v = Some (b2z (N.testbit test (j + N.of_nat (index_of v ids))))).
Proof.
  induction ids as [|v ids IH]; intros j bs B V ND; cbn [set_all].
  - exists bs. repeat split; try assumption. intros v [].
  - inversion V as [|x l Vv V' E1]; subst. inversion ND as [|x l Nv ND' E1]; subst.
    destruct (set_bool_ok bs v (N.testbit test j) B Vv) as (bs1 & -> & B1 & L1 & S1).
    destruct (IH (j + 1) bs1 B1) as (bs2 & -> & B2 & L2 & S2 & S3).
    { eapply Forall_impl; [|exact V']. intros a. unfold var_ok. rewrite L1. exact (fun x => x). }
    { exact ND'. }
    exists bs2. split; [reflexivity|]. split; [exact B2|]. split; [congruence|]. split.
    + intros w Hw. rewrite S2 by (intros Hi; apply Hw; right; exact Hi). rewrite S1.
      destruct (N.eqb_spec w v) as [->|]; [|reflexivity]. exfalso. apply Hw. left; reflexivity.
    + intros w Hw. cbn [index_of]. destruct (N.eqb_spec v w) as [->|Hne].
      * rewrite S2 by exact Nv. rewrite S1, N.eqb_refl. rewrite N.add_0_r. reflexivity.
      * destruct Hw as [->|Hw]; [congruence|]. rewrite (S3 w Hw). f_equal. f_equal. f_equal. lia.
Qed.

Lemma truth_ext asg asg' e : (forall v, In v (vars e) -> asg v = asg' v) -> truth asg e = truth asg' e.
Proof.
  induction e as [v|a IH|a IHa b IHb|a IHa b IHb|a IHa b IHb|a IHa b IHb|a IHa b IHb]; cbn [truth vars]; intros H.
  1: apply H; left; reflexivity.
  1: rewrite IH by exact H; reflexivity.
  all: rewrite IHa, IHb by (intros v Hv; apply H; apply in_or_app; auto); reflexivity.
Qed.

Lemma writes_vars l e : writes l e -> forall v, In v (vars e) <-> exists t, In t l /\ t_type t = 1 /\ t_bool t = v.
Proof.
  induction 1 as [v0|l a x W IH|l a m b x W1 IH1 W2 IH2|l a m b x W1 IH1 W2 IH2|l a m b x W1 IH1 W2 IH2|l a m b x W1 IH1 W2 IH2|l a m b x W1 IH1 W2 IH2]; intros v; cbn [vars].
  1: { split.
       - intros [<-|[]]. exists (mkT 1 v0). split; [left; reflexivity|split; reflexivity].
       - intros (t & [<-|[]] & _ & E). left; exact E. }
  1: { rewrite IH. split; intros (t & Ht & T1 & T2); exists t; (split; [|split; assumption]).
       - apply in_or_app; left; exact Ht.
       - apply in_app_or in Ht as [Ht|[<-|[]]]; [exact Ht|discriminate]. }
  all: rewrite in_app_iff, IH1, IH2; split;
    [intros [(t & Ht & T1 & T2)|(t & Ht & T1 & T2)]; exists t; (split; [rewrite !in_app_iff; auto|split; assumption])
    |intros (t & Ht & T1 & T2); rewrite !in_app_iff in Ht; destruct Ht as [Ht|[Ht|[<-|[]]]];
       [left; exists t; repeat split; assumption|right; exists t; repeat split; assumption|discriminate]].
Qed.

Lemma toks_ok_len bs bs' l : length bs' = length bs -> toks_ok bs l -> toks_ok bs' l.
Proof. intros L T t Ht T1. specialize (T t Ht T1). unfold var_ok in *. rewrite L. exact T. Qed.

Lemma table_loop_spec ids l e : writes l e -> (cells e <= 10)%nat -> NoDup ids ->
  (forall v, In v (vars e) -> In v ids) ->
  forall n test bs pre, bools_ok bs -> Forall (var_ok bs) ids -> toks_ok bs l ->
  exists bs' pre', table_loop n test ids l bs pre = Some (bs', Some pre') /\ bools_ok bs' /\
    length bs' = length bs /\ (forall v, ~ In v ids -> bool_state bs' v = bool_state bs v) /\
    forall t, N.testbit pre' t =
      N.testbit pre t || ((test <=? t) && (t <? test + N.of_nat n) && truth (asg_test ids t) e).
Proof.
  intros W C ND HV. induction n as [|n IH]; intros test bs pre B V T; cbn [table_loop].
  - exists bs, pre. repeat (split; [try assumption; reflexivity|]). intros t.
    replace ((test <=? t) && (t <? test + N.of_nat 0)) with false by lia. rewrite orb_false_r. reflexivity.
  - destruct (set_all_spec ids test 0 bs B V ND) as (bs1 & -> & B1 & L1 & S1 & S2).
    rewrite (eval_writes bs1 l e B1 (toks_ok_len _ _ _ L1 T) W).
    destruct (Nat.leb_spec (cells e) 10) as [_|]; [|lia].
    replace (b2z (truth (asg_of bs1) e) =? -1)%Z with false by (destruct (truth (asg_of bs1) e); reflexivity).
    assert (Et : truth (asg_of bs1) e = truth (asg_test ids test) e).
    { apply truth_ext. intros v Hv. rewrite asg_of_state. unfold asg_test. rewrite (S2 v (HV v Hv)).
      destruct (N.testbit test (N.of_nat (index_of v ids))) eqn:Eb; rewrite N.add_0_l, Eb; reflexivity. }
    rewrite Et.
    destruct (IH (test + 1) bs1 (if (b2z (truth (asg_test ids test) e) =? 0)%Z then pre else N.lor pre (N.shiftl 1 test)) B1)
      as (bs2 & pre2 & -> & B2 & L2 & S3 & P2).
    { eapply Forall_impl; [|exact V]. intros a. unfold var_ok. rewrite L1. exact (fun x => x). }
    { exact (toks_ok_len _ _ _ L1 T). }
    exists bs2, pre2. split; [reflexivity|]. split; [exact B2|]. split; [congruence|]. split.
    { intros v Hv. rewrite S3, S1 by exact Hv. reflexivity. }
    intros t. rewrite P2.
    assert (Eb : N.testbit (if (b2z (truth (asg_test ids test) e) =? 0)%Z then pre else N.lor pre (N.shiftl 1 test)) t
                 = N.testbit pre t || ((t =? test) && truth (asg_test ids t) e)).
    { destruct (N.eqb_spec t test) as [->|Hne].
      - destruct (truth (asg_test ids test) e); cbn [b2z].
        + change (1 =? 0)%Z with false. cbn iota. rewrite N.lor_spec, N.shiftl_spec_high' by lia. rewrite N.sub_diag. reflexivity.
        + change (0 =? 0)%Z with true. cbn iota. rewrite andb_false_r, orb_false_r. reflexivity.
      - rewrite andb_false_l, orb_false_r. destruct (truth (asg_test ids test) e); cbn [b2z].
        + change (1 =? 0)%Z with false. cbn iota. rewrite N.lor_spec, N.shiftl_1_l, N.pow2_bits_eqb.
          replace (test =? t) with false by lia. rewrite orb_false_r. reflexivity.
        + reflexivity. }
    rewrite Eb. destruct (N.testbit pre t); [reflexivity|]. cbn [orb].
    destruct (truth (asg_test ids t) e); rewrite ?andb_true_r, ?andb_false_r; [|reflexivity].
    lia.
Qed.

Lemma save_all_spec ids bs : bools_ok bs -> Forall (var_ok bs) ids ->
  save_all ids bs = Some (map (fun v => b2z (asg_of bs v)) ids).
Proof.
  intros B. induction 1 as [|v ids Vv V IH]; cbn [save_all map]; [reflexivity|].
  rewrite (bool_state_ok _ _ B Vv), IH. reflexivity.
Qed.

Lemma restore_spec bs0 ids : forall bs, bools_ok bs0 -> bools_ok bs -> length bs = length bs0 ->
  Forall (var_ok bs0) ids -> NoDup ids ->
  exists bs', restore_all ids (map (fun v => b2z (asg_of bs0 v)) ids) bs = Some bs' /\ bools_ok bs' /\
    length bs' = length bs0 /\ (forall v, In v ids -> bool_state bs' v = bool_state bs0 v) /\
    (forall v, ~ In v ids -> bool_state bs' v = bool_state bs v).
Proof.
  induction ids as [|v ids IH]; intros bs B0 B L V ND; cbn [restore_all map].
  - exists bs. repeat split; try assumption. intros v [].
  - inversion V as [|x l Vv V' E1]; subst. inversion ND as [|x l Nv ND' E1]; subst.
    assert (Vv' : var_ok bs v) by (unfold var_ok in *; rewrite L; exact Vv).
    destruct (set_bool_ok bs v (asg_of bs0 v) B Vv') as (bs1 & -> & B1 & L1 & S1).
    destruct (IH bs1 B0 B1 ltac:(congruence) V' ND') as (bs2 & -> & B2 & L2 & S2 & S3).
    exists bs2. split; [reflexivity|]. split; [exact B2|]. split; [exact L2|]. split.
    + intros w Hw. destruct (in_dec N.eq_dec w ids) as [Hi|Hni]; [exact (S2 w Hi)|].
      rewrite (S3 w Hni), S1. destruct Hw as [->|Hw]; [|contradiction]. rewrite N.eqb_refl.
      rewrite (bool_state_ok _ _ B0 Vv). reflexivity.
    + intros w Hw. rewrite S3 by (intros Hi; apply Hw; right; exact Hi). rewrite S1.
      destruct (N.eqb_spec w v) as [->|]; [|reflexivity]. exfalso; apply Hw; left; reflexivity.
Qed.

(** ** Normalising *)

(** What normalising removes. *)
Lemma writes_last_not l e x : writes (l ++ [mkT 2 x]) e -> exists a, e = BNot a /\ writes l a.
Proof.
  intros W. inversion W as [v E|l' a' x' W' E|l1 a1 m1 b1 x1 W1 W2 E|l1 a1 m1 b1 x1 W1 W2 E|l1 a1 m1 b1 x1 W1 W2 E|l1 a1 m1 b1 x1 W1 W2 E|l1 a1 m1 b1 x1 W1 W2 E]; subst.
  1: { destruct l as [|? [|? ?]]; discriminate. }
  1: { apply app_inj_tail in E as [-> _]. exists a'. split; [reflexivity|exact W']. }
  all: rewrite app_assoc in E; apply app_inj_tail in E as [_ E]; discriminate.
Qed.

Lemma strip_spec l e : writes l e ->
  (exists x l' a, strip_not l = Some (l', true) /\ l = l' ++ [mkT 2 x] /\ e = BNot a /\ writes l' a) \/
  (strip_not l = Some (l, false)).
Proof.
  intros W. unfold strip_not. destruct (rev l) as [|t r] eqn:E.
  - exfalso. apply (writes_nonempty _ _ W). rewrite <- (rev_involutive l), E. reflexivity.
  - destruct (N.eqb_spec (t_type t) COND_NOT) as [Et|Et]; [left|right; reflexivity].
    assert (El : l = rev r ++ [t]) by (rewrite <- (rev_involutive l), E; reflexivity).
    destruct t as [ty x]. cbn [t_type] in Et. unfold COND_NOT in Et. subst ty.
    rewrite El in W. destruct (writes_last_not _ _ _ W) as (a & -> & Wa).
    pose proof (writes_nonempty _ _ Wa) as Hne. destruct r as [|t' r']; [cbn in Hne; congruence|].
    exists x, (rev (t' :: r')), a. repeat split; [exact El|exact Wa].
Qed.

Lemma normalize_spec {R V} bs (cn : cnode R V) e : bools_ok bs -> toks_ok bs (c_expr cn) ->
  writes (c_expr cn) e -> (cells e <= 10)%nat ->
  exists cn' e' swap,
    cond_normalize_expr bs cn = Some (bs, cn', 0%Z) /\
    writes (c_expr cn') e' /\ (cells e' <= 10)%nat /\ toks_ok bs (c_expr cn') /\
    (forall asg, truth asg e' = xorb swap (truth asg e)) /\
    strip_not (c_expr cn) = Some (c_expr cn', swap) /\
    c_true cn' = (if swap then c_false cn else c_true cn) /\
    c_false cn' = (if swap then c_true cn else c_false cn) /\
    c_avtrue cn' = (if swap then c_avfalse cn else c_avtrue cn) /\
    c_avfalse cn' = (if swap then c_avtrue cn else c_avfalse cn) /\
    c_flags cn' = c_flags cn /\
    collect (c_expr cn') [] 0 = (c_ids cn', c_nbools cn') /\
    (c_nbools cn' <= 5 -> forall t, N.testbit (c_pre cn') t =
        (t <? 2 ^ c_nbools cn') && truth (asg_test (c_ids cn') t) e').
Proof.
  intros B T W C.
  assert (S : exists l' e' swap, strip_not (c_expr cn) = Some (l', swap) /\ writes l' e' /\ (cells e' <= 10)%nat /\
             toks_ok bs l' /\ forall asg, truth asg e' = xorb swap (truth asg e)).
  { destruct (strip_spec _ _ W) as [(x & l' & a & E1 & E2 & -> & Wa)|E1].
    - exists l', a, true. split; [exact E1|]. split; [exact Wa|]. split; [exact C|]. split.
      + intros t Ht. apply T. rewrite E2. apply in_or_app; left; exact Ht.
      + intros asg. cbn [truth]. destruct (truth asg a); reflexivity.
    - exists (c_expr cn), e, false. repeat (split; [assumption|]). intros asg. destruct (truth asg e); reflexivity. }
  destruct S as (l' & e' & swap & E1 & W' & C' & T' & Ht).
  unfold cond_normalize_expr. destruct (c_expr cn) as [|t0 l0] eqn:Ecn; [exfalso; apply (writes_nonempty _ _ W); reflexivity|].
  rewrite <- Ecn in *. clear Ecn. rewrite E1. destruct (collect l' [] 0) as [ids n] eqn:Ec.
  destruct (N.leb_spec n COND_MAX_BOOLS) as [N5|N5]; unfold COND_MAX_BOOLS in N5.
  - destruct (collect_spec l' [] 0 ids n Ec ltac:(reflexivity) ltac:(constructor) N5) as (_ & Lids & ND & _ & Hin & Hout).
    assert (Vids : Forall (var_ok bs) ids).
    { rewrite Forall_forall. intros v Hv. destruct (Hout v Hv) as [[]|(t & Hti & Tt & <-)]. exact (T' t Hti Tt). }
    rewrite (save_all_spec ids bs B Vids).
    assert (Hvars : forall v, In v (vars e') -> In v ids).
    { intros v Hv. rewrite (writes_vars _ _ W' v) in Hv. destruct Hv as (t & H1 & H2 & <-). exact (Hin t H1 H2). }
    destruct (table_loop_spec ids l' e' W' C' ND Hvars (N.to_nat (N.shiftl 1 n)) 0 bs 0 B Vids T')
      as (bs1 & pre & -> & B1 & L1 & S1 & P1).
    destruct (restore_spec bs ids bs1 B B1 L1 Vids ND) as (bs2 & -> & B2 & L2 & S2 & S3).
    assert (bs2 = bs) as ->.
    { apply bools_ext; try assumption. intros v. destruct (in_dec N.eq_dec v ids) as [Hi|Hni]; [exact (S2 v Hi)|].
      rewrite (S3 v Hni), (S1 v Hni). reflexivity. }
    eexists _, e', swap. split; [reflexivity|]. cbn [c_expr c_true c_false c_avtrue c_avfalse c_flags c_nbools c_ids c_pre].
    repeat (split; [assumption || reflexivity|]). intros _ t. rewrite P1, N.bits_0. cbn [orb].
    rewrite N.shiftl_1_l. replace (0 <=? t) with true by lia. rewrite N2Nat.id, N.add_0_l. reflexivity.
  - eexists _, e', swap. split; [reflexivity|]. cbn [c_expr c_true c_false c_avtrue c_avfalse c_flags c_nbools c_ids c_pre].
    repeat (split; [assumption || reflexivity|]). intros Hn. lia.
Qed.

(** ** Equality of normalised conditionals *)

Fixpoint encode (bits : list bool) : N :=
  match bits with [] => 0 | b :: r => N.b2n b + 2 * encode r end.
Lemma encode_bit bits : forall i, N.testbit (encode bits) (N.of_nat i) = nth i bits false.
Proof.
  induction bits as [|b r IH]; intros i; cbn [encode].
  - rewrite N.bits_0. destruct i; reflexivity.
  - destruct i; cbn [nth].
    + change (N.of_nat 0) with 0. rewrite N.add_comm, N.testbit_0_r. reflexivity.
    + rewrite Nat2N.inj_succ, N.add_comm, N.testbit_succ_r. apply IH.
Qed.
Lemma encode_lt bits : encode bits < 2 ^ N.of_nat (length bits).
Proof.
  induction bits as [|b r IH]; cbn [encode length]; [reflexivity|].
  rewrite Nat2N.inj_succ, N.pow_succ_r'. destruct b; cbn [N.b2n]; lia.
Qed.
Lemma index_of_nth {A} (f : N -> A) d ids v : In v ids -> nth (index_of v ids) (map f ids) d = f v.
Proof.
  induction ids as [|w ids IH]; intros H; [destruct H|]. cbn [index_of map].
  destruct (N.eqb_spec w v) as [->|Hn]; [reflexivity|]. destruct H as [->|H]; [congruence|]. exact (IH H).
Qed.
Lemma asg_test_encode (asg : N -> bool) ids v : In v ids -> asg_test ids (encode (map asg ids)) v = asg v.
Proof. intros H. unfold asg_test. rewrite encode_bit. apply index_of_nth. exact H. Qed.

Lemma same_tokens_asem asg l : forall m st, same_tokens l m = true -> asem asg l st = asem asg m st.
Proof.
  induction l as [|x l IH]; intros [|y m] st H; cbn [same_tokens] in H; try discriminate; [reflexivity|].
  destruct (N.eqb_spec (t_type x) (t_type y)) as [E|E]; [|discriminate]. cbn [negb] in H.
  cbn [asem]. rewrite <- E. unfold COND_BOOL in H.
  destruct (N.eqb_spec (t_type x) 1) as [E1|E1]; cbn [andb] in H.
  - destruct (N.eqb_spec (t_bool x) (t_bool y)) as [Eb|Eb]; [|discriminate]. rewrite <- Eb.
    destruct (Nat.eqb (length st) 10); [reflexivity|]. apply IH. exact H.
  - destruct (t_type x =? 2); [destruct st; [reflexivity|apply IH; exact H]|].
    destruct ((3 <=? t_type x) && (t_type x <=? 7)); [|reflexivity].
    destruct st as [|b [|a st]]; try reflexivity. apply IH; exact H.
Qed.

Lemma cond_equal_partial {R V} (a b : cnode R V) bsa bsb cna cnb ea eb :
  bools_ok bsa -> bools_ok bsb -> toks_ok bsa (c_expr a) -> toks_ok bsb (c_expr b) ->
  writes (c_expr a) ea -> writes (c_expr b) eb -> (cells ea <= 10)%nat -> (cells eb <= 10)%nat ->
  cond_normalize_expr bsa a = Some (bsa, cna, 0%Z) -> cond_normalize_expr bsb b = Some (bsb, cnb, 0%Z) ->
  (c_nbools cna <= 5 -> c_ids cna = c_ids cnb) -> cond_expr_equal cna cnb = true ->
  exists ea' eb', writes (c_expr cna) ea' /\ writes (c_expr cnb) eb' /\
    forall asg, truth asg ea' = truth asg eb'.
Proof.
  intros Ba Bb Ta Tb Wa Wb Ca Cb Na Nb Hids Heq.
  destruct (normalize_spec bsa a ea Ba Ta Wa Ca) as (a' & ea' & sa & Ea & Wa' & Ca' & _ & _ & _ & _ & _ & _ & _ & _ & Cla & Pa).
  rewrite Na in Ea. injection Ea as <-.
  destruct (normalize_spec bsb b eb Bb Tb Wb Cb) as (b' & eb' & sb & Eb & Wb' & Cb' & _ & _ & _ & _ & _ & _ & _ & _ & Clb & Pb).
  rewrite Nb in Eb. injection Eb as <-.
  exists ea', eb'. split; [exact Wa'|]. split; [exact Wb'|]. intros asg.
  unfold cond_expr_equal in Heq. destruct (N.eqb_spec (c_nbools cna) (c_nbools cnb)) as [En|En]; [|discriminate].
  cbn [negb] in Heq. destruct ((c_nbools cna <=? COND_MAX_BOOLS) && (c_nbools cnb <=? COND_MAX_BOOLS)) eqn:E5.
  - unfold COND_MAX_BOOLS in E5. assert (N5 : c_nbools cna <= 5) by lia.
    destruct (same_bools cna cnb); [|discriminate]. cbn [negb] in Heq. apply N.eqb_eq in Heq.
    destruct (collect_spec _ _ _ _ _ Cla ltac:(reflexivity) ltac:(constructor) N5) as (_ & La & _ & _ & Hia & _).
    destruct (collect_spec _ _ _ _ _ Clb ltac:(reflexivity) ltac:(constructor) ltac:(lia)) as (_ & Lb & _ & _ & Hib & _).
    set (t := encode (map asg (c_ids cna))).
    assert (Lt : t < 2 ^ c_nbools cna).
    { unfold t. pose proof (encode_lt (map asg (c_ids cna))) as H. rewrite map_length, La in H. exact H. }
    assert (Ea : truth asg ea' = truth (asg_test (c_ids cna) t) ea').
    { apply truth_ext. intros v Hv. symmetry. apply asg_test_encode.
      rewrite (writes_vars _ _ Wa' v) in Hv. destruct Hv as (u & H1 & H2 & <-). exact (Hia u H1 H2). }
    assert (Eb : truth asg eb' = truth (asg_test (c_ids cnb) t) eb').
    { apply truth_ext. intros v Hv. symmetry. unfold t. rewrite (Hids N5). apply asg_test_encode.
      rewrite (writes_vars _ _ Wb' v) in Hv. destruct Hv as (u & H1 & H2 & <-). exact (Hib u H1 H2). }
    specialize (Pa N5 t). specialize (Pb ltac:(lia) t). rewrite Heq, Pb in Pa. rewrite Ea, Eb.
    replace (t <? 2 ^ c_nbools cna) with true in Pa by lia. rewrite <- En in Pa.
    replace (t <? 2 ^ c_nbools cna) with true in Pa by lia. symmetry. exact Pa.
  - pose proof (same_tokens_asem asg _ _ [] Heq) as H.
    rewrite (writes_fin _ _ _ Wa'), (writes_fin _ _ _ Wb') in H.
    destruct (Nat.leb_spec (cells ea') 10); [|lia]. destruct (Nat.leb_spec (cells eb') 10); [|lia].
    injection H as H. exact H.
Qed.
