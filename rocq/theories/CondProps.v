(** Properties C13, C14, C15, C46, C47 (conditional policy). *)
From Coq Require Import Permutation.
From Verif Require Import Base AvtabModel CondModel CondSpec CondProofs CondProofs2.

(** Two booleans, numbers 1 and 2. *)
Definition two_bools : bools := [Some 1%Z; Some 0%Z].
Lemma two_bools_ok : bools_ok two_bools.
Proof. unfold two_bools. constructor; [auto|]. constructor; [auto|constructor]. Qed.
(** a && !b and b && !a. *)
Definition a_not_b : list tok := [mkT 1 1; mkT 1 2; mkT 2 0; mkT 4 0].
Definition b_not_a : list tok := [mkT 1 2; mkT 1 1; mkT 2 0; mkT 4 0].
Lemma a_not_b_writes : writes a_not_b (BAnd (BVar 1) (BNot (BVar 2))).
Proof. exact (W_and [mkT 1 1] _ [mkT 1 2; mkT 2 0] _ 0 (W_var 1) (W_not [mkT 1 2] _ 0 (W_var 2))). Qed.
Lemma b_not_a_writes : writes b_not_a (BAnd (BVar 2) (BNot (BVar 1))).
Proof. exact (W_and [mkT 1 2] _ [mkT 1 1; mkT 2 0] _ 0 (W_var 2) (W_not [mkT 1 1] _ 0 (W_var 1))). Qed.
Lemma small_toks_ok l : (forall t, In t l -> t_type t = 1 -> t_bool t = 1 \/ t_bool t = 2) -> toks_ok two_bools l.
Proof. intros H t Ht E. unfold var_ok. cbn. destruct (H t Ht E) as [-> | ->]; lia. Qed.

(** C13: the value of a written formula, -1 exactly when it needs more than ten cells. *)
Theorem C13_truth_value bs l e : bools_ok bs -> toks_ok bs l -> writes l e ->
  cond_evaluate_expr bs l = Some (if Nat.leb (cells e) 10 then (if truth (asg_of bs) e then 1 else 0)%Z else (-1)%Z).
Proof. exact (eval_writes bs l e). Qed.
Print Assumptions C13_truth_value.

Example C13_truth_value_case : bools_ok two_bools /\ toks_ok two_bools a_not_b /\
  writes a_not_b (BAnd (BVar 1) (BNot (BVar 2))) /\ cond_evaluate_expr two_bools a_not_b = Some 1%Z.
Proof.
  split; [exact two_bools_ok|]. split; [|split; [exact a_not_b_writes|reflexivity]].
  apply small_toks_ok. cbn. intros t [<-|[<-|[<-|[<-|[]]]]]; cbn; auto; discriminate.
Qed.

(** C13, any token list whatsoever: evaluation is always defined (it never reads outside the stack), and
    the result is -1 unless the list is one or more written formulas in a row that fit in ten cells, in
    which case it is the truth value of the first. *)
Theorem C13_any_list bs l : bools_ok bs -> toks_ok bs l ->
  (exists e es, several l (e :: es) /\ cond_evaluate_expr bs l = Some (if truth (asg_of bs) e then 1 else 0)%Z) \/
  ((forall e es, ~ several l (e :: es)) /\ cond_evaluate_expr bs l = Some (-1)%Z).
Proof.
  intros B T. rewrite (eval_spec bs l B T). destruct (asem (asg_of bs) l []) as [st|] eqn:E.
  - destruct (several_build _ _ _ E) as (es & S & ->). destruct es as [|e es].
    + right. split; [|reflexivity]. intros e es S'. rewrite (several_run (asg_of bs) _ _ S') in E.
      cbn [map rev] in E. injection E as E. apply app_eq_nil in E as [_ E]. discriminate.
    + left. exists e, es. split; [exact S|]. cbn [fin]. rewrite rev_involutive. reflexivity.
  - right. split; [|reflexivity]. intros e es S. rewrite (several_run (asg_of bs) _ _ S) in E. discriminate.
Qed.
Print Assumptions C13_any_list.

(** C13, the reading "malformed gives -1": false for left-over operands, "a b" evaluates to a. *)
Theorem C13_leftover_refuted : exists bs l, bools_ok bs /\ toks_ok bs l /\
  (forall e, ~ writes l e) /\ cond_evaluate_expr bs l = Some 1%Z.
Proof.
  exists two_bools, [mkT 1 1; mkT 1 2]. split; [exact two_bools_ok|]. split.
  { apply small_toks_ok. cbn. intros t [<-|[<-|[]]]; cbn; auto. }
  split; [|reflexivity]. intros e W. pose proof (writes_fin (fun _ => true) _ _ W) as H.
  cbn in H. destruct (Nat.leb (cells e) 10); discriminate.
Qed.
Print Assumptions C13_leftover_refuted.

(** C13: what policy validation (and both compilers' checks) accept is exactly one written formula within
    ten cells over existing booleans; so every accepted expression has a truth value. *)
Theorem C13_validated okb l :
  validate_cond_expr okb l = true <->
  (exists e, writes l e /\ (cells e <= 10)%nat) /\
  (forall t, In t l -> (t_type t = 1 -> okb (t_bool t) = true) /\ (t_type t <> 1 -> t_bool t = 0)).
Proof. exact (validate_iff okb l). Qed.
Print Assumptions C13_validated.

Example C13_validated_case : validate_cond_expr (fun v => v <=? 2) a_not_b = true /\
  validate_cond_expr (fun v => v <=? 2) [mkT 1 1; mkT 1 2] = false.
Proof. split; reflexivity. Qed.

(** C14: the claim is false: "a && !b" and "b && !a" compare equal. *)
Theorem C14_merge_refuted : exists bs (a b : cnode unit unit) a' b' ea eb asg,
  bools_ok bs /\ toks_ok bs (c_expr a) /\ toks_ok bs (c_expr b) /\
  writes (c_expr a) ea /\ writes (c_expr b) eb /\
  cond_normalize_expr bs a = Some (bs, a', 0%Z) /\ cond_normalize_expr bs b = Some (bs, b', 0%Z) /\
  c_expr a' = c_expr a /\ c_expr b' = c_expr b /\
  cond_expr_equal a' b' = true /\ truth asg ea <> truth asg eb.
Proof.
  exists two_bools, (mkC 0%Z a_not_b tt tt tt tt 0 [] 0 0), (mkC 0%Z b_not_a tt tt tt tt 0 [] 0 0).
  eexists _, _, (BAnd (BVar 1) (BNot (BVar 2))), (BAnd (BVar 2) (BNot (BVar 1))), (fun v => v =? 1).
  split; [exact two_bools_ok|].
  split; [apply small_toks_ok; cbn; intros t [<-|[<-|[<-|[<-|[]]]]]; cbn; auto; discriminate|].
  split; [apply small_toks_ok; cbn; intros t [<-|[<-|[<-|[<-|[]]]]]; cbn; auto; discriminate|].
  split; [exact a_not_b_writes|]. split; [exact b_not_a_writes|].
  split; [reflexivity|]. split; [reflexivity|]. split; [reflexivity|]. split; [reflexivity|].
  split; [reflexivity|]. discriminate.
Qed.
Print Assumptions C14_merge_refuted.

(** C14, what holds: merging is right whenever the two formulas, if they mention the same booleans, first
    mention them in the same order. Missing: the case of different orders, where the claim is false. *)
Theorem C14_merge_partial {R V} (bsa bsb : bools) (a b a' b' : cnode R V) ea eb ea' eb' :
  bools_ok bsa -> bools_ok bsb -> toks_ok bsa (c_expr a) -> toks_ok bsb (c_expr b) ->
  (forall t, In t (c_expr a) -> t_type t <> 1 -> t_bool t = 0) ->
  (forall t, In t (c_expr b) -> t_type t <> 1 -> t_bool t = 0) ->
  writes (c_expr a) ea -> writes (c_expr b) eb -> (cells ea <= 10)%nat -> (cells eb <= 10)%nat ->
  cond_normalize_expr bsa a = Some (bsa, a', 0%Z) -> cond_normalize_expr bsb b = Some (bsb, b', 0%Z) ->
  same_order ea eb -> cond_expr_equal a' b' = true ->
  writes (c_expr a') ea' -> writes (c_expr b') eb' ->
  forall asg, truth asg ea' = truth asg eb'.
Proof.
  intros Ba Bb Ta Tb Za Zb Wa Wb Ca Cb Na Nb Ord Heq Wa' Wb' asg.
  destruct (normalize_normal bsa a ea Ba Ta Za Wa Ca) as (x & ex & sx & Ex & Nx & _ & _ & Vx & _).
  rewrite Na in Ex. injection Ex as <-.
  destruct (normalize_normal bsb b eb Bb Tb Zb Wb Cb) as (y & ey & sy & Ey & Ny & _ & _ & Vy & _).
  rewrite Nb in Ey. injection Ey as <-.
  rewrite (writes_unique _ _ _ Wa' (proj1 Nx)), (writes_unique _ _ _ Wb' (proj1 Ny)).
  apply (normal_equal a' b' ex ey Nx Ny); [|exact Heq]. unfold same_order. rewrite Vx, Vy. exact Ord.
Qed.
Print Assumptions C14_merge_partial.

(** "!(a && !b)" and "a && !b" normalise to equal conditionals and mention their booleans in the same
    order. *)
Example C14_merge_partial_case :
  exists a' b' : cnode unit unit,
  cond_normalize_expr two_bools (mkC 0%Z (a_not_b ++ [mkT 2 0]) tt tt tt tt 0 [] 0 0) = Some (two_bools, a', 0%Z) /\
  cond_normalize_expr two_bools (mkC 0%Z a_not_b tt tt tt tt 0 [] 0 0) = Some (two_bools, b', 0%Z) /\
  same_order (BNot (BAnd (BVar 1) (BNot (BVar 2)))) (BAnd (BVar 1) (BNot (BVar 2))) /\
  writes (a_not_b ++ [mkT 2 0]) (BNot (BAnd (BVar 1) (BNot (BVar 2)))) /\
  cond_expr_equal a' b' = true.
Proof.
  eexists _, _. split; [reflexivity|]. split; [reflexivity|]. split; [intros _; reflexivity|].
  split; [apply W_not; exact a_not_b_writes|reflexivity].
Qed.

(** C15: normalising a conditional succeeds, leaves the booleans as they were, and under every assignment
    the same rule lists (kernel form and module form) are in force as before. *)
Theorem C15_normalise {R V} bs (cn : cnode R V) e :
  bools_ok bs -> toks_ok bs (c_expr cn) -> (forall t, In t (c_expr cn) -> t_type t <> 1 -> t_bool t = 0) ->
  writes (c_expr cn) e -> (cells e <= 10)%nat ->
  exists cn' e', cond_normalize_expr bs cn = Some (bs, cn', 0%Z) /\ writes (c_expr cn') e' /\
    forall asg,
      in_force (truth asg e') (c_true cn') (c_false cn') = in_force (truth asg e) (c_true cn) (c_false cn) /\
      in_force (truth asg e') (c_avtrue cn') (c_avfalse cn') = in_force (truth asg e) (c_avtrue cn) (c_avfalse cn).
Proof.
  intros B T Z W C.
  destruct (normalize_normal bs cn e B T Z W C) as (cn' & e' & swap & E & (W' & _) & _ & _ & _ & K1 & K2 & H1 & H2 & H3 & H4).
  exists cn', e'. split; [exact E|]. split; [exact W'|]. intros asg. rewrite H1, H2, H3, H4. unfold in_force. destruct swap.
  - rewrite (K1 eq_refl). cbn [truth]. destruct (truth asg e'); split; reflexivity.
  - rewrite (proj1 (K2 eq_refl)). split; reflexivity.
Qed.
Print Assumptions C15_normalise.

Example C15_normalise_case : bools_ok two_bools /\ writes (a_not_b ++ [mkT 2 0]) (BNot (BAnd (BVar 1) (BNot (BVar 2)))) /\
  cond_normalize_expr two_bools (mkC 0%Z (a_not_b ++ [mkT 2 0]) 7 8 3 4 0 [] 0 0) =
    Some (two_bools, mkC 0%Z a_not_b 8 7 4 3 2 [1; 2] 2 0, 0%Z).
Proof. split; [exact two_bools_ok|]. split; [apply W_not; exact a_not_b_writes|reflexivity]. Qed.

(** Eleven nested operands: more than ten cells. *)
Definition too_deep : list tok := repeat (mkT 1 1) 10 ++ [mkT 1 2] ++ repeat (mkT 4 0) 10.
(** C15 on failure: normalising an expression that is too deep leaves booleans changed. *)
Theorem C15_failure_refuted : exists bs bs' (cn cn' : cnode unit unit) e,
  bools_ok bs /\ toks_ok bs (c_expr cn) /\ writes (c_expr cn) e /\
  cond_normalize_expr bs cn = Some (bs', cn', (-1)%Z) /\ bs' <> bs.
Proof.
  exists two_bools. eexists _, (mkC 0%Z too_deep tt tt tt tt 0 [] 0 0), _.
  exists (BAnd (BVar 1) (BAnd (BVar 1) (BAnd (BVar 1) (BAnd (BVar 1) (BAnd (BVar 1)
         (BAnd (BVar 1) (BAnd (BVar 1) (BAnd (BVar 1) (BAnd (BVar 1) (BAnd (BVar 1) (BVar 2))))))))))).
  split; [exact two_bools_ok|]. split.
  { apply small_toks_ok. intros t Ht E. unfold too_deep in Ht. cbn in Ht.
    repeat (destruct Ht as [<-|Ht]; [cbn in *; try discriminate; auto|]). destruct Ht. }
  split.
  { assert (G : forall m b, writes m b -> writes (mkT 1 1 :: m ++ [mkT 4 0]) (BAnd (BVar 1) b)).
    { intros m b H. exact (W_and [mkT 1 1] _ m _ 0 (W_var 1) H). }
    pose proof (G _ _ (G _ _ (G _ _ (G _ _ (G _ _ (G _ _ (G _ _ (G _ _ (G _ _ (G _ _ (W_var 2))))))))))) as H.
    cbn [app] in H. exact H. }
  split; [reflexivity|discriminate].
Qed.
Print Assumptions C15_failure_refuted.

(** C46: the claim is false: a conditional with two outer negations ends up with its branches exchanged. *)
Definition not_not_a : list tok := [mkT 1 1; mkT 2 0; mkT 2 0].
Theorem C46_expand_refuted : exists (conv : list N -> list N) base out bm (c : scond (list N)) e l asg w,
  bools_ok base /\ bools_ok out /\ map_ok base out bm /\ writes (sc_toks c) e /\ (cells e <= 10)%nat /\
  copy_all conv base out bm [] [c] [] = Some l /\
  src_in_force conv bm [c] asg w /\ ~ out_in_force l asg w.
Proof.
  exists (fun x => x), two_bools, two_bools, [1; 2], (mkSC not_not_a [10] [20]), (BNot (BNot (BVar 1))).
  exists [mkC 1%Z [mkT 1 1] [20] [10] [] [] 1 [1] 2 0], (fun _ => true), 10.
  assert (W : writes not_not_a (BNot (BNot (BVar 1)))).
  { exact (W_not [mkT 1 1; mkT 2 0] _ 0 (W_not [mkT 1 1] _ 0 (W_var 1))). }
  split; [exact two_bools_ok|]. split; [exact two_bools_ok|].
  split. { split; [reflexivity|]. split; [repeat constructor; cbn; intuition discriminate|]. repeat constructor; unfold var_ok; cbn; lia. }
  split; [exact W|]. split; [cbn; lia|]. split; [vm_compute; reflexivity|]. split.
  - exists (mkSC not_not_a [10] [20]), (BNot (BNot (BVar 1))). split; [left; reflexivity|]. split; [exact W|]. left; reflexivity.
  - intros (c & e & [<-|[]] & We & Hw). cbn [c_expr c_true c_false] in *.
    pose proof (writes_unique _ _ _ We (W_var 1)) as ->. cbn in Hw. destruct Hw as [Hw|[]]; discriminate.
Qed.
Print Assumptions C46_expand_refuted.

(** C46, what holds: without double outer negations, and when formulas over the same booleans mention them
    in the same order, expanding any list of conditionals succeeds and puts in force under every assignment
    exactly the rules that the source conditionals put in force. *)
Theorem C46_expand_partial {V W} (conv : V -> list W) base out bm nov (cs : list (scond V)) :
  bools_ok base -> bools_ok out -> map_ok base out bm ->
  (forall c, In c cs -> exists e, writes (sc_toks c) e /\ (cells e <= 10)%nat /\ toks_ok base (sc_toks c) /\
     ~ double_not e /\ forall t, In t (sc_toks c) -> t_type t <> 1 -> t_bool t = 0) ->
  (forall c d ec ed, In c cs -> In d cs -> writes (sc_toks c) ec -> writes (sc_toks d) ed -> same_order ec ed) ->
  exists l, copy_all conv base out bm nov cs [] = Some l /\
    forall asg w, out_in_force l asg w <-> src_in_force conv bm cs asg w.
Proof.
  intros Bb Bo M G Ord.
  destruct (copy_all_spec conv base out bm nov Bb Bo M cs [] []) as (l & E & H).
  - rewrite Forall_forall. exact G.
  - exact (fun s t es et Hs Ht => Ord s t es et Hs Ht).
  - constructor.
  - exists l. split; [exact E|]. intros asg w. rewrite H. split; [|right; assumption].
    intros [(c & e & [] & _)|Hs]; exact Hs.
Qed.
Print Assumptions C46_expand_partial.

(** Two conditionals, one negated, that end up merged in one node. *)
Example C46_expand_partial_case :
  copy_all (fun x : list N => x) two_bools two_bools [2; 1] []
    [mkSC a_not_b [10] [20]; mkSC (a_not_b ++ [mkT 2 0]) [30] [40]] [] =
  Some [mkC 0%Z [mkT 1 2; mkT 1 1; mkT 2 0; mkT 4 0] [10; 40] [20; 30] [] [] 2 [2; 1] 2 0] /\
  same_order (BAnd (BVar 1) (BNot (BVar 2))) (BNot (BAnd (BVar 1) (BNot (BVar 2)))) /\
  ~ double_not (BNot (BAnd (BVar 1) (BNot (BVar 2)))).
Proof. split; [reflexivity|]. split; [intros _; reflexivity|]. intros (a & E). discriminate. Qed.

(** C47: starting from consistent stored states (what expansion leaves), after the conditionals have been
    evaluated once and then after any history of boolean changes (valid or refused), every rule of every
    conditional is switched exactly as its formula says under the values last set; rules keep their
    contents, rules of no conditional are untouched. *)
Theorem C47_boolean_history bs ht l h :
  bools_ok bs -> conds_ok bs ht l -> states_follow bs ht l ->
  exists ht0 l0 bs' ht' l',
    evaluate_conds bs ht l = Some (ht0, l0) /\ set_history h bs ht0 l0 = Some (bs', ht', l') /\
    map (fun c => (c_expr c, c_true c, c_false c)) l' = map (fun c => (c_expr c, c_true c, c_false c)) l /\
    (forall v, asg_of bs' v = assigned h bs v) /\
    rules_follow bs' ht' l' /\
    (forall q, ~ In q (all_ptrs l) -> node_at ht' q = node_at ht q) /\
    (forall q n n', node_at ht q = Some n -> node_at ht' q = Some n' ->
       k_src (n_key n) = k_src (n_key n') /\ k_tgt (n_key n) = k_tgt (n_key n') /\
       k_cls (n_key n) = k_cls (n_key n') /\
       N.ldiff (k_spec (n_key n)) 32768 = N.ldiff (k_spec (n_key n')) 32768 /\ n_datum n = n_datum n').
Proof.
  intros B CO SF. pose proof CO as (F & P & ND).
  destruct (evaluate_conds_spec bs B l ht F ND SF) as (ht0 & l0 & E0 & Fr0 & M0 & RF0 & SF0).
  pose proof (conds_ok_transport bs bs ht ht0 l l0 eq_refl Fr0 M0 CO) as CO0.
  destruct (set_history_spec h bs ht0 l0 B CO0 SF0 RF0) as (bs' & ht' & l' & E1 & B' & RF' & Fr1 & M1 & A1).
  assert (Ep : all_ptrs l0 = all_ptrs l).
  { clear - M0. revert l M0. induction l0 as [|c l' IH]; intros [|d l] M; cbn in M; try discriminate; [reflexivity|].
    injection M as X1 X2 X3 M. cbn [all_ptrs flat_map]. fold (all_ptrs l') (all_ptrs l). rewrite X2, X3, (IH _ M). reflexivity. }
  rewrite Ep in Fr1. pose proof (frame_trans _ _ _ _ Fr0 Fr1) as Fr.
  exists ht0, l0, bs', ht', l'. split; [exact E0|]. split; [exact E1|]. split; [congruence|]. split; [exact A1|].
  split; [exact RF'|]. split.
  - intros q Hq. exact (proj1 (Fr q) Hq).
  - intros q n n' H1 H2. destruct (Fr q) as [_ H]. rewrite H1, H2 in H. exact H.
Qed.
Print Assumptions C47_boolean_history.

(** A policy with one conditional rule in each branch. *)
Definition one_table : list (list anode) :=
  [[mkNode (mkK 1 1 1 (N.lor 1 32768)) (mkD 5 None); mkNode (mkK 1 2 1 1) (mkD 6 None)]].
Definition one_cond : list knode := [mkC 1%Z a_not_b [(0, 0)%nat] [(0, 1)%nat] tt tt 2 [1; 2] 2 0].
Example C47_boolean_history_case :
  bools_ok two_bools /\ conds_ok two_bools one_table one_cond /\ states_follow two_bools one_table one_cond /\
  exists l', set_history [(2, 1%Z); (7, 1%Z); (1, 3%Z)] two_bools one_table one_cond =
    Some ([Some 1%Z; Some 1%Z],
          [[mkNode (mkK 1 1 1 1) (mkD 5 None); mkNode (mkK 1 2 1 (N.lor 1 32768)) (mkD 6 None)]], l').
Proof.
  split; [exact two_bools_ok|]. split.
  { split; [|split].
    - constructor; [|constructor]. split.
      + apply small_toks_ok; cbn; intros t [<-|[<-|[<-|[<-|[]]]]]; cbn; auto; discriminate.
      + eexists. split; [exact a_not_b_writes|cbn; lia].
    - repeat constructor; eexists _, _; split; reflexivity.
    - repeat constructor; cbn; intuition discriminate. }
  split.
  { intros c [<-|[]]. left. split; [reflexivity|]. split; intros p n [<-|[]] H; injection H as <-; reflexivity. }
  eexists. reflexivity.
Qed.

(** C47, the stored state is trusted: if a policy file's stored state claims "true" while its rules are
    off, setting a boolean leaves them off although the formula holds. *)
Theorem C47_stale_state_refuted : exists bs ht l bs' ht' l' c e p n,
  bools_ok bs /\ conds_ok bs ht l /\ sepol_bool_set bs ht l 2 0%Z = Some (bs', ht', l') /\
  In c l' /\ writes (c_expr c) e /\ truth (asg_of bs') e = true /\
  In p (c_true c) /\ node_at ht' p = Some n /\ rule_on n = false.
Proof.
  exists two_bools, [[mkNode (mkK 1 1 1 1) (mkD 5 None); mkNode (mkK 1 2 1 1) (mkD 6 None)]], one_cond.
  eexists _, _, _. exists (mkC 1%Z a_not_b [(0, 0)%nat] [(0, 1)%nat] tt tt 2 [1; 2] 2 0). eexists _, (0, 0)%nat, _.
  split; [exact two_bools_ok|]. split.
  { split; [|split].
    - constructor; [|constructor]. split.
      + apply small_toks_ok; cbn; intros t [<-|[<-|[<-|[<-|[]]]]]; cbn; auto; discriminate.
      + eexists. split; [exact a_not_b_writes|cbn; lia].
    - repeat constructor; eexists _, _; split; reflexivity.
    - repeat constructor; cbn; intuition discriminate. }
  split; [reflexivity|]. split; [left; reflexivity|]. split; [exact a_not_b_writes|]. split; [reflexivity|].
  split; [left; reflexivity|]. split; reflexivity.
Qed.
Print Assumptions C47_stale_state_refuted.

(** C48: reordering a conditional's rule list keeps exactly the same rules, puts all type rules first and
    keeps the order of the others. *)
Theorem C48_reorder l :
  Permutation (cond_optimize l) l /\
  exists ts, cond_optimize l = ts ++ filter (fun n => N.land (k_spec (n_key n)) 112 =? 0) l /\
    forall n, In n ts -> N.land (k_spec (n_key n)) 112 <> 0.
Proof.
  rewrite optimize_spec.
  assert (E : filter (fun n => negb (negb (N.land (k_spec (n_key n)) AVTAB_TYPE =? 0))) l =
              filter (fun n => N.land (k_spec (n_key n)) 112 =? 0) l).
  { apply filter_ext. intros n. rewrite negb_involutive. reflexivity. }
  split.
  - rewrite <- Permutation_rev. rewrite E. clear E. induction l as [|n l IH]; [constructor|]. cbn [filter].
    change AVTAB_TYPE with 112 in *. destruct (N.land (k_spec (n_key n)) 112 =? 0); cbn [negb].
    + apply Permutation_sym, Permutation_cons_app, Permutation_sym. exact IH.
    + cbn [app]. constructor. exact IH.
  - eexists. split; [rewrite E; reflexivity|]. intros n Hn. apply in_rev in Hn. apply filter_In in Hn as [_ Hn].
    change AVTAB_TYPE with 112 in Hn. lia.
Qed.
Print Assumptions C48_reorder.

Example C48_reorder_case :
  map (fun n => k_spec (n_key n))
    (cond_optimize (map (fun s => mkNode (mkK 1 1 1 s) (mkD 0 None)) [1; 16; 2; 32])) = [32; 16; 1; 2].
Proof. reflexivity. Qed.
