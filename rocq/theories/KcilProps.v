(** Property C76: the conditionals of a kernel policy survive being written as CIL and compiled again. *)
From Verif Require Import Base CondModel CondSpec CilparseModel CilparseSpec CilparseMain CilexprModel CilcondModel CilcondSpec
  KcilModel KcilSpec KcilProofs.

(** C76: a well formed expression of a conditional, over booleans whose names CIL can read, is written; the statement is
    read back as one booleanif with the same branches; and the compiler makes of its condition the same expression, with
    the same booleans by name. *)
Theorem C76_round_trip code tb names l e t f :
  plain_table tb -> writes l e -> declared_bools code tb names e -> (cells e <= 10)%nat -> (height e < 4095)%nat ->
  rules_ok t -> rules_ok f ->
  exists s p c l', cond_to_str names [] l = KStr s /\
    cil_parser (node_text s (text_of t) (text_of f)) = Parsed [p] /\
    read_booleanif code p = Some (c, branches t f) /\
    condition_expr tb c = Some l' /\ same_expression code tb names l l'.
Proof. exact (round_trip code tb names l e t f). Qed.
Print Assumptions C76_round_trip.

(** C76: "the same expression" has the same truth value whatever the booleans are. *)
Theorem C76_meaning code tb names l l' e (env : list N -> bool) asg asg' :
  writes l e -> same_expression code tb names l l' ->
  (forall v w, named names v w -> asg v = env w) ->
  (forall w n, tb (code w) = Some (DLeaf n) -> asg' (n + 1) = env w) ->
  exists e', writes l' e' /\ truth asg' e' = truth asg e.
Proof. exact (same_meaning code tb names l l' e env asg asg'). Qed.
Print Assumptions C76_meaning.

(** Booleans "b" and "a", numbered the other way round in the new policy; the expression b && !a, with "(x)" in the true
    branch. *)
Definition case_code (w : list N) : N := fold_left (fun a c => a * 256 + c + 1) w 0.
Definition case_names : list (list N) := [[98]; [97]].
Definition case_table : table := fun n => if n =? 98 then Some (DLeaf 0) else if n =? 99 then Some (DLeaf 1) else None.
Definition case_expr : list tok := [mkT 1 1; mkT 1 2; mkT 2 0; mkT 4 0].
Definition case_rules : option (list N * list ptree) := Some ([40; 120; 41; 10], [PList [PName [120]]]).

Example C76_case : plain_table case_table /\ writes case_expr (BAnd (BVar 1) (BNot (BVar 2))) /\
  declared_bools case_code case_table case_names (BAnd (BVar 1) (BNot (BVar 2))) /\ rules_ok case_rules.
Proof.
  split; [|split; [|split]].
  - intros n. unfold case_table. destruct (n =? 98); [right; eauto|]. destruct (n =? 99); [right; eauto|left; reflexivity].
  - apply (W_and [mkT 1 1] (BVar 1) [mkT 1 2; mkT 2 0] (BNot (BVar 2)) 0); [constructor|].
    apply (W_not [mkT 1 2] (BVar 2) 0). constructor.
  - intros v Hv. cbn in Hv. destruct Hv as [<-|[<-|[]]].
    + exists [98], 1. split; [split; [lia|reflexivity]|]. split; [|reflexivity]. split; [discriminate|].
      split; [constructor; [unfold word_char; lia|constructor]|]. unfold reserved. cbn. intuition discriminate.
    + exists [97], 0. split; [split; [lia|reflexivity]|]. split; [|reflexivity]. split; [discriminate|].
      split; [constructor; [unfold word_char; lia|constructor]|]. unfold reserved. cbn. intuition discriminate.
  - split; [|split; cbn; intuition discriminate].
    apply (W_list 2 [120] [PName [120]] [10] []); [vm_compute; lia| |apply W_blank; [auto|constructor]].
    apply (W_symbol 2 [120] [] []); [discriminate|constructor; [unfold word_char; lia|constructor]|exact I|constructor].
Qed.

(** The text is "(and b (not a))", and the compiled expression has the booleans renumbered. *)
Example C76_case_text : cond_to_str case_names [] case_expr = KStr [40;97;110;100;32;98;32;40;110;111;116;32;97;41;41] /\
  match cil_parser (node_text [40;97;110;100;32;98;32;40;110;111;116;32;97;41;41] (text_of case_rules) None) with
  | Parsed [p] => match read_booleanif case_code p with
                  | Some (c, _) => condition_expr case_table c = Some [mkT 1 2; mkT 1 1; mkT 2 0; mkT 4 0]
                  | None => False
                  end
  | _ => False
  end.
Proof. vm_compute. auto. Qed.

(** C76 fails for a boolean named "all" (or "range"), which a module may declare: the statement is written, but no
    declaration makes the compiler accept its condition. *)
Theorem C76_refuted_name : exists names l e s p c bl, writes l e /\ cond_to_str names [] l = KStr s /\
  forall code, cil_parser (node_text s (text_of case_rules) None) = Parsed [p] /\ read_booleanif code p = Some (c, bl) /\
    forall tb, condition_expr tb c = None.
Proof.
  exists [w_all], [mkT 1 1], (BVar 1), w_all, (PList [PName w_booleanif; PName w_all; PList [PName w_true; PList [PName [120]]]]),
    (TKey KAll), [(Some true, [PList [PName [120]]])].
  split; [constructor|]. split; [reflexivity|]. intros code. split; [vm_compute; reflexivity|]. split; [reflexivity|]. intros tb. reflexivity.
Qed.
Print Assumptions C76_refuted_name.

(** C76 fails for a conditional without rules: it is written without branches, and the compiler does not accept that. *)
Theorem C76_refuted_empty : forall code tb names l e, plain_table tb -> writes l e -> declared_bools code tb names e ->
  (cells e <= 10)%nat -> (height e < 4095)%nat ->
  exists s p c, cond_to_str names [] l = KStr s /\ cil_parser (node_text s None None) = Parsed [p] /\
    read_booleanif code p = Some (c, []) /\
    forall bs (cl : list (cnode (list ptree) unit)), booleanif tb bs c ([] : list (block ptree)) cl = None.
Proof.
  intros code tb names l e P W D C H. destruct (round_trip code tb names l e None None P W D C H I I) as (s & p & c & l' & A & B & R & _).
  exists s, p, c. split; [exact A|]. split; [exact B|]. split; [exact R|]. intros bs cl. reflexivity.
Qed.
Print Assumptions C76_refuted_empty.

(** The bound on the nesting is needed: 4096 times "not" has to be refused by the reader, although the policy is valid. *)
Definition deep : list tok := mkT 1 1 :: repeat (mkT 2 0) (N.to_nat 4096).
Theorem C76_refuted_deep : exists s, cond_to_str case_names [] deep = KStr s /\
  cil_parser (node_text s (text_of case_rules) None) = Refused.
Proof.
  exists (nots (N.to_nat 4096) ++ [98] ++ repeat 41 (N.to_nat 4096)). split.
  - exact (not_str case_names [] (N.to_nat 4096) [98]).
  - unfold node_text. rewrite <- app_assoc. apply deep_refused. unfold MAX_DEPTH. rewrite N2Nat.id. reflexivity.
Qed.
Print Assumptions C76_refuted_deep.

(** C76. Nothing is written for a list that is not the reverse Polish writing of a formula. *)
Theorem C76_only_expressions : forall names l s, cond_to_str names [] l = KStr s -> exists e, writes l e.
Proof. intros names l s H. exact (only_expressions names l [] [] s eq_refl (Forall_nil _) H). Qed.
Print Assumptions C76_only_expressions.

Example C76_only_expressions_case : (exists s, cond_to_str case_names [] case_expr = KStr s) /\
  cond_to_str case_names [] [mkT 1 1; mkT 1 2] = KErr /\ cond_to_str case_names [] [mkT 2 0] = KErr.
Proof. split; [eexists; vm_compute; reflexivity|]. split; vm_compute; reflexivity. Qed.
