(** Property theorems for CIL constraint statements (C77). *)
From Coq Require Import String.
From Verif Require Import Base EbitmapModel EbitmapSpec EbitmapProofs MlsModel MlsSpec MlsDemo AvtabModel AvtabSpec AvtabProofs CondModel
  ServicesModel ServicesSpec ServicesProofs ServicesDemo ServicesProps CilparseModel CilconsModel CilconsSpec CilconsProofs CilconsMain.
Local Open Scope N_scope.
Local Open Scope list_scope.

(** Demo data, models no code: a role "rone" of value 1, an attribute "some" of types 2 and 3. *)
Definition cc_env : names_env :=
  mkNE (fun k n => match k with
                   | LRole => if same_str n (chars "rone") then Some 7 else None
                   | LType => if same_str n (chars "three") then Some 9 else if same_str n (chars "some") then Some 8 else None
                   | _ => None
                   end)
       (fun k d => match k with
                   | LRole => if d =? 7 then Some [1] else None
                   | LType => if d =? 9 then Some [3] else if d =? 8 then Some [2; 3] else None
                   | _ => None
                   end).
(** Demo data, models no code. *)
Definition nm (s : string) : ptree := PName (chars s).
(** Demo data, models no code: (constrain (file (p2)) (or (eq u1 u2) (eq r2 rone))),
    (mlsconstrain (file (p1)) (dom l1 l2)), (validatetrans file (and (eq u1 u2) (eq t3 (three)))). *)
Definition cc_stmts : list (cstmt ptree) :=
  [Constrain false [CpMany [CpClass 1 [2]; CpClass 1 []]]
     (PList [nm "or"; PList [nm "eq"; nm "u1"; nm "u2"]; PList [nm "eq"; nm "r2"; nm "rone"]]);
   Constrain true [CpClass 1 [1]] (PList [nm "dom"; nm "l1"; nm "l2"]);
   Validate false [1] (PList [nm "and"; PList [nm "eq"; nm "u1"; nm "u2"]; PList [nm "eq"; nm "t3"; PList [nm "three"]]])].

Lemma cc_env_ok : env_ok cc_env.
Proof.
  intros k d l v H I. destruct k; cbn [n_values cc_env] in H; try discriminate H.
  - destruct (d =? 7); [|discriminate H]. injection H as <-. destruct I as [<-|[]]. lia.
  - destruct (d =? 9); [injection H as <-; destruct I as [<-|[]]; lia|]. destruct (d =? 8); [|discriminate H].
    injection H as <-. destruct I as [<-|[<-|[]]]; lia.
Qed.

(** C77. One constraint with at least one permission is accepted exactly when its expression is written by the grammar
    within what the compiler takes, its names are known and it needs at most five cells. *)
Theorem C77_accepted : forall E pm cls p perms e, env_ok E -> In p perms -> 1 <= p -> (forall v, In v perms -> 1 <= v) ->
  (compile_constraints E pm [Constrain false [CpClass cls perms] e] <> None <->
   exists f, written e f /\ taken false f /\ known E f /\ (cells f <= 5)%nat).
Proof.
  intros E pm cls p perms e EOK I P1 PB. apply one_constraint; [exact EOK|]. intros Z.
  assert (T : N.testbit (perms_to_datum perms) (p - 1) = true).
  { unfold perms_to_datum. apply fold_perms; [exact PB|]. right. replace (p - 1 + 1) with p by lia. exact I. }
  rewrite Z, N.bits_0 in T. discriminate.
Qed.
Print Assumptions C77_accepted.

(** C77. The same for a transition rule, where the number of cells is not looked at. *)
Theorem C77_accepted_transition : forall E pm cls e, env_ok E ->
  (compile_constraints E pm [Validate false [cls] e] <> None <-> exists f, written e f /\ taken true f /\ known E f).
Proof. intros E pm cls e EOK. exact (one_transition E EOK pm cls e). Qed.
Print Assumptions C77_accepted_transition.

(** C77. A list of statements is accepted exactly when each of them is. *)
Theorem C77_separate : forall E pm l,
  compile_constraints E pm l <> None <-> forall st, In st l -> compile_constraints E pm [st] <> None.
Proof. exact stmts_separate. Qed.
Print Assumptions C77_separate.

(** C77. An expression is read in one way. *)
Theorem C77_one_reading : forall e f g, written e f -> written e g -> f = g.
Proof. intros e f g A B. exact (written_unique e f A g B). Qed.
Print Assumptions C77_one_reading.

(** C77. In the policy made from statements of the documented language, the constraints of a class let a permission pass
    exactly when every statement in effect that mentions it holds as written. *)
Theorem C77_constraints : forall E pm l T P, env_ok E -> compile_constraints E pm l = Some T -> all_legal l ->
  (forall cls, sv_cons P cls = ct_cons T cls) ->
  (forall cls, cons_wf false (sv_cons P cls)) /\
  forall s t cls p, ctx_ok s -> ctx_ok t -> (cons_allow P s t cls p <-> constraints_hold E pm P l s t cls p).
Proof.
  intros E pm l T P EOK C L PC. split; [intros cls; rewrite PC; exact (cons_well_formed E EOK pm l T C L cls)|].
  intros s t cls p. exact (constraints_mean E EOK pm l T C L P PC s t cls p).
Qed.
Print Assumptions C77_constraints.

(** C77. The access decision of that policy, for a source type without bounds: a permission is allowed exactly when a
    rule allows it, the role change is allowed, and all statements hold. *)
Theorem C77_decision : forall E pm l T P rank fuel s t cls req, env_ok E -> compile_constraints E pm l = Some T -> all_legal l ->
  (forall cls, sv_cons P cls = ct_cons T cls) -> spolicy_ok wf P -> ranked P rank -> (rank (c_type s) < fuel)%nat ->
  sv_bounds P (c_type s) = 0 ->
  ctx_ok s -> ctx_ok t -> role_known P s -> role_known P t -> 1 <= cls <= sv_nclasses P ->
  exists d reason, compute_av fuel P s t cls req = AvOk d reason /\ forall p,
    (N.testbit (v_allowed d) p = true <->
     te_allows P (c_type s) (c_type t) cls p /\ role_allows P s t cls p /\ constraints_hold E pm P l s t cls p).
Proof.
  intros E pm l T P rank fuel s t cls req EOK C L PC OK RK HF B0 Hs Ht Rs Rt Hc.
  destruct (C16_decision P rank fuel s t cls req OK RK HF Hs Ht Rs Rt Hc) as (d & r & Q & H). exists d, r. split; [exact Q|].
  intros p. rewrite (proj1 (H p)). pose proof (proj2 (C77_constraints E pm l T P EOK C L PC) s t cls p Hs Ht) as CC. split.
  - intros G. assert (LO : locally P s t cls p) by (inversion G; assumption). destruct LO as (A & B & D). rewrite CC in B. auto.
  - intros (A & B & D). apply G_free; [|exact B0]. split; [exact A|]. split; [rewrite CC; exact D|exact B].
Qed.
Print Assumptions C77_decision.

(** C77. A relabelling is accepted by that policy exactly when all transition rules hold as written. *)
Theorem C77_transitions : forall E pm l T P o n t cls, env_ok E -> compile_constraints E pm l = Some T -> all_legal l ->
  (forall cls, sv_vtrans P cls = ct_vtrans T cls) -> spolicy_ok wf P ->
  ctx_ok o -> ctx_ok n -> ctx_ok t -> role_known P o -> role_known P n -> 1 <= cls <= sv_nclasses P ->
  (validate_transition P o n t cls = VtOk <-> transitions_hold E pm P l o n t cls).
Proof.
  intros E pm l T P o n t cls EOK C L PV OK Ho Hn Ht Ro Rn Hc.
  rewrite (proj1 (C50_validate_transition P o n t cls OK Ho Hn Ht Ro Rn Hc)).
  exact (transitions_mean E EOK pm l T C L P PV o n t cls Ho Hn Ht).
Qed.
Print Assumptions C77_transitions.

Lemma cc_legal : all_legal cc_stmts.
Proof.
  intros st [<-|[<-|[<-|[]]]].
  - split.
    + intros f W. assert (Q : written (PList [nm "or"; PList [nm "eq"; nm "u1"; nm "u2"]; PList [nm "eq"; nm "r2"; nm "rone"]])
        (Or (Compare REq (Attr WSrc KUser) (Attr WTgt KUser)) (Among REq (Attr WTgt KRole) [chars "rone"]))).
      { apply Wr_or; [exact (Wr_compare REq _ _ _ _ (Sp_user WSrc) (Sp_user WTgt))|].
        apply (Wr_name REq _ _ _ (Sp_role WTgt)). apply not_spelled. vm_compute; reflexivity. }
      rewrite <- (written_unique _ _ Q f W). cbn [legal]. split.
      * left. exists KUser. auto.
      * split; [exists WTgt, KRole; split; [reflexivity|discriminate]|auto].
    + apply Pf_many. intros c [<-|[]]. apply Pf_many. intros c [<-|[<-|[]]]; apply Pf_class; intros v I; [destruct I as [<-|[]]; lia|destruct I].
  - split.
    + intros f W. pose proof (Wr_compare RDom _ _ _ _ (Sp_low WSrc ltac:(discriminate)) (Sp_low WTgt ltac:(discriminate))) as Q.
      rewrite <- (written_unique _ _ Q f W). right. left. reflexivity.
    + apply Pf_many. intros c [<-|[]]. apply Pf_class. intros v [<-|[]]. lia.
  - intros f W. assert (Q : written (PList [nm "and"; PList [nm "eq"; nm "u1"; nm "u2"]; PList [nm "eq"; nm "t3"; PList [nm "three"]]])
      (And (Compare REq (Attr WSrc KUser) (Attr WTgt KUser)) (Among REq (Attr WThird KType) [chars "three"]))).
    { apply Wr_and; [exact (Wr_compare REq _ _ _ _ (Sp_user WSrc) (Sp_user WTgt))|].
      apply (Wr_names REq _ _ [chars "three"] (Sp_type WThird)); [auto|discriminate]. }
    rewrite <- (written_unique _ _ Q f W). cbn [legal cells]. split; [|lia]. split.
    + left. exists KUser. auto.
    + split; [exists WThird, KType; auto|auto].
Qed.

(** The statements above compile, without MLS, to the constraints of the policy [sd] of C16; there the source of type 2
    is refused permission 1 on a target of another user whose role is 2, and allowed it when the role is 1. *)
Example C77_case : env_ok cc_env /\ all_legal cc_stmts /\
  (exists T, compile_constraints cc_env false cc_stmts = Some T /\ (forall cls, sv_cons sd cls = ct_cons T cls) /\
             (forall cls, sv_vtrans sd cls = ct_vtrans T cls)) /\
  (exists T, compile_constraints cc_env true cc_stmts = Some T /\ List.length (ct_cons T 1) = 2%nat) /\
  compute_av 3 sd (sd_ctx 1 1 2) (sd_ctx 2 2 3) 1 63 = AvOk (mkAvd 21 0 4294967295) 3 /\
  compute_av 3 sd (sd_ctx 1 1 2) (sd_ctx 2 1 3) 1 63 = AvOk (mkAvd 23 0 4294967295) 1.
Proof.
  split; [exact cc_env_ok|]. split; [exact cc_legal|].
  split. { eexists. split; [vm_compute; reflexivity|]. split; intros cls; destruct cls as [|[c|c|]]; vm_compute; reflexivity. }
  split. { eexists. split; [vm_compute; reflexivity|vm_compute; reflexivity]. }
  split; vm_compute; reflexivity.
Qed.

(** C77 refuted for l1 on the right side. (eq l1 l1) always holds as written, is accepted, and is compiled to the
    comparison of l1 with h2; (eq u1 l1) compares a user with a level, is accepted, and is compiled to u1 = u2. *)
Definition cc_ctx (u lo hi : N) : context := MlsModel.mkC u 1 1 (mkR (mkL lo ebitmap_init) (mkL hi ebitmap_init)).
Theorem C77_refuted_l1 : exists E e f g,
  env_ok E /\ written e f /\ (forall P s t, holds E P s t None f) /\
  written (PList [nm "eq"; nm "u1"; nm "l1"]) g /\ (forall P s t, ~ holds E P s t None g) /\
  (exists T n, compile_constraints E true [Constrain true [CpClass 1 [1]] e] = Some T /\ ct_cons T 1 = [n] /\
     forall P, constraint_expr_eval P (cc_ctx 1 1 2) (cc_ctx 1 1 2) None (cn_expr n) = CVal false) /\
  (exists T n, compile_constraints E true [Constrain true [CpClass 1 [1]] (PList [nm "eq"; nm "u1"; nm "l1"])] = Some T /\ ct_cons T 1 = [n] /\
     forall P, constraint_expr_eval P (cc_ctx 1 1 2) (cc_ctx 1 1 2) None (cn_expr n) = CVal true /\
               constraint_expr_eval P (cc_ctx 1 1 2) (cc_ctx 2 1 2) None (cn_expr n) = CVal false).
Proof.
  exists cc_env, (PList [nm "eq"; nm "l1"; nm "l1"]), (Compare REq (Low WSrc) (Low WSrc)), (Compare REq (Attr WSrc KUser) (Low WSrc)).
  split; [exact cc_env_ok|].
  split. { exact (Wr_compare REq _ _ _ _ (Sp_low WSrc ltac:(discriminate)) (Sp_low WSrc ltac:(discriminate))). }
  split. { intros P s t. exists (r_low (c_range s)), (r_low (c_range s)). split; [apply Lv_low; reflexivity|]. split; [apply Lv_low; reflexivity|].
           split; [reflexivity|intros b; reflexivity]. }
  split. { exact (Wr_compare REq _ _ _ _ (Sp_user WSrc) (Sp_low WSrc ltac:(discriminate))). }
  split. { intros P s t (a & b & A & _). inversion A. }
  split. { do 2 eexists. split; [vm_compute; reflexivity|]. split; [vm_compute; reflexivity|]. intros P. vm_compute. reflexivity. }
  do 2 eexists. split; [vm_compute; reflexivity|]. split; [vm_compute; reflexivity|]. intros P. split; vm_compute; reflexivity.
Qed.
Print Assumptions C77_refuted_l1.

(** C77 refuted for names with dom: (dom t1 some) is accepted; it and its negation evaluate to false, and after another
    operand its evaluation reads uninitialised memory. Policy validation refuses the result. *)
Theorem C77_refuted_names : exists E e, env_ok E /\ (exists f, written e f /\ taken false f /\ ~ legal false f) /\
  exists T n1 n2 n3,
    compile_constraints E false [Constrain false [CpClass 1 [1]] e;
      Constrain false [CpClass 1 [1]] (PList [nm "not"; e]);
      Constrain false [CpClass 1 [1]] (PList [nm "and"; PList [nm "eq"; nm "u1"; nm "u2"]; e])] = Some T /\
    ct_cons T 1 = [n3; n2; n1] /\
    forall P s t, constraint_expr_eval P s t None (cn_expr n1) = CVal false /\
      constraint_expr_eval P s t None (cn_expr n2) = CVal false /\
      constraint_expr_eval P s t None (cn_expr n3) = CUB /\
      validate_cexpr false (cn_expr n1) = false /\ validate_cexpr false (cn_expr n2) = false /\ validate_cexpr false (cn_expr n3) = false.
Proof.
  exists cc_env, (PList [nm "dom"; nm "t1"; nm "some"]). split; [exact cc_env_ok|]. split.
  { exists (Among RDom (Attr WSrc KType) [chars "some"]). split; [apply (Wr_name RDom _ _ _ (Sp_type WSrc)), not_spelled; vm_compute; reflexivity|].
    split; [exists WSrc, KType; split; [reflexivity|discriminate]|]. intros [_ [Q|Q]]; discriminate Q. }
  do 4 eexists. split; [vm_compute; reflexivity|]. split; [vm_compute; reflexivity|].
  intros P s t. do 3 (split; [vm_compute; reflexivity|]). do 2 (split; [vm_compute; reflexivity|]). vm_compute; reflexivity.
Qed.
Print Assumptions C77_refuted_names.

(** C77 refuted for deep transition rules: an expression needing six cells is refused in a constraint but accepted in a
    transition rule, where its evaluation reads uninitialised memory; policy validation refuses the result. *)
Definition cc_deep : ptree :=
  let q := PList [nm "eq"; nm "u1"; nm "u2"] in let a x := PList [nm "and"; q; x] in a (a (a (a (a q)))).
Theorem C77_refuted_deep : exists E e f, env_ok E /\ written e f /\ legal true f /\ legal false f /\ cells f = 6%nat /\
  compile_constraints E false [Constrain false [CpClass 1 [1]] e] = None /\
  exists T n, compile_constraints E false [Validate false [1] e] = Some T /\ ct_vtrans T 1 = [n] /\
    validate_cexpr true (cn_expr n) = false /\
    forall P o m t, constraint_expr_eval P o m (Some t) (cn_expr n) = CUB.
Proof.
  pose (q := Compare REq (Attr WSrc KUser) (Attr WTgt KUser)).
  exists cc_env, cc_deep, (And q (And q (And q (And q (And q q))))).
  assert (Q : written (PList [nm "eq"; nm "u1"; nm "u2"]) q) by exact (Wr_compare REq _ _ _ _ (Sp_user WSrc) (Sp_user WTgt)).
  assert (LG : forall vt, legal vt q) by (intros vt; left; exists KUser; auto).
  split; [exact cc_env_ok|]. split. { unfold cc_deep. do 5 (apply Wr_and; [exact Q|]). exact Q. }
  split. { do 5 (split; [exact (LG true)|]). exact (LG true). } split. { do 5 (split; [exact (LG false)|]). exact (LG false). }
  split; [reflexivity|]. split; [vm_compute; reflexivity|].
  do 2 eexists. split; [vm_compute; reflexivity|]. split; [vm_compute; reflexivity|]. split; [vm_compute; reflexivity|].
  intros P o m t. vm_compute. reflexivity.
Qed.
Print Assumptions C77_refuted_deep.
