(** C61: the contexts offered at login are the valid configured ones in configured order. *)
From Verif Require Import Base MlsModel ContextModel LoginModel LoginSpec LoginProofs LoginCtxProofs.
Open Scope N_scope.

(** What a file offers is well defined. *)
Theorem C61_offers : forall file user con role type level,
  plain user -> calling con role type level ->
  exists cs, offers file user role type level cs /\
    forall cs', offers file user role type level cs' -> cs' = cs.
Proof.
  intros file user con role type level Hu Hc.
  destruct (calling_new _ _ _ _ Hc) as (u & _ & Hr & Ht & _).
  destruct (list_spec (fun _ => ChkValid) file None None user con role type level Hu Hc)
    as (cs & _ & _ & O & _).
  exists cs. split; [exact O|]. intros cs' O'. exact (offers_fun user role type Hr Ht file level cs' cs O' O).
Qed.
Print Assumptions C61_offers.

(** The list: the accepted contexts of the user's file, then of the global file, each once. If there
    is none, the failsafe context unless the kernel refuses it. *)
Theorem C61_list : forall check userfile deffile failsafe user con role type level cs1 cs2,
  plain user -> calling con role type level ->
  offers userfile user role type level cs1 -> offers deffile user role type level cs2 ->
  exists l, firsts_of (fun c => check c = ChkValid) (cs1 ++ cs2) l /\
    (l <> [] -> get_ordered_context_list check userfile deffile failsafe user con = ROk l) /\
    (l = [] ->
       (forall c, failsafe_is failsafe user c ->
          (check c = ChkInvalid ->
             get_ordered_context_list check userfile deffile failsafe user con = RErr) /\
          (check c <> ChkInvalid ->
             get_ordered_context_list check userfile deffile failsafe user con = ROk [c])) /\
       (failsafe = None \/ failsafe = Some [] ->
          get_ordered_context_list check userfile deffile failsafe user con = RErr)).
Proof.
  intros check userfile deffile failsafe user con role type level cs1 cs2 Hu Hc O1 O2.
  destruct (calling_new _ _ _ _ Hc) as (u & _ & Hr & Ht & _).
  destruct (list_spec check userfile deffile failsafe user con role type level Hu Hc)
    as (cs1' & cs2' & l & O1' & O2' & F & E).
  rewrite <- (offers_fun user role type Hr Ht _ _ _ _ O1 O1') in F.
  rewrite <- (offers_fun user role type Hr Ht _ _ _ _ O2 O2') in F.
  exists l. split; [exact F|]. rewrite E. split; [destruct l; [congruence|reflexivity]|].
  intros ->. unfold fallback_result. split.
  - intros c Hf. rewrite (failsafe_spec check failsafe user c Hf).
    destruct (check c); split; congruence.
  - intros [-> | ->]; reflexivity.
Qed.
Print Assumptions C61_list.

(** default_contexts: "sys:local x:y u:z u:z\n" preceded by a comment; the user's file "sys:local q:w\n". *)
Definition demo_def : list N :=
  [35;10; 115;121;115;58;108;111;99;97;108;32;120;58;121;32;117;58;122;58;115;48;9;117;58;122;10].
Definition demo_usr : list N := [32;115;121;115;58;108;111;99;97;108;58;115;48;32;113;58;119;10].
(** The caller "s:sys:local:s0-s1" and the user "joe"; the kernel refuses "joe:x:y:s0-s1". *)
Definition demo_from : list N := [115;58;115;121;115;58;108;111;99;97;108;58;115;48;45;115;49].
Definition demo_check (c : list N) : chk :=
  if list_eq_dec N.eq_dec c [106;111;101;58;120;58;121;58;115;48;45;115;49] then ChkInvalid else ChkValid.
Example C61_list_case :
  calling demo_from [115;121;115] [108;111;99;97;108] (Some [115;48;45;115;49]) /\
  plain [106;111;101] /\
  (* joe:q:w:s0-s1 from the user's file, joe:u:z:s0-s1 from the global one *)
  get_ordered_context_list demo_check (Some demo_usr) (Some demo_def) None [106;111;101] demo_from
  = ROk [[106;111;101;58;113;58;119;58;115;48;45;115;49]; [106;111;101;58;117;58;122;58;115;48;45;115;49]] /\
  failsafe_is (Some [114;58;116;10;120]) [106;111;101] [106;111;101;58;114;58;116].
Proof.
  split; [|split; [|split; [vm_compute; reflexivity|]]].
  - exists [115]. unfold no_colon, no_blank, blank, demo_from, level_part.
    split; [cbn; intuition discriminate|]. split; [cbn; intuition discriminate|].
    split; [cbn; intuition discriminate|].
    split; [repeat constructor; lia|]. split; [repeat constructor; lia|].
    split; [repeat constructor; lia|]. split; [discriminate|]. split; [reflexivity|].
    split; [vm_compute; lia|]. split; [discriminate|]. split; [cbn; intuition discriminate|].
    split; cbn; intuition discriminate.
  - split; [unfold no_colon; cbn; intuition discriminate|].
    unfold no_blank, blank. repeat constructor; lia.
  - exists [114;58;116;10;120], [114;58;116], [10;120]. unfold no_newline, no_nul.
    split; [reflexivity|]. split; [reflexivity|]. split; [cbn; intuition discriminate|].
    split; [cbn; intuition discriminate|]. split; [cbn; lia|]. split; [left; discriminate|].
    split; [|reflexivity]. right; right. exists 10, [120]. auto.
Qed.

(** A caller whose context is malformed gets the failsafe context. *)
Theorem C61_bad_caller : forall check userfile deffile failsafe user con c,
  ~ well_formed con -> failsafe_is failsafe user c -> check c <> ChkInvalid ->
  get_ordered_context_list check userfile deffile failsafe user con = ROk [c].
Proof.
  intros check userfile deffile failsafe user con c Hw Hf Hc. unfold get_ordered_context_list.
  destruct (context_new con) as [k|] eqn:E; [destruct Hw; apply new_wf; exists k; exact E|].
  rewrite (failsafe_spec check failsafe user c Hf). destruct (check c); congruence.
Qed.
Print Assumptions C61_bad_caller.
Example C61_bad_caller_case : ~ well_formed [115;58;115].
Proof. intros ((H & _) & _). vm_compute in H. lia. Qed.

(** Whatever the files, the user and the caller, a context the kernel refuses is not returned. *)
Theorem C61_never_refused : forall check userfile deffile failsafe user con l c,
  get_ordered_context_list check userfile deffile failsafe user con = ROk l ->
  In c l -> check c <> ChkInvalid.
Proof. intros. eapply list_safe; eassumption. Qed.
Print Assumptions C61_never_refused.
Example C61_never_refused_case : demo_check [106;111;101;58;120;58;121;58;115;48;45;115;49] = ChkInvalid.
Proof. reflexivity. Qed.

(** get_default_context_with_role returns the first of the list with the role, and get_default_context
    the first. *)
Theorem C61_role : forall check userfile deffile failsafe user con role c,
  (role_context role (get_ordered_context_list check userfile deffile failsafe user con) = ROk c <->
   exists l, get_ordered_context_list check userfile deffile failsafe user con = ROk l /\
     first_such (fun c => has_role c role) l c) /\
  (first_context (get_ordered_context_list check userfile deffile failsafe user con) = ROk c <->
   exists t, get_ordered_context_list check userfile deffile failsafe user con = ROk (c :: t)).
Proof.
  intros check userfile deffile failsafe user con role c.
  destruct (get_ordered_context_list check userfile deffile failsafe user con) as [l| |].
  - split.
    + unfold role_context. pose proof (with_role_spec role l) as W. destruct (with_role role l) as [x|].
      * split; [intros [= <-]; exists l; split; [reflexivity|exact W]|].
        intros (l' & [= <-] & F). rewrite (first_fun _ _ _ _ F W). reflexivity.
      * split; [discriminate|]. intros (l' & [= <-] & F). destruct (first_in _ _ _ F) as [X Y].
        destruct (W c X Y).
    + destruct l as [|x l]; cbn; split; [discriminate|intros [t X]; discriminate| |].
      * intros [= <-]. exists l. reflexivity.
      * intros [t [= -> ->]]. reflexivity.
  - split; split; [discriminate|intros (l & X & _); discriminate|discriminate|intros (t & X); discriminate].
  - split; split; [discriminate|intros (l & X & _); discriminate|discriminate|intros (t & X); discriminate].
Qed.
Print Assumptions C61_role.
Example C61_role_case :
  role_context [117] (get_ordered_context_list demo_check (Some demo_usr) (Some demo_def) None [106;111;101] demo_from)
  = ROk [106;111;101;58;117;58;122;58;115;48;45;115;49].
Proof. vm_compute. reflexivity. Qed.

(** With an explicit level the caller's level is replaced by it. *)
Theorem C61_level : forall check userfile deffile failsafe user u role type level lv,
  let con l := u ++ 58 :: role ++ 58 :: type ++ level_part l in
  calling (con level) role type level -> calling (con (Some lv)) role type (Some lv) -> no_colon u ->
  get_ordered_context_list_with_level check userfile deffile failsafe user (Some lv) (con level)
  = get_ordered_context_list check userfile deffile failsafe user (con (Some lv)).
Proof.
  intros check userfile deffile failsafe user u role type level lv con A B Hu.
  destruct (calling_new _ _ _ _ A) as (u1 & E1 & _).
  destruct (calling_new _ _ _ _ B) as (u2 & E2 & _ & _ & Hl).
  assert (Eu : u1 = u).
  { assert (X : x_user (mkCtx (Some u1) (Some role) (Some type) level) = Some u).
    { unfold context_new in E1. destruct (ctx_scan (con level) 0) as [m|]; [|discriminate].
      destruct ((m <? 2) || (5 <? m)); [discriminate|]. unfold con in E1.
      rewrite (comps_split 2 u _ Hu) in E1. injection E1 as E1 _. cbn. congruence. }
    cbn in X. congruence. }
  unfold get_ordered_context_list_with_level. rewrite E1. unfold ctx_set.
  rewrite (range_ok (Some lv) Hl). cbn [x_user x_role x_type]. subst u1.
  unfold context_str, ctx_part. cbn [x_user x_role x_type x_range app].
  replace (u ++ (ch_colon :: role) ++ (ch_colon :: type) ++ ch_colon :: lv) with (con (Some lv)) by reflexivity.
  reflexivity.
Qed.
Print Assumptions C61_level.
Example C61_level_case :
  calling [117;58;114;58;116;58;115;48] [114] [116] (Some [115;48]).
Proof.
  exists [117]. unfold no_colon, no_blank, blank, level_part.
  split; [cbn; intuition discriminate|]. split; [cbn; intuition discriminate|].
  split; [cbn; intuition discriminate|].
  split; [repeat constructor; lia|]. split; [repeat constructor; lia|].
  split; [repeat constructor; lia|]. split; [discriminate|]. split; [reflexivity|].
  split; [vm_compute; lia|]. split; [discriminate|]. split; [cbn; intuition discriminate|].
  split; cbn; intuition discriminate.
Qed.

(** A failsafe file starting with a NUL byte makes the function access memory before its buffer. *)
Theorem C61_refuted_failsafe : forall check user con rest,
  ~ well_formed con ->
  get_ordered_context_list check None None (Some (0 :: rest)) user con = RUB.
Proof.
  intros check user con rest Hw. unfold get_ordered_context_list.
  destruct (context_new con) as [k|] eqn:E; [destruct Hw; apply new_wf; exists k; exact E|]. reflexivity.
Qed.
Print Assumptions C61_refuted_failsafe.
