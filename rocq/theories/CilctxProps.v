(** * C72: labelling rules of CIL

    Every rule of an accepted policy has effect, contradicting rules are refused, the most specific rule decides. *)
From Coq Require Import NArith List Bool Lia Permutation Sorting.Sorted.
From Verif Require Import MlsModel ContextModel CilctxModel CilctxSpec CilctxProofs CilctxMore.
Import ListNotations.
Local Open Scope N_scope.

(** What qsort is asked for. *)
Definition qsorted (s : list rule) : Prop := StronglySorted (fun a b => compar a b <> Gt) s.
(** A rule that gives contexts. *)
Definition labels (r : rule) : Prop := ~ In None (gives r).
(** Port numbers of 16 bits. *)
Definition real_port (r : rule) : Prop := match r with Rport _ l h _ => l < 2 ^ 16 /\ h < 2 ^ 16 | _ => True end.

(** ** Examples *)
Definition lv0 : lvl := mkLv [115;48] None.
Definition cx (t : N) : ctx := mkCx [117] [114] [t] lv0 lv0.
Definition with_cats (l : list (list N)) : ctx := mkCx [117] [114] [97] lv0 (mkLv [115;48] (Some l)).
Definition ports : list rule := [Rport 2 1 1023 (cx 97); Rport 2 80 80 (cx 98); Rport 1 80 80 (cx 99); Rport 2 80 80 (cx 98); Rport 2 1 65535 (cx 100)].
Definition ports_sorted : list rule := [Rport 1 80 80 (cx 99); Rport 2 80 80 (cx 98); Rport 2 80 80 (cx 98); Rport 2 1 1023 (cx 97); Rport 2 1 65535 (cx 100)].
Example ports_ok : Forall fits ports /\ classes_agree ports /\ Permutation ports ports_sorted /\ qsorted ports_sorted /\ Forall real_port ports.
Proof.
  split; [|split; [|split; [|split]]].
  - repeat (constructor; [cbn; lia|]). constructor.
  - intros f p t t' c c' H. cbn in H. repeat (destruct H as [H|H]; [discriminate H|]). destruct H.
  - unfold ports, ports_sorted.
    apply Permutation_sym. change [Rport 2 1 1023 (cx 97); Rport 2 80 80 (cx 98); Rport 1 80 80 (cx 99); Rport 2 80 80 (cx 98); Rport 2 1 65535 (cx 100)]
      with ([Rport 2 1 1023 (cx 97); Rport 2 80 80 (cx 98)] ++ Rport 1 80 80 (cx 99) :: [Rport 2 80 80 (cx 98); Rport 2 1 65535 (cx 100)]).
    apply Permutation_cons_app. cbn [app].
    apply (Permutation_cons_app [Rport 2 1 1023 (cx 97)] [Rport 2 80 80 (cx 98); Rport 2 1 65535 (cx 100)]). cbn [app].
    apply (Permutation_cons_app [Rport 2 1 1023 (cx 97)] [Rport 2 1 65535 (cx 100)]). cbn [app]. apply Permutation_refl.
  - unfold qsorted. repeat (constructor; [|repeat (constructor; [vm_compute; discriminate|]); constructor]). constructor.
  - repeat (constructor; [cbn; lia|]). constructor.
Qed.

(** ** Theorems *)
(** The comparison functions are consistent, as qsort requires. *)
Theorem C72_comparison : forall a b c, fits a -> fits b -> fits c ->
  compar b a = CompOpp (compar a b) /\ (compar a b <> Gt -> compar b c <> Gt -> compar a c <> Gt).
Proof. intros a b c A B C. split; [apply compar_opp; assumption|apply compar_trans; assumption]. Qed.
Print Assumptions C72_comparison.
Example C72_comparison_case : fits (Rnode true 1 (2 ^ 128 - 1) (cx 97)) /\ compar (Rnode true 1 (2 ^ 128 - 1) (cx 97)) (Rnode true 0 0 (cx 98)) = Lt.
Proof. split; [cbn; lia|vm_compute; reflexivity]. Qed.

(** After an accepted compilation every object named by some rule has exactly one rule, one of those given; without permission
    to declare twice there was only one. Partial: rules that only differ in categories count as one, and the class of files of
    genfscon must agree. *)
Theorem C72_one_each_partial : forall many l s out, Forall fits l -> classes_agree l -> Permutation l s -> qsorted s ->
  process_sorted many s = ROk out ->
  incl out l /\ distinct out /\ (forall r, In r l -> exists r', In r' out /\ alike r r') /\ (many = false -> distinct l).
Proof.
  intros many l s out F C P Q H. pose proof (fits_perm l s P F) as Fs.
  destruct (process_good many s out Fs Q H) as (G1 & G2 & G3 & G4).
  assert (I : forall r, In r s <-> In r l) by (intros r; split; intros K; [eapply Permutation_in; [apply Permutation_sym, P|exact K]|eapply Permutation_in; [exact P|exact K]]).
  rewrite Forall_forall in F, Fs.
  split; [intros r Hr; apply I, G2, Hr|]. split; [apply strict_distinct; [apply Forall_forall; intros r Hr; apply Fs, G2, Hr|exact G1]|].
  split.
  - intros r Hr. apply I in Hr. destruct (G3 r Hr) as (r' & R1 & R2 & R3). exists r'. split; [exact R1|]. split; [|exact R3].
    apply (code_object l); [exact C|apply I, Hr|apply I, G2, R1|]. apply eq_code; [apply Fs, Hr|apply Fs, G2, R1|exact R2].
  - intros ->. unfold distinct. apply (pairs_impl (pair_ok false)).
    + intros a b Ha Hb K J. destruct (K (object_eq a b (F a Ha) (F b Hb) J)) as (M & _). discriminate M.
    + apply (pairs_ok_perm false s l); [apply Forall_forall; exact Fs|apply Permutation_sym, P|exact G4].
Qed.
Print Assumptions C72_one_each_partial.
Example C72_one_each_case : process_sorted true ports_sorted =
  ROk [Rport 1 80 80 (cx 99); Rport 2 80 80 (cx 98); Rport 2 1 1023 (cx 97); Rport 2 1 65535 (cx 100)] /\ process_sorted false ports_sorted = RErr.
Proof. split; vm_compute; reflexivity. Qed.

(** Rules are accepted if and only if those for one object agree. Partial as above; and two equal file rules without a context
    are not accepted. *)
Theorem C72_conflicts_partial : forall many l s, Forall fits l -> classes_agree l -> Permutation l s -> qsorted s ->
  (exists out, process_sorted many s = ROk out) <->
  ForallOrdPairs (fun a b => same_object a b -> many = true /\ alike a b /\ labels a /\ labels b) l.
Proof.
  intros many l s F C P Q. pose proof (fits_perm l s P F) as Fs. pose proof F as Fl. rewrite Forall_forall in Fl. split.
  - intros (out & H). destruct (process_good many s out Fs Q H) as (_ & _ & _ & G).
    apply (pairs_impl (pair_ok many)).
    + intros a b Ha Hb K J. destruct (K (object_eq a b (Fl a Ha) (Fl b Hb) J)) as (M & N1 & N2 & N3).
      split; [exact M|]. split; [split; assumption|]. split; assumption.
    + apply (pairs_ok_perm many s l); [exact Fs|apply Permutation_sym, P|exact G].
  - intros H. apply process_accepts; [exact Fs|]. apply (pairs_ok_perm many l s); [exact F|exact P|].
    revert H. apply pairs_impl. intros a b Ha Hb K J.
    destruct (K (code_object l a b C Ha Hb (eq_code a b (Fl a Ha) (Fl b Hb) J))) as (M & [_ N1] & N2 & N3). auto.
Qed.
Print Assumptions C72_conflicts_partial.
Example C72_conflicts_case : process_sorted true [Rpirq 1 (cx 97); Rpirq 1 (cx 98)] = RErr.
Proof. vm_compute; reflexivity. Qed.

(** The first rule of the policy that covers a port, an address, memory and so on is one given, and none given is narrower.
    Partial: port numbers of CIL have 32 bits. *)
Theorem C72_narrowest_partial : forall many l s out q, Forall fits l -> Forall real_port l -> Permutation l s -> qsorted s ->
  process_sorted many s = ROk out ->
  ((exists r, In r l /\ covers q r) -> exists r, first_match q (policy_of out) r) /\
  (forall r, first_match q (policy_of out) r -> In r l /\
     forall r' e e', In r' l -> covers q r' -> extent r e -> extent r' e' -> e <= e').
Proof.
  intros many l s out q F R P Q H. pose proof (fits_perm l s P F) as Fs.
  destruct (process_good many s out Fs Q H) as (G1 & G2 & G3 & _).
  assert (I : forall r, In r s -> In r l) by (intros r K; eapply Permutation_in; [apply Permutation_sym, P|exact K]).
  assert (J : forall r, In r l -> In r s) by (intros r K; eapply Permutation_in; [exact P|exact K]).
  assert (E : policy_of out = out).
  { unfold policy_of. rewrite <- (map_id out) at 2. apply map_ext_in. intros r Hr.
    rewrite Forall_forall in R. specialize (R r (I r (G2 r Hr))). destruct r; try reflexivity. destruct R as [R1 R2].
    cbn [to_policy]. rewrite (N.mod_small low _ R1), (N.mod_small high _ R2). reflexivity. }
  rewrite E. split.
  - intros (r & Hr & C). destruct (G3 r (J r Hr)) as (r' & R1 & R2 & _). apply (first_exists q out r' R1).
    rewrite Forall_forall in Fs. eapply covers_code; [|exact C]. apply eq_code; [apply Fs, J, Hr|apply Fs, G2, R1|exact R2].
  - intros r K. split.
    + destruct K as (a & b & -> & _). apply I, G2. apply in_elt.
    + intros r' e e' Hr'. apply (narrowest many s out q r Fs Q H K). apply J, Hr'.
Qed.
Print Assumptions C72_narrowest_partial.
Example C72_narrowest_case : (exists r, In r ports /\ covers (Qport 2 80) r) /\
  first_match (Qport 2 80) (policy_of [Rport 1 80 80 (cx 99); Rport 2 80 80 (cx 98); Rport 2 1 1023 (cx 97); Rport 2 1 65535 (cx 100)]) (Rport 2 80 80 (cx 98)) /\
  extent (Rnode false 0x0a000000 0xff000000 (cx 97)) 24 /\ covers (Qnode false 0x0a010203) (Rnode false 0x0a000000 0xff000000 (cx 97)).
Proof.
  split; [|split; [|split]].
  - exists (Rport 2 1 1023 (cx 97)). split; [left; reflexivity|]. cbn. lia.
  - exists [Rport 1 80 80 (cx 99)], [Rport 2 1 1023 (cx 97); Rport 2 1 65535 (cx 100)]. split; [reflexivity|]. split; [cbn; lia|].
    constructor; [cbn; lia|constructor].
  - change 0xff000000 with (N.ones (if false then 128 else 32) - N.ones 24). constructor. cbn. lia.
  - cbn [covers]. split; vm_compute; reflexivity.
Qed.

(** File rules are written with special characters first and longer fixed beginnings later, so that the last match is the most
    specific by these measures. *)
Theorem C72_files : forall many s out, Forall fits s -> qsorted s -> process_sorted many s = ROk out -> specific_last out.
Proof. intros many s out F Q H. apply strict_specific. exact (proj1 (process_good many s out F Q H)). Qed.
Print Assumptions C72_files.
Example C72_files_case :
  let s := [Rfile [47;46;42] 0 (Some (cx 97)); Rfile [47;98;46;42] 1 None; Rfile [47;92;46] 0 (Some (cx 98)); Rfile [47;98;47;99] 0 (Some (cx 98))] in
  Forall fits s /\ qsorted s /\ process_sorted true s = ROk s.
Proof.
  cbv zeta. split; [repeat (constructor; [exact I|]); constructor|]. split; [|vm_compute; reflexivity].
  unfold qsorted. repeat (constructor; [|repeat (constructor; [vm_compute; discriminate|]); constructor]). constructor.
Qed.

(** If rules for one object are the same, neither the sequence of the rules nor the work of qsort plays a role. *)
Theorem C72_sequence : forall many l s s' out, Forall fits l -> classes_agree l -> (forall a b, In a l -> In b l -> same_object a b -> a = b) ->
  Permutation l s -> Permutation l s' -> qsorted s -> qsorted s' -> process_sorted many s = ROk out -> process_sorted many s' = ROk out.
Proof.
  intros many l s s' out F C U P P' Q Q' H. pose proof (fits_perm l s P F) as Fs. pose proof (fits_perm l s' P' F) as Fs'.
  destruct (process_good many s out Fs Q H) as (G1 & G2 & G3 & G4).
  assert (Pss : Permutation s s') by (eapply Permutation_trans; [apply Permutation_sym, P|exact P']).
  destruct (process_accepts many s' Fs' (pairs_ok_perm many s s' Fs Pss G4)) as (out' & H').
  destruct (process_good many s' out' Fs' Q' H') as (K1 & K2 & K3 & _).
  assert (I : forall r, In r s -> In r l) by (intros r K; eapply Permutation_in; [apply Permutation_sym, P|exact K]).
  assert (I' : forall r, In r s' -> In r l) by (intros r K; eapply Permutation_in; [apply Permutation_sym, P'|exact K]).
  rewrite Forall_forall in Fs, Fs'.
  assert (same : forall a b, In a l -> In b l -> fits a -> fits b -> compar a b = Eq -> a = b).
  { intros a b Ha Hb Fa Fb E. apply U; try assumption. apply (code_object l); try assumption. apply eq_code; assumption. }
  rewrite H'. f_equal. symmetry. apply strict_same; try assumption.
  - apply Forall_forall. intros r Hr. apply Fs, G2, Hr.
  - apply Forall_forall. intros r Hr. apply Fs', K2, Hr.
  - intros r. split; intros Hr.
    + assert (Hs' : In r s') by (eapply Permutation_in; [exact Pss|apply G2, Hr]). destruct (K3 r Hs') as (r' & R1 & R2 & _).
      rewrite (same r r'); [exact R1|apply I', Hs'|apply I', K2, R1|apply Fs', Hs'|apply Fs', K2, R1|exact R2].
    + assert (Hs : In r s) by (eapply Permutation_in; [apply Permutation_sym, Pss|apply K2, Hr]). destruct (G3 r Hs) as (r' & R1 & R2 & _).
      rewrite (same r r'); [exact R1|apply I, Hs|apply I, G2, R1|apply Fs, Hs|apply Fs, G2, R1|exact R2].
Qed.
Print Assumptions C72_sequence.
Example C72_sequence_case : forall a b, In a ports -> In b ports -> same_object a b -> a = b.
Proof.
  intros a b A B H. cbn in A, B.
  repeat (destruct A as [<-|A]; [repeat (destruct B as [<-|B]; [try reflexivity; inversion H|]); destruct B|]). destruct A.
Qed.

(** ** What does not hold *)
(** Two rules give one port contexts with different categories: no error; which one stays depends on the order of the array. *)
Theorem C72_refuted_categories : exists a b, Forall fits [a; b] /\ qsorted [a; b] /\ qsorted [b; a] /\ same_object a b /\ gives a <> gives b /\
  process_sorted true [a; b] = ROk [b] /\ process_sorted true [b; a] = ROk [a].
Proof.
  exists (Rport 2 80 80 (with_cats [[99;48]])), (Rport 2 80 80 (with_cats [[99;49]])).
  split; [repeat (constructor; [cbn; lia|]); constructor|]. split; [|split; [|split; [constructor|split; [intros H; discriminate H|]]]].
  - constructor; [constructor; constructor|]. constructor; [vm_compute; discriminate|constructor].
  - constructor; [constructor; constructor|]. constructor; [vm_compute; discriminate|constructor].
  - split; vm_compute; reflexivity.
Qed.
Print Assumptions C72_refuted_categories.
(** A file rule without a context given twice: NULL is read. *)
Theorem C72_refuted_no_context : exists r, fits r /\ qsorted [r; r] /\ process_sorted true [r; r] = RUB.
Proof.
  exists (Rfile [47;97] 0 None). split; [exact I|]. split; [|vm_compute; reflexivity].
  constructor; [constructor; constructor|]. constructor; [vm_compute; discriminate|constructor].
Qed.
Print Assumptions C72_refuted_no_context.
(** Rules for the files and for the directories of one path: the one for files is lost. *)
Theorem C72_refuted_class : exists a b, qsorted [a; b] /\ ~ same_object a b /\ process_sorted true [a; b] = ROk [b].
Proof.
  exists (Rgenfs [112] [47] 1 (cx 97)), (Rgenfs [112] [47] 2 (cx 97)). split; [|split; [intros H; inversion H|vm_compute; reflexivity]].
  constructor; [constructor; constructor|]. constructor; [vm_compute; discriminate|constructor].
Qed.
Print Assumptions C72_refuted_class.
(** A rule for port 65616 decides about port 80. *)
Theorem C72_refuted_port : exists s r, Forall fits s /\ qsorted s /\ process_sorted true s = ROk s /\ ~ In r s /\
  first_match (Qport 2 80) (policy_of s) r /\ exists x, In x s /\ covers (Qport 2 80) x /\ gives x <> gives r.
Proof.
  exists [Rport 2 65616 65616 (cx 97); Rport 2 1 1023 (cx 98)], (Rport 2 80 80 (cx 97)).
  split; [repeat (constructor; [cbn; lia|]); constructor|]. split; [|split; [vm_compute; reflexivity|]].
  { constructor; [constructor; constructor|]. constructor; [vm_compute; discriminate|constructor]. }
  split; [intros [H|[H|[]]]; discriminate H|]. split.
  - exists [], [Rport 2 1 1023 (cx 98)]. split; [reflexivity|]. split; [cbn; lia|constructor].
  - exists (Rport 2 1 1023 (cx 98)). split; [right; left; reflexivity|]. split; [cbn; lia|intros H; discriminate H].
Qed.
Print Assumptions C72_refuted_port.
