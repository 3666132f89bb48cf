(** Property theorems: neverallow rules. *)
From Verif Require Import Base EbitmapModel EbitmapSpec EbitmapProofs MlsDemo AvtabModel AvtabSpec AvtabProofs AssertModel AssertSpec AssertProofs.

(** ** A small policy *)
(** Demo data, models no code: types 1, 2, 3 and an attribute 4 of types 1 and 3. *)
Definition dattr (v : N) : ebitmap :=
  if v =? 1 then demo_set [0] else if v =? 2 then demo_set [1] else if v =? 3 then demo_set [2] else if v =? 4 then demo_set [0; 2] else ebitmap_init.
(** Demo data, models no code. *)
Definition dtattr (s : N) : ebitmap :=
  if s =? 0 then demo_set [0; 3] else if s =? 1 then demo_set [1] else if s =? 2 then demo_set [2; 3] else ebitmap_init.
(** Demo data, models no code. *)
Definition dx (k d w : N) : xperms := mkX k d [w; 0; 0; 0; 0; 0; 0; 0].
(** Demo data, models no code: allow a4 t2:5 { 0 1 }; allowxperm a4 t2:5 ioctl { 0x8901 0x8902 }. *)
Definition dte_ops : list avop := [OpIns true (mkK 4 2 5 1) (mkD 3 None); OpIns true (mkK 4 2 5 256) (mkD 0 (Some (dx 1 137 6)))].
(** As above. *)
Definition dte : avtab := run dte_ops (avtab_alloc avtab_init 16).
(** Demo data, models no code: the rules of if (b) { allow t1 t1:5 { 2 }; allowxperm t1 t1:5 ioctl { 0x1200-0x12ff } }. *)
Definition dc1 : list anode := [mkNode (mkK 1 1 5 1) (mkD 4 None); mkNode (mkK 1 1 5 256) (mkD 0 (Some (dx 2 0 262144)))].
(** Demo data, models no code. *)
Definition dcte : avtab := run (map (fun n => OpIns false (n_key n) (n_datum n)) dc1) (avtab_alloc avtab_init 16).
(** Demo data, models no code. *)
Definition dap : apolicy := mkAP dte dcte [(dc1, [])] dattr dtattr.
(** Demo data, models no code: the same without the conditional. *)
Definition dap0 : apolicy := mkAP dte avtab_init [] dattr dtattr.
(** Demo rules, model no code: neverallow { t1 t2 } self:5 { 0 }; neverallow t3 t2:5 { 3 }; neverallow t1 ~self:6 { 0 };
    neverallowxperm t1 self:5 { 2 } ioctl 0x1300; neverallowxperm t3 t2:5 { 1 } ioctl 0x8903. *)
Definition dgood : list narule :=
  [mkNA 128 1 (demo_set [0; 1]) ebitmap_init [(5, 1)] (dx 0 0 0); mkNA 128 0 (demo_set [2]) (demo_set [1]) [(4, 3); (5, 8)] (dx 0 0 0);
   mkNA 128 2 (demo_set [0]) ebitmap_init [(6, 1)] (dx 0 0 0); mkNA 2048 1 (demo_set [0]) ebitmap_init [(5, 4)] (dx 1 19 1);
   mkNA 2048 0 (demo_set [2]) (demo_set [1]) [(5, 2)] (dx 1 137 8)].
(** Demo rules, model no code: neverallow t1 ~self:5 { 1 }. *)
Definition dbad : narule := mkNA 128 2 (demo_set [0]) ebitmap_init [(4, 1); (5, 2)] (dx 0 0 0).
(** Demo rules, model no code: neverallowxperm t1 self:5 { 2 } ioctl 0x1207; neverallowxperm t3 t2:5 { 1 } ioctl 0x8902. *)
Definition dxbad1 : narule := mkNA 2048 1 (demo_set [0]) ebitmap_init [(5, 4)] (dx 1 18 128).
(** As above. *)
Definition dxbad2 : narule := mkNA 2048 0 (demo_set [2]) (demo_set [1]) [(5, 2)] (dx 1 137 4).

Ltac vset := first [apply valid_init|apply valid_check; vm_compute; reflexivity].
Lemma dattr_valid v : valid (dattr v).
Proof. unfold dattr. repeat (destruct (_ =? _); [vset|]). vset. Qed.
Lemma dtattr_valid v : valid (dtattr v).
Proof. unfold dtattr. repeat (destruct (_ =? _); [vset|]). vset. Qed.
Lemma dattr_in v s : member (dattr v) s <-> (v = 1 /\ s = 0) \/ (v = 2 /\ s = 1) \/ (v = 3 /\ s = 2) \/ (v = 4 /\ (s = 0 \/ s = 2)).
Proof.
  unfold dattr. destruct (N.eqb_spec v 1) as [->|N1]; [rewrite (demo_in _ [0]) by first [vset|vm_compute; reflexivity]; cbn [In]; lia|].
  destruct (N.eqb_spec v 2) as [->|N2]; [rewrite (demo_in _ [1]) by first [vset|vm_compute; reflexivity]; cbn [In]; lia|].
  destruct (N.eqb_spec v 3) as [->|N3]; [rewrite (demo_in _ [2]) by first [vset|vm_compute; reflexivity]; cbn [In]; lia|].
  destruct (N.eqb_spec v 4) as [->|N4]; [rewrite (demo_in _ [0; 2]) by first [vset|vm_compute; reflexivity]; cbn [In]; lia|].
  rewrite init_in. cbn [In]. lia.
Qed.
Lemma dtattr_in s v : member (dtattr s) v <-> (s = 0 /\ (v = 0 \/ v = 3)) \/ (s = 1 /\ v = 1) \/ (s = 2 /\ (v = 2 \/ v = 3)).
Proof.
  unfold dtattr. destruct (N.eqb_spec s 0) as [->|N1]; [rewrite (demo_in _ [0; 3]) by first [vset|vm_compute; reflexivity]; cbn [In]; lia|].
  destruct (N.eqb_spec s 1) as [->|N2]; [rewrite (demo_in _ [1]) by first [vset|vm_compute; reflexivity]; cbn [In]; lia|].
  destruct (N.eqb_spec s 2) as [->|N3]; [rewrite (demo_in _ [2; 3]) by first [vset|vm_compute; reflexivity]; cbn [In]; lia|].
  rewrite init_in. cbn [In]. lia.
Qed.
Lemma dap_sets : sets_ok dap.
Proof. intros v. split; [apply dattr_valid|apply dtattr_valid]. Qed.
Lemma dap_maps : maps_agree dap.
Proof. intros v s Hv. cbn [dap ap_attr ap_tattr]. rewrite dattr_in, dtattr_in. lia. Qed.
Lemma dap_wf : wf (ap_te dap).
Proof.
  destruct (alloc_spec avtab_init 16 ltac:(discriminate)) as (W & E & L).
  destruct (run_spec dte_ops _ [] W E) as (H & _); [rewrite L; constructor|]. exact H.
Qed.
Lemma dap_conds : conds_listed dap.
Proof.
  intros t f n [H|[]] Hn. injection H as <- <-. destruct Hn as [Hn|[]]. change (avtab_map_list (ap_cte dap)) with (avtab_map_list dcte).
  replace (avtab_map_list dcte) with dc1 by (vm_compute; reflexivity). exact Hn.
Qed.
Lemma dap_entries : entries_ok dap.
Proof.
  intros n Hn. replace (all_rules dap) with ([mkNode (mkK 4 2 5 1) (mkD 3 None); mkNode (mkK 4 2 5 256) (mkD 0 (Some (dx 1 137 6)))] ++ dc1) in Hn by (vm_compute; reflexivity).
  cbn [app dc1 In] in Hn. destruct Hn as [<-|[<-|[<-|[<-|[]]]]]; cbn; repeat split; (lia || discriminate || reflexivity).
Qed.
Lemma dap0_entries : entries_ok dap0.
Proof.
  intros n Hn. replace (all_rules dap0) with [mkNode (mkK 4 2 5 1) (mkD 3 None); mkNode (mkK 4 2 5 256) (mkD 0 (Some (dx 1 137 6)))] in Hn by (vm_compute; reflexivity).
  cbn [In] in Hn. destruct Hn as [<-|[<-|[]]]; cbn; repeat split; (lia || discriminate || reflexivity).
Qed.

(** All violations of a rule of this policy are in a small box. *)
Lemma dap_few r : (length (na_perms r) <= 2)%nat -> few_violations dap r.
Proof.
  intros L. exists (list_prod (list_prod (list_prod (seq 0 4) (seq 0 2)) [0; 1; 2]) [0; 1; 2]). split; [vm_compute; reflexivity|].
  intros [[[a b] s] t] (n & c & m & p & Hn & Hm & _ & _ & (_ & _ & M1 & M2 & _)). cbn [dap ap_attr] in M1, M2. rewrite dattr_in in M1, M2.
  rewrite !in_prod_iff, !in_seq. assert (LA : (a < length (all_rules dap))%nat) by (apply nth_error_Some; congruence).
  assert (LB : (b < length (na_perms r))%nat) by (apply nth_error_Some; congruence). replace (length (all_rules dap)) with 4%nat in LA by (vm_compute; reflexivity). cbn [In]. lia.
Qed.

(** ** Ordinary rules *)

(** C20. Ordinary neverallow rules: the check succeeds exactly when no allow rule of the policy, conditional or not,
    grants what one of them forbids. Missing: rules with [self] beside other target types (see
    C20_self_and_targets_refuted), rules violated in 2^31 ways or more (see C20_count_wraps_refuted). *)
Theorem C20_neverallow_partial : forall P l, sets_ok P ->
  (forall r, In r l -> ordinary r /\ rule_ok r /\ one_flag r /\ self_alone r /\ few_violations P r) ->
  (check_assertions P l 0 = true <-> forall r, In r l -> ~ violated P r).
Proof.
  intros P l HP HL. rewrite (check_all P l); [|intros r Hr; destruct (HL r Hr) as (O & R & F & A & B); apply errors_bound; assumption|lia].
  split.
  - intros [_ H] r Hr V. destruct (HL r Hr) as (O & R & F & A & B). apply (ordinary_violated P r HP R F A) in V.
    apply (errors_ordinary P HP r R F O); [exact V|]. apply H; [exact Hr|unfold relevant; rewrite O; reflexivity|]. apply check_ordinary; assumption.
  - intros H. split; [reflexivity|]. intros r Hr _ _. destruct (HL r Hr) as (O & R & F & A & B).
    destruct (N.eq_dec (report_errors P r) 0) as [E|E]; [exact E|exfalso]. apply (H r Hr). apply (ordinary_violated P r HP R F A). apply (errors_ordinary P HP r R F O). exact E.
Qed.
Print Assumptions C20_neverallow_partial.

Lemma drule_ok r : In r (dbad :: dxbad1 :: dxbad2 :: dgood) -> rule_ok r /\ one_flag r /\ self_alone r.
Proof.
  intros H. unfold one_flag, self_alone, says_self. cbn [dgood In] in H.
  repeat (destruct H as [<-|H]; [split; [split; cbn [dbad dxbad1 dxbad2 na_s na_t]; vset|split; [cbn; auto|cbn [na_flags na_t dbad dxbad1 dxbad2]; intros Q x; first [discriminate Q|rewrite init_in; intros []]]]|]). destruct H.
Qed.

Example C20_neverallow_case :
  (forall r, In r (dbad :: firstn 3 dgood) -> ordinary r /\ rule_ok r /\ one_flag r /\ self_alone r /\ few_violations dap r) /\
  check_assertions dap (firstn 3 dgood) 0 = true /\ check_assertions dap (dbad :: firstn 3 dgood) 0 = false /\ violated dap dbad.
Proof.
  split; [|split; [vm_compute; reflexivity|split; [vm_compute; reflexivity|]]].
  - intros r Hr. assert (R : rule_ok r /\ one_flag r /\ self_alone r). { apply drule_ok. cbn [firstn dgood In] in *. tauto. }
    split; [|destruct R as (R1 & R2 & R3); split; [exact R1|split; [exact R2|split; [exact R3|]]]].
    + cbn [firstn dgood In] in Hr. destruct Hr as [<-|[<-|[<-|[<-|[]]]]]; reflexivity.
    + apply dap_few. cbn [firstn dgood In] in Hr. destruct Hr as [<-|[<-|[<-|[<-|[]]]]]; cbn; lia.
  - exists (mkNode (mkK 4 2 5 1) (mkD 3 None)), 0, 1, 5, 1. split; [vm_compute; auto|]. split.
    + split; [apply (demo_in _ [0]); [vset|vm_compute; reflexivity|left; reflexivity]|]. right. split; [reflexivity|]. split; [discriminate|]. right. intros x. rewrite init_in. intros [].
    + split; [exists 2; split; [right; left; reflexivity|reflexivity]|]. split; [reflexivity|]. split; [reflexivity|]. cbn [dap ap_attr n_key k_src k_tgt]. rewrite !dattr_in. split; [lia|]. split; [lia|reflexivity].
Qed.

(** C20. The test that decides whether a rule is violated at all is exact, with no bound on the violations and also
    when [self] stands beside other targets. *)
Theorem C20_detected_exactly : forall P r, sets_ok P -> rule_ok r -> one_flag r -> ordinary r -> (check_assertion P r = true <-> violated P r).
Proof. intros P r HP HR HF HO. apply check_exact; assumption. Qed.
Print Assumptions C20_detected_exactly.

Example C20_detected_case : check_assertion dap dbad = true /\ check_assertion dap (nth 0 dgood dbad) = false /\
  check_assertion dap (mkNA 128 1 (demo_set [0]) (demo_set [1]) [(5, 1)] (dx 0 0 0)) = true.
Proof. vm_compute. auto. Qed.

(** C20. No false alarms: if the check fails, some rule is violated. No bound on their number and no condition on
    [self]. *)
Theorem C20_no_false_alarm : forall P l, sets_ok P -> (forall r, In r l -> ordinary r /\ rule_ok r /\ one_flag r) ->
  check_assertions P l 0 = false -> exists r, In r l /\ violated P r.
Proof.
  intros P l HP HL H. apply check_rejects in H as (r & Hr & E). destruct (HL r Hr) as (O & R & F). exists r. split; [exact Hr|].
  apply (errors_ordinary P HP r R F O) in E as (n & Hn & s & t & c & p & [SC _] & N1 & C). exists n, s, t, c, p. auto.
Qed.
Print Assumptions C20_no_false_alarm.

Example C20_no_false_alarm_case : (forall r, In r [dbad] -> ordinary r /\ rule_ok r /\ one_flag r) /\ check_assertions dap [dbad] 0 = false.
Proof. split; [|vm_compute; reflexivity]. intros r [<-|[]]. split; [reflexivity|]. destruct (drule_ok dbad) as (R & F & _); [left; reflexivity|auto]. Qed.

(** Refuted: neverallow t1 { self t2 }:5 { 0 } does not forbid allow t1 t2:5 { 0 }. *)
Theorem C20_self_and_targets_refuted : exists P r, sets_ok P /\ ordinary r /\ rule_ok r /\ one_flag r /\ few_violations P r /\
  violated P r /\ check_assertions P [r] 0 = true.
Proof.
  exists dap, (mkNA 128 1 (demo_set [0]) (demo_set [1]) [(5, 1)] (dx 0 0 0)).
  split; [apply dap_sets|]. split; [reflexivity|]. split; [split; cbn [na_s na_t]; vset|]. split; [right; left; reflexivity|].
  split; [apply dap_few; cbn; lia|]. split; [|vm_compute; reflexivity].
  exists (mkNode (mkK 4 2 5 1) (mkD 3 None)), 0, 1, 5, 0. split; [vm_compute; auto|]. split.
  - split; [apply (demo_in _ [0]); [vset|vm_compute; reflexivity|left; reflexivity]|]. left. split; [discriminate|]. left. apply (demo_in _ [1]); [vset|vm_compute; reflexivity|left; reflexivity].
  - split; [exists 1; split; [left; reflexivity|reflexivity]|]. split; [reflexivity|]. split; [reflexivity|]. cbn [dap ap_attr n_key k_src k_tgt]. rewrite !dattr_in. split; [lia|]. split; [lia|reflexivity].
Qed.
Print Assumptions C20_self_and_targets_refuted.

(** Demo data, models no code: the types 0 to 32767. *)
Definition wide : ebitmap := match ebitmap_init_range 0 32767 with RangeOk e => e | _ => ebitmap_init end.
(** Demo data, models no code: an attribute of all of them, allowed the same on itself for four classes. *)
Definition wideP : apolicy :=
  mkAP (run (map (fun c => OpIns true (mkK 1 1 c 1) (mkD 1 None)) [1; 2; 3; 4]) (avtab_alloc avtab_init 16)) avtab_init [] (fun _ => wide) (fun _ => ebitmap_init).
(** Demo data, models no code. *)
Definition wideR : narule := mkNA 128 0 wide wide [(1, 1); (2, 1); (3, 1); (4, 1)] (dx 0 0 0).

Lemma wide_valid : valid wide.
Proof. apply valid_check; vm_compute; reflexivity. Qed.
Lemma wide_and : ebitmap_and wide wide = wide.
Proof. vm_compute. reflexivity. Qed.
Lemma wide_card : length (bits wide) = N.to_nat 32768.
Proof. apply Nat2N.inj. rewrite N2Nat.id, bits_card by apply wide_valid. vm_compute. reflexivity. Qed.
Lemma sum_ones {A} (f : A -> N) l : (forall x, f x = 1) -> fold_right N.add 0 (map f l) = N.of_nat (length l).
Proof. intros H. induction l as [|x l IH]; [reflexivity|]. cbn [map fold_right]. rewrite IH, H. cbn [length]. lia. Qed.
Lemma wide_node n : k_spec (n_key n) = 1 -> d_data (n_datum n) = 1 -> In (k_cls (n_key n)) [1; 2; 3; 4] -> report_matches wideP wideR false n = 1073741824.
Proof.
  intros E1 E2 Hc. unfold report_matches. cbv zeta. rewrite E1, E2.
  assert (ES : src_matches wideP wideR (n_key n) = wide) by exact wide_and.
  assert (ET : tgt_matches wideP wideR (n_key n) = wide) by exact wide_and.
  rewrite ES, ET. change (N.land 1 AVTAB_ALLOWED =? 0) with false. cbv iota.
  assert (EE : ebitmap_is_empty wide = false) by (vm_compute; reflexivity). rewrite EE.
  set (f := fun ij : N * N => if skipped wideR (fst ij) (snd ij) then 0 else if na_spec wideR =? XNEVERALLOW then xreport wideP wideR false (k_cls (n_key n)) (fst ij) (snd ij) else 1).
  assert (EP : fold_right N.add 0 (map f (pairs wide wide)) = 1073741824).
  { rewrite sum_ones by (intros [i j]; reflexivity). unfold pairs. rewrite prod_length, wide_card. rewrite Nat2N.inj_mul, N2Nat.id. reflexivity. }
  rewrite EP. clear EP f. cbn [wideR na_perms map fst snd].
  destruct Hc as [<-|[<-|[<-|[<-|[]]]]]; reflexivity.
Qed.

(** Refuted: 2^32 violations are counted as none. *)
Theorem C20_count_wraps_refuted : exists P r, sets_ok P /\ ordinary r /\ rule_ok r /\ one_flag r /\ self_alone r /\ violated P r /\ check_assertions P [r] 0 = true.
Proof.
  exists wideP, wideR. split; [intros v; split; [apply wide_valid|apply valid_init]|]. split; [reflexivity|]. split; [split; apply wide_valid|]. split; [left; reflexivity|].
  split; [discriminate|]. assert (M : member wide 0). { apply nget_member; [apply wide_valid|vm_compute; reflexivity]. }
  assert (AL : all_rules wideP = map (fun c => mkNode (mkK 1 1 c 1) (mkD 1 None)) (map (fun n => k_cls (n_key n)) (all_rules wideP))) by (vm_compute; reflexivity).
  assert (CL : forall n, In n (all_rules wideP) -> k_spec (n_key n) = 1 /\ d_data (n_datum n) = 1 /\ In (k_cls (n_key n)) [1; 2; 3; 4]).
  { intros n Hn. vm_compute in Hn. destruct Hn as [<-|[<-|[<-|[<-|[]]]]]; cbn; auto 8. }
  split.
  - exists (mkNode (mkK 1 1 1 1) (mkD 1 None)), 0, 0, 1, 0. split; [vm_compute; auto 6|]. split; [split; [exact M|left; split; [discriminate|left; exact M]]|].
    split; [exists 1; split; [left; reflexivity|reflexivity]|]. split; [reflexivity|]. split; [reflexivity|]. split; [exact M|]. split; [exact M|reflexivity].
  - assert (RE : report_errors wideP wideR = 4294967296).
    { rewrite errors_sum by reflexivity. rewrite (map_ext_in _ (fun _ => 1073741824)); [vm_compute; reflexivity|]. intros n Hn. destruct (CL n Hn) as (C1 & C2 & C3). apply wide_node; assumption. }
    cbn [check_assertions]. rewrite RE. change (N.land (na_spec wideR) (N.lor NEVERALLOW XNEVERALLOW) =? 0) with false. cbv iota.
    destruct (check_assertion wideP wideR); vm_compute; reflexivity.
Qed.
Print Assumptions C20_count_wraps_refuted.

(** ** Extended permissions *)

(** C20. A command both in the rule's set and in the granted set is found, whatever the form of the sets. *)
Theorem C20_overlap_found : forall a x k cmd, in_x a k cmd -> in_x x k cmd -> check_xperms a x = true.
Proof. exact overlap_found. Qed.
Print Assumptions C20_overlap_found.

(** C20. And for sets as the compiler makes them nothing else is found. *)
Theorem C20_overlap_real : forall a x, xset_ok a -> xset_ok x -> check_xperms a x = true -> exists k cmd, in_x a k cmd /\ in_x x k cmd.
Proof. exact found_overlap. Qed.
Print Assumptions C20_overlap_real.

Lemma dx_ok k d w : d < 256 -> w < 4294967296 -> w <> 0 -> xset_ok (dx k d w).
Proof.
  intros H1 H2 H3. split; [|split; [exact H1|]].
  - cbn [dx x_perms In]. intros v [<-|H]; [exact H2|]. repeat (destruct H as [<-|H]; [lia|]). destruct H.
  - destruct (nonzero_bit _ H3) as (b & Hb). assert (b < 32). { destruct (N.lt_ge_cases b 32) as [L|L]; [exact L|]. rewrite (testbit_high w 32 b) in Hb by assumption. discriminate. }
    exists b. split; [lia|]. rewrite N.div_small, N.mod_small by assumption. exact Hb.
Qed.

Example C20_overlap_case : check_xperms (dx 1 137 4) (dx 1 137 6) = true /\ check_xperms (dx 1 137 4) (dx 2 0 262144) = false /\
  check_xperms (dx 1 18 4) (dx 2 0 262144) = true /\ in_x (dx 1 18 4) KIoctl 4610 /\ in_x (dx 2 0 262144) KIoctl 4610 /\ xset_ok (dx 1 18 4) /\ xset_ok (dx 2 0 262144).
Proof.
  split; [reflexivity|]. split; [reflexivity|]. split; [reflexivity|]. split; [left; repeat split|]. split; [right; left; repeat split|]. split; apply dx_ok; lia.
Qed.

(** C20. neverallow and neverallowxperm rules together: if the check succeeds, no rule is violated; an extended one
    not under any setting of the booleans, that is, with any branch of each conditional in force. The conditions
    on the policy say that its tables belong together. Missing: as for C20_neverallow_partial; the number of errors is bounded as counted
    by the code. *)
Theorem C20_accepted_means_absent_partial : forall P l, sets_ok P -> wf (ap_te P) -> maps_agree P -> conds_listed P -> entries_ok P ->
  (forall r, In r l -> (ordinary r \/ extended r) /\ rule_ok r /\ one_flag r /\ self_alone r /\ report_errors P r < 2147483648) ->
  check_assertions P l 0 = true ->
  forall r, In r l -> (ordinary r -> ~ violated P r) /\
    (extended r -> forall choice, length choice = length (ap_conds P) -> ~ xviolated_by P (in_force P choice) r).
Proof.
  intros P l HP HW HM HC HE HL H r Hr. apply check_all in H as [_ H]; [|intros x Hx; apply HL; exact Hx|lia].
  destruct (HL r Hr) as (O & R & F & A & B). split.
  - intros HO V. apply (ordinary_violated P r HP R F A) in V. apply (errors_ordinary P HP r R F HO); [exact V|].
    apply H; [exact Hr|unfold relevant; rewrite HO; reflexivity|]. apply check_ordinary; assumption.
  - intros HX ch L V. destruct (xviolation_found P HP HW HM HC HE r R F HX ch A L V) as [V1 V2]. apply V2.
    apply H; [exact Hr|unfold relevant; rewrite HX; reflexivity|exact V1].
Qed.
Print Assumptions C20_accepted_means_absent_partial.

Example C20_accepted_case : sets_ok dap /\ wf (ap_te dap) /\ maps_agree dap /\ conds_listed dap /\ entries_ok dap /\
  (forall r, In r dgood -> (ordinary r \/ extended r) /\ rule_ok r /\ one_flag r /\ self_alone r /\ report_errors dap r < 2147483648) /\
  check_assertions dap dgood 0 = true /\ check_assertions dap [dxbad1] 0 = false /\ check_assertions dap [dxbad2] 0 = false.
Proof.
  split; [apply dap_sets|]. split; [apply dap_wf|]. split; [apply dap_maps|]. split; [apply dap_conds|]. split; [apply dap_entries|]. split; [|vm_compute; auto].
  intros r Hr. assert (R : rule_ok r /\ one_flag r /\ self_alone r) by (apply drule_ok; cbn [In]; auto).
  destruct R as (R1 & R2 & R3). split; [|split; [exact R1|split; [exact R2|split; [exact R3|]]]].
  - cbn [dgood In] in Hr. destruct Hr as [<-|[<-|[<-|[<-|[<-|[]]]]]]; unfold ordinary, extended; cbn; auto.
  - cbn [dgood In] in Hr. destruct Hr as [<-|[<-|[<-|[<-|[<-|[]]]]]]; vm_compute; reflexivity.
Qed.

(** C20. Without conditional rules the check of neverallowxperm rules is exact. Missing: as above, and a rejected
    policy with conditional rules need not be violated (the second pass also takes rules that are not allow rules for
    the permission). *)
Theorem C20_xperm_exact_partial : forall P l, sets_ok P -> wf (ap_te P) -> maps_agree P -> entries_ok P -> unconditional P ->
  (forall n x, In n (avtab_map_list (ap_te P)) -> d_xperms (n_datum n) = Some x -> xset_ok x) ->
  (forall r, In r l -> extended r /\ rule_ok r /\ one_flag r /\ self_alone r /\ xset_ok (na_x r) /\ report_errors P r < 2147483648) ->
  (check_assertions P l 0 = true <-> forall r, In r l -> ~ xviolated_by P (avtab_map_list (ap_te P)) r).
Proof.
  intros P l HP HW HM HE U XS HL. assert (IF : avtab_map_list (ap_te P) = in_force P []) by (unfold in_force; rewrite (proj1 U); symmetry; apply app_nil_r).
  assert (HC : conds_listed P) by (intros t f n Hn; rewrite (proj1 U) in Hn; destruct Hn).
  rewrite check_all; [|intros x Hx; apply HL; exact Hx|lia]. split.
  - intros [_ H] r Hr V. destruct (HL r Hr) as (X & R & F & A & XA & B). rewrite IF in V.
    destruct (xviolation_found P HP HW HM HC HE r R F X [] A) as [V1 V2]; [rewrite (proj1 U); reflexivity|exact V|]. apply V2.
    apply H; [exact Hr|unfold relevant; rewrite X; reflexivity|exact V1].
  - intros H. split; [reflexivity|]. intros r Hr _ _. destruct (HL r Hr) as (X & R & F & A & XA & B).
    destruct (N.eq_dec (report_errors P r) 0) as [E|E]; [exact E|exfalso]. apply (H r Hr). rewrite IF.
    apply (xreport_violation P HP HW HM HE r R F X [] U eq_refl XA XS E).
Qed.
Print Assumptions C20_xperm_exact_partial.

Example C20_xperm_exact_case : entries_ok dap0 /\ unconditional dap0 /\
  (forall n x, In n (avtab_map_list (ap_te dap0)) -> d_xperms (n_datum n) = Some x -> xset_ok x) /\
  (forall r, In r (dxbad2 :: skipn 3 dgood) -> extended r /\ rule_ok r /\ one_flag r /\ self_alone r /\ xset_ok (na_x r) /\ report_errors dap0 r < 2147483648) /\
  check_assertions dap0 (skipn 3 dgood) 0 = true /\ check_assertions dap0 (dxbad2 :: skipn 3 dgood) 0 = false.
Proof.
  split; [apply dap0_entries|]. split; [split; reflexivity|]. split; [|split; [|vm_compute; auto]].
  - intros n x Hn. replace (avtab_map_list (ap_te dap0)) with [mkNode (mkK 4 2 5 1) (mkD 3 None); mkNode (mkK 4 2 5 256) (mkD 0 (Some (dx 1 137 6)))] in Hn by (vm_compute; reflexivity).
    destruct Hn as [<-|[<-|[]]]; cbn [n_datum d_xperms]; [discriminate|]. intros E. injection E as <-. apply dx_ok; lia.
  - intros r Hr. cbn [skipn dgood In] in Hr. assert (R : rule_ok r /\ one_flag r /\ self_alone r) by (apply drule_ok; cbn [dgood In]; intuition).
    destruct R as (R1 & R2 & R3). destruct Hr as [<-|[<-|[<-|[]]]]; (split; [reflexivity|]); (split; [exact R1|]); (split; [exact R2|]); (split; [exact R3|]); (split; [apply dx_ok; lia|vm_compute; reflexivity]).
Qed.

(** Refuted for extended rules with [self] and other targets too. *)
Theorem C20_xperm_self_and_targets_refuted : exists P r, sets_ok P /\ wf (ap_te P) /\ maps_agree P /\ entries_ok P /\ unconditional P /\
  extended r /\ rule_ok r /\ one_flag r /\ report_errors P r < 2147483648 /\ xviolated_by P (avtab_map_list (ap_te P)) r /\ check_assertions P [r] 0 = true.
Proof.
  exists dap0, (mkNA 2048 1 (demo_set [0]) (demo_set [1]) [(5, 1)] (dx 1 137 4)).
  split; [apply dap_sets|]. split; [apply dap_wf|]. split; [apply dap_maps|]. split; [apply dap0_entries|]. split; [split; reflexivity|]. split; [reflexivity|].
  split; [split; cbn [na_s na_t]; vset|]. split; [right; left; reflexivity|]. split; [vm_compute; reflexivity|]. split; [|vm_compute; reflexivity].
  exists (mkNode (mkK 4 2 5 1) (mkD 3 None)), 0, 1, 5, 0. split; [vm_compute; auto|]. split.
  - split; [apply (demo_in _ [0]); [vset|vm_compute; reflexivity|left; reflexivity]|]. left. split; [discriminate|]. left. apply (demo_in _ [1]); [vset|vm_compute; reflexivity|left; reflexivity].
  - split; [exists 1; split; [left; reflexivity|reflexivity]|]. split.
    + split; [reflexivity|]. split; [reflexivity|]. cbn [dap0 ap_attr n_key k_src k_tgt]. rewrite !dattr_in. split; [lia|]. split; [lia|reflexivity].
    + right. exists (mkNode (mkK 4 2 5 256) (mkD 0 (Some (dx 1 137 6)))), (dx 1 137 6), KIoctl, 35074. split; [vm_compute; auto|]. split.
      * split; [reflexivity|]. split; [reflexivity|]. cbn [dap0 ap_attr n_key k_src k_tgt]. rewrite !dattr_in. split; [lia|]. split; [lia|]. split; [reflexivity|]. left. reflexivity.
      * split; left; repeat split.
Qed.
Print Assumptions C20_xperm_self_and_targets_refuted.
