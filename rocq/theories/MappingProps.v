(** Property theorems for the class and permission mapping and for selinux_check_access (C33, C53). *)
From Verif Require Import Base MlsModel AvtabModel AvcModel AvcSpec AvcProofs AvcProps MappingModel MappingSpec MappingProofs.

(** C33. After any history of lookups, mappings and policy loads, once an object manager's table is
    installed: a query about its n-th class (known to the policy) asks the kernel about that class and the
    requested permissions the policy knows, and permission i of the answer is the kernel's for the permission
    named at position i - or the policy's handling of unknown permissions for a name it lacks. Nothing beyond
    the table is allowed, and it is always audited when denied. *)
Theorem C33_known_class : forall K0 l K S r rej t S' n cname ps k deny ks req,
  kernel_ok K0 -> loads_ok l -> mrun (K0, ms0) l = (K, S) ->
  set_mapping K true r rej S (Some t) = (S', S0) ->
  nth_error t n = Some (cname, ps) -> class_named K cname k ->
  exists kreq,
    (forall b, N.testbit kreq (N.of_nat b) = true <->
       exists i p, N.testbit req (N.of_nat i) = true /\ nth_error ps i = Some p /\ perm_numbered k p b) /\
    match ks (kc_value k) kreq with
    | AnsAvd d =>
        exists d', compute_av_flags S' deny ks (N.of_nat (Datatypes.S n)) req = AnsAvd d' /\
          ad_seqno d' = ad_seqno d /\ ad_flags d' = ad_flags d /\
          (forall i p, nth_error ps i = Some p ->
             has_named k (ad_allowed d) (negb deny) p (N.testbit (ad_allowed d') (N.of_nat i)) /\
             has_named k (ad_decided d) (negb deny) p (N.testbit (ad_decided d') (N.of_nat i)) /\
             has_named k (ad_auditallow d) false p (N.testbit (ad_auditallow d') (N.of_nat i)) /\
             has_named k (ad_auditdeny d) deny p (N.testbit (ad_auditdeny d') (N.of_nat i))) /\
          (forall i, (length ps <= i)%nat ->
             N.testbit (ad_allowed d') (N.of_nat i) = false /\ N.testbit (ad_decided d') (N.of_nat i) = false /\
             N.testbit (ad_auditallow d') (N.of_nat i) = false /\ N.testbit (ad_auditdeny d') (N.of_nat i) = Nat.ltb i 32)
    | a => compute_av_flags S' deny ks (N.of_nat (Datatypes.S n)) req = a
    end.
Proof.
  intros K0 l K S r rej t S' n cname ps k deny ks req HK0 L R E T Hk.
  destruct (mrun_inv l K0 ms0 K S L HK0 (Forall_nil _) R) as [HK C].
  destruct (set_mapping_spec K S r rej t S' HK C E) as (L32 & _ & (m & M & F) & _).
  assert (CK : class_ok k) by (destruct HK as (_ & _ & G); exact (proj1 (Forall_forall _ _) G k (proj1 Hk))).
  destruct (forall2_nth _ _ _ _ _ F T) as (e & Ee & X).
  assert (e = mkME (kc_value k) (map (kvec k) ps)) as ->.
  { destruct X as [(k' & H & ->)|[H _]]; [|exfalso; exact (H k Hk)]. cbn [fst snd] in *.
    assert (k' = k) as ->; [|reflexivity]. apply (nodup_map_eq kc_name K); [apply HK|apply H|apply Hk|destruct H, Hk; congruence]. }
  assert (L1 : (length ps <= 32)%nat). { apply (L32 (cname, ps)). eapply nth_error_In. exact T. }
  exists (unmap_loop 0 (map (kvec k) ps) req 0). split.
  - intros b. rewrite unmap_loop_bit. split.
    + intros [H|(i & q & H1 & H2 & H3)]; [rewrite N.bits_0 in H; discriminate|].
      rewrite nth_error_map in H1. destruct (nth_error ps i) as [p|] eqn:P; [|discriminate]. injection H1 as <-.
      exists i, p. split; [exact H2|split; [exact P|apply (kvec_bit k p b CK); exact H3]].
    + intros (i & p & H1 & H2 & H3). right. exists i, (kvec k p). split; [rewrite nth_error_map, H2; reflexivity|].
      split; [exact H1|apply (kvec_bit k p b CK); exact H3].
  - unfold compute_av_flags, unmap_class, unmap_perm. rewrite M, !Nat2N.id. cbn [nth_error]. rewrite Ee. cbn [me_value me_perms].
    destruct (ks (kc_value k) _) as [d| |]; [|reflexivity|reflexivity].
    destruct (N.eqb_spec (kc_value k) 0) as [Z|_]; [exfalso; destruct CK; contradiction|].
    unfold map_decision. rewrite !Nat2N.id. cbn [nth_error]. rewrite Ee. cbn [me_perms]. cbv zeta.
    eexists. split; [reflexivity|]. cbn [ad_seqno ad_flags ad_allowed ad_decided ad_auditallow ad_auditdeny].
    split; [reflexivity|split; [reflexivity|]].
    assert (B : forall v u i, N.testbit (vector_loop 0 (map (kvec k) ps) v u 0) (N.of_nat i) =
      match nth_error ps i with Some p => negb (N.land v (kvec k p) =? 0) || (u && (kvec k p =? 0)) | None => false end).
    { intros v u i. rewrite vector_loop_bit, N.bits_0, N.sub_0_r, Nat2N.id, nth_error_map. assert (0 <=? N.of_nat i = true) as -> by lia. destruct (nth_error ps i); reflexivity. }
    split.
    + intros i p P. rewrite !B, P. split; [apply kvec_has_named; exact CK|]. split; [apply kvec_has_named; exact CK|]. split; [apply (kvec_has_named k _ false p CK)|].
      rewrite beyond_bit, B, P, map_length. assert (i < length ps)%nat by (apply nth_error_Some; congruence).
      assert (N.of_nat (length ps) <=? N.of_nat i = false) as -> by lia. cbn [andb]. rewrite orb_false_r. apply kvec_has_named; exact CK.
    + intros i Q. assert (P : nth_error ps i = None) by (apply nth_error_None; exact Q). rewrite !B, P.
      split; [reflexivity|split; [reflexivity|split; [reflexivity|]]]. rewrite beyond_bit, B, P, map_length. cbn [orb]. lia.
Qed.
Print Assumptions C33_known_class.

(** C33. A class of the table the policy lacks, class 0 and a class beyond the table are asked about as
    class 0 and the kernel's answer is given unchanged. *)
Theorem C33_other_class : forall K0 l K S r rej t S' c deny ks req,
  kernel_ok K0 -> loads_ok l -> mrun (K0, ms0) l = (K, S) ->
  set_mapping K true r rej S (Some t) = (S', S0) ->
  (forall n cname ps, c = N.of_nat (Datatypes.S n) -> nth_error t n = Some (cname, ps) -> forall k, ~ class_named K cname k) ->
  compute_av_flags S' deny ks c req = ks 0 0.
Proof.
  intros K0 l K S r rej t S' c deny ks req HK0 L R E H.
  destruct (mrun_inv l K0 ms0 K S L HK0 (Forall_nil _) R) as [HK C].
  destruct (set_mapping_spec K S r rej t S' HK C E) as (L32 & _ & (m & M & F) & _).
  assert (X : unmap_class (ms_map S') c = 0 /\ unmap_perm (ms_map S') c req = 0).
  { unfold unmap_class, unmap_perm. rewrite M. destruct (N.to_nat c) as [|n] eqn:Q; [split; reflexivity|]. cbn [nth_error].
    destruct (nth_error t n) as [[cname ps]|] eqn:T.
    - destruct (forall2_nth _ _ _ _ _ F T) as (e & -> & [(k & Hk & _)|[_ ->]]); [|split; reflexivity].
      exfalso. assert (Qc : c = N.of_nat (Datatypes.S n)) by lia. exact (H n cname ps Qc T k Hk).
    - assert (nth_error m n = None) as ->; [|split; reflexivity]. apply nth_error_None. apply nth_error_None in T. rewrite <- (forall2_len _ _ _ F). exact T. }
  destruct X as [X1 X2]. unfold compute_av_flags. rewrite X1, X2. destruct (ks 0 0); reflexivity.
Qed.
Print Assumptions C33_other_class.

(** C33. Names and numbers agree: with distinct class names and, in the class, distinct permission names, the
    library's numbers for the names are the positions in the table, and unmapping then mapping back is the
    identity on classes and on sets of permissions known to the policy. *)
Theorem C33_names_and_round_trip : forall K0 l K S r rej t S' n cname ps k,
  kernel_ok K0 -> loads_ok l -> mrun (K0, ms0) l = (K, S) ->
  set_mapping K true r rej S (Some t) = (S', S0) ->
  NoDup (map fst t) -> nth_error t n = Some (cname, ps) -> NoDup ps -> class_named K cname k ->
  let c := N.of_nat (Datatypes.S n) in
  (forall ok, string_to_class K ok S' cname = (S', c)) /\
  (forall i p b, nth_error ps i = Some p -> perm_numbered k p b -> string_to_perm S' c p = N.shiftl 1 (N.of_nat i)) /\
  map_class (ms_map S') (unmap_class (ms_map S') c) = c /\
  (forall req, (forall i, N.testbit req i = true -> exists p b, nth_error ps (N.to_nat i) = Some p /\ perm_numbered k p b) ->
     map_perm (ms_map S') c (unmap_perm (ms_map S') c req) = req).
Proof.
  intros K0 l K S r rej t S' n cname ps k HK0 L R E ND T NDp Hk c.
  destruct (mrun_inv l K0 ms0 K S L HK0 (Forall_nil _) R) as [HK C].
  destruct (set_mapping_spec K S r rej t S' HK C E) as (L32 & C' & (m & M & F) & Cached).
  assert (CK : class_ok k) by (destruct HK as (_ & _ & G); exact (proj1 (Forall_forall _ _) G k (proj1 Hk))).
  destruct (forall2_nth _ _ _ _ _ F T) as (e & Ee & X).
  assert (e = mkME (kc_value k) (map (kvec k) ps)) as ->.
  { destruct X as [(k' & H & ->)|[H _]]; [|exfalso; exact (H k Hk)]. cbn [fst snd] in *.
    assert (k' = k) as ->; [|reflexivity]. apply (nodup_map_eq kc_name K); [apply HK|apply H|apply Hk|destruct H, Hk; congruence]. }
  assert (First : forall n' ps', (n' < n)%nat -> nth_error t n' <> Some (cname, ps')).
  { intros n' ps' Q T'. assert (n' = n); [|lia]. apply (proj1 (NoDup_nth_error (map fst t)) ND).
    - rewrite map_length. apply nth_error_Some. congruence.
    - rewrite !nth_error_map, T, T'. reflexivity. }
  pose proof (class_number K t m n cname ps k HK F T Hk First) as CN. rewrite <- M in CN. fold c in CN.
  assert (Ik : In k (ms_cache S')) by (eapply Cached; [eapply nth_error_In; exact T|exact Hk]).
  assert (Nc : nth_error (ms_map S') (N.to_nat c) = Some (mkME (kc_value k) (map (kvec k) ps))).
  { unfold c. rewrite M, Nat2N.id. exact Ee. }
  split; [|split; [|split]].
  - intros ok. unfold string_to_class. destruct (entry_name (ms_cache S') cname) as [k'|] eqn:D.
    + apply entry_name_in in D. destruct D as [D1 D2].
      assert (k' = k) as ->. { apply (nodup_map_eq kc_name K); [apply HK|exact (proj1 (Forall_forall _ _) C' k' D1)|apply Hk|destruct Hk; congruence]. }
      rewrite CN. reflexivity.
    + exfalso. exact (entry_name_none _ _ _ D Ik (proj2 Hk)).
  - intros i p b P Hb. unfold string_to_perm, unmap_class. rewrite Nc. cbn [me_value]. rewrite (entry_value_found K _ k HK C' Ik).
    pose proof (perm_index_numbered k p CK) as Q. destruct (perm_index 0 (kc_perms k) p) as [j|].
    + destruct Q as [Q _]. unfold map_perm. rewrite Nc. cbn [me_perms]. replace j with (N.of_nat (N.to_nat j)) by lia. apply (perm_number k ps i p CK NDp P _ Q).
    + exfalso. apply Q. eapply nth_error_In. exact Hb.
  - unfold unmap_class. rewrite Nc. exact CN.
  - intros req H. unfold map_perm, unmap_perm. rewrite Nc. cbn [me_perms]. exact (round_trip_perms k ps req CK NDp H).
Qed.
Print Assumptions C33_names_and_round_trip.

(** Two classes; the manager's table lists them in its own order, with a permission and a class the policy
    lacks. The kernel allows permissions 1 and 3 of class 6. *)
Definition mfile : kclass := mkKC [102] 6 [Some [114]; Some [119]; Some [120]].
Definition mdir : kclass := mkKC [100] 7 [Some [115]].
Definition mtable : list (list N * list (list N)) := [([100], [[115]]); ([122], [[97]]); ([102], [[120]; [113]; [114]; [119]])].
Definition mkern (c req : N) : answer := if c =? 6 then AnsAvd (mkAD 5 4294967295 0 4294967295 1 0) else AnsEinval.
Example C33_case :
  kernel_ok [mfile; mdir] /\
  let '(S', r) := set_mapping [mfile; mdir] true true false ms0 (Some mtable) in
  r = S0 /\ ms_map S' = [mkME 0 []; mkME 7 [1]; mkME 0 []; mkME 6 [4; 0; 1; 2]] /\
  compute_av_flags S' true mkern 3 15 = AnsAvd (mkAD 5 13 0 4294967295 1 0) /\
  compute_av_flags S' false mkern 3 15 = AnsAvd (mkAD 7 15 0 4294967293 1 0).
Proof.
  split; [|vm_compute; repeat split; reflexivity].
  assert (A : class_ok mfile). { split; [vm_compute; discriminate|split; [reflexivity|split; [intros [H|[]]; discriminate|]]].
    exists [[114]; [119]; [120]]. split; [reflexivity|split; [|split; [intros [H|[H|[H|[]]]]; discriminate|cbn; lia]]].
    repeat constructor; cbn; intuition discriminate. }
  assert (B : class_ok mdir). { split; [vm_compute; discriminate|split; [reflexivity|split; [intros [H|[]]; discriminate|]]].
    exists [[115]]. split; [reflexivity|split; [|split; [intros [H|[]]; discriminate|cbn; lia]]]. repeat constructor; cbn; intuition. }
  split; [|split; [|constructor; [exact A|constructor; [exact B|constructor]]]]; repeat constructor; cbn; intuition discriminate.
Qed.

(** C33 holds of the policy the table was made for only: after a policy load that renumbers the permissions, a
    table that is not installed again answers for the wrong permission (the manual asks for a callback). *)
Theorem C33_after_load_refuted : exists K K' t S' n cname ps i p k d,
  kernel_ok K /\ kernel_ok K' /\ mrun (K, ms0) [MSet true true false (Some t); MLoad K'] = (K', S') /\
  nth_error t n = Some (cname, ps) /\ nth_error ps i = Some p /\ class_named K' cname k /\
  compute_av_flags S' true (fun _ _ => AnsAvd (mkAD 2 4294967295 0 4294967295 1 0)) (N.of_nat (Datatypes.S n)) 1 = AnsAvd d /\
  ~ has_named k 2 false p (N.testbit (ad_allowed d) (N.of_nat i)).
Proof.
  exists [mkKC [102] 6 [Some [114]; Some [119]]], [mkKC [102] 6 [Some [119]; Some [114]]], [([102], [[114]])].
  exists (mkMS [] [mkME 0 []; mkME 6 [1]]), 0%nat, [102], [[114]], 0%nat, [114], (mkKC [102] 6 [Some [119]; Some [114]]).
  exists (mkAD 0 1 0 4294967295 1 0).
  assert (A : forall x y, x <> y -> x <> [] -> y <> [] -> class_ok (mkKC [102] 6 [Some x; Some y])).
  { intros x y NE Nx Ny. split; [vm_compute; discriminate|split; [reflexivity|split; [intros [H|[]]; discriminate|]]].
    exists [x; y]. split; [reflexivity|split; [|split; [intros [H|[H|[]]]; congruence|cbn; lia]]].
    constructor; [intros [H|[]]; congruence|constructor; [intros []|constructor]]. }
  split. { split; [repeat constructor; intros []|split; [repeat constructor; intros []|constructor; [apply A; discriminate|constructor]]]. }
  split. { split; [repeat constructor; intros []|split; [repeat constructor; intros []|constructor; [apply A; discriminate|constructor]]]. }
  split; [vm_compute; reflexivity|]. split; [reflexivity|split; [reflexivity|split; [split; [left; reflexivity|reflexivity]|]]].
  split; [vm_compute; reflexivity|]. cbn [ad_allowed]. intros H. change (N.testbit 0 (N.of_nat 0)) with false in H. remember false as f eqn:Ef in H at 2.
  destruct H as [b Hb|Hu].
  - destruct b as [|[|[|b]]]; vm_compute in Hb; try discriminate Hb. vm_compute in Ef. discriminate Ef.
  - apply Hu. right. left. reflexivity.
Qed.
Print Assumptions C33_after_load_refuted.

(** C33. With unknown permissions denied, the answer for a name the policy lacks (or a bit beyond the table)
    is not marked as decided, although the kernel decides everything: the cache will never reuse it. *)
Theorem C33_unknown_never_decided : exists K t S' d,
  kernel_ok K /\ set_mapping K true true false ms0 (Some t) = (S', S0) /\
  compute_av_flags S' true (fun _ _ => AnsAvd (mkAD 3 4294967295 0 4294967295 1 0)) 1 2 = AnsAvd d /\
  decides d 2 = false.
Proof.
  exists [mdir], [([100], [[115]; [97]])], (mkMS [mdir] [mkME 0 []; mkME 7 [1; 0]]), (mkAD 1 1 0 4294967295 1 0).
  split; [|vm_compute; repeat split; reflexivity].
  assert (B : class_ok mdir). { split; [vm_compute; discriminate|split; [reflexivity|split; [intros [H|[]]; discriminate|]]].
    exists [[115]]. split; [reflexivity|split; [|split; [intros [H|[]]; discriminate|cbn; lia]]]. repeat constructor; cbn; intuition. }
  split; [|split; [|constructor; [exact B|constructor]]]; repeat constructor; cbn; intuition discriminate.
Qed.
Print Assumptions C33_unknown_never_decided.

(** C53. selinux_check_access by names, without a mapping: a known class and permission are checked by their
    policy numbers, unknown ones by the policy's handling of unknown permissions, a disabled SELinux allows, and a context for
    which no SID can be made is refused. *)
Theorem C53_check_access : forall K0 l K S deny s t cname pname,
  kernel_ok K0 -> loads_ok l -> Forall (fun o => match o with MSet _ _ _ _ => False | _ => True end) l ->
  mrun (K0, ms0) l = (K, S) ->
  (forall k b, class_named K cname k -> perm_numbered k pname b ->
     snd (check_access K true true deny S (Some s) (Some t) cname pname) = CaCheck s t (kc_value k) (N.shiftl 1 (N.of_nat b))) /\
  ((forall k, class_named K cname k -> perm_unknown k pname) ->
     snd (check_access K true true deny S (Some s) (Some t) cname pname) = CaResult (negb deny)) /\
  (forall ok scon tcon, snd (check_access K ok false deny S scon tcon cname pname) = CaResult true) /\
  (forall ok scon tcon, scon = None \/ tcon = None -> snd (check_access K ok true deny S scon tcon cname pname) = CaResult false).
Proof.
  intros K0 l K S deny s t cname pname HK0 L NS R.
  destruct (mrun_inv l K0 ms0 K S L HK0 (Forall_nil _) R) as [HK C].
  assert (M : ms_map S = []).
  { assert (G : forall l x y, Forall (fun o => match o with MSet _ _ _ _ => False | _ => True end) l -> ms_map (snd x) = [] -> mrun x l = y -> ms_map (snd y) = []).
    { clear. intros l. induction l as [|o l IH]; intros x y F E R; [unfold mrun in R; cbn in R; subst; exact E|].
      inversion F as [|? ? F1 F2]; subst. unfold mrun. cbn [fold_left]. eapply IH; [exact F2| |reflexivity].
      destruct o as [ok q|ok r rej q|K1]; [cbn [mstep snd]; rewrite to_class_map; exact E|destruct F1|exact E]. }
    exact (G l (K0, ms0) (K, S) NS eq_refl R). }
  split; [|split; [|split; [intros; reflexivity|intros ok scon tcon [-> | ->]; [reflexivity|destruct scon; reflexivity]]]].
  - intros k b Hk Hb. assert (CK : class_ok k) by (destruct HK as (_ & _ & G); exact (proj1 (Forall_forall _ _) G k (proj1 Hk))).
    destruct (to_class_known K S cname k HK C Hk) as [V Ik]. pose proof (to_class_consistent K true S cname C) as C1.
    pose proof (to_class_map K true S cname) as M1. unfold check_access. cbn [negb].
    destruct (string_to_class K true S cname) as [S1 v]. cbn [fst snd] in *. rewrite M in M1, V. change (map_class [] (kc_value k)) with (kc_value k) in V. subst v.
    destruct (N.eqb_spec (kc_value k) 0) as [Z|_]; [exfalso; destruct CK; contradiction|]. cbv zeta.
    rewrite (to_perm_raw K S1 k pname HK C1 Ik M1). destruct (kvec_numbered k pname b CK Hb) as [-> _].
    destruct (N.eqb_spec (N.shiftl 1 (N.of_nat b)) 0) as [Z|_]; [exfalso; exact (shiftl1_nz _ Z)|reflexivity].
  - intros U. unfold check_access. cbn [negb]. destruct (class_dec K cname HK) as [[k Hk]|N].
    + assert (CK : class_ok k) by (destruct HK as (_ & _ & G); exact (proj1 (Forall_forall _ _) G k (proj1 Hk))).
      destruct (to_class_known K S cname k HK C Hk) as [V Ik]. pose proof (to_class_consistent K true S cname C) as C1.
      pose proof (to_class_map K true S cname) as M1.
      destruct (string_to_class K true S cname) as [S1 v]. cbn [fst snd] in *. rewrite M in M1, V. change (map_class [] (kc_value k)) with (kc_value k) in V. subst v.
      destruct (N.eqb_spec (kc_value k) 0) as [Z|_]; [exfalso; destruct CK; contradiction|]. cbv zeta.
      rewrite (to_perm_raw K S1 k pname HK C1 Ik M1). unfold kvec. pose proof (perm_index_numbered k pname CK) as Q.
      destruct (perm_index 0 (kc_perms k) pname) as [j|]; [|reflexivity]. exfalso. apply (U k Hk). eapply nth_error_In. apply Q.
    + rewrite (to_class_unknown K true S cname C N). reflexivity.
Qed.
Print Assumptions C53_check_access.

(** C53. End to end: an enforcing selinux_check_access that reaches the cache and succeeds is backed by an
    answer of the kernel about these SIDs and this class since the last reset, which allowed the permission with
    this name (or marked the domain permissive), or by a grant event. *)
Theorem C53_granted_by_the_kernel : forall K0 l K S deny s t cname pname k b n start fixed al A tr ref ans A' d asked,
  kernel_ok K0 -> loads_ok l -> Forall (fun o => match o with MSet _ _ _ _ => False | _ => True end) l -> mrun (K0, ms0) l = (K, S) ->
  class_named K cname k -> perm_numbered k pname b -> s <> 0 -> t <> 0 ->
  N.of_nat n < 4294967296 -> Forall op_ok al -> arun (asys0 n start fixed) [] al = (A, tr) -> mode start fixed tr = true ->
  forall c av, snd (check_access K true true deny S (Some s) (Some t) cname pname) = CaCheck s t c av ->
  let o := OCheck s t c av ref ans in
  astep A o = (A', OutCheck H0 d asked) ->
  exists d0, In d0 (answers fixed s t (kc_value k) ((o, OutCheck H0 d asked) :: tr)) /\
    (N.testbit (ad_flags d0) 0 = true \/ N.testbit (ad_allowed d0) (N.of_nat b) = true \/
     N.testbit (grants fixed s t (kc_value k) tr) (N.of_nat b) = true).
Proof.
  intros K0 l K S deny s t cname pname k b n start fixed al A tr ref ans A' d asked HK0 L NS R Hk Hb Zs Zt Hn HO E M c av Q o St.
  destruct (C53_check_access K0 l K S deny s t cname pname HK0 L NS R) as [P _]. rewrite (P k b Hk Hb) in Q. injection Q as <- <-.
  assert (b < 32)%nat.
  { destruct (mrun_inv l K0 ms0 K S L HK0 (Forall_nil _) R) as [HK _].
    assert (CK : class_ok k) by (destruct HK as (_ & _ & G); exact (proj1 (Forall_forall _ _) G k (proj1 Hk))). apply (kvec_numbered k pname b CK Hb). }
  assert (Ho : op_ok o).
  { split; [exact Zs|split; [exact Zt|]]. rewrite N.shiftl_1_l. change 4294967296 with (2 ^ 32). apply N.pow_lt_mono_r; lia. }
  destruct (C27_backed_by_an_answer n start fixed al A tr s t (kc_value k) _ ref ans A' d asked Hn HO E Ho M St) as (d0 & I0 & D).
  exists d0. split; [exact I0|]. destruct D as [D|[_ D]]; [left; exact D|right]. apply D. rewrite sh1_bit. apply N.eqb_refl.
Qed.
Print Assumptions C53_granted_by_the_kernel.

Example C53_case :
  snd (check_access [mfile; mdir] true true true ms0 (Some 1) (Some 2) [102] [119]) = CaCheck 1 2 6 2 /\
  snd (check_access [mfile; mdir] true true true ms0 (Some 1) (Some 2) [102] [115]) = CaResult false /\
  snd (check_access [mfile; mdir] true true false ms0 (Some 1) (Some 2) [101] [115]) = CaResult true.
Proof. vm_compute. repeat split; reflexivity. Qed.
