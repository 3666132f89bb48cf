(** Property theorems: SIDs and policy loading. *)
From Verif Require Import Base EbitmapModel EbitmapSpec MlsModel MlsSpec MlsDemo ContextModel AvtabModel SidtabModel SidtabSpec
  SidtabProofs LoadProofs LoadDemo.
From Coq Require Import Sorted.

(** C23. Any history of initial-SID insertions and context-to-SID requests: every SID ever assigned still maps to
    exactly the context it was assigned to (so no SID serves two contexts), none is 0, and an unassigned SID maps
    to the unlabeled context. *)
Theorem C23_stable_and_unique : forall l, Forall sane_op l ->
  exists s tr, trun (sidtab_init true) [] l = ROk (s, tr) /\
    (forall sid c, assigned tr sid c -> 1 <= sid /\ sid < 4294967295 /\ sidtab_search s sid = Some c) /\
    (forall sid c d, assigned tr sid c -> assigned tr sid d -> c = d) /\
    (forall sid, (forall c, ~ assigned tr sid c) -> sidtab_search s sid = sidtab_search s SECINITSID_UNLABELED).
Proof. exact stable_and_unique. Qed.
Print Assumptions C23_stable_and_unique.

Example C23_case : Forall sane_op dops /\ sidtab_search dtab 8 = Some (dctx 3 [1; 199]) /\
  sidtab_search dtab 7 = Some (dctx 1 [4]) /\ sidtab_search dtab 100 = Some (dctx 1 []).
Proof. split; [repeat constructor; cbn; lia|]. vm_compute. auto. Qed.

(** C23. A request fails only when memory or the numbers are used up, and then changes nothing. *)
Theorem C23_requests_succeed : forall l s tr c mem, Forall sane_op l ->
  trun (sidtab_init true) [] l = ROk (s, tr) ->
  exists s' r sid, context_to_sid s c mem = ROk (s', (r, sid)) /\
    (r = TOk \/ (r = TNomem /\ s' = s /\ (mem = false \/ exists d, assigned tr 4294967294 d))) /\
    (r = TOk -> 1 <= sid /\ sid < 4294967295 /\ sidtab_search s' sid = Some c).
Proof. exact requests_succeed. Qed.
Print Assumptions C23_requests_succeed.

Example C23_exhausted_case :
  exists s tr, trun (sidtab_init true) [] [TInsert 4294967294 (dctx 1 []) true] = ROk (s, tr) /\
    context_to_sid s (dctx 3 []) true = ROk (s, (TNomem, 0)).
Proof. eexists. eexists. split; [vm_compute; reflexivity|vm_compute; reflexivity]. Qed.

(** C23, the part on equal contexts: the same SID again, whatever happened in between, as long as the context was
    not explicitly inserted under another SID meanwhile. *)
Theorem C23_same_context_same_sid_partial : forall l1 l2 c m1 m2 s1 tr1 s2 sid1 s3 tr3,
  Forall sane_op l1 -> Forall sane_op l2 -> (forall i m, ~ In (TInsert i c m) l2) ->
  trun (sidtab_init true) [] l1 = ROk (s1, tr1) ->
  context_to_sid s1 c m1 = ROk (s2, (TOk, sid1)) ->
  trun s2 [] l2 = ROk (s3, tr3) ->
  exists s4, context_to_sid s3 c m2 = ROk (s4, (TOk, sid1)).
Proof. exact same_context. Qed.
Print Assumptions C23_same_context_same_sid_partial.

Example C23_same_context_case :
  exists s1 tr1 s2 s3 tr3, trun (sidtab_init true) [] dops = ROk (s1, tr1) /\
    context_to_sid s1 (dctx 3 [17]) true = ROk (s2, (TOk, 10)) /\
    trun s2 [] [TToSid (dctx 1 [1; 2]) true; TInsert 200 (dctx 3 [2]) true; TToSid (dctx 1 [1; 3]) false] = ROk (s3, tr3) /\
    context_to_sid s3 (dctx 3 [17]) false = ROk (s3, (TOk, 10)).
Proof. do 5 eexists. split; [vm_compute; reflexivity|]. split; [vm_compute; reflexivity|]. split; vm_compute; reflexivity. Qed.

(** C23, refuted without that condition: after an explicit insertion the same context gets another SID. *)
Theorem C23_same_context_refuted : exists c l s sid1 sid2,
  Forall sane_op l /\ trun (sidtab_init true) [] l = ROk (s, [(TToSid c true, (TOk, sid2)); (TInsert 128 c true, (TOk, 128)); (TToSid c true, (TOk, sid1))]) /\
  sid1 <> sid2.
Proof.
  exists (dctx 1 []), [TToSid (dctx 1 []) true; TInsert 128 (dctx 1 []) true; TToSid (dctx 1 []) true].
  eexists. exists 1, 128. split; [repeat constructor; cbn; lia|]. split; [vm_compute; reflexivity|lia].
Qed.
Print Assumptions C23_same_context_refuted.

(** C23, refuted for the largest initial SID: the counter wraps, the next request is given SID 0 (the null SID) as a
    success, and asking again gives yet another SID. *)
Theorem C23_wrap_refuted : exists c d s,
  trun (sidtab_init true) [] [TInsert 4294967295 c true; TToSid d true; TToSid d true] =
  ROk (s, [(TToSid d true, (TOk, 1)); (TToSid d true, (TOk, 0)); (TInsert 4294967295 c true, (TOk, 4294967295))]).
Proof. exists (dctx 1 []), (dctx 3 []). eexists. vm_compute. reflexivity. Qed.
Print Assumptions C23_wrap_refuted.

(** C42, the provable part: a load that fails after the image could be read keeps the policy, the mode, and every
    SID-to-context answer; a load refused because of changed classes changes nothing at all. Missing: images that
    cannot be read and allocation failures while cloning (refuted below). *)
Theorem C42_failed_load_partial : forall S old new tab_ok clone_mem conv_mem,
  sv_pol S = Some old -> well_built (sv_sids S) ->
  policy_canonical (lp_policy new) -> cats_small (lp_policy new) ->
  (forall sid c, holds (sv_sids S) sid c -> valid_mrange (c_range c) /\ context_named (lp_policy old) c) ->
  exists S' ok, load_policy S true tab_ok clone_mem conv_mem (Some new) = ROk (S', ok) /\
    (ok = false ->
      sv_pol S' = sv_pol S /\ sv_enf S' = sv_enf S /\
      (forall sid, sidtab_search (sv_sids S') sid = sidtab_search (sv_sids S) sid) /\
      (forall sid c m, holds (sv_sids S) sid c -> context_to_sid (sv_sids S) c m = ROk (sv_sids S, (TOk, sid)) ->
         context_to_sid (sv_sids S') c m = ROk (sv_sids S', (TOk, sid))) /\
      (tab_ok = true -> (forall sid, clone_mem sid = true) -> S' = S)).
Proof. exact failed_load. Qed.
Print Assumptions C42_failed_load_partial.

Example C42_case :
  sv_pol dserver = Some (mkLP demo dclasses) /\ well_built (sv_sids dserver) /\ policy_canonical demo2 /\ cats_small demo2 /\
  (forall sid c, holds (sv_sids dserver) sid c -> valid_mrange (c_range c) /\ context_named demo c) /\
  load_policy dserver true true (fun _ => true) (fun _ => true) (Some (mkLP demo2 [])) = ROk (dserver, false).
Proof.
  split; [reflexivity|]. split; [apply inv_built, dtab_inv|]. split; [exact demo2_canonical|]. split; [exact demo2_small|].
  split; [exact dserver_contexts|]. vm_compute. reflexivity.
Qed.

(** C42, refuted: an unreadable image destroys the policy in force. *)
Theorem C42_unreadable_image_refuted : forall S tab_ok clone_mem conv_mem,
  exists S', load_policy S true tab_ok clone_mem conv_mem None = ROk (S', false) /\ sv_pol S' = None.
Proof. intros. eexists. split; [reflexivity|reflexivity]. Qed.
Print Assumptions C42_unreadable_image_refuted.

(** C42, refuted: when memory runs out while the SIDs are cloned, the old table stays shut down: a context that
    could be given a SID before the load is refused one for ever after. *)
Theorem C42_clone_failure_refuted : exists S new clone_mem S' c,
  (exists S1, context_to_sid (sv_sids S) c true = ROk (S1, (TOk, 10))) /\
  load_policy S true true clone_mem (fun _ => true) (Some new) = ROk (S', false) /\
  forall l s tr, Forall sane_op l -> (forall i m, ~ In (TInsert i c m) l) -> trun (sv_sids S') [] l = ROk (s, tr) ->
    context_to_sid s c true = ROk (s, (TNomem, 0)).
Proof. exact clone_failure. Qed.
Print Assumptions C42_clone_failure_refuted.

(** C54. After a successful load a SID maps to exactly the context its names denote under the new policy, if every
    name still exists and (in enforcing mode) the result is authorised; otherwise (or when memory ran out for it)
    it is dropped and maps to the unlabeled context. *)
Theorem C54_contexts_converted : forall S old new tab_ok clone_mem conv_mem S',
  sv_pol S = Some old -> well_built (sv_sids S) ->
  policy_canonical (lp_policy new) -> cats_small (lp_policy new) ->
  (forall sid c, holds (sv_sids S) sid c -> valid_mrange (c_range c) /\ context_named (lp_policy old) c) ->
  load_policy S true tab_ok clone_mem conv_mem (Some new) = ROk (S', true) ->
  sv_pol S' = Some new /\ sv_enf S' = sv_enf S /\
  (forall sid c, holds (sv_sids S) sid c ->
     (forall c', conv_mem sid = true -> renamed (lp_policy old) (lp_policy new) c c' ->
        (context_authorised (lp_policy new) c' \/ sv_enf S = false) -> sidtab_search (sv_sids S') sid = Some c') /\
     ((conv_mem sid = false \/
       forall c', renamed (lp_policy old) (lp_policy new) c c' -> ~ context_authorised (lp_policy new) c' /\ sv_enf S = true) ->
        sidtab_search (sv_sids S') sid = sidtab_search (sv_sids S') SECINITSID_UNLABELED)) /\
  (forall sid c', holds (sv_sids S') sid c' -> exists c, holds (sv_sids S) sid c).
Proof. exact contexts_converted. Qed.
Print Assumptions C54_contexts_converted.

Example C54_case :
  sv_pol dserver = Some (mkLP demo dclasses) /\ well_built (sv_sids dserver) /\ policy_canonical demo2 /\ cats_small demo2 /\
  (forall sid c, holds (sv_sids dserver) sid c -> valid_mrange (c_range c) /\ context_named demo c) /\
  exists S', load_policy dserver true true (fun _ => true) (fun _ => true) (Some (mkLP demo2 dclasses)) = ROk (S', true) /\
    holds (sv_sids dserver) 8 (dctx 3 [1; 199]) /\ sidtab_search (sv_sids S') 8 = Some (dctx 1 [0; 198]) /\
    holds (sv_sids dserver) 9 (dctx 2 [5]) /\ sidtab_search (sv_sids S') 9 = Some (dctx 3 []) /\
    sidtab_search (sv_sids S') 3 = Some (dctx 3 []).
Proof.
  split; [reflexivity|]. split; [apply inv_built, dtab_inv|]. split; [exact demo2_canonical|]. split; [exact demo2_small|].
  split; [exact dserver_contexts|]. eexists. split; [vm_compute; reflexivity|]. rewrite !holds_entries. cbn [sv_sids dserver].
  rewrite dtab_entries. split; [cbn [In]; auto|]. split; [vm_compute; reflexivity|]. split; [cbn [In]; auto|]. split; vm_compute; reflexivity.
Qed.

(** C54. A load succeeds only if every class and permission of the old policy keeps its number. *)
Theorem C54_classes_kept : forall S old new tab_ok clone_mem conv_mem S',
  sv_pol S = Some old -> load_policy S true tab_ok clone_mem conv_mem (Some new) = ROk (S', true) ->
  forall c, In c (lp_classes old) -> exists c', In c' (lp_classes new) /\ cd_name c' = cd_name c /\ cd_value c' = cd_value c /\
    (forall nm v, In (nm, v) (cd_perms c) -> In (nm, v) (cd_perms c')) /\
    (forall ps nm v, cd_common c = Some ps -> In (nm, v) ps -> exists ps', cd_common c' = Some ps' /\ In (nm, v) ps').
Proof. exact classes_kept. Qed.
Print Assumptions C54_classes_kept.

(** C54. Right after a load no number that was in use before is given to another context... *)
Theorem C54_numbers_not_reused_partial : forall S old new clone_mem conv_mem S',
  sv_pol S = Some old -> well_built (sv_sids S) ->
  policy_canonical (lp_policy new) -> cats_small (lp_policy new) ->
  (forall sid c, holds (sv_sids S) sid c -> valid_mrange (c_range c) /\ context_named (lp_policy old) c) ->
  load_policy S true true clone_mem conv_mem (Some new) = ROk (S', true) ->
  well_built (sv_sids S') /\
  forall l s tr, trun (sv_sids S') [] (map (fun c => TToSid c true) l) = ROk (s, tr) ->
    forall c sid, In (TToSid c true, (TOk, sid)) tr -> ~ holds (sv_sids S') sid c ->
    forall d, ~ holds (sv_sids S) sid d.
Proof. exact numbers_not_reused. Qed.
Print Assumptions C54_numbers_not_reused_partial.

(** ... but after a second load it is: a SID dropped by the first load is handed out again for another context. *)
Theorem C54_numbers_reused_refuted : exists S S1 S2 s3 new c d,
  holds (sv_sids S) 9 c /\
  load_policy S true true (fun _ => true) (fun _ => true) (Some new) = ROk (S1, true) /\
  load_policy S1 true true (fun _ => true) (fun _ => true) (Some new) = ROk (S2, true) /\
  context_to_sid (sv_sids S2) d true = ROk (s3, (TOk, 9)) /\
  ~ renamed demo demo2 c d.
Proof. exact numbers_reused. Qed.
Print Assumptions C54_numbers_reused_refuted.
