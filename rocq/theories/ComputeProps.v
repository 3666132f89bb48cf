(** Property theorems: labels of new, member and relabelled objects. *)
From Verif Require Import Base EbitmapModel EbitmapSpec EbitmapProofs MlsModel MlsSpec MlsDemo ContextModel AvtabModel AvtabSpec AvtabProofs
  SidtabModel SidtabSpec SidtabProofs LoadDemo ComputeModel ComputeSpec ComputeProofs.

(** C26. Every answered request (create, member, relabel): the SID handed back maps to the context given by the
    documented precedence, and that context is authorised (or the mode is permissive); nothing else in the SID table
    changes its meaning. *)
Theorem C26_label_precedence : forall P tab enf ssid tsid cls rq mem s t sid tab',
  wf (cp_te P) -> wf (cp_cond P) -> cpolicy_canonical P -> well_built tab ->
  sidtab_search tab ssid = Some s -> sidtab_search tab tsid = Some t ->
  valid_mrange (c_range s) -> valid_mrange (c_range t) -> 1 <= cls -> cls <= cp_nclasses P ->
  compute_sid P tab enf ssid tsid cls (rule_code rq) mem = ROk (tab', Some sid) ->
  1 <= sid /\
  (exists c, label_is P rq s t cls c /\ (context_authorised (cp_base P) c \/ enf = false) /\ sidtab_search tab' sid = Some c) /\
  (forall x d, holds tab x d -> sidtab_search tab' x = Some d).
Proof. exact label_precedence. Qed.
Print Assumptions C26_label_precedence.

(** C26. Conversely the request is answered whenever the precedence gives an authorised context (any context in
    permissive mode), memory suffices and numbers are left; a refused request leaves the SID table as it was. *)
Theorem C26_label_complete : forall P tab enf ssid tsid cls rq s t c,
  wf (cp_te P) -> wf (cp_cond P) -> cpolicy_canonical P -> unambiguous P -> well_built tab -> st_shut tab = false -> st_next tab < 4294967295 ->
  sidtab_search tab ssid = Some s -> sidtab_search tab tsid = Some t ->
  valid_mrange (c_range s) -> valid_mrange (c_range t) -> 1 <= cls -> cls <= cp_nclasses P ->
  label_is P rq s t cls c -> (context_authorised (cp_base P) c \/ enf = false) ->
  exists tab' sid, compute_sid P tab enf ssid tsid cls (rule_code rq) true = ROk (tab', Some sid) /\ sidtab_search tab' sid = Some c.
Proof. exact label_complete. Qed.
Print Assumptions C26_label_complete.

(** C26. The precedence determines at most one label. *)
Theorem C26_label_unique : forall P rq s t cls c d,
  wf (cp_te P) -> wf (cp_cond P) -> cpolicy_canonical P -> unambiguous P ->
  valid_mrange (c_range s) -> valid_mrange (c_range t) ->
  label_is P rq s t cls c -> label_is P rq s t cls d -> c = d.
Proof.
  intros P rq s t cls c d W1 W2 CC U Vs Vt Hc Hd.
  destruct (label_fun P rq s t cls c W1 W2 CC U Vs Vt Hc) as (r & E & ->).
  destruct (label_fun P rq s t cls d W1 W2 CC U Vs Vt Hd) as (r' & E' & ->). congruence.
Qed.
Print Assumptions C26_label_unique.

Theorem C26_refused_unchanged : forall P tab enf ssid tsid cls rq mem s t tab',
  wf (cp_te P) -> wf (cp_cond P) -> cpolicy_canonical P -> well_built tab ->
  sidtab_search tab ssid = Some s -> sidtab_search tab tsid = Some t ->
  valid_mrange (c_range s) -> valid_mrange (c_range t) -> 1 <= cls -> cls <= cp_nclasses P ->
  compute_sid P tab enf ssid tsid cls (rule_code rq) mem = ROk (tab', None) -> tab' = tab.
Proof. exact refused_unchanged. Qed.
Print Assumptions C26_refused_unchanged.

(** Demo data, models no code: a permanent and two conditional type transitions (one enabled), a role transition, a
    range transition and class defaults. *)
Definition demo_cp : cpolicy :=
  mkCP demo
    (AvtabSpec.run [OpIns true (mkK 1 3 1 16) (mkD 3 None)] (avtab_alloc avtab_init 2))
    (AvtabSpec.run [OpIns false (mkK 3 1 2 16) (mkD 1 None); OpIns false (mkK 3 1 2 32784) (mkD 3 None)] (avtab_alloc avtab_init 4))
    3 (fun c => if c =? 2 then Some (mkDef 2 1 0 7) else if c =? 1 then Some (mkDef 0 0 0 0) else None) 1
    [((2, 3, 2), 2)] [((1, 3, 1), mkR (mkL 1 ebitmap_init) (mkL 1 (demo_set [3])))].

Example C26_case :
  wf (cp_te demo_cp) /\ wf (cp_cond demo_cp) /\ cpolicy_canonical demo_cp /\ unambiguous demo_cp /\ well_built dtab /\
  st_shut dtab = false /\
  (* process transition: type rule, range transition *)
  (exists tab', transition_sid demo_cp dtab true 3 8 1 true = ROk (tab', Some 10) /\
     sidtab_search tab' 10 = Some (MlsModel.mkC 1 2 3 (mkR (mkL 1 ebitmap_init) (mkL 1 (demo_set [3]))))) /\
  (* class 2: conditional rule, default_range glblub *)
  (exists tab', transition_sid demo_cp dtab true 8 7 2 true = ROk (tab', Some 10) /\
     sidtab_search tab' 10 = Some (dctx 3 [])) /\
  (* relabel: target type of the first context is kept, object_r *)
  (exists tab', change_sid demo_cp dtab true 3 8 3 true = ROk (tab', Some 10) /\
     sidtab_search tab' 10 = Some (MlsModel.mkC 1 1 3 (mkR (mkL 1 ebitmap_init) (mkL 1 ebitmap_init)))) /\
  (* the result is not authorised *)
  transition_sid demo_cp dtab true 9 9 1 true = ROk (dtab, None).
Proof.
  split; [|split; [|split; [|split; [|split; [|split; [|split; [|split; [|split]]]]]]]].
  - destruct (alloc_spec avtab_init 2 ltac:(lia)) as (W & E & L). apply (run_spec _ _ [] W E). rewrite L. constructor.
  - destruct (alloc_spec avtab_init 4 ltac:(lia)) as (W & E & L). apply (run_spec _ _ [] W E). rewrite L. constructor.
  - split; [exact demo_canonical|]. intros k r [[= <- <-]|[]]. split; [apply valid_init|apply valid_check; vm_compute; reflexivity].
  - intros rq s t cls x y. split.
    + intros (n & A & _ & <-) (m & B & _ & <-). vm_compute in A, B. destruct A as [<-|[]], B as [<-|[]]. reflexivity.
    + intros (n & A & _ & A' & <-) (m & B & _ & B' & <-). vm_compute in A, B.
      destruct A as [<-|[<-|[]]], B as [<-|[<-|[]]]; try reflexivity; vm_compute in A', B'; discriminate.
  - apply inv_built, dtab_inv.
  - vm_compute. reflexivity.
  - eexists. split; vm_compute; reflexivity.
  - eexists. split; vm_compute; reflexivity.
  - eexists. split; vm_compute; reflexivity.
  - vm_compute. reflexivity.
Qed.
