(** Property theorems: labels of objects that do not carry their own. *)
From Verif Require Import Base EbitmapModel MlsModel MlsDemo ContextModel AvtabModel SidtabModel SidtabSpec SidtabProofs LoadDemo
  OconModel OconSpec OconProofs.

(** Demo policy; models no code. *)
Definition dpol : opolicy :=
  mkOP [((6, 80, 80), dctx 1 []); ((6, 1, 1023), dctx 1 [4]); ((17, 53, 53), dctx 3 [])]
       [((7, 1, 9), dctx 1 [])] [(([109], 1), dctx 1 [])]
       [([101], (dctx 1 [], dctx 3 []))] [([102], (dctx 1 [], dctx 3 []))]
       [((0x0100007f, 0xffffffff), dctx 3 []); ((127, 255), dctx 1 [])]
       [(((0, 0, 0, 1), (255, 255, 255, 255)), dctx 1 [])]
       [([120], (1, dctx 1 [7]))]
       [([112], [([47], 0, dctx 1 []); ([47; 115], 6, dctx 3 [2]); ([47; 115], 7, dctx 1 [3])]); ([97], [([47; 97], 0, dctx 1 [])])] 7.
(** Demo policy in memory; models no code. *)
Definition dlists : list genfs := match genfs_read (op_genfs dpol) [] with Some g => g | None => [] end.
(** Demo requests; model no code. *)
Definition dreqs : list (oreq * bool * bool) :=
  map (fun q => (q, true, true))
    [QPort 6 80; QPort 6 22; QPort 17 80; QGenfs [112] [47; 115; 120] 6; QGenfs [112] [47; 115; 120] 7; QGenfs [112] [47; 115; 120] 8;
     QGenfs [97] [47] 6; QGenfs [98] [47] 6; QFsUse [120]; QFsUse [112]; QFsUse [97]; QNetif [101]; QNode 0x0200007f; QGenfs [112] [47; 115; 120] 6].

(** C55. A genfs section is accepted exactly when it has no contradictions: no file system type twice, and within a
    type no two entries with the same path for a common class. *)
Theorem C55_accepted_iff_consistent : forall secs, (exists g, genfs_read secs [] = Some g) <-> consistent secs.
Proof. exact read_accepts. Qed.
Print Assumptions C55_accepted_iff_consistent.

Example C55_accepted_case : genfs_read (op_genfs dpol) [] = Some dlists /\
  genfs_read [([112], [([47; 115], 6, dctx 1 []); ([47], 0, dctx 1 []); ([47; 115], 0, dctx 3 [])])] [] = None /\
  genfs_read [([112], []); ([97], []); ([112], [])] [] = None.
Proof. vm_compute. auto. Qed.

(** C55. In an accepted section at most one entry is the best for a path and class. *)
Theorem C55_best_is_unique : forall secs g fs path cls e e', genfs_read secs [] = Some g ->
  best secs fs path cls e -> best secs fs path cls e' -> e = e'.
Proof. intros secs g fs path cls e e' H. apply best_unique, read_accepts. exists g. exact H. Qed.
Print Assumptions C55_best_is_unique.

Example C55_best_case : best (op_genfs dpol) [112] [47; 115; 120] 6 ([47; 115], 6, dctx 3 [2]).
Proof.
  eexists. split; [left; reflexivity|]. split; [right; left; reflexivity|]. split; [split; [exists [120]; reflexivity|auto]|].
  intros e' [<-|[<-|[<-|[]]]] _; cbn; lia.
Qed.

(** C55. Whatever was asked before, in whatever order, a file gets the label of the longest genfs path prefix that
    applies, whatever the order in which the policy lists the prefixes, or the unlabeled SID with "no entry"; a file
    system gets the behaviour and label of its fs_use rule, otherwise that of its genfs root, otherwise "none". *)
Theorem C55_file_labels : forall p g ops tab ttr l, genfs_read (op_genfs p) [] = Some g -> Forall sane_op ops ->
  trun (sidtab_init true) [] ops = ROk (tab, ttr) ->
  exists o tab' tr, orun (fresh p g) tab [] l = ROk (o, tab', tr) /\ map fst tr = rev l /\ Forall (file_right p tab') tr.
Proof.
  intros p g ops tab ttr l Eg Hs Er. destruct (run_init ops Hs) as (s & tr0 & E & A). rewrite Er in E. injection E as <- <-.
  destruct (orun_spec p g Eg l (fresh p g) tab [] (proj1 A) (orel_fresh p g tab Eg)) as (o & tab' & tr & H & _ & M & _ & F).
  rewrite app_nil_r in H. exists o, tab', tr. auto.
Qed.
Print Assumptions C55_file_labels.

Example C55_files_case : Forall sane_op dops /\ (exists ttr, trun (sidtab_init true) [] dops = ROk (dtab, ttr)) /\
  match orun (fresh dpol dlists) dtab [] dreqs with
  | ROk (_, _, tr) => rev (map snd tr) =
      [AOne 3; AOne 7; AOne 9; AOne 10; AOne 11; AOne 3; ANoent 3; ANoent 3; AUse 1 (Some 12); AUse 4 (Some 3); AUse 5 (Some 3);
       ATwo 3 13; AOne 3; AOne 10]
  | _ => False end.
Proof.
  split; [repeat constructor; cbn; lia|]. split; [eexists; vm_compute; reflexivity|]. vm_compute. reflexivity.
Qed.

(** C56. Whatever was asked before, ports, InfiniBand keys and end ports, addresses, interfaces and devices get the
    labels of the first entry of the policy that matches, or the default. *)
Theorem C56_object_labels : forall p g ops tab ttr l, genfs_read (op_genfs p) [] = Some g -> Forall sane_op ops ->
  trun (sidtab_init true) [] ops = ROk (tab, ttr) ->
  exists o tab' tr, orun (fresh p g) tab [] l = ROk (o, tab', tr) /\ map fst tr = rev l /\ Forall (object_right p tab') tr.
Proof.
  intros p g ops tab ttr l Eg Hs Er. destruct (run_init ops Hs) as (s & tr0 & E & A). rewrite Er in E. injection E as <- <-.
  destruct (orun_spec p g Eg l (fresh p g) tab [] (proj1 A) (orel_fresh p g tab Eg)) as (o & tab' & tr & H & _ & M & F & _).
  rewrite app_nil_r in H. exists o, tab', tr. auto.
Qed.
Print Assumptions C56_object_labels.

Example C56_case : Forall sane_op dops /\ (exists ttr, trun (sidtab_init true) [] dops = ROk (dtab, ttr)) /\
  match orun (fresh dpol dlists) dtab [] (map (fun q => (q, true, true)) [QPort 6 80; QPort 6 22; QPort 17 80; QNode 0x0100007f; QNode 0x0200007f; QNode 9; QNetif [101]; QNetif [100]; QEndport [109] 1; QEndport [109] 2; QNode6 (256, 0, 512, 1)]) with
  | ROk (_, _, tr) => rev (map snd tr) = [AOne 3; AOne 7; AOne 9; AOne 10; AOne 3; AOne 12; ATwo 3 10; ATwo 10 11; AOne 3; AOne 3; AOne 3]
  | _ => False end.
Proof.
  split; [repeat constructor; cbn; lia|]. split; [eexists; vm_compute; reflexivity|]. vm_compute. reflexivity.
Qed.

(** C55, what fails: "asking for the behaviour of a file system reports a failure to make the SID as an error". The
    request succeeds and says the file system has no labels, with no SID, although a genfs rule labels its root. *)
Theorem C55_failure_reported_refuted : exists p g tab e, genfs_read (op_genfs p) [] = Some g /\
  best (op_genfs p) [112] [47] (op_dir p) e /\
  exists o tab', oask (fresh p g) tab false false (QFsUse [112]) = ROk (o, tab', AUse 5 None).
Proof.
  exists (mkOP [] [] [] [] [] [] [] [] [([112], [([47], 0, dctx 1 [2])])] 7). eexists. exists dtab, ([47], 0, dctx 1 [2]).
  split; [reflexivity|]. split.
  - eexists. split; [left; reflexivity|]. split; [left; reflexivity|]. split; [split; [exists []; reflexivity|auto]|].
    intros e' [<-|[]] _. cbn. lia.
  - eexists. eexists. vm_compute. reflexivity.
Qed.
Print Assumptions C55_failure_reported_refuted.
