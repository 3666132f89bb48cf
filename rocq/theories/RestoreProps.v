(** Properties C82 (one context per inode) and C83 (what a file is relabelled to). *)
From Verif Require Import Base MlsModel ContextModel ContextSpec LoginSpec LabtextModel LabtextSpec RestoreModel RestoreSpec RestoreProofs.
From Coq Require Import ZArith String Sorted.
Open Scope N_scope.
Open Scope list_scope.

(** ** C82 *)

(** The answer to a file is the one its history demands, whatever the inode numbers and however paths move between calls. *)
Theorem C82_answers : forall ce vs v r, snd (visit_add ce (after ce vs) v) = r <-> answer ce (rev vs) v r.
Proof. exact answers. Qed.
Print Assumptions C82_answers.
Definition stat_all (i : N) : list N -> option N := fun _ => Some i.
Definition v1 : visit := mkVisit 7 (bytes "c1") (bytes "/a") (stat_all 7).
Definition v2 : visit := mkVisit 65542 (bytes "c2") (bytes "/b") (stat_all 7).
Definition v3 : visit := mkVisit 7 (bytes "c3") (bytes "/c") (stat_all 7).
Example C82_answers_case : ino_hash (v_ino v1) = ino_hash (v_ino v2) /\ snd (visit_add true (after true [v1; v2]) v3) = mkRep (-1) (Some (bytes "/c", bytes "/a", bytes "c1")) /\
  snd (visit_add true (after true [v1]) v2) = mkRep 0 None.
Proof. repeat split; vm_compute; reflexivity. Qed.

(** A walk over files of one device, no path changing meanwhile, whole contexts being set: each inode ends up with the
    context of the first of its paths that has one, whatever had been there; the others are left alone; and a path whose context
    is not the one its inode ends up with is reported. Missing: files of several devices and paths that go away, where it is false
    (C82_refuted_devices, C82_refuted_reused). *)
Theorem C82_first_partial : forall lstat custom F d0 fs W, f_add_assoc F = true -> f_set_specctx F = true -> f_nochange F = false ->
  Forall (fun f => w_dev f = d0 /\ lstat (w_path f) = Some (w_ino f)) fs -> (forall i, W d0 i <> CurErr) ->
  exists W' os, walk lstat custom F fs no_specs W = ROk (W', os) /\
    (forall i c, first_for fs d0 i c -> W' d0 i = CurCon c) /\
    (forall d i, (forall f, In f fs -> w_dev f = d -> w_ino f = i -> forall c, w_lk f <> LkCon c) -> W' d i = W d i) /\
    Forall2 (fun f o => forall c, w_lk f = LkCon c -> (o_msg o <> None <-> W' d0 (w_ino f) <> CurCon c)) fs os.
Proof.
  intros lstat custom F d0 fs W FA FS FN FF NE.
  destruct (walk_settled lstat custom F d0 FA FS FN fs FF no_specs W) as (W' & os & E & _ & H2 & H3 & H4); [intros h; constructor|intros i c f K; discriminate K|exact NE|].
  exists W', os. split; [exact E|]. split; [|split; [exact H3|exact H4]]. intros i c H. apply H2; [reflexivity|exact H].
Qed.
Print Assumptions C82_first_partial.
Definition F1 : rflags := mkRF true false true false false.
Definition files1 : list wfile := [mkWF 1 7 (bytes "/a") (LkCon (bytes "c1")); mkWF 1 8 (bytes "/b") (LkCon (bytes "c2")); mkWF 1 7 (bytes "/c") (LkCon (bytes "c3"))].
Definition stat1 (p : list N) : option N := if str_eqb p (bytes "/b") then Some 8 else Some 7.
Example C82_first_case : Forall (fun f => w_dev f = 1 /\ stat1 (w_path f) = Some (w_ino f)) files1 /\ first_for files1 1 7 (bytes "c1") /\
  exists W', walk stat1 None F1 files1 no_specs (fun _ _ => CurNone) =
    ROk (W', [mkOut true (Some (bytes "c1")) None; mkOut true (Some (bytes "c2")) None; mkOut true None (Some (bytes "/c", bytes "/a", bytes "c1"))]).
Proof.
  split; [repeat constructor|]. split; [exists [], (mkWF 1 7 (bytes "/a") (LkCon (bytes "c1"))), (tl files1); repeat split; intros g []|].
  eexists. vm_compute. reflexivity.
Qed.

(** Inode numbers of different devices are taken for one: a file with the number of a file of another device met before is
    not labelled, and if the contexts agree not even reported. *)
Theorem C82_refuted_devices : forall lstat custom F ino d d' p p' c W, d <> d' -> f_add_assoc F = true -> f_set_specctx F = true ->
  f_nochange F = false -> lstat p = Some ino -> W d ino = CurNone -> W d' ino = CurNone ->
  exists W', walk lstat custom F [mkWF d ino p (LkCon c); mkWF d' ino p' (LkCon c)] no_specs W =
    ROk (W', [mkOut true (Some c) None; mkOut true None None]) /\ W' d' ino = CurNone.
Proof.
  intros lstat custom F ino d d' p p' c W ND FA FS FN LS W0 W1. cbn [walk]. unfold restorecon_sb at 1. cbn [w_ino w_path w_lk w_dev]. rewrite FA.
  assert (A := add_state lstat (f_conflicterror F) ino c p no_specs (fun h => SSorted_nil _)).
  destruct (filespec_add lstat (f_conflicterror F) ino c p no_specs) as [T p1]. destruct A as (IN & _ & A). change (known no_specs ino) with (@None (list N * list N)) in A.
  destruct A as [K ->]. cbn [rp_rc rp_msg]. change (0 <? 0)%Z with false. cbv iota. unfold relabel. rewrite W0, FN. cbn [o_set].
  unfold restorecon_sb. rewrite FA. assert (B := add_state lstat (f_conflicterror F) ino c p' T IN).
  destruct (filespec_add lstat (f_conflicterror F) ino c p' T) as [T2 p2]. destruct B as (_ & _ & B). rewrite K in B.
  destruct (B LS) as [(_ & _ & ->)|(X & _)]; [|congruence]. cbn [rp_rc rp_msg]. change (1 <? 0)%Z with false. change (0 <? 1)%Z with true. cbv iota. cbn [o_set].
  eexists. split; [reflexivity|]. cbv beta. destruct (N.eqb_spec d' d); [congruence|]. exact W1.
Qed.
Print Assumptions C82_refuted_devices.

(** An inode number that is used again for a new file during the walk: the new file is not labelled. *)
Theorem C82_refuted_reused : forall lstat lstat' custom F ino p p' c c' cur cur', f_add_assoc F = true -> cur <> CurErr -> f_set_specctx F = true ->
  lstat' p <> Some ino ->
  exists T o T', restorecon_sb lstat custom F ino p (LkCon c) cur no_specs = ROk (T, o) /\
    restorecon_sb lstat' custom F ino p' (LkCon c') cur' T = ROk (T', mkOut true None None).
Proof.
  intros lstat lstat' custom F ino p p' c c' cur cur' FA NE SC ST. unfold restorecon_sb. rewrite FA.
  set (v := mkVisit ino c p lstat). set (v' := mkVisit ino c' p' lstat').
  assert (A := proj2 (answers (f_conflicterror F) [] v (mkRep 0 None)) (ans_new _ [] v (rem_start _))).
  assert (B := proj2 (answers (f_conflicterror F) [v] v' (mkRep 1 None))
    (ans_gone _ [v] v' c p (rem_new v [] (rem_start _)) ST)).
  unfold after, visit_add in A, B. cbn [fold_left v v' v_ino v_con v_file v_stat fst] in A, B. 
  change (fold_left (fun T w => fst (filespec_add (v_stat w) (f_conflicterror F) (v_ino w) (v_con w) (v_file w) T)) [v] no_specs)
    with (fst (filespec_add lstat (f_conflicterror F) ino c p no_specs)) in B.
  destruct (filespec_add lstat (f_conflicterror F) ino c p no_specs) as [T q]. cbn [fst snd] in *. subst q.
  destruct (filespec_add lstat' (f_conflicterror F) ino c' p' T) as [T2 q2] eqn:E2. cbn [snd] in B. subst q2.
  assert (R : exists ok s, relabel custom F cur c = ROk (ok, s)).
  { unfold relabel. rewrite SC. destruct cur; [destruct (str_eqb c0 c)| |congruence]; eauto. }
  destruct R as (ok & s & R). exists T, (mkOut ok s None), T2. rewrite R, E2. split; reflexivity.
Qed.
Print Assumptions C82_refuted_reused.
Example C82_refuted_case : exists W' W'', 
  walk stat1 None F1 [mkWF 1 7 (bytes "/a") (LkCon (bytes "c")); mkWF 2 7 (bytes "/mnt/a") (LkCon (bytes "c"))] no_specs (fun _ _ => CurNone) =
    ROk (W', [mkOut true (Some (bytes "c")) None; mkOut true None None]) /\ W' 2 7 = CurNone /\
  walk (fun _ => None) None F1 [mkWF 1 7 (bytes "/tmp/a") (LkCon (bytes "c1")); mkWF 1 7 (bytes "/etc/b") (LkCon (bytes "c2"))] no_specs (fun _ _ => CurNone) =
    ROk (W'', [mkOut true (Some (bytes "c1")) None; mkOut true None None]) /\ W'' 1 7 = CurCon (bytes "c1").
Proof. eexists _, _. repeat split; vm_compute; reflexivity. Qed.

(** ** C83 *)

(** A file with a context of the usual form ends up with the context asked for, and is touched only if that is another one.
    Missing: contexts of other forms (C83_refuted_null). *)
Theorem C83_relabel_partial : forall custom F cur new, proper cur -> proper new -> exists x s,
  ends_with (match custom with Some l => l | None => [] end) F cur new x /\ relabel custom F (CurCon (written cur)) (written new) = ROk (true, s) /\
  ((x = cur /\ s = None) \/ (x <> cur /\ s = Some (written x))).
Proof. exact relabel_exact. Qed.
Print Assumptions C83_relabel_partial.
(** This context is determined. *)
Theorem C83_one : forall types F cur new x y, ends_with types F cur new x -> ends_with types F cur new y -> x = y.
Proof. exact ends_fun. Qed.
Print Assumptions C83_one.
Definition cur1 : fields := mkFields (bytes "u") (bytes "object_r") (bytes "tmp_t") (Some (bytes "s0:c1")).
Definition new1 : fields := mkFields (bytes "system_u") (bytes "object_r") (bytes "etc_t") (Some (bytes "s0")).
Lemma word_check (s : list N) : forallb (fun c => negb (c =? 58) && negb (c =? 32) && negb (c =? 9) && negb (c =? 10) && negb (c =? 13)) s = true -> word_text s.
Proof. intros F c I. rewrite forallb_forall in F. specialize (F c I). lia. Qed.
Example C83_case : proper cur1 /\ proper new1 /\
  relabel (Some [bytes "public_t"]) (mkRF false false false false false) (CurCon (written cur1)) (written new1) = ROk (true, Some (bytes "u:object_r:etc_t:s0:c1")) /\
  relabel (Some [bytes "tmp_t"]) (mkRF false false false false false) (CurCon (written cur1)) (written new1) = ROk (true, None) /\
  relabel (Some []) (mkRF false false false true false) (CurCon (written cur1)) (written new1) = ROk (true, Some (bytes "system_u:object_r:etc_t:s0:c1")).
Proof.
  assert (RT : forall s, word_text s -> range_text s) by (intros s W c I; destruct (W c I) as (_ & _ & A); exact A).
  split; [|split]; [| |repeat split; vm_compute; reflexivity]; (do 3 (split; [apply word_check; reflexivity|])); (do 3 (split; [discriminate|])); cbn [d_range cur1 new1].
  - split; [|split; [discriminate|vm_compute; discriminate]]. intros c I. cbn in I. intuition lia.
  - split; [apply RT, word_check; reflexivity|split; [discriminate|vm_compute; discriminate]].
Qed.

(** Labelling again changes nothing. *)
Theorem C83_again : forall custom F cur new s, proper cur -> proper new -> relabel custom F (CurCon (written cur)) (written new) = ROk (true, s) ->
  relabel custom F (CurCon (match s with Some c => c | None => written cur end)) (written new) = ROk (true, None).
Proof.
  intros custom F cur new s P Q H. destruct (relabel_exact custom F cur new P Q) as (x & s' & E & R & D). rewrite R in H. injection H as ->.
  assert (X : match s with Some c => c | None => written cur end = written x) by (destruct D as [[-> ->]|[_ ->]]; reflexivity). rewrite X.
  destruct (relabel_exact custom F x new (ends_proper _ _ _ _ _ P Q E) Q) as (y & s2 & E2 & R2 & D2).
  assert (Y := ends_fun _ _ _ _ _ _ E2 (ends_again _ _ _ _ _ E)). destruct D2 as [[_ ->]|[N _]]; [exact R2|congruence].
Qed.
Print Assumptions C83_again.
(** A file without context gets the whole one; nothing is set if no change is wanted. *)
Theorem C83_unlabelled : forall custom F new, relabel custom F CurNone new = ROk (true, if f_nochange F then None else Some new).
Proof. reflexivity. Qed.
Print Assumptions C83_unlabelled.
(** A specification without a type, which is accepted unless contexts are validated, makes strcmp read through NULL. *)
Theorem C83_refuted_null : forall cur, proper cur -> relabel None (mkRF false false false false false) (CurCon (written cur)) (bytes "u:r:") = RUB.
Proof.
  intros cur P. unfold relabel. cbn [f_set_specctx f_set_user_role is_context_customizable].
  destruct (str_dec (written cur) (bytes "u:r:")) as [[_ E]|[-> _]].
  - exfalso. assert (A := new_written cur P). rewrite E in A. vm_compute in A. discriminate A.
  - change (0 <? -1)%Z with false. cbv iota. unfold compare_portions. rewrite (new_written cur P). vm_compute. reflexivity.
Qed.
Print Assumptions C83_refuted_null.
Example C83_refuted_null_case : proper cur1. Proof. apply C83_case. Qed.

(** The customizable types are the lines of their file, if each is ended by a newline, has no NUL and fits a page. *)
Theorem C83_customizable_partial : forall page ls, ls <> [] -> Forall (fun l => no_newline l /\ no_nul l /\ (S (S (List.length l)) <= page)%nat) ls ->
  customizable_init page (Some (text_lines ls)) = ROk (Some ls).
Proof. exact custom_lines. Qed.
Print Assumptions C83_customizable_partial.
(** Without the last newline the last type loses its last letter. *)
Theorem C83_refuted_last : forall page l c, no_newline (l ++ [c]) -> no_nul (l ++ [c]) -> (S (S (List.length l)) <= page)%nat ->
  customizable_init page (Some (l ++ [c])) = ROk (Some [l]).
Proof. exact custom_last. Qed.
Print Assumptions C83_refuted_last.
(** A line that begins with NUL makes it store before the buffer. *)
Theorem C83_refuted_nul : forall page rest, (3 <= page)%nat -> customizable_init page (Some (0 :: 10 :: rest)) = RUB.
Proof.
  intros page rest L. unfold customizable_init. destruct page as [|[|[|page]]]; [lia..|]. cbn [Nat.sub]. cbn [List.length pieces fgets].
  change (0 =? 10) with false. change (10 =? 10) with true. cbv iota. destruct rest; reflexivity.
Qed.
Print Assumptions C83_refuted_nul.
Example C83_customizable_case : customizable_init 4096 (Some (bytes "a_t" ++ [10] ++ bytes "b_t" ++ [10])) = ROk (Some [bytes "a_t"; bytes "b_t"]) /\
  customizable_init 4096 (Some (bytes "a_t")) = ROk (Some [bytes "a_"]).
Proof. split; vm_compute; reflexivity. Qed.
