(** C85: the module store with its priorities (libsemanage/src/direct_api.c, modules.c, semanage_store.c). In all theorems the store is
    the one left by an arbitrary sequence of operations on an empty store, and [h] the operations of the sequence that succeeded. *)
From Verif Require Import Base MlsModel ModstoreModel ModstoreSpec ModstoreProofs ModstoreList ModstoreMain ModstoreDemo.
From Coq Require Import Sorted Permutation.

(** An operation succeeds exactly if it must: names, priorities, extensions and states as documented; the module to be removed, enabled
    or disabled is there; what is to be compiled can be. *)
Theorem C85_outcome vsort nsort compile ops o : sorts_versions vsort -> sorts_names nsort ->
  (match o with MExtract _ _ _ _ => False | _ => True end) ->
  let (st, h) := mrun vsort nsort compile empty_store [] ops in
  fst (mstep vsort nsort compile st o) = true <-> accepted compile h o.
Proof.
  intros V NS O. pose proof (run_rel vsort V nsort NS compile False ops empty_store [] (rel_empty compile False) (fun f => match f with end)) as R.
  destruct (mrun vsort nsort compile empty_store [] ops) as [st h].
  pose proof (step vsort V nsort NS compile False st h o R (fun f => match f with end)) as S.
  destruct (mstep vsort nsort compile st o) as [ok st']. apply S. exact O.
Qed.
Print Assumptions C85_outcome.
Example C85_outcome_case : sorts_versions (isort (fun s => s)) /\ sorts_names (isort i_name)
  /\ snd (demo_run demo_ops) = [MRebuild false false; MRemove 7 [100]; MInstall 7 [100] pp 0 [4]; MInstall 5 [99] pp 0 [0]; MEnable 0 [98] 1;
                                MInstall 90 [98] pp 0 [3]; MInstall 400 [97] cil (-1) [2]; MInstall 100 [97] pp (-1) [1]].
Proof. split; [exact demo_versions|]. split; [exact demo_names|reflexivity]. Qed.

(** The active modules: each enabled name once, at its highest priority, in the order of the names. *)
Theorem C85_active vsort nsort compile ops : sorts_versions vsort -> sorts_names nsort ->
  let (st, h) := mrun vsort nsort compile empty_store [] ops in
  exists l, active vsort nsort st = Some l
    /\ (forall p n, In (p, n) (map (fun i => (i_prio i, i_name i)) l) <-> top h n p /\ ~ shut h n)
    /\ StronglySorted text_before (map i_name l).
Proof.
  intros V NS. pose proof (run_rel vsort V nsort NS compile False ops empty_store [] (rel_empty compile False) (fun f => match f with end)) as R.
  destruct (mrun vsort nsort compile empty_store [] ops) as [st h].
  destruct (active_is vsort V nsort NS st (r_good _ _ _ _ R)) as (l & E & A & S). exists l. split; [assumption|]. split; [|assumption].
  intros p n. rewrite in_map_iff. split.
  - intros (i & X & I). injection X as <- <-. apply A in I. destruct I as (T & O & _).
    split; [apply (rel_top compile False st h _ _ R); assumption|]. rewrite <- (r_shut _ _ _ _ R), O. discriminate.
  - intros [T S']. exists (info_of st p n). split; [reflexivity|]. apply A. cbn. split; [apply (rel_top compile False st h _ _ R); assumption|].
    split; [|reflexivity]. apply not_true_iff_false. intros X. apply S'. apply (r_shut _ _ _ _ R). assumption.
Qed.
Print Assumptions C85_active.
Example C85_active_case :
  active (isort (fun s => s)) (isort i_name) (fst (demo_run demo_ops)) = Some [mkInfo 400 [97] cil true; mkInfo 90 [98] pp true]
  /\ active (isort (fun s => s)) (isort i_name) (fst (demo_run (demo_ops ++ [MRemove 400 [97]; MEnable 0 [99] 1])))
     = Some [mkInfo 100 [97] pp true; mkInfo 90 [98] pp true; mkInfo 5 [99] pp true].
Proof. split; reflexivity. Qed.

(** Asking for a module, with a priority or with 0 for the highest: it is found exactly if it is there, and reported enabled exactly if
    its name is not disabled. *)
Theorem C85_info vsort nsort compile ops p n : sorts_versions vsort -> sorts_names nsort ->
  let (st, h) := mrun vsort nsort compile empty_store [] ops in
  match get_info vsort st p n with
  | Some i => i_name i = n /\ (if p =? 0 then top h n (i_prio i) else i_prio i = p /\ held h p n <> None) /\ (i_on i = true <-> ~ shut h n)
              /\ get_enabled vsort st p n = Some (i_on i)
  | None => (if p =? 0 then ~ present h n else held h p n = None) /\ get_enabled vsort st p n = None
  end.
Proof.
  intros V NS. pose proof (run_rel vsort V nsort NS compile False ops empty_store [] (rel_empty compile False) (fun f => match f with end)) as R.
  destruct (mrun vsort nsort compile empty_store [] ops) as [st h]. pose proof (r_good _ _ _ _ R) as G.
  pose proof (get_info_iff vsort V st p n G) as Q. unfold get_enabled. destruct (get_info vsort st p n) as [i|] eqn:E.
  - destruct (get_info_is vsort V compile st p n i G E) as (A & B & C & D). split; [assumption|]. split; [|split].
    + destruct (p =? 0) eqn:P; [apply N.eqb_eq in P; apply (rel_top compile False st h _ _ R), D, P|]. apply N.eqb_neq in P. destruct C as [C|C]; [contradiction|].
      split; [assumption|]. apply (rel_some compile False st h _ _ R). destruct (proj1 Q ltac:(discriminate)) as [[X _]|X]; [contradiction|assumption].
    + rewrite B. cbn. rewrite negb_true_iff, <- (r_shut _ _ _ _ R n). destruct (is_off st n); split; congruence.
    + rewrite A. rewrite B. reflexivity.
  - split; [|reflexivity]. destruct (p =? 0) eqn:P.
    + apply N.eqb_eq in P. rewrite (rel_present compile False st h n R). intros X. apply Q; [|reflexivity]. left. split; assumption.
    + destruct (held h p n) eqn:H; [|reflexivity]. exfalso. apply Q; [|reflexivity]. right. apply (rel_some compile False st h p n R). congruence.
Qed.
Print Assumptions C85_info.
Example C85_info_case : let st := fst (demo_run demo_ops) in
  get_info (isort (fun s => s)) st 0 [97] = Some (mkInfo 400 [97] cil true) /\ get_info (isort (fun s => s)) st 100 [97] = Some (mkInfo 100 [97] pp true)
  /\ get_info (isort (fun s => s)) st 0 [99] = Some (mkInfo 5 [99] pp false) /\ get_info (isort (fun s => s)) st 0 [100] = None.
Proof. repeat split; reflexivity. Qed.

(** A name that is disabled has a module: so a name that is new, or new again, is enabled by an installation that does not say otherwise. *)
Theorem C85_disabled_is_installed vsort nsort compile ops n : sorts_versions vsort -> sorts_names nsort ->
  let (st, h) := mrun vsort nsort compile empty_store [] ops in shut h n -> present h n.
Proof.
  intros V NS. pose proof (fresh vsort V nsort NS compile False ops empty_store [] (rel_empty compile False) (fun f => match f with end)
    (fun m (f : shut [] m) => match f with end)) as F.
  destruct (mrun vsort nsort compile empty_store [] ops) as [st h]. apply F.
Qed.
Print Assumptions C85_disabled_is_installed.
Example C85_disabled_case : shut (snd (demo_run demo_ops)) [99]
  /\ active (isort (fun s => s)) (isort i_name) (fst (demo_run (demo_ops ++ [MInstall 7 [100] pp (-1) [6]; MInstall 6 [99] pp (-1) [8]])))
     = Some [mkInfo 400 [97] cil true; mkInfo 90 [98] pp true; mkInfo 7 [100] pp true].
Proof.
  split; [|reflexivity]. vm_compute. split; [|intros X; discriminate]. right. split; [intros X; discriminate|]. left. auto.
Qed.

(** A rebuilt policy is made of the enabled names, each with the text in CIL of its module of highest priority as last installed - never
    of an older one left in a cache, whether caches are used or sources removed after compiling. *)
Theorem C85_rebuild vsort nsort compile ops rm ign l : sorts_versions vsort -> sorts_names nsort ->
  let (st, h) := mrun vsort nsort compile empty_store [] ops in
  fst (rebuild vsort nsort compile rm ign st) = Some l -> loads compile h l.
Proof.
  intros V NS. pose proof (run_rel vsort V nsort NS compile False ops empty_store [] (rel_empty compile False) (fun f => match f with end)) as R.
  destruct (mrun vsort nsort compile empty_store [] ops) as [st h].
  pose proof (step_rebuild vsort V nsort NS compile False rm ign st h R (fun f => match f with end)) as S.
  destruct (rebuild vsort nsort compile rm ign st) as [r st']. apply S.
Qed.
Print Assumptions C85_rebuild.
Example C85_rebuild_case : let again := [MInstall 90 [98] pp (-1) [5]; MInstall 400 [97] pp (-1) [7]] in
  fst (rebuild (isort (fun s => s)) (isort i_name) demo_compile false false (fst (demo_run demo_ops))) = Some [([97], [2]); ([98], [40; 3])]
  /\ fst (rebuild (isort (fun s => s)) (isort i_name) demo_compile true false (fst (demo_run (demo_ops ++ again)))) = Some [([97], [40; 7]); ([98], [40; 5])]
  /\ fst (rebuild (isort (fun s => s)) (isort i_name) demo_compile false false (fst (demo_run (demo_ops ++ [MEnable 5 [99] 1])))) = None.
Proof. repeat split; reflexivity. Qed.

(** Extraction as CIL gives what the module stands for. *)
Theorem C85_extract_cil vsort nsort compile ops rm p n c : sorts_versions vsort -> sorts_names nsort ->
  let (st, h) := mrun vsort nsort compile empty_store [] ops in
  (exists e, fst (extract vsort compile rm true st p n) = Some (c, e)) <-> exists m, held h p n = Some m /\ means compile m c.
Proof.
  intros V NS. pose proof (run_rel vsort V nsort NS compile False ops empty_store [] (rel_empty compile False) (fun f => match f with end)) as R.
  destruct (mrun vsort nsort compile empty_store [] ops) as [st h].
  pose proof (step_extract vsort compile False rm true st h p n R (fun f => match f with end)) as S.
  destruct (extract vsort compile rm true st p n) as [r st']. apply S. reflexivity.
Qed.
Print Assumptions C85_extract_cil.
Example C85_extract_cil_case :
  fst (extract (isort (fun s => s)) demo_compile false true (fst (demo_run demo_ops)) 90 [98]) = Some ([40; 3], pp)
  /\ fst (extract (isort (fun s => s)) demo_compile false true (fst (demo_run demo_ops)) 100 [97]) = Some ([40; 1], pp).
Proof. split; reflexivity. Qed.

(** Extraction of the source gives the data and the extension last installed, if sources are kept and the extension is not "cil" written
    with capitals. *)
Theorem C85_extract_source vsort nsort compile ops p n m : sorts_versions vsort -> sorts_names nsort -> keeps_source ops ->
  let (st, h) := mrun vsort nsort compile empty_store [] ops in
  held h p n = Some m -> (says_cil (fst m) -> fst m = [99; 105; 108]) -> fst (extract vsort compile false false st p n) = Some (snd m, fst m).
Proof.
  intros V NS K. pose proof (run_rel vsort V nsort NS compile True ops empty_store [] (rel_empty compile True) (fun _ => K)) as R.
  destruct (mrun vsort nsort compile empty_store [] ops) as [st h]. intros H C.
  pose proof (step_extract vsort compile True false false st h p n R (fun _ => eq_refl)) as S.
  destruct (extract vsort compile false false st p n) as [r st']. destruct S as (_ & _ & S & _). apply S; auto.
Qed.
Print Assumptions C85_extract_source.
Example C85_extract_source_case : keeps_source demo_ops
  /\ fst (extract (isort (fun s => s)) demo_compile false false (fst (demo_run demo_ops)) 400 [97]) = Some ([2], cil)
  /\ fst (extract (isort (fun s => s)) demo_compile false false (fst (demo_run demo_ops)) 90 [98]) = Some ([3], pp).
Proof. split; [repeat constructor|]. split; reflexivity. Qed.

(** With capitals it does not: installing a module a.CIL over a.pp and extracting it gives the data of a.pp. *)
Theorem C85_extract_refuted : let ops := [MInstall 400 [97] pp (-1) [1]; MInstall 400 [97] [67; 73; 76] (-1) [2]] in
  let (st, h) := demo_run ops in
  length h = 2%nat /\ held h 400 [97] = Some ([67; 73; 76], [2])
  /\ fst (extract (isort (fun s => s)) demo_compile false false st 400 [97]) = Some ([1], [67; 73; 76]).
Proof. repeat split. Qed.
Print Assumptions C85_extract_refuted.
