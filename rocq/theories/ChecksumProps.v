(** Property C65: a rebuild is skipped only if nothing changed. *)
From Verif Require Import Base MlsModel ContextModel Sha1Model Sha256Model ShaSpec Sha256Proofs
  ChecksumModel ChecksumSpec ChecksumProofs.
From Coq Require Import Sorted Permutation.

(** Data of the cases: module "b" in a high-level language, not compiled yet, and module "a" in CIL. *)
Definition stale_memory : list N := repeat 85 64.
Definition mod_b : module := mkMod [98] [112; 112] None (Some [40; 120; 41]).
Definition mod_a (text : list N) : module := mkMod [97] [67; 105; 108] (Some text) None.
Definition opts : options := mkO 0 1 0 (-1).
Definition opts' : options := mkO 0 7 0 (-1).
Definition check_only (ignore : bool) : request := mkQ false false true false true ignore.
Definition two_mods (text : list N) : list module := [mod_b; mod_a text].

(** The texts of the modules are well defined: at most one list, whatever the order the modules are
    listed in. *)
Theorem C65_texts_unique : forall ignore mods mods' t t',
  Permutation mods mods' -> texts ignore mods t -> texts ignore mods' t' -> t = t'.
Proof. intros ig m m' t t' P T T'. apply (texts_fun ig m' t t'); [exact (texts_perm _ _ _ _ P T)|exact T']. Qed.
Print Assumptions C65_texts_unique.

Lemma case_texts c : texts false (two_mods c) [c; [40; 120; 41]].
Proof.
  exists [mod_a c; mod_b]. split; [apply perm_swap|]. split.
  - constructor; [repeat constructor|]. constructor; [|constructor]. apply before_here. reflexivity.
  - constructor; [apply text_cached; reflexivity|]. constructor; [|constructor]. apply text_compiled; [|auto|reflexivity].
    intros H. inversion H. subst. match goal with K : same_letter 112 99 |- _ => destruct K; lia end.
Qed.
Example C65_texts_unique_case : texts false [mod_b; mod_a [1]] [[1]; [40; 120; 41]]
  /\ texts false [mod_a [1]; mod_b] [[1]; [40; 120; 41]].
Proof. split; [apply case_texts|]. apply (texts_perm false (two_mods [1])); [apply perm_swap|apply case_texts]. Qed.

(** A commit that goes on without a rebuild after it compared the checksum with one recorded by an
    earlier commit has the options and texts of that commit, or a SHA-256 collision is at hand. *)
Theorem C65_skip : forall memory memory' q q' o o' mods mods' recorded w,
  length memory = 64%nat -> length memory' = 64%nat ->
  possible o (q_ignore_cache q) mods -> possible o' (q_ignore_cache q') mods' ->
  looked_at (q_ignore_cache q) mods -> looked_at (q_ignore_cache q') mods' ->
  (exists before rebuilt, decide memory' q' o' mods' before = DGo rebuilt (Some recorded)) ->
  decide memory q o mods (Some recorded) = DGo false (Some w) ->
  (same_options o o' /\ exists t, texts (q_ignore_cache q) mods t /\ texts (q_ignore_cache q') mods' t)
  \/ collision.
Proof.
  intros memory memory' q q' o o' mods mods' recorded w L L' P P' La La' (b & r & E') E.
  apply skip_compared in E. destruct E as [E W]. injection W as <-.
  apply (checksum_same memory memory' _ _ o o' mods mods' recorded); try assumption.
  unfold decide in E'. destruct (rebuild_asked q' o' || q_check_ext q'); [|discriminate].
  destruct mods'; [discriminate|]. destruct (compile_hll_modules _ _ _ _) as [x| |]; try discriminate. congruence.
Qed.
Print Assumptions C65_skip.

(** When the checksum is compared and options and texts are unchanged, there is no rebuild. *)
Theorem C65_no_needless_rebuild : forall memory memory' q q' o o' mods mods' recorded t,
  length memory = 64%nat -> length memory' = 64%nat ->
  possible o (q_ignore_cache q) mods -> possible o' (q_ignore_cache q') mods' ->
  looked_at (q_ignore_cache q) mods -> looked_at (q_ignore_cache q') mods' ->
  (exists before rebuilt, decide memory' q' o' mods' before = DGo rebuilt (Some recorded)) ->
  mods <> [] -> q_check_ext q = true -> q_requested q = false -> q_missing q = false ->
  (q_dontaudit_file q = true <-> o_dontaudit o = 1%Z) -> (q_tunables_file q = true <-> o_tunables o = 1%Z) ->
  same_options o o' -> texts (q_ignore_cache q) mods t -> texts (q_ignore_cache q') mods' t ->
  decide memory q o mods (Some recorded) = DGo false (Some recorded).
Proof.
  intros memory memory' q q' o o' mods mods' recorded t L L' P P' La La' (b & r & E') Ne C R M D T So X X'.
  destruct (checksum_unchanged memory memory' _ _ o o' mods mods' t L L' La La' P P' So X X') as (text & H & H' & Ln).
  assert (W : text = recorded).
  { unfold decide in E'. destruct (rebuild_asked q' o' || q_check_ext q'); [|discriminate].
    destruct mods'; [discriminate|]. rewrite H' in E'. congruence. }
  subst recorded. unfold decide.
  assert (A : rebuild_asked q o = false).
  { unfold rebuild_asked. rewrite R, M.
    destruct (q_dontaudit_file q), (Z.eqb_spec (o_dontaudit o) 1), (q_tunables_file q), (Z.eqb_spec (o_tunables o) 1);
      try reflexivity; exfalso; intuition congruence. }
  rewrite A, C. cbn [orb negb andb]. destruct mods as [|m l]; [destruct (Ne eq_refl)|]. rewrite H.
  unfold compare_checksum. rewrite Ln. cbn [Nat.eqb negb]. rewrite (proj2 (ContextProofs.str_eqb_eq text text) eq_refl). reflexivity.
Qed.
Print Assumptions C65_no_needless_rebuild.

(** Without any reason (nothing requested, no check for changes, no missing file, dontaudit and tunables as before)
    the policy is not rebuilt, the modules are not read and no checksum is written. *)
Theorem C65_no_reason : forall memory q o mods recorded,
  q_check_ext q = false -> q_requested q = false -> q_missing q = false ->
  (q_dontaudit_file q = true <-> o_dontaudit o = 1%Z) -> (q_tunables_file q = true <-> o_tunables o = 1%Z) ->
  decide memory q o mods recorded = DGo false None.
Proof.
  intros memory q o mods recorded C R M D T. unfold decide.
  assert (A : rebuild_asked q o = false).
  { unfold rebuild_asked. rewrite R, M.
    destruct (q_dontaudit_file q), (Z.eqb_spec (o_dontaudit o) 1), (q_tunables_file q), (Z.eqb_spec (o_tunables o) 1);
      try reflexivity; exfalso; intuition congruence. }
  rewrite A, C. reflexivity.
Qed.
Print Assumptions C65_no_reason.

Example C65_no_reason_case : decide [] (mkQ false false true false false true) opts [] None = DGo false None.
Proof. apply C65_no_reason; try reflexivity; split; (reflexivity || discriminate). Qed.

Lemma case_possible o c : is_int (o_platform o) -> is_int (o_policyvers o) -> Forall byte c -> (length c < 1000)%nat -> possible o false (two_mods c).
Proof.
  intros P V F L. split; [exact P|]. split; [exact V|]. split; [|split].
  - repeat constructor; cbn; intuition discriminate.
  - intros m x [<-|[<-|[]]] H; destruct H as [y H1 H2|y H1 H2|y H1 H2 H3]; try discriminate.
    + injection H3 as <-. repeat constructor.
    + injection H2 as <-. exact F.
    + injection H2 as <-. exact F.
  - intros t T. rewrite (texts_fun _ _ _ _ T (case_texts c)). cbn [concat]. rewrite app_length.
    change (2 ^ 60) with 1152921504606846976. cbn. lia.
Qed.
Lemma case_looked c : looked_at false (two_mods c).
Proof.
  intros m [<-|[<-|[]]] H.
  - inversion H. subst. match goal with K : same_letter 112 99 |- _ => destruct K; lia end.
  - split; [reflexivity|discriminate].
Qed.

(** The same modules with equivalent options are recognised; another text or version is not. *)
Example C65_skip_case :
  possible opts false (two_mods [1]) /\ looked_at false (two_mods [1])
  /\ match compile_hll_modules stale_memory false opts' (two_mods [1]) with
     | ROk r =>
         decide stale_memory (mkQ true false false false false false) opts' (two_mods [1]) None = DGo true (Some r)
         /\ decide stale_memory (check_only false) opts [mod_a [1]; mod_b] (Some r) = DGo false (Some r)
         /\ (exists w, decide stale_memory (check_only false) opts (two_mods [2]) (Some r) = DGo true (Some w))
         /\ (exists w, decide stale_memory (check_only false) (mkO 0 1 0 30) (two_mods [1]) (Some r) = DGo true (Some w))
     | _ => False
     end.
Proof.
  split; [apply case_possible; cbn; unfold is_int; try lia; repeat constructor|]. split; [apply case_looked|].
  destruct (compile_hll_modules stale_memory false opts' (two_mods [1])) as [r| |] eqn:E; vm_compute in E; try discriminate.
  injection E as <-. split; [vm_compute; reflexivity|]. split; [vm_compute; reflexivity|].
  split; eexists; vm_compute; reflexivity.
Qed.
Example C65_no_needless_rebuild_case :
  same_options opts opts' /\ texts false (two_mods [1]) [[1]; [40; 120; 41]]
  /\ (q_tunables_file (check_only false) = true <-> o_tunables opts = 1%Z)
  /\ (q_dontaudit_file (check_only false) = true <-> o_dontaudit opts = 1%Z).
Proof.
  split; [|split; [apply case_texts|split; split; try reflexivity; discriminate]].
  split; [split; reflexivity|]. split; [split; discriminate|]. split; reflexivity.
Qed.

(** With the module cache ignored, modules in CIL are left out of the checksum: any change of their
    text goes unnoticed and the rebuild is skipped. *)
Theorem C65_refuted_ignore_cache : exists q o mods mods' recorded w t t',
  possible o (q_ignore_cache q) mods /\ possible o (q_ignore_cache q) mods' /\
  decide stale_memory q o mods' None = DGo true (Some recorded) /\
  decide stale_memory q o mods (Some recorded) = DGo false (Some w) /\
  texts (q_ignore_cache q) mods t /\ texts (q_ignore_cache q) mods' t' /\ t <> t'.
Proof.
  assert (T : forall c, texts true [mod_a c] [c]).
  { intros c. exists [mod_a c]. split; [apply Permutation_refl|]. split; [repeat constructor|].
    constructor; [|constructor]. apply text_cil; [|reflexivity]. unfold cil_language, mod_a; cbn [m_lang].
    constructor; [right; lia|]. constructor; [left; reflexivity|]. constructor; [left; reflexivity|]. constructor. }
  assert (P : forall c, Forall byte c -> (length c < 1000)%nat -> possible opts true [mod_a c]).
  { intros c F L. split; [cbn; unfold is_int; lia|]. split; [cbn; unfold is_int; lia|]. split; [|split].
    - repeat constructor; cbn; intuition discriminate.
    - intros m x [<-|[]] H; destruct H as [y H1 H2|y H1 H2|y H1 H2 H3]; try discriminate. injection H2 as <-. exact F.
    - intros t X. rewrite (texts_fun _ _ _ _ X (T c)). cbn [concat]. rewrite app_length.
      change (2 ^ 60) with 1152921504606846976. cbn. lia. }
  exists (check_only true), opts, [mod_a [2]], [mod_a [1]],
    (match compile_hll_modules stale_memory true opts [mod_a [1]] with ROk r => r | _ => [] end),
    (match compile_hll_modules stale_memory true opts [mod_a [1]] with ROk r => r | _ => [] end), [[2]], [[1]].
  split; [apply P; [repeat constructor|cbn; lia]|]. split; [apply P; [repeat constructor|cbn; lia]|].
  split; [vm_compute; reflexivity|]. split; [vm_compute; reflexivity|]. split; [apply T|]. split; [apply T|discriminate].
Qed.
Print Assumptions C65_refuted_ignore_cache.

Example C65_refuted_ignore_cache_case :
  compile_hll_modules stale_memory true opts [mod_a [1]] = compile_hll_modules stale_memory true opts [mod_a [2; 3]].
Proof. vm_compute. reflexivity. Qed.
