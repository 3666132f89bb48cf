(** Property theorems about file name transitions (C59). *)
From Verif Require Import Base EbitmapModel EbitmapSpec EbitmapProofs HashtabModel AssertModel CodecModel CodecSpec CodecProofs FtransModel FtransSpec FtransProofs FtransIoProofs.

Lemma some_inj {A} (a b : A) : Some a = Some b -> a = b. Proof. intros [=]. assumption. Qed.

(** Rules without conflicts, inserted one after the other in a new policy: each insertion tells whether the rule was there already (and the new type it gives), and in the end the table has exactly these rules and counts each once. *)
Theorem C59_insert : forall l, consistent l -> Forall rule_ok l -> N.of_nat (length l) < 4294967296 ->
  exists t, insert_all ft_init l = (t, answers [] l) /\ table_of t l /\ counted t.
Proof.
  intros l C F B. destruct (insert_all_spec l ft_init [] [] init_inv) as (t & l' & E & I & R & _).
  - intros x. reflexivity.
  - exact C.
  - eapply Forall_impl; [|exact F]. intros r H. apply H.
  - exact B.
  - exists t. split; [exact E|]. split; [|exact (inv_counted t l' I)]. intros r. rewrite (has_in t l' r I), R. cbn. tauto.
Qed.
Print Assumptions C59_insert.

(** Three rules, one of them twice. *)
Definition d59_passwd : list N := [112; 97; 115; 115].
Definition d59_rules : list rule := [mkRule 1 (mkFK 7 2 d59_passwd) 20; mkRule 2 (mkFK 7 2 d59_passwd) 21; mkRule 1 (mkFK 7 2 d59_passwd) 20; mkRule 2 (mkFK 8 2 [97]) 20; mkRule 70 (mkFK 7 2 d59_passwd) 20].
Example d59_ok : consistent d59_rules /\ Forall storable d59_rules /\ snd (insert_all ft_init d59_rules) = [FAdded; FAdded; FExists 20; FAdded; FAdded] /\ ft_count (fst (insert_all ft_init d59_rules)) = 4.
Proof.
  split; [|split; [|split]].
  - intros a b A B (E1 & E2 & E3). cbn [d59_rules In] in A, B. repeat (destruct A as [<-|A]; [repeat (destruct B as [<-|B]; [cbn [f_src f_key f_new] in *; congruence|]); destruct B|]). destruct A.
  - unfold d59_rules, d59_passwd. repeat constructor; cbn [f_src f_key f_new fk_ttype fk_tclass fk_name length]; try lia; try discriminate.
  - vm_compute. reflexivity.
  - vm_compute. reflexivity.
Qed.

(** Expanding the rules of a policy, whatever they are: if it succeeds the table has exactly the rules asked for, counted. *)
Theorem C59_expand_table : forall l t, sets_ok l -> expand_filename_trans l ft_init = Some t -> (forall r, has t r <-> asked_by l r) /\ counted t.
Proof.
  intros l t S E. rewrite expand_run in E. destruct (helper_table _ _ [] _ init_inv (flat_src l S) E) as (l' & I & R). split; [|exact (inv_counted t l' I)].
  intros r. rewrite (has_in t l' r I), R, (flat_in l r S). cbn. tauto.
Qed.
Print Assumptions C59_expand_table.

(** If nothing conflicts (and there are fewer than 2^32-1 different rules) it succeeds. *)
Theorem C59_expand_accepts : forall l, sets_ok l -> (forall a b, asked_by l a -> asked_by l b -> ~ conflict a b) ->
  (forall U, NoDup U -> (forall x, In x U -> asked_by l x) -> N.of_nat (length U) < 4294967295) -> exists t, expand_filename_trans l ft_init = Some t.
Proof.
  intros l S C B. rewrite expand_run. destruct (helper_run ft_init (flat_map flat_rule l)) as [t|] eqn:E; [exists t; reflexivity|]. exfalso.
  apply (helper_accepts (flat_map flat_rule l) ft_init [] (flat_map flat_rule l)) in E; [exact E|exact init_inv|constructor|exact (flat_src l S)|intros x []|auto| |].
  - intros a b A X. apply C; apply (flat_in l); assumption.
  - intros U ND H. apply B; [exact ND|]. intros x X. apply (flat_in l x S), H, X.
Qed.
Print Assumptions C59_expand_accepts.

(** Sources {1 2}, target {7} and self. *)
Definition d59_source : list frule := [mkFR (mkE [(0, 3)] 64) (mkE [(0, 64)] 64) true 2 d59_passwd 20].
Example C59_expand_case : sets_ok d59_source /\ (forall a b, asked_by d59_source a -> asked_by d59_source b -> ~ conflict a b) /\
  option_map ft_count (expand_filename_trans d59_source ft_init) = Some 4.
Proof.
  split; [|split].
  - constructor; [|constructor]. split; (split; [cbn [fr_stypes fr_ttypes e_nodes valid_nodes]; repeat split; lia|reflexivity]).
  - intros a b (r1 & [<-|[]] & A) (r2 & [<-|[]] & B) (_ & _ & E). destruct A as (_ & _ & _ & _ & A & _), B as (_ & _ & _ & _ & B & _). congruence.
  - vm_compute. reflexivity.
Qed.

(** What one would expect as well, that conflicting rules are refused, is false: the walk over the data stops at the datum of the new type without looking for the source type in the data after it. Rules 1->20, 2->21, 2->20 are accepted; the
    policy has both 2->20 and 2->21, and in the newer format it is written to bytes that are refused. *)
Definition d59_conflict : list frule :=
  [mkFR (mkE [(0, 1)] 64) (mkE [(0, 64)] 64) false 2 d59_passwd 20; mkFR (mkE [(0, 2)] 64) (mkE [(0, 64)] 64) false 2 d59_passwd 21; mkFR (mkE [(0, 2)] 64) (mkE [(0, 64)] 64) false 2 d59_passwd 20].
Theorem C59_refuted_conflict : exists l t, sets_ok l /\ (exists a b, asked_by l a /\ asked_by l b /\ conflict a b) /\ expand_filename_trans l ft_init = Some t /\ filename_trans_read 33 (filename_trans_write 33 t) = None.
Proof.
  exists d59_conflict. assert (S : sets_ok d59_conflict) by (repeat (constructor; [split; (split; [cbn [fr_stypes fr_ttypes e_nodes valid_nodes]; repeat split; lia|reflexivity])|]); constructor).
  assert (FL : flat_map flat_rule d59_conflict = [mkRule 1 (mkFK 7 2 d59_passwd) 20; mkRule 2 (mkFK 7 2 d59_passwd) 21; mkRule 2 (mkFK 7 2 d59_passwd) 20]) by (vm_compute; reflexivity).
  destruct (expand_filename_trans d59_conflict ft_init) as [t|] eqn:E.
  - exists t. split; [exact S|]. split; [|split; [reflexivity|]].
    + exists (mkRule 2 (mkFK 7 2 d59_passwd) 20), (mkRule 2 (mkFK 7 2 d59_passwd) 21). split; [|split].
      * apply (proj1 (flat_in d59_conflict _ S)). rewrite FL. right. right. left. reflexivity.
      * apply (proj1 (flat_in d59_conflict _ S)). rewrite FL. right. left. reflexivity.
      * unfold conflict. cbn [f_src f_key f_new]. split; [reflexivity|]. split; [reflexivity|discriminate].
    + assert (X : option_map (fun t => filename_trans_read 33 (filename_trans_write 33 t)) (expand_filename_trans d59_conflict ft_init) = Some None) by (vm_compute; reflexivity). rewrite E in X. cbn [option_map] in X. exact (some_inj _ _ X).
  - exfalso. revert E. vm_compute. discriminate.
Qed.
Print Assumptions C59_refuted_conflict.

(** Both formats keep the rules: tables of rules without conflicts, written for any policy version that has such rules and read back, whatever follows, are tables of the same rules with the same count. *)
Theorem C59_round_trip : forall l v rest, consistent l -> Forall storable l -> N.of_nat (length l) < 4294967296 -> 25 <= v ->
  exists t', filename_trans_read v (filename_trans_write v (fst (insert_all ft_init l)) ++ rest) = Some (t', rest) /\ table_of t' l /\ ft_count t' = ft_count (fst (insert_all ft_init l)).
Proof.
  intros l v rest C F B HV. destruct (insert_all_spec l ft_init [] [] init_inv) as (t & l' & E & I & R & P).
  - intros x. reflexivity.
  - exact C.
  - eapply Forall_impl; [|exact F]. intros r ((H & _) & _). exact H.
  - exact B.
  - rewrite E. cbn [fst]. assert (R' : forall x, In x (rules_of l') <-> In x l) by (intros x; rewrite R; cbn; tauto). destruct (io_trip t l' v rest I) as (t' & E' & H & CT & _).
    + apply (consistent_same l); [intros x; symmetry; apply R'|exact C].
    + apply (storable_entries t l' l I F). intros k o X. destruct (P k o X) as [(d & e & [] & _)|Y]; exact Y.
    + exact HV.
    + intros _. assert (X : (lcount l' <= length l)%nat); [|lia]. rewrite <- rules_len. apply NoDup_incl_length; [apply (inv_rules t l' I)|]. intros x. apply R'.
    + exists t'. split; [exact E'|]. split; [|exact CT]. intros r. rewrite H, (has_in t l' r I). apply R'.
Qed.
Print Assumptions C59_round_trip.
Example C59_round_trip_case : length (filename_trans_write 33 (fst (insert_all ft_init d59_rules))) = 137%nat /\ length (filename_trans_write 30 (fst (insert_all ft_init d59_rules))) = 97%nat.
Proof. split; vm_compute; reflexivity. Qed.

(** Whatever bytes are accepted in the newer format, the table gives at most one new type in every situation, and its counter is right. *)
Theorem C59_read : forall v bs t rest, 33 <= v -> Forall octet bs -> filename_trans_read v bs = Some (t, rest) -> one_answer t /\ counted t /\ exists used, bs = used ++ rest.
Proof.
  intros v bs t rest HV O E. unfold filename_trans_read in E. destruct (N.ltb_spec v 33); [lia|]. destruct (get32 bs) as [[n b]|] eqn:G; [|discriminate]. cbn [rbind] in E. destruct (get32_only bs n b O G) as (_ & u & ->).
  destruct (read_rounds_ok _ _ [] _ _ _ init_inv (octet_rest _ _ O) E) as ((u2 & ->) & l & I & FN & _); [intros k d []|constructor|]. split; [|split; [exact (inv_counted t l I)|exists (u ++ u2); apply app_assoc]].
  intros a c A X. apply (has_in t l _ I) in A, X. revert A X. apply (data_consistent l); [apply I|apply I|exact FN].
Qed.
Print Assumptions C59_read.

(** A table read so, without empty names, can be written in either format again (in the older one if it has fewer than 2^32 rules) and read back. *)
Theorem C59_rewrite : forall v bs t rest v2 rest2, 33 <= v -> Forall octet bs -> filename_trans_read v bs = Some (t, rest) -> (forall k d, ft_search t k = Some d -> fk_name k <> []) ->
  25 <= v2 -> (v2 < 33 -> forall U, NoDup U -> table_of t U -> N.of_nat (length U) < 4294967296) ->
  exists t', filename_trans_read v2 (filename_trans_write v2 t ++ rest2) = Some (t', rest2) /\ (forall r, has t' r <-> has t r) /\ ft_count t' = ft_count t.
Proof.
  intros v bs t rest v2 rest2 HV O E NM HV2 SM. unfold filename_trans_read in E. destruct (N.ltb_spec v 33); [lia|]. destruct (get32 bs) as [[n b]|] eqn:G; [|discriminate]. cbn [rbind] in E. destruct (get32_only bs n b O G) as (_ & u & ->).
  destruct (read_rounds_ok _ _ [] _ _ _ init_inv (octet_rest _ _ O) E) as ((u2 & ->) & l & I & FN & SE); [intros k d []|constructor|].
  destruct (io_trip t l v2 rest2 I) as (t' & E' & H' & CT & _).
  - apply (data_consistent l); [apply I|apply I|exact FN].
  - apply Forall_forall. intros [k d] X. rewrite Forall_forall in SE. apply SE; [exact X|]. cbn [fst]. apply (NM k d). apply (search_in t l k d (proj1 I)), X.
  - exact HV2.
  - intros LT. specialize (SM LT (rules_of l) (inv_rules t l I)). rewrite rules_len in SM. apply SM. intros r. apply has_in, I.
  - exists t'. auto.
Qed.
Print Assumptions C59_rewrite.
Definition d59_bytes : list N := Eval vm_compute in filename_trans_write 33 (fst (insert_all ft_init d59_rules)).
Example C59_read_case : forallb (fun b => b <? 256) d59_bytes = true /\ option_map (fun x => (ft_count (fst x), snd x, map (fun e : fkey * list (ebitmap * N) => fk_name (fst e)) (concat (h_slots (ft_tab (fst x)))))) (filename_trans_read 33 d59_bytes) = Some (4, [], [d59_passwd; [97]]).
Proof. split; vm_compute; reflexivity. Qed.

(** In the older format too the counter is right and only a beginning of the bytes is used; *)
Theorem C59_read_old_partial : forall v bs t rest, v < 33 -> Forall octet bs -> filename_trans_read v bs = Some (t, rest) -> counted t /\ exists used, bs = used ++ rest.
Proof.
  intros v bs t rest HV O E. unfold filename_trans_read in E. destruct (N.ltb_spec v 33); [|lia]. destruct (get32 bs) as [[n b]|] eqn:G; [|discriminate]. cbn [rbind] in E. destruct (get32_only bs n b O G) as (_ & u & ->).
  destruct (read_compat_ok _ _ [] _ _ _ init_inv (octet_rest _ _ O) E) as ((u2 & ->) & l & I). split; [exact (inv_counted t l I)|exists (u ++ u2); apply app_assoc].
Qed.
Print Assumptions C59_read_old_partial.

(** but conflicting rules in it are not always found, and then the policy cannot be stored in the newer format. *)
Definition d59_old : list N := Eval vm_compute in
  put32 3 ++ write_compat_entry (mkFK 7 2 [97]) 20 0 ++ write_compat_entry (mkFK 7 2 [97]) 21 1 ++ write_compat_entry (mkFK 7 2 [97]) 20 1.
Theorem C59_refuted_old : exists bs t, Forall octet bs /\ filename_trans_read 30 bs = Some (t, []) /\ ~ one_answer t /\ filename_trans_read 33 (filename_trans_write 33 t) = None.
Proof.
  exists d59_old. destruct (filename_trans_read 30 d59_old) as [[t rest]|] eqn:E; [|exfalso; revert E; vm_compute; discriminate]. exists t.
  assert (X : option_map (fun x => (snd x, filename_trans_read 33 (filename_trans_write 33 (fst x)), ft_search (fst x) (mkFK 7 2 [97]))) (filename_trans_read 30 d59_old) = Some ([], None, Some [(mkE [(0, 3)] 64, 20); (mkE [(0, 2)] 64, 21)])) by (vm_compute; reflexivity).
  rewrite E in X. cbn [option_map fst snd] in X. injection X as X1 X2 X3. split; [|split; [congruence|split; [|exact X2]]].
  - unfold d59_old. repeat (constructor; [unfold octet; lia|]). constructor.
  - intros H. assert (M3 : member (mkE [(0, 3)] 64) 1) by (exists 0, 3; split; [left; reflexivity|]; split; [lia|split; [lia|reflexivity]]). assert (M2 : member (mkE [(0, 2)] 64) 1) by (exists 0, 2; split; [left; reflexivity|]; split; [lia|split; [lia|reflexivity]]).
    apply (H (mkRule 2 (mkFK 7 2 [97]) 20) (mkRule 2 (mkFK 7 2 [97]) 21)).
    + exists [(mkE [(0, 3)] 64, 20); (mkE [(0, 2)] 64, 21)], (mkE [(0, 3)] 64). cbn [f_src f_key f_new]. split; [exact X3|]. split; [left; reflexivity|]. split; [lia|exact M3].
    + exists [(mkE [(0, 3)] 64, 20); (mkE [(0, 2)] 64, 21)], (mkE [(0, 2)] 64). cbn [f_src f_key f_new]. split; [exact X3|]. split; [right; left; reflexivity|]. split; [lia|exact M2].
    + unfold conflict. cbn [f_src f_key f_new]. split; [reflexivity|]. split; [reflexivity|discriminate].
Qed.
Print Assumptions C59_refuted_old.

(** A name that begins with NUL is accepted, as an empty name, and what is then written is refused. *)
Definition d59_nul : list N := Eval vm_compute in put32 1 ++ put32 1 ++ [0] ++ put32 7 ++ put32 2 ++ put32 1 ++ ebitmap_write (mkE [(0, 1)] 64) ++ put32 20.
Theorem C59_refuted_name : exists bs t, Forall octet bs /\ filename_trans_read 33 bs = Some (t, []) /\ filename_trans_read 33 (filename_trans_write 33 t) = None.
Proof.
  exists d59_nul. destruct (filename_trans_read 33 d59_nul) as [[t rest]|] eqn:E; [|exfalso; revert E; vm_compute; discriminate]. exists t.
  assert (X : option_map (fun x => (snd x, filename_trans_read 33 (filename_trans_write 33 (fst x)))) (filename_trans_read 33 d59_nul) = Some ([], None)) by (vm_compute; reflexivity).
  rewrite E in X. cbn [option_map fst snd] in X. injection X as X1 X2. split; [|split; [congruence|exact X2]]. unfold d59_nul. repeat (constructor; [unfold octet; lia|]). constructor.
Qed.
Print Assumptions C59_refuted_name.

(** An insertion that fails is counted all the same: the written count is then one too many and the policy is refused in the older format. *)
Theorem C59_refuted_failed : exists t, snd (filetrans_insert ft_init 4294967295 (mkFK 7 2 [97]) 20) = FFailed /\ t = fst (filetrans_insert ft_init 4294967295 (mkFK 7 2 [97]) 20) /\ ft_count t = 1 /\
  filename_trans_read 30 (filename_trans_write 30 t) = None.
Proof.
  eexists. split; [vm_compute; reflexivity|]. split; [reflexivity|]. split; [vm_compute; reflexivity|vm_compute; reflexivity].
Qed.
Print Assumptions C59_refuted_failed.
