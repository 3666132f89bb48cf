(** Property theorems for the access vector table (C11, C12). *)
From Coq Require Import Permutation.
From Verif Require Import Base AvtabModel AvtabSpec AvtabProofs.

(** C11. After any history of insertions into a fresh table, walking the table visits exactly the
    entries the history left, each once. *)
Theorem C11_contents : forall h a n, n <> 0 ->
  Permutation (avtab_map_list (run h (avtab_alloc a n))) (entries h []).
Proof.
  intros h a n Hn. destruct (alloc_spec a n Hn) as (W & E & L).
  destruct (run_spec h _ [] W E) as (_ & _ & P); [rewrite L; constructor|exact P].
Qed.
Print Assumptions C11_contents.

(** C11. Lookups: an answer is the datum of a matching entry, and "not found" means there is none. *)
Theorem C11_search_sound_complete : forall h a n k, n <> 0 ->
  match avtab_search (run h (avtab_alloc a n)) k with
  | None => forall e, In e (entries h []) -> entry_matches k e = false
  | Some d => exists e, In e (entries h []) /\ entry_matches k e = true /\ d = n_datum e
  end.
Proof.
  intros h a n k Hn. destruct (alloc_spec a n Hn) as (W & E & L).
  destruct (run_spec h _ [] W E) as (W' & _ & P); [rewrite L; constructor|].
  pose proof (search_spec _ k W') as HS. destruct (avtab_search _ k) as [d|].
  - destruct HS as (e & H1 & H2 & H3). exists e. split; [exact (Permutation_in _ P H1)|auto].
  - intros e He. apply HS. exact (Permutation_in _ (Permutation_sym P) He).
Qed.
Print Assumptions C11_search_sound_complete.

(** C11. With unique insertions of one-specifier keys, a lookup (extended permissions apart) returns
    the datum of the first insertion of that key, and nothing if there was none. *)
Theorem C11_lookup_exact : forall h a n k, n <> 0 ->
  Forall (fun o => op_unique o = true /\ one_spec (k_spec (op_key o))) h ->
  one_spec (k_spec k) -> is_xperm_key k = false ->
  avtab_search (run h (avtab_alloc a n)) k = first_inserted h k.
Proof.
  intros h a n k Hn Hh Hk Hx. destruct (alloc_spec a n Hn) as (W & E & L).
  exact (lookup_first h _ k W E L Hk Hx Hh).
Qed.
Print Assumptions C11_lookup_exact.

(** C11. A further unique insertion is refused as duplicate exactly when a matching entry is present
    and the key is not an extended permission key; otherwise it adds exactly that entry. *)
Theorem C11_insert : forall h a n uniq k d, n <> 0 ->
  match avtab_insert_gen uniq (run h (avtab_alloc a n)) k d with
  | InsNoMem => False
  | InsExists => uniq = true /\ is_xperm_key k = false /\ existsb (entry_matches k) (entries h []) = true
  | InsOk h' => Permutation (avtab_map_list h') (stored k d :: entries h []) /\
      (uniq = true -> is_xperm_key k = false -> existsb (entry_matches k) (entries h []) = false)
  end.
Proof.
  intros h a n uniq k d Hn. destruct (alloc_spec a n Hn) as (W & E & L).
  destruct (run_spec h _ [] W E) as (W' & E' & P); [rewrite L; constructor|].
  pose proof (insert_spec uniq _ k d W' E') as HI. rewrite (existsb_perm _ _ _ P) in HI.
  destruct (avtab_insert_gen _ _ k d); [|exact HI|exact HI].
  destruct HI as (_ & _ & P' & _ & U). split; [|exact U]. eapply perm_trans; [exact P'|]. apply perm_skip. exact P.
Qed.
Print Assumptions C11_insert.

(** C11. The element count kept by the table is the number of entries (modulo 2^32). *)
Theorem C11_count : forall h a n, n <> 0 ->
  a_nel (run h (avtab_alloc a n)) = N.of_nat (length (entries h [])) mod 4294967296.
Proof.
  intros h a n Hn. destruct (alloc_spec a n Hn) as (W & E & L).
  destruct (run_spec h _ [] W E) as (_ & _ & P); [rewrite L; constructor|].
  rewrite <- (Permutation_length P). apply run_nel; [exact W|exact E|]. rewrite L.
  unfold avtab_alloc. destruct (n =? 0); reflexivity.
Qed.
Print Assumptions C11_count.

(** C12. The search-first / search-next loop visits exactly the matching entries, each once, also
    when several entries (extended permissions, conditional rules) share the key. *)
Theorem C12_enumeration : forall h a n k, n <> 0 ->
  Permutation (avtab_nodes_for (run h (avtab_alloc a n)) k) (filter (entry_matches k) (entries h [])).
Proof.
  intros h a n k Hn. destruct (alloc_spec a n Hn) as (W & E & L).
  destruct (run_spec h _ [] W E) as (W' & _ & P); [rewrite L; constructor|].
  rewrite (nodes_for_spec _ k W'). apply perm_filter. exact P.
Qed.
Print Assumptions C12_enumeration.

(** C12. The order in which a key's entries are met: newest first. *)
Theorem C12_newest_first : forall h a n k, n <> 0 -> Forall (fun o => one_spec (k_spec (op_key o))) h -> one_spec (k_spec k) ->
  avtab_nodes_for (run h (avtab_alloc a n)) k = filter (entry_matches k) (entries h []).
Proof.
  intros h a n k Hn HO O. destruct (alloc_spec a n Hn) as (W & E & L). destruct (run_order h HO _ [] W E) as (W' & P); [rewrite L; reflexivity|].
  rewrite (nodes_for_spec _ k W'). apply P. exact O.
Qed.
Print Assumptions C12_newest_first.

(** C12. Every extended permission insertion is kept: none is refused or merged. *)
Theorem C12_xperm_inserts_kept : forall h a n k d, n <> 0 -> is_xperm_key k = true ->
  exists h', avtab_insert (run h (avtab_alloc a n)) k d = InsOk h' /\
    Permutation (avtab_map_list h') (stored k d :: entries h []).
Proof.
  intros h a n k d Hn Hx. pose proof (C11_insert h a n true k d Hn) as HI. fold avtab_insert in HI.
  destruct (avtab_insert _ k d) as [h'| |].
  - exists h'. split; [reflexivity|apply HI].
  - destruct HI as (_ & E & _). congruence.
  - destruct HI.
Qed.
Print Assumptions C12_xperm_inserts_kept.

(** A non-trivial history: two allow rules (one duplicate), two xperm rules on one key, a transition
    and a conditional (non-unique) duplicate. *)
Example C11_C12_case :
  let al := mkK 3 4 2 1 in let xp := mkK 3 4 2 256 in let tr := mkK 3 4 2 16 in
  let x1 := mkD 0 (Some (mkX 1 5 [1])) in let x2 := mkD 0 (Some (mkX 1 6 [2])) in
  let h := [OpIns true al (mkD 7 None); OpIns true xp x1; OpIns true al (mkD 9 None); OpIns true xp x2;
            OpIns true tr (mkD 12 None); OpIns true (mkK 3 4 1 1) (mkD 1 None); OpIns false al (mkD 5 None)] in
  let t := run h (avtab_alloc avtab_init 6) in
  length (entries h []) = 6%nat /\ a_nel t = 6 /\
  map n_datum (avtab_nodes_for t xp) = [x2; x1] /\
  avtab_search t tr = Some (mkD 12 None) /\ avtab_search t (mkK 4 3 2 1) = None /\
  map n_datum (avtab_nodes_for t al) = [mkD 5 None; mkD 7 None] /\
  avtab_search (run (firstn 6 h) (avtab_alloc avtab_init 6)) al = Some (mkD 7 None).
Proof. vm_compute. repeat split; reflexivity. Qed.

(** The hypotheses of C11_lookup_exact are met by that history (without its last operation). *)
Example C11_lookup_case :
  let al := mkK 3 4 2 1 in let xp := mkK 3 4 2 256 in
  Forall (fun o => op_unique o = true /\ one_spec (k_spec (op_key o)))
    [OpIns true al (mkD 7 None); OpIns true xp (mkD 0 None); OpIns true (mkK 1 1 1 32784) (mkD 9 None)].
Proof.
  repeat constructor; cbn [op_key k_spec].
  - exists 0. reflexivity.
  - exists 8. reflexivity.
  - exists 4. reflexivity.
Qed.

(** Two ioctl entries and one enabled branch entry under one key: met newest first. *)
Example C12_newest_first_case :
  let h := [OpIns true (mkK 3 4 2 256) (mkD 1 None); OpIns true (mkK 3 4 2 1) (mkD 7 None); OpIns true (mkK 3 4 2 256) (mkD 2 None); OpIns false (mkK 3 4 2 33024) (mkD 3 None)] in
  Forall (fun o => one_spec (k_spec (op_key o))) h /\ map (fun e => d_data (n_datum e)) (avtab_nodes_for (run h (avtab_alloc avtab_init 4)) (mkK 3 4 2 256)) = [3; 2; 1].
Proof.
  split; [|vm_compute; reflexivity]. repeat constructor; cbn [op_key k_spec].
  - exists 8. reflexivity.
  - exists 0. reflexivity.
  - exists 8. reflexivity.
  - exists 8. reflexivity.
Qed.
