(** Property theorems for hash tables and symbol tables (C22). *)
From Coq Require Import Permutation.
From Verif Require Import Base MlsModel ContextProofs HashtabModel HashtabSpec HashtabProofs.

(** C22. For every hash function with values below the table size and every comparison that orders the keys:
    whatever the initial size and the history of insertions, removals and searches, with any of the
    allocations failing, every result is that of an association list; the element count is exact; the
    entries a map visits are those of the list. *)
Theorem C22_finite_map : forall (K V : Type) (hash : N -> K -> N) (cmp : K -> K -> comparison),
  total_order cmp -> (forall size k, 1 <= size -> hash size k < size) ->
  forall size (ops : list (@hop K V)) eqb, (forall a b, eqb a b = true <-> a = b) -> 1 <= size -> size < 4294967296 ->
  forall h outs l outs', hrun hash cmp (hashtab_create size) ops = (h, outs) -> ref_run eqb [] ops = (l, outs') ->
  outs = outs' /\ h_nel h = N.of_nat (length l) /\
  (forall k, hashtab_search hash cmp h k = assoc eqb l k) /\
  NoDup (map fst l) /\ Permutation (concat (h_slots h)) l.
Proof.
  intros K V hash cmp TO HR size ops eqb EQ L U h outs l outs' E E'.
  assert (X : forall a b, eqb a b = keqb cmp a b).
  { intros a b. apply bool_ext. rewrite EQ, (keqb_eq cmp TO). reflexivity. }
  assert (Xa : forall (l : list (K * V)) k, assoc eqb l k = assoc (keqb cmp) l k).
  { intros l0 k. unfold assoc. f_equal. induction l0 as [|e l0 IH]; cbn [find]; [reflexivity|]. rewrite X, IH. reflexivity. }
  assert (Xr : forall (ops : list (@hop K V)) l, ref_run eqb l ops = ref_run (keqb cmp) l ops).
  { intros ops0. induction ops0 as [|o ops0 IH]; intros l0; cbn [ref_run]; [reflexivity|].
    assert (S : ref_step eqb l0 o = ref_step (keqb cmp) l0 o).
    { destruct o as [k v m1 m2|k|k]; cbn [ref_step]; rewrite Xa; [reflexivity| |reflexivity].
      rewrite (filter_ext (fun e : K * V => negb (eqb k (fst e))) (fun e => negb (keqb cmp k (fst e)))); [reflexivity|]. intros e. rewrite X. reflexivity. }
    rewrite S. destruct (ref_step (keqb cmp) l0 o). rewrite IH. reflexivity. }
  rewrite Xr in E'. destruct (run_rep hash cmp TO HR ops (hashtab_create size) [] (create_rep hash cmp HR size L U)) as [R O].
  rewrite E, E' in R, O. cbn [fst snd] in *. split; [exact O|split; [exact (rep_len hash cmp h l R)|split; [|split; apply R]]].
  intros k. rewrite Xa. exact (rep_search hash cmp TO h l k R).
Qed.
Print Assumptions C22_finite_map.

(** C22. The symbol tables (symhash, strcmp) are such tables. *)
Theorem C22_symbol_tables : forall (V : Type) size (ops : list (@hop (list N) V)), 1 <= size -> size < 4294967296 ->
  forall h outs l outs', hrun symhash symcmp (hashtab_create size) ops = (h, outs) -> ref_run str_eqb [] ops = (l, outs') ->
  outs = outs' /\ h_nel h = N.of_nat (length l) /\
  (forall k, hashtab_search symhash symcmp h k = assoc str_eqb l k) /\
  NoDup (map fst l) /\ Permutation (concat (h_slots h)) l.
Proof.
  intros V size ops L U. apply (C22_finite_map (list N) V symhash symcmp symcmp_order symhash_range size ops str_eqb ContextProofs.str_eqb_eq L U).
Qed.
Print Assumptions C22_symbol_tables.

(** C22. hashtab_map applies the function to the entries one by one, to all of them unless the function
    returns an error. *)
Theorem C22_map_visits : forall (K V A : Type) (apply : A -> K -> V -> A * Z) (h : htab K V) a,
  exists seen rest, concat (h_slots h) = seen ++ rest /\
    fst (hashtab_map apply h a) = fold_left (fun x e => fst (apply x (fst e) (snd e))) seen a /\
    (snd (hashtab_map apply h a) = 0%Z -> rest = []).
Proof. intros K V A apply h a. exact (map_loop_spec apply (concat (h_slots h)) a). Qed.
Print Assumptions C22_map_visits.

(** A table of size 1 that grows while three symbols are inserted; a repeated insertion, a removal, a failed
    allocation and searches. *)
Example C22_case :
  let ops := [HInsert [98] 1 true true; HInsert [97] 2 true true; HInsert [97; 97] 3 false true; HInsert [97] 9 true true;
              HRemove [98]; HInsert [99] 4 true false; HSearch [97]; HSearch [98]; HSearch [97; 97]] in
  snd (hrun symhash symcmp (hashtab_create 1) ops) =
    [HRes HOk; HRes HOk; HRes HOk; HRes HEexist; HRes HOk; HRes HNomem; HFound (Some 2); HFound None; HFound (Some 3)] /\
  h_size (fst (hrun symhash symcmp (hashtab_create 1) ops)) = 4.
Proof. vm_compute. split; reflexivity. Qed.
