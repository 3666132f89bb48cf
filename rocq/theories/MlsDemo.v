(** A concrete MLS policy used as the non-trivial case beside the MLS and context theorems: two
    sensitivities, 200 categories, one user, two roles, three types. *)
From Verif Require Import Base EbitmapModel EbitmapSpec EbitmapProofs MlsModel MlsSpec ContextModel ContextSpec.

(** Demo data, models no code. *)
Definition demo_all : ebitmap :=
  match ebitmap_init_range 0 199 with RangeOk e => e | _ => ebitmap_init end.
(** Demo data, models no code. *)
Definition demo_set (l : list N) : ebitmap := write_all (map (fun b => (b, true)) l) ebitmap_init.
(** Demo data, models no code. *)
Definition demo_name (base n : N) (v : N) : option (list N) :=
  if (1 <=? v) && (v <=? n) then Some [base; 128 + v / 16; 128 + v mod 16] else None.
(** Demo data, models no code. *)
Definition demo_find (base n : N) (s : list N) : option N :=
  match s with
  | [c; a; b] =>
      let v := (a - 128) * 16 + (b - 128) in
      if (c =? base) && (1 <=? v) && (v <=? n) && (128 <=? a) && (128 <=? b) && (b <? 144) then Some v else None
  | _ => None
  end.
(** Demo data, models no code. *)
Definition demo : policy :=
  mkP true 2 200 1 2 3
      (demo_name 115 2) (demo_name 99 200) (demo_name 117 1) (demo_name 114 2) (demo_name 116 3)
      (fun s => match demo_find 115 2 s with Some v => Some (mkL v demo_all) | None => None end)
      (demo_find 99 200) (demo_find 117 1) (demo_find 114 2)
      (fun s => match demo_find 116 3 s with Some v => Some (v, false) | None => None end)
      (fun u => if u =? 1 then Some (demo_set [0; 1], mkR (mkL 1 ebitmap_init) (mkL 2 demo_all)) else None)
      (fun r => if r =? 2 then Some (demo_set [0; 2]) else if r =? 1 then Some ebitmap_init else None).

Lemma demo_find_name base n v nm : demo_name base n v = Some nm -> n <= 250 -> demo_find base n nm = Some v.
Proof.
  intros H Hn. revert H. unfold demo_name, demo_find. destruct (N.leb_spec 1 v); [|discriminate].
  destruct (N.leb_spec v n); [|discriminate]. cbn [andb]. intros [= <-].
  assert (E : (128 + v / 16 - 128) * 16 + (128 + v mod 16 - 128) = v).
  { pose proof (N.div_mod v 16). lia. }
  rewrite E. pose proof (N.mod_lt v 16).
  rewrite N.eqb_refl. destruct (N.leb_spec 1 v); [|lia]. destruct (N.leb_spec v n); [|lia].
  destruct (N.leb_spec 128 (128 + v / 16)); [|lia]. destruct (N.leb_spec 128 (128 + v mod 16)); [|lia].
  destruct (N.ltb_spec (128 + v mod 16) 144); [reflexivity|lia].
Qed.

Lemma demo_clean base n v nm : demo_name base n v = Some nm -> 60 <= base -> clean nm = true /\ ~ In 58 nm /\ ~ In 0 nm.
Proof.
  intros H Hb. revert H. unfold demo_name. destruct ((1 <=? v) && (v <=? n)); [|discriminate]. intros [= <-].
  generalize (v / 16) (v mod 16). intros x y. split; [|split].
  - unfold clean. cbn [forallb]. lia.
  - cbn [In]. lia.
  - cbn [In]. lia.
Qed.

Lemma demo_range base n v nm : demo_name base n v = Some nm -> 1 <= v /\ v <= n.
Proof. unfold demo_name. destruct ((1 <=? v) && (v <=? n)) eqn:E; [|discriminate]. lia. Qed.

Lemma demo_names_ok : names_ok demo.
Proof.
  split; intros v nm H; cbn [demo p_sens_name p_cat_name p_level_find p_cat_find] in *.
  - split; [exact (proj1 (demo_clean 115 2 v nm H ltac:(lia)))|].
    rewrite (demo_find_name 115 2 v nm H ltac:(lia)). eexists. split; reflexivity.
  - split; [exact (proj1 (demo_clean 99 200 v nm H ltac:(lia)))|].
    rewrite (demo_find_name 99 200 v nm H ltac:(lia)). split; [reflexivity|]. apply demo_range in H. lia.
Qed.

Lemma demo_idents_ok : idents_ok demo.
Proof.
  split; [|split; [|split; [|split]]]; intros v nm H;
    cbn [demo p_sens_name p_cat_name p_user_name p_role_name p_type_name p_user_find p_role_find p_type_find] in *.
  - split; [exact (proj2 (demo_clean _ _ v nm H ltac:(lia)))|exact (demo_find_name _ _ v nm H ltac:(lia))].
  - split; [exact (proj2 (demo_clean _ _ v nm H ltac:(lia)))|exact (demo_find_name _ _ v nm H ltac:(lia))].
  - split; [exact (proj2 (demo_clean _ _ v nm H ltac:(lia)))|].
    rewrite (demo_find_name _ _ v nm H ltac:(lia)). reflexivity.
  - exact (proj2 (proj2 (demo_clean _ _ v nm H ltac:(lia)))).
  - exact (proj2 (proj2 (demo_clean _ _ v nm H ltac:(lia)))).
Qed.

(** Checking membership in a concrete bitmap by computation. *)
Lemma demo_member e : valid e ->
  (forall b, member e b -> b < e_high e).
Proof. intros V b H. apply (nget_high e b V). apply (nget_member e b V). exact H. Qed.

(** Computable check of canonicity; models no code. *)
Fixpoint check_nodes (lo : N) (l : list (N * N)) : bool :=
  match l with
  | [] => true
  | (s, m) :: t => (lo <=? s) && (s mod 64 =? 0) && (0 <? m) && (m <? 18446744073709551616)
        && (s + 64 <? 4294967296) && check_nodes (s + 64) t
  end.

Lemma check_nodes_valid l : forall lo, check_nodes lo l = true -> valid_nodes lo l.
Proof.
  induction l as [|[s m] t IH]; intros lo H; [exact I|]. cbn [check_nodes] in H.
  apply andb_prop in H as [H H']. cbn [valid_nodes]. specialize (IH _ H'). repeat split; try assumption; lia.
Qed.

Lemma valid_check e : check_nodes 0 (e_nodes e) = true -> e_high e = high_of_last (e_nodes e) -> valid e.
Proof.
  intros H1 H2. destruct e as [l h]. cbn [e_nodes e_high] in *. subst h. apply valid_mk.
  apply check_nodes_valid. exact H1.
Qed.

Lemma demo_all_valid : valid demo_all.
Proof. apply valid_check; vm_compute; reflexivity. Qed.

Lemma demo_canonical : policy_canonical demo.
Proof.
  split; [|split].
  - intros k ld. cbn [demo p_level_find]. destruct (demo_find 115 2 k); [|discriminate]. intros [= <-]. apply demo_all_valid.
  - intros u roles rng. cbn [demo p_user_struct]. destruct (u =? 1); [|discriminate]. intros [= <- <-].
    split; [apply valid_check; vm_compute; reflexivity|]. split; [apply valid_init|apply demo_all_valid].
  - intros r types. cbn [demo p_role_struct]. destruct (r =? 2); [intros [= <-]; apply valid_check; vm_compute; reflexivity|].
    destruct (r =? 1); [|discriminate]. intros [= <-]. apply valid_init.
Qed.

Lemma demo_named l : valid (l_cat l) -> (forall b, member (l_cat l) b -> b < 200) ->
  1 <= l_sens l -> l_sens l <= 2 -> level_named demo l.
Proof.
  intros V H1 H2 H3. split.
  - cbn [demo p_sens_name]. unfold demo_name. destruct (N.leb_spec 1 (l_sens l)); [|lia].
    destruct (N.leb_spec (l_sens l) 2); [discriminate|lia].
  - intros b Hb. apply H1 in Hb. cbn [demo p_cat_name]. unfold demo_name.
    destruct (N.leb_spec 1 (b + 1)); [|lia]. destruct (N.leb_spec (b + 1) 200); [discriminate|lia].
Qed.

(** Two category sets: one that prints correctly and one with a gap. *)
Definition demo_good : ebitmap := demo_set [1; 5; 6; 10; 11; 12; 63; 64; 130; 131].
(** Demo data, models no code. *)
Definition demo_gap : ebitmap := demo_set [62; 63; 128].

Lemma demo_bits e : valid e -> forall b, member e b ->
  In b (match positive_bits e with Some l => l | None => [] end).
Proof. intros V b H. destruct (positive_bits_correct e V) as (l & -> & _ & Hl). apply Hl. exact H. Qed.

Lemma demo_good_valid : valid demo_good.
Proof. apply valid_check; vm_compute; reflexivity. Qed.
Lemma demo_gap_valid : valid demo_gap.
Proof. apply valid_check; vm_compute; reflexivity. Qed.

Lemma demo_in e l : valid e -> positive_bits e = Some l -> forall b, member e b <-> In b l.
Proof. intros V E b. destruct (positive_bits_correct e V) as (l' & E' & _ & Hl). rewrite E in E'. injection E' as <-. symmetry. apply Hl. Qed.

Lemma demo_good_in b : member demo_good b <-> In b [1; 5; 6; 10; 11; 12; 63; 64; 130; 131].
Proof. apply demo_in; [apply demo_good_valid|vm_compute; reflexivity]. Qed.
Lemma demo_gap_in b : member demo_gap b <-> In b [62; 63; 128].
Proof. apply demo_in; [apply demo_gap_valid|vm_compute; reflexivity]. Qed.
Lemma init_in b : member ebitmap_init b <-> In b [].
Proof. apply demo_in; [apply valid_init|vm_compute; reflexivity]. Qed.

Lemma demo_good_nogap : no_word_gap demo_good.
Proof.
  intros b c Hb Hm Hc Hlt. apply demo_good_in in Hb. cbn [In] in Hb.
  assert (b = 63 \/ b mod 64 <> 63) as [->|Hx]; [|exists 64; split; [apply demo_good_in; cbn; lia|lia]|congruence].
  decompose [or] Hb; subst; try (left; reflexivity); try (right; vm_compute; discriminate). contradiction.
Qed.
