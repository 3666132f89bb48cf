(** Property theorems for bitmaps (C01-C06). *)
From Coq Require Import Sorted.
From Verif Require Import Base EbitmapModel EbitmapSpec EbitmapProofs.

(** C01. Any history of writes from the empty bitmap: each bit reads as the last accepted write. *)
Theorem C01_set_get_history :
  forall (h : list (N * bool)), Forall (fun w => fst w < 4294967296) h ->
  forall b, ebitmap_get_bit (write_all h ebitmap_init) b = last_write h b.
Proof.
  intros h Hh b. destruct (write_all_spec h Hh ebitmap_init valid_init) as [V G].
  rewrite (get_bit_nget _ b V). exact (G b).
Qed.
Print Assumptions C01_set_get_history.

(** C01. Writes below 2^32-64 always succeed; others are refused (and return no new bitmap). *)
Theorem C01_set_accepts :
  forall e b v, valid e -> b < 4294967296 ->
  ((exists e', ebitmap_set_bit e b v = Some e') <-> b < 4294967232).
Proof.
  intros e b v V Hb. split.
  - intros [e' E]. destruct (N.lt_ge_cases b 4294967232) as [H|H]; [exact H|].
    rewrite (set_bit_refused e b v Hb H) in E. discriminate.
  - intros H. destruct (set_bit_ok e b v V H) as (e' & E & _). exists e'. exact E.
Qed.
Print Assumptions C01_set_accepts.

Example C01_case :
  let h := [(3, true); (200, true); (70, true); (200, false); (3, true); (4294967290, true)] in
  map (ebitmap_get_bit (write_all h ebitmap_init)) [3; 70; 200; 4; 4294967290]
  = [true; true; false; false; false].
Proof. vm_compute. reflexivity. Qed.

(** C02. Equality as reported by the library is equality of member sets, for everything that can be
    built through the interface. *)
Theorem C02_cmp_is_set_equality :
  forall e1 e2, built e1 -> built e2 ->
  (ebitmap_cmp e1 e2 = true <-> (forall b, member e1 b <-> member e2 b)).
Proof. intros e1 e2 B1 B2. exact (cmp_spec e1 e2 (built_valid e1 B1) (built_valid e2 B2)). Qed.
Print Assumptions C02_cmp_is_set_equality.

(** C02. Everything built through the interface is canonical and [ebitmap_get_bit] tests membership. *)
Theorem C02_built_canonical :
  forall e, built e -> valid e /\ forall b, ebitmap_get_bit e b = true <-> member e b.
Proof.
  intros e B. split; [exact (built_valid e B)|]. intro b. exact (get_bit_member e b (built_valid e B)).
Qed.
Print Assumptions C02_built_canonical.

Example C02_case : exists e1 e2, built e1 /\ built e2 /\ e_nodes e1 <> [] /\
  ebitmap_cmp e1 e2 = true /\ ebitmap_cmp e1 ebitmap_init = false.
Proof.
  exists (mkE [(0, 32); (64, 68719476736)] 128), (mkE [(0, 32); (64, 68719476736)] 128).
  repeat split; try discriminate.
  - eapply (b_set _ 100 true); [eapply (b_set _ 5 true); [exact b_init|lia|reflexivity]|lia|reflexivity].
  - eapply (b_set _ 5 true); [eapply (b_set _ 100 true); [exact b_init|lia|reflexivity]|lia|reflexivity].
Qed.

(** C03. Union. *)
Theorem C03_or : forall e1 e2, valid e1 -> valid e2 ->
  valid (ebitmap_or e1 e2) /\ forall b, member (ebitmap_or e1 e2) b <-> member e1 b \/ member e2 b.
Proof.
  intros e1 e2 V1 V2. destruct (or_spec e1 e2 V1 V2) as [V G]. split; [exact V|]. intro b.
  rewrite <- (nget_member _ b V), G, orb_true_iff, (nget_member _ b V1), (nget_member _ b V2). reflexivity.
Qed.
Print Assumptions C03_or.

Theorem C03_union : forall e1 e2, valid e1 -> valid e2 ->
  valid (ebitmap_union e1 e2) /\ forall b, member (ebitmap_union e1 e2) b <-> member e1 b \/ member e2 b.
Proof.
  intros e1 e2 V1 V2. unfold ebitmap_union. pose proof (C03_or e1 e2 V1 V2) as H.
  destruct (ebitmap_or e1 e2) as [l h]. exact H.
Qed.
Print Assumptions C03_union.

(** C03. Intersection. *)
Theorem C03_and : forall e1 e2, valid e1 -> valid e2 ->
  valid (ebitmap_and e1 e2) /\ forall b, member (ebitmap_and e1 e2) b <-> member e1 b /\ member e2 b.
Proof.
  intros e1 e2 V1 V2. destruct (and_spec e1 e2 V1 V2) as [V G]. split; [exact V|]. intro b.
  rewrite <- (nget_member _ b V), G, andb_true_iff, (nget_member _ b V1), (nget_member _ b V2). reflexivity.
Qed.
Print Assumptions C03_and.

(** C03. Symmetric difference. *)
Theorem C03_xor : forall e1 e2, valid e1 -> valid e2 ->
  valid (ebitmap_xor e1 e2) /\
  forall b, member (ebitmap_xor e1 e2) b <->
            (member e1 b /\ ~ member e2 b) \/ (member e2 b /\ ~ member e1 b).
Proof.
  intros e1 e2 V1 V2. destruct (xor_spec e1 e2 V1 V2) as [V G]. split; [exact V|]. intro b.
  rewrite <- (nget_member _ b V), G, <- !(nget_member _ b V1), <- !(nget_member _ b V2).
  destruct (nget (e_nodes e1) b), (nget (e_nodes e2) b); cbn [xorb]; intuition congruence.
Qed.
Print Assumptions C03_xor.

(** C03. Difference below a maximum. *)
Theorem C03_andnot : forall e1 e2 mx, valid e1 -> valid e2 -> mx <= 4294967232 ->
  exists e, ebitmap_andnot e1 e2 mx = Some e /\ valid e /\
    forall b, member e b <-> member e1 b /\ b < mx /\ ~ member e2 b.
Proof.
  intros e1 e2 mx V1 V2 Hmx. destruct (andnot_spec e1 e2 mx V1 V2 Hmx) as (e & E & V & G).
  exists e. split; [exact E|]. split; [exact V|]. intro b.
  rewrite <- (nget_member _ b V), G, <- (nget_member _ b V1), <- (nget_member _ b V2).
  rewrite !andb_true_iff, negb_true_iff, N.ltb_lt.
  destruct (nget (e_nodes e2) b); intuition congruence.
Qed.
Print Assumptions C03_andnot.

(** C03. Containment, overlap, emptiness, copy. *)
Theorem C03_contains : forall e1 e2, valid e1 -> valid e2 ->
  (ebitmap_contains e1 e2 = true <-> forall b, member e2 b -> member e1 b).
Proof.
  intros e1 e2 V1 V2. rewrite (contains_spec e1 e2 V1 V2). split; intros H b; specialize (H b).
  - rewrite <- (nget_member _ b V1), <- (nget_member _ b V2). exact H.
  - rewrite (nget_member _ b V1), (nget_member _ b V2). exact H.
Qed.
Print Assumptions C03_contains.

Theorem C03_match_any : forall e1 e2, valid e1 -> valid e2 ->
  (ebitmap_match_any e1 e2 = true <-> exists b, member e1 b /\ member e2 b).
Proof.
  intros e1 e2 V1 V2. rewrite (match_any_spec e1 e2 V1 V2). split; intros (b & H1 & H2); exists b.
  - rewrite <- (nget_member _ b V1), <- (nget_member _ b V2). auto.
  - rewrite (nget_member _ b V1), (nget_member _ b V2). auto.
Qed.
Print Assumptions C03_match_any.

Theorem C03_is_empty : forall e, valid e -> (ebitmap_is_empty e = true <-> forall b, ~ member e b).
Proof.
  intros e V. rewrite (empty_spec e V). split; intros H b; specialize (H b);
    rewrite <- (nget_member _ b V) in *; destruct (nget (e_nodes e) b); congruence.
Qed.
Print Assumptions C03_is_empty.

Theorem C03_cpy : forall e b, valid e -> valid (ebitmap_cpy e) /\ (member (ebitmap_cpy e) b <-> member e b).
Proof. intros e b V. rewrite cpy_id. split; [exact V|reflexivity]. Qed.
Print Assumptions C03_cpy.

(** C03. Cardinality is the number of members. *)
Theorem C03_cardinality : forall e l, valid e -> NoDup l -> (forall b, In b l <-> member e b) ->
  ebitmap_cardinality e = N.of_nat (length l).
Proof. exact card_list. Qed.
Print Assumptions C03_cardinality.

(** C03. Hamming distance is the size of the symmetric difference (when it fits an int). *)
Theorem C03_hamming : forall e1 e2 l, valid e1 -> valid e2 -> NoDup l ->
  (forall b, In b l <-> (member e1 b /\ ~ member e2 b) \/ (member e2 b /\ ~ member e1 b)) ->
  (Z.of_nat (length l) < 2147483648)%Z ->
  ebitmap_hamming_distance e1 e2 = Z.of_nat (length l).
Proof. exact hamming_list. Qed.
Print Assumptions C03_hamming.

(** C03. Highest bit is the maximum. *)
Theorem C03_highest : forall e, valid e ->
  (forall b, member e b -> member e (ebitmap_highest_set_bit e) /\ b <= ebitmap_highest_set_bit e) /\
  ((forall b, ~ member e b) -> ebitmap_highest_set_bit e = 0).
Proof.
  intros e V. split.
  - intros b Hb. apply (nget_member e b V) in Hb.
    rewrite <- (nget_member e (ebitmap_highest_set_bit e) V).
    destruct (highest_spec e V) as [H1 H2]; [intros E; rewrite E in Hb; discriminate|].
    split; [exact H1|exact (H2 b Hb)].
  - intros H. unfold ebitmap_highest_set_bit. destruct (e_nodes e) as [|n t] eqn:E; [reflexivity|].
    destruct (highest_spec e V) as [H1 _]; [congruence|].
    apply (nget_member _ _ V) in H1. destruct (H _ H1).
Qed.
Print Assumptions C03_highest.

(** C03. init_range builds exactly the requested interval, and reports the two error cases. *)
Theorem C03_init_range : forall mn mx, mn < 4294967296 -> mx < 4294967296 ->
  (mn <= mx -> mx < 4294967232 ->
   exists e, ebitmap_init_range mn mx = RangeOk e /\ valid e /\ forall b, member e b <-> mn <= b /\ b <= mx) /\
  (mx < mn -> ebitmap_init_range mn mx = RangeEINVAL) /\
  (mn <= mx -> 4294967232 <= mx -> ebitmap_init_range mn mx = RangeEOVERFLOW).
Proof.
  intros mn mx H1 H2. pose proof (init_range_spec mn mx H1 H2) as H.
  destruct (ebitmap_init_range mn mx) as [e| | |].
  - destruct H as (A & B & V & G). repeat split; try lia.
    intros _ _. exists e. split; [reflexivity|]. split; [exact V|]. intro b.
    rewrite <- (nget_member _ b V), G, andb_true_iff, !N.leb_le. reflexivity.
  - repeat split; lia.
  - repeat split; lia.
  - contradiction.
Qed.
Print Assumptions C03_init_range.

Example C03_case : exists e1 e2, valid e1 /\ valid e2 /\
  ebitmap_contains e1 e2 = true /\ ebitmap_contains e2 e1 = false /\
  ebitmap_cardinality (ebitmap_xor e1 e2) = 1 /\ ebitmap_hamming_distance e1 e2 = 1%Z /\
  ebitmap_highest_set_bit e1 = 130.
Proof.
  exists (mkE [(0, 5); (128, 4)] 192), (mkE [(0, 1); (128, 4)] 192).
  vm_compute. repeat split; discriminate.
Qed.

(** C04. Iterating the positive bits yields exactly the members in strictly increasing order. *)
Theorem C04_iteration : forall e, valid e ->
  exists l, positive_bits e = Some l /\ StronglySorted N.lt l /\ forall b, In b l <-> member e b.
Proof. exact positive_bits_correct. Qed.
Print Assumptions C04_iteration.

Example C04_case : positive_bits (mkE [(0, 9); (256, 2)] 320) = Some [0; 3; 257] /\
  valid (mkE [(0, 9); (256, 2)] 320).
Proof. vm_compute. repeat split; discriminate. Qed.

(** C05. Writing and reading back, followed by any other data. *)
Theorem C05_roundtrip : forall e rest, valid e -> ebitmap_read (ebitmap_write e ++ rest) = Some (e, rest).
Proof. exact read_write. Qed.
Print Assumptions C05_roundtrip.

(** C05. Whatever the bytes, an accepted bitmap is canonical. *)
Theorem C05_read_canonical : forall bs e rest, forallb byte_ok bs = true ->
  ebitmap_read bs = Some (e, rest) -> valid e.
Proof. exact read_valid. Qed.
Print Assumptions C05_read_canonical.

Example C05_case : valid (mkE [(64, 9); (256, 2)] 320) /\
  ebitmap_read (ebitmap_write (mkE [(64, 9); (256, 2)] 320) ++ [1; 2]) = Some (mkE [(64, 9); (256, 2)] 320, [1; 2]) /\
  ebitmap_read (ebitmap_write (mkE [(256, 9); (64, 2)] 128)) = None.
Proof. vm_compute. repeat split; discriminate. Qed.

(** C06. Complement below a maximum of at most 2^32-64. The full statement (every 32-bit maximum) is
    false, see the next theorem. *)
Theorem C06_not_partial : forall e mx, valid e -> mx <= 4294967232 ->
  exists e', ebitmap_not e mx = Some e' /\ valid e' /\ forall b, member e' b <-> b < mx /\ ~ member e b.
Proof.
  intros e mx V Hmx. destruct (not_spec e mx V Hmx) as (e' & E & V' & G).
  exists e'. split; [exact E|]. split; [exact V'|]. intro b.
  rewrite <- (nget_member _ b V'), G, <- (nget_member _ b V), andb_true_iff, negb_true_iff, N.ltb_lt.
  destruct (nget (e_nodes e) b); intuition congruence.
Qed.
Print Assumptions C06_not_partial.

(** C06. For every larger maximum the loop never terminates, whatever the bitmap: no number of
    rounds suffices. *)
Theorem C06_not_terminates_refuted : forall e mx, 4294967232 < mx -> mx < 4294967296 ->
  forall rounds, ebitmap_not_fuel rounds e mx = None.
Proof. intros e mx H1 H2 rounds. exact (not_diverges e mx rounds H1 H2). Qed.
Print Assumptions C06_not_terminates_refuted.

Example C06_case : valid (mkE [(0, 9)] 64) /\
  omap e_nodes (ebitmap_not (mkE [(0, 9)] 64) 70) = Some [(0, 18446744073709551606); (64, 63)].
Proof. vm_compute. repeat split; discriminate. Qed.
