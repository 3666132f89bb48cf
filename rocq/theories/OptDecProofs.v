(** The optimised policy: its tables, its rules in force, its decisions. *)
From Coq Require Import Permutation Sorted.
From Verif Require Import Base EbitmapModel EbitmapSpec EbitmapProofs AvtabModel AvtabSpec AvtabProofs CondModel MlsModel ServicesModel ServicesSpec ServicesProofs OptModel OptSpec OptProofs.

Section Dec.
Context (P : opolicy) (OK : opolicy_ok wf P) (P' : opolicy) (d : list N) (O : optimised P P' d).

Lemma about_same s v : about P' s v <-> about P s v.
Proof. destruct (o_same _ _ _ O) as (_ & _ & _ & E & _). unfold about. rewrite E. reflexivity. Qed.
Lemma concerns_same n s t c : concerns P' n s t c <-> concerns P n s t c.
Proof. unfold concerns. rewrite !about_same. reflexivity. Qed.
Lemma effective_same L s t c e : effective P' L s t c e <-> effective P L s t c e.
Proof. split; intros (n & H & C & D); exists n; (split; [exact H|]; split; [apply concerns_same; exact C|exact D]). Qed.
Lemma real_same s : real P' s <-> real P s.
Proof. destruct (o_same _ _ _ O) as (_ & _ & E & _). unfold real. rewrite E. reflexivity. Qed.
Lemma attribute_same s : OptSpec.attribute P' s <-> OptSpec.attribute P s.
Proof. destruct (o_same _ _ _ O) as (_ & _ & E & _). unfold OptSpec.attribute. rewrite E. reflexivity. Qed.
Lemma exists_same v : exists_at P' v <-> exists_at P v.
Proof. destruct (o_same _ _ _ O) as (_ & _ & E & _). unfold exists_at. rewrite E. reflexivity. Qed.

Lemma outside_perm l l' : NoDup (l ++ l') -> Permutation (filter (outside l') (l ++ l')) l.
Proof.
  intros ND. rewrite filter_app. assert (E1 : filter (outside l') l = l).
  { assert (H : forall x, In x l -> outside l' x = true) by (intros x Hx; apply outside_iff; intros X; exact (nodup_app_d _ _ x ND Hx X)). clear ND. induction l as [|a l IH]; cbn [filter]; [reflexivity|]. rewrite (H a (or_introl eq_refl)), IH; [reflexivity|]. intros x Hx. apply H. right. exact Hx. }
  assert (E2 : filter (outside l') l' = []). { assert (H : forall x, In x l' -> outside l' x = false) by (intros x Hx; apply not_true_iff_false; rewrite outside_iff; tauto). revert H. generalize (outside l') as f. clear. intros f H. induction l' as [|a l IH]; cbn [filter]; [reflexivity|]. rewrite (H a (or_introl eq_refl)). apply IH. intros x Hx. apply H. right. exact Hx. }
  rewrite E1, E2, app_nil_r. reflexivity.
Qed.
Lemma ids_nodup : NoDup (map fst (cond_nodes P') ++ d).
Proof. destruct OK as (_ & _ & _ & _ & _ & _ & _ & ND & _). destruct (o_nodes _ _ _ O) as (_ & _ & _ & C). exact (Permutation_NoDup C ND). Qed.
Lemma result_ok : opolicy_ok wf P'.
Proof.
  destruct OK as (A1 & A2 & A3 & A4 & A5 & A6 & A7 & A8 & A9). destruct (o_same _ _ _ O) as (E1 & E2 & E3 & E4 & E5). unfold opolicy_ok. rewrite E3, E4, E5.
  split; [exact A1|]. split; [exact A2|]. split; [intros t i R M; rewrite real_same in R; rewrite attribute_same; exact (A3 t i R M)|]. split; [intros t a R M; rewrite real_same in R; rewrite attribute_same in M; exact (A4 t a R M)|].
  split; [exact (o_wf _ _ _ O)|]. split; [|split; [|split]].
  - intros n' H. destruct (o_te _ _ _ O) as (_ & _ & S3). destruct (S3 n' H) as (n & Hn & E). rewrite E, !exists_same. exact (A6 n Hn).
  - intros a n' H. destruct (o_nodes _ _ _ O) as (C1 & _). destruct (C1 _ H) as ([a0 n] & Hn & _ & E & _). cbn [snd] in E. rewrite E, !exists_same. exact (A7 a0 n Hn).
  - exact (nodup_app_l _ _ ids_nodup).
  - rewrite (o_cte _ _ _ O), <- filter_concat. rewrite (filter_perm _ _ _ A9). destruct (o_nodes _ _ _ O) as (_ & _ & _ & C). rewrite (filter_perm _ _ _ C). apply outside_perm. exact ids_nodup.
Qed.

(** ** Rules in force *)
Lemma effective_app L1 L2 s t c e : effective P (L1 ++ L2) s t c e <-> effective P L1 s t c e \/ effective P L2 s t c e.
Proof.
  split.
  - intros (n & H & R). apply in_app_or in H as [H|H]; [left|right]; exists n; auto.
  - intros [(n & H & R)|(n & H & R)]; exists n; (split; [apply in_or_app; auto|exact R]).
Qed.
Lemma crel_effective l l' dv s t c e : crel P (avtab_map_list (op_te P')) l l' dv -> real P s -> real P t ->
  (effective P (avtab_map_list (op_te P') ++ map snd l') s t c e <-> effective P (avtab_map_list (op_te P) ++ map snd l) s t c e).
Proof.
  intros (C1 & C2 & _) Rs Rt. destruct (o_te _ _ _ O) as (S1 & _). rewrite !effective_app, (S1 s t c e Rs Rt). split.
  - intros [H|(n & H & C & D)]; [left; exact H|right]. apply in_map_iff in H as (x' & <- & Hx). destruct (C1 x' Hx) as (x & H1 & E1 & E2 & E3). exists (snd x). split; [apply in_map; exact H1|]. split; [unfold concerns in *; rewrite E2 in C; exact C|auto].
  - intros [H|(n & H & C & D)]; [left; exact H|]. apply in_map_iff in H as (x & <- & Hx). destruct (C2 x s t c e Hx Rs Rt C D) as [H|(x' & Hx' & C' & D' & _)]; [left; apply (S1 s t c e Rs Rt); exact H|right].
    exists (snd x'). split; [apply in_map; exact Hx'|auto].
Qed.
Lemma chosen_map (value : N -> bool) (cs : list ocond) : flat_map (fun c : ocond => map snd (if value (oc_id c) then oc_true c else oc_false c)) cs = map snd (chosen value cs).
Proof. unfold chosen. induction cs as [|c cs IH]; cbn [flat_map map]; [reflexivity|]. rewrite map_app, IH. reflexivity. Qed.
Lemma in_force_same value s t c e : real P s -> real P t -> (effective P' (in_force P' value) s t c e <-> effective P (in_force P value) s t c e).
Proof.
  intros Rs Rt. rewrite effective_same. unfold in_force. rewrite !chosen_map. destruct (o_chosen _ _ _ O value) as (dv & C). exact (crel_effective _ _ dv s t c e C Rs Rt).
Qed.
Lemma other_same value : Permutation (filter other (in_force P' value)) (filter other (in_force P value)).
Proof.
  unfold in_force. rewrite !chosen_map, !filter_app. destruct (o_chosen _ _ _ O value) as (dv & _ & _ & C & _). destruct (o_te _ _ _ O) as (_ & S & _). rewrite S. apply Permutation_app_head. exact C.
Qed.

(** ** Decisions *)
Lemma content_in Q n a : In n (content Q a) <-> In (a, n) (cond_nodes Q).
Proof.
  unfold content. rewrite in_map_iff. split.
  - intros ([b m] & <- & H). apply filter_In in H as [H E]. cbn [fst snd] in *. apply N.eqb_eq in E as ->. exact H.
  - intros H. exists (a, n). split; [reflexivity|]. apply filter_In. split; [exact H|apply N.eqb_refl].
Qed.
Lemma table_in Q nslot mask n : opolicy_ok wf Q -> (In n (avtab_map_list (cond_table Q nslot mask)) <-> In n (map snd (cond_nodes Q))).
Proof.
  intros (_ & _ & _ & _ & _ & _ & _ & _ & PM). assert (E : avtab_map_list (cond_table Q nslot mask) = flat_map (content Q) (concat (op_cte Q))).
  { unfold avtab_map_list, cond_table. cbn [a_htable]. destruct (op_cte Q) as [|c cs]; [reflexivity|]. generalize (c :: cs). clear. intros l. induction l as [|x l IH]; cbn [map concat]; [reflexivity|]. rewrite flat_map_app, IH. reflexivity. }
  rewrite E, in_flat_map, in_map_iff. split.
  - intros (a & Ha & H). apply content_in in H. exists (a, n). auto.
  - intros ([a m] & <- & H). exists a. split; [|apply content_in; exact H]. apply (Permutation_in _ (Permutation_sym PM)). apply in_map_iff. exists (a, m). auto.
Qed.
Lemma content_key a n' : In n' (content P' a) -> exists n, In n (content P a) /\ n_key n' = n_key n.
Proof.
  intros H. apply content_in in H. destruct (o_nodes _ _ _ O) as (C1 & _). destruct (C1 _ H) as ([b n] & Hn & E1 & E2 & _). cbn [fst snd] in *. exists n. split; [apply content_in; subst b; exact Hn|exact E2].
Qed.
Lemma chain_keys (R : akey -> Prop) ch : Forall (fun n => R (n_key n)) (flat_map (content P) ch) -> Forall (fun n => R (n_key n)) (flat_map (content P') (filter (outside d) ch)).
Proof.
  rewrite !Forall_forall. intros F n' H. apply in_flat_map in H as (a & Ha & H). apply filter_In in Ha as [Ha _]. destruct (content_key a n' H) as (n & Hn & ->). apply F. apply in_flat_map. exists a. auto.
Qed.
Lemma sorted_app_inv (l1 l2 : list anode) : StronglySorted le3 (l1 ++ l2) -> StronglySorted le3 l1 /\ StronglySorted le3 l2 /\ forall x y, In x l1 -> In y l2 -> le3 x y.
Proof.
  induction l1 as [|a l1 IH]; cbn [app]; intros H; [split; [constructor|]; split; [exact H|intros x y []]|]. apply StronglySorted_inv in H as [H1 H2]. destruct (IH H1) as (I1 & I2 & I3). rewrite Forall_forall in H2.
  split; [constructor; [exact I1|]; rewrite Forall_forall; intros x Hx; apply H2, in_or_app; auto|]. split; [exact I2|]. intros x y [<-|Hx] Hy; [apply H2, in_or_app; auto|auto].
Qed.
Lemma sorted_app (l1 l2 : list anode) : StronglySorted le3 l1 -> StronglySorted le3 l2 -> (forall x y, In x l1 -> In y l2 -> le3 x y) -> StronglySorted le3 (l1 ++ l2).
Proof.
  induction 1 as [|a l1 S1 IH F]; intros S2 H; cbn [app]; [exact S2|]. constructor; [apply IH; [exact S2|intros x y Hx Hy; apply H; [right|]; assumption]|]. rewrite Forall_forall in *. intros y Hy. apply in_app_or in Hy as [Hy|Hy]; [auto|apply H; [left; reflexivity|exact Hy]].
Qed.
Lemma content_one Q a : NoDup (map fst (cond_nodes Q)) -> (length (content Q a) <= 1)%nat.
Proof.
  unfold content. generalize (cond_nodes Q). intros l. induction l as [|[b n] l IH]; cbn [map filter fst]; [cbn; lia|]. intros H. apply NoDup_cons_iff in H as [H1 H2]. destruct (N.eqb_spec b a) as [->|NE]; [|exact (IH H2)].
  cbn [map length]. match goal with |- context [filter ?f l] => assert (E : filter f l = []); [|rewrite E; cbn; lia] end. clear -H1. induction l as [|[c m] l IH]; cbn [filter fst]; [reflexivity|]. cbn [map fst In] in H1. destruct (N.eqb_spec c a) as [->|]; [destruct H1; auto|]. apply IH. tauto.
Qed.
Lemma sorted_one (l : list anode) : (length l <= 1)%nat -> StronglySorted le3 l.
Proof. destruct l as [|a [|b l]]; cbn [length]; intros H; [constructor|constructor; constructor|lia]. Qed.
Lemma chain_sorted ch : StronglySorted le3 (flat_map (content P) ch) -> StronglySorted le3 (flat_map (content P') (filter (outside d) ch)).
Proof.
  induction ch as [|a ch IH]; cbn [flat_map filter]; intros H; [constructor|]. apply sorted_app_inv in H as (H1 & H2 & H3). destruct (outside d a); [|exact (IH H2)]. cbn [flat_map]. apply sorted_app.
  - apply sorted_one, content_one. exact (nodup_app_l _ _ ids_nodup).
  - exact (IH H2).
  - intros x' y' Hx Hy. destruct (content_key a x' Hx) as (x & Hx1 & Ex). apply in_flat_map in Hy as (b & Hb & Hy). apply filter_In in Hb as [Hb _]. destruct (content_key b y' Hy) as (y & Hy1 & Ey).
    unfold le3. rewrite Ex, Ey. apply H3; [exact Hx1|]. apply in_flat_map. exists b. auto.
Qed.
Lemma table_wf nslot mask : wf (cond_table P nslot mask) -> wf (cond_table P' nslot mask).
Proof.
  unfold wf, cond_table. cbn [a_htable a_mask]. rewrite (o_cte _ _ _ O). destruct (op_cte P) as [|c0 cs0]; [auto|]. cbn [map]. change (map (filter (outside d)) cs0) with (map (filter (outside d)) cs0).
  change (filter (outside d) c0 :: map (filter (outside d)) cs0) with (map (filter (outside d)) (c0 :: cs0)). change (flat_map (content P) c0 :: map (flat_map (content P)) cs0) with (map (flat_map (content P)) (c0 :: cs0)).
  change (flat_map (content P') (filter (outside d) c0) :: map (flat_map (content P')) (map (filter (outside d)) cs0)) with (map (flat_map (content P')) (map (filter (outside d)) (c0 :: cs0))).
  generalize (c0 :: cs0) as cs. intros cs [L W]. split; [rewrite !map_length in *; exact L|]. intros i c' H. rewrite map_map in H.
  rewrite nth_error_map in H. destruct (nth_error cs i) as [c|] eqn:Q; [|discriminate]. injection H as <-.
  destruct (W i (flat_map (content P) c)) as [W1 W2]; [rewrite nth_error_map, Q; reflexivity|]. split; [exact (chain_sorted c W1)|]. exact (chain_keys (fun k => N.to_nat (avtab_hash k mask) = i) c W2).
Qed.

(** The rules that count now: all unconditional ones, and the conditional ones that are enabled. *)
Definition enabled (Q : opolicy) : list anode := filter (fun n => N.testbit (k_spec (n_key n)) 15) (map snd (cond_nodes Q)).
Lemma enabled_same s t c e : real P s -> real P t -> (effective P (avtab_map_list (op_te P') ++ enabled P') s t c e <-> effective P (avtab_map_list (op_te P) ++ enabled P) s t c e).
Proof.
  intros Rs Rt. destruct (o_te _ _ _ O) as (S1 & _). destruct (o_nodes _ _ _ O) as (C1 & C2 & _). rewrite !effective_app, (S1 s t c e Rs Rt). split.
  - intros [H|(n & H & C & D)]; [left; exact H|right]. apply filter_In in H as [H T]. apply in_map_iff in H as (x' & <- & Hx). destruct (C1 x' Hx) as (x & H1 & E1 & E2 & E3). exists (snd x). rewrite E2 in T. split; [apply filter_In; split; [apply in_map; exact H1|exact T]|]. split; [unfold concerns in *; rewrite E2 in C; exact C|auto].
  - intros [H|(n & H & C & D)]; [left; exact H|]. apply filter_In in H as [H T]. apply in_map_iff in H as (x & <- & Hx). destruct (C2 x s t c e Hx Rs Rt C D) as [H|(x' & Hx' & C' & D' & E)]; [left; apply (S1 s t c e Rs Rt); exact H|right].
    exists (snd x'). split; [apply filter_In; split; [apply in_map; exact Hx'|rewrite E; exact T]|auto].
Qed.
End Dec.

Definition effect_of (k p : N) : effect := if k =? 0 then Allow p else if k =? 1 then AuditAllow p else Quiet p.
Definition shows (k p : N) (n : anode) : Prop := if k =? 2 then p < 32 /\ N.testbit (d_data (n_datum n)) p = false else N.testbit (d_data (n_datum n)) p = true.
Lemma shows_does k p n : k < 3 -> (does n (effect_of k p) <-> N.testbit (k_spec (n_key n)) k = true /\ shows k p n).
Proof. intros B. assert (E : k = 0 \/ k = 1 \/ k = 2) by lia. destruct E as [-> |[-> | ->]]; unfold effect_of, shows; [change (0 =? 0) with true; change (0 =? 2) with false|change (1 =? 0) with false; change (1 =? 1) with true; change (1 =? 2) with false|change (2 =? 0) with false; change (2 =? 1) with false; change (2 =? 2) with true]; cbn iota; cbn [does]; tauto. Qed.
Lemma rule_effective Q sp nslot mask st tt0 cls k p : opolicy_ok wf Q -> uses sp Q nslot mask -> 1 <= st -> 1 <= tt0 -> k < 3 ->
  ((exists n, rule_for sp st tt0 cls k n /\ shows k p n) <-> effective Q (avtab_map_list (op_te Q) ++ enabled Q) (st - 1) (tt0 - 1) cls (effect_of k p)).
Proof.
  intros OQ (U1 & U2 & U3) Bs Bt B. assert (TE : forall n, In n (avtab_map_list (op_te Q)) -> (k_spec (n_key n) = 2 ^ k <-> N.testbit (k_spec (n_key n)) k = true)).
  { intros n H. destruct OQ as (_ & _ & _ & _ & _ & A6 & _). destruct (A6 n H) as (_ & _ & i & _ & ->). rewrite N.pow2_bits_eqb. destruct (N.eqb_spec i k) as [->|NE]; [tauto|]. split; [|discriminate]. intros E. destruct NE. apply (N.pow_inj_r 2); [lia|exact E]. }
  assert (CN : forall n, (exists i j, member (sv_attr sp st) i /\ member (sv_attr sp tt0) j /\ k_src (n_key n) = i + 1 /\ k_tgt (n_key n) = j + 1) /\ k_cls (n_key n) = cls <-> concerns Q n (st - 1) (tt0 - 1) cls).
  { intros n. rewrite (U3 st Bs), (U3 tt0 Bt). unfold concerns, about. split.
    - intros [(i & j & M1 & M2 & E1 & E2) E3]. rewrite E1, E2, !N.add_sub. repeat split; try lia; assumption.
    - intros [[B1 M1] [[B2 M2] E3]]. split; [|exact E3]. exists (k_src (n_key n) - 1), (k_tgt (n_key n) - 1). repeat split; try assumption; lia. }
  unfold effective. split.
  - intros (n & (C1 & C2 & H) & SH). exists n. rewrite (shows_does k p n B). split; [|split; [apply CN; auto|split; [|exact SH]]].
    + apply in_or_app. destruct H as [[H _]|(H & _ & H15)]; [left; rewrite U1 in H; exact H|right]. rewrite U2 in H. apply (table_in Q _ _ _ OQ) in H. apply filter_In. auto.
    + destruct H as [[H E]|(_ & H & _)]; [|exact H]. apply TE; [rewrite U1 in H; exact H|exact E].
  - intros (n & H & C & D). rewrite (shows_does k p n B) in D. destruct D as [D1 D2]. apply CN in C as [C1 C2]. exists n. split; [|exact D2]. split; [exact C1|]. split; [exact C2|].
    apply in_app_or in H as [H|H]; [left; rewrite U1; split; [exact H|apply TE; assumption]|right]. apply filter_In in H as [H H15]. rewrite U2. split; [apply (table_in Q _ _ _ OQ); exact H|auto].
Qed.

Lemma same_te P P' d sp sp' nslot mask st tt0 cls : opolicy_ok wf P -> optimised P P' d -> spolicy_ok wf sp -> spolicy_ok wf sp' -> sv_nclasses sp' = sv_nclasses sp -> uses sp P nslot mask -> uses sp' P' nslot mask ->
  cls <= sv_nclasses sp -> typed P st -> typed P tt0 -> te_compute sp' st tt0 cls = te_compute sp st tt0 cls.
Proof.
  intros OK O SO SO' EN U U' BC [Bs Rs] [Bt Rt]. pose proof (result_ok P OK P' d O) as OK'.
  assert (K : forall k p, k < 3 -> ((exists n, rule_for sp' st tt0 cls k n /\ shows k p n) <-> (exists n, rule_for sp st tt0 cls k n /\ shows k p n))).
  { intros k p B. rewrite (rule_effective P' sp' nslot mask st tt0 cls k p OK' U' Bs Bt B), (rule_effective P sp nslot mask st tt0 cls k p OK U Bs Bt B). rewrite (effective_same P P' d O). apply (enabled_same P P' d O); assumption. }
  destruct (te_compute_ok sp SO st tt0 cls BC) as (v & -> & H). destruct (te_compute_ok sp' SO' st tt0 cls) as (v' & -> & H'); [rewrite EN; exact BC|]. f_equal.
  assert (E1 : v_allowed v' = v_allowed v). { apply N.bits_inj. intros p. apply eq_true_iff_eq. destruct (H p) as (-> & _). destruct (H' p) as (-> & _). exact (K 0 p ltac:(lia)). }
  assert (E2 : v_auditallow v' = v_auditallow v). { apply N.bits_inj. intros p. apply eq_true_iff_eq. destruct (H p) as (_ & -> & _). destruct (H' p) as (_ & -> & _). exact (K 1 p ltac:(lia)). }
  assert (E3 : v_auditdeny v' = v_auditdeny v).
  { apply N.bits_inj. intros p. apply eq_true_iff_eq. destruct (H p) as (_ & _ & ->). destruct (H' p) as (_ & _ & ->). pose proof (K 2 p ltac:(lia)) as K2. unfold shows in K2. change (2 =? 2) with true in K2. cbn iota in K2.
    split; intros [B F]; (split; [exact B|]); intros n R; destruct (N.testbit (d_data (n_datum n)) p) eqn:T; try reflexivity; exfalso.
    - destruct (proj2 K2) as (m & Rm & _ & Tm); [exists n; auto|]. rewrite (F m Rm) in Tm. discriminate.
    - destruct (proj1 K2) as (m & Rm & _ & Tm); [exists n; auto|]. rewrite (F m Rm) in Tm. discriminate. }
  destruct v, v'. cbn in *. congruence.
Qed.

(** Evaluating constraints does not look at the rules. *)
Lemma loop_tables sp te cond s t x : forall l first st, ceval_loop (with_tables sp te cond) s t x l first st = ceval_loop sp s t x l first st.
Proof.
  induction l as [|e l IH]; intros first st; cbn [ceval_loop]; [reflexivity|]. change (attr_leaf (with_tables sp te cond) s t e) with (attr_leaf sp s t e).
  destruct (ce_type e =? CEXPR_NOT); [destruct st; [reflexivity|apply IH]|]. destruct (ce_type e =? CEXPR_AND); [destruct st as [|? [|? ?]]; [reflexivity|reflexivity|apply IH]|].
  destruct (ce_type e =? CEXPR_OR); [destruct st as [|? [|? ?]]; [reflexivity|reflexivity|apply IH]|]. destruct (_ || _); [|reflexivity]. destruct (Nat.eqb _ _); [reflexivity|].
  destruct (if ce_type e =? CEXPR_ATTR then attr_leaf sp s t e else names_leaf s t x e); [apply IH|reflexivity|reflexivity].
Qed.
Lemma constrain_tables sp te cond s t : forall l a, constrain (with_tables sp te cond) s t l a = constrain sp s t l a.
Proof.
  induction l as [|c l IH]; intros a; cbn [constrain]; [reflexivity|]. destruct (negb _); [|apply IH]. unfold constraint_expr_eval. rewrite loop_tables. destruct (ceval_loop sp s t None (cn_expr c) true []) as [[|]| |]; try apply IH. reflexivity.
Qed.
Lemma role_tables sp te cond s t cls a : role_check (with_tables sp te cond) s t cls a = role_check sp s t cls a.
Proof. reflexivity. Qed.
Lemma same_av_ok P P' d sp nslot mask : opolicy_ok wf P -> optimised P P' d -> spolicy_ok wf sp -> uses sp P nslot mask ->
  (forall ty, sv_bounds sp ty <> 0 -> typed P (sv_bounds sp ty)) ->
  forall fuel s t cls req, typed P (c_type s) -> typed P (c_type t) ->
  compute_av fuel (with_tables sp (op_te P') (cond_table P' nslot mask)) s t cls req = compute_av fuel sp s t cls req.
Proof.
  intros OK O SO U BR. set (sp' := with_tables sp (op_te P') (cond_table P' nslot mask)).
  assert (U' : uses sp' P' nslot mask). { split; [reflexivity|]. split; [reflexivity|]. intros ty. destruct (o_same _ _ _ O) as (_ & _ & _ & E & _). rewrite E. apply U. }
  assert (SO' : spolicy_ok wf sp'). { destruct SO as (_ & W2 & R). split; [exact (o_wf _ _ _ O)|]. split; [|exact R]. destruct U as (_ & U2 & _). rewrite U2 in W2. exact (table_wf P OK P' d O nslot mask W2). }
  induction fuel as [|f IH]; intros s t cls req Ts Tt; cbn [compute_av]; [reflexivity|].
  change (sv_nclasses sp') with (sv_nclasses sp). destruct ((cls =? 0) || (sv_nclasses sp <? cls)) eqn:CB; [reflexivity|].
  rewrite (same_te P P' d sp sp' nslot mask (c_type s) (c_type t) cls OK O SO SO' eq_refl U U') by (assumption || lia).
  destruct (te_compute sp (c_type s) (c_type t) cls) as [v|]; [|reflexivity]. change (sv_cons sp' cls) with (sv_cons sp cls). unfold sp' at 1. rewrite constrain_tables. destruct (constrain sp s t (sv_cons sp cls) (v_allowed v)) as [a1|]; [|reflexivity].
  change (role_check sp' s t cls a1) with (role_check sp s t cls a1). change (sv_bounds sp' (c_type s)) with (sv_bounds sp (c_type s)). change (sv_bounds sp' (c_type t)) with (sv_bounds sp (c_type t)).
  destruct (N.eqb_spec (sv_bounds sp (c_type s)) 0) as [E|NE]; [reflexivity|]. rewrite IH; [reflexivity| |].
  - exact (BR _ NE).
  - destruct (N.eqb_spec (sv_bounds sp (c_type t)) 0) as [E|NE2]; [exact Tt|exact (BR _ NE2)].
Qed.

Lemma type_other P n : usable P n -> type_rule n = true -> other n = true.
Proof.
  intros (_ & _ & i & B & E). unfold type_rule, other. revert i B E. generalize (k_spec (n_key n)) as sp. intros sp i B.
  refine (below15 (fun i => (sp = 2 ^ i \/ sp = 2 ^ i + 32768) -> N.testbit sp 4 || N.testbit sp 5 || N.testbit sp 6 = true -> (N.land sp (N.lor 7 1792) =? 0) = true) _ _ _ _ _ _ _ _ _ _ _ _ _ _ _ i B);
    intros [-> | ->]; vm_compute; first [discriminate|reflexivity|intros; reflexivity].
Qed.
Lemma filter_type P L : (forall n, In n L -> usable P n) -> filter type_rule L = filter type_rule (filter other L).
Proof.
  induction L as [|n L IH]; intros U; cbn [filter]; [reflexivity|]. pose proof (type_other P n (U n (or_introl eq_refl))) as H. rewrite (IH (fun m Hm => U m (or_intror Hm))).
  destruct (type_rule n) eqn:T; [rewrite (H eq_refl); cbn [filter]; rewrite T; reflexivity|]. destruct (other n); cbn [filter]; [rewrite T|]; reflexivity.
Qed.
Lemma in_force_usable P value n : opolicy_ok wf P -> In n (in_force P value) -> usable P n.
Proof.
  intros (_ & _ & _ & _ & _ & A6 & A7 & _) H. unfold in_force in H. apply in_app_or in H as [H|H].
  - destruct (A6 n H) as (U1 & U2 & i & B & E). split; [exact U1|]. split; [exact U2|]. exists i. split; auto.
  - apply in_flat_map in H as (c & Hc & H). apply in_map_iff in H as ([a m] & <- & H). destruct (A7 a m) as (U1 & U2 & i & B & E).
    { unfold cond_nodes. apply in_flat_map. exists c. split; [exact Hc|]. apply in_or_app. destruct (value (oc_id c)); auto. }
    split; [exact U1|]. split; [exact U2|]. exists i. split; auto.
Qed.
Lemma type_rules_kept P P' d value : opolicy_ok wf P -> optimised P P' d -> Permutation (filter type_rule (in_force P' value)) (filter type_rule (in_force P value)).
Proof.
  intros OK O. rewrite (filter_type P' (in_force P' value)), (filter_type P (in_force P value)).
  - apply filter_perm. exact (other_same P P' d O value).
  - intros n. apply in_force_usable. exact OK.
  - intros n. apply in_force_usable. exact (result_ok P OK P' d O).
Qed.
