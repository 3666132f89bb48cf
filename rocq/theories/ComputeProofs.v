(** Proofs about label computation. *)
From Verif Require Import Base EbitmapModel EbitmapSpec EbitmapProofs MlsModel MlsSpec MlsProofs ContextModel ContextProofs AvtabModel AvtabSpec
  AvtabProofs SidtabModel SidtabSpec SidtabProofs LoadProofs ComputeModel ComputeSpec.
Ltac Zify.zify_post_hook ::= Z.div_mod_to_equations.

Lemma level_cpy_id l : mls_level_cpy l = l.
Proof.
  destruct l as [s [n h]]. unfold mls_level_cpy, ebitmap_cpy. cbn [l_sens l_cat e_nodes e_high]. do 2 f_equal.
  induction n as [|[a b] n IH]; [reflexivity|]. cbn [map fst snd]. rewrite IH. reflexivity.
Qed.

Lemma mkR_eta r : mkR (r_low r) (r_high r) = r.
Proof. destruct r. reflexivity. Qed.

Lemma dflt_spec P cls f v : dflt P cls f v = true <-> declares P cls f v.
Proof.
  unfold dflt, class_of, declares. destruct (N.eqb_spec cls 0); cbn [negb andb].
  - split; [discriminate|lia].
  - destruct (N.leb_spec cls (cp_nclasses P)); [|split; [discriminate|lia]].
    destruct (cp_class P cls) as [d|].
    + rewrite N.eqb_eq. split; [intros H'; split; [lia|]; split; [lia|]; eauto|]. intros (_ & _ & d' & [= <-] & H'). exact H'.
    + split; [discriminate|]. intros (_ & _ & d & Q & _). discriminate.
Qed.

Lemma dflt_false P cls f v : dflt P cls f v = false <-> ~ declares P cls f v.
Proof. rewrite <- dflt_spec. destruct (dflt P cls f v); split; congruence. Qed.

Lemma declares_fun P cls f v w : declares P cls f v -> declares P cls f w -> v = w.
Proof. intros (_ & _ & d & E & <-) (_ & _ & d' & E' & <-). congruence. Qed.

Lemma triple_eqb_eq a b : triple_eqb a b = true <-> a = b.
Proof.
  destruct a as [[x y] z], b as [[x' y'] z']. unfold triple_eqb. split; [intros; f_equal; [f_equal|]; lia|].
  intros [= -> -> ->]. rewrite !N.eqb_refl. reflexivity.
Qed.

Lemma find_first {V} (k : N * N * N) (l : list ((N * N * N) * V)) :
  match find (fun e => triple_eqb (fst e) k) l with
  | Some e => exists l1 l2, l = l1 ++ (k, snd e) :: l2 /\ forall x, ~ In (k, x) l1
  | None => forall x, ~ In (k, x) l
  end.
Proof.
  induction l as [|[k' v] l IH]; cbn [find fst]; [intros x []|]. destruct (triple_eqb k' k) eqn:E.
  - apply triple_eqb_eq in E. subst k'. exists [], l. split; [reflexivity|]. intros x [].
  - assert (k' <> k) by (intros ->; rewrite (proj2 (triple_eqb_eq k k) eq_refl) in E; discriminate).
    destruct (find _ l) as [e|].
    + destruct IH as (l1 & l2 & -> & H2). exists ((k', v) :: l1), l2. split; [reflexivity|]. intros x [[= Q _]|Hx]; [congruence|exact (H2 x Hx)].
    + intros x [[= Q _]|Hx]; [congruence|exact (IH x Hx)].
Qed.

Lemma first_fun {V} (k : N * N * N) (v w : V) : forall l1 l2 m1 m2, l1 ++ (k, v) :: l2 = m1 ++ (k, w) :: m2 ->
  (forall x, ~ In (k, x) l1) -> (forall x, ~ In (k, x) m1) -> v = w.
Proof.
  induction l1 as [|e l1 IH]; intros l2 [|f m1] m2 E H1 H2; cbn [app] in E.
  - congruence.
  - injection E as <- _. destruct (H2 v). left. reflexivity.
  - injection E as -> _. destruct (H1 w). left. reflexivity.
  - injection E as _ E. apply (IH _ _ _ E); intros x Hx; [apply (H1 x)|apply (H2 x)]; right; exact Hx.
Qed.

Lemma user_ok P rq s t cls u : user_is P rq s t cls u <-> u = new_user P s t cls (rule_code rq).
Proof.
  unfold user_is, new_user, side_default. destruct rq; cbn -[declares dflt]; [| reflexivity |].
  - destruct (dflt P cls df_user DEFAULT_TARGET) eqn:E; [apply dflt_spec in E|apply dflt_false in E]; unfold DEFAULT_TARGET in *; tauto.
  - destruct (dflt P cls df_user DEFAULT_TARGET) eqn:E; [apply dflt_spec in E|apply dflt_false in E]; unfold DEFAULT_TARGET in *; tauto.
Qed.

Lemma role_default_ok P s t cls r : role_default_is P s t cls r <-> r = default_role P s t cls.
Proof.
  unfold role_default_is, default_role, no_side_default, side_default, DEFAULT_SOURCE, DEFAULT_TARGET.
  destruct (dflt P cls df_role 1) eqn:E1; [apply dflt_spec in E1|apply dflt_false in E1].
  - split; [|intros ->; left; exists Source; auto]. intros [(sd & D & ->)|(D & _)].
    + destruct sd; [reflexivity|]. pose proof (declares_fun _ _ _ _ _ E1 D). discriminate.
    + destruct (D Source E1).
  - destruct (dflt P cls df_role 2) eqn:E2; [apply dflt_spec in E2|apply dflt_false in E2].
    + split; [|intros ->; left; exists Target; auto]. intros [(sd & D & ->)|(D & _)]; [|destruct (D Target E2)].
      destruct sd; [contradiction|reflexivity].
    + split.
      * intros [(sd & D & ->)|(_ & [(-> & ->)|(D & ->)])]; [destruct sd; contradiction|rewrite N.eqb_refl; reflexivity|].
        destruct (N.eqb_spec cls (cp_process P)); [contradiction|reflexivity].
      * intros ->. right. split; [intros [|]; assumption|]. destruct (N.eqb_spec cls (cp_process P)); auto.
Qed.

Lemma type_default_ok P s t cls r : type_default_is P s t cls r <-> r = default_type P s t cls.
Proof.
  unfold type_default_is, default_type, no_side_default, side_default, DEFAULT_SOURCE, DEFAULT_TARGET.
  destruct (dflt P cls df_type 1) eqn:E1; [apply dflt_spec in E1|apply dflt_false in E1].
  - split; [|intros ->; left; exists Source; auto]. intros [(sd & D & ->)|(D & _)].
    + destruct sd; [reflexivity|]. pose proof (declares_fun _ _ _ _ _ E1 D). discriminate.
    + destruct (D Source E1).
  - destruct (dflt P cls df_type 2) eqn:E2; [apply dflt_spec in E2|apply dflt_false in E2].
    + split; [|intros ->; left; exists Target; auto]. intros [(sd & D & ->)|(D & _)]; [|destruct (D Target E2)].
      destruct sd; [contradiction|reflexivity].
    + split.
      * intros [(sd & D & ->)|(_ & [(-> & ->)|(D & ->)])]; [destruct sd; contradiction|rewrite N.eqb_refl; reflexivity|].
        destruct (N.eqb_spec cls (cp_process P)); [contradiction|reflexivity].
      * intros ->. right. split; [intros [|]; assumption|]. destruct (N.eqb_spec cls (cp_process P)); auto.
Qed.

Lemma role_ok P rq s t cls r : role_is P rq s t cls r <-> r = new_role P s t cls (rule_code rq).
Proof.
  unfold role_is, new_role. destruct rq; cbn [rule_code N.land N.eqb negb AVTAB_TRANSITION Pos.land N.double Pos.Ndouble].
  2,3: rewrite role_default_ok; split; [intros [(Q & _)|(_ & H)]; [discriminate|exact H]|intros H; right; split; [discriminate|exact H]].
  change (negb (N.land 16 AVTAB_TRANSITION =? 0)) with true. cbv iota.
  pose proof (find_first (c_role s, c_type t, cls) (cp_role_tr P)) as F. rewrite role_default_ok.
  destruct (find _ (cp_role_tr P)) as [e|].
  - destruct F as (l1 & l2 & E & Hn). split.
    + intros [(_ & m1 & m2 & E' & Hm)|(H & _)].
      * rewrite E in E'. symmetry. exact (first_fun _ _ _ _ _ _ _ E' Hn Hm).
      * destruct (H eq_refl (snd e)). rewrite E. apply in_app_iff. right. left. reflexivity.
    + intros ->. left. split; [reflexivity|]. exists l1, l2. auto.
  - split.
    + intros [(_ & m1 & m2 & E' & Hm)|(_ & H)]; [|exact H]. destruct (F r). rewrite E'. apply in_app_iff. right. left. reflexivity.
    + intros ->. right. auto.
Qed.

Lemma enabled_bit k : negb (N.land k AVTAB_ENABLED =? 0) = N.testbit k 15.
Proof.
  unfold AVTAB_ENABLED. change 32768 with (2 ^ 15).
  destruct (N.testbit k 15) eqn:E.
  - destruct (N.eqb_spec (N.land k (2 ^ 15)) 0) as [Q|]; [|reflexivity].
    assert (N.testbit (N.land k (2 ^ 15)) 15 = true) by (rewrite N.land_spec, E; reflexivity). rewrite Q in H. discriminate.
  - assert (N.land k (2 ^ 15) = 0) as ->; [|reflexivity]. apply N.bits_inj. intros i. rewrite N.land_spec, N.bits_0, N.pow2_bits_eqb.
    destruct (N.eqb_spec 15 i) as [<-|]; [rewrite E; reflexivity|apply andb_false_r].
Qed.

Lemma type_rule_ok P rq s t cls : wf (cp_te P) -> wf (cp_cond P) ->
  match type_rule P s t cls (rule_code rq) with
  | Some d => permanent_rule P rq s t cls (d_data d) \/
      ((forall x, ~ permanent_rule P rq s t cls x) /\ enabled_rule P rq s t cls (d_data d))
  | None => (forall x, ~ permanent_rule P rq s t cls x) /\ (forall x, ~ enabled_rule P rq s t cls x)
  end.
Proof.
  intros W1 W2. unfold type_rule. set (k := mkK _ _ _ _).
  pose proof (search_spec (cp_te P) k W1) as S1. destruct (avtab_search (cp_te P) k) as [d|].
  - left. destruct S1 as (n & A & B & ->). exists n. auto.
  - assert (NP : forall x, ~ permanent_rule P rq s t cls x).
    { intros x (n & A & B & _). fold k in B. rewrite (S1 n A) in B. discriminate. }
    rewrite (nodes_for_spec (cp_cond P) k W2). destruct (find _ (filter (entry_matches k) (avtab_map_list (cp_cond P)))) as [n|] eqn:F; cbn [option_map].
    + right. split; [exact NP|]. apply find_some in F as [A B]. apply filter_In in A as [A C]. exists n. rewrite enabled_bit in B. auto.
    + split; [exact NP|]. intros x (n & A & B & C & D). assert (Q : In n (filter (entry_matches k) (avtab_map_list (cp_cond P)))) by (apply filter_In; auto).
      apply (find_none _ _ F) in Q. rewrite enabled_bit in Q. congruence.
Qed.

Lemma type_sat P rq s t cls : wf (cp_te P) -> wf (cp_cond P) -> type_is P rq s t cls (new_type P s t cls (rule_code rq)).
Proof.
  intros W1 W2. pose proof (type_rule_ok P rq s t cls W1 W2) as T. unfold type_is, new_type.
  destruct (type_rule P s t cls (rule_code rq)) as [d|]; [destruct T as [T|[T1 T2]]; auto|].
  right. split; [apply T|]. right. split; [apply T|]. apply type_default_ok. reflexivity.
Qed.

Lemma type_fun P rq s t cls x y : unambiguous P -> type_is P rq s t cls x -> type_is P rq s t cls y -> x = y.
Proof.
  intros U. destruct (U rq s t cls x y) as [U1 U2]. unfold type_is.
  intros [A|(A & [A'|(A' & A'')])] [B|(B & [B'|(B' & B'')])]; auto.
  - destruct (B x A).
  - destruct (B x A).
  - destruct (A y B).
  - destruct (B' x A').
  - destruct (A y B).
  - destruct (A' y B').
  - apply type_default_ok in A'', B''. congruence.
Qed.

Lemma glblub_exact r1 r2 : valid_mrange r1 -> valid_mrange r2 ->
  match mls_range_glblub r1 r2 with
  | Some r => l_sens (r_low r1) <= l_sens (r_high r2) /\ l_sens (r_low r2) <= l_sens (r_high r1) /\
     valid_mrange r /\
     l_sens (r_low r) = N.max (l_sens (r_low r1)) (l_sens (r_low r2)) /\
     l_sens (r_high r) = N.min (l_sens (r_high r1)) (l_sens (r_high r2)) /\
     (forall b, member (l_cat (r_low r)) b <-> member (l_cat (r_low r1)) b /\ member (l_cat (r_low r2)) b) /\
     (forall b, member (l_cat (r_high r)) b <-> member (l_cat (r_high r1)) b /\ member (l_cat (r_high r2)) b)
  | None => ~ (l_sens (r_low r1) <= l_sens (r_high r2) /\ l_sens (r_low r2) <= l_sens (r_high r1))
  end.
Proof.
  intros [A1 B1] [A2 B2]. unfold mls_range_glblub. destruct (_ || _)%bool eqn:E; [lia|]. cbn [r_low r_high l_sens l_cat].
  split; [lia|]. split; [lia|]. split; [split; apply and_spec; assumption|]. split; [reflexivity|]. split; [reflexivity|].
  split; intro b; apply and_member; assumption.
Qed.

Lemma source_range_ok P s cls r : range_of_source P s cls r <-> r = change_range P s cls.
Proof.
  unfold range_of_source, change_range, copy_range, copy_low. rewrite !level_cpy_id, mkR_eta.
  destruct (N.eqb_spec cls (cp_process P)); tauto.
Qed.

Lemma range_ok P rq s t cls r : cpolicy_canonical P -> valid_mrange (c_range s) -> valid_mrange (c_range t) ->
  (range_is P rq s t cls r <-> mls_compute_sid P s t cls (rule_code rq) = Some r).
Proof.
  intros [PC CR] Vs Vt. unfold range_is, mls_compute_sid. destruct (p_mls (cp_base P)); cbn [negb].
  2:{ split; [intros [(_ & ->)|(Q & _)]; [reflexivity|discriminate]|intros [= <-]; auto]. }
  unfold AVTAB_TRANSITION, AVTAB_CHANGE, AVTAB_MEMBER. destruct rq; cbn [rule_code];
    repeat match goal with |- context [?a =? ?b] => let v := eval vm_compute in (a =? b) in (first [constr_eq v true | constr_eq v false]); change (a =? b) with v end; cbv iota.
  - pose proof (find_first (c_type s, c_type t, cls) (cp_range_tr P)) as F.
    destruct (find _ (cp_range_tr P)) as [e|].
    + destruct F as (l1 & l2 & E & Hn). rewrite !level_cpy_id, mkR_eta. split.
      * intros [(Q & _)|(_ & [(m1 & m2 & E' & Hm)|(H & _)])]; [discriminate| |].
        -- rewrite E in E'. f_equal. exact (first_fun _ _ _ _ _ _ _ E' Hn Hm).
        -- destruct (H (snd e)). rewrite E. apply in_app_iff. right. left. reflexivity.
      * intros [= <-]. right. split; [reflexivity|]. left. exists l1, l2. auto.
    + set (d := match class_of P cls with Some d => df_range d | None => 0 end).
      assert (Hd : forall x, 1 <= x -> (declares P cls df_range x <-> d = x)).
      { intros x Hx. rewrite <- dflt_spec. unfold dflt, d. destruct (class_of P cls); [apply N.eqb_eq|split; [discriminate|lia]]. }
      clearbody d.
      assert (Red : (true = false /\ r = mkR (mkL 0 ebitmap_init) (mkL 0 ebitmap_init) \/
        true = true /\ ((exists l1 l2, cp_range_tr P = l1 ++ (c_type s, c_type t, cls, r) :: l2 /\ (forall x, ~ In (c_type s, c_type t, cls, x) l1)) \/
          (forall x, ~ In (c_type s, c_type t, cls, x) (cp_range_tr P)) /\
          ((exists d, 1 <= d /\ d <= 7 /\ declares P cls df_range d /\ range_by_code d s t r) \/
           (forall d, 1 <= d -> d <= 7 -> ~ declares P cls df_range d) /\ range_of_source P s cls r))) <->
        ((1 <= d /\ d <= 7 /\ range_by_code d s t r) \/ (~ (1 <= d /\ d <= 7) /\ r = change_range P s cls))).
      { split.
        - intros [(Q & _)|(_ & [(m1 & m2 & E' & Hm)|(_ & [(x & H1 & H2 & H3 & H4)|(H1 & H2)])])]; [discriminate| | |].
          + destruct (F r). rewrite E'. apply in_app_iff. right. left. reflexivity.
          + apply Hd in H3; [|exact H1]. subst x. auto.
          + right. apply source_range_ok in H2. split; [|exact H2]. intros [L1 L2]. apply (H1 d L1 L2). apply Hd; [exact L1|reflexivity].
        - intros [(L1 & L2 & H)|(L & H)]; right; (split; [reflexivity|]); right; (split; [exact F|]).
          + left. exists d. split; [exact L1|]. split; [exact L2|]. split; [apply Hd; auto|exact H].
          + right. split; [|apply source_range_ok; exact H]. intros x L1 L2 D. apply Hd in D; [|exact L1]. subst x. auto. }
      rewrite Red. clear Red Hd F. unfold range_by_code, copy_low, copy_high, copy_range. rewrite !level_cpy_id, !mkR_eta.
      pose proof (glblub_exact (c_range s) (c_range t) Vs Vt) as GL.
      assert (Cases : d = 1 \/ d = 2 \/ d = 3 \/ d = 4 \/ d = 5 \/ d = 6 \/ d = 7 \/ ~ (1 <= d /\ d <= 7)) by lia.
      destruct Cases as [->|[->|[->|[->|[->|[->|[->|Out]]]]]]]; cbn [N.eqb Pos.eqb].
      1-6: (split; [intros [(_ & _ & H)|(H & _)]; [|lia]; decompose [or and] H; subst; try discriminate; try reflexivity; lia
                   |intros [= <-]; left; split; [lia|]; split; [lia|]; tauto]).
      * destruct (mls_range_glblub (c_range s) (c_range t)) as [g|].
        -- split.
           ++ intros [(_ & _ & H)|(H & _)]; [|lia]. decompose [or] H; try (destruct H0; discriminate); try (destruct H1; discriminate);
                try (destruct H2; discriminate); try (destruct H3; discriminate); clear H.
              assert (Z : valid_mrange r /\ l_sens (r_low r) = l_sens (r_low g) /\ l_sens (r_high r) = l_sens (r_high g) /\
                (forall b, member (l_cat (r_low r)) b <-> member (l_cat (r_low g)) b) /\ (forall b, member (l_cat (r_high r)) b <-> member (l_cat (r_high g)) b)).
              { destruct GL as (_ & _ & Vg & G1 & G2 & G3 & G4). repeat match goal with H : _ \/ _ |- _ => destruct H as [H|H] end; try (destruct H; discriminate);
                try (destruct H0; discriminate); try (destruct H1; discriminate);
                match goal with H : 7 = 7 /\ _ |- _ => destruct H as (_ & _ & _ & Vr & R1 & R2 & R3 & R4) end.
                all: split; [exact Vr|]; split; [congruence|]; split; [congruence|]; split; intros b; rewrite ?R3, ?R4, ?G3, ?G4; reflexivity. }
              destruct Z as ([Va Vb] & Z1 & Z2 & Z3 & Z4). destruct GL as (_ & _ & [Vc Vd] & _).
              destruct r as [[a ca] [b cb]], g as [[a' ca'] [b' cb']]. cbn [r_low r_high l_sens l_cat] in *. unfold valid_level in *. cbn [l_cat] in *.
              rewrite Z1, Z2, (valid_ext ca ca' Va Vc Z3), (valid_ext cb cb' Vb Vd Z4). reflexivity.
           ++ intros [= <-]. left. split; [lia|]. split; [lia|]. do 6 right. split; [reflexivity|]. exact GL.
        -- split; [|discriminate]. intros [(_ & _ & H)|(H & _)]; [|lia]. exfalso.
           repeat match goal with H : _ \/ _ |- _ => destruct H as [H|H] end; try (destruct H as [H _]; discriminate).
           apply GL. tauto.
      * split.
        -- intros [(H1 & H2 & _)|(_ & ->)]; [lia|].
           destruct (N.eqb_spec d 1); [lia|]. destruct (N.eqb_spec d 2); [lia|]. destruct (N.eqb_spec d 3); [lia|]. destruct (N.eqb_spec d 4); [lia|].
           destruct (N.eqb_spec d 5); [lia|]. destruct (N.eqb_spec d 6); [lia|]. destruct (N.eqb_spec d 7); [lia|]. reflexivity.
        -- destruct (N.eqb_spec d 1); [lia|]. destruct (N.eqb_spec d 2); [lia|]. destruct (N.eqb_spec d 3); [lia|]. destruct (N.eqb_spec d 4); [lia|].
           destruct (N.eqb_spec d 5); [lia|]. destruct (N.eqb_spec d 6); [lia|]. destruct (N.eqb_spec d 7); [lia|]. intros [= <-]. auto.
  - split; [intros [(Q & _)|(_ & ->)]; [discriminate|]|intros [= <-]; right; split; [reflexivity|]];
      unfold copy_low; rewrite !level_cpy_id; reflexivity.
  - rewrite source_range_ok. split; [intros [(Q & _)|(_ & ->)]; [discriminate|reflexivity]|intros [= <-]; auto].
Qed.

Lemma range_valid P rq s t cls r : cpolicy_canonical P -> valid_mrange (c_range s) -> valid_mrange (c_range t) ->
  range_is P rq s t cls r -> valid_mrange r.
Proof.
  intros [PC CR] [Vs1 Vs2] [Vt1 Vt2]. unfold range_is, range_by_code, range_of_source.
  assert (S : valid_mrange (c_range s)) by (split; assumption). assert (T : valid_mrange (c_range t)) by (split; assumption).
  intros [(_ & ->)|(_ & H)]; [split; apply valid_init|]. destruct rq.
  - destruct H as [(l1 & l2 & E & _)|(_ & [(d & _ & _ & _ & H)|(_ & H)])].
    + apply (CR (c_type s, c_type t, cls)). rewrite E. apply in_app_iff. right. left. reflexivity.
    + decompose [or and] H; subst; try assumption; split; assumption.
    + destruct H as [(_ & ->)|(_ & ->)]; [assumption|split; assumption].
  - subst r. split; assumption.
  - destruct H as [(_ & ->)|(_ & ->)]; [assumption|split; assumption].
Qed.

(** *** the whole computation *)
Lemma label_sat P rq s t cls rng : wf (cp_te P) -> wf (cp_cond P) -> cpolicy_canonical P ->
  valid_mrange (c_range s) -> valid_mrange (c_range t) -> mls_compute_sid P s t cls (rule_code rq) = Some rng ->
  label_is P rq s t cls (MlsModel.mkC (new_user P s t cls (rule_code rq)) (new_role P s t cls (rule_code rq)) (new_type P s t cls (rule_code rq)) rng).
Proof.
  intros W1 W2 CC Vs Vt E. split; [apply user_ok; reflexivity|]. split; [apply role_ok; reflexivity|].
  split; [apply type_sat; assumption|]. apply (range_ok P rq s t cls _ CC Vs Vt). exact E.
Qed.

Lemma label_fun P rq s t cls c : wf (cp_te P) -> wf (cp_cond P) -> cpolicy_canonical P -> unambiguous P ->
  valid_mrange (c_range s) -> valid_mrange (c_range t) -> label_is P rq s t cls c ->
  exists rng, mls_compute_sid P s t cls (rule_code rq) = Some rng /\
    c = MlsModel.mkC (new_user P s t cls (rule_code rq)) (new_role P s t cls (rule_code rq)) (new_type P s t cls (rule_code rq)) rng.
Proof.
  intros W1 W2 CC U Vs Vt (H1 & H2 & H3 & H4). apply user_ok in H1. apply role_ok in H2.
  pose proof (type_fun P rq s t cls _ _ U H3 (type_sat P rq s t cls W1 W2)) as H5.
  apply (range_ok P rq s t cls _ CC Vs Vt) in H4. exists (c_range c). split; [exact H4|]. destruct c; cbn in *. congruence.
Qed.

(** Which SIDs a request can be answered with; models no code. *)
Lemma compute_sound P tab enf ssid tsid cls rq mem s t : wf (cp_te P) -> wf (cp_cond P) -> cpolicy_canonical P ->
  inv tab -> sidtab_search tab ssid = Some s -> sidtab_search tab tsid = Some t ->
  valid_mrange (c_range s) -> valid_mrange (c_range t) -> 1 <= cls -> cls <= cp_nclasses P ->
  exists tab' o, compute_sid P tab enf ssid tsid cls (rule_code rq) mem = ROk (tab', o) /\ inv tab' /\
    (forall x d, sidtab_search tab x = Some d -> (forall e, ~ holds tab x e) \/ sidtab_search tab' x = Some d) /\
    match o with
    | Some sid => 1 <= sid /\ exists c, label_is P rq s t cls c /\ (context_authorised (cp_base P) c \/ enf = false) /\ sidtab_search tab' sid = Some c
    | None => tab' = tab /\ (unambiguous P -> forall c, label_is P rq s t cls c -> (context_authorised (cp_base P) c \/ enf = false) ->
        mem = false \/ st_shut tab = true \/ st_next tab = 4294967295)
    end.
Proof.
  intros W1 W2 CC I Es Et Vs Vt L1 L2. unfold compute_sid. rewrite Es, Et.
  assert (Triv : forall x d, sidtab_search tab x = Some d -> (forall e, ~ holds tab x e) \/ sidtab_search tab x = Some d) by auto.
  destruct (mls_compute_sid P s t cls (rule_code rq)) as [rng|] eqn:Er.
  2:{ exists tab, None. split; [reflexivity|]. split; [exact I|]. split; [exact Triv|]. split; [reflexivity|]. intros U c Hc.
      destruct (label_fun P rq s t cls c W1 W2 CC U Vs Vt Hc) as (r & Q & _). congruence. }
  pose proof (label_sat P rq s t cls rng W1 W2 CC Vs Vt Er) as LS.
  pose proof (label_fun P rq s t cls) as LF.
  set (c := MlsModel.mkC _ _ _ _) in *. assert (Vr : valid_mrange (c_range c)).
  { apply (range_valid P rq s t cls _ CC Vs Vt). apply LS. }
  pose proof (context_is_valid_spec (cp_base P) c (proj1 CC) Vr) as CV.
  assert (Get : forall a : context_authorised (cp_base P) c \/ enf = false,
    exists tab' o, match context_to_sid tab c mem with
                   | ROk (tab', (TOk, sid)) => ROk (tab', Some sid)
                   | ROk (tab', (_, _)) => ROk (tab', None)
                   | RErr => RErr
                   | RUB => RUB
                   end = ROk (tab', o) /\ inv tab' /\
    (forall x d, sidtab_search tab x = Some d -> (forall e, ~ holds tab x e) \/ sidtab_search tab' x = Some d) /\
    match o with
    | Some sid => 1 <= sid /\ exists c, label_is P rq s t cls c /\ (context_authorised (cp_base P) c \/ enf = false) /\ sidtab_search tab' sid = Some c
    | None => tab' = tab /\ (unambiguous P -> forall c, label_is P rq s t cls c -> (context_authorised (cp_base P) c \/ enf = false) ->
        mem = false \/ st_shut tab = true \/ st_next tab = 4294967295)
    end).
  { intros Ha. destruct (step_inv tab (TToSid c mem) I Coq.Init.Logic.I) as (tab' & r & sid & E & I' & _ & _ & K). cbn [tstep] in E. rewrite E.
    pose proof I as (u & Eu & Sh & HS & N1 & N2). pose proof I' as (u' & Eu' & Sh' & HS' & _).
    destruct (K u u' Eu Eu') as (K1 & _ & K3 & _).
    assert (Keep : forall x d, sidtab_search tab x = Some d -> (forall e, ~ holds tab x e) \/ sidtab_search tab' x = Some d).
    { intros x d Hx. rewrite (search_look tab u x Eu) in Hx. destruct (look u x) as [e|] eqn:El.
      - right. injection Hx as <-. apply (look_spec u x e Sh) in El. apply holds_search; [exact I'|]. exists u'. split; [exact Eu'|].
        apply K1. left. exact El.
      - left. intros e (u0 & Eu0 & He). rewrite Eu in Eu0. injection Eu0 as <-. apply (look_none u x Sh) with (c := e) in El. exact (El He). }
    destruct (to_sid_cases tab u c mem Eu Sh HS N1 N2) as (t2 & r2 & sid2 & E2 & TC). rewrite E in E2. injection E2 as <- <- <-.
    destruct r; [|destruct TC|].
    - exists tab', (Some sid). split; [reflexivity|]. split; [exact I'|]. split; [exact Keep|]. split; [apply K3; reflexivity|].
      exists c. split; [exact LS|]. split; [exact Ha|]. apply holds_search; [exact I'|]. exists u'. split; [exact Eu'|]. apply K1. auto.
    - exists tab', None. split; [reflexivity|]. split; [exact I'|]. split; [exact Keep|]. destruct TC as (-> & _ & Q & _). split; [reflexivity|].
      intros _ c0 _ _. tauto. }
  destruct (context_is_valid (cp_base P) c).
  - apply Get. left. apply CV. reflexivity.
  - destruct enf.
    + exists tab, None. split; [reflexivity|]. split; [exact I|]. split; [exact Triv|]. split; [reflexivity|]. intros U c0 Hc0 [A|A]; [|discriminate].
      destruct (LF c0 W1 W2 CC U Vs Vt Hc0) as (r & Q & Q2). rewrite Er in Q. injection Q as <-. fold c in Q2. subst c0. apply CV in A. discriminate.
    + destruct (N.eqb_spec cls 0); [lia|]. destruct (N.ltb_spec (cp_nclasses P) cls); [lia|]. cbn [orb]. apply Get. right. reflexivity.
Qed.

Lemma label_precedence P tab enf ssid tsid cls rq mem s t sid tab' :
  wf (cp_te P) -> wf (cp_cond P) -> cpolicy_canonical P -> well_built tab ->
  sidtab_search tab ssid = Some s -> sidtab_search tab tsid = Some t ->
  valid_mrange (c_range s) -> valid_mrange (c_range t) -> 1 <= cls -> cls <= cp_nclasses P ->
  compute_sid P tab enf ssid tsid cls (rule_code rq) mem = ROk (tab', Some sid) ->
  1 <= sid /\
  (exists c, label_is P rq s t cls c /\ (context_authorised (cp_base P) c \/ enf = false) /\ sidtab_search tab' sid = Some c) /\
  (forall x d, holds tab x d -> sidtab_search tab' x = Some d).
Proof.
  intros W1 W2 CC WB Es Et Vs Vt L1 L2 E. apply inv_built in WB.
  destruct (compute_sound P tab enf ssid tsid cls rq mem s t W1 W2 CC WB Es Et Vs Vt L1 L2) as (t1 & o & E1 & I1 & K & H).
  rewrite E in E1. injection E1 as <- <-. destruct H as [H1 H2]. split; [exact H1|]. split; [exact H2|].
  intros x d Hx. destruct (K x d (holds_search _ _ _ WB Hx)) as [Q|Q]; [destruct (Q d Hx)|exact Q].
Qed.

Lemma label_complete P tab enf ssid tsid cls rq s t c :
  wf (cp_te P) -> wf (cp_cond P) -> cpolicy_canonical P -> unambiguous P -> well_built tab -> st_shut tab = false -> st_next tab < 4294967295 ->
  sidtab_search tab ssid = Some s -> sidtab_search tab tsid = Some t ->
  valid_mrange (c_range s) -> valid_mrange (c_range t) -> 1 <= cls -> cls <= cp_nclasses P ->
  label_is P rq s t cls c -> (context_authorised (cp_base P) c \/ enf = false) ->
  exists tab' sid, compute_sid P tab enf ssid tsid cls (rule_code rq) true = ROk (tab', Some sid) /\ sidtab_search tab' sid = Some c.
Proof.
  intros W1 W2 CC U WB Sd Nx Es Et Vs Vt L1 L2 Lb Au. apply inv_built in WB.
  destruct (compute_sound P tab enf ssid tsid cls rq true s t W1 W2 CC WB Es Et Vs Vt L1 L2) as (t1 & o & E1 & I1 & K & H).
  destruct o as [sid|].
  - exists t1, sid. split; [exact E1|]. destruct H as (_ & d & Ld & _ & Sd').
    destruct (label_fun P rq s t cls c W1 W2 CC U Vs Vt Lb) as (r & Q & ->).
    destruct (label_fun P rq s t cls d W1 W2 CC U Vs Vt Ld) as (r' & Q' & ->). congruence.
  - destruct H as (_ & H). destruct (H U c Lb Au) as [Q|[Q|Q]]; [discriminate|congruence|lia].
Qed.

Lemma refused_unchanged P tab enf ssid tsid cls rq mem s t tab' :
  wf (cp_te P) -> wf (cp_cond P) -> cpolicy_canonical P -> well_built tab ->
  sidtab_search tab ssid = Some s -> sidtab_search tab tsid = Some t ->
  valid_mrange (c_range s) -> valid_mrange (c_range t) -> 1 <= cls -> cls <= cp_nclasses P ->
  compute_sid P tab enf ssid tsid cls (rule_code rq) mem = ROk (tab', None) -> tab' = tab.
Proof.
  intros W1 W2 CC WB Es Et Vs Vt L1 L2 E. apply inv_built in WB.
  destruct (compute_sound P tab enf ssid tsid cls rq mem s t W1 W2 CC WB Es Et Vs Vt L1 L2) as (t1 & o & E1 & I1 & K & H).
  rewrite E in E1. injection E1 as <- <-. apply H.
Qed.
