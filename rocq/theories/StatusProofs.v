(** Proofs about the status page. *)
From Coq Require Import Sorted.
From Verif Require Import Base StatusModel StatusSpec.
Ltac Zify.zify_post_hook ::= Z.div_mod_to_equations.

Definition W := 4294967296.
Lemma odd_mod c : odd (c mod W) = N.odd c.
Proof. unfold odd. rewrite <- !N.bit0_odd. change W with (2 ^ 32). apply N.mod_pow2_bits_low. lia. Qed.
Lemma odd_even c : N.odd c = negb (N.even c).
Proof. symmetry. apply N.negb_even. Qed.

(** ** The kernel *)
Definition field_from (f : snap -> N) (x : N) (k : kern) : Prop := exists c s, (In (c, s) (k_hist k) \/ k_new k = Some s) /\ x = f s.
Definition kinv (k : kern) : Prop :=
  StronglySorted (fun a b => fst b < fst a) (k_hist k) /\
  exists c s r, k_hist k = (c, s) :: r /\
    match k_new k with
    | None => k_cnt k = c /\ N.even c = true /\ k_cur k = s
    | Some n => k_cnt k = c + 1 /\ N.even c = true /\
        (s_enf (k_cur k) = s_enf s \/ s_enf (k_cur k) = s_enf n) /\ (s_load (k_cur k) = s_load s \/ s_load (k_cur k) = s_load n) /\ (s_deny (k_cur k) = s_deny s \/ s_deny (k_cur k) = s_deny n)
    end.
Lemma snap_eqb_eq a b : snap_eqb a b = true -> a = b.
Proof. destruct a as [a1 a2 a3], b as [b1 b2 b3]. unfold snap_eqb. cbn [s_enf s_load s_deny]. intros H. apply andb_prop in H as [H H3]. apply andb_prop in H as [H1 H2]. apply N.eqb_eq in H1, H2, H3. congruence. Qed.
Lemma kstep_inv k a k' : kstep k a = Some k' -> kinv k -> kinv k' /\ k_cnt k <= k_cnt k' /\ (exists d, k_hist k' = d ++ k_hist k) /\ (forall s, k_new k = Some s -> k_new k' = Some s \/ exists c, k_cnt k < c /\ In (c, s) (k_hist k')).
Proof.
  intros E (SS & c & s & r & EH & ST). destruct a as [b|n|f| |n]; cbn [kstep] in E.
  - injection E as <-. split; [split; [exact SS|exists c, s, r; split; [exact EH|exact ST]]|]. cbn [k_cnt k_hist k_new]. split; [lia|]. split; [exists []; reflexivity|auto].
  - destruct (k_new k) as [n0|] eqn:EN; [discriminate|]. injection E as <-. destruct ST as (S1 & S2 & S3). split; [split; [exact SS|]|].
    + exists c, s, r. cbn [k_hist k_new k_cnt k_cur]. split; [exact EH|]. rewrite S3. split; [lia|]. split; [exact S2|auto].
    + cbn [k_cnt k_hist k_new]. split; [lia|]. split; [exists []; reflexivity|discriminate].
  - destruct (k_new k) as [n0|] eqn:EN; [|discriminate]. injection E as <-. destruct ST as (S1 & S2 & S3 & S4 & S5). split; [split; [exact SS|]|].
    + exists c, s, r. cbn [k_hist k_new k_cnt k_cur]. split; [exact EH|]. split; [exact S1|]. split; [exact S2|]. destruct f; cbn [s_enf s_load s_deny]; auto.
    + cbn [k_cnt k_hist k_new]. split; [lia|]. split; [exists []; reflexivity|auto].
  - destruct (k_new k) as [n0|] eqn:EN; [|discriminate]. destruct (snap_eqb (k_cur k) n0) eqn:EQ; [|discriminate]. injection E as <-. apply snap_eqb_eq in EQ. destruct ST as (S1 & S2 & _). split; [split|].
    + cbn [k_hist]. constructor; [exact SS|]. rewrite EH in *. apply StronglySorted_inv in SS as [_ F]. constructor; cbn [fst]; [lia|]. rewrite Forall_forall in *. intros x Hx. specialize (F x Hx). cbn [fst] in F. lia.
    + exists (k_cnt k + 1), n0, (k_hist k). cbn [k_hist k_new k_cnt k_cur]. split; [reflexivity|]. split; [reflexivity|]. split; [|exact EQ]. rewrite S1. replace (c + 1 + 1) with (N.succ (N.succ c)) by lia. rewrite N.even_succ_succ. exact S2.
    + cbn [k_cnt k_hist k_new]. split; [lia|]. split; [exists [(k_cnt k + 1, n0)]; reflexivity|]. intros s0 [= <-]. right. exists (k_cnt k + 1). split; [lia|left; reflexivity].
  - injection E as <-. split; [split; [exact SS|exists c, s, r; split; [exact EH|exact ST]]|]. cbn [k_cnt k_hist k_new]. split; [lia|]. split; [exists []; reflexivity|auto].
Qed.
Lemma kinv_in k c s : kinv k -> In (c, s) (k_hist k) -> c <= k_cnt k /\ (c = k_cnt k -> k_cur k = s).
Proof.
  intros (SS & c0 & s0 & r & EH & ST) H. rewrite EH in *. apply StronglySorted_inv in SS as [_ F]. rewrite Forall_forall in F. destruct H as [[= -> ->]|H].
  - destruct (k_new k); [lia|]. destruct ST as (S1 & _ & S3). split; [lia|auto].
  - specialize (F _ H). cbn [fst] in F. destruct (k_new k); lia.
Qed.
Lemma kinv_even k : kinv k -> N.odd (k_cnt k) = false -> k_new k = None /\ In (k_cnt k, k_cur k) (k_hist k).
Proof.
  intros (_ & c & s & r & EH & ST) E. destruct (k_new k).
  - destruct ST as (S1 & S2 & _). rewrite S1, N.add_1_r, N.odd_succ, S2 in E. discriminate.
  - destruct ST as (S1 & _ & S3). split; [reflexivity|]. rewrite EH, S1, S3. left. reflexivity.
Qed.
Lemma same_seq c c' : c <= c' -> c' - c < W -> c mod W = c' mod W -> c = c'.
Proof. unfold W. intros. lia. Qed.

(** ** The drained kernel is the same but for its messages *)
Lemma kinv_drained k : kinv k -> kinv (drained k).
Proof. auto. Qed.

Definition newest (k : kern) : N := match k_hist k with (c, _) :: _ => c | [] => 0 end.
Lemma newest_in k0 k d c s : kinv k0 -> kinv k -> k_hist k = d ++ k_hist k0 -> In (c, s) (k_hist k) -> newest k0 <= c -> In (c, s) (d ++ firstn 1 (k_hist k0)).
Proof.
  intros (SS & c0 & s0 & r & EH & _) _ E H L. rewrite E in H. unfold newest in L. rewrite EH in *. cbn [firstn]. apply in_app_or in H as [H|[H|H]]; [apply in_or_app; auto|apply in_or_app; right; left; exact H|].
  apply StronglySorted_inv in SS as [_ F]. rewrite Forall_forall in F. specialize (F _ H). cbn [fst] in F. lia.
Qed.

(** ** A running call that began when the kernel was [k0] *)
Definition seen (c0 : N) (k : kern) (v : N) (Q : snap -> Prop) : Prop :=
  exists c s, In (c, s) (k_hist k) /\ c0 <= c /\ v = c mod W /\ (Q s \/ c < k_cnt k).
Definition from (k0 k : kern) (f : snap -> N) (x : N) : Prop :=
  exists s, x = f s /\ (k_new k = Some s \/ exists c, newest k0 <= c /\ In (c, s) (k_hist k)).
Definition base (k0 : kern) (y : sys) : Prop := kinv (y_k y) /\ k_cnt k0 <= k_cnt (y_k y) /\ exists d, k_hist (y_k y) = d ++ k_hist k0.
Lemma seen_mono c0 k k' v Q : k_cnt k <= k_cnt k' -> (exists d, k_hist k' = d ++ k_hist k) -> seen c0 k v Q -> seen c0 k' v Q.
Proof. intros L (d & E) (c & s & H & N1 & V & R). exists c, s. rewrite E. split; [apply in_or_app; auto|]. split; [exact N1|]. split; [exact V|]. destruct R; [auto|right; lia]. Qed.
Lemma from_mono k0 k a k' f x : newest k0 <= k_cnt k -> kstep k a = Some k' -> kinv k -> from k0 k f x -> from k0 k' f x.
Proof.
  intros I0 E I (s & EX & H). destruct (kstep_inv k a k' E I) as (I' & L & (d & EH) & MV). exists s. split; [exact EX|]. destruct H as [H|(c & N1 & H)].
  - destruct (MV s H) as [M|(c & L1 & M)]; [auto|]. right. exists c. split; [lia|exact M].
  - right. exists c. rewrite EH. split; [exact N1|apply in_or_app; auto].
Qed.
Lemma base_newest k0 y : kinv k0 -> base k0 y -> newest k0 <= k_cnt (y_k y).
Proof.
  intros (_ & c & s & r & EH & ST) (_ & L & _). unfold newest. rewrite EH. destruct (k_new k0); lia.
Qed.
Lemma base_head k0 y : kinv k0 -> base k0 y -> N.odd (k_cnt (y_k y)) = false -> newest k0 <= k_cnt (y_k y) /\ In (k_cnt (y_k y), k_cur (y_k y)) (k_hist (y_k y)).
Proof. intros I0 B E. split; [exact (base_newest k0 y I0 B)|]. destruct B as (I & _). exact (proj2 (kinv_even _ I E)). Qed.
(** A field read now. *)
Lemma from_now k0 y w : kinv k0 -> base k0 y -> from k0 (y_k y) (field_of w) (field_of w (k_cur (y_k y))).
Proof.
  intros I0 ((SS & c & s & r & EH & ST) & L & d & ED).
  assert (N1 : newest k0 <= c).
  { destruct I0 as (_ & c0 & s0 & r0 & EH0 & _). unfold newest. rewrite EH0 in *. rewrite EH in ED. destruct d as [|x d]; cbn [app] in ED; [injection ED as -> -> ->; lia|].
    injection ED as <- ->. rewrite EH in SS. apply StronglySorted_inv in SS as [_ F]. rewrite Forall_forall in F. specialize (F (c0, s0)). cbn [fst] in F. assert (In (c0, s0) (d ++ (c0, s0) :: r0)) by (apply in_or_app; right; left; reflexivity). specialize (F H). lia. }
  assert (HH : In (c, s) (k_hist (y_k y))) by (rewrite EH; left; reflexivity). unfold from.
  destruct (k_new (y_k y)) as [n|] eqn:EN.
  - destruct ST as (_ & _ & S3 & S4 & S5). assert (X : forall f : snap -> N, f (k_cur (y_k y)) = f s \/ f (k_cur (y_k y)) = f n -> exists s1, f (k_cur (y_k y)) = f s1 /\ (Some n = Some s1 \/ exists c0, newest k0 <= c0 /\ In (c0, s1) (k_hist (y_k y)))).
    { intros f [H|H]; [exists s; split; [exact H|right; exists c; auto]|exists n; auto]. }
    destruct w; cbn [field_of]; apply X; assumption.
  - destruct ST as (_ & _ & ->). exists s. split; [reflexivity|]. right. exists c. auto.
Qed.

Lemma base_kern k0 y a k' l' a' : kinv k0 -> base k0 y -> kstep (y_k y) a = Some k' -> base k0 (mkSys k' l' a').
Proof.
  intros I0 (I & L & d & ED) E. destruct (kstep_inv _ _ _ E I) as (I' & L' & (d' & EH) & MV).
  split; [exact I'|]. cbn [y_k]. split; [lia|]. exists (d' ++ d). rewrite EH, ED, app_assoc. reflexivity.
Qed.
(** ** What a call that ended has done *)
Definition pub (k0 k : kern) (s : snap) : Prop := exists c, newest k0 <= c /\ In (c, s) (k_hist k).
Lemma pub_published k0 k s d : kinv k0 -> kinv k -> k_hist k = d ++ k_hist k0 -> pub k0 k s -> published_during k0 k s.
Proof. intros I0 I E (c & L & H). exists d, c. split; [exact E|]. exact (newest_in k0 k d c s I0 I E H L). Qed.

Lemma pub_mono k0 k k' s : (exists d, k_hist k' = d ++ k_hist k) -> pub k0 k s -> pub k0 k' s.
Proof. intros (d & E) (c & L & H). exists c. rewrite E. split; [exact L|apply in_or_app; auto]. Qed.

(** One field. *)
Definition result (w : what) (s : snap) : res :=
  match w with WEnf => RInt (truth (s_enf s)) | WLoad => RInt (s_load s) | WDeny => RInt (truth (s_deny s)) | WOpen => RInt 0 end.
Definition single (w : what) (k0 : kern) (l0 : lib) (y : sys) : Prop :=
  base k0 y /\
  match y_a y with
  | Seq1 w' | Val w' _ => w' = w /\ y_l y = l0
  | Seq2 w' _ x => w' = w /\ y_l y = l0 /\ from k0 (y_k y) (field_of w) x
  | Idle r => exists s, pub k0 (y_k y) s /\ r = result w s /\ y_l y = match w with WOpen => set_load l0 (s_load s) | _ => l0 end
  | _ => False
  end.
Lemma single_step w k0 l0 y b y' : kinv k0 -> single w k0 l0 y -> match b with LCall _ _ => False | _ => True end -> sstep y b = Some y' -> single w k0 l0 y'.
Proof.
  intros I0 (B & S) NB E. destruct b as [a|c o|o]; [|destruct NB|]; cbn [sstep] in E.
  - destruct (kstep (y_k y) a) as [k'|] eqn:EK; [|discriminate]. injection E as <-. split; [exact (base_kern _ _ _ _ _ _ I0 B EK)|]. cbn [y_a y_l y_k]. pose proof (base_newest _ _ I0 B) as NB0. destruct B as (I & _).
    destruct (y_a y); auto.
    + destruct S as (s & S1 & S2). exists s. split; [|exact S2]. destruct (kstep_inv _ _ _ EK I) as (_ & _ & D & _). exact (pub_mono _ _ _ _ D S1).
    + destruct S as (-> & S2 & S3). split; [reflexivity|]. split; [exact S2|]. exact (from_mono _ _ _ _ _ _ NB0 EK I S3).
  - unfold load in E. destruct (y_a y) as [r|w'|w' v|w' v x| | | |] eqn:EA; try discriminate; try destruct S.
    + destruct (odd (seq_field (y_k y))); injection E as <-; (split; [exact B|]); cbn [y_a y_l]; auto.
    + subst w'. injection E as <-. split; [exact B|]. cbn [y_a y_l y_k]. split; [reflexivity|]. split; [assumption|]. exact (from_now k0 y w I0 B).
    + destruct H0 as (EL & FR). subst w'. unfold seq_field in E. change 4294967296 with W in E. rewrite odd_mod in E. destruct (N.odd (k_cnt (y_k y))) eqn:OD.
      * injection E as <-. split; [exact B|]. cbn [y_a y_l y_k]. auto.
      * destruct (_ =? v).
        -- assert (PB : exists s, x = field_of w s /\ pub k0 (y_k y) s). { destruct FR as (s & EX & [H|H]); [|exists s; auto]. destruct B as (I & _). destruct (kinv_even _ I OD) as [EN _]. congruence. }
           destruct PB as (s & -> & PB). destruct (read_end w (y_l y) (field_of w s)) as [l1 a1] eqn:RE. injection E as <-. split; [exact B|]. cbn [y_k].
           destruct w; cbn [read_end field_of] in RE; injection RE as <- <-; cbn [y_a y_l]; exists s; (split; [exact PB|]; split; [reflexivity|]); congruence.
        -- injection E as <-. split; [exact B|]. cbn [y_a y_l]. auto.
Qed.
Lemma single_exec w k0 l0 : kinv k0 -> forall l y y', no_calls l -> single w k0 l0 y -> sexec y l = Some y' -> single w k0 l0 y'.
Proof.
  intros I0. induction l as [|b l IH]; intros y y' NC S E; cbn [sexec] in E; [injection E as <-; exact S|]. destruct (sstep y b) as [y1|] eqn:E1; [|discriminate].
  apply (IH y1); [intros c Hc; apply NC; right; exact Hc| |exact E]. apply (single_step w k0 l0 y b); [exact I0|exact S|exact (NC b (or_introl eq_refl))|exact E1].
Qed.

(** Two fields. *)
Definition upd (chk : bool) (k0 : kern) (l0 : lib) (y : sys) : Prop :=
  base k0 y /\
  match y_a y with
  | USeq1 c => c = chk /\ y_l y = l0
  | UEnf c v => c = chk /\ y_l y = l0 /\ odd (l_seq l0) = false /\ seen (k_cnt k0) (y_k y) v (fun _ => True)
  | ULoad c v e => c = chk /\ y_l y = l0 /\ odd (l_seq l0) = false /\ seen (k_cnt k0) (y_k y) v (fun s => e = s_enf s)
  | USeq2 c v e p => c = chk /\ y_l y = l0 /\ odd (l_seq l0) = false /\ seen (k_cnt k0) (y_k y) v (fun s => e = s_enf s /\ p = s_load s)
  | Idle r =>
      (exists c s, In (c, s) (k_hist (y_k y)) /\ k_cnt k0 <= c /\ (odd (l_seq l0) = true \/ l_seq l0 = c mod W) /\ (y_l y, Idle r) = updated_end chk (set_seq l0 (c mod W)) (RInt 0)) \/
      (odd (l_seq l0) = false /\ (k_cnt (y_k y) - k_cnt k0 < W -> exists c s o, In (c, s) (k_hist (y_k y)) /\ k_cnt k0 <= c /\ (y_l y, Idle r) = updated_finish chk l0 (c mod W) (s_enf s) (s_load s) o) /\
       exists o v e p, (y_l y, Idle r) = updated_finish chk l0 v e p o)
  | _ => False
  end.
Lemma finish_idle chk l v e p o : exists l1 r, updated_finish chk l v e p o = (l1, Idle r).
Proof.
  unfold updated_finish, updated_end. destruct (if negb (l_enf l =? e) then _ else _) as [l1 ok1]. destruct ok1; cbn [negb]; [|eauto].
  destruct (if negb (l_load l1 =? p) then _ else _) as [l2 ok2]. destruct ok2; cbn [negb]; eauto.
Qed.
Lemma set_seq_same l s : l_seq l = s -> set_seq l s = l.
Proof. destruct l. unfold set_seq. cbn. intros ->. reflexivity. Qed.
Lemma upd_step chk k0 l0 y b y' : kinv k0 -> upd chk k0 l0 y -> match b with LCall _ _ => False | _ => True end -> sstep y b = Some y' -> upd chk k0 l0 y'.
Proof.
  intros I0 (B & S) NB E. destruct b as [a|c o|o]; [|destruct NB|]; cbn [sstep] in E.
  - destruct (kstep (y_k y) a) as [k'|] eqn:EK; [|discriminate]. injection E as <-. split; [exact (base_kern _ _ _ _ _ _ I0 B EK)|]. cbn [y_a y_l y_k]. destruct B as (I & B2). destruct (kstep_inv _ _ _ EK I) as (_ & LE & D & _).
    destruct (y_a y); auto.
    + destruct D as (d & ED). destruct S as [(c & s & H & R)|(O & H & X)]; [left; exists c, s; split; [rewrite ED; apply in_or_app; auto|exact R]|right]. split; [exact O|]. split; [|exact X]. intros HW. destruct H as (c & s & o & H & R); [lia|].
      exists c, s, o. split; [rewrite ED; apply in_or_app; auto|exact R].
    + destruct S as (S1 & S2 & S3 & S4). split; [exact S1|]. split; [exact S2|]. split; [exact S3|]. exact (seen_mono _ _ _ _ _ LE D S4).
    + destruct S as (S1 & S2 & S3 & S4). split; [exact S1|]. split; [exact S2|]. split; [exact S3|]. exact (seen_mono _ _ _ _ _ LE D S4).
    + destruct S as (S1 & S2 & S3 & S4). split; [exact S1|]. split; [exact S2|]. split; [exact S3|]. exact (seen_mono _ _ _ _ _ LE D S4).
  - unfold load in E. unfold seq_field in E. change 4294967296 with W in E. rewrite ?odd_mod in E.
    assert (NOW : N.odd (k_cnt (y_k y)) = false -> In (k_cnt (y_k y), k_cur (y_k y)) (k_hist (y_k y)) /\ k_cnt k0 <= k_cnt (y_k y)).
    { intros OD. split; [exact (proj2 (base_head k0 y I0 B OD))|]. destruct B as (_ & L & _). exact L. }
    assert (UPTO : forall v Q (Q' : snap -> Prop), seen (k_cnt k0) (y_k y) v Q -> (forall s, k_cur (y_k y) = s -> Q s -> Q' s) -> seen (k_cnt k0) (y_k y) v Q').
    { intros v Q Q' (c & s & H & L & V & R) HQ. exists c, s. split; [exact H|]. split; [exact L|]. split; [exact V|]. destruct R as [R|R]; [|auto]. destruct B as (I & _). destruct (kinv_in _ _ _ I H) as [LC EC].
      destruct (N.eq_dec c (k_cnt (y_k y))) as [EE|NE]; [left; apply HQ; [exact (EC EE)|exact R]|right; lia]. }
    destruct (y_a y) as [r|w'|w' v|w' v x|c|c v|c v e|c v e p] eqn:EA; try discriminate; try destruct S.
    + destruct (N.odd (k_cnt (y_k y))) eqn:OD.
      * injection E as <-. split; [exact B|]. cbn [y_a y_l]. auto.
      * destruct (NOW eq_refl) as [NW LW]. subst c. rewrite H0 in E. destruct (odd (l_seq l0)) eqn:OL.
        -- cbn [set_seq l_seq] in E. rewrite N.eqb_refl in E. destruct (updated_end chk _ _) as [l1 a1] eqn:UE. injection E as <-. split; [exact B|]. cbn [y_a y_l y_k]. unfold updated_end in UE. injection UE as <- <-. left.
           exists (k_cnt (y_k y)), (k_cur (y_k y)). split; [exact NW|]. split; [exact LW|]. split; [auto|]. unfold set_seq. cbn [l_enf l_status l_set l_seq l_load l_fseq l_fenf l_fload l_resets]. reflexivity.
        -- destruct (N.eqb_spec (l_seq l0) (k_cnt (y_k y) mod W)) as [EQ|NE].
           ++ destruct (updated_end chk _ _) as [l1 a1] eqn:UE. injection E as <-. split; [exact B|]. cbn [y_a y_l y_k]. unfold updated_end in UE. injection UE as <- <-. left.
              exists (k_cnt (y_k y)), (k_cur (y_k y)). split; [exact NW|]. split; [exact LW|]. split; [auto|]. rewrite set_seq_same by exact EQ. reflexivity.
           ++ injection E as <-. split; [exact B|]. cbn [y_a y_l y_k]. split; [reflexivity|]. split; [reflexivity|]. split; [exact OL|]. exists (k_cnt (y_k y)), (k_cur (y_k y)). auto.
    + destruct H0 as (EL & OL & SE). injection E as <-. split; [exact B|]. cbn [y_a y_l y_k]. split; [assumption|]. split; [exact EL|]. split; [exact OL|]. apply (UPTO _ _ _ SE). intros s <- _. reflexivity.
    + destruct H0 as (EL & OL & SE). injection E as <-. split; [exact B|]. cbn [y_a y_l y_k]. split; [assumption|]. split; [exact EL|]. split; [exact OL|]. apply (UPTO _ _ _ SE). intros s <- EE. split; [exact EE|reflexivity].
    + destruct H0 as (EL & OL & SE). destruct (N.odd (k_cnt (y_k y))) eqn:OD.
      * injection E as <-. split; [exact B|]. cbn [y_a y_l y_k]. auto.
      * destruct (NOW eq_refl) as [NW LW]. destruct (N.eqb_spec (k_cnt (y_k y) mod W) v) as [EV|NV].
        -- subst c. destruct (finish_idle chk (y_l y) (k_cnt (y_k y) mod W) e p o) as (l1 & r & UF). rewrite UF in E. injection E as <-. split; [exact B|]. cbn [y_a y_l y_k]. right. rewrite EL in UF.
           split; [exact OL|]. split; [|exists o, (k_cnt (y_k y) mod W), e, p; symmetry; exact UF].
           intros HW. destruct SE as (c1 & s1 & H1 & L1 & V1 & R1). destruct B as (I & _). destruct (kinv_in _ _ _ I H1) as [LC EC].
           assert (CE : c1 = k_cnt (y_k y)) by (apply same_seq; [exact LC|lia|congruence]). destruct R1 as [[-> ->]|R1]; [|lia]. exists c1, s1, o. split; [exact H1|]. split; [exact L1|]. rewrite CE. symmetry. exact UF.
        -- injection E as <-. split; [exact B|]. cbn [y_a y_l y_k]. split; [assumption|]. split; [exact EL|]. split; [exact OL|]. exists (k_cnt (y_k y)), (k_cur (y_k y)). auto.
Qed.
Lemma upd_exec chk k0 l0 : kinv k0 -> forall l y y', no_calls l -> upd chk k0 l0 y -> sexec y l = Some y' -> upd chk k0 l0 y'.
Proof.
  intros I0. induction l as [|b l IH]; intros y y' NC S E; cbn [sexec] in E; [injection E as <-; exact S|]. destruct (sstep y b) as [y1|] eqn:E1; [|discriminate].
  apply (IH y1); [intros c Hc; apply NC; right; exact Hc| |exact E]. apply (upd_step chk k0 l0 y b); [exact I0|exact S|exact (NC b (or_introl eq_refl))|exact E1].
Qed.

(** ** All executions *)
Definition kev (k : kern) : Prop := Forall (fun a => N.even (fst a) = true) (k_hist k).
Lemma kev_step k a k' : kstep k a = Some k' -> kinv k -> kev k -> kev k'.
Proof.
  intros E (_ & c & s & r & EH & ST) V. unfold kev in *. destruct a as [b|n|f| |n]; cbn [kstep] in E; try (injection E as <-; exact V).
  - destruct (k_new k); [discriminate|]. injection E as <-. exact V.
  - destruct (k_new k); [|discriminate]. injection E as <-. exact V.
  - destruct (k_new k) as [n0|]; [|discriminate]. destruct (snap_eqb _ _); [|discriminate]. injection E as <-. cbn [k_hist]. constructor; [|exact V]. cbn [fst]. destruct ST as (-> & S2 & _). replace (c + 1 + 1) with (N.succ (N.succ c)) by lia. rewrite N.even_succ_succ. exact S2.
Qed.
Lemma call_kern k l c o : let '(k', _, _) := call k l c o in k' = k \/ k' = drained k.
Proof.
  destruct c; cbn [call].
  - destruct (status_open k l fallback o) as [l' a]. unfold opened. destruct (l_status l), (l_status l'); auto.
  - destruct (status_open k _ false o). auto.
  - destruct (l_status l); [destruct (updated_end _ _ _); auto|destruct (check_nb o l (k_msgs k)) as [l1 ok]|auto]. destruct (if negb ok then _ else _). auto.
  - destruct (l_status l); [auto|destruct (check_nb o l (k_msgs k)); auto|auto].
  - destruct (l_status l); [auto|destruct (check_nb o l (k_msgs k)); auto|auto].
  - destruct (l_status l); auto.
  - destruct (l_status l); auto.
  - destruct (l_status l); [destruct (updated_end _ _ _); auto|destruct (check_nb o l (k_msgs k)) as [l1 ok]|auto]. destruct (if negb ok then _ else _). auto.
Qed.
Definition kfine (k : kern) : Prop := kinv k /\ kev k.
Lemma sstep_kern y b y' : sstep y b = Some y' -> kfine (y_k y) -> kfine (y_k y') /\ k_cnt (y_k y) <= k_cnt (y_k y') /\ exists d, k_hist (y_k y') = d ++ k_hist (y_k y).
Proof.
  intros E [I V]. destruct b as [a|c o|o]; cbn [sstep] in E.
  - destruct (kstep (y_k y) a) as [k'|] eqn:EK; [|discriminate]. injection E as <-. cbn [y_k]. destruct (kstep_inv _ _ _ EK I) as (I' & L & D & _). split; [split; [exact I'|exact (kev_step _ _ _ EK I V)]|auto].
  - destruct (y_a y); try discriminate. pose proof (call_kern (y_k y) (y_l y) c o) as CK. destruct (call (y_k y) (y_l y) c o) as [[k l] a]. injection E as <-. cbn [y_k].
    destruct CK as [-> | ->]; (split; [split; [exact I|exact V]|]; split; [cbn [drained k_cnt]; lia|exists []; reflexivity]).
  - destruct (load (y_k y) (y_l y) (y_a y) o) as [[l a]|]; [|discriminate]. injection E as <-. cbn [y_k]. split; [split; assumption|]. split; [lia|exists []; reflexivity].
Qed.
Lemma sexec_kern : forall l y y', sexec y l = Some y' -> kfine (y_k y) -> kfine (y_k y') /\ k_cnt (y_k y) <= k_cnt (y_k y') /\ exists d, k_hist (y_k y') = d ++ k_hist (y_k y).
Proof.
  induction l as [|b l IH]; intros y y' E I; cbn [sexec] in E; [injection E as <-; split; [exact I|]; split; [lia|exists []; reflexivity]|]. destruct (sstep y b) as [y1|] eqn:E1; [|discriminate].
  destruct (sstep_kern y b y1 E1 I) as (I1 & L1 & d1 & D1). destruct (IH y1 y' E I1) as (I2 & L2 & d2 & D2). split; [exact I2|]. split; [lia|]. exists (d2 ++ d1). rewrite D2, D1, app_assoc. reflexivity.
Qed.
Lemma starts_kfine y : starts y -> kfine (y_k y).
Proof.
  intros (S1 & S2 & S3 & _). split.
  - split; [rewrite S3; constructor; constructor|]. exists (k_cnt (y_k y)), (k_cur (y_k y)), []. split; [exact S3|]. rewrite S1. auto.
  - unfold kev. rewrite S3. constructor; [exact S2|constructor].
Qed.
Lemma reachable_kfine y : reachable y -> kfine (y_k y).
Proof. intros (y0 & l & S & E). exact (proj1 (sexec_kern l y0 y E (starts_kfine y0 S))). Qed.
Lemma reachable_step y l y' : reachable y -> sexec y l = Some y' -> reachable y'.
Proof.
  intros (y0 & l0 & S & E) E'. exists y0, (l0 ++ l). split; [exact S|]. revert y0 S E. induction l0 as [|b l0 IH]; intros y0 S E; cbn [sexec app] in *; [injection E as ->; exact E'|]. destruct (sstep y0 b) as [y1|]; [|discriminate].
  clear S IH. revert y1 E. induction l0 as [|b' l0 IH]; intros y1 E; cbn [sexec app] in *; [injection E as ->; exact E'|]. destruct (sstep y1 b'); [|discriminate]. exact (IH _ E).
Qed.
Lemma base_refl k l a : kinv k -> base k (mkSys k l a).
Proof. intros I. split; [exact I|]. cbn [y_k]. split; [lia|exists []; reflexivity]. Qed.

Definition op_of (w : what) : op := match w with WEnf => OpGetEnforce | WLoad => OpPolicyload | WDeny => OpDenyUnknown | WOpen => OpOpen false end.
Lemma call_single w y r y' : w <> WOpen -> kinv (y_k y) -> l_status (y_l y) = SPage -> calls y (op_of w) r y' -> exists s, published_during (y_k y) (y_k y') s /\ r = result w s /\ y_l y' = y_l y.
Proof.
  intros NW I ST ((r0 & EI) & o & l & NC & E & ER). cbn [sexec sstep] in E. rewrite EI in E.
  assert (EC : call (y_k y) (y_l y) (op_of w) o = (y_k y, y_l y, Seq1 w)) by (destruct w; try (exfalso; apply NW; reflexivity); cbn [op_of call]; rewrite ST; reflexivity). rewrite EC in E.
  assert (S0 : single w (y_k y) (y_l y) (mkSys (y_k y) (y_l y) (Seq1 w))) by (split; [apply base_refl; exact I|]; cbn [y_a y_l]; auto). destruct (single_exec w (y_k y) (y_l y) I l _ y' NC S0 E) as (B & S). rewrite ER in S. destruct S as (s & P & ER' & EL). exists s. destruct B as (I' & _ & d & ED).
  split; [exact (pub_published _ _ _ d I I' ED P)|]. split; [exact ER'|]. destruct w; congruence.
Qed.
Lemma call_upd (chk : bool) y r y' : kinv (y_k y) -> l_status (y_l y) = SPage -> calls y (if chk then OpCheck else OpUpdated) r y' -> upd chk (y_k y) (y_l y) y' /\ y_a y' = Idle r.
Proof.
  intros I ST ((r0 & EI) & o & l & NC & E & ER). cbn [sexec sstep] in E. rewrite EI in E.
  assert (EC : call (y_k y) (y_l y) (if chk then OpCheck else OpUpdated) o = (y_k y, y_l y, USeq1 chk)) by (destruct chk; cbn [call]; rewrite ST; reflexivity). rewrite EC in E. split; [|exact ER].
  refine (upd_exec chk (y_k y) (y_l y) I l _ y' NC _ E). split; [apply base_refl; exact I|]. cbn [y_a y_l]. auto.
Qed.
Lemma finish_facts chk l v e p o l' r : updated_finish chk l v e p o = (l', Idle r) ->
  l_status l' = l_status l /\ l_set l' = l_set l /\ (l_set l = false -> l_enf l' = e) /\ (l_set l = true -> l_enf l' = l_enf l) /\ (l_seq l' = l_seq l \/ l_seq l' = v) /\
  (chk = true -> r = RMode (l_enf l')) /\ (chk = false -> r = RInt 1 -> l_load l' = p /\ l_seq l' = v) /\ (chk = false -> r = RInt 1 \/ r = RErr).
Proof.
  unfold updated_finish, updated_end, process_setenforce, process_policyload, set_load, set_seq. destruct (N.eqb_spec (l_enf l) e) as [EE|NE]; cbn [negb].
  - destruct (N.eqb_spec (l_load l) p) as [EP|NP]; cbn [negb].
    + intros [= <- <-]. cbn. destruct chk; intuition congruence.
    + destruct (o_reset2 o); [destruct (o_cb2 o)|]; cbn [negb]; intros [= <- <-]; cbn; destruct chk; intuition congruence.
  - destruct (l_set l) eqn:LS.
    + destruct (o_cb1 o); cbn [negb]; [|intros [= <- <-]; cbn; destruct chk; intuition congruence]. destruct (N.eqb_spec (l_load l) p) as [EP|NP]; cbn [negb].
      * intros [= <- <-]. cbn. destruct chk; intuition congruence.
      * destruct (o_reset2 o); [destruct (o_cb2 o)|]; cbn [negb]; intros [= <- <-]; cbn; destruct chk; intuition congruence.
    + destruct (negb (e =? 0) && negb (o_reset1 o)); [cbn [negb]; intros [= <- <-]; cbn; destruct chk; intuition congruence|].
      destruct (o_cb1 o); cbn [negb]; [|intros [= <- <-]; cbn; destruct chk; intuition congruence]. cbn [l_load]. destruct (N.eqb_spec (l_load l) p) as [EP|NP]; cbn [negb].
      * intros [= <- <-]. cbn. destruct chk; intuition congruence.
      * destruct (o_reset2 o); [destruct (o_cb2 o)|]; cbn [negb]; intros [= <- <-]; cbn; destruct chk; intuition congruence.
Qed.
Lemma upd_pub k0 k c s : kinv k0 -> In (c, s) (k_hist k) -> k_cnt k0 <= c -> pub k0 k s.
Proof. intros (_ & c0 & s0 & r & EH & ST) H L. exists c. split; [|exact H]. unfold newest. rewrite EH. destruct (k_new k0); lia. Qed.
Lemma updated_ok y r y' : reachable y -> l_status (y_l y) = SPage -> calls y OpUpdated r y' -> k_cnt (y_k y') - k_cnt (y_k y) < 4294967296 ->
  (r = RInt 0 /\ l_enf (y_l y') = l_enf (y_l y) /\ l_load (y_l y') = l_load (y_l y)) \/
  (exists s, published_during (y_k y) (y_k y') s /\ (r = RInt 1 \/ r = RErr) /\ (l_set (y_l y) = false -> l_enf (y_l y') = s_enf s) /\ (r = RInt 1 -> l_load (y_l y') = s_load s)).
Proof.
  intros R ST C HW. destruct (reachable_kfine y R) as [I _]. destruct (call_upd false y r y' I ST C) as [(B & U) ER]. rewrite ER in U. destruct B as (I' & _ & d & ED). destruct U as [(c & s & H & L & _ & UE)|(_ & U & _)].
  - left. unfold updated_end in UE. injection UE as EL EE. rewrite EL. split; [congruence|]. split; reflexivity.
  - right. destruct (U HW) as (c & s & o & H & L & UF). symmetry in UF. destruct (finish_facts _ _ _ _ _ _ _ _ UF) as (_ & _ & F1 & _ & _ & _ & F2 & F3). exists s. split; [exact (pub_published _ _ _ d I I' ED (upd_pub _ _ _ _ I H L))|]. split; [apply F3; reflexivity|]. split; [exact F1|]. intros RR. apply F2; auto.
Qed.

(** ** Modes *)
Lemma small_eq c c' k : c <= k -> c' <= k -> k < W -> c mod W = c' mod W -> c = c'.
Proof. intros. rewrite !N.mod_small in * by lia. assumption. Qed.
Lemma hist_even k c s : kev k -> In (c, s) (k_hist k) -> odd (c mod W) = false.
Proof. intros V H. unfold kev in V. rewrite Forall_forall in V. specialize (V _ H). cbn [fst] in V. rewrite odd_mod, odd_even, V. reflexivity. Qed.
Lemma check_ok y r y' : reachable y -> synced y -> calls y OpCheck r y' -> k_cnt (y_k y') < 4294967296 -> exists s, published_during (y_k y) (y_k y') s /\ r = RMode (s_enf s).
Proof.
  intros R (ST & SS & cj & sj & ci & si & Hj & Hi & LJ & EJ & EI) C HW. destruct (reachable_kfine y R) as [I V]. destruct (call_upd true y r y' I ST C) as [(B & U) ER]. rewrite ER in U. destruct B as (I' & LK & d & ED).
  destruct U as [(c & s & H & L & OE & UE)|(_ & U & _)].
  - destruct OE as [OE|OE]; [rewrite EJ in OE; change 4294967296 with W in OE; rewrite (hist_even _ _ _ V Hj) in OE; discriminate|].
    destruct (kinv_in _ _ _ I Hj) as [Lj _]. destruct (kinv_in _ _ _ I Hi) as [Li _]. destruct (kinv_in _ _ _ I' H) as [Lc _].
    assert (EC : cj = c) by (apply (small_eq cj c (k_cnt (y_k y'))); [lia|lia|exact HW|rewrite <- OE, EJ; reflexivity]).
    unfold updated_end in UE. injection UE as EL EE. exists si. split; [|rewrite EE, EI; cbn [set_seq l_enf]; congruence].
    apply (pub_published _ _ _ d I I' ED). exists ci. split; [|rewrite ED; apply in_or_app; auto]. destruct I as (_ & c0 & s0 & r1 & EH & S0). unfold newest. rewrite EH. destruct (k_new (y_k y)); lia.
  - destruct U as (c & s & o & H & L & UF); [unfold W; lia|]. symmetry in UF. destruct (finish_facts _ _ _ _ _ _ _ _ UF) as (_ & _ & F1 & _ & _ & F2 & _). exists s. split; [exact (pub_published _ _ _ d I I' ED (upd_pub _ _ _ _ I H L))|]. rewrite (F2 eq_refl), (F1 SS). reflexivity.
Qed.

(** The library stays in step. *)
Definition syn (y : sys) : Prop :=
  kfine (y_k y) /\ l_status (y_l y) = SPage /\ l_set (y_l y) = false /\
  exists cj sj ci si, In (cj, sj) (k_hist (y_k y)) /\ In (ci, si) (k_hist (y_k y)) /\ cj <= ci /\ l_seq (y_l y) = cj mod W /\ l_enf (y_l y) = s_enf si /\
    match y_a y with
    | UEnf _ v => seen cj (y_k y) v (fun _ => True)
    | ULoad _ v e => seen cj (y_k y) v (fun s => e = s_enf s)
    | USeq2 _ v e p => seen cj (y_k y) v (fun s => e = s_enf s /\ p = s_load s)
    | Seq1 WOpen | Val WOpen _ | Seq2 WOpen _ _ => False
    | _ => True
    end.
Lemma syn_step y b y' : syn y -> match b with LCall (OpAvcOpen _) _ | LCall OpClose _ => False | _ => True end -> sstep y b = Some y' -> k_cnt (y_k y') < W -> syn y'.
Proof.
  intros (KF & ST & SS & cj & sj & ci & si & Hj & Hi & LJ & EJ & EI & AC) NB E HW. destruct (sstep_kern y b y' E KF) as (KF' & LK & d & ED). split; [exact KF'|]. destruct KF as [I V]. destruct b as [a|c o|o]; cbn [sstep] in E.
  - destruct (kstep (y_k y) a) as [k'|] eqn:EK; [|discriminate]. injection E as <-. cbn [y_k y_l y_a] in *. split; [exact ST|]. split; [exact SS|]. exists cj, sj, ci, si. rewrite ED.
    split; [apply in_or_app; auto|]. split; [apply in_or_app; auto|]. split; [exact LJ|]. split; [exact EJ|]. split; [exact EI|]. assert (D : exists d0, k_hist k' = d0 ++ k_hist (y_k y)) by (exists d; exact ED).
    destruct (y_a y); auto; exact (seen_mono _ _ _ _ _ LK D AC).
  - destruct (y_a y); try discriminate. assert (EC : exists a, call (y_k y) (y_l y) c o = (y_k y, y_l y, a) /\ match a with Idle _ | Seq1 WEnf | Seq1 WLoad | Seq1 WDeny | USeq1 _ => True | _ => False end).
    { destruct c; try destruct NB; cbn [call]; unfold status_open, opened; rewrite ?ST; eexists; (split; [reflexivity|exact Coq.Init.Logic.I]). }
    destruct EC as (a & EC & AX). rewrite EC in E. injection E as <-. cbn [y_k y_l y_a] in *. split; [exact ST|]. split; [exact SS|]. exists cj, sj, ci, si. split; [exact Hj|]. split; [exact Hi|]. split; [exact LJ|]. split; [exact EJ|]. split; [exact EI|]. destruct a as [| [| | |] | | | | | |]; try destruct AX; exact Coq.Init.Logic.I.
  - clear LK d ED. unfold load, seq_field in E. change 4294967296 with W in E. rewrite ?odd_mod in E.
    assert (KEEP : forall a', match a' with
        | UEnf _ v => seen cj (y_k y) v (fun _ => True) | ULoad _ v e => seen cj (y_k y) v (fun s => e = s_enf s) | USeq2 _ v e p => seen cj (y_k y) v (fun s => e = s_enf s /\ p = s_load s)
        | Seq1 WOpen | Val WOpen _ | Seq2 WOpen _ _ => False | _ => True end -> syn (mkSys (y_k y) (y_l y) a')).
    { intros a' H. split; [split; assumption|]. cbn [y_k y_l y_a]. split; [exact ST|]. split; [exact SS|]. exists cj, sj, ci, si. auto 10. }
    assert (UPTO : forall v Q (Q' : snap -> Prop), seen cj (y_k y) v Q -> (forall s, k_cur (y_k y) = s -> Q s -> Q' s) -> seen cj (y_k y) v Q').
    { intros v Q Q' (c & s & H & L & X & R) HQ. exists c, s. split; [exact H|]. split; [exact L|]. split; [exact X|]. destruct R as [R|R]; [|auto]. destruct (kinv_in _ _ _ I H) as [LC EC].
      destruct (N.eq_dec c (k_cnt (y_k y))) as [EE|NE]; [left; apply HQ; [exact (EC EE)|exact R]|right; lia]. }
    assert (FR : match y_a y' with Idle _ => True | _ => y_l y' = y_l y end -> True) by auto. clear FR.
    destruct (kinv_in _ _ _ I Hj) as [Lj _].
    destruct (y_a y) as [r|w|w v|w v x|c|c v|c v e|c v e p] eqn:EA; try discriminate.
    + destruct (N.odd (k_cnt (y_k y))); injection E as <-; destruct (KEEP (if N.odd (k_cnt (y_k y)) then Seq1 w else Val w (k_cnt (y_k y) mod W))) as (_ & K); try (destruct (N.odd _); exact AC); first [exact (proj2 (KEEP (Seq1 w) AC))|exact (proj2 (KEEP (Val w _) AC))].
    + injection E as <-. exact (proj2 (KEEP (Seq2 w v _) AC)).
    + destruct (N.odd (k_cnt (y_k y))); [injection E as <-; exact (proj2 (KEEP (Seq2 w v x) AC))|]. destruct (_ =? v); [|injection E as <-; exact (proj2 (KEEP (Seq1 w) AC))].
      destruct w; try destruct AC; cbn [read_end] in E; injection E as <-; match goal with |- context [Idle ?r] => exact (proj2 (KEEP (Idle r) Coq.Init.Logic.I)) end.
    + destruct (N.odd (k_cnt (y_k y))) eqn:OD; [injection E as <-; exact (proj2 (KEEP (USeq1 c) Coq.Init.Logic.I))|]. rewrite EJ in E. rewrite (hist_even _ _ _ V Hj) in E. rewrite EJ in E. destruct (cj mod W =? k_cnt (y_k y) mod W).
      * unfold updated_end in E. injection E as <-. match goal with |- context [Idle ?r] => exact (proj2 (KEEP (Idle r) Coq.Init.Logic.I)) end.
      * injection E as <-. refine (proj2 (KEEP (UEnf c _) _)). exists (k_cnt (y_k y)), (k_cur (y_k y)). split; [exact (proj2 (kinv_even _ I OD))|]. auto.
    + injection E as <-. refine (proj2 (KEEP (ULoad c v _) _)). apply (UPTO _ _ _ AC). intros s <- _. reflexivity.
    + injection E as <-. refine (proj2 (KEEP (USeq2 c v e _) _)). apply (UPTO _ _ _ AC). intros s <- X. split; [exact X|reflexivity].
    + destruct (N.odd (k_cnt (y_k y))) eqn:OD; [injection E as <-; exact (proj2 (KEEP (USeq2 c v e p) AC))|]. destruct (N.eqb_spec (k_cnt (y_k y) mod W) v) as [EV|NV].
      * destruct (finish_idle c (y_l y) (k_cnt (y_k y) mod W) e p o) as (l1 & r & UF). rewrite UF in E. injection E as <-. cbn [y_k y_l y_a] in *. destruct (finish_facts _ _ _ _ _ _ _ _ UF) as (F1 & F2 & F3 & _ & F5 & _). rewrite F1, F2, (F3 SS). split; [exact ST|]. split; [exact SS|].
        destruct AC as (c1 & s1 & H1 & L1 & V1 & R1). destruct (kinv_in _ _ _ I H1) as [LC _]. assert (CE : c1 = k_cnt (y_k y)) by (apply (small_eq _ _ (k_cnt (y_k y))); [exact LC|lia|exact HW|congruence]). destruct R1 as [[-> ->]|R1]; [|lia].
        destruct F5 as [F5|F5]; rewrite F5; [exists cj, sj, c1, s1|exists c1, s1, c1, s1]; rewrite ?CE; subst c1; auto 10.
      * injection E as <-. refine (proj2 (KEEP (UEnf c _) _)). exists (k_cnt (y_k y)), (k_cur (y_k y)). split; [exact (proj2 (kinv_even _ I OD))|]. auto.
Qed.
Lemma syn_exec : forall l y y', syn y -> plain_calls l -> sexec y l = Some y' -> k_cnt (y_k y') < W -> syn y'.
Proof.
  induction l as [|b l IH]; intros y y' S NC E HW; cbn [sexec] in E; [injection E as <-; exact S|]. destruct (sstep y b) as [y1|] eqn:E1; [|discriminate].
  assert (KF1 : kfine (y_k y1)) by (destruct S as (KF & _); exact (proj1 (sstep_kern y b y1 E1 KF))). destruct (sexec_kern l y1 y' E KF1) as (_ & L & _).
  apply (IH y1); [|intros c Hc; apply NC; right; exact Hc|exact E|exact HW]. apply (syn_step y b); [exact S|exact (NC b (or_introl eq_refl))|exact E1|lia].
Qed.
Lemma syn_of y : kfine (y_k y) -> is_idle y -> synced y -> syn y.
Proof. intros KF (r & EI) (ST & SS & cj & sj & ci & si & Hj & Hi & LJ & EJ & EE). split; [exact KF|]. split; [exact ST|]. split; [exact SS|]. exists cj, sj, ci, si. rewrite EI. auto 10. Qed.
Lemma syn_synced y : syn y -> synced y.
Proof. intros (KF & ST & SS & cj & sj & ci & si & Hj & Hi & LJ & EJ & EE & _). split; [exact ST|]. split; [exact SS|]. exists cj, sj, ci, si. auto 10. Qed.
Lemma poll_ok (chk : bool) y r y' : reachable y -> l_status (y_l y) = SPage -> l_set (y_l y) = false -> odd (l_seq (y_l y)) = true -> calls y (if chk : bool then OpCheck else OpUpdated) r y' ->
  (forall s, published_during (y_k y) (y_k y') s -> s_enf s = l_enf (y_l y)) -> synced y'.
Proof.
  intros R ST SS OD C HM. destruct (reachable_kfine y R) as [I V]. destruct (call_upd chk y r y' I ST C) as [(B & U) ER]. rewrite ER in U. destruct B as (I' & LK & d & ED). destruct U as [(c & s & H & L & _ & UE)|(X & _)]; [|congruence].
  unfold updated_end in UE. injection UE as EL EE. unfold synced. rewrite EL. cbn [set_seq l_status l_set l_seq l_enf]. split; [exact ST|]. split; [exact SS|]. exists c, s, c, s. split; [exact H|]. split; [exact H|]. split; [lia|]. split; [reflexivity|]. symmetry. apply HM. exact (pub_published _ _ _ d I I' ED (upd_pub _ _ _ _ I H L)).
Qed.

(** ** Opening *)
Lemma open_ok c y y' : kinv (y_k y) -> l_status (y_l y) = SNull -> (exists fb, c = OpOpen fb) \/ c = OpAvcOpen None -> calls y c (RInt 0) y' ->
  l_status (y_l y') = SPage /\ odd (l_seq (y_l y')) = true /\ l_set (y_l y') = (match c with OpAvcOpen _ => false | _ => l_set (y_l y) end) /\
  l_enf (y_l y') = (match c with OpAvcOpen _ => truth (k_mode (y_k y)) | _ => l_enf (y_l y) end) /\ exists s, published_during (y_k y) (y_k y') s /\ l_load (y_l y') = s_load s.
Proof.
  intros I ST HC ((r0 & EI) & o & l & NC & E & ER). cbn [sexec sstep] in E. rewrite EI in E.
  assert (KEY : forall l1, l_status l1 = SNull -> call (y_k y) (y_l y) c o = (let (l', a) := status_open (y_k y) l1 (match c with OpOpen b => b | _ => false end) o in (match c with OpOpen _ => opened (y_k y) l1 l' | _ => y_k y end, l', a)) ->
     exists s, published_during (y_k y) (y_k y') s /\ y_l y' = set_load (set_seq (set_status l1 SPage) 4294967295) (s_load s)).
  { intros l1 S1 EC. rewrite EC in E. unfold status_open in E. rewrite S1 in E.
    destruct (o_map o).
    - assert (EO : (match c with OpOpen _ => opened (y_k y) l1 (set_seq (set_status l1 SPage) 4294967295) | _ => y_k y end) = y_k y) by (unfold opened; rewrite S1; destruct c; reflexivity). rewrite EO in E. clear EO. set (l2 := set_seq (set_status l1 SPage) 4294967295) in *. assert (S0 : single WOpen (y_k y) l2 (mkSys (y_k y) l2 (Seq1 WOpen))) by (split; [apply base_refl; exact I|]; cbn [y_a y_l]; auto).
      destruct (single_exec WOpen (y_k y) l2 I l _ y' NC S0 E) as (B & S). rewrite ER in S. destruct S as (s & P & _ & EL). exists s. destruct B as (I' & _ & d & ED). split; [exact (pub_published _ _ _ d I I' ED P)|exact EL].
    - exfalso. assert (X : forall r1 k1 l3 ls, r1 <> RInt 0 -> no_calls ls -> sexec (mkSys k1 l3 (Idle r1)) ls = Some y' -> False).
      { intros r1 k1 l3 ls NR. revert k1. induction ls as [|b ls IH]; intros k1 N1 E1; cbn [sexec] in E1; [injection E1 as <-; cbn [y_a] in ER; congruence|].
        destruct b as [a|c1 o1|o1]; cbn [sstep y_k y_a y_l load] in E1; [|exact (N1 _ (or_introl eq_refl))|discriminate]. destruct (kstep k1 a) as [k2|]; [|discriminate]. apply (IH k2); [intros z Hz; apply N1; right; exact Hz|exact E1]. }
      destruct (_ && o_sock o); [apply (X (RInt 1) _ _ _ ltac:(discriminate) NC E)|apply (X RErr _ _ _ ltac:(discriminate) NC E)]. }
  destruct HC as [(fb & ->) | ->].
  - destruct (KEY (y_l y) ST eq_refl) as (s & P & ->). cbn. split; [reflexivity|]. split; [reflexivity|]. split; [reflexivity|]. split; [reflexivity|]. exists s. auto.
  - destruct (KEY (mkLib (l_status (y_l y)) (truth (k_mode (y_k y))) false (l_seq (y_l y)) (l_load (y_l y)) (l_fseq (y_l y)) (l_fenf (y_l y)) (l_fload (y_l y)) (l_resets (y_l y))) ST eq_refl) as (s & P & ->). cbn. split; [reflexivity|]. split; [reflexivity|]. split; [reflexivity|]. split; [reflexivity|]. exists s. auto.
Qed.

(** ** The whole story of the mode *)
Lemma calls_sexec y c r y' : calls y c r y' -> exists l, sexec y l = Some y'.
Proof. intros (_ & o & l & _ & E & _). eauto. Qed.
Lemma sexec_app : forall l y l', sexec y (l ++ l') = match sexec y l with Some y1 => sexec y1 l' | None => None end.
Proof. induction l as [|b l IH]; intros y l'; cbn [sexec app]; [reflexivity|]. destruct (sstep y b); [apply IH|reflexivity]. Qed.
Lemma kernel_lib : forall l y y', (forall b, In b l -> exists a, b = LKern a) -> sexec y l = Some y' -> y_l y' = y_l y /\ y_a y' = y_a y.
Proof.
  induction l as [|b l IH]; intros y y' H E; cbn [sexec] in E; [injection E as <-; auto|]. destruct (H b (or_introl eq_refl)) as (a & ->). cbn [sstep] in E. destruct (kstep (y_k y) a); [|discriminate].
  destruct (IH _ _ (fun b Hb => H b (or_intror Hb)) E) as [-> ->]. auto.
Qed.
Lemma pub_wider k0 k1 k2 s : kinv k0 -> (exists d, k_hist k1 = d ++ k_hist k0) -> published_during k1 k2 s -> published_during k0 k2 s.
Proof.
  intros (_ & c0 & s0 & r0 & E0 & _) (d & E) (d2 & c & E2 & H). exists (d2 ++ d), c. split; [rewrite E2, E, app_assoc; reflexivity|]. rewrite E in H. rewrite E0 in *. cbn [firstn]. rewrite <- app_assoc. apply in_app_or in H as [H|H]; apply in_or_app; [auto|right].
  destruct d as [|x d]; cbn [app firstn] in *; [exact H|]. destruct H as [->|[]]. left. reflexivity.
Qed.
Lemma whole_story y0 y1 l1 y2 r2 y3 l3 y4 r y5 : reachable y0 -> l_status (y_l y0) = SNull ->
  calls y0 (OpAvcOpen None) (RInt 0) y1 -> (forall b, In b l1 -> exists a, b = LKern a) -> sexec y1 l1 = Some y2 -> calls y2 OpCheck r2 y3 ->
  (forall s, published_during (y_k y0) (y_k y3) s -> s_enf s = truth (k_mode (y_k y0))) ->
  plain_calls l3 -> sexec y3 l3 = Some y4 -> calls y4 OpCheck r y5 -> k_cnt (y_k y5) < 4294967296 ->
  exists s, published_during (y_k y4) (y_k y5) s /\ r = RMode (s_enf s).
Proof.
  intros R0 ST C1 K1 E1 C2 HM P3 E3 C5 HW. pose proof (reachable_kfine _ R0) as KF0. destruct (open_ok (OpAvcOpen None) y0 y1 (proj1 KF0) ST (or_intror eq_refl) C1) as (O1 & O2 & O3 & O4 & _).
  destruct (calls_sexec _ _ _ _ C1) as (la & EA). assert (R1 := reachable_step _ _ _ R0 EA). assert (R2 := reachable_step _ _ _ R1 E1). destruct (kernel_lib _ _ _ K1 E1) as [L2 A2].
  destruct (calls_sexec _ _ _ _ C2) as (lb & EB). assert (R3 := reachable_step _ _ _ R2 EB). assert (R4 := reachable_step _ _ _ R3 E3). destruct (calls_sexec _ _ _ _ C5) as (lc & EC). destruct (sexec_kern _ _ _ EC (reachable_kfine _ R4)) as (_ & L5 & _).
  assert (D02 : exists d, k_hist (y_k y2) = d ++ k_hist (y_k y0)). { destruct (sexec_kern (la ++ l1) y0 y2) as (_ & _ & D); [rewrite sexec_app, EA; exact E1|exact KF0|exact D]. }
  assert (S3 : synced y3). { apply (poll_ok true y2 r2 y3 R2); rewrite ?L2; [exact O1|exact O3|exact O2|exact C2|]. intros s P. rewrite O4. apply HM. exact (pub_wider _ _ _ _ (proj1 KF0) D02 P). }
  apply (check_ok y4 r y5 R4); [|exact C5|exact HW]. apply syn_synced. apply (syn_exec l3 y3); [|exact P3|exact E3|unfold W; lia]. apply syn_of; [exact (reachable_kfine _ R3)| |exact S3]. destruct C2 as (_ & o & l & _ & _ & EI). exists r2. exact EI.
Qed.

(** ** Progress *)
Lemma quiet_done y o : kinv (y_k y) -> k_new (y_k y) = None -> ~ is_idle y -> exists n y', (1 <= n <= 6)%nat /\ sexec y (repeat (LLoad o) n) = Some y' /\ is_idle y'.
Proof.
  intros I EN NI. assert (OD : odd (seq_field (y_k y)) = false). { unfold seq_field. change 4294967296 with W. rewrite odd_mod. destruct I as (_ & c & s & r & _ & ST). rewrite EN in ST. destruct ST as (-> & S2 & _). rewrite odd_even, S2. reflexivity. }
  destruct y as [k l a]. cbn [y_k] in *. set (v := seq_field k) in *.
  assert (A1 : forall w x l0, exists y', sexec (mkSys k l0 (Seq2 w v x)) (repeat (LLoad o) 1) = Some y' /\ is_idle y').
  { intros w x l0. cbn [repeat sexec sstep load y_k y_l y_a]. fold v. rewrite OD, N.eqb_refl. destruct (read_end w l0 x) as [l1 a1] eqn:RE. eexists. split; [reflexivity|]. destruct w; cbn [read_end] in RE; injection RE as <- <-; eexists; reflexivity. }
  assert (A2 : forall w l0, exists y', sexec (mkSys k l0 (Seq1 w)) (repeat (LLoad o) 3) = Some y' /\ is_idle y').
  { intros w l0. destruct (A1 w (field_of w (k_cur k)) l0) as (y' & EE & II). exists y'. split; [|exact II]. cbn [repeat sexec sstep load y_k y_l y_a] in *. fold v in EE |- *. rewrite OD in *. cbn [y_k y_l y_a load] in *. fold v in EE |- *. rewrite OD in *. exact EE. }
  assert (B1 : forall c e p l0, exists y', sexec (mkSys k l0 (USeq2 c v e p)) (repeat (LLoad o) 1) = Some y' /\ is_idle y').
  { intros c e p l0. cbn [repeat sexec sstep load y_k y_l y_a]. fold v. rewrite OD, N.eqb_refl. destruct (finish_idle c l0 v e p o) as (l1 & r & ->). eexists. split; [reflexivity|eexists; reflexivity]. }
  assert (B2 : forall c l0, exists y', sexec (mkSys k l0 (UEnf c v)) (repeat (LLoad o) 3) = Some y' /\ is_idle y').
  { intros c l0. destruct (B1 c (s_enf (k_cur k)) (s_load (k_cur k)) l0) as (y' & EE & II). exists y'. split; [|exact II]. exact EE. }
  assert (A3 : forall w s x l0, exists n y', (1 <= n <= 4)%nat /\ sexec (mkSys k l0 (Seq2 w s x)) (repeat (LLoad o) n) = Some y' /\ is_idle y').
  { intros w s x l0. destruct (N.eq_dec v s) as [<-|NE]; [destruct (A1 w x l0) as (y' & H); exists 1%nat, y'; split; [lia|exact H]|]. destruct (A2 w l0) as (y' & EE & II). exists 4%nat, y'. split; [lia|]. split; [|exact II].
    change (repeat (LLoad o) 4) with (LLoad o :: repeat (LLoad o) 3). cbn [sexec sstep load y_k y_l y_a]. fold v. rewrite OD. rewrite (proj2 (N.eqb_neq v s) NE). exact EE. }
  assert (B3 : forall c s e p l0, exists n y', (1 <= n <= 4)%nat /\ sexec (mkSys k l0 (USeq2 c s e p)) (repeat (LLoad o) n) = Some y' /\ is_idle y').
  { intros c s e p l0. destruct (N.eq_dec v s) as [<-|NE]; [destruct (B1 c e p l0) as (y' & H); exists 1%nat, y'; split; [lia|exact H]|]. destruct (B2 c l0) as (y' & EE & II). exists 4%nat, y'. split; [lia|]. split; [|exact II].
    change (repeat (LLoad o) 4) with (LLoad o :: repeat (LLoad o) 3). cbn [sexec sstep load y_k y_l y_a]. fold v. rewrite OD. rewrite (proj2 (N.eqb_neq v s) NE). exact EE. }
  destruct a as [r|w|w s|w s x|c|c s|c s e|c s e p].
  - exfalso. apply NI. exists r. reflexivity.
  - destruct (A2 w l) as (y' & H). exists 3%nat, y'. split; [lia|exact H].
  - destruct (A3 w s (field_of w (k_cur k)) l) as (n & y' & L & H). exists (S n), y'. split; [lia|exact H].
  - destruct (A3 w s x l) as (n & y' & L & H). exists n, y'. split; [lia|exact H].
  - destruct (B2 c (if odd (l_seq l) then set_seq l v else l)) as (y' & EE & II).
    destruct (N.eq_dec (l_seq (if odd (l_seq l) then set_seq l v else l)) v) as [EQ|NE].
    + eexists 1%nat, _. split; [lia|]. cbn [repeat sexec sstep load y_k y_l y_a]. fold v. rewrite OD. rewrite (proj2 (N.eqb_eq _ v) EQ). split; [reflexivity|]. eexists. reflexivity.
    + exists 4%nat, y'. split; [lia|]. split; [|exact II]. change (repeat (LLoad o) 4) with (LLoad o :: repeat (LLoad o) 3). cbn [sexec sstep load y_k y_l y_a]. fold v. rewrite OD. rewrite (proj2 (N.eqb_neq _ v) NE). exact EE.
  - destruct (B3 c s (s_enf (k_cur k)) (s_load (k_cur k)) l) as (n & y' & L & H). exists (S (S n)), y'. split; [lia|exact H].
  - destruct (B3 c s e (s_load (k_cur k)) l) as (n & y' & L & H). exists (S n), y'. split; [lia|exact H].
  - destruct (B3 c s e p l) as (n & y' & L & H). exists n, y'. split; [lia|exact H].
Qed.

(** ** The kernel publishing the same values again and again *)
Definition again (s : snap) (n : nat) : list label := concat (repeat [LKern (KBegin s); LKern KEnd] n).
Lemma again_no_calls s n : no_calls (again s n).
Proof. intros b H. unfold again in H. apply in_concat in H as (x & H & Hb). apply repeat_spec in H. subst x. destruct Hb as [<-|[<-|[]]]; exact Coq.Init.Logic.I. Qed.
Lemma again_ok s l a : forall n c h m ms, exists h', sexec (mkSys (mkKn c s None h m ms) l a) (again s n) = Some (mkSys (mkKn (c + 2 * N.of_nat n) s None (h' ++ h) m ms) l a) /\ Forall (fun p => snd p = s) h'.
Proof.
  induction n as [|n IH]; intros c h m ms.
  - exists []. cbn [again repeat concat sexec app N.of_nat]. replace (c + 2 * 0) with c by lia. split; [reflexivity|constructor].
  - destruct (IH (c + 1 + 1) ((c + 1 + 1, s) :: h) m ms) as (h' & E & F). exists (h' ++ [(c + 1 + 1, s)]). split.
    + unfold again in *. cbn [repeat concat app]. cbn [sexec sstep kstep y_k y_l y_a k_new k_cnt k_cur k_hist k_mode k_msgs]. assert (EQ : snap_eqb s s = true) by (unfold snap_eqb; rewrite !N.eqb_refl; reflexivity). rewrite EQ. rewrite E. f_equal. f_equal. f_equal; [lia|rewrite <- app_assoc; reflexivity].
    + apply Forall_app. split; [exact F|]. constructor; [reflexivity|constructor].
Qed.

(** ** Without the page *)
Definition last_enf (ms : list msg) (d : N) : N := fold_left (fun d m => match m with MEnf b => truth b | MLoad _ => d end) ms d.
Lemma fallback_facts o m l : o_reset1 o = true -> l_status (fallback_msg o l m) = l_status l /\ l_fenf (fallback_msg o l m) = last_enf [m] (l_fenf l).
Proof.
  intros R. destruct m as [b|n]; cbn [fallback_msg last_enf fold_left].
  - unfold process_setenforce, truth. rewrite R. destruct (l_set l); [cbn; auto|]. cbn [negb]. rewrite andb_false_r. cbn. auto.
  - unfold process_policyload. destruct (o_reset2 o); cbn; auto.
Qed.
Lemma check_facts o : o_reset1 o = true -> forall ms l, l_status (fst (check_nb o l ms)) = l_status l /\ l_fenf (fst (check_nb o l ms)) = last_enf ms (l_fenf l).
Proof.
  intros R. unfold check_nb. cbn [fst]. induction ms as [|m ms IH]; intros l; cbn [fold_left]; [auto|]. destruct (IH (fallback_msg o l m)) as [-> ->]. destruct (fallback_facts o m l R) as [-> ->]. auto.
Qed.
Definition finv (y : sys) : Prop := l_status (y_l y) = SFail -> last_enf (k_msgs (y_k y)) (l_fenf (y_l y)) = truth (k_mode (y_k y)).
Lemma finish_keep chk l v e p o : l_status (fst (updated_finish chk l v e p o)) = l_status l /\ l_fenf (fst (updated_finish chk l v e p o)) = l_fenf l.
Proof.
  unfold updated_finish, updated_end, process_setenforce, process_policyload. destruct (negb (l_enf l =? e)), (l_set l), (negb (e =? 0)), (negb (o_reset1 o)), (o_cb1 o); cbn [andb negb fst l_load l_enf]; try destruct (l_load l =? p); cbn [negb fst]; try destruct (o_reset2 o), (o_cb2 o); cbn; auto.
Qed.
Lemma finv_step y b y' : finv y -> match b with LCall _ o | LLoad o => o_reset1 o = true | _ => True end -> sstep y b = Some y' -> finv y'.
Proof.
  intros F O E. destruct b as [a|c o|o]; cbn [sstep] in E.
  - destruct (kstep (y_k y) a) as [k'|] eqn:EK; [|discriminate]. injection E as <-. unfold finv in *. cbn [y_k y_l y_a]. intros ST. specialize (F ST).
    destruct a as [b|s|f| |n]; cbn [kstep] in EK.
    + injection EK as <-. cbn [k_msgs k_mode]. unfold last_enf. rewrite fold_left_app. reflexivity.
    + destruct (k_new (y_k y)); [discriminate|]. injection EK as <-. exact F.
    + destruct (k_new (y_k y)); [|discriminate]. injection EK as <-. exact F.
    + destruct (k_new (y_k y)); [|discriminate]. destruct (snap_eqb _ _); [|discriminate]. injection EK as <-. exact F.
    + injection EK as <-. cbn [k_msgs k_mode]. unfold last_enf in *. rewrite fold_left_app. exact F.
  - destruct (y_a y); try discriminate. unfold finv in *. destruct (call (y_k y) (y_l y) c o) as [[k' l'] a'] eqn:EC. injection E as <-. cbn [y_k y_l y_a].
    assert (CH : forall l1 ok, check_nb o (y_l y) (k_msgs (y_k y)) = (l1, ok) -> l_status (y_l y) = SFail -> l_fenf l1 = truth (k_mode (y_k y))).
    { intros l1 ok EE ST. destruct (check_facts o O (k_msgs (y_k y)) (y_l y)) as [_ H]. rewrite EE in H. cbn [fst] in H. rewrite H. exact (F ST). }
    destruct c as [fb|fo| | | | | |]; cbn [call] in EC.
    + unfold status_open in EC. destruct (l_status (y_l y)) eqn:ST.
      * destruct (o_map o); [injection EC as <- <- <-; cbn; discriminate|]. destruct (fb && o_sock o); injection EC as <- <- <-.
        -- unfold opened. rewrite ST. cbn. reflexivity.
        -- congruence.
      * injection EC as <- <- <-. unfold opened. rewrite ST. exact F.
      * injection EC as <- <- <-. congruence.
    + unfold status_open in EC. cbn [l_status] in EC. destruct (l_status (y_l y)) eqn:ST.
      * destruct (o_map o); [injection EC as <- <- <-; cbn; discriminate|]. cbn [andb] in EC. injection EC as <- <- <-. cbn. congruence.
      * injection EC as <- <- <-. cbn. intros _. exact (F eq_refl).
      * injection EC as <- <- <-. cbn. congruence.
    + destruct (l_status (y_l y)) eqn:ST; [injection EC as <- <- <-; congruence| |injection EC as <- <- <-; congruence].
      destruct (check_nb o (y_l y) (k_msgs (y_k y))) as [l1 ok] eqn:CN. specialize (CH l1 ok eq_refl eq_refl). destruct ok; cbn [negb] in EC; unfold updated_end in EC; [|injection EC as <- <- <-; intros _; exact CH].
      destruct (odd (l_seq l1)); match type of EC with context [if ?b then _ else _] => destruct b end; injection EC as <- <- <-; intros _; exact CH.
    + destruct (l_status (y_l y)) eqn:ST; [injection EC as <- <- <-; congruence| |injection EC as <- <- <-; congruence].
      destruct (check_nb o (y_l y) (k_msgs (y_k y))) as [l1 ok] eqn:CN. injection EC as <- <- <-. intros _. exact (CH l1 ok eq_refl eq_refl).
    + destruct (l_status (y_l y)) eqn:ST; [injection EC as <- <- <-; congruence| |injection EC as <- <- <-; congruence].
      destruct (check_nb o (y_l y) (k_msgs (y_k y))) as [l1 ok] eqn:CN. injection EC as <- <- <-. intros _. exact (CH l1 ok eq_refl eq_refl).
    + destruct (l_status (y_l y)) eqn:ST; injection EC as <- <- <-; [congruence|intros _; exact (F eq_refl)|congruence].
    + destruct (l_status (y_l y)) eqn:ST; injection EC as <- <- <-; cbn; congruence.
    + destruct (l_status (y_l y)) eqn:ST; [injection EC as <- <- <-; congruence| |injection EC as <- <- <-; congruence].
      destruct (check_nb o (y_l y) (k_msgs (y_k y))) as [l1 ok] eqn:CN. specialize (CH l1 ok eq_refl eq_refl). destruct ok; cbn [negb] in EC; unfold updated_end in EC; [|injection EC as <- <- <-; intros _; exact CH].
      destruct (odd (l_seq l1)); match type of EC with context [if ?b then _ else _] => destruct b end; injection EC as <- <- <-; intros _; exact CH.
  - destruct (load (y_k y) (y_l y) (y_a y) o) as [[l' a']|] eqn:EL; [|discriminate]. injection E as <-. unfold finv in *. cbn [y_k y_l y_a].
    assert (K : l_status l' = l_status (y_l y) /\ l_fenf l' = l_fenf (y_l y)); [|destruct K as [-> ->]; exact F].
    unfold load in EL. destruct (y_a y) as [r|w|w s|w s x|c|c s|c s e|c s e p]; try discriminate.
    + injection EL as <- _. auto.
    + injection EL as <- _. auto.
    + destruct (odd _); [injection EL as <- _; auto|]. destruct (_ =? s); [|injection EL as <- _; auto]. destruct w; cbn [read_end] in EL; injection EL as <- _; auto.
    + destruct (odd (seq_field (y_k y))); [injection EL as <- _; auto|]. destruct (odd (l_seq (y_l y))); match type of EL with context [if ?b then _ else _] => destruct b end; unfold updated_end in EL; injection EL as <- _; auto.
    + injection EL as <- _. auto.
    + injection EL as <- _. auto.
    + destruct (odd _); [injection EL as <- _; auto|]. destruct (_ =? s); [|injection EL as <- _; auto]. injection EL as EL. pose proof (finish_keep c (y_l y) (seq_field (y_k y)) e p o) as FK. rewrite EL in FK. exact FK.
Qed.
Lemma fallback_mode : forall l y y' o y2, (forall b, In b l -> match b with LCall _ o | LLoad o => o_reset1 o = true | _ => True end) -> finv y -> sexec y l = Some y' ->
  l_status (y_l y') = SFail -> o_reset1 o = true -> sstep y' (LCall OpGetEnforce o) = Some y2 -> y_a y2 = Idle RErr \/ y_a y2 = Idle (RInt (truth (k_mode (y_k y')))).
Proof.
  induction l as [|b l IH]; intros y y' o y2 O F E ST R ES; cbn [sexec] in E.
  - injection E as <-. cbn [sstep] in ES. destruct (y_a y); try discriminate. cbn [call] in ES. rewrite ST in ES. destruct (check_nb o (y_l y) (k_msgs (y_k y))) as [l1 ok] eqn:CN. injection ES as <-. cbn [y_a].
    destruct ok; [right|left; reflexivity]. do 2 f_equal. destruct (check_facts o R (k_msgs (y_k y)) (y_l y)) as [_ H]. rewrite CN in H. cbn [fst] in H. rewrite H. exact (F ST).
  - destruct (sstep y b) as [y1|] eqn:E1; [|discriminate]. apply (IH y1 y' o y2); auto; [intros c Hc; apply O; right; exact Hc|]. exact (finv_step y b y1 F (O b (or_introl eq_refl)) E1).
Qed.

(** ** A new policy flushes the cache *)
Lemma finish_resets chk l v e p o l' r : updated_finish chk l v e p o = (l', Idle r) -> l_load l' <> l_load l -> exists t, l_resets l' = l_load l' :: t.
Proof.
  unfold updated_finish, updated_end, process_setenforce, process_policyload, set_load, set_seq. intros E NE. revert E.
  destruct (negb (l_enf l =? e)), (l_set l), (negb (e =? 0)), (negb (o_reset1 o)), (o_cb1 o); cbn [andb negb l_load l_enf l_resets]; try destruct (l_load l =? p); cbn [negb]; try destruct (o_reset2 o), (o_cb2 o); cbn; intros [= <- <-]; cbn in *; try (exfalso; apply NE; reflexivity); eauto.
Qed.
Lemma load_flushes (chk : bool) y r y' : reachable y -> l_status (y_l y) = SPage -> calls y (if chk then OpCheck else OpUpdated) r y' -> l_load (y_l y') <> l_load (y_l y) -> exists t, l_resets (y_l y') = l_load (y_l y') :: t.
Proof.
  intros R ST C NE. destruct (reachable_kfine y R) as [I _]. destruct (call_upd chk y r y' I ST C) as [(_ & U) ER]. rewrite ER in U. destruct U as [(c & s & _ & _ & _ & UE)|(_ & _ & o & v & e & p & UE)].
  - unfold updated_end in UE. injection UE as EL _. rewrite EL in NE. exfalso. apply NE. reflexivity.
  - symmetry in UE. exact (finish_resets _ _ _ _ _ _ _ _ UE NE).
Qed.

(** A number of updates. *)
Lemma as_many (m : N) : exists n, N.of_nat n = m.
Proof. exists (N.to_nat m). exact (N2Nat.id m). Qed.
