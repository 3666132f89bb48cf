(** Proofs about the expansion of rules into tables. *)
From Verif Require Import Base EbitmapModel EbitmapSpec EbitmapProofs AvtabModel AvtabProofs AssertModel AssertProofs TypesetModel TypesetSpec TypesetProofs ExpandModel ExpandSpec.
From Coq Require Import Permutation.

(** ** Loops *)
Lemma xloop_fact {A} (f : A -> xstate -> xres) (Inv F : xstate -> Prop) (P : A -> Prop) : forall l,
  (forall a s s', In a l -> Inv s -> f a s = XOk s' -> Inv s' /\ (F s' <-> F s \/ P a)) ->
  forall s s', Inv s -> xloop f l s = XOk s' -> Inv s' /\ (F s' <-> F s \/ exists a, In a l /\ P a).
Proof.
  induction l as [|a l IH]; intros H s s' I E; cbn [xloop] in E.
  - injection E as <-. split; [exact I|]. split; [auto|]. intros [X|(a & [] & _)]. exact X.
  - destruct (f a s) as [s1| | | |] eqn:E1; try discriminate. cbn [xbind] in E.
    destruct (H a s s1 (or_introl eq_refl) I E1) as [I1 F1].
    destruct (IH (fun a s s' Ha => H a s s' (or_intror Ha)) s1 s' I1 E) as [I2 F2]. split; [exact I2|]. rewrite F2, F1. split.
    + intros [[X|X]|(b & Hb & X)]; [auto|right; exists a; split; [left; reflexivity|exact X]|right; exists b; split; [right; exact Hb|exact X]].
    + intros [X|(b & [<-|Hb] & X)]; [auto|auto|right; exists b; auto].
Qed.
Lemma xloop_app {A} (f : A -> xstate -> xres) : forall l1 l2 s, xloop f (l1 ++ l2) s = xbind (xloop f l1 s) (xloop f l2).
Proof. induction l1 as [|a l IH]; intros l2 s; [reflexivity|]. cbn [app xloop]. destruct (f a s); cbn [xbind]; auto. Qed.
Lemma xloop_map {A B} (g : B -> A) (f : A -> xstate -> xres) : forall l s, xloop f (map g l) s = xloop (fun b => f (g b)) l s.
Proof. induction l as [|b l IH]; intros s; [reflexivity|]. cbn [map xloop]. destruct (f (g b) s); cbn [xbind]; auto. Qed.
Lemma xloop_ext {A} (f g : A -> xstate -> xres) : (forall a s, f a s = g a s) -> forall l s, xloop f l s = xloop g l s.
Proof. intros H. induction l as [|a l IH]; intros s; [reflexivity|]. cbn [xloop]. rewrite H. destruct (g a s); cbn [xbind]; auto. Qed.
Lemma xbind_assoc r f g : xbind (xbind r f) g = xbind r (fun s => xbind (f s) g).
Proof. destruct r; reflexivity. Qed.
Lemma xloop_flat {A B} (h : B -> list A) (f : A -> xstate -> xres) : forall l s, xloop f (flat_map h l) s = xloop (fun b => xloop f (h b)) l s.
Proof. induction l as [|b l IH]; intros s; [reflexivity|]. cbn [flat_map xloop]. rewrite xloop_app. destruct (xloop f (h b) s); cbn [xbind]; auto. Qed.

(** ** Searching *)
Lemma split_some p : forall l a n b, split_at p l = Some (a, n, b) -> l = a ++ n :: b /\ p n = true /\ forall m, In m a -> p m = false.
Proof.
  induction l as [|x l IH]; intros a n b E; cbn [split_at] in E; [discriminate|]. destruct (p x) eqn:Q.
  - injection E as <- <- <-. split; [reflexivity|]. split; [exact Q|]. intros m [].
  - destruct (split_at p l) as [[[a' m'] b']|]; [|discriminate]. injection E as <- <- <-. destruct (IH _ _ _ eq_refl) as (-> & P & H).
    split; [reflexivity|]. split; [exact P|]. intros m [<-|Hm]; [exact Q|apply H; exact Hm].
Qed.
Lemma split_none p : forall l, split_at p l = None -> forall m, In m l -> p m = false.
Proof.
  induction l as [|x l IH]; intros E m Hm; [destruct Hm|]. cbn [split_at] in E. destruct (p x) eqn:Q; [discriminate|]. destruct (split_at p l) as [[[a' m'] b']|]; [discriminate|].
  destruct Hm as [<-|Hm]; [exact Q|]. apply IH; [reflexivity|exact Hm].
Qed.
Lemma ctx_eq a b : ctx_eqb a b = true <-> a = b.
Proof.
  destruct a as [[i x]|], b as [[j y]|]; cbn [ctx_eqb]; try (split; congruence). split.
  - intros H. apply andb_prop in H as [H1 H2]. apply N.eqb_eq in H1. apply Bool.eqb_prop in H2. congruence.
  - intros [= -> ->]. rewrite N.eqb_refl, Bool.eqb_reflx. reflexivity.
Qed.

Definition kinds : list N := [1; 2; 4; 16; 32; 64; 256; 512; 1024].
(** The node was made for the key. *)
Definition of_key (k : akey) (n : xnode) : Prop :=
  k_src (n_key (xn n)) = k_src k /\ k_tgt (n_key (xn n)) = k_tgt k /\ k_cls (n_key (xn n)) = k_cls k /\ kind n = k_spec k.
Lemma kind_land a b : In a kinds -> In b kinds -> (N.land a b =? 0) = negb (a =? b).
Proof.
  unfold kinds. cbn [In]. intros Ha Hb.
  repeat (destruct Ha as [<-|Ha]; [repeat (destruct Hb as [<-|Hb]; [reflexivity|]); destruct Hb|]). destruct Ha.
Qed.
Lemma met_iff k n : In (k_spec k) kinds -> In (kind n) kinds -> (met k n = true <-> of_key k n).
Proof.
  intros K1 K2. unfold met, hit, of_key, same3, spec_bits.
  replace (N.land (N.land (k_spec k) 32767) (k_spec (n_key (xn n)))) with (N.land (k_spec k) (kind n)).
  2:{ unfold kind. rewrite <- N.land_assoc. f_equal. apply N.land_comm. }
  rewrite (kind_land _ _ K1 K2), negb_involutive. split; intros H; [|lia].
  apply andb_prop in H as [H E]. lia.
Qed.

(** Tables hold nodes of known kinds, extended permission nodes with their eight words. *)
Definition node_ok (n : xnode) : Prop :=
  In (kind n) kinds /\ (In (kind n) [256; 512; 1024] -> exists y, d_xperms (n_datum (xn n)) = Some y /\ length (x_perms y) = 8%nat).
Definition tab_ok (ctx_ok : option (N * bool) -> Prop) (l : list xnode) : Prop := Forall (fun n => node_ok n /\ ctx_ok (xn_ctx n)) l.
Definition inv (s : xstate) : Prop := tab_ok (fun c => c = None) (xs_te s) /\ tab_ok (fun c => c <> None) (xs_cte s).

Lemma kind_new k d ctx : In (k_spec k) kinds -> kind (mkXN (new_node k d) ctx) = k_spec k.
Proof.
  intros H. unfold kind. cbn [xn]. rewrite new_node_key. unfold kinds in H. cbn [In] in H. repeat (destruct H as [<-|H]; [reflexivity|]). destruct H.
Qed.
Definition init_datum (k : akey) : adatum := mkD (if k_spec k =? AVTAB_AUDITDENY then 4294967295 else 0) None.
Definition fresh (k : akey) (ctx : option (N * bool)) : xnode := mkXN (new_node k (init_datum k)) ctx.
Lemma fresh_key k ctx : In (k_spec k) kinds -> of_key k (fresh k ctx).
Proof.
  intros H. unfold of_key, fresh. rewrite kind_new by exact H. cbn [xn]. rewrite new_node_key. auto.
Qed.
Lemma fresh_ok k ctx : In (k_spec k) kinds -> node_ok (fresh k ctx).
Proof.
  intros H. pose proof (kind_new k (init_datum k) ctx H) as K. unfold node_ok, fresh in *. rewrite K. split; [exact H|]. intros X.
  unfold new_node. destruct (N.land (k_spec k) AVTAB_XPERMS =? 0) eqn:Q.
  - exfalso. cbn [In] in X. destruct X as [X|[X|[X|[]]]]; rewrite <- X in Q; discriminate.
  - cbn [negb xn n_datum d_xperms init_datum]. eexists. split; reflexivity.
Qed.

(** The context nodes are in front: every node of [ctx] is before every other node. *)
Definition front (ctx : option (N * bool)) (l : list xnode) : Prop :=
  exists A B, l = A ++ B /\ Forall (fun n => xn_ctx n = ctx) A /\ Forall (fun n => xn_ctx n <> ctx) B.

Lemma find_spec l k ctx x a n b :
  In (k_spec k) kinds -> Forall node_ok l -> (ctx = None -> Forall (fun n => xn_ctx n = None) l) ->
  find_avtab_node l k ctx x = (a, n, b) ->
  (l = a ++ n :: b /\ of_key k n /\ xn_ctx n = ctx /\
     (In (k_spec k) [256; 512; 1024] -> (ctx = None \/ front ctx l) -> exists y z, x = Some y /\ d_xperms (n_datum (xn n)) = Some z /\ x_spec z = x_spec y /\ x_driver z = x_driver y))
  \/ (a = [] /\ b = l /\ n = fresh k ctx).
Proof.
  intros KK OK NC E. unfold find_avtab_node in E. fold (init_datum k) in E. fold (fresh k ctx) in E.
  set (fst1 := if negb (N.land (k_spec k) AVTAB_XPERMS =? 0) then match x with None => None | Some x => split_at (fun n => met k n && x_same x n) l end else split_at (met k) l) in E.
  assert (XK : (N.land (k_spec k) AVTAB_XPERMS =? 0) = negb (existsb (N.eqb (k_spec k)) [256; 512; 1024])).
  { unfold kinds in KK. cbn [In] in KK. repeat (destruct KK as [<-|KK]; [reflexivity|]). destruct KK. }
  assert (F1 : forall a n b, fst1 = Some (a, n, b) -> l = a ++ n :: b /\ met k n = true /\
     (In (k_spec k) [256; 512; 1024] -> exists y z, x = Some y /\ d_xperms (n_datum (xn n)) = Some z /\ x_spec z = x_spec y /\ x_driver z = x_driver y)).
  { intros a0 n0 b0 H. unfold fst1 in H. rewrite XK, negb_involutive in H. destruct (existsb (N.eqb (k_spec k)) [256; 512; 1024]) eqn:Q.
    - destruct x as [y|]; [|discriminate]. apply split_some in H as (-> & P & _). apply andb_prop in P as [P1 P2]. split; [reflexivity|]. split; [exact P1|]. intros _.
      unfold x_same in P2. destruct (d_xperms (n_datum (xn n0))) as [z|]; [|discriminate]. apply andb_prop in P2 as [P2 P3]. exists y, z. split; [reflexivity|]. split; [reflexivity|]. lia.
    - apply split_some in H as (-> & P & _). split; [reflexivity|]. split; [exact P|]. intros X. exfalso. cbn [In] in X. destruct X as [X|[X|[X|[]]]]; rewrite <- X in Q; discriminate. }
  assert (MK : forall n, In n l -> met k n = true -> of_key k n).
  { intros m Hm M. rewrite Forall_forall in OK. apply (met_iff k m KK); [apply OK; exact Hm|exact M]. }
  destruct ctx as [c|].
  - destruct fst1 as [[[a0 n0] b0]|] eqn:Q; [|right; injection E as <- <- <-; auto].
    destruct (F1 _ _ _ eq_refl) as (L & M & X). destruct (ctx_eqb (xn_ctx n0) (Some c)) eqn:C.
    + injection E as <- <- <-. left. apply ctx_eq in C. split; [exact L|]. split; [apply MK; [rewrite L; apply in_or_app; right; left; reflexivity|exact M]|]. split; [exact C|]. intros K _. exact (X K).
    + destruct (split_at (fun m => met k m && ctx_eqb (xn_ctx m) (Some c)) b0) as [[[a' m'] b']|] eqn:Q2; [|right; injection E as <- <- <-; auto].
      injection E as <- <- <-. left. apply split_some in Q2 as (-> & P & _). apply andb_prop in P as [P1 P2]. apply ctx_eq in P2.
      assert (L2 : l = (a0 ++ n0 :: a') ++ m' :: b') by (rewrite L, <- app_assoc; reflexivity).
      split; [exact L2|]. split; [apply MK; [rewrite L2; apply in_or_app; right; left; reflexivity|exact P1]|]. split; [exact P2|].
      intros _ [D|(A & B & E1 & FA & FB)]; [discriminate|]. exfalso.
      assert (HB : In m' B -> False) by (intros H; rewrite Forall_forall in FB; exact (FB _ H P2)).
      assert (HA : In n0 A -> False) by (intros H; rewrite Forall_forall in FA; specialize (FA _ H); apply ctx_eq in FA; congruence).
      rewrite L in E1. apply app_eq_app in E1 as (w & [[E2 E3]|[E2 E3]]).
      * apply HB. rewrite E3. apply in_or_app. right. right. apply in_or_app. right. left. reflexivity.
      * destruct w as [|w0 w]; cbn in E3.
        -- apply HB. rewrite <- E3. right. apply in_or_app. right. left. reflexivity.
        -- injection E3 as <- E3. apply HA. rewrite E2. apply in_or_app. right. left. reflexivity.
  - destruct fst1 as [[[a0 n0] b0]|] eqn:Q; [|right; injection E as <- <- <-; auto]. injection E as <- <- <-. left. destruct (F1 _ _ _ eq_refl) as (L & M & X).
    assert (HI : In n0 l) by (rewrite L; apply in_or_app; right; left; reflexivity).
    split; [exact L|]. split; [apply MK; assumption|]. split; [specialize (NC eq_refl); rewrite Forall_forall in NC; apply NC; exact HI|]. intros K _. exact (X K).
Qed.

(** Replacing the node found changes only what it says. *)
Lemma upd_fact (P : xnode -> Prop) (Q : Prop) l k ctx x a n b n' :
  In (k_spec k) kinds -> Forall node_ok l -> (ctx = None -> Forall (fun n => xn_ctx n = None) l) ->
  find_avtab_node l k ctx x = (a, n, b) -> (P n' <-> P n \/ Q) -> ~ P (fresh k ctx) ->
  ((exists m, In m (a ++ n' :: b) /\ P m) <-> (exists m, In m l /\ P m) \/ Q).
Proof.
  intros KK OK NC E PQ NF. destruct (find_spec l k ctx x a n b KK OK NC E) as [(-> & _)|(-> & -> & ->)].
  - split.
    + intros (m & Hm & Pm). apply in_app_or in Hm as [Hm|[<-|Hm]].
      * left. exists m. split; [apply in_or_app; left; exact Hm|exact Pm].
      * apply PQ in Pm as [Pm|Pm]; [left; exists n; split; [apply in_or_app; right; left; reflexivity|exact Pm]|right; exact Pm].
      * left. exists m. split; [apply in_or_app; right; right; exact Hm|exact Pm].
    + intros [(m & Hm & Pm)|HQ].
      * apply in_app_or in Hm as [Hm|[<-|Hm]].
        -- exists m. split; [apply in_or_app; left; exact Hm|exact Pm].
        -- exists n'. split; [apply in_or_app; right; left; reflexivity|apply PQ; left; exact Pm].
        -- exists m. split; [apply in_or_app; right; right; exact Hm|exact Pm].
      * exists n'. split; [apply in_or_app; right; left; reflexivity|apply PQ; right; exact HQ].
  - cbn [app]. split.
    + intros (m & [<-|Hm] & Pm); [apply PQ in Pm as [Pm|Pm]; [contradiction|right; exact Pm]|left; exists m; auto].
    + intros [(m & Hm & Pm)|HQ]; [exists m; split; [right; exact Hm|exact Pm]|]. exists n'. split; [left; reflexivity|apply PQ; right; exact HQ].
Qed.

(** ** The nodes written *)
Lemma enabled_kind en n : kind (set_enabled en n) = kind n.
Proof.
  unfold kind, set_enabled. cbn [xn n_key k_spec]. destruct en.
  - rewrite N.land_lor_distr_l. change (N.land AVTAB_ENABLED 32767) with 0. apply N.lor_0_r.
  - rewrite <- N.land_assoc. reflexivity.
Qed.
Lemma written_key k en d n : of_key k n -> of_key k (set_datum d (set_enabled en n)).
Proof. intros (A & B & C & D). unfold of_key. split; [exact A|]. split; [exact B|]. split; [exact C|]. rewrite <- D. apply enabled_kind. Qed.
Lemma written_ctx en d n : xn_ctx (set_datum d (set_enabled en n)) = xn_ctx n.
Proof. reflexivity. Qed.
Lemma written_datum en d n : n_datum (xn (set_datum d (set_enabled en n))) = d.
Proof. reflexivity. Qed.

Definition av_spec (sp : N) : Prop := In sp [1; 2; 4; 8; 256; 512; 1024].
Definition te_spec (sp : N) : Prop := In sp [16; 32; 64].
Lemma av_kind sp : av_spec sp -> In (avrule_to_avtab_spec sp) kinds.
Proof. unfold av_spec, kinds. cbn [In]. intros H. repeat (destruct H as [<-|H]; [vm_compute; auto 12|]). destruct H. Qed.
Lemma te_kind sp : te_spec sp -> avrule_to_avtab_spec sp = sp /\ In sp kinds.
Proof. unfold te_spec, kinds. cbn [In]. intros H. repeat (destruct H as [<-|H]; [vm_compute; auto 12|]). destruct H. Qed.

Lemma av_x sp : av_spec sp -> (In sp [256; 512; 1024] <-> In (avrule_to_avtab_spec sp) [256; 512; 1024]).
Proof.
  unfold av_spec. cbn [In]. intros H. repeat (destruct H as [<-|H]; [first [reflexivity|change (avrule_to_avtab_spec 8) with 4; lia]|]). destruct H.
Qed.

(** ** One application *)
(** What a node may say about a permission. *)
Inductive pay := PSet (b : N) | PClr (b : N) | PX (xs drv b : N).
Definition pay_of (p : pay) (d : adatum) : Prop :=
  match p with
  | PSet b => N.testbit (d_data d) b = true
  | PClr b => N.testbit (d_data d) b = false
  | PX xs drv b => exists y, d_xperms d = Some y /\ x_spec y = xs /\ x_driver y = drv /\ xbit (x_perms y) b
  end.
Definition pay_kind (p : pay) (sp : N) : Prop :=
  match p with PSet _ => sp = 1 \/ sp = 2 | PClr b => sp = 4 /\ b < 32 | PX _ _ _ => In sp [256; 512; 1024] end.
(** What a rule gives: its specifier, data and extended permissions. *)
Definition gives (p : pay) (sp spec data : N) (x : option xperms) : Prop :=
  match p with
  | PSet b => spec = sp /\ N.testbit data b = true
  | PClr b => (spec = 8 /\ N.testbit data b = true) \/ (spec = 4 /\ N.testbit data b = false)
  | PX xs drv b => spec = sp /\ exists y, x = Some y /\ x_spec y = xs /\ x_driver y = drv /\ xbit (x_perms y) b
  end.

Lemma zeros_bit b : ~ xbit (repeat 0 8) b.
Proof. unfold xbit. destruct (N.to_nat (b / 32)) as [|[|[|[|[|[|[|[|?]]]]]]]]; cbn [nth repeat]; try (rewrite N.bits_0; discriminate). destruct n; rewrite N.bits_0; discriminate. Qed.
Lemma fresh_says p k ctx : In (k_spec k) kinds -> pay_kind p (k_spec k) -> ~ pay_of p (n_datum (xn (fresh k ctx))).
Proof.
  intros KK PK. unfold fresh, new_node, init_datum. cbn [xn]. destruct p as [b|b|xs drv b]; cbn [pay_of pay_kind] in *.
  - destruct PK as [-> | ->]; cbn [N.land AVTAB_XPERMS]; change (N.land 1 AVTAB_XPERMS =? 0) with true; change (N.land 2 AVTAB_XPERMS =? 0) with true;
      change (1 =? AVTAB_AUDITDENY) with false; change (2 =? AVTAB_AUDITDENY) with false; cbn [negb n_datum d_data]; rewrite N.bits_0; discriminate.
  - destruct PK as [-> B]. change (N.land 4 AVTAB_XPERMS =? 0) with true. change (4 =? AVTAB_AUDITDENY) with true. cbn [negb n_datum d_data].
    change 4294967295 with (N.ones 32). rewrite N.ones_spec_low by exact B. discriminate.
  - destruct (negb (N.land (k_spec k) AVTAB_XPERMS =? 0)); cbn [n_datum d_xperms]; [|intros (y & Y & _); discriminate].
    intros (y & [= <-] & _ & _ & X). cbn [x_perms] in X. exact (zeros_bit _ X).
Qed.

Lemma combine_bit l1 l2 b : length l1 = 8%nat -> length l2 = 8%nat ->
  (xbit (map (fun p => N.lor (fst p) (snd p)) (combine l1 l2)) b <-> xbit l1 b \/ xbit l2 b).
Proof.
  intros H1 H2. unfold xbit. generalize (N.to_nat (b / 32)) as k. intros k.
  assert (G : nth k (map (fun p => N.lor (fst p) (snd p)) (combine l1 l2)) 0 = N.lor (nth k l1 0) (nth k l2 0)).
  { pose proof (map_nth (fun p : N * N => N.lor (fst p) (snd p)) (combine l1 l2) (0, 0) k) as M. rewrite combine_nth in M by congruence. exact M. }
  rewrite G, N.lor_spec. rewrite orb_true_iff. reflexivity.
Qed.
Lemma combine_len (l1 l2 : list N) : length l1 = 8%nat -> length l2 = 8%nat -> length (map (fun p => N.lor (fst p) (snd p)) (combine l1 l2)) = 8%nat.
Proof. intros H1 H2. rewrite map_length, combine_length, H1, H2. reflexivity. Qed.

Section Av.
Context (dd : bool) (spec : N) (ctx : option (N * bool)) (en : bool) (x : option xperms).
Context (AS : av_spec spec) (XG : In spec [256; 512; 1024] -> exists y, x = Some y /\ In (x_spec y) [1; 2; 3] /\ length (x_perms y) = 8%nat).

Definition av_step (i j : N) (cd : N * N) (s : xstate) : xres :=
  let k := mkK (i + 1) (j + 1) (fst cd) (avrule_to_avtab_spec spec) in
  let '(a, n, b) := find_avtab_node (dest ctx s) k ctx x in
  let n := set_enabled en n in
  match apply_rule spec (snd cd) x (n_datum (xn n)) with
  | None => XUB
  | Some None => XError
  | Some (Some d) => XOk (set_dest ctx (a ++ set_datum d n :: b) s)
  end.

Lemma apply_total d0 data : (In spec [256; 512; 1024] -> exists y, d_xperms d0 = Some y /\ length (x_perms y) = 8%nat) ->
  exists d, apply_rule spec data x d0 = Some (Some d) /\
    (In spec [256; 512; 1024] -> exists y, d_xperms d = Some y /\ length (x_perms y) = 8%nat) /\
    (~ In spec [256; 512; 1024] -> d_xperms d = d_xperms d0) /\
    forall p, pay_kind p (avrule_to_avtab_spec spec) ->
      (In spec [256; 512; 1024] -> forall y z, x = Some y -> d_xperms d0 = Some z -> (x_spec z = x_spec y /\ x_driver z = x_driver y) \/ (forall b, ~ xbit (x_perms z) b)) ->
      (pay_of p d <-> pay_of p d0 \/ gives p (avrule_to_avtab_spec spec) spec data x).
Proof.
  intros OKd. unfold av_spec in AS. cbn [In] in AS.
  assert (CASES : spec = 1 \/ spec = 2 \/ spec = 8 \/ spec = 4 \/ In spec [256; 512; 1024]) by (cbn [In]; intuition auto).
  destruct CASES as [->|[->|[->|[->|SX]]]].
  - eexists. split; [reflexivity|]. split; [cbn [In]; lia|]. split; [reflexivity|]. intros p PK _. destruct p as [b|b|xs drv b]; cbn [pay_kind pay_of gives d_data] in *.
    + rewrite N.lor_spec, orb_true_iff. change (avrule_to_avtab_spec 1) with 1. tauto.
    + destruct PK as [PK _]. discriminate PK.
    + cbn [In] in PK. change (avrule_to_avtab_spec 1) with 1 in PK. lia.
  - eexists. split; [reflexivity|]. split; [cbn [In]; lia|]. split; [reflexivity|]. intros p PK _. destruct p as [b|b|xs drv b]; cbn [pay_kind pay_of gives d_data] in *.
    + rewrite N.lor_spec, orb_true_iff. change (avrule_to_avtab_spec 2) with 2. tauto.
    + destruct PK as [PK _]. discriminate PK.
    + cbn [In] in PK. change (avrule_to_avtab_spec 2) with 2 in PK. lia.
  - eexists. split; [reflexivity|]. split; [cbn [In]; lia|]. split; [reflexivity|]. intros p PK _. destruct p as [b|b|xs drv b]; cbn [pay_kind pay_of gives d_data] in *.
    + change (avrule_to_avtab_spec 8) with 4 in PK. lia.
    + rewrite N.ldiff_spec, andb_false_iff, negb_false_iff. change (8 = 4) with (8 = 4). split; [intros [H|H]; auto|intros [H|[[_ H]|[H _]]]; [auto|auto|discriminate]].
    + cbn [In] in PK. change (avrule_to_avtab_spec 8) with 4 in PK. lia.
  - eexists. split; [reflexivity|]. split; [cbn [In]; lia|]. split; [reflexivity|]. intros p PK _. destruct p as [b|b|xs drv b]; cbn [pay_kind pay_of gives d_data] in *.
    + change (avrule_to_avtab_spec 4) with 4 in PK. lia.
    + rewrite N.land_spec, andb_false_iff. split; [intros [H|H]; auto|intros [H|[[H _]|[_ H]]]; [auto|discriminate|auto]].
    + cbn [In] in PK. change (avrule_to_avtab_spec 4) with 4 in PK. lia.
  - destruct (XG SX) as (y & -> & YS & YL). destruct (OKd SX) as (z & Ez & Lz).
    assert (AP : apply_rule spec data (Some y) d0 = Some (allocate_xperms d0 y)) by (cbn [In] in SX; destruct SX as [<-|[<-|[<-|[]]]]; reflexivity).
    assert (SS : avrule_to_avtab_spec spec = spec) by (cbn [In] in SX; destruct SX as [<-|[<-|[<-|[]]]]; reflexivity).
    rewrite AP. unfold allocate_xperms. rewrite Ez.
    replace ((x_spec y =? 1) || (x_spec y =? 2) || (x_spec y =? 3)) with true by (cbn [In] in YS; lia).
    eexists. split; [reflexivity|]. cbn [d_xperms]. split; [intros _; eexists; split; [reflexivity|]; cbn [x_perms]; apply combine_len; assumption|]. split; [contradiction|].
    intros p PK HM. rewrite SS in *. specialize (HM SX y z eq_refl eq_refl). destruct p as [b|b|xs drv b]; cbn [pay_kind pay_of gives d_data d_xperms] in *.
    + cbn [In] in SX. lia.
    + cbn [In] in SX. lia.
    + rewrite Ez. split.
      * intros (w & [= <-] & <- & <- & X). cbn [x_perms x_spec x_driver] in *. destruct (proj1 (combine_bit _ _ _ Lz YL) X) as [X'|X'].
        -- destruct HM as [[H1 H2]|HM]; [left; exists z; auto|destruct (HM _ X')].
        -- right. split; [reflexivity|]. exists y. auto.
      * intros [(w & [= <-] & E1 & E2 & X)|(_ & w & [= <-] & E1 & E2 & X)]; (eexists; split; [reflexivity|]); cbn [x_perms x_spec x_driver].
        -- destruct HM as [[H1 H2]|HM]; [|destruct (HM _ X)]. split; [congruence|]. split; [congruence|]. apply combine_bit; auto.
        -- split; [exact E1|]. split; [exact E2|]. apply combine_bit; auto.
Qed.

(** The nodes of a fact: kind, types, class, scope. *)
Definition at_key (sp i j c : N) (scope : option (N * bool)) (n : xnode) : Prop := of_key (mkK (i + 1) (j + 1) c sp) n /\ xn_ctx n = scope.
Definition fact (p : pay) (sp i j c : N) (scope : option (N * bool)) (s : xstate) : Prop :=
  exists n, In n (dest scope s) /\ at_key sp i j c scope n /\ pay_of p (n_datum (xn n)).

Definition scope_front (s : xstate) : Prop := ctx <> None -> front ctx (xs_cte s).

Lemma inv_dest s : inv s -> Forall node_ok (dest ctx s) /\ (ctx = None -> Forall (fun n => xn_ctx n = None) (dest ctx s)).
Proof.
  intros [A B]. unfold tab_ok in *. rewrite Forall_forall in A, B. split.
  - apply Forall_forall. intros n Hn. destruct ctx; [apply B|apply A]; exact Hn.
  - intros ->. apply Forall_forall. intros n Hn. apply A. exact Hn.
Qed.
Lemma inv_set s l : inv s -> Forall (fun n => node_ok n /\ (match ctx with None => xn_ctx n = None | Some _ => xn_ctx n <> None end)) l -> inv (set_dest ctx l s).
Proof. intros [A B] H. unfold inv. destruct ctx; cbn [set_dest xs_te xs_cte]; split; assumption. Qed.
Lemma set_dest_dest l s : dest ctx (set_dest ctx l s) = l.
Proof. destruct ctx; reflexivity. Qed.
Lemma ctx_cases : ctx = None \/ ctx <> None.
Proof. destruct ctx; [right; discriminate|left; reflexivity]. Qed.
Lemma dest_some s : ctx <> None -> dest ctx s = xs_cte s.
Proof. destruct ctx; [reflexivity|congruence]. Qed.
Lemma set_dest_other scope l s : (match ctx, scope with None, None => False | Some _, Some _ => False | _, _ => True end) -> dest scope (set_dest ctx l s) = dest scope s.
Proof. destruct ctx, scope; cbn; tauto. Qed.

Lemma front_written a n b l k d : front ctx l -> ctx <> None ->
  (l = a ++ n :: b /\ xn_ctx n = ctx) \/ (a = [] /\ b = l /\ n = fresh k ctx) -> front ctx (a ++ set_datum d (set_enabled en n) :: b).
Proof.
  intros (A & B & -> & FA & FB) _ [[E C]|(-> & -> & ->)].
  - apply app_eq_app in E as (w & [[E2 E3]|[E2 E3]]).
    + destruct w as [|w0 w]; cbn in E3.
      * exfalso. rewrite Forall_forall in FB. apply (FB n); [rewrite <- E3; left; reflexivity|exact C].
      * injection E3 as <- ->. exists (a ++ set_datum d (set_enabled en n) :: w), B. split; [rewrite <- app_assoc; reflexivity|]. split; [|exact FB].
        rewrite E2 in FA. apply Forall_app in FA as [FA1 FA2]. apply Forall_app. split; [exact FA1|]. inversion FA2 as [|? ? Q1 Q2]; subst. constructor; [reflexivity|exact Q2].
    + exfalso. rewrite Forall_forall in FB. apply (FB n); [rewrite E3; apply in_or_app; right; left; reflexivity|exact C].
  - exists (set_datum d (set_enabled en (fresh k ctx)) :: A), B. split; [reflexivity|]. split; [constructor; [reflexivity|exact FA]|exact FB].
Qed.

Lemma av_step_fact i j cd s s' : inv s -> av_step i j cd s = XOk s' ->
  inv s' /\ (scope_front s -> scope_front s') /\ xs_na s' = xs_na s /\
  forall p sp i0 j0 c0 scope, pay_kind p sp -> (In sp [256; 512; 1024] -> scope = ctx -> scope_front s) ->
    (fact p sp i0 j0 c0 scope s' <-> fact p sp i0 j0 c0 scope s \/ (i0 = i /\ j0 = j /\ c0 = fst cd /\ scope = ctx /\ sp = avrule_to_avtab_spec spec /\ gives p sp spec (snd cd) x)).
Proof.
  intros I E. unfold av_step in E. set (k := mkK (i + 1) (j + 1) (fst cd) (avrule_to_avtab_spec spec)) in *.
  pose proof (av_kind spec AS) as KK. destruct (inv_dest s I) as [OK NC]. destruct (find_avtab_node (dest ctx s) k ctx x) as [[a n] b] eqn:Ef.
  pose proof (find_spec _ k ctx x a n b KK OK NC Ef) as FS.
  assert (NK : of_key k n /\ xn_ctx n = ctx /\ node_ok n).
  { destruct FS as [(L & K & C & _)|(_ & _ & ->)]; [split; [exact K|]; split; [exact C|]; rewrite L in OK; apply Forall_app in OK as [_ OK]; inversion OK; assumption|].
    split; [apply fresh_key; exact KK|]. split; [reflexivity|apply fresh_ok; exact KK]. }
  destruct NK as (NK & NCt & NO).
  assert (KX : kind n = avrule_to_avtab_spec spec) by apply NK.
  assert (SX : In spec [256; 512; 1024] <-> In (avrule_to_avtab_spec spec) [256; 512; 1024]).
  { apply av_x. exact AS. }
  destruct (apply_total (n_datum (xn (set_enabled en n))) (snd cd)) as (d & Ed & Dx & Dn & Dp).
  { intros X. cbn [set_enabled xn n_datum]. apply NO. rewrite KX. apply SX. exact X. }
  rewrite Ed in E. injection E as <-. cbn [set_enabled xn n_datum] in Dn, Dp.
  assert (WO : node_ok (set_datum d (set_enabled en n))).
  { split; [change (kind (set_datum d (set_enabled en n))) with (kind (set_enabled en n)); rewrite enabled_kind; apply NO|].
    change (kind (set_datum d (set_enabled en n))) with (kind (set_enabled en n)). rewrite enabled_kind, KX. intros X. apply Dx. apply SX. exact X. }
  assert (IN : inv (set_dest ctx (a ++ set_datum d (set_enabled en n) :: b) s)).
  { apply inv_set; [exact I|]. assert (TL : Forall (fun n => node_ok n /\ (match ctx with None => xn_ctx n = None | Some _ => xn_ctx n <> None end)) (dest ctx s)).
    { destruct I as [A B]. unfold tab_ok in *. destruct ctx; assumption. }
    assert (WC : match ctx with None => xn_ctx (set_datum d (set_enabled en n)) = None | Some _ => xn_ctx (set_datum d (set_enabled en n)) <> None end).
    { rewrite written_ctx, NCt. destruct ctx; [discriminate|reflexivity]. }
    destruct FS as [(L & _)|(-> & -> & _)].
    - rewrite L in TL. apply Forall_app in TL as [T1 T2]. inversion T2 as [|? ? Q1 Q2]; subst. apply Forall_app. split; [exact T1|]. constructor; [split; assumption|exact Q2].
    - cbn [app]. constructor; [split; assumption|exact TL]. }
  split; [exact IN|]. split.
  { intros HF NN. specialize (HF NN). rewrite <- (dest_some _ NN), set_dest_dest. apply (front_written a n b (xs_cte s) k d HF NN). rewrite <- (dest_some s NN).
    destruct FS as [(L & _ & C & _)|(A1 & A2 & A3)]; [left|right]; auto. }
  split; [destruct ctx; reflexivity|].
  intros p sp i0 j0 c0 scope PK HF. unfold fact.
  assert (SC : (match ctx, scope with None, None => False | Some _, Some _ => False | _, _ => True end) \/ (dest scope s = dest ctx s /\ forall l, dest scope (set_dest ctx l s) = l)).
  { destruct ctx, scope; cbn [dest set_dest xs_te xs_cte]; auto. }
  destruct SC as [SC|[SC1 SC2]].
  { rewrite (set_dest_other scope _ s SC). split; [auto|]. intros [H|(_ & _ & _ & H & _)]; [exact H|]. subst scope. destruct ctx; contradiction. }
  rewrite SC1, SC2.
  apply (upd_fact (fun n => at_key sp i0 j0 c0 scope n /\ pay_of p (n_datum (xn n))) _ (dest ctx s) k ctx x a n b _ KK OK NC Ef).
  - rewrite written_datum. unfold at_key. rewrite written_ctx, NCt.
    assert (KW : of_key (mkK (i0 + 1) (j0 + 1) c0 sp) (set_datum d (set_enabled en n)) <-> i0 = i /\ j0 = j /\ c0 = fst cd /\ sp = avrule_to_avtab_spec spec).
    { pose proof (written_key k en d n NK) as (K1 & K2 & K3 & K4). unfold of_key. cbn [k_src k_tgt k_cls k_spec]. rewrite K1, K2, K3, K4. unfold k. cbn [k_src k_tgt k_cls k_spec]. split; intros; repeat split; try tauto; try lia; intuition lia. }
    assert (KN : of_key (mkK (i0 + 1) (j0 + 1) c0 sp) n <-> i0 = i /\ j0 = j /\ c0 = fst cd /\ sp = avrule_to_avtab_spec spec).
    { destruct NK as (K1 & K2 & K3 & K4). unfold of_key. cbn [k_src k_tgt k_cls k_spec]. rewrite K1, K2, K3, K4. unfold k. cbn [k_src k_tgt k_cls k_spec]. split; intros; intuition lia. }
    assert (DP : ctx = scope -> sp = avrule_to_avtab_spec spec -> (pay_of p d <-> pay_of p (n_datum (xn n)) \/ gives p sp spec (snd cd) x)).
    { intros CS ->. apply (Dp p PK). intros X y z Ey Ez. destruct FS as [(L & _ & _ & F4)|(_ & _ & ->)].
      - left. destruct (F4 (proj1 SX X)) as (y' & z' & Ey' & Ez' & H1 & H2).
        { destruct ctx_cases as [CN|CN]; [left; exact CN|right; rewrite (dest_some s CN); apply (HF (proj1 SX X) (eq_sym CS)); exact CN]. }
        rewrite Ey in Ey'. rewrite Ez in Ez'. injection Ey' as <-. injection Ez' as <-. auto.
      - right. intros b0 Hb. apply (fresh_says (PX (x_spec z) (x_driver z) b0) k ctx KK (proj1 SX X)). exists z. auto. }
    rewrite KW, KN. split.
    + intros [[(E1 & E2 & E3 & E4) E5] HP]. apply (DP E5 E4) in HP as [HP|HP]; [left; auto 10|right; auto 10].
    + intros [[[(E1 & E2 & E3 & E4) E5] HP]|(E1 & E2 & E3 & E5 & E4 & HP)]; (split; [auto 10|]); apply (DP ltac:(congruence) E4); auto.
  - intros [[(_ & _ & _ & K4) _] HP]. assert (SPE : sp = k_spec k) by (pose proof (fresh_key k ctx KK) as (_ & _ & _ & K5); rewrite K5 in K4; symmetry; exact K4).
    subst sp. exact (fresh_says p k ctx KK PK HP).
Qed.
End Av.

(** ** Type rules *)
Definition tfact (sp i j c : N) (scope : option (N * bool)) (d : N) (s : xstate) : Prop :=
  exists n, In n (dest scope s) /\ at_key sp i j c scope n /\ d_data (n_datum (xn n)) = d.

(** What both kinds of steps respect: the scopes of the nodes and the enabled flags. *)
Definition scopes_grow (ctx : option (N * bool)) (s s' : xstate) : Prop :=
  (ctx = None -> xs_cte s' = xs_cte s) /\ (ctx <> None -> xs_te s' = xs_te s) /\
  forall n, In n (xs_cte s') -> xn_ctx n = ctx \/ exists m, In m (xs_cte s) /\ xn_ctx m = xn_ctx n.
Lemma grow_refl ctx s : scopes_grow ctx s s.
Proof. split; [reflexivity|]. split; [reflexivity|]. intros n Hn. right. exists n. auto. Qed.
Lemma grow_trans ctx s1 s2 s3 : scopes_grow ctx s1 s2 -> scopes_grow ctx s2 s3 -> scopes_grow ctx s1 s3.
Proof.
  intros (A1 & B1 & C1) (A2 & B2 & C2). split; [intros E; rewrite (A2 E); auto|]. split; [intros E; rewrite (B2 E); auto|].
  intros n Hn. destruct (C2 n Hn) as [H|(m & Hm & E)]; [auto|]. destruct (C1 m Hm) as [H|(m' & Hm' & E')]; [left; congruence|right; exists m'; split; [exact Hm'|congruence]].
Qed.
Definition enabled_ok (st : option (N * bool) -> bool) (s : xstate) : Prop :=
  forall n, In n (xs_te s) \/ In n (xs_cte s) -> N.testbit (k_spec (n_key (xn n))) 15 = st (xn_ctx n).

Lemma enabled_bit en n : N.testbit (k_spec (n_key (xn (set_enabled en n)))) 15 = en.
Proof.
  unfold set_enabled. cbn [xn n_key k_spec]. destruct en.
  - rewrite N.lor_spec. change (N.testbit AVTAB_ENABLED 15) with true. apply orb_true_r.
  - rewrite N.land_spec. change (N.testbit 32767 15) with false. apply andb_false_r.
Qed.

(** The common part of a write. *)
Section Write.
Context (ctx : option (N * bool)) (en : bool) (k : akey) (x : option xperms) (KK : In (k_spec k) kinds).
Lemma write_common s a n b d : inv s -> find_avtab_node (dest ctx s) k ctx x = (a, n, b) ->
  (In (k_spec k) [256; 512; 1024] -> exists y, d_xperms d = Some y /\ length (x_perms y) = 8%nat) ->
  let s' := set_dest ctx (a ++ set_datum d (set_enabled en n) :: b) s in
  inv s' /\ scopes_grow ctx s s' /\ xs_na s' = xs_na s /\
  (forall st, st ctx = en -> enabled_ok st s -> enabled_ok st s') /\
  (scope_front ctx s -> scope_front ctx s') /\
  of_key k n /\ xn_ctx n = ctx.
Proof.
  intros I Ef Dx s'. destruct (inv_dest ctx s I) as [OK NC]. pose proof (find_spec _ k ctx x a n b KK OK NC Ef) as FS.
  assert (NK : of_key k n /\ xn_ctx n = ctx /\ node_ok n).
  { destruct FS as [(L & K & C & _)|(_ & _ & ->)]; [split; [exact K|]; split; [exact C|]; rewrite L in OK; apply Forall_app in OK as [_ OK]; inversion OK; assumption|].
    split; [apply fresh_key; exact KK|]. split; [reflexivity|apply fresh_ok; exact KK]. }
  destruct NK as (NK & NCt & NO).
  assert (KX : kind n = k_spec k) by apply NK.
  assert (WO : node_ok (set_datum d (set_enabled en n))).
  { unfold node_ok. change (kind (set_datum d (set_enabled en n))) with (kind (set_enabled en n)). rewrite enabled_kind, KX. split; [exact KK|exact Dx]. }
  assert (MEM : forall m, In m (a ++ set_datum d (set_enabled en n) :: b) -> m = set_datum d (set_enabled en n) \/ In m (dest ctx s)).
  { intros m Hm. destruct FS as [(L & _)|(-> & -> & _)].
    - rewrite L. apply in_app_or in Hm as [Hm|[Hm|Hm]]; [right; apply in_or_app; left; exact Hm|left; symmetry; exact Hm|right; apply in_or_app; right; right; exact Hm].
    - destruct Hm as [Hm|Hm]; [left; symmetry; exact Hm|right; exact Hm]. }
  split.
  { apply inv_set; [exact I|]. rewrite Forall_forall. intros m Hm. destruct (MEM m Hm) as [->|Hm'].
    - split; [exact WO|]. rewrite written_ctx, NCt. destruct ctx; [discriminate|reflexivity].
    - destruct I as [A B]. unfold tab_ok in *. rewrite Forall_forall in A, B. destruct ctx; [apply B; exact Hm'|apply A; exact Hm']. }
  split.
  { unfold s'. split; [intros ->; reflexivity|]. split; [destruct ctx; [reflexivity|congruence]|].
    intros m Hm. destruct ctx as [c|] eqn:EC; cbn [set_dest xs_cte] in Hm; [|right; exists m; auto]. destruct (MEM m Hm) as [->|Hm']; [left; exact NCt|right; exists m; auto]. }
  split; [unfold s'; destruct ctx; reflexivity|]. split.
  { intros st Est HE m Hm. assert (CS : m = set_datum d (set_enabled en n) \/ In m (xs_te s) \/ In m (xs_cte s)).
    { unfold s' in Hm. destruct ctx; cbn [set_dest xs_te xs_cte dest] in *; destruct Hm as [Hm|Hm]; try (right; auto; fail); destruct (MEM m Hm) as [->|Hm']; auto. }
    destruct CS as [->|CS]; [|apply HE; exact CS]. rewrite written_ctx, NCt, Est. apply enabled_bit. }
  split.
  { intros HF NN. specialize (HF NN). unfold s'. rewrite <- (dest_some ctx _ NN), set_dest_dest. apply (front_written ctx en a n b (xs_cte s) k d HF NN). rewrite <- (dest_some ctx s NN).
    destruct FS as [(L & _ & C & _)|(A1 & A2 & A3)]; [left|right]; auto. }
  auto.
Qed.
(** Nodes of other kinds, types, classes and scopes stay. *)
Lemma write_other s a n b d (P : xnode -> Prop) scope : inv s -> find_avtab_node (dest ctx s) k ctx x = (a, n, b) ->
  (forall m, P m -> ~ (of_key k m /\ xn_ctx m = ctx)) ->
  ((exists m, In m (dest scope (set_dest ctx (a ++ set_datum d (set_enabled en n) :: b) s)) /\ P m) <-> exists m, In m (dest scope s) /\ P m).
Proof.
  intros I Ef HP. destruct (inv_dest ctx s I) as [OK NC]. pose proof (find_spec _ k ctx x a n b KK OK NC Ef) as FS.
  assert (NK : of_key k n /\ xn_ctx n = ctx).
  { destruct FS as [(L & K & C & _)|(_ & _ & ->)]; [auto|]. split; [apply fresh_key; exact KK|reflexivity]. }
  assert (WK : of_key k (set_datum d (set_enabled en n)) /\ xn_ctx (set_datum d (set_enabled en n)) = ctx) by (split; [apply written_key; apply NK|rewrite written_ctx; apply NK]).
  assert (SC : (match ctx, scope with None, None => False | Some _, Some _ => False | _, _ => True end) \/ (dest scope s = dest ctx s /\ forall l, dest scope (set_dest ctx l s) = l)).
  { destruct ctx, scope; cbn [dest set_dest xs_te xs_cte]; auto. }
  destruct SC as [SC|[SC1 SC2]]; [rewrite (set_dest_other ctx scope _ s SC); reflexivity|]. rewrite SC1, SC2.
  destruct FS as [(L & _)|(-> & -> & _)]; [rewrite L|cbn [app]]; split; intros (m & Hm & Pm); exists m; (split; [|exact Pm]).
  - apply in_app_or in Hm as [Hm|[<-|Hm]]; [apply in_or_app; left; exact Hm|destruct (HP _ Pm WK)|apply in_or_app; right; right; exact Hm].
  - apply in_app_or in Hm as [Hm|[<-|Hm]]; [apply in_or_app; left; exact Hm|destruct (HP _ Pm NK)|apply in_or_app; right; right; exact Hm].
  - destruct Hm as [<-|Hm]; [destruct (HP _ Pm WK)|exact Hm].
  - right. exact Hm.
Qed.
End Write.

Lemma kinds_apart p sp sp' : pay_kind p sp -> te_spec sp' -> sp <> sp'.
Proof. unfold te_spec. destruct p; cbn [pay_kind In]; intros; lia. Qed.
Lemma at_of_key sp i j c scope n k : at_key sp i j c scope n -> of_key k n -> sp = k_spec k /\ i + 1 = k_src k /\ j + 1 = k_tgt k /\ c = k_cls k.
Proof. intros [(A & B & C & D) _] (A' & B' & C' & D'). cbn [k_src k_tgt k_cls k_spec] in *. rewrite A in A'. rewrite B in B'. rewrite C in C'. rewrite D in D'. auto. Qed.

Section Te.
Context (tm : list N) (spec : N) (ctx : option (N * bool)) (en : bool) (i j : N) (TS : te_spec spec).

(** The type a rule names, after translation. *)
Definition target (d d' : N) : Prop := d <> 0 /\ nth_error tm (N.to_nat (d - 1)) = Some d'.

Definition te_found (s : xstate) (k : akey) : option (bool * xnode) :=
  match split_at (met k) (xs_te s) with
  | Some (_, n, _) => Some (true, n)
  | None => match split_at (met k) (xs_cte s) with
            | Some (_, n, _) => if ctx_eqb (xn_ctx n) (other_ctx ctx) then None else Some (false, n)
            | None => None
            end
  end.
Definition te_same (u : bool) (n : xnode) (d' : N) : bool :=
  (d_data (n_datum (xn n)) =? d') && ((u && match ctx with None => true | _ => false end) || ctx_eqb (xn_ctx n) ctx).
Lemma te_cons c d rest s : expand_terule (Some tm) spec ctx en i j ((c, d) :: rest) s =
  match (if d =? 0 then None else nth_error tm (N.to_nat (d - 1))) with
  | None => XUB
  | Some d' =>
      let k := mkK (i + 1) (j + 1) c (avrule_to_avtab_spec spec) in
      match te_found s k with
      | Some (u, n) => if te_same u n d' then XOk s else XConflict
      | None => let '(a, n, b) := find_avtab_node (dest ctx s) k ctx None in
          expand_terule (Some tm) spec ctx en i j rest (set_dest ctx (a ++ set_datum (mkD d' (d_xperms (n_datum (xn (set_enabled en n))))) (set_enabled en n) :: b) s)
      end
  end.
Proof. reflexivity. Qed.

Lemma te_found_at s c u n : inv s -> te_found s (mkK (i + 1) (j + 1) c spec) = Some (u, n) ->
  tfact spec i j c (xn_ctx n) (d_data (n_datum (xn n))) s /\ (u = true -> xn_ctx n = None) /\ (u = false -> xn_ctx n <> None /\ xn_ctx n <> other_ctx ctx).
Proof.
  intros [IA IB] E. set (k := mkK (i + 1) (j + 1) c spec) in *. destruct (te_kind spec TS) as [_ KK]. unfold tab_ok in *. rewrite Forall_forall in IA, IB. unfold te_found in E.
  destruct (split_at (met k) (xs_te s)) as [[[a m] b]|] eqn:Q.
  - injection E as <- <-. apply split_some in Q as (L & M & _). assert (HI : In m (xs_te s)) by (rewrite L; apply in_or_app; right; left; reflexivity).
    destruct (IA m HI) as [[K1 _] C]. apply (met_iff k m KK K1) in M. split; [|split; [auto|discriminate]]. exists m. rewrite C. split; [exact HI|]. split; [split; [exact M|exact C]|reflexivity].
  - destruct (split_at (met k) (xs_cte s)) as [[[a m] b]|] eqn:Q2; [|discriminate]. destruct (ctx_eqb (xn_ctx m) (other_ctx ctx)) eqn:O; [discriminate|]. injection E as <- <-.
    apply split_some in Q2 as (L & M & _). assert (HI : In m (xs_cte s)) by (rewrite L; apply in_or_app; right; left; reflexivity).
    destruct (IB m HI) as [[K1 _] C]. apply (met_iff k m KK K1) in M. split; [|split; [discriminate|]].
    + exists m. split; [destruct (xn_ctx m) as [c0|]; [exact HI|congruence]|]. split; [split; [exact M|reflexivity]|reflexivity].
    + intros _. split; [exact C|]. intros X. apply ctx_eq in X. congruence.
Qed.
Lemma te_found_none s c : inv s -> te_found s (mkK (i + 1) (j + 1) c spec) = None ->
  (forall d, ~ tfact spec i j c None d s) /\
  (scope_front ctx s -> ctx <> None -> forall d, ~ tfact spec i j c ctx d s) /\
  (forall scope d, tfact spec i j c scope d s -> exists scope' d', tfact spec i j c scope' d' s /\ scope' = other_ctx ctx).
Proof.
  intros [IA IB] E. set (k := mkK (i + 1) (j + 1) c spec) in *. destruct (te_kind spec TS) as [_ KK]. unfold tab_ok in *. rewrite Forall_forall in IA, IB. unfold te_found in E.
  destruct (split_at (met k) (xs_te s)) as [[[a m] b]|] eqn:Q; [discriminate|].
  assert (N0 : forall d, ~ tfact spec i j c None d s).
  { intros d (n & Hn & [K C] & _). pose proof (split_none _ _ Q n Hn) as M. destruct (IA n Hn) as [[K1 _] _]. apply (met_iff k n KK K1) in K. congruence. }
  split; [exact N0|].
  destruct (split_at (met k) (xs_cte s)) as [[[a m] b]|] eqn:Q2.
  - destruct (ctx_eqb (xn_ctx m) (other_ctx ctx)) eqn:O; [|discriminate]. apply ctx_eq in O. apply split_some in Q2 as (L & M & NB).
    assert (HI : In m (xs_cte s)) by (rewrite L; apply in_or_app; right; left; reflexivity). destruct (IB m HI) as [[K1 _] C].
    split.
    + intros HF NN d (n & Hn & [K Cn] & _). specialize (HF NN) as (A & B & EL & FA & FB). rewrite (dest_some ctx s NN) in Hn.
      assert (NO : other_ctx ctx <> ctx) by (destruct ctx as [[c0 [|]]|]; cbn; congruence).
      destruct (IB n Hn) as [[K1n _] _]. apply (met_iff k n KK K1n) in K. rewrite EL in Hn. apply in_app_or in Hn as [Hn|Hn]; [|rewrite Forall_forall in FB; exact (FB n Hn Cn)].
      rewrite EL in L. apply app_eq_app in L as (w & [[E2 E3]|[E2 E3]]).
      * subst A. apply in_app_or in Hn as [Hn|Hn]; [rewrite (NB n Hn) in K; discriminate|]. destruct w as [|w0 w]; [destruct Hn|]. cbn in E3. injection E3 as <- E3.
        rewrite Forall_forall in FA. apply NO. rewrite <- O. apply FA. apply in_or_app. right. left. reflexivity.
      * subst a. rewrite (NB n) in K; [discriminate|]. apply in_or_app. left. exact Hn.
    + intros _ _ _. exists (other_ctx ctx), (d_data (n_datum (xn m))). split; [|reflexivity]. exists m. apply (met_iff k m KK K1) in M. split; [rewrite <- O; destruct (xn_ctx m); [exact HI|congruence]|]. split; [split; [exact M|exact O]|reflexivity].
  - assert (NC : forall sc d, sc <> None -> ~ tfact spec i j c sc d s).
    { intros sc d NN (n & Hn & [K C] & _). assert (Hn' : In n (xs_cte s)) by (destruct sc; [exact Hn|congruence]). pose proof (split_none _ _ Q2 n Hn') as M. destruct (IB n Hn') as [[K1 _] _]. apply (met_iff k n KK K1) in K. congruence. }
    split; [intros _ NN d; apply NC; exact NN|]. intros sc d H. exfalso. destruct sc as [sc|]; [apply (NC (Some sc) d); [discriminate|exact H]|exact (N0 _ H)].
Qed.

(** Uniqueness of type rules in the tables. *)
Definition unique_types (s : xstate) : Prop :=
  forall sp i j c sc1 d1 sc2 d2, te_spec sp -> tfact sp i j c sc1 d1 s -> tfact sp i j c sc2 d2 s -> (sc1 = sc2 /\ d1 = d2) \/ (sc1 <> None /\ sc1 = other_ctx sc2).
(** Every type rule in the tables comes from somewhere. *)
Definition sound_types (R : N -> N -> N -> N -> option (N * bool) -> N -> Prop) (s : xstate) : Prop :=
  forall sp i j c sc d, te_spec sp -> tfact sp i j c sc d s -> R sp i j c sc d.

Lemma te_write s c d' a n b : inv s -> find_avtab_node (dest ctx s) (mkK (i + 1) (j + 1) c spec) ctx None = (a, n, b) ->
  let s' := set_dest ctx (a ++ set_datum (mkD d' (d_xperms (n_datum (xn (set_enabled en n))))) (set_enabled en n) :: b) s in
  tfact spec i j c ctx d' s' /\
  (forall sp0 i0 j0 c0 sc d0, tfact sp0 i0 j0 c0 sc d0 s' -> tfact sp0 i0 j0 c0 sc d0 s \/ (sp0 = spec /\ i0 = i /\ j0 = j /\ c0 = c /\ sc = ctx /\ d0 = d')) /\
  (forall sp0 i0 j0 c0 sc d0, tfact sp0 i0 j0 c0 sc d0 s -> ~ (sp0 = spec /\ i0 = i /\ j0 = j /\ c0 = c /\ sc = ctx) -> tfact sp0 i0 j0 c0 sc d0 s').
Proof.
  intros I Ef s'. set (k := mkK (i + 1) (j + 1) c spec) in *. destruct (te_kind spec TS) as [_ KK]. destruct (inv_dest ctx s I) as [OK NC].
  pose proof (find_spec _ k ctx None a n b KK OK NC Ef) as FS.
  assert (NK : of_key k n /\ xn_ctx n = ctx).
  { destruct FS as [(L & K & C & _)|(_ & _ & ->)]; [auto|]. split; [apply fresh_key; exact KK|reflexivity]. }
  destruct NK as [NK NCt]. set (w := set_datum (mkD d' (d_xperms (n_datum (xn (set_enabled en n))))) (set_enabled en n)).
  assert (WK : of_key k w) by (apply written_key; exact NK).
  assert (OTHER : forall sp0 i0 j0 c0 sc d0, ~ (sp0 = spec /\ i0 = i /\ j0 = j /\ c0 = c /\ sc = ctx) -> (tfact sp0 i0 j0 c0 sc d0 s' <-> tfact sp0 i0 j0 c0 sc d0 s)).
  { intros sp0 i0 j0 c0 sc d0 NE.
    apply (write_other ctx en k None KK s a n b (mkD d' (d_xperms (n_datum (xn (set_enabled en n))))) (fun m => at_key sp0 i0 j0 c0 sc m /\ d_data (n_datum (xn m)) = d0) sc I Ef).
    intros m0 [X _] [Y Z]. destruct (at_of_key _ _ _ _ _ _ _ X Y) as (Q1 & Q2 & Q3 & Q4). destruct X as [_ X]. unfold k in *. cbn [k_src k_tgt k_cls k_spec] in *.
    apply NE. split; [exact Q1|]. split; [lia|]. split; [lia|]. split; [exact Q4|congruence]. }
  split; [|split].
  - exists w. split; [unfold s'; rewrite set_dest_dest; apply in_or_app; right; left; reflexivity|]. split; [split; [exact WK|exact NCt]|reflexivity].
  - intros sp0 i0 j0 c0 sc d0 H.
    assert (DEC : (sp0 = spec /\ i0 = i /\ j0 = j /\ c0 = c /\ sc = ctx) \/ ~ (sp0 = spec /\ i0 = i /\ j0 = j /\ c0 = c /\ sc = ctx)).
    { destruct (ctx_eqb sc ctx) eqn:Q; [apply ctx_eq in Q|right; intros (_ & _ & _ & _ & X); apply ctx_eq in X; congruence].
      destruct (N.eq_dec sp0 spec), (N.eq_dec i0 i), (N.eq_dec j0 j), (N.eq_dec c0 c); tauto. }
    destruct DEC as [(-> & -> & -> & -> & ->)|NE]; [|left; apply OTHER; assumption].
    destruct H as (m & Hm & AK & Dm). unfold s' in Hm. rewrite set_dest_dest in Hm.
    assert (CS : m = w \/ In m (dest ctx s)).
    { destruct FS as [(L & _)|(-> & -> & _)]; [rewrite L; apply in_app_or in Hm as [Hm|[Hm|Hm]]; [right; apply in_or_app; left; exact Hm|left; symmetry; exact Hm|right; apply in_or_app; right; right; exact Hm]|].
      destruct Hm as [Hm|Hm]; [left; symmetry; exact Hm|right; exact Hm]. }
    destruct CS as [->|CS]; [|left; exists m; auto]. right. cbn [w set_datum xn n_datum d_data] in Dm. auto 10.
  - intros sp0 i0 j0 c0 sc d0 H NE. apply OTHER; assumption.
Qed.

Lemma te_run : forall perms s, inv s -> (forall c d, In (c, d) perms -> exists d', target d d') ->
  match expand_terule (Some tm) spec ctx en i j perms s with
  | XOk s' =>
      inv s' /\ scopes_grow ctx s s' /\ xs_na s' = xs_na s /\ (forall st, st ctx = en -> enabled_ok st s -> enabled_ok st s') /\
      (scope_front ctx s -> scope_front ctx s') /\
      (forall p sp i0 j0 c0 scope, pay_kind p sp -> (fact p sp i0 j0 c0 scope s' <-> fact p sp i0 j0 c0 scope s)) /\
      (forall sp0 i0 j0 c0 sc d0, tfact sp0 i0 j0 c0 sc d0 s' ->
         tfact sp0 i0 j0 c0 sc d0 s \/ (sp0 = spec /\ i0 = i /\ j0 = j /\ sc = ctx /\ exists d, In (c0, d) perms /\ target d d0)) /\
      (scope_front ctx s -> forall sp0 i0 j0 c0 sc d0, tfact sp0 i0 j0 c0 sc d0 s -> tfact sp0 i0 j0 c0 sc d0 s') /\
      (scope_front ctx s -> unique_types s -> unique_types s') /\
      (forall c d d', perms = [(c, d)] -> target d d' -> tfact spec i j c ctx d' s')
  | XConflict => exists c d d' sc d0 s1, In (c, d) perms /\ target d d' /\ tfact spec i j c sc d0 s1 /\ (sc = None \/ sc <> other_ctx ctx) /\ (d0 <> d' \/ sc <> ctx) /\
      (tfact spec i j c sc d0 s \/ exists d1, sc = ctx /\ In (c, d1) perms /\ target d1 d0)
  | _ => False
  end.
Proof.
  induction perms as [|[c d] rest IH]; intros s I HT.
  - cbn [expand_terule]. split; [exact I|]. split; [apply grow_refl|]. split; [reflexivity|]. split; [auto|]. split; [auto|]. split; [reflexivity|]. split; [auto|]. split; [auto|]. split; [auto|]. discriminate.
  - rewrite te_cons. destruct (HT c d (or_introl eq_refl)) as (d' & NZ & ET). destruct (N.eqb_spec d 0) as [E0|_]; [contradiction|]. rewrite ET.
    destruct (te_kind spec TS) as [SE KK]. rewrite SE. cbv zeta. set (k := mkK (i + 1) (j + 1) c spec) in *.
    destruct (te_found s k) as [[u n]|] eqn:F.
    + destruct (te_found_at s c u n I F) as (TF & U1 & U2). unfold te_same. destruct (N.eqb_spec (d_data (n_datum (xn n))) d') as [ED|ED]; cbn [andb].
      * destruct (u && match ctx with None => true | _ => false end || ctx_eqb (xn_ctx n) ctx) eqn:SC.
        -- assert (CC : xn_ctx n = ctx).
           { apply orb_prop in SC as [SC|SC]; [|apply ctx_eq; exact SC]. apply andb_prop in SC as [-> SC]. rewrite (U1 eq_refl). destruct ctx; [discriminate|reflexivity]. }
           split; [exact I|]. split; [apply grow_refl|]. split; [reflexivity|]. split; [auto|]. split; [auto|]. split; [reflexivity|]. split; [auto|]. split; [auto|]. split; [auto|].
           intros c1 d1 d1' [= <- <- ->] [_ T]. rewrite ET in T. injection T as <-. rewrite ED, CC in TF. exact TF.
        -- apply orb_false_iff in SC as [SC1 SC2]. exists c, d, d', (xn_ctx n), d', s. rewrite ED in TF. split; [left; reflexivity|]. split; [split; assumption|]. split; [exact TF|].
           split; [destruct u; [left; auto|right; apply U2; reflexivity]|]. split; [right; intros X; apply ctx_eq in X; congruence|left; exact TF].
      * exists c, d, d', (xn_ctx n), (d_data (n_datum (xn n))), s. split; [left; reflexivity|]. split; [split; assumption|]. split; [exact TF|].
        split; [destruct u; [left; auto|right; apply U2; reflexivity]|]. split; [left; exact ED|left; exact TF].
    + destruct (te_found_none s c I F) as (N0 & NF & NO). destruct (find_avtab_node (dest ctx s) k ctx None) as [[a n] b] eqn:Ef.
      destruct (write_common ctx en k None KK s a n b (mkD d' (d_xperms (n_datum (xn (set_enabled en n))))) I Ef) as (I1 & G1 & NA1 & EN1 & FR1 & _).
      { cbn [k_spec k]. intros X. exfalso. unfold te_spec in TS. cbn [In] in *. lia. }
      destruct (te_write s c d' a n b I Ef) as (W1 & W2 & W3).
      set (s1 := set_dest ctx (a ++ set_datum (mkD d' (d_xperms (n_datum (xn (set_enabled en n))))) (set_enabled en n) :: b) s) in *.
      assert (NEWK : scope_front ctx s -> forall d0, ~ tfact spec i j c ctx d0 s) by (intros HF; destruct (ctx_cases ctx) as [CN|CN]; [rewrite CN; exact N0|exact (NF HF CN)]).
      assert (PF : forall p sp i0 j0 c0 scope, pay_kind p sp -> (fact p sp i0 j0 c0 scope s1 <-> fact p sp i0 j0 c0 scope s)).
      { intros p sp i0 j0 c0 scope PK. apply (write_other ctx en k None KK s a n b _ (fun m => at_key sp i0 j0 c0 scope m /\ pay_of p (n_datum (xn m))) scope I Ef).
        intros m [X _] [Y _]. destruct (at_of_key _ _ _ _ _ _ _ X Y) as (Z & _). exact (kinds_apart p sp spec PK TS Z). }
      assert (UQ : scope_front ctx s -> unique_types s -> unique_types s1).
      { intros HF UU sp i0 j0 c0 sc1 d1 sc2 d2 TSp H1 H2. specialize (NEWK HF).
        destruct (W2 _ _ _ _ _ _ H1) as [H1'|(-> & -> & -> & -> & -> & ->)]; destruct (W2 _ _ _ _ _ _ H2) as [H2'|(E1 & E2 & E3 & E4 & E5 & E6)].
        - exact (UU _ _ _ _ _ _ _ _ TSp H1' H2').
        - subst. destruct (NO _ _ H1') as (sc' & d0 & T0 & ->).
          destruct (UU _ _ _ _ _ _ _ _ TSp H1' T0) as [[-> ->]|[NN ->]].
          + right. split; [|reflexivity]. intros X. rewrite X in H1'. exact (N0 _ H1').
          + exfalso. assert (OO : other_ctx (other_ctx ctx) = ctx) by (destruct ctx as [[c0 b0]|]; cbn; rewrite ?negb_involutive; reflexivity). rewrite OO in H1'. exact (NEWK _ H1').
        - destruct (NO _ _ H2') as (sc' & d0 & T0 & ->).
          destruct (UU _ _ _ _ _ _ _ _ TSp H2' T0) as [[-> ->]|[NN ->]].
          + right. assert (OO : other_ctx (other_ctx ctx) = ctx) by (destruct ctx as [[c0 b0]|]; cbn; rewrite ?negb_involutive; reflexivity). rewrite OO.
            split; [|reflexivity]. intros X. rewrite X in H2'. cbn in H2'. exact (N0 _ H2').
          + exfalso. assert (OO : other_ctx (other_ctx ctx) = ctx) by (destruct ctx as [[c0 b0]|]; cbn; rewrite ?negb_involutive; reflexivity). rewrite OO in H2'. exact (NEWK _ H2').
        - left. subst. auto. }
      assert (KEEP : scope_front ctx s -> forall sp0 i0 j0 c0 sc d0, tfact sp0 i0 j0 c0 sc d0 s -> tfact sp0 i0 j0 c0 sc d0 s1).
      { intros HF sp0 i0 j0 c0 sc d0 H. apply W3; [exact H|]. intros (-> & -> & -> & -> & ->). exact (NEWK HF _ H). }
      specialize (IH s1 I1 (fun c0 d0 H => HT c0 d0 (or_intror H))). destruct (expand_terule (Some tm) spec ctx en i j rest s1) as [s2| | | |] eqn:ER; try exact IH.
      * destruct IH as (I2 & G2 & NA2 & EN2 & FR2 & PF2 & SO2 & KE2 & UQ2 & _).
        split; [exact I2|]. split; [exact (grow_trans _ _ _ _ G1 G2)|]. split; [congruence|]. split; [intros st Est HE; apply EN2; [exact Est|]; apply EN1; assumption|].
        split; [intros HF; apply FR2; apply FR1; exact HF|]. split; [intros; rewrite PF2 by assumption; apply PF; assumption|].
        split; [|split; [|split]].
        -- intros sp0 i0 j0 c0 sc d0 H. destruct (SO2 _ _ _ _ _ _ H) as [H1|(-> & -> & -> & -> & d1 & Hd & T)].
           ++ destruct (W2 _ _ _ _ _ _ H1) as [H2|(-> & -> & -> & -> & -> & ->)]; [auto|]. right. split; [reflexivity|]. split; [reflexivity|]. split; [reflexivity|]. split; [reflexivity|]. exists d. split; [left; reflexivity|split; assumption].
           ++ right. split; [reflexivity|]. split; [reflexivity|]. split; [reflexivity|]. split; [reflexivity|]. exists d1. split; [right; exact Hd|exact T].
        -- intros HF sp0 i0 j0 c0 sc d0 H. apply KE2; [apply FR1; exact HF|]. apply KEEP; assumption.
        -- intros HF UU. apply UQ2; [apply FR1; exact HF|]. apply UQ; assumption.
        -- intros c1 d1 d1' [= <- <- ->] [_ T]. rewrite ET in T. injection T as <-. cbn [expand_terule] in ER. injection ER as <-. exact W1.
      * destruct IH as (c1 & d1 & d1' & sc & d0 & s3 & H1 & H2 & H3 & H4 & H5 & H6). exists c1, d1, d1', sc, d0, s3. split; [right; exact H1|]. split; [exact H2|]. split; [exact H3|]. split; [exact H4|]. split; [exact H5|].
        destruct H6 as [H6|(d2 & -> & Hd & T)]; [|right; exists d2; split; [reflexivity|split; [right; exact Hd|exact T]]].
        destruct (W2 _ _ _ _ _ _ H6) as [H7|(_ & _ & _ & -> & -> & ->)]; [left; exact H7|]. right. exists d. split; [reflexivity|]. split; [left; reflexivity|split; assumption].
Qed.
End Te.

(** ** Composing *)
Definition cset := pay -> N -> N -> N -> N -> Prop.
Definition tset := N -> N -> N -> N -> N -> Prop.
Record trans (ctx : option (N * bool)) (en : bool) (C : cset) (T T1 : tset) (na : list narule) (s s' : xstate) : Prop := {
  tr_inv : inv s';
  tr_grow : scopes_grow ctx s s';
  tr_na : xs_na s' = na ++ xs_na s;
  tr_en : forall st, st ctx = en -> enabled_ok st s -> enabled_ok st s';
  tr_front : scope_front ctx s -> scope_front ctx s';
  tr_fact : forall p sp i j c scope, pay_kind p sp -> (In sp [256; 512; 1024] -> scope = ctx -> scope_front ctx s) ->
    (fact p sp i j c scope s' <-> fact p sp i j c scope s \/ (scope = ctx /\ C p sp i j c));
  tr_sound : forall sp i j c sc d, te_spec sp -> tfact sp i j c sc d s' -> tfact sp i j c sc d s \/ (sc = ctx /\ T sp i j c d);
  tr_keep : scope_front ctx s -> forall sp i j c sc d, te_spec sp -> tfact sp i j c sc d s -> tfact sp i j c sc d s';
  tr_uniq : scope_front ctx s -> unique_types s -> unique_types s';
  tr_comp : scope_front ctx s -> forall sp i j c d, te_spec sp -> T1 sp i j c d -> tfact sp i j c ctx d s' }.
Definition conflicting (ctx : option (N * bool)) (T : tset) (s : xstate) : Prop :=
  exists sp i j c sc d d0, te_spec sp /\ T sp i j c d /\ (sc = None \/ sc <> other_ctx ctx) /\ (d0 <> d \/ sc <> ctx) /\
    (tfact sp i j c sc d0 s \/ (sc = ctx /\ T sp i j c d0)).
Definition outcome (ctx : option (N * bool)) (en : bool) (C : cset) (T T1 : tset) (na : list narule) (s : xstate) (r : xres) : Prop :=
  match r with XOk s' => trans ctx en C T T1 na s s' | XConflict => conflicting ctx T s | _ => False end.

Definition noC : cset := fun _ _ _ _ _ => False.
Definition noT : tset := fun _ _ _ _ _ => False.
Lemma trans_refl ctx en s : inv s -> trans ctx en noC noT noT [] s s.
Proof.
  intros I. constructor; auto; try apply grow_refl.
  - intros. unfold noC. tauto.
  - intros _ sp i j c d _ [].
Qed.
Lemma trans_seq ctx en C1 T1 U1 n1 C2 T2 U2 n2 s s1 s2 : trans ctx en C1 T1 U1 n1 s s1 -> trans ctx en C2 T2 U2 n2 s1 s2 ->
  trans ctx en (fun p sp i j c => C1 p sp i j c \/ C2 p sp i j c) (fun sp i j c d => T1 sp i j c d \/ T2 sp i j c d) (fun sp i j c d => U1 sp i j c d \/ U2 sp i j c d) (n2 ++ n1) s s2.
Proof.
  intros A B. destruct A as [A1 A2 A3 A4 A5 A6 A7 A8 A9 A10], B as [B1 B2 B3 B4 B5 B6 B7 B8 B9 B10]. constructor.
  - exact B1.
  - exact (grow_trans _ _ _ _ A2 B2).
  - rewrite B3, A3. apply app_assoc.
  - auto.
  - auto.
  - intros p sp i j c scope PK HF. rewrite B6, A6; [tauto|assumption|assumption|assumption|auto].
  - intros sp i j c sc d TS H. destruct (B7 _ _ _ _ _ _ TS H) as [H1|[-> H1]]; [|auto]. destruct (A7 _ _ _ _ _ _ TS H1) as [H2|[-> H2]]; auto.
  - auto.
  - auto.
  - intros HF sp i j c d TS [H|H]; [apply B8; auto|apply B10; auto].
Qed.
Lemma trans_ext ctx en C T U na (C' : cset) (T' U' : tset) na' s s' : trans ctx en C T U na s s' -> (forall p sp i j c, pay_kind p sp -> (C p sp i j c <-> C' p sp i j c)) ->
  (forall sp i j c d, te_spec sp -> T sp i j c d -> T' sp i j c d) -> (forall sp i j c d, te_spec sp -> U' sp i j c d -> U sp i j c d) -> na = na' -> trans ctx en C' T' U' na' s s'.
Proof.
  intros A EC ET EU <-. destruct A as [A1 A2 A3 A4 A5 A6 A7 A8 A9 A10]. constructor; auto.
  - intros p sp i j c scope PK HF. rewrite A6 by assumption. rewrite (EC p sp i j c PK). reflexivity.
  - intros sp i j c sc d TS H. destruct (A7 _ _ _ _ _ _ TS H) as [H1|[-> H1]]; auto.
Qed.
Lemma outcome_ext ctx en C T U na (C' : cset) (T' U' : tset) na' s r : outcome ctx en C T U na s r -> (forall p sp i j c, pay_kind p sp -> (C p sp i j c <-> C' p sp i j c)) ->
  (forall sp i j c d, te_spec sp -> T sp i j c d -> T' sp i j c d) -> (forall sp i j c d, te_spec sp -> U' sp i j c d -> U sp i j c d) -> na = na' -> outcome ctx en C' T' U' na' s r.
Proof.
  destruct r; cbn [outcome]; auto; intros A EC ET EU EN; [exact (trans_ext _ _ _ _ _ _ _ _ _ _ _ _ A EC ET EU EN)|].
  destruct A as (sp & i & j & c & sc & d & d0 & H1 & H2 & H3 & H4 & H5). exists sp, i, j, c, sc, d, d0. split; [exact H1|]. split; [auto|]. split; [exact H3|]. split; [exact H4|].
  destruct H5 as [H5|[H5 H6]]; auto.
Qed.
Lemma outcome_seq ctx en C1 T1 U1 n1 C2 T2 U2 n2 s r f : inv s -> outcome ctx en C1 T1 U1 n1 s r -> (forall s1, inv s1 -> outcome ctx en C2 T2 U2 n2 s1 (f s1)) ->
  outcome ctx en (fun p sp i j c => C1 p sp i j c \/ C2 p sp i j c) (fun sp i j c d => T1 sp i j c d \/ T2 sp i j c d) (fun sp i j c d => U1 sp i j c d \/ U2 sp i j c d) (n2 ++ n1) s (xbind r f).
Proof.
  intros I A B. destruct r as [s1| | | |]; cbn [outcome xbind] in *; try contradiction.
  - pose proof (tr_inv _ _ _ _ _ _ _ _ A) as I1. specialize (B s1 I1). destruct (f s1) as [s2| | | |]; cbn [outcome] in *; try contradiction; [exact (trans_seq _ _ _ _ _ _ _ _ _ _ _ _ _ A B)|].
    destruct B as (sp & i & j & c & sc & d & d0 & H1 & H2 & H3 & H4 & H5). exists sp, i, j, c, sc, d, d0. split; [exact H1|]. split; [auto|]. split; [exact H3|]. split; [exact H4|].
    destruct H5 as [H5|[H5 H6]]; [|auto]. destruct (tr_sound _ _ _ _ _ _ _ _ A _ _ _ _ _ _ H1 H5) as [H6|[H6 H7]]; auto.
  - destruct A as (sp & i & j & c & sc & d & d0 & H1 & H2 & H3 & H4 & H5). exists sp, i, j, c, sc, d, d0. split; [exact H1|]. split; [auto|]. split; [exact H3|]. split; [exact H4|].
    destruct H5 as [H5|[H5 H6]]; auto.
Qed.
Lemma outcome_loop {A} (f : A -> xstate -> xres) ctx en (C : A -> cset) (T U : A -> tset) (na : A -> list narule) : forall l,
  (forall a s, In a l -> inv s -> outcome ctx en (C a) (T a) (U a) (na a) s (f a s)) -> forall s, inv s ->
  outcome ctx en (fun p sp i j c => exists a, In a l /\ C a p sp i j c) (fun sp i j c d => exists a, In a l /\ T a sp i j c d)
    (fun sp i j c d => exists a, In a l /\ U a sp i j c d) (flat_map na (rev l)) s (xloop f l s).
Proof.
  induction l as [|a l IH]; intros H s I.
  - cbn [xloop rev flat_map outcome]. apply (trans_ext _ _ _ _ _ _ _ _ _ _ _ _ (trans_refl ctx en s I)); auto.
    + intros p sp i j c _. unfold noC. split; [intros []|intros (a & [] & _)].
    + intros sp i j c d _ [].
    + intros sp i j c d _ (a & [] & _).
  - cbn [xloop]. apply (outcome_ext _ _ _ _ _ _ _ _ _ _ _ _ (outcome_seq ctx en _ _ _ _ _ _ _ _ s (f a s) (xloop f l) I (H a s (or_introl eq_refl) I) (IH (fun b s1 Hb => H b s1 (or_intror Hb))))).
    + intros p sp i j c _. split; [intros [X|(b & Hb & X)]; [exists a; split; [left; reflexivity|exact X]|exists b; split; [right; exact Hb|exact X]]|].
      intros (b & [<-|Hb] & X); [auto|right; exists b; auto].
    + intros sp i j c d _ [X|(b & Hb & X)]; [exists a; split; [left; reflexivity|exact X]|exists b; split; [right; exact Hb|exact X]].
    + intros sp i j c d _ (b & [<-|Hb] & X); [auto|right; exists b; auto].
    + cbn [rev]. rewrite flat_map_app. cbn [flat_map]. rewrite app_nil_r. reflexivity.
Qed.

(** ** One rule *)
Section Rules.
Context (ts : list (option tinfo)) (tm : list N) (dd : bool) (AO : attributes_ok ts).

Definition skipped_audit (spec : N) : bool := negb (N.land spec (N.lor 8 1024) =? 0) && dd.
Definition C_pair (r : avrule) (i0 j0 : N) : cset := fun p sp i j c =>
  i = i0 /\ j = j0 /\ av_spec (ar_spec r) /\ skipped_audit (ar_spec r) = false /\ sp = avrule_to_avtab_spec (ar_spec r) /\
  exists d, In (c, d) (ar_perms r) /\ gives p sp (ar_spec r) d (ar_x r).
Definition T_pair (r : avrule) (i0 j0 : N) : tset := fun sp i j c d =>
  i = i0 /\ j = j0 /\ te_spec (ar_spec r) /\ sp = ar_spec r /\ exists d0, In (c, d0) (ar_perms r) /\ target tm d0 d.
Definition U_pair (r : avrule) (i0 j0 : N) : tset := fun sp i j c d =>
  i = i0 /\ j = j0 /\ te_spec (ar_spec r) /\ sp = ar_spec r /\ exists d0, ar_perms r = [(c, d0)] /\ target tm d0 d.

Lemma av_not_te sp : av_spec sp -> te_spec sp -> False.
Proof. unfold av_spec, te_spec. cbn [In]. lia. Qed.

Lemma av_step_trans r ctx en i j cd s : av_spec (ar_spec r) ->
  (In (ar_spec r) [256; 512; 1024] -> exists y, ar_x r = Some y /\ In (x_spec y) [1; 2; 3] /\ length (x_perms y) = 8%nat) -> inv s ->
  outcome ctx en (fun p sp i0 j0 c => i0 = i /\ j0 = j /\ c = fst cd /\ sp = avrule_to_avtab_spec (ar_spec r) /\ gives p sp (ar_spec r) (snd cd) (ar_x r)) noT noT [] s
    (av_step (ar_spec r) ctx en (ar_x r) i j cd s).
Proof.
  intros AS XG I. destruct (av_step (ar_spec r) ctx en (ar_x r) i j cd s) as [s'| | | |] eqn:E.
  - pose proof (av_step_fact (ar_spec r) ctx en (ar_x r) AS XG i j cd s s' I E) as (I' & FR & NA & FC).
    unfold av_step in E. set (k := mkK (i + 1) (j + 1) (fst cd) (avrule_to_avtab_spec (ar_spec r))) in *.
    pose proof (av_kind _ AS) as KK. destruct (find_avtab_node (dest ctx s) k ctx (ar_x r)) as [[a n] b] eqn:Ef.
    pose proof (find_spec _ k ctx (ar_x r) a n b KK (proj1 (inv_dest ctx s I)) (proj2 (inv_dest ctx s I)) Ef) as FS.
    assert (NO : node_ok n /\ kind n = avrule_to_avtab_spec (ar_spec r)).
    { destruct FS as [(L & K & _)|(_ & _ & ->)].
      - split; [|apply K]. pose proof (proj1 (inv_dest ctx s I)) as OK. rewrite L in OK. apply Forall_app in OK as [_ OK]. inversion OK; assumption.
      - split; [apply fresh_ok; exact KK|apply (fresh_key k ctx KK)]. }
    destruct NO as [NO KX]. pose proof (av_x _ AS) as SX.
    destruct (apply_total (ar_spec r) (ar_x r) AS XG (n_datum (xn (set_enabled en n))) (snd cd)) as (d & Ed & Dx & _).
    { intros X. cbn [set_enabled xn n_datum]. apply NO. rewrite KX. apply SX. exact X. }
    rewrite Ed in E. injection E as E.
    destruct (write_common ctx en k (ar_x r) KK s a n b d I Ef) as (_ & GR & _ & EN & _ & NK & NC). { intros X. apply Dx. apply SX. exact X. }
    rewrite E in GR, EN.
    assert (TO : forall sp i0 j0 c0 sc d0, te_spec sp -> (tfact sp i0 j0 c0 sc d0 s' <-> tfact sp i0 j0 c0 sc d0 s)).
    { intros sp i0 j0 c0 sc d0 TS. rewrite <- E. apply (write_other ctx en k (ar_x r) KK s a n b d (fun m => at_key sp i0 j0 c0 sc m /\ d_data (n_datum (xn m)) = d0) sc I Ef).
      intros m [X _] [Y _]. destruct (at_of_key _ _ _ _ _ _ _ X Y) as (Z & _). cbn [k k_spec] in Z. subst sp.
      unfold av_spec in AS. unfold te_spec in TS. cbn [In] in *. unfold avrule_to_avtab_spec in TS. destruct (N.eqb_spec (ar_spec r) 8); [unfold AVTAB_AUDITDENY in TS; lia|lia]. }
    constructor; auto.
    + intros p sp i0 j0 c0 scope PK HF. rewrite (FC p sp i0 j0 c0 scope PK HF). intuition.
    + intros sp i0 j0 c0 sc d0 TS H. left. apply TO; assumption.
    + intros _ sp i0 j0 c0 sc d0 TS H. apply TO; assumption.
    + intros _ UU sp i0 j0 c0 sc1 d1 sc2 d2 TS H1 H2. apply (UU sp i0 j0 c0 sc1 d1 sc2 d2 TS); apply TO; assumption.
    + intros _ sp i0 j0 c0 d0 _ [].
  - exfalso. revert E. unfold av_step. destruct (find_avtab_node _ _ _ _) as [[a n] b]. destruct (apply_rule _ _ _ _) as [[d|]|]; discriminate.
  - exfalso. revert E. unfold av_step. set (k := mkK (i + 1) (j + 1) (fst cd) (avrule_to_avtab_spec (ar_spec r))).
    pose proof (av_kind _ AS) as KK. destruct (find_avtab_node (dest ctx s) k ctx (ar_x r)) as [[a n] b] eqn:Ef.
    pose proof (find_spec _ k ctx (ar_x r) a n b KK (proj1 (inv_dest ctx s I)) (proj2 (inv_dest ctx s I)) Ef) as FS.
    assert (NO : node_ok n /\ kind n = avrule_to_avtab_spec (ar_spec r)).
    { destruct FS as [(L & K & _)|(_ & _ & ->)].
      - split; [|apply K]. pose proof (proj1 (inv_dest ctx s I)) as OK. rewrite L in OK. apply Forall_app in OK as [_ OK]. inversion OK; assumption.
      - split; [apply fresh_ok; exact KK|apply (fresh_key k ctx KK)]. }
    destruct (apply_total (ar_spec r) (ar_x r) AS XG (n_datum (xn (set_enabled en n))) (snd cd)) as (d & Ed & _).
    { intros X. cbn [set_enabled xn n_datum]. apply (proj1 NO). rewrite (proj2 NO). apply (av_x _ AS). exact X. }
    rewrite Ed. discriminate.
  - exfalso. revert E. unfold av_step. set (k := mkK (i + 1) (j + 1) (fst cd) (avrule_to_avtab_spec (ar_spec r))).
    pose proof (av_kind _ AS) as KK. destruct (find_avtab_node (dest ctx s) k ctx (ar_x r)) as [[a n] b] eqn:Ef.
    pose proof (find_spec _ k ctx (ar_x r) a n b KK (proj1 (inv_dest ctx s I)) (proj2 (inv_dest ctx s I)) Ef) as FS.
    assert (NO : node_ok n /\ kind n = avrule_to_avtab_spec (ar_spec r)).
    { destruct FS as [(L & K & _)|(_ & _ & ->)].
      - split; [|apply K]. pose proof (proj1 (inv_dest ctx s I)) as OK. rewrite L in OK. apply Forall_app in OK as [_ OK]. inversion OK; assumption.
      - split; [apply fresh_ok; exact KK|apply (fresh_key k ctx KK)]. }
    destruct (apply_total (ar_spec r) (ar_x r) AS XG (n_datum (xn (set_enabled en n))) (snd cd)) as (d & Ed & _).
    { intros X. cbn [set_enabled xn n_datum]. apply (proj1 NO). rewrite (proj2 NO). apply (av_x _ AS). exact X. }
    rewrite Ed. discriminate.
  - exfalso. revert E. unfold av_step. destruct (find_avtab_node _ _ _ _) as [[a n] b]. destruct (apply_rule _ _ _ _) as [[d|]|]; discriminate.
Qed.

Lemma pair_outcome r ctx en i j s : rule_good ts tm r -> ar_spec r <> 128 -> ar_spec r <> 2048 -> inv s ->
  outcome ctx en (C_pair r i j) (T_pair r i j) (U_pair r i j) [] s (expand_pair dd (Some tm) r ctx en i j s).
Proof.
  intros (_ & _ & SP & XG & TG & _) N1 N2 I. unfold expand_pair.
  assert (CS : av_spec (ar_spec r) \/ te_spec (ar_spec r)) by (unfold av_spec, te_spec; cbn [In] in *; intuition auto).
  destruct CS as [AS|TS].
  - assert (E1 : negb (N.land (ar_spec r) (N.lor 143 3840) =? 0) = true).
    { unfold av_spec in AS. cbn [In] in AS. repeat (destruct AS as [<-|AS]; [reflexivity|]). destruct AS. }
    rewrite E1. unfold expand_avrule. destruct (negb (N.land (ar_spec r) (N.lor 8 1024) =? 0) && dd) eqn:SK.
    + cbn [outcome]. apply (trans_ext _ _ _ _ _ _ _ _ _ _ _ _ (trans_refl ctx en s I)); auto.
      * intros p sp i0 j0 c _. unfold noC, C_pair, skipped_audit. rewrite SK. split; [intros []|intros (_ & _ & _ & X & _); discriminate].
      * intros sp i0 j0 c d _ [].
      * intros sp i0 j0 c d _ (_ & _ & X & _). destruct (av_not_te _ AS X).
    + change (fun cd s0 => _) with (av_step (ar_spec r) ctx en (ar_x r) i j).
      apply (outcome_ext _ _ _ _ _ _ _ _ _ _ _ _ (outcome_loop _ ctx en _ _ _ _ (ar_perms r) (fun cd s0 _ I0 => av_step_trans r ctx en i j cd s0 AS (fun X => XG ltac:(cbn [In] in *; intuition auto)) I0) s I)).
      * intros p sp i0 j0 c _. unfold C_pair, skipped_audit. rewrite SK. split.
        -- intros ([c' d'] & Hcd & -> & -> & -> & -> & G). split; [reflexivity|]. split; [reflexivity|]. split; [exact AS|]. split; [reflexivity|]. split; [reflexivity|]. exists d'. auto.
        -- intros (-> & -> & _ & _ & -> & d & Hd & G). exists (c, d). auto 10.
      * intros sp i0 j0 c d _ (cd & _ & []).
      * intros sp i0 j0 c d _ (_ & _ & X & _). destruct (av_not_te _ AS X).
      * induction (rev (ar_perms r)) as [|cd l IH]; [reflexivity|exact IH].
  - assert (E1 : negb (N.land (ar_spec r) (N.lor 143 3840) =? 0) = false /\ (N.land (ar_spec r) 112 =? 0) = false).
    { unfold te_spec in TS. cbn [In] in TS. repeat (destruct TS as [<-|TS]; [split; reflexivity|]). destruct TS. }
    destruct E1 as [E1 E2]. rewrite E1, E2.
    pose proof (te_run tm (ar_spec r) ctx en i j TS (ar_perms r) s I) as RUN.
    destruct (expand_terule (Some tm) (ar_spec r) ctx en i j (ar_perms r) s) as [s'| | | |]; cbn [outcome]; try (apply RUN; intros c d Hcd; destruct (TG TS c d Hcd) as [Z L];
      destruct (nth_error tm (N.to_nat (d - 1))) as [d'|] eqn:Q; [exists d'; split; assumption|apply nth_error_None in Q; lia]).
    + destruct RUN as (I1 & G & NA & EN & FR & PF & SO & KE & UQ & CO).
      { intros c d Hcd. destruct (TG TS c d Hcd) as [Z L]. destruct (nth_error tm (N.to_nat (d - 1))) as [d'|] eqn:Q; [exists d'; split; assumption|apply nth_error_None in Q; lia]. }
      constructor; auto.
      * intros p sp i0 j0 c scope PK _. rewrite (PF p sp i0 j0 c scope PK). split; [auto|]. intros [X|(_ & _ & _ & X & _)]; [exact X|]. destruct (av_not_te _ X TS).
      * intros sp i0 j0 c sc d TSp H. destruct (SO _ _ _ _ _ _ H) as [X|(-> & -> & -> & -> & X)]; [auto|]. right. split; [reflexivity|]. split; [reflexivity|]. split; [reflexivity|]. auto.
      * intros HF sp i0 j0 c d TSp (-> & -> & _ & -> & d0 & EP & T). exact (CO c d0 d EP T).
    + destruct RUN as (c & d & d' & sc & d0 & s1 & H1 & H2 & H3 & H4 & H5 & H6).
      { intros c d Hcd. destruct (TG TS c d Hcd) as [Z L]. destruct (nth_error tm (N.to_nat (d - 1))) as [d'|] eqn:Q; [exists d'; split; assumption|apply nth_error_None in Q; lia]. }
      exists (ar_spec r), i, j, c, sc, d', d0. split; [exact TS|]. split; [split; [reflexivity|]; split; [reflexivity|]; split; [exact TS|]; split; [reflexivity|]; exists d; auto|].
      split; [exact H4|]. split; [exact H5|]. destruct H6 as [H6|(d1 & -> & Hd & T)]; [auto|]. right. split; [reflexivity|]. split; [reflexivity|]. split; [reflexivity|]. split; [exact TS|]. split; [reflexivity|]. exists d1. auto.
Qed.

Definition always_of (r : avrule) : bool := negb (N.land (ar_spec r) 112 =? 0) || N.testbit (ar_flags r) 0.
Definition conv (t : typeset) (al : bool) : ebitmap := match expand_convert_type_set ts tm t al with SOk e => e | _ => ebitmap_init end.
Definition pairs_in (r : avrule) (i j : N) : Prop :=
  member (conv (ar_st r) (always_of r)) i /\ (member (conv (ar_tt r) (always_of r)) j \/ (N.testbit (ar_flags r) 0 = true /\ j = i)).
Lemma conv_ok t al : sets_good ts tm t -> expand_convert_type_set ts tm t al = SOk (conv t al) /\ valid (conv t al) /\ forall x, names ts (conv t al) x <-> in_set ts tm t x.
Proof. intros [H1 H2]. unfold conv, in_set. destruct (convert_exact ts AO tm t al H1 H2) as (e & E & V & H). rewrite E. auto. Qed.
Lemma conv_types t : sets_good ts tm t -> forall i, member (conv t true) i -> ~ attribute ts i.
Proof. intros H i. apply (convert_types ts AO tm t); try apply H. apply conv_ok. exact H. Qed.

(** The pairs of names of a rule stand for the pairs of types the rule speaks about. *)
Lemma pairs_mean r s t : sets_good ts tm (ar_st r) -> sets_good ts tm (ar_tt r) ->
  ((exists i j, pairs_in r i j /\ stands_for ts i s /\ stands_for ts j t) <-> rule_pair ts tm r s t).
Proof.
  intros G1 G2. destruct (conv_ok (ar_st r) (always_of r) G1) as (_ & V1 & H1). destruct (conv_ok (ar_tt r) (always_of r) G2) as (_ & V2 & H2).
  unfold rule_pair. rewrite <- H1, <- H2. unfold pairs_in, names. split.
  - intros (i & j & [Hi Hj] & S1 & S2). split; [exists i; auto|]. destruct Hj as [Hj|[SF ->]]; [left; exists j; auto|]. right. split; [exact SF|].
    assert (AL : always_of r = true) by (unfold always_of; rewrite SF; apply orb_true_r). rewrite AL in Hi. pose proof (conv_types _ G1 i Hi) as NA.
    destruct S1 as [[-> _]|(ti & E1 & E2 & _)]; [|destruct NA; exists ti; auto]. destruct S2 as [[-> _]|(ti & E1 & E2 & _)]; [reflexivity|destruct NA; exists ti; auto].
  - intros [(i & Hi & S1) [(j & Hj & S2)|[SF ->]]]; [exists i, j; auto|]. exists i, i. auto 10.
Qed.
(** Type rules are about types, not attributes. *)
Lemma pairs_types r i j : sets_good ts tm (ar_st r) -> sets_good ts tm (ar_tt r) -> te_spec (ar_spec r) -> pairs_in r i j -> ~ attribute ts i /\ ~ attribute ts j.
Proof.
  intros G1 G2 TS [Hi Hj]. assert (AL : always_of r = true). { unfold always_of. unfold te_spec in TS. cbn [In] in TS. repeat (destruct TS as [<-|TS]; [reflexivity|]). destruct TS. }
  rewrite AL in *. split; [exact (conv_types _ G1 i Hi)|]. destruct Hj as [Hj|[_ ->]]; [exact (conv_types _ G2 j Hj)|exact (conv_types _ G1 i Hi)].
Qed.

Definition C_rule (r : avrule) : cset := fun p sp i j c =>
  av_spec (ar_spec r) /\ skipped_audit (ar_spec r) = false /\ sp = avrule_to_avtab_spec (ar_spec r) /\ pairs_in r i j /\
  exists d, In (c, d) (ar_perms r) /\ gives p sp (ar_spec r) d (ar_x r).
Definition T_rule (r : avrule) : tset := fun sp i j c d =>
  te_spec (ar_spec r) /\ sp = ar_spec r /\ pairs_in r i j /\ exists d0, In (c, d0) (ar_perms r) /\ target tm d0 d.
Definition U_rule (r : avrule) : tset := fun sp i j c d =>
  te_spec (ar_spec r) /\ sp = ar_spec r /\ pairs_in r i j /\ exists d0, ar_perms r = [(c, d0)] /\ target tm d0 d.

Lemma flat_nil {A} (l : list A) : flat_map (fun _ => @nil narule) l = [].
Proof. induction l; [reflexivity|assumption]. Qed.

Lemma helper_outcome r ctx en s : rule_good ts tm r -> ar_spec r <> 128 -> ar_spec r <> 2048 -> inv s ->
  outcome ctx en (C_rule r) (T_rule r) (U_rule r) [] s (expand_rule_helper dd (Some tm) r ctx en (conv (ar_st r) (always_of r)) (conv (ar_tt r) (always_of r)) s).
Proof.
  intros RG N1 N2 I. pose proof RG as (G1 & G2 & _). destruct (conv_ok (ar_st r) (always_of r) G1) as (_ & V1 & _). destruct (conv_ok (ar_tt r) (always_of r) G2) as (_ & V2 & _).
  set (A := conv (ar_st r) (always_of r)) in *. set (B := conv (ar_tt r) (always_of r)) in *. unfold expand_rule_helper.
  assert (ONE : forall i s0, In i (bits A) -> inv s0 ->
    outcome ctx en (fun p sp i0 j0 c => (if N.testbit (ar_flags r) 0 then C_pair r i i p sp i0 j0 c else False) \/ exists j, In j (bits B) /\ C_pair r i j p sp i0 j0 c)
      (fun sp i0 j0 c d => (if N.testbit (ar_flags r) 0 then T_pair r i i sp i0 j0 c d else False) \/ exists j, In j (bits B) /\ T_pair r i j sp i0 j0 c d)
      (fun sp i0 j0 c d => (if N.testbit (ar_flags r) 0 then U_pair r i i sp i0 j0 c d else False) \/ exists j, In j (bits B) /\ U_pair r i j sp i0 j0 c d) (flat_map (fun _ => []) (rev (bits B)) ++ []) s0
      (xbind (if N.testbit (ar_flags r) 0 then expand_pair dd (Some tm) r ctx en i i s0 else XOk s0) (xloop (fun j => expand_pair dd (Some tm) r ctx en i j) (bits B)))).
  { intros i s0 _ I0. apply (outcome_seq ctx en (fun p sp i0 j0 c => if N.testbit (ar_flags r) 0 then C_pair r i i p sp i0 j0 c else False)
      (fun sp i0 j0 c d => if N.testbit (ar_flags r) 0 then T_pair r i i sp i0 j0 c d else False) (fun sp i0 j0 c d => if N.testbit (ar_flags r) 0 then U_pair r i i sp i0 j0 c d else False) []
      (fun p sp i0 j0 c => exists j, In j (bits B) /\ C_pair r i j p sp i0 j0 c) (fun sp i0 j0 c d => exists j, In j (bits B) /\ T_pair r i j sp i0 j0 c d)
      (fun sp i0 j0 c d => exists j, In j (bits B) /\ U_pair r i j sp i0 j0 c d)).
    - exact I0.
    - destruct (N.testbit (ar_flags r) 0); [apply pair_outcome; assumption|]. cbn [outcome]. apply (trans_ext _ _ _ _ _ _ _ _ _ _ _ _ (trans_refl ctx en s0 I0)); auto. intros p sp i0 j0 c _. reflexivity.
    - intros s1 I1. apply (outcome_loop (fun j => expand_pair dd (Some tm) r ctx en i j) ctx en (fun j => C_pair r i j) (fun j => T_pair r i j) (fun j => U_pair r i j) (fun _ => [])); [|exact I1].
      intros j s2 _ I2. apply pair_outcome; assumption. }
  pose proof (outcome_loop _ ctx en _ _ _ _ (bits A) ONE s I) as O. apply (outcome_ext _ _ _ _ _ _ _ _ _ _ _ _ O).
  - intros p sp i j c _. unfold C_rule, C_pair, pairs_in. fold A. fold B. rewrite <- (bits_in A i V1), <- (bits_in B j V2). split.
    + intros (i' & Hi & [X|(j' & Hj & -> & -> & X1 & X2 & X3 & X4)]).
      * destruct (N.testbit (ar_flags r) 0) eqn:SF; [|destruct X]. destruct X as (-> & -> & X1 & X2 & X3 & X4). split; [exact X1|]. split; [exact X2|]. split; [exact X3|]. split; [|exact X4]. split; [exact Hi|]. right. auto.
      * split; [exact X1|]. split; [exact X2|]. split; [exact X3|]. split; [|exact X4]. split; [exact Hi|]. left. exact Hj.
    + intros (X1 & X2 & X3 & [Hi Hj] & X4). exists i. split; [exact Hi|]. destruct Hj as [Hj|[SF ->]]; [right; exists j; auto 10|left; rewrite SF; auto 10].
  - intros sp i j c d _. unfold T_rule, T_pair, pairs_in. fold A. fold B. rewrite <- (bits_in A i V1), <- (bits_in B j V2).
    intros (i' & Hi & [X|(j' & Hj & -> & -> & X1 & X2 & X3)]).
    + destruct (N.testbit (ar_flags r) 0) eqn:SF; [|destruct X]. destruct X as (-> & -> & X1 & X2 & X3). auto 10.
    + auto 10.
  - intros sp i j c d _. unfold U_rule, U_pair, pairs_in. fold A. fold B. rewrite <- (bits_in A i V1), <- (bits_in B j V2).
    intros (X1 & X2 & [Hi Hj] & X4). exists i. split; [exact Hi|]. destruct Hj as [Hj|[SF ->]]; [right; exists j; auto 10|left; rewrite SF; auto 10].
  - rewrite flat_nil. cbn [app]. apply flat_nil.
Qed.

Lemma convert_outcome r ctx en s : rule_good ts tm r -> inv s -> outcome ctx en (C_rule r) (T_rule r) (U_rule r) [] s (convert_and_expand_rule ts tm dd r ctx en s).
Proof.
  intros RG I. pose proof RG as (G1 & G2 & SP & _). unfold convert_and_expand_rule.
  destruct (conv_ok (ar_st r) (always_of r) G1) as (E1 & _). destruct (conv_ok (ar_tt r) (always_of r) G2) as (E2 & _). fold (always_of r). rewrite E1, E2. cbn [xset].
  assert (NO : ar_spec r = 128 \/ ar_spec r = 2048 -> trans ctx en (C_rule r) (T_rule r) (U_rule r) [] s s).
  { intros NV. apply (trans_ext _ _ _ _ _ _ _ _ _ _ _ _ (trans_refl ctx en s I)); auto.
    - intros p sp i j c _. unfold noC, C_rule, av_spec. split; [intros []|]. intros (X & _). cbn [In] in X. lia.
    - intros sp i j c d _ [].
    - intros sp i j c d _ (X & _). unfold te_spec in X. cbn [In] in X. lia. }
  destruct (N.eq_dec (ar_spec r) 128) as [E|N1]; [rewrite E; apply NO; auto|]. destruct (N.eq_dec (ar_spec r) 2048) as [E|N2]; [rewrite E; apply NO; auto|].
  assert (B : negb (N.land (ar_spec r) 128 =? 0) = false /\ negb (N.land (ar_spec r) 2048 =? 0) = false).
  { cbn [In] in SP. repeat (destruct SP as [SP|SP]; [first [rewrite <- SP; split; reflexivity|congruence]|]). destruct SP. }
  destruct B as [B1 B2]. rewrite B1, B2. apply helper_outcome; assumption.
Qed.

(** The copy of a neverallow rule. *)
Definition na_copy (r : avrule) : narule :=
  mkNA (ar_spec r) (ar_flags r) (conv (ar_st r) true) (conv (ar_tt r) true) (ar_perms r) (match ar_x r with Some x => x | None => mkX 0 0 [] end).
Definition na_of (r : avrule) : list narule := if (ar_spec r =? 128) || (ar_spec r =? 2048) then [na_copy r] else [].

Lemma uncond_outcome r s : rule_good ts tm r -> inv s -> outcome None false (C_rule r) (T_rule r) (U_rule r) (na_of r) s (expand_unconditional ts tm dd r s).
Proof.
  intros RG I. pose proof RG as (G1 & G2 & SP & _ & _ & NG). unfold expand_unconditional, na_of.
  destruct ((ar_spec r =? 128) || (ar_spec r =? 2048)) eqn:NV.
  - assert (E0 : negb (N.land (ar_spec r) (N.lor 128 2048) =? 0) = true). { apply orb_prop in NV as [NV|NV]; apply N.eqb_eq in NV; rewrite NV; reflexivity. }
    rewrite E0. unfold copy_neverallow. destruct (conv_ok (ar_st r) true G1) as (E1 & _). destruct (conv_ok (ar_tt r) true G2) as (E2 & _). rewrite E1, E2.
    assert (E3 : existsb (fun cd => fst cd =? 0) (ar_perms r) = false).
    { apply existsb_false. intros [c d] Hcd. cbn [fst]. apply N.eqb_neq. apply (NG ltac:(cbn [In]; lia) c d Hcd). }
    rewrite E3. cbn [outcome].
    assert (FF : forall sc s', dest sc (mkXS (xs_te s) (xs_cte s) s') = dest sc s) by (intros [sc|] s'; reflexivity).
    constructor.
    + exact I.
    + split; [reflexivity|]. split; [reflexivity|]. intros n Hn. right. exists n. auto.
    + reflexivity.
    + intros st _ H. exact H.
    + intros H. exact H.
    + intros p sp i j c scope _ _. unfold fact. rewrite FF. split; [auto|]. intros [X|(_ & X & _)]; [exact X|]. unfold av_spec in X. cbn [In] in X. lia.
    + intros sp i j c sc d _ H. left. unfold tfact in *. rewrite FF in H. exact H.
    + intros _ sp i j c sc d _ H. unfold tfact in *. rewrite FF. exact H.
    + intros _ UU sp i j c sc1 d1 sc2 d2 TS H1 H2. unfold tfact in H1, H2. rewrite FF in H1, H2. exact (UU sp i j c sc1 d1 sc2 d2 TS H1 H2).
    + intros _ sp i j c d _ (X & _). unfold te_spec in X. cbn [In] in X. lia.
  - assert (E0 : negb (N.land (ar_spec r) (N.lor 128 2048) =? 0) = false).
    { cbn [In] in SP. repeat (destruct SP as [SP|SP]; [first [rewrite <- SP; reflexivity|rewrite <- SP in NV; discriminate]|]). destruct SP. }
    rewrite E0. apply convert_outcome; assumption.
Qed.

(** ** The whole source *)
Context (st : N -> bool).
Definition en_of (ctx : option (N * bool)) : bool := match ctx with None => false | Some (c, b) => if b then st c else negb (st c) end.
Definition group := (option (N * bool) * list avrule)%type.
Definition groups (blocks : list xdecl) : list group :=
  flat_map (fun d => (None, xd_rules d) :: flat_map (fun c => if xc_tunable c then [] else [(Some (xc_id c, true), xc_true c); (Some (xc_id c, false), xc_false c)]) (rev (xd_conds d))) blocks.
Definition gstep (g : group) : xstate -> xres :=
  match fst g with
  | None => xloop (expand_unconditional ts tm dd) (snd g)
  | Some _ => xloop (fun r => convert_and_expand_rule ts tm dd r (fst g) (en_of (fst g))) (snd g)
  end.

Lemma xbind_ok r : xbind r XOk = r.
Proof. destruct r; reflexivity. Qed.
Lemma blocks_groups blocks : expand_blocks ts tm dd st blocks = xloop gstep (groups blocks) (mkXS [] [] []).
Proof.
  unfold expand_blocks, groups. rewrite xloop_flat. apply xloop_ext. intros d s. cbn [xloop]. unfold gstep at 1. cbn [fst snd].
  destruct (xloop (expand_unconditional ts tm dd) (xd_rules d) s) as [s1| | | |]; cbn [xbind]; try reflexivity.
  unfold cond_node_copy. rewrite xloop_flat. apply xloop_ext. intros c s2. destruct (xc_tunable c); [reflexivity|]. cbn [xloop]. unfold gstep. cbn [fst snd en_of]. unfold cond_avrule_list_copy.
  destruct (xloop (fun r => convert_and_expand_rule ts tm dd r (Some (xc_id c, true)) (st (xc_id c))) (xc_true c) s2) as [s3| | | |]; cbn [xbind]; try reflexivity. symmetry. apply xbind_ok.
Qed.
Lemma groups_in blocks scope r : (exists rs, In (scope, rs) (groups blocks) /\ In r rs) <-> rule_in blocks scope r.
Proof.
  unfold groups, rule_in. split.
  - intros (rs & H & Hr). apply in_flat_map in H as (d & Hd & [H|H]).
    + injection H as <- <-. exists d. auto.
    + apply in_flat_map in H as (k & Hk & H). apply in_rev in Hk. destruct (xc_tunable k) eqn:TU; [destruct H|].
      destruct H as [H|[H|[]]]; injection H as <- <-; exists d, k; auto 10.
  - destruct scope as [[c b]|].
    + intros (d & k & Hd & Hk & TU & <- & Hr). exists (if b then xc_true k else xc_false k). split; [|exact Hr]. apply in_flat_map. exists d. split; [exact Hd|]. right.
      apply in_flat_map. exists k. split; [apply in_rev; rewrite rev_involutive; exact Hk|]. rewrite TU. destruct b; [left|right; left]; reflexivity.
    + intros (d & Hd & Hr). exists (xd_rules d). split; [|exact Hr]. apply in_flat_map. exists d. split; [exact Hd|left; reflexivity].
Qed.

Definition conds_of (gs : list group) : list (N * bool) := flat_map (fun g => match fst g with None => [] | Some c => [c] end) gs.
Definition C_all (gs : list group) (scope : option (N * bool)) : cset := fun p sp i j c => exists rs r, In (scope, rs) gs /\ In r rs /\ C_rule r p sp i j c.
Definition T_all (gs : list group) (scope : option (N * bool)) : tset := fun sp i j c d => exists rs r, In (scope, rs) gs /\ In r rs /\ T_rule r sp i j c d.
Definition U_all (gs : list group) (scope : option (N * bool)) : tset := fun sp i j c d => exists rs r, In (scope, rs) gs /\ In r rs /\ U_rule r sp i j c d.
Definition nas (gs : list group) : list narule := flat_map (fun g => match fst g with None => flat_map na_of (snd g) | Some _ => [] end) gs.

Record reached (gs : list group) (s : xstate) : Prop := {
  re_inv : inv s;
  re_na : xs_na s = rev (nas gs);
  re_en : enabled_ok en_of s;
  re_scopes : forall n, In n (xs_cte s) -> exists c, xn_ctx n = Some c /\ In c (conds_of gs);
  re_fact : forall p sp i j c scope, pay_kind p sp -> (In sp [256; 512; 1024] -> scope = None \/ NoDup (conds_of gs)) -> (fact p sp i j c scope s <-> C_all gs scope p sp i j c);
  re_sound : forall sp i j c sc d, te_spec sp -> tfact sp i j c sc d s -> T_all gs sc sp i j c d;
  re_uniq : NoDup (conds_of gs) -> unique_types s;
  re_comp : NoDup (conds_of gs) -> forall sp i j c sc d, te_spec sp -> U_all gs sc sp i j c d -> tfact sp i j c sc d s }.

Lemma group_outcome ctx rs s : (forall r, In r rs -> rule_good ts tm r) -> inv s ->
  outcome ctx (en_of ctx) (fun p sp i j c => exists r, In r rs /\ C_rule r p sp i j c) (fun sp i j c d => exists r, In r rs /\ T_rule r sp i j c d)
    (fun sp i j c d => exists r, In r rs /\ U_rule r sp i j c d) (rev (nas [(ctx, rs)])) s (gstep (ctx, rs) s).
Proof.
  intros RG I. unfold gstep, nas. cbn [fst snd flat_map]. rewrite app_nil_r. destruct ctx as [c|].
  - apply (outcome_ext _ _ _ _ _ _ _ _ _ _ _ _ (outcome_loop _ (Some c) (en_of (Some c)) _ _ _ _ rs (fun r s0 Hr I0 => convert_outcome r (Some c) (en_of (Some c)) s0 (RG r Hr) I0) s I)); auto.
    + intros. reflexivity.
    + apply flat_nil.
  - apply (outcome_ext _ _ _ _ _ _ _ _ _ _ _ _ (outcome_loop _ None (en_of None) _ _ _ _ rs (fun r s0 Hr I0 => uncond_outcome r s0 (RG r Hr) I0) s I)); auto.
    + intros. reflexivity.
    + clear. induction rs as [|r rs IH]; [reflexivity|]. cbn [rev flat_map]. rewrite flat_map_app, rev_app_distr, IH. cbn [flat_map]. rewrite app_nil_r. f_equal.
      unfold na_of. destruct (_ || _); reflexivity.
Qed.

Lemma nodup_snoc {A} (l : list A) a : NoDup (l ++ [a]) -> NoDup l /\ ~ In a l.
Proof.
  intros H. split; [apply NoDup_remove_1 in H; rewrite app_nil_r in H; exact H|]. apply NoDup_remove_2 in H. rewrite app_nil_r in H. exact H.
Qed.
Lemma in_snoc {A} (l : list A) a x : In x (l ++ [a]) <-> In x l \/ x = a.
Proof. rewrite in_app_iff. cbn [In]. intuition. Qed.

Definition source_conflict (gs : list group) : Prop :=
  exists sp i j c sc1 sc2 d1 d2, te_spec sp /\ T_all gs sc1 sp i j c d1 /\ T_all gs sc2 sp i j c d2 /\ (sc1 = None \/ sc1 <> other_ctx sc2) /\ (d1 <> d2 \/ sc1 <> sc2).

Lemma reach : forall todo done s, (forall g r, In g (done ++ todo) -> In r (snd g) -> rule_good ts tm r) -> reached done s ->
  match xloop gstep todo s with
  | XOk s' => reached (done ++ todo) s'
  | XConflict => source_conflict (done ++ todo)
  | _ => False
  end.
Proof.
  induction todo as [|[ctx rs] todo IH]; intros done s RG R.
  - cbn [xloop]. rewrite app_nil_r. exact R.
  - cbn [xloop].
    assert (RR : forall r, In r rs -> rule_good ts tm r). { intros r Hr. apply (RG (ctx, rs) r); [apply in_or_app; right; left; reflexivity|exact Hr]. }
    destruct R as [R1 R2 R3 R4 R5 R6 R7 R8].
    pose proof (group_outcome ctx rs s RR R1) as O.
    assert (AP : done ++ (ctx, rs) :: todo = (done ++ [(ctx, rs)]) ++ todo) by (rewrite <- app_assoc; reflexivity).
    assert (CO : conds_of (done ++ [(ctx, rs)]) = conds_of done ++ match ctx with None => [] | Some c => [c] end).
    { unfold conds_of. rewrite flat_map_app. cbn [flat_map fst]. rewrite app_nil_r. reflexivity. }
    assert (OLD : NoDup (conds_of (done ++ [(ctx, rs)])) -> NoDup (conds_of done) /\ scope_front ctx s).
    { rewrite CO. destruct ctx as [c|]; [|rewrite app_nil_r; intros H; split; [exact H|intros X; congruence]]. intros H. apply nodup_snoc in H as [H1 H2]. split; [exact H1|]. intros _.
      exists [], (xs_cte s). split; [reflexivity|]. split; [constructor|]. apply Forall_forall. intros n Hn E. destruct (R4 n Hn) as (c' & E' & HI). rewrite E in E'. injection E' as <-. exact (H2 HI). }
    assert (CA : forall scope p sp i j c, C_all (done ++ [(ctx, rs)]) scope p sp i j c <-> C_all done scope p sp i j c \/ (scope = ctx /\ exists r, In r rs /\ C_rule r p sp i j c)).
    { intros scope p sp i j c. unfold C_all. split.
      - intros (rs' & r & H & Hr & X). apply in_snoc in H as [H|H]; [left; exists rs', r; auto|]. injection H as -> ->. right. split; [reflexivity|]. exists r. auto.
      - intros [(rs' & r & H & Hr & X)|(-> & r & Hr & X)]; [exists rs', r; split; [apply in_snoc; left; exact H|auto]|]. exists rs, r. split; [apply in_snoc; right; reflexivity|auto]. }
    assert (TA : forall scope sp i j c d, T_all (done ++ [(ctx, rs)]) scope sp i j c d <-> T_all done scope sp i j c d \/ (scope = ctx /\ exists r, In r rs /\ T_rule r sp i j c d)).
    { intros scope sp i j c d. unfold T_all. split.
      - intros (rs' & r & H & Hr & X). apply in_snoc in H as [H|H]; [left; exists rs', r; auto|]. injection H as -> ->. right. split; [reflexivity|]. exists r. auto.
      - intros [(rs' & r & H & Hr & X)|(-> & r & Hr & X)]; [exists rs', r; split; [apply in_snoc; left; exact H|auto]|]. exists rs, r. split; [apply in_snoc; right; reflexivity|auto]. }
    assert (TM : forall gs1 gs2 sc sp i j c d, T_all gs1 sc sp i j c d -> T_all (gs1 ++ gs2) sc sp i j c d).
    { intros gs1 gs2 sc sp i j c d (rs' & r & H & X). exists rs', r. split; [apply in_or_app; left; exact H|exact X]. }
    destruct (gstep (ctx, rs) s) as [s1| | | |]; cbn [outcome xbind] in *; try contradiction.
    + rewrite AP. apply IH; [rewrite <- AP; exact RG|]. destruct O as [O1 O2 O3 O4 O5 O6 O7 O8 O9 O10]. constructor.
      * exact O1.
      * rewrite O3, R2. unfold nas. rewrite flat_map_app, rev_app_distr. reflexivity.
      * apply O4; [reflexivity|exact R3].
      * intros n Hn. rewrite CO. destruct O2 as (_ & _ & G). destruct (G n Hn) as [E|(m & Hm & E)].
        -- destruct ctx as [c|]; [exists c; split; [exact E|apply in_snoc; right; reflexivity]|]. exfalso. destruct O1 as [_ O1]. unfold tab_ok in O1. rewrite Forall_forall in O1. destruct (O1 n Hn) as [_ X]. exact (X E).
        -- destruct (R4 m Hm) as (c & Ec & HI). exists c. split; [congruence|apply in_or_app; left; exact HI].
      * intros p sp i j c scope PK HX. rewrite CA. rewrite O6; [|exact PK|].
        -- rewrite R5; [reflexivity|exact PK|]. intros X. destruct (HX X) as [E|ND]; [left; exact E|right; apply OLD; exact ND].
        -- intros X ->. destruct (HX X) as [->|ND]; [intros Y; congruence|apply OLD; exact ND].
      * intros sp i j c sc d TS H. apply TA. destruct (O7 _ _ _ _ _ _ TS H) as [H1|H1]; [left; apply R6; assumption|right; exact H1].
      * intros ND. apply O9; [apply OLD; exact ND|]. apply R7. apply OLD. exact ND.
      * intros ND sp i j c sc d TS (rs' & r & H & Hr & X). apply in_snoc in H as [H|H].
        -- apply O8; [apply OLD; exact ND|exact TS|]. apply R8; [apply OLD; exact ND|exact TS|]. exists rs', r. auto.
        -- injection H as -> ->. apply O10; [apply OLD; exact ND|exact TS|]. exists r. auto.
    + destruct O as (sp & i & j & c & sc & d & d0 & H1 & H2 & H3 & H4 & H5). rewrite AP. exists sp, i, j, c, sc, ctx, d0, d. split; [exact H1|].
      split; [|split; [|split; [exact H3|exact H4]]]; apply TM; apply TA; [|right; auto]. destruct H5 as [H5|[-> H5]]; [left; apply R6; assumption|right; auto].
Qed.

Lemma reached_start : reached [] (mkXS [] [] []).
Proof.
  assert (NF : forall scope n, ~ In n (dest scope (mkXS [] [] []))) by (intros [sc|] n []).
  constructor; cbn [xs_te xs_cte xs_na].
  - split; constructor.
  - reflexivity.
  - intros n [[]|[]].
  - intros n [].
  - intros p sp i j c scope _ _. split; [intros (n & Hn & _); destruct (NF _ _ Hn)|intros (rs & r & [] & _)].
  - intros sp i j c sc d _ (n & Hn & _). destruct (NF _ _ Hn).
  - intros _ sp i j c sc1 d1 sc2 d2 _ (n & Hn & _). destruct (NF _ _ Hn).
  - intros _ sp i j c sc d _ (rs & r & [] & _).
Qed.

Lemma once_nodup blocks : conds_once blocks -> NoDup (conds_of (groups blocks)).
Proof.
  unfold conds_once. intros H.
  set (ids := map xc_id (filter (fun c => negb (xc_tunable c)) (flat_map (fun d => rev (xd_conds d)) blocks))).
  assert (PM : Permutation (map xc_id (filter (fun c => negb (xc_tunable c)) (flat_map xd_conds blocks))) ids).
  { unfold ids. apply Permutation_map. clear. induction blocks as [|d l IH]; [reflexivity|]. cbn [flat_map]. rewrite !filter_app. apply Permutation_app; [|exact IH].
    generalize (xd_conds d) as x. intros x. induction x as [|a x IHx]; [reflexivity|]. cbn [rev filter]. rewrite filter_app. cbn [filter]. destruct (negb (xc_tunable a)); [|rewrite app_nil_r; exact IHx].
    etransitivity; [apply perm_skip; exact IHx|]. apply Permutation_cons_append. }
  apply (Permutation_NoDup PM) in H.
  assert (E : conds_of (groups blocks) = flat_map (fun c => [(c, true); (c, false)]) ids).
  { unfold ids, groups, conds_of. clear. induction blocks as [|d l IH]; [reflexivity|]. cbn [flat_map]. rewrite flat_map_app, IH, filter_app, map_app, flat_map_app. f_equal.
    cbn [flat_map fst app]. induction (rev (xd_conds d)) as [|k x IHx]; [reflexivity|]. cbn [flat_map filter]. destruct (xc_tunable k); cbn [negb flat_map map app fst]; [exact IHx|]. rewrite IHx. reflexivity. }
  rewrite E. clear E PM. induction H as [|a l Ha H IH]; [constructor|]. cbn [flat_map app].
  assert (NI : forall b, ~ In (a, b) (flat_map (fun c => [(c, true); (c, false)]) l)).
  { intros b X. apply in_flat_map in X as (c & Hc & [X|[X|[]]]); injection X as <- _; exact (Ha Hc). }
  constructor; [intros [X|X]; [discriminate|exact (NI _ X)]|]. constructor; [apply NI|exact IH].
Qed.
End Rules.

Section Final.
Context (ts : list (option tinfo)) (tm : list N) (dd : bool) (st : N -> bool) (blocks : list xdecl) (SG : source_good ts tm blocks).

Lemma final : match expand_blocks ts tm dd st blocks with
  | XOk s => reached ts tm dd st (groups blocks) s
  | XConflict => source_conflict ts tm (groups blocks)
  | _ => False
  end.
Proof.
  destruct SG as [AO RG]. rewrite blocks_groups. apply (reach ts tm dd AO st (groups blocks) []); [|apply reached_start].
  cbn [app]. intros [ctx rs] r Hg Hr. apply (RG ctx). apply groups_in. exists rs. auto.
Qed.

Lemma holds_fact S scope sp s t c p : holds ts S scope sp s t c (pay_of p) <-> exists i j, fact p sp i j c scope S /\ stands_for ts i s /\ stands_for ts j t.
Proof.
  unfold holds, fact, node_in, node_pair, at_key, of_key. cbn [k_src k_tgt k_cls k_spec]. split.
  - intros (n & [Hn Hc] & K & C & (i & j & E1 & E2 & S1 & S2) & P). exists i, j. split; [exists n; auto 10|auto].
  - intros (i & j & (n & Hn & [(E1 & E2 & E3 & E4) Hc] & P) & S1 & S2). exists n. split; [auto|]. split; [exact E4|]. split; [exact E3|]. split; [exists i, j; auto|exact P].
Qed.
Lemma holds_tfact S scope sp s t c d : holds ts S scope sp s t c (fun x => d_data x = d) <-> exists i j, tfact sp i j c scope d S /\ stands_for ts i s /\ stands_for ts j t.
Proof.
  unfold holds, tfact, node_in, node_pair, at_key, of_key. cbn [k_src k_tgt k_cls k_spec]. split.
  - intros (n & [Hn Hc] & K & C & (i & j & E1 & E2 & S1 & S2) & P). exists i, j. split; [exists n; auto 10|auto].
  - intros (i & j & (n & Hn & [(E1 & E2 & E3 & E4) Hc] & P) & S1 & S2). exists n. split; [auto|]. split; [exact E4|]. split; [exact E3|]. split; [exists i, j; auto|exact P].
Qed.
(** Contributions of the source, in terms of types. *)
Lemma C_says scope p sp s t c : (exists i j, C_all ts tm dd (groups blocks) scope p sp i j c /\ stands_for ts i s /\ stands_for ts j t) <->
  exists r d, rule_in blocks scope r /\ av_spec (ar_spec r) /\ skipped_audit dd (ar_spec r) = false /\ sp = avrule_to_avtab_spec (ar_spec r) /\ In (c, d) (ar_perms r) /\ gives p sp (ar_spec r) d (ar_x r) /\ rule_pair ts tm r s t.
Proof.
  destruct SG as [AO RG]. split.
  - intros (i & j & (rs & r & Hg & Hr & A & B & C & D & d & Hd & G) & S1 & S2). exists r, d. assert (RI : rule_in blocks scope r) by (apply groups_in; exists rs; auto).
    split; [exact RI|]. split; [exact A|]. split; [exact B|]. split; [exact C|]. split; [exact Hd|]. split; [exact G|]. destruct (RG scope r RI) as (G1 & G2 & _). apply pairs_mean; try assumption. exists i, j. auto.
  - intros (r & d & RI & A & B & C & Hd & G & RP). destruct (RG scope r RI) as (G1 & G2 & _). apply pairs_mean in RP as (i & j & D & S1 & S2); try assumption.
    exists i, j. split; [|auto]. apply groups_in in RI as (rs & Hg & Hr). exists rs, r. split; [exact Hg|]. split; [exact Hr|]. split; [exact A|]. split; [exact B|]. split; [exact C|]. split; [exact D|]. exists d. auto.
Qed.
Lemma T_says scope sp s t c d : (exists i j, T_all ts tm (groups blocks) scope sp i j c d /\ stands_for ts i s /\ stands_for ts j t) <->
  te_spec sp /\ says ts tm blocks scope sp s t c (fun d0 => target tm d0 d).
Proof.
  destruct SG as [AO RG]. split.
  - intros (i & j & (rs & r & Hg & Hr & A & -> & D & d0 & Hd & G) & S1 & S2). split; [exact A|]. assert (RI : rule_in blocks scope r) by (apply groups_in; exists rs; auto).
    exists r, d0. split; [exact RI|]. split; [reflexivity|]. split; [exact Hd|]. split; [exact G|]. destruct (RG scope r RI) as (G1 & G2 & _). apply pairs_mean; try assumption. exists i, j. auto.
  - intros (TS & r & d0 & RI & <- & Hd & G & RP). destruct (RG scope r RI) as (G1 & G2 & _). apply pairs_mean in RP as (i & j & D & S1 & S2); try assumption.
    exists i, j. split; [|auto]. apply groups_in in RI as (rs & Hg & Hr). exists rs, r. split; [exact Hg|]. split; [exact Hr|]. split; [exact TS|]. split; [reflexivity|]. split; [exact D|]. exists d0. auto.
Qed.
Lemma T_types scope sp i j c d : T_all ts tm (groups blocks) scope sp i j c d -> ~ attribute ts i /\ ~ attribute ts j.
Proof.
  destruct SG as [AO RG]. intros (rs & r & Hg & Hr & A & -> & D & _). assert (RI : rule_in blocks scope r) by (apply groups_in; exists rs; auto).
  destruct (RG scope r RI) as (G1 & G2 & _). exact (pairs_types ts tm AO r i j G1 G2 A D).
Qed.
Lemma stands_self i s : ~ attribute ts i -> stands_for ts i s -> i = s.
Proof. intros NA [[E _]|(ti & E1 & E2 & _)]; [exact E|]. destruct NA. exists ti. auto. Qed.
End Final.
