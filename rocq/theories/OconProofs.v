(** Proofs about the labels of objects. *)
From Verif Require Import Base EbitmapModel MlsModel ContextModel ContextProofs AvtabModel SidtabModel SidtabSpec SidtabProofs OconModel OconSpec.
From Coq Require Import Permutation Sorted.

(** ** SIDs for contexts *)
Definition sidfor (tab : sidtab) (c : context) (sid : N) : Prop :=
  exists t, st_table tab = Some t /\ search_context t c = sid /\ 1 <= sid.

Definition ext (tab tab' : sidtab) : Prop :=
  inv tab' /\ (forall c sid, sidfor tab c sid -> sidfor tab' c sid) /\ st_shut tab' = st_shut tab /\ st_next tab <= st_next tab'.

Lemma ext_refl tab : inv tab -> ext tab tab.
Proof. intros I. repeat split; auto; try lia. Qed.
Lemma ext_trans a b c : ext a b -> ext b c -> ext a c.
Proof. intros (I1 & S1 & H1 & N1) (I2 & S2 & H2 & N2). split; [exact I2|]. split; [auto|]. split; [congruence|lia]. Qed.

Lemma sidfor_spec tab c sid : inv tab -> sidfor tab c sid -> sid_for tab c sid.
Proof.
  intros (t & E & Sh & HS & L1 & L2) (t0 & E0 & Es & G). rewrite E in E0. injection E0 as <-.
  destruct (search_context_spec t c) as [(Z & _)|(_ & Hi)]; [intros x d Hd; apply (HS x d Hd)|lia|]. rewrite Es in Hi. split.
  - rewrite (search_look tab t sid E). apply (look_spec t sid c Sh) in Hi. rewrite Hi. reflexivity.
  - intros mem. unfold context_to_sid. rewrite E, Es. destruct (N.eqb_spec sid 0); [lia|]. reflexivity.
Qed.

Lemma to_sid tab c mem : inv tab -> exists tab' r sid, context_to_sid tab c mem = ROk (tab', (r, sid)) /\ ext tab tab' /\
  match r with TOk => sidfor tab' c sid | _ => no_room tab mem true end.
Proof.
  intros I. destruct (step_inv tab (TToSid c mem) I Coq.Init.Logic.I) as (s' & r & sid & E & I' & Hs & Hn & K). cbn [tstep] in E.
  exists s', r, sid. split; [exact E|]. pose proof I as (t & Et & Sh & HS & L1 & L2). pose proof I' as (t' & Et' & _).
  destruct (K t t' Et Et') as (_ & _ & K3 & K4 & K5). split.
  - split; [exact I'|]. split; [|split; [exact Hs|exact Hn]]. intros d x (t0 & E0 & Ex & G). rewrite Et in E0. injection E0 as <-.
    exists t'. split; [exact Et'|]. split; [|exact G]. rewrite (K5 d); [exact Ex|lia|discriminate].
  - destruct (to_sid_cases tab t c mem Et Sh HS L1 L2) as (s2 & r2 & sid2 & E2 & T). rewrite E in E2. injection E2 as <- <- <-.
    destruct r; [|destruct T|].
    + exists t'. split; [exact Et'|]. split; [exact (K4 c mem eq_refl eq_refl)|]. apply K3. reflexivity.
    + destruct T as (_ & _ & [Q|[Q|Q]] & _); unfold no_room; auto.
Qed.

(** ** Entries *)
Definition cached (tab : sidtab) (c : context) (sid : N) : Prop := sid = 0 \/ sidfor tab c sid.
Definition rel {K} (tab : sidtab) (x c : ocon K) : Prop :=
  oc_key c = oc_key x /\ oc_v c = oc_v x /\ oc_c0 c = oc_c0 x /\ oc_c1 c = oc_c1 x /\
  cached tab (oc_c0 x) (oc_s0 c) /\ cached tab (oc_c1 x) (oc_s1 c).

Lemma cached_ext tab tab' c sid : ext tab tab' -> cached tab c sid -> cached tab' c sid.
Proof. intros (_ & H & _) [->|Q]; [left; reflexivity|right; auto]. Qed.
Lemma rel_ext {K} tab tab' (x c : ocon K) : ext tab tab' -> rel tab x c -> rel tab' x c.
Proof. intros E (A & B & C & D & F & G). repeat (split; [assumption|]). split; eapply cached_ext; eauto. Qed.
Lemma rels_ext {K} tab tab' (l l' : list (ocon K)) : ext tab tab' -> Forall2 (rel tab) l l' -> Forall2 (rel tab') l l'.
Proof. intros E F. induction F; constructor; [eapply rel_ext; eauto|assumption]. Qed.

Lemma entry_sid_spec {K} tab (x c : ocon K) mem : inv tab -> rel tab x c ->
  exists c' tab' a, entry_sid c tab mem = ROk (c', tab', a) /\ ext tab tab' /\ rel tab' x c' /\
    match a with Some sid => sidfor tab' (oc_c0 x) sid | None => no_room tab mem true end.
Proof.
  intros I (Rk & Rv & R0 & R1 & C0 & C1). unfold entry_sid, fill0. destruct (N.eqb_spec (oc_s0 c) 0) as [Z|Z].
  - destruct (to_sid tab (oc_c0 c) mem I) as (tab' & r & sid & -> & E & P). rewrite R0 in *.
    destruct r; (eexists; exists tab'; eexists; split; [reflexivity|]; split; [exact E|]; split; [|exact P]);
      (repeat (split; [cbn; first [assumption|reflexivity]|])); cbn [oc_s0 oc_s1]; (split; [|eapply cached_ext; eauto]).
    + right. exact P.
    + left. reflexivity.
    + left. reflexivity.
  - exists c, tab, (Some (oc_s0 c)). split; [reflexivity|]. split; [apply ext_refl, I|]. split; [unfold rel; auto 8|].
    destruct C0 as [Q|Q]; [contradiction|exact Q].
Qed.

Lemma entry_sids_spec {K} tab (x c : ocon K) m0 m1 : inv tab -> rel tab x c ->
  exists c' tab' a, entry_sids c tab m0 m1 = ROk (c', tab', a) /\ ext tab tab' /\ rel tab' x c' /\
    match a with Some (s0, s1) => sidfor tab' (oc_c0 x) s0 /\ sidfor tab' (oc_c1 x) s1 | None => no_room tab' m0 m1 end.
Proof.
  intros I (Rk & Rv & R0 & R1 & C0 & C1). unfold entry_sids. destruct ((oc_s0 c =? 0) || (oc_s1 c =? 0)) eqn:Z.
  - unfold fill0. destruct (to_sid tab (oc_c0 c) m0 I) as (tab1 & r & sid & -> & E & P). rewrite R0 in *.
    assert (NR : r <> TOk -> no_room tab1 m0 m1).
    { destruct E as (I1 & _ & Hs & Hn). pose proof I1 as (t1 & _ & _ & _ & _ & L2). intros Q. destruct r; [congruence|..];
      (destruct P as [P|[P|[P|P]]]; unfold no_room; [auto|discriminate|right; right; left; lia|right; right; right; congruence]). }
    destruct r.
    + unfold fill1. cbn [oc_c1 oc_key oc_v oc_c0 oc_s0 oc_s1]. pose proof E as (I1 & SE & Hs & Hn).
      destruct (to_sid tab1 (oc_c1 c) m1 I1) as (tab2 & r2 & sid2 & -> & E2 & P2). rewrite R1 in *.
      assert (NR2 : r2 <> TOk -> no_room tab2 m0 m1).
      { destruct E2 as (I2 & _ & Hs2 & Hn2). pose proof I2 as (t2 & _ & _ & _ & _ & L2). intros Q. destruct r2; [congruence|..];
        (destruct P2 as [P2|[P2|[P2|P2]]]; unfold no_room; [auto|discriminate|right; right; left; lia|right; right; right; congruence]). }
      destruct r2; (eexists; exists tab2; eexists; split; [reflexivity|]; split; [eapply ext_trans; eauto|]);
        (split; [repeat (split; [cbn; first [assumption|reflexivity]|]); cbn [oc_s0 oc_s1]; split|]).
      * right. apply E2. exact P.
      * right. exact P2.
      * cbn [oc_s0 oc_s1]. split; [apply E2; exact P|exact P2].
      * right. apply E2. exact P.
      * left. reflexivity.
      * apply NR2. discriminate.
      * right. apply E2. exact P.
      * left. reflexivity.
      * apply NR2. discriminate.
    + eexists. exists tab1. eexists. split; [reflexivity|]. split; [exact E|]. split; [|apply NR; discriminate].
      repeat (split; [cbn; first [assumption|reflexivity]|]). cbn [oc_s0 oc_s1]. split; [left; reflexivity|eapply cached_ext; eauto].
    + eexists. exists tab1. eexists. split; [reflexivity|]. split; [exact E|]. split; [|apply NR; discriminate].
      repeat (split; [cbn; first [assumption|reflexivity]|]). cbn [oc_s0 oc_s1]. split; [left; reflexivity|eapply cached_ext; eauto].
  - apply orb_false_iff in Z as [Z0 Z1]. apply N.eqb_neq in Z0, Z1.
    exists c, tab, (Some (oc_s0 c, oc_s1 c)). split; [reflexivity|]. split; [apply ext_refl, I|].
    split; [unfold rel; auto 8|].
    destruct C0 as [Q|Q]; [contradiction|]. destruct C1 as [Q'|Q']; [contradiction|]. split; assumption.
Qed.

Lemma at_first_spec {K A} (m : ocon K -> bool) (f : ocon K -> res (ocon K * sidtab * A)) (Q : ocon K -> sidtab -> A -> Prop) tab :
  (forall x c, rel tab x c -> m c = m x) ->
  (forall x c, rel tab x c -> exists c' tab' a, f c = ROk (c', tab', a) /\ ext tab tab' /\ rel tab' x c' /\ Q x tab' a) ->
  forall l0 l, Forall2 (rel tab) l0 l ->
  match find m l0 with
  | None => at_first m f l = None
  | Some x => exists l' tab' a, at_first m f l = Some (ROk (l', tab', a)) /\ ext tab tab' /\ Forall2 (rel tab') l0 l' /\ Q x tab' a
  end.
Proof.
  intros Hm Hf l0 l F. induction F as [|x c l0 l R F IH]; [reflexivity|]. cbn [find at_first]. rewrite (Hm x c R).
  destruct (m x) eqn:Em.
  - destruct (Hf x c R) as (c' & tab' & a & -> & E & R' & HQ). exists (c' :: l), tab', a. split; [reflexivity|]. split; [exact E|].
    split; [|exact HQ]. constructor; [exact R'|]. eapply rels_ext; eauto.
  - destruct (find m l0) as [y|].
    + destruct IH as (l' & tab' & a & -> & E & F' & HQ). exists (c :: l'), tab', a. split; [reflexivity|]. split; [exact E|].
      split; [|exact HQ]. constructor; [eapply rel_ext; eauto|exact F'].
    + rewrite IH. reflexivity.
Qed.

Lemma find_split {A} (m : A -> bool) l : match find m l with
  | Some x => exists pre post, l = pre ++ x :: post /\ m x = true /\ forall y, In y pre -> m y = false
  | None => forall y, In y l -> m y = false end.
Proof.
  induction l as [|x l IH]; cbn [find]; [intros y []|]. destruct (m x) eqn:E.
  - exists [], l. split; [reflexivity|]. split; [exact E|]. intros y [].
  - destruct (find m l) as [z|].
    + destruct IH as (pre & post & -> & H1 & H2). exists (x :: pre), post. split; [reflexivity|]. split; [exact H1|].
      intros y [<-|Hy]; auto.
    + intros y [<-|Hy]; auto.
Qed.

Lemma map_split {A B} (f : A -> B) l : forall pre x post, map f l = pre ++ x :: post ->
  exists pre' x' post', l = pre' ++ x' :: post' /\ pre = map f pre' /\ x = f x' /\ post = map f post'.
Proof.
  induction l as [|a l IH]; intros pre x post H; [destruct pre; discriminate|].
  destruct pre as [|b pre]; cbn in H.
  - injection H as <- <-. exists [], a, l. auto.
  - injection H as <- H. apply IH in H as (pre' & x' & post' & -> & -> & -> & ->). exists (a :: pre'), x', post'. auto.
Qed.

(** The first entry of a mapped list. *)
Lemma find_hit {K D} (mk : K * D -> ocon K) (m : ocon K -> bool) (hit : K -> Prop) (l : list (K * D)) :
  (forall e, m (mk e) = true <-> hit (fst e)) ->
  match find m (map mk l) with
  | Some x => exists k d, x = mk (k, d) /\ first_hit hit l d
  | None => no_hit hit l
  end.
Proof.
  intros H. pose proof (find_split m (map mk l)) as F. destruct (find m (map mk l)) as [x|].
  - destruct F as (pre & post & E & Hx & Hp). apply map_split in E as (pre' & [k d] & post' & -> & -> & -> & ->).
    exists k, d. split; [reflexivity|]. exists pre', k, post'. split; [reflexivity|]. split; [apply (H (k, d)); exact Hx|].
    intros k' d' Hi Hh. apply (H (k', d')) in Hh. rewrite Hp in Hh; [discriminate|]. apply in_map. exact Hi.
  - intros k d Hi Hh. apply (H (k, d)) in Hh. rewrite F in Hh; [discriminate|]. apply in_map. exact Hi.
Qed.

Lemma no_room_ext tab tab' m0 m1 : ext tab tab' -> no_room tab m0 m1 -> no_room tab' m0 m1.
Proof.
  intros (I & _ & Hs & Hn) [H|[H|[H|H]]]; unfold no_room; auto.
  - destruct I as (t & _ & _ & _ & _ & L). right. right. left. lia.
  - right. right. right. congruence.
Qed.
Lemma no_room_any tab m0 m1 : no_room tab m0 true -> no_room tab m0 m1.
Proof. intros [H|[H|H]]; unfold no_room; [auto|discriminate|auto]. Qed.
Lemma sid_for_ext tab tab' c sid : ext tab tab' -> sidfor tab c sid -> sid_for tab' c sid.
Proof. intros E H. apply sidfor_spec; apply E. exact H. Qed.

(** ** One and two SIDs *)
Definition one_ans {K} (l0 : list (ocon K)) (m : ocon K -> bool) (dflt : N) (tab tab' : sidtab) mem (a : option N) : Prop :=
  match find m l0 with
  | Some x => match a with Some sid => sidfor tab' (oc_c0 x) sid | None => no_room tab' mem true end
  | None => a = Some dflt
  end.

Lemma one_sid_spec {K} (m : ocon K -> bool) dflt (l0 l : list (ocon K)) tab mem :
  (forall x c, rel tab x c -> m c = m x) -> inv tab -> Forall2 (rel tab) l0 l ->
  exists l' tab' a, one_sid m dflt l tab mem = ROk (l', tab', a) /\ ext tab tab' /\ Forall2 (rel tab') l0 l' /\
    one_ans l0 m dflt tab tab' mem a.
Proof.
  intros Hm I F. unfold one_sid, one_ans.
  pose proof (at_first_spec m (fun c => entry_sid c tab mem)
    (fun x tab' a => match a with Some sid => sidfor tab' (oc_c0 x) sid | None => no_room tab' mem true end) tab Hm) as H.
  specialize (H (fun x c R => ltac:(
    destruct (entry_sid_spec tab x c mem I R) as (c' & tab' & a & E1 & E2 & E3 & E4);
    exists c', tab', a; split; [exact E1|]; split; [exact E2|]; split; [exact E3|];
    destruct a; [exact E4|exact (no_room_ext _ _ _ _ E2 E4)])) l0 l F).
  destruct (find m l0) as [x|].
  - destruct H as (l' & tab' & a & -> & E & F' & Q). exists l', tab', a. auto.
  - rewrite H. exists l, tab, (Some dflt). split; [reflexivity|]. split; [apply ext_refl, I|]. auto.
Qed.

Lemma two_sids_spec {K} (m : ocon K -> bool) d0 d1 (l0 l : list (ocon K)) tab m0 m1 :
  (forall x c, rel tab x c -> m c = m x) -> inv tab -> Forall2 (rel tab) l0 l ->
  exists l' tab' a, two_sids m d0 d1 l tab m0 m1 = ROk (l', tab', a) /\ ext tab tab' /\ Forall2 (rel tab') l0 l' /\
    match find m l0 with
    | Some x => match a with Some (s0, s1) => sidfor tab' (oc_c0 x) s0 /\ sidfor tab' (oc_c1 x) s1 | None => no_room tab' m0 m1 end
    | None => a = Some (d0, d1)
    end.
Proof.
  intros Hm I F. unfold two_sids.
  pose proof (at_first_spec m (fun c => entry_sids c tab m0 m1)
    (fun x tab' a => match a with Some (s0, s1) => sidfor tab' (oc_c0 x) s0 /\ sidfor tab' (oc_c1 x) s1 | None => no_room tab' m0 m1 end) tab Hm
    (fun x c R => entry_sids_spec tab x c m0 m1 I R) l0 l F) as H.
  destruct (find m l0) as [x|].
  - destruct H as (l' & tab' & a & -> & E & F' & Q). exists l', tab', a. auto.
  - rewrite H. exists l, tab, (Some (d0, d1)). split; [reflexivity|]. split; [apply ext_refl, I|]. auto.
Qed.

(** Later tables keep right answers right. *)
Lemma one_right_of {K} (hit : K -> Prop) (m : ocon K -> bool) (l : list (K * context)) dflt tab tab' tabf m0 m1 a :
  (forall e, m (mkOC (fst e) 0 (snd e) (snd e) 0 0) = true <-> hit (fst e)) ->
  one_ans (map (fun e => mkOC (fst e) 0 (snd e) (snd e) 0 0) l) m dflt tab tab' m0 a -> ext tab' tabf ->
  one_right hit l dflt tabf m0 m1 (aone a).
Proof.
  intros H A E. unfold one_ans in A. pose proof (find_hit _ m hit l H) as F.
  destruct (find m _) as [x|].
  - destruct F as (k & d & -> & F). left. exists d. split; [exact F|]. cbn [oc_c0 snd] in A. destruct a as [sid|]; cbn [aone].
    + left. exists sid. split; [reflexivity|]. eapply sid_for_ext; eauto.
    + right. split; [reflexivity|]. apply no_room_any. eapply no_room_ext; eauto.
  - right. subst a. split; [exact F|reflexivity].
Qed.

Lemma two_right_of {K} (hit : K -> Prop) (m : ocon K -> bool) (l : list (K * (context * context))) d0 d1 tab' tabf m0 m1 a :
  (forall e, m (mkOC (fst e) 0 (fst (snd e)) (snd (snd e)) 0 0) = true <-> hit (fst e)) ->
  match find m (map (fun e => mkOC (fst e) 0 (fst (snd e)) (snd (snd e)) 0 0) l) with
  | Some x => match a with Some (s0, s1) => sidfor tab' (oc_c0 x) s0 /\ sidfor tab' (oc_c1 x) s1 | None => no_room tab' m0 m1 end
  | None => a = Some (d0, d1)
  end -> ext tab' tabf -> two_right hit l d0 d1 tabf m0 m1 (atwo a).
Proof.
  intros H A E. pose proof (find_hit (fun e => mkOC (fst e) 0 (fst (snd e)) (snd (snd e)) 0 0) m hit l H) as F.
  destruct (find m _) as [x|].
  - destruct F as (k & [c0 c1] & -> & F). left. exists c0, c1. split; [exact F|]. cbn [oc_c0 oc_c1 snd fst] in A. destruct a as [[s0 s1]|]; cbn [atwo].
    + left. exists s0, s1. split; [reflexivity|]. destruct A as [A1 A2]. split; eapply sid_for_ext; eauto.
    + right. split; [reflexivity|]. eapply no_room_ext; eauto.
  - right. subst a. split; [exact F|reflexivity].
Qed.

(** ** Matching *)
Lemma match_port_hit x v (e : (N * N * N) * context) : match_port x v (mkOC (fst e) 0 (snd e) (snd e) 0 0) = true <-> in_range x v (fst e).
Proof. destruct e as [[[a b] c] d]. unfold match_port, in_range. cbn [oc_key fst]. rewrite !andb_true_iff, N.eqb_eq, !N.leb_le. tauto. Qed.
Lemma match_pkey_hit x v (e : (N * N * N) * context) : match_pkey x v (mkOC (fst e) 0 (snd e) (snd e) 0 0) = true <-> in_range x v (fst e).
Proof. destruct e as [[[a b] c] d]. unfold match_pkey, in_range. cbn [oc_key fst]. rewrite !andb_true_iff, N.eqb_eq, !N.leb_le. split; intros H; decompose [and] H; auto. Qed.
Lemma match_endport_hit dev v (e : (list N * N) * context) : match_endport dev v (mkOC (fst e) 0 (snd e) (snd e) 0 0) = true <-> fst e = (dev, v).
Proof.
  destruct e as [[d p] c]. unfold match_endport. cbn [oc_key fst]. rewrite andb_true_iff, N.eqb_eq, str_eqb_eq.
  split; [intros [-> ->]; reflexivity|intros [= -> ->]; auto].
Qed.
Lemma match_node_hit a (e : (N * N) * context) : match_node a (mkOC (fst e) 0 (snd e) (snd e) 0 0) = true <-> masked a (fst e).
Proof. destruct e as [[x m] c]. unfold match_node, masked. cbn [oc_key fst snd]. apply N.eqb_eq. Qed.
Lemma match_node6_hit i (e : ((N * N * N * N) * (N * N * N * N)) * context) :
  match_node6 i (mkOC (fst e) 0 (snd e) (snd e) 0 0) = true <-> masked6 i (fst e).
Proof.
  destruct e as [[[[[a0 a1] a2] a3] [[[m0 m1] m2] m3]] c]. destruct i as [[[i0 i1] i2] i3]. unfold match_node6, masked6. cbn [oc_key fst].
  rewrite !andb_true_iff, !N.eqb_eq. tauto.
Qed.
Lemma match_name2_hit nm (e : list N * (context * context)) :
  match_name nm (mkOC (fst e) 0 (fst (snd e)) (snd (snd e)) 0 0) = true <-> fst e = nm.
Proof. unfold match_name. cbn [oc_key]. rewrite str_eqb_eq. split; congruence. Qed.
Lemma match_name_use nm (e : list N * (N * context)) :
  match_name nm (mkOC (fst e) (fst (snd e)) (snd (snd e)) (snd (snd e)) 0 0) = true <-> fst e = nm.
Proof. unfold match_name. cbn [oc_key]. rewrite str_eqb_eq. split; congruence. Qed.

Lemma prefix_spec nm : forall path, is_prefix nm path = true <-> exists rest, path = nm ++ rest.
Proof.
  induction nm as [|x nm IH]; intros path; cbn [is_prefix].
  - split; [intros _; exists path; reflexivity|reflexivity].
  - destruct path as [|y path]; [split; [discriminate|intros (r & Q); discriminate]|].
    rewrite andb_true_iff, N.eqb_eq, IH. split.
    + intros (-> & r & ->). exists r. reflexivity.
    + intros (r & [= -> ->]). split; [reflexivity|]. exists r. reflexivity.
Qed.

Definition gmk (e : list N * N * context) : ocon (list N) := mkOC (fst (fst e)) (snd (fst e)) (snd e) (snd e) 0 0.
Lemma match_genfs_applies path cls e : match_genfs path cls (gmk e) = true <-> applies path cls e.
Proof.
  destruct e as [[nm k] c]. unfold match_genfs, applies, gmk. cbn [oc_v oc_key fst snd].
  rewrite andb_true_iff, orb_true_iff, !N.eqb_eq, prefix_spec. split; intros [A B]; (split; [first [assumption|destruct B; auto]|first [assumption|destruct A; auto]]).
Qed.

(** ** Building the genfs lists *)
Lemma strcmp_eq a : forall b, strcmp a b = Eq <-> a = b.
Proof.
  induction a as [|x a IH]; intros [|y b]; cbn [strcmp]; try (split; [discriminate|discriminate]); [split; reflexivity|].
  destruct (N.compare_spec x y) as [E|E|E].
  - subst. rewrite IH. split; [intros ->; reflexivity|intros [= ->]; reflexivity].
  - split; [discriminate|intros [= -> _]; lia].
  - split; [discriminate|intros [= -> _]; lia].
Qed.
Lemma strcmp_gt a : forall b, strcmp a b = Gt <-> strcmp b a = Lt.
Proof.
  induction a as [|x a IH]; intros [|y b]; cbn [strcmp]; try (split; [discriminate|discriminate]); [split; reflexivity|].
  rewrite (N.compare_antisym x y). destruct (N.compare x y); cbn [CompOpp]; [apply IH|split; discriminate|split; reflexivity].
Qed.
Lemma strcmp_trans a : forall b c, strcmp a b = Lt -> strcmp b c = Lt -> strcmp a c = Lt.
Proof.
  induction a as [|x a IH]; intros [|y b] [|z c]; cbn [strcmp]; try discriminate; try reflexivity.
  destruct (N.compare_spec x y) as [E|E|E]; try discriminate; destruct (N.compare_spec y z) as [F|F|F]; try discriminate; intros H1 H2.
  - subst. rewrite N.compare_refl. eauto.
  - subst. apply N.compare_lt_iff in F. rewrite F. reflexivity.
  - subst. apply N.compare_lt_iff in E. rewrite E. reflexivity.
  - assert (Q : x < z) by lia. apply N.compare_lt_iff in Q. rewrite Q. reflexivity.
Qed.

Definition longer (a b : ocon (list N)) : Prop := (length (oc_key b) <= length (oc_key a))%nat.
Definition desc (l : list (ocon (list N))) : Prop := StronglySorted longer l.
Definition clashes (a b : ocon (list N)) : Prop := oc_key a = oc_key b /\ (oc_v b = 0 \/ oc_v a = 0 \/ oc_v a = oc_v b).

Lemma genfs_insert_spec new l : desc l ->
  match genfs_insert new l with
  | None => exists c, In c l /\ clashes new c
  | Some l' => desc l' /\ Permutation l' (new :: l) /\ forall c, In c l -> ~ clashes new c
  end.
Proof.
  induction l as [|c r IH]; intros D; cbn [genfs_insert].
  - split; [repeat constructor|]. split; [apply Permutation_refl|]. intros c [].
  - inversion D as [|? ? D1 D2]; subst.
    destruct (str_eqb (oc_key new) (oc_key c) && ((oc_v c =? 0) || (oc_v new =? 0) || (oc_v new =? oc_v c))) eqn:Q.
    + exists c. split; [left; reflexivity|]. apply andb_prop in Q as [Q1 Q2]. apply str_eqb_eq in Q1.
      rewrite !orb_true_iff, !N.eqb_eq in Q2. split; [exact Q1|tauto].
    + assert (NC : ~ clashes new c).
      { intros [Q1 Q2]. apply str_eqb_eq in Q1. rewrite Q1 in Q. cbn [andb] in Q. rewrite !orb_false_iff, !N.eqb_neq in Q. tauto. }
      destruct (Nat.ltb_spec (length (oc_key c)) (length (oc_key new))) as [L|L].
      * split; [|split; [apply Permutation_refl|]].
        -- constructor; [exact D|]. constructor; [unfold longer; lia|]. rewrite Forall_forall in *. intros y Hy. specialize (D2 y Hy). unfold longer in *. lia.
        -- intros y [<-|Hy]; [exact NC|]. intros [Q1 _]. rewrite Forall_forall in D2. specialize (D2 y Hy). unfold longer in D2. rewrite Q1 in L. lia.
      * specialize (IH D1). destruct (genfs_insert new r) as [r'|]; cbn [option_map].
        -- destruct IH as (D' & P & H). split; [|split].
           ++ constructor; [exact D'|]. rewrite Forall_forall in *. intros y Hy. apply (Permutation_in _ P) in Hy as [<-|Hy]; [exact L|auto].
           ++ rewrite P. apply perm_swap.
           ++ intros y [<-|Hy]; [exact NC|auto].
        -- destruct IH as (y & Hy & Q'). exists y. split; [right; exact Hy|exact Q'].
Qed.

Lemma clashes_mk e e' : clashes (gmk e) (gmk e') <-> clash e e'.
Proof. unfold clashes, clash, gmk. cbn [oc_key oc_v]. tauto. Qed.

Lemma genfs_entries_spec es : forall acc, desc acc ->
  match genfs_entries es acc with
  | Some h => desc h /\ Permutation h (map gmk es ++ acc) /\ ForallOrdPairs (fun e e' => ~ clash e e') es /\
      forall e c, In e es -> In c acc -> ~ clashes (gmk e) c
  | None => ~ (ForallOrdPairs (fun e e' => ~ clash e e') es /\ forall e c, In e es -> In c acc -> ~ clashes (gmk e) c)
  end.
Proof.
  induction es as [|[[nm k] ctx] es IH]; intros acc D; cbn [genfs_entries].
  - split; [exact D|]. split; [apply Permutation_refl|]. split; [constructor|]. intros e c [].
  - change (mkOC nm k ctx ctx 0 0) with (gmk (nm, k, ctx)). set (x := (nm, k, ctx)).
    pose proof (genfs_insert_spec (gmk x) acc D) as HI. destruct (genfs_insert (gmk x) acc) as [acc'|].
    + destruct HI as (D' & P & HC). specialize (IH acc' D').
      assert (EQ : (forall e c, In e es -> In c acc' -> ~ clashes (gmk e) c) <->
                   (forall e, In e es -> ~ clash x e) /\ (forall e c, In e es -> In c acc -> ~ clashes (gmk e) c)).
      { split.
        - intros H. split.
          + intros e He [Q1 Q2]. apply (H e (gmk x) He); [apply (Permutation_in _ (Permutation_sym P)); left; reflexivity|].
            apply clashes_mk. split; [congruence|]. destruct Q2 as [Q|[Q|Q]]; auto.
          + intros e c He Hc. apply H; [exact He|]. apply (Permutation_in _ (Permutation_sym P)). right. exact Hc.
        - intros [H1 H2] e c He Hc. apply (Permutation_in _ P) in Hc as [<-|Hc]; [|auto]. rewrite clashes_mk. intros [Q1 Q2].
          apply (H1 e He). split; [congruence|]. destruct Q2 as [Q|[Q|Q]]; auto. }
      destruct (genfs_entries es acc') as [h|].
      * destruct IH as (Dh & Ph & F & H). destruct (proj1 EQ H) as [G1 G2]. split; [exact Dh|]. split; [|split].
        -- rewrite Ph. cbn [map app]. rewrite (Permutation_middle (map gmk es) acc (gmk x)). apply Permutation_app_head. exact P.
        -- constructor; [|exact F]. rewrite Forall_forall. exact G1.
        -- intros e c [<-|He] Hc; auto.
      * intros [F H]. apply IH. inversion F as [|? ? F1 F2]; subst. split; [exact F2|]. apply EQ. split.
        -- rewrite Forall_forall in F1. exact F1.
        -- intros e c He Hc. apply H; [right; exact He|exact Hc].
    + destruct HI as (c & Hc & Q). intros [_ H]. exact (H x c (or_introl eq_refl) Hc Q).
Qed.

Definition tlt (a b : genfs) : Prop := strcmp (g_fstype a) (g_fstype b) = Lt.
Lemma fstype_insert_spec new l : StronglySorted tlt l ->
  match fstype_insert new l with
  | None => exists g, In g l /\ g_fstype g = g_fstype new
  | Some l' => StronglySorted tlt l' /\ Permutation l' (new :: l) /\ forall g, In g l -> g_fstype g <> g_fstype new
  end.
Proof.
  induction l as [|g r IH]; intros D; cbn [fstype_insert].
  - split; [repeat constructor|]. split; [apply Permutation_refl|]. intros g [].
  - inversion D as [|? ? D1 D2]; subst. destruct (strcmp (g_fstype new) (g_fstype g)) eqn:Q.
    + apply strcmp_eq in Q. exists g. split; [left; reflexivity|congruence].
    + assert (A : forall y, In y (g :: r) -> tlt new y).
      { intros y [<-|Hy]; [exact Q|]. rewrite Forall_forall in D2. eapply strcmp_trans; [exact Q|]. exact (D2 y Hy). }
      split; [|split; [apply Permutation_refl|]].
      * constructor; [exact D|]. rewrite Forall_forall. exact A.
      * intros y Hy E. specialize (A y Hy). unfold tlt in A. rewrite E in A. assert (X : strcmp (g_fstype new) (g_fstype new) = Eq) by (apply strcmp_eq; reflexivity). congruence.
    + specialize (IH D1). destruct (fstype_insert new r) as [r'|]; cbn [option_map].
      * destruct IH as (D' & P & H). split; [|split].
        -- constructor; [exact D'|]. rewrite Forall_forall in *. intros y Hy. apply (Permutation_in _ P) in Hy as [<-|Hy]; [|auto]. apply strcmp_gt. exact Q.
        -- rewrite P. apply perm_swap.
        -- intros y [<-|Hy]; [|auto]. intros E. assert (X : strcmp (g_fstype new) (g_fstype g) = Eq) by (apply strcmp_eq; congruence). congruence.
      * destruct IH as (y & Hy & E). exists y. split; [right; exact Hy|exact E].
Qed.

Lemma genfs_read_spec secs : forall acc, StronglySorted tlt acc ->
  match genfs_read secs acc with
  | Some g => StronglySorted tlt g /\ consistent secs /\ (forall fs x, In fs (map fst secs) -> In x acc -> g_fstype x <> fs) /\
      (forall x, In x g <-> In x acc \/ exists es h, In (g_fstype x, es) secs /\ genfs_entries es [] = Some h /\ x = mkG (g_fstype x) h)
  | None => ~ (consistent secs /\ forall fs x, In fs (map fst secs) -> In x acc -> g_fstype x <> fs)
  end.
Proof.
  induction secs as [|[fs es] secs IH]; intros acc D; cbn [genfs_read].
  - split; [exact D|]. split; [split; [constructor|intros fs es []]|]. split; [intros fs x []|].
    intros x. split; [auto|]. intros [H|(es & h & [] & _)]. exact H.
  - pose proof (genfs_entries_spec es [] ltac:(constructor)) as HE. destruct (genfs_entries es []) as [h|] eqn:Eh.
    + destruct HE as (_ & _ & F & _). pose proof (fstype_insert_spec (mkG fs h) acc D) as HI.
      destruct (fstype_insert (mkG fs h) acc) as [acc'|].
      * destruct HI as (D' & P & HC). cbn [g_fstype] in HC. specialize (IH acc' D').
        assert (EQ : (forall f x, In f (map fst secs) -> In x acc' -> g_fstype x <> f) <->
                     ~ In fs (map fst secs) /\ forall f x, In f (map fst secs) -> In x acc -> g_fstype x <> f).
        { split.
          - intros H. split.
            + intros Hi. apply (H fs (mkG fs h) Hi); [apply (Permutation_in _ (Permutation_sym P)); left; reflexivity|reflexivity].
            + intros f x Hf Hx. apply H; [exact Hf|]. apply (Permutation_in _ (Permutation_sym P)). right. exact Hx.
          - intros [H1 H2] f x Hf Hx. apply (Permutation_in _ P) in Hx as [<-|Hx]; [|auto]. cbn [g_fstype]. intros ->. contradiction. }
        destruct (genfs_read secs acc') as [g|].
        -- destruct IH as (Dg & [C1 C2] & H & HM). destruct (proj1 EQ H) as [G1 G2]. split; [exact Dg|]. split; [|split].
           ++ split; [cbn [map fst]; constructor; assumption|]. intros f e [[= <- <-]|Hi]; [exact F|eauto].
           ++ intros f x [<-|Hf] Hx; [cbn [fst]; apply HC; exact Hx|auto].
           ++ intros x. rewrite HM. split.
              ** intros [Hx|(es' & h' & Hi & E1 & E2)].
                 --- apply (Permutation_in _ P) in Hx as [<-|Hx]; [|auto]. right. exists es, h. cbn [g_fstype]. split; [left; reflexivity|auto].
                 --- right. exists es', h'. split; [right; exact Hi|auto].
              ** intros [Hx|(es' & h' & [[= E0 E3]|Hi] & E1 & E2)].
                 --- left. apply (Permutation_in _ (Permutation_sym P)). right. exact Hx.
                 --- left. apply (Permutation_in _ (Permutation_sym P)). left. subst es'. rewrite E1 in Eh. injection Eh as ->. rewrite E2, <- E0. reflexivity.
                 --- right. exists es', h'. auto.
        -- intros [[C1 C2] H]. cbn [map fst] in C1. inversion C1 as [|? ? C3 C4]; subst. apply IH. split; [split; [exact C4|]|].
           ++ intros f e Hi. apply (C2 f e). right. exact Hi.
           ++ apply EQ. split; [exact C3|]. intros f x Hf Hx. apply H; [right; exact Hf|exact Hx].
      * destruct HI as (x & Hx & E). cbn [g_fstype] in E. intros [_ H]. exact (H fs x (or_introl eq_refl) Hx E).
    + intros [[_ C2] _]. apply HE. split; [apply (C2 fs es); left; reflexivity|]. intros e c _ [].
Qed.

(** The first matching entry of a list built by genfs_entries is the best one. *)
Lemma entries_first es h path cls : genfs_entries es [] = Some h ->
  match find (match_genfs path cls) h with
  | Some x => exists e, x = gmk e /\ In e es /\ applies path cls e /\
      forall e', In e' es -> applies path cls e' -> (length (fst (fst e')) <= length (fst (fst e)))%nat
  | None => forall e, In e es -> ~ applies path cls e
  end.
Proof.
  intros E. pose proof (genfs_entries_spec es [] ltac:(constructor)) as HE. rewrite E in HE. destruct HE as (D & P & _).
  rewrite app_nil_r in P. pose proof (find_split (match_genfs path cls) h) as F. destruct (find _ h) as [x|].
  - destruct F as (pre & post & Eh & Mx & Hp).
    assert (Hx : In x (map gmk es)). { apply (Permutation_in _ P). rewrite Eh. apply in_elt. }
    apply in_map_iff in Hx as (e & <- & He). exists e. split; [reflexivity|]. split; [exact He|]. split; [apply match_genfs_applies; exact Mx|].
    intros e' He' Ae'. apply match_genfs_applies in Ae'.
    assert (Hi : In (gmk e') h) by (apply (Permutation_in _ (Permutation_sym P)); apply in_map; exact He').
    rewrite Eh in Hi. apply in_app_iff in Hi as [Hi|[Hi|Hi]].
    + rewrite (Hp _ Hi) in Ae'. discriminate.
    + assert (oc_key (gmk e) = oc_key (gmk e')) as Q by (rewrite Hi; reflexivity). unfold gmk in Q. cbn [oc_key] in Q. rewrite Q. lia.
    + rewrite Eh in D. clear -D Hi. induction pre as [|y pre IH]; cbn [app] in D; inversion D as [|? ? D1 D2]; subst.
      * rewrite Forall_forall in D2. exact (D2 _ Hi).
      * exact (IH D1).
  - intros e He Ae. apply match_genfs_applies in Ae. rewrite F in Ae; [discriminate|].
    apply (Permutation_in _ (Permutation_sym P)). apply in_map. exact He.
Qed.

(** ** Looking up a genfs label *)
Definition grel (tab : sidtab) (x y : genfs) : Prop := g_fstype y = g_fstype x /\ Forall2 (rel tab) (g_head x) (g_head y).
Lemma grels_ext tab tab' l l' : ext tab tab' -> Forall2 (grel tab) l l' -> Forall2 (grel tab') l l'.
Proof. intros E F. induction F as [|x y l l' [H1 H2] F IH]; constructor; [split; [exact H1|eapply rels_ext; eauto]|exact IH]. Qed.

Lemma match_genfs_rel path cls tab x c : rel tab x c -> match_genfs path cls c = match_genfs path cls x.
Proof. intros (K & V & _). unfold match_genfs. rewrite K, V. reflexivity. Qed.
Lemma match_name_rel nm tab x c : rel tab x c -> match_name nm c = match_name nm x.
Proof. intros (K & _). unfold match_name. rewrite K. reflexivity. Qed.

Definition gans (g0 : list genfs) fs path cls tab' mem (a : N + option N) : Prop :=
  (exists x e, In x g0 /\ g_fstype x = fs /\ find (match_genfs path cls) (g_head x) = Some e /\ match a with inl sid => sidfor tab' (oc_c0 e) sid | inr o => o = None /\ no_room tab' mem true end) \/
  ((forall x, In x g0 -> g_fstype x = fs -> find (match_genfs path cls) (g_head x) = None) /\ a = inr (Some 3)).

Lemma genfs_sid_spec fs path cls tab mem : inv tab -> forall g0 g, StronglySorted tlt g0 -> Forall2 (grel tab) g0 g ->
  exists g' tab' a, genfs_sid g tab mem fs path cls = ROk (g', tab', a) /\ ext tab tab' /\ Forall2 (grel tab') g0 g' /\ gans g0 fs path cls tab' mem a.
Proof.
  intros I g0 g S F. induction F as [|x y g0 g R F IH]; cbn [genfs_sid].
  - exists [], tab, (inr (Some 3)). split; [reflexivity|]. split; [apply ext_refl, I|]. split; [constructor|]. right. split; [intros x []|reflexivity].
  - inversion S as [|? ? S1 S2]; subst. rewrite Forall_forall in S2. pose proof R as [Rt Rh]. rewrite Rt. destruct (strcmp fs (g_fstype x)) eqn:Q.
    + apply strcmp_eq in Q.
      assert (NO : forall z, In z g0 -> g_fstype z <> fs).
      { intros z Hz E. specialize (S2 z Hz). unfold tlt in S2. assert (X : strcmp (g_fstype x) (g_fstype z) = Eq) by (apply strcmp_eq; congruence). congruence. }
      pose proof (at_first_spec (match_genfs path cls) (fun c => entry_sid c tab mem)
        (fun e tab' a => match a with Some sid => sidfor tab' (oc_c0 e) sid | None => no_room tab' mem true end) tab (match_genfs_rel path cls tab)) as H.
      specialize (H (fun x c R => ltac:(
        destruct (entry_sid_spec tab x c mem I R) as (c' & tab' & a & E1 & E2 & E3 & E4);
        exists c', tab', a; split; [exact E1|]; split; [exact E2|]; split; [exact E3|];
        destruct a; [exact E4|exact (no_room_ext _ _ _ _ E2 E4)])) _ _ Rh).
      destruct (find (match_genfs path cls) (g_head x)) as [e|] eqn:Fe.
      * destruct H as (h' & tab' & a & -> & E & Fh & HQ).
        destruct a as [sid|]; (eexists; exists tab'; eexists; split; [reflexivity|]; split; [exact E|]; split;
          [constructor; [split; [cbn [g_fstype]; congruence|exact Fh]|eapply grels_ext; eauto]|]); left; exists x, e; (split; [left; reflexivity|]); (split; [congruence|]); (split; [exact Fe|]); auto.
      * rewrite H. exists (y :: g), tab, (inr (Some 3)). split; [reflexivity|]. split; [apply ext_refl, I|]. split; [constructor; auto|]. right.
        split; [|reflexivity]. intros z [<-|Hz] E; [exact Fe|]. destruct (NO z Hz E).
    + exists (y :: g), tab, (inr (Some 3)). split; [reflexivity|]. split; [apply ext_refl, I|]. split; [constructor; auto|]. right.
      split; [|reflexivity]. intros z Hz E. exfalso. assert (X : strcmp fs (g_fstype z) = Lt). { destruct Hz as [<-|Hz]; [exact Q|]. exact (strcmp_trans _ _ _ Q (S2 z Hz)). }
      assert (X' : strcmp fs (g_fstype z) = Eq) by (apply strcmp_eq; congruence). congruence.
    + destruct (IH S1) as (g' & tab' & a & -> & E & F' & A). exists (y :: g'), tab', a. split; [reflexivity|]. split; [exact E|].
      split; [constructor; [|exact F']; split; [exact Rt|eapply rels_ext; eauto]|].
      assert (Q' : g_fstype x <> fs) by (intros E'; assert (X : strcmp fs (g_fstype x) = Eq) by (apply strcmp_eq; congruence); congruence).
      destruct A as [(z & e & Hz & A)|[A ->]]; [left; exists z, e; split; [right; exact Hz|exact A]|].
      right. split; [|reflexivity]. intros z [<-|Hz] E'; [contradiction|auto].
Qed.

(** In terms of the policy. *)
Lemma gans_right secs g fs path cls tab' mem a : genfs_read secs [] = Some g -> gans g fs path cls tab' mem a ->
  (exists e, best secs fs path cls e /\ match a with inl sid => sidfor tab' (snd e) sid | inr o => o = None /\ no_room tab' mem true end) \/
  (none_applies secs fs path cls /\ a = inr (Some 3)).
Proof.
  intros E A. pose proof (genfs_read_spec secs [] ltac:(constructor)) as G. rewrite E in G. destruct G as (S & [C1 C2] & _ & HM).
  destruct A as [(x & e & Hx & Ht & He & A)|[A ->]].
  - apply HM in Hx as [[]|(es & h & Hi & Eh & Ex)]. rewrite Ex in He. cbn [g_head] in He. pose proof (entries_first es h path cls Eh) as F.
    rewrite He in F. destruct F as (t & -> & Hin & Ha & Hl). left. exists t. split; [|exact A]. exists es. rewrite <- Ht. auto.
  - right. split; [|reflexivity]. intros es e Hi He.
    destruct (genfs_entries es []) as [h|] eqn:Eh.
    + assert (Hg : In (mkG fs h) g) by (apply HM; right; exists es, h; auto). specialize (A _ Hg eq_refl). cbn [g_head] in A.
      pose proof (entries_first es h path cls Eh) as F. rewrite A in F. exact (F e He).
    + pose proof (genfs_entries_spec es [] ltac:(constructor)) as X. rewrite Eh in X. exfalso. apply X. split; [exact (C2 fs es Hi)|intros ? ? _ []].
Qed.

(** ** Histories of requests *)
Definition orel (p : opolicy) (g0 : list genfs) (tab : sidtab) (o : olists) : Prop :=
  Forall2 (rel tab) (ol_port (fresh p g0)) (ol_port o) /\ Forall2 (rel tab) (ol_pkey (fresh p g0)) (ol_pkey o) /\ Forall2 (rel tab) (ol_endport (fresh p g0)) (ol_endport o) /\ Forall2 (rel tab) (ol_netif (fresh p g0)) (ol_netif o) /\ Forall2 (rel tab) (ol_fs (fresh p g0)) (ol_fs o) /\ Forall2 (rel tab) (ol_node (fresh p g0)) (ol_node o) /\ Forall2 (rel tab) (ol_node6 (fresh p g0)) (ol_node6 o) /\ Forall2 (rel tab) (ol_fsuse (fresh p g0)) (ol_fsuse o) /\ Forall2 (grel tab) g0 (ol_genfs o) /\ ol_dir o = op_dir p.

Lemma orel_ext p g0 tab tab' o : ext tab tab' -> orel p g0 tab o -> orel p g0 tab' o.
Proof.
  intros E (H1 & H2 & H3 & H4 & H5 & H6 & H7 & H8 & H9 & H10).
  split; [eapply rels_ext; eauto|]. split; [eapply rels_ext; eauto|]. split; [eapply rels_ext; eauto|]. split; [eapply rels_ext; eauto|].
  split; [eapply rels_ext; eauto|]. split; [eapply rels_ext; eauto|]. split; [eapply rels_ext; eauto|]. split; [eapply rels_ext; eauto|].
  split; [eapply grels_ext; eauto|exact H10].
Qed.

Lemma rel_refl {K} tab (x : ocon K) : oc_s0 x = 0 -> oc_s1 x = 0 -> rel tab x x.
Proof. intros E0 E1. unfold rel, cached. auto 8. Qed.
Lemma rels_refl {K A} tab (f : A -> ocon K) l : (forall e, oc_s0 (f e) = 0 /\ oc_s1 (f e) = 0) -> Forall2 (rel tab) (map f l) (map f l).
Proof. intros H. induction l; constructor; [apply rel_refl; apply H|exact IHl]. Qed.
Lemma genfs_fresh secs g : genfs_read secs [] = Some g -> forall x c, In x g -> In c (g_head x) -> oc_s0 c = 0 /\ oc_s1 c = 0.
Proof.
  intros E x c Hx Hc. pose proof (genfs_read_spec secs [] ltac:(constructor)) as G. rewrite E in G. destruct G as (_ & _ & _ & HM).
  apply HM in Hx as [[]|(es & h & _ & Eh & Ex)]. rewrite Ex in Hc. cbn [g_head] in Hc.
  pose proof (genfs_entries_spec es [] ltac:(constructor)) as X. rewrite Eh in X. destruct X as (_ & P & _).
  apply (Permutation_in _ P) in Hc. rewrite app_nil_r in Hc. apply in_map_iff in Hc as (e & <- & _). auto.
Qed.
Lemma orel_fresh p g tab : genfs_read (op_genfs p) [] = Some g -> orel p g tab (fresh p g).
Proof.
  intros E. unfold orel, fresh. cbn [ol_port ol_pkey ol_endport ol_netif ol_fs ol_node ol_node6 ol_fsuse ol_genfs ol_dir].
  do 8 (split; [apply rels_refl; auto|]). split; [|reflexivity].
  assert (H : forall x c, In x g -> In c (g_head x) -> oc_s0 c = 0 /\ oc_s1 c = 0) by exact (genfs_fresh _ _ E). clear E.
  induction g as [|x g IH]; constructor.
  - split; [reflexivity|]. assert (Hx : forall c, In c (g_head x) -> oc_s0 c = 0 /\ oc_s1 c = 0) by (intros c; apply H; left; reflexivity).
    clear -Hx. induction (g_head x) as [|c l IH]; constructor; [apply rel_refl; apply Hx; left; reflexivity|apply IH; intros d Hd; apply Hx; right; exact Hd].
  - apply IH. intros y c Hy. apply H. right. exact Hy.
Qed.

Lemma fs_use_spec p g0 o tab m0 m1 fs : genfs_read (op_genfs p) [] = Some g0 -> inv tab -> orel p g0 tab o ->
  exists o' tab' a, fs_use o tab m0 fs = ROk (o', tab', a) /\ ext tab tab' /\ orel p g0 tab' o' /\
    forall tabf, ext tab' tabf -> file_right p tabf (QFsUse fs, m0, m1, a).
Proof.
  intros E I R. pose proof R as (H1 & H2 & H3 & H4 & H5 & H6 & H7 & H8 & H9 & H10). unfold fs_use.
  pose proof (at_first_spec (match_name fs)
    (fun c => match entry_sid c tab m0 with ROk (c', t', x) => ROk (c', t', (oc_v c, x)) | RErr => RErr | RUB => RUB end)
    (fun e tab' a => fst a = oc_v e /\ match snd a with Some sid => sidfor tab' (oc_c0 e) sid | None => no_room tab' m0 true end) tab (match_name_rel fs tab)) as H.
  assert (HF : forall x c : ocon (list N), rel tab x c -> exists c' tab' a,
    match entry_sid c tab m0 with ROk (c', t', x) => ROk (c', t', (oc_v c, x)) | RErr => RErr | RUB => RUB end = ROk (c', tab', a) /\
    ext tab tab' /\ rel tab' x c' /\ (fst a = oc_v x /\ match snd a with Some sid => sidfor tab' (oc_c0 x) sid | None => no_room tab' m0 true end)).
  { intros x c Rx. destruct (entry_sid_spec tab x c m0 I Rx) as (c' & tab' & a & -> & E2 & E3 & E4).
    exists c', tab', (oc_v c, a). split; [reflexivity|]. split; [exact E2|]. split; [exact E3|]. split; [apply Rx|].
    cbn [snd]. destruct a; [exact E4|exact (no_room_ext _ _ _ _ E2 E4)]. }
  specialize (H HF _ _ H8). clear HF. unfold fresh in H. cbn [ol_fsuse] in H.
  pose proof (find_hit (fun e : list N * (N * context) => mkOC (fst e) (fst (snd e)) (snd (snd e)) (snd (snd e)) 0 0) (match_name fs) (fun k => k = fs)
    (op_fsuse p) (match_name_use fs)) as FH.
  destruct (find (match_name fs) _) as [x|].
  - destruct H as (l' & tab' & [b a] & -> & Ex & F & Q1 & Q2). destruct FH as (k & [b' c] & -> & FH). cbn [fst snd oc_v oc_c0] in Q1, Q2. subst b'.
    eexists. exists tab'. eexists. split; [reflexivity|]. split; [exact Ex|]. split.
    + apply (orel_ext _ _ _ _ _ Ex) in R. destruct R as (R1 & R2 & R3 & R4 & R5 & R6 & R7 & R8 & R9 & R10).
      unfold orel. cbn [ol_port ol_pkey ol_endport ol_netif ol_fs ol_node ol_node6 ol_fsuse ol_genfs ol_dir fresh] in *. auto 12.
    + intros tabf Ef. left. exists b, c. split; [exact FH|]. destruct a as [sid|].
      * left. exists sid. split; [reflexivity|]. eapply sid_for_ext; eauto.
      * right. split; [reflexivity|]. apply no_room_any. eapply no_room_ext; eauto.
  - rewrite H. pose proof (genfs_read_spec (op_genfs p) [] ltac:(constructor)) as G. rewrite E in G. destruct G as (S & _).
    rewrite H10. destruct (genfs_sid_spec fs [47] (op_dir p) tab m0 I g0 (ol_genfs o) S H9) as (g' & tab' & a & -> & Ex & F & A).
    apply (gans_right _ _ _ _ _ _ _ _ E) in A.
    eexists. exists tab'. eexists. split; [reflexivity|]. split; [exact Ex|]. split.
    + apply (orel_ext _ _ _ _ _ Ex) in R. destruct R as (R1 & R2 & R3 & R4 & R5 & R6 & R7 & R8 & R9 & R10).
      unfold orel. cbn [ol_port ol_pkey ol_endport ol_netif ol_fs ol_node ol_node6 ol_fsuse ol_genfs ol_dir fresh] in *. auto 12.
    + intros tabf Ef. right. split; [exact FH|]. destruct A as [(e & B & A)|[A ->]].
      * left. exists e. split; [exact B|]. destruct a as [sid|q].
        -- left. exists sid. split; [reflexivity|]. eapply sid_for_ext; eauto.
        -- destruct A as [-> A]. right. split; [reflexivity|]. apply no_room_any. eapply no_room_ext; eauto.
      * right. auto.
Qed.

Ltac one_case spec hit Hrow E R :=
  destruct spec as (l' & tab' & a & -> & Ex & F & A);
  eexists; exists tab'; eexists; split; [reflexivity|]; split; [exact Ex|]; split;
  [apply (orel_ext _ _ _ _ _ Ex) in R; destruct R as (R1 & R2 & R3 & R4 & R5 & R6 & R7 & R8 & R9 & R10); unfold orel;
   cbn [ol_port ol_pkey ol_endport ol_netif ol_fs ol_node ol_node6 ol_fsuse ol_genfs ol_dir fresh] in *; auto 12
  |intros tabf Ef; split; [|exact Coq.Init.Logic.I]; eapply hit; [|exact A|exact Ef]].

Lemma oask_spec p g0 o tab m0 m1 q : genfs_read (op_genfs p) [] = Some g0 -> inv tab -> orel p g0 tab o ->
  exists o' tab' a, oask o tab m0 m1 q = ROk (o', tab', a) /\ ext tab tab' /\ orel p g0 tab' o' /\
    forall tabf, ext tab' tabf -> object_right p tabf (q, m0, m1, a) /\ file_right p tabf (q, m0, m1, a).
Proof.
  intros E I R. pose proof R as (H1 & H2 & H3 & H4 & H5 & H6 & H7 & H8 & H9 & H10).
  destruct q as [proto port|subnet pkey|dev port|addr|addr|name|name|fs path cls|fs|c]; cbn [oask].
  - one_case (one_sid_spec (match_port proto port) SECINITSID_PORT _ _ tab m0 ltac:(intros x c (K & _); unfold match_port; rewrite K; reflexivity) I H1) @one_right_of H1 E R.
    intros e. apply match_port_hit.
  - one_case (one_sid_spec (match_pkey subnet pkey) SECINITSID_UNLABELED _ _ tab m0 ltac:(intros x c (K & _); unfold match_pkey; rewrite K; reflexivity) I H2) @one_right_of H1 E R.
    intros e. apply match_pkey_hit.
  - one_case (one_sid_spec (match_endport dev port) SECINITSID_UNLABELED _ _ tab m0 ltac:(intros x c (K & _); unfold match_endport; rewrite K; reflexivity) I H3) @one_right_of H1 E R.
    intros e. apply match_endport_hit.
  - one_case (one_sid_spec (match_node addr) SECINITSID_NODE _ _ tab m0 ltac:(intros x c (K & _); unfold match_node; rewrite K; reflexivity) I H6) @one_right_of H1 E R.
    intros e. apply match_node_hit.
  - one_case (one_sid_spec (match_node6 addr) SECINITSID_NODE _ _ tab m0 ltac:(intros x c (K & _); unfold match_node6; rewrite K; reflexivity) I H7) @one_right_of H1 E R.
    intros e. apply match_node6_hit.
  - one_case (two_sids_spec (match_name name) SECINITSID_NETIF SECINITSID_NETMSG _ _ tab m0 m1 (match_name_rel name tab) I H4) @two_right_of H1 E R.
    intros e. apply match_name2_hit.
  - one_case (two_sids_spec (match_name name) SECINITSID_FS SECINITSID_FILE _ _ tab m0 m1 (match_name_rel name tab) I H5) @two_right_of H1 E R.
    intros e. apply match_name2_hit.
  - pose proof (genfs_read_spec (op_genfs p) [] ltac:(constructor)) as G. rewrite E in G. destruct G as (S & _).
    destruct (genfs_sid_spec fs path cls tab m0 I g0 (ol_genfs o) S H9) as (g' & tab' & a & -> & Ex & F & A).
    apply (gans_right _ _ _ _ _ _ _ _ E) in A.
    eexists. exists tab'. eexists. split; [reflexivity|]. split; [exact Ex|]. split.
    + apply (orel_ext _ _ _ _ _ Ex) in R. destruct R as (R1 & R2 & R3 & R4 & R5 & R6 & R7 & R8 & R9 & R10).
      unfold orel. cbn [ol_port ol_pkey ol_endport ol_netif ol_fs ol_node ol_node6 ol_fsuse ol_genfs ol_dir fresh] in *. auto 12.
    + intros tabf Ef. split; [exact Coq.Init.Logic.I|]. destruct A as [(e & B & A)|[A ->]].
      * left. exists e. split; [exact B|]. destruct a as [sid|x].
        -- left. exists sid. split; [reflexivity|]. eapply sid_for_ext; eauto.
        -- destruct A as [-> A]. right. split; [reflexivity|]. apply no_room_any. eapply no_room_ext; eauto.
      * right. auto.
  - destruct (fs_use_spec p g0 o tab m0 m1 fs E I R) as (o' & tab' & a & -> & Ex & R' & A). exists o', tab', a. split; [reflexivity|].
    split; [exact Ex|]. split; [exact R'|]. intros tabf Ef. split; [exact Coq.Init.Logic.I|auto].
  - destruct (to_sid tab c m0 I) as (tab' & r & sid & -> & Ex & _). apply (orel_ext _ _ _ _ _ Ex) in R.
    destruct r; (exists o, tab'; eexists; split; [reflexivity|]; split; [exact Ex|]; split; [exact R|]; intros tabf _; split; exact Coq.Init.Logic.I).
Qed.

Lemma orun_spec p g0 : genfs_read (op_genfs p) [] = Some g0 -> forall l o tab tr, inv tab -> orel p g0 tab o ->
  exists o' tab' tr', orun o tab tr l = ROk (o', tab', tr' ++ tr) /\ ext tab tab' /\ map fst tr' = rev l /\
    Forall (object_right p tab') tr' /\ Forall (file_right p tab') tr'.
Proof.
  intros E l. induction l as [|[[q m0] m1] l IH]; intros o tab tr I R; cbn [orun].
  - exists o, tab, []. split; [reflexivity|]. split; [apply ext_refl, I|]. auto.
  - destruct (oask_spec p g0 o tab m0 m1 q E I R) as (o1 & tab1 & a & -> & Ex & R1 & A).
    destruct (IH o1 tab1 ((q, m0, m1, a) :: tr) (proj1 Ex) R1) as (o' & tab' & tr' & E' & Ex' & M & F1 & F2).
    exists o', tab', (tr' ++ [(q, m0, m1, a)]). split; [rewrite E', <- app_assoc; reflexivity|]. split; [eapply ext_trans; eauto|].
    split; [rewrite map_app, M; reflexivity|]. destruct (A tab' Ex') as [A1 A2].
    split; apply Forall_app; auto.
Qed.

(** Accepted sections are the consistent ones. *)
Lemma read_accepts secs : (exists g, genfs_read secs [] = Some g) <-> consistent secs.
Proof.
  pose proof (genfs_read_spec secs [] ltac:(constructor)) as G. destruct (genfs_read secs []) as [g|].
  - split; [intros _; apply G|intros _; exists g; reflexivity].
  - split; [intros (g & Q); discriminate|]. intros C. exfalso. apply G. split; [exact C|intros ? ? _ []].
Qed.

(** Two best entries are the same entry. *)
Lemma nodup_fst {A B} (l : list (A * B)) a b b' : NoDup (map fst l) -> In (a, b) l -> In (a, b') l -> b = b'.
Proof.
  induction l as [|[x y] l IH]; intros N H H'; [destruct H|]. cbn [map fst] in N. inversion N as [|? ? N1 N2]; subst.
  destruct H as [H|H], H' as [H'|H']; [congruence| | |auto].
  - injection H as -> ->. exfalso. apply N1. apply (in_map fst) in H'. exact H'.
  - injection H' as -> ->. exfalso. apply N1. apply (in_map fst) in H. exact H.
Qed.
Lemma best_unique secs fs path cls e e' : consistent secs -> best secs fs path cls e -> best secs fs path cls e' -> e = e'.
Proof.
  intros [N C] (es & Hs & He & A & L) (es' & Hs' & He' & A' & L'). assert (es' = es) by exact (nodup_fst _ _ _ _ N Hs' Hs). subst es'.
  specialize (L e' He' A'). specialize (L' e He A). destruct e as [[nm k] c], e' as [[nm' k'] c']. cbn [fst] in L, L'.
  destruct A as ((r & E) & Hk), A' as ((r' & E') & Hk'). rewrite E in E'.
  assert (Q : nm = nm').
  { apply (f_equal (firstn (length nm))) in E'. rewrite firstn_app, firstn_all, Nat.sub_diag, firstn_O, app_nil_r in E'.
    assert (Q : length nm = length nm') by lia. rewrite Q, firstn_app, firstn_all, Nat.sub_diag, firstn_O, app_nil_r in E'. exact E'. }
  destruct (ForallOrdPairs_In (C fs es Hs) _ _ He He') as [Q'|[Q'|Q']]; [exact Q'|..]; exfalso; apply Q'; (split; [cbn [fst]; congruence|]); cbn [fst snd].
  - destruct Hk as [-> | ->]; [auto|]. destruct Hk' as [-> | ->]; auto.
  - destruct Hk as [-> | ->]; [auto|]. destruct Hk' as [-> | ->]; auto.
Qed.
