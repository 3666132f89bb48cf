(** Proofs for SID tables and policy loading. *)
From Verif Require Import Base EbitmapModel EbitmapSpec EbitmapProofs MlsModel MlsSpec MlsProofs ContextModel AvtabModel
  AvtabProofs AvcProofs SidtabModel SidtabSpec.
From Coq Require Import Permutation Sorted.
Ltac Zify.zify_post_hook ::= Z.div_mod_to_equations.

Local Notation entry := (N * context)%type.

(** Shape of the array of chains; models no code. *)
Definition shape (t : list (list entry)) : Prop :=
  length t = 128%nat /\
  (forall i, StronglySorted N.lt (map fst (nth i t []))) /\
  (forall i sid c, In (sid, c) (nth i t []) -> sid_hash sid = i).

Lemma hash_lt sid : (sid_hash sid < 128)%nat.
Proof.
  unfold sid_hash. change 127 with (N.ones 7). rewrite N.land_ones. change (2 ^ 7) with 128.
  assert (sid mod 128 < 128) by (apply N.mod_lt; lia). lia.
Qed.

Lemma context_cmp_eq a b : context_cmp a b = true <-> a = b.
Proof.
  destruct a as [u r t [lo hi]], b as [u' r' t' [lo' hi']]. unfold context_cmp, mls_range_eq. cbn.
  rewrite !andb_true_iff, !N.eqb_eq, !level_eq_eq. split; [intros (((-> & ->) & ->) & -> & ->); reflexivity|].
  intros [= -> -> -> -> ->]. auto.
Qed.

Lemma context_cmp_refl a : context_cmp a a = true.
Proof. apply context_cmp_eq. reflexivity. Qed.

Lemma in_chain t sid c : shape t -> (In (sid, c) (concat t) <-> In (sid, c) (nth (sid_hash sid) t [])).
Proof.
  intros (L & S & H). split.
  - intros Hi. apply in_concat_nth in Hi as (i & _ & Hi). rewrite (H i sid c Hi). exact Hi.
  - intros Hi. apply in_nth_concat in Hi. exact Hi.
Qed.

Lemma sid_get_spec sid c (l : list entry) : StronglySorted N.lt (map fst l) -> (sid_get sid l = Some c <-> In (sid, c) l).
Proof.
  induction l as [|[s d] l IH]; cbn [map fst sid_get In]; intros H; [split; [discriminate|tauto]|].
  inversion H as [|? ? H1 H2]; subst. specialize (IH H1). rewrite Forall_forall in H2.
  destruct (N.ltb_spec s sid).
  - rewrite IH. split; [auto|]. intros [[= E _]|Hi]; [lia|exact Hi].
  - destruct (N.eqb_spec sid s) as [->|Ne].
    + split; [intros [= ->]; auto|]. intros [[= ->]|Hi]; [reflexivity|].
      assert (s < s) by (apply H2; apply (in_map fst) in Hi; exact Hi). lia.
    + split; [discriminate|]. intros [[= E _]|Hi]; [lia|].
      assert (s < sid) by (apply H2; apply (in_map fst) in Hi; exact Hi). lia.
Qed.

Lemma sid_add_spec sid c (l : list entry) : StronglySorted N.lt (map fst l) ->
  match sid_add sid c l with
  | None => exists d, In (sid, d) l
  | Some l' => (forall d, ~ In (sid, d) l) /\ StronglySorted N.lt (map fst l') /\
      exists a b, l = a ++ b /\ l' = a ++ (sid, c) :: b
  end.
Proof.
  induction l as [|[s d] l IH]; cbn [map fst sid_add]; intros H.
  - split; [intros d []|]. split; [cbn; constructor; constructor|]. exists [], []. auto.
  - inversion H as [|? ? H1 H2]; subst. specialize (IH H1). pose proof (proj1 (Forall_forall _ _) H2) as H3.
    destruct (N.ltb_spec s sid).
    + destruct (sid_add sid c l) as [l'|]; cbn [option_map].
      * destruct IH as (A & B & a & b & -> & ->). split; [intros e [[= E _]|Hi]; [lia|exact (A e Hi)]|].
        split; [|exists ((s, d) :: a), b; auto]. cbn [map fst]. constructor; [exact B|].
        rewrite map_app in *. apply Forall_app in H2 as [F1 F2]. apply Forall_app. split; [exact F1|].
        cbn [map fst]. constructor; [lia|exact F2].
      * destruct IH as (e & He). exists e. right. exact He.
    + destruct (N.eqb_spec sid s) as [->|Ne]; [exists d; left; reflexivity|].
      split.
      * intros e [[= E _]|Hi]; [lia|]. assert (s < sid) by (apply H3; apply (in_map fst) in Hi; exact Hi). lia.
      * split; [|exists [], ((s, d) :: l); auto]. cbn [map fst]. constructor; [exact H|].
        constructor; [lia|]. rewrite Forall_forall. intros x Hx. apply H3 in Hx. lia.
Qed.

Lemma concat_split (t : list (list entry)) : forall i a b x, (i < length t)%nat -> nth i t [] = a ++ b ->
  exists A B, concat t = A ++ B /\ concat (set_nth i (a ++ x :: b) t) = A ++ x :: B.
Proof.
  induction t as [|l t IH]; intros [|i] a b x Hi E; cbn [length] in Hi; try lia; cbn [nth set_nth concat] in *.
  - subst l. exists a, (b ++ concat t). rewrite <- !app_assoc. auto.
  - destruct (IH i a b x ltac:(lia) E) as (A & B & E1 & E2). exists (l ++ A), B.
    rewrite E1, E2, <- !app_assoc. auto.
Qed.

(** Lookup of one SID; models no code. *)
Definition look (t : list (list entry)) (sid : N) : option context := sid_get sid (nth (sid_hash sid) t []).

Lemma look_spec t sid c : shape t -> (look t sid = Some c <-> In (sid, c) (concat t)).
Proof. intros H. unfold look. rewrite (in_chain t sid c H). apply sid_get_spec. apply H. Qed.

Lemma look_fun t sid c d : shape t -> In (sid, c) (concat t) -> In (sid, d) (concat t) -> c = d.
Proof. intros H A B. apply (look_spec t sid _ H) in A, B. congruence. Qed.

Lemma look_none t sid : shape t -> (look t sid = None <-> forall c, ~ In (sid, c) (concat t)).
Proof.
  intros H. split.
  - intros E c Hc. apply (look_spec t sid c H) in Hc. congruence.
  - intros Hn. destruct (look t sid) as [c|] eqn:E; [|reflexivity]. apply (look_spec t sid c H) in E. destruct (Hn c E).
Qed.

Lemma search_look s t sid : st_table s = Some t ->
  sidtab_search s sid = match look t sid with Some c => Some c | None => look t 3 end.
Proof. intros E. unfold sidtab_search. rewrite E. reflexivity. Qed.

Lemma insert_cases s t sid c mem : st_table s = Some t -> shape t ->
  match sidtab_insert s sid c mem with
  | (s', TOk) => mem = true /\ (forall d, ~ In (sid, d) (concat t)) /\
      st_next s' = (if st_next s <=? sid then wrap32 (sid + 1) else st_next s) /\ st_shut s' = st_shut s /\
      exists t', st_table s' = Some t' /\ shape t' /\
      exists A B, concat t = A ++ B /\ concat t' = A ++ (sid, c) :: B
  | (s', TExist) => s' = s /\ exists d, In (sid, d) (concat t)
  | (s', TNomem) => s' = s /\ mem = false
  end.
Proof.
  intros E Sh. unfold sidtab_insert. rewrite E. pose proof (hash_lt sid) as Hh.
  pose proof (in_chain t sid) as IC.
  pose proof (sid_add_spec sid c (nth (sid_hash sid) t []) (proj1 (proj2 Sh) _)) as SA.
  destruct (sid_add sid c (nth (sid_hash sid) t [])) as [l'|].
  - destruct SA as (A & B & a & b & E1 & ->). destruct mem; [|auto]. cbn [st_next st_shut st_table].
    split; [reflexivity|]. split; [intros d Hd; apply (IC d Sh) in Hd; exact (A d Hd)|].
    split; [reflexivity|]. split; [reflexivity|].
    destruct Sh as (L & S & H).
    exists (set_nth (sid_hash sid) (a ++ (sid, c) :: b) t). split; [reflexivity|]. split; [split; [|split]|].
    + rewrite set_nth_length. exact L.
    + intros i. rewrite nth_set_nth by lia. destruct (Nat.eqb _ _); [exact B|apply S].
    + intros i s0 c0. rewrite nth_set_nth by lia. destruct (Nat.eqb_spec (sid_hash sid) i) as [<-|]; [|apply H].
      rewrite in_app_iff. cbn [In]. intros [Hi|[[= <- _]|Hi]]; [|reflexivity|]; apply (H _ s0 c0); rewrite E1; apply in_app_iff; auto.
    + apply concat_split; [lia|exact E1].
  - destruct SA as (d & Hd). split; [reflexivity|]. exists d. apply IC; assumption.
Qed.

(** The invariant; models no code. *)
Definition inv (s : sidtab) : Prop :=
  exists t, st_table s = Some t /\ shape t /\
    (forall sid c, In (sid, c) (concat t) -> 1 <= sid /\ sid < st_next s) /\
    1 <= st_next s /\ st_next s <= 4294967295.

Lemma inv_built s : inv s <-> well_built s.
Proof.
  unfold inv, well_built, shape. split.
  - intros (t & E & (L & S & H) & R). exists t. tauto.
  - intros (t & E & L & S & H & R). exists t. tauto.
Qed.

Lemma find_filter {A} (f : A -> bool) l : find f l = match filter f l with [] => None | x :: _ => Some x end.
Proof. induction l as [|x l IH]; [reflexivity|]. cbn. destruct (f x); [reflexivity|exact IH]. Qed.

Lemma find_skip {A} (f : A -> bool) a x b : f x = false -> find f (a ++ x :: b) = find f (a ++ b).
Proof. intros H. rewrite !find_filter, !filter_app. cbn [filter]. rewrite H. reflexivity. Qed.

Lemma search_context_spec t c : (forall sid d, In (sid, d) (concat t) -> 1 <= sid) ->
  (search_context t c = 0 /\ forall sid, ~ In (sid, c) (concat t)) \/
  (1 <= search_context t c /\ In (search_context t c, c) (concat t)).
Proof.
  intros Hs. unfold search_context. destruct (find _ (concat t)) as [[sid d]|] eqn:E.
  - right. apply find_some in E as [E1 E2]. cbn [snd fst] in *. apply context_cmp_eq in E2. subst d. eauto.
  - left. split; [reflexivity|]. intros sid Hi. apply (find_none _ _ E) in Hi. cbn [snd] in Hi. rewrite context_cmp_refl in Hi. discriminate.
Qed.

Lemma to_sid_cases s t c mem : st_table s = Some t -> shape t ->
  (forall sid d, In (sid, d) (concat t) -> 1 <= sid /\ sid < st_next s) -> 1 <= st_next s -> st_next s <= 4294967295 ->
  exists s' r sid, context_to_sid s c mem = ROk (s', (r, sid)) /\
   match r with
   | TOk =>
      (s' = s /\ sid = search_context t c /\ 1 <= sid /\ In (sid, c) (concat t)) \/
      (sid = st_next s /\ sid < 4294967295 /\ st_shut s = false /\ mem = true /\ (forall x, ~ In (x, c) (concat t)) /\
       st_next s' = sid + 1 /\ st_shut s' = st_shut s /\
       exists t', st_table s' = Some t' /\ shape t' /\ exists A B, concat t = A ++ B /\ concat t' = A ++ (sid, c) :: B)
   | TExist => False
   | TNomem => s' = s /\ sid = 0 /\ (st_next s = 4294967295 \/ st_shut s = true \/ mem = false) /\ (forall x, ~ In (x, c) (concat t))
   end.
Proof.
  intros E Sh HS L1 L2. unfold context_to_sid. rewrite E.
  destruct (search_context_spec t c) as [(E0 & Hn)|(G0 & Hi)]; [intros; apply (HS sid d); assumption| |].
  - rewrite E0. cbn [N.eqb negb].
    destruct (N.eqb_spec (st_next s) 4294967295) as [En|Nn]; cbn [orb].
    { exists s, TNomem, 0. repeat split; auto. }
    destruct (st_shut s) eqn:Es; [exists s, TNomem, 0; repeat split; auto|].
    set (s1 := mkST _ _ _ _). pose proof (insert_cases s1 t (st_next s) c mem eq_refl Sh) as IC.
    destruct (sidtab_insert s1 (st_next s) c mem) as [s2 r]. cbn [s1 st_next st_shut] in IC.
    assert (W : wrap32 (st_next s + 1) = st_next s + 1) by (unfold wrap32, W32; lia).
    destruct r.
    + destruct IC as (M & Hd & N2 & S2 & t' & E' & Sh' & A & B & EA & EB).
      exists s2, TOk, (st_next s). split; [reflexivity|]. right. rewrite W in N2.
      assert (N3 : st_next s2 = st_next s + 1) by (rewrite N2; destruct (_ <=? _); reflexivity).
      repeat (split; [first [assumption|reflexivity|lia]|]).
      exists t'. repeat (split; [assumption|]). exists A, B. auto.
    + destruct IC as (_ & d & Hd). apply HS in Hd. lia.
    + destruct IC as (-> & M). cbn [s1 st_table st_nel st_next st_shut]. exists s, TNomem, 0. split.
      * rewrite W. assert (wrap32 (st_next s + 1 + 4294967295) = st_next s) as -> by (unfold wrap32, W32; lia).
        destruct s; cbn in *. subst. reflexivity.
      * repeat split; auto.
  - destruct (N.eqb_spec (search_context t c) 0); [lia|]. cbn [negb]. exists s, TOk, (search_context t c).
    split; [reflexivity|]. left. auto.
Qed.

Lemma inv_init : inv (sidtab_init true).
Proof.
  exists (repeat [] 128). split; [reflexivity|]. split; [split; [reflexivity|split]|].
  - intros i. rewrite nth_repeat_nil. constructor.
  - intros i sid c. rewrite nth_repeat_nil. intros [].
  - rewrite concat_repeat_nil. split; [intros sid c []|]. cbn. lia.
Qed.

(** What one operation does to the set of entries; models no code. *)
Lemma step_inv s o : inv s -> sane_op o ->
  exists s' r sid, tstep s o = ROk (s', (r, sid)) /\ inv s' /\ st_shut s' = st_shut s /\ st_next s <= st_next s' /\
    forall t t', st_table s = Some t -> st_table s' = Some t' ->
      (forall x d, In (x, d) (concat t') <-> In (x, d) (concat t) \/
          (r = TOk /\ x = sid /\ match o with TInsert i e _ => i = x /\ e = d | TToSid e _ => e = d end)) /\
      (st_next s' = st_next s \/ (st_next s' = sid + 1 /\ r = TOk)) /\
      (r = TOk -> 1 <= sid /\ sid < 4294967295) /\
      (forall e m, o = TToSid e m -> r = TOk -> search_context t' e = sid) /\
      (forall e, 1 <= search_context t e -> (forall i m, o <> TInsert i e m) -> search_context t' e = search_context t e).
Proof.
  intros (t & E & Sh & HS & L1 & L2) Ho. destruct o as [i c mem|c mem]; cbn [tstep sane_op] in *.
  - pose proof (insert_cases s t i c mem E Sh) as IC. destruct (sidtab_insert s i c mem) as [s' r]. destruct Ho as [Ho1 Ho2].
    assert (Hs : s' = s -> inv s') by (intros ->; exists t; auto).
    exists s', r, i. split; [reflexivity|]. destruct r.
    + destruct IC as (M & Hd & N2 & S2 & t' & E' & Sh' & A & B & EA & EB).
      assert (W : wrap32 (i + 1) = i + 1) by (unfold wrap32, W32; lia). rewrite W in N2.
      assert (N3 : st_next s <= st_next s' /\ i < st_next s' /\ st_next s' <= 4294967295 /\ (st_next s' = st_next s \/ st_next s' = i + 1))
        by (destruct (N.leb_spec (st_next s) i); lia).
      split. { exists t'. split; [exact E'|]. split; [exact Sh'|]. split; [|lia]. intros x d. rewrite EB, in_app_iff. cbn [In].
        intros [Hi|[[= <- _]|Hi]]; [|lia|]; assert (Q : In (x, d) (concat t)) by (rewrite EA; apply in_app_iff; auto); apply HS in Q; lia. }
      split; [exact S2|]. split; [lia|]. intros t0 t0'. rewrite E, E'. intros [= <-] [= <-].
      split. { intros x d. rewrite EA, EB, !in_app_iff. cbn [In]. split.
        - intros [Hi|[[= -> ->]|Hi]]; auto.
        - intros [[Hi|Hi]|(_ & -> & _ & ->)]; auto. }
      split; [destruct N3 as (_ & _ & _ & [N3|N3]); auto|]. split; [lia|]. split; [discriminate|].
      intros e _ He. unfold search_context. rewrite EA, EB, find_skip; [reflexivity|]. cbn [snd].
      destruct (context_cmp c e) eqn:Q; [|reflexivity]. apply context_cmp_eq in Q. subst e. exfalso. exact (He _ _ eq_refl).
    + destruct IC as (-> & d & Hd). split; [auto|]. split; [reflexivity|]. split; [lia|].
      intros t0 t0'. rewrite E. intros [= <-] [= <-]. repeat split; auto; try discriminate. intros [Hi|[Q _]]; [exact Hi|discriminate].
    + destruct IC as (-> & d). split; [auto|]. split; [reflexivity|]. split; [lia|].
      intros t0 t0'. rewrite E. intros [= <-] [= <-]. repeat split; auto; try discriminate. intros [Hi|[Q _]]; [exact Hi|discriminate].
  - destruct (to_sid_cases s t c mem E Sh HS L1 L2) as (s' & r & sid & E0 & TC). exists s', r, sid.
    split; [exact E0|]. destruct r; [| destruct TC |].
    + destruct TC as [(-> & Es & G & Hi)|(Es & Lt & Hsh & M & Hn & Ns & Hs & t' & E' & Sh' & A & B & EA & EB)].
      * split; [exists t; auto|]. split; [reflexivity|]. split; [lia|]. intros t0 t0'. rewrite E. intros [= <-] [= <-].
        split. { intros x d. split; [auto|]. intros [Q|(_ & -> & ->)]; assumption. }
        split; [auto|]. split; [apply HS in Hi; lia|]. split; [intros e m [= <- _] _; auto|auto].
      * split. { exists t'. split; [exact E'|]. split; [exact Sh'|]. split; [|lia]. intros x d. rewrite EB, in_app_iff. cbn [In].
          intros [Hi|[[= <- _]|Hi]]; [|lia|]; assert (Q : In (x, d) (concat t)) by (rewrite EA; apply in_app_iff; auto); apply HS in Q; lia. }
        split; [exact Hs|]. split; [lia|]. intros t0 t0'. rewrite E, E'. intros [= <-] [= <-].
        split. { intros x d. rewrite EA, EB, !in_app_iff. cbn [In]. split.
          - intros [Hi|[[= -> ->]|Hi]]; auto.
          - intros [[Hi|Hi]|(_ & -> & ->)]; auto. }
        split; [auto|]. split; [lia|]. split.
        -- intros e m [= <- _] _. unfold search_context.
           assert (F : find (fun e : entry => context_cmp (snd e) c) (concat t') = Some (sid, c)); [|rewrite F; reflexivity].
           rewrite EB, find_filter, filter_app. cbn [filter snd]. rewrite context_cmp_refl.
           assert (filter (fun e : entry => context_cmp (snd e) c) A = []) as ->; [|reflexivity].
           apply filter_none. intros [x d] Hx. cbn [snd]. destruct (context_cmp d c) eqn:Q; [|reflexivity].
           apply context_cmp_eq in Q. subst d. exfalso. apply (Hn x). rewrite EA. apply in_app_iff. auto.
        -- intros e Ge _. unfold search_context. rewrite EA, EB, find_skip; [reflexivity|]. cbn [snd].
           destruct (context_cmp c e) eqn:Q; [|reflexivity]. apply context_cmp_eq in Q. subst e. exfalso.
           destruct (search_context_spec t c) as [(E1 & _)|(_ & Q)]; [intros; apply (HS sid0 d); assumption|lia|].
           exact (Hn _ Q).
    + destruct TC as (-> & -> & _ & Hn). split; [exists t; auto|]. split; [reflexivity|]. split; [lia|].
      intros t0 t0'. rewrite E. intros [= <-] [= <-]. repeat split; auto; try discriminate. intros [Hi|[Q _]]; [exact Hi|discriminate].
Qed.

(** What a trace says against what the table holds; models no code. *)
Definition agree (s : sidtab) (tr : list (top * tout)) : Prop :=
  inv s /\ st_shut s = false /\
  (forall t, st_table s = Some t -> forall sid c, In (sid, c) (concat t) <-> assigned tr sid c) /\
  (st_next s = 1 \/ exists c, assigned tr (st_next s - 1) c).

Lemma assigned_cons o r x tr sid c :
  assigned ((o, (r, x)) :: tr) sid c <-> assigned tr sid c \/
    (r = TOk /\ x = sid /\ match o with TInsert i e _ => i = x /\ e = c | TToSid e _ => e = c end).
Proof.
  unfold assigned. cbn [In]. split.
  - intros [(m & [[= -> -> ->]|H])|(m & [[= -> -> ->]|H])]; eauto 7.
  - intros [[(m & H)|(m & H)]|(-> & -> & H)]; [left; eauto|right; eauto|].
    destruct o as [i e m|e m]; [destruct H as [-> ->]; left|subst e; right]; exists m; left; reflexivity.
Qed.

Lemma run_agree l : forall s tr, agree s tr -> Forall sane_op l ->
  exists s' tr', trun s tr l = ROk (s', tr') /\ agree s' tr'.
Proof.
  induction l as [|o l IH]; intros s tr Ag F; [exists s, tr; auto|]. inversion F as [|? ? F1 F2]; subst.
  destruct Ag as (I & Sh & As & Nx). cbn [trun].
  destruct (step_inv s o I F1) as (s' & r & sid & E & I' & S' & _ & K). rewrite E. apply IH; [|exact F2].
  destruct I as (t & Et & I). pose proof I' as (t' & Et' & _). destruct (K t t' Et Et') as (K1 & K2 & K3 & _).
  split; [exact I'|]. split; [congruence|]. split.
  - intros t0. rewrite Et'. intros [= <-] x d. rewrite K1, assigned_cons, (As t Et).
    split; (intros [H|(Q & H & H2)]; [left; exact H|right; subst; auto]).
  - destruct K2 as [->|[N2 ->]].
    + destruct Nx as [Nx|(c & Nx)]; [left; exact Nx|]. right. exists c. apply assigned_cons. left. exact Nx.
    + right. assert (st_next s' - 1 = sid) as -> by lia.
      destruct o as [i e m|e m]; exists e; apply assigned_cons; right; split; auto; split; auto.
      unfold tstep in E. destruct (sidtab_insert s i e m). injection E as _ _ <-. auto.
Qed.

Lemma agree_init : agree (sidtab_init true) [].
Proof.
  split; [apply inv_init|]. split; [reflexivity|]. split; [|left; reflexivity].
  intros t [= <-] sid c. assert (concat (repeat (@nil entry) 128) = []) as Q by apply concat_repeat_nil.
  cbn [repeat] in Q. rewrite Q. split; [intros []|]. intros [(m & [])|(m & [])].
Qed.

Lemma run_init l : Forall sane_op l -> exists s tr, trun (sidtab_init true) [] l = ROk (s, tr) /\ agree s tr.
Proof. apply run_agree, agree_init. Qed.

Lemma run_trace l : forall s tr s' tr', trun s tr l = ROk (s', tr') -> exists n, tr' = n ++ tr /\ map fst n = rev l.
Proof.
  induction l as [|o l IH]; intros s tr s' tr' H; cbn [trun] in H.
  - injection H as <- <-. exists []. auto.
  - destruct (tstep s o) as [[s1 x]| |]; try discriminate. apply IH in H as (n & -> & E). exists (n ++ [(o, x)]).
    rewrite <- app_assoc. split; [reflexivity|]. rewrite map_app, E. reflexivity.
Qed.

Lemma run_app l1 : forall l2 s tr, trun s tr (l1 ++ l2) =
  match trun s tr l1 with ROk (s', tr') => trun s' tr' l2 | RErr => RErr | RUB => RUB end.
Proof.
  induction l1 as [|o l1 IH]; intros l2 s tr; [reflexivity|]. cbn [app trun].
  destruct (tstep s o) as [[s1 x]| |]; [apply IH|reflexivity|reflexivity].
Qed.

Lemma stable_run l : forall s t e, inv s -> Forall sane_op l -> st_table s = Some t -> 1 <= search_context t e ->
  (forall i m, ~ In (TInsert i e m) l) ->
  forall tr s' tr' t', trun s tr l = ROk (s', tr') -> st_table s' = Some t' -> search_context t' e = search_context t e.
Proof.
  induction l as [|o l IH]; intros s t e I F Et G Hn tr s' tr' t' H Et'; cbn [trun] in H.
  - injection H as <- <-. congruence.
  - inversion F as [|? ? F1 F2]; subst. destruct (step_inv s o I F1) as (s1 & r & sid & E & I1 & _ & _ & K).
    rewrite E in H. pose proof I1 as (t1 & Et1 & _). destruct (K t t1 Et Et1) as (_ & _ & _ & _ & K5).
    rewrite <- (K5 e G); [|intros i m ->; apply (Hn i m); left; reflexivity].
    eapply (IH s1 t1 e I1 F2 Et1); [rewrite (K5 e G); [exact G|]|..|exact H|exact Et'].
    + intros i m ->. apply (Hn i m). left. reflexivity.
    + intros i m Hi. apply (Hn i m). right. exact Hi.
Qed.

Lemma run_inv l : forall s tr, inv s -> Forall sane_op l -> exists s' tr', trun s tr l = ROk (s', tr') /\ inv s'.
Proof.
  induction l as [|o l IH]; intros s tr I F; [exists s, tr; auto|]. inversion F as [|? ? F1 F2]; subst.
  cbn [trun]. destruct (step_inv s o I F1) as (s' & r & sid & E & I' & _). rewrite E. apply IH; assumption.
Qed.

Lemma same_sid l2 c m1 m2 s1 s2 tr2 s3 tr3 s4 sid1 r2 sid2 :
  inv s1 -> Forall sane_op l2 -> (forall i m, ~ In (TInsert i c m) l2) ->
  context_to_sid s1 c m1 = ROk (s2, (TOk, sid1)) ->
  trun s2 tr2 l2 = ROk (s3, tr3) ->
  context_to_sid s3 c m2 = ROk (s4, (r2, sid2)) -> r2 = TOk /\ sid2 = sid1.
Proof.
  intros I1 F2 Hn E1 R2 E2.
  destruct (step_inv s1 (TToSid c m1) I1 I) as (s2' & r & sid & Es & I2 & _ & _ & K). cbn [tstep] in Es. rewrite E1 in Es.
  injection Es as <- <- <-. destruct I1 as (t1 & Et1 & _). pose proof I2 as (t2 & Et2 & _).
  destruct (K t1 t2 Et1 Et2) as (_ & _ & K3 & K4 & _). specialize (K3 eq_refl). specialize (K4 c m1 eq_refl eq_refl).
  destruct (run_inv l2 s2 tr2 I2 F2) as (s3' & tr3' & R2' & I3). rewrite R2 in R2'. injection R2' as <- <-.
  destruct I3 as (t3 & Et3 & _). assert (G : 1 <= search_context t2 c) by lia.
  pose proof (stable_run l2 s2 t2 c I2 F2 Et2 G Hn tr2 s3 tr3 t3 R2 Et3) as Q.
  unfold context_to_sid in E2. rewrite Et3 in E2. rewrite Q, K4 in E2. destruct (N.eqb_spec sid1 0); [lia|].
  cbn [negb] in E2. injection E2 as _ <- <-. auto.
Qed.
