(** Proofs about the joined user database, and laws of histories. *)
From Verif Require Import Base LabelModel LabelSpec LabelProofs DbModel DbSpec DbProofs.
From Coq Require Import Sorted Permutation.

(** ** Laws *)
Section Laws.
Context {R K : Type} (key : R -> K).
Lemma Steps_app : forall (a b : list (dop R K)) l l2 xs, Steps key l (a ++ b) l2 xs -> exists l1 xa xb, Steps key l a l1 xa /\ Steps key l1 b l2 xb /\ xs = xa ++ xb /\ length xa = length a.
Proof.
  induction a as [|o a IH]; intros b l l2 xs H; cbn [app] in H.
  - exists l, [], xs. split; [constructor|]. auto.
  - inversion H as [|? ? l1 x ? ? xs' ST SS]; subst. destruct (IH _ _ _ _ SS) as (m & xa & xb & H1 & H2 & -> & L). exists m, (x :: xa), xb.
    split; [econstructor; eassumption|]. split; [exact H2|]. split; [reflexivity|cbn; lia].
Qed.
Lemma newest_split (l : list R) k a x b a' y b' : newest key l k a x b -> l = a' ++ y :: b' -> key y <> k ->
  (exists m, a = a' ++ y :: m /\ b' = m ++ x :: b) \/ (exists m, b = m ++ y :: b' /\ a' = a ++ x :: m).
Proof.
  intros (E & KE & NK) E2 KY. rewrite E in E2. clear E NK. revert a' E2. induction a as [|z a IH]; intros [|w a'] E2; cbn [app] in E2; injection E2 as E2 E3.
  - subst. congruence.
  - subst w. right. exists a'. cbn. split; [exact E3|reflexivity].
  - subst z. left. exists a. cbn. split; [reflexivity|auto].
  - subst w. destruct (IH a' E3) as [(m & -> & ->)|(m & -> & ->)]; [left|right]; exists m; split; reflexivity.
Qed.
Lemma newest_absent (l : list R) k a x b : newest key l k a x b -> absent key l k -> False.
Proof. intros (-> & KE & _) A. apply (A x); [apply in_app_iff; right; left; reflexivity|exact KE]. Qed.
Lemma newest_det (l : list R) k a x b a' x' b' : newest key l k a x b -> newest key l k a' x' b' -> x = x'.
Proof.
  intros (E & KE & NK) (E2 & KE2 & NK2). rewrite E in E2. clear E. revert a' E2. induction a as [|z a IH]; intros [|w a'] E2; cbn [app] in E2; injection E2 as E2 E3.
  - exact E2.
  - exfalso. apply (NK x'); [|exact KE2]. rewrite E3. apply in_app_iff. right; left; reflexivity.
  - exfalso. apply (NK2 x); [|exact KE]. rewrite <- E3. apply in_app_iff. right; left; reflexivity.
  - apply (IH a' E3).
Qed.
Lemma newest_keep (l : list R) k a x b a' y b' ins : newest key l k a x b -> l = a' ++ y :: b' -> key y <> k -> (forall z, In z ins -> key z <> k) ->
  exists a2 b2, newest key (a' ++ ins ++ b') k a2 x b2.
Proof.
  intros NW E KY NI. pose proof NW as (_ & KE & NK). destruct (newest_split _ _ _ _ _ _ _ _ NW E KY) as [(m & -> & ->)|(m & -> & ->)].
  - exists (a' ++ ins ++ m), b. split; [|split; assumption]. rewrite <- !app_assoc. reflexivity.
  - exists a, (m ++ ins ++ b'). split; [|split; [exact KE|]].
    + rewrite <- !app_assoc. reflexivity.
    + intros z Z. rewrite !in_app_iff in Z. destruct Z as [Z|[Z|Z]]; [|apply NI; exact Z|]; apply NK; rewrite in_app_iff; [left|right; right]; exact Z.
Qed.
Lemma newest_step (l : list R) k a x b o l1 v : newest key l k a x b -> ~ touches key k o -> Step key l o l1 v -> exists a2 b2, newest key l1 k a2 x b2.
Proof.
  intros NW NT ST. pose proof NW as (E & KE & NK). destruct ST as [r| m c r _|k' r a' y b' NY| | m k' r a' y b' NY|k' r _| |k' a' y b' NY| | | | | | | | | | | ]; cbn [touches] in NT; try (exists a, b; exact NW); try tauto.
  - exists a, (b ++ [r]). split; [rewrite E, <- app_assoc; reflexivity|]. split; [exact KE|]. intros z Z. apply in_app_iff in Z as [Z|[<-|[]]]; [apply NK, Z|exact NT].
  - destruct NY as (E2 & KY & _). apply (newest_keep l k a x b a' y b' [r] NW E2); [intros Q; apply NT; left; congruence|]. intros z [<-|[]]. tauto.
  - destruct NY as (E2 & KY & _). apply (newest_keep l k a x b a' y b' [r] NW E2); [intros Q; apply NT; left; congruence|]. intros z [<-|[]]. tauto.
  - exists a, (b ++ [r]). split; [rewrite E, <- app_assoc; reflexivity|]. split; [exact KE|]. intros z Z. apply in_app_iff in Z as [Z|[<-|[]]]; [apply NK, Z|tauto].
  - destruct NY as (E2 & KY & _). apply (newest_keep l k a x b a' y b' [] NW E2); [intros Q; apply NT; congruence|]. intros z [].
Qed.
Lemma newest_steps k x : forall ops (l : list R) l2 xs, Steps key l ops l2 xs -> Forall (fun o => ~ touches key k o) ops -> (exists a b, newest key l k a x b) -> exists a b, newest key l2 k a x b.
Proof.
  induction 1 as [l|l o l1 v ops l2 xs ST SS IH]; intros F (a & b & NW); [eauto|]. apply Forall_cons_iff in F as [F1 F2]. apply IH; [exact F2|]. eapply newest_step; eassumption.
Qed.
Lemma in_replace (a b : list R) y r z : In z (a ++ r :: b) -> z = r \/ In z (a ++ y :: b).
Proof. rewrite !in_app_iff. cbn. intuition. Qed.
Lemma absent_step (l : list R) k o l1 v : absent key l k -> ~ touches key k o -> Step key l o l1 v -> absent key l1 k.
Proof.
  intros A NT ST. destruct ST as [r| m c r _|k' r a' y b' (-> & KY & _)| | m k' r a' y b' (-> & KY & _)|k' r _| |k' a' y b' (-> & KY & _)| | | | | | | | | | | ]; cbn [touches] in NT; try exact A; try tauto.
  - intros z Z. apply in_app_iff in Z as [Z|[<-|[]]]; [apply A, Z|exact NT].
  - intros z Z. destruct (in_replace _ _ y _ _ Z) as [->|Q]; [tauto|apply A, Q].
  - intros z Z. destruct (in_replace _ _ y _ _ Z) as [->|Q]; [tauto|apply A, Q].
  - intros z Z. apply in_app_iff in Z as [Z|[<-|[]]]; [apply A, Z|tauto].
  - intros z Z. apply A. rewrite in_app_iff in *. cbn. tauto.
Qed.
Lemma absent_steps k : forall ops (l : list R) l2 xs, Steps key l ops l2 xs -> Forall (fun o => ~ touches key k o) ops -> absent key l k -> absent key l2 k.
Proof. induction 1 as [l|l o l1 v ops l2 xs ST SS IH]; intros F A; [exact A|]. apply Forall_cons_iff in F as [F1 F2]. apply IH; [exact F2|]. eapply absent_step; eassumption. Qed.

(** Unique keys. *)
Lemma step_unique (l : list R) o l1 v : Step key l o l1 v -> no_add o -> own_key key o -> NoDup (map key l) -> NoDup (map key l1).
Proof.
  intros ST NA OK ND. destruct ST as [r| m c r _|k' r a' y b' (-> & KY & _)| | m k' r a' y b' (-> & KY & _)|k' r AB| |k' a' y b' (-> & KY & _)| | | | | | | | | | | ]; cbn [no_add own_key] in *; try exact ND; try contradiction.
  - rewrite map_app in *. cbn [map] in *. rewrite OK, <- KY. exact ND.
  - rewrite map_app in *. cbn [map] in *. rewrite OK, <- KY. exact ND.
  - rewrite map_app. cbn [map]. apply NoDup_rev in ND. rewrite <- (rev_involutive (map key l ++ [key r])). apply NoDup_rev. rewrite rev_app_distr. cbn [rev app]. constructor; [|exact ND].
    intros I. apply in_rev in I. apply in_map_iff in I as (z & Q & I). apply (AB z I). congruence.
  - rewrite map_app in *. cbn [map] in ND. apply NoDup_remove_1 in ND. exact ND.
  - constructor.
Qed.
Lemma steps_unique : forall ops (l : list R) l2 xs, Steps key l ops l2 xs -> Forall no_add ops -> Forall (own_key key) ops -> NoDup (map key l) -> NoDup (map key l2).
Proof. induction 1 as [l|l o l1 v ops l2 xs ST SS IH]; intros F G A; [exact A|]. apply Forall_cons_iff in F as [F1 F2]. apply Forall_cons_iff in G as [G1 G2]. apply IH; try assumption. eapply step_unique; eassumption. Qed.
Lemma unique_absent (l : list R) k a x b : NoDup (map key l) -> newest key l k a x b -> absent key (a ++ b) k.
Proof.
  intros ND (-> & KE & _) y I Q. rewrite map_app in ND. cbn [map] in ND. apply NoDup_remove_2 in ND. apply ND. rewrite KE, <- Q, <- map_app. apply in_map, I.
Qed.
(** What is stored. *)
Lemma steps_stores (P : R -> Prop) : forall ops (l : list R) l2 xs, Steps key l ops l2 xs -> Forall (stores P) ops -> Forall P l -> Forall P l2.
Proof.
  induction 1 as [l|l o l1 v ops l2 xs ST SS IH]; intros F A; [exact A|]. apply Forall_cons_iff in F as [F1 F2]. apply IH; [exact F2|]. clear -ST F1 A.
  destruct ST as [r| m c r _|k' r a' y b' (-> & KY & _)| | m k' r a' y b' (-> & KY & _)|k' r AB| |k' a' y b' (-> & KY & _)| | | | | | | | | | | ]; cbn [stores] in *; try exact A;
    rewrite ?Forall_app in *; rewrite ?Forall_cons_iff in *; intuition.
Qed.
End Laws.

(** ** Merging *)
Lemma text_le_scmp a b : text_le a b -> scmp a b <> Gt.
Proof.
  induction 1 as [b|x y a b L|x a b H IH]; cbn.
  - destruct b; discriminate.
  - destruct (N.compare_spec x y); try lia. discriminate.
  - rewrite N.compare_refl. exact IH.
Qed.
Definition slt {A} (name : A -> list N) (a b : A) : Prop := scmp (name a) (name b) = Lt.
Lemma strict_sorted {A} (name : A -> list N) l : NoDup (map name l) -> StronglySorted (fun a b => text_le (name a) (name b)) l -> StronglySorted (slt name) l.
Proof.
  induction l as [|x l IH]; intros ND S; [constructor|]. cbn [map] in ND. apply NoDup_cons_iff in ND as [N ND]. inversion S as [|? ? S' F]; subst. constructor; [apply IH; assumption|].
  rewrite Forall_forall in *. intros y I. specialize (F y I). apply text_le_scmp in F. unfold slt. destruct (scmp (name x) (name y)) eqn:E; [|reflexivity|congruence].
  apply scmp_eq in E. exfalso. apply N. rewrite E. apply in_map, I.
Qed.
Lemma sorted_nodup {A} (name : A -> list N) l : StronglySorted (slt name) l -> NoDup (map name l).
Proof.
  induction 1 as [|x l S IH F]; cbn; constructor; [|exact IH]. intros I. apply in_map_iff in I as (y & E & I). rewrite Forall_forall in F. specialize (F y I).
  unfold slt in F. rewrite E, scmp_refl in F. discriminate.
Qed.
Lemma combined_base l1 l2 u b : combined l1 l2 u -> ub_name b <> u_name u -> combined (b :: l1) l2 u.
Proof.
  intros (H1 & H2 & H3) N. split; [|split; [exact H2|]].
  - destruct H1 as [(I & E)|(H & E)]; [left; split; [right; exact I|exact E]|right; split; [|exact E]]. intros c [<-|I]; [exact N|apply H, I].
  - destruct H3 as [(c & I & E)|H3]; [left; exists c; split; [right; exact I|exact E]|right; exact H3].
Qed.
Lemma combined_extra l1 l2 u e : combined l1 l2 u -> ue_name e <> u_name u -> combined l1 (e :: l2) u.
Proof.
  intros (H1 & H2 & H3) N. split; [exact H1|split].
  - destruct H2 as [(I & E)|(H & E)]; [left; split; [right; exact I|exact E]|right; split; [|exact E]]. intros c [<-|I]; [exact N|apply H, I].
  - destruct H3 as [H3|(c & I & E)]; [left; exact H3|right; exists c; split; [right; exact I|exact E]].
Qed.
Lemma scmp_lt_gt a b : scmp a b = Lt -> scmp b a = Gt.
Proof. intros H. rewrite scmp_anti, H. reflexivity. Qed.
Lemma scmp_gt_lt a b : scmp a b = Gt -> scmp b a = Lt.
Proof. intros H. rewrite scmp_anti, H. reflexivity. Qed.
Definition above (n : list N) (l : list (list N)) : Prop := forall m, In m l -> scmp n m = Lt.
Lemma above_not n l : above n l -> ~ In n l.
Proof. intros A I. specialize (A n I). rewrite scmp_refl in A. discriminate. Qed.
Lemma sorted_above {A} (name : A -> list N) x l : StronglySorted (slt name) (x :: l) -> StronglySorted (slt name) l /\ above (name x) (map name l).
Proof.
  intros S. inversion S as [|? ? S' F]; subst. split; [exact S'|]. intros m I. apply in_map_iff in I as (y & <- & I). rewrite Forall_forall in F. exact (F y I).
Qed.
(** One more user in front. *)
Lemma joined_front l1 l2 (b : option ubase) (e : option uextra) us u :
  Joined l1 l2 us -> StronglySorted (slt u_name) us -> above (u_name u) (map ub_name l1) -> above (u_name u) (map ue_name l2) ->
  (forall x, b = Some x -> ub_name x = u_name u) -> (forall x, e = Some x -> ue_name x = u_name u) -> (b <> None \/ e <> None) ->
  u_base u = (match b with Some x => x | None => mkUb (u_name u) None None [] end) ->
  u_extra u = (match e with Some x => x | None => mkUe (u_name u) user_prefix end) ->
  Joined (match b with Some x => x :: l1 | None => l1 end) (match e with Some x => x :: l2 | None => l2 end) (u :: us) /\ StronglySorted (slt u_name) (u :: us).
Proof.
  intros [J1 J2 J3] SO A1 A2 EB EE NE UB UE.
  assert (AB : above (u_name u) (map u_name us)) by (intros m I; apply J2 in I as [I|I]; [apply A1, I|apply A2, I]).
  assert (HS : StronglySorted (slt u_name) (u :: us)).
  { constructor; [exact SO|]. apply Forall_forall. intros y I. apply (AB (u_name y)), in_map, I. }
  split; [|exact HS]. split.
  - apply (sorted_nodup u_name). exact HS.
  - intros n. cbn [map In]. rewrite J2. destruct b as [x|], e as [y|]; cbn [map In].
    + rewrite (EB x eq_refl), (EE y eq_refl). tauto.
    + rewrite (EB x eq_refl). tauto.
    + rewrite (EE y eq_refl). tauto.
    + destruct NE; congruence.
  - intros w [<-|I].
    + split; [|split].
      * destruct b as [x|]; [left; rewrite UB; split; [left; reflexivity|apply EB; reflexivity]|right]. split; [|exact UB].
        intros c IC Q. apply (above_not _ _ A1). rewrite <- Q. apply in_map, IC.
      * destruct e as [x|]; [left; rewrite UE; split; [left; reflexivity|apply EE; reflexivity]|right]. split; [|exact UE].
        intros c IC Q. apply (above_not _ _ A2). rewrite <- Q. apply in_map, IC.
      * destruct b as [x|]; [left; exists x; split; [left; reflexivity|apply EB; reflexivity]|]. destruct e as [x|]; [right; exists x; split; [left; reflexivity|apply EE; reflexivity]|]. destruct NE; congruence.
    + specialize (J3 w I). assert (NE2 : u_name u <> u_name w).
      { intros Q. apply (above_not _ _ AB). rewrite Q. apply in_map, I. }
      destruct b as [x|], e as [y|].
      * apply combined_base, (fun Q => eq_rect_r (fun z => z <> u_name w) NE2 Q); [|apply EB; reflexivity]. apply combined_extra; [exact J3|]. rewrite (EE y eq_refl). exact NE2.
      * apply combined_base; [exact J3|]. rewrite (EB x eq_refl). exact NE2.
      * apply combined_extra; [exact J3|]. rewrite (EE y eq_refl). exact NE2.
      * exact J3.
Qed.
Lemma eta_ub b n : ub_name b = n -> mkUb n (ub_level b) (ub_range b) (ub_roles b) = b.
Proof. intros <-. destruct b; reflexivity. Qed.
Lemma eta_ue e n : ue_name e = n -> mkUe n (ue_prefix e) = e.
Proof. intros <-. destruct e; reflexivity. Qed.
Lemma merge_ok : forall fuel l1 l2 acc, (length l1 + length l2 <= fuel)%nat -> StronglySorted (slt ub_name) l1 -> StronglySorted (slt ue_name) l2 ->
  exists us, merge_loop fuel l1 l2 acc = Some (acc ++ us) /\ Joined l1 l2 us /\ StronglySorted (slt u_name) us.
Proof.
  induction fuel as [|f IH]; intros l1 l2 acc L S1 S2.
  { destruct l1, l2; cbn in L; try lia. exists []. cbn. rewrite app_nil_r. split; [reflexivity|]. split; [|constructor]. split; [constructor|intros n; cbn; tauto|intros u []]. }
  assert (G : forall b e l1' l2' u, user_join b e = Some u -> StronglySorted (slt ub_name) l1' -> StronglySorted (slt ue_name) l2' -> (length l1' + length l2' <= f)%nat ->
    (forall x, b = Some x -> ub_name x = u_name u) -> (forall x, e = Some x -> ue_name x = u_name u) -> (b <> None \/ e <> None) ->
    above (u_name u) (map ub_name l1') -> above (u_name u) (map ue_name l2') ->
    exists us, merge_loop f l1' l2' (acc ++ [user_clone u]) = Some (acc ++ us) /\
      Joined (match b with Some x => x :: l1' | None => l1' end) (match e with Some x => x :: l2' | None => l2' end) us /\ StronglySorted (slt u_name) us).
  { intros b e l1' l2' u UJ T1 T2 LL EB EE NE A1 A2. destruct (IH l1' l2' (acc ++ [user_clone u]) LL T1 T2) as (us & -> & J & SO).
    exists (user_clone u :: us). rewrite <- app_assoc. split; [reflexivity|]. apply joined_front; try assumption.
    - unfold user_join in UJ. unfold user_clone, user_set_name. cbn [u_base u_name]. destruct b as [x|].
      + specialize (EB x eq_refl). injection UJ as <-. cbn in *. rewrite eta_ub by exact EB. destruct x; cbn in *; subst; reflexivity.
      + destruct e as [y|]; [|discriminate]. injection UJ as <-. reflexivity.
    - unfold user_join in UJ. unfold user_clone, user_set_name. cbn [u_extra u_name]. destruct e as [y|].
      + specialize (EE y eq_refl). destruct b as [x|]; injection UJ as <-; cbn in *; rewrite eta_ue by congruence; destruct y; cbn in *; subst; reflexivity.
      + destruct b as [x|]; [|discriminate]. injection UJ as <-. reflexivity. }
  destruct l1 as [|a l1], l2 as [|b l2].
  - exists []. cbn. rewrite app_nil_r. split; [reflexivity|]. split; [|constructor]. split; [constructor|intros n; cbn; tauto|intros u []].
  - cbn [merge_loop hd_error tl user_join]. apply sorted_above in S2 as [S2 A2]. cbn [length] in L. cbn [user_set_name].
    apply (G None (Some b) [] l2); [reflexivity|constructor|exact S2|cbn [length]; lia|discriminate|intros x X; injection X as <-; reflexivity|right; discriminate|intros m []|exact A2].
  - cbn [merge_loop hd_error tl user_join]. apply sorted_above in S1 as [S1 A1]. cbn [length] in L.
    apply (G (Some a) None l1 []); [reflexivity|exact S1|constructor|cbn [length]; lia|intros x X; injection X as <-; reflexivity|discriminate|left; discriminate|exact A1|intros m []].
  - cbn [merge_loop hd_error tl user_join]. pose proof S1 as S1'. pose proof S2 as S2'. apply sorted_above in S1 as [S1 A1]. apply sorted_above in S2 as [S2 A2]. cbn [length] in L.
    unfold ue_compare. destruct (scmp (ue_name b) (ub_name a)) eqn:C.
    + apply scmp_eq in C. apply (G (Some a) (Some b) l1 l2); [reflexivity|exact S1|exact S2|lia|intros x X; injection X as <-; reflexivity|intros x X; injection X as <-; exact C|left; discriminate|exact A1|].
      change (above (ub_name a) (map ue_name l2)). rewrite <- C. exact A2.
    + apply (G None (Some b) (a :: l1) l2); [reflexivity|exact S1'|exact S2|cbn [length]; lia|discriminate|intros x X; injection X as <-; reflexivity|right; discriminate| |exact A2].
      intros m [<-|I]; [exact C|]. eapply scmp_trans; [exact C|apply A1, I].
    + apply scmp_gt_lt in C. apply (G (Some a) None l1 (b :: l2)); [reflexivity|exact S1|exact S2'|cbn [length]; lia|intros x X; injection X as <-; reflexivity|discriminate|left; discriminate|exact A1|].
      intros m [<-|I]; [exact C|]. eapply scmp_trans; [exact C|apply A2, I].
Qed.
(** Joined up to the order of the tables. *)
Lemma joined_perm l1 l2 m1 m2 us : Permutation l1 m1 -> Permutation l2 m2 -> Joined m1 m2 us -> Joined l1 l2 us.
Proof.
  intros P1 P2 [J1 J2 J3]. assert (I1 : forall x, In x l1 <-> In x m1) by (intros x; split; apply Permutation_in; [|apply Permutation_sym]; exact P1).
  assert (I2 : forall x, In x l2 <-> In x m2) by (intros x; split; apply Permutation_in; [|apply Permutation_sym]; exact P2).
  split; [exact J1| |].
  - intros n. rewrite J2, !in_map_iff. split; (intros [(x & E & I)|(x & E & I)]; [left|right]; exists x; split; try exact E; [apply I1|apply I2]; exact I).
  - intros u I. destruct (J3 u I) as (H1 & H2 & H3). split; [|split].
    + destruct H1 as [(A & B)|(A & B)]; [left; split; [apply I1, A|exact B]|right; split; [intros c C; apply A, I1, C|exact B]].
    + destruct H2 as [(A & B)|(A & B)]; [left; split; [apply I2, A|exact B]|right; split; [intros c C; apply A, I2, C|exact B]].
    + destruct H3 as [(c & A & B)|(c & A & B)]; [left|right]; exists c; split; [apply I1, A|exact B|apply I2, A|exact B].
Qed.
Lemma sorted_pick {A} (name : A -> list N) (f : list A -> list A) l : sorts_by name f -> NoDup (map name l) ->
  let l' := if 1 <? N.of_nat (length l) then f l else l in Permutation l l' /\ StronglySorted (slt name) l'.
Proof.
  intros SB ND. cbn zeta. destruct (N.ltb_spec 1 (N.of_nat (length l))).
  - destruct (SB l) as [P S]. split; [exact P|]. apply strict_sorted; [|exact S]. eapply Permutation_NoDup; [|exact ND]. apply Permutation_map, P.
  - split; [reflexivity|]. destruct l as [|x [|y l]]; [constructor|constructor; constructor|cbn [length] in H; lia].
Qed.
Lemma list_whole {R} (db : llist R) l : rep db (rev l) -> N.of_nat (length l) < 2 ^ 32 -> llist_list true (fun _ => true) db = DOk l.
Proof.
  intros RP LN. pose proof RP as (ids & ND & B & Q & C & T & ZZ). unfold llist_list. rewrite ZZ, T, rev_length, N.mod_small by exact LN.
  destruct (N.ltb_spec 0 (N.of_nat (length l))).
  - destruct (list_loop_ok (fun _ => true) (N.of_nat (length l)) ids (fuel_of db) (heap db) (rev l) None [] (fuel_ok db ids ND B) Q ltac:(rewrite rev_length; cbn; lia)) as [(A & ->)|((i & _ & A) & _)]; [rewrite rev_involutive; reflexivity|discriminate].
  - destruct l; [reflexivity|cbn [length] in *; lia].
Qed.
Lemma join_cache_ok sort1 sort2 ser src1 src2 j : sorts_by ub_name sort1 -> sorts_by ue_name sort2 -> (0 <= ser)%Z ->
  unloaded (j_users j) -> unloaded (j_base j) -> unloaded (j_extra j) -> NoDup (map ub_name src1) -> NoDup (map ue_name src2) ->
  N.of_nat (length src1) < 2 ^ 32 -> N.of_nat (length src2) < 2 ^ 32 ->
  exists j' us, join_cache sort1 sort2 ser (src1, true) (src2, true) j = DOk j' /\ Joined src1 src2 us /\ StronglySorted (slt u_name) us /\
    live ser us us (j_users j') /\ modified (j_users j') = false /\ live ser src1 src1 (j_base j') /\ live ser src2 src2 (j_extra j').
Proof.
  intros SB1 SB2 P U0 U1 U2 N1 N2 L1 L2. unfold join_cache, needs_resync. unfold unloaded in *. destruct (Z.ltb_spec (serial (j_users j)) 0); [|lia].
  unfold set_serial at 1. destruct (Z.ltb_spec ser 0); [lia|].
  destruct (cache_loads ser src1 (j_base j) U1 P) as (b & EB & RB & SB & MB). destruct (cache_loads ser src2 (j_extra j) U2 P) as (e & EE & RE & SE & ME).
  unfold fine. rewrite EB, EE, (list_whole b src1 RB L1), (list_whole e src2 RE L2).
  destruct (sorted_pick ub_name sort1 src1 SB1 N1) as [P1 T1]. destruct (sorted_pick ue_name sort2 src2 SB2 N2) as [P2 T2].
  set (l1 := if 1 <? N.of_nat (length src1) then sort1 src1 else src1) in *. set (l2 := if 1 <? N.of_nat (length src2) then sort2 src2 else src2) in *. clearbody l1 l2.
  destruct (merge_ok (length l1 + length l2) l1 l2 [] (le_n _) T1 T2) as (us & -> & J & SO). cbn [app].
  match goal with |- context [prepend_all _ _ _ ?d] => set (d1 := d) end.
  assert (R1 : rep d1 []) by (exists []; split; [constructor|]; split; [intros i []|]; cbn; split; [exact Coq.Init.Logic.I|]; auto).
  destruct (prepend_all_ok us 0 d1 [] R1) as (d2 & -> & H2 & E2 & M2). rewrite app_nil_r in H2. unfold set_serial. destruct (Z.ltb_spec ser 0); [lia|].
  eexists _, us. split; [reflexivity|]. split; [eapply joined_perm; eassumption|]. split; [exact SO|]. cbn [j_users j_base j_extra].
  split; [|split; [|split]].
  - split; [|split; [reflexivity|auto]]. destruct H2 as (ids & H2). exists ids. exact H2.
  - exact M2.
  - split; [exact RB|split; [exact SB|auto]].
  - split; [exact RE|split; [exact SE|auto]].
Qed.
(** ** Flushing *)
Lemma add_ok {R} (r : R) db rs : rep db rs -> exists db', llist_add true true r db = DOk db' /\ rep db' (r :: rs) /\ serial db' = serial db /\ modified db' = true.
Proof. intros RP. unfold llist_add. destruct (prepend_ok r db rs RP) as (d & -> & RD & SD & _). exists (set_mod d). split; [reflexivity|]. split; [apply rep_mod, RD|]. split; [exact SD|reflexivity]. Qed.
Lemma split_ok : forall ids fuel h us nx b e rb re, (length ids < fuel)%nat -> seg h None ids us nx -> rep b rb -> rep e re -> modified b = true -> modified e = true ->
  exists b' e', split_loop fuel h (lst None ids) b e = DOk (b', e') /\ rep b' (map u_base us ++ rb) /\ rep e' (map u_extra us ++ re) /\ serial b' = serial b /\ serial e' = serial e /\ modified b' = true /\ modified e' = true.
Proof.
  induction ids as [|i ids IH] using rev_ind; intros [|fu] h us nx b e rb re L Q RB RE MB ME; try (cbn [length] in L; lia).
  - destruct us; [|contradiction]. exists b, e. repeat split; assumption.
  - rewrite app_length in L. cbn [length] in L. apply seg_snoc in Q as (ra & u & -> & Q & E). rewrite lst_snoc. cbn [split_loop]. rewrite E. cbn [c_data c_prev user_split].
    destruct (add_ok (u_base u) b rb RB) as (b1 & -> & RB1 & SB1 & MB1). destruct (add_ok (u_extra u) e re RE) as (e1 & -> & RE1 & SE1 & ME1).
    destruct (IH fu h ra (Some i) b1 e1 _ _ ltac:(lia) Q RB1 RE1 MB1 ME1) as (b2 & e2 & -> & RB2 & RE2 & SB2 & SE2 & MM). exists b2, e2.
    split; [reflexivity|]. rewrite !map_app, <- !app_assoc. cbn [map app]. split; [exact RB2|]. split; [exact RE2|]. split; [congruence|]. split; [congruence|exact MM].
Qed.
Lemma join_flush_ok ser j us s1 s2 l1 l2 s3 : (0 <= ser)%Z -> live ser s3 us (j_users j) -> modified (j_users j) = true -> live ser s1 l1 (j_base j) -> live ser s2 l2 (j_extra j) ->
  exists j', join_flush ser j = DOk j' /\ live ser us us (j_users j') /\ live ser s1 (map u_base us) (j_base j') /\ live ser s2 (map u_extra us) (j_extra j').
Proof.
  intros P (RU & SU & _) MU (RB & SB & _) (RE & SE & _). unfold join_flush. rewrite MU. cbn [negb].
  destruct (clear_ok ser (j_base j) _ RB P) as (b & -> & RB1 & SB1 & MB1). destruct (clear_ok ser (j_extra j) _ RE P) as (e & -> & RE1 & SE1 & ME1).
  pose proof RU as (ids & ND & B & Q & C & T & ZZ). rewrite T.
  destruct (split_ok ids (fuel_of (j_users j)) (heap (j_users j)) (rev us) None b e [] [] (fuel_ok _ ids ND B) Q RB1 RE1 MB1 ME1) as (b2 & e2 & -> & RB2 & RE2 & SB2 & SE2 & MB2 & ME2).
  rewrite app_nil_r, map_rev in RB2, RE2. eexists. split; [reflexivity|]. cbn [j_users j_base j_extra]. split; [|split].
  - split; [rewrite <- T; exact RU|split; [exact SU|auto]].
  - split; [exact RB2|split; congruence].
  - split; [exact RE2|split; congruence].
Qed.
Lemma nodup_same_name {A} (name : A -> list N) l a b : NoDup (map name l) -> In a l -> In b l -> name a = name b -> a = b.
Proof.
  induction l as [|x l IH]; intros ND IA IB E; [destruct IA|]. cbn [map] in ND. apply NoDup_cons_iff in ND as [N ND].
  destruct IA as [->|IA], IB as [->|IB]; [reflexivity| | |apply IH; assumption]; exfalso; apply N; [rewrite E|rewrite <- E]; apply in_map; assumption.
Qed.
Lemma joined_again us us' : Forall coherent us -> NoDup (map u_name us) -> Joined (map u_base us) (map u_extra us) us' -> Permutation us us'.
Proof.
  intros CO ND [J1 J2 J3]. rewrite Forall_forall in CO.
  assert (EB : map ub_name (map u_base us) = map u_name us) by (rewrite map_map; apply map_ext_in; intros u I; apply (CO u I)).
  assert (EE : map ue_name (map u_extra us) = map u_name us) by (rewrite map_map; apply map_ext_in; intros u I; apply (CO u I)).
  assert (SUB : forall v, In v us' -> In v us).
  { intros v I. assert (IN : In (u_name v) (map u_name us)) by (assert (X : In (u_name v) (map u_name us')) by (apply in_map, I); apply J2 in X; rewrite EB, EE in X; tauto).
    apply in_map_iff in IN as (u & E & IU). destruct (CO u IU) as [C1 C2]. destruct (J3 v I) as (H1 & H2 & _).
    assert (B1 : u_base v = u_base u).
    { destruct H1 as [(H1 & N1)|(H1 & _)].
      - apply in_map_iff in H1 as (w & W & IW). destruct (CO w IW) as [W1 _]. assert (w = u) by (apply (nodup_same_name u_name us); try assumption; congruence). congruence.
      - exfalso. apply (H1 (u_base u)); [apply in_map, IU|congruence]. }
    assert (B2 : u_extra v = u_extra u).
    { destruct H2 as [(H2 & N2)|(H2 & _)].
      - apply in_map_iff in H2 as (w & W & IW). destruct (CO w IW) as [_ W2]. assert (w = u) by (apply (nodup_same_name u_name us); try assumption; congruence). congruence.
      - exfalso. apply (H2 (u_extra u)); [apply in_map, IU|congruence]. }
    assert (v = u) by (destruct u, v; cbn in *; congruence). congruence. }
  apply NoDup_Permutation.
  - clear -ND. induction us as [|x us IH]; [constructor|]. cbn [map] in ND. apply NoDup_cons_iff in ND as [N ND]. constructor; [intros I; apply N, in_map, I|apply IH, ND].
  - clear -J1. induction us' as [|x us IH]; [constructor|]. cbn [map] in J1. apply NoDup_cons_iff in J1 as [N ND]. constructor; [intros I; apply N, in_map, I|apply IH, ND].
  - intros u. split; [|apply SUB]. intros I. assert (X : In (u_name u) (map u_name us')) by (apply J2; left; rewrite EB; apply in_map, I).
    apply in_map_iff in X as (v & E & IV). assert (v = u) by (apply (nodup_same_name u_name us); [exact ND|apply SUB, IV|exact I|exact E]). congruence.
Qed.
Lemma joined_coherent l1 l2 us : Joined l1 l2 us -> Forall coherent us.
Proof.
  intros [_ _ J3]. apply Forall_forall. intros u I. destruct (J3 u I) as (H1 & H2 & _). split.
  - destruct H1 as [(_ & E)|(_ & E)]; [exact E|rewrite E; reflexivity].
  - destruct H2 as [(_ & E)|(_ & E)]; [exact E|rewrite E; reflexivity].
Qed.
(** If both tables have the same names, the halves of the join are the tables. *)
Lemma joined_halves l1 l2 us : NoDup (map ub_name l1) -> NoDup (map ue_name l2) -> (forall n, In n (map ub_name l1) <-> In n (map ue_name l2)) -> Joined l1 l2 us ->
  Permutation l1 (map u_base us) /\ Permutation l2 (map u_extra us).
Proof.
  intros N1 N2 SN J. pose proof (joined_coherent _ _ _ J) as CO. rewrite Forall_forall in CO. destruct J as [J1 J2 J3].
  assert (D1 : NoDup l1) by (clear -N1; induction l1 as [|x l IH]; [constructor|]; cbn [map] in N1; apply NoDup_cons_iff in N1 as [N ND]; constructor; [intros I; apply N, in_map, I|apply IH, ND]).
  assert (D2 : NoDup l2) by (clear -N2; induction l2 as [|x l IH]; [constructor|]; cbn [map] in N2; apply NoDup_cons_iff in N2 as [N ND]; constructor; [intros I; apply N, in_map, I|apply IH, ND]).
  assert (EB : map ub_name (map u_base us) = map u_name us) by (rewrite map_map; apply map_ext_in; intros u I; apply (CO u I)).
  assert (EE : map ue_name (map u_extra us) = map u_name us) by (rewrite map_map; apply map_ext_in; intros u I; apply (CO u I)).
  assert (D3 : NoDup (map u_base us)) by (apply (NoDup_map_inv ub_name); rewrite EB; exact J1).
  assert (D4 : NoDup (map u_extra us)) by (apply (NoDup_map_inv ue_name); rewrite EE; exact J1).
  split; apply NoDup_Permutation; try assumption; intros x; split; intros I.
  - assert (X : In (ub_name x) (map u_name us)) by (apply J2; left; apply in_map, I). apply in_map_iff in X as (u & E & IU). apply in_map_iff. exists u. split; [|exact IU].
    destruct (J3 u IU) as ([(H & HN)|(H & _)] & _); [apply (nodup_same_name ub_name l1); try assumption; congruence|]. exfalso. apply (H x I). congruence.
  - apply in_map_iff in I as (u & <- & IU). destruct (J3 u IU) as ([(H & HN)|(H & _)] & _ & [(c & Q & QN)|(c & Q & QN)]); [exact H|exact H| |].
    + destruct (H c Q QN).
    + exfalso. assert (X : In (u_name u) (map ub_name l1)) by (apply SN; rewrite <- QN; apply in_map, Q). apply in_map_iff in X as (d & DN & ID). exact (H d ID DN).
  - assert (X : In (ue_name x) (map u_name us)) by (apply J2; right; apply in_map, I). apply in_map_iff in X as (u & E & IU). apply in_map_iff. exists u. split; [|exact IU].
    destruct (J3 u IU) as (_ & [(H & HN)|(H & _)] & _); [apply (nodup_same_name ue_name l2); try assumption; congruence|]. exfalso. apply (H x I). congruence.
  - apply in_map_iff in I as (u & <- & IU). destruct (J3 u IU) as (_ & [(H & HN)|(H & _)] & [(c & Q & QN)|(c & Q & QN)]); [exact H|exact H| |].
    + exfalso. assert (X : In (u_name u) (map ue_name l2)) by (apply SN; rewrite <- QN; apply in_map, Q). apply in_map_iff in X as (d & DN & ID). exact (H d ID DN).
    + destruct (H c Q QN).
Qed.
(** ** A whole transaction *)
Lemma joined_det l1 l2 us us' : NoDup (map ub_name l1) -> NoDup (map ue_name l2) -> Joined l1 l2 us -> Joined l1 l2 us' -> Permutation us us'.
Proof.
  intros N1 N2 J J'.
  assert (G : forall a b, Joined l1 l2 a -> Joined l1 l2 b -> forall u, In u a -> In u b).
  { clear us us' J J'. intros a b [A1 A2 A3] [B1 B2 B3] u I. assert (X : In (u_name u) (map u_name b)) by (apply B2, A2, in_map, I). apply in_map_iff in X as (v & E & IV).
    destruct (A3 u I) as (H1 & H2 & _). destruct (B3 v IV) as (K1 & K2 & _). rewrite E in K1, K2.
    assert (u_base v = u_base u).
    { destruct H1 as [(P & Q)|(P & Q)], K1 as [(P' & Q')|(P' & Q')]; [apply (nodup_same_name ub_name l1); congruence|destruct (P' _ P Q)|destruct (P _ P' Q')|congruence]. }
    assert (u_extra v = u_extra u).
    { destruct H2 as [(P & Q)|(P & Q)], K2 as [(P' & Q')|(P' & Q')]; [apply (nodup_same_name ue_name l2); congruence|destruct (P' _ P Q)|destruct (P _ P' Q')|congruence]. }
    assert (v = u) by (destruct u, v; cbn in *; congruence). congruence. }
  apply NoDup_Permutation; [apply (NoDup_map_inv u_name), J|apply (NoDup_map_inv u_name), J'|]. intros u. split; apply G; assumption.
Qed.
Lemma joined_length l1 l2 us : Joined l1 l2 us -> (length us <= length l1 + length l2)%nat.
Proof.
  intros [J1 J2 _]. assert (I : incl (map u_name us) (map ub_name l1 ++ map ue_name l2)) by (intros n X; apply in_app_iff, J2, X).
  pose proof (NoDup_incl_length J1 I) as L. rewrite app_length, !map_length in L. exact L.
Qed.
Lemma u_cmp_key r k : u_compare r k = Eq <-> u_name r = k.
Proof. apply scmp_eq. Qed.
Lemma join_stays s1 s2 ser src1 src2 j : serial (j_users j) = ser -> (0 <= ser)%Z -> join_cache s1 s2 ser src1 src2 j = DOk j.
Proof.
  intros E P. unfold join_cache, needs_resync. destruct (Z.ltb_spec (serial (j_users j)) 0); [lia|]. destruct (Z.ltb_spec ser 0); [lia|]. rewrite E, Z.eqb_refl. destruct j; reflexivity.
Qed.
Lemma jcalls_live s1 s2 ser src1 src2 src : (0 <= ser)%Z -> forall ops l j, live ser src l (j_users j) -> Forall copies ops -> N.of_nat (length l + length ops) < 2 ^ 32 ->
  exists d l' xs, jcalls s1 s2 ser src1 src2 ops j = Some (mkJ d (j_base j) (j_extra j), xs) /\ Steps u_name l ops l' xs /\ live ser src l' d.
Proof.
  intros P. induction ops as [|o ops IH]; intros l j LV CP LN; cbn [jcalls].
  - exists (j_users j), l, []. split; [destruct j; reflexivity|]. split; [constructor|exact LV].
  - apply Forall_cons_iff in CP as [C1 C2]. cbn [length] in LN. unfold jcall. rewrite join_stays by (try apply LV; exact P).
    destruct (op_ok u_compare u_name u_cmp_key ser src l o (j_users j) P LV C1 ltac:(lia)) as (d & l1 & x & -> & ST & LV1 & LL).
    destruct (IH l1 (mkJ d (j_base j) (j_extra j)) LV1 C2 ltac:(lia)) as (d2 & l2 & xs & -> & SS & LV2). cbn [j_base j_extra].
    exists d2, l2, (x :: xs). split; [reflexivity|]. split; [econstructor; eassumption|exact LV2].
Qed.
Lemma jcalls_history s1 s2 ser src1 src2 ops j : sorts_by ub_name s1 -> sorts_by ue_name s2 -> (0 <= ser)%Z ->
  unloaded (j_users j) -> unloaded (j_base j) -> unloaded (j_extra j) -> NoDup (map ub_name src1) -> NoDup (map ue_name src2) -> ops <> [] ->
  Forall copies ops -> N.of_nat (length src1 + length src2 + length ops) < 2 ^ 32 ->
  exists j' us l xs, jcalls s1 s2 ser (src1, true) (src2, true) ops j = Some (j', xs) /\ Joined src1 src2 us /\ StronglySorted (slt u_name) us /\ Steps u_name us ops l xs /\
    live ser us l (j_users j') /\ live ser src1 src1 (j_base j') /\ live ser src2 src2 (j_extra j').
Proof.
  intros SB1 SB2 P U0 U1 U2 N1 N2 NE CP LN.
  destruct (join_cache_ok s1 s2 ser src1 src2 j SB1 SB2 P U0 U1 U2 N1 N2 ltac:(lia) ltac:(lia)) as (j1 & us & E & J & SO & LU & MU & LB & LE).
  pose proof (joined_length _ _ _ J) as LJ.
  destruct (jcalls_live s1 s2 ser (src1, true) (src2, true) us P ops us j1 LU CP ltac:(lia)) as (d & l & xs & EC & SS & LV).
  exists (mkJ d (j_base j1) (j_extra j1)), us, l, xs. split; [|cbn [j_users j_base j_extra]; do 5 (split; [assumption|]); assumption].
  destruct ops as [|o ops]; [congruence|]. cbn [jcalls]. cbn [jcalls] in EC. unfold jcall in *. rewrite E. rewrite (join_stays s1 s2 ser (src1, true) (src2, true) j1) in EC by (try apply LU; exact P). exact EC.
Qed.
Lemma steps_length {R K} (key : R -> K) : forall ops l l2 xs, Steps key l ops l2 xs -> (length l2 <= length l + length ops)%nat.
Proof.
  induction 1 as [l|l o l1 v ops l2 xs ST SS IH]; [cbn; lia|]. cbn [length]. assert (length l1 <= Datatypes.S (length l))%nat; [|lia]. clear -ST.
  destruct ST as [r| m c r _|k' r a' y b' (-> & KY & _)| | m k' r a' y b' (-> & KY & _)|k' r AB| |k' a' y b' (-> & KY & _)| | | | | | | | | | | ]; rewrite ?app_length; cbn [length]; lia.
Qed.
Lemma store_again s1 s2 ser src1 src2 ops j : sorts_by ub_name s1 -> sorts_by ue_name s2 -> (0 <= ser)%Z ->
  unloaded (j_users j) -> unloaded (j_base j) -> unloaded (j_extra j) -> NoDup (map ub_name src1) -> NoDup (map ue_name src2) -> ops <> [] ->
  Forall copies ops -> Forall (own_key u_name) ops -> Forall no_add ops -> Forall (stores coherent) ops -> N.of_nat (length src1 + length src2 + length ops) < 2 ^ 32 ->
  exists j1 us l xs j2 b e f1 f2,
    jcalls s1 s2 ser (src1, true) (src2, true) ops j = Some (j1, xs) /\ Joined src1 src2 us /\ Steps u_name us ops l xs /\
    join_flush ser j1 = DOk j2 /\ file_flush (true, true, true) (Some src1) (j_base j2) = (DOk b, Some f1) /\ file_flush (true, true, true) (Some src2) (j_extra j2) = (DOk e, Some f2) /\
    (modified (j_users j1) = false -> f1 = src1 /\ f2 = src2) /\ (modified (j_users j1) = true -> f1 = map u_base l /\ f2 = map u_extra l) /\
    forall ser' j', (0 <= ser')%Z -> unloaded (j_users j') -> unloaded (j_base j') -> unloaded (j_extra j') ->
      exists j3 us', join_cache s1 s2 ser' (f1, true) (f2, true) j' = DOk j3 /\ shows (j_users j3) us' /\ Permutation l us'.
Proof.
  intros SB1 SB2 P U0 U1 U2 N1 N2 NE CP OK NA SC LN.
  destruct (jcalls_history s1 s2 ser src1 src2 ops j SB1 SB2 P U0 U1 U2 N1 N2 NE CP LN) as (j1 & us & l & xs & EC & J & SO & SS & LU & LB & LE).
  pose proof (steps_unique u_name _ _ _ _ SS NA OK (jo_once _ _ _ J)) as NDL. pose proof (steps_stores u_name coherent _ _ _ _ SS SC (joined_coherent _ _ _ J)) as COL.
  pose proof (joined_length _ _ _ J) as LJ. pose proof (steps_length _ _ _ _ _ SS) as LL.
  assert (AG : forall f1 f2 (C : forall us', Joined f1 f2 us' -> Permutation l us'), NoDup (map ub_name f1) -> NoDup (map ue_name f2) -> N.of_nat (length f1) < 2 ^ 32 -> N.of_nat (length f2) < 2 ^ 32 ->
    forall ser' j', (0 <= ser')%Z -> unloaded (j_users j') -> unloaded (j_base j') -> unloaded (j_extra j') ->
      exists j3 us', join_cache s1 s2 ser' (f1, true) (f2, true) j' = DOk j3 /\ shows (j_users j3) us' /\ Permutation l us').
  { intros f1 f2 C D1 D2 Q1 Q2 ser' j' P' V0 V1 V2. destruct (join_cache_ok s1 s2 ser' f1 f2 j' SB1 SB2 P' V0 V1 V2 D1 D2 Q1 Q2) as (j3 & us' & E3 & J3 & _ & (RU & _) & _).
    exists j3, us'. split; [exact E3|]. specialize (C us' J3). split; [|exact C]. apply list_whole; [exact RU|]. apply Permutation_length in C. lia. }
  destruct (modified (j_users j1)) eqn:M.
  - destruct (join_flush_ok ser j1 l src1 src2 src1 src2 us P LU M LB LE) as (j2 & E2 & LU2 & LB2 & LE2).
    destruct (flush_live ser src1 (map u_base l) (j_base j2) (true, true, true) LB2) as (b & _ & FB). destruct (flush_live ser src2 (map u_extra l) (j_extra j2) (true, true, true) LE2) as (e & _ & FE).
    exists j1, us, l, xs, j2, b, e, (map u_base l), (map u_extra l). do 6 (split; [assumption|]). split; [intros X; congruence|]. split; [auto|]. rewrite Forall_forall in COL. apply AG.
    + intros us' J3. apply joined_again; [apply Forall_forall; exact COL|exact NDL|exact J3].
    + rewrite map_map. erewrite map_ext_in; [exact NDL|]. intros u I. apply (COL u I).
    + rewrite map_map. erewrite map_ext_in; [exact NDL|]. intros u I. apply (COL u I).
    + rewrite map_length. lia.
    + rewrite map_length. lia.
  - assert (E2 : join_flush ser j1 = DOk j1) by (unfold join_flush; rewrite M; reflexivity).
    destruct (flush_live ser src1 src1 (j_base j1) (true, true, true) LB) as (b & _ & FB). destruct (flush_live ser src2 src2 (j_extra j1) (true, true, true) LE) as (e & _ & FE).
    exists j1, us, l, xs, j1, b, e, src1, src2. do 6 (split; [assumption|]). split; [auto|]. split; [intros X; congruence|]. destruct LU as (_ & _ & LM). apply AG; try assumption; try lia.
    intros us' J3. rewrite (LM M). eapply joined_det; eassumption.
Qed.
(** ** Histories from a file *)
Section Histories.
Context {R K : Type} (compare : R -> K -> comparison) (key : R -> K).
Context (cmp_key : forall r k, compare r k = Eq <-> key r = k).
Lemma history_shows ser src ops db : (0 <= ser)%Z -> unloaded db -> ops <> [] -> Forall copies ops -> N.of_nat (length src + length ops) < 2 ^ 32 ->
  exists db' l xs, calls compare ser (src, true) ops db = Some (db', xs) /\ Steps key src ops l xs /\ shows db' l /\ live ser src l db'.
Proof.
  intros P U NE CP LN. destruct (calls_history compare key cmp_key ser src P ops db U NE CP LN) as (d & l & xs & E & SS & LV).
  exists d, l, xs. split; [exact E|]. split; [exact SS|]. split; [|exact LV]. apply list_whole; [apply LV|]. pose proof (steps_length _ _ _ _ _ SS). lia.
Qed.
Lemma Steps_inv_cons (l : list R) o ops l2 xs : Steps key l (o :: ops) l2 xs -> exists l1 x xs', xs = x :: xs' /\ Step key l o l1 x /\ Steps key l1 ops l2 xs'.
Proof. intros H. inversion H; subst. eauto 6. Qed.
Lemma modify_newest (l : list R) k r l1 x : key r = k -> Step key l (OModify true true k r) l1 x -> exists a b, newest key l1 k a r b.
Proof.
  intros KE H. inversion H as [| | | |m k' r' a y b (E & KY & NK)|k' r' AB|m c k' r' AB MC| | | | | | | | | | | |]; subst.
  - exists a, b. split; [reflexivity|]. split; [reflexivity|exact NK].
  - exists l, []. split; [reflexivity|]. split; [reflexivity|intros y []].
  - destruct MC; discriminate.
Qed.
Lemma ask_newest (l : list R) k a r b l2 xs : newest key l k a r b -> Steps key l [OQuery true k; OExists k] l2 xs -> xs = [RRec r; RBool true].
Proof.
  intros NW H. apply Steps_inv_cons in H as (l1 & x & xs' & -> & S1 & H). apply Steps_inv_cons in H as (l3 & y & xs2 & -> & S2 & H). inversion H; subst.
  inversion S1; subst; [|exfalso; eapply newest_absent; eassumption]. f_equal; [f_equal; eapply newest_det; eassumption|].
  inversion S2; subst; [reflexivity|exfalso; eapply newest_absent; eassumption].
Qed.
Lemma ask_absent (l : list R) k c l2 xs : absent key l k -> Steps key l [OQuery c k; OExists k] l2 xs -> xs = [RFail; RBool false].
Proof.
  intros AB H. apply Steps_inv_cons in H as (l1 & x & xs' & -> & S1 & H). apply Steps_inv_cons in H as (l3 & y & xs2 & -> & S2 & H). inversion H; subst.
  assert (x = RFail /\ l1 = l) as [-> ->] by (inversion S1; subst; [exfalso; eapply newest_absent; eassumption|auto|auto]).
  inversion S2; subst; [exfalso; eapply newest_absent; eassumption|reflexivity].
Qed.
Lemma latest ser src pre mid k r db : (0 <= ser)%Z -> unloaded db -> key r = k -> Forall copies pre -> Forall copies mid -> Forall (fun o => ~ touches key k o) mid ->
  N.of_nat (length src + length pre + length mid + 3) < 2 ^ 32 ->
  exists db' xs, calls compare ser (src, true) (pre ++ OModify true true k r :: mid ++ [OQuery true k; OExists k]) db = Some (db', xs ++ [RRec r; RBool true]).
Proof.
  intros P U KE C1 C2 NT LN. destruct (history_shows ser src (pre ++ OModify true true k r :: mid ++ [OQuery true k; OExists k]) db P U) as (d & l & xs & E & SS & _).
  - destruct pre; discriminate.
  - apply Forall_app. split; [exact C1|]. constructor; [reflexivity|]. apply Forall_app. split; [exact C2|]. repeat constructor.
  - rewrite app_length. cbn [length]. rewrite app_length. cbn [length]. lia.
  - apply Steps_app in SS as (l1 & xa & xb & _ & SS & -> & _). apply Steps_inv_cons in SS as (l2 & x & xc & -> & S1 & SS). apply Steps_app in SS as (l3 & xd & xe & SM & SQ & -> & _).
    destruct (newest_steps key k r mid l2 l3 xd SM NT (modify_newest _ _ _ _ _ KE S1)) as (a & b & NW). rewrite (ask_newest _ _ _ _ _ _ _ NW SQ) in E.
    exists d, (xa ++ x :: xd). rewrite E. f_equal. f_equal. rewrite <- app_assoc. reflexivity.
Qed.
Lemma gone ser src pre mid k c db : (0 <= ser)%Z -> unloaded db -> NoDup (map key src) -> Forall copies pre -> Forall (own_key key) pre -> Forall no_add pre -> Forall copies mid ->
  Forall (fun o => ~ touches key k o) mid -> N.of_nat (length src + length pre + length mid + 3) < 2 ^ 32 ->
  exists db' xs, calls compare ser (src, true) (pre ++ ODel k :: mid ++ [OQuery c k; OExists k]) db = Some (db', xs ++ [RFail; RBool false]).
Proof.
  intros P U ND C1 OK NA C2 NT LN. destruct (history_shows ser src (pre ++ ODel k :: mid ++ [OQuery c k; OExists k]) db P U) as (d & l & xs & E & SS & _).
  - destruct pre; discriminate.
  - apply Forall_app. split; [exact C1|]. constructor; [exact Coq.Init.Logic.I|]. apply Forall_app. split; [exact C2|]. repeat constructor.
  - rewrite app_length. cbn [length]. rewrite app_length. cbn [length]. lia.
  - apply Steps_app in SS as (l1 & xa & xb & SP & SS & -> & _). apply Steps_inv_cons in SS as (l2 & x & xc & -> & S1 & SS). apply Steps_app in SS as (l3 & xd & xe & SM & SQ & -> & _).
    pose proof (steps_unique key _ _ _ _ SP NA OK ND) as ND1.
    assert (AB : absent key l2 k) by (inversion S1; subst; [eapply unique_absent; eassumption|assumption]).
    pose proof (absent_steps key k _ _ _ _ SM NT AB) as AB3. rewrite (ask_absent _ _ _ _ _ AB3 SQ) in E.
    exists d, (xa ++ x :: xd). rewrite E. f_equal. f_equal. rewrite <- app_assoc. reflexivity.
Qed.
Lemma flushed ser src ops db : (0 <= ser)%Z -> unloaded db -> ops <> [] -> Forall copies ops -> N.of_nat (length src + length ops) < 2 ^ 32 ->
  exists db' l xs db'', calls compare ser (src, true) ops db = Some (db', xs) /\ Steps key src ops l xs /\ file_flush (true, true, true) (Some src) db' = (DOk db'', Some l) /\ shows db'' l.
Proof.
  intros P U NE CP LN. destruct (history_shows ser src ops db P U NE CP LN) as (d & l & xs & E & SS & SH & LV).
  destruct (flush_live ser src l d (true, true, true) LV) as (d2 & LV2 & F). exists d, l, xs, d2. do 3 (split; [assumption|]). apply list_whole; [apply LV2|].
  pose proof (steps_length _ _ _ _ _ SS). lia.
Qed.
End Histories.
