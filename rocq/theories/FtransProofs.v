(** Proofs about file name transitions. *)
From Coq Require Import Permutation Sorted.
From Verif Require Import Base EbitmapModel EbitmapSpec EbitmapProofs AvtabModel HashtabModel HashtabSpec HashtabProofs AssertModel AssertProofs CodecModel CodecSpec CodecProofs FtransModel FtransSpec.

Notation entry := (fkey * list (ebitmap * N))%type.

(** ** Keys *)
Lemma key_order : total_order filenametr_cmp.
Proof.
  destruct symcmp_order as (S1 & S2 & S3). split; [|split].
  - intros [a1 a2 a3] [b1 b2 b3]. unfold filenametr_cmp. cbn [fk_ttype fk_tclass fk_name].
    destruct (N.compare_spec a1 b1) as [E|E|E]; [|split; [discriminate|intros [= -> _ _]; lia]|split; [discriminate|intros [= -> _ _]; lia]].
    destruct (N.compare_spec a2 b2) as [F|F|F]; [|split; [discriminate|intros [= _ -> _]; lia]|split; [discriminate|intros [= _ -> _]; lia]].
    subst. rewrite S1. split; [intros ->; reflexivity|intros [= ->]; reflexivity].
  - intros [a1 a2 a3] [b1 b2 b3]. unfold filenametr_cmp. cbn [fk_ttype fk_tclass fk_name]. rewrite (N.compare_antisym a1 b1).
    destruct (N.compare a1 b1); cbn [CompOpp]; [|split; discriminate|split; reflexivity]. rewrite (N.compare_antisym a2 b2).
    destruct (N.compare a2 b2); cbn [CompOpp]; [apply S2|split; discriminate|split; reflexivity].
  - intros [a1 a2 a3] [b1 b2 b3] [c1 c2 c3]. unfold filenametr_cmp. cbn [fk_ttype fk_tclass fk_name].
    destruct (N.compare_spec a1 b1) as [E|E|E]; try discriminate; destruct (N.compare_spec b1 c1) as [F|F|F]; try discriminate.
    + subst. rewrite N.compare_refl. destruct (N.compare_spec a2 b2) as [E|E|E]; try discriminate; destruct (N.compare_spec b2 c2) as [F|F|F]; try discriminate.
      * subst. rewrite N.compare_refl. apply S3.
      * subst. intros _ _. apply N.compare_lt_iff in F. rewrite F. reflexivity.
      * subst. intros _ _. apply N.compare_lt_iff in E. rewrite E. reflexivity.
      * intros _ _. assert (X : a2 < c2) by lia. apply N.compare_lt_iff in X. rewrite X. reflexivity.
    + subst. intros _ _. apply N.compare_lt_iff in F. rewrite F. reflexivity.
    + subst. intros _ _. apply N.compare_lt_iff in E. rewrite E. reflexivity.
    + intros _ _. assert (X : a1 < c1) by lia. apply N.compare_lt_iff in X. rewrite X. reflexivity.
Qed.
Lemma hash_range size k : 1 <= size -> filenametr_hash size k < size.
Proof.
  intros H. unfold filenametr_hash. match goal with |- N.land ?x _ < _ => generalize x end. intros x. assert (N.land x (size - 1) <= size - 1); [|lia].
  apply N.ldiff_le, bits_zero. intros i. rewrite N.ldiff_spec, N.land_spec. destruct (N.testbit (size - 1) i); rewrite ?andb_false_r; reflexivity.
Qed.
Notation REP := (Rep filenametr_hash filenametr_cmp).
Lemma key_eqb a b : keqb filenametr_cmp a b = true <-> a = b.
Proof. unfold keqb. pose proof (proj1 key_order a b) as H. destruct (filenametr_cmp a b); [|split; [discriminate|intros X; apply H in X; discriminate]|split; [discriminate|intros X; apply H in X; discriminate]]. rewrite <- H. split; reflexivity. Qed.

Lemma rep_perm h (l l' : list entry) : REP h l -> Permutation l l' -> REP h l'.
Proof.
  intros (W & S & P & ND) Q. split; [exact W|]. split; [exact S|]. split; [eapply perm_trans; eassumption|]. eapply Permutation_NoDup; [apply Permutation_map, Q|exact ND].
Qed.
Lemma search_in t (l : list entry) k d : REP (ft_tab t) l -> (ft_search t k = Some d <-> In (k, d) l).
Proof.
  intros R. unfold ft_search. rewrite (rep_search _ _ key_order _ _ k R). apply (assoc_in _ key_order). apply R.
Qed.
Lemma search_none t (l : list entry) k : REP (ft_tab t) l -> (ft_search t k = None <-> ~ In k (map fst l)).
Proof.
  intros R. split.
  - intros H X. apply in_map_iff in X. destruct X as ([k' d] & E & X). cbn in E. subst k'. apply (proj2 (search_in t l k d R)) in X. congruence.
  - intros H. destruct (ft_search t k) as [d|] eqn:E; [|reflexivity]. apply (proj1 (search_in t l k d R)) in E. exfalso. apply H. exact (in_map fst l (k, d) E).
Qed.

Definition upd (k : fkey) (d : list (ebitmap * N)) (e : entry) : entry := match filenametr_cmp k (fst e) with Eq => (fst e, d) | _ => e end.
Lemma upd_key k d e : fst (upd k d e) = fst e.
Proof. unfold upd. destruct (filenametr_cmp k (fst e)); reflexivity. Qed.
Lemma put_rep h k d d' (l : list entry) : REP h ((k, d) :: l) -> REP (ft_put h k d') ((k, d') :: l).
Proof.
  intros ((S1 & C & Nl) & U & P & ND). unfold ft_put. fold (upd k d'). set (h' := mkH (map (map (upd k d')) (h_slots h)) (h_nel h)).
  assert (Sz : h_size h' = h_size h) by (unfold h_size, h'; cbn [h_slots]; rewrite map_length; reflexivity).
  assert (Cc : concat (h_slots h') = map (upd k d') (concat (h_slots h))) by (unfold h'; cbn [h_slots]; symmetry; apply concat_map).
  split; [|split; [rewrite Sz; exact U|split]].
  - split; [rewrite Sz; exact S1|]. split.
    + rewrite Sz. intros i. unfold h'. cbn [h_slots]. change (@nil entry) with (map (upd k d') []). rewrite map_nth. destruct (C i) as [C1 C2]. split.
      * revert C1. generalize (nth i (h_slots h) []). intros c. induction c as [|e c IH]; intros SC; cbn [map]; [constructor|]. inversion SC as [|? ? A F]; subst. constructor; [apply IH, A|].
        apply Forall_map. eapply Forall_impl; [|exact F]. intros y Y. rewrite !upd_key. exact Y.
      * intros e He. apply in_map_iff in He. destruct He as (e0 & <- & He). rewrite upd_key. apply C2, He.
    + rewrite Cc, map_length. exact Nl.
  - rewrite Cc. eapply perm_trans; [apply Permutation_map, P|]. cbn [map]. unfold upd at 1. cbn [fst]. rewrite (proj2 (proj1 key_order k k) eq_refl).
    rewrite (map_ext_in (upd k d') (fun x => x)); [rewrite map_id; apply Permutation_refl|]. intros e He. unfold upd. destruct (filenametr_cmp k (fst e)) eqn:E; try reflexivity.
    apply (proj1 key_order) in E. exfalso. cbn [map fst] in ND. inversion ND as [|? ? A _]; subst. apply A. apply in_map, He.
  - cbn [map fst] in *. exact ND.
Qed.
Lemma add_rep h k d h' (l : list entry) : REP h l -> ft_add h k d = Some h' -> REP h' ((k, d) :: l) /\ ~ In k (map fst l) /\ N.of_nat (length l) <> 4294967295.
Proof.
  intros R E. pose proof (step_rep _ _ key_order hash_range h l (HInsert k d true true) R) as [R1 R2]. unfold ft_add in E. cbn [hstep ref_step] in *.
  destruct (hashtab_insert filenametr_hash filenametr_cmp h k d true true) as [h1 r1]. destruct r1; try discriminate. injection E as ->.
  destruct (N.of_nat (length l) =? 4294967295) eqn:B; [discriminate|]. destruct (assoc (keqb filenametr_cmp) l k) eqn:A; [discriminate|].
  cbn [fst snd] in *. split; [exact R1|]. split; [|apply N.eqb_neq, B]. intros X. destruct R1 as (_ & _ & _ & ND). cbn [map fst] in ND. inversion ND. contradiction.
Qed.
Lemma add_ok h k d (l : list entry) : REP h l -> ~ In k (map fst l) -> N.of_nat (length l) <> 4294967295 -> exists h', ft_add h k d = Some h' /\ REP h' ((k, d) :: l).
Proof.
  intros R NI NE. pose proof (step_rep _ _ key_order hash_range h l (HInsert k d true true) R) as [R1 R2]. unfold ft_add. cbn [hstep ref_step] in *.
  apply N.eqb_neq in NE. rewrite NE in *. assert (A : assoc (keqb filenametr_cmp) l k = None).
  { destruct (assoc (keqb filenametr_cmp) l k) as [v|] eqn:A; [|reflexivity]. apply (assoc_in _ key_order) in A; [|apply R]. exfalso. apply NI. exact (in_map fst l (k, v) A). }
  rewrite A in *. destruct (hashtab_insert filenametr_hash filenametr_cmp h k d true true) as [h1 r1]. cbn [fst snd] in *. injection R2 as ->. exists h1. auto.
Qed.
Lemma init_rep : REP (ft_tab ft_init) [].
Proof. apply (create_rep filenametr_hash filenametr_cmp hash_range 1024); [lia|unfold W32; lia]. Qed.

(** ** The data of a key *)
Definition dmem (d : list (ebitmap * N)) (b o : N) : Prop := exists e, In (e, o) d /\ member e b.
Definition data_ok (d : list (ebitmap * N)) : Prop := d <> [] /\ Forall (fun x => valid (fst x)) d /\ NoDup (map snd d).
Definition dcount (d : list (ebitmap * N)) : nat := fold_right (fun x n => (length (bits (fst x)) + n)%nat) 0%nat d.

Lemma pred32_ok s : 1 <= s -> s < 4294967296 -> pred32 s = s - 1.
Proof. intros A B. unfold pred32, wrap32. change W32 with 4294967296. replace (s + 4294967295) with (s - 1 + 1 * 4294967296) by lia. rewrite N.mod_add by discriminate. apply N.mod_small. lia. Qed.
Lemma set_in_place_ok e b : valid e -> b < 4294967232 -> exists e', set_in_place e b = (e', true) /\ valid e' /\ forall x, member e' x <-> member e x \/ x = b.
Proof.
  intros V B. destruct (set_bit_ok e b true V B) as (e' & E & V' & G). unfold set_in_place. rewrite E. exists e'. split; [reflexivity|]. split; [exact V'|].
  intros x. rewrite <- (nget_member e' x V'), G, <- (nget_member e x V). destruct (N.eqb_spec x b); intuition congruence.
Qed.
Lemma bits_plus e e' b : valid e -> valid e' -> (forall x, member e' x <-> member e x \/ x = b) -> ~ member e b -> length (bits e') = S (length (bits e)).
Proof.
  intros V V' G NM. change (S (length (bits e))) with (length (b :: bits e)). apply Permutation_length, NoDup_Permutation.
  - apply bits_nodup, V'.
  - constructor; [rewrite bits_in by exact V; exact NM|apply bits_nodup, V].
  - intros x. cbn [In]. rewrite !bits_in by assumption. rewrite G. intuition congruence.
Qed.
Lemma bits_init : bits ebitmap_init = []. Proof. reflexivity. Qed.
Lemma init_empty x : ~ member ebitmap_init x. Proof. intros (s & m & [] & _). Qed.

Lemma walk_spec s o d : 1 <= s <= 4294967232 -> Forall (fun x => valid (fst x)) d -> NoDup (map snd d) ->
  match ft_walk s o d with
  | FPresent o' => dmem d (s - 1) o'
  | FPlaced d' ok => ok = true /\ d' <> [] /\ Forall (fun x => valid (fst x)) d' /\ (map snd d' = map snd d \/ (~ In o (map snd d) /\ map snd d' = map snd d ++ [o])) /\
      (forall b' o', dmem d' b' o' <-> dmem d b' o' \/ (b' = s - 1 /\ o' = o)) /\ ~ dmem d (s - 1) o /\ dcount d' = S (dcount d)
  end.
Proof.
  intros HS. induction d as [|[e o1] d IH]; intros V ND; cbn [ft_walk].
  - rewrite pred32_ok by lia. destruct (set_in_place_ok ebitmap_init (s - 1) valid_init ltac:(lia)) as (e' & -> & V' & G). split; [reflexivity|]. split; [discriminate|].
    split; [constructor; [exact V'|constructor]|]. split; [right; split; [intros []|reflexivity]|]. split; [|split].
    + intros b' o'. split.
      * intros (x & [[= <- <-]|[]] & M). right. split; [|reflexivity]. apply G in M. destruct M as [M|M]; [destruct (init_empty _ M)|exact M].
      * intros [(x & [] & _)|[-> ->]]. exists e'. split; [left; reflexivity|]. apply G. right. reflexivity.
    + intros (x & [] & _).
    + cbn [dcount fold_right fst]. rewrite (bits_plus ebitmap_init e' (s - 1) valid_init V' G (init_empty _)). reflexivity.
  - apply Forall_cons_iff in V as [V1 V]. cbn [fst] in V1. cbn [map snd] in ND. inversion ND as [|? ? NI ND']; subst. specialize (IH V ND'). rewrite pred32_ok in * by lia.
    destruct (ebitmap_get_bit e (s - 1)) eqn:GB.
    + apply (get_bit_member e _ V1) in GB. exists e. split; [left; reflexivity|exact GB].
    + assert (NM : ~ member e (s - 1)) by (intros M; apply (get_bit_member e _ V1) in M; congruence).
      destruct (N.eqb_spec o1 o) as [->|NE].
      * destruct (set_in_place_ok e (s - 1) V1 ltac:(lia)) as (e' & -> & V' & G). split; [reflexivity|]. split; [discriminate|]. split; [constructor; [exact V'|exact V]|].
        split; [left; reflexivity|]. split; [|split].
        -- intros b' o'. split.
           ++ intros (x & [[= <- <-]|X] & M).
              ** apply G in M. destruct M as [M|M]; [left; exists e; split; [left; reflexivity|exact M]|right; auto].
              ** left. exists x. split; [right; exact X|exact M].
           ++ intros [(x & [[= <- <-]|X] & M)|[-> ->]].
              ** exists e'. split; [left; reflexivity|]. apply G. left. exact M.
              ** exists x. split; [right; exact X|exact M].
              ** exists e'. split; [left; reflexivity|]. apply G. right. reflexivity.
        -- intros (x & [[= <-]|X] & M); [exact (NM M)|]. apply NI. exact (in_map snd d (x, o) X).
        -- cbn [dcount fold_right fst]. rewrite (bits_plus e e' (s - 1) V1 V' G NM). reflexivity.
      * destruct (ft_walk s o d) as [o'|d' ok].
        -- destruct IH as (x & X & M). exists x. split; [right; exact X|exact M].
        -- destruct IH as (-> & N1 & V' & MS & G & NG & CT). split; [reflexivity|]. split; [discriminate|]. split; [constructor; [exact V1|exact V']|]. split; [|split; [|split]].
           ++ cbn [map snd]. destruct MS as [-> |[NO ->]]; [left; reflexivity|]. right. split; [|reflexivity]. intros [X|X]; [congruence|contradiction].
           ++ intros b' o'. split.
              ** intros (x & [[= <- <-]|X] & M); [left; exists e; split; [left; reflexivity|exact M]|]. destruct (proj1 (G b' o')) as [(y & Y & M')|Q]; [exists x; auto| |right; exact Q].
                 left. exists y. split; [right; exact Y|exact M'].
              ** intros [(x & [[= <- <-]|X] & M)|Q]; [exists e; split; [left; reflexivity|exact M]| |].
                 --- destruct (proj2 (G b' o')) as (y & Y & M'); [left; exists x; auto|]. exists y. split; [right; exact Y|exact M'].
                 --- destruct (proj2 (G b' o')) as (y & Y & M'); [right; exact Q|]. exists y. split; [right; exact Y|exact M'].
           ++ intros (x & [[= <- X2]|X] & M); [congruence|]. apply NG. exists x. auto.
           ++ cbn [dcount fold_right fst] in *. fold (dcount d') (dcount d). rewrite CT. lia.
Qed.
Lemma walk_data s o d d' ok : 1 <= s <= 4294967232 -> Forall (fun x => valid (fst x)) d -> NoDup (map snd d) -> ft_walk s o d = FPlaced d' ok -> data_ok d'.
Proof.
  intros HS V ND E. pose proof (walk_spec s o d HS V ND) as H. rewrite E in H. destruct H as (_ & N1 & V' & MS & _). split; [exact N1|]. split; [exact V'|].
  destruct MS as [-> |[NI ->]]; [exact ND|]. eapply Permutation_NoDup; [apply Permutation_cons_append|]. constructor; assumption.
Qed.

(** ** Tables *)
Definition rules_of (l : list entry) : list rule :=
  flat_map (fun x : entry => flat_map (fun y : ebitmap * N => map (fun b => mkRule (b + 1) (fst x) (snd y)) (bits (fst y))) (snd x)) l.
Definition lcount (l : list entry) : nat := fold_right (fun x n => (dcount (snd x) + n)%nat) 0%nat l.
Definition Inv (t : ftable) (l : list entry) : Prop :=
  REP (ft_tab t) l /\ Forall (fun x => data_ok (snd x)) l /\ ft_count t = wrap32 (N.of_nat (lcount l)) /\ N.of_nat (length l) < 4294967296.

Lemma rules_in l r : Forall (fun x => data_ok (snd x)) l -> (In r (rules_of l) <-> exists d, In (f_key r, d) l /\ 1 <= f_src r /\ dmem d (f_src r - 1) (f_new r)).
Proof.
  intros F. unfold rules_of. rewrite in_flat_map. split.
  - intros ([k d] & X & Y). apply in_flat_map in Y. destruct Y as ([e o] & Y & Z). apply in_map_iff in Z. destruct Z as (b & <- & B). cbn [fst snd f_key f_src f_new] in *.
    exists d. split; [exact X|]. split; [lia|]. exists e. split; [exact Y|]. rewrite Forall_forall in F. destruct (F _ X) as (_ & V & _). rewrite Forall_forall in V. specialize (V _ Y). cbn [fst] in V.
    rewrite bits_in in B by exact V. replace (b + 1 - 1) with b by lia. exact B.
  - intros (d & X & G & e & Y & M). exists (f_key r, d). split; [exact X|]. apply in_flat_map. exists (e, f_new r). split; [exact Y|]. apply in_map_iff. exists (f_src r - 1). cbn [fst snd]. split.
    + destruct r as [s k o]. cbn [f_src f_key f_new] in *. f_equal. lia.
    + rewrite Forall_forall in F. destruct (F _ X) as (_ & V & _). rewrite Forall_forall in V. specialize (V _ Y). cbn [fst] in V. apply bits_in; assumption.
Qed.
Lemma has_in t l r : Inv t l -> (has t r <-> In r (rules_of l)).
Proof.
  intros (R & F & _). rewrite rules_in by exact F. unfold has. split.
  - intros (d & e & S & X & G & M). exists d. rewrite <- (search_in t l (f_key r) d R). split; [exact S|]. split; [exact G|]. exists e. auto.
  - intros (d & X & G & e & Y & M). exists d, e. rewrite (search_in t l (f_key r) d R). auto.
Qed.
Lemma rules_len l : length (rules_of l) = lcount l.
Proof.
  unfold rules_of, lcount. induction l as [|[k d] l IH]; [reflexivity|]. cbn [flat_map fold_right snd fst]. rewrite app_length, IH. f_equal.
  unfold dcount. induction d as [|[e o] d IHd]; [reflexivity|]. cbn [flat_map fold_right snd fst]. rewrite app_length, IHd, map_length. reflexivity.
Qed.
Lemma nodup_app {A} (a b : list A) : NoDup a -> NoDup b -> (forall x, In x a -> ~ In x b) -> NoDup (a ++ b).
Proof.
  induction a as [|x a IH]; intros A1 B D; cbn [app]; [exact B|]. inversion A1; subst. constructor.
  - intros X. apply in_app_iff in X. destruct X as [X|X]; [contradiction|]. apply (D x); [left; reflexivity|exact X].
  - apply IH; [assumption|exact B|]. intros y Y. apply D. right. exact Y.
Qed.
Lemma rules_nodup l : Forall (fun x => data_ok (snd x)) l -> NoDup (map fst l) -> NoDup (rules_of l).
Proof.
  intros F ND. induction l as [|[k d] l IH]; [constructor|]. apply Forall_cons_iff in F as [(_ & V & NO) F]. cbn [map fst snd] in *. inversion ND as [|? ? NI ND']; subst. change (rules_of ((k, d) :: l)) with
    (flat_map (fun y : ebitmap * N => map (fun b => mkRule (b + 1) k (snd y)) (bits (fst y))) d ++ rules_of l). apply nodup_app; [|apply IH; assumption|].
  - clear NI IH. induction d as [|[e o] d IHd]; [constructor|]. apply Forall_cons_iff in V as [V1 V]. cbn [map snd fst flat_map] in *. inversion NO as [|? ? NO1 NO2]; subst. apply nodup_app; [|apply IHd; assumption|].
    + apply FinFun.Injective_map_NoDup; [intros x y E; injection E; lia|apply bits_nodup, V1].
    + intros x X Y. apply in_map_iff in X. destruct X as (b & <- & _). apply in_flat_map in Y. destruct Y as ([e2 o2] & Y & Z). apply in_map_iff in Z. destruct Z as (b2 & E & _). cbn [snd] in E. injection E as _ E.
      apply NO1. rewrite <- E. exact (in_map snd d (e2, o2) Y).
  - intros x X Y. apply in_flat_map in X. destruct X as (y & _ & X). apply in_map_iff in X. destruct X as (b & <- & _). apply rules_in in Y; [|exact F]. destruct Y as (d' & Y & _). cbn [f_key] in Y.
    apply NI. exact (in_map fst l (k, d') Y).
Qed.
Lemma lcount_perm l l' : Permutation l l' -> lcount l = lcount l'.
Proof. unfold lcount. induction 1; cbn [fold_right]; lia. Qed.
Lemma inv_perm t l l' : Inv t l -> Permutation l l' -> Inv t l'.
Proof.
  intros (R & F & C & L) P. split; [apply (rep_perm _ _ _ R P)|]. split; [eapply Permutation_Forall; eassumption|]. split; [rewrite C, (lcount_perm _ _ P); reflexivity|]. rewrite <- (Permutation_length P). exact L.
Qed.
Lemma wrap_succ n : wrap32 (wrap32 (N.of_nat n) + 1) = wrap32 (N.of_nat (S n)).
Proof. unfold wrap32. rewrite N.add_mod_idemp_l by discriminate. f_equal. lia. Qed.
Lemma in_split_perm {A} (x : A) l : In x l -> exists l', Permutation l (x :: l').
Proof. intros H. apply in_split in H. destruct H as (a & b & ->). exists (a ++ b). symmetry. apply Permutation_middle. Qed.

(** Pairs of a key and a new type. *)
Definition pair_in (l : list entry) (k : fkey) (o : N) : Prop := exists d e, In (k, d) l /\ In (e, o) d.
Lemma pair_perm l l' k o : Permutation l l' -> pair_in l k o -> pair_in l' k o.
Proof. intros P (d & e & X & Y). exists d, e. split; [exact (Permutation_in _ P X)|exact Y]. Qed.

Lemma insert_spec t l r : Inv t l -> 1 <= f_src r <= 4294967232 ->
  (N.of_nat (length l) = 4294967295 /\ filetrans_insert t (f_src r) (f_key r) (f_new r) = (t, FFailed)) \/
  (exists o, filetrans_insert t (f_src r) (f_key r) (f_new r) = (t, FExists o) /\ In (mkRule (f_src r) (f_key r) o) (rules_of l)) \/
  (exists t' l', filetrans_insert t (f_src r) (f_key r) (f_new r) = (t', FAdded) /\ Inv t' l' /\ (length l' <= S (length l))%nat /\
     (forall x, In x (rules_of l') <-> In x (rules_of l) \/ x = r) /\ ~ In r (rules_of l) /\
     (forall k o, pair_in l' k o -> pair_in l k o \/ (k = f_key r /\ o = f_new r)) /\
     (Forall (fun x => (1 <= dcount (snd x))%nat) l -> Forall (fun x => (1 <= dcount (snd x))%nat) l')).
Proof.
  destruct r as [s k o]. cbn [f_src f_key f_new]. intros I HS. pose proof I as (R & F & C & L). unfold filetrans_insert. destruct (ft_search t k) as [d|] eqn:Q.
  - right. apply (proj1 (search_in t l k d R)) in Q. destruct (in_split_perm _ _ Q) as (l0 & P). pose proof (inv_perm _ _ _ I P) as (R0 & F0 & C0 & L0).
    pose proof F0 as F0'. apply Forall_cons_iff in F0 as [(DN & V & NO) F0]. cbn [snd] in *. pose proof (walk_spec s o d HS V NO) as W. pose proof (walk_data s o d) as WD. destruct (ft_walk s o d) as [o'|d' ok].
    + left. exists o'. split; [reflexivity|]. apply rules_in; [exact F|]. exists d. cbn [f_key f_src f_new]. split; [exact Q|]. split; [lia|exact W].
    + right. destruct W as (-> & N1 & V' & MS & G & NG & CT). exists (mkFT (ft_put (ft_tab t) k d') (wrap32 (ft_count t + 1))), ((k, d') :: l0). split; [reflexivity|].
      specialize (WD d' true HS V NO eq_refl). assert (F1 : Forall (fun x => data_ok (snd x)) ((k, d') :: l0)) by (constructor; [exact WD|exact F0]).
      assert (KR : forall x dd, f_key x = k -> In (f_key x, dd) l -> dd = d).
      { intros x dd E X. rewrite E in X. apply (proj2 (search_in t l k _ R)) in X. apply (proj2 (search_in t l k _ R)) in Q. congruence. }
      split; [|split; [|split; [|split; [|split]]]].
      * split; [apply (put_rep _ _ d), R0|]. split; [exact F1|]. cbn [ft_count]. split; [|exact L0]. rewrite C0. cbn [lcount fold_right snd]. rewrite CT. rewrite wrap_succ. f_equal.
      * rewrite (Permutation_length P). cbn [length]. lia.
      * intros [xs xk xo]. rewrite (rules_in _ _ F1), (rules_in _ _ F). cbn [f_src f_key f_new]. split.
        -- intros (dd & [[= <- <-]|X] & G1 & M).
           ++ apply G in M. destruct M as [M|[M1 M2]]; [left; exists d; auto|]. right. f_equal; lia.
           ++ left. exists dd. split; [apply (Permutation_in _ (Permutation_sym P)); right; exact X|auto].
        -- intros [(dd & X & G1 & M)|[= -> -> ->]].
           ++ pose proof (Permutation_in _ P X) as X'. destruct X' as [[= E1 E2]|X']; [exists d'; rewrite <- E1; split; [left; reflexivity|]; split; [exact G1|]; apply G; left; rewrite E2; exact M|].
              exists dd. split; [right; exact X'|auto].
           ++ exists d'. split; [left; reflexivity|]. split; [lia|]. apply G. right. auto.
      * rewrite (rules_in _ _ F). cbn [f_src f_key f_new]. intros (dd & X & _ & M). apply NG. assert (dd = d) as <-; [|exact M]. apply (proj2 (search_in t l k _ R)) in X. apply (proj2 (search_in t l k _ R)) in Q. congruence.
      * intros k' o' (dd & e & [[= <- <-]|X] & Y).
        -- assert (In o' (map snd d')) by exact (in_map snd d' (e, o') Y). destruct MS as [MS|[_ MS]]; rewrite MS in H.
           ++ apply in_map_iff in H. destruct H as ([e2 o2] & E & H). cbn in E. subst o2. left. exists d, e2. auto.
           ++ apply in_app_iff in H. destruct H as [H|[<-|[]]]; [|right; auto]. apply in_map_iff in H. destruct H as ([e2 o2] & E & H). cbn in E. subst o2. left. exists d, e2. auto.
        -- left. exists dd, e. split; [apply (Permutation_in _ (Permutation_sym P)); right; exact X|exact Y].
      * intros FC. apply (Permutation_Forall P) in FC. apply Forall_cons_iff in FC as [_ FC]. constructor; [cbn [snd]; rewrite CT; lia|exact FC].
  - apply (proj1 (search_none t l k R)) in Q. destruct (N.eq_dec (N.of_nat (length l)) 4294967295) as [HL|HL].
    { left. split; [exact HL|]. destruct (ft_walk s o []) as [o'|d' ok] eqn:W; [pose proof (walk_spec s o [] HS (Forall_nil _) (NoDup_nil _)) as X; rewrite W in X; destruct X as (e & [] & _)|].
      destruct (ft_add (ft_tab t) k d') as [h'|] eqn:A; [|reflexivity]. destruct (add_rep _ _ _ _ _ R A) as (_ & _ & X). contradiction. }
    right. pose proof (walk_spec s o [] HS (Forall_nil _) (NoDup_nil _)) as W. pose proof (walk_data s o []) as WD. destruct (ft_walk s o []) as [o'|d' ok].
    + destruct W as (e & [] & _).
    + right. destruct W as (-> & N1 & V' & MS & G & NG & CT). destruct (add_ok (ft_tab t) k d' l R Q HL) as (h' & -> & R'). exists (mkFT h' (wrap32 (ft_count t + 1))), ((k, d') :: l). split; [reflexivity|].
      specialize (WD d' true HS (Forall_nil _) (NoDup_nil _) eq_refl). assert (F1 : Forall (fun x => data_ok (snd x)) ((k, d') :: l)) by (constructor; [exact WD|exact F]).
      split; [|split; [|split; [|split; [|split]]]].
      * split; [exact R'|]. split; [exact F1|]. cbn [ft_count]. split; [|cbn [length]; lia]. rewrite C. cbn [lcount fold_right snd]. rewrite CT, wrap_succ. reflexivity.
      * cbn [length]. lia.
      * intros [xs xk xo]. rewrite (rules_in _ _ F1), (rules_in _ _ F). cbn [f_src f_key f_new]. split.
        -- intros (dd & [[= <- <-]|X] & G1 & M); [|left; exists dd; auto]. apply G in M. destruct M as [(e & [] & _)|[M1 M2]]. right. f_equal; lia.
        -- intros [(dd & X & G1 & M)|[= -> -> ->]]; [exists dd; split; [right; exact X|auto]|]. exists d'. split; [left; reflexivity|]. split; [lia|]. apply G. right. auto.
      * rewrite (rules_in _ _ F). cbn [f_src f_key f_new]. intros (dd & X & _). apply Q. exact (in_map fst l (k, dd) X).
      * intros k' o' (dd & e & [[= <- <-]|X] & Y).
        -- assert (In o' (map snd d')) by exact (in_map snd d' (e, o') Y). destruct MS as [MS|[_ MS]]; rewrite MS in H; [destruct H|]. destruct H as [<-|[]]. right. auto.
        -- left. exists dd, e. auto.
      * intros FC. constructor; [cbn [snd]; rewrite CT; lia|exact FC].
Qed.
