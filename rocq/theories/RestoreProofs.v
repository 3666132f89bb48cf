(** Proofs about labelling (RestoreModel, RestoreSpec). *)
From Verif Require Import Base MlsModel ContextModel ContextSpec ContextProofs LoginModel LoginSpec LoginProofs LabtextModel LabtextProofs RestoreModel RestoreSpec.
From Coq Require Import ZArith Sorted.
Open Scope N_scope.

(** ** The table *)
Definition sorted_chain := StronglySorted (fun a b : fspec => fs_ino b < fs_ino a).
Definition at_ino (i : N) (f : fspec) : bool := fs_ino f =? i.

Lemma str_dec (a b : list N) : str_eqb a b = true /\ a = b \/ str_eqb a b = false /\ a <> b.
Proof.
  destruct (str_eqb a b) eqn:E; [left|right]; split; auto; [apply str_eqb_eq; exact E|]. intros X. apply str_eqb_eq in X. congruence.
Qed.

Lemma chain_inos lstat ce i c f l : forall x, In x (map fs_ino (fst (chain_add lstat ce i c f l))) -> x = i \/ In x (map fs_ino l).
Proof.
  induction l as [|g l IH]; intros x; cbn [chain_add].
  - cbn. intuition.
  - destruct (N.eqb_spec i (fs_ino g)) as [E|NE].
    + destruct (match lstat (fs_file g) with None => true | Some _ => _ end); [cbn; intuition|]. destruct (str_eqb (fs_con g) c); cbn; intuition.
    + destruct (fs_ino g <? i); [cbn; intuition|]. destruct (chain_add lstat ce i c f l) as [r p]. cbn [fst] in *. cbn [map In]. intros [X|X]; [auto|].
      destruct (IH x X); auto.
Qed.
Lemma chain_sorted lstat ce i c f l : sorted_chain l -> sorted_chain (fst (chain_add lstat ce i c f l)).
Proof.
  induction 1 as [|g l S IH F]; cbn [chain_add]; [repeat constructor|].
  destruct (N.eqb_spec i (fs_ino g)) as [E|NE].
  - assert (X : forall h, fs_ino h = i -> sorted_chain (h :: l)).
    { intros h Eh. constructor; [exact S|]. revert F. apply Forall_impl. intros x L. rewrite Eh, E. exact L. }
    destruct (match lstat (fs_file g) with None => true | Some _ => _ end); [apply X; reflexivity|]. destruct (str_eqb (fs_con g) c); apply X; auto.
  - destruct (N.ltb_spec (fs_ino g) i) as [L|L].
    + cbn [fst]. constructor; [constructor; assumption|]. constructor; [exact L|]. revert F. apply Forall_impl. cbn [fs_ino]. intros x Lx. lia.
    + assert (CI := chain_inos lstat ce i c f l). destruct (chain_add lstat ce i c f l) as [r p]. cbn [fst] in *. constructor; [exact IH|].
      apply Forall_forall. intros x Ix. destruct (CI (fs_ino x) (in_map fs_ino _ _ Ix)) as [->|Y]; [lia|].
      apply in_map_iff in Y as (y & <- & Iy). rewrite Forall_forall in F. exact (F y Iy).
Qed.
Lemma find_below i l : Forall (fun x => fs_ino x < i) l -> find (at_ino i) l = None.
Proof.
  induction 1 as [|x l L F IH]; cbn [find]; [reflexivity|]. unfold at_ino at 1. destruct (N.eqb_spec (fs_ino x) i); [lia|exact IH].
Qed.
Lemma chain_others lstat ce i c f l j : j <> i -> find (at_ino j) (fst (chain_add lstat ce i c f l)) = find (at_ino j) l.
Proof.
  intros NE. induction l as [|g l IH]; cbn [chain_add].
  - cbn [fst find]. unfold at_ino. cbn [fs_ino]. destruct (N.eqb_spec i j); [congruence|reflexivity].
  - destruct (N.eqb_spec i (fs_ino g)) as [E|NE2].
    + assert (X : forall h, fs_ino h = i -> find (at_ino j) (h :: l) = find (at_ino j) (g :: l)).
      { intros h Eh. cbn [find]. unfold at_ino at 1 3. rewrite Eh, <- E. destruct (N.eqb_spec i j); [congruence|reflexivity]. }
      destruct (match lstat (fs_file g) with None => true | Some _ => _ end); [apply X; reflexivity|]. destruct (str_eqb (fs_con g) c); apply X; auto.
    + destruct (fs_ino g <? i).
      * cbn [fst find]. unfold at_ino at 1. cbn [fs_ino]. destruct (N.eqb_spec i j); [congruence|reflexivity].
      * destruct (chain_add lstat ce i c f l) as [r p]. cbn [fst find] in *. rewrite IH. reflexivity.
Qed.
Lemma chain_new lstat ce i c f l : sorted_chain l -> find (at_ino i) l = None ->
  snd (chain_add lstat ce i c f l) = mkRep 0 None /\ find (at_ino i) (fst (chain_add lstat ce i c f l)) = Some (mkFS i c f).
Proof.
  induction 1 as [|g l S IH F]; cbn [chain_add find]; intros FN.
  - split; [reflexivity|]. unfold at_ino. cbn [fst fs_ino find]. rewrite N.eqb_refl. reflexivity.
  - unfold at_ino at 1 in FN. destruct (N.eqb_spec (fs_ino g) i) as [|NE]; [discriminate|].
    destruct (N.eqb_spec i (fs_ino g)); [congruence|]. destruct (N.ltb_spec (fs_ino g) i).
    + split; [reflexivity|]. unfold at_ino. cbn [fst fs_ino find]. rewrite N.eqb_refl. reflexivity.
    + specialize (IH FN). destruct (chain_add lstat ce i c f l) as [r p]. cbn [fst snd find] in *. destruct IH as [-> IH]. split; [reflexivity|].
      unfold at_ino at 1. destruct (N.eqb_spec (fs_ino g) i); [congruence|exact IH].
Qed.
Lemma chain_known lstat ce i c f l g : sorted_chain l -> find (at_ino i) l = Some g ->
  let (l', p) := chain_add lstat ce i c f l in
  (lstat (fs_file g) <> Some i -> find (at_ino i) l' = Some (mkFS i c f) /\ p = mkRep 1 None) /\
  (lstat (fs_file g) = Some i -> fs_con g = c -> find (at_ino i) l' = Some g /\ p = mkRep 1 None) /\
  (lstat (fs_file g) = Some i -> fs_con g <> c -> find (at_ino i) l' = Some (mkFS i (fs_con g) f) /\
     p = mkRep (if ce then -1 else 1) (Some (f, fs_file g, fs_con g))).
Proof.
  induction 1 as [|x l S IH F]; cbn [chain_add find]; [discriminate|]. unfold at_ino at 1. destruct (N.eqb_spec (fs_ino x) i) as [E|NE].
  - intros [= <-]. assert (Q : (i =? fs_ino x) = true) by lia. rewrite Q.
    assert (Y : forall b d, find (at_ino i) (mkFS i b d :: l) = Some (mkFS i b d)) by (intros b d; cbn [find]; unfold at_ino at 1; cbn [fs_ino]; rewrite N.eqb_refl; reflexivity).
    destruct (lstat (fs_file x)) as [k|] eqn:L.
    + destruct (N.eqb_spec k i) as [->|NK]; cbn [negb].
      * destruct (str_dec (fs_con x) c) as [[-> EC]|[-> NC]].
        -- split; [congruence|]. split; [|congruence]. intros _ _. split; [|reflexivity]. cbn [find]. unfold at_ino at 1. rewrite E, N.eqb_refl. reflexivity.
        -- split; [congruence|]. split; [congruence|]. intros _ _. split; [apply Y|reflexivity].
      * split; [intros _; split; [apply Y|reflexivity]|]. split; congruence.
    + split; [intros _; split; [apply Y|reflexivity]|]. split; congruence.
  - intros FG. destruct (N.eqb_spec i (fs_ino x)); [congruence|]. destruct (N.ltb_spec (fs_ino x) i) as [L|L].
    + exfalso. assert (Z : find (at_ino i) l = None) by (apply find_below; revert F; apply Forall_impl; intros y; cbn; lia). congruence.
    + specialize (IH FG). destruct (chain_add lstat ce i c f l) as [r p]. cbn [find]. unfold at_ino at 1 3 5.
      destruct (N.eqb_spec (fs_ino x) i); [congruence|]. exact IH.
Qed.

(** ** A history of visits *)
Definition tinv (T : ftable) : Prop := forall h, sorted_chain (T h).
Definition get (T : ftable) (i : N) : option fspec := find (at_ino i) (T (ino_hash i)).
Definition known (T : ftable) (i : N) : option (list N * list N) := option_map (fun g => (fs_con g, fs_file g)) (get T i).

Lemma rem_fun vs i o : remembers vs i o -> forall o', remembers vs i o' -> o = o'.
Proof.
  induction 1; intros o' H'; inversion H'; subst; try congruence; try reflexivity;
  repeat match goal with
  | IH : forall o', remembers ?vs ?i o' -> _ = o', H : remembers ?vs ?i _ |- _ => apply IH in H
  end; try congruence; auto.
Qed.
Lemma add_step ce T v vs : tinv T -> (forall i, remembers vs i (known T i)) ->
  tinv (fst (visit_add ce T v)) /\ (forall i, remembers (v :: vs) i (known (fst (visit_add ce T v)) i)) /\ answer ce vs v (snd (visit_add ce T v)).
Proof.
  intros IN R. unfold visit_add, filespec_add. set (h := ino_hash (v_ino v)).
  assert (CS := chain_sorted (v_stat v) ce (v_ino v) (v_con v) (v_file v) (T h) (IN h)).
  assert (CO := fun j => chain_others (v_stat v) ce (v_ino v) (v_con v) (v_file v) (T h) j).
  assert (CN := chain_new (v_stat v) ce (v_ino v) (v_con v) (v_file v) (T h) (IN h)).
  assert (CK := fun g => chain_known (v_stat v) ce (v_ino v) (v_con v) (v_file v) (T h) g (IN h)).
  destruct (chain_add (v_stat v) ce (v_ino v) (v_con v) (v_file v) (T h)) as [l p]. cbn [fst snd] in *.
  assert (RI := R (v_ino v)). unfold known, get in RI. fold h in RI.
  set (T' := fun k => if k =? h then l else T k).
  assert (KO : forall i, i <> v_ino v -> known T' i = known T i).
  { intros i NE. unfold known, get, T'. destruct (N.eqb_spec (ino_hash i) h) as [E|]; [|reflexivity]. rewrite CO by exact NE. rewrite E. reflexivity. }
  assert (KI : known T' (v_ino v) = option_map (fun g => (fs_con g, fs_file g)) (find (at_ino (v_ino v)) l)).
  { unfold known, get, T'. fold h. rewrite N.eqb_refl. reflexivity. }
  split; [intros k; unfold T'; destruct (k =? h); [exact CS|apply IN]|].
  assert (OT : forall o a, known T' (v_ino v) = o -> remembers (v :: vs) (v_ino v) o /\ answer ce vs v a -> (forall i, remembers (v :: vs) i (known T' i)) /\ answer ce vs v a).
  { intros o a K [H1 H2]. split; [|exact H2]. intros i. destruct (N.eq_dec i (v_ino v)) as [->|NE]; [rewrite K; exact H1|].
    rewrite KO by exact NE. apply rem_other; [congruence|apply R]. }
  destruct (find (at_ino (v_ino v)) (T h)) as [g|] eqn:FG; cbn [option_map] in RI.
  - destruct (CK g eq_refl) as (K1 & K2 & K3).
    destruct (v_stat v (fs_file g)) as [k|] eqn:ST; [destruct (N.eq_dec k (v_ino v)) as [->|NK]|].
    + destruct (str_dec (fs_con g) (v_con v)) as [[_ EC]|[_ NC]].
      * destruct (K2 eq_refl EC) as [KL ->]. rewrite KL in KI. eapply OT; [exact KI|]. cbn [option_map]. split; [apply rem_same|eapply ans_same]; eauto.
      * destruct (K3 eq_refl NC) as [KL ->]. rewrite KL in KI. eapply OT; [exact KI|]. cbn [option_map fs_con fs_file].
        split; [eapply rem_conflict|eapply ans_conflict]; eauto.
    + destruct (K1 ltac:(congruence)) as [KL ->]. rewrite KL in KI. eapply OT; [exact KI|]. cbn [option_map fs_con fs_file].
      split; [eapply rem_gone|eapply ans_gone]; eauto; congruence.
    + destruct (K1 ltac:(congruence)) as [KL ->]. rewrite KL in KI. eapply OT; [exact KI|]. cbn [option_map fs_con fs_file].
      split; [eapply rem_gone|eapply ans_gone]; eauto; congruence.
  - destruct (CN eq_refl) as [-> KL]. rewrite KL in KI. eapply OT; [exact KI|]. cbn [option_map fs_con fs_file]. split; [apply rem_new|apply ans_new]; exact RI.
Qed.
Lemma after_inv ce vs : tinv (after ce vs) /\ forall i, remembers (rev vs) i (known (after ce vs) i).
Proof.
  induction vs as [|v vs IH] using rev_ind.
  - split; [intros h; constructor|]. intros i. constructor.
  - unfold after in *. rewrite fold_left_app, rev_app_distr. cbn [fold_left rev app]. destruct IH as [I R].
    destruct (add_step ce _ v _ I R) as (I' & R' & _). split; assumption.
Qed.
Lemma answer_fun ce vs v a b : answer ce vs v a -> answer ce vs v b -> a = b.
Proof.
  intros A B. destruct A, B; try reflexivity; repeat match goal with
  | H : remembers ?vs ?i ?o, H' : remembers ?vs ?i ?o' |- _ => let E := fresh in assert (E := rem_fun vs i o H o' H'); clear H'; inversion E; subst
  end; try congruence; try reflexivity.
Qed.
Lemma answers ce vs v r : snd (visit_add ce (after ce vs) v) = r <-> answer ce (rev vs) v r.
Proof.
  destruct (after_inv ce vs) as [I R]. destruct (add_step ce _ v _ I R) as (_ & _ & A). split; [intros <-; exact A|].
  intros B. exact (answer_fun _ _ _ _ _ A B).
Qed.

(** ** A walk *)
Lemma add_state lstat ce i c f T : tinv T -> let (T', p) := filespec_add lstat ce i c f T in
  tinv T' /\ (forall j, j <> i -> known T' j = known T j) /\
  match known T i with
  | None => known T' i = Some (c, f) /\ p = mkRep 0 None
  | Some (c0, f0) => lstat f0 = Some i ->
      (c0 = c /\ known T' i = Some (c0, f0) /\ p = mkRep 1 None) \/
      (c0 <> c /\ known T' i = Some (c0, f) /\ p = mkRep (if ce then -1 else 1) (Some (f, f0, c0)))
  end.
Proof.
  intros IN. unfold filespec_add. set (h := ino_hash i).
  assert (CS := chain_sorted lstat ce i c f (T h) (IN h)).
  assert (CO := fun j => chain_others lstat ce i c f (T h) j).
  assert (CN := chain_new lstat ce i c f (T h) (IN h)).
  assert (CK := fun g => chain_known lstat ce i c f (T h) g (IN h)).
  destruct (chain_add lstat ce i c f (T h)) as [l p]. cbn [fst snd] in *.
  set (T' := fun k => if k =? h then l else T k).
  assert (KI : known T' i = option_map (fun g => (fs_con g, fs_file g)) (find (at_ino i) l)).
  { unfold known, get, T'. fold h. rewrite N.eqb_refl. reflexivity. }
  split; [intros k; unfold T'; destruct (k =? h); [exact CS|apply IN]|]. split.
  { intros j NE. unfold known, get, T'. destruct (N.eqb_spec (ino_hash j) h) as [E|]; [|reflexivity]. rewrite CO by exact NE. rewrite E. reflexivity. }
  rewrite KI. unfold known, get. fold h. destruct (find (at_ino i) (T h)) as [g|] eqn:FG; cbn [option_map].
  - intros ST. destruct (CK g eq_refl) as (_ & K2 & K3). destruct (str_dec (fs_con g) c) as [[_ EC]|[_ NC]].
    + left. destruct (K2 ST EC) as [-> ->]. auto.
    + right. destruct (K3 ST NC) as [-> ->]. auto.
  - destruct (CN eq_refl) as [-> ->]. auto.
Qed.

Lemma relabel_all custom F cur c : f_set_specctx F = true -> f_nochange F = false -> cur <> CurErr ->
  (cur = CurCon c /\ relabel custom F cur c = ROk (true, None)) \/ relabel custom F cur c = ROk (true, Some c).
Proof.
  intros S NC NE. unfold relabel. rewrite S, NC. destruct cur as [x| |]; [|auto|congruence]. destruct (str_dec x c) as [[-> ->]|[-> _]]; auto.
Qed.
Definition settles (lstat : list N -> option N) (d0 : N) (T : ftable) (W : N -> N -> cur_res) : Prop :=
  forall i c f, known T i = Some (c, f) -> lstat f = Some i /\ W d0 i = CurCon c.

Lemma walk_settled lstat custom F d0 : f_add_assoc F = true -> f_set_specctx F = true -> f_nochange F = false ->
  forall fs, Forall (fun f => w_dev f = d0 /\ lstat (w_path f) = Some (w_ino f)) fs ->
  forall T W, tinv T -> settles lstat d0 T W -> (forall i, W d0 i <> CurErr) ->
  exists W' os, walk lstat custom F fs T W = ROk (W', os) /\
    (forall i c f, known T i = Some (c, f) -> W' d0 i = CurCon c) /\
    (forall i c, known T i = None -> first_for fs d0 i c -> W' d0 i = CurCon c) /\
    (forall d i, (forall f, In f fs -> w_dev f = d -> w_ino f = i -> forall c, w_lk f <> LkCon c) -> W' d i = W d i) /\
    Forall2 (fun f o => forall c, w_lk f = LkCon c -> (o_msg o <> None <-> W' d0 (w_ino f) <> CurCon c)) fs os.
Proof.
  intros FA FS FN. induction 1 as [|f fs [Df Lf] FF IH]; intros T W IN ST NE; cbn [walk].
  - exists W, []. split; [reflexivity|]. split; [intros i c f K; apply (ST i c f K)|]. split; [|split; [reflexivity|constructor]].
    intros i c _ (a & f & b & E & _). destruct a; discriminate E.
  - unfold restorecon_sb. rewrite FA. destruct (w_lk f) as [c| |] eqn:LK.
    + assert (AS := add_state lstat (f_conflicterror F) (w_ino f) c (w_path f) T IN).
      destruct (filespec_add lstat (f_conflicterror F) (w_ino f) c (w_path f) T) as [T' p]. destruct AS as (IN' & KO & KI).
      destruct (known T (w_ino f)) as [[c0 f0]|] eqn:KT.
      * destruct (ST _ _ _ KT) as [Lf0 W0]. specialize (KI Lf0).
        assert (Q : exists o, (if (rp_rc p <? 0)%Z then ROk (T', mkOut false None (rp_msg p))
           else if (0 <? rp_rc p)%Z then ROk (T', mkOut true None (rp_msg p))
           else match relabel custom F (W (w_dev f) (w_ino f)) c with ROk (ok, s) => ROk (T', mkOut ok s (rp_msg p)) | RErr => RErr | RUB => RUB end)
           = ROk (T', o) /\ o_set o = None /\ (o_msg o <> None <-> c0 <> c)).
        { destruct KI as [(E & _ & ->)|(E & _ & ->)]; cbn [rp_rc rp_msg].
          - eexists. split; [reflexivity|]. split; [reflexivity|]. cbn. tauto.
          - destruct (f_conflicterror F); (eexists; split; [reflexivity|]; split; [reflexivity|]; cbn; split; [auto|discriminate]). }
        destruct Q as (o & -> & OS & OM). rewrite OS.
        assert (KC : exists f1, known T' (w_ino f) = Some (c0, f1) /\ lstat f1 = Some (w_ino f)) by (destruct KI as [(E & -> & _)|(E & -> & _)]; eauto).
        destruct KC as (f1 & KC & Lf1).
        destruct (IH T' W IN') as (W' & os & -> & H1 & H2 & H3 & H4); [|exact NE|].
        { intros i c' f' K. destruct (N.eq_dec i (w_ino f)) as [->|Ni]; [|rewrite KO in K by exact Ni; apply (ST _ _ _ K)].
          rewrite KC in K. injection K as <- <-. auto. }
        exists W', (o :: os). split; [reflexivity|]. split; [|split; [|split]].
        -- intros i c' f' K. destruct (N.eq_dec i (w_ino f)) as [->|Ni]; [|apply (H1 i c' f'); rewrite KO by exact Ni; exact K].
           rewrite KT in K. injection K as <- _. exact (H1 _ _ _ KC).
        -- intros i c' K (a & g & b & E & Dg & Ig & Lg & Fa). assert (Ni : i <> w_ino f) by congruence.
           apply H2; [rewrite KO by exact Ni; exact K|]. destruct a as [|g0 a]; [injection E as -> _; congruence|]. injection E as <- E.
           exists a, g, b. repeat split; auto. intros x Ix. apply Fa. right. exact Ix.
        -- intros d i Hn. apply H3. intros g Ig. apply Hn. right. exact Ig.
        -- constructor; [|exact H4]. intros c' Ec. rewrite LK in Ec. injection Ec as <-. rewrite (H1 _ _ _ KC). rewrite OM. split; congruence.
      * destruct KI as [KC ->]. cbn [rp_rc rp_msg]. change (0 <? 0)%Z with false. cbv iota.
        assert (Q : exists o, match relabel custom F (W (w_dev f) (w_ino f)) c with ROk (ok, s) => ROk (T', mkOut ok s None) | RErr => RErr | RUB => RUB end
           = ROk (T', o) /\ o_msg o = None /\ ((o_set o = None /\ W d0 (w_ino f) = CurCon c) \/ o_set o = Some c)).
        { rewrite Df. destruct (relabel_all custom F (W d0 (w_ino f)) c FS FN (NE _)) as [[E ->]|E].
          - eexists. split; [reflexivity|]. split; [reflexivity|]. left. auto.
          - rewrite E. eexists. split; [reflexivity|]. split; [reflexivity|]. right. reflexivity. }
        destruct Q as (o & -> & OM & OS).
        set (W1 := match o_set o with Some c0 => fun d i => if (d =? w_dev f) && (i =? w_ino f) then CurCon c0 else W d i | None => W end).
        assert (W1f : W1 d0 (w_ino f) = CurCon c).
        { unfold W1. destruct OS as [[-> E]| ->]; [exact E|]. rewrite Df, !N.eqb_refl. reflexivity. }
        assert (W1o : forall d i, ~ (d = d0 /\ i = w_ino f) -> W1 d i = W d i).
        { intros d i Ne. unfold W1. destruct (o_set o); [|reflexivity]. rewrite Df. destruct (N.eqb_spec d d0), (N.eqb_spec i (w_ino f)); cbn [andb]; tauto. }
        destruct (IH T' W1 IN') as (W' & os & -> & H1 & H2 & H3 & H4).
        { intros i c' f' K. destruct (N.eq_dec i (w_ino f)) as [->|Ni].
          - rewrite KC in K. injection K as <- <-. auto.
          - rewrite KO in K by exact Ni. rewrite W1o by tauto. apply (ST _ _ _ K). }
        { intros i. destruct (N.eq_dec i (w_ino f)) as [->|Ni]; [rewrite W1f; discriminate|]. rewrite W1o by tauto. apply NE. }
        exists W', (o :: os). split; [reflexivity|]. split; [|split; [|split]].
        -- intros i c' f' K. assert (Ni : i <> w_ino f) by congruence. apply (H1 i c' f'). rewrite KO by exact Ni. exact K.
        -- intros i c' K (a & g & b & E & Dg & Ig & Lg & Fa). destruct (N.eq_dec i (w_ino f)) as [->|Ni].
           ++ rewrite (H1 _ _ _ KC). destruct a as [|g0 a]; [injection E as -> _; congruence|]. injection E as <- E. exfalso.
              exact (Fa f (or_introl eq_refl) Df eq_refl c LK).
           ++ apply H2; [rewrite KO by exact Ni; exact K|]. destruct a as [|g0 a]; [injection E as -> _; congruence|]. injection E as <- E.
              exists a, g, b. repeat split; auto. intros x Ix. apply Fa. right. exact Ix.
        -- intros d i Hn. rewrite H3 by (intros g Ig; apply Hn; right; exact Ig). apply W1o. intros [-> ->]. exact (Hn f (or_introl eq_refl) Df eq_refl c LK).
        -- constructor; [|exact H4]. intros c' Ec. rewrite LK in Ec. injection Ec as <-. rewrite (H1 _ _ _ KC). rewrite OM. split; congruence.
    + cbn [o_set]. destruct (IH T W IN ST NE) as (W' & os & -> & H1 & H2 & H3 & H4). eexists _, _. split; [reflexivity|]. split; [exact H1|]. split; [|split].
      * intros i c K (a & g & b & E & Dg & Ig & Lg & Fa). apply H2; [exact K|]. destruct a as [|g0 a]; [injection E as -> _; congruence|]. injection E as <- E.
        exists a, g, b. repeat split; auto. intros x Ix. apply Fa. right. exact Ix.
      * intros d i Hn. apply H3. intros g Ig. apply Hn. right. exact Ig.
      * constructor; [congruence|exact H4].
    + cbn [o_set]. destruct (IH T W IN ST NE) as (W' & os & -> & H1 & H2 & H3 & H4). eexists _, _. split; [reflexivity|]. split; [exact H1|]. split; [|split].
      * intros i c K (a & g & b & E & Dg & Ig & Lg & Fa). apply H2; [exact K|]. destruct a as [|g0 a]; [injection E as -> _; congruence|]. injection E as <- E.
        exists a, g, b. repeat split; auto. intros x Ix. apply Fa. right. exact Ix.
      * intros d i Hn. apply H3. intros g Ig. apply Hn. right. exact Ig.
      * constructor; [congruence|exact H4].
Qed.

(** ** One file *)
Lemma new_written x : proper x -> context_new (written x) = Some (mkCtx (Some (d_user x)) (Some (d_role x)) (Some (d_type x)) (d_range x)).
Proof.
  intros (WU & WR & WT & _ & _ & NT & RG).
  destruct (reparse (d_user x) (d_role x) (d_type x) (d_range x)) as (s & S & C).
  - unfold ctx_inv. cbn [x_user x_role x_type x_range]. split; [intros s [= <-]; exact WU|]. split; [intros s [= <-]; exact WR|].
    split; [intros s [= <-]; exact WT|]. intros s E. rewrite E in RG. apply RG.
  - destruct (d_range x); tauto.
  - cbn [context_str x_user x_role x_type x_range ctx_part] in S. injection S as <-. exact C.
Qed.
Lemma written_inj x y : proper x -> proper y -> written x = written y -> x = y.
Proof.
  intros P Q E. assert (A := new_written x P). rewrite E, (new_written y Q) in A. injection A as E1 E2 E3 E4. destruct x, y. cbn in *. congruence.
Qed.
Lemma str_written x : context_str (mkCtx (Some (d_user x)) (Some (d_role x)) (Some (d_type x)) (d_range x)) = ROk (written x).
Proof. reflexivity. Qed.
Lemma comp_word s : word_text s -> comp_ok false s = true.
Proof.
  intros W. unfold comp_ok. apply forallb_forall. intros c I. destruct (W c I) as (A & B & C & D & E).
  destruct (N.eqb_spec c 9), (N.eqb_spec c 10), (N.eqb_spec c 13), (N.eqb_spec c 58), (N.eqb_spec c 32); cbn; congruence.
Qed.
Lemma custom_in custom x : proper x -> (0 <? is_context_customizable custom (written x))%Z = true <-> In (d_type x) (match custom with Some l => l | None => [] end).
Proof.
  intros P. unfold is_context_customizable. destruct custom as [l|]; [|split; [discriminate|intros []]]. rewrite (new_written x P). cbn [x_type].
  destruct (existsb (fun s => str_eqb s (d_type x)) l) eqn:E.
  - split; [intros _|reflexivity]. apply existsb_exists in E as (s & I & E). apply str_eqb_eq in E as <-. exact I.
  - split; [discriminate|]. intros I. assert (X : existsb (fun s => str_eqb s (d_type x)) l = true) by (apply existsb_exists; exists (d_type x); split; [exact I|apply str_eqb_eq; reflexivity]).
    congruence.
Qed.
Lemma carry_type u r t m U R t' M b : word_text t' -> carry CType (mkCtx U R (Some t') M) (mkCtx (Some u) (Some r) (Some t) m, b) =
  ROk (mkCtx (Some u) (Some r) (Some t') m, b || negb (str_eqb t t')).
Proof.
  intros W. unfold carry. cbn [ctx_get fst x_type]. destruct (str_dec t t') as [[-> ->]|[-> _]]; cbn [negb]; [rewrite orb_false_r; reflexivity|].
  rewrite orb_true_r. unfold ctx_set. rewrite (comp_word t' W). reflexivity.
Qed.
Lemma carry_user u r t m u' R T M b : word_text u' -> carry CUser (mkCtx (Some u') R T M) (mkCtx (Some u) (Some r) (Some t) m, b) =
  ROk (mkCtx (Some u') (Some r) (Some t) m, b || negb (str_eqb u u')).
Proof.
  intros W. unfold carry. cbn [ctx_get fst x_user]. destruct (str_dec u u') as [[-> ->]|[-> _]]; cbn [negb]; [rewrite orb_false_r; reflexivity|].
  rewrite orb_true_r. unfold ctx_set. rewrite (comp_word u' W). reflexivity.
Qed.
Lemma carry_role u r t m U r' T M b : word_text r' -> carry CRole (mkCtx U (Some r') T M) (mkCtx (Some u) (Some r) (Some t) m, b) =
  ROk (mkCtx (Some u) (Some r') (Some t) m, b || negb (str_eqb r r')).
Proof.
  intros W. unfold carry. cbn [ctx_get fst x_role]. destruct (str_dec r r') as [[-> ->]|[-> _]]; cbn [negb]; [rewrite orb_false_r; reflexivity|].
  rewrite orb_true_r. unfold ctx_set. rewrite (comp_word r' W). reflexivity.
Qed.
Lemma portions cur new sur : proper cur -> proper new ->
  (mixed sur cur new = cur /\ compare_portions (written cur) (written new) sur = ROk None) \/
  (mixed sur cur new <> cur /\ compare_portions (written cur) (written new) sur = ROk (Some (written (mixed sur cur new)))).
Proof.
  intros P (WU & WR & WT & Q). unfold compare_portions. rewrite (new_written cur P), (new_written new (conj WU (conj WR (conj WT Q)))). clear P Q.
  destruct cur as [u r t m], new as [u' r' t' m']. unfold mixed. cbn [d_user d_role d_type d_range] in *.
  rewrite carry_type by exact WT. cbn [orb]. destruct sur.
  - rewrite carry_user by exact WU. rewrite carry_role by exact WR.
    destruct (str_dec t t') as [[-> ->]|[-> NT]]; cbn [negb orb]; [|right; split; [congruence|reflexivity]].
    destruct (str_dec u u') as [[-> ->]|[-> NU]]; cbn [negb orb]; [|right; split; [congruence|reflexivity]].
    destruct (str_dec r r') as [[-> ->]|[-> NR]]; cbn [negb orb]; [left; split; reflexivity|right; split; [congruence|reflexivity]].
  - destruct (str_dec t t') as [[-> ->]|[-> NT]]; cbn [negb]; [left; split; reflexivity|right; split; [congruence|reflexivity]].
Qed.
Lemma mixed_proper sur cur new : proper cur -> proper new -> proper (mixed sur cur new).
Proof.
  intros (A1 & A2 & A3 & A4 & A5 & A6 & A7) (B1 & B2 & B3 & B4 & B5 & B6 & B7). unfold proper, mixed. cbn [d_user d_role d_type d_range].
  destruct sur; tauto.
Qed.
Lemma mixed_self sur x : mixed sur x x = x. Proof. destruct x, sur; reflexivity. Qed.
(** Exactly what is set, and only if it changes something. *)
Lemma relabel_exact custom F cur new : proper cur -> proper new -> exists x s,
  ends_with (match custom with Some l => l | None => [] end) F cur new x /\ relabel custom F (CurCon (written cur)) (written new) = ROk (true, s) /\
  ((x = cur /\ s = None) \/ (x <> cur /\ s = Some (written x))).
Proof.
  intros P Q. unfold relabel. set (types := match custom with Some l => l | None => [] end).
  destruct (f_nochange F) eqn:NC.
  { exists cur, None. split; [constructor; exact NC|]. split; [|left; split; reflexivity]. destruct (str_eqb _ _); [reflexivity|]. destruct (f_set_specctx F); [reflexivity|].
    destruct (0 <? _)%Z; [reflexivity|]. destruct (portions cur new (f_set_user_role F) P Q) as [[_ ->]|[_ ->]]; reflexivity. }
  destruct (str_dec (written cur) (written new)) as [[-> E]|[-> NE]].
  { apply written_inj in E; [|assumption|assumption]. subst new. exists cur, None. split; [|split; [reflexivity|left; split; reflexivity]].
    destruct (f_set_specctx F) eqn:SC; [apply E_all; assumption|].
    destruct (in_dec (list_eq_dec N.eq_dec) (d_type cur) types) as [I|NI]; [apply E_custom; assumption|].
    rewrite <- (mixed_self (f_set_user_role F) cur) at 3. apply E_mixed; assumption. }
  destruct (f_set_specctx F) eqn:SC.
  { exists new, (Some (written new)). split; [apply E_all; assumption|]. split; [reflexivity|]. right. split; [|reflexivity]. congruence. }
  assert (CI := custom_in custom cur P). fold types in CI. destruct (0 <? is_context_customizable custom (written cur))%Z.
  { exists cur, None. split; [apply E_custom; try assumption; apply CI; reflexivity|]. split; [reflexivity|left; split; reflexivity]. }
  assert (NI : ~ In (d_type cur) types) by (intros I; apply CI in I; discriminate).
  destruct (portions cur new (f_set_user_role F) P Q) as [[M ->]|[M ->]]; eexists _, _; (split; [apply E_mixed; assumption|]); (split; [reflexivity|]).
  - left. split; [exact M|reflexivity].
  - right. split; [exact M|reflexivity].
Qed.
Lemma ends_fun types F cur new x y : ends_with types F cur new x -> ends_with types F cur new y -> x = y.
Proof. intros A B. destruct A, B; congruence || tauto. Qed.
Lemma ends_again types F cur new x : ends_with types F cur new x -> ends_with types F x new x.
Proof.
  intros A. destruct A as [NC|NC SC|NC SC I|NC SC NI].
  - apply E_nochange; exact NC.
  - apply E_all; assumption.
  - apply E_custom; assumption.
  - destruct (in_dec (list_eq_dec N.eq_dec) (d_type (mixed (f_set_user_role F) cur new)) types) as [I|NI2]; [apply E_custom; assumption|].
    assert (M : mixed (f_set_user_role F) (mixed (f_set_user_role F) cur new) new = mixed (f_set_user_role F) cur new).
    { unfold mixed. cbn [d_user d_role d_type d_range]. destruct (f_set_user_role F); reflexivity. }
    rewrite <- M at 2. apply E_mixed; assumption.
Qed.
Lemma ends_proper types F cur new x : proper cur -> proper new -> ends_with types F cur new x -> proper x.
Proof. intros P Q A. destruct A; auto using mixed_proper. Qed.

(** ** Customizable types *)
Lemma pieces_lines n ls : Forall (fun l => no_newline l /\ no_nul l /\ (S (List.length l) <= n)%nat) ls -> forall fuel,
  (List.length (text_lines ls) <= fuel)%nat -> pieces fuel n (text_lines ls) = map (fun l => l ++ [10]) ls.
Proof.
  induction 1 as [|l ls (NN & NZ & L) F IH]; intros fuel LF; [destruct fuel; reflexivity|].
  unfold text_lines in *. cbn [flat_map map] in *. rewrite <- app_assoc in *. cbn [app] in *.
  rewrite app_length in LF. cbn [List.length] in LF. destruct fuel as [|fuel]; [lia|].
  assert (U : pieces (S fuel) n (l ++ 10 :: flat_map (fun l0 => l0 ++ [10]) ls) =
    let (p, r) := fgets n (l ++ 10 :: flat_map (fun l0 => l0 ++ [10]) ls) in p :: pieces fuel n r).
  { destruct l; reflexivity. }
  rewrite U, (fgets_line n l _ NN L). rewrite IH by lia. reflexivity.
Qed.
Lemma cstr_all s : no_nul s -> cstr s = s.
Proof.
  unfold no_nul. induction s as [|c s IH]; intros NZ; cbn [cstr]; [reflexivity|]. cbn [In] in NZ. destruct (N.eqb_spec c 0); [tauto|]. rewrite IH by tauto. reflexivity.
Qed.
Lemma chop_lines ls : Forall no_nul ls -> chop_all (map (fun l => l ++ [10]) ls) = ROk ls.
Proof.
  induction 1 as [|l ls NZ F IH]; cbn [map chop_all]; [reflexivity|]. rewrite IH. unfold chop. rewrite cstr_all.
  - destruct (l ++ [10]) eqn:E; [destruct l; discriminate|]. rewrite <- E, removelast_last. reflexivity.
  - unfold no_nul in *. rewrite in_app_iff. cbn. intuition discriminate.
Qed.
Lemma custom_lines page ls : ls <> [] -> Forall (fun l => no_newline l /\ no_nul l /\ (S (S (List.length l)) <= page)%nat) ls ->
  customizable_init page (Some (text_lines ls)) = ROk (Some ls).
Proof.
  intros NE F. unfold customizable_init. rewrite pieces_lines.
  - assert (C : chop_all (map (fun l => l ++ [10]) ls) = ROk ls) by (apply chop_lines; revert F; apply Forall_impl; tauto).
    destruct ls as [|l0 ls]; [congruence|]. cbn [map]. cbn [map] in C. rewrite C. reflexivity.
  - revert F. apply Forall_impl. intros l (A & B & L). repeat split; auto. lia.
  - lia.
Qed.
Lemma custom_last page l c : no_newline (l ++ [c]) -> no_nul (l ++ [c]) -> (S (S (List.length l)) <= page)%nat ->
  customizable_init page (Some (l ++ [c])) = ROk (Some [l]).
Proof.
  intros NN NZ L. unfold customizable_init. rewrite app_length. cbn [List.length]. rewrite Nat.add_1_r.
  assert (U : forall k n, pieces (S k) n (l ++ [c]) = let (p, r) := fgets n (l ++ [c]) in p :: pieces k n r) by (intros k n; destruct l; reflexivity).
  rewrite U, fgets_last; [|exact NN|rewrite app_length; cbn [List.length]; lia].
  assert (P0 : forall k n, pieces k n [] = []) by (intros [|k] n; reflexivity). rewrite P0. cbn [chop_all]. unfold chop. rewrite cstr_all by exact NZ.
  destruct (l ++ [c]) eqn:E; [destruct l; discriminate|]. rewrite <- E, removelast_last. reflexivity.
Qed.
