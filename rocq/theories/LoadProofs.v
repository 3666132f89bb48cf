(** Proofs about loading a new policy. *)
From Verif Require Import Base EbitmapModel EbitmapSpec EbitmapProofs MlsModel MlsSpec MlsProofs ContextModel ContextProofs AvtabModel
  AvtabProofs AvcProofs SidtabModel SidtabSpec SidtabProofs.
From Coq Require Import Permutation Sorted.
Ltac Zify.zify_post_hook ::= Z.div_mod_to_equations.

Local Notation entry := (N * context)%type.

(** *** cloning *)
Lemma clone_spec mem : forall (l : list entry) new t, st_table new = Some t -> inv new ->
  (forall sid c, In (sid, c) l -> 1 <= sid /\ sid < 4294967295) ->
  match clone_all mem l new with
  | (new', TOk) => inv new' /\ st_shut new' = st_shut new /\ st_next new <= st_next new' /\
      (forall sid c, In (sid, c) l -> mem sid = true) /\
      exists t', st_table new' = Some t' /\ forall x d, In (x, d) (concat t') <-> In (x, d) (concat t) \/ In (x, d) l
  | (_, _) => (exists sid c, In (sid, c) l /\ mem sid = false) \/ ~ NoDup (map fst l) \/
      (exists sid c d, In (sid, c) l /\ In (sid, d) (concat t))
  end.
Proof.
  induction l as [|[sid c] l IH]; intros new t Et I R; cbn [clone_all].
  - split; [exact I|]. split; [reflexivity|]. split; [lia|]. split; [intros ? ? []|]. exists t. split; [exact Et|].
    intros x d. cbn [In]. tauto.
  - destruct (step_inv new (TInsert sid c (mem sid)) I (R sid c (or_introl eq_refl))) as (s' & r & x & E & I' & S' & Nx & K).
    cbn [tstep] in E. destruct I as (t0 & Et0 & Sh & HI). rewrite Et in Et0. injection Et0 as <-.
    pose proof (insert_cases new t sid c (mem sid) Et Sh) as IC.
    destruct (sidtab_insert new sid c (mem sid)) as [new1 r1]. injection E as -> -> <-. destruct r.
    + destruct IC as (M & Hd & _ & _ & t1 & Et1 & _). destruct (K t t1 Et Et1) as (K1 & _).
      assert (R' : forall x0 c0, In (x0, c0) l -> 1 <= x0 /\ x0 < 4294967295) by (intros; apply (R x0 c0); right; assumption).
      specialize (IH s' t1 Et1 I' R'). destruct (clone_all mem l s') as [new' [| |]].
      * destruct IH as (I2 & S2 & N2 & M2 & t2 & Et2 & K2). split; [exact I2|]. split; [congruence|]. split; [lia|].
        split; [intros y e [[= <- _]|Hy]; [exact M|exact (M2 y e Hy)]|]. exists t2. split; [exact Et2|]. intros y d. rewrite K2, K1. cbn [In].
        split.
        -- intros [[H|(_ & -> & _ & ->)]|H]; auto 7.
        -- intros [H|[[= -> ->]|H]]; auto 7.
      * destruct IH as [(y & e & H1 & H2)|[H|(y & e & d & H1 & H2)]].
        -- left. exists y, e. cbn [In]. auto.
        -- right. left. cbn [map fst]. intros Q. inversion Q. auto.
        -- apply K1 in H2 as [H2|(_ & Ey & _ & _)]; right; [right; exists y, e, d; cbn [In]; auto|].
           left. cbn [map fst]. intros Q. inversion Q as [|? ? Q1 Q2]; subst. apply Q1. apply (in_map fst) in H1. exact H1.
      * destruct IH as [(y & e & H1 & H2)|[H|(y & e & d & H1 & H2)]].
        -- left. exists y, e. cbn [In]. auto.
        -- right. left. cbn [map fst]. intros Q. inversion Q. auto.
        -- apply K1 in H2 as [H2|(_ & Ey & _ & _)]; right; [right; exists y, e, d; cbn [In]; auto|].
           left. cbn [map fst]. intros Q. inversion Q as [|? ? Q1 Q2]; subst. apply Q1. apply (in_map fst) in H1. exact H1.
    + destruct IC as (_ & d & Hd). right. right. exists sid, c, d. cbn [In]. auto.
    + destruct IC as (_ & M). left. exists sid, c. cbn [In]. auto.
Qed.

Lemma clone_null mem new : st_table new = None -> forall (l : list entry), l <> [] -> snd (clone_all mem l new) <> TOk.
Proof. intros E [|[sid c] l] H; [congruence|]. cbn [clone_all]. unfold sidtab_insert. rewrite E. discriminate. Qed.

Lemma shape_nodup (t : list (list entry)) : shape t -> NoDup (map fst (concat t)).
Proof.
  intros (L & S & H). assert (G : forall (u : list (list entry)) (k : nat),
    (forall i, StronglySorted N.lt (map fst (nth i u []))) ->
    (forall i sid c, In (sid, c) (nth i u []) -> sid_hash sid = (k + i)%nat) -> NoDup (map fst (concat u))).
  { clear. induction u as [|l u IH]; intros k S H; cbn [concat map]; [constructor|]. rewrite map_app.
    assert (ND : NoDup (map fst (concat u))).
    { apply (IH (k + 1)%nat); [intros i; exact (S (Datatypes.S i))|].
      intros i sid c Hi. rewrite (H (Datatypes.S i) sid c Hi). lia. }
    pose proof (S O) as S0. cbn [nth] in S0.
    assert (D : forall x, In x (map fst l) -> ~ In x (map fst (concat u))).
    { intros x Hx Hy. apply in_map_iff in Hx as ([x1 c1] & <- & H1). apply in_map_iff in Hy as ([x2 c2] & E & H2). cbn [fst] in *. subst x2.
      apply in_concat_nth in H2 as (i & _ & H2). pose proof (H O x1 c1 H1). pose proof (H (Datatypes.S i) x1 c2 H2). lia. }
    clear IH S H. induction (map fst l) as [|x m IH]; [exact ND|]. cbn [app]. inversion S0 as [|? ? Sa Sb]; subst. constructor.
    - rewrite in_app_iff. intros [Hx|Hx]; [rewrite Forall_forall in Sb; apply Sb in Hx; lia|]. exact (D x (or_introl eq_refl) Hx).
    - apply IH; [exact Sa|]. intros y Hy. apply D. right. exact Hy. }
  apply (G t 0%nat S). exact H.
Qed.

(** *** removal of what cannot be converted *)
Lemma remove_chain_spec f (l : list entry) : (forall sid c, In (sid, c) l -> f sid c <> RUB) ->
  exists l', remove_chain f l = ROk l' /\
    (forall sid c', In (sid, c') l' <-> exists c, In (sid, c) l /\ f sid c = ROk c') /\
    (StronglySorted N.lt (map fst l) -> StronglySorted N.lt (map fst l')).
Proof.
  induction l as [|[sid c] l IH]; intros H; cbn [remove_chain].
  - exists []. split; [reflexivity|]. split; [|auto]. intros x c'. split; [intros []|]. intros (d & [] & _).
  - destruct IH as (l' & E & K & SS); [intros; apply H; right; assumption|]. destruct (f sid c) as [c1| |] eqn:F.
    + rewrite E. exists ((sid, c1) :: l'). split; [reflexivity|]. split.
      * intros x c'. cbn [In]. rewrite K. split.
        -- intros [[= <- <-]|(d & Hd & Fd)]; [exists c; auto|exists d; auto].
        -- intros (d & [[= <- <-]|Hd] & Fd); [left; congruence|right; exists d; auto].
      * cbn [map fst]. intros Q. inversion Q as [|? ? Q1 Q2]; subst. constructor; [auto|]. rewrite Forall_forall in *.
        intros x Hx. apply in_map_iff in Hx as ([y c'] & <- & Hy). apply K in Hy as (d & Hd & _). apply Q2. cbn [fst].
        apply (in_map fst) in Hd. exact Hd.
    + exists l'. split; [exact E|]. split.
      * intros x c'. rewrite K. cbn [In]. split.
        -- intros (d & Hd & Fd). exists d. auto.
        -- intros (d & [[= <- <-]|Hd] & Fd); [congruence|exists d; auto].
      * cbn [map fst]. intros Q. inversion Q. auto.
    + exfalso. apply (H sid c); [left; reflexivity|exact F].
Qed.

Lemma remove_chains_spec f (t : list (list entry)) : (forall sid c, In (sid, c) (concat t) -> f sid c <> RUB) ->
  exists t', remove_chains f t = ROk t' /\ length t' = length t /\
    forall i, (forall sid c', In (sid, c') (nth i t' []) <-> exists c, In (sid, c) (nth i t []) /\ f sid c = ROk c') /\
      (StronglySorted N.lt (map fst (nth i t [])) -> StronglySorted N.lt (map fst (nth i t' []))).
Proof.
  induction t as [|l t IH]; intros H; cbn [remove_chains].
  - exists []. split; [reflexivity|]. split; [reflexivity|]. intros [|i]; cbn [nth]; (split; [|auto]);
      (intros x c'; split; [intros []|]; intros (d & [] & _)).
  - destruct (remove_chain_spec f l) as (l' & El & Kl & Sl); [intros; apply H; cbn [concat]; apply in_app_iff; auto|].
    destruct IH as (t' & Et & Lt & Kt); [intros; apply H; cbn [concat]; apply in_app_iff; auto|].
    rewrite El, Et. exists (l' :: t'). split; [reflexivity|]. split; [cbn [length]; lia|]. intros [|i]; cbn [nth]; [auto|apply Kt].
Qed.

Lemma remove_spec f s : inv s -> (forall t sid c, st_table s = Some t -> In (sid, c) (concat t) -> f sid c <> RUB) ->
  exists s' t t', remove_on_error f s = ROk s' /\ inv s' /\ st_next s' = st_next s /\ st_shut s' = st_shut s /\
    st_table s = Some t /\ st_table s' = Some t' /\
    forall sid c', In (sid, c') (concat t') <-> exists c, In (sid, c) (concat t) /\ f sid c = ROk c'.
Proof.
  intros (t & Et & Sh & HS & Nx) H. destruct (remove_chains_spec f t (fun sid c => H t sid c Et)) as (t' & E & L & K).
  assert (In' : forall sid c', In (sid, c') (concat t') <-> exists c, In (sid, c) (concat t) /\ f sid c = ROk c').
  { intros sid c'. split.
    - intros Hi. apply in_concat_nth in Hi as (i & _ & Hi). apply K in Hi as (c & Hc & F). exists c. split; [|exact F].
      eapply in_nth_concat. exact Hc.
    - intros (c & Hc & F). apply in_concat_nth in Hc as (i & _ & Hc). apply in_nth_concat with (k := i). apply K. eauto. }
  unfold remove_on_error. rewrite Et, E. eexists. exists t, t'. split; [reflexivity|]. cbn [st_next st_shut st_table].
  split; [|auto 7]. exists t'. cbn [st_table st_next]. split; [reflexivity|]. destruct Sh as (Ln & S & Hh). split; [split; [lia|split]|split].
  - intros i. apply K, S.
  - intros i sid c Hi. apply K in Hi as (d & Hd & _). exact (Hh i sid d Hd).
  - intros sid c Hc. apply In' in Hc as (d & Hd & _). exact (HS sid d Hd).
  - exact Nx.
Qed.

(** *** conversion of one context *)
Lemma valid_ext e1 e2 : valid e1 -> valid e2 -> (forall b, member e1 b <-> member e2 b) -> e1 = e2.
Proof. intros V1 V2 H. apply cmp_eq. apply (cmp_spec e1 e2 V1 V2). exact H. Qed.

Lemma convert_cats_spec oldp newp : cats_small newp -> forall l e, valid e ->
  (forall b, In b l -> p_cat_name oldp (b + 1) <> None) ->
  match convert_cats oldp newp l e with
  | Some e' => valid e' /\
      (forall b, In b l -> exists nm v, p_cat_name oldp (b + 1) = Some nm /\ p_cat_find newp nm = Some v) /\
      forall x, member e' x <-> member e x \/
        exists b nm v, In b l /\ p_cat_name oldp (b + 1) = Some nm /\ p_cat_find newp nm = Some v /\ x = v - 1
  | None => exists b nm, In b l /\ p_cat_name oldp (b + 1) = Some nm /\ p_cat_find newp nm = None
  end.
Proof.
  intros CS l. induction l as [|b l IH]; intros e V Hn; cbn [convert_cats].
  - split; [exact V|]. split; [intros ? []|]. intros x. split; [auto|]. intros [H|(b & nm & v & [] & _)]. exact H.
  - destruct (p_cat_name oldp (b + 1)) as [nm|] eqn:En; [|exfalso; apply (Hn b); [left; reflexivity|exact En]].
    destruct (p_cat_find newp nm) as [v|] eqn:Ef; [|exists b, nm; cbn [In]; auto].
    pose proof (CS nm v Ef) as Hv. destruct (set_bit_ok e (v - 1) true V ltac:(lia)) as (e1 & E1 & V1 & G1). rewrite E1.
    specialize (IH e1 V1 (fun b' Hb => Hn b' (or_intror Hb))).
    assert (M1 : forall x, member e1 x <-> member e x \/ x = v - 1).
    { intros x. rewrite <- !nget_member by assumption. rewrite G1. destruct (N.eqb_spec x (v - 1)); split; auto.
      intros [H|H]; [exact H|congruence]. }
    destruct (convert_cats oldp newp l e1) as [e2|].
    + destruct IH as (V2 & A2 & M2). split; [exact V2|]. split.
      * intros b' [<-|Hb]; eauto.
      * intros x. rewrite M2, M1. split.
        -- intros [[H| ->]|(b' & nm' & v' & H1 & H2)]; [auto|right; exists b, nm, v; cbn [In]; auto|].
           right. exists b', nm', v'. cbn [In]. tauto.
        -- intros [H|(b' & nm' & v' & [<-|H1] & H2 & H3 & H4)]; [auto| |right; exists b', nm', v'; auto].
           left. right. congruence.
    + destruct IH as (b' & nm' & H1 & H2). exists b', nm'. cbn [In]. tauto.
Qed.

Lemma convert_level_spec oldp newp l : cats_small newp -> valid_level l -> level_named oldp l ->
  match convert_level oldp newp l with
  | Some l' => level_renamed oldp newp l l' /\ forall l2, level_renamed oldp newp l l2 -> l2 = l'
  | None => forall l2, ~ level_renamed oldp newp l l2
  end.
Proof.
  intros CS V (Ns & Nc). unfold convert_level. destruct (p_sens_name oldp (l_sens l)) as [nm|] eqn:En; [|congruence].
  destruct (p_level_find newp nm) as [ld|] eqn:El.
  2:{ intros l2 ((nm' & ld & A & B & _) & _). congruence. }
  destruct (positive_bits_correct (l_cat l) V) as (bits & -> & _ & HB).
  pose proof (convert_cats_spec oldp newp CS bits ebitmap_init valid_init (fun b Hb => Nc b (proj1 (HB b) Hb))) as CC.
  destruct (convert_cats oldp newp bits ebitmap_init) as [e|].
  - destruct CC as (Ve & A & M).
    assert (M' : forall x, member e x <-> exists b nm v, member (l_cat l) b /\ p_cat_name oldp (b + 1) = Some nm /\ p_cat_find newp nm = Some v /\ x = v - 1).
    { intros x. rewrite M. split.
      - intros [(s & m & [] & _)|(b & n & v & H1 & H2)]. exists b, n, v. rewrite <- HB. tauto.
      - intros (b & n & v & H1 & H2). right. exists b, n, v. rewrite HB. tauto. }
    split.
    + split; [exists nm, ld; auto|]. split; [exact Ve|]. split; [intros b Hb; apply A, HB, Hb|exact M'].
    + intros [s2 e2] ((nm' & ld' & A1 & A2 & A3) & V2 & _ & M2). cbn [l_sens l_cat] in *. f_equal; [congruence|].
      apply valid_ext; [exact V2|exact Ve|]. intros b. rewrite M', M2. reflexivity.
  - destruct CC as (b & n & H1 & H2 & H3). intros l2 (_ & _ & A & _). destruct (A b (proj1 (HB b) H1)) as (n' & v & E1 & E2). congruence.
Qed.

Lemma convert_range_spec oldp newp r : cats_small newp -> valid_mrange r -> p_mls oldp = true ->
  level_named oldp (r_low r) -> level_named oldp (r_high r) ->
  match mls_convert_context oldp newp r with
  | Some r' => level_renamed oldp newp (r_low r) (r_low r') /\ level_renamed oldp newp (r_high r) (r_high r') /\
      forall r2, level_renamed oldp newp (r_low r) (r_low r2) -> level_renamed oldp newp (r_high r) (r_high r2) -> r2 = r'
  | None => forall r2, level_renamed oldp newp (r_low r) (r_low r2) -> ~ level_renamed oldp newp (r_high r) (r_high r2)
  end.
Proof.
  intros CS (V1 & V2) M N1 N2. unfold mls_convert_context. rewrite M. cbn [negb].
  pose proof (convert_level_spec oldp newp _ CS V1 N1) as L1. pose proof (convert_level_spec oldp newp _ CS V2 N2) as L2.
  destruct (convert_level oldp newp (r_low r)) as [lo|]; [|intros r2 H; destruct (L1 _ H)].
  destruct (convert_level oldp newp (r_high r)) as [hi|]; [|intros r2 _; apply L2].
  cbn [r_low r_high]. split; [apply L1|]. split; [apply L2|]. intros [lo2 hi2] H1 H2. cbn in *. f_equal; [apply L1|apply L2]; assumption.
Qed.

Lemma convert_spec oldp newp enf c : policy_canonical newp -> cats_small newp -> valid_mrange (c_range c) -> context_named oldp c ->
  convert_context oldp newp enf true c <> RUB /\
  forall c', convert_context oldp newp enf true c = ROk c' <->
    renamed oldp newp c c' /\ (context_authorised newp c' \/ enf = false).
Proof.
  intros PC CS V (Nu & Nr & Nt & Nm). unfold convert_context, renamed. cbn [negb].
  destruct (p_user_name oldp (c_user c)) as [un|] eqn:Eu; [|congruence].
  destruct (p_role_name oldp (c_role c)) as [rn|] eqn:Er; [|congruence].
  destruct (p_type_name oldp (c_type c)) as [tn|] eqn:Et; [|congruence].
  destruct (p_user_find newp un) as [u|] eqn:Fu.
  2:{ split; [discriminate|]. intros c'. split; [discriminate|]. intros (((nm & A & B) & _) & _). congruence. }
  destruct (p_role_find newp rn) as [r|] eqn:Fr.
  2:{ split; [discriminate|]. intros c'. split; [discriminate|]. intros ((_ & (nm & A & B) & _) & _). congruence. }
  destruct (p_type_find newp tn) as [[t a]|] eqn:Ft.
  2:{ split; [discriminate|]. intros c'. split; [discriminate|]. intros ((_ & _ & (nm & a & A & B) & _) & _). congruence. }
  assert (RG : match mls_convert_context oldp newp (c_range c) with
    | Some r' => valid_mrange r' /\ forall r2, (if p_mls oldp then level_renamed oldp newp (r_low (c_range c)) (r_low r2) /\ level_renamed oldp newp (r_high (c_range c)) (r_high r2) else r2 = c_range c) <-> r2 = r'
    | None => forall r2, ~ (if p_mls oldp then level_renamed oldp newp (r_low (c_range c)) (r_low r2) /\ level_renamed oldp newp (r_high (c_range c)) (r_high r2) else r2 = c_range c)
    end).
  { destruct (p_mls oldp) eqn:M.
    - destruct (Nm eq_refl) as [N1 N2]. pose proof (convert_range_spec oldp newp (c_range c) CS V M N1 N2) as Q.
      destruct (mls_convert_context oldp newp (c_range c)) as [r'|].
      + destruct Q as (Q1 & Q2 & Q3). split; [split; [apply Q1|apply Q2]|]. intros r2. split; [intros [A B]; auto|intros ->; auto].
      + intros r2 [A B]. exact (Q r2 A B).
    - unfold mls_convert_context. rewrite M. cbn [negb]. split; [exact V|]. intros r2. reflexivity. }
  destruct (mls_convert_context oldp newp (c_range c)) as [r'|].
  - destruct RG as (Vr & RG). pose proof (context_is_valid_spec newp (MlsModel.mkC u r t r') PC Vr) as CV.
    set (c0 := MlsModel.mkC u r t r') in *.
    assert (Q : forall c', (((exists nm, Some un = Some nm /\ p_user_find newp nm = Some (c_user c')) /\
      (exists nm, Some rn = Some nm /\ p_role_find newp nm = Some (c_role c')) /\
      (exists nm a0, Some tn = Some nm /\ p_type_find newp nm = Some (c_type c', a0)) /\
      (if p_mls oldp then level_renamed oldp newp (r_low (c_range c)) (r_low (c_range c')) /\ level_renamed oldp newp (r_high (c_range c)) (r_high (c_range c')) else c_range c' = c_range c)) <-> c' = c0)).
    { intros [u2 r2 t2 g2]. cbn [c_user c_role c_type c_range]. rewrite RG. unfold c0. split.
      - intros ((n1 & [= <-] & A) & (n2 & [= <-] & B) & (n3 & a3 & [= <-] & C) & ->). congruence.
      - intros [= -> -> -> ->]. split; [exists un; auto|]. split; [exists rn; auto|]. split; [exists tn, a; auto|reflexivity]. }
    destruct (context_is_valid newp c0).
    + split; [discriminate|]. intros c'. rewrite Q. split; [intros [= <-]; split; [reflexivity|]; left; apply CV; reflexivity|].
      intros [-> _]. reflexivity.
    + destruct enf.
      * split; [discriminate|]. intros c'. rewrite Q. split; [discriminate|]. intros [-> [H|H]]; [|discriminate]. apply CV in H. discriminate.
      * split; [discriminate|]. intros c'. rewrite Q. split; [intros [= <-]; auto|]. intros [-> _]. reflexivity.
  - split; [discriminate|]. intros c'. split; [discriminate|]. intros ((_ & _ & _ & H) & _). destruct (RG _ H).
Qed.

(** *** the load *)
Lemma load_spec S old new ct cm vm : sv_pol S = Some old -> inv (sv_sids S) ->
  policy_canonical (lp_policy new) -> cats_small (lp_policy new) ->
  (forall sid c, holds (sv_sids S) sid c -> valid_mrange (c_range c) /\ context_named (lp_policy old) c) ->
  exists S' ok, load_policy S true ct cm vm (Some new) = ROk (S', ok) /\
    (ok = false ->
       sv_pol S' = sv_pol S /\ sv_enf S' = sv_enf S /\ (S' = S \/ sv_sids S' = sidtab_shutdown (sv_sids S)) /\
       (forallb (class_kept (lp_classes new)) (lp_classes old) = false -> S' = S) /\
       (forallb (class_kept (lp_classes new)) (lp_classes old) = true -> ct = false \/ exists sid c, holds (sv_sids S) sid c /\ cm sid = false)) /\
    (ok = true -> sv_pol S' = Some new /\ sv_enf S' = sv_enf S /\
       forallb (class_kept (lp_classes new)) (lp_classes old) = true /\
       (ct = true -> inv (sv_sids S') /\ st_shut (sv_sids S') = false /\
          forall sid c, holds (sv_sids S) sid c -> sid < st_next (sv_sids S')) /\
       (forall sid c', holds (sv_sids S') sid c' <->
          exists c, holds (sv_sids S) sid c /\ vm sid = true /\ renamed (lp_policy old) (lp_policy new) c c' /\
            (context_authorised (lp_policy new) c' \/ sv_enf S = false))).
Proof.
  intros Ep I PC CS HC. unfold load_policy. cbn [negb]. rewrite Ep.
  destruct (forallb (class_kept (lp_classes new)) (lp_classes old)) eqn:Ec; cbn [negb].
  2:{ exists S, false. split; [reflexivity|]. split; [|discriminate]. intros _.
    split; [exact Ep|]. split; [reflexivity|]. split; [left; reflexivity|]. split; [reflexivity|]. discriminate. }
  pose proof I as (t & Et & Sh & HS & Nx). cbn [sidtab_shutdown st_table]. rewrite Et.
  assert (Hh : forall sid c, holds (sv_sids S) sid c <-> In (sid, c) (concat t)).
  { intros. unfold holds. rewrite Et. split; [intros (t0 & [= <-] & H); exact H|eauto]. }
  assert (HR : forall sid c, In (sid, c) (concat t) -> 1 <= sid /\ sid < 4294967295) by (intros sid c H; apply HS in H; lia).
  destruct ct.
  - pose proof (clone_spec cm (concat t) (sidtab_init true) (repeat [] 128) eq_refl inv_init HR) as CS'.
    destruct (clone_all cm (concat t) (sidtab_init true)) as [new1 r1].
    assert (FailCase : (r1 <> TOk) -> exists sid c, holds (sv_sids S) sid c /\ cm sid = false).
    { intros Hr. assert (Q : (exists sid c, In (sid, c) (concat t) /\ cm sid = false) \/ ~ NoDup (map fst (concat t)) \/
        (exists sid c d, In (sid, c) (concat t) /\ In (sid, d) (concat (repeat (@nil entry) 128)))) by (destruct r1; [congruence|exact CS'|exact CS']).
      destruct Q as [(sid & c & H1 & H2)|[Q|(sid & c & d & _ & Q)]].
      - exists sid, c. rewrite Hh. auto.
      - destruct Q. apply shape_nodup. exact Sh.
      - rewrite concat_repeat_nil in Q. destruct Q. }
    destruct r1.
    + clear FailCase. destruct CS' as (I1 & S1 & _ & M1 & t1 & Et1 & K1).
      assert (K1' : forall sid c, In (sid, c) (concat t1) <-> In (sid, c) (concat t)).
      { intros sid c. rewrite K1, concat_repeat_nil. cbn [In]. tauto. }
      set (f := fun sid => convert_context (lp_policy old) (lp_policy new) (sv_enf S) (vm sid)).
      assert (NU : forall u sid c, st_table new1 = Some u -> In (sid, c) (concat u) -> f sid c <> RUB).
      { intros u sid c. rewrite Et1. intros [= <-] H. unfold f. destruct (vm sid) eqn:Ev.
        - apply K1', Hh, HC in H as [V N]. apply (convert_spec _ _ (sv_enf S) c PC CS V N).
        - discriminate. }
      destruct (remove_spec f new1 I1 NU) as (s2 & u & t2 & E2 & I2 & N2 & S2 & Eu & Et2 & K2). rewrite E2.
      rewrite Et1 in Eu. injection Eu as <-.
      eexists. exists true. split; [reflexivity|]. split; [discriminate|]. intros _. cbn [sv_pol sv_enf sv_sids].
      split; [reflexivity|]. split; [reflexivity|]. split; [reflexivity|]. split.
      * intros _. split; [|split; [reflexivity|]].
        -- destruct I2 as (t3 & Et3 & I2). exists t3. auto.
        -- intros sid c H. apply Hh, K1' in H. cbn [sidtab_set st_next]. rewrite N2. destruct I1 as (t3 & Et3 & _ & Q & _).
           rewrite Et1 in Et3. injection Et3 as <-. apply Q in H. lia.
      * intros sid c'. assert (Hh2 : holds (sidtab_set s2) sid c' <-> In (sid, c') (concat t2)).
        { unfold holds. cbn [sidtab_set st_table]. rewrite Et2. split; [intros (t0 & [= <-] & H); exact H|eauto]. }
        rewrite Hh2, K2. split.
        -- intros (c & H & F). apply K1', Hh in H. destruct (HC sid c H) as [V N]. exists c. split; [exact H|]. unfold f in F.
           destruct (vm sid); [|discriminate]. split; [reflexivity|]. apply (convert_spec _ _ (sv_enf S) c PC CS V N). exact F.
        -- intros (c & H & Ev & Q). destruct (HC sid c H) as [V N]. exists c. split; [apply K1', Hh, H|]. unfold f. rewrite Ev.
           apply (convert_spec _ _ (sv_enf S) c PC CS V N). exact Q.
    + eexists. exists false. split; [reflexivity|]. split; [|discriminate]. intros _. cbn [sv_pol sv_enf sv_sids].
      split; [reflexivity|]. split; [reflexivity|]. split; [right; reflexivity|]. split; [discriminate|]. right. apply FailCase. discriminate.
    + eexists. exists false. split; [reflexivity|]. split; [|discriminate]. intros _. cbn [sv_pol sv_enf sv_sids].
      split; [reflexivity|]. split; [reflexivity|]. split; [right; reflexivity|]. split; [discriminate|]. right. apply FailCase. discriminate.
  - destruct (concat t) as [|[x d] l] eqn:El.
    + cbn [clone_all remove_on_error sidtab_init st_table]. eexists. exists true. split; [reflexivity|]. split; [discriminate|].
      intros _. cbn [sv_pol sv_enf sv_sids]. repeat (split; [first [reflexivity|discriminate]|]).
      intros sid c'. split; [intros (u & Q & _); discriminate Q|]. intros (c & H & _). apply Hh in H. destruct H.
    + cbn [clone_all sidtab_insert sidtab_init st_table]. eexists. exists false. split; [reflexivity|]. split; [|discriminate].
      intros _. cbn [sv_pol sv_enf sv_sids]. repeat (split; [first [reflexivity|right; reflexivity|discriminate]|]). auto.
Qed.

(** *** the statements about histories *)
Lemma stable_and_unique l : Forall sane_op l ->
  exists s tr, trun (sidtab_init true) [] l = ROk (s, tr) /\
    (forall sid c, assigned tr sid c -> 1 <= sid /\ sid < 4294967295 /\ sidtab_search s sid = Some c) /\
    (forall sid c d, assigned tr sid c -> assigned tr sid d -> c = d) /\
    (forall sid, (forall c, ~ assigned tr sid c) -> sidtab_search s sid = sidtab_search s SECINITSID_UNLABELED).
Proof.
  intros F. destruct (run_init l F) as (s & tr & R & (t & Et & Sh & HS & Nx) & _ & As & _). exists s, tr. split; [exact R|].
  specialize (As t Et). split; [|split].
  - intros sid c A. apply As in A. pose proof (HS _ _ A). split; [lia|]. split; [lia|]. rewrite (search_look s t sid Et).
    apply (look_spec t sid c Sh) in A. rewrite A. reflexivity.
  - intros sid c d A B. apply As in A, B. exact (look_fun t sid c d Sh A B).
  - intros sid Hn. rewrite !(search_look s t _ Et). assert (look t sid = None) as ->.
    { apply look_none; [exact Sh|]. intros c Hc. apply As in Hc. exact (Hn c Hc). }
    change SECINITSID_UNLABELED with 3. destruct (look t 3); reflexivity.
Qed.

Lemma requests_succeed l s tr c mem : Forall sane_op l ->
  trun (sidtab_init true) [] l = ROk (s, tr) ->
  exists s' r sid, context_to_sid s c mem = ROk (s', (r, sid)) /\
    (r = TOk \/ (r = TNomem /\ s' = s /\ (mem = false \/ exists d, assigned tr 4294967294 d))) /\
    (r = TOk -> 1 <= sid /\ sid < 4294967295 /\ sidtab_search s' sid = Some c).
Proof.
  intros F R. destruct (run_init l F) as (s0 & tr0 & R0 & I & Sh0 & As & Nx). rewrite R in R0. injection R0 as <- <-.
  pose proof I as (t & Et & Sh & HS & L1 & L2).
  destruct (to_sid_cases s t c mem Et Sh HS L1 L2) as (s' & r & sid & E & TC). exists s', r, sid. split; [exact E|].
  destruct r; [|destruct TC|].
  - split; [auto|]. intros _. destruct TC as [(-> & _ & G & Hi)|(Es & Lt & _ & _ & Hn & _ & _ & t' & Et' & Sh' & A & B & EA & EB)].
    + pose proof (HS _ _ Hi). split; [lia|]. split; [lia|]. rewrite (search_look s t sid Et). apply (look_spec t sid c Sh) in Hi.
      rewrite Hi. reflexivity.
    + split; [lia|]. split; [lia|]. rewrite (search_look s' t' sid Et').
      assert (Hi : In (sid, c) (concat t')) by (rewrite EB; apply in_app_iff; right; left; reflexivity).
      apply (look_spec t' sid c Sh') in Hi. rewrite Hi. reflexivity.
  - split; [|discriminate]. destruct TC as (-> & _ & Q & _). right. split; [reflexivity|]. split; [reflexivity|].
    destruct Q as [Q|[Q|Q]]; [right|congruence|left; exact Q]. destruct Nx as [Nx|Nx]; [lia|]. rewrite Q in Nx. exact Nx.
Qed.

Lemma same_context l1 l2 c m1 m2 s1 tr1 s2 sid1 s3 tr3 :
  Forall sane_op l1 -> Forall sane_op l2 -> (forall i m, ~ In (TInsert i c m) l2) ->
  trun (sidtab_init true) [] l1 = ROk (s1, tr1) ->
  context_to_sid s1 c m1 = ROk (s2, (TOk, sid1)) ->
  trun s2 [] l2 = ROk (s3, tr3) ->
  exists s4, context_to_sid s3 c m2 = ROk (s4, (TOk, sid1)).
Proof.
  intros F1 F2 Hn R1 E1 R2. destruct (run_init l1 F1) as (s0 & tr0 & R0 & I & _). rewrite R1 in R0. injection R0 as <- <-.
  destruct (step_inv s1 (TToSid c m1) I Coq.Init.Logic.I) as (s2' & r & sid & Es & I2 & _). cbn [tstep] in Es. rewrite E1 in Es. injection Es as <- <- <-.
  destruct (run_inv l2 s2 [] I2 F2) as (s3' & tr3' & R2' & I3). rewrite R2 in R2'. injection R2' as <- <-.
  destruct (step_inv s3 (TToSid c m2) I3 Coq.Init.Logic.I) as (s4 & r4 & sid4 & E4 & _). cbn [tstep] in E4.
  destruct (same_sid l2 c m1 m2 s1 s2 [] s3 tr3 s4 sid1 r4 sid4 I F2 Hn E1 R2 E4) as [-> ->]. exists s4. exact E4.
Qed.

(** A table that is shut down refuses a context it does not hold, for ever. *)
Lemma shut_refuses l : forall s tr s' tr' c, inv s -> st_shut s = true -> Forall sane_op l ->
  (forall i m, ~ In (TInsert i c m) l) -> (forall sid, ~ holds s sid c) -> trun s tr l = ROk (s', tr') ->
  context_to_sid s' c true = ROk (s', (TNomem, 0)).
Proof.
  induction l as [|o l IH]; intros s tr s' tr' c I Sd F Hn Hh R; cbn [trun] in R.
  - injection R as <- <-. destruct I as (t & Et & Sh & HS & L1 & L2).
    assert (Hx : forall x, ~ In (x, c) (concat t)) by (intros x Hx; apply (Hh x); exists t; auto).
    unfold context_to_sid. rewrite Et. destruct (search_context_spec t c) as [(-> & _)|(_ & Q)]; [intros; apply (HS sid d); assumption| |destruct (Hx _ Q)].
    cbn [N.eqb negb]. rewrite Sd, orb_true_r. reflexivity.
  - inversion F as [|? ? F1 F2]; subst. destruct (step_inv s o I F1) as (s1 & r & sid & E & I1 & S1 & _ & K). rewrite E in R.
    apply (IH s1 _ s' tr' c I1 ltac:(congruence) F2 (fun i m Hi => Hn i m (or_intror Hi))) in R; [exact R|].
    pose proof I as (t & Et & Sh & HS & L1 & L2). intros x (t1 & Et1 & Hx). destruct (K t t1 Et Et1) as (K1 & _). apply K1 in Hx as [Hx|(-> & -> & Q)].
    + apply (Hh x). exists t. auto.
    + destruct o as [i e m|e m]; [destruct Q as [-> ->]; apply (Hn sid m); left; reflexivity|subst e].
      cbn [tstep] in E. destruct (to_sid_cases s t c m Et Sh HS L1 L2) as (s2 & r2 & sid2 & E2 & TC). rewrite E in E2. injection E2 as <- <- <-.
      destruct TC as [(_ & _ & _ & Q)|(_ & _ & Q & _)]; [|congruence]. apply (Hh sid). exists t. auto.
Qed.

Lemma holds_search s sid c : inv s -> holds s sid c -> sidtab_search s sid = Some c.
Proof.
  intros (t & Et & Sh & _) (t0 & Et0 & H). rewrite Et in Et0. injection Et0 as <-. rewrite (search_look s t sid Et).
  apply (look_spec t sid c Sh) in H. rewrite H. reflexivity.
Qed.

Lemma not_held_search s sid : inv s -> (forall c, ~ holds s sid c) -> sidtab_search s sid = sidtab_search s SECINITSID_UNLABELED.
Proof.
  intros (t & Et & Sh & _) H. rewrite !(search_look s t _ Et). assert (look t sid = None) as ->.
  { apply look_none; [exact Sh|]. intros c Hc. apply (H c). exists t. auto. }
  change SECINITSID_UNLABELED with 3. destruct (look t 3); reflexivity.
Qed.

Lemma failed_load S old new tab_ok clone_mem conv_mem :
  sv_pol S = Some old -> well_built (sv_sids S) ->
  policy_canonical (lp_policy new) -> cats_small (lp_policy new) ->
  (forall sid c, holds (sv_sids S) sid c -> valid_mrange (c_range c) /\ context_named (lp_policy old) c) ->
  exists S' ok, load_policy S true tab_ok clone_mem conv_mem (Some new) = ROk (S', ok) /\
    (ok = false ->
      sv_pol S' = sv_pol S /\ sv_enf S' = sv_enf S /\
      (forall sid, sidtab_search (sv_sids S') sid = sidtab_search (sv_sids S) sid) /\
      (forall sid c m, holds (sv_sids S) sid c -> context_to_sid (sv_sids S) c m = ROk (sv_sids S, (TOk, sid)) ->
         context_to_sid (sv_sids S') c m = ROk (sv_sids S', (TOk, sid))) /\
      (tab_ok = true -> (forall sid, clone_mem sid = true) -> S' = S)).
Proof.
  intros Ep WB PC CS HC. apply inv_built in WB. destruct (load_spec S old new tab_ok clone_mem conv_mem Ep WB PC CS HC) as (S' & ok & E & K & _).
  exists S', ok. split; [exact E|]. intros Hok. destruct (K Hok) as (K1 & K2 & K3 & K4 & K5). split; [exact K1|]. split; [exact K2|].
  split; [intros sid; destruct K3 as [-> | ->]; reflexivity|]. split.
  - intros sid c m H Q. destruct K3 as [-> | ->]; [exact Q|]. destruct WB as (t & Et & Sh & HS & L1 & L2).
    unfold context_to_sid in *. cbn [sidtab_shutdown st_table]. rewrite Et in *.
    destruct (search_context_spec t c) as [(E0 & Hn)|(G & Hi)]; [intros; apply (HS sid0 d); assumption| |].
    + destruct H as (t0 & Et0 & H). rewrite Et in Et0. injection Et0 as <-. destruct (Hn _ H).
    + destruct (N.eqb_spec (search_context t c) 0); [lia|]. cbn [negb] in *. injection Q as ->. reflexivity.
  - intros -> HM. destruct (forallb (class_kept (lp_classes new)) (lp_classes old)); [|auto].
    destruct (K5 eq_refl) as [Q|(sid & c & _ & Q)]; [discriminate|]. rewrite HM in Q. discriminate.
Qed.

Lemma contexts_converted S old new tab_ok clone_mem conv_mem S' :
  sv_pol S = Some old -> well_built (sv_sids S) ->
  policy_canonical (lp_policy new) -> cats_small (lp_policy new) ->
  (forall sid c, holds (sv_sids S) sid c -> valid_mrange (c_range c) /\ context_named (lp_policy old) c) ->
  load_policy S true tab_ok clone_mem conv_mem (Some new) = ROk (S', true) ->
  sv_pol S' = Some new /\ sv_enf S' = sv_enf S /\
  (forall sid c, holds (sv_sids S) sid c ->
     (forall c', conv_mem sid = true -> renamed (lp_policy old) (lp_policy new) c c' ->
        (context_authorised (lp_policy new) c' \/ sv_enf S = false) -> sidtab_search (sv_sids S') sid = Some c') /\
     ((conv_mem sid = false \/
       forall c', renamed (lp_policy old) (lp_policy new) c c' -> ~ context_authorised (lp_policy new) c' /\ sv_enf S = true) ->
        sidtab_search (sv_sids S') sid = sidtab_search (sv_sids S') SECINITSID_UNLABELED)) /\
  (forall sid c', holds (sv_sids S') sid c' -> exists c, holds (sv_sids S) sid c).
Proof.
  intros Ep WB PC CS HC E. apply inv_built in WB. destruct (load_spec S old new tab_ok clone_mem conv_mem Ep WB PC CS HC) as (S1 & ok & E1 & _ & K).
  rewrite E in E1. injection E1 as <- <-. destruct (K eq_refl) as (K1 & K2 & K3 & K4 & K5). split; [exact K1|]. split; [exact K2|]. split.
  - intros sid c H. assert (ct : tab_ok = true).
    { destruct tab_ok; [reflexivity|]. exfalso. unfold load_policy in E. cbn [negb] in E. rewrite Ep, K3 in E. cbn [negb] in E.
      destruct H as (t & Et & H). cbn [sidtab_shutdown st_table] in E. rewrite Et in E.
      pose proof (clone_null clone_mem (sidtab_init false) eq_refl (concat t)) as Q. destruct (clone_all clone_mem (concat t) (sidtab_init false)) as [n r].
      cbn [snd] in Q. destruct r; [apply Q; [intros Z; rewrite Z in H; destruct H|reflexivity]| |]; discriminate. }
    destruct (K4 ct) as (I' & _). split.
    + intros c' M Rn Au. apply holds_search; [exact I'|]. apply K5. exists c. auto.
    + intros D. apply not_held_search; [exact I'|]. intros c' H'. apply K5 in H' as (c2 & H2 & M & Rn & Au).
      assert (c2 = c).
      { destruct WB as (t & Et & Sh & _). destruct H as (t1 & Et1 & H), H2 as (t2 & Et2 & H2). rewrite Et in Et1, Et2. injection Et1 as <-. injection Et2 as <-.
        exact (look_fun t sid _ _ Sh H2 H). }
      subst c2. destruct D as [D|D]; [congruence|]. destruct (D c' Rn) as [D1 D2]. destruct Au as [Au|Au]; [exact (D1 Au)|congruence].
  - intros sid c' H. apply K5 in H as (c & H & _). eauto.
Qed.

Lemma perms_kept_spec old new : perms_kept old new = true -> forall nm v, In (nm, v) old -> In (nm, v) new.
Proof.
  unfold perms_kept. rewrite forallb_forall. intros H nm v Hi. apply H in Hi. cbn [fst snd] in Hi.
  destruct (find _ new) as [[nm' v']|] eqn:E; [|discriminate]. apply find_some in E as [E1 E2]. cbn [fst snd] in *.
  apply str_eqb_eq in E2. subst nm'. replace v with v' by lia. exact E1.
Qed.

Lemma classes_kept S old new tab_ok clone_mem conv_mem S' :
  sv_pol S = Some old -> load_policy S true tab_ok clone_mem conv_mem (Some new) = ROk (S', true) ->
  forall c, In c (lp_classes old) -> exists c', In c' (lp_classes new) /\ cd_name c' = cd_name c /\ cd_value c' = cd_value c /\
    (forall nm v, In (nm, v) (cd_perms c) -> In (nm, v) (cd_perms c')) /\
    (forall ps nm v, cd_common c = Some ps -> In (nm, v) ps -> exists ps', cd_common c' = Some ps' /\ In (nm, v) ps').
Proof.
  intros Ep E c Hc. unfold load_policy in E. cbn [negb] in E. rewrite Ep in E.
  destruct (forallb (class_kept (lp_classes new)) (lp_classes old)) eqn:Ec; cbn [negb] in E; [|discriminate].
  rewrite forallb_forall in Ec. apply Ec in Hc. unfold class_kept in Hc. destruct (find _ (lp_classes new)) as [c'|] eqn:Ef; [|discriminate].
  apply find_some in Ef as [E1 E2]. apply str_eqb_eq in E2. apply andb_prop in Hc as [Hc P]. apply andb_prop in Hc as [V C].
  exists c'. split; [exact E1|]. split; [auto|]. split; [lia|]. split; [exact (perms_kept_spec _ _ P)|].
  intros ps nm v Eps Hi. rewrite Eps in C. destruct (cd_common c') as [ps'|]; [|discriminate]. exists ps'. split; [reflexivity|].
  exact (perms_kept_spec _ _ C nm v Hi).
Qed.

Lemma fresh_run l : forall s tr s' tr', inv s -> trun s tr (map (fun c => TToSid c true) l) = ROk (s', tr') ->
  inv s' /\ forall c sid, In (TToSid c true, (TOk, sid)) tr' -> In (TToSid c true, (TOk, sid)) tr \/ holds s sid c \/ st_next s <= sid.
Proof.
  induction l as [|c l IH]; intros s tr s' tr' I R; cbn [map trun] in R.
  - injection R as <- <-. auto.
  - destruct (step_inv s (TToSid c true) I Coq.Init.Logic.I) as (s1 & r & sid & E & I1 & _ & Nx & K). rewrite E in R.
    destruct (IH s1 _ s' tr' I1 R) as (I' & Q). split; [exact I'|]. intros d x Hd. pose proof I as (t & Et & Sh & HS & L1 & L2).
    pose proof I1 as (t1 & Et1 & _). destruct (K t t1 Et Et1) as (K1 & _).
    assert (Hold : forall y e, holds s1 y e -> holds s y e \/ st_next s <= y).
    { intros y e (t0 & Et0 & Hy). rewrite Et1 in Et0. injection Et0 as <-. apply K1 in Hy as [Hy|(-> & -> & <-)]; [left; exists t; auto|].
      cbn [tstep] in E. destruct (to_sid_cases s t c true Et Sh HS L1 L2) as (s2 & r2 & sid2 & E2 & TC). rewrite E in E2. injection E2 as <- <- <-.
      destruct TC as [(_ & _ & _ & Z)|(-> & _)]; [left; exists t; auto|right; lia]. }
    destruct (Q d x Hd) as [[[= -> -> ->]|H]|[H|H]].
    + right. apply Hold. exists t1. split; [exact Et1|]. apply K1. auto.
    + auto.
    + destruct (Hold x d H); auto.
    + right. right. lia.
Qed.

Lemma numbers_not_reused S old new clone_mem conv_mem S' :
  sv_pol S = Some old -> well_built (sv_sids S) ->
  policy_canonical (lp_policy new) -> cats_small (lp_policy new) ->
  (forall sid c, holds (sv_sids S) sid c -> valid_mrange (c_range c) /\ context_named (lp_policy old) c) ->
  load_policy S true true clone_mem conv_mem (Some new) = ROk (S', true) ->
  well_built (sv_sids S') /\
  forall l s tr, trun (sv_sids S') [] (map (fun c => TToSid c true) l) = ROk (s, tr) ->
    forall c sid, In (TToSid c true, (TOk, sid)) tr -> ~ holds (sv_sids S') sid c ->
    forall d, ~ holds (sv_sids S) sid d.
Proof.
  intros Ep WB PC CS HC E. apply inv_built in WB. destruct (load_spec S old new true clone_mem conv_mem Ep WB PC CS HC) as (S1 & ok & E1 & _ & K).
  rewrite E in E1. injection E1 as <- <-. destruct (K eq_refl) as (_ & _ & _ & K4 & _). destruct (K4 eq_refl) as (I' & _ & Nx).
  split; [apply inv_built; exact I'|]. intros l s tr R c sid Hi Hn d Hd. apply Nx in Hd.
  destruct (fresh_run l (sv_sids S') [] s tr I' R) as (_ & Q). destruct (Q c sid Hi) as [[]|[H|H]]; [exact (Hn H)|lia].
Qed.
