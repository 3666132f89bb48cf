(** Proofs about access decisions. *)
From Verif Require Import Base EbitmapModel EbitmapSpec EbitmapProofs MlsModel MlsSpec MlsProofs
  AvtabModel AvtabSpec AvtabProofs CondModel ServicesModel ServicesSpec.
Ltac Zify.zify_post_hook ::= Z.div_mod_to_equations.

(** ** Constraint evaluation *)

Lemma pred32_small v : 1 <= v < 4294967296 -> pred32 v = v - 1.
Proof. intros H. unfold pred32, wrap32, W32. lia. Qed.

Lemma val_op_ok eq v1 v2 : exists b, val_op (eq_code eq) v1 v2 = LVal b /\ (b = true <-> eq_or_not eq (v1 = v2)).
Proof.
  destruct eq; cbn; eexists; (split; [reflexivity|]).
  - apply N.eqb_eq.
  - rewrite negb_true_iff. apply N.eqb_neq.
Qed.

Lemma mls_op_ok r l1 l2 : valid_level l1 -> valid_level l2 ->
  exists b, mls_op (rel_code r) l1 l2 = LVal b /\
  (b = true <-> match r with
      | REq => level_same l1 l2
      | RNeq => ~ level_same l1 l2
      | RDom => level_le l2 l1
      | RDomby => level_le l1 l2
      | RIncomp => ~ level_le l1 l2 /\ ~ level_le l2 l1
      end).
Proof.
  intros V1 V2. destruct r; cbn; eexists; (split; [reflexivity|]).
  - apply eq_spec; assumption.
  - rewrite negb_true_iff, <- not_true_iff_false, (eq_spec l1 l2 V1 V2). reflexivity.
  - apply dom_spec; assumption.
  - apply dom_spec; assumption.
  - unfold mls_level_incomp. rewrite andb_true_iff, !negb_true_iff, <- !not_true_iff_false,
      (dom_spec l1 l2 V1 V2), (dom_spec l2 l1 V2 V1). tauto.
Qed.

Lemma dom_bit P r q d : sv_dom P r = Some d -> valid d -> 1 <= q < 4294967296 ->
  (ebitmap_get_bit d (pred32 q) = true <-> role_dom P r q).
Proof.
  intros E V Hq. rewrite (pred32_small q Hq), (get_bit_member d (q - 1) V). unfold role_dom. split.
  - intros H. exists d. auto.
  - intros (d' & E' & H). congruence.
Qed.

Lemma role_op_ok P r s t : ctx_ok s -> ctx_ok t -> role_known P s -> role_known P t ->
  exists b, role_op P (rel_code r) (c_role s) (c_role t) = LVal b /\
  (b = true <-> leaf_holds P s t None (FRoles r)).
Proof.
  intros (_ & Rs & _) (_ & Rt & _) (ds & Es & Vs) (dt & Et & Vt).
  pose proof (dom_bit P _ _ ds Es Vs Rt) as H1. pose proof (dom_bit P _ _ dt Et Vt Rs) as H2.
  destruct r; unfold role_op; cbn [rel_code leaf_holds N.eqb Pos.eqb]; cbv iota.
  - apply (val_op_ok true).
  - apply (val_op_ok false).
  - rewrite Es. eexists. split; [reflexivity|exact H1].
  - rewrite Et. eexists. split; [reflexivity|exact H2].
  - rewrite Es, Et. destruct (ebitmap_get_bit ds (pred32 (c_role t))).
    + exists false. split; [reflexivity|]. split; [discriminate|]. intros [H _]. exfalso. apply H, H1. reflexivity.
    + eexists. split; [reflexivity|]. rewrite negb_true_iff, <- not_true_iff_false, H2.
      split; [|tauto]. intros H. split; [|exact H]. rewrite <- H1. discriminate.
Qed.

Definition leaf_fun (P : spolicy) s t x (e : cexpr) : leaf_res :=
  if ce_type e =? CEXPR_ATTR then attr_leaf P s t e else names_leaf s t x e.

Lemma leaf_eval P s t x e f : leaf_code e f -> ctx_ok s -> ctx_ok t -> (forall c, x = Some c -> ctx_ok c) ->
  role_known P s -> role_known P t -> sets_ok (CLeaf f) -> (x = None -> no_third (CLeaf f)) ->
  exists b, leaf_fun P s t x e = LVal b /\ (b = true <-> leaf_holds P s t x f).
Proof.
  intros C Hs Ht Hx Rs Rt V T. destruct C as [eq nm|eq nm|r nm|p r nm|w k eq nm]; unfold leaf_fun.
  - apply val_op_ok.
  - apply val_op_ok.
  - apply role_op_ok; assumption.
  - destruct Hs as (_ & _ & _ & Vs1 & Vs2), Ht as (_ & _ & _ & Vt1 & Vt2).
    destruct p; cbn [lpair_code ce_type ce_attr ce_op attr_leaf leaf_holds lpair_of]; apply mls_op_ok; assumption.
  - assert (E : exists c, match w with WSrc => Some s | WTgt => Some t | WThird => x end = Some c /\ ctx_ok c).
    { destruct w; [eauto|eauto|]. destruct x as [c|]; [eauto|]. destruct (T eq_refl). }
    destruct E as (c & E & Hc).
    assert (N1 : names_leaf s t x (mkCE 5 (what_code k + who_code w) (eq_code eq) nm) =
      if eq_code eq =? 1 then LVal (ebitmap_get_bit nm (pred32 (attr_of k c)))
      else if eq_code eq =? 2 then LVal (negb (ebitmap_get_bit nm (pred32 (attr_of k c)))) else LBad).
    { unfold names_leaf. cbn [ce_attr ce_op ce_names].
      destruct w, k; cbn [what_code who_code attr_of] in *;
        match goal with |- context [?a + ?b] => let v := eval vm_compute in (a + b) in change (a + b) with v end;
        repeat match goal with |- context [flag ?a ?b] => let v := eval vm_compute in (flag a b) in change (flag a b) with v end;
        cbv iota; first [injection E as <- | rewrite E]; reflexivity. }
    cbn [ce_type]. change (5 =? CEXPR_ATTR) with false. cbv iota. rewrite N1. clear N1.
    assert (B : 1 <= attr_of k c < 4294967296) by (destruct Hc as (H1 & H2 & H3 & _); destruct k; assumption).
    pose proof (get_bit_member nm (pred32 (attr_of k c)) V) as G. rewrite (pred32_small _ B) in G.
    rewrite (pred32_small _ B).
    destruct eq; cbn [eq_code leaf_holds eq_or_not]; eexists; (split; [reflexivity|]).
    + rewrite G. split; [intros; exists c; auto|]. intros (c' & E' & H). congruence.
    + rewrite negb_true_iff, <- not_true_iff_false, G. split; [intros; exists c; auto|]. intros (c' & E' & H). congruence.
Qed.

Lemma cdepth_pos f : (1 <= cdepth f)%nat.
Proof. induction f; cbn; lia. Qed.

Section EV.
Variables (P : spolicy) (s t : context) (x : option context).
Hypothesis (Hs : ctx_ok s) (Ht : ctx_ok t) (Hx : forall c, x = Some c -> ctx_ok c)
  (Rs : role_known P s) (Rt : role_known P t).

Lemma leaf_step e f l first st : leaf_code e f -> (length st < 5)%nat -> sets_ok (CLeaf f) ->
  (x = None -> no_third (CLeaf f)) ->
  exists b, ceval_loop P s t x (e :: l) first st = ceval_loop P s t x l false (b :: st) /\
    (b = true <-> leaf_holds P s t x f).
Proof.
  intros C L V T. destruct (leaf_eval P s t x e f C Hs Ht Hx Rs Rt V T) as (b & E & Hb).
  exists b. split; [|exact Hb]. cbn [ceval_loop].
  assert (Ty : ce_type e = 4 \/ ce_type e = 5) by (destruct C; auto).
  unfold leaf_fun in E. destruct (Nat.eqb_spec (length st) CEXPR_MAXDEPTH) as [E5|_]; [unfold CEXPR_MAXDEPTH in E5; lia|].
  destruct Ty as [Ty|Ty]; rewrite Ty in *; cbn [N.eqb Pos.eqb CEXPR_NOT CEXPR_AND CEXPR_OR CEXPR_ATTR CEXPR_NAMES orb] in *;
    cbv beta iota zeta delta [N.eqb Pos.eqb CEXPR_NOT CEXPR_AND CEXPR_OR CEXPR_ATTR CEXPR_NAMES orb] in *; rewrite E; reflexivity.
Qed.

Lemma written_eval l f : cwrites l f -> sets_ok f -> (x = None -> no_third f) -> forall r first st,
  (length st + cdepth f <= 5)%nat ->
  exists b, ceval_loop P s t x (l ++ r) first st = ceval_loop P s t x r false (b :: st) /\
    (b = true <-> cholds P s t x f).
Proof.
  induction 1 as [e f C|l a e W IH T|l a m b e W1 IH1 W2 IH2 T|l a m b e W1 IH1 W2 IH2 T]; intros V NT r first st D.
  - cbn [app]. cbn [cdepth] in D. apply leaf_step; try assumption. lia.
  - cbn [cdepth sets_ok no_third cholds] in *. rewrite <- app_assoc.
    destruct (IH V NT ([e] ++ r) first st D) as (b & -> & Hb).
    exists (negb b). cbn [app ceval_loop]. rewrite T. split; [reflexivity|].
    rewrite negb_true_iff, <- not_true_iff_false, Hb. reflexivity.
  - cbn [cdepth sets_ok no_third cholds] in *. destruct V as [V1 V2].
    rewrite <- !app_assoc.
    destruct (IH1 V1 (fun E => proj1 (NT E)) (m ++ [e] ++ r) first st) as (b1 & -> & H1); [lia|].
    destruct (IH2 V2 (fun E => proj2 (NT E)) ([e] ++ r) false (b1 :: st)) as (b2 & -> & H2); [cbn [length]; lia|].
    exists (b1 && b2). cbn [app ceval_loop]. rewrite T. split; [reflexivity|]. rewrite andb_true_iff, H1, H2. reflexivity.
  - cbn [cdepth sets_ok no_third cholds] in *. destruct V as [V1 V2].
    rewrite <- !app_assoc.
    destruct (IH1 V1 (fun E => proj1 (NT E)) (m ++ [e] ++ r) first st) as (b1 & -> & H1); [lia|].
    destruct (IH2 V2 (fun E => proj2 (NT E)) ([e] ++ r) false (b1 :: st)) as (b2 & -> & H2); [cbn [length]; lia|].
    exists (b1 || b2). cbn [app ceval_loop]. rewrite T. split; [reflexivity|]. rewrite orb_true_iff, H1, H2. reflexivity.
Qed.

Lemma constraint_eval_ok l f : cwrites l f -> (cdepth f <= 5)%nat -> sets_ok f -> (x = None -> no_third f) ->
  exists b, constraint_expr_eval P s t x l = CVal b /\ (b = true <-> cholds P s t x f).
Proof.
  intros W D V T. unfold constraint_expr_eval.
  destruct (written_eval l f W V T [] true [] D) as (b & E & H). rewrite app_nil_r in E.
  exists b. rewrite E. split; [reflexivity|exact H].
Qed.
End EV.

(** The reading of a list is unique. *)
Fixpoint cssem (l : list cexpr) (st : list cform) : option (list cform) :=
  match l with
  | [] => Some st
  | e :: l' =>
      if ce_type e =? 1 then match st with a :: r => cssem l' (CNot a :: r) | _ => None end
      else if ce_type e =? 2 then match st with b :: a :: r => cssem l' (CAnd a b :: r) | _ => None end
      else if ce_type e =? 3 then match st with b :: a :: r => cssem l' (COr a b :: r) | _ => None end
      else
        let eq := ce_op e =? 1 in
        let r := match ce_op e with 1 => REq | 2 => RNeq | 3 => RDom | 4 => RDomby | _ => RIncomp end in
        let f :=
          if ce_type e =? 4 then
            match ce_attr e with
            | 1 => FUsers eq | 4 => FTypes eq | 2 => FRoles r
            | 32 => FLevels L1L2 r | 64 => FLevels L1H2 r | 128 => FLevels H1L2 r | 256 => FLevels H1H2 r
            | 512 => FLevels L1H1 r | _ => FLevels L2H2 r
            end
          else
            match ce_attr e with
            | 1 => FNames WSrc KUser eq (ce_names e) | 2 => FNames WSrc KRole eq (ce_names e)
            | 4 => FNames WSrc KType eq (ce_names e)
            | 9 => FNames WTgt KUser eq (ce_names e) | 10 => FNames WTgt KRole eq (ce_names e)
            | 12 => FNames WTgt KType eq (ce_names e)
            | 17 => FNames WThird KUser eq (ce_names e) | 18 => FNames WThird KRole eq (ce_names e)
            | _ => FNames WThird KType eq (ce_names e)
            end in
        cssem l' (CLeaf f :: st)
  end.

Lemma cwrites_cssem l f : cwrites l f -> forall r st, cssem (l ++ r) st = cssem r (f :: st).
Proof.
  induction 1 as [e f C|l a e W IH T|l a m b e W1 IH1 W2 IH2 T|l a m b e W1 IH1 W2 IH2 T]; intros r st.
  - cbn [app cssem]. destruct C as [[] nm|[] nm|[] nm|[] [] nm|[] [] [] nm]; reflexivity.
  - rewrite <- app_assoc, IH. cbn [app cssem]. rewrite T. reflexivity.
  - rewrite <- !app_assoc, IH1, IH2. cbn [app cssem]. rewrite T. reflexivity.
  - rewrite <- !app_assoc, IH1, IH2. cbn [app cssem]. rewrite T. reflexivity.
Qed.

Lemma cwrites_unique l f g : cwrites l f -> cwrites l g -> f = g.
Proof.
  intros H1 H2. pose proof (cwrites_cssem l f H1 [] []) as E1. pose proof (cwrites_cssem l g H2 [] []) as E2.
  rewrite E1 in E2. cbn in E2. congruence.
Qed.

(** ** Reading and validation *)

(** Tokens without stray fields. *)
Definition tidy (e : cexpr) : Prop :=
  (ce_type e <> 5 -> ebitmap_is_empty (ce_names e) = true) /\ (ce_type e < 4 -> ce_op e = 0 /\ ce_attr e = 0).

Lemma validate_leaf_code xt e : ce_type e = 4 \/ ce_type e = 5 -> validate_leaf xt e = true ->
  tidy e /\ exists f, leaf_code e f /\ (xt = false -> no_third (CLeaf f)).
Proof.
  destruct e as [ty a op nm]. cbn [ce_type]. intros Ty H. unfold validate_leaf in H. cbn [ce_type ce_attr ce_op ce_names] in H.
  destruct Ty as [-> | ->].
  - change (4 =? CEXPR_NAMES) with false in H. cbv iota in H.
    apply andb_prop in H as [H Ha]. apply andb_prop in H as [Hn Ho].
    split; [split; cbn; [auto|lia]|].
    apply existsb_exists in Ha as (y & Hy & E). apply N.eqb_eq in E. subst y.
    assert (Hop : op = 1 \/ op = 2 \/ ((op = 3 \/ op = 4 \/ op = 5) /\ flag a 1 = false /\ flag a 4 = false)).
    { destruct (flag a 1), (flag a 4); lia. }
    clear Ho. cbn [In] in Hy.
    destruct Hy as [<-|[<-|[<-|[<-|[<-|[<-|[<-|[<-|[<-|[]]]]]]]]]].
    + destruct Hop as [-> |[-> |(_ & H & _)]]; [exists (FUsers true)|exists (FUsers false)|discriminate];
        (split; [|intros _; exact I]); [exact (LC_users true nm)|exact (LC_users false nm)].
    + assert (exists r, op = rel_code r) as (r & ->).
      { destruct Hop as [-> |[-> |([-> |[-> | ->]] & _)]]; [exists REq|exists RNeq|exists RDom|exists RDomby|exists RIncomp]; reflexivity. }
      exists (FRoles r). split; [constructor|intros _; exact I].
    + destruct Hop as [-> |[-> |(_ & _ & H)]]; [exists (FTypes true)|exists (FTypes false)|discriminate];
        (split; [|intros _; exact I]); [exact (LC_types true nm)|exact (LC_types false nm)].
    + assert (exists r, op = rel_code r) as (r & ->).
      { destruct Hop as [-> |[-> |([-> |[-> | ->]] & _)]]; [exists REq|exists RNeq|exists RDom|exists RDomby|exists RIncomp]; reflexivity. }
      exists (FLevels L1L2 r). split; [exact (LC_levels L1L2 r nm)|intros _; exact I].
    + assert (exists r, op = rel_code r) as (r & ->).
      { destruct Hop as [-> |[-> |([-> |[-> | ->]] & _)]]; [exists REq|exists RNeq|exists RDom|exists RDomby|exists RIncomp]; reflexivity. }
      exists (FLevels L1H2 r). split; [exact (LC_levels L1H2 r nm)|intros _; exact I].
    + assert (exists r, op = rel_code r) as (r & ->).
      { destruct Hop as [-> |[-> |([-> |[-> | ->]] & _)]]; [exists REq|exists RNeq|exists RDom|exists RDomby|exists RIncomp]; reflexivity. }
      exists (FLevels H1L2 r). split; [exact (LC_levels H1L2 r nm)|intros _; exact I].
    + assert (exists r, op = rel_code r) as (r & ->).
      { destruct Hop as [-> |[-> |([-> |[-> | ->]] & _)]]; [exists REq|exists RNeq|exists RDom|exists RDomby|exists RIncomp]; reflexivity. }
      exists (FLevels H1H2 r). split; [exact (LC_levels H1H2 r nm)|intros _; exact I].
    + assert (exists r, op = rel_code r) as (r & ->).
      { destruct Hop as [-> |[-> |([-> |[-> | ->]] & _)]]; [exists REq|exists RNeq|exists RDom|exists RDomby|exists RIncomp]; reflexivity. }
      exists (FLevels L1H1 r). split; [exact (LC_levels L1H1 r nm)|intros _; exact I].
    + assert (exists r, op = rel_code r) as (r & ->).
      { destruct Hop as [-> |[-> |([-> |[-> | ->]] & _)]]; [exists REq|exists RNeq|exists RDom|exists RDomby|exists RIncomp]; reflexivity. }
      exists (FLevels L2H2 r). split; [exact (LC_levels L2H2 r nm)|intros _; exact I].
  - change (5 =? CEXPR_NAMES) with true in H. cbv iota in H.
    apply andb_prop in H as [H Ha]. apply andb_prop in H as [Hn Ho].
    split; [split; cbn; [congruence|lia]|].
    assert (exists eq, op = eq_code eq) as (eq & ->).
    { destruct (N.eqb_spec op 1) as [->|]; [exists true; reflexivity|]. exists false. cbn. lia. }
    clear Ho. apply existsb_exists in Ha as (y & Hy & E). apply N.eqb_eq in E. subst y. cbn [In] in Hy.
    assert (T3 : forall w k, a = what_code k + who_code w -> exists f, leaf_code (mkCE 5 a (eq_code eq) nm) f /\
                   (xt = false -> no_third (CLeaf f))).
    { intros w k ->. exists (FNames w k eq nm). split; [constructor|]. intros ->.
      destruct w; [exact I|exact I|]. exfalso. destruct k; discriminate. }
    destruct Hy as [<-|[<-|[<-|[<-|[<-|[<-|[<-|[<-|[<-|[]]]]]]]]]];
      [apply (T3 WSrc KUser)|apply (T3 WTgt KUser)|apply (T3 WThird KUser)|apply (T3 WSrc KRole)|apply (T3 WTgt KRole)
      |apply (T3 WThird KRole)|apply (T3 WSrc KType)|apply (T3 WTgt KType)|apply (T3 WThird KType)]; reflexivity.
Qed.

Lemma leaf_code_validate xt e f : leaf_code e f -> tidy e -> (xt = false -> no_third (CLeaf f)) -> validate_leaf xt e = true.
Proof.
  intros C [T1 _] NT. destruct C as [[] nm|[] nm|[] nm|[] [] nm|[] [] [] nm]; unfold validate_leaf; cbn in *;
    try (rewrite (T1 ltac:(discriminate))); try reflexivity;
    destruct xt; try reflexivity; exfalso; apply NT; reflexivity.
Qed.

Fixpoint segs_ok (xt : bool) (segs : list (list cexpr * cform)) : Prop :=
  match segs with
  | [] => True
  | (l, f) :: r => cwrites l f /\ (length r + cdepth f <= 5)%nat /\ (xt = false -> no_third f) /\ Forall tidy l /\ segs_ok xt r
  end.

Lemma validate_build xt l : forall segs, segs_ok xt segs -> validate_cexprs xt l (length segs) = true ->
  exists m f, concat (rev (map fst segs)) ++ l = m /\ cwrites m f /\ (cdepth f <= 5)%nat /\ (xt = false -> no_third f) /\ Forall tidy m.
Proof.
  induction l as [|e l IH]; intros segs S V; cbn [validate_cexprs] in V.
  - apply Nat.eqb_eq in V. destruct segs as [|[m f] [|q r]]; cbn in V; try discriminate.
    destruct S as (W & D & T & Td & _). exists m, f. cbn. rewrite !app_nil_r.
    split; [reflexivity|]. split; [exact W|]. split; [cbn in D; lia|]. split; assumption.
  - destruct ((ce_type e =? CEXPR_NAMES) || (ce_type e =? CEXPR_ATTR)) eqn:TL.
    + destruct (Nat.leb_spec CEXPR_MAXDEPTH (length segs)) as [|L]; [discriminate|]. unfold CEXPR_MAXDEPTH in L.
      apply andb_prop in V as [VL V].
      destruct (validate_leaf_code xt e) as (Td & f & C & T); [unfold CEXPR_NAMES, CEXPR_ATTR in TL; lia|exact VL|].
      destruct (IH (([e], CLeaf f) :: segs)) as (m & g & E & R).
      * cbn [segs_ok]. split; [constructor; exact C|]. split; [cbn; lia|]. split; [exact T|].
        split; [constructor; [exact Td|constructor]|exact S].
      * exact V.
      * exists m, g. split; [|exact R]. rewrite <- E. cbn [map rev fst]. rewrite concat_app. cbn [concat app].
        rewrite ?app_nil_r, <- ?app_assoc. reflexivity.
    + apply andb_prop in V as [V V3]. apply andb_prop in V as [V1 V2].
      assert (Td : tidy e).
      { apply andb_prop in V2 as [V2 V2c]. apply andb_prop in V2 as [V2a V2b]. split; [intros _; exact V2c|intros _; lia]. }
      destruct (N.eqb_spec (ce_type e) CEXPR_NOT) as [T1|T1].
      * destruct segs as [|[m f] r]; [cbn in V1; discriminate|]. destruct S as (W & D & T & Tm & S).
        destruct (IH ((m ++ [e], CNot f) :: r)) as (m' & g & E & R).
        { cbn [segs_ok]. split; [constructor; assumption|]. split; [exact D|]. split; [exact T|].
          split; [|exact S]. apply Forall_app; auto. }
        { exact V3. }
        exists m', g. split; [|exact R]. rewrite <- E. cbn [map rev fst]. rewrite !concat_app. cbn [concat app].
        rewrite ?app_nil_r, <- ?app_assoc. reflexivity.
      * assert (ce_type e = 2 \/ ce_type e = 3) as T2.
        { unfold CEXPR_AND, CEXPR_OR in *. destruct ((ce_type e =? 2) || (ce_type e =? 3)) eqn:E2; [lia|discriminate]. }
        destruct segs as [|[m2 f2] [|[m1 f1] r]]; [exfalso; destruct T2 as [T2|T2]; rewrite T2 in V1; discriminate
          |exfalso; destruct T2 as [T2|T2]; rewrite T2 in V1; discriminate|].
        destruct S as (W2 & D2 & N2 & Tm2 & W1 & D1 & N1 & Tm1 & S). cbn [length] in D2.
        assert (exists f, cwrites (m1 ++ m2 ++ [e]) f /\ cdepth f = Nat.max (cdepth f1) (Datatypes.S (cdepth f2)) /\ (xt = false -> no_third f)) as (f & W & D & Nf).
        { destruct T2 as [T2|T2]; [exists (CAnd f1 f2)|exists (COr f1 f2)];
            (split; [constructor; assumption|split; [reflexivity|cbn; auto]]). }
        destruct (IH ((m1 ++ m2 ++ [e], f) :: r)) as (m' & g & E & R).
        { cbn [segs_ok]. split; [exact W|]. split; [lia|]. split; [exact Nf|]. split; [|exact S].
          apply Forall_app; split; [exact Tm1|]. apply Forall_app; auto. }
        { exact V3. }
        exists m', g. split; [|exact R]. rewrite <- E. cbn [map rev fst]. rewrite !concat_app. cbn [concat app].
        rewrite ?app_nil_r, <- ?app_assoc. reflexivity.
Qed.

Lemma written_validates xt l f : cwrites l f -> (xt = false -> no_third f) -> Forall tidy l -> forall r d,
  (d + cdepth f <= 5)%nat -> validate_cexprs xt (l ++ r) d = validate_cexprs xt r (S d).
Proof.
  induction 1 as [e f C|l a e W IH T|l a m b e W1 IH1 W2 IH2 T|l a m b e W1 IH1 W2 IH2 T]; intros NT Td r d D.
  - cbn [app validate_cexprs]. inversion Td as [|? ? Te _]; subst.
    rewrite (leaf_code_validate xt e f C Te NT). cbn [cdepth] in D.
    destruct (Nat.leb_spec CEXPR_MAXDEPTH d) as [H|_]; [unfold CEXPR_MAXDEPTH in H; lia|].
    destruct C; reflexivity.
  - cbn [cdepth no_third] in *. apply Forall_app in Td as [T1 T2]. inversion T2 as [|? ? Te _]; subst.
    rewrite <- app_assoc, IH by assumption. cbn [app validate_cexprs]. rewrite T. destruct Te as [Te1 Te2].
    rewrite (Te1 ltac:(rewrite T; discriminate)). destruct Te2 as [-> ->]; [lia|]. reflexivity.
  - cbn [cdepth no_third] in *. apply Forall_app in Td as [T1 T2]. apply Forall_app in T2 as [T2 T3].
    inversion T3 as [|? ? Te _]; subst.
    rewrite <- !app_assoc, (IH1 (fun E => proj1 (NT E)) T1) by lia.
    rewrite (IH2 (fun E => proj2 (NT E)) T2) by lia.
    cbn [app validate_cexprs]. rewrite T. destruct Te as [Te1 Te2].
    rewrite (Te1 ltac:(rewrite T; discriminate)). destruct Te2 as [-> ->]; [lia|]. reflexivity.
  - cbn [cdepth no_third] in *. apply Forall_app in Td as [T1 T2]. apply Forall_app in T2 as [T2 T3].
    inversion T3 as [|? ? Te _]; subst.
    rewrite <- !app_assoc, (IH1 (fun E => proj1 (NT E)) T1) by lia.
    rewrite (IH2 (fun E => proj2 (NT E)) T2) by lia.
    cbn [app validate_cexprs]. rewrite T. destruct Te as [Te1 Te2].
    rewrite (Te1 ltac:(rewrite T; discriminate)). destruct Te2 as [-> ->]; [lia|]. reflexivity.
Qed.

Lemma cwrites_nonempty l f : cwrites l f -> l <> [].
Proof. destruct 1; [discriminate|destruct l; discriminate|destruct l; [destruct m|]; discriminate|destruct l; [destruct m|]; discriminate]. Qed.

Lemma validate_cexpr_iff xt l : validate_cexpr xt l = true <->
  (exists f, cwrites l f /\ (cdepth f <= 5)%nat /\ (xt = false -> no_third f)) /\ Forall tidy l.
Proof.
  split.
  - intros H. assert (V : validate_cexprs xt l 0 = true) by (destruct l; [discriminate|exact H]).
    destruct (validate_build xt l [] I V) as (m & f & E & W & D & T & Td). cbn in E. subst m.
    split; [exists f; auto|exact Td].
  - intros ((f & W & D & T) & Td). pose proof (cwrites_nonempty l f W). unfold validate_cexpr.
    destruct l; [congruence|]. pose proof (written_validates xt _ f W T Td [] 0%nat D) as E.
    rewrite app_nil_r in E. rewrite E. reflexivity.
Qed.

(** What the reader accepts never makes evaluation return a negative value. *)
Lemma read_no_neg P s t x xt l : forall first st d, length st = d -> read_cons_depth xt l d = true ->
  ceval_loop P s t x l first st <> CNeg.
Proof.
  induction l as [|e l IH]; intros first st d L H; [discriminate|]. cbn [read_cons_depth] in H. cbn [ceval_loop].
  destruct (ce_type e =? CEXPR_NOT) eqn:T1.
  { destruct st; cbn [length] in L; subst d; [discriminate|]. apply (IH _ _ _ eq_refl). exact H. }
  destruct (ce_type e =? CEXPR_AND) eqn:T2.
  { cbn [orb] in H. destruct st as [|b [|a r]]; cbn [length] in L; subst d; [discriminate|discriminate|].
    apply (IH _ _ _ eq_refl). exact H. }
  destruct (ce_type e =? CEXPR_OR) eqn:T3.
  { cbn [orb] in H. destruct st as [|b [|a r]]; cbn [length] in L; subst d; [discriminate|discriminate|].
    apply (IH _ _ _ eq_refl). exact H. }
  cbn [orb] in H.
  destruct (ce_type e =? CEXPR_ATTR) eqn:T4.
  { cbn [orb]. destruct (Nat.eqb d CEXPR_MAXDEPTH) eqn:E5; [discriminate|]. rewrite L, E5.
    destruct (attr_leaf P s t e); [|destruct first; discriminate|discriminate].
    apply (IH _ _ (S d)); [cbn; lia|exact H]. }
  destruct (ce_type e =? CEXPR_NAMES) eqn:T5; [|discriminate]. cbn [orb].
  destruct (negb xt && flag (ce_attr e) 16); [discriminate|].
  destruct (Nat.eqb d CEXPR_MAXDEPTH) eqn:E5; [discriminate|]. rewrite L, E5.
  destruct (names_leaf s t x e); [|destruct first; discriminate|discriminate].
  apply (IH _ _ (S d)); [cbn; lia|exact H].
Qed.

(** ** Rule collection *)

Lemma has_bits s sp : (N.land s (N.lor (2 ^ sp) 32768) =? N.lor (2 ^ sp) 32768) = N.testbit s sp && N.testbit s 15.
Proof.
  apply bool_ext. rewrite N.eqb_eq, andb_true_iff. change 32768 with (2 ^ 15). split.
  - intros E. split.
    + assert (B : N.testbit (N.land s (N.lor (2 ^ sp) (2 ^ 15))) sp = true) by (rewrite E, N.lor_spec, N.pow2_bits_true; reflexivity).
      rewrite N.land_spec in B. apply andb_prop in B as [B _]. exact B.
    + assert (B : N.testbit (N.land s (N.lor (2 ^ sp) (2 ^ 15))) 15 = true) by (rewrite E, N.lor_spec, (N.pow2_bits_true 15), orb_true_r; reflexivity).
      rewrite N.land_spec in B. apply andb_prop in B as [B _]. exact B.
  - intros [B1 B2]. apply N.bits_inj. intro q. rewrite N.land_spec, N.lor_spec, !N.pow2_bits_eqb.
    destruct (N.eqb_spec sp q) as [->|]; [rewrite B1; reflexivity|].
    destruct (N.eqb_spec 15 q) as [<-|]; [rewrite B2; reflexivity|]. rewrite andb_false_r. reflexivity.
Qed.

(** The rules found for a pair of attributes: kind [sp], data satisfying [q]. *)
Definition te_hit (sp : N) (q : N -> bool) (n : anode) : bool := (k_spec (n_key n) =? 2 ^ sp) && q (d_data (n_datum n)).
Definition cond_hit (sp : N) (q : N -> bool) (n : anode) : bool :=
  N.testbit (k_spec (n_key n)) sp && N.testbit (k_spec (n_key n)) 15 && q (d_data (n_datum n)).
Definition has_bit (p : N) (v : N) : bool := N.testbit v p.
Definition no_bit (p : N) (v : N) : bool := negb (N.testbit v p).

Definition adds (d d' : avd) (h : N -> (N -> bool) -> bool) : Prop := forall p,
  N.testbit (v_allowed d') p = N.testbit (v_allowed d) p || h 0 (has_bit p) /\
  N.testbit (v_auditallow d') p = N.testbit (v_auditallow d) p || h 1 (has_bit p) /\
  N.testbit (v_auditdeny d') p = N.testbit (v_auditdeny d) p && negb (h 2 (no_bit p)).

Lemma adds_refl d : adds d d (fun _ _ => false).
Proof. intro p. rewrite !orb_false_r, andb_true_r. auto. Qed.

Lemma adds_trans d1 d2 d3 h1 h2 : adds d1 d2 h1 -> adds d2 d3 h2 -> adds d1 d3 (fun sp q => h1 sp q || h2 sp q).
Proof.
  intros H1 H2 p. destruct (H1 p) as (A1 & B1 & C1), (H2 p) as (A2 & B2 & C2).
  rewrite A2, B2, C2, A1, B1, C1, negb_orb, !orb_assoc, andb_assoc. auto.
Qed.

Lemma adds_fold {A} (g : avd -> A -> avd) (h : A -> N -> (N -> bool) -> bool) l :
  (forall d a, adds d (g d a) (h a)) -> forall d, adds d (fold_left g l d) (fun sp q => existsb (fun a => h a sp q) l).
Proof.
  intros H. induction l as [|a l IH]; intro d; [apply adds_refl|]. cbn [fold_left existsb].
  apply (adds_trans d (g d a)); [apply H|apply IH].
Qed.

Lemma te_add_adds d n : adds d (te_add d n) (fun sp q => te_hit sp q n).
Proof.
  intro p. unfold te_add, te_hit, has_bit, no_bit, AVTAB_ALLOWED, AVTAB_AUDITALLOW, AVTAB_AUDITDENY.
  change (2 ^ 0) with 1. change (2 ^ 1) with 2. change (2 ^ 2) with 4.
  destruct (N.eqb_spec (k_spec (n_key n)) 1) as [E1|_]; rewrite ?E1; cbn [N.eqb Pos.eqb v_allowed v_auditallow v_auditdeny andb orb negb];
    [rewrite N.lor_spec, orb_false_r, andb_true_r; auto|].
  destruct (N.eqb_spec (k_spec (n_key n)) 2) as [E2|_]; rewrite ?E2; cbn [N.eqb Pos.eqb v_allowed v_auditallow v_auditdeny andb orb negb];
    [rewrite N.lor_spec, !orb_false_r, andb_true_r; auto|].
  destruct (N.eqb_spec (k_spec (n_key n)) 4) as [E4|_]; rewrite ?E4; cbn [N.eqb Pos.eqb v_allowed v_auditallow v_auditdeny andb orb negb];
    rewrite ?N.land_spec, !orb_false_r, ?negb_involutive, ?andb_true_r; auto.
Qed.

Lemma cond_add_adds d n : adds d (cond_add d n) (fun sp q => cond_hit sp q n).
Proof.
  intro p. unfold cond_add, cond_hit, has_bit, no_bit, AVTAB_ALLOWED, AVTAB_AUDITALLOW, AVTAB_AUDITDENY, AVTAB_ENABLED.
  pose proof (has_bits (k_spec (n_key n)) 0) as E0. pose proof (has_bits (k_spec (n_key n)) 1) as E1.
  pose proof (has_bits (k_spec (n_key n)) 2) as E2.
  change (2 ^ 0) with 1 in E0. change (2 ^ 1) with 2 in E1. change (2 ^ 2) with 4 in E2.
  cbv zeta. rewrite E0, E1, E2. cbn [v_allowed v_auditallow v_auditdeny].
  split; [|split].
  - destruct (N.testbit (k_spec (n_key n)) 0 && N.testbit (k_spec (n_key n)) 15); cbn [andb]; [apply N.lor_spec|rewrite orb_false_r; reflexivity].
  - destruct (N.testbit (k_spec (n_key n)) 1 && N.testbit (k_spec (n_key n)) 15); cbn [andb]; [apply N.lor_spec|rewrite orb_false_r; reflexivity].
  - destruct (N.testbit (k_spec (n_key n)) 2 && N.testbit (k_spec (n_key n)) 15); cbn [andb negb];
      [rewrite negb_involutive; apply N.land_spec|rewrite andb_true_r; reflexivity].
Qed.

Definition pair_hit (P : spolicy) (cls i j sp : N) (q : N -> bool) : bool :=
  let k := mkK ((i + 1) mod 65536) ((j + 1) mod 65536) (cls mod 65536) AVTAB_AV in
  existsb (te_hit sp q) (avtab_nodes_for (sv_te P) k) || existsb (cond_hit sp q) (avtab_nodes_for (sv_cond P) k).

Lemma te_pair_adds P cls i j d : adds d (te_pair P cls i j d) (pair_hit P cls i j).
Proof.
  unfold te_pair, cond_compute_av, pair_hit. cbv zeta.
  eapply adds_trans; [apply (adds_fold te_add (fun n sp q => te_hit sp q n)); intros; apply te_add_adds|].
  apply (adds_fold cond_add (fun n sp q => cond_hit sp q n)). intros; apply cond_add_adds.
Qed.

Lemma pair_hit_rule P cls i j sp q : wf (sv_te P) -> wf (sv_cond P) -> sp < 3 ->
  i < 65535 -> j < 65535 -> cls < 65536 ->
  (pair_hit P cls i j sp q = true <->
   exists n, k_src (n_key n) = i + 1 /\ k_tgt (n_key n) = j + 1 /\ k_cls (n_key n) = cls /\
     ((In n (avtab_map_list (sv_te P)) /\ k_spec (n_key n) = 2 ^ sp) \/
      (In n (avtab_map_list (sv_cond P)) /\ N.testbit (k_spec (n_key n)) sp = true /\
       N.testbit (k_spec (n_key n)) 15 = true)) /\ q (d_data (n_datum n)) = true).
Proof.
  intros W1 W2 S Hi Hj Hc. unfold pair_hit.
  rewrite (N.mod_small (i + 1)), (N.mod_small (j + 1)), (N.mod_small cls) by lia. cbv zeta.
  set (k := mkK (i + 1) (j + 1) cls AVTAB_AV).
  rewrite (nodes_for_spec _ k W1), (nodes_for_spec _ k W2), orb_true_iff, !existsb_exists.
  assert (M : forall n, N.testbit (k_spec (n_key n)) sp = true -> k_src (n_key n) = i + 1 -> k_tgt (n_key n) = j + 1 ->
    k_cls (n_key n) = cls -> entry_matches k n = true).
  { intros n B E1 E2 E3. unfold entry_matches, k. cbn [k_src k_tgt k_cls k_spec]. rewrite E1, E2, E3, !N.eqb_refl. cbn [andb].
    rewrite negb_true_iff, N.eqb_neq. intros Z.
    assert (B' : N.testbit (N.land (N.land AVTAB_AV 32767) (k_spec (n_key n))) sp = true).
    { rewrite N.land_spec, B, andb_true_r. unfold AVTAB_AV. assert (sp = 0 \/ sp = 1 \/ sp = 2) as [-> |[-> | ->]] by lia; reflexivity. }
    rewrite Z, N.bits_0 in B'. discriminate. }
  assert (M' : forall n, entry_matches k n = true -> k_src (n_key n) = i + 1 /\ k_tgt (n_key n) = j + 1 /\ k_cls (n_key n) = cls).
  { intros n E. unfold entry_matches, k in E. cbn [k_src k_tgt k_cls k_spec] in E. lia. }
  split.
  - intros [(n & I & H)|(n & I & H)]; apply filter_In in I as [I Em]; destruct (M' n Em) as (E1 & E2 & E3); exists n.
    + unfold te_hit in H. apply andb_prop in H as [H1 H2]. apply N.eqb_eq in H1. auto 10.
    + unfold cond_hit in H. apply andb_prop in H as [H1 H2]. apply andb_prop in H1 as [H1 H3]. auto 10.
  - intros (n & E1 & E2 & E3 & [[I H]|(I & H1 & H2)] & Q).
    + left. exists n. split; [apply filter_In; split; [exact I|]|unfold te_hit; rewrite H, N.eqb_refl; exact Q].
      apply M; try assumption. rewrite H. apply N.pow2_bits_true.
    + right. exists n. split; [apply filter_In; split; [exact I|]|unfold cond_hit; rewrite H1, H2; exact Q].
      apply M; assumption.
Qed.

Section AV.
Variables (P : spolicy).
Hypothesis (OK : spolicy_ok wf P).

Lemma te_compute_ok st tt cls : cls <= sv_nclasses P ->
  exists d, te_compute P st tt cls = Some d /\ forall p,
    (N.testbit (v_allowed d) p = true <-> te_allows P st tt cls p) /\
    (N.testbit (v_auditallow d) p = true <-> exists n, rule_for P st tt cls 1 n /\ N.testbit (d_data (n_datum n)) p = true) /\
    (N.testbit (v_auditdeny d) p = true <-> p < 32 /\ forall n, rule_for P st tt cls 2 n -> N.testbit (d_data (n_datum n)) p = true).
Proof.
  intros Hc. destruct OK as (W1 & W2 & VA & B16 & NC & _). unfold te_compute.
  destruct (positive_bits_correct _ (VA st)) as (ls & -> & _ & Ls).
  destruct (positive_bits_correct _ (VA tt)) as (lt & -> & _ & Lt).
  eexists. split; [reflexivity|]. intro p.
  set (d0 := mkAvd 0 0 4294967295).
  assert (A : adds d0 (fold_left (fun d i => fold_left (fun d j => te_pair P cls i j d) lt d) ls d0)
    (fun sp q => existsb (fun i => existsb (fun j => pair_hit P cls i j sp q) lt) ls)).
  { apply (adds_fold _ (fun i sp q => existsb (fun j => pair_hit P cls i j sp q) lt)). intros d i.
    apply (adds_fold _ (fun j => pair_hit P cls i j)). intros d' j. apply te_pair_adds. }
  assert (R : forall sp q, sp < 3 -> existsb (fun i => existsb (fun j => pair_hit P cls i j sp q) lt) ls = true <->
    exists n, rule_for P st tt cls sp n /\ q (d_data (n_datum n)) = true).
  { intros sp q S. rewrite existsb_exists. split.
    - intros (i & Ii & H). apply existsb_exists in H as (j & Ij & H).
      apply Ls in Ii. apply Lt in Ij. apply pair_hit_rule in H as (n & E1 & E2 & E3 & H & Q); try assumption; try (eapply B16; eassumption); try lia.
      exists n. split; [|exact Q]. split; [exists i, j; auto|auto].
    - intros (n & ((i & j & Ii & Ij & E1 & E2) & E3 & H) & Q). exists i. split; [apply Ls; exact Ii|].
      apply existsb_exists. exists j. split; [apply Lt; exact Ij|].
      apply pair_hit_rule; try assumption; try (eapply B16; eassumption); try lia. exists n. auto 10. }
  destruct (A p) as (A1 & A2 & A3). rewrite A1, A2, A3. cbn [v_allowed v_auditallow v_auditdeny d0]. rewrite N.bits_0. cbn [orb].
  split; [|split].
  - apply (R 0 (has_bit p)). lia.
  - apply (R 1 (has_bit p)). lia.
  - rewrite andb_true_iff, negb_true_iff, <- not_true_iff_false, (R 2 (no_bit p)) by lia.
    assert (B : N.testbit 4294967295 p = true <-> p < 32).
    { change 4294967295 with (N.ones 32). rewrite N.ones_spec_iff. reflexivity. }
    rewrite B. split.
    + intros [H1 H2]. split; [exact H1|]. intros n Hn. destruct (N.testbit (d_data (n_datum n)) p) eqn:E; [reflexivity|].
      exfalso. apply H2. exists n. split; [exact Hn|]. unfold no_bit. rewrite E. reflexivity.
    + intros [H1 H2]. split; [exact H1|]. intros (n & Hn & E). unfold no_bit in E. rewrite (H2 n Hn) in E. discriminate.
Qed.

Lemma satisfied_iff s t x c f : cwrites (cn_expr c) f -> (satisfied P s t x c <-> cholds P s t x f).
Proof.
  intros W. split; [intros H; apply H; exact W|]. intros H g Wg. rewrite (cwrites_unique _ _ _ Wg W). exact H.
Qed.

Lemma constrain_ok s t : ctx_ok s -> ctx_ok t -> role_known P s -> role_known P t ->
  forall l a, cons_wf false l -> exists a', constrain P s t l a = Some a' /\
    forall p, N.testbit a' p = true <-> N.testbit a p = true /\
      forall c, In c l -> N.testbit (cn_perms c) p = true -> satisfied P s t None c.
Proof.
  intros Hs Ht Rs Rt. induction l as [|c l IH]; intros a W; cbn [constrain].
  - exists a. split; [reflexivity|]. intro p. split; [intros H; split; [exact H|intros c []]|tauto].
  - inversion W as [|? ? (f & Wf & D & V & NT) Wl]; subst.
    destruct (constraint_eval_ok P s t None Hs Ht ltac:(discriminate) Rs Rt (cn_expr c) f Wf D V (fun _ => NT eq_refl)) as (b & Ev & Hb).
    rewrite <- (satisfied_iff s t None c f Wf) in Hb.
    destruct (N.eqb_spec (N.land (cn_perms c) a) 0) as [Z|Z]; cbn [negb].
    + destruct (IH a Wl) as (a' & -> & H). exists a'. split; [reflexivity|]. intro p. rewrite H. split.
      * intros [Ha Hc]. split; [exact Ha|]. intros c' [<-|I] Hp; [|auto].
        exfalso. assert (B : N.testbit (N.land (cn_perms c) a) p = true) by (rewrite N.land_spec, Hp, Ha; reflexivity).
        rewrite Z, N.bits_0 in B. discriminate.
      * intros [Ha Hc]. split; [exact Ha|]. intros c' I. apply Hc. right. exact I.
    + rewrite Ev. destruct b.
      * destruct (IH a Wl) as (a' & -> & H). exists a'. split; [reflexivity|]. intro p. rewrite H. split.
        -- intros [Ha Hc]. split; [exact Ha|]. intros c' [<-|I] Hp; [apply Hb; reflexivity|auto].
        -- intros [Ha Hc]. split; [exact Ha|]. intros c' I. apply Hc. right. exact I.
      * destruct (IH (N.ldiff a (cn_perms c)) Wl) as (a' & -> & H). exists a'. split; [reflexivity|]. intro p. rewrite H.
        rewrite N.ldiff_spec, andb_true_iff, negb_true_iff. split.
        -- intros [[Ha Hn] Hc]. split; [exact Ha|]. intros c' [<-|I] Hp; [congruence|auto].
        -- intros [Ha Hc]. split; [split; [exact Ha|]|].
           ++ destruct (N.testbit (cn_perms c) p) eqn:E; [|reflexivity]. exfalso.
              assert (false = true) by (apply Hb, Hc; [left; reflexivity|exact E]). discriminate.
           ++ intros c' I. apply Hc. right. exact I.
Qed.

Lemma role_check_ok s t cls a p : N.testbit (role_check P s t cls a) p = true <->
  N.testbit a p = true /\ role_allows P s t cls p.
Proof.
  unfold role_check, role_allows.
  destruct (N.eqb_spec cls (sv_process P)) as [Ec|Ec]; cbn [andb]; [|tauto].
  destruct (N.eqb_spec (N.land a (sv_trans_dyntrans P)) 0) as [Z|Z]; cbn [negb andb].
  { split; [intros Ha; split; [exact Ha|]|tauto]. intros _ Hp. exfalso.
    assert (B : N.testbit (N.land a (sv_trans_dyntrans P)) p = true) by (rewrite N.land_spec, Hp, Ha; reflexivity).
    rewrite Z, N.bits_0 in B. discriminate. }
  destruct (N.eqb_spec (c_role s) (c_role t)) as [Er|Er]; cbn [negb andb]; [tauto|].
  destruct (existsb _ (sv_role_allow P)) eqn:Ex; cbn [negb].
  { split; [|tauto]. intros Ha. split; [exact Ha|]. intros _ _ _. apply existsb_exists in Ex as ([x y] & I & E). cbn [fst snd] in E.
    assert (x = c_role s /\ y = c_role t) as [-> ->] by lia. exact I. }
  rewrite N.ldiff_spec, andb_true_iff, negb_true_iff. split.
  - intros [Ha Hn]. split; [exact Ha|]. congruence.
  - intros [Ha H]. split; [exact Ha|]. destruct (N.testbit (sv_trans_dyntrans P) p) eqn:E; [|reflexivity].
    exfalso. specialize (H Ec eq_refl Er). rewrite <- not_true_iff_false in Ex. apply Ex, existsb_exists.
    exists (c_role s, c_role t). split; [exact H|]. cbn. rewrite !N.eqb_refl. reflexivity.
Qed.

Lemma lacks_iff r a : lacks r a = true <-> exists p, N.testbit r p = true /\ N.testbit a p = false.
Proof.
  unfold lacks. rewrite negb_true_iff, N.eqb_neq. split.
  - intros H. apply nonzero_bit in H as (p & H). rewrite N.ldiff_spec, andb_true_iff, negb_true_iff in H. eauto.
  - intros (p & H1 & H2) Z. assert (B : N.testbit (N.ldiff r a) p = true) by (rewrite N.ldiff_spec, H1, H2; reflexivity).
    rewrite Z, N.bits_0 in B. discriminate.
Qed.

Lemma ctx_ok_parent s : ctx_ok s -> sv_bounds P (c_type s) <> 0 -> ctx_ok (with_type s (sv_bounds P (c_type s))).
Proof.
  intros (H1 & H2 & H3 & H4) H. destruct OK as (_ & _ & _ & _ & _ & _ & _ & HB). specialize (HB (c_type s)).
  unfold ctx_ok, with_type. cbn [MlsModel.c_user MlsModel.c_role MlsModel.c_type MlsModel.c_range].
  split; [exact H1|]. split; [exact H2|]. split; [lia|exact H4].
Qed.

Lemma granted_iff cls p s t : granted P cls p s t <->
  locally P s t cls p /\ (sv_bounds P (c_type s) = 0 \/
    (sv_bounds P (c_type s) <> 0 /\ granted P cls p (parent_src P s) (parent_tgt P t))).
Proof.
  split.
  - intros []; auto.
  - intros [L [B|[B G]]]; [apply G_free; assumption|apply G_bound; assumption].
Qed.

Lemma compute_av_ok rank : ranked P rank -> forall fuel s t cls req, (rank (c_type s) < fuel)%nat ->
  ctx_ok s -> ctx_ok t -> role_known P s -> role_known P t -> 1 <= cls <= sv_nclasses P ->
  exists d reason, compute_av fuel P s t cls req = AvOk d reason /\
    (forall p, (N.testbit (v_allowed d) p = true <-> granted P cls p s t) /\
      (N.testbit (v_auditallow d) p = true <-> exists n, rule_for P (c_type s) (c_type t) cls 1 n /\ N.testbit (d_data (n_datum n)) p = true) /\
      (N.testbit (v_auditdeny d) p = true <-> p < 32 /\ forall n, rule_for P (c_type s) (c_type t) cls 2 n -> N.testbit (d_data (n_datum n)) p = true)) /\
    reason < 16 /\
    (N.testbit reason 0 = true <-> why_te P s t cls req) /\ (N.testbit reason 1 = true <-> why_cons P s t cls req) /\
    (N.testbit reason 2 = true <-> why_role P s t cls req) /\ (N.testbit reason 3 = true <-> why_bounds P s t cls).
Proof.
  intros RK. induction fuel as [|fuel IH]; intros s t cls req HF Hs Ht Rs Rt Hc; [lia|]. cbn [compute_av].
  destruct ((cls =? 0) || (sv_nclasses P <? cls)) eqn:EC; [lia|].
  destruct (te_compute_ok (c_type s) (c_type t) cls ltac:(lia)) as (d & -> & Hd).
  pose proof OK as (_ & _ & _ & _ & _ & CW & _ & HB).
  destruct (constrain_ok s t Hs Ht Rs Rt (sv_cons P cls) (v_allowed d) (CW cls)) as (a1 & -> & H1).
  set (a2 := role_check P s t cls a1).
  assert (T0 : forall p, N.testbit (v_allowed d) p = true <-> te_allows P (c_type s) (c_type t) cls p) by (intro p; apply Hd).
  assert (T1 : forall p, N.testbit a1 p = true <-> te_allows P (c_type s) (c_type t) cls p /\ cons_allow P s t cls p).
  { intro p. rewrite H1, T0. reflexivity. }
  assert (T2 : forall p, N.testbit a2 p = true <-> locally P s t cls p).
  { intro p. unfold a2, locally. rewrite role_check_ok, T1. tauto. }
  set (b1 := lacks req (v_allowed d)). set (req1 := N.land req (v_allowed d)).
  set (b2 := lacks req1 a1). set (req2 := N.land req1 a1).
  set (b3 := lacks req2 a2). set (req3 := N.land req2 a2).
  assert (B1 : b1 = true <-> why_te P s t cls req).
  { unfold b1, why_te. rewrite lacks_iff. split; intros (p & HA & HX); exists p; (split; [exact HA|]).
    - rewrite <- T0. congruence.
    - rewrite <- not_true_iff_false, T0. exact HX. }
  assert (B2 : b2 = true <-> why_cons P s t cls req).
  { unfold b2, why_cons, req1. rewrite lacks_iff. split.
    - intros (p & HA & HX). rewrite N.land_spec, andb_true_iff, T0 in HA. exists p. split; [apply HA|]. split; [apply HA|].
      rewrite <- not_true_iff_false, T1 in HX. tauto.
    - intros (p & HA & HX & HY). exists p. rewrite N.land_spec, andb_true_iff, T0, <- not_true_iff_false, T1. tauto. }
  assert (B3 : b3 = true <-> why_role P s t cls req).
  { unfold b3, why_role, req2, req1. rewrite lacks_iff. split.
    - intros (p & HA & HX). rewrite !N.land_spec, !andb_true_iff, T0, T1 in HA. exists p. rewrite <- not_true_iff_false, T2 in HX.
      unfold locally in HX. tauto.
    - intros (p & HA & HX & HY & HZ). exists p. rewrite !N.land_spec, !andb_true_iff, T0, T1, <- not_true_iff_false, T2.
      unfold locally. tauto. }
  set (rs := if b3 then N.lor (if b2 then N.lor (if b1 then 1 else 0) 2 else if b1 then 1 else 0) 4
             else if b2 then N.lor (if b1 then 1 else 0) 2 else if b1 then 1 else 0).
  assert (R0 : rs < 8 /\ N.testbit rs 0 = b1 /\ N.testbit rs 1 = b2 /\ N.testbit rs 2 = b3 /\ N.testbit rs 3 = false /\ N.lor rs 8 < 16 /\
     N.testbit (N.lor rs 8) 0 = b1 /\ N.testbit (N.lor rs 8) 1 = b2 /\ N.testbit (N.lor rs 8) 2 = b3 /\ N.testbit (N.lor rs 8) 3 = true).
  { unfold rs. destruct b1, b2, b3; repeat split; reflexivity. }
  clearbody rs b1 b2 b3. destruct R0 as (R8 & R0 & R1 & R2 & R3 & R16 & R0' & R1' & R2' & R3').
  rewrite <- R0 in B1. rewrite <- R1 in B2. rewrite <- R2 in B3.
  destruct (N.eqb_spec (sv_bounds P (c_type s)) 0) as [Bs|Bs].
  - exists (mkAvd a2 (v_auditallow d) (v_auditdeny d)), rs. split; [reflexivity|]. cbn [v_allowed v_auditallow v_auditdeny].
    split; [intro p; split; [|apply Hd]|].
    { rewrite T2, granted_iff. tauto. }
    split; [lia|]. split; [exact B1|]. split; [exact B2|]. split; [exact B3|]. rewrite R3. split; [discriminate|].
    intros (p & L & NG). exfalso. apply NG, G_free; assumption.
  - set (t' := if sv_bounds P (c_type t) =? 0 then t else with_type t (sv_bounds P (c_type t))).
    destruct (IH (with_type s (sv_bounds P (c_type s))) t' cls req3) as (lo & r' & -> & HLo & _).
    + cbn [with_type MlsModel.c_type]. pose proof (RK _ Bs). lia.
    + apply ctx_ok_parent; assumption.
    + unfold t'. destruct (N.eqb_spec (sv_bounds P (c_type t)) 0); [exact Ht|]. apply ctx_ok_parent; assumption.
    + exact Rs.
    + unfold t'. destruct (sv_bounds P (c_type t) =? 0); exact Rt.
    + exact Hc.
    + assert (G : forall p, N.testbit (v_allowed lo) p = true <-> granted P cls p (parent_src P s) (parent_tgt P t)) by (intro p; apply HLo).
      set (masked := N.ldiff a2 (v_allowed lo)).
      assert (GA : forall p, N.testbit (N.ldiff a2 masked) p = true <-> granted P cls p s t).
      { intro p. rewrite granted_iff, <- T2, <- G. unfold masked. rewrite !N.ldiff_spec, andb_true_iff, negb_true_iff, andb_false_iff, negb_false_iff.
        intuition congruence. }
      assert (MK : masked <> 0 <-> why_bounds P s t cls).
      { split.
        - intros H. apply nonzero_bit in H as (p & H). unfold masked in H. rewrite N.ldiff_spec, andb_true_iff, negb_true_iff in H.
          exists p. rewrite <- T2. split; [apply H|]. rewrite <- GA, N.ldiff_spec. unfold masked. rewrite N.ldiff_spec.
          destruct H as [-> ->]. discriminate.
        - intros (p & L & NG) Z. apply NG. rewrite <- GA, Z, N.ldiff_0_r, T2. exact L. }
      exists (mkAvd (N.ldiff a2 masked) (v_auditallow d) (v_auditdeny d)), (if masked =? 0 then rs else N.lor rs 8).
      split; [reflexivity|]. cbn [v_allowed v_auditallow v_auditdeny].
      split; [intro p; split; [apply GA|apply Hd]|].
      destruct (N.eqb_spec masked 0) as [Z|Z].
      * split; [lia|]. split; [exact B1|]. split; [exact B2|]. split; [exact B3|]. rewrite R3. split; [discriminate|]. rewrite <- MK. congruence.
      * split; [lia|]. rewrite R0', R1', R2', R3', <- R0, <- R1, <- R2.
        split; [exact B1|]. split; [exact B2|]. split; [exact B3|]. rewrite <- MK. tauto.
Qed.

Lemma vtrans_ok o n t : ctx_ok o -> ctx_ok n -> ctx_ok t -> role_known P o -> role_known P n ->
  forall l, cons_wf true l ->
  (vtrans_loop P o n t l = VtOk /\ forall c, In c l -> satisfied P o n (Some t) c) \/
  (vtrans_loop P o n t l = VtEperm /\ exists c, In c l /\ ~ satisfied P o n (Some t) c).
Proof.
  intros Ho Hn Ht Ro Rn. induction l as [|c l IH]; intros W; cbn [vtrans_loop].
  - left. split; [reflexivity|]. intros c [].
  - inversion W as [|? ? (f & Wf & D & V & NT) Wl]; subst.
    destruct (constraint_eval_ok P o n (Some t) Ho Hn ltac:(intros c' [= <-]; exact Ht) Ro Rn (cn_expr c) f Wf D V ltac:(discriminate)) as (b & Ev & Hb).
    rewrite <- (satisfied_iff o n (Some t) c f Wf) in Hb. rewrite Ev. destruct b.
    + destruct (IH Wl) as [[-> H]|[-> (c' & I & H)]]; [left|right]; (split; [reflexivity|]).
      * intros c' [<-|I]; [apply Hb; reflexivity|auto].
      * exists c'. split; [right; exact I|exact H].
    + right. split; [reflexivity|]. exists c. split; [left; reflexivity|]. rewrite <- Hb. discriminate.
Qed.

Lemma granted_up cls p s t : granted P cls p s t -> forall n,
  (forall m, (m < n)%nat -> sv_bounds P (c_type (fst (up P m s t))) <> 0) ->
  granted P cls p (fst (up P n s t)) (snd (up P n s t)).
Proof.
  intros G n. induction n as [|n IH]; intros H; [exact G|].
  specialize (IH (fun m L => H m (Nat.lt_lt_succ_r _ _ L))). specialize (H n (Nat.lt_succ_diag_r n)).
  cbn [up]. destruct (up P n s t) as [s' t']. cbn [fst snd] in *. apply granted_iff in IH as [_ [B|[_ G']]]; [contradiction|exact G'].
Qed.

End AV.

(** A cycle of bounds makes the computation recurse without end: whatever nesting is allowed, no result. *)
Lemma cycle_loops P : spolicy_ok wf P -> forall (C : N -> Prop), (forall ty, C ty -> sv_bounds P ty <> 0 /\ C (sv_bounds P ty)) ->
  forall fuel s t cls req, C (c_type s) -> ctx_ok s -> ctx_ok t -> role_known P s -> role_known P t ->
  1 <= cls <= sv_nclasses P -> compute_av fuel P s t cls req = AvLoop.
Proof.
  intros OK C HC. induction fuel as [|fuel IH]; intros s t cls req Hty Hs Ht Rs Rt Hc; [reflexivity|]. cbn [compute_av].
  destruct ((cls =? 0) || (sv_nclasses P <? cls)) eqn:EC; [lia|].
  destruct (te_compute_ok P OK (c_type s) (c_type t) cls ltac:(lia)) as (d & -> & _).
  pose proof OK as (_ & _ & _ & _ & _ & CW & _ & HB).
  destruct (constrain_ok P s t Hs Ht Rs Rt (sv_cons P cls) (v_allowed d) (CW cls)) as (a1 & -> & _).
  destruct (HC _ Hty) as [Bs Cs]. destruct (N.eqb_spec (sv_bounds P (c_type s)) 0) as [?|_]; [contradiction|].
  rewrite IH; [reflexivity|exact Cs|apply ctx_ok_parent; assumption| |exact Rs| |exact Hc].
  - destruct (N.eqb_spec (sv_bounds P (c_type t)) 0); [exact Ht|]. apply ctx_ok_parent; assumption.
  - destruct (sv_bounds P (c_type t) =? 0); exact Rt.
Qed.
