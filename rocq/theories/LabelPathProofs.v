(** Proofs about paths, substitution and the whole lookup. *)
From Verif Require Import Base MlsModel LabelModel LabelSpec LabelProofs.
From Coq Require Import Permutation Sorted.

(** ** Cleaning *)
Fixpoint dd (s : list N) : list N :=
  match s with
  | [] => []
  | c :: t => match t with d :: _ => if (c =? 47) && (d =? 47) then dd t else c :: dd t | [] => [c] end
  end.
Lemma strstr_eq c d t : strstr_slashes (c :: d :: t) =
  if (c =? 47) && (d =? 47) then Some ([], c :: d :: t) else match strstr_slashes (d :: t) with Some (a, b) => Some (c :: a, b) | None => None end.
Proof. reflexivity. Qed.
Lemma dd_eq c d t : dd (c :: d :: t) = if (c =? 47) && (d =? 47) then dd (d :: t) else c :: dd (d :: t).
Proof. reflexivity. Qed.
Lemma strstr_some s a b : strstr_slashes s = Some (a, b) -> s = a ++ b /\ (exists r, b = 47 :: 47 :: r) /\ dd s = a ++ dd (tl b).
Proof.
  revert a b; induction s as [|c t IH]; intros a b H; [discriminate|]. destruct t as [|d t]; [discriminate|].
  rewrite strstr_eq in H. destruct ((c =? 47) && (d =? 47)) eqn:E.
  - injection H as <- <-. apply andb_true_iff in E as [E F]. apply N.eqb_eq in E, F. subst. split; [reflexivity|]. split; [eauto|]. reflexivity.
  - destruct (strstr_slashes (d :: t)) as [[a' b']|]; [|discriminate]. injection H as <- <-. destruct (IH _ _ eq_refl) as (P & Q & R).
    split; [rewrite P; reflexivity|]. split; [exact Q|]. rewrite dd_eq, E. cbn [app]. f_equal. exact R.
Qed.
Lemma strstr_none s : strstr_slashes s = None -> dd s = s.
Proof.
  induction s as [|c t IH]; intros H; [reflexivity|]. destruct t as [|d t]; [reflexivity|].
  rewrite strstr_eq in H. rewrite dd_eq. destruct ((c =? 47) && (d =? 47)); [discriminate|].
  destruct (strstr_slashes (d :: t)) as [[a' b']|]; [discriminate|]. f_equal. apply IH. reflexivity.
Qed.
Lemma clean_loop_dd : forall f s, (length s <= f)%nat -> clean_loop f s = dd s.
Proof.
  induction f as [|f IH]; intros s L; [destruct s; [reflexivity|cbn in L; lia]|]. cbn [clean_loop].
  destruct (strstr_slashes s) as [[a b]|] eqn:E; [|symmetry; apply strstr_none; exact E].
  destruct (strstr_some _ _ _ E) as (-> & (r & ->) & ->). f_equal. apply IH. rewrite app_length in L. cbn in *. lia.
Qed.
Lemma dd_hd c t : exists r, dd (c :: t) = c :: r.
Proof.
  revert c; induction t as [|d t IH]; intros c; [cbn; eauto|]. rewrite dd_eq. destruct ((c =? 47) && (d =? 47)) eqn:E; [|eauto].
  apply andb_true_iff in E as [E F]. apply N.eqb_eq in E, F. subst. apply IH.
Qed.
Lemma dd_single s : single (dd s).
Proof.
  induction s as [|c t IH]; [constructor|]. destruct t as [|d t]; [constructor|]. rewrite dd_eq.
  destruct ((c =? 47) && (d =? 47)) eqn:E; [exact IH|]. destruct (dd_hd d t) as (r & R). rewrite R in *. constructor; [|exact IH].
  intros [-> ->]. discriminate.
Qed.

Lemma split_nonempty s : exists w ws, split s = w :: ws.
Proof. destruct s as [|c t]; cbn; [eauto|]. destruct (c =? 47); [eauto|]. destruct (split t); eauto. Qed.
Lemma comps_slash t : components (47 :: t) = components t.
Proof. unfold components. cbn [split]. change (47 =? 47) with true. reflexivity. Qed.
Lemma comps_rel c t : c <> 47 -> components (c :: t) =
  match split t with w :: ws => (c :: w) :: filter (fun w => match w with [] => false | _ => true end) ws | [] => [[c]] end.
Proof. intros H. unfold components. cbn [split]. rewrite (proj2 (N.eqb_neq c 47) H). destruct (split t); reflexivity. Qed.
Lemma split_rel c t : c <> 47 -> exists w ws, split (c :: t) = (c :: w) :: ws.
Proof. intros H. cbn [split]. rewrite (proj2 (N.eqb_neq c 47) H). destruct (split t); eauto. Qed.
Definition trail (s : list N) : list N := if last s 0 =? 47 then match components s with [] => [] | _ => [47] end else [].
Lemma last_cons (c d : N) t : last (c :: d :: t) 0 = last (d :: t) 0.
Proof. reflexivity. Qed.
Lemma dd_form s : dd s = (if absolute s then [47] else []) ++ join (components s) ++ trail s.
Proof.
  induction s as [|c t IH]; [reflexivity|]. destruct t as [|d t].
  - cbn [dd absolute]. destruct (N.eqb_spec c 47) as [->|E]; [reflexivity|].
    unfold trail. cbn [last]. rewrite (proj2 (N.eqb_neq c 47) E). rewrite comps_rel by exact E. reflexivity.
  - rewrite dd_eq. cbn [absolute]. destruct (N.eqb_spec c 47) as [->|E]; cbn [andb].
    + rewrite comps_slash. assert (TR : trail (47 :: d :: t) = trail (d :: t)) by (unfold trail; rewrite last_cons, comps_slash; reflexivity).
      rewrite TR, IH. destruct (N.eqb_spec d 47) as [->|F].
      * reflexivity.
      * cbn [absolute]. rewrite (proj2 (N.eqb_neq d 47) F). reflexivity.
    + cbn [app]. rewrite IH. destruct (N.eqb_spec d 47) as [->|F].
      * cbn [absolute]. change (47 =? 47) with true. cbv iota. cbn [app].
        assert (CE : components (c :: 47 :: t) = [c] :: components t).
        { rewrite comps_rel by exact E. cbn [split]. change (47 =? 47) with true. cbv iota. reflexivity. }
        rewrite CE. rewrite comps_slash. unfold trail. rewrite last_cons, CE, comps_slash.
        destruct (components t) as [|w ws] eqn:CT; [|reflexivity].
        assert (LA : last (47 :: t) 0 =? 47 = true).
        { clear -CT. revert CT. induction t as [|x t IH]; [reflexivity|]. intros CT. rewrite last_cons.
          destruct (N.eq_dec x 47) as [->|D]; [rewrite comps_slash in CT; apply IH; exact CT|]. rewrite comps_rel in CT by exact D.
          destruct (split t); discriminate. }
        rewrite LA. cbn. reflexivity.
      * cbn [absolute]. rewrite (proj2 (N.eqb_neq d 47) F). cbn [app].
        destruct (split_rel d t F) as (w & ws & SP). unfold trail. rewrite last_cons. rewrite (comps_rel c) by exact E. unfold components. rewrite SP.
        cbn [filter]. cbn [join]. destruct (filter _ ws); cbn [app]; [|reflexivity]. reflexivity.
Qed.
Lemma comps_ok s w : In w (components s) -> w <> [] /\ ~ In 47 w.
Proof.
  unfold components. intros I. apply filter_In in I as [I F]. split; [intros ->; discriminate|]. clear F. revert w I.
  induction s as [|c t IH]; intros w I.
  - destruct I as [<-|[]]. intros [].
  - cbn [split] in I. destruct (N.eqb_spec c 47) as [->|E].
    + destruct I as [<-|I]; [intros []|apply IH, I].
    + destruct (split t) as [|x xs]; [destruct I as [<-|[]]; intros [Q|[]]; congruence|].
      destruct I as [<-|I]; [|apply IH; right; exact I]. intros [Q|Q]; [congruence|]. exact (IH x (or_introl eq_refl) Q).
Qed.
Lemma last_app (a b : list N) : b <> [] -> last (a ++ b) 0 = last b 0.
Proof.
  intros H. destruct (exists_last H) as (b' & x & ->). rewrite app_assoc, !last_last. reflexivity.
Qed.
Lemma join_last ws : ws <> [] -> (forall w, In w ws -> w <> [] /\ ~ In 47 w) -> join ws <> [] /\ last (join ws) 0 <> 47.
Proof.
  induction ws as [|w ws IH]; [congruence|]. intros _ H. destruct ws as [|v ws].
  - destruct (H w (or_introl eq_refl)) as [A B]. cbn [join]. split; [exact A|]. intros L. apply B. rewrite <- L.
    destruct (exists_last A) as (w' & x & ->). rewrite last_last. apply in_app_iff. right; left; reflexivity.
  - destruct IH as [A B]; [discriminate|intros; apply H; right; assumption|]. change (join (w :: v :: ws)) with (w ++ 47 :: join (v :: ws)).
    split; [destruct w; discriminate|]. rewrite last_app by discriminate.
    destruct (join (v :: ws)) as [|x xs] eqn:J; [congruence|]. exact B.
Qed.
Lemma clean_canon key : key <> [] -> clean_key key = Some (canon key).
Proof.
  intros NE. unfold clean_key. rewrite clean_loop_dd by lia. destruct key as [|c t]; [congruence|].
  destruct (dd_hd c t) as (r & R). rewrite R. rewrite <- R. f_equal. rewrite dd_form. unfold canon.
  set (A := if absolute (c :: t) then [47] else []). unfold trail, slash. destruct (components (c :: t)) as [|w ws] eqn:C.
  - cbn [join app]. replace (if last (c :: t) 0 =? 47 then [] else []) with (@nil N) by (destruct (last (c :: t) 0 =? 47); reflexivity).
    rewrite !app_nil_r. unfold A. destruct (absolute (c :: t)); reflexivity.
  - destruct (join_last (w :: ws)) as [J1 J2]; [discriminate|intros x I; apply (comps_ok (c :: t)); rewrite C; exact I|].
    destruct (last (c :: t) 0 =? 47).
    + rewrite app_assoc, last_last. change (47 =? 47) with true. rewrite removelast_last. rewrite app_length. cbn [length].
      assert (length (A ++ join (w :: ws)) <> 0)%nat by (rewrite app_length; destruct (join (w :: ws)); [congruence|cbn; lia]).
      replace (1 <? N.of_nat (length (A ++ join (w :: ws)) + 1)) with true by (symmetry; apply N.ltb_lt; lia). reflexivity.
    + rewrite app_nil_r, last_app by exact J1. rewrite (proj2 (N.eqb_neq _ _) J2), andb_false_r. reflexivity.
Qed.
Lemma clean_empty : clean_key [] = None.
Proof. reflexivity. Qed.
Lemma single_prefix a b : single (a ++ b) -> single a.
Proof.
  induction a as [|x a IH]; [constructor|]. intros H. destruct a as [|y a]; [constructor|]. cbn [app] in *. inversion H; subst.
  constructor; [assumption|]. apply IH. assumption.
Qed.
Lemma canon_single s : single (canon s).
Proof.
  pose proof (dd_single s) as S. rewrite dd_form, app_assoc in S. apply single_prefix in S. exact S.
Qed.
Lemma canon_last s : canon s <> [47] -> canon s = [] \/ last (canon s) 0 <> 47.
Proof.
  unfold canon. intros H. destruct (components s) as [|w ws] eqn:C.
  - cbn [join] in *. rewrite app_nil_r in *. destruct (absolute s); [congruence|left; reflexivity].
  - right. destruct (join_last (w :: ws)) as [J1 J2]; [discriminate|intros x I; apply (comps_ok s); rewrite C; exact I|].
    rewrite last_app by exact J1. exact J2.
Qed.
Lemma single_app a b : single a -> single b -> (a = [] \/ last a 0 <> 47) -> single (a ++ b).
Proof.
  intros A B L. destruct a as [|x a]; [exact B|]. destruct L as [L|L]; [discriminate|]. revert x A L.
  induction a as [|y a IH]; intros x A L.
  - cbn [app]. destruct b as [|z b]; [constructor|]. constructor; [|exact B]. intros [-> _]. apply L. reflexivity.
  - cbn [app] in *. inversion A; subst. constructor; [assumption|]. apply IH; assumption.
Qed.

(** ** Substitution *)
Lemma nth_after (s rest : list N) : nth (length s) (s ++ rest) 0 = hd 0 rest.
Proof. rewrite app_nth2, Nat.sub_diag by lia. destruct rest; reflexivity. Qed.
Lemma skip_after {A} (s rest : list A) : skipn (length s) (s ++ rest) = rest.
Proof. rewrite skipn_app, skipn_all, Nat.sub_diag. reflexivity. Qed.
Lemma subs_ok subs key : no_nul key ->
  match selabel_apply_subs subs key with Some k => Substituted subs key k | None => uncovered subs key end.
Proof.
  intros NN. induction subs as [|[s d] subs IH]; cbn [selabel_apply_subs].
  - intros src dst [].
  - assert (LATER : ~ covers s key -> match selabel_apply_subs subs key with Some k => Substituted ((s, d) :: subs) key k | None => uncovered ((s, d) :: subs) key end).
    { intros NC. destruct (selabel_apply_subs subs key) as [k|].
      - apply Sub_later; assumption.
      - intros src dst [[= <- <-]|I]; [exact NC|eapply IH; exact I]. }
    destruct (sncmp (length s) key s) eqn:E.
    + apply sncmp_eq_prefix in E as (rest & ->). rewrite nth_after.
      assert (CASES : rest = [] \/ (exists r, rest = 47 :: r) \/ (exists x r, rest = x :: r /\ x <> 47 /\ x <> 0)).
      { destruct rest as [|x r]; [left; reflexivity|right]. destruct (N.eq_dec x 47) as [->|D]; [left; eauto|right]. exists x, r.
        split; [reflexivity|]. split; [exact D|]. intros ->. apply NN. apply in_app_iff. right; left; reflexivity. }
      destruct CASES as [->|[(r & ->)|(x & r & -> & X1 & X2)]].
      * cbn [hd]. change (0 =? slash) with false. change (0 =? 0) with true. cbn [orb andb].
        pose proof (Sub_here s d subs (s ++ []) [] eq_refl (or_introl eq_refl)) as SH. rewrite skip_after.
        destruct (list_eq_dec N.eq_dec d [47]) as [->|_]; exact SH.
      * cbn [hd]. change (47 =? slash) with true. cbn [orb andb].
        pose proof (Sub_here s d subs (s ++ 47 :: r) (47 :: r) eq_refl (or_intror (ex_intro _ r eq_refl))) as SH.
        destruct (list_eq_dec N.eq_dec d [47]) as [->|D].
        { change (str_eqb [47] [slash]) with true. cbv iota. cbn [tl] in SH.
          replace (skipn (S (length s)) (s ++ 47 :: r)) with r; [exact SH|].
          replace (s ++ 47 :: r) with ((s ++ [47]) ++ r) by (rewrite <- app_assoc; reflexivity).
          replace (S (length s)) with (length (s ++ [47])) by (rewrite app_length; cbn; lia). rewrite skip_after. reflexivity. }
        { rewrite (proj2 (str_eqb_neq d [slash]) D). cbn [andb]. rewrite skip_after. exact SH. }
      * cbn [hd]. unfold slash. rewrite (proj2 (N.eqb_neq x 47) X1), (proj2 (N.eqb_neq x 0) X2). cbn [orb]. apply LATER.
        intros (rest & Q & R). apply app_inv_head in Q. subst rest. destruct R as [R|(r' & R)]; [discriminate|injection R; congruence].
    + apply LATER. intros (rest & -> & _). rewrite (proj2 (sncmp_eq_prefix (s ++ rest) s) (ex_intro _ rest eq_refl)) in E. discriminate.
    + apply LATER. intros (rest & -> & _). rewrite (proj2 (sncmp_eq_prefix (s ++ rest) s) (ex_intro _ rest eq_refl)) in E. discriminate.
Qed.
Lemma substituted_covers subs key k : Substituted subs key k -> ~ uncovered subs key.
Proof.
  induction 1 as [src dst l key rest E R|src dst l key res NC S IH]; intros U.
  - apply (U src dst (or_introl eq_refl)). exists rest. split; assumption.
  - apply IH. intros a b I. apply (U a b). right; exact I.
Qed.
Lemma substituted_fun subs key k k' : Substituted subs key k -> Substituted subs key k' -> k = k'.
Proof.
  intros A. revert k'. induction A as [src dst l key rest E R|src dst l key res NC S IH]; intros k' B; inversion B; subst.
  - match goal with H : src ++ rest = src ++ _ |- _ => apply app_inv_head in H; subst end. reflexivity.
  - exfalso. match goal with H : ~ covers _ _ |- _ => apply H end. exists rest. split; [reflexivity|assumption].
  - exfalso. apply NC. eexists. split; [reflexivity|assumption].
  - apply IH; assumption.
Qed.
Definition sub_or (D : data) (k : list N) : list N := match selabel_sub_key D k with Some s => s | None => k end.
Lemma substituted_nul subs key k : no_nul key -> (forall src dst, In (src, dst) subs -> no_nul dst) -> Substituted subs key k -> no_nul k.
Proof.
  intros NK ND S. induction S as [src dst l key rest E R|src dst l key res NC S IH].
  - subst key. pose proof (ND src dst (or_introl eq_refl)) as Nd. assert (NR : no_nul rest) by (intros I; apply NK, in_app_iff; right; exact I).
    destruct (list_eq_dec N.eq_dec dst [47]).
    + intros [Q|Q]; [discriminate|]. apply NR. destruct rest; [destruct Q|right; exact Q].
    + intros I. apply in_app_iff in I as [I|I]; [exact (Nd I)|exact (NR I)].
  - apply IH; [exact NK|]. intros a b I. apply (ND a b). right; exact I.
Qed.
Lemma effective_ok D key : no_nul key -> (forall src dst, In (src, dst) (d_subs D) -> no_nul dst) -> Effective (d_subs D) (d_dist D) key (sub_or D key).
Proof.
  intros NK ND. unfold sub_or, selabel_sub_key. pose proof (subs_ok (d_subs D) key NK) as A. destruct (selabel_apply_subs (d_subs D) key) as [p|].
  - pose proof (subs_ok (d_dist D) p (substituted_nul _ _ _ NK ND A)) as B. destruct (selabel_apply_subs (d_dist D) p) as [d|].
    + eapply Eff_both; eassumption.
    + apply Eff_local; assumption.
  - pose proof (subs_ok (d_dist D) key NK) as B. destruct (selabel_apply_subs (d_dist D) key) as [d|].
    + apply Eff_dist; assumption.
    + apply Eff_none; assumption.
Qed.
Lemma effective_fun subs dist key k k' : Effective subs dist key k -> Effective subs dist key k' -> k = k'.
Proof.
  intros A B. destruct A as [U V|k S V|k k1 S T|k U T], B as [U' V'|m S' V'|m m1 S' T'|m U' T'];
    repeat match goal with
    | H : Substituted ?l ?x ?y, H' : uncovered ?l ?x |- _ => exfalso; exact (substituted_covers _ _ _ H H')
    | H : Substituted ?l ?x ?y, H' : Substituted ?l ?x ?z |- _ => pose proof (substituted_fun _ _ _ _ H H'); subst; clear H'
    end; reflexivity.
Qed.
Lemma substituted_single subs key k : (forall src dst, In (src, dst) subs -> canonical dst) -> single key -> Substituted subs key k -> single k.
Proof.
  intros CD SK S. induction S as [src dst l key rest E R|src dst l key res NC S IH].
  - subst key. pose proof (CD src dst (or_introl eq_refl)) as Cd. assert (SR : single rest) by (eapply single_suffix; exact SK).
    destruct (list_eq_dec N.eq_dec dst [47]) as [_|D].
    + destruct R as [->|(r & ->)]; [constructor|exact SR].
    + rewrite <- Cd. apply single_app; [apply canon_single|exact SR|]. apply canon_last. rewrite Cd. exact D.
  - apply IH; [|exact SK]. intros a b I. apply (CD a b). right; exact I.
Qed.
Lemma effective_single subs dist key k : (forall src dst, In (src, dst) (subs ++ dist) -> canonical dst) -> single key -> Effective subs dist key k -> single k.
Proof.
  intros CD SK E. assert (C1 : forall src dst, In (src, dst) subs -> canonical dst) by (intros a b I; apply (CD a b), in_app_iff; left; exact I).
  assert (C2 : forall src dst, In (src, dst) dist -> canonical dst) by (intros a b I; apply (CD a b), in_app_iff; right; exact I).
  destruct E as [U V|k S V|k k1 S T|k U T].
  - exact SK.
  - exact (substituted_single _ _ _ C1 SK S).
  - exact (substituted_single _ _ _ C2 (substituted_single _ _ _ C1 SK S) T).
  - exact (substituted_single _ _ _ C2 SK T).
Qed.

(** ** Everything found is real *)
Definition lit_meets (partial : bool) (text key : list N) : Prop := if partial then exists r, text = key ++ r else text = key.
Definition reg_meets (E : engine) (r key : list N) (partial : bool) : Prop := E r key partial = RxMatch \/ (partial = true /\ E r key partial = RxPartial).
Definition genuine (E : engine) (prefix : option (list N)) (l : list spec) (key : list N) (kind : N) (partial : bool) (f : found) : Prop :=
  In (f_spec f) l /\ kinds_meet kind (sp_kind (f_spec f)) /\ sp_ctx (f_spec f) <> none_ctx /\
  ((f_meta f = false /\ kept_lit prefix (f_spec f) = true /\ lit_meets partial (lit_of (f_spec f)) key) \/
   (f_meta f = true /\ kept_reg prefix (f_spec f) = true /\ reg_meets E (sp_regex (f_spec f)) key partial)) /\
  f_plen f = snd (regex_has_meta_chars (sp_regex (f_spec f))).
Lemma lit_cmp_meets partial key x : lit_cmp partial key x = Eq <-> lit_meets partial (ls_match x) key.
Proof.
  unfold lit_cmp, lit_meets. destruct partial; [apply sncmp_eq_prefix|apply scmp_eq].
Qed.
Lemma lit_scan_sound E prefix l partial find_all key kind : forall A acc, (forall x, In x A -> exists s, In s l /\ x = to_l s /\ kept_lit prefix s = true) ->
  Forall (genuine E prefix l key kind partial) acc ->
  match lit_scan partial find_all key kind A acc with
  | LFail => True | LRet f => genuine E prefix l key kind partial f | LGo acc' => Forall (genuine E prefix l key kind partial) acc'
  end.
Proof.
  induction A as [|x A IH]; intros acc HA G; cbn [lit_scan]; [exact G|]. destruct (lit_cmp partial key x) eqn:C; try exact G.
  assert (HA' : forall y, In y A -> exists s, In s l /\ y = to_l s /\ kept_lit prefix s = true) by (intros y I; apply HA; right; exact I).
  destruct (kind_ok kind (sp_kind (ls_spec x))) eqn:K; [|apply IH; assumption].
  destruct (str_eqb (sp_ctx (ls_spec x)) none_ctx) eqn:Z; [exact Coq.Init.Logic.I|]. apply str_eqb_neq in Z.
  assert (GX : genuine E prefix l key kind partial (mkF (ls_spec x) (ls_plen x) false)).
  { destruct (HA x (or_introl eq_refl)) as (s & I & -> & KL). unfold genuine. cbn [f_spec f_plen f_meta to_l ls_spec ls_plen ls_match] in *.
    split; [exact I|]. split; [apply kind_ok_meet; exact K|]. split; [exact Z|]. split; [|reflexivity]. left. split; [reflexivity|]. split; [exact KL|].
    apply lit_cmp_meets in C. exact C. }
  destruct find_all; [|exact GX]. apply IH; [exact HA'|]. apply Forall_app. split; [exact G|]. constructor; [exact GX|constructor].
Qed.
Lemma reg_scan_sound E prefix l partial find_all key kind : forall A child acc, (forall x, In x A -> exists s, In s l /\ x = to_r s /\ kept_reg prefix s = true) ->
  Forall (genuine E prefix l key kind partial) acc -> (forall c, child = Some c -> genuine E prefix l key kind partial c) ->
  match reg_scan E partial find_all key kind A child acc with
  | GFail => True
  | GGo child' acc' => Forall (genuine E prefix l key kind partial) acc' /\ (forall c, child' = Some c -> genuine E prefix l key kind partial c)
  end.
Proof.
  induction A as [|x A IH]; intros child acc HA G GC; cbn [reg_scan]; [split; assumption|].
  assert (HA' : forall y, In y A -> exists s, In s l /\ y = to_r s /\ kept_reg prefix s = true) by (intros y I; apply HA; right; exact I).
  destruct (match child with Some c => older (rs_spec x) (f_spec c) | None => false end); [split; assumption|].
  destruct (kind_ok kind (sp_kind (rs_spec x))) eqn:K; cbn [negb]; [|apply IH; assumption].
  assert (HIT : reg_meets E (sp_regex (rs_spec x)) key partial ->
    match (if str_eqb (sp_ctx (rs_spec x)) none_ctx then GFail
          else let r := mkF (rs_spec x) (rs_plen x) true in
               if find_all then reg_scan E partial find_all key kind A child (acc ++ [r]) else GGo (Some r) acc) with
    | GFail => True
    | GGo child' acc' => Forall (genuine E prefix l key kind partial) acc' /\ (forall c, child' = Some c -> genuine E prefix l key kind partial c)
    end).
  { intros M. destruct (str_eqb (sp_ctx (rs_spec x)) none_ctx) eqn:Z; [exact Coq.Init.Logic.I|]. apply str_eqb_neq in Z. cbv zeta.
    assert (GX : genuine E prefix l key kind partial (mkF (rs_spec x) (rs_plen x) true)).
    { destruct (HA x (or_introl eq_refl)) as (s & I & -> & KL). unfold genuine. cbn [f_spec f_plen f_meta to_r rs_spec rs_plen] in *.
      split; [exact I|]. split; [apply kind_ok_meet; exact K|]. split; [exact Z|]. split; [|reflexivity]. right. split; [reflexivity|]. split; [exact KL|exact M]. }
    destruct find_all; [|split; [exact G|intros c [= <-]; exact GX]]. apply IH; [exact HA'| |exact GC]. apply Forall_app. split; [exact G|]. constructor; [exact GX|constructor]. }
  destruct (E (sp_regex (rs_spec x)) key partial) eqn:EX.
  - apply HIT. left. exact EX.
  - destruct partial; [|exact Coq.Init.Logic.I]. apply HIT. right. split; [reflexivity|exact EX].
  - apply IH; assumption.
  - exact Coq.Init.Logic.I.
  - exact Coq.Init.Logic.I.
Qed.
Lemma regs_up_sound E prefix l partial find_all key kind : forall chain child acc,
  (forall n x, In n chain -> In x (n_regs n) -> exists s, In s l /\ x = to_r s /\ kept_reg prefix s = true) ->
  Forall (genuine E prefix l key kind partial) acc -> (forall c, child = Some c -> genuine E prefix l key kind partial c) ->
  match regs_up E partial find_all key kind chain child acc with
  | GFail => True
  | GGo child' acc' => Forall (genuine E prefix l key kind partial) acc' /\ (forall c, child' = Some c -> genuine E prefix l key kind partial c)
  end.
Proof.
  induction chain as [|n up IH]; intros child acc HA G GC; cbn [regs_up]; [split; assumption|].
  pose proof (reg_scan_sound E prefix l partial find_all key kind (rev (n_regs n)) child acc) as R.
  specialize (R ltac:(intros x I; apply (HA n); [left; reflexivity|apply in_rev; exact I]) G GC).
  destruct (reg_scan E partial find_all key kind (rev (n_regs n)) child acc) as [|child' acc']; [exact Coq.Init.Logic.I|].
  destruct R as [G' GC']. apply IH; [intros m x I; apply (HA m); right; exact I|exact G'|exact GC'].
Qed.
Lemma check_sound E prefix l root key kind partial find_all : holds prefix l root -> every in_order root ->
  Forall (genuine E prefix l key kind partial) (lookup_check_node E (lookup_find_deepest_node root key) key kind partial find_all).
Proof.
  intros H O. rewrite check_node_parts. fold (top_lits root key). destruct (top_sorted prefix l root key H O) as [TS TL].
  assert (LS : match lit_part partial find_all key kind (top_lits root key) with
    | LFail => True | LRet f => genuine E prefix l key kind partial f | LGo acc' => Forall (genuine E prefix l key kind partial) acc' end).
  { unfold lit_part. destruct (search_literal_spec (top_lits root key) partial key) as [i|]; [|constructor].
    apply lit_scan_sound; [|constructor]. intros x I. apply TL. destruct (nth_skipn _ _ _ I) as (j & _ & J). eapply nth_error_In; exact J. }
  destruct (lit_part partial find_all key kind (top_lits root key)) as [|f|acc]; [constructor|constructor; [exact LS|constructor]|].
  pose proof (regs_up_sound E prefix l partial find_all key kind (lookup_find_deepest_node root key) None acc) as R.
  specialize (R ltac:(intros n x I J; destruct (chain_regs prefix l root key H O n I) as (p & RR & _); rewrite RR in J; apply regs_in_spec in J as (s & A & B & C & _); eauto)
    LS ltac:(discriminate)).
  destruct (regs_up E partial find_all key kind (lookup_find_deepest_node root key) None acc) as [|[c|] acc']; [constructor| |apply R].
  constructor; [apply R; reflexivity|constructor].
Qed.

(** ** The whole lookup *)
Lemma lookup_all_eff E D key mode partial find_all : key <> [] -> lookup_all E D key mode partial find_all =
  if d_num D =? 0 then [] else
  lookup_check_node E (lookup_find_deepest_node (d_root D) (sub_or D (canon key))) (sub_or D (canon key)) (mode_to_file_kind mode) partial find_all.
Proof. intros NE. unfold lookup_all. rewrite (clean_canon key NE). reflexivity. Qed.
Lemma canon_nul key : no_nul key -> no_nul (canon key).
Proof.
  intros NK. assert (INC : forall x, In x (dd key) -> In x key).
  { clear NK. induction key as [|c t IH]; [intros x []|]. destruct t as [|d t]; [intros x I; exact I|]. rewrite dd_eq. intros x I.
    destruct ((c =? 47) && (d =? 47)); [right; apply IH; exact I|]. destruct I as [<-|I]; [left; reflexivity|right; apply IH; exact I]. }
  intros I. apply NK, INC. rewrite dd_form, app_assoc. apply in_app_iff. left. exact I.
Qed.

(** ** Prefix length *)
Lemma plen_literal r : forall t, Lit r t -> regex_has_meta_chars r = (false, N.of_nat (length t)).
Proof.
  intros t L. pose proof (simplify_lit r t) as S. apply S in L. destruct (regex_has_meta_chars r) as [b n] eqn:M.
  pose proof (has_meta_simplify _ _ _ M) as Q. rewrite L in Q. destruct Q as [-> ->]. reflexivity.
Qed.
Lemma Lit_app a t b u : Lit a t -> Lit b u -> Lit (a ++ b) (t ++ u).
Proof. intros A B. induction A; cbn [app]; [exact B|constructor; assumption|constructor; assumption]. Qed.
Lemma plen_app r t rest : Lit r t -> regex_has_meta_chars (r ++ rest) = (fst (regex_has_meta_chars rest), N.of_nat (length t) + snd (regex_has_meta_chars rest)).
Proof.
  induction 1 as [|c r t NM NB L IH|e r t IE L IH]; cbn [app regex_has_meta_chars length].
  - destruct (regex_has_meta_chars rest); reflexivity.
  - destruct (is_meta c) eqn:M; [apply is_meta_in in M; contradiction|]. rewrite (proj2 (N.eqb_neq c bslash) NB), IH. f_equal. lia.
  - change (is_meta 92) with false. change (92 =? bslash) with true. cbv iota. rewrite (proj2 (is_curated_in e) IE), IH. f_equal. lia.
Qed.
Lemma plen_split r : exists pre t rest, r = pre ++ rest /\ Lit pre t /\ snd (regex_has_meta_chars r) = N.of_nat (length t).
Proof.
  assert (G : forall n r, (length r <= n)%nat -> exists pre t rest, r = pre ++ rest /\ Lit pre t /\ snd (regex_has_meta_chars r) = N.of_nat (length t)).
  { clear r. induction n as [|n IH]; intros [|c r] L; cbn [length] in L; try lia.
    - exists [], [], []. split; [reflexivity|]. split; [constructor|reflexivity].
    - exists [], [], []. split; [reflexivity|]. split; [constructor|reflexivity].
    - assert (STOP : snd (regex_has_meta_chars (c :: r)) = 0 -> exists pre t rest, c :: r = pre ++ rest /\ Lit pre t /\ snd (regex_has_meta_chars (c :: r)) = N.of_nat (length t)).
      { intros Z. exists [], [], (c :: r). split; [reflexivity|]. split; [constructor|exact Z]. }
      cbn [regex_has_meta_chars] in *. destruct (is_meta c) eqn:M; [apply STOP; reflexivity|]. destruct (N.eqb_spec c bslash) as [->|B].
      + destruct r as [|e r]; [apply STOP; reflexivity|]. destruct (is_curated e) eqn:CU; [|apply STOP; reflexivity].
        cbn [length] in L. destruct (IH r ltac:(lia)) as (pre & t & rest & E & LP & S). exists (bslash :: e :: pre), (e :: t), rest.
        split; [rewrite E; reflexivity|]. split; [apply Lit_esc; [apply is_curated_in; exact CU|exact LP]|].
        destruct (regex_has_meta_chars r) as [b m]. cbn [snd] in *. cbn [length]. lia.
      + destruct (IH r ltac:(lia)) as (pre & t & rest & E & LP & S). exists (c :: pre), (c :: t), rest.
        split; [rewrite E; reflexivity|]. split; [apply Lit_char; [intros I; apply is_meta_in in I; congruence|exact B|exact LP]|].
        destruct (regex_has_meta_chars r) as [b m]. cbn [snd] in *. cbn [length]. lia. }
  apply (G (length r)). lia.
Qed.

(** ** Best match *)
Lemma best_loop_ok E D mode : forall aliases l0 best plen,
  (forall r, In r l0 -> ~ exact_hit r) ->
  match best with
  | Some f => f_plen f = plen /\ exists l1 l2, l0 = l1 ++ Some f :: l2 /\ (forall g, In (Some g) l1 -> f_plen g < f_plen f) /\ (forall g, In (Some g) l2 -> f_plen g <= f_plen f)
  | None => plen = 0 /\ (forall r, In r l0 -> r = None) /\ (forall a g, In a aliases -> lookup E D a mode = Some g -> f_plen g <> 0 \/ f_meta g = false)
  end ->
  Best (l0 ++ map (fun a => lookup E D a mode) aliases) (best_loop E D mode aliases best plen).
Proof.
  induction aliases as [|a aliases IH]; intros l0 best plen NX INV; cbn [map best_loop].
  - rewrite app_nil_r. destruct best as [f|].
    + destruct INV as (_ & l1 & l2 & -> & A & B). apply Best_prefix; assumption.
    + destruct INV as (_ & A & _). apply Best_none. exact A.
  - destruct (lookup E D a mode) as [r|] eqn:L.
    + destruct (f_meta r) eqn:M; cbn [negb].
      2: { apply Best_exact; assumption. }
      assert (NX' : forall x, In x (l0 ++ [Some r]) -> ~ exact_hit x).
      { intros x I. apply in_app_iff in I as [I|[<-|[]]]; [apply NX; exact I|]. intros (f & [= <-] & Q). congruence. }
      replace (l0 ++ Some r :: map (fun a => lookup E D a mode) aliases) with ((l0 ++ [Some r]) ++ map (fun a => lookup E D a mode) aliases)
        by (rewrite <- app_assoc; reflexivity).
      destruct (N.ltb_spec plen (f_plen r)) as [P|P].
      * apply IH; [exact NX'|]. split; [reflexivity|]. exists l0, []. split; [reflexivity|]. split; [|intros g []].
        intros g I. destruct best as [f|].
        { destruct INV as (Q & l1 & l2 & -> & A & B). apply in_app_iff in I as [I|[[= <-]|I]]; [specialize (A g I)| |specialize (B g I)]; lia. }
        { destruct INV as (_ & A & _). specialize (A _ I). discriminate. }
      * apply IH; [exact NX'|]. destruct best as [f|].
        { destruct INV as (Q & l1 & l2 & -> & A & B). split; [exact Q|]. exists l1, (l2 ++ [Some r]).
          split; [rewrite <- app_assoc; reflexivity|]. split; [exact A|]. intros g I. apply in_app_iff in I as [I|[[= <-]|[]]]; [apply B; exact I|lia]. }
        { destruct INV as (Q & A & Z). exfalso. destruct (Z a r (or_introl eq_refl) L) as [W|W]; [lia|congruence]. }
    + replace (l0 ++ None :: map (fun a => lookup E D a mode) aliases) with ((l0 ++ [None]) ++ map (fun a => lookup E D a mode) aliases)
        by (rewrite <- app_assoc; reflexivity).
      apply IH.
      * intros x I. apply in_app_iff in I as [I|[<-|[]]]; [apply NX; exact I|]. intros (f & Q & _). discriminate.
      * destruct best as [f|].
        { destruct INV as (Q & l1 & l2 & -> & A & B). split; [exact Q|]. exists l1, (l2 ++ [None]).
          split; [rewrite <- app_assoc; reflexivity|]. split; [exact A|]. intros g I. apply in_app_iff in I as [I|[I|[]]]; [apply B; exact I|discriminate]. }
        { destruct INV as (Q & A & Z). split; [exact Q|]. split.
          - intros x I. apply in_app_iff in I as [I|[<-|[]]]; [apply A; exact I|reflexivity].
          - intros b g I. apply Z. right; exact I. }
Qed.
Lemma best_ok E D key aliases mode : (lookup E D key mode <> None \/ forall a g, In a aliases -> lookup E D a mode = Some g -> f_plen g <> 0 \/ f_meta g = false) ->
  Best (map (fun a => lookup E D a mode) (key :: aliases)) (lookup_best_match E D key aliases mode).
Proof.
  intros C. cbn [map]. unfold lookup_best_match. destruct aliases as [|a aliases].
  - destruct (lookup E D key mode) as [f|]; [|apply Best_none; intros r [<-|[]]; reflexivity].
    cbn [map]. destruct (f_meta f) eqn:M.
    + apply (Best_prefix [] f []); [|intros g []|intros g []]. intros r [<-|[]]. intros (g & [= <-] & Q). congruence.
    + apply (Best_exact [] f []); [intros r []|exact M].
  - destruct (lookup E D key mode) as [f|] eqn:L.
    + destruct (f_meta f) eqn:M; cbn [negb].
      * apply (best_loop_ok E D mode (a :: aliases) [Some f]); [intros r [<-|[]] (g & [= <-] & Q); congruence|].
        split; [reflexivity|]. exists [], []. split; [reflexivity|]. split; intros g [].
      * apply (Best_exact [] f); [intros r []|exact M].
    + destruct C as [C|C]; [congruence|]. apply (best_loop_ok E D mode (a :: aliases) [None]); [intros r [<-|[]] (g & Q & _); discriminate|].
      split; [reflexivity|]. split; [intros r [<-|[]]; reflexivity|exact C].
Qed.

(** ** Validated input *)
Lemma nodups_every n : nodups_spec_node n = true -> every (fun m => lits_nodup (n_lits m) = true /\ regs_nodup (n_regs m) = true) n.
Proof.
  intros H p. revert n H. induction p as [|s p IH]; intros n H m E.
  - injection E as <-. destruct n as [l r cs]. cbn [nodups_spec_node n_lits n_regs] in *. apply andb_true_iff in H as [H _]. apply andb_true_iff in H. exact H.
  - cbn [node_at] in E. destruct (find_child s (n_children n)) as [c|] eqn:F; [|discriminate]. apply (IH c); [|exact E].
    destruct n as [l r cs]. cbn [nodups_spec_node n_children] in *. apply andb_true_iff in H as [_ H]. clear -F H.
    induction cs as [|[t d] cs IH]; [discriminate|]. cbn [find_child forallb snd] in *. apply andb_true_iff in H as [A B].
    destruct (str_eqb t s); [injection F as <-; exact A|apply IH; assumption].
Qed.
Definition overlap (a b : N) : Prop := a = 0 \/ b = 0 \/ a = b.
Lemma lits_nodup_nth l : lits_nodup l = true -> forall i a b, nth_error l i = Some a -> nth_error l (S i) = Some b -> lit_dup a b = false.
Proof.
  induction l as [|x l IH]; intros H i a b A B; [destruct i; discriminate|]. destruct l as [|y l]; [destruct i; [discriminate|destruct i; discriminate]|].
  change (negb (lit_dup x y) && lits_nodup (y :: l) = true) in H. apply andb_true_iff in H as [D H]. destruct i as [|i].
  - injection A as <-. injection B as <-. destruct (lit_dup x y); [discriminate|reflexivity].
  - apply (IH H i a b); assumption.
Qed.
Lemma lit_dup_false a b : lit_dup a b = false -> ls_match a = ls_match b -> ~ overlap (sp_kind (ls_spec a)) (sp_kind (ls_spec b)).
Proof.
  unfold lit_dup, overlap. intros D E. rewrite E, str_eqb_refl in D. cbn [andb] in D. rewrite !Bool.orb_false_iff, !N.eqb_neq in D. tauto.
Qed.
Lemma lits_unique l : StronglySorted lit_le l -> lits_nodup l = true -> forall a b, In a l -> In b l -> ls_match a = ls_match b ->
  overlap (sp_kind (ls_spec a)) (sp_kind (ls_spec b)) -> a = b.
Proof.
  intros S ND.
  assert (G : forall i j a b, (i < j)%nat -> nth_error l i = Some a -> nth_error l j = Some b -> ls_match a = ls_match b -> ~ overlap (sp_kind (ls_spec a)) (sp_kind (ls_spec b))).
  { intros i j a b L A B E OV.
    assert (SAME : forall k c, (i <= k <= j)%nat -> nth_error l k = Some c -> ls_match c = ls_match a /\ sp_kind (ls_spec b) <= sp_kind (ls_spec c) <= sp_kind (ls_spec a)).
    { intros k c K C. assert (LAC : lit_le a c \/ c = a) by (destruct (Nat.eq_dec i k) as [<-|Q]; [right; congruence|left; apply (sorted_nth _ _ S i k _ _ A C); lia]).
      assert (LCB : lit_le c b \/ c = b) by (destruct (Nat.eq_dec j k) as [<-|Q]; [right; congruence|left; apply (sorted_nth _ _ S k j _ _ C B); lia]).
      pose proof (sorted_nth _ _ S i j _ _ A B L) as [_ LAB]. specialize (LAB E).
      destruct LAC as [[T1 K1]| ->]; [|split; [reflexivity|lia]]. destruct LCB as [[T2 K2]| ->]; [|split; [congruence|lia]].
      apply txt_le_scmp in T1, T2. assert (EQ : ls_match c = ls_match a).
      { rewrite <- E in T2. symmetry. apply scmp_eq. destruct (scmp (ls_match a) (ls_match c)) eqn:Q; [reflexivity| |congruence].
        exfalso. apply T2. rewrite scmp_anti, Q. reflexivity. }
      split; [exact EQ|]. specialize (K1 (eq_sym EQ)). specialize (K2 ltac:(congruence)). lia. }
    destruct j as [|j]; [lia|]. destruct (nth_error l j) as [c|] eqn:C.
    2: { apply nth_error_None in C. assert (nth_error l (Datatypes.S j) <> None) as Y by congruence. apply nth_error_Some in Y. lia. }
    destruct (SAME j c ltac:(lia) C) as [E1 K1]. pose proof (lits_nodup_nth _ ND j c b C B) as D. apply (lit_dup_false _ _ D); [congruence|].
    unfold overlap in *. lia. }
  intros a b A B E OV. apply In_nth_error in A as (i & A), B as (j & B). destruct (Nat.lt_trichotomy i j) as [L|[->|L]].
  - exfalso. exact (G i j a b L A B E OV).
  - congruence.
  - exfalso. apply (G j i b a L B A (eq_sym E)). unfold overlap in *. intuition.
Qed.
Lemma regs_unique l : regs_nodup l = true -> (forall x, In x l -> rs_plen x = snd (regex_has_meta_chars (sp_regex (rs_spec x)))) ->
  forall a b, In a l -> In b l -> sp_regex (rs_spec a) = sp_regex (rs_spec b) -> overlap (sp_kind (rs_spec a)) (sp_kind (rs_spec b)) -> a = b.
Proof.
  intros ND PL. assert (Q : forall a b, In a l -> In b l -> sp_regex (rs_spec a) = sp_regex (rs_spec b) -> overlap (sp_kind (rs_spec a)) (sp_kind (rs_spec b)) -> reg_dup a b = true).
  { intros a b A B E OV. unfold reg_dup. rewrite (PL a A), (PL b B), E, N.eqb_refl, str_eqb_refl. cbn [andb]. rewrite !Bool.orb_true_iff, !N.eqb_eq. unfold overlap in OV. tauto. }
  clear PL. assert (SYM : forall a b, reg_dup a b = true -> reg_dup b a = true).
  { intros a b. unfold reg_dup. rewrite !andb_true_iff, !Bool.orb_true_iff, !N.eqb_eq, !str_eqb_eq. intuition. }
  induction l as [|x l IH]; [intros a b []|]. cbn [regs_nodup] in ND. apply andb_true_iff in ND as [F ND]. rewrite forallb_forall in F.
  intros a b A B E OV. pose proof (Q a b A B E OV) as D. destruct A as [<-|A], B as [<-|B].
  - reflexivity.
  - specialize (F b B). rewrite D in F. discriminate.
  - specialize (F a A). rewrite (SYM _ _ D) in F. discriminate.
  - apply IH; try assumption. intros; apply Q; try (right; assumption); assumption.
Qed.
Lemma validated_unique qs baseonly subs dist base homedirs local D : sorts qs -> short base ->
  init qs None true baseonly subs dist base homedirs local = Some D ->
  forall s s', In s (numbered 0 1 base) -> In s' (numbered 0 1 base) -> overlap (sp_kind s) (sp_kind s') ->
  ((exists t, Lit (sp_regex s) t /\ Lit (sp_regex s') t) \/ sp_regex s = sp_regex s') -> s = s'.
Proof.
  intros Q SB I s s' S S' OV SAME. unfold init in I. rewrite (file_specs_numbered 0 base SB) in I.
  destruct (insert_all None (numbered 0 1 base) empty_node 0) as [[t0 n0]|] eqn:E0; [|discriminate].
  pose proof (insert_all_holds _ _ [] _ _ _ _ (holds_empty None) E0) as H0. cbn [app] in H0.
  destruct (true && negb (nodups_spec_node (sort_spec_node qs t0))) eqn:NDQ; [discriminate|]. clear I.
  assert (ND : nodups_spec_node (sort_spec_node qs t0) = true) by (destruct (nodups_spec_node (sort_spec_node qs t0)); [reflexivity|discriminate]).
  pose proof (sort_holds _ _ _ _ Q H0) as H1. destruct (sort_in_order qs t0 Q (h_dist _ _ _ H0)) as [O _]. set (t1 := sort_spec_node qs t0) in *.
  pose proof (nodups_every _ ND) as EV.
  assert (LITS : forall t, Lit (sp_regex s) t -> Lit (sp_regex s') t -> s = s').
  { intros t L L'. assert (LO : lit_of s = t) by (unfold lit_of; apply simplify_lit in L; rewrite L; reflexivity).
    assert (LO' : lit_of s' = t) by (unfold lit_of; apply simplify_lit in L'; rewrite L'; reflexivity).
    assert (K : kept_lit None s = true) by (unfold kept_lit; rewrite (proj2 (has_meta_literal (sp_regex s)) (ex_intro _ t L)); reflexivity).
    assert (K' : kept_lit None s' = true) by (unfold kept_lit; rewrite (proj2 (has_meta_literal (sp_regex s')) (ex_intro _ t L')); reflexivity).
    destruct (node_at (literal_stems t) t1) as [m|] eqn:N.
    2: { exfalso. apply (proj2 (h_node _ _ _ H1 (literal_stems t))); [|exact N]. right. exists s. split; [exact S|]. right. split; [exact K|]. rewrite LO. apply prefix_of_refl. }
    pose proof (h_lits _ _ _ H1 (literal_stems t)) as P. rewrite N in P. cbn [here] in P.
    assert (M : In (to_l s) (n_lits m)).
    { apply (Permutation_in _ (Permutation_sym P)), lits_in_spec. exists s. rewrite LO. repeat split; auto. }
    assert (M' : In (to_l s') (n_lits m)).
    { apply (Permutation_in _ (Permutation_sym P)), lits_in_spec. exists s'. rewrite LO'. repeat split; auto. }
    assert (X : to_l s = to_l s').
    { apply (lits_unique (n_lits m)); [apply (O _ _ N)|apply (EV _ _ N)|exact M|exact M'| |].
      - cbn [to_l ls_match]. congruence.
      - exact OV. }
    injection X. auto. }
  destruct SAME as [(t & L & L')|ER]; [eapply LITS; eassumption|].
  destruct (fst (regex_has_meta_chars (sp_regex s))) eqn:M.
  - assert (K : kept_reg None s = true) by (unfold kept_reg; rewrite M; reflexivity).
    assert (K' : kept_reg None s' = true) by (unfold kept_reg; rewrite <- ER, M; reflexivity).
    set (p := regex_stems (sp_regex s)). destruct (node_at p t1) as [m|] eqn:N.
    2: { exfalso. apply (proj2 (h_node _ _ _ H1 p)); [|exact N]. right. exists s. split; [exact S|]. left. split; [exact K|]. apply prefix_of_refl. }
    pose proof (h_regs _ _ _ H1 p) as P. rewrite N in P. cbn [here] in P.
    assert (X : to_r s = to_r s').
    { apply (regs_unique (n_regs m)); [apply (EV _ _ N)| | | |exact ER|exact OV].
      - intros x I. rewrite P in I. apply regs_in_spec in I as (z & _ & -> & _). reflexivity.
      - rewrite P. apply regs_in_spec. exists s. repeat split; auto.
      - rewrite P. apply regs_in_spec. exists s'. repeat split; auto. rewrite <- ER. reflexivity. }
    injection X. auto.
  - apply has_meta_literal in M as (t & L). apply (LITS t); [exact L|]. rewrite <- ER. exact L.
Qed.

(** ** Other facts *)
Lemma mode_kind_ok mode : mode_to_file_kind mode = mode_kind mode.
Proof.
  unfold mode_to_file_kind, mode_kind.
  assert (L : N.land mode 61440 = (mode / 2 ^ 12) mod 16 * 2 ^ 12).
  { rewrite <- N.shiftr_div_pow2, <- N.shiftl_mul_pow2. change 16 with (2 ^ 4). rewrite <- N.land_ones. change (N.ones 4) with 15.
    apply N.bits_inj. intros i. rewrite N.land_spec. destruct (N.lt_ge_cases i 12) as [H|H].
    - rewrite N.shiftl_spec_low by exact H. replace (N.testbit 61440 i) with false; [apply andb_false_r|].
      assert (C : i = 0 \/ i = 1 \/ i = 2 \/ i = 3 \/ i = 4 \/ i = 5 \/ i = 6 \/ i = 7 \/ i = 8 \/ i = 9 \/ i = 10 \/ i = 11) by lia.
      repeat destruct C as [->|C]; try subst i; reflexivity.
    - rewrite N.shiftl_spec_high' by exact H. rewrite N.land_spec, N.shiftr_spec'. replace (i - 12 + 12) with i by lia. f_equal.
      change 61440 with (N.shiftl 15 12). rewrite N.shiftl_spec_high' by exact H. reflexivity. }
  rewrite L. assert (B : (mode / 2 ^ 12) mod 16 < 16) by (apply N.mod_lt; discriminate). set (x := (mode / 2 ^ 12) mod 16) in *. clearbody x. clear L.
  assert (C : x = 0 \/ x = 1 \/ x = 2 \/ x = 3 \/ x = 4 \/ x = 5 \/ x = 6 \/ x = 7 \/ x = 8 \/ x = 9 \/ x = 10 \/ x = 11 \/ x = 12 \/ x = 13 \/ x = 14 \/ x = 15) by lia.
  repeat destruct C as [->|C]; try subst x; reflexivity.
Qed.
Lemma single_dd s : single s -> dd s = s.
Proof.
  induction 1 as [|c|c d s N S IH]; [reflexivity|reflexivity|]. rewrite dd_eq. destruct ((c =? 47) && (d =? 47)) eqn:E; [|f_equal; exact IH].
  apply andb_true_iff in E as [E F]. apply N.eqb_eq in E, F. exfalso. apply N. split; assumption.
Qed.
Lemma canonical_intro s : single s -> (s = [47] \/ last s 0 <> 47) -> canonical s.
Proof.
  intros S [->|L]; [reflexivity|]. unfold canonical. pose proof (dd_form s) as F. rewrite (single_dd s S) in F.
  unfold trail in F. rewrite (proj2 (N.eqb_neq _ _) L), app_nil_r in F. symmetry. exact F.
Qed.
Lemma canonical_elim s : canonical s -> single s /\ (s = [47] \/ last s 0 <> 47).
Proof.
  intros C. rewrite <- C. split; [apply canon_single|]. destruct (list_eq_dec N.eq_dec (canon s) [47]) as [E|E]; [left; exact E|].
  destruct (canon_last s E) as [->|L]; [right; discriminate|right; exact L].
Qed.
Lemma canon_canonical s : canonical (canon s).
Proof.
  apply canonical_intro; [apply canon_single|]. destruct (list_eq_dec N.eq_dec (canon s) [47]) as [E|E]; [left; exact E|].
  destruct (canon_last s E) as [->|L]; [right; discriminate|right; exact L].
Qed.
Lemma substituted_canonical subs key k : (forall src dst, In (src, dst) subs -> src <> [] /\ dst <> [] /\ canonical dst) -> canonical key ->
  Substituted subs key k -> canonical k /\ k <> [].
Proof.
  intros CD CK S. induction S as [src dst l key rest E R|src dst l key res NC S IH].
  - destruct (CD src dst (or_introl eq_refl)) as (NS & ND & Cd). destruct (canonical_elim _ CK) as [SK LK]. subst key.
    assert (SR : single rest) by (eapply single_suffix; exact SK).
    assert (LR : rest = [] \/ last rest 0 <> 47).
    { destruct rest as [|x r]; [left; reflexivity|right]. destruct LK as [LK|LK].
      - destruct src as [|y src]; [congruence|]. destruct src; discriminate.
      - rewrite last_app in LK by discriminate. exact LK. }
    destruct (list_eq_dec N.eq_dec dst [47]) as [_|D].
    + split; [|discriminate]. destruct R as [->|(r & ->)]; [reflexivity|]. cbn [tl]. apply canonical_intro; [exact SR|]. destruct LR as [LR|LR]; [discriminate|right; exact LR].
    + split; [|destruct dst; [congruence|discriminate]]. destruct (canonical_elim _ Cd) as [SD [LD|LD]]; [contradiction|].
      apply canonical_intro; [apply single_app; [exact SD|exact SR|right; exact LD]|]. right.
      destruct LR as [->|LR]; [rewrite app_nil_r; exact LD|]. destruct rest as [|x r]; [rewrite app_nil_r; exact LD|].
      rewrite last_app by discriminate. exact LR.
  - apply IH; [|exact CK]. intros a b I. apply (CD a b). right; exact I.
Qed.
Lemma effective_canonical subs dist key k : (forall src dst, In (src, dst) (subs ++ dist) -> src <> [] /\ dst <> [] /\ canonical dst) -> canonical key -> key <> [] ->
  Effective subs dist key k -> canonical k /\ k <> [].
Proof.
  intros CD SK NE E. assert (C1 : forall src dst, In (src, dst) subs -> src <> [] /\ dst <> [] /\ canonical dst) by (intros a b I; apply (CD a b), in_app_iff; left; exact I).
  assert (C2 : forall src dst, In (src, dst) dist -> src <> [] /\ dst <> [] /\ canonical dst) by (intros a b I; apply (CD a b), in_app_iff; right; exact I).
  destruct E as [U V|k S V|k k1 S T|k U T].
  - split; assumption.
  - exact (substituted_canonical _ _ _ C1 SK S).
  - destruct (substituted_canonical _ _ _ C1 SK S) as [CK _]. exact (substituted_canonical _ _ _ C2 CK T).
  - exact (substituted_canonical _ _ _ C2 SK T).
Qed.
(** What the asserts of sort_spec_node and compare_spec_node ask for. *)
Lemma tree_sound prefix l n : holds prefix l n -> forall p m, node_at p n = Some m ->
  NoDup (map fst (n_children m)) /\ (forall s c, In (s, c) (n_children m) -> s <> []) /\
  (p <> [] -> n_lits m <> [] \/ n_regs m <> [] \/ n_children m <> []).
Proof.
  intros H p m E. pose proof (h_dist _ _ _ H _ _ E) as D. split; [exact D|].
  assert (STEMS : forall f d q t, In t (literal_stems_loop f d q) -> t <> []).
  { induction f as [|f IH]; intros d q t I; [destruct I|]. cbn [literal_stems_loop] in I. destruct d as [|d]; [destruct I|].
    destruct q as [|c q]; [destruct I|]. destruct (negb (c =? slash)); [destruct I|].
    destruct (break_slash q) as [[[|x seg] q']|]; [eapply IH; exact I| |destruct I]. destruct I as [<-|I]; [discriminate|eapply IH; exact I]. }
  split.
  - intros s c I. assert (N : node_at (p ++ [s]) n = Some c).
    { clear -E I D. revert n E. induction p as [|u p IH]; intros n E; cbn [app node_at] in *.
      - injection E as ->. rewrite (proj2 (find_child_in s _ c D) I). reflexivity.
      - destruct (find_child u (n_children n)); [|discriminate]. apply IH. exact E. }
    assert (X : node_at (p ++ [s]) n <> None) by congruence. apply (h_node _ _ _ H) in X. destruct X as [X|(z & _ & [(_ & r & R)|(_ & r & R)])].
    + destruct p; discriminate.
    + pose proof (regex_stems_leads (length (sp_regex z)) max_depth (sp_regex z)) as LD. fold (regex_stems (sp_regex z)) in LD.
      apply (leads_ok _ _ LD s). rewrite R. apply in_app_iff. left. apply in_app_iff. right; left; reflexivity.
    + apply (STEMS (length (lit_of z)) max_depth (lit_of z)). fold (literal_stems (lit_of z)). rewrite R. apply in_app_iff. left. apply in_app_iff. right; left; reflexivity.
  - intros NE. assert (X : node_at p n <> None) by congruence. apply (h_node _ _ _ H) in X. destruct X as [X|(z & I & X)]; [contradiction|].
    assert (NEXT : forall q u r, q = p ++ u :: r -> node_at (p ++ [u]) n <> None -> n_children m <> []).
    { intros q u r _ Y. intros Z. apply Y. clear -E Z. revert n E. induction p as [|v p IH]; intros n E; cbn [app node_at] in *.
      - injection E as ->. rewrite Z. reflexivity.
      - destruct (find_child v (n_children n)); [|reflexivity]. apply IH. exact E. }
    destruct X as [(K & r & R)|(K & r & R)]; (destruct r as [|u r]; [|right; right; apply (NEXT _ u r R); apply (h_node _ _ _ H); right; exists z; split; [exact I|]]).
    + right; left. rewrite app_nil_r in R. pose proof (h_regs _ _ _ H p) as P. rewrite E in P. cbn [here] in P. rewrite P. intros Z.
      assert (Y : In (to_r z) (regs_in prefix l p)) by (apply regs_in_spec; exists z; repeat split; assumption). rewrite Z in Y. destruct Y.
    + left. split; [exact K|]. exists r. rewrite R, <- app_assoc. reflexivity.
    + left. rewrite app_nil_r in R. pose proof (h_lits _ _ _ H p) as P. rewrite E in P. cbn [here] in P. intros Z.
      assert (Y : In (to_l z) (lits_in prefix l p)) by (apply lits_in_spec; exists z; repeat split; assumption). apply (Permutation_in _ (Permutation_sym P)) in Y. rewrite Z in Y. destruct Y.
    + right. split; [exact K|]. exists r. rewrite R, <- app_assoc. reflexivity.
Qed.
(** The input, if not too long, is accepted without validation. *)
Lemma insert_ok prefix s n : snd (regex_has_meta_chars (sp_regex s)) < 65535 -> exists n' k, insert_spec prefix s n = IOk n' k.
Proof.
  intros L. unfold insert_spec. destruct (regex_has_meta_chars (sp_regex s)) as [b p] eqn:M. cbn [snd] in L.
  rewrite (proj2 (N.leb_gt _ _) L). pose proof (has_meta_simplify _ _ _ M) as H. destruct b.
  - destruct (subset_skips true prefix (regex_stems (sp_regex s))); eauto.
  - destruct (regex_simplify (sp_regex s)) as [t|]; [|discriminate]. destruct H as [_ ->]. rewrite N.eqb_refl. destruct (subset_skips false prefix (literal_stems t)); eauto.
Qed.

Lemma lit_of_lit s : kept_lit None s = true \/ fst (regex_has_meta_chars (sp_regex s)) = false -> Lit (sp_regex s) (lit_of s).
Proof.
  intros K. assert (M : fst (regex_has_meta_chars (sp_regex s)) = false) by (destruct K as [K|K]; [|exact K]; unfold kept_lit in K; destruct (fst (regex_has_meta_chars (sp_regex s))); [discriminate|reflexivity]).
  apply has_meta_literal in M as (t & L). unfold lit_of. pose proof L as L2. apply simplify_lit in L2. rewrite L2. exact L.
Qed.
Lemma label_some s : sp_ctx s <> none_ctx -> label s = Some s.
Proof. intros H. unfold label. destruct (list_eq_dec N.eq_dec (sp_ctx s) _) as [E|_]; [contradiction|reflexivity]. Qed.
Lemma genuine_real E prefix l key kind partial f : genuine E prefix l key kind partial f ->
  Real E l key kind partial f /\ f_plen f = snd (regex_has_meta_chars (sp_regex (f_spec f))).
Proof.
  intros (I & K & C & M & P). split; [|exact P]. constructor; [exact I|exact K|apply label_some, C| |].
  - intros F. destruct M as [(_ & KL & ME)|(F2 & _)]; [|congruence]. exists (lit_of (f_spec f)). split; [|exact ME]. apply lit_of_lit. right.
    unfold kept_lit in KL. destruct (fst (regex_has_meta_chars (sp_regex (f_spec f)))); [discriminate|reflexivity].
  - intros F. destruct M as [(F2 & _)|(_ & KR & ME)]; [congruence|]. split; [|exact ME]. intros L. apply has_meta_literal in L. unfold kept_reg in KR. rewrite L in KR. discriminate.
Qed.
Lemma init_genuine E qs prefix validating baseonly subs dist base homedirs local D key mode partial find_all :
  sorts qs -> short base -> short homedirs -> short local -> init qs prefix validating baseonly subs dist base homedirs local = Some D ->
  key <> [] -> Forall (genuine E prefix (all_specs baseonly base homedirs local) (sub_or D (canon key)) (mode_kind mode) partial) (lookup_all E D key mode partial find_all).
Proof.
  intros Q SB SH SL I NE. destruct (init_holds _ _ _ _ _ _ _ _ _ _ Q SB SH SL I) as (H & O & _). rewrite (lookup_all_eff E D key mode partial find_all NE).
  destruct (d_num D =? 0); [constructor|]. rewrite mode_kind_ok. apply check_sound; assumption.
Qed.
Lemma lookup_all_tree E qs prefix validating baseonly subs dist base homedirs local D key mode partial find_all :
  sorts qs -> short base -> short homedirs -> short local -> init qs prefix validating baseonly subs dist base homedirs local = Some D ->
  key <> [] -> lookup_all E D key mode partial find_all =
  lookup_check_node E (lookup_find_deepest_node (d_root D) (sub_or D (canon key))) (sub_or D (canon key)) (mode_kind mode) partial find_all.
Proof.
  intros Q SB SH SL I NE. destruct (init_holds _ _ _ _ _ _ _ _ _ _ Q SB SH SL I) as (H & O & _ & _ & Z). rewrite (lookup_all_eff E D key mode partial find_all NE), mode_kind_ok.
  destruct (N.eqb_spec (d_num D) 0) as [N|_]; [|reflexivity].
  pose proof (check_sound E prefix _ (d_root D) (sub_or D (canon key)) (mode_kind mode) partial find_all H O) as G.
  destruct (lookup_check_node _ _ _ _ _ _) as [|f fs]; [reflexivity|]. exfalso. apply Forall_inv in G. destruct G as (J & _ & _ & M & _).
  destruct (Z N _ J) as [A B]. destruct M as [(_ & M & _)|(_ & M & _)]; congruence.
Qed.
Lemma effective_self D key : no_nul key -> (forall src dst, In (src, dst) (d_subs D) -> no_nul dst) -> forall k, Effective (d_subs D) (d_dist D) key k -> sub_or D key = k.
Proof. intros N1 N2 k K. exact (effective_fun _ _ _ _ _ (effective_ok D key N1 N2) K). Qed.
Lemma lookup_flat E qs prefix validating baseonly subs dist base homedirs local D key mode k :
  sorts qs -> short base -> short homedirs -> short local -> init qs prefix validating baseonly subs dist base homedirs local = Some D ->
  key <> [] -> no_nul key -> (forall src dst, In (src, dst) (subs ++ dist) -> canonical dst /\ no_nul dst) -> Effective subs dist (canon key) k -> in_subset prefix k ->
  (forall s, In s (all_specs baseonly base homedirs local) -> ~ literal (sp_regex s) -> kinds_meet (mode_kind mode) (sp_kind s) -> decided E (sp_regex s) k /\ honest E (sp_regex s) k) ->
  none_last E (all_specs baseonly base homedirs local) k (mode_kind mode) ->
  Flat E (all_specs baseonly base homedirs local) k (mode_kind mode) (option_map f_spec (lookup E D key mode)).
Proof.
  intros Q SB SH SL I NE NK CD EF SUB DH NL. destruct (init_holds _ _ _ _ _ _ _ _ _ _ Q SB SH SL I) as (H & O & ES & ED & _).
  unfold lookup. rewrite (lookup_all_tree E _ _ _ _ _ _ _ _ _ _ key mode false false Q SB SH SL I NE).
  assert (K : sub_or D (canon key) = k).
  { apply effective_self; [apply canon_nul, NK| |rewrite ES, ED; exact EF]. rewrite ES. intros a b J. apply (CD a b), in_app_iff. left; exact J. }
  rewrite K. apply (tree_flat E prefix); try assumption; [apply all_ordered|].
  apply (effective_single subs dist (canon key)); [|apply canon_single|exact EF]. intros a b J. exact (proj1 (CD a b J)).
Qed.
Lemma plen_fixed r : fixed_prefix r (snd (regex_has_meta_chars r)).
Proof.
  split; [exact (plen_split r)|]. intros pre t rest -> L. rewrite (plen_app _ _ rest L). cbn [snd]. lia.
Qed.
Lemma flat_unique E l key kind r r' : (forall s, In s l -> ~ lit_applies key kind s) -> Flat E l key kind r -> Flat E l key kind r' -> r = r'.
Proof.
  intros NL A B. destruct A as [s I L _|l1 s l2 _ EQ A LA|_ A]; [destruct (NL s I L)| |];
  destruct B as [z J L' _|m1 z m2 _ EQ' B LB|_ B]; try (destruct (NL z J L')); try reflexivity.
  - subst l. assert (X : (length l1 < length m1)%nat \/ (length l1 = length m1)%nat \/ (length m1 < length l1)%nat) by lia.
    assert (TL : forall (a b c d : list spec) (x y : spec), a ++ x :: b = c ++ y :: d -> (length a < length c)%nat -> In y b).
    { clear. induction a as [|u a IH]; intros b c d x y Q L; destruct c as [|v c]; cbn [length] in L; try lia; cbn [app] in Q; injection Q as Q1 Q2.
      - rewrite Q2. apply in_app_iff. right; left; reflexivity.
      - eapply IH; [exact Q2|lia]. }
    destruct X as [X|[X|X]].
    + exfalso. apply (LA z); [exact (TL _ _ _ _ _ _ EQ' X)|exact B].
    + clear -EQ' X. revert m1 X EQ'. induction l1 as [|u l1 IH]; intros [|v m1] X Q; cbn [length] in X; try lia; cbn [app] in Q; injection Q as Q1 Q2; [subst; reflexivity|].
      apply (IH m1); [lia|exact Q2].
    + exfalso. apply (LB s); [exact (TL _ _ _ _ _ _ (eq_sym EQ') X)|exact A].
  - exfalso. apply (B s); [rewrite EQ; apply in_app_iff; right; left; reflexivity|exact A].
  - exfalso. apply (A z); [rewrite EQ'; apply in_app_iff; right; left; reflexivity|exact B].
Qed.
Lemma lookup_canon E D key key' mode partial find_all : key <> [] -> key' <> [] -> canon key = canon key' ->
  lookup_all E D key mode partial find_all = lookup_all E D key' mode partial find_all.
Proof. intros A B C. rewrite !lookup_all_eff by assumption. rewrite C. reflexivity. Qed.
Lemma lookup_substituted E D key k mode partial find_all : key <> [] -> no_nul key ->
  (forall src dst, In (src, dst) (d_subs D ++ d_dist D) -> src <> [] /\ dst <> [] /\ canonical dst /\ no_nul dst) ->
  Effective (d_subs D) (d_dist D) (canon key) k ->
  lookup_all E D key mode partial find_all = lookup_all E (mkData (d_root D) (d_num D) [] []) k mode partial find_all.
Proof.
  intros NE NK CD EF.
  assert (NC : canon key <> []).
  { intros Z. destruct key as [|c t]; [congruence|]. unfold canon in Z. destruct (absolute (c :: t)) eqn:A; [discriminate|]. cbn [app] in Z.
    unfold absolute in A. apply N.eqb_neq in A. destruct (split_rel c t A) as (w & ws & S). unfold components in Z. rewrite S in Z. cbn [filter] in Z. destruct (filter _ ws); discriminate. }
  destruct (effective_canonical _ _ _ _ (fun a b J => let '(conj x (conj y (conj z _))) := CD a b J in conj x (conj y z)) (canon_canonical key) NC EF) as [CK NK'].
  rewrite !lookup_all_eff by assumption. cbn [d_num d_root].
  assert (K : sub_or D (canon key) = k).
  { apply effective_self; [apply canon_nul, NK| |exact EF]. intros a b J. apply (CD a b), in_app_iff. left; exact J. }
  rewrite K. unfold canonical in CK. unfold sub_or, selabel_sub_key. cbn [d_subs d_dist selabel_apply_subs]. rewrite CK. reflexivity.
Qed.
Lemma split_app_slash w t : ~ In 47 w -> split (w ++ 47 :: t) = w :: split t.
Proof.
  induction w as [|c w IH]; intros N; cbn [app split]; [reflexivity|]. destruct (N.eqb_spec c 47) as [->|_]; [destruct N; left; reflexivity|].
  rewrite IH by (intros I; apply N; right; exact I). reflexivity.
Qed.
Lemma split_plain w : ~ In 47 w -> split w = [w].
Proof.
  induction w as [|c w IH]; intros N; cbn [split]; [reflexivity|]. destruct (N.eqb_spec c 47) as [->|_]; [destruct N; left; reflexivity|].
  rewrite IH by (intros I; apply N; right; exact I). reflexivity.
Qed.
Lemma join_components ws : (forall w, In w ws -> w <> [] /\ ~ In 47 w) -> components (join ws) = ws.
Proof.
  unfold components. induction ws as [|w ws IH]; intros H; [reflexivity|]. destruct (H w (or_introl eq_refl)) as [NE NS]. destruct ws as [|v ws].
  - cbn [join]. rewrite (split_plain w NS). destruct w; [congruence|reflexivity].
  - change (join (w :: v :: ws)) with (w ++ 47 :: join (v :: ws)). rewrite split_app_slash by exact NS. cbn [filter]. rewrite IH by (intros x I; apply H; right; exact I). destruct w; [congruence|reflexivity].
Qed.
Lemma canon_components key : components (canon key) = components key.
Proof.
  unfold canon. destruct (absolute key); cbn [app]; [rewrite comps_slash|]; apply join_components, comps_ok.
Qed.
Lemma canon_absolute key : absolute (canon key) = absolute key.
Proof.
  unfold canon. destruct (absolute key) eqn:A; [reflexivity|]. cbn [app]. pose proof (comps_ok key) as C. destruct (components key) as [|w ws]; [reflexivity|].
  destruct (C w (or_introl eq_refl)) as [NE NS]. destruct w as [|c w]; [congruence|]. assert (X : c <> 47) by (intros ->; apply NS; left; reflexivity).
  cbn [join]. destruct ws; cbn [app absolute]; apply N.eqb_neq, X.
Qed.
Lemma reach_at n p m : Reach n p m -> (forall q z, node_at q n = Some z -> NoDup (map fst (n_children z))) -> node_at p n = Some m.
Proof.
  induction 1 as [n|n s c p m I R IH]; intros D; [reflexivity|]. cbn [node_at]. pose proof (D [] n eq_refl) as D0.
  rewrite (proj2 (find_child_in s _ c D0) I). apply IH. intros q z Z. apply (D (s :: q) z). cbn [node_at].
  rewrite (proj2 (find_child_in s _ c D0) I). exact Z.
Qed.
