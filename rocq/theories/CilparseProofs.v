(** Proofs about reading CIL text. *)
From Coq Require Import Arith Wf_nat.
From Verif Require Import Base CilparseModel CilparseSpec.

(** ** Tokens to trees *)

Lemma skip_length ts : (length (skip_comment ts) <= length ts)%nat.
Proof. induction ts as [|t ts IH]; [apply le_n|]. destruct t; cbn [skip_comment length]; lia. Qed.

Lemma linemark_length st ts st' ts2 : linemark st ts = Some (Some (st', ts2)) -> (length ts2 < length ts)%nat.
Proof.
  unfold linemark. intros H.
  destruct ts as [|[| |k| | | | |] ts1]; try discriminate H.
  destruct (same_str k LME).
  - destruct (p_marks st =? 0); [discriminate H|]. destruct (leave (p_frames st)); [|discriminate H].
    destruct ts1 as [|[] ts2']; try discriminate H. inversion H; subst. cbn [length]. lia.
  - destruct (same_str k LMS || same_str k LMX); [|discriminate H].
    destruct (MAX_DEPTH <? p_marks st + 1); [discriminate H|].
    destruct ts1 as [|[] [|[] [|[] ts2']]]; try discriminate H; inversion H; subst; cbn [length]; lia.
Qed.

Lemma parse_fuel n : forall k ts st, (length ts < n)%nat -> (length ts < k)%nat -> parse_loop n st ts = parse_loop k st ts.
Proof.
  induction n as [|n IH]; intros k ts st Hn Hk; [lia|]. destruct k as [|k]; [lia|].
  cbn [parse_loop]. destruct ts as [|t ts]; [reflexivity|]. cbn [length] in Hn, Hk.
  destruct t.
  - destruct (MAX_DEPTH <? p_paren st + 1); [reflexivity|]. apply IH; lia.
  - destruct (p_paren st =? 0); [reflexivity|]. destruct (leave (p_frames st)); [|reflexivity]. apply IH; lia.
  - destruct (p_paren st =? 0); [reflexivity|]. apply IH; lia.
  - destruct (p_paren st =? 0); [reflexivity|]. apply IH; lia.
  - pose proof (skip_length ts). apply IH; lia.
  - destruct (linemark st ts) as [[[st' ts2]|]|] eqn:E; try reflexivity. pose proof (linemark_length _ _ _ _ E). apply IH; lia.
  - apply IH; lia.
  - reflexivity.
Qed.

Definition P (st : pstate) (ts : list token) : presult := parse_loop (S (length ts)) st ts.

Lemma P_unfold st ts : P st ts =
      match ts with
      | [] =>
          if 0 <? p_paren st then Refused
          else if 0 <? p_marks st then Refused
          else match p_frames st with [l] => Parsed (rev l) | _ => Wild end
      | HLL_LINEMARK :: ts' =>
          match linemark st ts' with
          | None => Refused
          | Some None => Wild
          | Some (Some (st', ts2)) => P st' ts2
          end
      | OPAREN :: ts' =>
          if MAX_DEPTH <? p_paren st + 1 then Refused
          else P (mkP (p_paren st + 1) (p_marks st) ([] :: p_frames st)) ts'
      | CPAREN :: ts' =>
          if p_paren st =? 0 then Refused
          else
            match leave (p_frames st) with
            | None => Wild
            | Some f => P (mkP (p_paren st - 1) (p_marks st) f) ts'
            end
      | QSTRING w :: ts' | SYMBOL w :: ts' =>
          if p_paren st =? 0 then Refused
          else P (mkP (p_paren st) (p_marks st) (add_child (PName w) (p_frames st))) ts'
      | NEWLINE :: ts' => P st ts'
      | COMMENT :: ts' => P st (skip_comment ts')
      | UNKNOWN :: _ => Refused
      end.
Proof.
  unfold P at 1. destruct ts as [|t ts]; [reflexivity|]. cbn [length].
  assert (Hk : (length ts < S (length ts))%nat) by lia. revert Hk. generalize (S (length ts)) as k. intros k Hk.
  cbn [parse_loop]. unfold P.
  destruct t; try reflexivity.
  - destruct (MAX_DEPTH <? p_paren st + 1); [reflexivity|]. apply parse_fuel; lia.
  - destruct (p_paren st =? 0); [reflexivity|]. destruct (leave (p_frames st)); [|reflexivity]. apply parse_fuel; lia.
  - destruct (p_paren st =? 0); [reflexivity|]. apply parse_fuel; lia.
  - destruct (p_paren st =? 0); [reflexivity|]. apply parse_fuel; lia.
  - apply parse_fuel; pose proof (skip_length ts); lia.
  - destruct (linemark st ts) as [[[st' ts2]|]|] eqn:E; try reflexivity. pose proof (linemark_length _ _ _ _ E).
    apply parse_fuel; lia.
  - apply parse_fuel; lia.
Qed.

Lemma skip_junk junk ts : ~ In NEWLINE junk -> skip_comment (junk ++ NEWLINE :: ts) = ts.
Proof.
  induction junk as [|t junk IH]; intros H; [reflexivity|]. cbn [app skip_comment].
  assert (E : t <> NEWLINE) by (intros ->; apply H; left; reflexivity).
  rewrite IH by (intros Hi; apply H; right; exact Hi). destruct t; congruence.
Qed.

Lemma skip_junk_end junk : ~ In NEWLINE junk -> skip_comment junk = [].
Proof.
  induction junk as [|t junk IH]; intros H; [reflexivity|]. cbn [skip_comment].
  assert (E : t <> NEWLINE) by (intros ->; apply H; left; reflexivity).
  rewrite IH by (intros Hi; apply H; right; exact Hi). destruct t; congruence.
Qed.

Lemma skip_split ts : (exists junk ts', ts = junk ++ NEWLINE :: ts' /\ ~ In NEWLINE junk /\ skip_comment ts = ts') \/
  (~ In NEWLINE ts /\ skip_comment ts = []).
Proof.
  induction ts as [|t ts IH]; [right; split; [intros []|reflexivity]|].
  assert (D : t = NEWLINE \/ t <> NEWLINE) by (destruct t; try (right; discriminate); left; reflexivity).
  destruct D as [->|D].
  - left. exists [], ts. split; [reflexivity|]. split; [intros []|reflexivity].
  - assert (E : skip_comment (t :: ts) = skip_comment ts) by (destruct t; try reflexivity; congruence). rewrite E.
    destruct IH as [(junk & ts' & -> & H1 & H2)|(H1 & H2)].
    + left. exists (t :: junk), ts'. split; [reflexivity|]. split; [|exact H2]. intros [H|H]; [congruence|contradiction].
    + right. split; [|exact H2]. intros [H|H]; [congruence|contradiction].
Qed.

Definition at_ (p m : nat) (l : list ptree) (fs : frames) : pstate := mkP (N.of_nat p) (N.of_nat m) (l :: fs).

Lemma derives_P p m ts f : derives p m ts f -> forall l fs r,
  P (at_ p m l fs) (ts ++ r) = P (at_ p m (rev f ++ l) fs) r.
Proof.
  induction 1 as [p m|p m ts f D IH|p m junk ts f J D IH|p m w ts f D IH|p m w ts f D IH|p m a g ts f Hp Da IHa D IH|
                  p m k n q ts g us f Hk Hm Hq Dg IHg D IH]; intros l fs r.
  - reflexivity.
  - cbn [app]. rewrite P_unfold. apply IH.
  - rewrite <- app_comm_cons, <- app_assoc. cbn [app]. rewrite P_unfold, skip_junk by exact J. apply IH.
  - cbn [app]. rewrite P_unfold. cbn [at_ p_paren p_marks p_frames add_child].
    replace (N.of_nat (S p) =? 0) with false by lia. change (mkP (N.of_nat (S p)) (N.of_nat m) ((PName w :: l) :: fs)) with (at_ (S p) m (PName w :: l) fs).
    rewrite IH. cbn [rev]. rewrite <- app_assoc. reflexivity.
  - cbn [app]. rewrite P_unfold. cbn [at_ p_paren p_marks p_frames add_child].
    replace (N.of_nat (S p) =? 0) with false by lia. change (mkP (N.of_nat (S p)) (N.of_nat m) ((PName w :: l) :: fs)) with (at_ (S p) m (PName w :: l) fs).
    rewrite IH. cbn [rev]. rewrite <- app_assoc. reflexivity.
  - rewrite <- app_comm_cons, <- app_assoc. cbn [app]. rewrite P_unfold. cbn [at_ p_paren p_marks p_frames].
    unfold MAX_DEPTH. replace (4096 <? N.of_nat p + 1) with false by lia.
    replace (mkP (N.of_nat p + 1) (N.of_nat m) ([] :: l :: fs)) with (at_ (S p) m [] (l :: fs)) by (unfold at_; f_equal; lia).
    rewrite IHa, P_unfold. cbn [at_ p_paren p_marks p_frames leave].
    replace (N.of_nat (S p) =? 0) with false by lia. rewrite rev_app_distr, rev_involutive. cbn [rev app].
    replace (mkP (N.of_nat (S p) - 1) (N.of_nat m) ((PList g :: l) :: fs)) with (at_ p m (PList g :: l) fs) by (unfold at_; f_equal; lia).
    rewrite IH, <- app_assoc. reflexivity.
  - rewrite <- !app_comm_cons, <- app_assoc. cbn [app]. rewrite P_unfold.
    set (w := match q with SYMBOL w => w | QSTRING w => w | _ => [] end).
    assert (E : linemark (at_ p m l fs) (SYMBOL k :: SYMBOL n :: q :: NEWLINE :: ts ++ HLL_LINEMARK :: SYMBOL LME :: NEWLINE :: us ++ r) =
       Some (Some (at_ p (S m) (rev [PName SRC_INFO; PName k; PName n; PName w]) (l :: fs),
                   ts ++ HLL_LINEMARK :: SYMBOL LME :: NEWLINE :: us ++ r))).
    { unfold linemark. replace (same_str k LME) with false by (destruct Hk as [-> | ->]; reflexivity).
      replace (same_str k LMS || same_str k LMX) with true by (destruct Hk as [-> | ->]; reflexivity).
      cbn [at_ p_marks p_paren p_frames]. unfold MAX_DEPTH. replace (4096 <? N.of_nat m + 1) with false by lia.
      replace (N.of_nat m + 1) with (N.of_nat (S m)) by lia.
      destruct Hq as (v & [-> | ->]); reflexivity. }
    rewrite E, IHg, P_unfold. unfold linemark. change (same_str LME LME) with true.
    cbn [at_ p_paren p_marks p_frames leave]. replace (N.of_nat (S m) =? 0) with false by lia. cbn iota.
    rewrite rev_app_distr, rev_involutive, rev_involutive. cbn [app].
    match goal with |- P (mkP _ _ ((?x :: l) :: fs)) _ = _ =>
      replace (mkP (N.of_nat p) (N.of_nat (S m) - 1) ((x :: l) :: fs)) with (at_ p m (x :: l) fs) by (unfold at_; f_equal; lia);
      rewrite IH; cbn [rev]; rewrite <- app_assoc; reflexivity end.
Qed.

Lemma derives_file_P ts f : derives_file ts f -> parse_tokens ts = Parsed f.
Proof.
  intros (t1 & D & H). change (parse_tokens ts) with (P (at_ 0 0 [] []) ts).
  assert (E : P (at_ 0 0 (rev f ++ []) []) [] = Parsed f).
  { rewrite P_unfold. cbn. rewrite app_nil_r, rev_involutive. reflexivity. }
  destruct H as [->|(junk & -> & J)].
  - rewrite <- (app_nil_r t1), (derives_P 0 0 t1 f D). exact E.
  - rewrite (derives_P 0 0 t1 f D). rewrite P_unfold, (skip_junk_end junk J). exact E.
Qed.

(** No step leaves the tree. *)
Lemma P_safe n : forall ts st, length ts = n -> length (p_frames st) = N.to_nat (1 + p_paren st + p_marks st) -> P st ts <> Wild.
Proof.
  induction n as [n IH] using lt_wf_ind. intros ts st Hn Hl. rewrite P_unfold.
  destruct st as [p m fs]. cbn [p_paren p_marks p_frames] in *.
  assert (Lv : (0 < p \/ 0 < m) -> exists l1 l2 fs', fs = l1 :: l2 :: fs').
  { intros H. destruct fs as [|l1 [|l2 fs']]; cbn [length] in Hl; try lia. eauto. }
  destruct ts as [|t ts].
  - destruct (N.ltb_spec 0 p); [discriminate|]. destruct (N.ltb_spec 0 m); [discriminate|].
    assert (p = 0) by lia. assert (m = 0) by lia. subst. destruct fs as [|l [|l2 fs]]; cbn [length] in Hl; try discriminate.
    all: exfalso; change (N.to_nat (1 + 0 + 0)) with 1%nat in Hl; lia.
  - cbn [length] in Hn. destruct t.
    + destruct (MAX_DEPTH <? p + 1); [discriminate|]. apply (IH (length ts)); [lia|reflexivity|]. cbn [p_frames p_paren p_marks length]. lia.
    + destruct (N.eqb_spec p 0); [discriminate|]. destruct (Lv ltac:(lia)) as (l1 & l2 & fs' & ->). cbn [leave].
      apply (IH (length ts)); [lia|reflexivity|]. cbn [p_frames p_paren p_marks length] in *. lia.
    + destruct (p =? 0); [discriminate|]. apply (IH (length ts)); [lia|reflexivity|]. cbn [p_frames p_paren p_marks]. destruct fs; exact Hl.
    + destruct (p =? 0); [discriminate|]. apply (IH (length ts)); [lia|reflexivity|]. cbn [p_frames p_paren p_marks]. destruct fs; exact Hl.
    + apply (IH (length (skip_comment ts))); [pose proof (skip_length ts); lia|reflexivity|exact Hl].
    + destruct (linemark (mkP p m fs) ts) as [[[st' ts2]|]|] eqn:E; try discriminate.
      * apply (IH (length ts2)); [pose proof (linemark_length _ _ _ _ E); lia|reflexivity|].
        unfold linemark in E. cbn [p_marks p_paren p_frames] in E.
        destruct ts as [|[| |k| | | | |] ts1]; try discriminate E.
        destruct (same_str k LME).
        -- destruct (N.eqb_spec m 0); [discriminate E|]. destruct (Lv ltac:(lia)) as (l1 & l2 & fs' & ->). cbn [leave] in E.
           destruct ts1 as [|[] ts2']; try discriminate E. inversion E; subst. cbn [p_frames p_paren p_marks length] in *. lia.
        -- destruct (same_str k LMS || same_str k LMX); [|discriminate E].
           destruct (MAX_DEPTH <? m + 1); [discriminate E|].
           destruct ts1 as [|[] [|[] [|[] ts2']]]; try discriminate E; inversion E; subst; cbn [p_frames p_paren p_marks length] in *; lia.
      * exfalso. unfold linemark in E. cbn [p_marks p_paren p_frames] in E.
        destruct ts as [|[| |k| | | | |] ts1]; try discriminate E.
        destruct (same_str k LME).
        -- destruct (N.eqb_spec m 0); [discriminate E|]. destruct (Lv ltac:(lia)) as (l1 & l2 & fs' & ->). cbn [leave] in E.
           destruct ts1 as [|[] ts2']; discriminate E.
        -- destruct (same_str k LMS || same_str k LMX); [|discriminate E].
           destruct (MAX_DEPTH <? m + 1); [discriminate E|].
           destruct ts1 as [|[] [|[] [|[] ts2']]]; discriminate E.
    + apply (IH (length ts)); [lia|reflexivity|exact Hl].
    + discriminate.
Qed.

Lemma parser_safe s : cil_parser s <> Wild.
Proof. unfold cil_parser, parse_tokens. apply (P_safe (length (lex (length s) true s))); reflexivity. Qed.

(** Conversely, without line marks. *)
Lemma P_derives n : forall ts p l fs g, length ts = n -> ~ In HLL_LINEMARK ts -> length fs = p ->
  P (at_ p 0 l fs) ts = Parsed g ->
  match p, fs with
  | O, _ => exists f, derives_file ts f /\ g = rev l ++ f
  | S p', l' :: fs' => exists f t1 t2, ts = t1 ++ CPAREN :: t2 /\ derives p 0 t1 f /\
       P (at_ p' 0 (PList (rev l ++ f) :: l') fs') t2 = Parsed g
  | _, _ => False
  end.
Proof.
  induction n as [n IH] using lt_wf_ind. intros ts p l fs g Hn NM Hl H. rewrite P_unfold in H.
  destruct ts as [|t ts].
  - cbn [at_ p_paren p_marks p_frames] in H. destruct p as [|p].
    + destruct fs; [|discriminate Hl]. cbn in H. inversion H; subst. exists []. rewrite app_nil_r. split; [|reflexivity].
      exists []. split; [constructor|left; reflexivity].
    + replace (0 <? N.of_nat (S p)) with true in H by lia. discriminate H.
  - cbn [length] in Hn. assert (NM' : ~ In HLL_LINEMARK ts) by (intros Hi; apply NM; right; exact Hi).
    (* a token that leaves the frames as they are *)
    assert (Skip : forall pre ts', t :: ts = pre ++ ts' -> (length ts' < n)%nat ->
       (forall f q, derives p 0 q f -> derives p 0 (pre ++ q) f) ->
       P (at_ p 0 l fs) ts' = Parsed g ->
       match p, fs with
       | O, _ => exists f, derives_file (t :: ts) f /\ g = rev l ++ f
       | S p', l' :: fs' => exists f t1 t2, t :: ts = t1 ++ CPAREN :: t2 /\ derives p 0 t1 f /\
            P (at_ p' 0 (PList (rev l ++ f) :: l') fs') t2 = Parsed g
       | _, _ => False
       end).
    { intros pre ts' E L Dp Hr.
      assert (NMr : ~ In HLL_LINEMARK ts') by (intros Hi; apply NM; rewrite E; apply in_or_app; right; exact Hi).
      pose proof (IH (length ts') L ts' p l fs g eq_refl NMr Hl Hr) as G. rewrite E.
      destruct p as [|p'].
      - destruct G as (f & (t1 & D & Ht) & Eg). exists f. split; [|exact Eg]. exists (pre ++ t1). split; [apply Dp; exact D|].
        destruct Ht as [->|(junk & -> & J)]; [left; reflexivity|right; exists junk; split; [rewrite app_assoc; reflexivity|exact J]].
      - destruct fs as [|l' fs']; [exact G|]. destruct G as (f & t1 & t2 & -> & D & Hp). exists f, (pre ++ t1), t2.
        split; [rewrite app_assoc; reflexivity|]. split; [apply Dp; exact D|exact Hp]. }
    (* an atom *)
    assert (Atom : forall w, p <> O -> (t = SYMBOL w \/ t = QSTRING w) -> P (at_ p 0 (PName w :: l) fs) ts = Parsed g ->
       match p, fs with
       | O, _ => exists f, derives_file (t :: ts) f /\ g = rev l ++ f
       | S p', l' :: fs' => exists f t1 t2, t :: ts = t1 ++ CPAREN :: t2 /\ derives p 0 t1 f /\
            P (at_ p' 0 (PList (rev l ++ f) :: l') fs') t2 = Parsed g
       | _, _ => False
       end).
    { intros w Np Et Hr. pose proof (IH (length ts) ltac:(lia) ts p (PName w :: l) fs g eq_refl NM' Hl Hr) as G.
      destruct p as [|p']; [congruence|]. destruct fs as [|l' fs']; [exact G|].
      destruct G as (f & t1 & t2 & -> & D & Hp). exists (PName w :: f), (t :: t1), t2. split; [reflexivity|].
      split; [destruct Et as [-> | ->]; constructor; exact D|]. cbn [rev] in Hp. rewrite <- app_assoc in Hp. exact Hp. }
    cbn [at_ p_paren p_marks p_frames add_child] in H.
    destruct t.
    + destruct (N.ltb_spec MAX_DEPTH (N.of_nat p + 1)) as [|Hd]; [discriminate H|].
      assert (Hp : (p < N.to_nat 4096)%nat) by (unfold MAX_DEPTH in Hd; lia).
      change (N.of_nat 0) with 0 in H.
      replace (mkP (N.of_nat p + 1) 0 ([] :: l :: fs)) with (at_ (S p) 0 [] (l :: fs)) in H by (unfold at_; f_equal; lia).
      pose proof (IH (length ts) ltac:(lia) ts (S p) [] (l :: fs) g eq_refl NM' ltac:(cbn [length]; lia) H) as G. cbn iota in G.
      destruct G as (f0 & a & t2 & E & Da & Hr). cbn [rev app] in Hr.
      assert (L2 : (length t2 < n)%nat) by (rewrite E, app_length in Hn; cbn [length] in Hn; lia).
      assert (NM2 : ~ In HLL_LINEMARK t2) by (intros Hi; apply NM'; rewrite E; apply in_or_app; right; right; exact Hi).
      pose proof (IH (length t2) L2 t2 p (PList f0 :: l) fs g eq_refl NM2 Hl Hr) as G2. rewrite E. clear E.
      destruct p as [|p'].
      * destruct G2 as (f & (t3 & D & Ht) & Eg). exists (PList f0 :: f). cbn [rev] in Eg. rewrite <- app_assoc in Eg. split; [|exact Eg].
        exists (OPAREN :: a ++ CPAREN :: t3). split; [constructor; assumption|].
        destruct Ht as [->|(junk & -> & J)]; [left; reflexivity|right; exists junk; split; [|exact J]].
        cbn [app]. rewrite <- app_assoc. reflexivity.
      * destruct fs as [|l' fs']; [exact G2|]. destruct G2 as (f & t3 & t4 & -> & D & Hr2).
        exists (PList f0 :: f), (OPAREN :: a ++ CPAREN :: t3), t4. split; [cbn [app]; rewrite <- app_assoc; reflexivity|].
        split; [constructor; assumption|]. cbn [rev] in Hr2. rewrite <- app_assoc in Hr2. exact Hr2.
    + destruct p as [|p]; [discriminate H|]. replace (N.of_nat (S p) =? 0) with false in H by lia.
      destruct fs as [|l' fs']; [discriminate Hl|]. cbn [leave] in H. exists [], [], ts. split; [reflexivity|].
      split; [constructor|]. rewrite app_nil_r.
      replace (at_ p 0 (PList (rev l) :: l') fs') with (mkP (N.of_nat (S p) - 1) (N.of_nat 0) ((PList (rev l) :: l') :: fs'))
        by (unfold at_; f_equal; lia). exact H.
    + destruct p as [|p]; [discriminate H|]. replace (N.of_nat (S p) =? 0) with false in H by lia.
      apply (Atom w); [discriminate|left; reflexivity|exact H].
    + destruct p as [|p]; [discriminate H|]. replace (N.of_nat (S p) =? 0) with false in H by lia.
      apply (Atom w); [discriminate|right; reflexivity|exact H].
    + destruct (skip_split ts) as [(junk & ts' & E & J & Es)|(J & Es)]; rewrite Es in H.
      * apply (Skip (COMMENT :: junk ++ [NEWLINE]) ts').
        -- rewrite E. cbn [app]. rewrite <- app_assoc. reflexivity.
        -- rewrite E, app_length in Hn. cbn [length] in Hn. lia.
        -- intros f q D. cbn [app]. rewrite <- app_assoc. cbn [app]. constructor; assumption.
        -- exact H.
      * rewrite P_unfold in H. cbn [p_paren p_marks p_frames] in H. destruct p as [|p].
        -- destruct fs; [|discriminate Hl]. cbn in H. inversion H; subst. exists []. rewrite app_nil_r. split; [|reflexivity].
           exists []. split; [constructor|right]. exists ts. split; [reflexivity|exact J].
        -- replace (0 <? N.of_nat (S p)) with true in H by lia. discriminate H.
    + exfalso. apply NM. left. reflexivity.
    + apply (Skip [NEWLINE] ts); [reflexivity|lia| |exact H]. intros f q D. cbn [app]. constructor. exact D.
    + discriminate H.
Qed.

Lemma P_file ts g : ~ In HLL_LINEMARK ts -> parse_tokens ts = Parsed g -> derives_file ts g.
Proof.
  intros NM H. destruct (P_derives (length ts) ts 0 [] [] g eq_refl NM eq_refl H) as (f & D & E).
  cbn [rev app] in E. subst. exact D.
Qed.
