(** Proofs about the enabling of optional blocks. *)
From Verif Require Import Base MlsModel ContextModel LinkModel LinkSpec.

Definition honest (t : table) (declared : symbol -> N -> Prop) : Prop :=
  forall en k, id_enabled t en k = true <-> exists j, declared k j /\ en j = true.
Definition all_ids (bl : list block) : list N := flat_map (fun b => map d_id (b_branches b)) bl.
Definition perms_known (known : N -> N -> bool) (d : decl) : Prop :=
  forall c ps p, nth_error (d_classes d) c = Some ps -> In p ps -> known (N.of_nat c) p = true.

Section Enable.
  Context (t : table) (known : N -> N -> bool) (declared : symbol -> N -> Prop).
  Context (Hon : honest t declared).

  Definition all_met (en : N -> bool) (d : decl) : Prop := forall k, needs d k -> exists j, declared k j /\ en j = true.

  Lemma symbols_met_ok en l :
    (symbols_met t en l = Met /\ forall k, In k l -> id_enabled t en k = true) \/
    ((exists m, symbols_met t en l = Unmet (Some m)) /\ exists k, In k l /\ id_enabled t en k = false).
  Proof.
    induction l as [|k l IH]; cbn [symbols_met].
    - left. split; [reflexivity|intros k []].
    - destruct (id_enabled t en k) eqn:E.
      + destruct IH as [[A B]|[A (k' & B & C)]].
        * left. split; [exact A|]. intros k' [<-|H]; auto.
        * right. split; [exact A|]. exists k'. split; [right; exact B|exact C].
      + right. split; [eexists; reflexivity|]. exists k. split; [left; reflexivity|exact E].
  Qed.
  Lemma classes_met_ok en l : forall c, (forall i ps p, nth_error l i = Some ps -> In p ps -> known (c + N.of_nat i) p = true) ->
    (classes_met t known en c l = Met /\ forall i, (i < length l)%nat -> id_enabled t en (1, c + N.of_nat i) = true) \/
    (classes_met t known en c l = Unmet None /\ exists i, (i < length l)%nat /\ id_enabled t en (1, c + N.of_nat i) = false).
  Proof.
    induction l as [|ps l IH]; intros c K; cbn [classes_met length].
    - left. split; [reflexivity|intros i H; lia].
    - unfold SYM_CLASSES. destruct (id_enabled t en (1, c)) eqn:E; cbn [negb].
      + unfold perms_met.
        assert (F : forallb (known c) ps = true).
        { apply forallb_forall. intros p Hp. specialize (K 0%nat ps p eq_refl Hp). rewrite N.add_0_r in K. exact K. }
        rewrite F. destruct (IH (c + 1)) as [[A B]|[A (i & B & C)]].
        * intros i qs p Hi Hp. specialize (K (S i) qs p Hi Hp). rewrite <- K. f_equal. lia.
        * left. split; [exact A|]. intros [|i] Hi; [rewrite N.add_0_r; exact E|].
          replace (c + N.of_nat (S i)) with (c + 1 + N.of_nat i) by lia. apply B. lia.
        * right. split; [exact A|]. exists (S i). split; [lia|]. replace (c + N.of_nat (S i)) with (c + 1 + N.of_nat i) by lia. exact C.
      + right. split; [reflexivity|]. exists 0%nat. split; [lia|]. rewrite N.add_0_r. exact E.
  Qed.
  Lemma requires_met_ok en d : perms_known known d ->
    (requires_met t known en d = Met /\ all_met en d) \/ ((exists m, requires_met t known en d = Unmet m) /\ ~ all_met en d).
  Proof.
    intros K. unfold requires_met. destruct (symbols_met_ok en (d_symbols d)) as [[A B]|[[m A] (k & B & C)]]; rewrite A.
    - destruct (classes_met_ok en (d_classes d) 0) as [[A' B']|[A' (i & B' & C')]].
      + intros i ps p Hi Hp. rewrite N.add_0_l. exact (K i ps p Hi Hp).
      + left. split; [exact A'|]. intros k [H|(c & H & ->)]; apply Hon; [apply B; exact H|]. specialize (B' c H). rewrite N.add_0_l in B'. exact B'.
      + right. split; [eexists; exact A'|]. intros M. assert (X : needs d (1, N.of_nat i)) by (right; exists i; auto).
        apply M in X. apply Hon in X. rewrite N.add_0_l in C'. congruence.
    - right. split; [eexists; reflexivity|]. intros M. assert (X : needs d k) by (left; exact B). apply M in X. apply Hon in X. congruence.
  Qed.

  (** State of the loop: flags and pointers agree; nothing of the sustained set was lost. *)
  Definition agrees (en : N -> bool) (b : block) (p : option N) : Prop :=
    exists d r, b_branches b = d :: r /\ ((p = Some (d_id d) /\ en (d_id d) = true) \/ (p = None /\ en (d_id d) = false /\ b_optional b = true)).

  Context (BL : list block).
  Definition lives (en : N -> bool) : Prop := forall i, sustained declared BL i -> en i = true.

  Lemma sustained_self : self_supporting declared BL (sustained declared BL).
  Proof.
    intros i (S & H & Hi). destruct (H i Hi) as (b & d & A & B & C & D). exists b, d. split; [exact A|]. split; [exact B|]. split; [exact C|].
    intros k Hk. destruct (D k Hk) as (j & E & F). exists j. split; [exact E|]. exists S. auto.
  Qed.
End Enable.

(** The numbers of the main branches. *)
Definition main_ids (bl : list block) : list N := flat_map (fun b => match b_branches b with d :: _ => [d_id d] | [] => [] end) bl.
Definition good_blocks (known : N -> N -> bool) (bl : list block) : Prop :=
  Forall (fun b => exists d r, b_branches b = d :: r /\ perms_known known d) bl.

Lemma main_in_ids bl b d r : In b bl -> b_branches b = d :: r -> In (d_id d) (main_ids bl).
Proof. intros H E. unfold main_ids. apply in_flat_map. exists b. split; [exact H|]. rewrite E. left. reflexivity. Qed.

Lemma app_no_share {A} (l m : list A) x : NoDup (l ++ m) -> In x l -> ~ In x m.
Proof.
  induction l as [|y l IH]; intros H [].
  - subst. inversion H as [|? ? H1 H2]; subst. intros X. apply H1. apply in_app_iff. auto.
  - inversion H; subst. apply IH; assumption.
Qed.
Lemma NoDup_right {A} (l m : list A) : NoDup (l ++ m) -> NoDup m.
Proof. induction l as [|y l IH]; intros H; [exact H|]. inversion H; subst. auto. Qed.
Lemma NoDup_left {A} (l m : list A) : NoDup (l ++ m) -> NoDup l.
Proof.
  induction l as [|y l IH]; intros H; [constructor|]. inversion H as [|? ? H1 H2]; subst. constructor; [|auto].
  intros X. apply H1. apply in_app_iff. auto.
Qed.
Lemma main_ids_sub bl x : In x (main_ids bl) -> In x (all_ids bl).
Proof.
  unfold main_ids, all_ids. intros H. apply in_flat_map in H. destruct H as (b & A & B). apply in_flat_map. exists b. split; [exact A|].
  destruct (b_branches b) as [|d r]; [destruct B|]. destruct B as [<-|[]]. left. reflexivity.
Qed.
Lemma main_ids_nodup bl : NoDup (all_ids bl) -> NoDup (main_ids bl).
Proof.
  induction bl as [|b bl IH]; intros H; [constructor|]. cbn in *. destruct (b_branches b) as [|d r]; [apply IH; exact H|].
  cbn in *. inversion H as [|? ? H1 H2]; subst. constructor.
  - intros X. apply H1. apply in_app_iff. right. apply main_ids_sub. exact X.
  - apply IH. eapply NoDup_right. exact H2.
Qed.

(** Step 1. *)
Lemma clear_flags l : forall en x, fold_left (fun e d => set_flag e (d_id d) false) l en x = if existsb (fun d => x =? d_id d) l then false else en x.
Proof.
  induction l as [|d l IH]; intros en x; [reflexivity|]. cbn [fold_left existsb]. rewrite IH. unfold set_flag.
  destruct (x =? d_id d), (existsb (fun d0 => x =? d_id d0) l); reflexivity.
Qed.
Lemma not_there x (l : list decl) : ~ In x (map d_id l) -> existsb (fun d => x =? d_id d) l = false.
Proof.
  induction l as [|d l IH]; intros H; [reflexivity|]. cbn in *. rewrite IH by tauto.
  destruct (x =? d_id d) eqn:E; [|reflexivity]. exfalso. apply H. left. lia.
Qed.
Lemma there x (l : list decl) : In x (map d_id l) -> existsb (fun d => x =? d_id d) l = true.
Proof.
  induction l as [|d l IH]; intros H; [destruct H|]. destruct H as [H|H]; cbn.
  - rewrite <- H, N.eqb_refl. reflexivity.
  - rewrite IH by exact H. apply orb_true_r.
Qed.

Lemma enable_first_ok known bl : forall en, good_blocks known bl -> NoDup (all_ids bl) ->
  exists en' ptr, enable_first bl en = Some (en', ptr) /\
    (forall x, en' x = true <-> In x (main_ids bl) \/ (~ In x (all_ids bl) /\ en x = true)) /\
    length ptr = length bl /\
    Forall2 (fun b p => exists d r, b_branches b = d :: r /\ p = Some (d_id d)) bl ptr.
Proof.
  induction bl as [|b bl IH]; intros en G ND.
  - exists en, []. cbn. split; [reflexivity|]. split; [|auto]. intros x. tauto.
  - inversion G as [|? ? (d & r & E & K) G']; subst. cbn [enable_first]. rewrite E.
    set (en1 := fold_left _ r _). cbn in ND. rewrite E in ND. cbn in ND. inversion ND as [|? ? N1 N2]; subst.
    assert (N3 : NoDup (all_ids bl)) by (eapply NoDup_right; exact N2).
    destruct (IH en1 G' N3) as (en' & ptr & Q & F & L & P). rewrite Q.
    exists en', (Some (d_id d) :: ptr). split; [reflexivity|]. split; [|split; [cbn; lia|constructor; [exists d, r; auto|exact P]]].
    assert (V : forall x, en1 x = if existsb (fun d => x =? d_id d) r then false else if x =? d_id d then true else en x).
    { intros x. unfold en1. rewrite clear_flags. reflexivity. }
    intros x. rewrite F, V. cbn [main_ids all_ids flat_map]. rewrite E. cbn [map app In]. fold (main_ids bl). fold (all_ids bl).
    rewrite in_app_iff. rewrite in_app_iff in N1. split.
    + intros [H|[H1 H2]]; [auto|]. destruct (existsb _ r) eqn:X; [discriminate|].
      assert (Nr : ~ In x (map d_id r)) by (intros Y; apply there in Y; congruence).
      destruct (x =? d_id d) eqn:Y; [left; left; lia|]. right. split; [|exact H2]. intros [Z|[Z|Z]]; [lia|tauto|tauto].
    + intros [[<-|H]|[H1 H2]]; [|auto|].
      * right. split; [tauto|]. rewrite not_there by tauto. rewrite N.eqb_refl. reflexivity.
      * right. split; [tauto|]. rewrite not_there by tauto. destruct (x =? d_id d) eqn:Y; [reflexivity|exact H2].
Qed.

(** How many blocks are enabled. *)
Definition live (ptr : list (option N)) : nat := length (filter (fun p => match p with Some _ => true | None => false end) ptr).

Section Loop.
  Context (t : table) (known : N -> N -> bool) (declared : symbol -> N -> Prop) (BL : list block).
  Context (Hon : honest t declared) (GB : good_blocks known BL) (ND : NoDup (main_ids BL)).

  Lemma unmet_not_sustained en b d r : lives declared BL en -> In b BL -> b_branches b = d :: r ->
    ~ all_met declared en d -> ~ sustained declared BL (d_id d).
  Proof.
    intros L Hb E U S. apply U. destruct (sustained_self declared BL (d_id d) S) as (b' & d' & A & (r' & B) & C & D).
    assert (Same : d' = d).
    { clear - ND Hb E A B C. induction BL as [|x l IH]; [destruct Hb|]. cbn in ND.
      assert (Nl : NoDup (main_ids l)) by (eapply NoDup_right; exact ND).
      destruct Hb as [->|Hb], A as [->|A].
      - congruence.
      - exfalso. rewrite E in ND. cbn in ND. inversion ND as [|? ? N1 _]; subst. apply N1. rewrite <- C. eapply main_in_ids; eassumption.
      - exfalso. rewrite B in ND. cbn in ND. inversion ND as [|? ? N1 _]; subst. apply N1. rewrite C. eapply main_in_ids; eassumption.
      - apply IH; assumption. }
    subst d'. intros k Hk. destruct (D k Hk) as (j & X & Y). exists j. split; [exact X|]. apply L. exact Y.
  Qed.

  Definition lost : Prop := exists b d r, In b BL /\ b_branches b = d :: r /\ b_optional b = false /\ ~ sustained declared BL (d_id d).

  (** One pass over the rest [bl] of the blocks. *)
  Lemma pass_ok bl : forall ptr en req changed,
    incl bl BL -> NoDup (main_ids bl) -> lives declared BL en -> Forall2 (agrees en) bl ptr ->
    match pass t known bl ptr en req changed with
    | LOk s =>
        lives declared BL (l_en s) /\ Forall2 (agrees (l_en s)) bl (l_ptr s) /\
        (forall x, l_en s x = true -> en x = true) /\
        (forall x, ~ In x (main_ids bl) -> l_en s x = en x) /\
        (live (l_ptr s) <= live ptr)%nat /\
        (l_changed s = true -> changed = true \/ (live (l_ptr s) < live ptr)%nat) /\
        (l_changed s = false -> changed = false /\ (forall x, l_en s x = en x) /\
           forall b d r, In b bl -> b_branches b = d :: r -> en (d_id d) = true -> all_met declared en d)
    | LEreq _ | LUB => lost
    | _ => False
    end.
  Proof.
    induction bl as [|b bl IH]; intros ptr en req changed Hi Nd Lv Ag; inversion Ag as [|? p ? pt Ab Ag']; subst.
    - cbn [pass l_en l_ptr l_changed]. split; [exact Lv|]. split; [constructor|]. split; [auto|]. split; [auto|]. split; [lia|]. split; [auto|].
      intros ->. split; [reflexivity|]. split; [reflexivity|]. intros b d r [].
    - assert (Hb : In b BL) by (apply Hi; left; reflexivity). assert (Hi' : incl bl BL) by (intros x Hx; apply Hi; right; exact Hx).
      destruct Ab as (d & r & Eb & Ab). cbn [main_ids flat_map] in Nd. rewrite Eb in Nd. cbn [app] in Nd. fold (main_ids bl) in Nd.
      inversion Nd as [|? ? Nd1 Nd2]; subst.
      pose proof (proj1 (Forall_forall _ _) GB b Hb) as (d' & r' & Eb' & Kd). rewrite Eb in Eb'. injection Eb' as <- <-.
      cbn [pass]. destruct Ab as [[-> Fl]|(-> & Fl & Op)].
      + rewrite Eb. destruct (requires_met_ok t known declared Hon en d Kd) as [[M A]|[[m M] A]]; rewrite M.
        * specialize (IH pt en req changed Hi' Nd2 Lv Ag').
          destruct (pass t known bl pt en req changed) as [s| | | |]; try exact IH.
          destruct IH as (I1 & I2 & I3 & I4 & I5 & I6 & I7). cbn [l_en l_ptr l_changed].
          split; [exact I1|]. split.
          { constructor; [|exact I2]. exists d, r. split; [exact Eb|]. left. split; [reflexivity|]. rewrite I4 by exact Nd1. exact Fl. }
          split; [exact I3|]. split.
          { intros x Hx. apply I4. intros Y. apply Hx. cbn [main_ids flat_map]. apply in_app_iff. right. exact Y. }
          unfold live in *. cbn [filter length]. split; [lia|]. split; [intros H; apply I6 in H; destruct H; [auto|right; lia]|].
          intros H. apply I7 in H. destruct H as (J1 & J2 & J3). split; [exact J1|]. split; [exact J2|].
          intros b' d' r' [<-|H] E1 E2; [rewrite Eb in E1; injection E1 as <- <-; exact A|eapply J3; eassumption].
        * destruct (b_optional b) eqn:Op; cbn [negb].
          -- set (en' := set_flag en (d_id d) false).
             assert (Ev : forall x, x <> d_id d -> en' x = en x).
             { intros x Hx. unfold en', set_flag. destruct (x =? d_id d) eqn:Y; [lia|reflexivity]. }
             assert (Ed : en' (d_id d) = false) by (unfold en', set_flag; rewrite N.eqb_refl; reflexivity).
             assert (Lv' : lives declared BL en').
             { intros x Sx. destruct (N.eq_dec x (d_id d)) as [->|Nx]; [|rewrite Ev by exact Nx; apply Lv; exact Sx].
               exfalso. eapply unmet_not_sustained; eassumption. }
             assert (Ag2 : Forall2 (agrees en') bl pt).
             { clear - Ag' Ev Nd1. induction Ag' as [|b p l q (d0 & r0 & E & A) F IH]; [constructor|].
               cbn [main_ids flat_map] in Nd1. rewrite E in Nd1. cbn in Nd1. constructor; [|apply IH; tauto].
               exists d0, r0. split; [exact E|]. rewrite Ev by (intros Y; apply Nd1; left; exact Y). exact A. }
             match goal with |- context [pass t known bl pt en' ?q true] => specialize (IH pt en' q true Hi' Nd2 Lv' Ag2); destruct (pass t known bl pt en' q true) as [s| | | |] end; try exact IH.
             destruct IH as (I1 & I2 & I3 & I4 & I5 & I6 & I7). cbn [l_en l_ptr l_changed].
             split; [exact I1|]. split.
             { constructor; [|exact I2]. exists d, r. split; [exact Eb|]. right. split; [reflexivity|]. split; [rewrite I4 by exact Nd1; exact Ed|exact Op]. }
             split. { intros x Hx. apply I3 in Hx. destruct (N.eq_dec x (d_id d)) as [->|Nx]; [exact Fl|]. rewrite Ev in Hx by exact Nx. exact Hx. }
             split. { intros x Hx. cbn [main_ids flat_map] in Hx. rewrite Eb in Hx. cbn in Hx. rewrite I4 by (intros Y; apply Hx; right; exact Y). apply Ev. intros Y. apply Hx. left. auto. }
             unfold live in *. cbn [filter length]. split; [lia|]. split; [intros _; right; lia|]. intros H. apply I7 in H. destruct H as [H _]. discriminate.
          -- assert (Lo : lost). { exists b, d, r. split; [exact Hb|]. split; [exact Eb|]. split; [exact Op|]. eapply unmet_not_sustained; eassumption. }
             destruct m as [m|]; [exact Lo|]. destruct req; exact Lo.
      + specialize (IH pt en req changed Hi' Nd2 Lv Ag').
        destruct (pass t known bl pt en req changed) as [s| | | |]; try exact IH.
        destruct IH as (I1 & I2 & I3 & I4 & I5 & I6 & I7). cbn [l_en l_ptr l_changed].
        split; [exact I1|]. split.
        { constructor; [|exact I2]. exists d, r. split; [exact Eb|]. right. split; [reflexivity|]. split; [rewrite I4 by exact Nd1; exact Fl|exact Op]. }
        split; [exact I3|]. split.
        { intros x Hx. apply I4. intros Y. apply Hx. cbn [main_ids flat_map]. apply in_app_iff. right. exact Y. }
        unfold live in *. cbn [filter length]. split; [lia|]. split; [intros H; apply I6 in H; destruct H; [auto|right; lia]|].
        intros H. apply I7 in H. destruct H as (J1 & J2 & J3). split; [exact J1|]. split; [exact J2|].
        intros b' d' r' [<-|H] E1 E2; [rewrite Eb in E1; injection E1 as <- <-; congruence|eapply J3; eassumption].
  Qed.

  Lemma passes_ok : forall fuel ptr en req, (live ptr < fuel)%nat -> lives declared BL en -> Forall2 (agrees en) BL ptr ->
    (forall x, en x = true -> In x (main_ids BL)) ->
    match passes fuel t known BL ptr en req with
    | LOk s => lives declared BL (l_en s) /\ Forall2 (agrees (l_en s)) BL (l_ptr s) /\
        (forall x, l_en s x = true -> In x (main_ids BL)) /\ self_supporting declared BL (fun i => l_en s i = true)
    | LEreq _ | LUB => lost
    | _ => False
    end.
  Proof.
    induction fuel as [|fuel IH]; intros ptr en req Hf Lv Ag Mi; [lia|]. cbn [passes].
    pose proof (pass_ok BL ptr en req false (incl_refl _) ND Lv Ag) as P.
    destruct (pass t known BL ptr en req false) as [s| | | |]; try exact P.
    destruct P as (P1 & P2 & P3 & P4 & P5 & P6 & P7). destruct (l_changed s) eqn:C.
    - specialize (P6 eq_refl). apply IH; [destruct P6; [discriminate|lia]|exact P1|exact P2|]. intros x Hx. apply Mi. apply P3. exact Hx.
    - destruct (P7 eq_refl) as (_ & Q & R). split; [exact P1|]. split; [exact P2|]. split; [intros x Hx; apply Mi; apply P3; exact Hx|].
      intros i Hi. rewrite Q in Hi. pose proof (Mi i Hi) as X. unfold main_ids in X. apply in_flat_map in X. destruct X as (b & A & B).
      destruct (b_branches b) as [|d r] eqn:E; [destruct B|]. destruct B as [B|[]]. subst i. exists b, d. split; [exact A|]. split; [exists r; exact E|].
      split; [reflexivity|]. intros k Hk. destruct (R b d r A E Hi k Hk) as (j & X & Y). exists j. split; [exact X|]. rewrite Q. exact Y.
  Qed.
End Loop.

(** Step 4. *)
Definition else_ids (bl : list block) : list N := flat_map (fun b => match b_branches b with _ :: d :: _ => [d_id d] | _ => [] end) bl.
Lemma enable_else_ok bl : forall ptr en en' q, enable_else bl ptr en = (en', q) -> Forall2 (agrees en) bl ptr -> NoDup (all_ids bl) ->
  (forall x, ~ In x (all_ids bl) -> en' x = en x) /\
  (forall b d r, In b bl -> b_branches b = d :: r -> en' (d_id d) = en (d_id d)) /\
  (forall b d e r, In b bl -> b_branches b = d :: e :: r -> en' (d_id e) = negb (en (d_id d)) || en (d_id e)) /\
  (forall b d e r x, In b bl -> b_branches b = d :: e :: r -> In x r -> en' (d_id x) = en (d_id x)).
Proof.
  induction bl as [|b bl IH]; intros ptr en en' q H Ag ND; inversion Ag as [|? p ? pt (d & r & E & A) Ag']; subst; cbn [enable_else] in H.
  - injection H as <- <-. split; [auto|]. split; [|split]; intros; contradiction.
  - cbn in ND. rewrite E in ND. cbn in ND. inversion ND as [|? ? N1 N2]; subst.
    assert (N3 : NoDup (all_ids bl)) by (eapply NoDup_right; exact N2).
    assert (Sub : forall b' (d' : decl) x, In b' bl -> In x (b_branches b') -> In (d_id x) (all_ids bl)).
    { intros b' _ x Hb Hx. unfold all_ids. apply in_flat_map. exists b'. split; [exact Hb|apply in_map; exact Hx]. }
    (* the rest of the list, with flags that may differ in this block only *)
    assert (Main : forall e1, (forall x, ~ In x (map d_id r) -> e1 x = en x) -> forall q', enable_else bl pt e1 = (en', q') ->
      (match r with [] => True | y :: _ => e1 (d_id y) = negb (en (d_id d)) || en (d_id y) end) ->
      (match r with [] => True | _ :: r' => forall x, In x r' -> e1 (d_id x) = en (d_id x) end) ->
      (forall x, ~ In x (all_ids (b :: bl)) -> en' x = en x) /\
      (forall b0 d0 r0, In b0 (b :: bl) -> b_branches b0 = d0 :: r0 -> en' (d_id d0) = en (d_id d0)) /\
      (forall b0 d0 y r0, In b0 (b :: bl) -> b_branches b0 = d0 :: y :: r0 -> en' (d_id y) = negb (en (d_id d0)) || en (d_id y)) /\
      (forall b0 d0 y r0 x, In b0 (b :: bl) -> b_branches b0 = d0 :: y :: r0 -> In x r0 -> en' (d_id x) = en (d_id x))).
    { intros e1 F q' H1 V1 V2.
      assert (Off : forall x, In x (all_ids bl) -> e1 x = en x).
      { intros x Hx. apply F. intros Y. exact (app_no_share _ _ x N2 Y Hx). }
      assert (Ag1 : Forall2 (agrees e1) bl pt).
      { clear - Ag' Off Sub. revert Sub Off. induction Ag' as [|b' p' l l' (d0 & r0 & E0 & A0) F IH]; intros Sub Off; [constructor|]. constructor.
        - exists d0, r0. split; [exact E0|]. rewrite Off; [exact A0|]. apply (Sub b' d0 d0); [left; reflexivity|rewrite E0; left; reflexivity].
        - apply IH.
          + intros b'' d'' x Hb Hx. unfold all_ids. apply in_flat_map. exists b''. split; [exact Hb|apply in_map; exact Hx].
          + intros x Hx. apply Off. unfold all_ids in *. cbn [flat_map]. apply in_app_iff. right. exact Hx. }
      destruct (IH pt e1 en' q' H1 Ag1 N3) as (I1 & I2 & I3 & I4).
      assert (Here : forall x, In x (map d_id (b_branches b)) -> ~ In x (all_ids bl)).
      { intros x Hx. rewrite E in Hx. cbn in Hx. rewrite in_app_iff in N1. destruct Hx as [<-|Hx]; [tauto|]. exact (app_no_share _ _ x N2 Hx). }
      split; [|split; [|split]].
      - intros x Hx. cbn [all_ids flat_map] in Hx. rewrite E in Hx. cbn in Hx. rewrite in_app_iff in Hx. rewrite I1 by tauto. apply F. tauto.
      - intros b0 d0 r0 [<-|Hb] E0.
        + rewrite E in E0. injection E0 as <- <-. rewrite I1 by (apply Here; rewrite E; left; reflexivity). apply F. rewrite in_app_iff in N1. tauto.
        + rewrite (I2 b0 d0 r0 Hb E0). apply Off. apply (Sub b0 d0 d0 Hb). rewrite E0. left. reflexivity.
      - intros b0 d0 y r0 [<-|Hb] E0.
        + rewrite E in E0. injection E0 as <- ->. rewrite I1 by (apply Here; rewrite E; right; left; reflexivity). exact V1.
        + rewrite (I3 b0 d0 y r0 Hb E0). rewrite !Off; [reflexivity|apply (Sub b0 d0 y Hb); rewrite E0; right; left; reflexivity|apply (Sub b0 d0 d0 Hb); rewrite E0; left; reflexivity].
      - intros b0 d0 y r0 x [<-|Hb] E0 Hx.
        + rewrite E in E0. injection E0 as <- ->. rewrite I1 by (apply Here; rewrite E; right; right; apply in_map; exact Hx). apply V2. exact Hx.
        + rewrite (I4 b0 d0 y r0 x Hb E0 Hx). apply Off. apply (Sub b0 d0 x Hb). rewrite E0. right. right. exact Hx. }
    destruct A as [[-> Fl]|(-> & Fl & _)].
    + destruct (enable_else bl pt en) as [e1 q1] eqn:H1. injection H as <- <-.
      apply (Main en (fun x _ => eq_refl) q1 H1); [destruct r; [exact I|rewrite Fl; reflexivity]|destruct r; [exact I|reflexivity]].
    + rewrite E in H. destruct r as [|y r'].
      * destruct (enable_else bl pt en) as [e1 q1] eqn:H1. injection H as <- <-. apply (Main en (fun x _ => eq_refl) q1 H1); exact I.
      * destruct (enable_else bl pt (set_flag en (d_id y) true)) as [e1 q1] eqn:H1. injection H as <- <-.
        apply (Main (set_flag en (d_id y) true)) with (q' := q1); [|exact H1| |].
        -- intros x Hx. unfold set_flag. destruct (x =? d_id y) eqn:Z; [|reflexivity]. exfalso. apply Hx. left. lia.
        -- unfold set_flag. rewrite N.eqb_refl, Fl. reflexivity.
        -- intros x Hx. unfold set_flag. destruct (d_id x =? d_id y) eqn:Z; [|reflexivity]. exfalso.
           cbn in N2. inversion N2 as [|? ? N4 _]; subst. apply N4. apply in_app_iff. left. replace (d_id y) with (d_id x) by lia. apply in_map. exact Hx.
Qed.

(** ** The whole function *)
Section Whole.
  Context (t : table) (known : N -> N -> bool) (declared : symbol -> N -> Prop) (BL : list block) (en0 : N -> bool).
  Context (Hon : honest t declared) (GB : good_blocks known BL) (ND : NoDup (all_ids BL)) (Fresh : forall x, ~ In x (all_ids BL) -> en0 x = false).

  Lemma first_state : exists en ptr, enable_first BL en0 = Some (en, ptr) /\ lives declared BL en /\ Forall2 (agrees en) BL ptr /\
    (forall x, en x = true <-> In x (main_ids BL)) /\ length ptr = length BL.
  Proof.
    destruct (enable_first_ok known BL en0 GB ND) as (en & ptr & A & B & C & D). exists en, ptr. split; [exact A|].
    assert (B' : forall x, en x = true <-> In x (main_ids BL)).
    { intros x. rewrite B. split; [|auto]. intros [H|[H1 H2]]; [exact H|]. rewrite Fresh in H2 by exact H1. discriminate. }
    split; [|split; [|split; [exact B'|exact C]]].
    - intros i (S & H & Hi). apply B'. destruct (H i Hi) as (b & d & Hb & (r & E) & <- & _). eapply main_in_ids; eassumption.
    - assert (G : forall b d r, In b BL -> b_branches b = d :: r -> en (d_id d) = true) by (intros b d r Hb E; apply B'; eapply main_in_ids; eassumption).
      clear - D G. induction D as [|b p l q (d & r & E & ->) F IH]; [constructor|]. constructor.
      + exists d, r. split; [exact E|]. left. split; [reflexivity|]. apply (G b d r); [left; reflexivity|exact E].
      + apply IH. intros b' d' r' Hb. apply G. right. exact Hb.
  Qed.

  Lemma live_len ptr : (live ptr <= length ptr)%nat.
  Proof. unfold live. induction ptr as [|[x|] l IH]; cbn in *; lia. Qed.

  Lemma whole :
    match enable_avrules t known BL en0 with
    | LOk (en, q) => exists en1 ptr, lives declared BL en1 /\ Forall2 (agrees en1) BL ptr /\
        (forall x, en1 x = true -> In x (main_ids BL)) /\ self_supporting declared BL (fun i => en1 i = true) /\
        enable_elses BL ptr en1 = (en, q)
    | LEreq _ | LUB => lost declared BL
    | _ => False
    end.
  Proof.
    destruct first_state as (en & ptr & A & B & C & D & L). unfold enable_avrules. rewrite A.
    pose proof (passes_ok t known declared BL Hon GB (main_ids_nodup BL ND) (S (S (length BL))) ptr en None) as P.
    pose proof (live_len ptr). specialize (P ltac:(lia) B C (fun x H => proj1 (D x) H)).
    destruct (passes _ t known BL ptr en None) as [s| | | |]; try exact P.
    destruct P as (P1 & P2 & P3 & P4). destruct (enable_elses BL (l_ptr s) (l_en s)) as [en' q] eqn:E. exists (l_en s), (l_ptr s). auto.
  Qed.

  Lemma whole_flags en q : enable_avrules t known BL en0 = LOk (en, q) ->
    (forall b d r, In b BL -> b_branches b = d :: r -> (en (d_id d) = true <-> sustained declared BL (d_id d))) /\
    (forall b d r, In b BL -> b_branches b = d :: r -> b_optional b = false -> sustained declared BL (d_id d)) /\
    (forall b d e r, In b (tl BL) -> b_branches b = d :: e :: r -> (en (d_id e) = true <-> ~ sustained declared BL (d_id d))) /\
    (forall b d e r x, In b BL -> b_branches b = d :: e :: r -> In x r -> en (d_id x) = false) /\
    (forall b0 rest d e r, BL = b0 :: rest -> b_branches b0 = d :: e :: r -> en (d_id e) = false).
  Proof.
    intros H. pose proof whole as W. rewrite H in W. destruct W as (en1 & ptr & L & Ag & Mi & Ss & E).
    assert (Sus : forall i, en1 i = true <-> sustained declared BL i).
    { intros i. split; [intros X; exists (fun i => en1 i = true); auto|apply L]. }
    assert (Off : forall b d r x, In b BL -> b_branches b = d :: r -> In x r -> en1 (d_id x) = false).
    { intros b d r x Hb Eb Hx. destruct (en1 (d_id x)) eqn:X; [|reflexivity]. exfalso. apply Mi in X. clear - ND Hb Eb Hx X.
      induction BL as [|y l IH]; [destruct Hb|]. cbn in ND. assert (Nl : NoDup (all_ids l)) by (eapply NoDup_right; exact ND).
      cbn [main_ids flat_map] in X. apply in_app_iff in X. destruct Hb as [->|Hb].
      - rewrite Eb in *. cbn in *. inversion ND as [|? ? N1 N2]; subst. destruct X as [[X|[]]|X].
        + apply N1. apply in_app_iff. left. rewrite X. apply in_map. exact Hx.
        + apply (app_no_share _ _ (d_id x) N2); [apply in_map; exact Hx|]. apply main_ids_sub. exact X.
      - destruct X as [X|X]; [|apply IH; assumption]. destruct (b_branches y) as [|z zs]; [destruct X|]. destruct X as [X|[]].
        assert (In (d_id x) (all_ids l)).
        { unfold all_ids. apply in_flat_map. exists b. split; [exact Hb|]. apply in_map. rewrite Eb. right. exact Hx. }
        cbn in ND. inversion ND as [|? ? N1 _]; subst. apply N1. apply in_app_iff. right. rewrite X. exact H. }
    assert (Man : forall b d r, In b BL -> b_branches b = d :: r -> b_optional b = false -> sustained declared BL (d_id d)).
    { intros b d r Hb Eb Op. apply Sus. clear - Ag Hb Eb Op. induction Ag as [|x p l q' (d0 & r0 & E0 & A0) F IH]; [destruct Hb|].
      destruct Hb as [->|Hb]; [|apply IH; exact Hb]. rewrite Eb in E0. injection E0 as <- <-. destruct A0 as [[_ A]|(_ & _ & A)]; [exact A|congruence]. }
    unfold enable_elses in E. destruct BL as [|b0 rest] eqn:EB.
    { inversion Ag; subst. split; [|split; [|split; [|split]]]; try (intros; contradiction). intros; discriminate. }
    inversion Ag as [|? p0 ? pt A0 Ag']; subst. destruct (enable_else rest pt en1) as [e' q'] eqn:Ee. injection E as -> <-.
    assert (ND' : NoDup (map d_id (b_branches b0) ++ all_ids rest)) by exact ND.
    destruct (enable_else_ok rest pt en1 en q' Ee Ag' (NoDup_right _ _ ND')) as (I1 & I2 & I3 & I4).
    assert (First : forall x, In x (b_branches b0) -> en (d_id x) = en1 (d_id x)).
    { intros x Hx. apply I1. apply (app_no_share _ _ _ ND'). apply in_map. exact Hx. }
    assert (Mn : forall b d r, In b (b0 :: rest) -> b_branches b = d :: r -> en (d_id d) = en1 (d_id d)).
    { intros b d r [<-|Hb] Eb; [apply First; rewrite Eb; left; reflexivity|eapply I2; eassumption]. }
    split; [|split; [exact Man|split; [|split]]].
    - intros b d r Hb Eb. rewrite (Mn b d r Hb Eb). apply Sus.
    - intros b d e r Hb Eb. cbn [tl] in Hb. rewrite (I3 b d e r Hb Eb). rewrite (Off b d (e :: r) e (or_intror Hb) Eb (or_introl eq_refl)), orb_false_r.
      rewrite <- Sus. destruct (en1 (d_id d)); cbn; split; intros X; [discriminate|destruct X; reflexivity|discriminate|reflexivity].
    - intros b d e r x [<-|Hb] Eb Hx.
      + rewrite First by (rewrite Eb; right; right; exact Hx). eapply Off; [left; reflexivity|exact Eb|right; exact Hx].
      + rewrite (I4 b d e r x Hb Eb Hx). eapply Off; [right; exact Hb|exact Eb|right; exact Hx].
    - intros b1 rest1 d e r X Eb. injection X as <- <-. rewrite First by (rewrite Eb; right; left; reflexivity).
      eapply Off; [left; reflexivity|exact Eb|left; reflexivity].
  Qed.

  Lemma whole_success : (exists r, enable_avrules t known BL en0 = LOk r) <->
    (forall b d r, In b BL -> b_branches b = d :: r -> b_optional b = false -> sustained declared BL (d_id d)).
  Proof.
    split.
    - intros [[en q] H]. apply (whole_flags en q H).
    - intros M. pose proof whole as W. destruct (enable_avrules t known BL en0) as [[en q]| | | |]; [eexists; reflexivity| |destruct W| |destruct W];
        destruct W as (b & d & r & A & B & C & D); exfalso; apply D; eapply M; eassumption.
  Qed.
  (** The branch each block points to in the end. *)
  Lemma whole_pointers en q : enable_avrules t known BL en0 = LOk (en, q) ->
    (forall b0 rest d r, BL = b0 :: rest -> b_branches b0 = d :: r -> sustained declared BL (d_id d) ->
       exists q', q = Some (d_id d) :: q') /\
    Forall2 (fun b p => exists d r, b_branches b = d :: r /\
       (sustained declared BL (d_id d) -> p = Some (d_id d)) /\
       (~ sustained declared BL (d_id d) -> p = match r with [] => None | e :: _ => Some (d_id e) end)) (tl BL) (tl q).
  Proof.
    intros H. pose proof whole as W. rewrite H in W. destruct W as (en1 & ptr & L & Ag & Mi & Ss & E).
    assert (Sus : forall i, en1 i = true <-> sustained declared BL i).
    { intros i. split; [intros X; exists (fun i => en1 i = true); auto|apply L]. }
    clear H L Mi Ss. unfold enable_elses in E. destruct BL as [|b0 rest].
    { inversion Ag; subst. injection E as <- <-. split; [intros; discriminate|constructor]. }
    inversion Ag as [|? p0 ? pt A0 Ag']; subst. destruct (enable_else rest pt en1) as [e' q'] eqn:Ee. injection E as -> <-.
    cbn [tl]. split.
    - intros b1 rest1 d r X Eb S. injection X as <- <-. exists q'. destruct A0 as (d0 & r0 & E0 & A). rewrite Eb in E0. injection E0 as <- <-.
      apply Sus in S. destruct A as [(-> & _)|(_ & A & _)]; [reflexivity|congruence].
    - assert (G : forall bl pt q' ea, enable_else bl pt ea = (en, q') -> Forall2 (agrees en1) bl pt ->
        Forall2 (fun b p => exists d r, b_branches b = d :: r /\
          (sustained declared (b0 :: rest) (d_id d) -> p = Some (d_id d)) /\
          (~ sustained declared (b0 :: rest) (d_id d) -> p = match r with [] => None | e :: _ => Some (d_id e) end)) bl q').
      { clear - Sus. intros bl pt q' ea Ee Ag. revert q' ea Ee. induction Ag as [|b p bl pt (d & r & Eb & A) Ag IH]; intros q' ea Ee; cbn [enable_else] in Ee.
        - injection Ee as <- <-. constructor.
        - destruct A as [(-> & A)|(-> & A & _)].
          + destruct (enable_else bl pt ea) as [e1 q1] eqn:E1. injection Ee as -> <-. constructor; [|eapply IH; exact E1].
            exists d, r. split; [exact Eb|]. split; [reflexivity|]. intros NS. destruct NS. apply Sus. exact A.
          + assert (NS : ~ sustained declared (b0 :: rest) (d_id d)) by (intros S; apply Sus in S; congruence).
            rewrite Eb in Ee. destruct r as [|y r].
            * destruct (enable_else bl pt ea) as [e1 q1] eqn:E1. injection Ee as -> <-. constructor; [|eapply IH; exact E1].
              exists d, []. split; [exact Eb|]. split; [intros S; contradiction|reflexivity].
            * destruct (enable_else bl pt (set_flag ea (d_id y) true)) as [e1 q1] eqn:E1. injection Ee as -> <-. constructor; [|eapply IH; exact E1].
              exists d, (y :: r). split; [exact Eb|]. split; [intros S; contradiction|reflexivity]. }
      exact (G rest pt q' en1 Ee Ag').
  Qed.
End Whole.
