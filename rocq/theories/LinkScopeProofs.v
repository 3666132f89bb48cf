(** Proofs about scope tables. *)
From Verif Require Import Base MlsModel ContextModel LinkModel LinkSpec.

Lemma sym_eqb_eq a b : sym_eqb a b = true <-> a = b.
Proof.
  unfold sym_eqb. destruct a as [a1 a2], b as [b1 b2]. cbn. rewrite andb_true_iff, !N.eqb_eq. split; [intros [-> ->]; reflexivity|intros E; injection E; auto].
Qed.
Lemma swap_last_app l x y : swap_last (l ++ [x; y]) = l ++ [y; x].
Proof. unfold swap_last. rewrite rev_app_distr. cbn. rewrite <- app_assoc. rewrite rev_involutive. reflexivity. Qed.

Lemma compile_app h h' : forall t, compile t (h ++ h') = match compile t h with Some t' => compile t' h' | None => None end.
Proof. induction h as [|e h IH]; intros t; [reflexivity|]. cbn [app compile]. destruct (compile_event t e); [apply IH|reflexivity]. Qed.

Definition no_table : table := fun _ => None.
Definition role_like (k : symbol) : bool := (fst k =? SYM_ROLES) || (fst k =? SYM_USERS).

Lemma declares_snoc h e k b : declares (h ++ [e]) k b <-> declares h k b \/ (e_sym e = k /\ e_decl e = true /\ e_block e = b).
Proof.
  unfold declares. split.
  - intros (a & H). apply in_app_iff in H. destruct H as [H|[H|[]]]; [left; exists a; exact H|right; rewrite H; auto].
  - intros [(a & H)|(A & B & C)]; [exists a; apply in_app_iff; auto|]. exists (e_attr e). apply in_app_iff. right. left.
    destruct e; cbn in *; subst; reflexivity.
Qed.
Lemma requires_snoc h e k b : requires (h ++ [e]) k b <-> requires h k b \/ (e_sym e = k /\ e_decl e = false /\ e_block e = b).
Proof.
  unfold requires. split.
  - intros (a & H). apply in_app_iff in H. destruct H as [H|[H|[]]]; [left; exists a; exact H|right; rewrite H; auto].
  - intros [(a & H)|(A & B & C)]; [exists a; apply in_app_iff; auto|]. exists (e_attr e). apply in_app_iff. right. left.
    destruct e; cbn in *; subst; reflexivity.
Qed.
Lemma orderly_snoc k h e : orderly k (h ++ [e]) -> orderly k h /\ (e_sym e = k -> e_decl e = true -> ~ requires h k (e_block e)).
Proof.
  intros O. split.
  - intros h1 h2 a b E. apply (O h1 (h2 ++ [e]) a b). rewrite E, <- app_assoc. reflexivity.
  - intros A B. apply (O h [] (e_attr e) (e_block e)). destruct e; cbn in *; subst; reflexivity.
Qed.

(** What a scope entry says about the source. *)
Definition entry_ok (k : symbol) (h : source) (s : scope) : Prop :=
  (sc_decl s = true <-> exists b, declares h k b) /\ sc_ids s <> [] /\
  (forall b, In b (sc_ids s) <-> declares h k b \/ requires h k b) /\
  (orderly k h -> role_like k = false -> sc_decl s = true ->
     exists l x, sc_ids s = l ++ [x] /\ forall b, declares h k b <-> b = x).
Definition table_ok (k : symbol) (h : source) (o : option scope) : Prop :=
  match o with None => forall b, ~ declares h k b /\ ~ requires h k b | Some s => entry_ok k h s end.

Lemma existsb_in id l : existsb (N.eqb id) l = true <-> In id l.
Proof.
  rewrite existsb_exists. split; [intros (x & H & E); apply N.eqb_eq in E; subst; exact H|intros H; exists id; split; [exact H|apply N.eqb_refl]].
Qed.

Lemma last_split (l : list N) : l <> [] -> exists m x, l = m ++ [x].
Proof. intros H. destruct (exists_last H) as (m & x & E). exists m, x. exact E. Qed.

Lemma insert_ok h e s s' rc : table_ok (e_sym e) h s ->
  scope_insert (fst (e_sym e)) s (e_attr e) (e_decl e) (e_block e) = (s', rc) -> (0 <= rc)%Z ->
  table_ok (e_sym e) (h ++ [e]) s'.
Proof.
  intros T H R. set (k := e_sym e) in *. unfold scope_insert in H. destruct s as [s|].
  2: { injection H as <- <-. cbn. unfold entry_ok. cbn [sc_decl sc_ids].
       assert (ND : forall b, ~ declares h k b) by (intros b; apply T). assert (NR : forall b, ~ requires h k b) by (intros b; apply T).
       split; [|split; [discriminate|split]].
       - split; [intros D; exists (e_block e); apply declares_snoc; right; auto|].
         intros (b & D). apply declares_snoc in D. destruct D as [D|(_ & D & _)]; [destruct (ND b D)|exact D].
       - intros b. rewrite declares_snoc, requires_snoc. split.
         + intros [<-|[]]. destruct (e_decl e) eqn:E; [left; right; auto|right; right; auto].
         + intros [[D|(_ & _ & ->)]|[D|(_ & _ & ->)]]; [destruct (ND b D)|left; reflexivity|destruct (NR b D)|left; reflexivity].
       - intros _ _ D. exists [], (e_block e). split; [reflexivity|]. intros b. rewrite declares_snoc. split.
         + intros [X|(_ & _ & X)]; [destruct (ND b X)|auto].
         + intros ->. right. auto. }
  destruct T as (D & Ne & I & L). fold (role_like k) in H.
  destruct (sc_decl s && e_decl e && negb (role_like k)) eqn:C1; [injection H as <- <-; lia|].
  destruct (sc_decl s && e_decl e && (fst k =? SYM_ROLES) && _) eqn:C2; [injection H as <- <-; lia|].
  assert (Dn : sc_decl s || e_decl e = true <-> exists b, declares (h ++ [e]) k b).
  { rewrite orb_true_iff, D. split.
    - intros [(b & X)|X]; [exists b; apply declares_snoc; auto|exists (e_block e); apply declares_snoc; auto].
    - intros (b & X). apply declares_snoc in X. destruct X as [X|(_ & X & _)]; [left; exists b; exact X|right; exact X]. }
  assert (In' : forall b, (In b (sc_ids s) \/ b = e_block e) <-> declares (h ++ [e]) k b \/ requires (h ++ [e]) k b).
  { intros b. rewrite declares_snoc, requires_snoc, I. split.
    - intros [[X|X]| ->]; auto. destruct (e_decl e) eqn:E; [left; right; auto|right; right; auto].
    - intros [[X|(_ & _ & X)]|[X|(_ & _ & X)]]; auto. }
  (* the declaring block after an event, if it was not declared twice *)
  assert (Dl : role_like k = false -> sc_decl s = true -> e_decl e = false).
  { intros E1 E2. rewrite E1, E2 in C1. destruct (e_decl e); [discriminate|reflexivity]. }
  destruct (existsb (N.eqb (e_block e)) (sc_ids s)) eqn:X.
  - injection H as <- <-. apply existsb_in in X. unfold table_ok, entry_ok. cbn [sc_decl sc_ids].
    split; [exact Dn|]. split; [exact Ne|]. split.
    + intros b. rewrite <- In'. split; [auto|intros [Y| ->]; [exact Y|exact X]].
    + intros O Rl Dt. apply orderly_snoc in O. destruct O as [O1 O2].
      destruct (sc_decl s) eqn:Sd.
      * destruct (L O1 Rl eq_refl) as (l & x & E & U). exists l, x. split; [exact E|]. intros b. rewrite declares_snoc, U.
        rewrite (Dl Rl eq_refl). split; [intros [Y|(_ & Y & _)]; [exact Y|discriminate]|auto].
      * cbn [orb] in Dt. exfalso. apply I in X. destruct X as [X|X].
        -- assert (Y : false = true) by (apply D; exists (e_block e); exact X). discriminate.
        -- exact (O2 eq_refl Dt X).
  - assert (Ni : ~ In (e_block e) (sc_ids s)) by (intros Y; apply existsb_in in Y; congruence). clear X.
    destruct (last_split (sc_ids s) Ne) as (m & y & Em).
    destruct ((sc_decl s || e_decl e) && negb (e_decl e)) eqn:C3.
    + apply andb_true_iff in C3. destruct C3 as [Cd Cn]. apply negb_true_iff in Cn. rewrite Cn, orb_false_r in Cd.
      destruct (Nat.ltb (length (sc_ids s ++ [e_block e])) 2) eqn:C4; [injection H as <- <-; lia|].
      injection H as <- <-. rewrite Em, <- app_assoc. cbn [app]. rewrite swap_last_app.
      unfold table_ok, entry_ok. cbn [sc_decl sc_ids]. split; [exact Dn|]. split; [destruct m; discriminate|]. split.
      * intros b. rewrite <- In', Em, !in_app_iff. cbn [In]. intuition auto.
      * intros O Rl _. apply orderly_snoc in O. destruct O as [O1 _]. destruct (L O1 Rl Cd) as (l & x & E & U).
        assert (Xy : x = y) by (rewrite Em in E; apply app_inj_tail in E; destruct E; auto). subst x.
        exists (m ++ [e_block e]), y. split; [rewrite <- app_assoc; reflexivity|].
        intros b. rewrite declares_snoc, U, Cn. split; [intros [Y|(_ & Y & _)]; [exact Y|discriminate]|auto].
    + injection H as <- <-. unfold table_ok, entry_ok. cbn [sc_decl sc_ids]. split; [exact Dn|]. split; [destruct (sc_ids s); discriminate|]. split.
      * intros b. rewrite <- In', in_app_iff. cbn [In]. intuition auto.
      * intros O Rl Dt. exists (sc_ids s), (e_block e). split; [reflexivity|].
        destruct (e_decl e) eqn:Ed.
        -- assert (Sd : sc_decl s = false) by (destruct (sc_decl s); [specialize (Dl Rl eq_refl); discriminate|reflexivity]).
           intros b. rewrite declares_snoc. split.
           ++ intros [Y|(_ & _ & Y)]; [|auto]. assert (Z : sc_decl s = true) by (apply D; exists b; exact Y). congruence.
           ++ intros ->. right. auto.
        -- rewrite orb_false_r in Dt. rewrite Dt in C3. discriminate.
Qed.

Lemma compile_ok k h : forall t, compile no_table h = Some t -> table_ok k h (t k).
Proof.
  induction h as [|e h IH] using rev_ind; intros t H.
  - injection H as <-. cbn. intros b. split; intros (a & []).
  - rewrite compile_app in H. destruct (compile no_table h) as [t0|] eqn:E; [|discriminate]. cbn [compile] in H.
    specialize (IH t0 eq_refl). unfold compile_event in H.
    destruct (scope_insert _ _ _ _ _) as [s' rc] eqn:Si. destruct (rc <? 0)%Z eqn:R; [discriminate|]. injection H as <-.
    unfold table_set. destruct (sym_eqb k (e_sym e)) eqn:K.
    + apply sym_eqb_eq in K. subst k. eapply insert_ok; [exact IH|exact Si|lia].
    + assert (Kn : e_sym e <> k) by (intros X; subst k; rewrite (proj2 (sym_eqb_eq _ _) eq_refl) in K; discriminate).
      assert (X1 : forall b, declares (h ++ [e]) k b <-> declares h k b) by (intros b; rewrite declares_snoc; tauto).
      assert (X2 : forall b, requires (h ++ [e]) k b <-> requires h k b) by (intros b; rewrite requires_snoc; tauto).
      destruct (t0 k) as [s|]; cbn in *.
      * destruct IH as (D & Ne & I & L). split; [|split; [exact Ne|split]].
        -- rewrite D. split; intros (b & Y); exists b; apply X1; exact Y.
        -- intros b. rewrite X1, X2. apply I.
        -- intros O Rl Sd. apply orderly_snoc in O. destruct (L (proj1 O) Rl Sd) as (l & x & E1 & U). exists l, x.
           split; [exact E1|]. intros b. rewrite X1. apply U.
      * intros b. rewrite X1, X2. apply IH.
Qed.

(** ** Linking *)

(** What the linked entry says, given which blocks declare the symbol. *)
Definition linked_ok (k : symbol) (declared : N -> Prop) (o : option scope) : Prop :=
  match o with
  | None => forall b, ~ declared b
  | Some s =>
      (sc_decl s = true <-> exists b, declared b) /\
      (sc_decl s = true -> sc_ids s <> [] /\
         if role_like k then forall b, In b (sc_ids s) <-> declared b
         else exists l x, sc_ids s = l ++ [x] /\ forall b, declared b <-> b = x)
  end.

Definition good_source (k : symbol) (h : source) : Prop :=
  if role_like k then own_blocks_only k h else orderly k h.

Lemma linked_start k h o : good_source k h -> table_ok k h o -> linked_ok k (declares h k) o.
Proof.
  intros G T. destruct o as [s|]; cbn in *; [|intros b; apply T].
  destruct T as (D & Ne & I & L). split; [exact D|]. intros Sd. split; [exact Ne|]. unfold good_source in G.
  destruct (role_like k) eqn:R; [|apply L; auto].
  intros b. rewrite I. split; [|auto]. intros [X|X]; [exact X|]. apply D in Sd. destruct Sd as [c C]. exact (G c b C X).
Qed.

Lemma linked_step k (P : N -> Prop) f h o m o' : good_source k h -> table_ok k h m -> linked_ok k P o ->
  scope_copy (fst k) f o m = Some o' ->
  linked_ok k (fun b => P b \/ exists c, declares h k c /\ b = f c) o'.
Proof.
  intros G T B H. unfold scope_copy in H. destruct m as [m|].
  2: { injection H as <-. assert (N : forall c, ~ declares h k c) by (intros c; apply T).
       assert (X : forall b, (P b \/ exists c, declares h k c /\ b = f c) <-> P b).
       { intros b. split; [intros [Y|(c & Y & _)]; [exact Y|destruct (N c Y)]|auto]. }
       destruct o as [s|]; cbn in *; [|intros b; rewrite X; apply B].
       destruct B as [D L]. split; [rewrite D; split; intros (b & Y); exists b; apply X; exact Y|].
       intros Sd. destruct (L Sd) as [Ne L']. split; [exact Ne|]. destruct (role_like k).
       - intros b. rewrite X. apply L'.
       - destruct L' as (l & x & E & U). exists l, x. split; [exact E|]. intros b. rewrite X. apply U. }
  pose proof (linked_start k h (Some m) G T) as M. cbn in M. destruct M as [Dm Lm].
  set (b0 := match o with Some b => b | None => mkScope false [] (sc_attr m) end) in *.
  assert (Db : sc_decl b0 = true <-> exists b, P b).
  { destruct o as [s|]; cbn in *; [apply B|]. split; [discriminate|intros (b & Y); destruct (B b Y)]. }
  assert (Lb : sc_decl b0 = true -> sc_ids b0 <> [] /\
     if role_like k then forall b, In b (sc_ids b0) <-> P b
     else exists l x, sc_ids b0 = l ++ [x] /\ forall b, P b <-> b = x).
  { destruct o as [s|]; cbn in *; [apply B|discriminate]. }
  clearbody b0. clear B. fold (role_like k) in H.
  destruct (sc_decl b0) eqn:S1; destruct (sc_decl m) eqn:S2; cbn [negb andb] in H.
  - (* declared on both sides *)
    destruct (role_like k) eqn:R; [|discriminate]. cbn [negb] in H. injection H as <-. unfold linked_ok; cbn [sc_decl sc_ids]; rewrite ?R.
    destruct (Lb eq_refl) as [Ne1 I1]. destruct (Lm eq_refl) as [Ne2 I2]. split; [|intros _; split].
    + split; [intros _|reflexivity]. destruct (proj1 Db eq_refl) as [b Y]. exists b. auto.
    + destruct (sc_ids b0); [contradiction|discriminate].
    + intros b. rewrite in_app_iff, I1, in_map_iff. split.
      * intros [Y|(c & <- & Y)]; [auto|]. right. exists c. split; [apply I2; exact Y|reflexivity].
      * intros [Y|(c & Y & ->)]; [auto|]. right. exists c. split; [reflexivity|apply I2; exact Y].
  - (* only in the base *)
    injection H as <-. unfold linked_ok; cbn [sc_decl sc_ids]; rewrite ?S1.
    assert (N : forall c, ~ declares h k c) by (intros c Y; assert (false = true) by (apply Dm; exists c; exact Y); discriminate).
    assert (X : forall b, (P b \/ exists c, declares h k c /\ b = f c) <-> P b).
    { intros b. split; [intros [Y|(c & Y & _)]; [exact Y|destruct (N c Y)]|auto]. }
    split; [split; [intros _; destruct (proj1 Db eq_refl) as [b Y]; exists b; auto|reflexivity]|]. intros _.
    destruct (Lb eq_refl) as [Ne L']. split; [exact Ne|]. destruct (role_like k).
    + intros b. rewrite X. apply L'.
    + destruct L' as (l & x & E & U). exists l, x. split; [exact E|]. intros b. rewrite X. apply U.
  - (* only in the module *)
    injection H as <-. unfold linked_ok; cbn [sc_decl sc_ids]; rewrite ?R.
    assert (N : forall c, ~ P c) by (intros c Y; assert (false = true) by (apply Db; exists c; exact Y); discriminate).
    destruct (Lm eq_refl) as [Ne L']. split; [|intros _; split].
    + split; [intros _|reflexivity]. destruct (proj1 Dm eq_refl) as [c Y]. exists (f c). right. exists c. auto.
    + destruct (sc_ids m); [contradiction|discriminate].
    + destruct (role_like k).
      * intros b. rewrite in_map_iff. split.
        -- intros (c & <- & Y). right. exists c. split; [apply L'; exact Y|reflexivity].
        -- intros [Y|(c & Y & ->)]; [destruct (N b Y)|]. exists c. split; [reflexivity|apply L'; exact Y].
      * destruct L' as (l & x & E & U). exists (map f l), (f x). split; [rewrite E, map_app; reflexivity|]. intros b. split.
        -- intros [Y|(c & Y & ->)]; [destruct (N b Y)|]. apply U in Y. subst c. reflexivity.
        -- intros ->. right. exists x. split; [apply U; reflexivity|reflexivity].
  - (* nowhere *)
    injection H as <-. unfold linked_ok; cbn [sc_decl sc_ids]; rewrite ?R.
    assert (N : forall c, ~ P c) by (intros c Y; assert (false = true) by (apply Db; exists c; exact Y); discriminate).
    assert (N' : forall c, ~ declares h k c) by (intros c Y; assert (false = true) by (apply Dm; exists c; exact Y); discriminate).
    split; [|discriminate]. split; [discriminate|]. intros (b & [Y|(c & Y & _)]); [destruct (N b Y)|destruct (N' c Y)].
Qed.

Lemma linked_ext k P Q o : (forall b, P b <-> Q b) -> linked_ok k P o -> linked_ok k Q o.
Proof.
  intros E. destruct o as [s|]; cbn; [|intros H b; rewrite <- E; apply H].
  intros [D L]. split; [rewrite D; split; intros (b & Y); exists b; apply E; exact Y|]. intros Sd. destruct (L Sd) as [Ne L']. split; [exact Ne|].
  destruct (role_like k); [intros b; rewrite <- E; apply L'|]. destruct L' as (l & x & E1 & U). exists l, x. split; [exact E1|].
  intros b. rewrite <- E. apply U.
Qed.

(** [entries]: the compiled entries of the modules. *)
Lemma link_ok k mods : forall P o r entries, linked_ok k P o ->
  Forall (fun m => good_source k (snd m)) mods ->
  Forall2 (fun m e => fst e = fst m /\ table_ok k (snd m) (snd e)) mods entries ->
  link_scope (fst k) o entries = Some r ->
  linked_ok k (fun b => P b \/ exists f h c, In (f, h) mods /\ declares h k c /\ b = f c) r.
Proof.
  induction mods as [|[f h] mods IH]; intros P o r entries B G F H; inversion F as [|? [g m] ? es [E1 T] F']; subst; cbn [link_scope] in H.
  - injection H as <-. revert B. apply linked_ext. intros b. split; [auto|]. intros [Y|(f & h & c & [] & _)]. exact Y.
  - cbn in E1, T. subst g. inversion G as [|? ? G1 G2]; subst. cbn in G1.
    destruct (scope_copy (fst k) f o m) as [o'|] eqn:Sc; [|discriminate].
    specialize (IH _ o' r es (linked_step k P f h o m o' G1 T B Sc) G2 F' H). revert IH. apply linked_ext. intros b. split.
    + intros [[Y|(c & Y & ->)]|(f' & h' & c & I & Y)]; [auto|right; exists f, h, c; split; [left; reflexivity|auto]|].
      right. exists f', h', c. split; [right; exact I|exact Y].
    + intros [Y|(f' & h' & c & [I|I] & Y & ->)]; [auto| |right; exists f', h', c; auto].
      injection I as <- <-. left. right. exists c. auto.
Qed.

Lemma id_enabled_ok k P t en : linked_ok k P (t k) -> (id_enabled t en k = true <-> exists b, P b /\ en b = true).
Proof.
  unfold id_enabled. intros H. destruct (t k) as [s|]; cbn in H.
  2: { split; [discriminate|intros (b & Y & _); destruct (H b Y)]. }
  destruct H as [D L]. destruct (sc_decl s) eqn:Sd; cbn [negb].
  2: { split; [discriminate|]. intros (b & Y & _). apply D. exists b. exact Y. }
  destruct (L eq_refl) as [Ne L']. destruct (sc_ids s) as [|x l] eqn:E; [contradiction|]. fold (role_like k).
  destruct (role_like k).
  - rewrite existsb_exists. split; intros (b & Y & Z); exists b; (split; [apply L'; exact Y|exact Z]).
  - destruct L' as (m & y & E1 & U). assert (X : last l x = y).
    { destruct l as [|z l]; [destruct m as [|? [|]]; cbn in E1 |- *; congruence|].
      assert (E2 : last (x :: z :: l) x = last (m ++ [y]) x) by (rewrite E1; reflexivity). rewrite last_last in E2. exact E2. }
    rewrite X. split; [intros Z; exists y; split; [apply U; reflexivity|exact Z]|]. intros (b & Y & Z). apply U in Y. subst b. exact Z.
Qed.

Lemma tidy_good k h : tidy k h -> good_source k h.
Proof.
  intros [A B]. unfold good_source, role_like, SYM_ROLES, SYM_USERS. destruct ((fst k =? 2) || (fst k =? 4)) eqn:E.
  - apply A. apply orb_true_iff in E. lia.
  - apply orb_false_iff in E. apply B; lia.
Qed.

Lemma entries_ok k (mods : list ((N -> N) * source)) (cs : list table) : Forall2 (fun m c => compile (fun _ => None) (snd m) = Some c) mods cs ->
  Forall2 (fun m e => fst e = fst m /\ table_ok k (snd m) (snd e)) mods (map (fun p => (fst (fst p), snd p k)) (combine mods cs)).
Proof.
  intros F. induction F as [|m c ms cs E F IH]; [constructor|]. cbn. constructor; [|exact IH]. cbn. split; [reflexivity|].
  apply compile_ok. exact E.
Qed.

Lemma linked_present base mods t k en : linked_table base mods t -> tidy k base -> Forall (fun m => tidy k (snd m)) mods ->
  (id_enabled t en k = true <-> exists b, linked_declares base mods k b /\ en b = true).
Proof.
  intros (t0 & cs & C & Cs & L) G Gs. specialize (L k).
  pose proof (link_ok k mods (declares base k) (t0 k) (t k) _
    (linked_start k base (t0 k) (tidy_good k base G) (compile_ok k base t0 C))
    ltac:(revert Gs; apply Forall_impl; intros m; apply tidy_good) (entries_ok k mods cs Cs) L) as K.
  exact (id_enabled_ok k _ t en K).
Qed.

(** Roles and users, without a condition: a declaring block keeps the symbol present. *)
Definition linked_in (P : N -> Prop) (o : option scope) : Prop :=
  forall b, P b -> exists s, o = Some s /\ sc_decl s = true /\ In b (sc_ids s).

Lemma in_start k h o : table_ok k h o -> linked_in (declares h k) o.
Proof.
  intros T b D. destruct o as [s|]; [|destruct (T b) as [X _]; destruct (X D)].
  destruct T as (A & _ & I & _). exists s. split; [reflexivity|]. split; [apply A; exists b; exact D|]. apply I. left. exact D.
Qed.
Lemma in_step k (P : N -> Prop) f h o m o' : table_ok k h m -> linked_in P o -> (match o with Some s => sc_decl s = true -> exists b, P b | None => True end) ->
  scope_copy (fst k) f o m = Some o' ->
  linked_in (fun b => P b \/ exists c, declares h k c /\ b = f c) o' /\
  (match o' with Some s => sc_decl s = true -> exists b, P b \/ exists c, declares h k c /\ b = f c | None => True end).
Proof.
  intros T B Dd H. pose proof (in_start k h m T) as M. unfold scope_copy in H. destruct m as [m|].
  2: { injection H as <-. split.
       - intros b [X|(c & X & _)]; [apply B; exact X|]. destruct (M c X) as (s & E & _). discriminate.
       - destruct o as [s|]; [|exact I]. intros S. destruct (Dd S) as [b X]. exists b. auto. }
  assert (Mm : forall c, declares h k c -> sc_decl m = true /\ In c (sc_ids m)).
  { intros c X. destruct (M c X) as (s & E & A). injection E as <-. exact A. }
  assert (Md : sc_decl m = true -> exists c, declares h k c) by apply T.
  destruct o as [s|].
  - assert (Bb : forall b, P b -> sc_decl s = true /\ In b (sc_ids s)).
    { intros b X. destruct (B b X) as (s' & E & A). injection E as <-. exact A. }
    destruct (sc_decl s) eqn:S1; destruct (sc_decl m) eqn:S2; cbn [negb andb] in H.
    + destruct (negb _); [discriminate|]. injection H as <-. split.
      * intros b [X|(c & X & ->)]; eexists; (split; [reflexivity|]); (split; [reflexivity|]); cbn; apply in_app_iff.
        -- left. apply Bb. exact X.
        -- right. apply in_map. apply Mm. exact X.
      * intros _. destruct (Dd eq_refl) as [b X]. exists b. auto.
    + injection H as <-. split.
      * intros b [X|(c & X & _)]; [|destruct (Mm c X); discriminate]. exists s. split; [reflexivity|]. split; [exact S1|]. apply Bb. exact X.
      * intros _. destruct (Dd eq_refl) as [b X]. exists b. auto.
    + injection H as <-. split.
      * intros b [X|(c & X & ->)]; [destruct (Bb b X); discriminate|]. eexists. split; [reflexivity|]. split; [reflexivity|]. cbn. apply in_map. apply Mm. exact X.
      * intros _. destruct (Md eq_refl) as [c X]. exists (f c). right. exists c. auto.
    + injection H as <-. split; [|cbn; discriminate].
      intros b [X|(c & X & _)]; [destruct (Bb b X); discriminate|destruct (Mm c X); discriminate].
  - cbn [sc_decl negb andb] in H. assert (NP : forall b, ~ P b) by (intros b X; destruct (B b X) as (s & E & _); discriminate).
    destruct (sc_decl m) eqn:S2; cbn [negb] in H.
    + injection H as <-. split.
      * intros b [X|(c & X & ->)]; [destruct (NP b X)|]. eexists. split; [reflexivity|]. split; [reflexivity|]. cbn. apply in_map. apply Mm. exact X.
      * intros _. destruct (Md eq_refl) as [c X]. exists (f c). right. exists c. auto.
    + injection H as <-. split; [|cbn; discriminate].
      intros b [X|(c & X & _)]; [destruct (NP b X)|destruct (Mm c X); discriminate].
Qed.

Lemma in_link k mods : forall (P : N -> Prop) o r entries, linked_in P o -> (match o with Some s => sc_decl s = true -> exists b, P b | None => True end) ->
  Forall2 (fun m e => fst e = fst m /\ table_ok k (snd m) (snd e)) mods entries ->
  link_scope (fst k) o entries = Some r ->
  linked_in (fun b => P b \/ exists f h c, In (f, h) mods /\ declares h k c /\ b = f c) r.
Proof.
  induction mods as [|[f h] mods IH]; intros P o r entries B D F H; inversion F as [|? [g m] ? es [E1 T] F']; subst; cbn [link_scope] in H.
  - injection H as <-. intros b [X|(f & h & c & [] & _)]. apply B. exact X.
  - cbn in E1, T. subst g. destruct (scope_copy (fst k) f o m) as [o'|] eqn:Sc; [|discriminate].
    destruct (in_step k P f h o m o' T B D Sc) as [B' D'].
    specialize (IH _ o' r es B' D' F' H). intros b X. apply IH.
    destruct X as [X|(f' & h' & c & [E|I] & X & ->)]; [auto| |right; exists f', h', c; auto].
    injection E as <- <-. left. right. exists c. auto.
Qed.

Lemma linked_present_roles base mods t k en b : linked_table base mods t -> fst k = 2 \/ fst k = 4 ->
  linked_declares base mods k b -> en b = true -> id_enabled t en k = true.
Proof.
  intros (t0 & cs & C & Cs & L) R D En. specialize (L k). pose proof (compile_ok k base t0 C) as T0.
  assert (X : match t0 k with Some s => sc_decl s = true -> exists b, declares base k b | None => True end).
  { destruct (t0 k) as [s|]; [apply T0|exact I]. }
  destruct (in_link k mods _ _ _ _ (in_start k base (t0 k) T0) X (entries_ok k mods cs Cs) L b D) as (s & E & Sd & In1).
  unfold id_enabled. rewrite E, Sd. cbn [negb]. destruct (sc_ids s) as [|x l] eqn:Ei; [destruct In1|].
  assert (Rr : (fst k =? SYM_ROLES) || (fst k =? SYM_USERS) = true) by (unfold SYM_ROLES, SYM_USERS; apply orb_true_iff; lia). rewrite Rr.
  apply existsb_exists. exists b. split; [rewrite <- Ei; rewrite Ei; exact In1|exact En].
Qed.

(** A source that has all its declarations first is orderly. *)
Lemma decls_first k r : Forall (fun e => e_decl e = false) r -> forall d, Forall (fun e => e_decl e = true) d -> orderly k (d ++ r).
Proof.
  intros Fr d Fd h1 h2 a b E [a' R]. revert h1 E R. induction Fd as [|e d He Fd IH]; intros h1 E R.
  - cbn in E. assert (X : In (mkE k a true b) r) by (rewrite E; apply in_app_iff; right; left; reflexivity).
    pose proof (proj1 (Forall_forall _ _) Fr _ X). discriminate.
  - destruct h1 as [|e' h1]; [destruct R|]. cbn in E. injection E as <- E. destruct R as [->|R]; [discriminate|]. exact (IH h1 E R).
Qed.
