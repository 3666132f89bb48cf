(** Proofs about the login mapping. *)
From Verif Require Import Base MlsModel ContextModel LoginModel LoginSpec.
From Verif Require ContextProofs.

(** ** Characters, lines, strings *)

Lemma isspace_blank c : isspace c = true <-> blank c.
Proof. unfold isspace, blank. lia. Qed.

Lemma notspace_blank c : negb (isspace c) = true <-> ~ blank c.
Proof. rewrite <- isspace_blank. destruct (isspace c); cbn; intuition congruence. Qed.

Lemma span_spec f s a b : span f s = (a, b) ->
  s = a ++ b /\ Forall (fun c => f c = true) a /\ match b with [] => True | c :: _ => f c = false end.
Proof.
  revert a b; induction s as [|c t IH]; intros a b; cbn [span].
  - intros [= <- <-]. split; [reflexivity|]. split; [constructor|exact I].
  - destruct (f c) eqn:E.
    + destruct (span f t) as [a' b'] eqn:E2. intros [= <- <-].
      destruct (IH _ _ eq_refl) as (H1 & H2 & H3). split; [cbn; congruence|].
      split; [constructor; assumption|assumption].
    + intros [= <- <-]. split; [reflexivity|]. split; [constructor|assumption].
Qed.

Lemma span_app f a b :
  Forall (fun c => f c = true) a -> match b with [] => True | c :: _ => f c = false end ->
  span f (a ++ b) = (a, b).
Proof.
  induction 1 as [|c t Hc _ IH]; intros Hb; cbn [span app].
  - destruct b as [|c t]; [reflexivity|]. cbn [span]. rewrite Hb. reflexivity.
  - rewrite Hc, (IH Hb). reflexivity.
Qed.

Lemma no_colon_forall s : no_colon s <-> Forall (fun c => negb (c =? 58) = true) s.
Proof.
  unfold no_colon. rewrite Forall_forall. split.
  - intros H c Hc. apply negb_true_iff, N.eqb_neq. intros ->. exact (H Hc).
  - intros H Hc. specialize (H _ Hc). cbn in H. discriminate.
Qed.

Lemma split_some s a r : split_colon s = Some (a, r) <-> s = a ++ 58 :: r /\ no_colon a.
Proof.
  unfold split_colon. split.
  - destruct (span _ s) as [x y] eqn:E. destruct (span_spec _ _ _ _ E) as (H1 & H2 & H3).
    destruct y as [|c y]; [discriminate|]. intros [= <- <-].
    apply negb_false_iff, N.eqb_eq in H3. change ch_colon with 58 in H3. subst c.
    split; [exact H1|]. apply no_colon_forall. exact H2.
  - intros [-> H]. rewrite (span_app _ a (58 :: r)); [reflexivity| |reflexivity].
    apply no_colon_forall. exact H.
Qed.

Lemma split_none s : split_colon s = None <-> no_colon s.
Proof.
  unfold split_colon. split.
  - destruct (span _ s) as [x y] eqn:E. destruct (span_spec _ _ _ _ E) as (H1 & H2 & H3).
    destruct y as [|c y]; [|discriminate]. intros _. rewrite app_nil_r in H1. subst x.
    apply no_colon_forall. exact H2.
  - intros H. rewrite <- (app_nil_r s), (span_app _ s []); [reflexivity| |exact I].
    apply no_colon_forall. exact H.
Qed.

Lemma cstr_text b : text_of b (cstr b).
Proof.
  unfold text_of, no_nul. induction b as [|c t [IH1 IH2]]; cbn [cstr].
  - split; [intros []|left; reflexivity].
  - destruct (N.eqb_spec c 0) as [E|E].
    + subst c. split; [intros []|right; exists t; reflexivity].
    + split; [intros [H|H]; [congruence|exact (IH1 H)]|].
      destruct IH2 as [H|[r H]]; [left; congruence|right; exists r; cbn; congruence].
Qed.

Lemma text_cstr b s : text_of b s -> cstr b = s.
Proof.
  intros [Hn H]. assert (G : forall s r, no_nul s -> cstr (s ++ 0 :: r) = s).
  { clear. induction s as [|c t IH]; intros r Hn; [reflexivity|]. cbn [cstr app].
    destruct (N.eqb_spec c 0) as [E|E]; [exfalso; apply Hn; left; assumption|].
    rewrite IH; [reflexivity|]. intros X. apply Hn. right. assumption. }
  assert (K : forall s, no_nul s -> cstr s = s).
  { clear. induction s as [|c t IH]; intros Hn; [reflexivity|]. cbn [cstr].
    destruct (N.eqb_spec c 0) as [E|E]; [exfalso; apply Hn; left; assumption|].
    rewrite IH; [reflexivity|]. intros X. apply Hn. right. assumption. }
  destruct H as [->|[r ->]]; [apply K|apply G]; assumption.
Qed.

Lemma getlines_lines file : lines_of file (getlines file).
Proof.
  induction file as [|c t IH]; [constructor|]. cbn [getlines].
  destruct (N.eqb_spec c 10) as [E|E].
  - subst c. apply (lines_cons [] t); [intros []|exact IH].
  - inversion IH as [E1 E2|l Hl Hn E1 E2|l f ls Hn Hf E1 E2].
    + apply (lines_last [c]); [discriminate|]. intros [H|[]]. congruence.
    + apply (lines_last (c :: t)); [discriminate|]. intros [H|H]; [congruence|].
      apply Hn. subst. assumption.
    + apply (lines_cons (c :: l) f); [|assumption]. intros [H|H]; [congruence|exact (Hn H)].
Qed.

Lemma newline_split l f l' f' :
  no_newline l -> no_newline l' -> l ++ 10 :: f = l' ++ 10 :: f' -> l = l' /\ f = f'.
Proof.
  revert l'. induction l as [|c l IH]; intros [|c' l'] H H' E; cbn in E.
  - injection E as <-. split; reflexivity.
  - injection E as <- _. exfalso. apply H'. left. reflexivity.
  - injection E as -> _. exfalso. apply H. left. reflexivity.
  - injection E as <- E. destruct (IH l') as [-> ->]; [| |exact E|split; reflexivity].
    + intros X; apply H; right; exact X.
    + intros X; apply H'; right; exact X.
Qed.

Lemma lines_fun file ls : lines_of file ls -> getlines file = ls.
Proof.
  intros H. pose proof (getlines_lines file) as G. revert H G. generalize (getlines file).
  intros l2 H. revert l2. induction H as [|l Hl Hn|l f ls Hn Hf IH]; intros l2 G.
  - inversion G as [E1 E2|l Hl Hn E1 E2|l f ls Hn Hf E1 E2]; [reflexivity| |].
    + congruence.
    + destruct l; discriminate.
  - inversion G as [E1 E2|l' Hl' Hn' E1 E2|l' f ls Hn' Hf E1 E2].
    + congruence.
    + reflexivity.
    + exfalso. apply Hn. rewrite <- E1. apply in_or_app. right. left. reflexivity.
  - inversion G as [E1 E2|l' Hl' Hn' E1 E2|l' f' ls' Hn' Hf' E1 E2].
    + destruct l; discriminate.
    + exfalso. apply Hn'. apply in_or_app. right. left. reflexivity.
    + destruct (newline_split l' f' l f Hn' Hn E1) as [-> ->]. f_equal. apply IH. assumption.
Qed.

Lemma lines_unique file a b : lines_of file a -> lines_of file b -> a = b.
Proof. intros A B. rewrite <- (lines_fun _ _ A). apply lines_fun. exact B. Qed.

Lemma str_eqb_eq a b : str_eqb a b = true <-> a = b.
Proof. exact (ContextProofs.str_eqb_eq a b). Qed.

Lemma colon_split a r a' r' :
  no_colon a -> no_colon a' -> a ++ 58 :: r = a' ++ 58 :: r' -> a = a' /\ r = r'.
Proof.
  intros H H' E.
  pose proof (proj2 (split_some (a ++ 58 :: r) a r) (conj eq_refl H)) as P.
  pose proof (proj2 (split_some (a' ++ 58 :: r') a' r') (conj eq_refl H')) as P'.
  rewrite E in P. rewrite P in P'. injection P' as -> ->. split; reflexivity.
Qed.

Lemma blanks_space ws : Forall blank ws <-> Forall (fun c => isspace c = true) ws.
Proof. rewrite !Forall_forall. split; intros H c Hc; apply isspace_blank; auto. Qed.

Lemma noblanks_space ws : no_blank ws <-> Forall (fun c => negb (isspace c) = true) ws.
Proof. unfold no_blank. rewrite !Forall_forall. split; intros H c Hc; apply notspace_blank; auto. Qed.

(** ** One line *)

Lemma span_blank_text s ws rest : span isspace s = (ws, rest) ->
  s = ws ++ rest /\ Forall blank ws /\ match rest with [] => True | c :: _ => ~ blank c end.
Proof.
  intros H. destruct (span_spec _ _ _ _ H) as (H1 & H2 & H3). split; [exact H1|].
  split; [apply blanks_space; exact H2|]. destruct rest as [|c r]; [exact I|].
  intros X. apply isspace_blank in X. congruence.
Qed.

Lemma span_word_text s w rest : span (fun c => negb (isspace c)) s = (w, rest) ->
  s = w ++ rest /\ no_blank w /\ stops rest.
Proof.
  intros H. destruct (span_spec _ _ _ _ H) as (H1 & H2 & H3). split; [exact H1|].
  split; [apply noblanks_space; exact H2|]. destruct rest as [|c r]; [exact I|].
  cbn. apply isspace_blank. destruct (isspace c); [reflexivity|discriminate].
Qed.

Lemma span_blank_app ws rest :
  Forall blank ws -> match rest with [] => True | c :: _ => ~ blank c end ->
  span isspace (ws ++ rest) = (ws, rest).
Proof.
  intros H1 H2. apply span_app; [apply blanks_space; exact H1|].
  destruct rest as [|c r]; [exact I|]. destruct (isspace c) eqn:E; [|reflexivity].
  apply isspace_blank in E. contradiction.
Qed.

Lemma span_word_app w rest :
  no_blank w -> stops rest -> span (fun c => negb (isspace c)) (w ++ rest) = (w, rest).
Proof.
  intros H1 H2. apply span_app; [apply noblanks_space; exact H1|].
  destruct rest as [|c r]; [exact I|]. cbn in H2. apply isspace_blank in H2. rewrite H2. reflexivity.
Qed.

Lemma process_sound b mls lu se lv : process_seusers b mls = SRec lu se lv -> maps mls (cstr b) lu se lv.
Proof.
  unfold process_seusers. destruct (span isspace (cstr b)) as [ws start] eqn:E1.
  destruct (span_blank_text _ _ _ E1) as (H1 & H2 & H3).
  destruct start as [|c0 start0]; [discriminate|].
  remember (c0 :: start0) as start eqn:Es. destruct (N.eqb_spec c0 35) as [E|Hc]; [discriminate|].
  destruct (split_colon start) as [[lu' r]|] eqn:E2; [|discriminate].
  apply split_some in E2. destruct E2 as [E2 Hlu].
  assert (Hl : match lu' with [] => True | c :: _ => ~ blank c /\ c <> 35 end).
  { destruct lu' as [|c l]; [exact I|]. assert (Ec : c = c0) by (rewrite E2 in Es; injection Es; auto).
    subst c. split; [|assumption]. exact H3. }
  destruct (split_colon r) as [[se' r2]|] eqn:E3.
  - apply split_some in E3. destruct E3 as [E3 Hse].
    destruct se' as [|s0 se0]; [discriminate|]. remember (s0 :: se0) as se' eqn:Ese.
    destruct mls; cbn [negb].
    + destruct (span _ r2) as [lv' t] eqn:E4. destruct (span_word_text _ _ _ E4) as (H4 & H5 & H6).
      destruct lv' as [|l0 lv0]; [discriminate|]. intros [= <- <- <-].
      exists ws, r. split; [rewrite H1, E2; reflexivity|]. split; [exact H2|]. split; [exact Hlu|].
      split; [exact Hl|]. split; [subst; discriminate|]. right. exists r2. split; [exact E3|].
      split; [exact Hse|]. exists (l0 :: lv0), t. split; [reflexivity|]. split; [exact H4|].
      split; [exact H5|]. split; [discriminate|exact H6].
    + intros [= <- <- <-].
      exists ws, r. split; [rewrite H1, E2; reflexivity|]. split; [exact H2|]. split; [exact Hlu|].
      split; [exact Hl|]. split; [subst; discriminate|]. right. exists r2. split; [exact E3|].
      split; [exact Hse|]. reflexivity.
  - apply split_none in E3. destruct (span _ r) as [se' t] eqn:E4.
    destruct (span_word_text _ _ _ E4) as (H4 & H5 & H6).
    destruct se' as [|s0 se0]; [discriminate|]. intros [= <- <- <-].
    exists ws, r. split; [rewrite H1, E2; reflexivity|]. split; [exact H2|]. split; [exact Hlu|].
    split; [exact Hl|]. split; [discriminate|]. left. split; [exact E3|]. split; [reflexivity|].
    split; [exact H5|]. exists t. split; assumption.
Qed.

Lemma process_complete b mls lu se lv : maps mls (cstr b) lu se lv -> process_seusers b mls = SRec lu se lv.
Proof.
  intros (ws & rest & H1 & H2 & H3 & H4 & H5 & H6). unfold process_seusers.
  assert (E1 : span isspace (cstr b) = (ws, lu ++ 58 :: rest)).
  { rewrite H1. apply span_blank_app; [exact H2|]. destruct lu as [|c l]; [|apply H4].
    cbn. unfold blank. lia. }
  rewrite E1. destruct (lu ++ 58 :: rest) as [|c0 s0] eqn:Es; [destruct lu; discriminate|].
  assert (Hc : c0 =? 35 = false).
  { apply N.eqb_neq. destruct lu as [|c l]; injection Es as <- _; [discriminate|apply H4]. }
  rewrite Hc, <- Es, (proj2 (split_some _ lu rest) (conj eq_refl H3)).
  destruct H6 as [(Hr & -> & Hb & after & -> & Hs)|(after & -> & Hse & Hm)].
  - rewrite (proj2 (split_none _) Hr), (span_word_app se after Hb Hs).
    destruct se as [|s1 se1]; [congruence|reflexivity].
  - rewrite (proj2 (split_some _ se after) (conj eq_refl Hse)).
    destruct se as [|s1 se1]; [congruence|]. destruct mls; cbn [negb].
    + destruct Hm as (l & tail & -> & -> & Hb & Hne & Hs). rewrite (span_word_app l tail Hb Hs).
      destruct l; [congruence|reflexivity].
    + subst lv. reflexivity.
Qed.

Lemma process_entry b mls lu se lv : process_seusers b mls = SRec lu se lv <-> entry mls b lu se lv.
Proof.
  split.
  - intros H. exists (cstr b). split; [apply cstr_text|]. apply process_sound. exact H.
  - intros (line & Ht & Hm). apply text_cstr in Ht. subst line. apply process_complete. exact Hm.
Qed.

(** ** Choosing the line *)

Section Lookup.
  Context (getgr : list N -> option N) (gids : list N) (name : list N) (mls : bool).

  (** Membership in a group. *)
  Definition in_group (g : list N) : Prop := exists i, getgr g = Some i /\ In i gids.

  Lemma check_in g : check_group getgr gids g = true <-> in_group g.
  Proof.
    unfold check_group, in_group. destruct (getgr g) as [i|].
    - rewrite existsb_exists. split.
      + intros (x & Hx & E). apply N.eqb_eq in E. subst x. exists i. split; [reflexivity|assumption].
      + intros (j & [= <-] & Hj). exists i. split; [exact Hj|apply N.eqb_refl].
    - split; [discriminate|]. intros (j & H & _). discriminate.
  Qed.

  (** What the loop has found after some lines. *)
  Definition found (P : list N -> Prop) (E : list N -> list N -> option (list N) -> Prop)
      (ls : list (list N)) (o : option seinfo) : Prop :=
    match o with
    | Some (se, lv) => exists b, first_such P ls b /\ E b se lv
    | None => forall b, In b ls -> ~ P b
    end.

  Lemma first_snoc (P : list N -> Prop) ls b x : first_such P ls b -> first_such P (ls ++ x) b.
  Proof.
    intros (p & q & -> & H1 & H2). exists p, (q ++ x). rewrite <- app_assoc. split; [reflexivity|].
    split; assumption.
  Qed.

  Lemma found_keep P E ls o b : found P E ls o -> ~ P b -> found P E (ls ++ [b]) o.
  Proof.
    intros H Hb. destruct o as [[se lv]|].
    - destruct H as (x & H1 & H2). exists x. split; [apply first_snoc; exact H1|exact H2].
    - intros x Hx. apply in_app_or in Hx. destruct Hx as [Hx|[<-|[]]]; [exact (H x Hx)|exact Hb].
  Qed.

  Lemma found_some P E ls se lv x : found P E ls (Some (se, lv)) -> found P E (ls ++ x) (Some (se, lv)).
  Proof.
    intros (b & H1 & H2). exists b. split; [apply first_snoc; exact H1|exact H2].
  Qed.

  Lemma found_new (P : list N -> Prop) (E : list N -> list N -> option (list N) -> Prop) ls b se lv :
    found P E ls None -> P b -> E b se lv -> found P E (ls ++ [b]) (Some (se, lv)).
  Proof.
    intros H Hb He. exists b. split; [|exact He]. exists ls, []. split; [reflexivity|].
    split; [exact Hb|]. exact H.
  Qed.

  Definition entry_group (b se : list N) (lv : option (list N)) : Prop :=
    exists g, entry mls b (37 :: g) se lv.

  Lemma entry_fun b u se lv u' se' lv' :
    entry mls b u se lv -> entry mls b u' se' lv' -> u = u' /\ se = se' /\ lv = lv'.
  Proof.
    intros A B. apply process_entry in A, B. rewrite A in B. injection B as -> -> ->. auto.
  Qed.

  Lemma loop_spec lines : forall before grp def,
    found (for_login mls name) (fun b => entry mls b name) before None ->
    found (for_group mls in_group) entry_group before grp ->
    found (for_all_users mls) (fun b => entry mls b dflt) before def ->
    exists user grp' def',
      seusers_loop getgr gids name mls lines grp def = (user, grp', def') /\
      found (for_login mls name) (fun b => entry mls b name) (before ++ lines) user /\
      (user = None ->
       found (for_group mls in_group) entry_group (before ++ lines) grp' /\
       found (for_all_users mls) (fun b => entry mls b dflt) (before ++ lines) def').
  Proof.
    induction lines as [|b ls IH]; intros before grp def Hl Hg Hd.
    - exists None, grp, def. rewrite app_nil_r. split; [reflexivity|]. split; [exact Hl|].
      intros _. split; assumption.
    - cbn [seusers_loop].
      replace (before ++ b :: ls) with ((before ++ [b]) ++ ls) by (rewrite <- app_assoc; reflexivity).
      assert (Skip : (forall u se lv, ~ entry mls b u se lv) ->
        exists user grp' def', seusers_loop getgr gids name mls ls grp def = (user, grp', def') /\
          found (for_login mls name) (fun b => entry mls b name) ((before ++ [b]) ++ ls) user /\
          (user = None ->
           found (for_group mls in_group) entry_group ((before ++ [b]) ++ ls) grp' /\
           found (for_all_users mls) (fun b => entry mls b dflt) ((before ++ [b]) ++ ls) def')).
      { intros N0. apply IH.
        - apply found_keep; [exact Hl|]. intros (se & lv & E). exact (N0 _ _ _ E).
        - apply found_keep; [exact Hg|]. intros (g & se & lv & E & _). exact (N0 _ _ _ E).
        - apply found_keep; [exact Hd|]. intros (se & lv & E). exact (N0 _ _ _ E). }
      destruct (process_seusers b mls) as [| |u se lv] eqn:Ep.
      + apply Skip. intros u se lv X. apply process_entry in X. congruence.
      + apply Skip. intros u se lv X. apply process_entry in X. congruence.
      + apply process_entry in Ep. destruct (str_eqb u name) eqn:Eu.
        * apply str_eqb_eq in Eu. subst u. exists (Some (se, lv)), grp, def. split; [reflexivity|].
          split; [|discriminate]. apply found_some. apply found_new; [exact Hl| |exact Ep].
          exists se, lv. exact Ep.
        * assert (Nl : ~ for_login mls name b).
          { intros (se' & lv' & E). destruct (entry_fun _ _ _ _ _ _ _ Ep E) as (-> & _).
            rewrite (proj2 (str_eqb_eq name name) eq_refl) in Eu. discriminate. }
          assert (Hl' : found (for_login mls name) (fun b => entry mls b name) (before ++ [b]) None)
            by (apply found_keep; assumption).
          set (isg := match u with [] => false | _ => _ end).
          destruct isg eqn:Eg; unfold isg in Eg.
          -- destruct u as [|c g]; [discriminate|]. apply andb_true_iff in Eg. destruct Eg as [Eg Eg3].
             apply andb_true_iff in Eg. destruct Eg as [Eg1 Eg2]. apply N.eqb_eq in Eg1. subst c.
             destruct grp; [discriminate|]. apply check_in in Eg3.
             apply IH; [exact Hl'| |].
             ++ apply found_new; [exact Hg|exists g, se, lv; split; assumption|exists g; exact Ep].
             ++ apply found_keep; [exact Hd|]. intros (se' & lv' & E).
                destruct (entry_fun _ _ _ _ _ _ _ Ep E) as (X & _). discriminate.
          -- assert (Hg' : found (for_group mls in_group) entry_group (before ++ [b]) grp).
             { destruct grp as [[gs gl]|]; [apply found_some; exact Hg|].
               apply found_keep; [exact Hg|]. intros (g & se' & lv' & E & Hi).
               destruct (entry_fun _ _ _ _ _ _ _ Ep E) as (-> & _).
               apply check_in in Hi. rewrite Hi in Eg. cbn in Eg. discriminate. }
             destruct def as [[ds dl]|]; cbn [andb].
             ++ apply IH; [exact Hl'|exact Hg'|apply found_some; exact Hd].
             ++ destruct (str_eqb u default_name) eqn:Ed.
                ** apply str_eqb_eq in Ed. subst u. apply IH; [exact Hl'|exact Hg'|].
                   apply found_new; [exact Hd|exists se, lv; exact Ep|exact Ep].
                ** apply IH; [exact Hl'|exact Hg'|]. apply found_keep; [exact Hd|].
                   intros (se' & lv' & E). destruct (entry_fun _ _ _ _ _ _ _ Ep E) as (-> & _).
                   rewrite (proj2 (str_eqb_eq dflt default_name) eq_refl) in Ed. discriminate.
  Qed.

  (** The lookup in a file, as the specification has it. *)
  Lemma lookup_cases require file ls : lines_of file ls ->
    (exists se lv, getseuserbyname getgr gids mls require (Some file) name = Some (se, lv) /\
       assigned mls in_group ls name se lv)
    \/ (unassigned mls in_group ls name /\
        getseuserbyname getgr gids mls require (Some file) name = if require then None else Some (name, None)).
  Proof.
    intros Hls. apply lines_fun in Hls.
    destruct (loop_spec ls [] None None) as (user & grp & def & E & Hu & Ho).
    { intros b []. } { intros b []. } { intros b []. }
    cbn [app] in Hu, Ho. unfold getseuserbyname. rewrite Hls, E.
    destruct user as [[se lv]|].
    - left. exists se, lv. split; [reflexivity|]. left. exact Hu.
    - destruct (Ho eq_refl) as [Hg Hd]. destruct grp as [[se lv]|].
      + left. exists se, lv. split; [reflexivity|]. right; left. split; [exact Hu|].
        destruct Hg as (b & H1 & g & H2). exists b, g. split; assumption.
      + destruct def as [[se lv]|].
        * left. exists se, lv. split; [reflexivity|]. right; right. split; [exact Hu|].
          split; [exact Hg|]. exact Hd.
        * right. split; [|reflexivity]. intros b Hb. split; [exact (Hu b Hb)|].
          split; [exact (Hg b Hb)|exact (Hd b Hb)].
  Qed.

  Lemma first_fun {A} (P : A -> Prop) ls a b : first_such P ls a -> first_such P ls b -> a = b.
  Proof.
    intros (p & q & -> & Ha & Hp) (p' & q' & E & Hb & Hp').
    revert p' E Hp'. induction p as [|x p IH]; intros [|x' p'] E Hp'; cbn in E; injection E as E0 E.
    - exact E0.
    - exfalso. apply (Hp' a); [left; congruence|exact Ha].
    - exfalso. apply (Hp b); [left; congruence|exact Hb].
    - apply (IH (fun y Hy => Hp y (or_intror Hy)) p' E (fun y Hy => Hp' y (or_intror Hy))).
  Qed.

  Lemma first_in {A} (P : A -> Prop) ls a : first_such P ls a -> In a ls /\ P a.
  Proof.
    intros (p & q & -> & Ha & _). split; [|exact Ha]. apply in_or_app. right. left. reflexivity.
  Qed.

  Lemma assigned_fun ls se lv se' lv' :
    assigned mls in_group ls name se lv -> assigned mls in_group ls name se' lv' -> se = se' /\ lv = lv'.
  Proof.
    intros A B.
    destruct A as [(b & A1 & A2)|[(A0 & b & g & A1 & A2)|(A0 & A0' & b & A1 & A2)]];
    destruct B as [(b' & B1 & B2)|[(B0 & b' & g' & B1 & B2)|(B0 & B0' & b' & B1 & B2)]];
      try (exfalso; destruct (first_in _ _ _ A1) as [X1 X2]; (eapply B0; eassumption) || (eapply B0'; eassumption));
      try (exfalso; destruct (first_in _ _ _ B1) as [X1 X2]; (eapply A0; eassumption) || (eapply A0'; eassumption));
      pose proof (first_fun _ _ _ _ A1 B1) as ->;
      destruct (entry_fun _ _ _ _ _ _ _ A2 B2) as (_ & -> & ->); split; reflexivity.
  Qed.

  Lemma assigned_not ls se lv : assigned mls in_group ls name se lv -> ~ unassigned mls in_group ls name.
  Proof.
    intros A U.
    destruct A as [(b & A1 & A2)|[(A0 & b & g & A1 & A2)|(A0 & A0' & b & A1 & A2)]];
      destruct (first_in _ _ _ A1) as [X1 X2]; destruct (U b X1) as (U1 & U2 & U3); auto.
  Qed.
End Lookup.

(** ** The per-user file *)

Lemma starts_spec p s : starts p s = true <-> exists r, s = p ++ r.
Proof.
  revert s. induction p as [|a p IH]; intros s; cbn [starts app].
  - split; [intros _; exists s; reflexivity|reflexivity].
  - destruct s as [|b s].
    + split; [discriminate|]. intros [r H]. discriminate.
    + rewrite andb_true_iff, N.eqb_eq, IH. split.
      * intros [-> [r ->]]. exists r. reflexivity.
      * intros [r H]. injection H as -> ->. split; [reflexivity|exists r; reflexivity].
Qed.

Lemma serves_starts sv b : starts (sv ++ [58]) (cstr b) = true <-> serves sv b.
Proof.
  rewrite starts_spec. unfold serves. split.
  - intros [r H]. exists (cstr b), r. split; [apply cstr_text|]. rewrite H, <- app_assoc. reflexivity.
  - intros (line & r & Ht & ->). apply text_cstr in Ht. rewrite Ht. exists r.
    rewrite <- app_assoc. reflexivity.
Qed.

Lemma serves_dec sv b : serves sv b \/ ~ serves sv b.
Proof.
  rewrite <- serves_starts. destruct (starts _ _); [left; reflexivity|right; discriminate].
Qed.

Lemma logins_spec service lines : forall before rec,
  (forall sv, service = Some sv -> forall x, In x before -> serves sv x -> serves [42] x) ->
  match rec with
  | None => forall x, In x before -> ~ serves [42] x
  | Some r => exists b, first_such (serves [42]) (rev before) b /\ r = cstr b
  end ->
  match logins_loop service lines rec with
  | None => forall b, ~ chosen service (before ++ lines) b
  | Some r => exists b, chosen service (before ++ lines) b /\ r = cstr b
  end.
Proof.
  induction lines as [|b ls IH]; intros before rec Hs Hr.
  - cbn [logins_loop]. rewrite app_nil_r. destruct rec as [r|].
    + destruct Hr as (b & H1 & H2). exists b. split; [right; split; assumption|exact H2].
    + intros b [(sv & E & F)|[_ F]]; destruct (first_in _ _ _ F) as [F1 F2].
      * destruct F2 as [F2 F3]. apply F3. exact (Hs sv E b F1 F2).
      * apply (Hr b); [apply in_rev; exact F1|exact F2].
  - cbn [logins_loop].
    replace (before ++ b :: ls) with ((before ++ [b]) ++ ls) by (rewrite <- app_assoc; reflexivity).
    change [42; 58] with ([42] ++ [58]). destruct (starts ([42] ++ [58]) (cstr b)) eqn:E1.
    + apply serves_starts in E1. apply IH.
      * intros sv E x Hx Hv. apply in_app_or in Hx. destruct Hx as [Hx|[<-|[]]]; [exact (Hs sv E x Hx Hv)|exact E1].
      * exists b. split; [|reflexivity]. rewrite rev_app_distr. exists [], (rev before).
        split; [reflexivity|]. split; [exact E1|]. intros x [].
    + assert (N1 : ~ serves [42] b) by (rewrite <- serves_starts; congruence).
      assert (Keep : match rec with
        | None => forall x, In x (before ++ [b]) -> ~ serves [42] x
        | Some r => exists b0, first_such (serves [42]) (rev (before ++ [b])) b0 /\ r = cstr b0
        end).
      { destruct rec as [r|].
        - destruct Hr as (b0 & (p & q & Hp & Hq & Hn) & H2). exists b0. split; [|exact H2].
          rewrite rev_app_distr. exists (b :: p), q. split; [cbn; rewrite Hp; reflexivity|].
          split; [exact Hq|]. intros x [<-|Hx]; [exact N1|exact (Hn x Hx)].
        - intros x Hx. apply in_app_or in Hx. destruct Hx as [Hx|[<-|[]]]; [exact (Hr x Hx)|exact N1]. }
      destruct service as [sv|].
      * destruct (starts (sv ++ [58]) (cstr b)) eqn:E2.
        -- apply serves_starts in E2. exists b. split; [|reflexivity]. left. exists sv.
           split; [reflexivity|]. exists before, ls. split; [rewrite <- app_assoc; reflexivity|].
           split; [split; assumption|]. intros x Hx [X1 X2]. apply X2. exact (Hs sv eq_refl x Hx X1).
        -- apply IH; [|exact Keep]. intros sv' [= <-] x Hx Hv. apply in_app_or in Hx.
           destruct Hx as [Hx|[<-|[]]]; [exact (Hs sv eq_refl x Hx Hv)|].
           apply serves_starts in Hv. congruence.
      * apply IH; [|exact Keep]. intros sv' X. discriminate.
Qed.

Lemma chosen_fun service ls a b : chosen service ls a -> chosen service ls b -> a = b.
Proof.
  intros [(sv & E & A)|[A0 A]] [(sv' & E' & B)|[B0 B]].
  - rewrite E in E'. injection E' as <-. exact (first_fun _ _ _ _ A B).
  - destruct (first_in _ _ _ A) as [X [Y Z]]. exfalso. apply Z. exact (B0 sv E a X Y).
  - destruct (first_in _ _ _ B) as [X [Y Z]]. exfalso. apply Z. exact (A0 sv' E' b X Y).
  - exact (first_fun _ _ _ _ A B).
Qed.

Lemma chomp_spec s : (exists t, s = t ++ [10] /\ chomp s = t) \/ ((~ exists t, s = t ++ [10]) /\ chomp s = s).
Proof.
  unfold chomp. destruct (rev s) as [|c r] eqn:E.
  - right. split; [|reflexivity]. intros [t Ht]. rewrite Ht, rev_app_distr in E. discriminate.
  - destruct (N.eqb_spec c 10) as [E1|E1].
    + left. exists (rev r). split; [|reflexivity]. rewrite <- (rev_involutive s), E, E1. reflexivity.
    + right. split; [|reflexivity]. intros [t Ht]. rewrite Ht, rev_app_distr in E. injection E as E _. congruence.
Qed.

Lemma gives_model b se lv :
  gives b se lv <->
  exists h r tail, split_colon (cstr b) = Some (h, r) /\ split_colon r = Some (se, tail) /\ chomp tail = lv.
Proof.
  split.
  - intros (line & h & tail & Ht & E & Hh & Hse & Hl). apply text_cstr in Ht. subst line.
    exists h, (se ++ 58 :: tail), tail. split; [apply split_some; split; assumption|].
    split; [apply split_some; split; [reflexivity|assumption]|].
    destruct (chomp_spec tail) as [(t & E1 & E2)|[N1 E2]].
    + destruct Hl as [Hl|[_ Hn]]; [|exfalso; apply Hn; exists t; exact E1].
      rewrite E2. rewrite E1 in Hl. apply app_inj_tail in Hl. apply Hl.
    + destruct Hl as [Hl|[Hl _]]; [exfalso; apply N1; exists lv; exact Hl|congruence].
  - intros (h & r & tail & E1 & E2 & E3). apply split_some in E1, E2. destruct E1 as [E1 H1], E2 as [E2 H2].
    exists (cstr b), h, tail. split; [apply cstr_text|]. split; [rewrite E1, E2; reflexivity|].
    split; [exact H1|]. split; [exact H2|].
    destruct (chomp_spec tail) as [(t & F1 & F2)|[N1 F2]]; [left; congruence|right; split; congruence].
Qed.

(** ** Files written by libsemanage *)

Definition to_rec (m : mapping) : seuser_rec := mkSU (m_login m) (m_se m) (m_level m).

(** The body of a printed line, without the newline. *)
Definition body (m : mapping) : list N :=
  m_login m ++ 58 :: m_se m ++ match m_level m with None => [] | Some l => 58 :: l end.

Lemma print_body m : seuser_print (to_rec m) = body m ++ [10].
Proof.
  unfold seuser_print, body, to_rec. cbn [su_name su_sename su_mls]. rewrite <- !app_assoc.
  cbn [app]. rewrite <- app_assoc. reflexivity.
Qed.

Lemma no_blank_newline s : no_blank s -> no_newline s.
Proof.
  intros H X. unfold no_blank in H. rewrite Forall_forall in H. apply (H _ X). unfold blank. auto.
Qed.

Lemma body_newline m : writable m -> no_newline (body m).
Proof.
  intros (_ & _ & H2 & _ & _ & _ & H4 & _ & H5) X. unfold body in X.
  apply in_app_or in X. destruct X as [X|[X|X]]; [exact (H2 X)|discriminate|].
  apply in_app_or in X. destruct X as [X|X]; [exact (no_blank_newline _ H4 X)|].
  destruct (m_level m) as [l|]; [|contradiction]. destruct X as [X|X]; [discriminate|].
  destruct H5 as (_ & H5 & _). exact (no_blank_newline _ H5 X).
Qed.

Lemma body_nul m : writable m -> no_nul (body m ++ [10]).
Proof.
  intros (_ & _ & _ & H2 & _ & _ & _ & H4 & H5) X. unfold body in X.
  apply in_app_or in X. destruct X as [X|[X|[]]]; [|discriminate].
  apply in_app_or in X. destruct X as [X|[X|X]]; [exact (H2 X)|discriminate|].
  apply in_app_or in X. destruct X as [X|X]; [exact (H4 X)|].
  destruct (m_level m) as [l|]; [|contradiction]. destruct X as [X|X]; [discriminate|].
  destruct H5 as (_ & _ & H5). exact (H5 X).
Qed.

(** The level a written mapping gives. *)
Definition level_read (mls : bool) (m : mapping) : option (list N) := if mls then m_level m else None.

Lemma body_entry mls m : writable m -> entry mls (body m ++ [10]) (m_login m) (m_se m) (level_read mls m).
Proof.
  intros W. exists (body m ++ [10]). split; [split; [apply body_nul; exact W|left; reflexivity]|].
  destruct W as (H1 & H2 & _ & _ & H3 & H4 & H5 & _ & H6).
  exists [], (m_se m ++ match m_level m with None => [10] | Some l => 58 :: l ++ [10] end).
  split.
  { unfold body. cbn [app]. rewrite <- !app_assoc. cbn [app]. rewrite <- app_assoc.
    destruct (m_level m); reflexivity. }
  split; [constructor|]. split; [exact H2|].
  split; [destruct (m_login m); [exact I|exact H1]|]. split; [exact H3|].
  destruct (m_level m) as [l|] eqn:El.
  - right. exists (l ++ [10]). split; [reflexivity|]. split; [exact H4|].
    unfold level_read. rewrite El. destruct mls; [|reflexivity].
    exists l, [10]. destruct H6 as (H6 & H7 & _). split; [reflexivity|]. split; [reflexivity|].
    split; [exact H7|]. split; [exact H6|]. cbn. unfold blank. auto.
  - left. split.
    + intros X. apply in_app_or in X. destruct X as [X|[X|[]]]; [exact (H4 X)|discriminate].
    + split; [unfold level_read; rewrite El; destruct mls; reflexivity|]. split; [exact H5|].
      exists [10]. split; [reflexivity|]. cbn. unfold blank. auto.
Qed.

Lemma written_lines ms : Forall writable ms ->
  lines_of (flat_map (fun m => seuser_print (to_rec m)) ms) (map (fun m => body m ++ [10]) ms).
Proof.
  induction 1 as [|m ms W _ IH]; [constructor|]. cbn [flat_map map].
  rewrite print_body, <- app_assoc. cbn [app]. apply lines_cons; [apply body_newline; exact W|exact IH].
Qed.

Lemma split_first {A} (P : A -> Prop) (dec : forall x, {P x} + {~ P x}) l :
  {x | first_such P l x} + {forall x, In x l -> ~ P x}.
Proof.
  induction l as [|a l IH]; [right; intros x []|].
  destruct (dec a) as [Ha|Ha].
  - left. exists a. exists [], l. split; [reflexivity|]. split; [exact Ha|]. intros x [].
  - destruct IH as [[x Hx]|Hn].
    + left. exists x. destruct Hx as (p & q & -> & H1 & H2). exists (a :: p), q.
      split; [reflexivity|]. split; [exact H1|]. intros y [<-|Hy]; [exact Ha|exact (H2 y Hy)].
    + right. intros x [<-|Hx]; [exact Ha|exact (Hn x Hx)].
Qed.

Lemma first_map {A B} (f : A -> B) (P : B -> Prop) l x :
  first_such (fun a => P (f a)) l x -> first_such P (map f l) (f x).
Proof.
  intros (p & q & -> & H1 & H2). exists (map f p), (map f q). rewrite map_app. split; [reflexivity|].
  split; [exact H1|]. intros y Hy. apply in_map_iff in Hy. destruct Hy as (a & <- & Ha). exact (H2 a Ha).
Qed.

Lemma first_iff {A} (P Q : A -> Prop) l x : (forall a, In a l -> P a <-> Q a) ->
  first_such P l x -> first_such Q l x.
Proof.
  intros H (p & q & -> & H1 & H2). exists p, q. split; [reflexivity|]. split.
  - apply H; [apply in_or_app; right; left; reflexivity|exact H1].
  - intros y Hy X. apply (H2 y Hy), H; [apply in_or_app; left; exact Hy|exact X].
Qed.

Section Written.
  Context (getgr : list N -> option N) (gids : list N) (mls : bool).

  Lemma written_login ms m name : Forall writable ms -> In m ms ->
    (for_login mls name (body m ++ [10]) <-> m_login m = name).
  Proof.
    intros W Hm. rewrite Forall_forall in W. pose proof (body_entry mls m (W m Hm)) as E. split.
    - intros (se & lv & E2). destruct (entry_fun mls _ _ _ _ _ _ _ E E2) as (X & _). exact X.
    - intros <-. exists (m_se m), (level_read mls m). exact E.
  Qed.

  Lemma written_group ms m : Forall writable ms -> In m ms ->
    (for_group mls (in_group getgr gids) (body m ++ [10]) <->
     exists g, m_login m = 37 :: g /\ in_group getgr gids g).
  Proof.
    intros W Hm. rewrite Forall_forall in W. pose proof (body_entry mls m (W m Hm)) as E. split.
    - intros (g & se & lv & E2 & Hg). destruct (entry_fun mls _ _ _ _ _ _ _ E E2) as (X & _).
      exists g. split; assumption.
    - intros (g & Hg & Hi). exists g, (m_se m), (level_read mls m). rewrite <- Hg. split; assumption.
  Qed.

  Lemma written_assigned ms name m : Forall writable ms ->
    (first_such (fun m => m_login m = name) ms m
     \/ ((forall x, In x ms -> m_login x <> name) /\
         first_such (fun m => exists g, m_login m = 37 :: g /\ in_group getgr gids g) ms m)
     \/ ((forall x, In x ms -> m_login x <> name) /\
         (forall x g, In x ms -> m_login x = 37 :: g -> ~ in_group getgr gids g) /\
         first_such (fun m => m_login m = dflt) ms m)) ->
    assigned mls (in_group getgr gids) (map (fun m => body m ++ [10]) ms) name (m_se m) (level_read mls m).
  Proof.
    intros W H.
    assert (NoL : (forall x, In x ms -> m_login x <> name) ->
      forall b, In b (map (fun m => body m ++ [10]) ms) -> ~ for_login mls name b).
    { intros X b Hb. apply in_map_iff in Hb. destruct Hb as (x & <- & Hx).
      rewrite (written_login ms x name W Hx). exact (X x Hx). }
    assert (Wm : forall x, In x ms -> writable x) by (apply Forall_forall; exact W).
    destruct H as [H|[[H0 H]|(H0 & H1 & H)]]; destruct (first_in _ _ _ H) as [Hin Hp].
    - left. exists (body m ++ [10]). split.
      + apply (first_map (fun m => body m ++ [10]) (for_login mls name)).
        eapply first_iff; [|exact H]. intros a Ha. symmetry. apply (written_login ms a name W Ha).
      + rewrite <- Hp. apply body_entry. exact (Wm m Hin).
    - right; left. split; [exact (NoL H0)|]. destruct Hp as (g & Hg & Hi).
      exists (body m ++ [10]), g. split.
      + apply (first_map (fun m => body m ++ [10]) (for_group mls (in_group getgr gids))).
        eapply first_iff; [|exact H]. intros a Ha. symmetry. apply (written_group ms a W Ha).
      + rewrite <- Hg. apply body_entry. exact (Wm m Hin).
    - right; right. split; [exact (NoL H0)|]. split.
      + intros b Hb. apply in_map_iff in Hb. destruct Hb as (x & <- & Hx).
        rewrite (written_group ms x W Hx). intros (g & Hg & Hi). exact (H1 x g Hx Hg Hi).
      + exists (body m ++ [10]). split.
        * apply (first_map (fun m => body m ++ [10]) (for_all_users mls)).
          eapply first_iff; [|exact H]. intros a Ha. symmetry. apply (written_login ms a dflt W Ha).
        * rewrite <- Hp. apply body_entry. exact (Wm m Hin).
  Qed.
End Written.

(** ** The per-user file and the general one *)

Lemma getseuser_cases getgr gids mls require cfg file user service ls : lines_of file ls ->
  (exists b se lv, chosen service ls b /\ gives b se lv /\
     getseuser getgr gids mls require cfg (Some file) user service = Some (se, Some lv))
  \/ ((forall b se lv, chosen service ls b -> ~ gives b se lv) /\
      getseuser getgr gids mls require cfg (Some file) user service =
      getseuserbyname getgr gids mls require cfg user).
Proof.
  intros Hls. apply lines_fun in Hls. unfold getseuser. rewrite Hls.
  pose proof (logins_spec service ls [] None) as H. cbn [app] in H.
  assert (H' := H (fun sv E x Hx => match Hx with end) (fun x Hx => match Hx with end)). clear H.
  destruct (logins_loop service ls None) as [r|].
  - destruct H' as (b & Hc & ->).
    assert (Only : forall b' se lv, chosen service ls b' -> gives b' se lv -> gives b se lv).
    { intros b' se lv Hb. rewrite (chosen_fun _ _ _ _ Hb Hc). auto. }
    destruct (split_colon (cstr b)) as [[h r]|] eqn:E1.
    + destruct (split_colon r) as [[se tail]|] eqn:E2.
      * left. exists b, se, (chomp tail). split; [exact Hc|]. split; [|reflexivity].
        apply gives_model. exists h, r, tail. auto.
      * right. split; [|reflexivity]. intros b' se lv Hb Hg. apply (Only _ _ _ Hb) in Hg.
        apply gives_model in Hg. destruct Hg as (h' & r' & t & X & Y & _). congruence.
    + right. split; [|reflexivity]. intros b' se lv Hb Hg. apply (Only _ _ _ Hb) in Hg.
      apply gives_model in Hg. destruct Hg as (h' & r' & t & X & Y & _). congruence.
  - right. split; [|reflexivity]. intros b se lv Hb. destruct (H' b Hb).
Qed.

Lemma gives_fun b se lv se' lv' : gives b se lv -> gives b se' lv' -> se = se' /\ lv = lv'.
Proof.
  intros A B. apply gives_model in A, B. destruct A as (h & r & t & A1 & A2 & A3), B as (h' & r' & t' & B1 & B2 & B3).
  rewrite A1 in B1. injection B1 as <- <-. rewrite A2 in B2. injection B2 as <- <-. split; congruence.
Qed.
