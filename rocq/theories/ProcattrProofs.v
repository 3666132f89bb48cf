(** Lemmas for C87. *)
From Verif Require Import Base MlsModel ContextModel ContextProofs ProcattrModel ProcattrSpec.

Lemma attr_eqb_eq a b : attr_eqb a b = true <-> a = b.
Proof. destruct a, b; cbn; split; congruence. Qed.
Lemma upd_same {T} (f : attr -> T) a v : upd f a v a = v.
Proof. unfold upd. replace (attr_eqb a a) with true; [reflexivity|]. symmetry. apply attr_eqb_eq. reflexivity. Qed.
Lemma upd_other {T} (f : attr -> T) a v b : a <> b -> upd f a v b = f b.
Proof. intros N. unfold upd. destruct (attr_eqb a b) eqn:E; [|reflexivity]. apply attr_eqb_eq in E. contradiction. Qed.
Lemma str_eqb_refl s : str_eqb s s = true.
Proof. apply str_eqb_eq. reflexivity. Qed.
Lemma last_set_unique ro a h c : last_set ro a h c -> forall c', last_set ro a h c' -> c = c'.
Proof.
  induction 1 as [c h|c h|o r h c A B L IH]; intros c' L'; inversion L'; subst; try reflexivity; try congruence.
  - exfalso. match goal with H : forall c', _ <> (SetRaw _ c', _) |- _ => exact (H _ eq_refl) end.
  - exfalso. match goal with H : forall c', _ <> (Set_ _ c', _) |- _ => exact (H _ eq_refl) end.
  - exfalso. exact (A _ eq_refl).
  - exfalso. exact (B _ eq_refl).
  - apply IH. assumption.
Qed.

Section Proc.
Context (kernel : nat -> attr -> option (list N) -> option (list N)) (readable : nat -> attr -> bool)
  (daemon : nat -> way -> list N -> option (list N)) (has_setrans : bool) (page : nat).
Notation translate := (translate daemon has_setrans).
Notation perform := (perform kernel readable daemon has_setrans page).
Notation run := (run kernel readable daemon has_setrans page).

(** Translations *)
Definition entry_ok (n : nat) (w : way) (e : option (list N * list N)) : Prop :=
  match e with Some (q, a) => has_setrans = true /\ given daemon n w q a | None => True end.
Lemma given_later n m w s a : (n <= m)%nat -> given daemon n w s a -> given daemon m w s a.
Proof. intros L (k & K & G). exists k. split; [lia|exact G]. Qed.
Lemma translate_ok n w e s : entry_ok n w e -> entry_ok n w (fst (translate n w e s))
  /\ (has_setrans = true -> given daemon n w s (snd (translate n w e s))) /\ (has_setrans = false -> snd (translate n w e s) = s).
Proof.
  intros E. unfold ProcattrModel.translate. destruct has_setrans eqn:H; cbn [negb].
  - assert (M : given daemon n w s (match daemon n w s with Some a => a | None => s end)).
    { exists n. split; [lia|]. destruct (daemon n w s); auto. }
    destruct e as [[q a]|]; [destruct (str_eqb q s) eqn:Q|].
    + apply str_eqb_eq in Q. subst q. cbn in *. intuition congruence.
    + cbn. intuition congruence.
    + cbn. intuition congruence.
  - cbn. split; [exact E|]. split; [discriminate|reflexivity].
Qed.
(** The state that goes with a history. *)
Record good (tr : way -> list N -> list N) (files : attr -> list N) (n : nat) (t : thread) (h : list (call * answer)) : Prop := {
  g_t2r : entry_ok n RawOf (th_t2r t);
  g_r2t : entry_ok n TransOf (th_r2t t);
  g_prev : forall a, match th_prev t a with
                     | Unset => never_set a h /\ never_written a (th_log t) /\ th_file t a = files a
                     | Prev c => last_set (tr RawOf) a h c /\ last_write a (th_log t) c
                                 /\ exists k, (k < n)%nat /\ kernel k a c = Some (th_file t a)
                     end }.
Lemma steady_given tr n w s a : steady daemon has_setrans tr -> has_setrans = true -> given daemon n w s a -> a = tr w s.
Proof.
  intros S H (k & _ & G). specialize (S w s). rewrite H in S. destruct (S k) as [E|[E F]]; destruct G as [G|[G ->]]; congruence.
Qed.
Lemma translate_steady tr n w e s : steady daemon has_setrans tr -> entry_ok n w e -> snd (translate n w e s) = tr w s.
Proof.
  intros S E. destruct (translate_ok n w e s E) as (_ & A & B). destruct has_setrans eqn:H.
  - apply (steady_given tr n w s); [rewrite H; exact S|exact H|apply A; reflexivity].
  - rewrite (B eq_refl). specialize (S w s). symmetry. exact S.
Qed.
(** A step that sets nothing. *)
Definition quiet (o : call) (r : answer) : Prop := forall a c, (o, r) <> (SetRaw a c, Done) /\ (o, r) <> (Set_ a c, Done).
Lemma quiet_step tr files n t t' h o r : quiet o r -> good tr files n t h ->
  entry_ok (S n) RawOf (th_t2r t') -> entry_ok (S n) TransOf (th_r2t t') -> th_prev t' = th_prev t -> th_file t' = th_file t ->
  (th_log t' = th_log t \/ exists a c, th_log t' = mkWr a c false :: th_log t) -> good tr files (S n) t' ((o, r) :: h).
Proof.
  intros Q [G1 G2 G3] E1 E2 P F L. constructor; [exact E1|exact E2|]. intros a. rewrite P, F. specialize (G3 a). destruct (th_prev t a) as [|c].
  - destruct G3 as (A & B & C). split; [|split; [|exact C]].
    + intros c. specialize (A c). destruct (Q a c) as [Q1 Q2]. split; intros [X|X]; [exact (Q1 X)|exact (proj1 A X)|exact (Q2 X)|exact (proj2 A X)].
    + intros c X. destruct L as [L|(a' & c' & L)]; rewrite L in X; [exact (B c X)|]. destruct X as [X|X]; [discriminate|exact (B c X)].
  - destruct G3 as (A & B & k & K & C). split; [|split; [|exists k; split; [lia|exact C]]].
    + apply ls_other; [intros c'; apply Q|intros c'; apply Q|exact A].
    + destruct L as [-> |(a' & c' & ->)]; [exact B|]. apply lw_other; [right; reflexivity|exact B].
Qed.
Lemma entry_later n w e : entry_ok n w e -> entry_ok (S n) w e.
Proof. destruct e as [[q a]|]; [|auto]. cbn. intros [H G]. split; [exact H|]. apply (given_later n); [lia|exact G]. Qed.
(** Setting, of the text [c] after translation. *)
Definition sets (tr : way -> list N -> list N) (o : call) (a : attr) (c : option (list N)) : Prop := o = SetRaw a c \/ exists s, o = Set_ a s /\ c = option_map (tr RawOf) s.
Lemma set_last tr o a c h : sets tr o a c -> last_set (tr RawOf) a ((o, Done) :: h) c.
Proof. intros [-> |(s & -> & ->)]; constructor. Qed.
Lemma set_other tr o a b c : sets tr o a c -> a <> b -> forall r, (forall c', (o, r) <> (SetRaw b c', Done)) /\ (forall c', (o, r) <> (Set_ b c', Done)).
Proof. intros S N r. split; intros c' X; injection X as -> _; destruct S as [S|(s & S & _)]; congruence. Qed.
Lemma set_step tr files n t h o a c : sets tr o a c -> good tr files n t h ->
  let (t', ok) := set_raw kernel n t a c in good tr files (S n) t' ((o, if ok then Done else Fails) :: h).
Proof.
  intros S G. unfold set_raw. set (same := match c with Some _ => _ | None => _ end).
  assert (OUT : forall b p, b <> a -> (forall r, match p with Unset => never_set b h -> never_set b ((o, r) :: h)
                          | Prev c' => last_set (tr RawOf) b h c' -> last_set (tr RawOf) b ((o, r) :: h) c' end)).
  { intros b p NB r. assert (AB : a <> b) by congruence. destruct (set_other tr o a b c S AB r) as [X Y]. destruct p as [|c'].
    - intros NS c0. specialize (NS c0). split; intros [Z|Z]; [exact (X _ Z)|exact (proj1 NS Z)|exact (Y _ Z)|exact (proj2 NS Z)].
    - intros L. apply ls_other; assumption. }
  destruct G as [G1 G2 G3]. destruct same eqn:SM.
  - assert (P : th_prev t a = Prev c).
    { subst same. destruct c as [c|], (th_prev t a) as [|[p|]]; try discriminate; [apply str_eqb_eq in SM; subst; reflexivity|reflexivity]. }
    constructor; [apply entry_later; exact G1|apply entry_later; exact G2|]. intros b. specialize (G3 b).
    destruct (attr_eqb a b) eqn:AB.
    + apply attr_eqb_eq in AB. subst b. rewrite P in *. destruct G3 as (A & B & k & K & C). split; [apply set_last; exact S|]. split; [exact B|]. exists k. split; [lia|exact C].
    + assert (NB : b <> a) by (intros ->; rewrite (proj2 (attr_eqb_eq a a) eq_refl) in AB; discriminate).
      specialize (OUT b (th_prev t b) NB Done). destruct (th_prev t b) as [|c']; [tauto|]. destruct G3 as (A & B & k & K & C).
      split; [auto|]. split; [exact B|]. exists k. split; [lia|exact C].
  - destruct (kernel n a c) as [f|] eqn:K.
    + constructor; [apply entry_later; exact G1|apply entry_later; exact G2|]. cbn [th_prev th_file th_log]. intros b. specialize (G3 b).
      destruct (attr_eqb a b) eqn:AB.
      * apply attr_eqb_eq in AB. subst b. rewrite !upd_same. split; [apply set_last; exact S|]. split; [constructor|]. exists n. split; [lia|exact K].
      * assert (NB : a <> b) by (intros ->; rewrite (proj2 (attr_eqb_eq b b) eq_refl) in AB; discriminate). rewrite !upd_other by assumption.
        assert (NB' : b <> a) by congruence. specialize (OUT b (th_prev t b) NB' Done). destruct (th_prev t b) as [|c'].
        -- destruct G3 as (A & B & C). split; [auto|]. split; [|exact C]. intros c0 [X|X]; [congruence|exact (B _ X)].
        -- destruct G3 as (A & B & k & KK & C). split; [auto|]. split; [apply lw_other; [left; exact NB|exact B]|]. exists k. split; [lia|exact C].
    + apply (quiet_step tr files n t); [|constructor; assumption|apply entry_later; exact G1|apply entry_later; exact G2|reflexivity|reflexivity|right; exists a, c; reflexivity].
      intros b c'. split; discriminate.
Qed.
Lemma perform_good tr files n t h o : steady daemon has_setrans tr -> good tr files n t h ->
  good tr files (S n) (fst (perform n t o)) ((o, snd (perform n t o)) :: h).
Proof.
  intros ST G. assert (G0 := G). destruct G as [G1 G2 G3]. destruct o as [a|a c|a|a c|s|s]; cbn [ProcattrModel.perform].
  - cbn [fst snd]. apply (quiet_step tr files n t); try reflexivity; auto using entry_later. intros b c; split; discriminate.
  - pose proof (set_step tr files n t h (SetRaw a c) a c (or_introl eq_refl) G0) as X. destruct (set_raw kernel n t a c) as [t' ok]. exact X.
  - destruct (get_raw readable page n t a) as [[c|]|].
    + cbn [to_trans]. destruct (translate_ok n TransOf (th_r2t t) c G2) as (E & _). destruct (translate n TransOf (th_r2t t) c) as [e x]. cbn [fst snd].
      apply (quiet_step tr files n t); try reflexivity; auto using entry_later. intros b c'; split; discriminate.
    + cbn [to_trans fst snd]. apply (quiet_step tr files n t); try reflexivity; auto using entry_later. intros b c'; split; discriminate.
    + cbn [fst snd]. apply (quiet_step tr files n t); try reflexivity; auto using entry_later. intros b c'; split; discriminate.
  - destruct c as [s|]; cbn [to_raw].
    + destruct (translate_ok n RawOf (th_t2r t) s G1) as (E & _). pose proof (translate_steady tr n RawOf (th_t2r t) s ST G1) as TS.
      destruct (translate n RawOf (th_t2r t) s) as [e x]. cbn [fst snd] in *. subst x.
      set (t1 := mkTh _ _ _ _ _). assert (GT : good tr files n t1 h) by (constructor; assumption).
      pose proof (set_step tr files n t1 h (Set_ a (Some s)) a (Some (tr RawOf s)) (or_intror (ex_intro _ (Some s) (conj eq_refl eq_refl))) GT) as X.
      destruct (set_raw kernel n t1 a (Some (tr RawOf s))) as [t' ok]. exact X.
    + pose proof (set_step tr files n t h (Set_ a None) a None (or_intror (ex_intro _ None (conj eq_refl eq_refl))) G0) as X.
      destruct (set_raw kernel n t a None) as [t' ok]. exact X.
  - destruct s as [s|]; cbn [to_raw].
    + destruct (translate_ok n RawOf (th_t2r t) s G1) as (E & _). destruct (translate n RawOf (th_t2r t) s) as [e x]. cbn [fst snd].
      apply (quiet_step tr files n t); try reflexivity; auto using entry_later. intros b c'; split; discriminate.
    + cbn [fst snd]. apply (quiet_step tr files n t); try reflexivity; auto using entry_later. intros b c'; split; discriminate.
  - destruct s as [s|]; cbn [to_trans].
    + destruct (translate_ok n TransOf (th_r2t t) s G2) as (E & _). destruct (translate n TransOf (th_r2t t) s) as [e x]. cbn [fst snd].
      apply (quiet_step tr files n t); try reflexivity; auto using entry_later. intros b c'; split; discriminate.
    + cbn [fst snd]. apply (quiet_step tr files n t); try reflexivity; auto using entry_later. intros b c'; split; discriminate.
Qed.
Lemma run_good tr files os : steady daemon has_setrans tr -> forall n t h, good tr files n t h ->
  let '(n', t', h') := run n t h os in good tr files n' t' h'.
Proof.
  intros ST. induction os as [|o os IH]; intros n t h G; cbn [ProcattrModel.run]; [exact G|].
  pose proof (perform_good tr files n t h o ST G) as X. destruct (perform n t o) as [t' r]. exact (IH _ _ _ X).
Qed.
Lemma new_good tr files : good tr files 0 (new_thread files) [].
Proof. constructor; [exact I|exact I|]. intros a. cbn. split; [intros c; tauto|]. split; [intros c X; exact X|reflexivity]. Qed.
Lemma run_ok tr files os n t h : steady daemon has_setrans tr -> run 0 (new_thread files) [] os = (n, t, h) -> good tr files n t h.
Proof. intros ST E. pose proof (run_good tr files os ST 0 (new_thread files) [] (new_good tr files)) as X. rewrite E in X. exact X. Qed.
(** Translations with any daemon. *)
Definition entries (n : nat) (t : thread) : Prop := entry_ok n RawOf (th_t2r t) /\ entry_ok n TransOf (th_r2t t).
Lemma set_entries n t a c : entries n t -> entries (S n) (fst (set_raw kernel n t a c)).
Proof.
  intros [A B]. unfold set_raw. destruct (match c with Some _ => _ | None => _ end); [split; apply entry_later; assumption|].
  destruct (kernel n a c); split; apply entry_later; assumption.
Qed.
Lemma perform_entries n t o : entries n t -> entries (S n) (fst (perform n t o)).
Proof.
  intros [A B]. assert (AB : entries (S n) t) by (split; apply entry_later; assumption).
  assert (TR : forall s, entries n (fst (to_raw daemon has_setrans n t s))).
  { intros [s|]; [|split; assumption]. cbn [to_raw]. destruct (translate_ok n RawOf (th_t2r t) s A) as (E & _).
    destruct (translate n RawOf (th_t2r t) s). split; [exact E|exact B]. }
  assert (TT : forall s, entries n (fst (to_trans daemon has_setrans n t s))).
  { intros [s|]; [|split; assumption]. cbn [to_trans]. destruct (translate_ok n TransOf (th_r2t t) s B) as (E & _).
    destruct (translate n TransOf (th_r2t t) s). split; [exact A|exact E]. }
  assert (L : forall t', entries n t' -> entries (S n) t') by (intros t' [X Y]; split; apply entry_later; assumption).
  destruct o as [a|a c|a|a c|s|s]; cbn [ProcattrModel.perform].
  - exact AB.
  - pose proof (set_entries n t a c (conj A B)) as X. destruct (set_raw kernel n t a c). exact X.
  - destruct (get_raw readable page n t a) as [c|]; [|exact AB]. specialize (TT c). destruct (to_trans daemon has_setrans n t c). apply L. exact TT.
  - specialize (TR c). destruct (to_raw daemon has_setrans n t c) as [t1 r]. pose proof (set_entries n t1 a r TR) as X. destruct (set_raw kernel n t1 a r). exact X.
  - specialize (TR s). destruct (to_raw daemon has_setrans n t s). apply L. exact TR.
  - specialize (TT s). destruct (to_trans daemon has_setrans n t s). apply L. exact TT.
Qed.
Lemma run_entries os : forall n t h, entries n t -> let '(n', t', h') := run n t h os in entries n' t'.
Proof.
  induction os as [|o os IH]; intros n t h E; cbn [ProcattrModel.run]; [exact E|].
  pose proof (perform_entries n t o E) as X. destruct (perform n t o) as [t' r]. exact (IH _ _ _ X).
Qed.
End Proc.
(** Reading *)
Lemma says_read page b o : says b o -> (List.length b < page)%nat -> match firstn (page - 1) b with [] => None | x => Some (cstr x) end = o.
Proof.
  intros S L. rewrite firstn_all2 by lia. destruct S as [|t NE NZ|t r NZ]; [reflexivity| |].
  - destruct t as [|x t]; [congruence|]. f_equal. apply cstr_id. assumption.
  - assert (C : cstr (t ++ 0 :: r) = t).
    { clear L. induction t as [|x t IH]; [reflexivity|]. cbn [app cstr]. destruct (x =? 0) eqn:E; [exfalso; apply NZ; left; apply N.eqb_eq in E; assumption|].
      rewrite IH; [reflexivity|]. intros X. apply NZ. right. assumption. }
    destruct (t ++ 0 :: r) as [|x y] eqn:Q; [destruct t; discriminate|]. f_equal. exact C.
Qed.
Lemma last_write_unique a l c : last_write a l c -> forall c', last_write a l c' -> c = c'.
Proof.
  induction 1 as [c l|w l c W L IH]; intros c' L'; inversion L'; subst; try reflexivity.
  - cbn in *. destruct H1; congruence.
  - cbn in *. destruct W; congruence.
  - apply IH. assumption.
Qed.
Lemma never_no_write a l c : never_written a l -> ~ last_write a l c.
Proof.
  intros N L. induction L as [c l|w l c W L IH]; [exact (N c (or_introl eq_refl))|]. apply IH. intros c' X. exact (N c' (or_intror X)).
Qed.
Lemma never_no_set ro a h c : never_set a h -> ~ last_set ro a h c.
Proof.
  intros N L. induction L as [c h|c h|o r h c A B L IH]; [exact (proj1 (N c) (or_introl eq_refl))|exact (proj2 (N c) (or_introl eq_refl))|].
  apply IH. intros c'. split; intros X; [exact (proj1 (N c') (or_intror X))|exact (proj2 (N c') (or_intror X))].
Qed.
Section Proc2.
Context (kernel : nat -> attr -> option (list N) -> option (list N)) (readable : nat -> attr -> bool)
  (daemon : nat -> way -> list N -> option (list N)) (has_setrans : bool) (page : nat).
Lemma prev_iff tr files n t h a c : good kernel daemon has_setrans tr files n t h -> (th_prev t a = Prev c <-> last_set (tr RawOf) a h c).
Proof.
  intros [_ _ G]. specialize (G a). destruct (th_prev t a) as [|c'].
  - split; [discriminate|]. intros L. exfalso. exact (never_no_set _ _ _ _ (proj1 G) L).
  - destruct G as (A & _). split; [intros E; injection E as <-; exact A|]. intros L. f_equal. exact (last_set_unique _ _ _ _ A _ L).
Qed.
Lemma get_set tr files n t h a c : good kernel daemon has_setrans tr files n t h -> last_set (tr RawOf) a h (Some c) -> get_raw readable page n t a = Some (Some c).
Proof. intros G L. unfold get_raw. rewrite (proj2 (prev_iff _ _ _ _ _ _ _ G) L). reflexivity. Qed.
Lemma get_unset tr files n t h a o : good kernel daemon has_setrans tr files n t h -> (forall c, ~ last_set (tr RawOf) a h (Some c)) ->
  readable n a = true -> says (th_file t a) o -> (List.length (th_file t a) < page)%nat -> get_raw readable page n t a = Some o.
Proof.
  intros G NL R S L. unfold get_raw. rewrite R, (says_read page _ _ S L). destruct (th_prev t a) as [|[c|]] eqn:P; [reflexivity| |reflexivity].
  exfalso. exact (NL c (proj1 (prev_iff _ _ _ _ _ _ _ G) P)).
Qed.
Lemma set_iff tr files n t h a c : good kernel daemon has_setrans tr files n t h ->
  (snd (set_raw kernel n t a c) = true <-> last_set (tr RawOf) a h c \/ kernel n a c <> None)
  /\ (last_set (tr RawOf) a h c -> th_log (fst (set_raw kernel n t a c)) = th_log t).
Proof.
  intros G. rewrite <- (prev_iff _ _ _ _ _ _ _ G). unfold set_raw. set (same := match c with Some _ => _ | None => _ end).
  assert (SM : same = true <-> th_prev t a = Prev c).
  { subst same. destruct c as [c|], (th_prev t a) as [|[p|]]; try (split; [discriminate|congruence]); [|tauto].
    split; [intros E; apply str_eqb_eq in E; congruence|intros E; injection E as ->; apply str_eqb_refl]. }
  destruct same.
  - split; [|reflexivity]. split; [intros _; left; apply SM; reflexivity|reflexivity].
  - assert (NP : th_prev t a <> Prev c) by (intros X; apply SM in X; discriminate).
    split; [|intros X; contradiction]. destruct (kernel n a c); cbn.
    + split; [intros _; right; discriminate|reflexivity].
    + split; [discriminate|]. intros [X|X]; [contradiction|congruence].
Qed.
End Proc2.
