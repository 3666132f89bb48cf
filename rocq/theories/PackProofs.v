From Verif Require Import Base CodecModel CodecProofs ContextModel FtransModel PackModel PackSpec.

Lemma get32_at f i : (i + 4 <= length f)%nat -> get32 (skipn i f) = Some (word_at f i, skipn (i + 4) f).
Proof.
  revert f. induction i as [|i IH]; intros f H.
  - destruct f as [|a [|b [|c [|d f]]]]; cbn [length] in H; try lia. unfold get32, word_at. cbn [skipn le_dec nth Nat.add]. f_equal. f_equal. lia.
  - destruct f as [|x f]; cbn [length] in H; [lia|]. cbn [skipn Nat.add]. rewrite IH by lia. reflexivity.
Qed.
Lemma get32_short bs : (length bs < 4)%nat -> get32 bs = None.
Proof. intros H. destruct bs as [|a [|b [|c [|d f]]]]; cbn [length] in H; try lia; reflexivity. Qed.
Lemma get32_some bs x r : get32 bs = Some (x, r) -> (4 <= length bs)%nat /\ x = word_at bs 0 /\ r = skipn 4 bs.
Proof.
  intros E. destruct (Nat.lt_ge_cases (length bs) 4) as [L|L]; [rewrite get32_short in E by exact L; discriminate|].
  pose proof (get32_at bs 0 ltac:(lia)) as G. change (skipn 0 bs) with bs in G. change (0 + 4)%nat with 4%nat in G. rewrite G in E. injection E as <- <-. auto.
Qed.
Lemma skipn_add {A} (l : list A) : forall n m, skipn n (skipn m l) = skipn (m + n) l.
Proof. induction l as [|a l IH]; intros n [|m]; cbn [skipn Nat.add]; try reflexivity; [apply skipn_nil|apply IH]. Qed.

(** The words after the header. *)
Lemma read_n_at f : forall n i, (i + 4 * n <= length f)%nat ->
  read_n get32 n (skipn i f) = Some (map (fun j => word_at f (i + 4 * j)) (seq 0 n), skipn (i + 4 * n) f).
Proof.
  induction n as [|n IH]; intros i H; cbn [read_n seq map].
  - f_equal. f_equal. f_equal. lia.
  - rewrite get32_at by lia. cbn [rbind]. rewrite IH by lia. cbn [rbind]. f_equal. f_equal.
    + f_equal; [f_equal; lia|]. rewrite <- seq_shift, map_map. apply map_ext. intros j. f_equal. lia.
    + f_equal. lia.
Qed.
Lemma read_n_short : forall n bs, (length bs < 4 * n)%nat -> read_n get32 n bs = None.
Proof.
  induction n as [|n IH]; intros bs H; [lia|]. cbn [read_n]. destruct (get32 bs) as [[x r]|] eqn:E; [|reflexivity]. cbn [rbind].
  apply get32_some in E as (L & _ & ->). rewrite IH; [reflexivity|]. rewrite skipn_length. lia.
Qed.

(** Sections from the offsets. *)
Fixpoint pairs (l : list N) : list (nat * nat) :=
  match l with
  | a :: ((b :: _) as r) => (N.to_nat a, N.to_nat b) :: pairs r
  | _ => []
  end.
Lemma pairs_eq a b r : pairs (a :: b :: r) = (N.to_nat a, N.to_nat b) :: pairs (b :: r).
Proof. reflexivity. Qed.
Lemma pairs_length l e : length (pairs (l ++ [e])) = length l.
Proof. induction l as [|a l IH]; [reflexivity|]. destruct l as [|b l]; [reflexivity|]. cbn [app] in *. rewrite pairs_eq. cbn [length] in *. rewrite IH. reflexivity. Qed.
Lemma pairs_nth : forall l i x y, nth_error l i = Some x -> nth_error l (S i) = Some y -> nth_error (pairs l) i = Some (N.to_nat x, N.to_nat y).
Proof.
  induction l as [|a l IH]; intros i x y H1 H2; [destruct i; discriminate|]. destruct l as [|b l]; [destruct i as [|[|i]]; discriminate|].
  destruct i as [|i].
  - cbn [nth_error] in H1, H2. injection H1 as <-. injection H2 as <-. reflexivity.
  - rewrite pairs_eq. apply (IH i x y H1 H2).
Qed.

(** The offsets of a file. *)
Definition words_of (f : list N) : list N := map (fun j => word_at f (12 + 4 * j)) (seq 0 (N.to_nat (word_at f 8))).
Lemma nth_words f i : (i < N.to_nat (word_at f 8))%nat -> nth_error (words_of f) i = Some (word_at f (12 + 4 * i)).
Proof.
  intros H. unfold words_of. rewrite nth_error_map. rewrite (nth_error_nth' _ 0%nat) by (rewrite seq_length; exact H).
  rewrite seq_nth by exact H. reflexivity.
Qed.
Lemma words_length f : length (words_of f) = N.to_nat (word_at f 8).
Proof. unfold words_of. rewrite map_length, seq_length. reflexivity. Qed.

Lemma table_pairs f L : word_at f 8 = N.of_nat (length L) -> sections_are f L -> L = pairs (words_of f ++ [N.of_nat (length f)]).
Proof.
  intros E T. assert (LL : N.to_nat (word_at f 8) = length L) by lia.
  apply (@nth_ext (nat * nat) _ _ (0, 0)%nat (0, 0)%nat); [rewrite pairs_length, words_length; lia|]. intros i Hi.
  destruct (nth_error L i) as [[a b]|] eqn:Ei; [|apply nth_error_None in Ei; lia].
  destruct (T i a b Ei) as [Ea Eb]. rewrite (nth_error_nth _ _ _ Ei). symmetry. apply nth_error_nth.
  assert (X : nth_error (words_of f ++ [N.of_nat (length f)]) i = Some (N.of_nat a)) by (rewrite nth_error_app1 by (rewrite words_length; lia); rewrite nth_words by lia; f_equal; symmetry; exact Ea).
  assert (Y : nth_error (words_of f ++ [N.of_nat (length f)]) (S i) = Some (N.of_nat b)).
  { rewrite Eb. destruct (Nat.eqb_spec (S i) (length L)) as [C|C].
    - rewrite nth_error_app2 by (rewrite words_length; lia). rewrite words_length, LL, C, Nat.sub_diag. reflexivity.
    - rewrite nth_error_app1 by (rewrite words_length; lia). apply nth_words. lia. }
  rewrite (pairs_nth _ _ _ _ X Y), !Nat2N.id. reflexivity.
Qed.
Lemma pairs_table f : sections_are f (pairs (words_of f ++ [N.of_nat (length f)])).
Proof.
  intros i a b H. assert (Hi : (i < N.to_nat (word_at f 8))%nat) by (assert (nth_error (pairs (words_of f ++ [N.of_nat (length f)])) i <> None) as Q by congruence; apply nth_error_Some in Q; rewrite pairs_length, words_length in Q; exact Q).
  assert (X : nth_error (words_of f ++ [N.of_nat (length f)]) i = Some (word_at f (12 + 4 * i))) by (rewrite nth_error_app1 by (rewrite words_length; lia); apply nth_words, Hi).
  rewrite pairs_length, words_length. destruct (Nat.eqb_spec (S i) (N.to_nat (word_at f 8))) as [C|C].
  - assert (Y : nth_error (words_of f ++ [N.of_nat (length f)]) (S i) = Some (N.of_nat (length f))) by (rewrite nth_error_app2 by (rewrite words_length; lia); rewrite words_length, C, Nat.sub_diag; reflexivity).
    rewrite (pairs_nth _ _ _ _ X Y) in H. injection H as <- <-. rewrite !N2Nat.id. auto.
  - assert (Y : nth_error (words_of f ++ [N.of_nat (length f)]) (S i) = Some (word_at f (12 + 4 * S i))) by (rewrite nth_error_app1 by (rewrite words_length; lia); apply nth_words; lia).
    rewrite (pairs_nth _ _ _ _ X Y) in H. injection H as <- <-. rewrite !N2Nat.id. auto.
Qed.

(** The checks of the offsets. *)
Lemma increasing_pairs : forall ws len, increasing ws = true -> (ws <> [] -> last ws 0 <= len) ->
  Forall (fun s => fst s <= snd s /\ snd s <= N.to_nat len)%nat (pairs (ws ++ [len])).
Proof.
  induction ws as [|a ws IH]; intros len I L; [constructor|]. destruct ws as [|b ws].
  - cbn [app pairs]. constructor; [|constructor]. cbn [fst snd]. specialize (L ltac:(discriminate)). cbn [last] in L. lia.
  - change (negb (b <? a) && increasing (b :: ws) = true) in I. apply andb_prop in I as [I1 I2]. specialize (IH len I2 ltac:(intros _; apply L; discriminate)).
    cbn [app] in *. rewrite pairs_eq. constructor; [|exact IH]. cbn [fst snd]. split; [lia|]. destruct ws as [|c ws]; cbn [app] in IH; rewrite pairs_eq in IH; inversion IH; subst; cbn [fst snd] in *; lia.
Qed.
Lemma pairs_increasing : forall ws len, Forall (fun s => fst s <= snd s)%nat (pairs (ws ++ [len])) -> increasing ws = true /\ (ws <> [] -> last ws 0 <= len).
Proof.
  induction ws as [|a ws IH]; intros len F; [split; [reflexivity|congruence]|]. destruct ws as [|b ws].
  - cbn [app pairs] in F. inversion F; subst. cbn [fst snd] in *. split; [reflexivity|]. intros _. cbn [last]. lia.
  - cbn [app] in *. rewrite pairs_eq in F. inversion F as [|s l F1 F2]; subst. destruct (IH len F2) as [I L]. cbn [fst snd] in F1. split.
    + change (negb (b <? a) && increasing (b :: ws) = true). rewrite I, andb_true_r. lia.
    + intros _. apply (L ltac:(discriminate)).
Qed.

(** What reading the offsets gives. *)
Lemma read_offsets_spec f v offs :
  read_offsets f = Some (v, offs) <->
  (word_at f 0 = PACKAGE_MAGIC /\ word_at f 8 <= 100 /\ (12 + 4 * N.to_nat (word_at f 8) <= length f)%nat /\ v = word_at f 4
   /\ offs = words_of f ++ [N.of_nat (length f)] /\ Forall (fun s => fst s <= snd s /\ snd s <= length f)%nat (pairs offs)).
Proof.
  unfold read_offsets. destruct (Nat.lt_ge_cases (length f) 12) as [S|S].
  - split; [|intros (_ & _ & C & _); lia]. intros E.
    destruct (get32 f) as [[x r]|] eqn:G1; [|discriminate]. cbn [rbind] in E. apply get32_some in G1 as (L1 & _ & ->).
    destruct (get32 (skipn 4 f)) as [[y r]|] eqn:G2; [|discriminate]. cbn [rbind] in E. apply get32_some in G2 as (L2 & _ & ->).
    rewrite skipn_add in E. destruct (get32 (skipn (4 + 4) f)) as [[z r]|] eqn:G3; [|discriminate].
    apply get32_some in G3 as (L3 & _ & ->). rewrite skipn_length in L3. lia.
  - pose proof (get32_at f 0 ltac:(lia)) as G1. change (skipn 0 f) with f in G1. change (0 + 4)%nat with 4%nat in G1. rewrite G1. cbn [rbind].
    rewrite (get32_at f 4) by lia. cbn [rbind]. change (4 + 4)%nat with 8%nat. rewrite (get32_at f 8) by lia. cbn [rbind]. change (8 + 4)%nat with 12%nat.
    unfold PACKAGE_MAGIC, MAXSECTIONS. destruct (word_at f 0 =? 0xf97cff8f) eqn:M; cbn [negb]; [|split; [discriminate|intros (C & _); lia]].
    destruct (100 <? word_at f 8) eqn:X; [split; [discriminate|intros (_ & C & _); lia]|].
    destruct (Nat.lt_ge_cases (length f) (12 + 4 * N.to_nat (word_at f 8))) as [C|C].
    { rewrite read_n_short by (rewrite skipn_length; lia). split; [discriminate|]. intros (_ & _ & D & _). lia. }
    rewrite (read_n_at f (N.to_nat (word_at f 8)) 12) by lia. cbn [rbind]. fold (words_of f).
    assert (EN : (word_at f 8 =? 0) = match words_of f with [] => true | _ => false end).
    { pose proof (words_length f). destruct (words_of f); cbn [length] in *; lia. }
    assert (M' : word_at f 0 = 0xf97cff8f) by lia.
    split.
    + destruct (increasing (words_of f)) eqn:I; cbn [negb]; [|discriminate].
      destruct (negb (word_at f 8 =? 0) && (N.of_nat (length f) <? last (words_of f) 0)) eqn:B; [discriminate|]. intros E. injection E as <- <-.
      split; [exact M'|]. split; [lia|]. split; [lia|]. split; [reflexivity|]. split; [reflexivity|].
      pose proof (increasing_pairs (words_of f) (N.of_nat (length f)) I) as Q. rewrite Nat2N.id in Q. apply Q.
      intros NE. rewrite EN in B. destruct (words_of f); [congruence|]. cbn [negb andb] in B. lia.
    + intros (_ & _ & _ & -> & -> & F).
      destruct (pairs_increasing (words_of f) (N.of_nat (length f))) as [I L]; [eapply Forall_impl; [|exact F]; cbn beta; tauto|].
      rewrite I. cbn [negb]. destruct (negb (word_at f 8 =? 0) && (N.of_nat (length f) <? last (words_of f) 0)) eqn:B; [|reflexivity].
      exfalso. rewrite EN in B. destruct (words_of f); [discriminate|]. specialize (L ltac:(discriminate)). lia.
Qed.

(** Reading a text. *)
Lemma read_helper_spec : forall fuel n bs, (N.to_nat n < fuel)%nat ->
  read_helper fuel n bs = if N.of_nat (length bs) <? n then None else Some (firstn (N.to_nat n) bs).
Proof.
  induction fuel as [|fuel IH]; intros n bs H; [lia|]. cbn [read_helper]. destruct (n =? 0) eqn:Z.
  - assert (n = 0) by lia. subst n. destruct (N.of_nat (length bs) <? 0) eqn:C; [lia|reflexivity].
  - set (r := if n <? BUFSIZ then n else BUFSIZ). assert (R : 0 < r /\ r <= n) by (unfold r, BUFSIZ; destruct (n <? 8192) eqn:B; lia).
    destruct (N.of_nat (length bs) <? r) eqn:C.
    + destruct (N.of_nat (length bs) <? n) eqn:D; [reflexivity|lia].
    + rewrite IH by lia. rewrite skipn_length. destruct (N.of_nat (length bs - N.to_nat r) <? n - r) eqn:D.
      * destruct (N.of_nat (length bs) <? n) eqn:D2; [reflexivity|lia].
      * destruct (N.of_nat (length bs) <? n) eqn:D2; [lia|]. f_equal.
        replace (N.to_nat n) with (N.to_nat r + N.to_nat (n - r))%nat by lia.
        rewrite <- (firstn_skipn (N.to_nat r) bs) at 3. rewrite firstn_app, firstn_firstn, firstn_length.
        rewrite (Nat.min_r (N.to_nat r + N.to_nat (n - r)) (N.to_nat r)) by lia. f_equal.
        f_equal. lia.
Qed.
Lemma read_text_spec seen n bs : n < 2 ^ 32 -> n <= N.of_nat (length bs) ->
  read_text seen n bs = match seen with Some _ => RErr | None => ROk (firstn (N.to_nat n) bs) end.
Proof.
  intros W L. unfold read_text. destruct seen; [reflexivity|]. destruct (2 ^ 32 <=? n) eqn:B; [lia|].
  rewrite read_helper_spec by lia. destruct (N.of_nat (length bs) <? n) eqn:C; [lia|reflexivity].
Qed.

(** The fields, by kind. *)
Definition kinds := [SECTION_FC; SECTION_SEUSER; SECTION_USER_EXTRA; SECTION_NETFILTER; MOD_MAGIC].
Definition becomes {X} (f : list N) (kind : N) (value : nat -> nat -> option X) (L : list (nat * nat)) (x y : option X) : Prop :=
  match x with
  | Some v => y = Some v /\ none_of f kind L
  | None => only_one f kind value L y
  end.
Lemma becomes_nil {X} f kind (value : nat -> nat -> option X) x y : becomes f kind value [] x y <-> y = x.
Proof.
  unfold becomes, only_one, none_of. destruct x as [v|]; [split; [tauto|intros ->; auto]|]. destruct y as [v|]; [|split; auto].
  split; [|discriminate]. intros (L1 & a & b & L2 & E & _). destruct L1; discriminate.
Qed.
Lemma becomes_other {X} f kind (value : nat -> nat -> option X) a b L x y : word_at f a <> kind -> (becomes f kind value ((a, b) :: L) x y <-> becomes f kind value L x y).
Proof.
  intros NE. unfold becomes, only_one, none_of. destruct x as [v|].
  - split; [intros [E F]; inversion F; auto|intros [E F]; split; [exact E|constructor; [exact NE|exact F]]].
  - destruct y as [v|].
    + split.
      * intros (L1 & a' & b' & L2 & E & W & V & N1 & N2). destruct L1 as [|s L1]; cbn [app] in E.
        { injection E as <- <- <-. congruence. }
        injection E as <- E2. inversion N1; subst. exists L1, a', b', L2. auto.
      * intros (L1 & a' & b' & L2 & E & W & V & N1 & N2). exists ((a, b) :: L1), a', b', L2. subst L. split; [reflexivity|]. split; [exact W|]. split; [exact V|].
        split; [constructor; [exact NE|exact N1]|exact N2].
    + split; [intros F; inversion F; auto|intros F; constructor; [exact NE|exact F]].
Qed.
Lemma becomes_seen {X} f kind (value : nat -> nat -> option X) a b L v y : word_at f a = kind -> ~ becomes f kind value ((a, b) :: L) (Some v) y.
Proof. intros E [_ F]. inversion F; subst. cbn [fst] in *. congruence. Qed.
Lemma becomes_new {X} f kind (value : nat -> nat -> option X) a b L y : word_at f a = kind ->
  (becomes f kind value ((a, b) :: L) None y <-> exists v, value a b = Some v /\ becomes f kind value L (Some v) y).
Proof.
  intros E. unfold becomes, only_one, none_of. split.
  - destruct y as [v|].
    + intros (L1 & a' & b' & L2 & EL & W & V & N1 & N2). destruct L1 as [|s L1]; cbn [app] in EL.
      * injection EL as <- <- <-. exists v. auto.
      * injection EL as <- E2. inversion N1; subst. cbn [fst] in *. congruence.
    + intros F. inversion F; subst. cbn [fst] in *. congruence.
  - intros (v & V & -> & F). exists [], a, b, L. split; [reflexivity|]. auto.
Qed.

Local Ltac close_it := solve [assumption | eexists; split; [first [reflexivity | eassumption]|assumption]].
Section Reading.
  Context {P : Type} (pol_read : list N -> option P) (f : list N).
  Notation modv := (fun (a _ : nat) => pol_read (skipn a f)).
  Definition all_become (L : list (nat * nat)) (st st' : pstate P) : Prop :=
    becomes f MOD_MAGIC modv L (ps_mod st) (ps_mod st') /\ becomes f SECTION_FC (text_of_section f) L (ps_fc st) (ps_fc st')
    /\ becomes f SECTION_SEUSER (text_of_section f) L (ps_seusers st) (ps_seusers st')
    /\ becomes f SECTION_USER_EXTRA (text_of_section f) L (ps_user_extra st) (ps_user_extra st')
    /\ becomes f SECTION_NETFILTER (text_of_section f) L (ps_netfilter st) (ps_netfilter st').

  Lemma section_text o e : (o + 4 <= e)%nat -> (e <= length f)%nat -> N.of_nat (length f) < 2 ^ 32 -> forall seen,
    read_text seen (N.of_nat e - N.of_nat o - 4) (skipn (o + 4) f) = match seen with Some _ => RErr | None => ROk (bytes_between f (o + 4) e) end.
  Proof.
    intros H1 H2 W seen. rewrite read_text_spec by (try rewrite skipn_length; lia). destruct seen; [reflexivity|]. unfold bytes_between. f_equal. f_equal. lia.
  Qed.

  Lemma sections_read : N.of_nat (length f) < 2 ^ 32 -> forall offs st st',
    Forall (fun s => fst s <= snd s /\ snd s <= length f)%nat (pairs offs) ->
    (read_sections pol_read f offs st = ROk st' <-> Forall (fun s => fst s + 4 <= snd s)%nat (pairs offs) /\ all_become (pairs offs) st st').
  Proof.
    intros W. induction offs as [|o offs IH]; intros st st' F.
    - cbn [read_sections pairs]. unfold all_become. rewrite !becomes_nil. destruct st, st'; cbn. split; [intros E; injection E; intros; subst; auto 10|intros (_ & -> & -> & -> & -> & ->); reflexivity].
    - destruct offs as [|e offs].
      { cbn [read_sections pairs]. unfold all_become. rewrite !becomes_nil. destruct st, st'; cbn. split; [intros E; injection E; intros; subst; auto 10|intros (_ & -> & -> & -> & -> & ->); reflexivity]. }
      rewrite pairs_eq in F. inversion F as [|s l F1 F2]; subst. cbn [fst snd] in F1.
      change (read_sections pol_read f (o :: e :: offs) st) with (then_do (read_section pol_read f o e st) (read_sections pol_read f (e :: offs))).
      change (pairs (o :: e :: offs)) with ((N.to_nat o, N.to_nat e) :: pairs (e :: offs)).
      unfold read_section. destruct (N.of_nat (length f) <? o) eqn:B1; [lia|].
      destruct (e - o <? 4) eqn:B2.
      { split; [discriminate|]. intros [C _]. inversion C; subst. cbn [fst snd] in *. lia. }
      rewrite get32_at by lia. set (k := word_at f (N.to_nat o)).
      assert (T : forall seen, read_text seen (e - o - 4) (skipn (N.to_nat o + 4) f) = match seen with Some _ => RErr | None => ROk (bytes_between f (N.to_nat o + 4) (N.to_nat e)) end).
      { intros seen. rewrite <- (section_text (N.to_nat o) (N.to_nat e)) by lia. rewrite !N2Nat.id. reflexivity. }
      assert (FC : Forall (fun s => fst s + 4 <= snd s)%nat ((N.to_nat o, N.to_nat e) :: pairs (e :: offs)) <-> Forall (fun s => fst s + 4 <= snd s)%nat (pairs (e :: offs))).
      { split; [intros Q; inversion Q; assumption|intros Q; constructor; [cbn [fst snd]; lia|exact Q]]. }
      rewrite FC. cbv zeta. rewrite !T.
      assert (KD : forall x y, word_at f (N.to_nat o) = x -> x <> y -> word_at f (N.to_nat o) <> y) by congruence.
      destruct (k =? SECTION_FC) eqn:K1; [|destruct (k =? SECTION_SEUSER) eqn:K2; [|destruct (k =? SECTION_USER_EXTRA) eqn:K3; [|destruct (k =? SECTION_NETFILTER) eqn:K4; [|destruct (k =? MOD_MAGIC) eqn:K5]]]].
      + apply N.eqb_eq in K1. unfold all_become. try rewrite (becomes_other f MOD_MAGIC modv (N.to_nat o)) by (apply (KD _ _ K1); discriminate). try rewrite (becomes_other f SECTION_FC (text_of_section f) (N.to_nat o)) by (apply (KD _ _ K1); discriminate). try rewrite (becomes_other f SECTION_SEUSER (text_of_section f) (N.to_nat o)) by (apply (KD _ _ K1); discriminate). try rewrite (becomes_other f SECTION_USER_EXTRA (text_of_section f) (N.to_nat o)) by (apply (KD _ _ K1); discriminate). try rewrite (becomes_other f SECTION_NETFILTER (text_of_section f) (N.to_nat o)) by (apply (KD _ _ K1); discriminate).
        destruct (ps_fc st) as [v|] eqn:SE.
        * cbn [then_do]. split; [discriminate|]. intros (_ & _ & C & _). elim (becomes_seen f SECTION_FC (text_of_section f) _ _ _ _ _ K1 C).
        * cbn [then_do]. rewrite IH by exact F2. unfold all_become. cbn [ps_mod ps_fc ps_seusers ps_user_extra ps_netfilter]. rewrite (becomes_new f SECTION_FC (text_of_section f) _ _ _ _ K1).
          split; [intros (G0 & G1 & G2 & G3 & G4 & G5); (split; [exact G0|]; split; [close_it|]; split; [close_it|]; split; [close_it|]; split; close_it)|intros (G0 & G1 & (v & V & G2) & G3 & G4 & G5); injection V as <-; exact (conj G0 (conj G1 (conj G2 (conj G3 (conj G4 G5)))))].
      + apply N.eqb_eq in K2. unfold all_become. try rewrite (becomes_other f MOD_MAGIC modv (N.to_nat o)) by (apply (KD _ _ K2); discriminate). try rewrite (becomes_other f SECTION_FC (text_of_section f) (N.to_nat o)) by (apply (KD _ _ K2); discriminate). try rewrite (becomes_other f SECTION_SEUSER (text_of_section f) (N.to_nat o)) by (apply (KD _ _ K2); discriminate). try rewrite (becomes_other f SECTION_USER_EXTRA (text_of_section f) (N.to_nat o)) by (apply (KD _ _ K2); discriminate). try rewrite (becomes_other f SECTION_NETFILTER (text_of_section f) (N.to_nat o)) by (apply (KD _ _ K2); discriminate).
        destruct (ps_seusers st) as [v|] eqn:SE.
        * cbn [then_do]. split; [discriminate|]. intros (_ & _ & _ & C & _). elim (becomes_seen f SECTION_SEUSER (text_of_section f) _ _ _ _ _ K2 C).
        * cbn [then_do]. rewrite IH by exact F2. unfold all_become. cbn [ps_mod ps_fc ps_seusers ps_user_extra ps_netfilter]. rewrite (becomes_new f SECTION_SEUSER (text_of_section f) _ _ _ _ K2).
          split; [intros (G0 & G1 & G2 & G3 & G4 & G5); (split; [exact G0|]; split; [close_it|]; split; [close_it|]; split; [close_it|]; split; close_it)|intros (G0 & G1 & G2 & (v & V & G3) & G4 & G5); injection V as <-; exact (conj G0 (conj G1 (conj G2 (conj G3 (conj G4 G5)))))].
      + apply N.eqb_eq in K3. unfold all_become. try rewrite (becomes_other f MOD_MAGIC modv (N.to_nat o)) by (apply (KD _ _ K3); discriminate). try rewrite (becomes_other f SECTION_FC (text_of_section f) (N.to_nat o)) by (apply (KD _ _ K3); discriminate). try rewrite (becomes_other f SECTION_SEUSER (text_of_section f) (N.to_nat o)) by (apply (KD _ _ K3); discriminate). try rewrite (becomes_other f SECTION_USER_EXTRA (text_of_section f) (N.to_nat o)) by (apply (KD _ _ K3); discriminate). try rewrite (becomes_other f SECTION_NETFILTER (text_of_section f) (N.to_nat o)) by (apply (KD _ _ K3); discriminate).
        destruct (ps_user_extra st) as [v|] eqn:SE.
        * cbn [then_do]. split; [discriminate|]. intros (_ & _ & _ & _ & C & _). elim (becomes_seen f SECTION_USER_EXTRA (text_of_section f) _ _ _ _ _ K3 C).
        * cbn [then_do]. rewrite IH by exact F2. unfold all_become. cbn [ps_mod ps_fc ps_seusers ps_user_extra ps_netfilter]. rewrite (becomes_new f SECTION_USER_EXTRA (text_of_section f) _ _ _ _ K3).
          split; [intros (G0 & G1 & G2 & G3 & G4 & G5); (split; [exact G0|]; split; [close_it|]; split; [close_it|]; split; [close_it|]; split; close_it)|intros (G0 & G1 & G2 & G3 & (v & V & G4) & G5); injection V as <-; exact (conj G0 (conj G1 (conj G2 (conj G3 (conj G4 G5)))))].
      + apply N.eqb_eq in K4. unfold all_become. try rewrite (becomes_other f MOD_MAGIC modv (N.to_nat o)) by (apply (KD _ _ K4); discriminate). try rewrite (becomes_other f SECTION_FC (text_of_section f) (N.to_nat o)) by (apply (KD _ _ K4); discriminate). try rewrite (becomes_other f SECTION_SEUSER (text_of_section f) (N.to_nat o)) by (apply (KD _ _ K4); discriminate). try rewrite (becomes_other f SECTION_USER_EXTRA (text_of_section f) (N.to_nat o)) by (apply (KD _ _ K4); discriminate). try rewrite (becomes_other f SECTION_NETFILTER (text_of_section f) (N.to_nat o)) by (apply (KD _ _ K4); discriminate).
        destruct (ps_netfilter st) as [v|] eqn:SE.
        * cbn [then_do]. split; [discriminate|]. intros (_ & _ & _ & _ & _ & C). elim (becomes_seen f SECTION_NETFILTER (text_of_section f) _ _ _ _ _ K4 C).
        * cbn [then_do]. rewrite IH by exact F2. unfold all_become. cbn [ps_mod ps_fc ps_seusers ps_user_extra ps_netfilter]. rewrite (becomes_new f SECTION_NETFILTER (text_of_section f) _ _ _ _ K4).
          split; [intros (G0 & G1 & G2 & G3 & G4 & G5); (split; [exact G0|]; split; [close_it|]; split; [close_it|]; split; [close_it|]; split; close_it)|intros (G0 & G1 & G2 & G3 & G4 & (v & V & G5)); injection V as <-; exact (conj G0 (conj G1 (conj G2 (conj G3 (conj G4 G5)))))].
      + apply N.eqb_eq in K5. unfold all_become. try rewrite (becomes_other f MOD_MAGIC modv (N.to_nat o)) by (apply (KD _ _ K5); discriminate). try rewrite (becomes_other f SECTION_FC (text_of_section f) (N.to_nat o)) by (apply (KD _ _ K5); discriminate). try rewrite (becomes_other f SECTION_SEUSER (text_of_section f) (N.to_nat o)) by (apply (KD _ _ K5); discriminate). try rewrite (becomes_other f SECTION_USER_EXTRA (text_of_section f) (N.to_nat o)) by (apply (KD _ _ K5); discriminate). try rewrite (becomes_other f SECTION_NETFILTER (text_of_section f) (N.to_nat o)) by (apply (KD _ _ K5); discriminate).
        destruct (ps_mod st) as [v|] eqn:SE.
        * cbn [then_do]. split; [discriminate|]. intros (_ & C & _). elim (becomes_seen f MOD_MAGIC modv _ _ _ _ _ K5 C).
        * rewrite (becomes_new f MOD_MAGIC modv _ _ _ _ K5). cbv beta. destruct (pol_read (skipn (N.to_nat o) f)) as [p|] eqn:PR; cbn [then_do].
          -- rewrite IH by exact F2. unfold all_become. cbn [ps_mod ps_fc ps_seusers ps_user_extra ps_netfilter].
             split; [intros (G0 & G1 & G2 & G3 & G4 & G5); (split; [exact G0|]; split; [close_it|]; split; [close_it|]; split; [close_it|]; split; close_it)|intros (G0 & (v & V & G1) & G2 & G3 & G4 & G5); injection V as <-; exact (conj G0 (conj G1 (conj G2 (conj G3 (conj G4 G5)))))].
          -- split; [discriminate|]. intros (_ & (v & V & _) & _). discriminate V.
      + apply N.eqb_neq in K1, K2, K3, K4, K5. unfold all_become. try rewrite (becomes_other f MOD_MAGIC modv (N.to_nat o)) by assumption. try rewrite (becomes_other f SECTION_FC (text_of_section f) (N.to_nat o)) by assumption. try rewrite (becomes_other f SECTION_SEUSER (text_of_section f) (N.to_nat o)) by assumption. try rewrite (becomes_other f SECTION_USER_EXTRA (text_of_section f) (N.to_nat o)) by assumption. try rewrite (becomes_other f SECTION_NETFILTER (text_of_section f) (N.to_nat o)) by assumption. cbn [then_do]. apply IH, F2.
  Qed.

  Theorem read_exactly p : N.of_nat (length f) < 2 ^ 32 ->
    (package_read pol_read f = ROk p <-> holds pol_read f (pk_version p) (pk_policy p) (pk_fc p) (pk_seusers p) (pk_user_extra p) (pk_netfilter p)).
  Proof.
    intros W. unfold package_read. split.
    - destruct (read_offsets f) as [[v offs]|] eqn:E; [|discriminate]. apply read_offsets_spec in E as (M & N8 & LF & -> & EO & F).
      destruct (read_sections pol_read f offs _) as [st| |] eqn:R; cbn [then_do]; try discriminate.
      apply (sections_read W offs _ _ F) in R as [F4 (A1 & A2 & A3 & A4 & A5)]. cbn [ps_mod ps_fc ps_seusers ps_user_extra ps_netfilter becomes] in *.
      destruct (ps_mod st) as [q|] eqn:Q; [|discriminate]. intros X. injection X as <-. cbn [pk_version pk_policy pk_fc pk_seusers pk_user_extra pk_netfilter].
      exists (pairs offs). split; [|split; [reflexivity|]; split; [exact A1|]; auto].
      subst offs. split; [exact M|]. rewrite pairs_length, words_length. split; [lia|]. split; [lia|]. split; [lia|]. split; [apply pairs_table|].
      rewrite Forall_forall in *. intros s I. specialize (F s I). specialize (F4 s I). cbv beta in *. lia.
    - intros (L & (M & N8 & L100 & LF & T & G) & V & A1 & A2 & A3 & A4 & A5).
      pose proof (table_pairs f L N8 T) as EL.
      assert (F : Forall (fun s => fst s <= snd s /\ snd s <= length f)%nat (pairs (words_of f ++ [N.of_nat (length f)]))).
      { rewrite <- EL. eapply Forall_impl; [|exact G]. cbv beta. intros; lia. }
      assert (E : read_offsets f = Some (pk_version p, words_of f ++ [N.of_nat (length f)])).
      { apply read_offsets_spec. split; [exact M|]. split; [lia|]. split; [lia|]. split; [exact V|]. split; [reflexivity|exact F]. }
      rewrite E. assert (R : read_sections pol_read f (words_of f ++ [N.of_nat (length f)]) (mkPS None None None None None)
        = ROk (mkPS (Some (pk_policy p)) (pk_fc p) (pk_seusers p) (pk_user_extra p) (pk_netfilter p))).
      { apply (sections_read W _ _ _ F). rewrite <- EL. split; [eapply Forall_impl; [|exact G]; cbv beta; intros; lia|].
        unfold all_become. cbn [ps_mod ps_fc ps_seusers ps_user_extra ps_netfilter becomes]. auto. }
      rewrite R. cbn [then_do ps_mod ps_fc ps_seusers ps_user_extra ps_netfilter]. destruct p; reflexivity.
  Qed.
  Theorem read_defined : N.of_nat (length f) < 2 ^ 32 -> package_read pol_read f <> RUB.
  Proof.
    intros W. unfold package_read. destruct (read_offsets f) as [[v offs]|] eqn:E; [|discriminate]. apply read_offsets_spec in E as (_ & _ & _ & _ & _ & F).
    assert (X : forall st, read_sections pol_read f offs st <> RUB).
    { clear v. induction offs as [|o offs IH]; intros st; [discriminate|]. destruct offs as [|e offs]; [discriminate|].
      rewrite pairs_eq in F. inversion F as [|s l F1 F2]; subst. cbn [fst snd] in F1. specialize (IH F2).
      change (read_sections pol_read f (o :: e :: offs) st) with (then_do (read_section pol_read f o e st) (read_sections pol_read f (e :: offs))).
      unfold read_section. destruct (N.of_nat (length f) <? o) eqn:B1; [discriminate|]. destruct (e - o <? 4) eqn:B2; [discriminate|].
      rewrite get32_at by lia. cbv zeta.
      assert (T : forall seen, read_text seen (e - o - 4) (skipn (N.to_nat o + 4) f) = match seen with Some _ => RErr | None => ROk (bytes_between f (N.to_nat o + 4) (N.to_nat e)) end).
      { intros seen. rewrite <- (section_text (N.to_nat o) (N.to_nat e)) by lia. rewrite !N2Nat.id. reflexivity. }
      rewrite !T. repeat match goal with |- context [if ?b then _ else _] => destruct b end; cbn [then_do];
        try (match goal with |- context [match ?x with Some _ => _ | None => _ end] => destruct x end; cbn [then_do]); try discriminate; try apply IH. }
    specialize (X (mkPS None None None None None)). destruct (read_sections _ _ _ _) as [st| |]; cbn [then_do]; [destruct (ps_mod st); discriminate|discriminate|congruence].
  Qed.
End Reading.
