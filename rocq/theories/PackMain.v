From Verif Require Import Base CodecModel CodecProofs ContextModel FtransModel CodecSpec PackModel PackSpec PackProofs.

(** Where sections that follow one another begin, with the end of the last. *)
Fixpoint positions (p : nat) (secs : list (list N)) : list N :=
  match secs with
  | [] => [N.of_nat p]
  | s :: r => N.of_nat p :: positions (p + length s) r
  end.
Definition opt_section (k : N) (x : option (list N)) : list (list N) := match x with Some d => [put32 k ++ d] | None => [] end.
Lemma concat_opt k x : concat (opt_section k x) = text_section k x.
Proof. destruct x; cbn [opt_section concat text_section]; [apply app_nil_r|reflexivity]. Qed.
Lemma opt_length k x : length (concat (opt_section k x)) = size_of x.
Proof. rewrite concat_opt. destruct x; cbn [text_section size_of]; [rewrite app_length, put_len; reflexivity|reflexivity]. Qed.

Lemma positions_ok total : forall secs p, (p + length (concat secs) <= total)%nat ->
  Forall (fun s => fst s <= snd s /\ snd s <= total)%nat (pairs (positions p secs)).
Proof.
  induction secs as [|s r IH]; intros p H; [constructor|]. cbn [concat] in H. rewrite app_length in H.
  specialize (IH (p + length s)%nat ltac:(lia)). cbn [positions].
  assert (E : exists t, positions (p + length s) r = N.of_nat (p + length s) :: t) by (destruct r; cbn [positions]; eauto).
  destruct E as [t E]. rewrite E in *. rewrite pairs_eq. constructor; [|exact IH]. cbn [fst snd]. rewrite !Nat2N.id. lia.
Qed.

(** The offsets that are written. *)
Lemma written_offsets : forall kfs prev w, N.of_nat (prev + length w + length (concat (concat (map (fun kf => opt_section (fst kf) (snd kf)) kfs)))) < 2 ^ 32 ->
  N.of_nat prev :: text_offsets (N.of_nat prev) (u32 (N.of_nat (length w))) (map snd kfs)
    ++ [N.of_nat (prev + length w + length (concat (concat (map (fun kf => opt_section (fst kf) (snd kf)) kfs))))]
  = positions prev (w :: concat (map (fun kf => opt_section (fst kf) (snd kf)) kfs)).
Proof.
  induction kfs as [|[k [d|]] kfs IH]; intros prev w H; cbn [map concat fst snd opt_section app] in *.
  - cbn [concat length] in *. cbn [text_offsets app positions]. do 2 f_equal. lia.
  - cbn [text_offsets]. cbv zeta. rewrite app_length in H. cbn [app] in *.
    assert (LD : length (put32 k ++ d) = (4 + length d)%nat) by (rewrite app_length, put_len; reflexivity).
    assert (E : u32 (N.of_nat prev + u32 (N.of_nat (length w))) = N.of_nat (prev + length w)).
    { unfold u32. rewrite (N.mod_small (N.of_nat (length w))) by lia. rewrite N.mod_small by lia. lia. }
    rewrite E. specialize (IH (prev + length w)%nat (put32 k ++ d) ltac:(lia)).
    replace (N.of_nat (length (put32 k ++ d))) with (N.of_nat (length d) + 4) in IH by lia.
    change (positions prev (w :: (put32 k ++ d) :: concat (map (fun kf => opt_section (fst kf) (snd kf)) kfs)))
      with (N.of_nat prev :: positions (prev + length w) ((put32 k ++ d) :: concat (map (fun kf => opt_section (fst kf) (snd kf)) kfs))).
    rewrite <- IH. cbn [app]. do 5 f_equal. cbn [concat]. rewrite app_length. lia.
  - cbn [text_offsets]. apply IH. exact H.
Qed.

Section Trip.
  Context {P : Type} (pol_read : list N -> option P) (f : list N) (SH : N.of_nat (length f) < 2 ^ 32).
  Lemma skip_pre (pre rest : list N) : skipn (N.to_nat (N.of_nat (length pre))) (pre ++ rest) = rest.
  Proof. rewrite Nat2N.id, skipn_app, skipn_all, Nat.sub_diag. reflexivity. Qed.
  Lemma positions_cons pre s r : exists t, positions (length pre) (s :: r) = N.of_nat (length pre) :: N.of_nat (length pre + length s) :: t
    /\ positions (length (pre ++ s)) r = N.of_nat (length pre + length s) :: t.
  Proof. rewrite app_length. cbn [positions]. destruct r; cbn [positions]; eauto. Qed.
  Lemma one_step pre s r st : read_sections pol_read f (positions (length pre) (s :: r)) st
    = then_do (read_section pol_read f (N.of_nat (length pre)) (N.of_nat (length pre + length s)) st) (read_sections pol_read f (positions (length (pre ++ s)) r)).
  Proof. destruct (positions_cons pre s r) as (t & -> & ->). reflexivity. Qed.
  Lemma one_info pre s r st : info_sections f (positions (length pre) (s :: r)) st
    = match info_section f (N.of_nat (length pre)) (N.of_nat (length pre + length s)) st with None => None | Some st' => info_sections f (positions (length (pre ++ s)) r) st' end.
  Proof. destruct (positions_cons pre s r) as (t & -> & ->). reflexivity. Qed.

  Lemma text_step k d pre post seen : f = pre ++ (put32 k ++ d) ++ post -> word k ->
    get32 (skipn (N.to_nat (N.of_nat (length pre))) f) = Some (k, d ++ post)
    /\ (N.of_nat (length f) <? N.of_nat (length pre)) = false
    /\ (N.of_nat (length pre + length (put32 k ++ d)) - N.of_nat (length pre) <? 4) = false
    /\ read_text seen (N.of_nat (length pre + length (put32 k ++ d)) - N.of_nat (length pre) - 4) (d ++ post) = match seen with Some _ => RErr | None => ROk d end.
  Proof.
    intros E W. assert (LL : length f = (length pre + (4 + length d) + length post)%nat) by (rewrite E, !app_length, put_len; lia).
    assert (L2 : length (put32 k ++ d) = (4 + length d)%nat) by (rewrite app_length, put_len; reflexivity).
    rewrite L2. split; [rewrite E, skip_pre, <- app_assoc; apply get_put, W|]. split; [lia|]. split; [lia|].
    rewrite read_text_spec; [|lia|rewrite app_length; lia].
    replace (N.to_nat (N.of_nat (length pre + (4 + length d)) - N.of_nat (length pre) - 4)) with (length d) by lia.
    rewrite firstn_app, firstn_all, Nat.sub_diag. cbn [firstn]. rewrite app_nil_r. reflexivity.
  Qed.
  Ltac opening k d pre post T4 :=
    match goal with E : f = _ |- _ =>
      let X := fresh in assert (X : f = pre ++ (put32 k ++ d) ++ post) by (rewrite E; reflexivity);
      rewrite one_step; unfold read_section;
      let T1 := fresh in let T2 := fresh in let T3 := fresh in
      destruct (text_step k d pre post None X ltac:(unfold word; reflexivity)) as (T1 & T2 & T3 & T4); rewrite T1, T2, T3; cbv zeta; rewrite ?T4; clear T1 T2 T3
    end.
  Lemma fc_step x pre r st : f = pre ++ concat (opt_section SECTION_FC x ++ r) -> ps_fc st = None ->
    read_sections pol_read f (positions (length pre) (opt_section SECTION_FC x ++ r)) st
    = read_sections pol_read f (positions (length (pre ++ concat (opt_section SECTION_FC x))) r) (mkPS (ps_mod st) x (ps_seusers st) (ps_user_extra st) (ps_netfilter st)).
  Proof.
    destruct x as [d|]; intros E N0; cbn [opt_section app concat] in *.
    - rewrite app_nil_r. opening SECTION_FC d pre (concat r) T4. rewrite N0. change (SECTION_FC =? SECTION_FC) with true. cbv iota. rewrite T4. reflexivity.
    - rewrite app_nil_r. rewrite <- N0. destruct st; reflexivity.
  Qed.
  Lemma seusers_step x pre r st : f = pre ++ concat (opt_section SECTION_SEUSER x ++ r) -> ps_seusers st = None ->
    read_sections pol_read f (positions (length pre) (opt_section SECTION_SEUSER x ++ r)) st
    = read_sections pol_read f (positions (length (pre ++ concat (opt_section SECTION_SEUSER x))) r) (mkPS (ps_mod st) (ps_fc st) x (ps_user_extra st) (ps_netfilter st)).
  Proof.
    destruct x as [d|]; intros E N0; cbn [opt_section app concat] in *.
    - rewrite app_nil_r. opening SECTION_SEUSER d pre (concat r) T4. rewrite N0. change (SECTION_SEUSER =? SECTION_FC) with false. change (SECTION_SEUSER =? SECTION_SEUSER) with true. cbv iota. rewrite T4. reflexivity.
    - rewrite app_nil_r. rewrite <- N0. destruct st; reflexivity.
  Qed.
  Lemma user_extra_step x pre r st : f = pre ++ concat (opt_section SECTION_USER_EXTRA x ++ r) -> ps_user_extra st = None ->
    read_sections pol_read f (positions (length pre) (opt_section SECTION_USER_EXTRA x ++ r)) st
    = read_sections pol_read f (positions (length (pre ++ concat (opt_section SECTION_USER_EXTRA x))) r) (mkPS (ps_mod st) (ps_fc st) (ps_seusers st) x (ps_netfilter st)).
  Proof.
    destruct x as [d|]; intros E N0; cbn [opt_section app concat] in *.
    - rewrite app_nil_r. opening SECTION_USER_EXTRA d pre (concat r) T4. rewrite N0. change (SECTION_USER_EXTRA =? SECTION_FC) with false. change (SECTION_USER_EXTRA =? SECTION_SEUSER) with false.
      change (SECTION_USER_EXTRA =? SECTION_USER_EXTRA) with true. cbv iota. rewrite T4. reflexivity.
    - rewrite app_nil_r. rewrite <- N0. destruct st; reflexivity.
  Qed.
  Lemma netfilter_step x pre r st : f = pre ++ concat (opt_section SECTION_NETFILTER x ++ r) -> ps_netfilter st = None ->
    read_sections pol_read f (positions (length pre) (opt_section SECTION_NETFILTER x ++ r)) st
    = read_sections pol_read f (positions (length (pre ++ concat (opt_section SECTION_NETFILTER x))) r) (mkPS (ps_mod st) (ps_fc st) (ps_seusers st) (ps_user_extra st) x).
  Proof.
    destruct x as [d|]; intros E N0; cbn [opt_section app concat] in *.
    - rewrite app_nil_r. opening SECTION_NETFILTER d pre (concat r) T4. rewrite N0. change (SECTION_NETFILTER =? SECTION_FC) with false. change (SECTION_NETFILTER =? SECTION_SEUSER) with false.
      change (SECTION_NETFILTER =? SECTION_USER_EXTRA) with false. change (SECTION_NETFILTER =? SECTION_NETFILTER) with true. cbv iota. rewrite T4. reflexivity.
    - rewrite app_nil_r. rewrite <- N0. destruct st; reflexivity.
  Qed.
  Lemma mod_step w p pre r : f = pre ++ w ++ concat r -> (4 <= length w)%nat -> word_at w 0 = MOD_MAGIC -> pol_read (w ++ concat r) = Some p -> forall st, ps_mod st = None ->
    read_sections pol_read f (positions (length pre) (w :: r)) st
    = read_sections pol_read f (positions (length (pre ++ w)) r) (mkPS (Some p) (ps_fc st) (ps_seusers st) (ps_user_extra st) (ps_netfilter st)).
  Proof.
    intros E L M R st N0. rewrite one_step. unfold read_section.
    assert (LL : length f = (length pre + length w + length (concat r))%nat) by (rewrite E, !app_length; lia).
    destruct (N.of_nat (length f) <? N.of_nat (length pre)) eqn:B1; [lia|].
    destruct (N.of_nat (length pre + length w) - N.of_nat (length pre) <? 4) eqn:B2; [lia|].
    assert (G : get32 (skipn (N.to_nat (N.of_nat (length pre))) f) = Some (MOD_MAGIC, skipn 4 w ++ concat r)).
    { rewrite E, skip_pre, <- M. destruct w as [|a [|b [|c [|d w]]]]; cbn [length] in L; try lia. unfold get32, word_at. cbn [app le_dec nth skipn Nat.add]. f_equal. f_equal. lia. }
    rewrite G. cbv zeta. change (MOD_MAGIC =? SECTION_FC) with false. change (MOD_MAGIC =? SECTION_SEUSER) with false. change (MOD_MAGIC =? SECTION_USER_EXTRA) with false.
    change (MOD_MAGIC =? SECTION_NETFILTER) with false. change (MOD_MAGIC =? MOD_MAGIC) with true. cbv iota. rewrite N0.
    replace (skipn (N.to_nat (N.of_nat (length pre))) f) with (w ++ concat r) by (rewrite E, skip_pre; reflexivity). rewrite R. reflexivity.
  Qed.
  (** The short look. *)
  Definition some {A} (x : option A) : bool := match x with Some _ => true | None => false end.
  Definition flag (k : N) (b : bool) (st : istate) : istate :=
    mkIS (is_fc st || (b && (k =? SECTION_FC))) (is_seusers st || (b && (k =? SECTION_SEUSER)))
         (is_user_extra st || (b && (k =? SECTION_USER_EXTRA))) (is_netfilter st || (b && (k =? SECTION_NETFILTER))) (is_mod st).
  Definition seen (k : N) (st : istate) : bool :=
    (is_fc st && (k =? SECTION_FC)) || (is_seusers st && (k =? SECTION_SEUSER)) || (is_user_extra st && (k =? SECTION_USER_EXTRA)) || (is_netfilter st && (k =? SECTION_NETFILTER)).
  Lemma text_info k x pre r st : In k [SECTION_FC; SECTION_SEUSER; SECTION_USER_EXTRA; SECTION_NETFILTER] -> f = pre ++ concat (opt_section k x ++ r) -> seen k st = false ->
    (forall d, x = Some d -> 4 <= length d + length (concat r))%nat ->
    info_sections f (positions (length pre) (opt_section k x ++ r)) st
    = info_sections f (positions (length (pre ++ concat (opt_section k x))) r) (flag k (some x) st).
  Proof.
    intros K E S T. destruct x as [d|]; cbn [opt_section app concat some] in *.
    - specialize (T d eq_refl). rewrite app_nil_r, one_info. unfold info_section.
      assert (LL : length f = (length pre + (4 + length d) + length (concat r))%nat) by (rewrite E, !app_length, put_len; lia).
      assert (L2 : length (put32 k ++ d) = (4 + length d)%nat) by (rewrite app_length, put_len; reflexivity).
      destruct (N.of_nat (length f) <? N.of_nat (length pre)) eqn:B1; [lia|].
      assert (U : u32 (N.of_nat (length pre + length (put32 k ++ d)) - N.of_nat (length pre)) <? 4 = false) by (unfold u32; rewrite N.mod_small; lia).
      rewrite U. assert (W : word k) by (cbn [In] in K; unfold word; intuition (subst; reflexivity)).
      rewrite E at 1. rewrite skip_pre, <- app_assoc, get_put by exact W. cbn [rbind].
      destruct (get32 (d ++ concat r)) as [[sec rest]|] eqn:G.
      2:{ pose proof (get32_at (d ++ concat r) 0 ltac:(rewrite app_length; lia)) as Q. change (skipn 0 (d ++ concat r)) with (d ++ concat r) in Q. rewrite Q in G. discriminate. }
      cbn [rbind]. unfold seen in S. unfold flag.
      destruct K as [K|[K|[K|[K|[]]]]]; subst k.
      + change (SECTION_FC =? SECTION_FC) with true in *. change (SECTION_FC =? SECTION_SEUSER) with false in *. change (SECTION_FC =? SECTION_USER_EXTRA) with false in *. change (SECTION_FC =? SECTION_NETFILTER) with false in *.
        rewrite !andb_false_r, !orb_false_r in *. rewrite andb_true_r in S. rewrite S. reflexivity.
      + change (SECTION_SEUSER =? SECTION_FC) with false in *. change (SECTION_SEUSER =? SECTION_SEUSER) with true in *. change (SECTION_SEUSER =? SECTION_USER_EXTRA) with false in *. change (SECTION_SEUSER =? SECTION_NETFILTER) with false in *.
        rewrite !andb_false_r, !orb_false_r in *. rewrite andb_true_r in S. cbn [orb] in S. rewrite S. reflexivity.
      + change (SECTION_USER_EXTRA =? SECTION_FC) with false in *. change (SECTION_USER_EXTRA =? SECTION_SEUSER) with false in *. change (SECTION_USER_EXTRA =? SECTION_USER_EXTRA) with true in *. change (SECTION_USER_EXTRA =? SECTION_NETFILTER) with false in *.
        rewrite !andb_false_r, !orb_false_r in *. rewrite andb_true_r in S. cbn [orb] in S. rewrite S. reflexivity.
      + change (SECTION_NETFILTER =? SECTION_FC) with false in *. change (SECTION_NETFILTER =? SECTION_SEUSER) with false in *. change (SECTION_NETFILTER =? SECTION_USER_EXTRA) with false in *. change (SECTION_NETFILTER =? SECTION_NETFILTER) with true in *.
        rewrite !andb_false_r, !orb_false_r in *. rewrite andb_true_r in S. cbn [orb] in S. rewrite S. reflexivity.
    - rewrite app_nil_r. unfold flag. cbn [andb]. rewrite !orb_false_r. destruct st; reflexivity.
  Qed.
  Lemma mod_info w sec wrest i pre r : f = pre ++ w ++ concat r -> w = put32 MOD_MAGIC ++ put32 sec ++ wrest -> word sec -> info_module sec (wrest ++ concat r) = Some i -> forall st, is_mod st = None ->
    info_sections f (positions (length pre) (w :: r)) st
    = info_sections f (positions (length (pre ++ w)) r) (mkIS (is_fc st) (is_seusers st) (is_user_extra st) (is_netfilter st) (Some i)).
  Proof.
    intros E EW WS R st N0. rewrite one_info. unfold info_section.
    assert (LL : length f = (length pre + length w + length (concat r))%nat) by (rewrite E, !app_length; lia).
    assert (L : length w = (8 + length wrest)%nat) by (rewrite EW, !app_length, !put_len; lia).
    destruct (N.of_nat (length f) <? N.of_nat (length pre)) eqn:B1; [lia|].
    assert (U : u32 (N.of_nat (length pre + length w) - N.of_nat (length pre)) <? 4 = false) by (unfold u32; rewrite N.mod_small; lia).
    rewrite U. rewrite E at 1. rewrite skip_pre. rewrite EW at 1. rewrite <- !app_assoc, get_put by (unfold word; reflexivity). cbn [rbind]. rewrite get_put by exact WS. cbn [rbind].
    change (MOD_MAGIC =? SECTION_FC) with false. change (MOD_MAGIC =? SECTION_SEUSER) with false. change (MOD_MAGIC =? SECTION_USER_EXTRA) with false.
    change (MOD_MAGIC =? SECTION_NETFILTER) with false. change (MOD_MAGIC =? MOD_MAGIC) with true. cbv iota. rewrite N0, R. reflexivity.
  Qed.
End Trip.
