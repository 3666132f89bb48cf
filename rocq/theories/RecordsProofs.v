(** Proofs about the text files of records: what is written is read back. *)
From Verif Require Import Base MlsModel ContextModel ContextProofs LoginModel RecordsModel RecordsSpec.

Lemma isspace_white c : isspace c = true <-> white c.
Proof. unfold isspace, white. rewrite orb_true_iff, andb_true_iff. lia. Qed.
Lemma isspace_not c : ~ white c -> isspace c = false.
Proof. intros H. destruct (isspace c) eqn:E; [|reflexivity]. apply isspace_white in E. contradiction. Qed.

(** ** Buffers *)
Lemma buffers_line l r : ~ In 10 l -> buffers (l ++ 10 :: r) = (l ++ [0; 0]) :: buffers r.
Proof.
  induction l as [|c l IH]; intros H.
  - cbn [app buffers]. change (10 =? 10) with true. reflexivity.
  - cbn [app buffers]. assert (E : (c =? 10) = false) by (cbn in H; lia). rewrite E. rewrite IH by (intros X; apply H; right; exact X). reflexivity.
Qed.

(** ** The parser on known memory *)
Definition st (m : list N) (bs : list (list N)) : pst := mkPS (Some m) bs.
Definition solid (c : N) : Prop := c <> 0 /\ ~ white c.

Lemma skip_solid c t bs : solid c -> parse_skip_space (st (c :: t) bs) = POk tt (st (c :: t) bs).
Proof.
  intros [A B]. unfold parse_skip_space, st. cbn [ps_cur ps_rest skip_mem].
  assert (E : (c =? 0) = false) by lia. rewrite E, (isspace_not c B). rewrite E. reflexivity.
Qed.
Lemma skip_blank t bs : parse_skip_space (st (32 :: t) bs) = parse_skip_space (st t bs).
Proof. reflexivity. Qed.
Lemma skip_end t bs : parse_skip_space (st (0 :: t) bs) = load_line bs.
Proof. reflexivity. Qed.
Lemma space_blank t bs : parse_assert_space (st (32 :: t) bs) = parse_skip_space (st t bs).
Proof. reflexivity. Qed.
Lemma space_end t bs : parse_assert_space (st (0 :: t) bs) = load_line bs.
Proof. reflexivity. Qed.
Lemma assert_same c t bs : parse_assert_ch c (st (c :: t) bs) = POk tt (st t bs).
Proof. unfold parse_assert_ch, st. cbn [ps_cur ps_rest]. rewrite N.eqb_refl. reflexivity. Qed.
Lemma optional_same c t bs : parse_optional_ch c (st (c :: t) bs) = POk true (st t bs).
Proof. unfold parse_optional_ch, st. cbn [ps_cur ps_rest]. rewrite N.eqb_refl. reflexivity. Qed.
Lemma optional_other c d t bs : d <> c -> parse_optional_ch c (st (d :: t) bs) = POk false (st (d :: t) bs).
Proof. intros H. unfold parse_optional_ch, st. cbn [ps_cur ps_rest]. assert (E : (d =? c) = false) by lia. rewrite E. reflexivity. Qed.
Lemma prefix_same w m : prefix_mem w (w ++ m) = Some (Some m).
Proof. induction w as [|c w IH]; [destruct m; reflexivity|]. cbn [app prefix_mem]. rewrite N.eqb_refl. exact IH. Qed.
Lemma str_same w m bs : parse_assert_str w (st (w ++ m) bs) = POk tt (st m bs).
Proof. unfold parse_assert_str, st. cbn [ps_cur ps_rest]. rewrite prefix_same. reflexivity. Qed.
Lemma optstr_same w m bs : parse_optional_str w (st (w ++ m) bs) = POk true (st m bs).
Proof. unfold parse_optional_str, st. cbn [ps_cur ps_rest]. rewrite prefix_same. reflexivity. Qed.
Lemma optstr_other a w c m bs : a <> c -> parse_optional_str (a :: w) (st (c :: m) bs) = POk false (st (c :: m) bs).
Proof. intros H. unfold parse_optional_str, st. cbn [ps_cur ps_rest prefix_mem]. assert (E : (a =? c) = false) by lia. rewrite E. reflexivity. Qed.

(** Characters that a string may have, and those that end it. *)
Definition inside (d : N) (allow : bool) (c : N) : Prop := c <> 0 /\ c <> d /\ (allow = false -> ~ white c).
Definition stops (d : N) (allow : bool) (c : N) : Prop := c = 0 \/ c = d \/ (allow = false /\ white c).
Lemma take_ok d a w c m : Forall (inside d a) w -> stops d a c -> take_mem d a (w ++ c :: m) = Some (w, c :: m).
Proof.
  intros F S. induction F as [|x w (A & B & C) F IH]; cbn [app take_mem].
  - assert (E : negb (c =? 0) && (a || negb (isspace c)) && negb (c =? d) = false).
    { destruct S as [->|[->|[-> S]]]; [reflexivity|rewrite N.eqb_refl; apply andb_false_r|].
      apply isspace_white in S. rewrite S. cbn. rewrite andb_false_r. reflexivity. }
    rewrite E. reflexivity.
  - assert (E : negb (x =? 0) && (a || negb (isspace x)) && negb (x =? d) = true).
    { assert (E1 : (x =? 0) = false) by lia. assert (E2 : (x =? d) = false) by lia. rewrite E1, E2. cbn.
      destruct a; [reflexivity|]. rewrite (isspace_not x (C eq_refl)). reflexivity. }
    rewrite E, IH. reflexivity.
Qed.
Lemma fetch_ok d a w c m bs : w <> [] -> Forall (inside d a) w -> stops d a c ->
  parse_fetch_string d a (st (w ++ c :: m) bs) = POk w (st (c :: m) bs).
Proof.
  intros N F S. unfold parse_fetch_string, st. cbn [ps_cur ps_rest]. rewrite (take_ok d a w c m F S). destruct w; [contradiction|reflexivity].
Qed.

Lemma word_inside d w : word w -> (~ In d w) -> Forall (inside d false) w.
Proof.
  intros [_ G] H. apply Forall_forall. intros c Hc. pose proof (proj1 (Forall_forall _ _) G c Hc) as [A B].
  split; [exact A|]. split; [intros ->; contradiction|]. intros _. exact B.
Qed.
Lemma word_inside32 w : word w -> Forall (inside 32 false) w.
Proof. intros H. apply word_inside; [exact H|]. intros X. destruct H as [_ G]. pose proof (proj1 (Forall_forall _ _) G 32 X) as [_ B]. apply B. left. reflexivity. Qed.
Lemma phrase_inside d w : phrase w -> ~ In d w -> Forall (inside d true) w.
Proof.
  intros [G _] H. apply Forall_forall. intros c Hc. pose proof (proj1 (Forall_forall _ _) G c Hc) as [A B].
  split; [exact A|]. split; [intros ->; contradiction|discriminate].
Qed.
Lemma word_first w : word w -> exists c t, w = c :: t /\ solid c.
Proof. intros [N G]. destruct w as [|c t]; [contradiction|]. exists c, t. split; [reflexivity|]. inversion G; assumption. Qed.
Lemma phrase_first w : phrase w -> exists c t, w = c :: t /\ solid c.
Proof. intros [G (c & t & -> & W)]. exists c, t. split; [reflexivity|]. inversion G as [|? ? [A _] _]; subst. split; assumption. Qed.
Lemma skip_word w m bs : word w -> parse_skip_space (st (w ++ m) bs) = POk tt (st (w ++ m) bs).
Proof. intros H. destruct (word_first w H) as (c & t & -> & S). apply (skip_solid c (t ++ m) bs S). Qed.
Lemma skip_phrase w m bs : phrase w -> parse_skip_space (st (w ++ m) bs) = POk tt (st (w ++ m) bs).
Proof. intros H. destruct (phrase_first w H) as (c & t & -> & S). apply (skip_solid c (t ++ m) bs S). Qed.

Lemma word_no10 w : word w -> ~ In 10 w.
Proof. intros [_ G] X. pose proof (proj1 (Forall_forall _ _) G 10 X) as [_ B]. apply B. right. lia. Qed.
Lemma graphic_no10 w : graphic w -> ~ In 10 w.
Proof. intros G X. pose proof (proj1 (Forall_forall _ _) G 10 X) as [_ B]. apply B. right. lia. Qed.
Lemma phrase_no10 w : phrase w -> ~ In 10 w.
Proof. intros [G _] X. pose proof (proj1 (Forall_forall _ _) G 10 X) as [_ B]. contradiction. Qed.

(** Words checked by computation. *)
Definition wordb (w : list N) : bool := match w with [] => false | _ => forallb (fun c => negb (c =? 0) && negb (isspace c)) w end.
Lemma word_b w : wordb w = true -> word w.
Proof.
  intros H. destruct w as [|c t]; [discriminate|]. split; [discriminate|]. apply Forall_forall. intros x Hx. cbn [wordb] in H.
  rewrite forallb_forall in H. specialize (H x Hx). apply andb_true_iff in H. destruct H as [H1 H2]. split; [lia|].
  intros W. apply isspace_white in W. rewrite W in H2. discriminate.
Qed.

(** ** The start of a record *)

(** The parser stands before the lines [bs]. *)
Definition at_lines (s : pst) (bs : list (list N)) : Prop := parse_skip_space s = load_line bs.

Lemma load_again bs s : load_line bs = POk tt s -> at_lines s bs.
Proof.
  intros H. unfold at_lines. rewrite H. revert H. induction bs as [|b bs IH]; cbn [load_line]; intros H.
  - injection H as <-. reflexivity.
  - destruct (skip_mem b) as [[|c t]|] eqn:E; try discriminate.
    destruct ((c =? 0) || (c =? 35)) eqn:Z; [apply IH; exact H|]. injection H as <-. apply orb_false_iff in Z. destruct Z as [Z1 Z2].
    apply skip_solid. assert (X : (c =? 0) = false -> isspace c = false).
    { intros _. clear - E Z1. revert E. induction b as [|x b IH]; cbn [skip_mem]; [discriminate|].
      destruct (x =? 0) eqn:X0; [intros E; injection E as -> ->; lia|]. destruct (isspace x) eqn:X1; [apply IH|]. intros E. injection E as -> ->. exact X1. }
    specialize (X Z1). split; [lia|]. intros W. apply isspace_white in W. congruence.
Qed.
Lemma load_total bs : Forall (In 0) bs -> exists s, load_line bs = POk tt s.
Proof.
  intros F. induction F as [|b bs H F IH]; [eexists; reflexivity|]. cbn [load_line].
  assert (E : exists c t, skip_mem b = Some (c :: t)).
  { clear IH F. induction b as [|x b IHb]; [destruct H|]. cbn [skip_mem]. destruct (x =? 0) eqn:X; [eauto|].
    destruct (isspace x); [|eauto]. apply IHb. destruct H as [->|H]; [discriminate|exact H]. }
  destruct E as (c & t & ->). destruct ((c =? 0) || (c =? 35)); [exact IH|]. eexists. reflexivity.
Qed.
Lemma load_first c t bs : solid c -> c <> 35 -> load_line ((c :: t) :: bs) = POk tt (st (c :: t) bs).
Proof.
  intros [A B] C. cbn [load_line skip_mem]. assert (E0 : (c =? 0) = false) by lia. assert (E1 : (c =? 35) = false) by lia.
  rewrite E0, (isspace_not c B), E0, E1. reflexivity.
Qed.
Lemma begin_at s c t bs : solid c -> c <> 35 -> at_lines s ((c :: t) :: bs) -> parse_begin s = POk tt (st (c :: t) bs).
Proof. intros A B H. unfold parse_begin. rewrite H, (load_first c t bs A B). reflexivity. Qed.
Lemma begin_end s : at_lines s [] -> parse_begin s = PEnd.
Proof. intros H. unfold parse_begin. rewrite H. reflexivity. Qed.

(** ** A file of records *)
Section File.
  Context {A : Type} (parse : pst -> pres A) (print line : A -> list N) (ok : A -> Prop) (next : list (list N) -> Prop).
  Definition buf (r : A) : list N := line r ++ [0; 0].
  Context (Hprint : forall r, ok r -> print r = line r ++ [10] /\ ~ In 10 (line r)).
  Context (Hend : forall s, at_lines s [] -> parse s = PEnd).
  Context (Hone : forall r s bs, ok r -> next bs -> at_lines s (buf r :: bs) -> exists s', parse s = POk r s' /\ at_lines s' bs).
  Context (Hnext : forall rs, Forall ok rs -> next (map buf rs)).

  Lemma buffers_records rs : Forall ok rs -> buffers (flat_map print rs) = map buf rs.
  Proof.
    intros F. induction F as [|r rs H F IH]; [reflexivity|]. cbn [flat_map map]. destruct (Hprint r H) as [-> N10].
    rewrite <- app_assoc. cbn [app]. rewrite buffers_line by exact N10. rewrite IH. reflexivity.
  Qed.
  Lemma read_records rs : Forall ok rs -> forall fuel s, at_lines s (map buf rs) -> (length rs < fuel)%nat ->
    exists s', read_loop parse fuel s = POk rs s'.
  Proof.
    intros F. induction F as [|r rs H F IH]; intros fuel s Hs Hf; (destruct fuel as [|fuel]; [cbn in Hf; lia|]); cbn [read_loop].
    - cbn [map] in Hs. rewrite (Hend s Hs). eexists. reflexivity.
    - cbn [map] in Hs. destruct (Hone r s (map buf rs) H (Hnext rs F) Hs) as (s' & -> & Hs').
      destruct (IH fuel s' Hs') as (s2 & E); [cbn in Hf; lia|]. rewrite E. cbn [pbind]. eexists. reflexivity.
  Qed.
  Lemma records_len rs : Forall ok rs -> (length rs <= length (flat_map print rs))%nat.
  Proof.
    intros F. induction F as [|r rs H F IH]; [cbn; lia|]. cbn [flat_map length]. destruct (Hprint r H) as [-> _]. rewrite !app_length. cbn. lia.
  Qed.
  Lemma header_buffers t : buffers (file_header ++ t) =
    [[35;32;84;104;105;115;32;102;105;108;101;32;105;115;32;97;117;116;111;45;103;101;110;101;114;97;116;101;100;32;98;121;32;108;105;98;115;101;109;97;110;97;103;101;0;0];
     [35;32;68;111;32;110;111;116;32;101;100;105;116;32;100;105;114;101;99;116;108;121;46;0;0]; [0;0]] ++ buffers t.
  Proof. reflexivity. Qed.
  Lemma file_trip rs : Forall ok rs -> exists s, read_file parse (write_file print rs) = POk rs s.
  Proof.
    intros F. unfold read_file, write_file. apply read_records; [exact F| |].
    - rewrite header_buffers, buffers_records by exact F. reflexivity.
    - rewrite app_length. pose proof (records_len rs F). unfold file_header. cbn [length]. lia.
  Qed.
End File.

Lemma bufs_zero {A} (line : A -> list N) rs : Forall (In 0) (map (buf line) rs).
Proof. apply Forall_forall. intros b H. apply in_map_iff in H. destruct H as (r & <- & _). unfold buf. apply in_app_iff. right. left. reflexivity. Qed.

Definition plain_next (bs : list (list N)) : Prop := Forall (In 0) bs.
(** The next line does not start with a colon. *)
Definition no_colon (bs : list (list N)) : Prop :=
  Forall (In 0) bs /\ forall s, load_line bs = POk tt s -> match ps_cur s with Some (c :: _) => c <> 58 | Some [] => False | None => True end.

Ltac go := cbn [pbind].

Lemma in_app_not {A} (x : A) l m : ~ In x l -> ~ In x m -> ~ In x (l ++ m).
Proof. intros H1 H2 H. apply in_app_iff in H. tauto. Qed.
Lemma in_cons_not {A} (x a : A) l : a <> x -> ~ In x l -> ~ In x (a :: l).
Proof. intros H1 H2 [H|H]; contradiction. Qed.

(** ** Login mappings *)
Definition seuser_line (r : seuser) : list N := se_name r ++ 58 :: se_sename r ++ (match se_mls r with Some m => 58 :: m | None => [] end).
Lemma seuser_one r s bs : seuser_ok r -> no_colon bs -> at_lines s (buf seuser_line r :: bs) -> exists s', seuser_parse s = POk r s' /\ at_lines s' bs.
Proof.
  intros (Pn & Cn & Hn & Ps & Cs & M) [Nz Nc] H. destruct r as [name sename mls]. cbn [se_name se_sename se_mls] in *.
  destruct (phrase_first name Pn) as (c & t & En & Sc).
  assert (B : parse_begin s = POk tt (st (name ++ 58 :: sename ++ (match mls with Some m => 58 :: m | None => [] end) ++ [0; 0]) bs)).
  { unfold buf, seuser_line in H. cbn [se_name se_sename se_mls] in H. repeat (rewrite <- app_assoc in H; cbn [app] in H). rewrite En in *. cbn [app] in *.
    apply begin_at; [exact Sc| |exact H]. intros ->. apply Hn. exists t. reflexivity. }
  unfold seuser_parse. rewrite B. go. rewrite (fetch_ok 58 true name 58); [go|rewrite En; discriminate|apply phrase_inside; assumption|right; left; reflexivity].
  rewrite skip_solid by (split; [lia|unfold white; lia]). go. rewrite assert_same. go.
  rewrite (skip_phrase sename _ bs Ps). go. destruct mls as [m|].
  - cbn [app]. rewrite (fetch_ok 58 true sename 58); [go|destruct Ps as [_ (? & ? & -> & _)]; discriminate|apply phrase_inside; assumption|right; left; reflexivity].
    rewrite skip_solid by (split; [lia|unfold white; lia]). go. rewrite optional_same. go. cbn [negb].
    rewrite (skip_word m _ bs M). go. rewrite (fetch_ok 32 false m 0); [go|apply M|apply word_inside32; exact M|left; reflexivity].
    rewrite space_end. destruct (load_total bs Nz) as (s' & E). rewrite E. go. exists s'. split; [reflexivity|]. apply load_again. exact E.
  - cbn [app]. rewrite (fetch_ok 58 true sename 0); [go|destruct Ps as [_ (? & ? & -> & _)]; discriminate|apply phrase_inside; assumption|left; reflexivity].
    rewrite skip_end. destruct (load_total bs Nz) as (s' & E). rewrite E. go. specialize (Nc s' E).
    assert (O : parse_optional_ch 58 s' = POk false s').
    { destruct s' as [[[|x m]|] rest]; cbn [ps_cur] in Nc; [destruct Nc|apply optional_other; exact Nc|reflexivity]. }
    rewrite O. go. cbn [negb]. exists s'. split; [reflexivity|]. apply load_again. exact E.
Qed.
Lemma seuser_next rs : Forall seuser_ok rs -> no_colon (map (buf seuser_line) rs).
Proof.
  intros F. split; [apply bufs_zero|]. intros s E. destruct F as [|r rs H F]; [injection E as <-; exact I|].
  destruct H as (Pn & Cn & Hn & _). destruct (phrase_first _ Pn) as (c & t & En & Sc). cbn [map] in E. unfold buf, seuser_line in E. rewrite En in *. cbn [app] in E.
  rewrite load_first in E; [|exact Sc|intros ->; apply Hn; exists t; reflexivity]. injection E as <-. cbn [ps_cur st]. intros ->. apply Cn. left. reflexivity.
Qed.
Lemma seuser_trip rs : Forall seuser_ok rs -> exists s, read_file seuser_parse (write_file seuser_print rs) = POk rs s.
Proof.
  apply (file_trip seuser_parse seuser_print seuser_line seuser_ok no_colon).
  - intros r (Pn & Cn & Hn & Ps & Cs & M). split.
    + unfold seuser_print, seuser_line. rewrite <- app_assoc. cbn [app]. rewrite <- app_assoc. reflexivity.
    + unfold seuser_line. apply in_app_not; [apply phrase_no10; exact Pn|]. apply in_cons_not; [lia|]. apply in_app_not; [apply phrase_no10; exact Ps|].
      destruct (se_mls r) as [m|]; [apply in_cons_not; [lia|apply word_no10; exact M]|intros []].
  - intros s H. unfold seuser_parse. rewrite begin_end by exact H. reflexivity.
  - exact seuser_one.
  - exact seuser_next.
Qed.

(** ** Numbers *)
Lemma digits_value_app a b : forall x, digits_value x (a ++ b) = match digits_value x a with Some y => digits_value y b | None => None end.
Proof. induction a as [|c a IH]; intros x; [reflexivity|]. cbn [app digits_value]. destruct (isdigit c); [apply IH|reflexivity]. Qed.
Lemma digits_app f : forall n acc, digits f n acc = digits f n [] ++ acc.
Proof.
  induction f as [|f IH]; intros n acc; [reflexivity|]. cbn [digits]. destruct (n / 10 =? 0); [reflexivity|].
  rewrite IH, (IH _ [_]), <- app_assoc. reflexivity.
Qed.
Lemma digits_ok f : forall n, n < 10 ^ N.of_nat f -> (0 < f)%nat ->
  digits_value 0 (digits f n []) = Some n /\ Forall (fun c => isdigit c = true) (digits f n []) /\ digits f n [] <> [].
Proof.
  induction f as [|f IH]; intros n Hn Hf; [lia|]. cbn [digits].
  assert (D : isdigit (48 + n mod 10) = true) by (unfold isdigit; pose proof (N.mod_lt n 10 ltac:(lia)); lia).
  pose proof (N.div_mod n 10 ltac:(lia)) as DM. pose proof (N.mod_lt n 10 ltac:(lia)) as ML.
  destruct (n / 10 =? 0) eqn:E.
  - split; [|split; [constructor; [exact D|constructor]|discriminate]]. cbn [digits_value]. rewrite D. f_equal. lia.
  - rewrite digits_app. assert (Hq : n / 10 < 10 ^ N.of_nat f).
    { apply N.div_lt_upper_bound; [lia|]. rewrite <- N.pow_succ_r by lia. replace (N.succ (N.of_nat f)) with (N.of_nat (S f)) by lia. exact Hn. }
    assert (Hf' : (0 < f)%nat). { destruct f as [|f]; [|lia]. cbn in Hq. lia. }
    destruct (IH (n / 10) Hq Hf') as (V & F & Ne). split; [|split].
    + rewrite digits_value_app, V. cbn [digits_value]. rewrite D. f_equal. lia.
    + apply Forall_app. split; [exact F|]. constructor; [exact D|constructor].
    + intros X. apply app_eq_nil in X. destruct X as [X _]. contradiction.
Qed.
Lemma long_small n : n < 2 ^ 31 -> long_to_int n = Z.of_N n.
Proof.
  intros H. unfold long_to_int. change (2 ^ 31) with 2147483648 in H. change (2 ^ 63 - 1) with 9223372036854775807. rewrite N.min_l by lia.
  change (2 ^ 32)%Z with 4294967296%Z. change (2 ^ 31)%Z with 2147483648%Z. rewrite Z.mod_small by lia. destruct (Z.of_N n <? 2147483648)%Z eqn:E; [reflexivity|lia].
Qed.
Lemma int_text z : (0 <= z < 2 ^ 31)%Z -> exists w, print_int z = w /\ word w /\ ~ In 45 w /\ Forall (fun c => isdigit c = true) w /\
  digits_value 0 w = Some (Z.to_N z) /\ long_to_int (Z.to_N z) = z.
Proof.
  intros H. change (2 ^ 31)%Z with 2147483648%Z in H. unfold print_int. assert (E : (z <? 0)%Z = false) by lia. rewrite E.
  exists (digits 11 (Z.to_N z) []). destruct (digits_ok 11 (Z.to_N z)) as (V & F & Ne); [change (10 ^ N.of_nat 11) with 100000000000; lia|lia|].
  split; [reflexivity|]. split; [|split; [|split; [exact F|split; [exact V|]]]].
  - split; [exact Ne|]. revert F. apply Forall_impl. unfold isdigit, white. lia.
  - intros X. pose proof (proj1 (Forall_forall _ _) F 45 X). discriminate.
  - rewrite long_small; [lia|]. change (2 ^ 31) with 2147483648. lia.
Qed.
Lemma fetch_int d z c m bs : (0 <= z < 2 ^ 31)%Z -> d = 45 \/ d = 32 -> stops d false c ->
  parse_fetch_int d (st (print_int z ++ c :: m) bs) = POk z (st (c :: m) bs).
Proof.
  intros H D S. destruct (int_text z H) as (w & -> & W & No & F & V & L). unfold parse_fetch_int.
  rewrite (fetch_ok d false w c m bs); [|apply W| |exact S].
  2: { destruct D as [-> | ->]; [apply word_inside; assumption|apply word_inside32; exact W]. }
  go. destruct w as [|x w]; [destruct W; contradiction|]. inversion F as [|? ? Dx _]; subst. rewrite Dx, V, L. reflexivity.
Qed.

(** ** Booleans *)
Definition bool_line (r : boolrec) : list N := bo_name r ++ 61 :: print_int (bo_value r).
Lemma bool_one r s bs : bool_ok r -> plain_next bs -> at_lines s (buf bool_line r :: bs) -> exists s', bool_parse s = POk r s' /\ at_lines s' bs.
Proof.
  intros (Wn & En & Hn & V) Nz H. destruct r as [name v]. cbn [bo_name bo_value] in *. destruct (word_first name Wn) as (c & t & Ec & Sc).
  assert (B : parse_begin s = POk tt (st (name ++ 61 :: print_int v ++ [0; 0]) bs)).
  { unfold buf, bool_line in H. cbn [bo_name bo_value] in H. repeat (rewrite <- app_assoc in H; cbn [app] in H). rewrite Ec in *. cbn [app] in *.
    apply begin_at; [exact Sc| |exact H]. intros ->. apply Hn. exists t. reflexivity. }
  unfold bool_parse. rewrite B. go. rewrite (fetch_ok 61 false name 61); [go|apply Wn|apply word_inside; assumption|right; left; reflexivity].
  rewrite skip_solid by (split; [lia|unfold white; lia]). go. rewrite assert_same. go.
  assert (Hv : (0 <= v < 2 ^ 31)%Z) by (destruct V as [-> | ->]; lia).
  destruct (int_text v Hv) as (w & Ew & W & _ & F & _). rewrite Ew in *. rewrite (skip_word w _ bs W). go.
  assert (P : bool_value_parse (st (w ++ [0; 0]) bs) = POk v (st [0; 0] bs)).
  { pose proof (fetch_int 32 v 0 [0] bs Hv (or_intror eq_refl) (or_introl eq_refl)) as Fi. rewrite Ew in Fi.
    destruct w as [|x w]; [destruct W; contradiction|]. inversion F as [|? ? Dx _]; subst. cbn [app] in *. unfold bool_value_parse, w_true, w_TRUE, w_false, w_FALSE.
    unfold isdigit in Dx. rewrite !optstr_other by lia. cbn [pbind]. rewrite !optstr_other by lia. cbn [pbind]. rewrite !optstr_other by lia. cbn [pbind]. rewrite !optstr_other by lia. cbn [pbind]. exact Fi. }
  rewrite P. go. assert (E : negb ((v =? 0)%Z || (v =? 1)%Z) = false) by (destruct V as [-> | ->]; reflexivity). rewrite E.
  rewrite space_end. destruct (load_total bs Nz) as (s' & E'). rewrite E'. go. exists s'. split; [reflexivity|]. apply load_again. exact E'.
Qed.
Lemma int_word z : (0 <= z < 2 ^ 31)%Z -> word (print_int z).
Proof. intros H. destruct (int_text z H) as (w & -> & W & _). exact W. Qed.
Lemma int_no10 z : (0 <= z < 2 ^ 31)%Z -> ~ In 10 (print_int z).
Proof. intros H. destruct (int_text z H) as (w & -> & W & _). apply word_no10. exact W. Qed.
Lemma bool_trip rs : Forall bool_ok rs -> exists s, read_file bool_parse (write_file bool_print rs) = POk rs s.
Proof.
  apply (file_trip bool_parse bool_print bool_line bool_ok plain_next).
  - intros r (Wn & En & Hn & V). split.
    + unfold bool_print, bool_line. rewrite <- app_assoc. reflexivity.
    + unfold bool_line. apply in_app_not; [apply word_no10; exact Wn|]. apply in_cons_not; [lia|]. apply int_no10. destruct V as [-> | ->]; lia.
  - intros s H. unfold bool_parse. rewrite begin_end by exact H. reflexivity.
  - exact bool_one.
  - intros l _. apply bufs_zero.
Qed.

(** ** User prefixes *)
Definition userx_line (r : userx) : list N := w_user ++ 32 :: ux_name r ++ 32 :: w_prefix ++ 32 :: ux_prefix r ++ [59].
Lemma userx_one r s bs : userx_ok r -> plain_next bs -> at_lines s (buf userx_line r :: bs) -> exists s', userx_parse s = POk r s' /\ at_lines s' bs.
Proof.
  intros (Wn & Pp & Cp) Nz H. destruct r as [name prefix]. cbn [ux_name ux_prefix] in *.
  assert (B : parse_begin s = POk tt (st (w_user ++ 32 :: name ++ 32 :: w_prefix ++ 32 :: prefix ++ [59; 0; 0]) bs)).
  { unfold buf, userx_line in H. cbn [ux_name ux_prefix] in H. repeat (rewrite <- app_assoc in H; cbn [app] in H). unfold w_user in *. cbn [app] in *.
    apply begin_at; [split; [lia|unfold white; lia]|lia|exact H]. }
  unfold userx_parse. rewrite B. go. rewrite str_same. go. rewrite space_blank, (skip_word name _ bs Wn). go.
  rewrite (fetch_ok 32 false name 32); [go|apply Wn|apply word_inside32; exact Wn|right; left; reflexivity].
  rewrite space_blank, (skip_word w_prefix _ bs) by (apply word_b; reflexivity). go. rewrite str_same. go. rewrite space_blank, (skip_phrase prefix _ bs Pp). go.
  rewrite (fetch_ok 59 true prefix 59); [go|destruct Pp as [_ (? & ? & -> & _)]; discriminate|apply phrase_inside; assumption|right; left; reflexivity].
  rewrite skip_solid by (split; [lia|unfold white; lia]). go. rewrite assert_same. go. eexists. split; [reflexivity|reflexivity].
Qed.
Lemma userx_trip rs : Forall userx_ok rs -> exists s, read_file userx_parse (write_file userx_print rs) = POk rs s.
Proof.
  apply (file_trip userx_parse userx_print userx_line userx_ok plain_next).
  - intros r (Wn & Pp & Cp). split.
    + unfold userx_print, userx_line. repeat (rewrite <- app_assoc; cbn [app]). reflexivity.
    + unfold userx_line. apply in_app_not; [cbn; intuition discriminate|]. apply in_cons_not; [lia|]. apply in_app_not; [apply word_no10; exact Wn|].
      apply in_cons_not; [lia|]. apply in_app_not; [cbn; intuition discriminate|]. apply in_cons_not; [lia|].
      apply in_app_not; [apply phrase_no10; exact Pp|cbn; intuition discriminate].
  - intros s H. unfold userx_parse. rewrite begin_end by exact H. reflexivity.
  - exact userx_one.
  - intros l _. apply bufs_zero.
Qed.

(** ** Contexts *)
Lemma context_word c : context_ok c -> word (sepol_context_to_string c).
Proof.
  intros (U & R & T & _ & _ & _ & M). unfold sepol_context_to_string, ch_colon. split; [destruct (cr_user c); discriminate|].
  assert (C : 58 <> 0 /\ ~ white 58) by (split; [lia|unfold white; lia]).
  unfold graphic in *. apply Forall_app. split; [exact U|]. constructor; [exact C|]. apply Forall_app. split; [exact R|]. constructor; [exact C|].
  apply Forall_app. split; [exact T|]. destruct (cr_mls c); [constructor; [exact C|exact M]|constructor].
Qed.
Lemma context_from c : context_ok c -> sepol_context_from_string (sepol_context_to_string c) = ROk (Some c).
Proof.
  intros (_ & _ & _ & U & R & T & _). rewrite rec_to_text, rec_from_text; [destruct c; reflexivity|exact U|exact R|exact T].
Qed.
Lemma fetch_context c x m bs : context_ok c -> x = 0 \/ x = 32 ->
  parse_context_some (st (sepol_context_to_string c ++ x :: m) bs) = POk c (st (x :: m) bs).
Proof.
  intros C X. pose proof (context_word c C) as W. unfold parse_context_some, parse_context.
  rewrite (fetch_ok 32 false _ x); [|apply W|apply word_inside32; exact W|unfold stops; tauto]. go. rewrite (context_from c C). reflexivity.
Qed.

(** ** Ports *)
Definition port_line (r : portrec) : list N :=
  w_portcon ++ 32 :: proto_str (po_proto r) ++ 32 ::
  (if (po_low r =? po_high r)%Z then print_int (po_low r) ++ [32]
   else print_int (po_low r) ++ [32; 45; 32] ++ print_int (po_high r) ++ [32]) ++
  sepol_context_to_string (po_con r).
Lemma proto_cases p : p < 4 -> wordb (proto_str p) = true /\ proto_parse (proto_str p) = Some p.
Proof.
  intros H. assert (E : p = 0 \/ p = 1 \/ p = 2 \/ p = 3) by lia. destruct E as [-> |[-> |[-> | ->]]]; split; reflexivity.
Qed.
Lemma port_one r s bs : port_ok r -> plain_next bs -> at_lines s (buf port_line r :: bs) -> exists s', port_parse s = POk r s' /\ at_lines s' bs.
Proof.
  intros (Pp & L & Hh & C & D) Nz H. destruct r as [p low high c]. cbn [po_proto po_low po_high po_con] in *.
  pose proof (context_word c C) as Wc. destruct (proto_cases p Pp) as [Wp Ep]. apply word_b in Wp.
  set (ctx := sepol_context_to_string c) in *.
  assert (B : parse_begin s = POk tt (st (w_portcon ++ 32 :: proto_str p ++ 32 ::
     (print_int low ++ 32 :: (if (low =? high)%Z then [] else 45 :: 32 :: print_int high ++ [32]) ++ ctx ++ [0; 0])) bs)).
  { unfold buf, port_line in H. cbn [po_proto po_low po_high po_con] in H. fold ctx in H.
    repeat (rewrite <- app_assoc in H; cbn [app] in H).
    replace ((if (low =? high)%Z then print_int low ++ [32] else print_int low ++ 32 :: 45 :: 32 :: print_int high ++ [32]) ++ ctx ++ [0; 0])
      with (print_int low ++ 32 :: (if (low =? high)%Z then [] else 45 :: 32 :: print_int high ++ [32]) ++ ctx ++ [0; 0]) in H.
    2: { destruct (low =? high)%Z; rewrite <- app_assoc; reflexivity. }
    unfold w_portcon in *. cbn [app] in *.
    apply begin_at; [split; [lia|unfold white; lia]|lia|exact H]. }
  unfold port_parse. rewrite B. go. rewrite str_same. go. rewrite space_blank, (skip_word _ _ bs Wp). go.
  rewrite (fetch_ok 32 false _ 32); [go|apply Wp|apply word_inside32; exact Wp|right; left; reflexivity]. rewrite Ep.
  rewrite space_blank, (skip_word _ _ bs (int_word low L)). go.
  rewrite (fetch_int 45 low 32 _ bs L (or_introl eq_refl)); [go|right; right; split; [reflexivity|left; reflexivity]].
  assert (R : port_range_parse low (st (32 :: (if (low =? high)%Z then [] else 45 :: 32 :: print_int high ++ [32]) ++ ctx ++ [0; 0]) bs) =
    POk (low, high) (st (ctx ++ [0; 0]) bs)).
  { unfold port_range_parse, st at 1. cbn [ps_cur]. change (negb (32 =? 0) && negb (32 =? 45)) with true. cbn [app]. 
    fold (st (32 :: (if (low =? high)%Z then [] else 45 :: 32 :: print_int high ++ [32]) ++ ctx ++ [0; 0]) bs). cbv iota. rewrite space_blank.
    destruct (low =? high)%Z eqn:E.
    - cbn [app]. rewrite (skip_word ctx _ bs Wc). go. assert (low = high) by lia. subst high.
      assert (O : parse_optional_ch 45 (st (ctx ++ [0; 0]) bs) = POk false (st (ctx ++ [0; 0]) bs)).
      { unfold ctx, sepol_context_to_string, ch_colon. destruct (cr_user c) as [|x t] eqn:Eu; cbn [app]; apply optional_other; [lia|].
        intros ->. apply (D eq_refl). exists t. reflexivity. }
      rewrite O. go. reflexivity.
    - cbn [app]. rewrite skip_solid by (split; [lia|unfold white; lia]). go. rewrite optional_same. go. rewrite skip_blank.
      rewrite <- app_assoc. cbn [app]. rewrite (skip_word _ _ bs (int_word high Hh)). go.
      rewrite (fetch_int 32 high 32 _ bs Hh (or_intror eq_refl)) by (right; left; reflexivity). go. rewrite space_blank, (skip_word ctx _ bs Wc). reflexivity. }
  rewrite R. go. cbn [fst snd]. unfold ctx. rewrite (fetch_context c 0 [0] bs C (or_introl eq_refl)). go.
  rewrite space_end. destruct (load_total bs Nz) as (s' & E'). rewrite E'. go. exists s'. split; [reflexivity|]. apply load_again. exact E'.
Qed.
Lemma port_trip rs : Forall port_ok rs -> exists s, read_file port_parse (write_file port_print rs) = POk rs s.
Proof.
  apply (file_trip port_parse port_print port_line port_ok plain_next).
  - intros r (Pp & L & Hh & C & D). destruct (proto_cases _ Pp) as [Wp _]. apply word_b in Wp. split.
    + unfold port_print, port_line. repeat (rewrite <- app_assoc; cbn [app]). reflexivity.
    + unfold port_line. apply in_app_not; [cbn; intuition discriminate|]. apply in_cons_not; [lia|]. apply in_app_not; [apply word_no10; exact Wp|].
      apply in_cons_not; [lia|]. apply in_app_not; [|apply word_no10, context_word; exact C].
      destruct (po_low r =? po_high r)%Z; (apply in_app_not; [apply int_no10; exact L|]).
      * cbn; intuition discriminate.
      * cbn [app]. repeat (apply in_cons_not; [lia|]). apply in_app_not; [apply int_no10; exact Hh|]. cbn; intuition discriminate.
  - intros s H. unfold port_parse. rewrite begin_end by exact H. reflexivity.
  - exact port_one.
  - intros l _. apply bufs_zero.
Qed.

(** ** Interfaces *)
Definition iface_line (r : ifacerec) : list N :=
  w_netifcon ++ 32 :: if_name r ++ 32 :: sepol_context_to_string (if_con r) ++ 32 :: sepol_context_to_string (if_msg r).
Lemma iface_one r s bs : iface_ok r -> plain_next bs -> at_lines s (buf iface_line r :: bs) -> exists s', iface_parse s = POk r s' /\ at_lines s' bs.
Proof.
  intros (Wn & C1 & C2) Nz H. destruct r as [name c1 c2]. cbn [if_name if_con if_msg] in *.
  assert (B : parse_begin s = POk tt (st (w_netifcon ++ 32 :: name ++ 32 :: sepol_context_to_string c1 ++ 32 :: sepol_context_to_string c2 ++ [0; 0]) bs)).
  { unfold buf, iface_line in H. cbn [if_name if_con if_msg] in H. unfold w_netifcon in *. cbn [app] in *.
    repeat (rewrite <- app_assoc in H; cbn [app] in H).
    apply begin_at; [split; [lia|unfold white; lia]|lia|exact H]. }
  unfold iface_parse. rewrite B. go. rewrite str_same. go. rewrite space_blank, (skip_word _ _ bs Wn). go.
  rewrite (fetch_ok 32 false name 32); [go|apply Wn|apply word_inside32; exact Wn|right; left; reflexivity].
  rewrite space_blank, (skip_word _ _ bs (context_word c1 C1)). go. rewrite (fetch_context c1 32 _ bs C1 (or_intror eq_refl)). go.
  rewrite space_blank, (skip_word _ _ bs (context_word c2 C2)). go. rewrite (fetch_context c2 0 [0] bs C2 (or_introl eq_refl)). go.
  rewrite space_end. destruct (load_total bs Nz) as (s' & E'). rewrite E'. go. exists s'. split; [reflexivity|]. apply load_again. exact E'.
Qed.
Lemma iface_trip rs : Forall iface_ok rs -> exists s, read_file iface_parse (write_file iface_print rs) = POk rs s.
Proof.
  apply (file_trip iface_parse iface_print iface_line iface_ok plain_next).
  - intros r (Wn & C1 & C2). split.
    + unfold iface_print, iface_line. repeat (rewrite <- app_assoc; cbn [app]). reflexivity.
    + unfold iface_line. apply in_app_not; [cbn; intuition discriminate|]. apply in_cons_not; [lia|]. apply in_app_not; [apply word_no10; exact Wn|].
      apply in_cons_not; [lia|]. apply in_app_not; [apply word_no10, context_word; exact C1|]. apply in_cons_not; [lia|]. apply word_no10, context_word. exact C2.
  - intros s H. unfold iface_parse. rewrite begin_end by exact H. reflexivity.
  - exact iface_one.
  - intros l _. apply bufs_zero.
Qed.

(** ** File contexts *)
Definition con_text (o : option crec) : list N := match o with Some c => sepol_context_to_string c | None => none_str end.
Definition fcontext_line (r : fcrec) : list N := fc_expr r ++ 32 :: type_str (fc_type r) ++ 32 :: con_text (fc_con r).
Definition con_ok (o : option crec) : Prop := match o with Some c => context_ok c | None => True end.
Lemma con_word o : con_ok o -> word (con_text o).
Proof. destruct o as [c|]; [apply context_word|]. intros _. apply word_b. reflexivity. Qed.
Lemma con_from o : con_ok o -> sepol_context_from_string (con_text o) = ROk o.
Proof. destruct o as [c|]; [apply context_from|]. reflexivity. Qed.
Lemma same_word_no w str x : In x str -> lower_ascii x = x -> ~ In x w -> same_word w str = false.
Proof.
  intros H L Nw. unfold same_word. destruct (str_eqb (map lower_ascii str) w) eqn:E; [|reflexivity]. apply str_eqb_eq in E. subst w.
  exfalso. apply Nw. rewrite <- L. apply in_map. exact H.
Qed.
Lemma con_no_type o : con_ok o -> type_parse (con_text o) = None.
Proof.
  intros H. destruct o as [c|]; [|reflexivity]. assert (X : In 58 (con_text (Some c))).
  { cbn. unfold sepol_context_to_string, ch_colon. apply in_app_iff. right. left. reflexivity. }
  unfold type_parse. rewrite !(same_word_no _ _ 58 X eq_refl); [reflexivity|..]; cbn; intuition discriminate.
Qed.
Lemma type_cases t : t < 8 -> t = 0 /\ type_str t = [32; 32] \/ wordb (type_str t) = true /\ type_parse (type_str t) = Some t.
Proof.
  intros H. assert (E : t = 0 \/ t = 1 \/ t = 2 \/ t = 3 \/ t = 4 \/ t = 5 \/ t = 6 \/ t = 7) by lia.
  destruct E as [-> |[-> |[-> |[-> |[-> |[-> |[-> | ->]]]]]]]; [left; split; reflexivity|right; split; reflexivity ..].
Qed.
Lemma fcontext_one r s bs : fcontext_ok r -> plain_next bs -> at_lines s (buf fcontext_line r :: bs) -> exists s', fcontext_parse s = POk r s' /\ at_lines s' bs.
Proof.
  intros (We & He & T & C) Nz H. destruct r as [expr t o]. cbn [fc_expr fc_type fc_con] in *. change (con_ok o) in C.
  pose proof (con_word o C) as Wo. destruct (word_first expr We) as (x & tl & Ex & Sx).
  assert (B : parse_begin s = POk tt (st (expr ++ 32 :: type_str t ++ 32 :: con_text o ++ [0; 0]) bs)).
  { unfold buf, fcontext_line in H. cbn [fc_expr fc_type fc_con] in H. repeat (rewrite <- app_assoc in H; cbn [app] in H). rewrite Ex in *. cbn [app] in *.
    apply begin_at; [exact Sx| |exact H]. intros ->. apply He. exists tl. reflexivity. }
  unfold fcontext_parse. rewrite B. go.
  rewrite (fetch_ok 32 false expr 32); [go|apply We|apply word_inside32; exact We|right; left; reflexivity]. rewrite space_blank.
  destruct (load_total bs Nz) as (s' & E').
  destruct (type_cases t T) as [[-> ->]|[Wt Pt]].
  - cbn [app]. rewrite !skip_blank, (skip_word _ _ bs Wo). go.
    rewrite (fetch_ok 32 false _ 0); [go|apply Wo|apply word_inside32; exact Wo|left; reflexivity]. cbv zeta. rewrite (con_no_type o C), (con_from o C).
    rewrite space_end, E'. go. exists s'. split; [reflexivity|]. apply load_again. exact E'.
  - apply word_b in Wt. rewrite (skip_word _ _ bs Wt). go.
    rewrite (fetch_ok 32 false _ 32); [go|apply Wt|apply word_inside32; exact Wt|right; left; reflexivity]. cbv zeta. rewrite Pt.
    rewrite space_blank, (skip_word _ _ bs Wo). go.
    rewrite (fetch_ok 32 false _ 0); [go|apply Wo|apply word_inside32; exact Wo|left; reflexivity]. rewrite (con_from o C).
    rewrite space_end, E'. go. exists s'. split; [reflexivity|]. apply load_again. exact E'.
Qed.
Lemma fcontext_trip rs : Forall fcontext_ok rs -> exists s, read_file fcontext_parse (write_file fcontext_print rs) = POk rs s.
Proof.
  apply (file_trip fcontext_parse fcontext_print fcontext_line fcontext_ok plain_next).
  - intros r (We & He & T & C). split.
    + unfold fcontext_print, fcontext_line, con_text. repeat (rewrite <- app_assoc; cbn [app]). reflexivity.
    + unfold fcontext_line. apply in_app_not; [apply word_no10; exact We|]. apply in_cons_not; [lia|]. apply in_app_not.
      * destruct (type_cases _ T) as [[_ ->]|[Wt _]]; [cbn; intuition discriminate|apply word_no10, word_b; exact Wt].
      * apply in_cons_not; [lia|]. apply word_no10, con_word. exact C.
  - intros s H. unfold fcontext_parse. rewrite begin_end by exact H. reflexivity.
  - exact fcontext_one.
  - intros l _. apply bufs_zero.
Qed.

(** ** SELinux users *)
Definition role_ok (x : list N) : Prop := word x /\ ~ In 59 x /\ ~ In 125 x.
Definition mls_text (l g : option (list N)) : list N :=
  match l, g with Some l, Some g => w_level ++ 32 :: l ++ 32 :: w_range ++ 32 :: g | _, _ => [] end.
Definition user_line (r : userrec) : list N :=
  w_user ++ 32 :: us_name r ++ 32 :: w_roles ++ [32; 123; 32] ++ flat_map (fun x => x ++ [32]) (us_roles r) ++ [125; 32] ++
  mls_text (us_level r) (us_range r) ++ [59].
Lemma role_mem_ok w m : role_ok w -> role_mem (w ++ 32 :: m) = Some (w, 32 :: m).
Proof.
  intros ([_ G] & A & B). induction w as [|c w IH]; [reflexivity|]. cbn [app role_mem]. inversion G as [|? ? [Z Wc] G']; subst.
  assert (E0 : (c =? 0) = false) by lia. assert (E1 : (c =? 59) = false) by (cbn in A; lia). assert (E2 : (c =? 125) = false) by (cbn in B; lia).
  rewrite E0, E1, E2, (isspace_not c Wc). cbn [orb]. rewrite IH; [reflexivity|exact G'|intros X; apply A; right; exact X|intros X; apply B; right; exact X].
Qed.
Lemma add_role_new roles x : ~ In x roles -> add_role roles x = roles ++ [x].
Proof.
  intros H. unfold add_role. destruct (existsb (str_eqb x) roles) eqn:E; [|reflexivity]. apply existsb_exists in E. destruct E as (y & Y & E).
  apply str_eqb_eq in E. subst y. contradiction.
Qed.
Lemma roles_ok rs : forall fuel done m bs, rs <> [] -> Forall role_ok rs -> NoDup (done ++ rs) -> (length rs <= fuel)%nat ->
  roles_parse fuel true done (st (flat_map (fun x => x ++ [32]) rs ++ 125 :: m) bs) = POk (done ++ rs, Rmls) (st m bs).
Proof.
  induction rs as [|x rs IH]; intros fuel done m bs Ne F ND L; [contradiction|]. inversion F as [|? ? Rx F']; subst.
  destruct fuel as [|fuel]; [cbn in L; lia|]. cbn [roles_parse flat_map].
  replace (((x ++ [32]) ++ flat_map (fun y => y ++ [32]) rs) ++ 125 :: m) with (x ++ 32 :: flat_map (fun y => y ++ [32]) rs ++ 125 :: m)
    by (repeat (rewrite <- app_assoc; cbn [app]); reflexivity).
  destruct Rx as (Wx & Ax & Bx). rewrite (skip_word x _ bs Wx). go. unfold parse_assert_noeof, st at 1. cbn [ps_cur]. go.
  unfold st at 1. cbn [ps_cur]. rewrite role_mem_ok by (split; [exact Wx|split; assumption]).
  change (negb (32 =? 0) && negb (isspace 32)) with false. cbv iota zeta. unfold st at 1. cbn [ps_rest].
  fold (st (flat_map (fun y => y ++ [32]) rs ++ 125 :: m) bs).
  assert (Nx : ~ In x done). { intros X. apply NoDup_remove_2 in ND. apply ND. apply in_app_iff. left. exact X. }
  rewrite (add_role_new done x Nx).
  destruct rs as [|y rs].
  - cbn [flat_map app]. rewrite skip_solid by (split; [lia|unfold white; lia]). go. rewrite optional_other by lia. go. rewrite optional_same. reflexivity.
  - inversion F' as [|? ? (Wy & Ay & By) _]; subst. destruct (word_first y Wy) as (c & t & Ey & Sc).
    assert (Q : flat_map (fun z => z ++ [32]) (y :: rs) ++ 125 :: m = c :: (t ++ [32] ++ flat_map (fun z => z ++ [32]) rs ++ 125 :: m)).
    { cbn [flat_map]. rewrite Ey. cbn [app]. repeat (rewrite <- app_assoc; cbn [app]). reflexivity. }
    rewrite Q. rewrite skip_solid by exact Sc. go. rewrite optional_other by (intros ->; apply Ay; rewrite Ey; left; reflexivity). go.
    rewrite optional_other by (intros ->; apply By; rewrite Ey; left; reflexivity). go. rewrite <- Q.
    rewrite IH; [rewrite <- app_assoc; reflexivity|discriminate|exact F'|rewrite <- app_assoc; exact ND|cbn in *; lia].
Qed.
Lemma roles_blank f i d m bs : roles_parse f i d (st (32 :: m) bs) = roles_parse f i d (st m bs).
Proof. destruct f; reflexivity. Qed.
Lemma roles_parse_ok rs fuel m bs : rs = [[]] \/ (rs <> [] /\ NoDup rs /\ Forall role_ok rs) -> (length rs <= fuel)%nat ->
  roles_parse fuel true [] (st (flat_map (fun x => x ++ [32]) rs ++ 125 :: m) bs) = POk (rs, Rmls) (st m bs).
Proof.
  intros [-> |(Ne & ND & F)] L.
  - destruct fuel as [|fuel]; [cbn in L; lia|]. reflexivity.
  - apply (roles_ok rs fuel [] m bs Ne F ND L).
Qed.
Lemma roles_len rs : (length rs <= length (flat_map (fun x : list N => x ++ [32%N]) rs))%nat.
Proof. induction rs as [|x rs IH]; [cbn; lia|]. cbn [flat_map length]. rewrite !app_length. cbn. lia. Qed.
Lemma user_one r s bs : user_ok r -> plain_next bs -> at_lines s (buf user_line r :: bs) -> exists s', user_parse s = POk r s' /\ at_lines s' bs.
Proof.
  intros (Wn & R & M) Nz H. destruct r as [name level range roles]. cbn [us_name us_level us_range us_roles] in *.
  assert (B : parse_begin s = POk tt (st (w_user ++ 32 :: name ++ 32 :: w_roles ++ 32 :: 123 :: 32 ::
      flat_map (fun x => x ++ [32]) roles ++ 125 :: 32 :: mls_text level range ++ [59; 0; 0]) bs)).
  { unfold buf, user_line in H. cbn [us_name us_level us_range us_roles] in H. unfold w_user in *. cbn [app] in *. repeat (rewrite <- app_assoc in H; cbn [app] in H).
    apply begin_at; [split; [lia|unfold white; lia]|lia|exact H]. }
  unfold user_parse. rewrite B. go. rewrite str_same. go. rewrite space_blank, (skip_word _ _ bs Wn). go.
  rewrite (fetch_ok 32 false name 32); [go|apply Wn|apply word_inside32; exact Wn|right; left; reflexivity].
  rewrite space_blank, (skip_word w_roles _ bs) by (apply word_b; reflexivity). go. rewrite str_same. go.
  rewrite space_blank, skip_solid by (split; [lia|unfold white; lia]). go. rewrite optional_same. go. rewrite roles_blank.
  rewrite roles_parse_ok; [|exact R|].
  2: { unfold st at 1. cbn [ps_cur length]. rewrite app_length. pose proof (roles_len roles). lia. }
  go. cbn [fst snd]. unfold user_mls_parse. rewrite skip_blank. destruct level as [l|], range as [g|]; try contradiction.
  - destruct M as (Wl & Pg & Cg). unfold mls_text. repeat (rewrite <- app_assoc; cbn [app]).
    rewrite (skip_word w_level _ bs) by (apply word_b; reflexivity). go. rewrite optstr_same. go. cbn [negb]. rewrite space_blank, (skip_word l _ bs Wl). go.
    rewrite (fetch_ok 32 false l 32); [go|apply Wl|apply word_inside32; exact Wl|right; left; reflexivity].
    rewrite space_blank, (skip_word w_range _ bs) by (apply word_b; reflexivity). go. rewrite str_same. go. rewrite space_blank, (skip_phrase g _ bs Pg). go.
    rewrite (fetch_ok 59 true g 59); [go|destruct Pg as [_ (? & ? & -> & _)]; discriminate|apply phrase_inside; assumption|right; left; reflexivity].
    rewrite skip_solid by (split; [lia|unfold white; lia]). go. rewrite assert_same. go. eexists. split; reflexivity.
  - unfold mls_text. cbn [app]. rewrite skip_solid by (split; [lia|unfold white; lia]). go. unfold w_level. rewrite optstr_other by lia. go. cbn [negb]. go.
    rewrite skip_solid by (split; [lia|unfold white; lia]). go. rewrite assert_same. go. eexists. split; reflexivity.
Qed.
Lemma roles_no10 rs : rs = [[]] \/ (rs <> [] /\ NoDup rs /\ Forall role_ok rs) -> ~ In 10 (flat_map (fun x => x ++ [32]) rs).
Proof.
  intros [-> |(_ & _ & F)]; [cbn; intuition discriminate|]. intros X. apply in_flat_map in X. destruct X as (x & Hx & X).
  pose proof (proj1 (Forall_forall _ _) F x Hx) as (W & _). revert X. apply in_app_not; [apply word_no10; exact W|cbn; intuition discriminate].
Qed.
Lemma user_trip rs : Forall user_ok rs -> exists s, read_file user_parse (write_file user_print rs) = POk rs s.
Proof.
  apply (file_trip user_parse user_print user_line user_ok plain_next).
  - intros r (Wn & R & M). split.
    + unfold user_print, user_line, mls_text. repeat (rewrite <- app_assoc; cbn [app]). reflexivity.
    + unfold user_line. apply in_app_not; [cbn; intuition discriminate|]. apply in_cons_not; [lia|]. apply in_app_not; [apply word_no10; exact Wn|].
      apply in_cons_not; [lia|]. apply in_app_not; [cbn; intuition discriminate|]. apply in_app_not; [cbn; intuition discriminate|].
      apply in_app_not; [apply roles_no10; exact R|]. apply in_app_not; [cbn; intuition discriminate|]. apply in_app_not; [|cbn; intuition discriminate].
      unfold mls_text. destruct (us_level r) as [l|], (us_range r) as [g|]; try (intros []; fail).
      destruct M as (Wl & Pg & _). apply in_app_not; [cbn; intuition discriminate|]. apply in_cons_not; [lia|]. apply in_app_not; [apply word_no10; exact Wl|].
      apply in_cons_not; [lia|]. apply in_app_not; [cbn; intuition discriminate|]. apply in_cons_not; [lia|]. apply phrase_no10. exact Pg.
  - intros s H. unfold user_parse. rewrite begin_end by exact H. reflexivity.
  - exact user_one.
  - intros l _. apply bufs_zero.
Qed.
