From Verif Require Import Base CodecModel CodecSpec CodecProofs ContextModel FtransModel PackModel PackSpec PackProofs PackMain.

Definition kfs {P} (p : package P) : list (N * option (list N)) :=
  [(SECTION_FC, pk_fc p); (SECTION_SEUSER, pk_seusers p); (SECTION_USER_EXTRA, pk_user_extra p); (SECTION_NETFILTER, pk_netfilter p)].
Definition secs {P} (p : package P) : list (list N) :=
  opt_section SECTION_FC (pk_fc p) ++ opt_section SECTION_SEUSER (pk_seusers p) ++ opt_section SECTION_USER_EXTRA (pk_user_extra p) ++ opt_section SECTION_NETFILTER (pk_netfilter p).
Lemma kfs_secs {P} (p : package P) : concat (map (fun kf => opt_section (fst kf) (snd kf)) (kfs p)) = secs p.
Proof. unfold kfs, secs. cbn [map concat fst snd]. rewrite app_nil_r. reflexivity. Qed.
Lemma concat_secs {P} (p : package P) : concat (secs p) = text_section SECTION_FC (pk_fc p) ++ text_section SECTION_SEUSER (pk_seusers p)
  ++ text_section SECTION_USER_EXTRA (pk_user_extra p) ++ text_section SECTION_NETFILTER (pk_netfilter p).
Proof. unfold secs. rewrite !concat_app, !concat_opt. reflexivity. Qed.
Lemma offsets_length : forall fields prev len, N.of_nat (length (text_offsets prev len fields)) = fold_right (fun x n => present x + n) 0 fields.
Proof.
  induction fields as [|[d|] fields IH]; intros prev len; cbn [text_offsets fold_right present]; [reflexivity| |]; cbv zeta; [cbn [length]|]; rewrite <- ?(IH (u32 (prev + len)) (u32 (N.of_nat (length d) + 4))); [lia|].
  rewrite <- (IH prev len). lia.
Qed.
Lemma words_rt ws rest : Forall word ws -> read_n get32 (length ws) (write_words ws ++ rest) = Some (ws, rest).
Proof. intros F. apply (read_n_rt put32 get32 word put32_rt ws F). Qed.
Lemma words_len ws : length (write_words ws) = (4 * length ws)%nat.
Proof. unfold write_words, write_all_of. induction ws as [|w ws IH]; [reflexivity|]. cbn [map concat length]. rewrite app_length, put_len, IH. lia. Qed.
Lemma offsets_words : forall fields prev len, Forall word (text_offsets prev len fields).
Proof. induction fields as [|[d|] fields IH]; intros prev len; cbn [text_offsets]; [constructor| |apply IH]. constructor; [unfold word, u32; apply N.mod_lt; discriminate|apply IH]. Qed.

Lemma some_inj {A} (a b : A) : Some a = Some b -> a = b.
Proof. congruence. Qed.
Section Written.
  Context {P : Type} (pol_write : P -> option (list N)) (is_base : P -> bool).
  (** A written file, taken apart. *)
  Lemma written p f : package_write pol_write is_base p = Some f -> N.of_nat (length f) < 2 ^ 32 -> word (pk_version p) ->
    exists w pre, pol_write (pk_policy p) = Some w /\ f = pre ++ w ++ concat (secs p)
      /\ read_offsets f = Some (pk_version p, positions (length pre) (w :: secs p)).
  Proof.
    unfold package_write. destruct (pol_write (pk_policy p)) as [w|]; [|discriminate].
    destruct (N.of_nat (length w) =? 0); [discriminate|]. destruct (_ && _); [discriminate|].
    set (nsec := 1 + present (pk_fc p) + present (pk_seusers p) + present (pk_user_extra p) + present (pk_netfilter p)). cbv zeta. intros E. apply some_inj in E. subst f. intros SH WV.
    assert (NB : nsec <= 5) by (unfold nsec; destruct (pk_fc p), (pk_seusers p), (pk_user_extra p), (pk_netfilter p); cbn; lia).
    assert (O0 : u32 ((nsec + 3) * 4) = (nsec + 3) * 4) by (unfold u32; apply N.mod_small; lia). rewrite O0 in *.
    set (ws := (nsec + 3) * 4 :: text_offsets ((nsec + 3) * 4) (u32 (N.of_nat (length w))) [pk_fc p; pk_seusers p; pk_user_extra p; pk_netfilter p]) in *.
    assert (LW : N.of_nat (length ws) = nsec) by (unfold ws; cbn [length]; rewrite Nat2N.inj_succ, offsets_length; unfold nsec; cbn [fold_right]; lia).
    rewrite <- (concat_secs p) in *. exists w, (put32 PACKAGE_MAGIC ++ put32 (pk_version p) ++ put32 nsec ++ write_words ws).
    split; [reflexivity|]. split; [rewrite <- !app_assoc; reflexivity|].
    set (f := put32 PACKAGE_MAGIC ++ put32 (pk_version p) ++ put32 nsec ++ write_words ws ++ w ++ concat (secs p)) in *.
    assert (LP : length (put32 PACKAGE_MAGIC ++ put32 (pk_version p) ++ put32 nsec ++ write_words ws) = N.to_nat ((nsec + 3) * 4)).
    { rewrite !app_length, !put_len, words_len. lia. }
    assert (LF : length f = (N.to_nat ((nsec + 3) * 4) + length w + length (concat (secs p)))%nat).
    { unfold f. rewrite !app_length, !put_len, words_len, ?app_length. lia. }
    rewrite LP.
    assert (EO : ws ++ [N.of_nat (length f)] = positions (N.to_nat ((nsec + 3) * 4)) (w :: secs p)).
    { pose proof (written_offsets (kfs p) (N.to_nat ((nsec + 3) * 4)) w) as Q. rewrite kfs_secs in Q. rewrite N2Nat.id in Q. rewrite <- Q by (rewrite <- LF; exact SH). unfold ws. rewrite LF. reflexivity. }
    assert (FW : Forall word ws) by (unfold ws; constructor; [unfold word; lia|apply offsets_words]).
    assert (PO : Forall (fun s => fst s <= snd s /\ snd s <= length f)%nat (pairs (ws ++ [N.of_nat (length f)]))).
    { rewrite EO. apply positions_ok. cbn [concat]. rewrite app_length. lia. }
    destruct (pairs_increasing ws (N.of_nat (length f))) as [I LST]; [eapply Forall_impl; [|exact PO]; cbv beta; tauto|].
    unfold read_offsets. unfold f at 1. rewrite get_put by (unfold word; reflexivity). cbn [rbind]. rewrite get_put by exact WV. cbn [rbind]. rewrite get_put by (unfold word; lia). cbn [rbind].
    rewrite N.eqb_refl. cbn [negb]. assert (X : (MAXSECTIONS <? nsec) = false) by (unfold MAXSECTIONS; lia). rewrite X.
    replace (N.to_nat nsec) with (length ws) by lia. rewrite words_rt by exact FW. cbn [rbind]. rewrite I. cbn [negb].
    assert (Y : (N.of_nat (length f) <? last ws 0) = false) by (specialize (LST ltac:(discriminate)); lia). rewrite Y, andb_false_r, EO. reflexivity.
  Qed.
  Lemma split_secs (p : package P) pre w : pre ++ w ++ concat (secs p) = (pre ++ w) ++ concat (opt_section SECTION_FC (pk_fc p) ++ opt_section SECTION_SEUSER (pk_seusers p)
    ++ opt_section SECTION_USER_EXTRA (pk_user_extra p) ++ opt_section SECTION_NETFILTER (pk_netfilter p) ++ []) :> list N.
  Proof. rewrite <- app_assoc, app_nil_r. reflexivity. Qed.

  Theorem trip (pol_read : list N -> option P) p f : reads_back pol_write pol_read (pk_policy p) ->
    package_write pol_write is_base p = Some f -> word (pk_version p) -> N.of_nat (length f) < 2 ^ 32 -> package_read pol_read f = ROk p.
  Proof.
    intros RB PW WV SH. destruct (written p f PW SH WV) as (w & pre & Ew & Ef & RO). destruct (RB w Ew) as (R & L4 & MG).
    unfold package_read. rewrite RO.
    rewrite (mod_step pol_read f SH w (pk_policy p) pre (secs p) Ef L4 MG (R _)) by reflexivity. cbn [ps_mod ps_fc ps_seusers ps_user_extra ps_netfilter].
    rewrite split_secs in Ef. unfold secs.
    assert (AN : forall (A : list (list N)) B C D, A ++ B ++ C ++ D = A ++ B ++ C ++ D ++ []) by (intros; rewrite app_nil_r; reflexivity).
    rewrite AN.
    rewrite (fc_step pol_read f SH) by (exact Ef || reflexivity). rewrite concat_app, app_assoc in Ef. cbn [ps_mod ps_fc ps_seusers ps_user_extra ps_netfilter].
    rewrite (seusers_step pol_read f SH) by (exact Ef || reflexivity). rewrite concat_app, app_assoc in Ef. cbn [ps_mod ps_fc ps_seusers ps_user_extra ps_netfilter].
    rewrite (user_extra_step pol_read f SH) by (exact Ef || reflexivity). rewrite concat_app, app_assoc in Ef. cbn [ps_mod ps_fc ps_seusers ps_user_extra ps_netfilter].
    rewrite (netfilter_step pol_read f SH) by (exact Ef || reflexivity). cbn [positions read_sections then_do ps_mod ps_fc ps_seusers ps_user_extra ps_netfilter].
    destruct p; reflexivity.
  Qed.

  Theorem info_trip p f w sec wrest i : package_write pol_write is_base p = Some f -> word (pk_version p) -> N.of_nat (length f) < 2 ^ 32 ->
    pol_write (pk_policy p) = Some w -> w = put32 MOD_MAGIC ++ put32 sec ++ wrest -> word sec -> (forall rest, info_module sec (wrest ++ rest) = Some i) ->
    last_not_tiny (pk_fc p) (pk_seusers p) (pk_user_extra p) (pk_netfilter p) -> package_info f = Some i.
  Proof.
    intros PW WV SH Ew Fw WS MI LT. destruct (written p f PW SH WV) as (w' & pre & Ew' & Ef & RO). rewrite Ew in Ew'. injection Ew' as <-.
    unfold package_info. rewrite RO.
    rewrite (mod_info (fun _ => @None unit) f SH w sec wrest i pre (secs p) Ef Fw WS (MI _)) by reflexivity. cbn [is_mod is_fc is_seusers is_user_extra is_netfilter].
    rewrite split_secs in Ef. unfold secs.
    assert (AN : forall (A : list (list N)) B C D, A ++ B ++ C ++ D = A ++ B ++ C ++ D ++ []) by (intros; rewrite app_nil_r; reflexivity).
    rewrite AN. unfold last_not_tiny in LT.
    assert (SZ : forall k x, length (concat (opt_section k x)) = size_of x) by (intros; apply opt_length).
    rewrite (text_info (fun _ => @None unit) f SH SECTION_FC); [|cbn [In]; tauto|exact Ef|reflexivity|].
    2:{ intros d E. rewrite E in LT. rewrite !concat_app, !app_length, !SZ. destruct (pk_netfilter p), (pk_user_extra p), (pk_seusers p); cbn [size_of concat length]; lia. }
    rewrite concat_app, app_assoc in Ef.
    rewrite (text_info (fun _ => @None unit) f SH SECTION_SEUSER); [|cbn [In]; tauto|exact Ef|unfold seen, flag; cbn; rewrite ?andb_false_r; destruct (pk_fc p); reflexivity|].
    2:{ intros d E. rewrite E in LT. rewrite !concat_app, !app_length, !SZ. destruct (pk_netfilter p), (pk_user_extra p); cbn [size_of concat length]; lia. }
    rewrite concat_app, app_assoc in Ef.
    rewrite (text_info (fun _ => @None unit) f SH SECTION_USER_EXTRA); [|cbn [In]; tauto|exact Ef|unfold seen, flag; cbn; destruct (pk_fc p), (pk_seusers p); reflexivity|].
    2:{ intros d E. rewrite E in LT. rewrite !concat_app, !app_length, !SZ. destruct (pk_netfilter p); cbn [size_of concat length]; lia. }
    rewrite concat_app, app_assoc in Ef.
    rewrite (text_info (fun _ => @None unit) f SH SECTION_NETFILTER); [|cbn [In]; tauto|exact Ef|unfold seen, flag; cbn; destruct (pk_fc p), (pk_seusers p), (pk_user_extra p); reflexivity|].
    2:{ intros d E. rewrite E in LT. cbn [concat length]. lia. }
    reflexivity.
  Qed.
End Written.

Lemma word_bytes_put x : put32 x = word_bytes x.
Proof. unfold put32, word_bytes. cbn [le_enc]. rewrite !N.div_div by discriminate. reflexivity. Qed.
Lemma get_trunc x rest : exists y, get32 (put32 x ++ rest) = Some (y, rest).
Proof. unfold get32, put32. cbn [le_enc app le_dec]. eexists. reflexivity. Qed.
Lemma base_info wrest rest : (exists id v c s o r, length id = 15%nat /\ wrest = id ++ put32 1 ++ put32 v ++ put32 c ++ put32 s ++ put32 o ++ r) -> info_module 15 (wrest ++ rest) = Some (1, None).
Proof.
  intros (id & v & c & s & o & r & L & ->). unfold info_module. change (15 =? 15) with true. cbn [negb].
  destruct (N.of_nat (length _) <? 15) eqn:B; [rewrite !app_length in B; lia|]. rewrite <- !app_assoc, <- L, skipn_app, skipn_all, Nat.sub_diag. cbn [skipn app].
  rewrite get_put by (unfold word; reflexivity). cbn [rbind].
  destruct (get_trunc v (put32 c ++ put32 s ++ put32 o ++ r ++ rest)) as [? ->]. cbn [rbind]. destruct (get_trunc c (put32 s ++ put32 o ++ r ++ rest)) as [? ->]. cbn [rbind].
  destruct (get_trunc s (put32 o ++ r ++ rest)) as [? ->]. cbn [rbind]. destruct (get_trunc o (r ++ rest)) as [? ->]. cbn [rbind]. reflexivity.
Qed.
Lemma cstring_all s : Forall (fun c => c <> 0) s -> cstring s = s.
Proof. induction 1 as [|c s H F IH]; [reflexivity|]. cbn [cstring]. destruct (c =? 0) eqn:E; [lia|]. rewrite IH. reflexivity. Qed.
Lemma str_trip s rest : s <> [] -> Forall (fun c => c <> 0) s -> str_read (N.of_nat (length s)) (s ++ rest) = Some (s, rest).
Proof.
  intros NE F. unfold str_read. assert (E1 : N.of_nat (length s) =? 0 = false) by (destruct s; [congruence|cbn [length]; lia]).
  assert (E2 : N.of_nat (length (s ++ rest)) <? N.of_nat (length s) = false) by (rewrite app_length; lia). rewrite E1, E2. cbn [orb].
  rewrite Nat2N.id, firstn_app, firstn_all, skipn_app, skipn_all, Nat.sub_diag. cbn [firstn skipn app]. rewrite app_nil_r, cstring_all by exact F. reflexivity.
Qed.
Lemma module_info name vers wrest rest : name <> [] -> vers <> [] -> Forall (fun c => c <> 0) name -> Forall (fun c => c <> 0) vers -> word (N.of_nat (length name)) -> word (N.of_nat (length vers)) ->
  (exists id v c s o r, length id = 15%nat /\ wrest = id ++ put32 2 ++ put32 v ++ put32 c ++ put32 s ++ put32 o ++ put32 (N.of_nat (length name)) ++ name ++ put32 (N.of_nat (length vers)) ++ vers ++ r) ->
  info_module 15 (wrest ++ rest) = Some (2, Some (name, vers)).
Proof.
  intros N1 N2 F1 F2 W1 W2 (id & v & c & s & o & r & L & ->). unfold info_module. change (15 =? 15) with true. cbn [negb].
  destruct (N.of_nat (length _) <? 15) eqn:B; [rewrite !app_length in B; lia|]. rewrite <- !app_assoc, <- L, skipn_app, skipn_all, Nat.sub_diag. cbn [skipn app].
  rewrite get_put by (unfold word; reflexivity). cbn [rbind].
  set (t := put32 (N.of_nat (length name)) ++ name ++ put32 (N.of_nat (length vers)) ++ vers ++ r ++ rest).
  destruct (get_trunc v (put32 c ++ put32 s ++ put32 o ++ t)) as [? ->]. cbn [rbind]. destruct (get_trunc c (put32 s ++ put32 o ++ t)) as [? ->]. cbn [rbind].
  destruct (get_trunc s (put32 o ++ t)) as [? ->]. cbn [rbind]. destruct (get_trunc o t) as [? ->]. cbn [rbind]. change (2 =? POLICY_BASE) with false. change (2 =? POLICY_MOD) with true. cbn [negb]. cbv iota.
  unfold t. rewrite get_put by exact W1. cbn [rbind]. rewrite str_trip by assumption. cbn [rbind]. rewrite get_put by exact W2. cbn [rbind]. rewrite str_trip by assumption. reflexivity.
Qed.
