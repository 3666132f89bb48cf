(** A small engine and sample files, used in the cases beside the theorems on file labels. The engine knows characters,
    escaped characters, the dot and the quantifiers ? * and +; other expressions do not compile. It models nothing in the
    library; the theorems hold for every engine. *)
From Verif Require Import Base MlsModel LabelModel LabelSpec LabelProofs LabelPathProofs.
From Coq Require Import Permutation Sorted.

Inductive tok := TAny | TChr (c : N).
Inductive quant := QOne | QOpt | QStar | QPlus.
Definition flush (p : option tok) (o : option (list (tok * quant))) : option (list (tok * quant)) :=
  match p with Some a => option_map (cons (a, QOne)) o | None => o end.
Definition quant_of (c : N) : option quant := if c =? 63 then Some QOpt else if c =? 42 then Some QStar else if c =? 43 then Some QPlus else None.
Fixpoint parse (p : option tok) (r : list N) : option (list (tok * quant)) :=
  match r with
  | [] => flush p (Some [])
  | c :: t =>
      match quant_of c with
      | Some q => match p with Some a => option_map (cons (a, q)) (parse None t) | None => None end
      | None =>
          if c =? 92 then match t with e :: t' => flush p (parse (Some (TChr e)) t') | [] => None end
          else if c =? 46 then flush p (parse (Some TAny) t)
          else if existsb (N.eqb c) metas then None
          else flush p (parse (Some (TChr c)) t)
      end
  end.
Definition tok_ok (a : tok) (c : N) : bool := match a with TAny => true | TChr d => d =? c end.
Fixpoint mt (l : list (tok * quant)) (key : list N) : bool :=
  match l with
  | [] => match key with [] => true | _ => false end
  | (a, QOne) :: r => match key with c :: k => tok_ok a c && mt r k | [] => false end
  | (a, QOpt) :: r => mt r key || match key with c :: k => tok_ok a c && mt r k | [] => false end
  | (a, QStar) :: r => (fix star k := mt r k || match k with c :: k' => tok_ok a c && star k' | [] => false end) key
  | (a, QPlus) :: r =>
      match key with
      | c :: k => tok_ok a c && (fix star k := mt r k || match k with c :: k' => tok_ok a c && star k' | [] => false end) k
      | [] => false
      end
  end.
(** The key can be continued to a match. *)
Fixpoint mtp (l : list (tok * quant)) (key : list N) : bool :=
  match l with
  | [] => match key with [] => true | _ => false end
  | (a, QOne) :: r => match key with c :: k => tok_ok a c && mtp r k | [] => true end
  | (a, QOpt) :: r => mtp r key || match key with c :: k => tok_ok a c && mtp r k | [] => true end
  | (a, QStar) :: r => (fix star k := mtp r k || match k with c :: k' => tok_ok a c && star k' | [] => true end) key
  | (a, QPlus) :: r =>
      match key with
      | c :: k => tok_ok a c && (fix star k := mtp r k || match k with c :: k' => tok_ok a c && star k' | [] => true end) k
      | [] => true
      end
  end.
Definition mini : engine := fun r key partial =>
  match parse None r with
  | None => RxBad
  | Some l => if mt l key then RxMatch else if partial && mtp l key then RxPartial else RxNo
  end.

(** No quantifier after a slash. *)
Definition tidy (r : list N) : Prop := forall a c b, r = a ++ 47 :: c :: b -> quant_of c = None.
Lemma parse_flush a r : (forall c b, r = c :: b -> quant_of c = None) -> parse (Some a) r = option_map (cons (a, QOne)) (parse None r).
Proof.
  intros H. destruct r as [|c t]; [reflexivity|]. cbn [parse]. rewrite (H c t eq_refl).
  destruct (c =? 92); [destruct t as [|e t]; reflexivity|]. destruct (c =? 46); [reflexivity|]. destruct (existsb (N.eqb c) metas); reflexivity.
Qed.
Definition lits (t : list N) : list (tok * quant) := map (fun c => (TChr c, QOne)) t.
Definition pend (p : option tok) : list (tok * quant) := match p with Some a => [(a, QOne)] | None => [] end.
Lemma flush_pend p o : flush p o = option_map (app (pend p)) o.
Proof. destruct p; [reflexivity|]. destruct o; reflexivity. Qed.
Lemma quant_meta c q : quant_of c = Some q -> In c metas.
Proof.
  unfold quant_of. destruct (N.eqb_spec c 63) as [->|_]; [cbn; tauto|]. destruct (N.eqb_spec c 42) as [->|_]; [cbn; tauto|].
  destruct (N.eqb_spec c 43) as [->|_]; [cbn; tauto|discriminate].
Qed.
Lemma parse_lit seg t r : Lit seg t -> forall p, parse p (seg ++ 47 :: r) = option_map (fun l => pend p ++ lits t ++ l) (parse None (47 :: r)).
Proof.
  remember (parse None (47 :: r)) as X eqn:EX.
  induction 1 as [|c s t NM NB L IH|e s t IE L IH]; intros p; cbn [app].
  - subst X. change (parse p (47 :: r)) with (flush p (parse (Some (TChr 47)) r)). rewrite flush_pend. reflexivity.
  - cbn [parse]. destruct (quant_of c) eqn:Q; [apply quant_meta in Q; contradiction|]. rewrite (proj2 (N.eqb_neq c 92) NB).
    destruct (N.eqb_spec c 46) as [->|_]; [exfalso; apply NM; cbn; tauto|].
    destruct (existsb (N.eqb c) metas) eqn:M; [exfalso; apply NM, is_meta_in; exact M|].
    rewrite IH, flush_pend. destruct X; reflexivity.
  - change (parse p (92 :: e :: s ++ 47 :: r)) with (flush p (parse (Some (TChr e)) (s ++ 47 :: r))).
    rewrite IH, flush_pend. destruct X; reflexivity.
Qed.
Lemma mt_lits t : forall l key, mt (lits t ++ l) key = true -> exists k, key = t ++ k /\ mt l k = true.
Proof.
  induction t as [|c t IH]; intros l key M; cbn [lits map app] in *; [exists key; auto|]. cbn [mt] in M. destruct key as [|d key]; [discriminate|].
  apply andb_true_iff in M as [E M]. cbn [tok_ok] in E. apply N.eqb_eq in E. subst d. destruct (IH l key M) as (k & -> & Q). exists k. auto.
Qed.
Lemma tidy_tail a r : tidy (a ++ r) -> tidy r.
Proof. intros T x c b ->. apply (T (a ++ x) c b). rewrite <- app_assoc. reflexivity. Qed.
Lemma slash_item r its : tidy (47 :: r) -> parse None (47 :: r) = Some its -> exists its', parse None r = Some its' /\ its = (TChr 47, QOne) :: its'.
Proof.
  intros T P. change (parse None (47 :: r)) with (parse (Some (TChr 47)) r) in P. rewrite parse_flush in P.
  - destruct (parse None r) as [l|]; [|discriminate]. injection P as <-. eauto.
  - intros c b ->. apply (T [] c b). reflexivity.
Qed.
Lemma mini_below r ts : Leads r ts -> forall r', r = 47 :: r' -> tidy r -> forall its key, parse None r = Some its -> mt its key = true -> single key ->
  exists rest, key = concat (map (cons 47) ts) ++ 47 :: rest.
Proof.
  induction 1 as [r|c r ts L IH|c seg t r ts NE NS LI L IH]; intros r' E T its key P M SG.
  - subst. destruct (slash_item _ _ T P) as (its' & _ & ->). apply (mt_lits [47]) in M as (k & -> & _). exists k. reflexivity.
  - injection E as -> <-. exfalso. destruct (slash_item _ _ T P) as (its' & P' & ->). apply (mt_lits [47]) in M as (k & -> & M).
    assert (T' : tidy (47 :: r)) by (apply (tidy_tail [47]); exact T). destruct (slash_item _ _ T' P') as (its'' & _ & ->).
    apply (mt_lits [47]) in M as (k' & -> & _). inversion SG; subst. apply H1. split; reflexivity.
  - injection E as -> <-. destruct (slash_item _ _ T P) as (its' & P' & ->). apply (mt_lits [47]) in M as (k & -> & M).
    rewrite (parse_lit seg t r LI None) in P'. destruct (parse None (47 :: r)) as [l|] eqn:PL; [|discriminate]. injection P' as <-.
    apply mt_lits in M as (k' & -> & M).
    assert (T' : tidy (47 :: r)) by (apply (tidy_tail (47 :: seg)); exact T).
    destruct (IH r eq_refl T' l k' eq_refl M) as (rest & ->).
    { apply (single_suffix (47 :: t)). exact SG. }
    exists rest. cbn [map concat app]. rewrite <- app_assoc. reflexivity.
Qed.
Lemma mini_honest r key : absolute r = true -> tidy r -> canonical key -> honest mini r key.
Proof.
  intros A T C ts L M. destruct r as [|c r]; [discriminate|]. cbn [absolute] in A. apply N.eqb_eq in A. subst c. unfold mini in M.
  destruct (parse None (47 :: r)) as [its|] eqn:P; [|discriminate]. destruct (mt its key) eqn:Q; [|discriminate].
  right. apply (mini_below _ _ L r eq_refl T its key P Q). rewrite <- C. apply canon_single.
Qed.

(** A sort for literals. *)
Fixpoint insert_lit (x : lspec) (l : list lspec) : list lspec :=
  match l with [] => [x] | y :: l' => match compare_literal_spec y x with Gt => x :: l | _ => y :: insert_lit x l' end end.
Definition stable_sort (l : list lspec) : list lspec := fold_left (fun acc x => insert_lit x acc) l [].
Lemma compare_le a b : compare_literal_spec a b <> Gt <-> lit_le a b.
Proof.
  unfold compare_literal_spec, lit_le. rewrite txt_le_scmp. destruct (scmp (ls_match a) (ls_match b)) eqn:E.
  - apply scmp_eq in E. rewrite E. split.
    + intros H. split; [discriminate|]. intros _. apply N.compare_le_iff. exact H.
    + intros [_ H]. apply N.compare_le_iff. apply H. reflexivity.
  - split; [|discriminate]. intros _. split; [discriminate|]. intros Q. rewrite Q, scmp_refl in E. discriminate.
  - split; [congruence|]. intros [H _]. congruence.
Qed.
Lemma lit_le_total a b : compare_literal_spec a b = Gt -> lit_le b a.
Proof.
  intros H. apply compare_le. unfold compare_literal_spec in *. rewrite scmp_anti. destruct (scmp (ls_match a) (ls_match b)) eqn:E; cbn; try discriminate.
  rewrite N.compare_antisym. rewrite H. discriminate.
Qed.
Lemma lit_le_trans a b c : lit_le a b -> lit_le b c -> lit_le a c.
Proof.
  intros [A A'] [B B']. apply txt_le_scmp in A, B. split; [apply txt_le_scmp; eapply cle_trans; eassumption|].
  intros E. assert (AB : ls_match a = ls_match b).
  { apply scmp_eq. destruct (scmp (ls_match a) (ls_match b)) eqn:Q; [reflexivity| |congruence]. exfalso. rewrite E in Q.
    apply B. rewrite scmp_anti, Q. reflexivity. }
  rewrite AB in *. specialize (A' eq_refl). specialize (B' E). lia.
Qed.
Lemma insert_lit_ok x l : StronglySorted lit_le l -> Permutation (x :: l) (insert_lit x l) /\ StronglySorted lit_le (insert_lit x l).
Proof.
  induction 1 as [|y l S [P IH] F]; cbn [insert_lit]; [split; [reflexivity|constructor; constructor]|]. destruct (compare_literal_spec y x) eqn:C.
  1,2: split; [rewrite perm_swap; constructor; exact P|]; constructor; [exact IH|]; apply Forall_forall; intros z I;
    apply (Permutation_in _ (Permutation_sym P)) in I; destruct I as [<-|I]; [apply compare_le; congruence|rewrite Forall_forall in F; apply F, I].
  split; [reflexivity|]. constructor; [constructor; assumption|]. pose proof (lit_le_total _ _ C) as L. constructor; [exact L|].
  eapply Forall_impl; [|exact F]. intros z Z. eapply lit_le_trans; eassumption.
Qed.
Lemma stable_sorts : sorts stable_sort.
Proof.
  intros l. unfold stable_sort. assert (G : forall l acc, StronglySorted lit_le acc ->
    Permutation (acc ++ l) (fold_left (fun acc x => insert_lit x acc) l acc) /\ StronglySorted lit_le (fold_left (fun acc x => insert_lit x acc) l acc)).
  { clear l. induction l as [|x l IH]; intros acc S; cbn [fold_left]; [rewrite app_nil_r; split; [reflexivity|exact S]|].
    destruct (insert_lit_ok x acc S) as [P S']. destruct (IH _ S') as [Q S'']. split; [|exact S'']. rewrite <- Q, <- P. cbn [app].
    symmetry. apply Permutation_middle. }
  destruct (G l [] (SSorted_nil _)) as [P S]. split; assumption.
Qed.

(** Texts. *)
From Coq Require Import String Ascii.
Fixpoint txt (s : string) : list N := match s with EmptyString => [] | String c s' => N_of_ascii c :: txt s' end.
Definition line (r : string) (k : N) (c : string) : option (list N * N * list N) := Some (txt r, k, txt c).
Definition base1 : list (option (list N * N * list N)) :=
  [None; line "/.*" 0 "default_t"; line "/etc/.*" 0 "etc_t"; line "/etc/passwd" 0 "passwd_any_t"; line "/etc/passwd" 7 "passwd_t";
   line "/etc/x\.conf.*" 7 "conf_t"; line "/usr/lib/a/b/c/.*" 0 "deep_t"; line "/tmp/.*" 0 "<<none>>"].
Definition home1 : list (option (list N * N * list N)) := [line "/home/.*/www/.*" 0 "www_t"].
Definition local1 : list (option (list N * N * list N)) := [line "/srv/.+" 0 "srv_t"].
Definition subs1 : list (list N * list N) := [(txt "/opt/etc", txt "/etc"); (txt "/rootlink", txt "/")].
Definition dist1 : list (list N * list N) := [(txt "/usr/lib64", txt "/usr/lib")].
Definition db1 : option data := init stable_sort None false false subs1 dist1 base1 home1 local1.
Definition ctx_of (D : option data) (key : string) (mode : N) : option (list N) :=
  match D with Some D => option_map (fun f => sp_ctx (f_spec f)) (lookup mini D (txt key) mode) | None => None end.
Example db1_lookups :
  map (fun p => ctx_of db1 (fst p) (snd p))
    [("/etc//passwd/", 32768); ("/etc/passwd", 16384); ("/etc/hosts", 0); ("/etc/x.confd", 32768); ("/opt/etc/passwd", 32768);
     ("/rootlink/srv/x", 0); ("/usr/lib64/a/b/c/d", 0); ("/tmp/x", 0); ("/home/u/www/p", 0); ("", 0)]%string
  = [Some (txt "passwd_t"); Some (txt "passwd_any_t"); Some (txt "etc_t"); Some (txt "conf_t"); Some (txt "passwd_t");
     Some (txt "srv_t"); Some (txt "deep_t"); None; Some (txt "www_t"); None].
Proof. vm_compute. reflexivity. Qed.

(** Deciding the premises for concrete data. *)
Fixpoint tidyb (r : list N) : bool :=
  match r with
  | c :: ((d :: _) as t) => negb ((c =? 47) && match quant_of d with Some _ => true | None => false end) && tidyb t
  | _ => true
  end.
Lemma tidyb_ok r : tidyb r = true -> tidy r.
Proof.
  intros H a c b ->. induction a as [|x a IH].
  - cbn [app tidyb] in H. change (47 =? 47) with true in H. destruct (quant_of c); [discriminate|reflexivity].
  - apply IH. cbn [app tidyb] in H. destruct (a ++ 47 :: c :: b) eqn:E; [destruct a; discriminate|]. apply andb_true_iff in H. exact (proj2 H).
Qed.
Definition meetb (kind k : N) : bool := (kind =? 0) || (k =? 0) || (k =? kind).
Definition fine_spec (key : list N) (kind : N) (s : spec) : bool :=
  negb (fst (regex_has_meta_chars (sp_regex s))) || negb (meetb kind (sp_kind s)) ||
  (absolute (sp_regex s) && tidyb (sp_regex s) && match mini (sp_regex s) key false with RxMatch => true | RxNo => true | _ => false end).
Lemma fine_specs l key kind : canon key = key -> forallb (fine_spec key kind) l = true ->
  forall s, In s l -> ~ literal (sp_regex s) -> kinds_meet kind (sp_kind s) -> decided mini (sp_regex s) key /\ honest mini (sp_regex s) key.
Proof.
  intros C F s I NL K. rewrite forallb_forall in F. specialize (F s I). unfold fine_spec in F.
  destruct (fst (regex_has_meta_chars (sp_regex s))) eqn:M; [|destruct NL; apply has_meta_literal; exact M]. cbn [negb orb] in F.
  assert (MB : meetb kind (sp_kind s) = true) by (unfold meetb; destruct K as [->|[->| ->]]; [reflexivity|rewrite orb_true_r; reflexivity|rewrite N.eqb_refl, orb_true_r; reflexivity]).
  rewrite MB in F. cbn [negb orb] in F. apply andb_true_iff in F as [F D]. apply andb_true_iff in F as [A T]. split.
  - unfold decided. destruct (mini (sp_regex s) key false); try discriminate; auto.
  - apply mini_honest; [exact A|apply tidyb_ok, T|exact C].
Qed.
Lemma none_lasts E l key kind : forallb (fun s => match label s with Some _ => true | None => match E (sp_regex s) key false with RxMatch => false | _ => true end end) l = true ->
  none_last E l key kind.
Proof.
  intros F l1 s l2 -> (_ & _ & M) LN. rewrite forallb_forall in F. specialize (F s (proj2 (in_app_iff l1 (s :: l2) s) (or_intror (or_introl eq_refl)))).
  rewrite LN, M in F. discriminate.
Qed.
