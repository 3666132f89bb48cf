(** Proofs about the record databases. *)
From Verif Require Import Base LabelModel DbModel DbSpec.
From Coq Require Import Sorted Permutation.

Section Llist.
Context {R : Type}.
Implicit Types (h : N -> option (cell R)) (db : llist R).

Fixpoint seg h (prev : option N) (ids : list N) (rs : list R) (nx : option N) : Prop :=
  match ids, rs with
  | [], [] => True
  | i :: ids', r :: rs' => h i = Some (mkCell (Some r) prev (match ids' with j :: _ => Some j | [] => nx end)) /\ seg h (Some i) ids' rs' nx
  | _, _ => False
  end.
Definition lst (prev : option N) (ids : list N) : option N := fold_left (fun _ i => Some i) ids prev.
Lemma lst_snoc p a i : lst p (a ++ [i]) = Some i.
Proof. unfold lst. rewrite fold_left_app. reflexivity. Qed.
Lemma lst_app p a b : lst p (a ++ b) = lst (lst p a) b.
Proof. apply fold_left_app. Qed.
Lemma lst_cons p i a : lst p (i :: a) = lst (Some i) a.
Proof. reflexivity. Qed.
Definition fst_or (ids : list N) (nx : option N) : option N := match ids with j :: _ => Some j | [] => nx end.

Lemma seg_length h : forall ids p rs nx, seg h p ids rs nx -> length ids = length rs.
Proof. induction ids as [|i ids IH]; intros p [|r rs] nx H; cbn in *; try contradiction; [reflexivity|]. f_equal. eapply IH. apply H. Qed.
Lemma seg_app h : forall a ra p b rb nx, length a = length ra ->
  (seg h p (a ++ b) (ra ++ rb) nx <-> seg h p a ra (fst_or b nx) /\ seg h (lst p a) b rb nx).
Proof.
  induction a as [|i a IH]; intros [|r ra] p b rb nx L; cbn [length] in L; try discriminate; cbn [app seg]; [tauto|].
  rewrite IH by lia. rewrite lst_cons. assert (E : match a ++ b with j :: _ => Some j | [] => nx end = match a with j :: _ => Some j | [] => fst_or b nx end) by (destruct a; [destruct b; reflexivity|reflexivity]).
  rewrite E. tauto.
Qed.
Lemma seg_put h i c : forall ids p rs nx, ~ In i ids -> (seg (put h i c) p ids rs nx <-> seg h p ids rs nx).
Proof.
  induction ids as [|j ids IH]; intros p [|r rs] nx N; cbn [seg]; try tauto. rewrite IH by (intros I; apply N; right; exact I).
  unfold put at 1. destruct (N.eqb_spec j i) as [->|_]; [destruct N; left; reflexivity|tauto].
Qed.
Lemma put_same h i c : put h i c i = c.
Proof. unfold put. rewrite N.eqb_refl. reflexivity. Qed.
Lemma put_other h i j c : j <> i -> put h i c j = h j.
Proof. intros N. unfold put. rewrite (proj2 (N.eqb_neq _ _) N). reflexivity. Qed.

(** Newest first. *)
Definition rep db (rs : list R) : Prop := exists ids, NoDup ids /\ (forall i, In i ids -> i < fresh db) /\ seg (heap db) None ids rs None /\
  cache db = fst_or ids None /\ cache_tail db = lst None ids /\ cache_sz db = N.of_nat (length rs) mod 2 ^ 32.

Lemma ids_fuel ids n : NoDup ids -> (forall i, In i ids -> i < n) -> (length ids <= N.to_nat n)%nat.
Proof.
  intros ND B. assert (I : incl ids (map N.of_nat (seq 0 (N.to_nat n)))).
  { intros i J. apply in_map_iff. exists (N.to_nat i). split; [apply N2Nat.id|]. apply in_seq. specialize (B i J). lia. }
  pose proof (NoDup_incl_length ND I) as L. rewrite map_length, seq_length in L. exact L.
Qed.
Lemma rep_init db : rep (cache_init db) [].
Proof. exists []. split; [constructor|]. split; [intros i []|]. cbn. split; [exact Coq.Init.Logic.I|]. auto. Qed.
Lemma prepend_ok r db rs : rep db rs -> exists db', cache_prepend true true r db = DOk db' /\ rep db' (r :: rs) /\ serial db' = serial db /\ modified db' = modified db.
Proof.
  intros (ids & ND & B & S & C & T & Z). unfold cache_prepend. cbn [negb].
  assert (NF : ~ In (fresh db) ids) by (intros I; specialize (B _ I); lia).
  assert (ZZ : (cache_sz db + 1) mod 2 ^ 32 = N.of_nat (length (r :: rs)) mod 2 ^ 32).
  { rewrite Z. cbn [length]. rewrite N.add_mod_idemp_l by discriminate. f_equal. lia. }
  assert (ND' : NoDup (fresh db :: ids)) by (constructor; assumption).
  assert (B' : forall i, In i (fresh db :: ids) -> i < fresh db + 1) by (intros i [<-|I]; [lia|specialize (B i I); lia]).
  destruct ids as [|j ids]; destruct rs as [|x rs]; cbn [seg] in S; try contradiction.
  - rewrite C. cbn [fst_or]. rewrite T. cbn [lst fold_left]. eexists. split; [reflexivity|]. split; [|split; reflexivity]. exists [fresh db].
    split; [exact ND'|]. split; [exact B'|]. cbn [heap fresh cache cache_tail cache_sz fst_or seg lst fold_left]. split; [split; [apply put_same|exact Coq.Init.Logic.I]|]. split; [reflexivity|]. split; [reflexivity|exact ZZ].
  - destruct S as [S1 S2]. rewrite C. cbn [fst_or]. rewrite put_other by (intros E; apply NF; left; congruence). rewrite S1. eexists. split; [reflexivity|]. split; [|split; reflexivity].
    exists (fresh db :: j :: ids). split; [exact ND'|]. split; [exact B'|]. cbn [heap fresh cache cache_tail cache_sz fst_or]. split.
    + cbn [seg]. split; [rewrite put_other by (intros E; apply NF; left; congruence); rewrite put_same; reflexivity|]. split; [rewrite put_same; reflexivity|].
      rewrite seg_put by (apply NoDup_cons_iff in ND; tauto). rewrite seg_put by (intros I; apply NF; right; exact I). exact S2.
    + split; [reflexivity|]. split; [|exact ZZ]. rewrite T. cbn [lst fold_left].
      assert (Q : forall (a : list N) (p : N), fold_left (fun (_ : option N) i => Some i) a (Some p) <> None) by (induction a; intros p; cbn; [discriminate|auto]).
      destruct (fold_left (fun _ i => Some i) ids (Some j)) eqn:E; [reflexivity|destruct (Q ids j E)].
Qed.
Lemma prepend_fails m c r db : m = false \/ c = false -> cache_prepend m c r db = DErr db.
Proof. intros [->| ->]; [reflexivity|]. unfold cache_prepend. destruct m; reflexivity. Qed.
Lemma free_all_ok : forall ids fuel h p rs, (length ids < fuel)%nat -> NoDup ids -> seg h p ids rs None -> exists h', free_all fuel h (fst_or ids None) = Some h'.
Proof.
  induction ids as [|i ids IH]; intros [|f] h p [|r rs] L ND S; cbn [length] in L; try lia; cbn [seg] in S; try contradiction; cbn [fst_or free_all].
  - eexists; reflexivity.
  - destruct S as [E S]. rewrite E. cbn [c_data c_next]. apply NoDup_cons_iff in ND as [N ND]. apply (IH f (put h i None) (Some i) rs); [lia|exact ND|].
    apply seg_put; assumption.
Qed.
Lemma fuel_ok db ids : NoDup ids -> (forall i, In i ids -> i < fresh db) -> (length ids < fuel_of db)%nat.
Proof. intros ND B. unfold fuel_of. pose proof (ids_fuel ids (fresh db) ND B). lia. Qed.
(** The middle of a list. *)
Lemma seg_mid h a i b ra r rb : length a = length ra -> seg h None (a ++ i :: b) (ra ++ r :: rb) None ->
  seg h None a ra (Some i) /\ h i = Some (mkCell (Some r) (lst None a) (fst_or b None)) /\ seg h (Some i) b rb None.
Proof. intros L S. apply seg_app in S; [|exact L]. destruct S as [S1 [S2 S3]]. cbn [fst_or] in S1. auto. Qed.
Lemma nodup_mid (a : list N) i b : NoDup (a ++ i :: b) -> ~ In i a /\ ~ In i b /\ NoDup (a ++ b) /\ (forall x, In x a -> ~ In x b).
Proof.
  intros ND. pose proof (NoDup_remove_1 _ _ _ ND) as N1. pose proof (NoDup_remove_2 _ _ _ ND) as N2. rewrite in_app_iff in N2.
  split; [tauto|]. split; [tauto|]. split; [exact N1|]. clear -N1. induction a as [|y a IH]; intros x [].
  - subst. cbn [app] in N1. apply NoDup_cons_iff in N1 as [Q _]. intros I. apply Q, in_app_iff. right; exact I.
  - apply IH; [|assumption]. cbn [app] in N1. apply NoDup_cons_iff in N1. tauto.
Qed.
(** ** Walking from the oldest record *)
Lemma seg_snoc h p a i rs nx : seg h p (a ++ [i]) rs nx -> exists ra r, rs = ra ++ [r] /\ seg h p a ra (Some i) /\ h i = Some (mkCell (Some r) (lst p a) nx).
Proof.
  intros Q. pose proof (seg_length _ _ _ _ _ Q) as L. rewrite app_length in L. cbn [length] in L.
  destruct (rev rs) as [|r rr] eqn:E; [apply (f_equal (@length R)) in E; rewrite rev_length in E; cbn in E; lia|].
  assert (rs = rev rr ++ [r]) by (rewrite <- (rev_involutive rs), E; reflexivity). subst rs. exists (rev rr), r. split; [reflexivity|].
  rewrite app_length in L. cbn [length] in L. apply seg_app in Q; [|lia]. destruct Q as (Q1 & Q2 & _). auto.
Qed.
Lemma iterate_ok fn : forall ids fuel h rs nx acc, (length ids < fuel)%nat -> seg h None ids rs nx ->
  exists (f : bool) s, iterate fuel h fn (lst None ids) acc = (if f then DErr (acc ++ s) else DOk (acc ++ s)) /\ Visits fn (rev rs) f s.
Proof.
  induction ids as [|i ids IH] using rev_ind; intros [|fu] h rs nx acc L Q; try (cbn [length] in L; lia).
  - destruct rs; [|contradiction]. exists false, []. rewrite app_nil_r. split; [reflexivity|constructor].
  - rewrite app_length in L. cbn [length] in L. apply seg_snoc in Q as (ra & r & -> & Q & E). rewrite lst_snoc. cbn [iterate]. rewrite E. cbn [c_data c_prev].
    rewrite rev_app_distr. cbn [rev app]. destruct (Z.ltb_spec (fn r) 0) as [LT|GE].
    + exists true, [r]. split; [reflexivity|]. apply V_fail; exact LT.
    + destruct (Z.ltb_spec 0 (fn r)) as [GT|LE]; [exists false, [r]; split; [reflexivity|apply V_stop; exact GT]|].
      destruct (IH fu h ra (Some i) (acc ++ [r]) ltac:(lia) Q) as (f & s & H & V). exists f, (r :: s). rewrite H. rewrite <- app_assoc. split; [reflexivity|]. apply V_go; [lia|exact V].
Qed.
Lemma list_loop_ok okc cnt : forall ids fuel h rs nx acc, (length ids < fuel)%nat -> seg h None ids rs nx -> N.of_nat (length acc + length rs) <= cnt ->
  ((forall i, (i < length rs)%nat -> okc (length acc + i)%nat = true) /\ list_loop fuel okc cnt h (lst None ids) acc = DOk (acc ++ rev rs)) \/
  ((exists i, (i < length rs)%nat /\ okc (length acc + i)%nat = false) /\ list_loop fuel okc cnt h (lst None ids) acc = DErr []).
Proof.
  induction ids as [|i ids IH] using rev_ind; intros [|fu] h rs nx acc L Q B; try (cbn [length] in L; lia).
  - destruct rs; [|contradiction]. left. split; [cbn; lia|]. cbn. rewrite app_nil_r. reflexivity.
  - rewrite app_length in L. cbn [length] in L. apply seg_snoc in Q as (ra & r & -> & Q & E). rewrite lst_snoc. cbn [list_loop]. rewrite E. cbn [c_data c_prev].
    rewrite rev_app_distr. cbn [rev app]. rewrite app_length in *. cbn [length] in *. destruct (N.leb_spec cnt (N.of_nat (length acc))); [lia|].
    destruct (okc (length acc)) eqn:OK.
    + destruct (IH fu h ra (Some i) (acc ++ [r]) ltac:(lia) Q) as [(A & ->)|((j & J & A) & ->)]; [rewrite app_length; cbn [length]; lia| |].
      * left. split; [|rewrite <- app_assoc; reflexivity]. intros [|j] J; [rewrite Nat.add_0_r; exact OK|]. specialize (A j ltac:(lia)). rewrite app_length in A. cbn [length] in A.
        replace (length acc + Datatypes.S j)%nat with (length acc + 1 + j)%nat by lia. exact A.
      * right. split; [|reflexivity]. exists (Datatypes.S j). split; [lia|]. rewrite app_length in A. cbn [length] in A.
        replace (length acc + Datatypes.S j)%nat with (length acc + 1 + j)%nat by lia. exact A.
    + right. split; [|reflexivity]. exists 0%nat. rewrite Nat.add_0_r. split; [lia|exact OK].
Qed.

(** ** Loading and calling *)
Lemma prepend_all_ok : forall src n db rs, rep db rs -> exists db', prepend_all (fun _ => (true, true)) n src db = DOk db' /\ rep db' (rev src ++ rs) /\ serial db' = serial db /\ modified db' = modified db.
Proof.
  induction src as [|r src IH]; intros n db rs H; cbn [prepend_all fst snd]; [exists db; auto|].
  destruct (prepend_ok r db rs H) as (d1 & -> & H1 & E1 & M1). destruct (IH (Datatypes.S n) d1 (r :: rs) H1) as (d2 & -> & H2 & E2 & M2).
  exists d2. split; [reflexivity|]. cbn [rev]. rewrite <- app_assoc. cbn [app]. split; [exact H2|]. split; congruence.
Qed.
Lemma cache_loads ser src db : (serial db < 0)%Z -> (0 <= ser)%Z -> exists db', file_cache ser ser (src, true) (fun _ => (true, true)) db = DOk db' /\ rep db' (rev src) /\ serial db' = ser /\ modified db' = false.
Proof.
  intros N P. unfold file_cache, needs_resync. destruct (Z.ltb_spec (serial db) 0); [|lia]. unfold set_serial. destruct (Z.ltb_spec ser 0); [lia|]. cbn [fst snd].
  match goal with |- context [prepend_all _ _ _ ?d] => set (d1 := d) end.
  assert (R1 : rep d1 []) by (exists []; split; [constructor|]; split; [intros i []|]; cbn; split; [exact Coq.Init.Logic.I|]; auto).
  destruct (prepend_all_ok src 0 d1 [] R1) as (d2 & -> & H2 & E2 & M2). exists d2. rewrite app_nil_r in H2. split; [reflexivity|]. split; [exact H2|]. split; [exact E2|exact M2].
Qed.
(** A file that cannot be read to its end leaves the database unloaded. *)
Lemma cache_fails ser src db : (serial db < 0)%Z -> (0 <= ser)%Z -> exists db', file_cache ser ser (src, false) (fun _ => (true, true)) db = DErr db' /\ (serial db' < 0)%Z.
Proof.
  intros N P. unfold file_cache, needs_resync. destruct (Z.ltb_spec (serial db) 0); [|lia]. unfold set_serial. destruct (Z.ltb_spec ser 0); [lia|]. cbn [fst snd].
  match goal with |- context [prepend_all _ _ _ ?d] => set (d1 := d) end.
  assert (R1 : rep d1 []) by (exists []; split; [constructor|]; split; [intros i []|]; cbn; split; [exact Coq.Init.Logic.I|]; auto).
  destruct (prepend_all_ok src 0 d1 [] R1) as (d2 & -> & H2 & E2 & M2). destruct H2 as (ids & ND & B & Q & C & T & ZZ).
  unfold fail_cache, drop_cache. rewrite E2. cbn [d1 serial]. destruct (Z.ltb_spec ser 0); [lia|]. rewrite C.
  destruct (free_all_ok ids (fuel_of d2) (heap d2) None _ (fuel_ok d2 ids ND B) ND Q) as (h' & ->).
  eexists. split; [reflexivity|]. cbn [serial]. lia.
Qed.
Lemma calls_fail (K : Type) (compare : R -> K -> comparison) ser src : (0 <= ser)%Z -> forall (ops : list (dop R K)) db, (serial db < 0)%Z -> exists db', calls compare ser (src, false) ops db = Some (db', map (fun _ => RFail) ops) /\ (serial db' < 0)%Z.
Proof.
  intros P. induction ops as [|o ops IH]; intros db N; cbn [calls map]; [exists db; auto|]. unfold call.
  destruct (cache_fails ser src db N P) as (d1 & -> & N1). destruct (IH d1 N1) as (d2 & -> & N2). exists d2. auto.
Qed.
Lemma cache_stays ser src oks db : serial db = ser -> (0 <= ser)%Z -> file_cache ser ser src oks db = DOk db.
Proof. intros E P. unfold file_cache, needs_resync. destruct (Z.ltb_spec (serial db) 0); [lia|]. destruct (Z.ltb_spec ser 0); [lia|]. rewrite E, Z.eqb_refl. reflexivity. Qed.
Lemma rep_mod db rs : rep db rs -> rep (set_mod db) rs.
Proof. intros (ids & H). exists ids. exact H. Qed.
Lemma clear_ok ser db rs : rep db rs -> (0 <= ser)%Z -> exists db', llist_clear ser db = DOk db' /\ rep db' [] /\ serial db' = ser /\ modified db' = true.
Proof.
  intros (ids & ND & B & Q & C & T & ZZ) P. unfold llist_clear, set_serial. destruct (Z.ltb_spec ser 0); [lia|]. unfold fuel_of. cbn [heap fresh cache serial]. rewrite C.
  destruct (free_all_ok ids (fuel_of db) (heap db) None rs (fuel_ok db ids ND B) ND Q) as (h' & F). unfold fuel_of in F.
  destruct (0 <=? serial db)%Z; [rewrite F|]; (eexists; split; [reflexivity|]; split; [|split; reflexivity]; exists []; split; [constructor|]; split; [intros i []|]; cbn; split; [exact Coq.Init.Logic.I|]; auto).
Qed.
(** The state after loading: the list oldest first, and unmodified only if it is what was read. *)
Definition live (ser : Z) (src l : list R) db : Prop := rep db (rev l) /\ serial db = ser /\ (modified db = false -> l = src).
Lemma flush_live ser src l db wr : live ser src l db -> exists db', live ser l l db' /\
  match wr with (true, true, true) => file_flush wr (Some src) db = (DOk db', Some l) | _ => True end.
Proof.
  intros (RP & SE & MD). destruct wr as [[wo wp] wc]. unfold file_flush. destruct (modified db) eqn:M; cbn [negb].
  - exists (mkLl (heap db) (fresh db) (cache db) (cache_tail db) (cache_sz db) (serial db) false). split; [split; [exact RP|split; [exact SE|auto]]|].
    destruct wo, wp, wc; auto. cbn [negb]. pose proof RP as (ids & ND & B & Q & C & T & ZZ). rewrite T.
    destruct (iterate_ok (fun _ => 0%Z) ids (fuel_of db) (heap db) (rev l) None [] (fuel_ok db ids ND B) Q) as (f & s & -> & V). rewrite rev_involutive in V. cbn [app].
    assert (G : forall l f s, Visits (fun _ : R => 0%Z) l f s -> f = false /\ s = l).
    { clear. induction 1; try lia; [auto|]. destruct IHVisits as [-> ->]. auto. }
    apply G in V as [-> ->]. reflexivity.
  - exists db. rewrite (MD eq_refl) in *. split; [split; [exact RP|split; [exact SE|auto]]|]. destruct wo, wp, wc; auto.
Qed.

(** ** Keys *)
Context {K : Type} (compare : R -> K -> comparison) (key : R -> K).
Context (cmp_key : forall r k, compare r k = Eq <-> key r = k).
Lemma locate_ok k : forall ids fuel h p rs, (length ids < fuel)%nat -> seg h p ids rs None ->
  (locate compare fuel h k (fst_or ids None) = Some None /\ forall y, In y rs -> key y <> k) \/
  (exists a i b ra r rb, ids = a ++ i :: b /\ rs = ra ++ r :: rb /\ length a = length ra /\ key r = k /\ (forall y, In y ra -> key y <> k) /\
     locate compare fuel h k (fst_or ids None) = Some (Some i)).
Proof.
  induction ids as [|i ids IH]; intros [|f] h p [|r rs] L S; cbn [length] in L; try lia; cbn [seg] in S; try contradiction; cbn [fst_or locate].
  - left. split; [reflexivity|intros y []].
  - destruct S as [E S]. rewrite E. cbn [c_data c_next]. destruct (compare r k) eqn:Q.
    + right. apply cmp_key in Q. exists [], i, ids, [], r, rs. repeat split; auto.
    + fold (fst_or ids None). assert (NK : key r <> k) by (intros X; apply cmp_key in X; congruence).
      destruct (IH f h (Some i) rs ltac:(lia) S) as [(A & B)|(a & i' & b & ra & r' & rb & -> & -> & A & KE & B & C)].
      * left. split; [exact A|]. intros y [<-|I]; [exact NK|apply B, I].
      * right. exists (i :: a), i', b, (r :: ra), r', rb. cbn [length]. repeat split; auto. intros y [<-|I]; [exact NK|apply B, I].
    + fold (fst_or ids None). assert (NK : key r <> k) by (intros X; apply cmp_key in X; congruence).
      destruct (IH f h (Some i) rs ltac:(lia) S) as [(A & B)|(a & i' & b & ra & r' & rb & -> & -> & A & KE & B & C)].
      * left. split; [exact A|]. intros y [<-|I]; [exact NK|apply B, I].
      * right. exists (i :: a), i', b, (r :: ra), r', rb. cbn [length]. repeat split; auto. intros y [<-|I]; [exact NK|apply B, I].
Qed.
(** Locating and replacing. *)
Lemma rep_locate db rs k : rep db rs ->
  (cache_locate compare k db = Some None /\ forall y, In y rs -> key y <> k) \/
  (exists i r ra rb, rs = ra ++ r :: rb /\ key r = k /\ (forall y, In y ra -> key y <> k) /\ cache_locate compare k db = Some (Some i) /\
     (exists c, heap db i = Some c /\ c_data c = Some r) /\
     (forall x, exists db', replace true i x db = DOk db' /\ rep db' (ra ++ x :: rb) /\ serial db' = serial db)).
Proof.
  intros (ids & ND & B & S & C & T & Z). unfold cache_locate. rewrite C. pose proof (fuel_ok db ids ND B) as FU.
  destruct (locate_ok k ids (fuel_of db) (heap db) None rs FU S) as [H|(a & i & b & ra & r & rb & EI & ER & L & KE & NK & Q)]; [left; exact H|right].
  subst ids rs. exists i, r, ra, rb. split; [reflexivity|]. split; [exact KE|]. split; [exact NK|]. split; [exact Q|].
  destruct (seg_mid _ _ _ _ _ _ _ L S) as (S1 & E & S2). destruct (nodup_mid _ _ _ ND) as (NA & NB & _). split; [eexists; split; [exact E|reflexivity]|].
  intros x. unfold replace. rewrite E. cbn [c_data c_prev c_next]. eexists. split; [reflexivity|]. split; [|reflexivity].
  exists (a ++ i :: b). cbn [fresh heap cache cache_tail cache_sz]. split; [exact ND|]. split; [exact B|]. split.
  - apply seg_app; [exact L|]. cbn [fst_or seg]. split; [apply seg_put; assumption|]. split; [apply put_same|apply seg_put; assumption].
  - split; [exact C|]. split; [exact T|]. rewrite Z, !app_length. reflexivity.
Qed.
(** Deleting. *)
Lemma del_loop_ok k db rs : rep db rs -> exists db', llist_del compare k db = DOk db' /\ serial db' = serial db /\
  (((forall y, In y rs -> key y <> k) /\ db' = db) \/
   (exists ra r rb, rs = ra ++ r :: rb /\ key r = k /\ (forall y, In y ra -> key y <> k) /\ rep db' (ra ++ rb) /\ modified db' = true)).
Proof.
  intros (ids & ND & B & S & C & T & Z). unfold llist_del. pose proof (fuel_ok db ids ND B) as FU.
  assert (G : forall b a rb ra fuel, (length b < fuel)%nat -> ids = a ++ b -> rs = ra ++ rb -> length a = length ra -> (forall y, In y ra -> key y <> k) ->
    exists db', del_loop compare fuel k db (lst None a) (fst_or b None) = DOk db' /\ serial db' = serial db /\
    (((forall y, In y rs -> key y <> k) /\ db' = db) \/
     (exists ra r rb, rs = ra ++ r :: rb /\ key r = k /\ (forall y, In y ra -> key y <> k) /\ rep db' (ra ++ rb) /\ modified db' = true))).
  { induction b as [|i b IH]; intros a rb ra [|f] L EI ER LA NK; cbn [length] in L; try lia.
    - exists db. split; [reflexivity|]. split; [reflexivity|]. left. split; [|reflexivity]. subst. rewrite app_nil_r in *. pose proof (seg_length _ _ _ _ _ S) as Q.
      rewrite app_length, LA in Q. assert (rb = []) by (destruct rb; [reflexivity|cbn [length] in Q; lia]). subst rb. rewrite app_nil_r. exact NK.
    - assert (RB : exists r rb', rb = r :: rb').
      { pose proof (seg_length _ _ _ _ _ S) as Q. subst. rewrite !app_length, LA in Q. destruct rb as [|r rb]; [cbn [length] in Q; lia|eauto]. }
      destruct RB as (r & rb' & ->). cbn [fst_or del_loop]. pose proof S as S0. rewrite EI, ER in S0. destruct (seg_mid _ _ _ _ _ _ _ LA S0) as (S1 & E & S2).
      rewrite E. cbn [c_data c_prev c_next]. destruct (compare r k) eqn:Q.
      2,3: specialize (IH (a ++ [i]) rb' (ra ++ [r]) f ltac:(lia)); rewrite lst_snoc in IH; apply IH;
        [rewrite EI, <- app_assoc; reflexivity|rewrite ER, <- app_assoc; reflexivity|rewrite !app_length; cbn [length]; lia|
         intros y I; apply in_app_iff in I as [I|[<-|[]]]; [apply NK, I|intros X; apply cmp_key in X; congruence]].
      apply cmp_key in Q. rewrite EI in ND. destruct (nodup_mid _ _ _ ND) as (NA & NB & NAB & DJ).
      (* the neighbour before *)
      assert (P1 : exists h1 hd1, match lst None a with
          | Some q => match heap db q with None => None | Some d => Some (put (heap db) q (Some (mkCell (c_data d) (c_prev d) (fst_or b None))), cache db) end
          | None => Some (heap db, fst_or b None) end = Some (h1, hd1) /\ hd1 = fst_or (a ++ b) None /\
          seg h1 None a ra (fst_or b None) /\ seg h1 (Some i) b rb' None /\ h1 i = heap db i).
      { destruct (@exists_last _ a) as [(a' & q & ->)|X] || idtac.
        destruct (rev a) as [|q ar] eqn:RA.
        - assert (a = []) by (destruct a; [reflexivity|apply (f_equal (@length N)) in RA; rewrite rev_length in RA; discriminate]). subst a.
          destruct ra; [|discriminate]. cbn [lst fold_left]. eexists _, _. split; [reflexivity|]. split; [reflexivity|]. split; [exact Coq.Init.Logic.I|]. split; [exact S2|reflexivity].
        - assert (EA : a = rev ar ++ [q]) by (rewrite <- (rev_involutive a), RA; reflexivity). set (a' := rev ar) in *. clearbody a'. clear RA. subst a.
          assert (ERA : exists ra' x, ra = ra' ++ [x]) by (destruct (rev ra) as [|x xs] eqn:RR; [apply (f_equal (@length R)) in RR; rewrite rev_length, <- LA, app_length in RR; cbn [length] in RR; lia|];
            exists (rev xs), x; rewrite <- (rev_involutive ra), RR; reflexivity). destruct ERA as (ra' & x & ->).
          assert (LA' : length a' = length ra') by (rewrite !app_length in LA; cbn [length] in LA; lia).
          rewrite lst_snoc. apply seg_app in S1; [|exact LA']. cbn [fst_or seg] in S1. destruct S1 as (S1 & Eq & _). rewrite Eq. cbn [c_data c_prev].
          eexists _, _. split; [reflexivity|]. assert (NQ : ~ In q a') by (intros X; rewrite <- app_assoc in ND; apply nodup_mid in ND; destruct ND as (X1 & _); apply X1, X).
          split; [|split; [|split]].
          + rewrite C, EI. destruct a'; reflexivity.
          + apply seg_app; [exact LA'|]. cbn [fst_or seg]. split; [apply seg_put; assumption|]. split; [apply put_same|exact Coq.Init.Logic.I].
          + apply seg_put; [|exact S2]. apply DJ. apply in_app_iff. right; left; reflexivity.
          + apply put_other. intros ->. apply NA, in_app_iff. right; left; reflexivity. }
      destruct P1 as (h1 & hd1 & -> & HD & T1 & T2 & T3).
      assert (P2 : exists h2 tl2, match fst_or b None with
          | Some q => match h1 q with None => None | Some d => Some (put h1 q (Some (mkCell (c_data d) (lst None a) (c_next d))), cache_tail db) end
          | None => Some (h1, lst None a) end = Some (h2, tl2) /\ tl2 = lst None (a ++ b) /\
          seg h2 None a ra (fst_or b None) /\ seg h2 (lst None a) b rb' None).
      { destruct b as [|q b]; destruct rb' as [|x rb']; cbn [seg] in T2; try contradiction; cbn [fst_or].
        - eexists _, _. split; [reflexivity|]. rewrite app_nil_r. split; [reflexivity|]. split; [exact T1|exact Coq.Init.Logic.I].
        - destruct T2 as [Eq T2]. rewrite Eq. cbn [c_data c_next]. eexists _, _. split; [reflexivity|]. split; [|split].
          + rewrite T, EI, !lst_app. cbn [lst fold_left]. reflexivity.
          + apply seg_put; [|exact T1]. intros X. apply (DJ _ X). left; reflexivity.
          + cbn [seg]. split; [apply put_same|]. apply seg_put; [|exact T2]. apply NoDup_remove_1 in ND.
            intros X. clear -ND X. induction a as [|y a IHa]; cbn [app] in ND; apply NoDup_cons_iff in ND; [tauto|apply IHa; tauto]. }
      destruct P2 as (h2 & tl2 & -> & TL & U1 & U2). eexists. split; [reflexivity|]. split; [reflexivity|]. right. exists ra, r, rb'.
      split; [exact ER|]. split; [exact Q|]. split; [exact NK|]. split; [|reflexivity]. exists (a ++ b). cbn [fresh heap cache cache_tail cache_sz].
      split; [exact NAB|]. split; [intros j J; apply B; rewrite EI; apply in_app_iff; apply in_app_iff in J as [J|J]; [left|right; right]; exact J|]. split.
      + apply seg_app; [exact LA|]. split; apply seg_put; assumption.
      + split; [exact HD|]. split; [exact TL|]. rewrite Z, ER, !app_length. cbn [length]. rewrite N.add_mod_idemp_l by discriminate.
        replace (N.of_nat (length ra + Datatypes.S (length rb')) + (2 ^ 32 - 1)) with (N.of_nat (length ra + length rb') + 1 * 2 ^ 32) by lia.
        apply N.mod_add. discriminate. }
  specialize (G ids [] rs [] (fuel_of db) FU eq_refl eq_refl eq_refl (fun y (I : In y []) => match I with end)). rewrite C. exact G.
Qed.

Lemma absent_rev l k : (forall y, In y (rev l) -> key y <> k) -> absent key l k.
Proof. intros H y I. apply H. apply in_rev in I. exact I. Qed.
Lemma newest_rev l k ra r rb : rev l = ra ++ r :: rb -> key r = k -> (forall y, In y ra -> key y <> k) -> newest key l k (rev rb) r (rev ra).
Proof.
  intros E KE NK. split; [|split; [exact KE|intros y I; apply NK, in_rev; exact I]]. rewrite <- (rev_involutive l), E, rev_app_distr. cbn [rev]. rewrite <- app_assoc. reflexivity.
Qed.
Lemma rep_len db rs : rep db rs -> cache_sz db = N.of_nat (length rs) mod 2 ^ 32.
Proof. intros (ids & H). apply H. Qed.
Lemma op_ok ser src l o db : (0 <= ser)%Z -> live ser src l db -> copies o -> N.of_nat (length l) < 2 ^ 32 ->
  exists db' l' x, apply_op compare ser o db = Some (db', x) /\ Step key l o l' x /\ live ser src l' db' /\ (length l' <= Datatypes.S (length l))%nat.
Proof.
  intros P (RP & SE & MD) CP LN. destruct o as [m c r|c k r|m c k r|k| |c k|k| |fn|m c]; cbn [apply_op].
  - unfold llist_add. destruct (m && c) eqn:MC.
    + apply andb_true_iff in MC as [-> ->]. destruct (prepend_ok r db _ RP) as (d & -> & RD & SD & _). exists (set_mod d), (l ++ [r]), RDone. split; [reflexivity|]. split; [constructor|].
      split; [|rewrite app_length; cbn; lia]. split; [|split; [cbn; congruence|discriminate]]. rewrite rev_app_distr. cbn [rev app]. apply rep_mod, RD.
    + rewrite prepend_fails by (destruct m; [right; destruct c; [discriminate|reflexivity]|left; reflexivity]). exists db, l, RFail. split; [reflexivity|].
      split; [apply S_add_mem; destruct m; [right; destruct c; [discriminate|reflexivity]|left; reflexivity]|]. split; [split; [exact RP|split; assumption]|lia].
  - cbn in CP. subst c. unfold llist_set. destruct (rep_locate db _ k RP) as [(-> & NK)|(i & x & ra & rb & E & KE & NK & -> & _ & RL)].
    + exists db, l, RFail. split; [reflexivity|]. split; [apply S_set_absent, absent_rev, NK|]. split; [split; [exact RP|split; assumption]|lia].
    + destruct (RL r) as (d & -> & RD & SD). exists (set_mod d), (rev rb ++ r :: rev ra), RDone. split; [reflexivity|]. pose proof (newest_rev _ _ _ _ _ E KE NK) as NW. split; [eapply S_set; exact NW|].
      split; [split; [|split; [cbn; congruence|discriminate]]|].
      * rewrite rev_app_distr. cbn [rev]. rewrite !rev_involutive, <- app_assoc. apply rep_mod, RD.
      * destruct NW as (EL & _). rewrite EL, !app_length. cbn. lia.
  - cbn in CP. subst c. unfold llist_modify. destruct (rep_locate db _ k RP) as [(-> & NK)|(i & x & ra & rb & E & KE & NK & -> & _ & RL)].
    + destruct m.
      * destruct (prepend_ok r db _ RP) as (d & -> & RD & SD & _). exists (set_mod d), (l ++ [r]), RDone. split; [reflexivity|]. split; [apply S_modify_new, absent_rev, NK|].
        split; [|rewrite app_length; cbn; lia]. split; [|split; [cbn; congruence|discriminate]]. rewrite rev_app_distr. cbn [rev app]. apply rep_mod, RD.
      * rewrite prepend_fails by (left; reflexivity). exists db, l, RFail. split; [reflexivity|]. split; [apply S_modify_mem; [apply absent_rev, NK|left; reflexivity]|]. split; [split; [exact RP|split; assumption]|lia].
    + destruct (RL r) as (d & -> & RD & SD). exists (set_mod d), (rev rb ++ r :: rev ra), RDone. split; [reflexivity|]. pose proof (newest_rev _ _ _ _ _ E KE NK) as NW. split; [eapply S_modify; exact NW|].
      split; [split; [|split; [cbn; congruence|discriminate]]|].
      * rewrite rev_app_distr. cbn [rev]. rewrite !rev_involutive, <- app_assoc. apply rep_mod, RD.
      * destruct NW as (EL & _). rewrite EL, !app_length. cbn. lia.
  - destruct (del_loop_ok k db _ RP) as (d & -> & SD & [(NK & ->)|(ra & r & rb & E & KE & NK & RD & MT)]).
    + exists db, l, RDone. split; [reflexivity|]. split; [apply S_del_absent, absent_rev, NK|]. split; [split; [exact RP|split; assumption]|lia].
    + exists d, (rev rb ++ rev ra), RDone. split; [reflexivity|]. pose proof (newest_rev _ _ _ _ _ E KE NK) as NW. split; [eapply S_del; exact NW|].
      split; [split; [|split; [congruence|congruence]]|].
      * rewrite rev_app_distr, !rev_involutive. exact RD.
      * destruct NW as (EL & _). rewrite EL, !app_length. cbn. lia.
  - destruct (clear_ok ser db _ RP P) as (d & -> & RD & SD & MT). exists d, [], RDone. split; [reflexivity|]. split; [constructor|]. split; [|cbn; lia]. split; [exact RD|]. split; congruence.
  - unfold llist_query. destruct (rep_locate db _ k RP) as [(-> & NK)|(i & x & ra & rb & E & KE & NK & -> & (ce & -> & ->) & _)].
    + exists db, l, RFail. split; [reflexivity|]. split; [apply S_query_absent, absent_rev, NK|]. split; [split; [exact RP|split; assumption]|lia].
    + destruct c.
      * exists db, l, (RRec x). split; [reflexivity|]. split; [eapply S_query, newest_rev; eassumption|]. split; [split; [exact RP|split; assumption]|lia].
      * exists db, l, RFail. split; [reflexivity|]. split; [constructor|]. split; [split; [exact RP|split; assumption]|lia].
  - unfold llist_exists. destruct (rep_locate db _ k RP) as [(-> & NK)|(i & x & ra & rb & E & KE & NK & -> & _)].
    + exists db, l, (RBool false). split; [reflexivity|]. split; [apply S_exists_absent, absent_rev, NK|]. split; [split; [exact RP|split; assumption]|lia].
    + exists db, l, (RBool true). split; [reflexivity|]. split; [eapply S_exists, newest_rev; eassumption|]. split; [split; [exact RP|split; assumption]|lia].
  - exists db, l, (RNum (N.of_nat (length l))). unfold llist_count. rewrite (rep_len _ _ RP), rev_length, N.mod_small by exact LN. split; [reflexivity|]. split; [constructor|]. split; [split; [exact RP|split; assumption]|lia].
  - pose proof RP as (ids & ND & B & Q & C & T & ZZ). unfold llist_iterate. rewrite T.
    destruct (iterate_ok fn ids (fuel_of db) (heap db) (rev l) None [] (fuel_ok db ids ND B) Q) as (f & s & -> & V). rewrite rev_involutive in V. cbn [app].
    exists db, l, (RSeen f s). split; [destruct f; reflexivity|]. split; [constructor; exact V|]. split; [split; [exact RP|split; assumption]|lia].
  - pose proof RP as (ids & ND & B & Q & C & T & ZZ). unfold llist_list. rewrite ZZ, T, rev_length, N.mod_small by exact LN.
    destruct l as [|a l].
    { cbn [length N.of_nat N.ltb N.compare]. exists db, [], (RArr []). split; [reflexivity|]. split; [apply S_list; [congruence|cbn; lia]|]. split; [split; [exact RP|split; assumption]|cbn; lia]. }
    set (l0 := a :: l) in *. assert (L0 : l0 <> []) by discriminate. assert (LL : (0 < length l0)%nat) by (cbn; lia). clearbody l0.
    destruct (N.ltb_spec 0 (N.of_nat (length l0))); [|lia]. destruct m.
    + destruct (list_loop_ok c (N.of_nat (length l0)) ids (fuel_of db) (heap db) (rev l0) None [] (fuel_ok db ids ND B) Q ltac:(rewrite rev_length; cbn; lia)) as [(A & ->)|(A & ->)].
      * rewrite rev_involutive. cbn [app]. exists db, l0, (RArr l0). split; [reflexivity|]. split; [apply S_list; [reflexivity|rewrite rev_length in A; exact A]|]. split; [split; [exact RP|split; assumption]|lia].
      * exists db, l0, RFail. split; [reflexivity|]. split; [apply S_list_mem; right; rewrite rev_length in A; exact A|]. split; [split; [exact RP|split; assumption]|lia].
    + exists db, l0, RFail. split; [reflexivity|]. split; [apply S_list_mem; left; auto|]. split; [split; [exact RP|split; assumption]|lia].
Qed.
Lemma call_live ser src l o db : (0 <= ser)%Z -> live ser src l db -> call compare ser (src, true) o db = apply_op compare ser o db.
Proof. intros P (_ & SE & _). unfold call. rewrite cache_stays by assumption. reflexivity. Qed.
Lemma calls_live ser src : (0 <= ser)%Z -> forall ops l db, live ser src l db -> Forall copies ops -> N.of_nat (length l + length ops) < 2 ^ 32 ->
  exists db' l' xs, calls compare ser (src, true) ops db = Some (db', xs) /\ Steps key l ops l' xs /\ live ser src l' db'.
Proof.
  intros P. induction ops as [|o ops IH]; intros l db LV CP LN; cbn [calls].
  - exists db, l, []. split; [reflexivity|]. split; [constructor|exact LV].
  - apply Forall_cons_iff in CP as [C1 C2]. cbn [length] in LN. rewrite (call_live ser src l o db P LV).
    destruct (op_ok ser src l o db P LV C1 ltac:(lia)) as (d & l1 & x & -> & ST & LV1 & LL). destruct (IH l1 d LV1 C2 ltac:(lia)) as (d2 & l2 & xs & -> & SS & LV2).
    exists d2, l2, (x :: xs). split; [reflexivity|]. split; [econstructor; eassumption|exact LV2].
Qed.
Lemma calls_history ser src : (0 <= ser)%Z -> forall ops db, (serial db < 0)%Z -> ops <> [] -> Forall copies ops -> N.of_nat (length src + length ops) < 2 ^ 32 ->
  exists db' l' xs, calls compare ser (src, true) ops db = Some (db', xs) /\ Steps key src ops l' xs /\ live ser src l' db'.
Proof.
  intros P [|o ops] db SN NE CP LN; [congruence|]. destruct (cache_loads ser src db SN P) as (d0 & E & R0 & S0 & M0).
  assert (LV : live ser src src d0) by (split; [exact R0|split; [exact S0|auto]]).
  assert (EC : calls compare ser (src, true) (o :: ops) db = calls compare ser (src, true) (o :: ops) d0).
  { cbn [calls]. unfold call. rewrite E, (cache_stays ser (src, true) _ d0 S0 P). reflexivity. }
  rewrite EC. apply calls_live; assumption.
Qed.
End Llist.
