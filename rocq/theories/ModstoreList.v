(** Lemmas for C85: what the listing of a store holds and in which order. *)
From Verif Require Import Base MlsModel ModstoreModel ModstoreSpec ModstoreProofs.
From Coq Require Import Sorted Permutation.
Open Scope list_scope.

Lemma map_all_some {A B} (f : A -> option B) (g : A -> B) l : (forall x, In x l -> f x = Some (g x)) -> map_all f l = Some (map g l).
Proof.
  induction l as [|x l IH]; intros H; [reflexivity|]. cbn. rewrite H by (left; reflexivity). rewrite IH by (intros y I; apply H; right; assumption). reflexivity.
Qed.
Definition info_of (st : mstore) (p : N) (n : list N) : minfo :=
  mkInfo p n (match look st p n with Some f => f_ext f | None => [] end) (negb (is_off st n)).
Lemma info_at_spec st p n i : good st -> (info_at st p n = Some i <-> look st p n <> None /\ i = info_of st p n).
Proof.
  intros G. unfold info_at, info_of. split.
  - destruct (valid_name n); [|discriminate]. destruct (valid_prio p); [|discriminate].
    destruct (look st p n); [|discriminate]. intros E. injection E as <-. split; [discriminate|reflexivity].
  - intros [L ->]. destruct (look st p n) eqn:E; [|congruence]. destruct (look_valid _ _ _ _ G E) as (A & B & _).
    apply valid_prio_spec in A. apply valid_name_spec in B. rewrite A, B. reflexivity.
Qed.

Section Listing.
Context (vsort : list (list N) -> list (list N)) (VS : sorts_versions vsort).

Lemma sorted_dirs l : NoDup l -> Forall good_prio l ->
  exists ds, vsort (map pad3 l) = map pad3 ds /\ Permutation ds l /\ StronglySorted (fun p q => p < q) ds.
Proof.
  intros ND G. destruct VS as [VP VO]. specialize (VP (map pad3 l)).
  assert (T : Forall three_figures (map pad3 l)).
  { apply Forall_map. revert G. apply Forall_impl. intros p P. apply pad3_figures. unfold good_prio in P. lia. }
  specialize (VO _ T). destruct (Permutation_map_inv _ _ VP) as (ds & E & P).
  exists ds. split; [assumption|]. split; [apply Permutation_sym; assumption|].
  rewrite E in VO. assert (GD : Forall good_prio ds).
  { rewrite Forall_forall in G |- *. intros x I. apply G. apply (Permutation_in _ (Permutation_sym P)). assumption. }
  assert (NDD : NoDup ds) by (apply (Permutation_NoDup P); assumption).
  clear - VO GD NDD. induction ds as [|p ds IH]; [constructor|]. cbn in VO. inversion VO as [|? ? S1 F1]; subst. inversion GD; subst. inversion NDD; subst.
  constructor; [apply IH; assumption|]. apply Forall_forall. intros q I. rewrite Forall_forall in F1. specialize (F1 (pad3 q) (in_map _ _ _ I)).
  assert (GQ : good_prio q) by (match goal with X : Forall good_prio ds |- _ => rewrite Forall_forall in X; exact (X q I) end).
  unfold good_prio in *. rewrite pad3_vers in F1 by lia. assert (p <> q) by (intros ->; contradiction).
  destruct (p ?= q) eqn:C; [apply N.compare_eq_iff in C; congruence|exact C|congruence].
Qed.
Definition dir_infos (st : mstore) (p : N) : list minfo :=
  map (info_of st p) (vsort (map d_name (filter (fun d => d_prio d =? p) (s_mods st)))).
Lemma in_dir_names st p n : good st -> (In n (vsort (map d_name (filter (fun d => d_prio d =? p) (s_mods st)))) <-> look st p n <> None).
Proof.
  intros G. destruct VS as [VP _]. split.
  - intros I. apply (Permutation_in _ (VP _)) in I. apply in_map_iff in I. destruct I as (d & <- & I). apply filter_In in I. destruct I as [I E].
    apply N.eqb_eq in E. subst p. rewrite look_of by assumption. discriminate.
  - intros L. apply (Permutation_in _ (Permutation_sym (VP _))). destruct (look st p n) as [f|] eqn:E; [|congruence].
    apply look_in in E. apply in_map_iff. exists (mkDir p n f). split; [reflexivity|]. apply filter_In. split; [assumption|apply N.eqb_refl].
Qed.
Lemma list_all_is st : good st ->
  exists ds, list_all vsort st = Some (concat (map (dir_infos st) ds)) /\ Permutation ds (s_dirs st) /\ StronglySorted (fun p q => q < p) ds.
Proof.
  intros G. destruct (sorted_dirs (s_dirs st)) as (ds & E & P & S); [apply G|apply G|]. exists (rev ds). split; [|split].
  - unfold list_all. rewrite E, <- map_rev.
    assert (GD : Forall good_prio (rev ds)).
    { apply Forall_forall. intros p I. apply in_rev in I. apply (Permutation_in _ P) in I. pose proof (g_prios _ G) as X. rewrite Forall_forall in X. auto. }
    clear E P S. revert GD. generalize (rev ds). clear ds. intros ds GD.
    assert (M : map_all (list_dir vsort st) (map pad3 ds) = Some (map (dir_infos st) ds)).
    { induction ds as [|p ds IH]; [reflexivity|]. inversion GD; subst. cbn [map map_all]. rewrite IH by assumption.
      unfold list_dir at 1. rewrite pad3_back by assumption.
      rewrite (map_all_some _ (info_of st p)); [reflexivity|]. intros n I. apply in_dir_names in I; [|assumption].
      apply info_at_spec; auto. }
    rewrite M. reflexivity.
  - apply Permutation_sym. eapply Permutation_trans; [apply Permutation_sym; exact P|]. apply Permutation_rev.
  - clear - S. induction S as [|p ds S IH F]; [constructor|]. cbn. clear S. revert IH. generalize (Forall_rev F). generalize (rev ds). clear F ds. intros l F S.
    induction S as [|q l S IH F']; [constructor; constructor|]. cbn. inversion F; subst. constructor; [auto|].
    apply Forall_app. split; [assumption|]. constructor; [assumption|constructor].
Qed.
Lemma listing st : good st -> exists l, list_all vsort st = Some l
  /\ (forall i, In i l <-> look st (i_prio i) (i_name i) <> None /\ i = info_of st (i_prio i) (i_name i))
  /\ StronglySorted (fun a b => i_prio b <= i_prio a) l.
Proof.
  intros G. destruct (list_all_is st G) as (ds & E & P & S). exists (concat (map (dir_infos st) ds)). split; [assumption|]. split.
  - intros i. rewrite in_concat. split.
    + intros (x & I & J). apply in_map_iff in I. destruct I as (p & <- & I). unfold dir_infos in J. apply in_map_iff in J. destruct J as (n & <- & J).
      apply in_dir_names in J; [|assumption]. cbn. auto.
    + intros [L ->]. cbn [i_prio i_name info_of]. exists (dir_infos st (i_prio i)). split.
      * apply in_map. apply (Permutation_in _ (Permutation_sym P)). destruct (look st (i_prio i) (i_name i)) eqn:K; [|congruence].
        apply (look_valid _ _ _ _ G) in K. apply K.
      * unfold dir_infos. apply in_map. apply in_dir_names; assumption.
  - clear E P. induction S as [|p ds S IH F]; [constructor|]. cbn.
    assert (H : forall l' : list minfo, StronglySorted (fun a b => i_prio b <= i_prio a) l' -> Forall (fun i => i_prio i < p) l' ->
      forall l, Forall (fun i => i_prio i = p) l -> StronglySorted (fun a b => i_prio b <= i_prio a) (l ++ l')).
    { intros l' S' F' l FL. induction FL as [|x l X FL IHl]; [assumption|]. cbn. constructor; [assumption|]. apply Forall_app. split.
      - revert FL. apply Forall_impl. intros a A. lia.
      - revert F'. apply Forall_impl. intros a A. lia. }
    apply H; [assumption| |].
    + apply Forall_forall. intros i I. apply in_concat in I. destruct I as (x & I & J). apply in_map_iff in I. destruct I as (q & <- & I).
      unfold dir_infos in J. apply in_map_iff in J. destruct J as (n & <- & J). cbn. rewrite Forall_forall in F. apply F. assumption.
    + apply Forall_forall. intros i I. unfold dir_infos in I. apply in_map_iff in I. destruct I as (n & <- & _). reflexivity.
Qed.

(** A name at its highest priority. *)
Definition highest (st : mstore) (n : list N) (p : N) : Prop := look st p n <> None /\ forall q, look st q n <> None -> q <= p.
Lemma find_first st n l : (forall i, In i l <-> look st (i_prio i) (i_name i) <> None /\ i = info_of st (i_prio i) (i_name i)) ->
  StronglySorted (fun a b => i_prio b <= i_prio a) l ->
  match find (fun i => str_eqb (i_name i) n) l with
  | Some i => i_name i = n /\ highest st n (i_prio i) /\ i = info_of st (i_prio i) n
  | None => forall p, look st p n = None
  end.
Proof.
  intros H S. destruct (find _ l) as [i|] eqn:E.
  - assert (Q : i_name i = n /\ In i l /\ forall j, In j l -> i_name j = n -> i_prio j <= i_prio i).
    { clear H. induction S as [|x l S IH F]; [discriminate|]. cbn in E. destruct (str_eqb (i_name x) n) eqn:K.
      - injection E as <-. apply str_eqb_eq in K. split; [assumption|]. split; [left; reflexivity|].
        intros j [<-|J] _; [lia|]. rewrite Forall_forall in F. apply F. assumption.
      - destruct (IH E) as (A & B & C). split; [assumption|]. split; [right; assumption|]. intros j [<-|J] X; [|auto].
        apply str_eqb_neq in K. congruence. }
    destruct Q as (A & B & C). split; [assumption|]. apply H in B. destruct B as [B D]. rewrite A in *. split; [|assumption]. split; [assumption|].
    intros q L. specialize (C (info_of st q n)). cbn in C. apply C; [|reflexivity]. apply H. cbn. auto.
  - intros p. destruct (look st p n) eqn:L; [|reflexivity]. exfalso.
    assert (I : In (info_of st p n) l) by (apply H; cbn; rewrite L; split; [discriminate|reflexivity]).
    apply (find_none _ _ E) in I. cbn in I. rewrite str_eqb_refl in I. discriminate.
Qed.
(** semanage_module_get_module_info. *)
Lemma get_info_top st n : good st -> match get_info vsort st 0 n with
  | Some i => i_name i = n /\ highest st n (i_prio i) /\ i = info_of st (i_prio i) n
  | None => forall p, look st p n = None end.
Proof.
  intros G. unfold get_info. destruct (valid_name n) eqn:V.
  - cbn [N.eqb]. destruct (listing st G) as (l & -> & H & S). apply find_first; assumption.
  - intros p. destruct (look st p n) eqn:L; [|reflexivity]. apply look_valid in L; [|assumption]. destruct L as (_ & L & _). apply valid_name_spec in L. congruence.
Qed.
Lemma get_info_at st p n i : good st -> p <> 0 -> (get_info vsort st p n = Some i <-> look st p n <> None /\ i = info_of st p n).
Proof.
  intros G P. unfold get_info. replace (p =? 0) with false by lia. destruct (valid_name n) eqn:V; [apply info_at_spec; assumption|].
  split; [discriminate|]. intros [L _]. destruct (look st p n) eqn:E; [|congruence]. apply look_valid in E; [|assumption]. destruct E as (_ & E & _). apply valid_name_spec in E. congruence.
Qed.

(** The active modules. *)
Lemma firsts_names seen : forall l, NoDup (map i_name (firsts seen l)) /\ forall n, In n seen -> ~ In n (map i_name (firsts seen l)).
Proof.
  intros l. revert seen. induction l as [|i l IH]; intros seen; [split; [constructor|intros n _ []]|]. cbn. destruct (i_on i); [|apply IH].
  destruct (existsb (str_eqb (i_name i)) seen) eqn:E; [apply IH|]. cbn. destruct (IH (i_name i :: seen)) as [A B]. split.
  - constructor; [apply B; left; reflexivity|assumption].
  - intros n I [<-|J].
    + assert (existsb (str_eqb (i_name i)) seen = true) by (apply existsb_exists; exists (i_name i); split; [assumption|apply str_eqb_refl]). congruence.
    + apply (B n); [right; assumption|assumption].
Qed.
Lemma firsts_in l : StronglySorted (fun a b => i_prio b <= i_prio a) l ->
  (forall i j, In i l -> In j l -> i_name i = i_name j -> i_on i = i_on j) -> forall seen i, In i (firsts seen l) ->
  In i l /\ i_on i = true /\ ~ In (i_name i) seen /\ forall j, In j l -> i_name j = i_name i -> i_prio j <= i_prio i.
Proof.
  intros S. induction S as [|x l S IH F]; intros ON seen i I; [destruct I|]. cbn in I.
  assert (ON' : forall i j, In i l -> In j l -> i_name i = i_name j -> i_on i = i_on j) by (intros; apply ON; auto; right; assumption).
  destruct (i_on x) eqn:X.
  - destruct (existsb (str_eqb (i_name x)) seen) eqn:E.
    + destruct (IH ON' _ _ I) as (A & B & C & D). split; [right; assumption|]. split; [assumption|]. split; [assumption|].
      intros j [<-|J] N; [|auto]. exfalso. apply C. rewrite <- N. apply existsb_exists in E. destruct E as (m & M & E). apply str_eqb_eq in E. subst. assumption.
    + assert (NS : ~ In (i_name x) seen).
      { intros J. assert (existsb (str_eqb (i_name x)) seen = true) by (apply existsb_exists; exists (i_name x); split; [assumption|apply str_eqb_refl]). congruence. }
      destruct I as [<-|I].
      * split; [left; reflexivity|]. split; [assumption|]. split; [assumption|]. intros j [<-|J] _; [lia|]. rewrite Forall_forall in F. apply F. assumption.
      * destruct (IH ON' _ _ I) as (A & B & C & D). split; [right; assumption|]. split; [assumption|]. split; [intros K; apply C; right; assumption|].
        intros j [<-|J] N; [|auto]. exfalso. apply C. left. assumption.
  - destruct (IH ON' _ _ I) as (A & B & C & D). split; [right; assumption|]. split; [assumption|]. split; [assumption|].
    intros j [<-|J] N; [|auto]. exfalso. assert (i_on x = i_on i) by (apply ON; [left; reflexivity|right; assumption|assumption]). congruence.
Qed.
Lemma firsts_has l : forall seen i, In i l -> i_on i = true -> ~ In (i_name i) seen -> exists k, In k (firsts seen l) /\ i_name k = i_name i.
Proof.
  induction l as [|x l IH]; intros seen i I ON NS; [destruct I|]. cbn. destruct I as [<-|I].
  - rewrite ON. replace (existsb (str_eqb (i_name x)) seen) with false.
    + exists x. split; [left; reflexivity|reflexivity].
    + symmetry. apply not_true_iff_false. intros E. apply existsb_exists in E. destruct E as (m & M & E). apply str_eqb_eq in E. subst. contradiction.
  - destruct (i_on x); [|apply IH; assumption]. destruct (existsb (str_eqb (i_name x)) seen); [apply IH; assumption|].
    destruct (text_dec (i_name x) (i_name i)) as [E|E]; [exists x; split; [left; reflexivity|assumption]|].
    destruct (IH (i_name x :: seen) i I ON) as (k & K & M); [intros [J|J]; contradiction|]. exists k. split; [right; assumption|assumption].
Qed.

Context (nsort : list minfo -> list minfo) (NS : sorts_names nsort).
Lemma active_is st : good st -> exists l, active vsort nsort st = Some l
  /\ (forall i, In i l <-> highest st (i_name i) (i_prio i) /\ is_off st (i_name i) = false /\ i = info_of st (i_prio i) (i_name i))
  /\ StronglySorted text_before (map i_name l).
Proof.
  intros G. destruct (listing st G) as (l & E & H & S). unfold active. rewrite E. exists (nsort (firsts [] l)). split; [reflexivity|].
  assert (ON : forall i j, In i l -> In j l -> i_name i = i_name j -> i_on i = i_on j).
  { intros i j I J N. apply H in I, J. destruct I as [_ I]. destruct J as [_ J]. rewrite I, J. cbn. rewrite N. reflexivity. }
  destruct (NS (firsts [] l)) as [NP NO]. split.
  - intros i. split.
    + intros I. apply (Permutation_in _ NP) in I. destruct (firsts_in l S ON [] i I) as (A & B & _ & D). apply H in A. destruct A as [A A'].
      split; [|split; [|assumption]].
      * split; [assumption|]. intros q L. specialize (D (info_of st q (i_name i))). cbn in D. apply D; [|reflexivity]. apply H. cbn. auto.
      * rewrite A' in B. cbn in B. apply negb_true_iff in B. assumption.
    + intros ([A A'] & B & C). apply (Permutation_in _ (Permutation_sym NP)).
      assert (I : In i l) by (apply H; auto).
      destruct (firsts_has l [] i I) as (k & K & KN); [rewrite C; cbn; rewrite B; reflexivity|intros []|].
      destruct (firsts_in l S ON [] k K) as (KA & _ & _ & KD). specialize (KD i I (eq_sym KN)).
      apply H in KA. destruct KA as [KA KE]. rewrite KN in *. specialize (A' _ KA). assert (EQ : i_prio k = i_prio i) by lia.
      replace i with k; [assumption|]. rewrite KE, C. rewrite EQ. cbn. reflexivity.
  - assert (ND : NoDup (map i_name (nsort (firsts [] l)))).
    { apply (Permutation_NoDup (Permutation_sym (Permutation_map i_name NP))). apply firsts_names. }
    clear - NO ND. induction NO as [|x m S IH F]; [constructor|]. cbn in *. inversion ND; subst. constructor; [auto|].
    apply Forall_forall. intros n I. apply in_map_iff in I. destruct I as (y & <- & I). rewrite Forall_forall in F. specialize (F y I).
    apply scmp_lt. destruct (scmp (i_name x) (i_name y)) eqn:C; [|reflexivity|congruence].
    apply scmp_eq in C. exfalso. match goal with X : ~ In _ _ |- _ => apply X end. rewrite C. apply in_map. assumption.
Qed.
End Listing.
