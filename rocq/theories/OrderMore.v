(** * Proofs about the order: it is the only one, and it is found *)
From Coq Require Import Arith NArith List Bool Lia.
From Verif Require Import OrderModel OrderSpec OrderProofs.
Import ListNotations.
Local Open Scope N_scope.

(** ** Neighbours *)
Lemma triples_next s : forall prev op c d, In (op, c, Some d) (triples prev s) -> next_to c d s.
Proof.
  induction s as [|x s IH]; intros prev op c d I; [destruct I|]. cbn [triples] in I. destruct I as [E|I].
  - injection E as _ -> E. destruct s as [|y s]; [discriminate|]. injection E as ->. exists [], s. reflexivity.
  - destruct (IH _ _ _ _ I) as (l1 & l2 & ->). exists (x :: l1), l2. reflexivity.
Qed.
Definition last_of (prev : option N) (l : list N) : option N := fold_left (fun _ x => Some x) l prev.
Lemma triples_at s1 : forall prev c s2, In (last_of prev s1, c, hd_error s2) (triples prev (s1 ++ c :: s2)).
Proof. induction s1 as [|x s1 IH]; intros prev c s2; cbn [app triples]; [left; reflexivity|]. right. apply IH. Qed.
Lemma last_snoc prev l x : last_of prev (l ++ [x]) = Some x.
Proof. unfold last_of. rewrite fold_left_app. reflexivity. Qed.
Lemma next_among c d s : next_to c d s -> Among [c; d] s.
Proof. intros (l1 & l2 & ->). apply among_pre. apply Among_take, Among_take. constructor. Qed.
Lemma alike_eq a b : alike a b = true <-> a = b.
Proof. destruct a as [x|], b as [y|]; cbn; try (split; [discriminate|congruence] || tauto). rewrite N.eqb_eq. split; congruence. Qed.
Lemma chain_step m a b r : NoDup m -> Among [a; b] m -> Among (b :: r) m -> Among (a :: b :: r) m.
Proof.
  induction m as [|x m IH]; intros D A B; [inversion B|]. apply NoDup_cons_iff in D as [D1 D2]. inversion B as [|y s l B'|y s l B']; subst.
  - exfalso. apply D1. inversion A as [|y s l A'|y s l A']; subst; [eapply among_in; [exact A'|left; reflexivity]|eapply among_in; [exact A'|right; left; reflexivity]].
  - inversion A as [|y s l A'|y s l A']; subst; [apply Among_take; exact B'|apply Among_skip; apply IH; assumption].
Qed.
Lemma among_equal a b : Among a b -> NoDup b -> (forall x, In x b -> In x a) -> a = b.
Proof.
  induction 1 as [l|x s l H IH|x s l H _]; intros D I.
  - destruct l as [|y l]; [reflexivity|]. destruct (I y (or_introl eq_refl)).
  - apply NoDup_cons_iff in D as [D1 D2]. f_equal. apply IH; [exact D2|]. intros y Y. destruct (I y (or_intror Y)) as [->|Q]; [contradiction|exact Q].
  - apply NoDup_cons_iff in D as [D1 D2]. exfalso. apply D1. eapply among_in; [exact H|]. apply I. left. reflexivity.
Qed.
Lemma chk_among stmts m : NoDup m -> Forall (fun s => Among s m) stmts -> forall l prev, chk (flat_map (triples None) stmts) prev l -> (forall x, In x l -> In x m) -> Among l m.
Proof.
  intros D F. induction l as [|c l IH]; intros prev K I; [constructor|]. destruct K as (_ & N & K). specialize (IH _ K (fun x H => I x (or_intror H))). destruct l as [|d l]; [apply among_single, I; left; reflexivity|].
  apply chain_step; [exact D| |exact IH]. destruct N as (op & on & J & A). apply alike_eq in A. cbn in A. subst on. apply in_flat_map in J as (s & J1 & J2). apply triples_next, next_among in J2.
  rewrite Forall_forall in F. eapply among_trans; [exact J2|exact (F s J1)].
Qed.

(** ** What is made *)
Lemma firsts_ext b l r : Firsts b l r -> forall b', (forall x, In x b <-> In x b') -> Firsts b' l r.
Proof.
  induction 1 as [b|b x l r I _ IH|b x l r I _ IH]; intros b' E; [constructor| |].
  - apply Firsts_old; [apply E; exact I|apply IH; exact E].
  - apply Firsts_new; [rewrite <- E; exact I|]. apply IH. intros y. cbn. rewrite E. tauto.
Qed.
Lemma unordered_ok items : forall f m, inv f m -> exists f' r, insert_unordered f m items = Made (f', m ++ r) /\ inv f' (m ++ r) /\ Firsts m items r.
Proof.
  induction items as [|x items IH]; intros f m V; cbn [insert_unordered].
  - exists f, []. rewrite app_nil_r. split; [reflexivity|]. split; [exact V|constructor].
  - destruct (within x m) eqn:W.
    + apply within_in in W. destruct (IH f m V) as (f' & r & E & V' & F). exists f', r. split; [exact E|]. split; [exact V'|]. apply Firsts_old; assumption.
    + apply within_not in W. cbn [list_insert]. destruct V as [V1 V2]. destruct (within x f) eqn:WF; [apply within_in in WF; rewrite V2 in WF; contradiction|].
      destruct (IH (x :: f) (m ++ [x])) as (f' & r & E & V' & F).
      * split; [apply nodup_mid; rewrite app_nil_r; assumption|]. intros y. rewrite in_app_iff. cbn. rewrite V2. tauto.
      * exists f', (x :: r). rewrite <- app_assoc in E, V'. split; [exact E|]. split; [exact V'|]. apply Firsts_new; [exact W|]. eapply firsts_ext; [exact F|]. intros y. rewrite in_app_iff. cbn. tauto.
Qed.
Lemma map_snd_false {A} (l : list A) : map snd (map (fun s => (false, s)) l) = l.
Proof. rewrite map_map. apply map_id. Qed.
Lemma waits_all l : waits (map (fun s => (false, s)) l) = length l.
Proof. unfold waits. induction l; cbn; [reflexivity|]. f_equal. exact IHl. Qed.
Lemma inv_nil : inv [] [].
Proof. split; [constructor|tauto]. Qed.
Lemma marks_start ts l : marks ts (mkV None l false false false).
Proof. unfold marks. cbn. destruct l; [exact I|]. split; [discriminate|]. split; [discriminate|reflexivity]. Qed.
Lemma measure_start l : (measure (mkV None l false false false) < 3 * length l + 1)%nat.
Proof. unfold measure. cbn [v_rest v_fp v_fn b2n]. destruct l; cbn [length]; lia. Qed.
Lemma resolve_ok declared os us :
  match resolve_order declared os us with
  | Made l => exists l1 l2, l = l1 ++ l2 /\ agrees l1 os /\ (forall m, agrees m os -> m = l1) /\ Firsts l1 (concat us) l2 /\ NoDup l /\ incl declared l
  | Refused => True
  | Endless => False
  end.
Proof.
  unfold resolve_order. pose proof (rounds_ok (S (length os)) [] [] (map (fun s => (false, s)) os) inv_nil) as R. rewrite map_snd_false in R.
  assert (P : placed [] (map (fun s => (false, s)) os)) by (apply Forall_forall; intros [m s] I; apply in_map_iff in I as (x & E & _); injection E as <- <-; discriminate).
  specialize (R P). rewrite waits_all in R. specialize (R (Nat.lt_succ_diag_r _) (fun x H => match H with end)).
  destruct (rounds _ _ _ _) as [[f c]| |]; [|exact I|exact R]. destruct R as (V & A & E). unfold verify.
  set (ts := flat_map (triples None) os) in *. destruct (verify_ends ts _ _ true (marks_start ts c) (measure_start c)) as (b & VE). rewrite VE. destruct b; [|exact I].
  apply verify_sound in VE; [|apply marks_start]. cbn [v_prev v_rest] in VE. destruct (unordered_ok (concat us) f c V) as (f' & r & -> & V' & F).
  destruct (forallb (fun x => within x f') declared) eqn:DC; [|exact I]. exists c, r. split; [reflexivity|].
  assert (AG : agrees c os).
  { split; [apply V|]. split; [|exact A]. intros x. split; [apply E|]. intros (s & J & K). rewrite Forall_forall in A. eapply among_in; [exact (A s J)|exact K]. }
  split; [exact AG|]. split; [|split; [exact F|split; [apply V'|]]].
  - intros m (D & M & Q). symmetry. apply among_equal; [|exact D|].
    + eapply chk_among; [exact D|exact Q|exact VE|]. intros x J. apply M, E, J.
    + intros x J. apply AG, M, J.
  - intros x J. rewrite forallb_forall in DC. apply DC, within_in in J. apply V'. exact J.
Qed.

(** ** When it is found *)
Lemma split_app {A} (a b c d : list A) : a ++ b = c ++ d -> (exists t, c = a ++ t /\ b = t ++ d) \/ (exists t, a = c ++ t /\ d = t ++ b).
Proof.
  revert c. induction a as [|x a IH]; intros c E; [left; exists c; split; [reflexivity|exact E]|]. destruct c as [|y c]; [right; exists (x :: a); split; [reflexivity|symmetry; exact E]|].
  injection E as -> E. destruct (IH c E) as [(t & -> & Q)|(t & -> & Q)]; [left|right]; exists t; split; [reflexivity|exact Q|reflexivity|exact Q].
Qed.
Lemma insert_all xs : forall f pre, NoDup xs -> (forall x, In x xs -> ~ In x f) -> exists f', list_insert f pre xs = (true, f', pre ++ xs).
Proof.
  induction xs as [|x xs IH]; intros f pre D H; cbn [list_insert]; [exists f; rewrite app_nil_r; reflexivity|]. apply NoDup_cons_iff in D as [D1 D2].
  destruct (within x f) eqn:W; [apply within_in in W; destruct (H x (or_introl eq_refl) W)|]. destruct (IH (x :: f) (pre ++ [x]) D2) as (f' & E).
  - intros y Y [Q|Q]; [congruence|exact (H y (or_intror Y) Q)].
  - exists f'. rewrite E, <- app_assoc. reflexivity.
Qed.
Lemma loop_skip u : forall f pre post sk n, post <> [] -> (forall x, In x u -> ~ In x post) -> merge_loop f pre post sk (u ++ n) = merge_loop f pre post (sk ++ u) n.
Proof.
  induction u as [|x u IH]; intros f pre post sk n NE H; [rewrite app_nil_r; reflexivity|]. cbn [app merge_loop]. destruct post as [|y post]; [contradiction|].
  rewrite (proj2 (find_none x (y :: post)) (H x (or_introl eq_refl))). rewrite IH; [rewrite <- app_assoc; reflexivity|exact NE|]. intros z Z. apply H. right. exact Z.
Qed.
Lemma find_at u x r : ~ In x u -> find_in x (u ++ x :: r) = Some (u, r).
Proof.
  induction u as [|y u IH]; intros H; cbn [app find_in]; [rewrite N.eqb_refl; reflexivity|]. destruct (N.eqb_spec x y) as [->|NE]; [destruct H; left; reflexivity|].
  rewrite IH; [reflexivity|]. intros Q. apply H. right. exact Q.
Qed.
Lemma loop_hit f pre u x r n : ~ In x u -> merge_loop f pre (u ++ x :: r) [] (x :: n) = merge_loop f (pre ++ u ++ [x]) r [] n.
Proof.
  intros H. cbn [merge_loop]. rewrite (find_at u x r H). cbn [list_insert]. replace ((pre ++ u) ++ [x]) with (pre ++ u ++ [x]) by (rewrite <- app_assoc; reflexivity). destruct u; reflexivity.
Qed.
Lemma loop_follow w : forall f pre v n, merge_loop f pre (w ++ v) [] (w ++ n) = merge_loop f (pre ++ w) v [] n.
Proof.
  induction w as [|x w IH]; intros f pre v n; [rewrite app_nil_r; reflexivity|]. cbn [app]. pose proof (loop_hit f pre [] x (w ++ v) (w ++ n) (fun H => match H with end)) as LH. cbn [app] in LH. rewrite LH, IH, <- app_assoc. reflexivity.
Qed.
Lemma loop_tail f pre n : merge_loop f pre [] [] n = list_insert f pre n.
Proof. destruct n; cbn [merge_loop list_insert]; [rewrite app_nil_r; reflexivity|reflexivity]. Qed.
Lemma insert_flags u : forall f p q f2, list_insert f p u = (true, f2, q) -> forall y, In y f2 <-> In y f \/ In y u.
Proof.
  induction u as [|x u IH]; intros f p q f2 E; cbn [list_insert] in E; [injection E as <- _; intros y; cbn; tauto|]. destruct (within x f); [discriminate|]. intros y. rewrite (IH _ _ _ _ E). cbn. tauto.
Qed.
Lemma loop_front f u x r n : r = [] \/ r <> [] -> NoDup u -> (forall y, In y u -> ~ In y f) -> (forall y, In y u -> ~ In y (x :: r)) ->
  exists f', merge_loop f [] (x :: r) [] (u ++ x :: n) = merge_loop f' (u ++ [x]) r [] n /\ (forall y, In y f' <-> In y f \/ In y u).
Proof.
  intros _ D H1 H2. rewrite loop_skip; [|discriminate|exact H2]. cbn [app merge_loop]. cbn [find_in]. rewrite N.eqb_refl. cbn [app]. destruct (insert_all u f [] D H1) as (f2 & E). cbn [app] in E. rewrite E. exists f2. split; [reflexivity|].
  exact (insert_flags _ _ _ _ _ E).
Qed.
Lemma nodup_split (a b : list N) : NoDup (a ++ b) -> NoDup a /\ NoDup b /\ forall x, In x a -> ~ In x b.
Proof.
  induction a as [|x a IH]; cbn; intros D; [split; [constructor|]; split; [exact D|intros x []]|]. apply NoDup_cons_iff in D as [D1 D2]. destruct (IH D2) as (A & B & C). rewrite in_app_iff in D1.
  split; [constructor; [tauto|exact A]|]. split; [exact B|]. intros y [->|Y]; [tauto|auto].
Qed.
Lemma run_nodup s m : run_of s m -> NoDup m -> NoDup s.
Proof. intros (a & b & ->) D. apply nodup_split in D as (_ & D & _). apply nodup_split in D as (D & _). exact D. Qed.
Lemma merge_run m f c s : NoDup m -> inv f c -> run_of c m -> run_of s m ->
  exists b f' c', merge f c s = (b, f', c') /\ run_of c' m /\ (b = false -> c' = c /\ c <> [] /\ s <> [] /\ forall x, In x s -> ~ In x c).
Proof.
  intros D V RC RS. pose proof (run_nodup _ _ RC D) as DC. pose proof (run_nodup _ _ RS D) as DS. unfold merge. destruct s as [|s0 s1].
  { exists true, f, c. split; [reflexivity|]. split; [exact RC|discriminate]. }
  set (s := s0 :: s1) in *. assert (SN : s <> []) by discriminate. clearbody s. destruct c as [|c0 c1].
  { destruct (insert_all s f [] DS) as (f' & E); [intros x _ Q; apply V in Q; exact Q|]. exists true, f', s. split; [exact E|]. split; [exact RS|discriminate]. }
  set (c := c0 :: c1) in *. assert (CN : c <> []) by discriminate. clearbody c.
  assert (FR : forall x, ~ In x c -> ~ In x f) by (intros x H Q; apply H, V, Q).
  assert (DJ : (forall x, In x s -> ~ In x c) -> exists b f' c', merge_loop f [] c [] s = (b, f', c') /\ run_of c' m /\ (b = false -> c' = c /\ c <> [] /\ s <> [] /\ forall x, In x s -> ~ In x c)).
  { intros H. exists false, f, c. split.
    - rewrite <- (app_nil_r s), loop_skip by assumption. cbn [merge_loop app]. destruct s; [contradiction|reflexivity].
    - split; [exact RC|]. intros _. repeat split; assumption. }
  destruct RC as (ca & cb & EC), RS as (sa & sb & ES). rewrite ES in EC. destruct (split_app _ _ _ _ EC) as [(t & -> & E)|(t & -> & E)].
  - (* the statement starts first *)
    destruct (split_app _ _ _ _ E) as [(t2 & -> & E2)|(t2 & -> & E2)].
    + apply DJ. intros x X Q. rewrite ES, E2 in D. apply nodup_split in D as (_ & D & _). apply nodup_split in D as (_ & _ & D). apply (D x X). rewrite !in_app_iff. auto.
    + destruct (split_app c cb t2 sb E2) as [(v & -> & E3)|(v & -> & E3)].
      * (* covers the list *)
        destruct c as [|x r]; [contradiction|]. apply nodup_split in DS as (DT & DV & DX). apply nodup_split in DV as (_ & DV & DY).
        destruct (loop_front f t x r (r ++ v)) as (f1 & E1 & F1); [destruct r; [left; reflexivity|right; discriminate]|exact DT| | |].
        -- intros y Y. apply FR. intros Q. apply (DX y Y). apply in_app_iff. auto.
        -- intros y Y Q. apply (DX y Y). apply in_app_iff. auto.
        -- cbn [app]. rewrite E1. pose proof (loop_follow r f1 (t ++ [x]) [] v) as LF. rewrite app_nil_r in LF. rewrite LF, loop_tail.
           destruct (insert_all v f1 ((t ++ [x]) ++ r) DV) as (f2 & E4).
           ++ intros y Y Q. apply F1 in Q as [Q|Q]; [apply (FR y); [intros Z; exact (DY y Z Y)|exact Q]|]. apply (DX y Q). apply in_app_iff. auto.
           ++ rewrite E4. exists true, f2, (((t ++ [x]) ++ r) ++ v). split; [reflexivity|]. split; [|discriminate]. exists sa, sb. rewrite ES, <- !app_assoc. reflexivity.
      * (* ends within the list *)
        destruct t2 as [|x r].
        -- apply DJ. rewrite app_nil_r. intros y Y Q. rewrite ES in D. apply nodup_split in D as (_ & D & _). rewrite app_nil_r in D. apply nodup_split in D as (_ & _ & D). apply (D y Y). rewrite E3. apply in_app_iff. left. exact Q.
        -- apply nodup_split in DS as (DT & DV & DX). rewrite ES, E3, <- !app_assoc in D. cbn [app] in D. apply nodup_split in D as (_ & D & _). apply nodup_split in D as (_ & _ & D).
           destruct (loop_front f t x (r ++ v) r) as (f1 & E1 & F1); [destruct (r ++ v); [left; reflexivity|right; discriminate]|exact DT| | |].
           ++ intros y Y. apply FR. intros Q. apply (D y Y). rewrite app_comm_cons, app_assoc. apply in_app_iff. left. exact Q.
           ++ intros y Y Q. apply (D y Y). rewrite app_comm_cons, app_assoc. apply in_app_iff. left. exact Q.
           ++ cbn [app] in *. rewrite E1. pose proof (loop_follow r f1 (t ++ [x]) v []) as LF. rewrite app_nil_r in LF. rewrite LF. cbn [merge_loop]. exists true, f1, (((t ++ [x]) ++ r) ++ v). split; [reflexivity|]. split; [|discriminate].
              exists sa, cb. rewrite ES, E3, <- !app_assoc. reflexivity.
  - (* the list starts first *)
    destruct (split_app _ _ _ _ E) as [(t2 & -> & E2)|(t2 & -> & E2)].
    + apply DJ. intros x X Q. rewrite ES, <- !app_assoc in D. apply nodup_split in D as (_ & D & _). apply nodup_split in D as (_ & _ & D). apply (D x Q). rewrite !in_app_iff. auto.
    + destruct s as [|x r]; [contradiction|]. destruct (split_app (x :: r) sb t2 cb E2) as [(v & -> & E3)|(v & EV & E3)].
      * (* lies within the list *)
        apply nodup_split in DC as (_ & _ & DX). cbn [app]. rewrite (loop_hit f [] t x (r ++ v) r) by (intros Q; apply (DX x Q); left; reflexivity).
        pose proof (loop_follow r f ([] ++ t ++ [x]) v []) as LF. rewrite app_nil_r in LF. rewrite LF. cbn [merge_loop]. exists true, f, ((([] ++ t ++ [x]) ++ r) ++ v). split; [reflexivity|]. split; [|discriminate].
        exists ca, cb. rewrite ES, E3. cbn [app]. rewrite <- !app_assoc. reflexivity.
      * (* goes on behind the list *)
        destruct t2 as [|y r2].
        -- apply DJ. cbn [app] in EV. subst v. intros y Y Q. rewrite ES in D. rewrite app_nil_r in Q. rewrite <- !app_assoc in D. apply nodup_split in D as (_ & D & _). apply nodup_split in D as (_ & _ & D). apply (D y Q). apply in_app_iff. left. exact Y.
        -- cbn [app] in EV. injection EV as <- ->. apply nodup_split in DC as (_ & _ & DX). rewrite (loop_hit f [] t x r2 (r2 ++ v)) by (intros Q; apply (DX x Q); left; reflexivity).
           pose proof (loop_follow r2 f ([] ++ t ++ [x]) [] v) as LF. rewrite app_nil_r in LF. rewrite LF, loop_tail. rewrite app_comm_cons in DS. apply nodup_split in DS as (_ & DV & DY).
           destruct (insert_all v f (([] ++ t ++ [x]) ++ r2) DV) as (f2 & E4).
           ++ intros y Y. apply FR. intros Q. apply in_app_iff in Q as [Q|Q]; [|exact (DY y Q Y)]. rewrite ES, <- !app_assoc in D. apply nodup_split in D as (_ & D & _). apply nodup_split in D as (_ & _ & D). apply (D y Q). rewrite !in_app_iff. left. right. apply in_app_iff. auto.
           ++ rewrite E4. exists true, f2, ((([] ++ t ++ [x]) ++ r2) ++ v). split; [reflexivity|]. split; [|discriminate]. exists ca, sb. rewrite ES. cbn [app]. rewrite <- !app_assoc. cbn [app]. reflexivity.
Qed.

(** ** Statements that are runs of an order *)
Section Runs.
Context (m : list N) (os : list (list N)) (D : NoDup m) (RU : forall s, In s os -> run_of s m)
  (NX : forall a b, next_to a b m -> exists s, In s os /\ next_to a b s) (CV : forall x, In x m -> exists s, In s os /\ In x s).
Lemma stuck c s0 : run_of c m -> c <> [] -> (forall s, In s os -> incl s c \/ forall x, In x s -> ~ In x c) -> In s0 os -> s0 <> [] -> (forall x, In x s0 -> ~ In x c) -> False.
Proof.
  intros (a & b & E) CN H J SN DJ. destruct s0 as [|x s0]; [contradiction|]. assert (X : In x m). { destruct (RU _ J) as (p & q & ->). rewrite !in_app_iff. right. left. left. reflexivity. }
  rewrite E, !in_app_iff in X. pose proof D as D0. rewrite E in D0. apply nodup_split in D0 as (_ & D1 & D2). apply nodup_split in D1 as (_ & _ & D1). destruct X as [X|[X|X]].
  - destruct (exists_last (l := a)) as (a' & z & Q); [intros Q; rewrite Q in X; destruct X|]. destruct c as [|y c']; [contradiction|].
    destruct (NX z y) as (s & JS & (l1 & l2 & ->)); [exists a', (c' ++ b); rewrite E, Q, <- app_assoc; reflexivity|].
    destruct (H _ JS) as [I|I].
    + apply (D2 z); [rewrite Q; apply in_app_iff; right; left; reflexivity|]. apply in_app_iff. left. apply I. apply in_app_iff. right. left. reflexivity.
    + apply (I y); [apply in_app_iff; right; right; left; reflexivity|left; reflexivity].
  - apply (DJ x); [left; reflexivity|exact X].
  - destruct (exists_last (l := c)) as (c' & z & Q); [exact CN|]. destruct b as [|y b']; [destruct X|].
    destruct (NX z y) as (s & JS & (l1 & l2 & ->)); [exists (a ++ c'), b'; rewrite E, Q, <- !app_assoc; reflexivity|].
    destruct (H _ JS) as [I|I].
    + apply (D1 y); [|left; reflexivity]. apply I. apply in_app_iff. right. right. left. reflexivity.
    + apply (I z); [apply in_app_iff; right; left; reflexivity|]. rewrite Q. apply in_app_iff. right. left. reflexivity.
Qed.
Lemma round_run stmts : forall f c f' c' r w ch, Forall (fun s => run_of (snd s) m) stmts -> inv f c -> run_of c m -> round f c stmts = (f', c', r, w, ch) ->
  run_of c' m /\ (ch = false -> c' = c /\ Forall (fun s => fst s = false -> c <> [] /\ snd s <> [] /\ forall x, In x (snd s) -> ~ In x c) stmts).
Proof.
  induction stmts as [|[mm s] stmts IH]; intros f c f' c' r w ch R V RC E; cbn [round] in E.
  - injection E as <- <- <- <- <-. split; [exact RC|]. intros _. split; [reflexivity|constructor].
  - apply Forall_cons_iff in R as [R1 R2]. destruct mm.
    + destruct (round f c stmts) as [[[[f0 c0] r0] w0] ch0] eqn:Q. injection E as <- <- <- <- <-. destruct (IH _ _ _ _ _ _ _ R2 V RC Q) as [A B]. split; [exact A|]. intros T. destruct (B T) as [B1 B2]. split; [exact B1|]. constructor; [discriminate|exact B2].
    + destruct (merge_run m f c s D V RC R1) as (b & f1 & c1 & M & RC1 & B1). rewrite M in E. destruct (merge_ok _ _ _ _ _ _ V M) as (V1 & _). destruct (round f1 c1 stmts) as [[[[f0 c0] r0] w0] ch0] eqn:Q.
      destruct (IH _ _ _ _ _ _ _ R2 V1 RC1 Q) as [A B]. destruct b; injection E as <- <- <- <- <-; (split; [exact A|]); [discriminate|]. intros T. destruct (B1 eq_refl) as (-> & X). destruct (B T) as [B2 B3].
      split; [exact B2|]. constructor; [intros _; exact X|exact B3].
Qed.
Lemma waits_some r : waits r <> 0%nat -> exists s, In (false, s) r.
Proof.
  unfold waits. induction r as [|[mm s] r IH]; intros W; [contradiction|]. destruct mm; cbn in W; [|exists s; left; reflexivity]. destruct (IH W) as (u & J). exists u. right. exact J.
Qed.
Lemma rounds_run fuel : forall f c stmts, map snd stmts = os -> inv f c -> run_of c m -> placed c stmts -> (waits stmts < fuel)%nat ->
  exists f' c', rounds fuel f c stmts = Made (f', c') /\ run_of c' m.
Proof.
  induction fuel as [|fuel IH]; intros f c stmts MS V RC P L; [lia|]. cbn [rounds]. destruct (round f c stmts) as [[[[f1 c1] r] w] ch] eqn:R.
  assert (RR : Forall (fun s => run_of (snd s) m) stmts). { apply Forall_forall. intros s J. apply RU. rewrite <- MS. apply in_map. exact J. }
  destruct (round_run _ _ _ _ _ _ _ _ RR V RC R) as [RC1 ST]. destruct (round_ok _ _ _ _ _ _ _ _ V P R) as (V1 & A1 & Q1 & M1 & W1 & L1 & C1 & I1).
  destruct (N.eqb_spec w 0) as [->|NE]; [eauto|]. destruct ch.
  - apply IH; [rewrite M1; exact MS|exact V1|exact RC1|exact Q1|]. specialize (C1 eq_refl). lia.
  - exfalso. destruct (ST eq_refl) as [E F]. subst c1. destruct (waits_some stmts) as (s0 & J0); [lia|]. rewrite Forall_forall in F. destruct (F _ J0 eq_refl) as (CN & SN & DJ). cbn [snd] in SN, DJ.
    apply (stuck c s0 RC CN); [|rewrite <- MS; change s0 with (snd (false, s0)); apply in_map; exact J0|exact SN|exact DJ].
    intros s J. rewrite <- MS in J. apply in_map_iff in J as ([mm s'] & <- & J). cbn [snd]. destruct mm.
    + left. unfold placed in P. rewrite Forall_forall in P. intros x X. eapply among_in; [exact (P _ J eq_refl)|exact X].
    + right. destruct (F _ J eq_refl) as (_ & _ & H). exact H.
Qed.
Lemma chk_run l : forall l1, m = l1 ++ l -> chk (flat_map (triples None) os) (last_of None l1) l.
Proof.
  induction l as [|c l IH]; intros l1 E; [exact I|]. cbn [chk]. split; [|split].
  - destruct l1 as [|x0 l0].
    + cbn [last_of fold_left]. destruct (CV c) as (s & J & K); [rewrite E; left; reflexivity|]. apply in_split in K as (s1 & s2 & ->). destruct (RU _ J) as (p & q & Q).
      exists None, (hd_error s2). split; [|reflexivity]. apply in_flat_map. exists (s1 ++ c :: s2). split; [exact J|]. destruct s1 as [|y s1]; [apply (triples_at [] None c s2)|]. exfalso.
      rewrite Q in E. pose proof D as D0. rewrite Q in D0. destruct p as [|p0 p].
      * cbn [app] in E, D0. injection E as -> _. apply NoDup_cons_iff in D0 as [D0 _]. apply D0. rewrite !in_app_iff. cbn. tauto.
      * cbn [app] in E, D0. injection E as -> _. apply NoDup_cons_iff in D0 as [D0 _]. apply D0. rewrite !in_app_iff. cbn. rewrite !in_app_iff. cbn. tauto.
    + destruct (exists_last (l := x0 :: l0)) as (l' & a & Q); [discriminate|]. rewrite Q in *. rewrite last_snoc. destruct (NX a c) as (s & J & (s1 & s2 & ->)); [exists l', l; rewrite E, <- app_assoc; reflexivity|].
      exists (Some a), (hd_error s2). split; [|apply N.eqb_refl]. apply in_flat_map. exists (s1 ++ a :: c :: s2). split; [exact J|]. pose proof (triples_at (s1 ++ [a]) None c s2) as T. rewrite last_snoc, <- app_assoc in T. exact T.
  - destruct l as [|d l].
    + cbn [hd_error]. destruct (CV c) as (s & J & K); [rewrite E; apply in_app_iff; right; left; reflexivity|]. apply in_split in K as (s1 & s2 & ->). destruct (RU _ J) as (p & q & Q).
      exists (last_of None s1), None. split; [|reflexivity]. apply in_flat_map. exists (s1 ++ c :: s2). split; [exact J|]. pose proof (triples_at s1 None c s2) as T. destruct s2 as [|y s2]; [exact T|]. exfalso.
      rewrite Q in E. pose proof D as D0. rewrite Q in D0. replace (p ++ (s1 ++ c :: y :: s2) ++ q) with ((p ++ s1 ++ [c]) ++ (y :: s2 ++ q)) in E, D0 by (rewrite <- !app_assoc; reflexivity).
      destruct (exists_last (l := y :: s2 ++ q)) as (u & z & U); [discriminate|]. rewrite U, app_assoc in E. apply app_inj_tail in E as [_ ->]. apply nodup_split in D0 as (_ & _ & D0). apply (D0 c).
      * rewrite !in_app_iff. cbn. tauto.
      * rewrite U. apply in_app_iff. right. left. reflexivity.
    + cbn [hd_error]. destruct (NX c d) as (s & J & (s1 & s2 & ->)); [exists l1, l; exact E|]. exists (last_of None s1), (Some d). split; [|apply N.eqb_refl]. apply in_flat_map. exists (s1 ++ c :: d :: s2). split; [exact J|].
      exact (triples_at s1 None c (d :: s2)).
  - rewrite <- (last_snoc None l1 c). apply IH. rewrite <- app_assoc. exact E.
Qed.
Lemma resolve_run declared us : incl declared (m ++ concat us) -> exists l2, resolve_order declared os us = Made (m ++ l2) /\ Firsts m (concat us) l2.
Proof.
  intros DI. unfold resolve_order.
  assert (P : placed [] (map (fun s => (false, s)) os)) by (apply Forall_forall; intros [b s] J; apply in_map_iff in J as (x & E & _); injection E as <- <-; discriminate).
  destruct (rounds_run (S (length os)) [] [] _ (map_snd_false os) inv_nil) as (f & c & E & RC); [exists [], m; reflexivity|exact P|rewrite waits_all; apply Nat.lt_succ_diag_r|].
  pose proof (rounds_ok (S (length os)) [] [] (map (fun s => (false, s)) os) inv_nil P) as R. rewrite map_snd_false, waits_all in R. specialize (R (Nat.lt_succ_diag_r _) (fun x H => match H with end)). rewrite E in R |- *.
  destruct R as (V & A & _). assert (CM : c = m).
  { apply among_equal; [destruct RC as (p & q & ->); apply among_infix|exact D|]. intros x X. destruct (CV x X) as (s & J & K). rewrite Forall_forall in A. eapply among_in; [exact (A s J)|exact K]. }
  subst c. unfold verify. rewrite (verify_complete (flat_map (triples None) os) _ _ (marks_start _ m) (measure_start m) (chk_run m [] eq_refl)).
  destruct (unordered_ok (concat us) f m V) as (f' & r & -> & V' & F). destruct (forallb (fun x => within x f') declared) eqn:DC; [eauto|]. exfalso.
  apply Bool.not_true_iff_false in DC. apply DC. apply forallb_forall. intros x J. apply within_in, V'. specialize (DI x J). apply in_app_iff. apply in_app_iff in DI as [DI|DI]; [auto|].
  clear - F DI. induction F as [b|b y l r I _ IH|b y l r I _ IH]; [destruct DI| |].
  - destruct DI as [->|DI]; [auto|apply IH; exact DI].
  - destruct DI as [->|DI]; [right; left; reflexivity|]. destruct (IH DI) as [[->|H]|H]; [right; left; reflexivity|auto|right; right; exact H].
Qed.
End Runs.
