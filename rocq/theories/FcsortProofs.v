(** Proofs about the sorting of file contexts. *)
From Verif Require Import Base MlsModel ContextModel LoginModel LoginSpec LoginProofs LoginCtxProofs.
From Verif Require Import FcsortModel FcsortSpec.
From Coq Require Import Sorted Permutation.

(** ** The order on nodes *)

Definition ty (n : fnode) : Z := match f_type n with Some _ => 1%Z | None => 0%Z end.

(** [a] is less specific than [b], on the fields. *)
Definition ltn (a b : fnode) : Prop :=
  (0 <= f_meta a /\ f_meta b < 0)%Z \/
  ((0 <= f_meta a <-> 0 <= f_meta b)%Z /\
   ((f_meta a < f_meta b)%Z \/
    (f_meta a = f_meta b /\
     (f_eff a < f_eff b \/ (f_eff a = f_eff b /\ (ty a < ty b)%Z))))).

Lemma compare_ltn a b : (fc_compare a b = 1%Z <-> ltn b a) /\ (fc_compare a b = (-1)%Z <-> ltn a b) /\
  (fc_compare a b = 0%Z <-> ~ ltn a b /\ ~ ltn b a).
Proof.
  unfold fc_compare, ltn, ty. cbv zeta.
  destruct (f_type a), (f_type b); cbn [negb andb];
  repeat match goal with
  | |- context [if ?b then _ else _] => destruct b eqn:?
  end; lia.
Qed.

Lemma ty_range n : (0 <= ty n <= 1)%Z.
Proof. unfold ty. destruct (f_type n); lia. Qed.

Lemma ltn_trans a b c : ltn a b -> ltn b c -> ltn a c.
Proof. unfold ltn. lia. Qed.
Lemma ltn_irrefl a : ~ ltn a a.
Proof. unfold ltn. lia. Qed.
Lemma nlt_trans a b c : ~ ltn b a -> ~ ltn c b -> ~ ltn c a.
Proof. unfold ltn. lia. Qed.
Lemma lt_nlt_trans a b c : ltn a b -> ~ ltn c b -> ltn a c.
Proof. unfold ltn. lia. Qed.

Definition len (a b : fnode) : Prop := ~ ltn b a.

(** ** Merging *)

Lemma merge_nil_r l : fc_merge l [] = l.
Proof. destruct l; reflexivity. Qed.
Lemma merge_cons a l b r : fc_merge (a :: l) (b :: r) =
  if (fc_compare a b =? 1)%Z then b :: fc_merge (a :: l) r else a :: fc_merge l (b :: r).
Proof. reflexivity. Qed.

Lemma merge_perm l : forall r, Permutation (l ++ r) (fc_merge l r).
Proof.
  induction l as [|a l IH]; intros r; [destruct r; apply Permutation_refl|].
  induction r as [|b r IHr].
  - rewrite app_nil_r, merge_nil_r. apply Permutation_refl.
  - rewrite merge_cons. destruct (fc_compare a b =? 1)%Z.
    + apply Permutation_trans with (b :: (a :: l) ++ r); [|constructor; exact IHr].
      apply Permutation_sym, Permutation_middle.
    + cbn [app]. constructor. apply IH.
Qed.

Lemma merge_in l r x : In x (fc_merge l r) <-> In x l \/ In x r.
Proof.
  rewrite <- in_app_iff. split; apply Permutation_in; [apply Permutation_sym|]; apply merge_perm.
Qed.

Lemma merge_sorted l : forall r, StronglySorted len l -> StronglySorted len r -> StronglySorted len (fc_merge l r).
Proof.
  induction l as [|a l IH]; intros r Hl Hr; [destruct r; assumption|].
  induction r as [|b r IHr]; [rewrite merge_nil_r; exact Hl|].
  rewrite merge_cons. inversion Hl as [|? ? Hl1 Hl2]; subst. inversion Hr as [|? ? Hr1 Hr2]; subst.
  rewrite Forall_forall in Hl2, Hr2.
  destruct (compare_ltn a b) as (C1 & _ & _).
  destruct (fc_compare a b =? 1)%Z eqn:E.
  - apply Z.eqb_eq, C1 in E. constructor; [apply IHr; exact Hr1|].
    apply Forall_forall. intros x Hx. apply merge_in in Hx. destruct Hx as [Hx|Hx]; [|exact (Hr2 x Hx)].
    unfold len. destruct Hx as [<-|Hx]; [intros X; exact (ltn_irrefl _ (ltn_trans _ _ _ E X))|].
    intros X. apply (Hl2 x Hx). exact (ltn_trans _ _ _ X E).
  - apply Z.eqb_neq in E. assert (E' : ~ ltn b a) by (intros X; apply E, C1, X). clear E.
    constructor; [apply IH; [exact Hl1|exact Hr]|].
    apply Forall_forall. intros x Hx. apply merge_in in Hx. destruct Hx as [Hx|[<-|Hx]]; [exact (Hl2 x Hx)|exact E'|].
    exact (nlt_trans _ _ _ E' (Hr2 x Hx)).
Qed.

(** Same rank. *)
Definition eqn (k x : fnode) : bool := (fc_compare k x =? 0)%Z.

Lemma eqn_spec k x : eqn k x = true <-> ~ ltn k x /\ ~ ltn x k.
Proof. unfold eqn. rewrite Z.eqb_eq. apply compare_ltn. Qed.

Lemma merge_filter k l : forall r, StronglySorted len l -> StronglySorted len r ->
  filter (eqn k) (fc_merge l r) = filter (eqn k) l ++ filter (eqn k) r.
Proof.
  induction l as [|a l IH]; intros r Hl Hr; [destruct r; reflexivity|].
  induction r as [|b r IHr]; [rewrite merge_nil_r; cbn [filter]; rewrite app_nil_r; reflexivity|].
  rewrite merge_cons. inversion Hl as [|? ? Hl1 Hl2]; subst. inversion Hr as [|? ? Hr1 Hr2]; subst.
  destruct (compare_ltn a b) as (C1 & _ & _).
  destruct (fc_compare a b =? 1)%Z eqn:E.
  - apply Z.eqb_eq, C1 in E. change (filter (eqn k) (b :: fc_merge (a :: l) r))
      with (if eqn k b then b :: filter (eqn k) (fc_merge (a :: l) r) else filter (eqn k) (fc_merge (a :: l) r)).
    rewrite (IHr Hr1). change (filter (eqn k) (b :: r)) with
      (if eqn k b then b :: filter (eqn k) r else filter (eqn k) r).
    destruct (eqn k b) eqn:Ek; [|reflexivity]. apply eqn_spec in Ek. destruct Ek as [K1 K2].
    assert (Z0 : filter (eqn k) (a :: l) = []).
    { assert (F : Forall (fun x => ltn k x) (a :: l)).
      { assert (Ka : ltn k a) by (revert K1 K2 E; unfold ltn; lia).
        constructor; [exact Ka|]. rewrite Forall_forall in *. intros x Hx.
        exact (lt_nlt_trans _ _ _ Ka (Hl2 x Hx)). }
      revert F. generalize (a :: l). intros m F. induction F as [|x m Hx _ IHm]; [reflexivity|].
      cbn [filter]. destruct (eqn k x) eqn:Ex; [|exact IHm]. apply eqn_spec in Ex. destruct Ex; contradiction. }
    rewrite Z0. reflexivity.
  - change (filter (eqn k) (a :: fc_merge l (b :: r))) with
      (if eqn k a then a :: filter (eqn k) (fc_merge l (b :: r)) else filter (eqn k) (fc_merge l (b :: r))).
    rewrite (IH (b :: r) Hl1 Hr).
    change (filter (eqn k) (a :: l)) with (if eqn k a then a :: filter (eqn k) l else filter (eqn k) l).
    destruct (eqn k a); reflexivity.
Qed.

(** ** Passes *)

Lemma pass_ind (P : list (list fnode) -> Prop) :
  P [] -> (forall a, P [a]) -> (forall a b r, P r -> P (a :: b :: r)) -> forall l, P l.
Proof.
  intros H0 H1 H2. assert (G : forall l, P l /\ forall a, P (a :: l)).
  { induction l as [|x l [IH1 IH2]]; [split; auto|]. split; [apply IH2|]. intros a. apply H2. exact IH1. }
  intros l. apply G.
Qed.

Definition good (l : list (list fnode)) : Prop := Forall (StronglySorted len) l.

Lemma pass_spec l : good l ->
  good (merge_pass l) /\ Permutation (concat l) (concat (merge_pass l)) /\
  forall k, filter (eqn k) (concat (merge_pass l)) = filter (eqn k) (concat l).
Proof.
  induction l as [|a|a b r IH] using pass_ind; intros H.
  - split; [exact H|]. split; [apply Permutation_refl|reflexivity].
  - split; [exact H|]. split; [apply Permutation_refl|reflexivity].
  - inversion H as [|? ? Ha H']; subst. inversion H' as [|? ? Hb Hr]; subst.
    destruct (IH Hr) as (G1 & G2 & G3). cbn [merge_pass concat]. split; [|split].
    + constructor; [apply merge_sorted; assumption|exact G1].
    + rewrite app_assoc. apply Permutation_app; [apply merge_perm|exact G2].
    + intros k. rewrite !filter_app, (merge_filter k a b Ha Hb), G3, app_assoc. reflexivity.
Qed.

Lemma pass_length l : (length (merge_pass l) <= length l)%nat.
Proof. induction l as [|a|a b r IH] using pass_ind; cbn [merge_pass length]; lia. Qed.

Lemma pass_shorter a b r : (length (merge_pass (a :: b :: r)) < length (a :: b :: r))%nat.
Proof. cbn [merge_pass length]. pose proof (pass_length r). lia. Qed.

Lemma sort_spec fuel : forall l, (length l <= S fuel)%nat -> good l ->
  exists out, merge_sort fuel l = Some out /\ Permutation (concat l) out /\ StronglySorted len out /\
    forall k, filter (eqn k) out = filter (eqn k) (concat l).
Proof.
  induction fuel as [|f IH]; intros l Hl Hg; destruct l as [|a [|b r]].
  - exists []. split; [reflexivity|]. split; [apply Permutation_refl|]. split; [constructor|reflexivity].
  - exists a. cbn [merge_sort concat]. rewrite app_nil_r. split; [reflexivity|].
    split; [apply Permutation_refl|]. split; [inversion Hg; assumption|reflexivity].
  - cbn [length] in Hl. lia.
  - exists []. split; [reflexivity|]. split; [apply Permutation_refl|]. split; [constructor|reflexivity].
  - exists a. cbn [merge_sort concat]. rewrite app_nil_r. split; [reflexivity|].
    split; [apply Permutation_refl|]. split; [inversion Hg; assumption|reflexivity].
  - destruct (pass_spec (a :: b :: r) Hg) as (G1 & G2 & G3).
    destruct (IH (merge_pass (a :: b :: r))) as (out & E & P & S0 & F).
    + pose proof (pass_shorter a b r). lia.
    + exact G1.
    + exists out. split; [exact E|]. split; [exact (Permutation_trans G2 P)|]. split; [exact S0|].
      intros k. rewrite F, G3. reflexivity.
Qed.

(** Sorting what is sorted changes nothing. *)
Lemma merge_app l : forall r, (forall a b, In a l -> In b r -> len a b) -> fc_merge l r = l ++ r.
Proof.
  induction l as [|a l IH]; intros r H; [destruct r; reflexivity|].
  destruct r as [|b r]; [rewrite merge_nil_r, app_nil_r; reflexivity|].
  rewrite merge_cons. assert (E : (fc_compare a b =? 1)%Z = false).
  { apply Z.eqb_neq. intros X. apply compare_ltn in X. apply (H a b); [left|left|]; auto. }
  rewrite E. cbn [app]. f_equal. apply IH. intros x y Hx Hy. apply H; [right; exact Hx|exact Hy].
Qed.

Lemma ssorted_app {A} (R : A -> A -> Prop) l r : StronglySorted R (l ++ r) ->
  StronglySorted R l /\ StronglySorted R r /\ forall a b, In a l -> In b r -> R a b.
Proof.
  induction l as [|x l IH]; cbn [app]; intros H.
  - split; [constructor|]. split; [exact H|]. intros a b [].
  - inversion H as [|? ? H1 H2]; subst. destruct (IH H1) as (I1 & I2 & I3).
    apply Forall_app in H2. destruct H2 as [H2 H3]. rewrite Forall_forall in H3.
    split; [constructor; assumption|]. split; [exact I2|].
    intros a b [<-|Ha] Hb; [exact (H3 b Hb)|exact (I3 a b Ha Hb)].
Qed.

Lemma pass_sorted l : StronglySorted len (concat l) -> concat (merge_pass l) = concat l.
Proof.
  induction l as [|a|a b r IH] using pass_ind; intros H; [reflexivity|reflexivity|].
  cbn [merge_pass concat] in *. rewrite app_assoc in H. destruct (ssorted_app _ _ _ H) as (H1 & H2 & _).
  destruct (ssorted_app _ _ _ H1) as (_ & _ & H3). rewrite (merge_app a b H3), (IH H2), app_assoc. reflexivity.
Qed.

Lemma sort_sorted fuel : forall l, (length l <= S fuel)%nat -> StronglySorted len (concat l) ->
  merge_sort fuel l = Some (concat l).
Proof.
  induction fuel as [|f IH]; intros l Hl Hs; destruct l as [|a [|b r]].
  - reflexivity.
  - cbn [merge_sort concat]. rewrite app_nil_r. reflexivity.
  - cbn [length] in Hl. lia.
  - reflexivity.
  - cbn [merge_sort concat]. rewrite app_nil_r. reflexivity.
  - rewrite <- (pass_sorted _ Hs). cbn [merge_sort]. apply IH.
    + pose proof (pass_shorter a b r). lia.
    + rewrite (pass_sorted _ Hs). exact Hs.
Qed.

Lemma singles (ns : list fnode) : concat (map (fun n => [n]) ns) = ns.
Proof. induction ns as [|n ns IH]; [reflexivity|]. cbn. rewrite IH. reflexivity. Qed.

Definition start (nodes : list fnode) : list (list fnode) :=
  match nodes with [] => [[]] | _ => map (fun n => [n]) nodes end.

Lemma start_spec nodes : concat (start nodes) = nodes /\ good (start nodes) /\
  (length (start nodes) <= S (length nodes))%nat.
Proof.
  unfold start. destruct nodes as [|n ns].
  - split; [reflexivity|]. split; [repeat constructor|cbn; lia].
  - split; [apply singles|]. split; [|rewrite map_length; lia].
    apply Forall_forall. intros x Hx. apply in_map_iff in Hx. destruct Hx as (y & <- & _). repeat constructor.
Qed.

(** ** Paths *)

Lemma path_ind (P : list N -> Prop) :
  P [] -> P [92] -> (forall d t, P t -> P (92 :: d :: t)) -> (forall c t, c <> 92 -> P t -> P (c :: t)) ->
  forall p, P p.
Proof.
  intros H0 H1 H2 H3. assert (G : forall p, P p /\ forall c, P (c :: p)).
  { induction p as [|x p [IH1 IH2]].
    - split; [exact H0|]. intros c. destruct (N.eq_dec c 92) as [->|E]; [exact H1|apply H3; assumption].
    - split; [apply IH2|]. intros c. destruct (N.eq_dec c 92) as [->|E]; [apply H2; exact IH1|].
      apply H3; [exact E|apply IH2]. }
  intros p. apply G.
Qed.

Lemma items_esc d t : items (92 :: d :: t) = Escaped d :: items t.
Proof. reflexivity. Qed.
Lemma items_plain c t : c <> 92 -> items (c :: t) = Plain c :: items t.
Proof. intros H. cbn [items]. destruct (N.eq_dec c 92); [contradiction|reflexivity]. Qed.

Lemma escapes_items p : N.of_nat (length p) = count_escapes p false + N.of_nat (length (items p)).
Proof.
  induction p as [| |d t IH|c t Hc IH] using path_ind.
  - reflexivity.
  - reflexivity.
  - rewrite items_esc. cbn [count_escapes length]. change (92 =? 92) with true. cbv iota.
    destruct (d =? 92); lia.
  - rewrite (items_plain c t Hc). cbn [count_escapes length]. replace (c =? 92) with false by lia. lia.
Qed.

Lemma metachar_spec c : is_metachar c = true <-> meta (Plain c).
Proof.
  unfold is_metachar. cbn. split.
  - intros H. repeat (apply orb_true_iff in H; destruct H as [H|H]); apply N.eqb_eq in H; subst; tauto.
  - intros H. repeat destruct H as [<-|H]; try reflexivity. contradiction.
Qed.

Lemma find_meta_spec p : forall c e,
  match find_meta p c e with
  | None => dangling p /\ literal p
  | Some m => (m = (-1)%Z /\ literal p /\ ~ dangling p) \/ (exists n, stem p n /\ m = (c - e + Z.of_nat n)%Z)
  end.
Proof.
  induction p as [| |d t IH|x t Hx IH] using path_ind; intros c e.
  - left. split; [reflexivity|]. split; [constructor|]. intros H. inversion H.
  - split; [constructor|constructor].
  - cbn [find_meta]. change (is_metachar 92) with false. change (92 =? 92) with true. cbv iota.
    specialize (IH (c + 2)%Z (e + 1)%Z). destruct (find_meta t (c + 2) (e + 1)) as [m|].
    + destruct IH as [(-> & L & D)|(n & (a & i & b & E & Hi & Ha & Hn) & ->)].
      * left. split; [reflexivity|]. split; [unfold literal; rewrite items_esc; constructor; [intros []|exact L]|].
        intros H. inversion H; subst; [contradiction|]. congruence.
      * right. exists (S n). split; [|lia]. exists (Escaped d :: a), i, b. rewrite items_esc, E.
        split; [reflexivity|]. split; [exact Hi|]. split; [constructor; [intros []|exact Ha]|cbn; lia].
    + destruct IH as [D L]. split; [constructor; exact D|].
      unfold literal. rewrite items_esc. constructor; [intros []|exact L].
  - cbn [find_meta]. destruct (is_metachar x) eqn:Em.
    + right. exists 0%nat. split; [|lia]. exists [], (Plain x), (items t). rewrite (items_plain x t Hx).
      split; [reflexivity|]. split; [apply metachar_spec; exact Em|]. split; [constructor|reflexivity].
    + assert (Nm : ~ meta (Plain x)) by (rewrite <- metachar_spec; congruence).
      replace (x =? 92) with false by lia. specialize (IH (c + 1)%Z e).
      destruct (find_meta t (c + 1) e) as [m|].
      * destruct IH as [(-> & L & D)|(n & (a & i & b & E & Hi & Ha & Hn) & ->)].
        -- left. split; [reflexivity|].
           split; [unfold literal; rewrite (items_plain x t Hx); constructor; assumption|].
           intros H. inversion H; subst; [congruence..|contradiction].
        -- right. exists (S n). split; [|lia]. exists (Plain x :: a), i, b. rewrite (items_plain x t Hx), E.
           split; [reflexivity|]. split; [exact Hi|]. split; [constructor; assumption|cbn; lia].
      * destruct IH as [D L]. split; [constructor; assumption|].
        unfold literal. rewrite (items_plain x t Hx). constructor; assumption.
Qed.

Lemma stem_literal p n : stem p n -> ~ literal p.
Proof.
  intros (a & i & b & E & Hi & _) L. unfold literal in L. rewrite E in L. apply Forall_app in L.
  destruct L as [_ L]. inversion L; subst. contradiction.
Qed.

Lemma stem_fun p n m : stem p n -> stem p m -> n = m.
Proof.
  intros (a & i & b & E & Hi & Ha & <-) (a' & i' & b' & E' & Hi' & Ha' & <-). rewrite E in E'. clear E.
  revert a' E' Ha'. induction Ha as [|x a Hx _ IH]; intros [|x' a'] E Ha'; cbn in E; injection E as E0 E.
  - reflexivity.
  - subst. inversion Ha'; subst. contradiction.
  - subst. contradiction.
  - cbn. f_equal. apply (IH a' E). inversion Ha'; assumption.
Qed.

(** ** Nodes and entries *)

Definition node_of (e : fc_entry) : fnode :=
  mkFN (e_path e) (e_type e) (e_context e)
       (N.of_nat (length (e_path e)) - count_escapes (e_path e) false)
       (match find_meta (e_path e) 0 0 with Some m => m | None => (-1)%Z end).

(** The search for metacharacters stays inside the path. *)
Definition in_bounds (e : fc_entry) : Prop := ~ (dangling (e_path e) /\ literal (e_path e)).

Lemma make_node_spec e :
  (in_bounds e -> make_node (e_path e) (e_type e) (e_context e) = PNode (node_of e)) /\
  (~ in_bounds e -> make_node (e_path e) (e_type e) (e_context e) = PUB).
Proof.
  unfold make_node, node_of, in_bounds. pose proof (find_meta_spec (e_path e) 0 0) as H.
  destruct (find_meta (e_path e) 0 0) as [m|].
  - split; [reflexivity|]. intros X. exfalso. apply X. intros [D L].
    destruct H as [(_ & _ & D')|(n & S0 & _)]; [contradiction|]. exact (stem_literal _ _ S0 L).
  - split; [intros X; contradiction|reflexivity].
Qed.

Lemma node_meta e : (f_meta (node_of e) = (-1)%Z /\ literal (e_path e)) \/
  (exists n, stem (e_path e) n /\ f_meta (node_of e) = Z.of_nat n).
Proof.
  unfold node_of. cbn [f_meta]. pose proof (find_meta_spec (e_path e) 0 0) as H.
  destruct (find_meta (e_path e) 0 0) as [m|].
  - destruct H as [(-> & L & _)|(n & S0 & ->)]; [left; split; [reflexivity|exact L]|].
    right. exists n. split; [exact S0|lia].
  - left. split; [reflexivity|apply H].
Qed.

Lemma node_eff e : f_eff (node_of e) = N.of_nat (length (items (e_path e))).
Proof. unfold node_of. cbn [f_eff]. pose proof (escapes_items (e_path e)). lia. Qed.

Lemma node_ty e : (ty (node_of e) = 1%Z /\ typed e) \/ (ty (node_of e) = 0%Z /\ ~ typed e).
Proof.
  unfold ty, node_of, typed. cbn [f_type]. destruct (e_type e); [left|right]; split; try reflexivity; congruence.
Qed.

Lemma ltn_less a b : ltn (node_of a) (node_of b) <-> less_specific a b.
Proof.
  unfold ltn, less_specific, same_stem. rewrite !node_eff.
  destruct (node_ty a) as [[Ta Ta']|[Ta Ta']]; destruct (node_ty b) as [[Tb Tb']|[Tb Tb']]; rewrite Ta, Tb;
  destruct (node_meta a) as [[Ma La]|(n & Sa & Ma)]; destruct (node_meta b) as [[Mb Lb]|(m & Sb & Mb)];
  rewrite Ma, Mb;
  try pose proof (stem_literal _ _ Sa) as Na; try pose proof (stem_literal _ _ Sb) as Nb;
  (split; intros H;
   [ | destruct H as [[H1 H2]|[(x & y & H1 & H2 & H3)|[[H1 H2]|(H1 & H2 & H3 & H4)]]];
       try contradiction;
       try (pose proof (stem_literal _ _ H1)); try (pose proof (stem_literal _ _ H2)); try contradiction;
       try (pose proof (stem_fun _ _ _ Sa H1)); try (pose proof (stem_fun _ _ _ Sb H2));
       try (destruct H1 as [[H1 H1']|(z & H1 & H1')];
            try contradiction;
            try (pose proof (stem_literal _ _ H1)); try (pose proof (stem_literal _ _ H1')); try contradiction;
            try (pose proof (stem_fun _ _ _ Sa H1)); try (pose proof (stem_fun _ _ _ Sb H1')));
       lia ]).
  all: try (exfalso; lia).
  all: try (left; split; assumption).
  all: try (destruct (Nat.lt_trichotomy n m) as [Hc|[Hc|Hc]];
            [right; left; exists n, m; auto|subst m|exfalso; lia]).
  all: try (assert (Hc : (length (items (e_path a)) < length (items (e_path b)))%nat \/
                   (length (items (e_path a)) = length (items (e_path b)))) by lia;
       destruct Hc as [Hc|Hc]; [right; right; left|right; right; right]).
  all: try (exfalso; lia).
  all: try (split; [|exact Hc]).
  all: try (split; [|split; [exact Hc|split; assumption]]).
  all: try (left; split; assumption).
  all: try (right; exists n; split; assumption).
Qed.

(** ** Lines *)

Lemma entry_parse line e : is_entry line e ->
  parse_fc_line line = make_node (e_path e) (e_type e) (e_context e).
Proof.
  intros (ws & ws1 & body & rest & -> & W & W1 & N1 & Bp & (c & p & Ep & Hc) & Bc & Nc & St & H).
  assert (Bpath : span isspace (ws ++ e_path e ++ ws1 ++ body) = (ws, e_path e ++ ws1 ++ body)).
  { apply span_blank_app; [exact W|]. rewrite Ep. cbn. rewrite Ep in Bp. inversion Bp; assumption. }
  assert (Hbody : match body with [] => True | c :: _ => ~ blank c end /\ body <> []).
  { destruct H as [(_ & -> & _)|(x & ws2 & _ & _ & ->)].
    - destruct (e_context e) as [|y l]; [congruence|]. cbn. split; [|discriminate]. inversion Bc; assumption.
    - split; [|discriminate]. cbn. unfold blank. lia. }
  destruct Hbody as [Hb1 Hb2].
  assert (S2 : span (fun c => negb (isspace c)) (e_path e ++ ws1 ++ body) = (e_path e, ws1 ++ body)).
  { apply span_word_app; [exact Bp|]. destruct ws1 as [|y l]; [congruence|]. cbn. inversion W1; assumption. }
  assert (S3 : span isspace (ws1 ++ body) = (ws1, body)) by (apply span_blank_app; assumption).
  unfold parse_fc_line.
  assert (L1 : (length (ws ++ e_path e ++ ws1 ++ body) <=? 1)%nat = false).
  { apply Nat.leb_gt. rewrite !app_length, Ep. cbn [length].
    destruct ws1; [congruence|]. cbn [length]. lia. }
  rewrite L1, Bpath. destruct (e_path e ++ ws1 ++ body) as [|c' l'] eqn:E0; [rewrite Ep in E0; discriminate|].
  assert (Ec : c' = c) by (rewrite Ep in E0; cbn in E0; congruence). subst c'.
  replace (c =? 35) with false by lia. rewrite S2, S3. clear E0 S2 Bpath L1 l'.
  destruct H as [(Et & -> & H45)|(x & ws2 & Et & W2 & ->)].
  - rewrite Et. rewrite (span_word_app (e_context e) rest Bc St).
    destruct (e_context e) as [|y l] eqn:Ex; [congruence|]. cbn [app]. cbn in H45.
    replace (y =? 45) with false by lia. reflexivity.
  - rewrite Et. change (45 =? 45) with true. cbv iota.
    assert (L2 : (length (45%N :: x :: ws2 ++ e_context e ++ rest) <=? 2)%nat = false).
    { apply Nat.leb_gt. cbn [length]. rewrite !app_length. destruct (e_context e); [congruence|]. cbn [length]. lia. }
    rewrite L2. cbn [skipn firstn].
    assert (S4 : span isspace (ws2 ++ e_context e ++ rest) = (ws2, e_context e ++ rest)).
    { apply span_blank_app; [exact W2|]. destruct (e_context e) as [|y l]; [congruence|]. cbn. inversion Bc; assumption. }
    rewrite S4. rewrite (span_word_app (e_context e) rest Bc St).
    destruct (e_context e ++ rest) as [|y l] eqn:Ex; [destruct (e_context e); [congruence|discriminate]|]. reflexivity.
Qed.

Lemma parse_entry line : parse_fc_line line <> PSkip -> exists e, is_entry line e.
Proof.
  unfold parse_fc_line. destruct (length line <=? 1)%nat; [congruence|].
  destruct (span isspace line) as [ws r] eqn:E1. destruct (span_blank_text _ _ _ E1) as (H1 & H2 & H3).
  destruct r as [|c r0]; [congruence|]. destruct (N.eqb_spec c 35) as [E|Hc]; [congruence|].
  destruct (span (fun c => negb (isspace c)) (c :: r0)) as [path r1] eqn:E2.
  destruct (span_word_text _ _ _ E2) as (H4 & H5 & H6).
  destruct (span isspace r1) as [ws1 r2] eqn:E3. destruct (span_blank_text _ _ _ E3) as (H7 & H8 & H9).
  destruct r2 as [|c2 r2']; [congruence|].
  assert (Pn : exists p, path = c :: p).
  { destruct path as [|y p]; [|injection H4 as <- _; exists p; reflexivity].
    cbn in H4. subst r1. cbn in H6. contradiction. }
  destruct Pn as [p Ep].
  assert (W1 : ws1 <> []).
  { intros ->. cbn in H7. subst r1. cbn in H6. contradiction. }
  destruct (N.eqb_spec c2 45) as [E|Hc2].
  - subst c2. destruct (length (45%N :: r2') <=? 2)%nat eqn:E4; [congruence|].
    destruct r2' as [|x r2'']; [discriminate|]. cbn [skipn firstn].
    destruct (span isspace r2'') as [ws2 r3] eqn:E5. destruct (span_blank_text _ _ _ E5) as (H10 & H11 & H12).
    destruct r3 as [|c3 r3']; [congruence|]. intros _.
    destruct (span (fun c => negb (isspace c)) (c3 :: r3')) as [ctx rest] eqn:E6.
    destruct (span_word_text _ _ _ E6) as (H13 & H14 & H15).
    exists (mkFC path (Some [45; x]) ctx). exists ws, ws1, (45 :: x :: r2''), rest.
    cbn [e_path e_type e_context].
    split; [rewrite H1, H4, H7; reflexivity|]. split; [exact H2|]. split; [exact H8|]. split; [exact W1|].
    split; [exact H5|]. split; [exists c, p; split; assumption|]. split; [exact H14|].
    split.
    { intros ->. cbn in H13. subst rest. cbn in H15. contradiction. }
    split; [exact H15|]. right. exists x, ws2. split; [reflexivity|]. split; [exact H11|].
    rewrite H10, H13. reflexivity.
  - intros _. destruct (span (fun c => negb (isspace c)) (c2 :: r2')) as [ctx rest] eqn:E6.
    destruct (span_word_text _ _ _ E6) as (H13 & H14 & H15).
    exists (mkFC path None ctx). exists ws, ws1, (c2 :: r2'), rest. cbn [e_path e_type e_context].
    split; [rewrite H1, H4, H7; reflexivity|]. split; [exact H2|]. split; [exact H8|]. split; [exact W1|].
    split; [exact H5|]. split; [exists c, p; split; assumption|]. split; [exact H14|].
    assert (Nc : ctx <> []).
    { intros ->. cbn in H13. subst rest. cbn in H15. contradiction. }
    split; [exact Nc|]. split; [exact H15|]. left. split; [reflexivity|]. split; [exact H13|].
    destruct ctx as [|y l]; [congruence|]. cbn. injection H13 as <- _. exact Hc2.
Qed.

Lemma cut_app c a s : ~ In c a -> cut c (a ++ c :: s) = Some (a ++ [c], s).
Proof.
  induction a as [|x a IH]; intros H; cbn [cut app].
  - rewrite N.eqb_refl. reflexivity.
  - destruct (N.eqb_spec x c) as [E|E]; [exfalso; apply H; left; exact E|].
    rewrite IH; [reflexivity|]. intros X. apply H. right. exact X.
Qed.

Lemma cut_none c a : ~ In c a -> cut c a = None.
Proof.
  induction a as [|x a IH]; intros H; cbn [cut]; [reflexivity|].
  destruct (N.eqb_spec x c) as [E|E]; [exfalso; apply H; left; exact E|].
  rewrite IH; [reflexivity|]. intros X. apply H. right. exact X.
Qed.

(** The lines of an ended text, followed by text without a line end. *)
Lemma parse_lines buf ls : lines_of buf ls -> (buf = [] \/ ended buf) -> forall tail fuel,
  ~ In 10 tail -> ~ In 13 tail -> ~ In 255 tail -> (length buf < fuel)%nat ->
  exists es, entries_of ls es /\
    (Forall in_bounds es -> parse_fc fuel (buf ++ tail) = ROk (map node_of es)) /\
    (~ Forall in_bounds es -> parse_fc fuel (buf ++ tail) = RUB).
Proof.
  induction 1 as [|l Hl Hn|l f ls Hn Hf IH]; intros He tail fuel T1 T2 T3 Hfuel.
  - exists []. split; [constructor|]. split; [|intros X; exfalso; apply X; constructor].
    intros _. destruct fuel; [lia|]. cbn [parse_fc app]. unfold get_line.
    rewrite !cut_none by assumption. reflexivity.
  - exfalso. destruct He as [He|[b He]]; [congruence|]. apply Hn. rewrite He. apply in_or_app. right. left. reflexivity.
  - destruct fuel as [|fu]; [lia|].
    assert (He' : f = [] \/ ended f).
    { destruct He as [He|[b He]]; [destruct l; discriminate|].
      destruct f as [|x f'] using rev_ind; [left; reflexivity|right]. exists f'.
      replace (l ++ 10 :: f' ++ [x]) with ((l ++ 10 :: f') ++ [x]) in He by (rewrite <- app_assoc; reflexivity).
      apply app_inj_tail in He. destruct He as [_ ->]. reflexivity. }
    destruct (IH He' tail fu T1 T2 T3) as (es & E1 & E2 & E3).
    { rewrite app_length in Hfuel. cbn [length] in Hfuel. lia. }
    assert (Step : parse_fc (S fu) ((l ++ 10 :: f) ++ tail) =
      match parse_fc_line (l ++ [10]) with
      | PUB => RUB
      | PSkip => parse_fc fu (f ++ tail)
      | PNode n => match parse_fc fu (f ++ tail) with ROk l => ROk (n :: l) | other => other end
      end).
    { rewrite <- app_assoc. cbn [app parse_fc]. unfold get_line. rewrite (cut_app 10 l _ Hn). reflexivity. }
    rewrite Step.
    destruct (parse_fc_line (l ++ [10])) as [|n|] eqn:Ep.
    + exists es. split; [|split; assumption]. apply ents_skip; [|exact E1].
      intros e X. apply entry_parse in X. rewrite Ep in X. unfold make_node in X. destruct (find_meta _ _ _); discriminate.
    + destruct (parse_entry (l ++ [10])) as [e X]; [congruence|]. exists (e :: es).
      split; [apply ents_cons; assumption|]. apply entry_parse in X. rewrite Ep in X.
      destruct (make_node_spec e) as [M1 M2].
      assert (Hb : in_bounds e).
      { unfold in_bounds. intros Y. rewrite M2 in X; [discriminate|]. intros Z. exact (Z Y). }
      rewrite (M1 Hb) in X. injection X as ->. split.
      * intros F. inversion F; subst. rewrite E2 by assumption. reflexivity.
      * intros F. rewrite E3; [reflexivity|]. intros Y. apply F. constructor; assumption.
    + destruct (parse_entry (l ++ [10])) as [e X]; [congruence|]. exists (e :: es).
      split; [apply ents_cons; assumption|]. apply entry_parse in X. rewrite Ep in X.
      destruct (make_node_spec e) as [M1 M2]. split.
      * intros F. inversion F; subst. rewrite M1 in X by assumption. discriminate.
      * reflexivity.
Qed.

Lemma entry_unique line e e' : is_entry line e -> is_entry line e' -> e = e'.
Proof.
  intros A B. pose proof (entry_parse _ _ A) as P. pose proof (entry_parse _ _ B) as Q. rewrite P in Q.
  unfold make_node in Q.
  (* the fields are determined by the spans *)
  clear P Q. destruct A as (ws & ws1 & body & rest & E & W & W1 & N1 & Bp & (c & p & Ep & Hc) & Bc & Nc & St & H).
  destruct B as (ws' & ws1' & body' & rest' & E' & W' & W1' & N1' & Bp' & (c' & p' & Ep' & Hc') & Bc' & Nc' & St' & H').
  assert (S1 : forall ws ws1 body path (c : N) p, Forall blank ws -> no_blank path -> path = c :: p ->
     span isspace (ws ++ path ++ ws1 ++ body) = (ws, path ++ ws1 ++ body)).
  { intros a b d path x q Hw Hb ->. apply span_blank_app; [exact Hw|]. cbn. inversion Hb; assumption. }
  assert (S2 : forall ws1 body path, Forall blank ws1 -> ws1 <> [] -> no_blank path ->
     span (fun c => negb (isspace c)) (path ++ ws1 ++ body) = (path, ws1 ++ body)).
  { intros a b path Ha Hna Hb. apply span_word_app; [exact Hb|]. destruct a; [congruence|]. cbn. inversion Ha; assumption. }
  assert (S3 : forall ws1 body, Forall blank ws1 -> match body with [] => True | c :: _ => ~ blank c end ->
     span isspace (ws1 ++ body) = (ws1, body)) by (intros; apply span_blank_app; assumption).
  pose proof (S1 ws ws1 body _ _ _ W Bp Ep) as P1. pose proof (S1 ws' ws1' body' _ _ _ W' Bp' Ep') as P1'.
  rewrite <- E in P1. rewrite <- E' in P1'. rewrite P1 in P1'. injection P1' as _ P1'.
  pose proof (S2 ws1 body _ W1 N1 Bp) as P2. pose proof (S2 ws1' body' _ W1' N1' Bp') as P2'.
  rewrite P1' in P2. rewrite P2 in P2'. injection P2' as Epp P2'.
  assert (Hb : forall body ctx ety rest, no_blank ctx -> ctx <> [] ->
     ((ety = None /\ body = ctx ++ rest /\ hd 0 ctx <> 45) \/
      (exists x ws2, ety = Some [45; x] /\ Forall blank ws2 /\ body = 45 :: x :: ws2 ++ ctx ++ rest)) ->
     match body with [] => True | c :: _ => ~ blank c end).
  { intros b ctx ety r Hb Hne [(_ & -> & _)|(x & w2 & _ & _ & ->)].
    - destruct ctx; [congruence|]. cbn. inversion Hb; assumption.
    - cbn. unfold blank. lia. }
  pose proof (S3 ws1 body W1 (Hb _ _ _ _ Bc Nc H)) as P3.
  pose proof (S3 ws1' body' W1' (Hb _ _ _ _ Bc' Nc' H')) as P3'. rewrite P2' in P3. rewrite P3 in P3'.
  injection P3' as _ Ebody. clear Hb.
  assert (Ectx : e_type e = e_type e' /\ e_context e = e_context e').
  { destruct H as [(Et & Eb & Hd)|(x & w2 & Et & Hw2 & Eb)];
    destruct H' as [(Et' & Eb' & Hd')|(x' & w2' & Et' & Hw2' & Eb')]; rewrite Eb, Eb' in Ebody.
    - split; [congruence|].
      pose proof (span_word_app _ _ Bc St) as Q. pose proof (span_word_app _ _ Bc' St') as Q'.
      rewrite Ebody in Q. rewrite Q in Q'. congruence.
    - exfalso. destruct (e_context e) as [|y l]; [congruence|]. cbn in Ebody, Hd. injection Ebody as -> _. congruence.
    - exfalso. destruct (e_context e') as [|y l]; [congruence|]. cbn in Ebody, Hd'. injection Ebody as <- _. congruence.
    - injection Ebody as -> Ebody. split; [congruence|].
      assert (X : span isspace (w2 ++ e_context e ++ rest) = (w2, e_context e ++ rest)).
      { apply span_blank_app; [exact Hw2|]. destruct (e_context e); [congruence|]. cbn. inversion Bc; assumption. }
      assert (X' : span isspace (w2' ++ e_context e' ++ rest') = (w2', e_context e' ++ rest')).
      { apply span_blank_app; [exact Hw2'|]. destruct (e_context e'); [congruence|]. cbn. inversion Bc'; assumption. }
      rewrite Ebody in X. rewrite X in X'. injection X' as _ X'.
      pose proof (span_word_app _ _ Bc St) as Q. pose proof (span_word_app _ _ Bc' St') as Q'.
      rewrite X' in Q. rewrite Q in Q'. congruence. }
  destruct e, e'. cbn in *. destruct Ectx. congruence.
Qed.

Lemma entries_fun ls es : entries_of ls es -> forall es', entries_of ls es' -> es = es'.
Proof.
  induction 1 as [|l ls e es H _ IH|l ls es H _ IH]; intros es' H'; inversion H'; subst.
  - reflexivity.
  - f_equal; [eapply entry_unique; eassumption|apply IH; assumption].
  - exfalso. match goal with X : forall e, ~ _ |- _ => exact (X _ H) end.
  - exfalso. match goal with X : is_entry _ _ |- _ => exact (H _ X) end.
  - apply IH. assumption.
Qed.

(** ** Stable sorting of entries *)

Lemma subseq_filter {A} (P : A -> Prop) (f : A -> bool) : (forall x, f x = true <-> P x) ->
  forall l s, subseq P l s <-> s = filter f l.
Proof.
  intros H l. induction l as [|x l IH]; intros s; cbn [filter].
  - split; [intros X; inversion X; reflexivity|intros ->; constructor].
  - destruct (f x) eqn:E.
    + apply H in E. split.
      * intros X. inversion X; subst; [|contradiction]. f_equal. apply IH. assumption.
      * intros ->. constructor; [exact E|]. apply IH. reflexivity.
    + assert (E' : ~ P x) by (rewrite <- H; congruence). split.
      * intros X. inversion X; subst; [contradiction|]. apply IH. assumption.
      * intros ->. apply sub_out; [exact E'|]. apply IH. reflexivity.
Qed.

Lemma map_node_inj a b : map node_of a = map node_of b -> a = b.
Proof.
  revert b. induction a as [|x a IH]; intros [|y b] E; cbn in E; try discriminate; [reflexivity|].
  injection E as E1 E2 E3 E4 E5 E6. f_equal; [|apply IH; exact E6]. destruct x, y. cbn in *. congruence.
Qed.

Lemma filter_map_comm {A B} (g : A -> B) (f : B -> bool) l :
  filter f (map g l) = map g (filter (fun x => f (g x)) l).
Proof.
  induction l as [|x l IH]; [reflexivity|]. cbn [map filter]. destruct (f (g x)); cbn [map]; rewrite IH; reflexivity.
Qed.

Lemma eqn_equal e x : eqn (node_of e) (node_of x) = true <-> equally_specific e x.
Proof. rewrite eqn_spec, !ltn_less. reflexivity. Qed.

Lemma ssorted_map out : StronglySorted len (map node_of out) <->
  StronglySorted (fun a b => ~ less_specific b a) out.
Proof.
  induction out as [|x l IH]; [split; constructor|]. cbn [map]. split; intros H; inversion H as [|? ? H1 H2]; subst.
  - constructor; [apply IH; exact H1|]. rewrite Forall_forall in *. intros y Hy.
    rewrite <- ltn_less. apply (H2 (node_of y)). apply in_map. exact Hy.
  - constructor; [apply IH; exact H1|]. rewrite Forall_forall in *. intros y Hy.
    apply in_map_iff in Hy. destruct Hy as (z & <- & Hz). unfold len. rewrite ltn_less. exact (H2 z Hz).
Qed.

Lemma sort_entries es : exists out, stably_sorted es out /\
  merge_sort (length (map node_of es)) (start (map node_of es)) = Some (map node_of out).
Proof.
  destruct (start_spec (map node_of es)) as (S1 & S2 & S3).
  destruct (sort_spec (length (map node_of es)) (start (map node_of es)) S3 S2) as (out & E & P & So & F).
  rewrite S1 in P, F. destruct (Permutation_map_inv node_of _ (Permutation_sym P)) as (oute & Eo & Po).
  exists oute. rewrite Eo in E, So, F. split; [|exact E].
  split; [apply Permutation_sym; apply Permutation_sym; exact Po|]. split; [apply ssorted_map; exact So|].
  intros e s _ Hs.
  rewrite (subseq_filter _ (fun x => eqn (node_of e) (node_of x)) (eqn_equal e)) in *.
  subst s. specialize (F (node_of e)). rewrite !filter_map_comm in F. symmetry. apply map_node_inj. exact F.
Qed.

Lemma print_text e : print_node (node_of e) = entry_text e.
Proof. reflexivity. Qed.

Lemma print_all out : flat_map print_node (map node_of out) = flat_map entry_text out.
Proof. induction out as [|e l IH]; [reflexivity|]. cbn [map flat_map]. rewrite IH. reflexivity. Qed.

Lemma fc_sort_unfold x buf : fc_sort (x :: buf) =
  match parse_fc (S (length (x :: buf))) (x :: buf) with
  | ROk nodes => match merge_sort (length nodes) (start nodes) with
                 | None => RErr | Some sorted => ROk (flat_map print_node sorted ++ [0]) end
  | RErr => RErr | RUB => RUB
  end.
Proof. reflexivity. Qed.

(** ** The output is read back *)

Lemma text_line e l0 : no_newline l0 -> is_entry (l0 ++ [10]) e -> exists l, entry_text e = l ++ [10] /\ no_newline l /\
  is_entry (entry_text e) e.
Proof.
  intros Hl0 (ws & ws1 & body & rest & E & W & W1 & N1 & Bp & Hp & Bc & Nc & St & H).
  exists (e_path e ++ 9 :: (match e_type e with Some t => t ++ [9] | None => [] end) ++ e_context e).
  split.
  { unfold entry_text. repeat (rewrite <- !app_assoc; cbn [app]). reflexivity. }
  split.
  - intros X. apply in_app_or in X. destruct X as [X|[X|X]]; [exact (no_blank_newline _ Bp X)|discriminate|].
    apply in_app_or in X. destruct X as [X|X]; [|exact (no_blank_newline _ Bc X)].
    destruct H as [(Et & _)|(x & ws2 & Et & Hw & Eb)]; rewrite Et in X; [contradiction|].
    cbn in X. destruct X as [X|[X|[X|[]]]]; try discriminate. subst x body.
    apply Hl0. clear - E Nc.
    assert (Q : exists t y, ws2 ++ e_context e ++ rest = t ++ [y]).
    { destruct (ws2 ++ e_context e ++ rest) as [|y t _] eqn:Q using rev_ind; [|exists t, y; reflexivity].
      apply app_eq_nil in Q. destruct Q as [_ Q]. apply app_eq_nil in Q. destruct Q. contradiction. }
    destruct Q as (t & y & Q). rewrite Q in E.
    replace (ws ++ e_path e ++ ws1 ++ 45 :: 10 :: t ++ [y]) with ((ws ++ e_path e ++ ws1 ++ 45 :: 10 :: t) ++ [y]) in E
      by (repeat (rewrite <- !app_assoc; cbn [app]); reflexivity).
    apply app_inj_tail in E. destruct E as [-> _].
    apply in_or_app. right. apply in_or_app. right. apply in_or_app. right. right. left. reflexivity.
  - exists [], [9], ((match e_type e with Some t => t ++ [9] | None => [] end) ++ e_context e ++ [10]), [10].
    split; [unfold entry_text; repeat (rewrite <- !app_assoc; cbn [app]); reflexivity|].
    split; [constructor|]. split; [constructor; [unfold blank; auto|constructor]|]. split; [discriminate|].
    split; [exact Bp|]. split; [exact Hp|]. split; [exact Bc|]. split; [exact Nc|].
    split; [cbn; unfold blank; auto|].
    destruct H as [(Et & _ & Hd)|(x & ws2 & Et & _ & _)]; rewrite Et; [left|right].
    + split; [reflexivity|]. split; [reflexivity|exact Hd].
    + exists x, [9]. split; [reflexivity|]. split; [constructor; [unfold blank; auto|constructor]|]. reflexivity.
Qed.

(** The entry comes from a complete line. *)
Definition legible (e : fc_entry) : Prop := exists l, no_newline l /\ is_entry (l ++ [10]) e.

Lemma text_lines es : Forall legible es -> exists ls, lines_of (flat_map entry_text es) ls /\ entries_of ls es.
Proof.
  induction 1 as [|e es (l0 & H1 & H2) _ (ls & I1 & I2)].
  - exists []. split; constructor.
  - destruct (text_line e l0 H1 H2) as (l & E & Hl & He). exists (entry_text e :: ls). cbn [flat_map].
    rewrite E in *. split; [|constructor; assumption].
    replace ((l ++ [10]) ++ flat_map entry_text es) with (l ++ 10 :: flat_map entry_text es)
      by (rewrite <- app_assoc; reflexivity).
    constructor; assumption.
Qed.

Lemma text_ended es : es <> [] -> Forall legible es -> ended (flat_map entry_text es).
Proof.
  intros H F. destruct es as [|e es _] using rev_ind; [congruence|]. rewrite flat_map_app. cbn [flat_map].
  apply Forall_app in F. destruct F as [_ F]. inversion F as [|? ? (l0 & H1 & H2) _]; subst.
  destruct (text_line e l0 H1 H2) as (l & E & _). exists (flat_map entry_text es ++ l).
  rewrite app_nil_r, E, app_assoc. reflexivity.
Qed.

Lemma lines_legible buf ls : lines_of buf ls -> (buf = [] \/ ended buf) -> forall es, entries_of ls es -> Forall legible es.
Proof.
  induction 1 as [|l Hl Hn|l f ls Hn Hf IH]; intros He es Hes.
  - inversion Hes; constructor.
  - exfalso. destruct He as [He|[b He]]; [congruence|]. apply Hn. rewrite He. apply in_or_app. right. left. reflexivity.
  - assert (He' : f = [] \/ ended f).
    { destruct He as [He|[b He]]; [destruct l; discriminate|].
      destruct f as [|x f' _] using rev_ind; [left; reflexivity|right]. exists f'.
      replace (l ++ 10 :: f' ++ [x]) with ((l ++ 10 :: f') ++ [x]) in He by (rewrite <- app_assoc; reflexivity).
      apply app_inj_tail in He. destruct He as [_ ->]. reflexivity. }
    inversion Hes; subst.
    + constructor; [exists l; split; assumption|]. apply (IH He'). assumption.
    + apply (IH He'). assumption.
Qed.

(** Splitting at the last newline. *)
Lemma lines_ended buf : exists b tail ls, buf = b ++ tail /\ (b = [] \/ ended b) /\ lines_of b ls /\ no_newline tail.
Proof.
  assert (G : exists b tail, buf = b ++ tail /\ (b = [] \/ ended b) /\ no_newline tail).
  { induction buf as [|x l IH] using rev_ind.
    - exists [], []. split; [reflexivity|]. split; [left; reflexivity|intros []].
    - destruct (N.eq_dec x 10) as [->|Hx].
      + exists (l ++ [10]), []. rewrite app_nil_r. split; [reflexivity|]. split; [right; exists l; reflexivity|intros []].
      + destruct IH as (b & tail & -> & Hb & Ht). exists b, (tail ++ [x]). rewrite app_assoc.
        split; [reflexivity|]. split; [exact Hb|]. intros X. apply in_app_or in X. destruct X as [X|[X|[]]]; auto. }
  destruct G as (b & tail & -> & Hb & Ht). 
  exists b, tail, (getlines b). split; [reflexivity|]. split; [exact Hb|]. split; [apply getlines_lines|exact Ht].
Qed.

Lemma legible_line line e : no_newline line -> is_entry line e -> legible e.
Proof.
  intros Hn (ws & ws1 & body & rest & E & W & W1 & N1 & Bp & Hp & Bc & Nc & St & H). exists line. split; [exact Hn|].
  exists ws, ws1, (body ++ [10]), (rest ++ [10]). split; [rewrite E; rewrite <- !app_assoc; reflexivity|].
  split; [exact W|]. split; [exact W1|]. split; [exact N1|]. split; [exact Bp|]. split; [exact Hp|].
  split; [exact Bc|]. split; [exact Nc|]. split.
  { destruct rest; cbn; [unfold blank; auto|exact St]. }
  destruct H as [(Et & Eb & Hd)|(x & ws2 & Et & Hw & Eb)]; [left|right].
  - split; [exact Et|]. split; [rewrite Eb, <- app_assoc; reflexivity|exact Hd].
  - exists x, ws2. split; [exact Et|]. split; [exact Hw|]. rewrite Eb. cbn [app]. rewrite <- !app_assoc. reflexivity.
Qed.

Lemma cut_some c s a r : cut c s = Some (a, r) -> exists b, a = b ++ [c] /\ ~ In c b /\ s = a ++ r.
Proof.
  revert a r. induction s as [|x s IH]; intros a r; cbn [cut]; [discriminate|].
  destruct (N.eqb_spec x c) as [E|E].
  - intros [= <- <-]. exists []. subst. split; [reflexivity|]. split; [intros []|reflexivity].
  - destruct (cut c s) as [[a' r']|]; [|discriminate]. intros [= <- <-].
    destruct (IH _ _ eq_refl) as (b & -> & Hb & ->). exists (x :: b). split; [reflexivity|].
    split; [intros [X|X]; auto|reflexivity].
Qed.

Lemma cut_none_inv c s : cut c s = None -> ~ In c s.
Proof.
  induction s as [|x s IH]; cbn [cut]; [intros _ []|]. destruct (N.eqb_spec x c) as [E|E]; [discriminate|].
  destruct (cut c s) as [[]|]; [discriminate|]. intros _ [X|X]; [auto|]. exact (IH eq_refl X).
Qed.

Lemma parse_legible fuel : forall s nodes, parse_fc fuel s = ROk nodes ->
  exists es, nodes = map node_of es /\ Forall legible es /\ Forall in_bounds es.
Proof.
  induction fuel as [|f IH]; intros s nodes; cbn [parse_fc]; [discriminate|].
  destruct (get_line s) as [[line rest]|] eqn:G.
  2:{ intros [= <-]. exists []. split; [reflexivity|]. split; constructor. }
  assert (L : forall e, is_entry line e -> legible e).
  { intros e He. unfold get_line in G. destruct (cut 10 s) as [[a r]|] eqn:C.
    - injection G as -> ->. apply cut_some in C. destruct C as (b & -> & Hb & _). exists b. split; assumption.
    - apply cut_none_inv in C. apply (legible_line line); [|exact He].
      intros X. apply C. destruct (cut 13 s) as [[a r]|] eqn:C2.
      + injection G as -> ->. apply cut_some in C2. destruct C2 as (b & _ & _ & ->). apply in_or_app. left. exact X.
      + apply cut_some in G. destruct G as (b & _ & _ & ->). apply in_or_app. left. exact X. }
  destruct (parse_fc_line line) as [|n|] eqn:P; [apply IH| |discriminate].
  destruct (parse_fc f rest) as [l| |] eqn:R; try discriminate. intros [= <-].
  destruct (IH _ _ R) as (es & -> & F1 & F2).
  destruct (parse_entry line) as [e He]; [congruence|]. exists (e :: es).
  pose proof (entry_parse _ _ He) as Q. rewrite P in Q. destruct (make_node_spec e) as [M1 M2].
  assert (Hb : in_bounds e).
  { unfold in_bounds. intros Y. rewrite M2 in Q; [discriminate|]. intros Z. exact (Z Y). }
  rewrite (M1 Hb) in Q. injection Q as ->. split; [reflexivity|].
  split; constructor; try assumption. apply L. exact He.
Qed.

(** ** The claims *)

Lemma sort_claim buf ls es : lines_of buf ls -> ended buf -> entries_of ls es -> Forall in_bounds es ->
  exists out, stably_sorted es out /\ fc_sort buf = ROk (flat_map entry_text out ++ [0]).
Proof.
  intros Hl He Hes Hb. destruct (parse_lines buf ls Hl (or_intror He) [] (S (length buf))) as (es' & E1 & E2 & _);
    try (intros []); [lia|].
  rewrite <- (entries_fun _ _ Hes _ E1) in E2. specialize (E2 Hb). rewrite app_nil_r in E2.
  destruct (sort_entries es) as (out & S1 & S2). exists out. split; [exact S1|].
  destruct buf as [|x b]; [destruct He as [b He]; destruct b; discriminate|].
  rewrite fc_sort_unfold, E2, S2, print_all. reflexivity.
Qed.

Lemma ub_claim buf ls es e : lines_of buf ls -> ended buf -> entries_of ls es ->
  In e es -> dangling (e_path e) -> literal (e_path e) -> fc_sort buf = RUB.
Proof.
  intros Hl He Hes Hi Hd Hlit. destruct (parse_lines buf ls Hl (or_intror He) [] (S (length buf))) as (es' & E1 & _ & E3);
    try (intros []); [lia|].
  rewrite <- (entries_fun _ _ Hes _ E1) in E3. rewrite app_nil_r in E3.
  destruct buf as [|x b]; [destruct He as [b He]; destruct b; discriminate|].
  rewrite fc_sort_unfold, E3; [reflexivity|]. rewrite Forall_forall. intros X. exact (X e Hi (conj Hd Hlit)).
Qed.

Lemma tail_claim buf tail : ended buf -> ~ In 10 tail -> ~ In 13 tail -> ~ In 255 tail ->
  fc_sort (buf ++ tail) = fc_sort buf.
Proof.
  intros He T1 T2 T3.
  assert (P : forall t, ~ In 10 t -> ~ In 13 t -> ~ In 255 t ->
    parse_fc (S (length (buf ++ t))) (buf ++ t) = parse_fc (S (length buf)) buf).
  { intros t A B C. pose proof (getlines_lines buf) as Hl.
    destruct (parse_lines buf _ Hl (or_intror He) t (S (length (buf ++ t))) A B C) as (es & E1 & E2 & E3).
    { rewrite app_length. lia. }
    destruct (parse_lines buf _ Hl (or_intror He) [] (S (length buf))) as (es' & E1' & E2' & E3'); try (intros []); [lia|].
    rewrite app_nil_r in E2', E3'. rewrite <- (entries_fun _ _ E1 _ E1') in *.
    assert (D : Forall in_bounds es \/ ~ Forall in_bounds es).
    { destruct (parse_fc (S (length buf)) buf) as [n| |] eqn:X.
      - left. apply Forall_forall. intros e Hi Hd. assert (Y : @ROk (list fnode) n = RUB); [|discriminate].
        apply E3'. rewrite Forall_forall. intros Z. exact (Z e Hi Hd).
      - exfalso. assert (Y : ~ Forall in_bounds es) by (intros Z; specialize (E2' Z); discriminate).
        specialize (E3' Y). discriminate.
      - right. intros Z. specialize (E2' Z). discriminate. }
    destruct D as [D|D]; [rewrite E2, E2' by exact D; reflexivity|rewrite E3, E3' by exact D; reflexivity]. }
  specialize (P tail T1 T2 T3). destruct buf as [|x b]; [destruct He as [b He]; destruct b; discriminate|].
  change ((x :: b) ++ tail) with (x :: (b ++ tail)) in *. rewrite !fc_sort_unfold, P. reflexivity.
Qed.

Lemma idem_claim buf text : fc_sort buf = ROk (text ++ [0]) -> text <> [] -> fc_sort text = ROk (text ++ [0]).
Proof.
  intros H Hne. destruct buf as [|x b]; [discriminate|]. rewrite fc_sort_unfold in H.
  destruct (parse_fc _ (x :: b)) as [nodes| |] eqn:P; try discriminate.
  destruct (parse_legible _ _ _ P) as (es & -> & F1 & F2).
  destruct (sort_entries es) as (out & (Pm & Ss & _) & S2). rewrite S2, print_all in H.
  assert (E : flat_map entry_text out = text).
  { injection H as H. apply app_inj_tail in H. apply H. }
  assert (F1' : Forall legible out) by (rewrite Forall_forall in *; intros e He; apply F1; exact (Permutation_in e (Permutation_sym Pm) He)).
  assert (F2' : Forall in_bounds out) by (rewrite Forall_forall in *; intros e He; apply F2; exact (Permutation_in e (Permutation_sym Pm) He)).
  assert (On : out <> []) by (intros ->; cbn in E; congruence).
  destruct (text_lines out F1') as (ls & L1 & L2). pose proof (text_ended out On F1') as L3.
  destruct (parse_lines _ ls L1 (or_intror L3) [] (S (length text))) as (es' & E1 & E2 & _); try (intros []).
  { rewrite E. lia. }
  rewrite <- (entries_fun _ _ L2 _ E1) in E2. specialize (E2 F2'). rewrite app_nil_r, E in E2.
  destruct text as [|y t]; [congruence|]. rewrite fc_sort_unfold, E2.
  destruct (start_spec (map node_of out)) as (T1 & T2 & T3).
  rewrite (sort_sorted _ _ T3); [|rewrite T1; apply ssorted_map; exact Ss].
  rewrite T1, print_all, E. reflexivity.
Qed.
