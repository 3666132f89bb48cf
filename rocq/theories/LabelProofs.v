(** Proofs about the file label lookup. *)
From Verif Require Import Base MlsModel LabelModel LabelSpec.
From Coq Require Import Permutation Sorted.

(** ** Strings *)
Lemma str_eqb_eq a b : str_eqb a b = true <-> a = b.
Proof.
  revert b; induction a as [|x a IH]; destruct b as [|y b]; cbn; split; intros H; try congruence.
  - apply andb_true_iff in H as [E H]. apply N.eqb_eq in E. apply IH in H. congruence.
  - injection H as -> ->. rewrite N.eqb_refl. apply IH. reflexivity.
Qed.
Lemma str_eqb_refl a : str_eqb a a = true.
Proof. apply str_eqb_eq; reflexivity. Qed.
Lemma str_eqb_neq a b : str_eqb a b = false <-> a <> b.
Proof. split; intros H; [intros E; apply str_eqb_eq in E; congruence|]. destruct (str_eqb a b) eqn:E; [|reflexivity]. apply str_eqb_eq in E. contradiction. Qed.

Lemma scmp_eq a b : scmp a b = Eq <-> a = b.
Proof.
  revert b; induction a as [|x a IH]; destruct b as [|y b]; cbn; split; intros H; try congruence.
  - destruct (N.compare_spec x y); try congruence. subst. f_equal. apply IH; assumption.
  - injection H as -> ->. rewrite N.compare_refl. apply IH; reflexivity.
Qed.
Lemma scmp_refl a : scmp a a = Eq.
Proof. apply scmp_eq; reflexivity. Qed.
Lemma scmp_anti a b : scmp b a = CompOpp (scmp a b).
Proof.
  revert b; induction a as [|x a IH]; destruct b as [|y b]; cbn; try reflexivity.
  rewrite (N.compare_antisym x y). destruct (x ?= y); cbn; auto.
Qed.
Lemma scmp_trans a b c : scmp a b = Lt -> scmp b c = Lt -> scmp a c = Lt.
Proof.
  revert b c; induction a as [|x a IH]; destruct b as [|y b], c as [|z c]; cbn; try congruence.
  destruct (N.compare_spec x y); try congruence; destruct (N.compare_spec y z); try congruence; intros; subst.
  - rewrite N.compare_refl. eauto.
  - destruct (N.compare_spec y z); try lia. reflexivity.
  - destruct (N.compare_spec x z); try lia. reflexivity.
  - destruct (N.compare_spec x z); try lia. reflexivity.
Qed.
Lemma sncmp_full a k : sncmp (length k) a k =
  match scmp a k with Eq => Eq | Lt => Lt | Gt => if str_eqb (firstn (length k) a) k then Eq else Gt end.
Proof.
  unfold sncmp. rewrite firstn_all. revert k; induction a as [|x a IH]; destruct k as [|y k]; cbn; try reflexivity.
  destruct (N.compare_spec x y) as [->|H|H]; cbn.
  - rewrite IH, N.eqb_refl. reflexivity.
  - reflexivity.
  - destruct (N.eqb_spec x y); [lia|reflexivity].
Qed.
Lemma sncmp_eq_prefix a k : sncmp (length k) a k = Eq <-> exists r, a = k ++ r.
Proof.
  rewrite sncmp_full. split.
  - destruct (scmp a k) eqn:E; try congruence.
    + apply scmp_eq in E. subst. exists []. rewrite app_nil_r. reflexivity.
    + destruct (str_eqb (firstn (length k) a) k) eqn:e; [|congruence]. apply str_eqb_eq in e. intros _.
      exists (skipn (length k) a). rewrite <- e at 1. rewrite firstn_skipn. reflexivity.
  - intros (r & ->). destruct (scmp (k ++ r) k) eqn:E; auto.
    + exfalso. revert E. induction k as [|x k IH]; cbn; [destruct r; discriminate|]. rewrite N.compare_refl. exact IH.
    + rewrite firstn_app, firstn_all, Nat.sub_diag. cbn. rewrite app_nil_r, str_eqb_refl. reflexivity.
Qed.

Lemma txt_le_scmp a b : txt_le a b <-> scmp a b <> Gt.
Proof.
  split.
  - induction 1; cbn; [destruct b; congruence| |].
    + destruct (N.compare_spec x y); try lia; congruence.
    + rewrite N.compare_refl. assumption.
  - revert b; induction a as [|x a IH]; destruct b as [|y b]; cbn; intros H; try (constructor; fail); try congruence.
    destruct (N.compare_spec x y); try congruence; [subst; apply txt_eq, IH; assumption|apply txt_lt; assumption].
Qed.

Lemma break_some s a q : break_slash s = Some (a, q) -> s = a ++ q /\ ~ In 47 a /\ exists r, q = 47 :: r.
Proof.
  revert a q; induction s as [|c t IH]; cbn [break_slash]; intros a q H; [discriminate|].
  destruct (N.eqb_spec c slash) as [->|E].
  - injection H as <- <-. split; [reflexivity|]. split; [intros []|eexists; reflexivity].
  - destruct (break_slash t) as [[a' q']|]; [|discriminate]. injection H as <- <-. destruct (IH _ _ eq_refl) as (-> & N & r & ->).
    split; [reflexivity|]. split; [intros [->|I]; [apply E; reflexivity|auto]|eauto].
Qed.
Lemma break_app a r : ~ In 47 a -> break_slash (a ++ 47 :: r) = Some (a, 47 :: r).
Proof.
  induction a as [|c a IH]; cbn [app break_slash]; intros H; [reflexivity|].
  destruct (N.eqb_spec c slash) as [->|E]; [exfalso; apply H; left; reflexivity|].
  rewrite IH; [reflexivity|]. intros I. apply H; right; exact I.
Qed.
Lemma break_none s : break_slash s = None <-> ~ In 47 s.
Proof.
  split.
  - induction s as [|c t IH]; cbn [break_slash]; intros H; [intros []|].
    destruct (N.eqb_spec c slash) as [->|E]; [discriminate|]. destruct (break_slash t) as [[]|]; [discriminate|].
    intros [->|I]; [apply E; reflexivity|]. apply IH; auto.
  - intros H. destruct (break_slash s) as [[a q]|] eqn:E; [|reflexivity]. apply break_some in E as (-> & _ & r & ->).
    exfalso. apply H. apply in_app_iff. right; left; reflexivity.
Qed.

(** ** Literals *)
Lemma is_meta_in c : is_meta c = true <-> In c metas.
Proof.
  unfold is_meta. rewrite existsb_exists. split.
  - intros (x & I & E). apply N.eqb_eq in E. subst. exact I.
  - intros I. exists c. split; [exact I|apply N.eqb_refl].
Qed.
Lemma is_curated_in c : is_curated c = true <-> In c escapables.
Proof.
  unfold is_curated, escapables. rewrite Bool.orb_true_iff, is_meta_in, in_app_iff, existsb_exists. split; intros [H|H]; auto; right.
  - destruct H as (x & I & E). apply N.eqb_eq in E. subst. exact I.
  - exists c. split; [exact H|apply N.eqb_refl].
Qed.
Lemma bslash_not_meta : is_meta bslash = false.
Proof. reflexivity. Qed.
Lemma simplify_lit r : forall t, regex_simplify r = Some t <-> Lit r t.
Proof.
  assert (G : forall n r, (length r <= n)%nat -> forall t, regex_simplify r = Some t <-> Lit r t).
  { clear r. induction n as [|n IH]; intros [|c r] L t; cbn [length] in L; try lia.
    - cbn. split; [intros [= <-]; constructor|inversion 1; reflexivity].
    - cbn. split; [intros [= <-]; constructor|inversion 1; reflexivity].
    - cbn [regex_simplify]. destruct (is_meta c) eqn:M.
      + split; [discriminate|]. inversion 1; subst; [apply is_meta_in in M; contradiction|]. discriminate.
      + destruct (N.eqb_spec c bslash) as [->|B].
        * destruct r as [|e r].
          { split; [discriminate|]. inversion 1; subst. unfold bslash in *. congruence. }
          destruct (is_curated e) eqn:Cu.
          { cbn [length] in L. specialize (IH r ltac:(lia)). split.
            - destruct (regex_simplify r) eqn:E; [|discriminate]. intros [= <-]. apply Lit_esc; [apply is_curated_in; exact Cu|].
              apply IH; reflexivity.
            - inversion 1; subst; [unfold bslash in *; congruence|]. rewrite (proj2 (IH _) H4). reflexivity. }
          { split; [discriminate|]. inversion 1; subst; [unfold bslash in *; congruence|]. apply is_curated_in in H2. congruence. }
        * specialize (IH r ltac:(lia)). split.
          { destruct (regex_simplify r) eqn:E; [|discriminate]. intros [= <-]. apply Lit_char.
            - intros I. apply is_meta_in in I. congruence.
            - exact B.
            - apply IH; reflexivity. }
          { inversion 1; subst; [|unfold bslash in *; congruence]. rewrite (proj2 (IH _) H5). reflexivity. } }
  intros t. apply (G (length r)). lia.
Qed.
Lemma has_meta_simplify r : forall b n, regex_has_meta_chars r = (b, n) ->
  match regex_simplify r with Some t => b = false /\ n = N.of_nat (length t) | None => b = true end.
Proof.
  assert (G : forall m r, (length r <= m)%nat -> forall b n, regex_has_meta_chars r = (b, n) ->
    match regex_simplify r with Some t => b = false /\ n = N.of_nat (length t) | None => b = true end).
  { clear r. induction m as [|m IH]; intros [|c r] L b n; cbn [length] in L; try lia; cbn [regex_has_meta_chars regex_simplify].
    - intros [= <- <-]. split; reflexivity.
    - intros [= <- <-]. split; reflexivity.
    - destruct (is_meta c); [intros [= <- <-]; reflexivity|]. destruct (c =? bslash).
      + destruct r as [|e r]; [intros [= <- <-]; reflexivity|]. destruct (is_curated e); [|intros [= <- <-]; reflexivity].
        cbn [length] in L. destruct (regex_has_meta_chars r) as [b' n'] eqn:E. intros [= <- <-].
        specialize (IH r ltac:(lia) _ _ E). destruct (regex_simplify r); [|exact IH]. destruct IH as [-> ->].
        split; [reflexivity|]. cbn [length]. lia.
      + destruct (regex_has_meta_chars r) as [b' n'] eqn:E. intros [= <- <-].
        specialize (IH r ltac:(lia) _ _ E). destruct (regex_simplify r); [|exact IH]. destruct IH as [-> ->].
        split; [reflexivity|]. cbn [length]. lia. }
  apply (G (length r)). lia.
Qed.
Lemma has_meta_literal r : fst (regex_has_meta_chars r) = false <-> literal r.
Proof.
  destruct (regex_has_meta_chars r) as [b n] eqn:E. pose proof (has_meta_simplify r b n E) as H. cbn. unfold literal.
  destruct (regex_simplify r) as [t|] eqn:S.
  - destruct H as [-> _]. split; [intros _; exists t; apply simplify_lit; exact S|reflexivity].
  - subst. split; [discriminate|]. intros (t & L). apply simplify_lit in L. congruence.
Qed.
Lemma Lit_fun r t t' : Lit r t -> Lit r t' -> t = t'.
Proof. intros A B. apply simplify_lit in A, B. congruence. Qed.
Lemma Lit_incl r t : Lit r t -> forall c, In c t -> In c r.
Proof. induction 1; cbn; intros x I; [exact I|destruct I; auto|destruct I; auto]. Qed.
Lemma Lit_nonempty r t : Lit r t -> r <> [] -> t <> [].
Proof. inversion 1; congruence. Qed.

(** ** Stems *)
Lemma regex_stems_leads : forall f d p, Leads p (regex_stems_loop f d p).
Proof.
  induction f as [|f IH]; intros d p; cbn [regex_stems_loop]; [constructor|]. destruct d as [|d]; [constructor|].
  destruct (break_slash (tl p)) as [[seg q]|] eqn:B; [|constructor].
  destruct p as [|c p]; [discriminate|]. cbn [tl] in B. apply break_some in B as (-> & N & r & ->).
  destruct seg as [|x seg].
  - apply Leads_skip. apply IH.
  - destruct (regex_simplify (x :: seg)) as [st|] eqn:S; [|constructor].
    destruct (65535 <=? N.of_nat (length st)); [constructor|]. apply Leads_cons; [discriminate|exact N|apply simplify_lit; exact S|apply IH].
Qed.
Lemma regex_stems_len : forall f d p, (length (regex_stems_loop f d p) <= d)%nat.
Proof.
  induction f as [|f IH]; intros d p; cbn [regex_stems_loop]; [cbn; lia|]. destruct d as [|d]; [cbn; lia|].
  destruct (break_slash (tl p)) as [[[|x seg] q]|] eqn:B; [|destruct (regex_simplify (x :: seg)) as [st|]|cbn; lia].
  - apply IH.
  - destruct (65535 <=? N.of_nat (length st)); [cbn; lia|]. cbn [length]. specialize (IH d q). lia.
  - cbn; lia.
Qed.
Lemma leads_ok r ts : Leads r ts -> forall t, In t ts -> t <> [] /\ ~ In 47 t.
Proof.
  induction 1; intros w I; [destruct I|auto|]. destruct I as [<-|I]; [|auto].
  split; [eapply Lit_nonempty; eauto|]. intros J. apply H0. eapply Lit_incl; eauto.
Qed.

(** The directories of a key. *)
Fixpoint key_stems (fuel : nat) (p : list N) : list (list N) :=
  match fuel with
  | O => []
  | S f =>
      match p with
      | c :: t =>
          if negb (c =? slash) then []
          else match break_slash t with
               | None => []
               | Some ([], _) => []
               | Some (seg, q) => seg :: key_stems f q
               end
      | [] => []
      end
  end.
Lemma key_stems_fuel : forall f g p, (length p <= f)%nat -> (length p <= g)%nat -> key_stems f p = key_stems g p.
Proof.
  induction f as [|f IH]; intros [|g] [|c t] L M; cbn [length] in *; try lia; try reflexivity.
  cbn [key_stems]. destruct (negb (c =? slash)); [reflexivity|]. destruct (break_slash t) as [[[|x seg] q]|] eqn:B; try reflexivity.
  f_equal. apply break_some in B as (-> & _ & r & ->). rewrite app_length in *. cbn [length] in *. apply IH; cbn [length]; lia.
Qed.
Definition kst (key : list N) : list (list N) := key_stems (length key) key.
Lemma below_stems ts key : (forall t, In t ts -> t <> [] /\ ~ In 47 t) -> below ts key -> ts = firstn (length ts) (kst key).
Proof.
  intros T [->|(rest & ->)]; [reflexivity|]. unfold kst.
  generalize (Nat.le_refl (length (concat (map (cons 47) ts) ++ 47 :: rest))).
  generalize (length (concat (map (cons 47) ts) ++ 47 :: rest)) at 2 3. intros f L. revert f L.
  induction ts as [|t ts IH]; intros f L; [reflexivity|]. cbn [map concat app] in *. destruct f as [|f]; [cbn [length] in L; lia|].
  destruct (T t (or_introl eq_refl)) as [T1 T2].
  replace ((t ++ concat (map (cons 47) ts)) ++ 47 :: rest) with (t ++ concat (map (cons 47) ts) ++ 47 :: rest) in *
    by (rewrite <- app_assoc; reflexivity).
  assert (Q : exists r, concat (map (cons 47) ts) ++ 47 :: rest = 47 :: r) by (destruct ts; cbn; eauto).
  destruct Q as (r & Q). cbn [key_stems]. change (negb (47 =? slash)) with false. cbv iota.
  rewrite Q, (break_app t r T2). destruct t as [|x t]; [congruence|]. cbn [length firstn]. f_equal. rewrite <- Q.
  apply IH; [intros; apply T; right; assumption|]. cbn [length] in L. rewrite app_length in L. cbn [length] in L. lia.
Qed.

(** No two slashes in a row. *)
Inductive single : list N -> Prop :=
| sg_nil : single []
| sg_one c : single [c]
| sg_cons c d s : ~ (c = 47 /\ d = 47) -> single (d :: s) -> single (c :: d :: s).
Lemma single_tl c s : single (c :: s) -> single s.
Proof. inversion 1; subst; [constructor|assumption]. Qed.
Lemma single_suffix a b : single (a ++ b) -> single b.
Proof. induction a as [|x a IH]; [auto|]. intros H. apply IH. apply single_tl in H. exact H. Qed.
Lemma literal_stems_key : forall f d p, (length p <= f)%nat -> single p -> literal_stems_loop f d p = firstn d (key_stems f p).
Proof.
  induction f as [|f IH]; intros d p L S; [destruct d; reflexivity|]. destruct d as [|d]; [reflexivity|].
  cbn [literal_stems_loop key_stems]. destruct p as [|c t]; [reflexivity|]. destruct (negb (c =? slash)) eqn:C; [reflexivity|].
  destruct (break_slash t) as [[[|x seg] q]|] eqn:B; try reflexivity.
  - apply break_some in B as (-> & _ & r & ->). exfalso. inversion S; subst. apply H1. split; [|reflexivity].
    destruct (N.eqb_spec c slash); [assumption|discriminate].
  - cbn [firstn]. f_equal. apply break_some in B as (-> & _ & r & ->). apply single_tl in S. apply IH.
    + cbn [length] in L. rewrite app_length in L. lia.
    + eapply single_suffix; exact S.
Qed.
Lemma key_stems_ok : forall f p t, In t (key_stems f p) -> t <> [] /\ ~ In 47 t.
Proof.
  induction f as [|f IH]; intros p t I; [destruct I|]. cbn [key_stems] in I. destruct p as [|c p]; [destruct I|].
  destruct (negb (c =? slash)); [destruct I|]. destruct (break_slash p) as [[[|x seg] q]|] eqn:B; try (destruct I; fail).
  apply break_some in B as (_ & N & _). destruct I as [<-|I]; [split; [discriminate|exact N]|eapply IH; exact I].
Qed.

(** ** The tree *)
Fixpoint find_child (s : list N) (cs : list (list N * node)) : option node :=
  match cs with [] => None | (t, c) :: r => if str_eqb t s then Some c else find_child s r end.
Fixpoint node_at (p : list (list N)) (n : node) : option node :=
  match p with [] => Some n | s :: p' => match find_child s (n_children n) with Some c => node_at p' c | None => None end end.
Definition here (o : option node) : node := match o with Some n => n | None => empty_node end.
Definition path_eqb (p q : list (list N)) : bool := if list_eq_dec (list_eq_dec N.eq_dec) p q then true else false.
Lemma path_eqb_eq p q : path_eqb p q = true <-> p = q.
Proof. unfold path_eqb. destruct (list_eq_dec (list_eq_dec N.eq_dec) p q); split; intros; congruence. Qed.
Lemma find_update_same s g cs : find_child s (update_child s g cs) = Some (g (here (find_child s cs))).
Proof.
  induction cs as [|[t c] cs IH]; cbn [update_child find_child].
  - rewrite str_eqb_refl. reflexivity.
  - destruct (str_eqb t s) eqn:E; cbn [find_child]; rewrite E; [reflexivity|exact IH].
Qed.
Lemma find_update_other s u g cs : s <> u -> find_child u (update_child s g cs) = find_child u cs.
Proof.
  intros N. induction cs as [|[t c] cs IH]; cbn [update_child find_child].
  - rewrite (proj2 (str_eqb_neq s u) N). reflexivity.
  - destruct (str_eqb t s) eqn:E; cbn [find_child]; [|rewrite IH; reflexivity].
    apply str_eqb_eq in E. subst. rewrite (proj2 (str_eqb_neq s u) N). reflexivity.
Qed.
Lemma node_at_empty p : p <> [] -> node_at p empty_node = None.
Proof. destruct p; [congruence|reflexivity]. Qed.
Definition keeps (f : node -> node) : Prop := forall n, n_children (f n) = n_children n.
Lemma update_fields p f n : keeps f -> p <> [] -> n_lits (update_at p f n) = n_lits n /\ n_regs (update_at p f n) = n_regs n.
Proof. destruct p; [congruence|]. split; reflexivity. Qed.
(** What is found at a path after an update: the node itself, or a node with the same content. *)
Lemma at_update f : keeps f -> forall q p n,
  (p = q -> exists m, node_at p (update_at q f n) = Some m /\ n_lits m = n_lits (f (here (node_at q n))) /\ n_regs m = n_regs (f (here (node_at q n)))) /\
  (p <> q -> n_lits (here (node_at p (update_at q f n))) = n_lits (here (node_at p n)) /\
             n_regs (here (node_at p (update_at q f n))) = n_regs (here (node_at p n))).
Proof.
  intros K. induction q as [|s q IH]; intros p n.
  - split.
    + intros ->. exists (f n). split; [reflexivity|]. split; reflexivity.
    + intros N. destruct p as [|u p]; [congruence|]. cbn [update_at node_at]. rewrite K. split; reflexivity.
  - cbn [update_at]. split.
    + intros ->. cbn [node_at n_children]. rewrite find_update_same.
      destruct (proj1 (IH q (here (find_child s (n_children n)))) eq_refl) as (m & E & A & B). exists m. split; [exact E|].
      rewrite A, B. destruct (find_child s (n_children n)); cbn [here]; [split; reflexivity|].
      destruct q; [split; reflexivity|]. rewrite node_at_empty by discriminate. split; reflexivity.
    + intros N. destruct p as [|u p]; [split; reflexivity|]. cbn [node_at n_children].
      destruct (list_eq_dec N.eq_dec s u) as [<-|D].
      * rewrite find_update_same. assert (P : p <> q) by congruence. pose proof (proj2 (IH p (here (find_child s (n_children n)))) P) as X.
        destruct (find_child s (n_children n)); cbn [here] in *; [exact X|].
        destruct p as [|v p].
        { exact X. }
        rewrite node_at_empty in X by discriminate. exact X.
      * rewrite find_update_other by exact D. split; reflexivity.
Qed.
Definition prefix_of {A} (p q : list A) : Prop := exists r, q = p ++ r.
Lemma exists_update f : keeps f -> forall q p n,
  node_at p (update_at q f n) <> None <-> node_at p n <> None \/ prefix_of p q.
Proof.
  intros K. induction q as [|s q IH]; intros p n.
  - destruct p as [|u p]; cbn [update_at node_at].
    + split; intros _; [left|]; discriminate.
    + rewrite K. split; [auto|]. intros [H|(r & H)]; [exact H|discriminate].
  - destruct p as [|u p]; [cbn; split; intros _; [left|]; discriminate|]. cbn [update_at node_at n_children].
    destruct (list_eq_dec N.eq_dec s u) as [<-|D].
    + rewrite find_update_same, IH. split.
      * intros [H|(r & ->)]; [|right; exists r; reflexivity]. destruct (find_child s (n_children n)); [left; exact H|].
        cbn [here] in H. destruct p; [right; exists q; reflexivity|]. rewrite node_at_empty in H by discriminate. congruence.
      * intros [H|(r & H)].
        { destruct (find_child s (n_children n)); [left; exact H|congruence]. }
        { injection H as ->. right; exists r; reflexivity. }
    + rewrite find_update_other by exact D. split; [auto|]. intros [H|(r & H)]; [exact H|]. injection H as -> _. congruence.
Qed.

(** Everywhere in the tree. *)
Definition every (P : node -> Prop) (n : node) : Prop := forall p m, node_at p n = Some m -> P m.
Lemma every_child P n s c : every P n -> find_child s (n_children n) = Some c -> every P c.
Proof. intros H F p m E. apply (H (s :: p)). cbn. rewrite F. exact E. Qed.
Lemma every_here P n : every P n -> P n.
Proof. intros H. apply (H []). reflexivity. Qed.
Definition distinct (n : node) : Prop := NoDup (map fst (n_children n)).
Lemma update_child_stems s g cs : map fst (update_child s g cs) = map fst cs \/ (map fst (update_child s g cs) = map fst cs ++ [s] /\ ~ In s (map fst cs)).
Proof.
  induction cs as [|[t c] cs IH]; cbn [update_child map fst].
  - right. split; [reflexivity|intros []].
  - destruct (str_eqb t s) eqn:E; cbn [map fst]; [left; reflexivity|]. apply str_eqb_neq in E.
    destruct IH as [->|[-> N]]; [left; reflexivity|right]. split; [reflexivity|]. intros [->|I]; [congruence|auto].
Qed.
Lemma distinct_update f : keeps f -> forall q n, every distinct n -> every distinct (update_at q f n).
Proof.
  intros K. induction q as [|s q IH]; intros n H p m E.
  - cbn [update_at] in E. destruct p as [|u p]; cbn [node_at] in E.
    + injection E as <-. unfold distinct. rewrite K. apply (every_here _ _ H).
    + rewrite K in E. apply (H (u :: p)). exact E.
  - cbn [update_at] in E. destruct p as [|u p]; cbn [node_at n_children] in E.
    + injection E as <-. unfold distinct. cbn [n_children]. pose proof (every_here _ _ H) as D. unfold distinct in D.
      destruct (update_child_stems s (update_at q f) (n_children n)) as [->|[-> N]]; [exact D|].
      apply (Permutation_NoDup (Permutation_cons_append _ _)). constructor; assumption.
    + destruct (list_eq_dec N.eq_dec s u) as [<-|D].
      * rewrite find_update_same in E. apply (IH (here (find_child s (n_children n)))) with (p := p); [|exact E].
        destruct (find_child s (n_children n)) eqn:F; cbn [here]; [eapply every_child; eauto|].
        intros p' m' E'. destruct p'; [injection E' as <-; constructor|rewrite node_at_empty in E' by discriminate; discriminate].
      * rewrite find_update_other in E by exact D. apply (H (u :: p)). exact E.
Qed.

(** ** Sorting *)
Lemma find_child_in s cs c : NoDup (map fst cs) -> (find_child s cs = Some c <-> In (s, c) cs).
Proof.
  induction cs as [|[t d] cs IH]; cbn [map fst find_child]; intros N.
  - split; [discriminate|intros []].
  - inversion N; subst. destruct (str_eqb t s) eqn:E.
    + apply str_eqb_eq in E. subst. split.
      * intros [= ->]. left; reflexivity.
      * intros [[= ->]|I]; [reflexivity|]. exfalso. apply H1. apply in_map_iff. exists (s, c). split; [reflexivity|exact I].
    + apply str_eqb_neq in E. rewrite IH by assumption. split; [right; assumption|]. intros [[= ->]|I]; [congruence|exact I].
Qed.
Lemma find_child_perm s cs cs' : Permutation cs cs' -> NoDup (map fst cs) -> find_child s cs = find_child s cs'.
Proof.
  intros P N. assert (N' : NoDup (map fst cs')) by (eapply Permutation_NoDup; [apply Permutation_map; exact P|exact N]).
  destruct (find_child s cs) as [c|] eqn:E.
  - symmetry. apply find_child_in; [exact N'|]. eapply Permutation_in; [exact P|]. apply find_child_in; assumption.
  - destruct (find_child s cs') as [c|] eqn:E'; [|reflexivity]. apply find_child_in in E'; [|exact N'].
    apply (Permutation_in _ (Permutation_sym P)) in E'. apply find_child_in in E'; [congruence|exact N].
Qed.
Lemma insert_child_perm c l : Permutation (c :: l) (insert_child c l).
Proof.
  induction l as [|d l IH]; cbn; [reflexivity|]. destruct (scmp (fst c) (fst d)); try reflexivity.
  rewrite perm_swap. constructor. exact IH.
Qed.
Lemma sort_children_perm l : Permutation l (sort_children l).
Proof. induction l as [|c l IH]; cbn; [reflexivity|]. rewrite <- insert_child_perm. constructor. exact IH. Qed.
Definition stem_lt (a b : list N * node) : Prop := scmp (fst a) (fst b) = Lt.
Lemma insert_child_sorted c l : ~ In (fst c) (map fst l) -> StronglySorted stem_lt l -> StronglySorted stem_lt (insert_child c l).
Proof.
  induction l as [|d l IH]; cbn [insert_child map]; intros N S.
  - constructor; constructor.
  - inversion S as [|? ? S' F]; subst. destruct (scmp (fst c) (fst d)) eqn:E.
    + apply scmp_eq in E. exfalso. apply N. left. symmetry; exact E.
    + constructor; [exact S|]. constructor; [exact E|]. eapply Forall_impl; [|exact F]. intros x X. eapply scmp_trans; [exact E|exact X].
    + constructor; [apply IH; [intros I; apply N; right; exact I|exact S']|].
      apply Forall_forall. intros x I. apply (Permutation_in _ (Permutation_sym (insert_child_perm c l))) in I. destruct I as [<-|I].
      * unfold stem_lt. rewrite scmp_anti, E. reflexivity.
      * rewrite Forall_forall in F. apply F; exact I.
Qed.
Lemma sort_children_sorted l : NoDup (map fst l) -> StronglySorted stem_lt (sort_children l).
Proof.
  induction l as [|c l IH]; cbn [map sort_children]; intros N; [constructor|]. inversion N; subst. apply insert_child_sorted; [|apply IH; assumption].
  intros I. apply H1. eapply Permutation_in; [|exact I]. apply Permutation_map, Permutation_sym, sort_children_perm.
Qed.
Lemma sort_fields qs n : n_lits (sort_spec_node qs n) = qs (n_lits n) /\ n_regs (sort_spec_node qs n) = n_regs n /\
  n_children (sort_spec_node qs n) = sort_children (map (fun p => (fst p, sort_spec_node qs (snd p))) (n_children n)).
Proof. destruct n. split; [|split]; reflexivity. Qed.
Lemma map_stems qs (l : list (list N * node)) : map fst (map (fun p => (fst p, sort_spec_node qs (snd p))) l) = map fst l.
Proof. rewrite map_map. apply map_ext. reflexivity. Qed.
Lemma find_child_map qs s l : find_child s (map (fun p => (fst p, sort_spec_node qs (snd p))) l) = option_map (sort_spec_node qs) (find_child s l).
Proof. induction l as [|[t c] l IH]; cbn; [reflexivity|]. destruct (str_eqb t s); [reflexivity|exact IH]. Qed.
Lemma at_sort qs : forall p n, every distinct n -> node_at p (sort_spec_node qs n) = option_map (sort_spec_node qs) (node_at p n).
Proof.
  induction p as [|s p IH]; intros n D; [reflexivity|]. cbn [node_at]. destruct (sort_fields qs n) as (_ & _ & ->).
  rewrite <- (find_child_perm s _ _ (sort_children_perm _)) by (rewrite map_stems; apply (every_here _ _ D)).
  rewrite find_child_map. destruct (find_child s (n_children n)) as [c|] eqn:F; [|reflexivity]. cbn [option_map].
  apply IH. eapply every_child; eauto.
Qed.
Definition in_order (n : node) : Prop := StronglySorted stem_lt (n_children n) /\ StronglySorted lit_le (n_lits n).
Lemma sort_in_order qs n : sorts qs -> every distinct n -> every in_order (sort_spec_node qs n) /\ every distinct (sort_spec_node qs n).
Proof.
  intros Q D. split.
  - intros p m E. rewrite at_sort in E by exact D. destruct (node_at p n) as [n'|] eqn:E'; [|discriminate]. injection E as <-.
    destruct (sort_fields qs n') as (A & _ & B). unfold in_order. rewrite A, B. split.
    + apply sort_children_sorted. rewrite map_stems. apply (D _ _ E').
    + apply Q.
  - intros p m E. rewrite at_sort in E by exact D. destruct (node_at p n) as [n'|] eqn:E'; [|discriminate]. injection E as <-.
    destruct (sort_fields qs n') as (A & _ & B). unfold distinct. rewrite B.
    eapply Permutation_NoDup; [apply Permutation_map, sort_children_perm|]. rewrite map_stems. apply (D _ _ E').
Qed.

(** ** What the tree holds *)
Definition kept_reg (prefix : option (list N)) (s : spec) : bool :=
  fst (regex_has_meta_chars (sp_regex s)) && negb (subset_skips true prefix (regex_stems (sp_regex s))).
Definition lit_of (s : spec) : list N := match regex_simplify (sp_regex s) with Some t => t | None => [] end.
Definition kept_lit (prefix : option (list N)) (s : spec) : bool :=
  negb (fst (regex_has_meta_chars (sp_regex s))) && negb (subset_skips false prefix (literal_stems (lit_of s))).
Definition to_r (s : spec) : rspec := mkR s (snd (regex_has_meta_chars (sp_regex s))).
Definition to_l (s : spec) : lspec := mkL (lit_of s) s (snd (regex_has_meta_chars (sp_regex s))).
Definition regs_in (prefix : option (list N)) (l : list spec) (p : list (list N)) : list rspec :=
  map to_r (filter (fun s => kept_reg prefix s && path_eqb (regex_stems (sp_regex s)) p) l).
Definition lits_in (prefix : option (list N)) (l : list spec) (p : list (list N)) : list lspec :=
  map to_l (filter (fun s => kept_lit prefix s && path_eqb (literal_stems (lit_of s)) p) l).
Definition on_way (prefix : option (list N)) (l : list spec) (p : list (list N)) : Prop :=
  exists s, In s l /\ (kept_reg prefix s = true /\ prefix_of p (regex_stems (sp_regex s)) \/
                       kept_lit prefix s = true /\ prefix_of p (literal_stems (lit_of s))).
Record holds (prefix : option (list N)) (l : list spec) (n : node) : Prop := {
  h_regs : forall p, n_regs (here (node_at p n)) = regs_in prefix l p;
  h_lits : forall p, Permutation (n_lits (here (node_at p n))) (lits_in prefix l p);
  h_node : forall p, node_at p n <> None <-> p = [] \/ on_way prefix l p;
  h_dist : every distinct n }.
Lemma holds_empty prefix : holds prefix [] empty_node.
Proof.
  split.
  - intros [|s p]; reflexivity.
  - intros [|s p]; reflexivity.
  - intros [|s p]; cbn; split; auto; try congruence. intros [H|(s' & [] & _)]; congruence.
  - intros [|s p] m E; cbn in E; [injection E as <-; constructor|discriminate].
Qed.
Lemma on_way_snoc prefix l s p : on_way prefix (l ++ [s]) p <-> on_way prefix l p \/
  (kept_reg prefix s = true /\ prefix_of p (regex_stems (sp_regex s)) \/ kept_lit prefix s = true /\ prefix_of p (literal_stems (lit_of s))).
Proof.
  unfold on_way. split.
  - intros (x & I & H). apply in_app_iff in I as [I|[<-|[]]]; [left; eauto|right; exact H].
  - intros [(x & I & H)|H]; [exists x; split; [apply in_app_iff; left; exact I|exact H]|exists s; split; [apply in_app_iff; right; left; reflexivity|exact H]].
Qed.
Lemma keeps_reg r : keeps (add_reg r).
Proof. intros n. reflexivity. Qed.
Lemma keeps_lit r : keeps (add_lit r).
Proof. intros n. reflexivity. Qed.
Lemma insert_holds prefix l s n n' k : holds prefix l n -> insert_spec prefix s n = IOk n' k -> holds prefix (l ++ [s]) n'.
Proof.
  intros H I. unfold insert_spec in I. destruct (regex_has_meta_chars (sp_regex s)) as [meta plen] eqn:M.
  destruct (65535 <=? plen); [discriminate|]. pose proof (has_meta_simplify _ _ _ M) as HS.
  destruct meta.
  - assert (KL : kept_lit prefix s = false) by (unfold kept_lit; rewrite M; reflexivity).
    assert (LN : forall p, lits_in prefix (l ++ [s]) p = lits_in prefix l p).
    { intros p. unfold lits_in. rewrite filter_app. cbn [filter]. rewrite KL. cbn. rewrite app_nil_r. reflexivity. }
    destruct (subset_skips true prefix (regex_stems (sp_regex s))) eqn:SK; injection I as <- <-.
    + assert (KR : kept_reg prefix s = false) by (unfold kept_reg; rewrite M, SK; reflexivity).
      split.
      * intros p. unfold regs_in. rewrite filter_app. cbn [filter]. rewrite KR. cbn. rewrite app_nil_r. apply (h_regs _ _ _ H).
      * intros p. rewrite LN. apply (h_lits _ _ _ H).
      * intros p. rewrite on_way_snoc, KL, KR, (h_node _ _ _ H). intuition discriminate.
      * apply (h_dist _ _ _ H).
    + assert (KR : kept_reg prefix s = true) by (unfold kept_reg; rewrite M, SK; reflexivity).
      split.
      * intros p. unfold regs_in. rewrite filter_app. cbn [filter]. rewrite KR. cbn [andb]. rewrite map_app.
        destruct (path_eqb (regex_stems (sp_regex s)) p) eqn:PE.
        { apply path_eqb_eq in PE. subst p. destruct (proj1 (at_update _ (keeps_reg (mkR s plen)) (regex_stems (sp_regex s)) (regex_stems (sp_regex s)) n) eq_refl) as (m & -> & _ & E).
          cbn [here]. rewrite E. cbn [add_reg n_regs map]. rewrite (h_regs _ _ _ H). unfold regs_in, to_r. rewrite M. reflexivity. }
        { rewrite (proj2 (proj2 (at_update _ (keeps_reg (mkR s plen)) (regex_stems (sp_regex s)) p n) ltac:(intros ->; rewrite (proj2 (path_eqb_eq _ _) eq_refl) in PE; discriminate))).
          cbn [map]. rewrite app_nil_r. apply (h_regs _ _ _ H). }
      * intros p. rewrite LN. destruct (path_eqb (regex_stems (sp_regex s)) p) eqn:PE.
        { apply path_eqb_eq in PE. subst p. destruct (proj1 (at_update _ (keeps_reg (mkR s plen)) (regex_stems (sp_regex s)) (regex_stems (sp_regex s)) n) eq_refl) as (m & -> & E & _).
          cbn [here]. rewrite E. cbn [add_reg n_lits]. apply (h_lits _ _ _ H). }
        { rewrite (proj1 (proj2 (at_update _ (keeps_reg (mkR s plen)) (regex_stems (sp_regex s)) p n) ltac:(intros ->; rewrite (proj2 (path_eqb_eq _ _) eq_refl) in PE; discriminate))).
          apply (h_lits _ _ _ H). }
      * intros p. rewrite (exists_update _ (keeps_reg _)), on_way_snoc, KL, KR, (h_node _ _ _ H). intuition discriminate.
      * apply distinct_update; [apply keeps_reg|apply (h_dist _ _ _ H)].
  - assert (KR : kept_reg prefix s = false) by (unfold kept_reg; rewrite M; reflexivity).
    assert (RN : forall p, regs_in prefix (l ++ [s]) p = regs_in prefix l p).
    { intros p. unfold regs_in. rewrite filter_app. cbn [filter]. rewrite KR. cbn. rewrite app_nil_r. reflexivity. }
    destruct (regex_simplify (sp_regex s)) as [lit|] eqn:SI; [|discriminate].
    assert (LO : lit_of s = lit) by (unfold lit_of; rewrite SI; reflexivity). rewrite <- LO in I.
    destruct (subset_skips false prefix (literal_stems (lit_of s))) eqn:SK.
    + injection I as <- <-. assert (KL : kept_lit prefix s = false) by (unfold kept_lit; rewrite M, SK; reflexivity).
      split.
      * intros p. rewrite RN. apply (h_regs _ _ _ H).
      * intros p. unfold lits_in. rewrite filter_app. cbn [filter]. rewrite KL. cbn. rewrite app_nil_r. apply (h_lits _ _ _ H).
      * intros p. rewrite on_way_snoc, KL, KR, (h_node _ _ _ H). intuition discriminate.
      * apply (h_dist _ _ _ H).
    + destruct (plen =? N.of_nat (length (lit_of s))); [|discriminate]. injection I as <- <-.
      assert (KL : kept_lit prefix s = true) by (unfold kept_lit; rewrite M, SK; reflexivity).
      assert (TL : to_l s = mkL (lit_of s) s plen) by (unfold to_l; rewrite M; reflexivity). rewrite <- TL.
      split.
      * intros p. rewrite RN. destruct (path_eqb (literal_stems (lit_of s)) p) eqn:PE.
        { apply path_eqb_eq in PE. subst p. destruct (proj1 (at_update _ (keeps_lit (to_l s)) (literal_stems (lit_of s)) (literal_stems (lit_of s)) n) eq_refl) as (m & -> & _ & E).
          cbn [here]. rewrite E. cbn [add_lit n_regs]. apply (h_regs _ _ _ H). }
        { rewrite (proj2 (proj2 (at_update _ (keeps_lit (to_l s)) (literal_stems (lit_of s)) p n) ltac:(intros ->; rewrite (proj2 (path_eqb_eq _ _) eq_refl) in PE; discriminate))).
          apply (h_regs _ _ _ H). }
      * intros p. unfold lits_in. rewrite filter_app. cbn [filter]. rewrite KL. cbn [andb]. rewrite map_app.
        destruct (path_eqb (literal_stems (lit_of s)) p) eqn:PE.
        { apply path_eqb_eq in PE. subst p. destruct (proj1 (at_update _ (keeps_lit (to_l s)) (literal_stems (lit_of s)) (literal_stems (lit_of s)) n) eq_refl) as (m & -> & E & _).
          cbn [here]. rewrite E. cbn [add_lit n_lits map]. apply Permutation_app_tail. apply (h_lits _ _ _ H). }
        { rewrite (proj1 (proj2 (at_update _ (keeps_lit (to_l s)) (literal_stems (lit_of s)) p n) ltac:(intros ->; rewrite (proj2 (path_eqb_eq _ _) eq_refl) in PE; discriminate))).
          cbn [map]. rewrite app_nil_r. apply (h_lits _ _ _ H). }
      * intros p. rewrite (exists_update _ (keeps_lit _)), on_way_snoc, KL, KR, (h_node _ _ _ H). intuition discriminate.
      * apply distinct_update; [apply keeps_lit|apply (h_dist _ _ _ H)].
Qed.
Lemma insert_all_holds prefix : forall l l0 n num n' num', holds prefix l0 n -> insert_all prefix l n num = Some (n', num') ->
  holds prefix (l0 ++ l) n'.
Proof.
  induction l as [|s l IH]; intros l0 n num n' num' H I; cbn [insert_all] in I.
  - injection I as <- <-. rewrite app_nil_r. exact H.
  - destruct (insert_spec prefix s n) as [n1 k| |] eqn:E; try discriminate.
    replace (l0 ++ s :: l) with ((l0 ++ [s]) ++ l) by (rewrite <- app_assoc; reflexivity).
    eapply IH; [|exact I]. eapply insert_holds; eauto.
Qed.
Lemma sort_holds qs prefix l n : sorts qs -> holds prefix l n -> holds prefix l (sort_spec_node qs n).
Proof.
  intros Q H. pose proof (h_dist _ _ _ H) as D. split.
  - intros p. rewrite at_sort by exact D. rewrite <- (h_regs _ _ _ H). destruct (node_at p n) as [m|]; cbn [option_map here]; [|reflexivity].
    apply sort_fields.
  - intros p. rewrite at_sort by exact D. rewrite <- (h_lits _ _ _ H). destruct (node_at p n) as [m|]; cbn [option_map here]; [|reflexivity].
    destruct (sort_fields qs m) as (-> & _ & _). apply Permutation_sym, Q.
  - intros p. rewrite at_sort by exact D. rewrite <- (h_node _ _ _ H). destruct (node_at p n); cbn; split; congruence.
  - apply sort_in_order; assumption.
Qed.
Lemma insert_all_num prefix : forall l n num n' num', insert_all prefix l n num = Some (n', num') ->
  num <= num' /\ (num' = num -> forall s, In s l -> kept_reg prefix s = false /\ kept_lit prefix s = false).
Proof.
  induction l as [|s l IH]; intros n num n' num' I; cbn [insert_all] in I.
  - injection I as <- <-. split; [lia|]. intros _ s [].
  - destruct (insert_spec prefix s n) as [n1 k| |] eqn:E; try discriminate. destruct (IH _ _ _ _ I) as [A B]. split; [destruct k; lia|].
    intros ->. destruct k; [lia|]. intros x [<-|J]; [|apply B; auto].
    unfold insert_spec in E. destruct (regex_has_meta_chars (sp_regex s)) as [meta plen] eqn:M.
    destruct (65535 <=? plen); [discriminate|]. pose proof (has_meta_simplify _ _ _ M) as HS. destruct meta.
    + unfold kept_reg, kept_lit. rewrite M. destruct (subset_skips true prefix (regex_stems (sp_regex s))); [|discriminate]. split; reflexivity.
    + unfold kept_reg, kept_lit, lit_of. rewrite M. destruct (regex_simplify (sp_regex s)) as [lit|]; [|discriminate].
      destruct (subset_skips false prefix (literal_stems lit)).
      * split; reflexivity.
      * destruct (plen =? _); discriminate.
Qed.

(** ** Searching *)
Lemma sorted_nth {A} (R : A -> A -> Prop) l : StronglySorted R l -> forall i j a b, nth_error l i = Some a -> nth_error l j = Some b -> (i < j)%nat -> R a b.
Proof.
  induction 1 as [|x l S IH F]; intros i j a b I J L; [destruct i; discriminate|].
  destruct i as [|i], j as [|j]; cbn [nth_error] in *; try lia.
  - injection I as <-. rewrite Forall_forall in F. apply F. eapply nth_error_In; exact J.
  - eapply IH; eauto; lia.
Qed.
Lemma sorted_stems_nodup A : StronglySorted stem_lt A -> NoDup (map fst A).
Proof.
  induction 1 as [|x l S IH F]; cbn; constructor; [|exact IH]. intros I. apply in_map_iff in I as (y & E & I).
  rewrite Forall_forall in F. specialize (F y I). unfold stem_lt in F. rewrite E, scmp_refl in F. discriminate.
Qed.
Lemma find_child_none s A : (forall i x, nth_error A i = Some x -> fst x <> s) -> find_child s A = None.
Proof.
  induction A as [|[t c] A IH]; intros H; [reflexivity|]. cbn. pose proof (H O _ eq_refl) as E. cbn in E.
  rewrite (proj2 (str_eqb_neq t s) E). apply IH. intros i x X. exact (H (S i) x X).
Qed.
Lemma child_loop_ok A key : StronglySorted stem_lt A -> forall fuel lo up, (up < length A)%nat -> (lo <= up -> up - lo + 1 < fuel)%nat -> (0 < fuel)%nat ->
  (forall i x, (i < lo)%nat -> nth_error A i = Some x -> scmp (fst x) key = Lt) ->
  (forall i x, (up < i)%nat -> nth_error A i = Some x -> scmp (fst x) key = Gt) ->
  child_loop fuel A key lo up = find_child key A.
Proof.
  intros S. induction fuel as [|f IH]; intros lo up U F F0 HL HU; [lia|]. cbn [child_loop].
  destruct (Nat.leb_spec lo up) as [L|L].
  - assert (M : (lo <= lo + (up - lo) / 2 <= up)%nat) by (pose proof (Nat.div_le_upper_bound (up - lo) 2 (up - lo) ltac:(lia) ltac:(lia)); lia).
    set (m := (lo + (up - lo) / 2)%nat) in *.
    destruct (nth_error A m) as [[stem c]|] eqn:E; [|apply nth_error_None in E; lia].
    assert (GT : scmp stem key = Gt -> (if (m =? 0)%nat then None else child_loop f A key lo (m - 1)) = find_child key A).
    { intros G. assert (HG : forall i x, (m <= i)%nat -> nth_error A i = Some x -> scmp (fst x) key = Gt).
      { intros i x I X. destruct (Nat.eq_dec i m) as [->|D]; [rewrite E in X; injection X as <-; exact G|].
        assert (T : scmp stem (fst x) = Lt) by (apply (sorted_nth _ _ S m i _ _ E X); lia).
        rewrite scmp_anti. rewrite (scmp_trans key stem (fst x)); [reflexivity| |exact T]. rewrite scmp_anti, G. reflexivity. }
      destruct (Nat.eqb_spec m 0) as [Z|Z].
      - symmetry. apply find_child_none. intros i x X Q. pose proof (HG i x ltac:(lia) X) as Y.
        rewrite Q, scmp_refl in Y. discriminate.
      - apply IH; try lia; [exact HL|]; intros i x I X; apply (HG i x); [lia|exact X]. }
    rewrite sncmp_full. destruct (scmp stem key) eqn:C.
    + apply scmp_eq in C. subst. rewrite Nat.eqb_refl. symmetry. apply find_child_in; [apply sorted_stems_nodup; exact S|].
      eapply nth_error_In; exact E.
    + apply IH; try lia; [|exact HU]. intros i x I X. destruct (Nat.eq_dec i m) as [->|D]; [rewrite E in X; injection X as <-; exact C|].
      eapply scmp_trans; [|exact C]. apply (sorted_nth _ _ S i m _ _ X E). lia.
    + destruct (str_eqb (firstn (length key) stem) key) eqn:P.
      * apply str_eqb_eq in P. destruct (Nat.eqb_spec (length stem) (length key)) as [Q|Q]; [|exact (GT eq_refl)].
        exfalso. rewrite <- Q, firstn_all in P. subst. rewrite scmp_refl in C. discriminate.
      * exact (GT eq_refl).
  - symmetry. apply find_child_none. intros i x X Q. destruct (Nat.lt_ge_cases i lo) as [I|I].
    + pose proof (HL i x I X) as Y. rewrite Q, scmp_refl in Y. discriminate.
    + pose proof (HU i x ltac:(lia) X) as Y. rewrite Q, scmp_refl in Y. discriminate.
Qed.
Lemma search_child_ok A key : StronglySorted stem_lt A -> search_child_node A key = find_child key A.
Proof.
  intros S. unfold search_child_node. destruct A as [|a A]; [reflexivity|]. remember (a :: A) as B eqn:EB.
  assert (0 < length B)%nat by (subst; cbn; lia). apply child_loop_ok; [exact S|lia|lia|lia| |].
  - intros i x I. lia.
  - intros i x I X. assert (nth_error B i <> None) as Y by congruence. apply nth_error_Some in Y. lia.
Qed.

(** Literals, in sorted order. *)
Definition cle (a b : list N) : Prop := scmp a b <> Gt.
Lemma cle_trans a b c : cle a b -> cle b c -> cle a c.
Proof.
  unfold cle. intros A B. destruct (scmp a b) eqn:E; try congruence; destruct (scmp b c) eqn:F; try congruence.
  - apply scmp_eq in E, F. subst. rewrite scmp_refl. discriminate.
  - apply scmp_eq in E. subst. rewrite F. discriminate.
  - apply scmp_eq in F. subst. rewrite E. discriminate.
  - rewrite (scmp_trans _ _ _ E F). discriminate.
Qed.
Lemma cle_firstn n a b : cle a b -> cle (firstn n a) (firstn n b).
Proof.
  unfold cle. revert a b; induction n as [|n IH]; intros [|x a] [|y b] H; cbn in *; try congruence.
  destruct (N.compare_spec x y); try congruence. apply IH. exact H.
Qed.
Definition probe (partial : bool) (key : list N) (l : lspec) : list N := if partial then firstn (length key) (ls_match l) else ls_match l.
Lemma lit_cmp_probe partial key l : lit_cmp partial key l = scmp (probe partial key l) key.
Proof. unfold lit_cmp, probe, sncmp. destruct partial; [rewrite firstn_all|]; reflexivity. Qed.
Lemma probe_mono partial key a b : lit_le a b -> cle (probe partial key a) (probe partial key b).
Proof. intros [L _]. apply txt_le_scmp in L. unfold probe. destruct partial; [apply cle_firstn|]; exact L. Qed.
Lemma lit_cmp_gt partial key a b : lit_le a b -> lit_cmp partial key a = Gt -> lit_cmp partial key b = Gt.
Proof.
  rewrite !lit_cmp_probe. intros L G. pose proof (probe_mono partial key a b L) as M. unfold cle in M.
  destruct (scmp (probe partial key b) key) eqn:E; [| |reflexivity]; exfalso.
  - apply scmp_eq in E. rewrite E in M. congruence.
  - destruct (scmp (probe partial key a) (probe partial key b)) eqn:F; [| |congruence].
    + apply scmp_eq in F. rewrite F in G. congruence.
    + rewrite (scmp_trans _ _ _ F E) in G. discriminate.
Qed.
Lemma lit_cmp_lt partial key a b : lit_le a b -> lit_cmp partial key b = Lt -> lit_cmp partial key a = Lt.
Proof.
  rewrite !lit_cmp_probe. intros L G. pose proof (probe_mono partial key a b L) as M. unfold cle in M.
  destruct (scmp (probe partial key a) (probe partial key b)) eqn:F; [| |congruence].
  - apply scmp_eq in F. rewrite F. exact G.
  - exact (scmp_trans _ _ _ F G).
Qed.
Lemma lit_cmp_eq partial key l : lit_cmp partial key l = Eq <-> probe partial key l = key.
Proof. rewrite lit_cmp_probe. apply scmp_eq. Qed.

(** The result of the search: the first place where the comparison is equal. *)
Definition first_eq (A : list lspec) (partial : bool) (key : list N) (i : nat) : Prop :=
  (exists x, nth_error A i = Some x /\ lit_cmp partial key x = Eq) /\ forall j x, (j < i)%nat -> nth_error A j = Some x -> lit_cmp partial key x = Lt.
Lemma lit_back_ok A partial key : StronglySorted lit_le A -> forall m x, nth_error A m = Some x -> lit_cmp partial key x = Eq ->
  first_eq A partial key (lit_back A partial key m).
Proof.
  intros S. induction m as [|m IH]; intros x E C; cbn [lit_back].
  - split; [eauto|]. intros j y J. lia.
  - destruct (nth_error A m) as [y|] eqn:F.
    + destruct (lit_cmp partial key y) eqn:D; [eapply IH; eauto| |].
      * split; [eauto|]. intros j z J Z. destruct (Nat.eq_dec j m) as [->|Q]; [congruence|].
        eapply lit_cmp_lt; [|exact D]. apply (sorted_nth _ _ S j m _ _ Z F). lia.
      * pose proof (lit_cmp_gt _ _ _ _ (sorted_nth _ _ S m (Datatypes.S m) _ _ F E ltac:(lia)) D). congruence.
    + apply nth_error_None in F. assert (nth_error A (Datatypes.S m) <> None) as Y by congruence. apply nth_error_Some in Y. lia.
Qed.
Definition lit_found (A : list lspec) (partial : bool) (key : list N) (r : option nat) : Prop :=
  match r with Some i => first_eq A partial key i | None => forall i x, nth_error A i = Some x -> lit_cmp partial key x <> Eq end.
Lemma lit_loop_ok A partial key : StronglySorted lit_le A -> forall fuel lo up, (up < length A)%nat -> (lo <= up -> up - lo + 1 < fuel)%nat -> (0 < fuel)%nat ->
  (forall i x, (i < lo)%nat -> nth_error A i = Some x -> lit_cmp partial key x = Lt) ->
  (forall i x, (up < i)%nat -> nth_error A i = Some x -> lit_cmp partial key x = Gt) ->
  lit_found A partial key (lit_loop fuel A partial key lo up).
Proof.
  intros S. induction fuel as [|f IH]; intros lo up U F F0 HL HU; [lia|]. cbn [lit_loop].
  destruct (Nat.leb_spec lo up) as [L|L].
  - assert (M : (lo <= lo + (up - lo) / 2 <= up)%nat) by (pose proof (Nat.div_le_upper_bound (up - lo) 2 (up - lo) ltac:(lia) ltac:(lia)); lia).
    set (m := (lo + (up - lo) / 2)%nat) in *.
    destruct (nth_error A m) as [l|] eqn:E; [|apply nth_error_None in E; lia].
    destruct (lit_cmp partial key l) eqn:C.
    + cbn [lit_found]. eapply lit_back_ok; eauto.
    + apply IH; try lia; [|exact HU]. intros i x I X. destruct (Nat.eq_dec i m) as [->|D]; [congruence|].
      eapply lit_cmp_lt; [|exact C]. apply (sorted_nth _ _ S i m _ _ X E). lia.
    + assert (HG : forall i x, (m <= i)%nat -> nth_error A i = Some x -> lit_cmp partial key x = Gt).
      { intros i x I X. destruct (Nat.eq_dec i m) as [->|D]; [congruence|].
        eapply lit_cmp_gt; [|exact C]. apply (sorted_nth _ _ S m i _ _ E X). lia. }
      destruct (Nat.eqb_spec m 0) as [Z|Z].
      * cbn [lit_found]. intros i x X. rewrite (HG i x ltac:(lia) X). discriminate.
      * apply IH; try lia; [exact HL|]. intros i x I X. apply (HG i x); [lia|exact X].
  - cbn [lit_found]. intros i x X. destruct (Nat.lt_ge_cases i lo) as [I|I]; [rewrite (HL i x I X)|rewrite (HU i x ltac:(lia) X)]; discriminate.
Qed.
Lemma search_lit_ok A partial key : StronglySorted lit_le A -> lit_found A partial key (search_literal_spec A partial key).
Proof.
  intros S. unfold search_literal_spec. destruct A as [|a A]; [intros i x X; destruct i; discriminate|]. remember (a :: A) as B eqn:EB.
  assert (0 < length B)%nat by (subst; cbn; lia). apply lit_loop_ok; [exact S|lia|lia|lia| |].
  - intros i x I. lia.
  - intros i x I X. assert (nth_error B i <> None) as Y by congruence. apply nth_error_Some in Y. lia.
Qed.

Lemma kind_ok_meet kind k : kind_ok kind k = true <-> kinds_meet kind k.
Proof. unfold kind_ok, kinds_meet. rewrite !Bool.orb_true_iff, !N.eqb_eq. tauto. Qed.
(** The loop over the literals without find_all, on a sorted list that begins with equal ones. *)
Lemma lit_scan_ok partial key kind : forall l, StronglySorted lit_le l -> (forall x, In x l -> lit_cmp partial key x <> Lt) ->
  match lit_scan partial false key kind l [] with
  | LGo acc => acc = [] /\ forall x, In x l -> lit_cmp partial key x = Eq -> kind_ok kind (sp_kind (ls_spec x)) = false
  | LRet f => exists l1 x l2, l = l1 ++ x :: l2 /\ lit_cmp partial key x = Eq /\ kind_ok kind (sp_kind (ls_spec x)) = true /\
      f = mkF (ls_spec x) (ls_plen x) false /\ sp_ctx (ls_spec x) <> none_ctx /\
      forall y, In y l1 -> lit_cmp partial key y = Eq -> kind_ok kind (sp_kind (ls_spec y)) = false
  | LFail => exists l1 x l2, l = l1 ++ x :: l2 /\ lit_cmp partial key x = Eq /\ kind_ok kind (sp_kind (ls_spec x)) = true /\
      sp_ctx (ls_spec x) = none_ctx /\
      forall y, In y l1 -> lit_cmp partial key y = Eq -> kind_ok kind (sp_kind (ls_spec y)) = false
  end.
Proof.
  induction l as [|x l IH]; intros S G; cbn [lit_scan].
  - split; [reflexivity|]. intros x [].
  - inversion S as [|? ? S' F]; subst. destruct (lit_cmp partial key x) eqn:C.
    + destruct (kind_ok kind (sp_kind (ls_spec x))) eqn:K.
      * destruct (str_eqb (sp_ctx (ls_spec x)) none_ctx) eqn:Z.
        { apply str_eqb_eq in Z. exists [], x, l. repeat split; auto. intros y []. }
        { apply str_eqb_neq in Z. exists [], x, l. repeat split; auto. intros y []. }
      * specialize (IH S' ltac:(intros y I; apply G; right; exact I)). destruct (lit_scan partial false key kind l []) as [|f|acc].
        { destruct IH as (l1 & y & l2 & -> & A & B & D & H). exists (x :: l1), y, l2. repeat split; auto. intros z [<-|I]; auto. }
        { destruct IH as (l1 & y & l2 & -> & A & B & D & D' & H). exists (x :: l1), y, l2. repeat split; auto. intros z [<-|I]; auto. }
        { destruct IH as (-> & H). split; [reflexivity|]. intros z [<-|I]; auto. }
    + exfalso. apply (G x); [left; reflexivity|exact C].
    + split; [reflexivity|]. intros y [<-|I] E; [congruence|]. rewrite Forall_forall in F.
      rewrite (lit_cmp_gt _ _ _ _ (F y I) C) in E. discriminate.
Qed.
Lemma sorted_skipn {A} (R : A -> A -> Prop) l : StronglySorted R l -> forall i, StronglySorted R (skipn i l).
Proof. induction 1 as [|x l S IH F]; intros [|i]; cbn; try (constructor; fail); [constructor; assumption|apply IH]. Qed.
Lemma nth_skipn {A} (l : list A) : forall i x, In x (skipn i l) -> exists j, (i <= j)%nat /\ nth_error l j = Some x.
Proof.
  induction l as [|a l IH]; intros [|i] x I; cbn [skipn] in I; try (destruct I; fail).
  - apply In_nth_error in I as (j & J). exists j. split; [lia|exact J].
  - destruct (IH _ _ I) as (j & J & E). exists (S j). split; [lia|exact E].
Qed.
Lemma in_skipn {A} (l : list A) : forall i j x, (i <= j)%nat -> nth_error l j = Some x -> In x (skipn i l).
Proof.
  induction l as [|a l IH]; intros [|i] [|j] x L E; try discriminate; try lia; cbn in *.
  - left. congruence.
  - right. eapply nth_error_In; exact E.
  - apply (IH i j); [lia|exact E].
Qed.
Definition lit_part (partial find_all : bool) (key : list N) (kind : N) (lits : list lspec) : lres :=
  match search_literal_spec lits partial key with None => LGo [] | Some i => lit_scan partial find_all key kind (skipn i lits) [] end.
Definition lit_hit (partial : bool) (key : list N) (kind : N) (x : lspec) : Prop :=
  lit_cmp partial key x = Eq /\ kinds_meet kind (sp_kind (ls_spec x)).
Lemma lit_part_ok partial key kind A : StronglySorted lit_le A ->
  match lit_part partial false key kind A with
  | LGo acc => acc = [] /\ forall x, In x A -> ~ lit_hit partial key kind x
  | LRet f => exists x, In x A /\ lit_hit partial key kind x /\ f = mkF (ls_spec x) (ls_plen x) false /\ sp_ctx (ls_spec x) <> none_ctx /\
      forall y, In y A -> lit_hit partial key kind y -> lit_le x y \/ y = x
  | LFail => exists x, In x A /\ lit_hit partial key kind x /\ sp_ctx (ls_spec x) = none_ctx /\
      forall y, In y A -> lit_hit partial key kind y -> lit_le x y \/ y = x
  end.
Proof.
  intros S. unfold lit_part. pose proof (search_lit_ok A partial key S) as F. destruct (search_literal_spec A partial key) as [i|]; cbn [lit_found] in F.
  - destruct F as [(x0 & X0 & C0) FB]. pose proof (lit_scan_ok partial key kind (skipn i A) (sorted_skipn _ _ S i)) as L.
    assert (GE : forall x, In x (skipn i A) -> lit_cmp partial key x <> Lt).
    { intros x I. destruct (nth_skipn _ _ _ I) as (j & J & E). destruct (Nat.eq_dec i j) as [<-|D]; [congruence|].
      intros C. pose proof (lit_cmp_lt _ _ _ _ (sorted_nth _ _ S i j _ _ X0 E ltac:(lia)) C). congruence. }
    specialize (L GE).
    assert (INS : forall y, In y A -> lit_cmp partial key y = Eq -> In y (skipn i A)).
    { intros y I E. apply In_nth_error in I as (j & J). apply (in_skipn _ i j); [|exact J].
      destruct (Nat.le_gt_cases i j) as [Q|Q]; [exact Q|]. rewrite (FB j y Q J) in E. discriminate. }
    assert (SUB : forall y, In y (skipn i A) -> In y A).
    { intros y I. destruct (nth_skipn _ _ _ I) as (j & _ & E). eapply nth_error_In; exact E. }
    assert (ORD : forall l1 x l2, skipn i A = l1 ++ x :: l2 -> (forall y, In y l1 -> lit_cmp partial key y = Eq -> kind_ok kind (sp_kind (ls_spec y)) = false) ->
      forall y, In y A -> lit_hit partial key kind y -> lit_le x y \/ y = x).
    { intros l1 x l2 E H y I [C K]. specialize (INS y I C). rewrite E in INS. apply in_app_iff in INS as [J|[J|J]]; [|right; auto|left].
      - apply kind_ok_meet in K. rewrite (H y J C) in K. discriminate.
      - pose proof (sorted_skipn _ _ S i) as SS. rewrite E in SS. clear -SS J. induction l1 as [|a l1 IH]; cbn in SS; inversion SS; subst; auto.
        rewrite Forall_forall in H2. apply H2, J. }
    destruct (lit_scan partial false key kind (skipn i A) []) as [|f|acc].
    + destruct L as (l1 & x & l2 & E & C & K & Z & H). exists x. split; [apply SUB; rewrite E; apply in_app_iff; right; left; reflexivity|].
      split; [split; [exact C|apply kind_ok_meet; exact K]|]. split; [exact Z|]. eapply ORD; eauto.
    + destruct L as (l1 & x & l2 & E & C & K & Z & Z' & H). exists x. split; [apply SUB; rewrite E; apply in_app_iff; right; left; reflexivity|].
      split; [split; [exact C|apply kind_ok_meet; exact K]|]. split; [exact Z|]. split; [exact Z'|]. eapply ORD; eauto.
    + destruct L as (-> & H). split; [reflexivity|]. intros x I [C K]. apply kind_ok_meet in K. rewrite (H x (INS x I C) C) in K. discriminate.
  - split; [reflexivity|]. intros x I [C _]. apply In_nth_error in I as (j & J). exact (F j x J C).
Qed.

(** Going down. *)
Fixpoint walk (ks : list (list N)) (n : node) (above : list node) : list node :=
  match ks with
  | [] => n :: above
  | s :: r => match find_child s (n_children n) with None => n :: above | Some c => walk r c (n :: above) end
  end.
Lemma deepest_walk : forall f p n above, every in_order n -> deepest_loop f p n above = walk (key_stems f p) n above.
Proof.
  induction f as [|f IH]; intros p n above O; [reflexivity|]. cbn [deepest_loop key_stems]. destruct p as [|c t]; [reflexivity|].
  destruct (negb (c =? slash)); [reflexivity|]. destruct (break_slash t) as [[[|x seg] q]|]; try reflexivity.
  cbn [walk]. rewrite search_child_ok by (apply (every_here _ _ O)). destruct (find_child (x :: seg) (n_children n)) as [c'|] eqn:F; [|reflexivity].
  apply IH. eapply every_child; eauto.
Qed.
(** The nodes on the way: those at the prefixes of the directories, as far as they exist. *)
Lemma walk_spec : forall ks n above, exists j ms, (j <= length ks)%nat /\ walk ks n above = rev ms ++ above /\ length ms = S j /\
  (forall i, (i <= j)%nat -> nth_error ms i = node_at (firstn i ks) n) /\ (forall i, (j < i <= length ks)%nat -> node_at (firstn i ks) n = None) /\
  (forall i, (i <= j)%nat -> node_at (firstn i ks) n <> None).
Proof.
  induction ks as [|s ks IH]; intros n above.
  - exists O, [n]. cbn. repeat split; auto.
    + intros i I. replace i with O by lia. reflexivity.
    + intros i I. lia.
    + intros i I. replace i with O by lia. discriminate.
  - cbn [walk]. destruct (find_child s (n_children n)) as [c|] eqn:F.
    + destruct (IH c (n :: above)) as (j & ms & L & W & LM & A & B & D). exists (S j), (n :: ms). cbn [length].
      split; [lia|]. split; [rewrite W; cbn [rev]; rewrite <- app_assoc; reflexivity|]. split; [lia|]. split; [|split].
      * intros [|i] I; [reflexivity|]. cbn [nth_error firstn node_at]. rewrite F. apply A. lia.
      * intros [|i] I; [lia|]. cbn [firstn node_at]. rewrite F. apply B. lia.
      * intros [|i] I; [discriminate|]. cbn [firstn node_at]. rewrite F. apply D. lia.
    + exists O, [n]. cbn [length]. split; [lia|]. split; [reflexivity|]. split; [reflexivity|]. split; [|split].
      * intros i I. replace i with O by lia. reflexivity.
      * intros [|i] I; [lia|]. cbn [firstn node_at]. rewrite F. reflexivity.
      * intros i I. replace i with O by lia. discriminate.
Qed.

(** ** Expressions *)
Definition fits (E : engine) (key : list N) (kind : N) (s : spec) : Prop := kinds_meet kind (sp_kind s) /\ E (sp_regex s) key false = RxMatch.
Definition ordered (l : list spec) : Prop := StronglySorted (fun a b => older a b = true) l.
Definition newest (E : engine) (key : list N) (kind : N) (P : spec -> Prop) (x : spec) : Prop :=
  P x /\ fits E key kind x /\ forall y, P y -> fits E key kind y -> y = x \/ older y x = true.
Lemma reg_scan_ok E key kind : forall l child acc,
  StronglySorted (fun a b => older (rs_spec b) (rs_spec a) = true) l ->
  (forall x, In x l -> kinds_meet kind (sp_kind (rs_spec x)) -> decided E (sp_regex (rs_spec x)) key) ->
  match reg_scan E false false key kind l child acc with
  | GFail => exists x, newest E key kind (fun s => In s (map rs_spec l)) x /\ sp_ctx x = none_ctx
  | GGo child' acc' => acc' = acc /\
     (child' = child /\ (forall x, In x (map rs_spec l) -> fits E key kind x -> exists c, child = Some c /\ older x (f_spec c) = true) \/
      exists x, child' = Some (mkF (rs_spec x) (rs_plen x) true) /\ In x l /\ newest E key kind (fun s => In s (map rs_spec l)) (rs_spec x) /\ sp_ctx (rs_spec x) <> none_ctx /\
        match child with Some c => older (rs_spec x) (f_spec c) = false | None => True end)
  end.
Proof.
  assert (OT : forall a b c, older a b = true -> older b c = true -> older a c = true).
  { intros a b c. unfold older. rewrite !Bool.orb_true_iff, !Bool.andb_true_iff, !N.ltb_lt, !N.eqb_eq. lia. }
  induction l as [|x l IH]; intros child acc S D; cbn [reg_scan].
  - split; [reflexivity|]. left. split; [reflexivity|]. intros x [].
  - inversion S as [|? ? S' F]; subst. rewrite Forall_forall in F. specialize (IH child acc S' ltac:(intros y I; apply D; right; exact I)).
    assert (SKIP : ~ fits E key kind (rs_spec x) ->
      (match child with Some c => older (rs_spec x) (f_spec c) | None => false end) = false ->
      match reg_scan E false false key kind l child acc with
      | GFail => exists x', newest E key kind (fun s => In s (map rs_spec (x :: l))) x' /\ sp_ctx x' = none_ctx
      | GGo child' acc' => acc' = acc /\
         (child' = child /\ (forall x', In x' (map rs_spec (x :: l)) -> fits E key kind x' -> exists c, child = Some c /\ older x' (f_spec c) = true) \/
          exists x', child' = Some (mkF (rs_spec x') (rs_plen x') true) /\ In x' (x :: l) /\ newest E key kind (fun s => In s (map rs_spec (x :: l))) (rs_spec x') /\
            sp_ctx (rs_spec x') <> none_ctx /\ match child with Some c => older (rs_spec x') (f_spec c) = false | None => True end)
      end).
    { intros NA _. assert (LIFT : forall z, newest E key kind (fun s => In s (map rs_spec l)) z -> newest E key kind (fun s => In s (map rs_spec (x :: l))) z).
      { intros z (A & B & C). split; [right; exact A|]. split; [exact B|]. intros y [<-|I] Y; [contradiction|]. apply C; assumption. }
      destruct (reg_scan E false false key kind l child acc) as [|child' acc'].
      - destruct IH as (z & Z & ZZ). exists z. split; [apply LIFT; exact Z|exact ZZ].
      - destruct IH as (-> & H). split; [reflexivity|]. destruct H as [(-> & H)|(z & -> & A & B & C)].
        + left. split; [reflexivity|]. intros y [<-|I] Y; [contradiction|]. apply H; assumption.
        + right. exists z. split; [reflexivity|]. split; [right; exact A|]. split; [apply LIFT; exact B|exact C]. }
    destruct (match child with Some c => older (rs_spec x) (f_spec c) | None => false end) eqn:OC.
    + destruct child as [c|]; [|discriminate]. split; [reflexivity|]. left. split; [reflexivity|].
      intros y [<-|I] Y; exists c; (split; [reflexivity|]); [exact OC|]. apply in_map_iff in I as (z & <- & I).
      eapply OT; [apply F; exact I|exact OC].
    + destruct (kind_ok kind (sp_kind (rs_spec x))) eqn:K; cbn [negb].
      * assert (DX := D x (or_introl eq_refl) (proj1 (kind_ok_meet _ _) K)).
        destruct DX as [DX|DX]; rewrite DX.
        { assert (NW : newest E key kind (fun s => In s (map rs_spec (x :: l))) (rs_spec x)).
          { split; [left; reflexivity|]. split; [split; [apply kind_ok_meet; exact K|exact DX]|].
            intros y [<-|I] Y; [left; reflexivity|]. right. apply in_map_iff in I as (z & <- & I). apply F; exact I. }
          destruct (str_eqb (sp_ctx (rs_spec x)) none_ctx) eqn:Z.
          - apply str_eqb_eq in Z. exists (rs_spec x). split; [exact NW|exact Z].
          - apply str_eqb_neq in Z. split; [reflexivity|]. right. exists x. split; [reflexivity|]. split; [left; reflexivity|].
            split; [exact NW|]. split; [exact Z|]. destruct child; [exact OC|exact Coq.Init.Logic.I]. }
        { apply SKIP; [|reflexivity]. intros [_ Q]. congruence. }
      * apply SKIP; [|reflexivity]. intros [Q _]. apply kind_ok_meet in Q. congruence.
Qed.

Definition child_inv (E : engine) (key : list N) (kind : N) (P : spec -> Prop) (child : option found) : Prop :=
  match child with
  | None => forall y, P y -> ~ fits E key kind y
  | Some f => newest E key kind P (f_spec f) /\ f_meta f = true /\ sp_ctx (f_spec f) <> none_ctx /\ f_plen f = snd (regex_has_meta_chars (sp_regex (f_spec f)))
  end.
Definition regs_of (chain : list node) (s : spec) : Prop := exists n, In n chain /\ In s (map rs_spec (n_regs n)).
Lemma rev_sorted (l : list rspec) : ordered (map rs_spec l) -> StronglySorted (fun a b => older (rs_spec b) (rs_spec a) = true) (rev l).
Proof.
  unfold ordered. induction l as [|x l IH]; cbn [map rev]; intros S; [constructor|]. inversion S as [|? ? S' F]; subst. specialize (IH S').
  rewrite Forall_forall in F.
  assert (H : forall y, In y (rev l) -> older (rs_spec x) (rs_spec y) = true) by (intros y I; apply F, in_map, in_rev, I).
  clear -IH H. induction (rev l) as [|y m IHm]; cbn; [constructor; constructor|]. inversion IH as [|? ? S' F]; subst. constructor.
  - apply IHm; [exact S'|]. intros z I. apply H. right; exact I.
  - apply Forall_app. split; [exact F|]. constructor; [apply H; left; reflexivity|constructor].
Qed.
Lemma regs_up_ok E key kind L : ordered L -> forall chain child acc (P : spec -> Prop),
  (forall n, In n chain -> ordered (map rs_spec (n_regs n))) ->
  (forall n x, In n chain -> In x (n_regs n) -> rs_plen x = snd (regex_has_meta_chars (sp_regex (rs_spec x)))) ->
  (forall s, regs_of chain s -> In s L) -> (forall s, P s -> In s L) ->
  (forall s, regs_of chain s -> kinds_meet kind (sp_kind s) -> decided E (sp_regex s) key) ->
  child_inv E key kind P child ->
  match regs_up E false false key kind chain child acc with
  | GFail => exists x, regs_of chain x /\ fits E key kind x /\ sp_ctx x = none_ctx
  | GGo child' acc' => acc' = acc /\ child_inv E key kind (fun s => P s \/ regs_of chain s) child'
  end.
Proof.
  intros OL. assert (TOT : forall a b, In a L -> In b L -> a = b \/ older a b = true \/ older b a = true).
  { clear -OL. unfold ordered in OL. induction OL as [|x l S IH F]; intros a b A B; [destruct A|]. rewrite Forall_forall in F.
    destruct A as [<-|A], B as [<-|B]; auto. }
  induction chain as [|n up IH]; intros child acc P ON PL IL IP DE CI; cbn [regs_up].
  - split; [reflexivity|]. destruct child as [f|]; cbn [child_inv] in *.
    + destruct CI as ((A & B & C) & R). split; [|exact R]. split; [left; exact A|]. split; [exact B|].
      intros y [Y|(n & [] & _)]. apply C; exact Y.
    + intros y [Y|(n & [] & _)]. apply CI; exact Y.
  - assert (RN : forall s, In s (map rs_spec (n_regs n)) -> regs_of (n :: up) s) by (intros s I; exists n; split; [left; reflexivity|exact I]).
    assert (RU : forall s, regs_of up s -> regs_of (n :: up) s) by (intros s (m & I & J); exists m; split; [right; exact I|exact J]).
    pose proof (reg_scan_ok E key kind (rev (n_regs n)) child acc (rev_sorted _ (ON n (or_introl eq_refl)))) as RS.
    assert (MR : forall s, In s (map rs_spec (rev (n_regs n))) <-> In s (map rs_spec (n_regs n))).
    { intros s. rewrite map_rev. symmetry. apply in_rev. }
    assert (D1 : forall x, In x (rev (n_regs n)) -> kinds_meet kind (sp_kind (rs_spec x)) -> decided E (sp_regex (rs_spec x)) key).
    { intros x I. apply DE, RN, in_map, in_rev, I. }
    specialize (RS D1). destruct (reg_scan E false false key kind (rev (n_regs n)) child acc) as [|child' acc'].
    + destruct RS as (x & (A & B & _) & Z). exists x. split; [apply RN, MR, A|]. split; assumption.
    + destruct RS as (-> & RS).
      assert (CI' : child_inv E key kind (fun s => P s \/ In s (map rs_spec (n_regs n))) child').
      { destruct RS as [(-> & OLD)|(x & -> & IX & (NX & AX & MX) & ZX & CX)].
        - destruct child as [f|]; cbn [child_inv] in *.
          + destruct CI as ((A & B & C) & R). split; [|exact R]. split; [left; exact A|]. split; [exact B|].
            intros y [Y|Y] AY; [apply C; assumption|]. right. apply MR in Y. destruct (OLD y Y AY) as (c & [= <-] & O). exact O.
          + intros y [Y|Y] AY; [exact (CI y Y AY)|]. apply MR in Y. destruct (OLD y Y AY) as (c & Q & _). discriminate.
        - cbn [child_inv f_spec f_meta f_plen]. assert (XN : In (rs_spec x) (map rs_spec (n_regs n))) by (apply MR; exact NX).
          split; [|split; [reflexivity|split; [exact ZX|]]].
          2: { apply (PL n); [left; reflexivity|apply in_rev; exact IX]. }
          split; [right; exact XN|]. split; [exact AX|]. intros y [Y|Y] AY.
          + destruct child as [f|]; cbn [child_inv] in CI.
            * destruct CI as ((A & B & C) & R). specialize (C y Y AY).
              assert (FX : f_spec f = rs_spec x \/ older (f_spec f) (rs_spec x) = true).
              { destruct (TOT (f_spec f) (rs_spec x) (IP _ A) (IL _ (RN _ XN))) as [Q|[Q|Q]]; [left; exact Q|right; exact Q|congruence]. }
              destruct C as [->|C]; [exact FX|]. right. destruct FX as [<-|FX]; [exact C|].
              clear -C FX. revert C FX. unfold older. rewrite !Bool.orb_true_iff, !Bool.andb_true_iff, !N.ltb_lt, !N.eqb_eq. lia.
            * exfalso. exact (CI y Y AY).
          + apply MX; [apply MR; exact Y|exact AY]. }
      specialize (IH child' acc (fun s => P s \/ In s (map rs_spec (n_regs n)))
        ltac:(intros m I; apply ON; right; exact I) ltac:(intros m x I; apply (PL m); right; exact I)
        ltac:(intros s R; apply IL, RU, R) ltac:(intros s [Q|Q]; [apply IP, Q|apply IL, RN, Q])
        ltac:(intros s R; apply DE, RU, R) CI').
      destruct (regs_up E false false key kind up child' acc) as [|child'' acc''].
      * destruct IH as (x & R & A & Z). exists x. split; [apply RU, R|]. split; assumption.
      * destruct IH as (-> & C). split; [reflexivity|].
        assert (EQ : forall s, ((P s \/ In s (map rs_spec (n_regs n))) \/ regs_of up s) <-> (P s \/ regs_of (n :: up) s)).
        { intros s. split.
          - intros [[Q|Q]|Q]; [left; exact Q|right; apply RN, Q|right; apply RU, Q].
          - intros [Q|(m & [<-|I] & J)]; [left; left; exact Q|left; right; exact J|right; exists m; split; assumption]. }
        destruct child'' as [f|]; cbn [child_inv] in *.
        { destruct C as ((A & B & C) & R). split; [|exact R]. split; [apply EQ; exact A|]. split; [exact B|]. intros y Y. apply C, EQ, Y. }
        { intros y Y. apply C, EQ, Y. }
Qed.

(** ** Order of the input *)
Lemma file_specs_numbered_gen inputno : forall lines k, N.of_nat (k + length lines) <= W32 ->
  concat (map (fun p => match snd p with Some (r, kd, c) => [mkSpec r kd c inputno (wrap32 (N.of_nat (fst p)))] | None => [] end)
    (combine (seq k (length lines)) lines)) = numbered inputno (N.of_nat k) lines.
Proof.
  induction lines as [|x lines IH]; intros k L; [reflexivity|]. cbn [length seq combine map concat fst snd numbered].
  cbn [length] in L. rewrite IH by (replace (S k + length lines)%nat with (k + S (length lines))%nat by lia; exact L).
  replace (N.of_nat (S k)) with (N.of_nat k + 1) by lia.
  destruct x as [[[r kd] c]|]; [|reflexivity]. cbn [app]. f_equal. f_equal. apply wrap32_small. lia.
Qed.
Lemma file_specs_numbered inputno lines : short lines -> file_specs inputno lines = numbered inputno 1 lines.
Proof.
  intros S. unfold file_specs. rewrite file_specs_numbered_gen; [reflexivity|]. unfold short in S. change W32 with (2 ^ 32).
  lia.
Qed.
Lemma numbered_in inputno : forall lines k s, In s (numbered inputno k lines) -> sp_in s = inputno /\ k <= sp_line s.
Proof.
  induction lines as [|[[[r kd] c]|] lines IH]; intros k s I; cbn [numbered] in I; [destruct I| |].
  - destruct I as [<-|I]; [cbn; lia|]. apply IH in I. lia.
  - apply IH in I. lia.
Qed.
Lemma numbered_ordered inputno : forall lines k, ordered (numbered inputno k lines).
Proof.
  unfold ordered. induction lines as [|[[[r kd] c]|] lines IH]; intros k; cbn [numbered]; [constructor| |apply IH].
  constructor; [apply IH|]. apply Forall_forall. intros s I. apply numbered_in in I. unfold older. cbn [sp_in sp_line].
  rewrite Bool.orb_true_iff, Bool.andb_true_iff, N.eqb_eq, N.ltb_lt, N.ltb_lt. lia.
Qed.
Lemma ordered_app a b : ordered a -> ordered b -> (forall x y, In x a -> In y b -> older x y = true) -> ordered (a ++ b).
Proof.
  unfold ordered. induction 1 as [|x l S IH F]; intros B H; cbn [app]; [exact B|]. constructor.
  - apply IH; [exact B|]. intros; apply H; [right|]; assumption.
  - apply Forall_app. split; [exact F|]. apply Forall_forall. intros y I. apply H; [left; reflexivity|exact I].
Qed.
Lemma all_ordered baseonly base homedirs local : ordered (all_specs baseonly base homedirs local).
Proof.
  unfold all_specs. apply ordered_app; [apply numbered_ordered| |].
  - destruct baseonly; [constructor|]. apply ordered_app; try apply numbered_ordered. intros x y X Y. apply numbered_in in X, Y.
    unfold older. rewrite Bool.orb_true_iff, N.ltb_lt. lia.
  - intros x y X Y. apply numbered_in in X. assert (0 < sp_in y).
    { destruct baseonly; [destruct Y|]. apply in_app_iff in Y as [Y|Y]; apply numbered_in in Y; lia. }
    unfold older. rewrite Bool.orb_true_iff, N.ltb_lt. lia.
Qed.
Lemma ordered_filter f l : ordered l -> ordered (filter f l).
Proof.
  unfold ordered. induction 1 as [|x l S IH F]; cbn; [constructor|]. destruct (f x); [|exact IH]. constructor; [exact IH|].
  rewrite Forall_forall in *. intros y I. apply filter_In in I as [I _]. apply F, I.
Qed.

(** ** The opened database *)
Lemma init_holds qs prefix validating baseonly subs dist base homedirs local D :
  sorts qs -> short base -> short homedirs -> short local ->
  init qs prefix validating baseonly subs dist base homedirs local = Some D ->
  holds prefix (all_specs baseonly base homedirs local) (d_root D) /\ every in_order (d_root D) /\ d_subs D = subs /\ d_dist D = dist /\
  (d_num D = 0 -> forall s, In s (all_specs baseonly base homedirs local) -> kept_reg prefix s = false /\ kept_lit prefix s = false).
Proof.
  intros Q SB SH SL I. unfold init in I. rewrite !file_specs_numbered in I by assumption. unfold all_specs.
  destruct (insert_all prefix (numbered 0 1 base) empty_node 0) as [[t0 n0]|] eqn:E0; [|discriminate].
  pose proof (insert_all_holds _ _ [] _ _ _ _ (holds_empty prefix) E0) as H0. cbn [app] in H0.
  destruct (insert_all_num _ _ _ _ _ _ E0) as [_ N0].
  set (t1 := if validating then sort_spec_node qs t0 else t0) in *.
  assert (H1 : holds prefix (numbered 0 1 base) t1) by (unfold t1; destruct validating; [apply sort_holds; assumption|exact H0]).
  destruct (validating && negb (nodups_spec_node t1)); [discriminate|].
  destruct baseonly.
  - injection I as <-. cbn [d_root d_subs d_dist d_num]. rewrite app_nil_r.
    assert (X : holds prefix (numbered 0 1 base) (if negb validating || negb true then sort_spec_node qs t1 else t1) /\
      every in_order (if negb validating || negb true then sort_spec_node qs t1 else t1)).
    { destruct validating; cbn [negb orb].
      - split; [exact H1|]. unfold t1. apply sort_in_order; [exact Q|apply (h_dist _ _ _ H0)].
      - split; [apply sort_holds; assumption|]. apply sort_in_order; [exact Q|apply (h_dist _ _ _ H1)]. }
    destruct X as [X Y]. split; [exact X|]. split; [exact Y|]. split; [reflexivity|]. split; [reflexivity|]. exact N0.
  - destruct (insert_all prefix (numbered 1 1 homedirs) t1 n0) as [[t2 n2]|] eqn:E2; [|discriminate].
    pose proof (insert_all_holds _ _ _ _ _ _ _ H1 E2) as H2. destruct (insert_all_num _ _ _ _ _ _ E2) as [L2 N2].
    destruct (insert_all prefix (numbered 2 1 local) t2 n2) as [[t3 n3]|] eqn:E3; [|discriminate].
    pose proof (insert_all_holds _ _ _ _ _ _ _ H2 E3) as H3. destruct (insert_all_num _ _ _ _ _ _ E3) as [L3 N3].
    injection I as <-. cbn [d_root d_subs d_dist d_num]. rewrite Bool.orb_true_r.
    replace (numbered 0 1 base ++ numbered 1 1 homedirs ++ numbered 2 1 local) with ((numbered 0 1 base ++ numbered 1 1 homedirs) ++ numbered 2 1 local)
      by (rewrite <- app_assoc; reflexivity).
    split; [apply sort_holds; assumption|]. split; [apply sort_in_order; [exact Q|apply (h_dist _ _ _ H3)]|].
    split; [reflexivity|]. split; [reflexivity|].
    intros Z s J. apply in_app_iff in J as [J|J]; [apply in_app_iff in J as [J|J]|].
    + apply N0; [lia|exact J].
    + apply N2; [lia|exact J].
    + apply N3; [lia|exact J].
Qed.

(** ** Lookup *)
Lemma subset_first prefix key st ks : in_subset prefix key -> kst key = st :: ks -> match prefix with Some p => st = p | None => True end.
Proof.
  destruct prefix as [p|]; [|auto]. intros (NS & [->|(r & ->)]); unfold kst.
  - cbn [length key_stems]. change (negb (47 =? slash)) with false. cbv iota. rewrite (proj2 (break_none p) NS). discriminate.
  - cbn [length key_stems]. change (negb (47 =? slash)) with false. cbv iota. rewrite (break_app p r NS). destruct p; [discriminate|]. intros [= <- _]. reflexivity.
Qed.
Lemma subset_keeps meta prefix key stems : in_subset prefix key -> stems = firstn (length stems) (kst key) -> subset_skips meta prefix stems = false.
Proof.
  intros S F. unfold subset_skips. destruct prefix as [p|]; [|reflexivity]. destruct stems as [|st stems]; [reflexivity|].
  destruct (kst key) as [|k ks] eqn:K; [discriminate|]. cbn [length firstn] in F. injection F as -> _.
  pose proof (subset_first _ _ _ _ S K) as ->. destruct meta; [rewrite str_eqb_refl; reflexivity|].
  rewrite (proj2 (sncmp_eq_prefix p p)); [reflexivity|]. exists []. rewrite app_nil_r. reflexivity.
Qed.
Lemma firstn_self {A} n (l : list A) : firstn n l = firstn (length (firstn n l)) l.
Proof. revert l; induction n as [|n IH]; intros [|x l]; cbn; try reflexivity. f_equal. apply IH. Qed.
Lemma literal_stems_kst key : single key -> literal_stems key = firstn 3 (kst key).
Proof. intros S. unfold literal_stems, max_depth, kst. apply literal_stems_key; [lia|exact S]. Qed.
Lemma on_way_len prefix l p : on_way prefix l p -> (length p <= 3)%nat.
Proof.
  intros (s & _ & [(_ & r & E)|(_ & r & E)]).
  - pose proof (regex_stems_len (length (sp_regex s)) max_depth (sp_regex s)) as L. fold (regex_stems (sp_regex s)) in L. rewrite E, app_length in L. unfold max_depth in L. lia.
  - assert (L : forall f d p, (length (literal_stems_loop f d p) <= d)%nat).
    { induction f as [|f IH]; intros d q; cbn [literal_stems_loop]; [cbn; lia|]. destruct d as [|d]; [cbn; lia|].
      destruct q as [|c t]; [cbn; lia|]. destruct (negb (c =? slash)); [cbn; lia|].
      destruct (break_slash t) as [[[|x seg] q]|]; [apply IH| |cbn; lia]. cbn [length]. specialize (IH d q). lia. }
    specialize (L (length (lit_of s)) max_depth (lit_of s)). fold (literal_stems (lit_of s)) in L. rewrite E, app_length in L. unfold max_depth in L. lia.
Qed.
Lemma prefix_of_refl {A} (p : list A) : prefix_of p p.
Proof. exists []. rewrite app_nil_r. reflexivity. Qed.
Lemma label_some s : sp_ctx s <> none_ctx -> label s = Some s.
Proof. unfold label, none_ctx. intros H. destruct (list_eq_dec N.eq_dec (sp_ctx s) _); [contradiction|reflexivity]. Qed.
Lemma label_none s : sp_ctx s = none_ctx -> label s = None.
Proof. unfold label, none_ctx. intros H. destruct (list_eq_dec N.eq_dec (sp_ctx s) _); [reflexivity|contradiction]. Qed.
Lemma older_irrefl s : older s s = false.
Proof. unfold older. rewrite !N.ltb_irrefl. rewrite andb_false_r. reflexivity. Qed.
Lemma ordered_last l1 s l2 y : ordered (l1 ++ s :: l2) -> In y l2 -> older s y = true.
Proof.
  unfold ordered. induction l1 as [|x l1 IH]; cbn [app]; intros O I; inversion O as [|? ? S F]; subst; [|apply IH; assumption].
  rewrite Forall_forall in F. apply F, I.
Qed.
Lemma older_asym a b : older a b = true -> older b a = false.
Proof.
  unfold older. rewrite Bool.orb_true_iff, Bool.andb_true_iff, Bool.orb_false_iff, Bool.andb_false_iff, !N.ltb_lt, !N.ltb_ge, !N.eqb_eq, N.eqb_neq. lia.
Qed.
Lemma lits_in_spec prefix l p x : In x (lits_in prefix l p) <-> exists s, In s l /\ x = to_l s /\ kept_lit prefix s = true /\ literal_stems (lit_of s) = p.
Proof.
  unfold lits_in. rewrite in_map_iff. split.
  - intros (s & <- & I). apply filter_In in I as [I F]. apply andb_true_iff in F as [F G]. apply path_eqb_eq in G. eauto.
  - intros (s & I & -> & F & G). exists s. split; [reflexivity|]. apply filter_In. split; [exact I|]. rewrite F, (proj2 (path_eqb_eq _ _) G). reflexivity.
Qed.
Lemma regs_in_spec prefix l p x : In x (regs_in prefix l p) <-> exists s, In s l /\ x = to_r s /\ kept_reg prefix s = true /\ regex_stems (sp_regex s) = p.
Proof.
  unfold regs_in. rewrite in_map_iff. split.
  - intros (s & <- & I). apply filter_In in I as [I F]. apply andb_true_iff in F as [F G]. apply path_eqb_eq in G. eauto.
  - intros (s & I & -> & F & G). exists s. split; [reflexivity|]. apply filter_In. split; [exact I|]. rewrite F, (proj2 (path_eqb_eq _ _) G). reflexivity.
Qed.
Lemma regs_in_ordered prefix l p : ordered l -> ordered (map rs_spec (regs_in prefix l p)).
Proof.
  intros O. unfold regs_in. rewrite map_map. cbn [to_r rs_spec]. rewrite map_id. apply ordered_filter, O.
Qed.
Lemma kept_reg_meta prefix s : kept_reg prefix s = true -> ~ literal (sp_regex s).
Proof. unfold kept_reg. intros K L. apply has_meta_literal in L. rewrite L in K. discriminate. Qed.
Lemma kept_lit_Lit prefix s : kept_lit prefix s = true -> Lit (sp_regex s) (lit_of s).
Proof.
  unfold kept_lit, lit_of. intros K. apply andb_true_iff in K as [K _]. destruct (regex_has_meta_chars (sp_regex s)) as [b n] eqn:M.
  pose proof (has_meta_simplify _ _ _ M) as H. cbn [fst] in K. destruct (regex_simplify (sp_regex s)) eqn:S; [apply simplify_lit; exact S|]. subst. discriminate.
Qed.

Section chain.
Context (E : engine) (prefix : option (list N)) (l : list spec) (root : node) (key : list N) (kind : N).
Context (H : holds prefix l root) (O : every in_order root) (OL : ordered l).

Lemma chain_spec : exists j ms, lookup_find_deepest_node root key = rev ms /\ length ms = S j /\ (j <= length (kst key))%nat /\
  (forall i m, nth_error ms i = Some m -> (i <= j)%nat /\ node_at (firstn i (kst key)) root = Some m) /\
  (forall i, (i <= length (kst key))%nat -> node_at (firstn i (kst key)) root <> None -> (i <= j)%nat) /\
  (forall i, (i <= j)%nat -> exists m, nth_error ms i = Some m /\ node_at (firstn i (kst key)) root = Some m).
Proof.
  unfold lookup_find_deepest_node. rewrite (deepest_walk _ _ _ _ O). fold (kst key).
  destruct (walk_spec (kst key) root []) as (j & ms & L & W & LM & A & B & D). exists j, ms. rewrite W, app_nil_r.
  split; [reflexivity|]. split; [exact LM|]. split; [exact L|]. split; [|split].
  - intros i m X. assert (Q : (i < length ms)%nat) by (apply nth_error_Some; congruence). split; [lia|]. rewrite <- A by lia. exact X.
  - intros i I X. destruct (Nat.le_gt_cases i j) as [Q|Q]; [exact Q|]. exfalso. apply X, B. lia.
  - intros i I. destruct (node_at (firstn i (kst key)) root) as [m|] eqn:F; [|exfalso; exact (D i I F)]. exists m. split; [|reflexivity]. rewrite A by lia. exact F.
Qed.
Lemma chain_regs n : In n (lookup_find_deepest_node root key) -> exists p, n_regs n = regs_in prefix l p /\ Permutation (n_lits n) (lits_in prefix l p) /\ StronglySorted lit_le (n_lits n).
Proof.
  destruct chain_spec as (j & ms & -> & _ & _ & A & _ & _). intros I. apply in_rev in I. apply In_nth_error in I as (i & I).
  destruct (A i n I) as [_ F]. exists (firstn i (kst key)). pose proof (h_regs _ _ _ H (firstn i (kst key))) as R. rewrite F in R. cbn [here] in R.
  pose proof (h_lits _ _ _ H (firstn i (kst key))) as R'. rewrite F in R'. cbn [here] in R'. split; [exact R|]. split; [exact R'|]. apply (O _ _ F).
Qed.
Lemma chain_has_reg s : In s l -> kept_reg prefix s = true -> regex_stems (sp_regex s) = firstn (length (regex_stems (sp_regex s))) (kst key) ->
  regs_of (lookup_find_deepest_node root key) s.
Proof.
  intros I K F. destruct chain_spec as (j & ms & -> & _ & _ & A & B & D). set (i := length (regex_stems (sp_regex s))) in *.
  assert (LI : (i <= length (kst key))%nat).
  { apply (f_equal (@length (list N))) in F. fold i in F. rewrite firstn_length in F. lia. }
  destruct (D i) as (m & M & N).
  { apply B; [exact LI|]. rewrite <- F. apply (h_node _ _ _ H). right. exists s. split; [exact I|]. left. split; [exact K|apply prefix_of_refl]. }
  exists m. split; [apply in_rev; rewrite rev_involutive; eapply nth_error_In; exact M|].
  pose proof (h_regs _ _ _ H (firstn i (kst key))) as R. rewrite N in R. cbn [here] in R. rewrite R. apply in_map_iff. exists (to_r s). split; [reflexivity|].
  apply regs_in_spec. exists s. split; [exact I|]. split; [reflexivity|]. split; [exact K|exact F].
Qed.
Definition top_lits : list lspec := match lookup_find_deepest_node root key with n :: _ => n_lits n | [] => [] end.
Lemma top_sorted : StronglySorted lit_le top_lits /\ forall x, In x top_lits -> exists s, In s l /\ x = to_l s /\ kept_lit prefix s = true.
Proof.
  unfold top_lits. destruct (lookup_find_deepest_node root key) as [|n r] eqn:C; [split; [constructor|intros x []]|].
  destruct (chain_regs n) as (p & _ & P & S); [rewrite C; left; reflexivity|]. split; [exact S|].
  intros x I. apply (Permutation_in _ P), lits_in_spec in I as (s & A & B & K & _). eauto.
Qed.
Lemma top_has_lit s : single key -> In s l -> kept_lit prefix s = true -> lit_of s = key -> In (to_l s) top_lits.
Proof.
  intros SG I K LK. unfold top_lits. destruct chain_spec as (j & ms & C & LM & LJ & A & B & D). rewrite C.
  pose proof (literal_stems_kst key SG) as LS. rewrite <- LK in LS at 1. set (i := length (firstn 3 (kst key))).
  assert (FI : firstn 3 (kst key) = firstn i (kst key)) by apply firstn_self.
  assert (LI : (i <= length (kst key))%nat) by (unfold i; rewrite firstn_length; lia).
  assert (IJ : (i <= j)%nat).
  { apply B; [exact LI|]. rewrite <- FI, <- LS. apply (h_node _ _ _ H). right. exists s. split; [exact I|]. right. split; [exact K|apply prefix_of_refl]. }
  destruct (D j (le_n j)) as (m & M & NA).
  assert (J3 : (j <= 3)%nat).
  { assert (X : node_at (firstn j (kst key)) root <> None) by congruence. apply (h_node _ _ _ H) in X. destruct X as [X|X].
    - apply (f_equal (@length (list N))) in X. rewrite firstn_length in X. cbn in X. lia.
    - apply on_way_len in X. rewrite firstn_length in X. lia. }
  assert (JE : firstn j (kst key) = firstn 3 (kst key)).
  { rewrite FI. f_equal. unfold i in *. rewrite firstn_length in *. lia. }
  assert (HD : exists r, rev ms = m :: r).
  { assert (NE : ms <> []) by (intros ->; discriminate). destruct (exists_last NE) as (ms' & a & ->). rewrite rev_app_distr. cbn. rewrite app_length in LM. cbn in LM.
    rewrite nth_error_app2 in M by lia. replace (j - length ms')%nat with 0%nat in M by lia. injection M as ->. eauto. }
  destruct HD as (r & ->). apply (@Permutation_in _ (lits_in prefix l (firstn j (kst key))) (n_lits m) (to_l s)).
  - pose proof (h_lits _ _ _ H (firstn j (kst key))) as R. rewrite NA in R. apply Permutation_sym. exact R.
  - apply lits_in_spec. exists s. split; [exact I|]. split; [reflexivity|]. split; [exact K|]. rewrite JE. exact LS.
Qed.
End chain.

Lemma check_node_parts E chain key kind partial find_all : lookup_check_node E chain key kind partial find_all =
  match lit_part partial find_all key kind (match chain with n :: _ => n_lits n | [] => [] end) with
  | LFail => []
  | LRet r => [r]
  | LGo acc => match regs_up E partial find_all key kind chain None acc with GFail => [] | GGo (Some c) _ => [c] | GGo None acc' => acc' end
  end.
Proof. reflexivity. Qed.

Lemma tree_flat E prefix l root key kind :
  holds prefix l root -> every in_order root -> ordered l -> single key -> in_subset prefix key ->
  (forall s, In s l -> ~ literal (sp_regex s) -> kinds_meet kind (sp_kind s) -> decided E (sp_regex s) key /\ honest E (sp_regex s) key) ->
  none_last E l key kind ->
  Flat E l key kind (option_map f_spec (hd_error (lookup_check_node E (lookup_find_deepest_node root key) key kind false false))).
Proof.
  intros H O OL SG SUB DH NL. rewrite check_node_parts. fold (top_lits root key).
  destruct (top_sorted prefix l root key H O) as [TS TL]. pose proof (lit_part_ok false key kind _ TS) as LP.
  assert (KEEP : forall s, In s l -> lit_applies key kind s -> In (to_l s) (top_lits root key) /\ lit_hit false key kind (to_l s)).
  { intros s I [K L]. assert (LO : lit_of s = key) by (unfold lit_of; apply simplify_lit in L; rewrite L; reflexivity).
    assert (KL : kept_lit prefix s = true).
    { unfold kept_lit. rewrite (proj2 (has_meta_literal (sp_regex s)) (ex_intro _ key L)), LO, (literal_stems_kst key SG).
      rewrite (subset_keeps false prefix key); [reflexivity|exact SUB|apply firstn_self]. }
    split; [apply (top_has_lit prefix l); assumption|]. split; [|exact K]. cbn [lit_cmp to_l ls_match]. rewrite LO. apply scmp_refl. }
  assert (BACK : forall x, In x (top_lits root key) -> lit_hit false key kind x -> In (ls_spec x) l /\ lit_applies key kind (ls_spec x) /\ x = to_l (ls_spec x)).
  { intros x I [C K]. destruct (TL x I) as (s & S & -> & KL). cbn [to_l ls_spec] in *. split; [exact S|]. split; [|reflexivity].
    split; [exact K|]. cbn [lit_cmp ls_match] in C. apply scmp_eq in C. rewrite <- C. eapply kept_lit_Lit; exact KL. }
  assert (MAX : forall x, In x (top_lits root key) -> lit_hit false key kind x ->
    (forall y, In y (top_lits root key) -> lit_hit false key kind y -> lit_le x y \/ y = x) ->
    forall s', In s' l -> lit_applies key kind s' -> sp_kind s' <= sp_kind (ls_spec x)).
  { intros x I HX M s' I' A'. destruct (KEEP s' I' A') as [Y HY]. destruct (M _ Y HY) as [[_ Q]|Q].
    - apply Q. destruct HX as [CX _], HY as [CY _]. cbn [lit_cmp] in CX, CY. apply scmp_eq in CX, CY. congruence.
    - rewrite <- Q. cbn [to_l ls_spec]. lia. }
  destruct (lit_part false false key kind (top_lits root key)) as [|f|acc].
  - destruct LP as (x & I & HX & Z & M). destruct (BACK x I HX) as (A & B & _). cbn [hd_error option_map].
    rewrite <- (label_none _ Z). apply Flat_lit; [exact A|exact B|]. apply (MAX x); assumption.
  - destruct LP as (x & I & HX & -> & Z & M). destruct (BACK x I HX) as (A & B & _). cbn [hd_error option_map f_spec].
    rewrite <- (label_some _ Z). apply Flat_lit; [exact A|exact B|]. apply (MAX x); assumption.
  - destruct LP as [-> NH].
    assert (NOLIT : forall s', In s' l -> ~ lit_applies key kind s').
    { intros s' I A. destruct (KEEP s' I A) as [Y HY]. exact (NH _ Y HY). }
    set (chain := lookup_find_deepest_node root key).
    assert (RL : forall s, regs_of chain s -> In s l /\ kept_reg prefix s = true).
    { intros s (n & I & J). destruct (chain_regs prefix l root key H O n I) as (p & R & _). rewrite R in J. apply in_map_iff in J as (x & <- & J).
      apply regs_in_spec in J as (s & A & -> & B & _). split; assumption. }
    assert (RA : forall s, In s l -> reg_applies E key kind s -> regs_of chain s).
    { intros s I (K & NLi & M). destruct (DH s I NLi K) as [_ HO].
      assert (ST : regex_stems (sp_regex s) = firstn (length (regex_stems (sp_regex s))) (kst key)).
      { pose proof (regex_stems_leads (length (sp_regex s)) max_depth (sp_regex s)) as LD. fold (regex_stems (sp_regex s)) in LD.
        apply below_stems; [eapply leads_ok; exact LD|]. apply HO; assumption. }
      apply (chain_has_reg prefix l); [exact H|exact O|exact I| |exact ST]. unfold kept_reg.
      rewrite (subset_keeps true prefix key _ SUB ST). destruct (fst (regex_has_meta_chars (sp_regex s))) eqn:Q; [reflexivity|].
      exfalso. apply NLi, has_meta_literal, Q. }
    assert (AR : forall s, regs_of chain s -> (fits E key kind s <-> reg_applies E key kind s)).
    { intros s R. destruct (RL s R) as [_ K]. apply kept_reg_meta in K. unfold fits, reg_applies. tauto. }
    pose proof (regs_up_ok E key kind l OL chain None [] (fun _ => False)) as RU.
    assert (RU' := RU
      ltac:(intros n I; destruct (chain_regs prefix l root key H O n I) as (p & -> & _); apply regs_in_ordered, OL)
      ltac:(intros n x I J; destruct (chain_regs prefix l root key H O n I) as (p & R & _); rewrite R in J; apply regs_in_spec in J as (s & _ & -> & _); reflexivity)
      ltac:(intros s R; apply RL, R) ltac:(intros s []) 
      ltac:(intros s R K; destruct (RL s R) as [A B]; apply DH; [exact A|eapply kept_reg_meta; exact B|exact K])
      ltac:(intros y [])). clear RU.
    destruct (regs_up E false false key kind chain None []) as [|[f|] acc'].
    + destruct RU' as (x & R & A & Z). apply (AR _ R) in A. destruct (RL _ R) as [I _]. apply in_split in I as (l1 & l2 & EQ).
      cbn [hd_error option_map]. rewrite <- (label_none _ Z). apply (Flat_reg _ _ _ _ l1 x l2); [exact NOLIT|exact EQ|exact A|].
      apply (NL l1 x l2 EQ A). apply label_none, Z.
    + destruct RU' as (-> & (PF & AF & MF) & _ & Z & _). cbn [hd_error option_map]. destruct PF as [[]|R].
      apply (AR _ R) in AF. destruct (RL _ R) as [I _]. apply in_split in I as (l1 & l2 & EQ). rewrite <- (label_some _ Z).
      apply (Flat_reg _ _ _ _ l1 (f_spec f) l2); [exact NOLIT|exact EQ|exact AF|]. intros s' I' A'.
      assert (IL : In s' l) by (rewrite EQ; apply in_app_iff; right; right; exact I'). pose proof (RA s' IL A') as R'.
      destruct (MF s' (or_intror R') (proj2 (AR _ R') A')) as [->|Q].
      * pose proof (ordered_last l1 (f_spec f) l2 (f_spec f)) as W. rewrite EQ in OL. specialize (W OL I'). rewrite older_irrefl in W. discriminate.
      * rewrite EQ in OL. rewrite (older_asym _ _ (ordered_last _ _ _ _ OL I')) in Q. discriminate.
    + destruct RU' as (-> & C). cbn [hd_error option_map]. apply Flat_none; [exact NOLIT|]. intros s' I' A'.
      pose proof (RA s' I' A') as R'. apply (C s' (or_intror R')). apply AR; assumption.
Qed.
