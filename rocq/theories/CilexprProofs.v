(** Proofs about CIL set expressions. *)
From Coq Require Import Relations Permutation.
From Verif Require Import Base EbitmapModel EbitmapSpec EbitmapProofs CilexprModel CilexprSpec.

(** ** Trees *)

Lemma tree_ind2 (P : tree -> Prop) :
  (forall n, P (TName n)) -> (forall k, P (TKey k)) -> (forall l, Forall P l -> P (TList l)) ->
  forall t, P t.
Proof.
  intros Hn Hk Hl. fix IH 1. intros [n|k|l]; [apply Hn|apply Hk|]. apply Hl.
  induction l as [|x l IHl]; constructor; [apply IH|exact IHl].
Qed.

(** The list a tree becomes, with [lf] for the names. *)
Fixpoint tm (lf : N -> item) (t : tree) : item :=
  match t with TName n => lf n | TKey k => IOp k | TList l => IList (map (tm lf) l) end.

Definition items_of (i : item) : list item := match i with IList l => l | _ => [i] end.

(** The forms a well-formed list has. *)
Inductive form (f : flavor) : list tree -> Prop :=
| f_all : f <> FBool -> f <> FTunable -> form f [TKey KAll]
| f_not a : shape f a = true -> form f [TKey KNot; a]
| f_and a b : shape f a = true -> shape f b = true -> form f [TKey KAnd; a; b]
| f_or a b : shape f a = true -> shape f b = true -> form f [TKey KOr; a; b]
| f_xor a b : shape f a = true -> shape f b = true -> form f [TKey KXor; a; b]
| f_eq a b : f = FBool \/ f = FTunable -> shape f a = true -> shape f b = true -> form f [TKey KEq; a; b]
| f_neq a b : f = FBool \/ f = FTunable -> shape f a = true -> shape f b = true -> form f [TKey KNeq; a; b]
| f_range a b : f = FCat \/ f = FPermx -> form f [TKey KRange; TName a; TName b]
| f_list h c : operator_of h = None -> forallb (shape f) (h :: c) = true -> form f (h :: c).

Lemma shape_form f l : shape f (TList l) = true -> form f l.
Proof.
  intros H.
  destruct l as [|h c]; [discriminate|].
  destruct h as [n|k|hl].
  - apply f_list; [reflexivity|exact H].
  - destruct k; destruct c as [|a [|b [|c' c]]]; cbn [shape forallb andb] in H; try discriminate H.
    + apply andb_true_iff in H. apply f_and; tauto.
    + apply andb_true_iff in H. apply f_or; tauto.
    + apply f_not; exact H.
    + destruct f; try discriminate H; cbn [andb] in H; apply andb_true_iff in H; apply f_eq; tauto.
    + destruct f; try discriminate H; cbn [andb] in H; apply andb_true_iff in H; apply f_neq; tauto.
    + apply andb_true_iff in H. apply f_xor; tauto.
    + apply f_all; destruct f; try discriminate H; discriminate.
    + destruct a; discriminate H.
    + destruct a; try discriminate H. destruct b; try discriminate H.
      apply f_range. destruct f; try discriminate H; tauto.
    + destruct a; try discriminate H. destruct b; discriminate H.
  - apply f_list; [reflexivity|exact H].
Qed.

Lemma form_shape f l : form f l -> shape f (TList l) = true.
Proof.
  intros H. destruct H; cbn [shape].
  - destruct f; congruence.
  - assumption.
  - rewrite H, H0. reflexivity.
  - rewrite H, H0. reflexivity.
  - rewrite H, H0. reflexivity.
  - rewrite H0, H1. destruct H; subst; reflexivity.
  - rewrite H0, H1. destruct H; subst; reflexivity.
  - destruct H; subst; reflexivity.
  - destruct h; try discriminate H; exact H0.
Qed.

(** ** Building *)

Fixpoint fill_list (f : flavor) (l : list tree) : option (list item) :=
  match l with
  | [] => Some []
  | x :: l' =>
      match fill_expr f x with
      | None => None
      | Some i => match fill_list f l' with None => None | Some r => Some (i :: r) end
      end
  end.

Lemma fill_unfold f h c : fill_expr f (TList (h :: c)) =
  if verify_expr_syntax (h :: c) (operator_of h) f then
    match operator_of h with
    | Some k => match fill_list f c with None => None | Some r => Some (IList (IOp k :: r)) end
    | None => match fill_list f (h :: c) with None => None | Some r => Some (IList r) end
    end
  else None.
Proof.
  assert (G : forall l, (fix fill_all (l : list tree) : option (list item) :=
          match l with
          | [] => Some []
          | x :: l' =>
              match fill_expr f x with
              | None => None
              | Some i => match fill_all l' with None => None | Some r => Some (i :: r) end
              end
          end) l = fill_list f l).
  { induction l as [|x l IH]; [reflexivity|]. cbn [fill_list]. rewrite <- IH. reflexivity. }
  cbn [fill_expr]. destruct (verify_expr_syntax (h :: c) (operator_of h) f); [|reflexivity].
  destruct (operator_of h); rewrite <- G; reflexivity.
Qed.

Definition fills (f : flavor) (t : tree) : Prop :=
  fill_expr f t = if shape f t then Some (tm IStr t) else None.

Lemma fill_list_ok f l : Forall (fills f) l ->
  fill_list f l = if forallb (shape f) l then Some (map (tm IStr) l) else None.
Proof.
  induction 1 as [|x l Hx Hl IH]; [reflexivity|]. cbn [fill_list forallb map]. rewrite Hx, IH.
  destruct (shape f x); [|reflexivity]. cbn [andb]. destruct (forallb (shape f) l); reflexivity.
Qed.

Lemma shape_strlist f x : shape f x = true -> is_list x || is_string x = true.
Proof. destruct x as [n|k|[|y l]]; try reflexivity; intros H; discriminate H. Qed.

Lemma shape_strlist' f x : shape f x = true -> is_string x || is_list x = true.
Proof. intros H. rewrite orb_comm. exact (shape_strlist f x H). Qed.

Lemma fill_ok f t : fills f t.
Proof.
  induction t as [n|k|l IH] using tree_ind2; try reflexivity. unfold fills.
  destruct l as [|h c]; [reflexivity|].
  rewrite fill_unfold.
  destruct (shape f (TList (h :: c))) eqn:Sh.
  - apply shape_form in Sh. inversion IH as [|? ? Hh Hc]; subst. clear IH.
    inversion Sh; subst; cbn [operator_of]; rewrite ?(fill_list_ok f _ Hc);
      unfold verify_expr_syntax; cbn [verify_syntax is_string is_list orb andb forallb shape];
      repeat match goal with H : shape f ?a = true |- _ => rewrite ?(shape_strlist' f a H), ?H; clear H end;
      cbn [andb].
    + destruct f; try congruence; reflexivity.
    + reflexivity.
    + reflexivity.
    + reflexivity.
    + reflexivity.
    + match goal with H : _ \/ _ |- _ => destruct H; subst; reflexivity end.
    + match goal with H : _ \/ _ |- _ => destruct H; subst; reflexivity end.
    + match goal with H : _ \/ _ |- _ => destruct H; subst; reflexivity end.
    + match goal with H : operator_of h = None |- _ => rewrite H end.
      match goal with H : forallb (shape f) _ = true |- _ => rename H into Hsh end.
      assert (E : forallb (fun t : tree => is_list t || is_string t) (h :: c) = true).
      { rewrite forallb_forall. intros x Hx. apply shape_strlist with (f := f).
        rewrite forallb_forall in Hsh. exact (Hsh x Hx). }
      cbn [forallb] in E |- *. rewrite E. cbn [andb].
      rewrite (fill_list_ok f (h :: c)) by (constructor; assumption). rewrite Hsh. reflexivity.
  - destruct (verify_expr_syntax (h :: c) (operator_of h) f) eqn:V; [|reflexivity].
    inversion IH as [|? ? Hh Hc]; subst.
    rewrite (fill_list_ok f c Hc), (fill_list_ok f (h :: c) IH).
    assert (No : ~ form f (h :: c)) by (intros F; apply form_shape in F; congruence).
    destruct h as [n|k|hl]; cbn [operator_of] in *.
    + destruct (forallb (shape f) (TName n :: c)) eqn:E; [|reflexivity].
      exfalso. apply No. apply f_list; [reflexivity|exact E].
    + destruct (forallb (shape f) c) eqn:E; [|reflexivity]. exfalso. apply No.
      unfold verify_expr_syntax in V.
      destruct k; destruct c as [|a [|b [|c' c]]]; destruct f;
        cbn [verify_syntax is_string andb forallb] in V, E; try discriminate V;
        rewrite ?andb_false_r in V; try discriminate V; rewrite ?andb_true_r in E;
        try (apply andb_true_iff in E; destruct E as [E1 E2]);
        try (apply f_and; assumption); try (apply f_or; assumption); try (apply f_xor; assumption);
        try (apply f_not; assumption);
        try (apply f_eq; [tauto|assumption|assumption]); try (apply f_neq; [tauto|assumption|assumption]);
        try (apply f_all; discriminate).
      all: destruct a as [x|?|?]; try discriminate; destruct b as [y|?|?]; try discriminate;
        apply f_range; tauto.
    + destruct (forallb (shape f) (TList hl :: c)) eqn:E; [|reflexivity].
      exfalso. apply No. apply f_list; [reflexivity|exact E].
Qed.

Lemma gen_ok f t : gen_expr f t = if shape f t then Some (items_of (tm IStr t)) else None.
Proof.
  unfold gen_expr. rewrite (fill_ok f t). destruct (shape f t) eqn:E; [|reflexivity].
  destruct t; try reflexivity; discriminate E.
Qed.

(** ** Resolving *)

Definition actual (tb : table) (n : N) : N := match tb n with Some (DAlias m) => m | _ => n end.
Definition dat (tb : table) (n : N) : item := IDatum (actual tb n).

Fixpoint res_list (tb : table) (r : bool) (l : list item) : option (list item) :=
  match l with
  | [] => Some []
  | x :: l' =>
      match resolve_item tb r x with
      | None => None
      | Some y =>
          match res_list tb (match x with IOp KRange => true | IOp _ => false | _ => r end) l' with
          | None => None
          | Some ys => Some (y :: ys)
          end
      end
  end.

Lemma resolve_unfold tb r l : resolve_item tb r (IList l) =
  match res_list tb false l with None => None | Some ys => Some (IList ys) end.
Proof.
  assert (G : forall l r, (fix res_all (r : bool) (l : list item) : option (list item) :=
        match l with
        | [] => Some []
        | x :: l' =>
            match resolve_item tb r x with
            | None => None
            | Some y =>
                match res_all (match x with IOp KRange => true | IOp _ => false | _ => r end) l' with
                | None => None
                | Some ys => Some (y :: ys)
                end
            end
        end) r l = res_list tb r l).
  { clear. induction l as [|x l IH]; intros r; [reflexivity|]. cbn [res_list]. rewrite <- IH. reflexivity. }
  cbn [resolve_item]. rewrite G. reflexivity.
Qed.

Lemma resolve_name_some tb n d : resolve_name tb n = Some d -> d = actual tb n /\ tb n <> None.
Proof.
  unfold resolve_name, actual. destruct (tb n) as [[v|m| |]|]; intros E; inversion E; split; congruence.
Qed.

Lemma resolve_name_decl tb n : tb n <> None -> resolve_name tb n = Some (actual tb n).
Proof. unfold resolve_name, actual. destruct (tb n) as [[v|m| |]|]; congruence. Qed.

Lemma resolve_fwd tb t : forall r i, resolve_item tb r (tm IStr t) = Some i ->
  i = tm (dat tb) t /\ forall x, In x (names t) -> tb x <> None.
Proof.
  induction t as [n|k|l IH] using tree_ind2; intros r i E.
  - cbn [tm resolve_item] in E. destruct (resolve_name tb n) as [d|] eqn:R; [|discriminate E].
    destruct (is_catset tb d && r); inversion E; subst. destruct (resolve_name_some tb n d R) as [-> D].
    split; [reflexivity|]. intros x [<-|[]]. exact D.
  - cbn in E. inversion E; subst. split; [reflexivity|]. intros x [].
  - cbn [tm] in E. rewrite resolve_unfold in E.
    destruct (res_list tb false (map (tm IStr) l)) as [ys|] eqn:R; [|discriminate E]. inversion E; subst.
    assert (G : forall r ys, res_list tb r (map (tm IStr) l) = Some ys ->
                ys = map (tm (dat tb)) l /\ forall x, In x (flat_map names l) -> tb x <> None).
    { clear R E. induction IH as [|x l Hx Hl IHl]; intros r0 ys0 R.
      - cbn in R. inversion R. split; [reflexivity|]. intros x [].
      - cbn [map res_list] in R. destruct (resolve_item tb r0 (tm IStr x)) as [y|] eqn:Ry; [|discriminate R].
        destruct (res_list tb _ (map (tm IStr) l)) as [zs|] eqn:Rz in R; [|discriminate R].
        inversion R; subst. destruct (Hx r0 y Ry) as [-> Nx]. destruct (IHl _ _ Rz) as [-> Nl].
        split; [reflexivity|]. intros z Hz. cbn [flat_map] in Hz. apply in_app_or in Hz.
        destruct Hz as [Hz|Hz]; [exact (Nx z Hz)|exact (Nl z Hz)]. }
    destruct (G false ys R) as [-> Nl]. split; [reflexivity|exact Nl].
Qed.

Lemma res_list_plain tb l : Forall (fun t => resolve_item tb false (tm IStr t) = Some (tm (dat tb) t)) l ->
  Forall (fun t => operator_of t = None) l ->
  res_list tb false (map (tm IStr) l) = Some (map (tm (dat tb)) l).
Proof.
  induction 1 as [|x l Hx Hl IH]; intros Ho; [reflexivity|]. inversion Ho as [|? ? Ox Ol]; subst.
  cbn [map res_list]. rewrite Hx.
  replace (match tm IStr x with IOp KRange => true | IOp _ => false | _ => false end) with false
    by (destruct x as [n|k|l0]; [reflexivity|discriminate Ox|reflexivity]).
  rewrite (IH Ol). reflexivity.
Qed.

Lemma shape_noop f l : forallb (shape f) l = true -> Forall (fun t => operator_of t = None) l.
Proof.
  intros H. rewrite forallb_forall in H. apply Forall_forall. intros x Hx. specialize (H x Hx).
  destruct x; [reflexivity|discriminate H|reflexivity].
Qed.

Lemma place_actual tb mx n : table_ok tb mx -> place tb n =
  match tb (actual tb n) with Some (DLeaf v) => Some v | _ => None end.
Proof.
  intros (_ & _ & A). unfold place, actual. destruct (tb n) as [[v|m| |]|] eqn:E; rewrite ?E; try reflexivity.
Qed.

Lemma resolve_bwd tb mx f t : table_ok tb mx -> shape f t = true ->
  (forall x, In x (names t) -> tb x <> None) -> ordered (place tb) t = true ->
  resolve_item tb false (tm IStr t) = Some (tm (dat tb) t).
Proof.
  intros T. induction t as [n|k|l IH] using tree_ind2; intros Sh Nm Or.
  - cbn [tm resolve_item]. rewrite (resolve_name_decl tb n (Nm n (or_introl eq_refl))).
    rewrite andb_false_r. reflexivity.
  - discriminate Sh.
  - cbn [tm]. rewrite resolve_unfold. apply shape_form in Sh.
    assert (Sub : forall x, In x l -> shape f x = true -> ordered (place tb) x = true ->
                  resolve_item tb false (tm IStr x) = Some (tm (dat tb) x)).
    { intros x Hx Sx Ox. rewrite Forall_forall in IH. apply (IH x Hx Sx); [|exact Ox].
      intros y Hy. apply Nm. cbn [names]. apply in_flat_map. exists x. split; assumption. }
    assert (Bin : forall k a b, l = [TKey k; a; b] -> k <> KRange -> shape f a = true -> shape f b = true ->
      ordered (place tb) a = true -> ordered (place tb) b = true ->
      res_list tb false (map (tm IStr) l) = Some (map (tm (dat tb)) l)).
    { intros k a b -> Hk Sa Sb Oa Ob. cbn [map tm res_list]. cbn [resolve_item].
      replace (match k with KRange => true | _ => false end) with false by (destruct k; congruence).
      rewrite (Sub a) by (auto; cbn; auto).
      replace (match tm IStr a with IOp KRange => true | IOp _ => false | _ => false end) with false
        by (destruct a as [n|k0|l0]; [reflexivity|discriminate Sa|reflexivity]).
      rewrite (Sub b) by (auto; cbn; auto). reflexivity. }
    inversion Sh; subst.
    + reflexivity.
    + cbn [ordered forallb andb] in Or. rewrite andb_true_r in Or.
      cbn [map tm res_list]. cbn [resolve_item]. rewrite (Sub a) by (auto; cbn; auto). reflexivity.
    + cbn [ordered forallb andb] in Or. rewrite andb_true_r in Or. apply andb_true_iff in Or.
      rewrite (Bin KAnd a b); try tauto; try reflexivity; discriminate.
    + cbn [ordered forallb andb] in Or. rewrite andb_true_r in Or. apply andb_true_iff in Or.
      rewrite (Bin KOr a b); try tauto; try reflexivity; discriminate.
    + cbn [ordered forallb andb] in Or. rewrite andb_true_r in Or. apply andb_true_iff in Or.
      rewrite (Bin KXor a b); try tauto; try reflexivity; discriminate.
    + cbn [ordered forallb andb] in Or. rewrite andb_true_r in Or. apply andb_true_iff in Or.
      rewrite (Bin KEq a b); try tauto; try reflexivity; discriminate.
    + cbn [ordered forallb andb] in Or. rewrite andb_true_r in Or. apply andb_true_iff in Or.
      rewrite (Bin KNeq a b); try tauto; try reflexivity; discriminate.
    + cbn [ordered] in Or. rewrite !(place_actual tb mx _ T) in Or.
      cbn [map tm res_list]. cbn [resolve_item].
      rewrite !resolve_name_decl by (apply Nm; cbn; auto). unfold is_catset.
      destruct (tb (actual tb a)) as [[v|m| |]|]; try discriminate Or.
      destruct (tb (actual tb b)) as [[w|m| |]|]; try discriminate Or. reflexivity.
    + assert (O2 : forallb (ordered (place tb)) (h :: c) = true).
      { destruct h as [n|k|hl]; [exact Or|discriminate H|exact Or]. }
      rewrite res_list_plain; [reflexivity| |exact (shape_noop f _ H0)].
      apply Forall_forall. intros x Hx. rewrite forallb_forall in H0, O2. apply Sub; auto.
Qed.
