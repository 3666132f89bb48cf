(** Proofs about CIL set expressions: the evaluation. *)
From Coq Require Import Relations Permutation Arith.
From Verif Require Import Base EbitmapModel EbitmapSpec EbitmapProofs CilexprModel CilexprSpec CilexprProofs.

Lemma union_spec e1 e2 : valid e1 -> valid e2 ->
  valid (ebitmap_union e1 e2) /\
  forall b, nget (e_nodes (ebitmap_union e1 e2)) b = nget (e_nodes e1) b || nget (e_nodes e2) b.
Proof.
  intros V1 V2. pose proof (or_spec e1 e2 V1 V2) as H. unfold ebitmap_union.
  destruct (ebitmap_or e1 e2) as [n h]. exact H.
Qed.

Lemma nget_init b : nget (e_nodes ebitmap_init) b = false.
Proof. reflexivity. Qed.

(** An expression the evaluation does not refuse. *)
Definition tok (pl : N -> option N) (mx : N) (t : tree) : bool :=
  ordered pl t && (negb (mx =? 0) || negb (uses_all t)).

Lemma tok_list pl mx l : (forall a b, l <> [TKey KRange; TName a; TName b]) ->
  tok pl mx (TList l) = forallb (tok pl mx) l.
Proof.
  intros Hl. unfold tok.
  assert (E : ordered pl (TList l) = forallb (ordered pl) l).
  { destruct l as [|[n|k|hl] c]; try reflexivity. destruct k; try reflexivity.
    destruct c as [|[a| |] [|[b| |] [|? ?]]]; try reflexivity. exfalso. exact (Hl a b eq_refl). }
  rewrite E. cbn [uses_all]. clear.
  induction l as [|x l IH]; [destruct (mx =? 0); reflexivity|]. cbn [forallb existsb]. rewrite <- IH.
  destruct (ordered pl x), (uses_all x), (existsb uses_all l), (forallb (ordered pl) l), (mx =? 0); reflexivity.
Qed.

Section Expr.
Context (lf : N -> item) (env : N -> N -> bool) (pl : N -> option N) (d : db) (f : flavor)
        (I : st -> Prop) (K : st -> st -> Prop) (A : Prop).
Context (lf_leaf : forall n, match lf n with IDatum _ => True | IStr _ => True | _ => False end)
        (K_refl : forall s, K s s) (K_trans : forall a b c, K a b -> K b c -> K a c)
        (mx_ok : d_max d < 2147483648).

(** What the evaluation of [t] in state [s] may give. *)
Definition rgood (t : tree) (s : st) (r : out (ebitmap * st)) : Prop :=
  match r with
  | Fine (e, s') => valid e /\ (forall v, nget (e_nodes e) v = holds env pl (d_max d) t v) /\ I s' /\ K s s' /\
                    tok pl (d_max d) t = true
  | Bad => A -> tok pl (d_max d) t = false
  | Crash => False
  | Deep => False
  end.

Definition range_good (a b : N) (r : out ebitmap) : Prop :=
  match r with
  | Fine e => valid e /\
      (forall v, nget (e_nodes e) v = holds env pl (d_max d) (TList [TKey KRange; TName a; TName b]) v) /\
      ordered pl (TList [TKey KRange; TName a; TName b]) = true
  | Bad => ordered pl (TList [TKey KRange; TName a; TName b]) = false
  | Crash => False
  | Deep => False
  end.

Context (D : N -> Prop) (range_ok : forall a b, D a -> D b -> f = FCat \/ f = FPermx ->
  range_good a b (match f with FCat => cat_range d (lf a) (lf b) | _ => permx_range d (lf a) (lf b) end)).

Lemma union_items_good ev ts : forall acc s,
  (forall x s, In x ts -> I s -> rgood x s (ev (tm lf x) s)) -> I s -> valid acc ->
  match union_items ev (map (tm lf) ts) acc s with
  | Fine (e, s') => valid e /\
      (forall v, nget (e_nodes e) v = nget (e_nodes acc) v || existsb (fun x => holds env pl (d_max d) x v) ts) /\
      I s' /\ K s s' /\ forallb (tok pl (d_max d)) ts = true
  | Bad => A -> forallb (tok pl (d_max d)) ts = false
  | Crash => False
  | Deep => False
  end.
Proof.
  induction ts as [|x ts IH]; intros acc s Hev Is Va.
  - cbn [map union_items]. split; [exact Va|]. split.
    { intros v. cbn [existsb]. rewrite orb_false_r. reflexivity. }
    split; [exact Is|]. split; [apply K_refl|reflexivity].
  - cbn [map union_items]. pose proof (Hev x s (or_introl eq_refl) Is) as G.
    destruct (ev (tm lf x) s) as [[e s']| | |]; cbn [thn rgood] in *; try contradiction.
    + destruct G as (Ve & Ge & Is' & Ks & Tx). cbn [fst snd].
      destruct (or_spec acc e Va Ve) as [Vo Go].
      specialize (IH (ebitmap_or acc e) s' (fun y q Hy => Hev y q (or_intror Hy)) Is' Vo).
      destruct (union_items ev (map (tm lf) ts) (ebitmap_or acc e) s') as [[e2 s2]| | |]; try contradiction.
      * destruct IH as (V2 & G2 & I2 & K2 & T2). split; [exact V2|]. split.
        { intros v. rewrite G2, Go, Ge. cbn [existsb]. rewrite orb_assoc. reflexivity. }
        split; [exact I2|]. split; [exact (K_trans _ _ _ Ks K2)|]. cbn [forallb]. rewrite Tx. exact T2.
      * intros a. cbn [forallb]. rewrite (IH a), andb_false_r. reflexivity.
    + intros a. cbn [forallb]. rewrite (G a). reflexivity.
Qed.

Lemma all_range mx : mx < 2147483648 ->
  match range_bm 0 (wrap32 (mx + 4294967295)) with
  | Fine e => valid e /\ (forall v, nget (e_nodes e) v = (v <? mx)) /\ mx <> 0
  | Bad => mx = 0
  | Crash => False
  | Deep => False
  end.
Proof.
  intros Hmx. unfold range_bm.
  assert (W : wrap32 (mx + 4294967295) = if mx =? 0 then 4294967295 else mx - 1).
  { unfold wrap32, W32. destruct (N.eqb_spec mx 0) as [->|Hn]; [reflexivity|].
    replace (mx + 4294967295) with (mx - 1 + 1 * 4294967296) by lia.
    rewrite N.mod_add by discriminate. apply N.mod_small. lia. }
  rewrite W. destruct (N.eqb_spec mx 0) as [->|Hn]; [reflexivity|].
  pose proof (init_range_spec 0 (mx - 1) eq_refl ltac:(lia)) as H.
  destruct (ebitmap_init_range 0 (mx - 1)); try lia.
  destruct H as (_ & _ & V & G). split; [exact V|]. split; [|exact Hn]. intros v. rewrite G.
  destruct (N.leb_spec 0 v), (N.leb_spec v (mx - 1)), (N.ltb_spec v mx); cbn [andb]; try reflexivity; lia.
Qed.

Lemma init_union e : valid e -> valid (ebitmap_union ebitmap_init e) /\
  forall b, nget (e_nodes (ebitmap_union ebitmap_init e)) b = nget (e_nodes e) b.
Proof. intros V. destruct (union_spec ebitmap_init e valid_init V) as [V' G]. split; [exact V'|exact G]. Qed.

(** The trees directly below a tree, or the tree itself if it is a name. *)
Definition children (t : tree) : list tree := match t with TList l => l | _ => [t] end.

Lemma list_case l : (forall k r, l <> IOp k :: r) -> forall ev s, l <> [] ->
  expr_bm ev d f l ebitmap_init s =
  thn (union_items ev l ebitmap_init s) (fun r => Fine (ebitmap_union ebitmap_init (fst r), snd r)).
Proof.
  intros H ev s Hn. destruct l as [|[x|x|k|x] l]; try reflexivity.
  exfalso. exact (H k l eq_refl).
Qed.

Lemma union_case ev ts s :
  (forall x s, In x ts -> I s -> rgood x s (ev (tm lf x) s)) -> I s -> ts <> [] ->
  (forall k r, map (tm lf) ts <> IOp k :: r) ->
  match expr_bm ev d f (map (tm lf) ts) ebitmap_init s with
  | Fine (e, s') => valid e /\
      (forall v, nget (e_nodes e) v = existsb (fun x => holds env pl (d_max d) x v) ts) /\
      I s' /\ K s s' /\ forallb (tok pl (d_max d)) ts = true
  | Bad => A -> forallb (tok pl (d_max d)) ts = false
  | Crash => False
  | Deep => False
  end.
Proof.
  intros Hev Is Hn Hk. rewrite list_case; [|exact Hk|destruct ts; [congruence|discriminate]].
  pose proof (union_items_good ev ts ebitmap_init s Hev Is valid_init) as G.
  destruct (union_items ev (map (tm lf) ts) ebitmap_init s) as [[e s']| | |]; cbn [thn fst snd]; try exact G.
  destruct G as (V & Gv & R). destruct (init_union e V) as [V' G']. split; [exact V'|]. split; [|exact R].
  intros v. rewrite G', Gv. reflexivity.
Qed.

Lemma operator_head t : operator_of t = None -> forall k r l, tm lf t :: l <> IOp k :: r.
Proof.
  intros H k r l E. destruct t as [n|k'|l']; [|discriminate H|discriminate E].
  cbn [tm] in E. pose proof (lf_leaf n) as L. inversion E as [[E1 E2]]. rewrite E1 in L. exact L.
Qed.

Lemma expr_good ev t s : f <> FBool -> f <> FTunable -> shape f t = true -> (forall n, In n (names t) -> D n) ->
  (forall x s, In x (children t) -> shape f x = true -> I s -> rgood x s (ev (tm lf x) s)) -> I s ->
  rgood t s (expr_bm ev d f (items_of (tm lf t)) ebitmap_init s).
Proof.
  intros F1 F2 Sh Dn Hev Is.
  destruct t as [n|k|l]; [|discriminate Sh|].
  - assert (E : items_of (tm lf (TName n)) = map (tm lf) [TName n]).
    { cbn [tm map]. pose proof (lf_leaf n). destruct (lf n); try contradiction; reflexivity. }
    rewrite E.
    pose proof (union_case ev [TName n] s) as G.
    specialize (G ltac:(intros x q [<-|[]] Iq; apply Hev; [left; reflexivity|exact Sh|exact Iq]) Is ltac:(discriminate)).
    specialize (G ltac:(intros k r; apply operator_head; reflexivity)).
    unfold rgood. destruct (expr_bm ev d f (map (tm lf) [TName n]) ebitmap_init s) as [[e s']| | |]; try exact G.
    + destruct G as (V & Gv & Ii & Kk & T). do 2 (split; [try exact V|]).
      * intros v. rewrite Gv. cbn [existsb]. apply orb_false_r.
      * split; [exact Ii|]. split; [exact Kk|]. cbn [forallb] in T. rewrite andb_true_r in T. exact T.
    + intros a. specialize (G a). cbn [forallb] in G. rewrite andb_true_r in G. exact G.
  - cbn [tm items_of]. pose proof (shape_form f l Sh) as Fm. cbn [children] in Hev.
    assert (Bin : forall k op a b, l = [TKey k; a; b] -> shape f a = true -> shape f b = true ->
      k <> KRange -> k <> KAll -> k <> KNot ->
      (forall e1 e2 s, match k with
                           | KOr => Fine (ebitmap_or e1 e2, s)
                           | KAnd => Fine (ebitmap_and e1 e2, s)
                           | KXor => Fine (ebitmap_xor e1 e2, s)
                           | _ => Bad
                           end = Fine (op e1 e2, s : st)) ->
      (forall e1 e2, valid e1 -> valid e2 -> valid (op e1 e2) /\ forall v,
         nget (e_nodes e1) v = holds env pl (d_max d) a v -> nget (e_nodes e2) v = holds env pl (d_max d) b v ->
         nget (e_nodes (op e1 e2)) v = holds env pl (d_max d) (TList l) v) ->
      rgood (TList l) s (expr_bm ev d f (map (tm lf) l) ebitmap_init s)).
    { intros k op a b -> Sa Sb N1 N2 N3 Op Sp.
      assert (Tk : tok pl (d_max d) (TList [TKey k; a; b]) = tok pl (d_max d) a && tok pl (d_max d) b).
      { rewrite tok_list by (intros x y E; inversion E; congruence). cbn [forallb].
        replace (tok pl (d_max d) (TKey k)) with true
          by (unfold tok; destruct k; try congruence; cbn; rewrite orb_true_r; reflexivity).
        rewrite andb_true_r. reflexivity. }
      assert (Ex : expr_bm ev d f (map (tm lf) [TKey k; a; b]) ebitmap_init s =
        thn (thn (ev (tm lf a) s) (fun r1 => thn (ev (tm lf b) (snd r1)) (fun r2 =>
               Fine (op (fst r1) (fst r2), snd r2)))) (fun r => Fine (ebitmap_union ebitmap_init (fst r), snd r))).
      { cbn [map tm expr_bm].
        destruct k; try congruence; f_equal; destruct (ev (tm lf a) s) as [[e1 s1]| | |]; cbn [thn]; try reflexivity;
          destruct (ev (tm lf b) _) as [[e2 s2]| | |]; cbn [thn]; try reflexivity; apply Op. }
      rewrite Ex. clear Ex. unfold rgood. rewrite Tk.
      pose proof (Hev a s ltac:(cbn; auto) Sa Is) as Ga.
      destruct (ev (tm lf a) s) as [[e1 s1]| | |]; cbn [thn rgood fst snd] in *; try contradiction.
      2:{ intros q. rewrite (Ga q). reflexivity. }
      destruct Ga as (Va & Ha & Ia & Ka & Ta).
      pose proof (Hev b s1 ltac:(cbn; auto) Sb Ia) as Gb.
      destruct (ev (tm lf b) s1) as [[e2 s2]| | |]; cbn [thn rgood fst snd] in *; try contradiction.
      2:{ intros q. rewrite (Gb q). apply andb_false_r. }
      destruct Gb as (Vb & Hb & Ib & Kb & Tb).
      destruct (Sp e1 e2 Va Vb) as [Vo Ho]. destruct (init_union _ Vo) as [Vu Hu].
      split; [exact Vu|]. split.
      { intros v. rewrite Hu. apply Ho; [apply Ha|apply Hb]. }
      split; [exact Ib|]. split; [exact (K_trans _ _ _ Ka Kb)|]. rewrite Ta, Tb. reflexivity. }
    inversion Fm; subst.
    + cbn [map tm expr_bm].
      pose proof (all_range (d_max d) mx_ok) as G.
      destruct (range_bm 0 (wrap32 (d_max d + 4294967295))) as [e| | |]; cbn [thn rgood fst snd]; try contradiction.
      * destruct G as (V & Gv & Hm). destruct (init_union e V) as [Vu Hu]. split; [exact Vu|]. split.
        { intros v. rewrite Hu, Gv. reflexivity. }
        split; [exact Is|]. split; [apply K_refl|]. unfold tok. cbn.
        destruct (N.eqb_spec (d_max d) 0); [congruence|reflexivity].
      * intros _. unfold tok. rewrite G. reflexivity.
    + cbn [map tm expr_bm].
      assert (Tk : tok pl (d_max d) (TList [TKey KNot; a]) = tok pl (d_max d) a).
      { rewrite tok_list by (intros x y E; inversion E). cbn [forallb]. rewrite andb_true_r.
        unfold tok at 1. cbn. rewrite orb_true_r. reflexivity. }
      pose proof (Hev a s ltac:(cbn; auto) H Is) as Ga. unfold rgood. rewrite Tk.
      destruct (ev (tm lf a) s) as [[e1 s1]| | |]; cbn [thn rgood fst snd] in *; try exact Ga.
      destruct Ga as (Va & Ha & Ia & Ka & Ta).
      destruct (not_spec e1 (d_max d) Va ltac:(lia)) as (e' & En & Vn & Gn). rewrite En. cbn [thn fst snd].
      destruct (init_union e' Vn) as [Vu Hu]. split; [exact Vu|]. split.
      { intros v. rewrite Hu, Gn, Ha. reflexivity. }
      auto.
    + apply (Bin KAnd ebitmap_and a b); try congruence; try reflexivity. intros e1 e2 V1 V2.
      destruct (and_spec e1 e2 V1 V2) as [V G]. split; [exact V|]. intros v E1 E2. rewrite G, E1, E2. reflexivity.
    + apply (Bin KOr ebitmap_or a b); try congruence; try reflexivity. intros e1 e2 V1 V2.
      destruct (or_spec e1 e2 V1 V2) as [V G]. split; [exact V|]. intros v E1 E2. rewrite G, E1, E2. reflexivity.
    + apply (Bin KXor ebitmap_xor a b); try congruence; try reflexivity. intros e1 e2 V1 V2.
      destruct (xor_spec e1 e2 V1 V2) as [V G]. split; [exact V|]. intros v E1 E2. rewrite G, E1, E2. reflexivity.
    + destruct H; congruence.
    + destruct H; congruence.
    + pose proof (range_ok a b (Dn a ltac:(cbn; auto)) (Dn b ltac:(cbn; auto)) H) as G. unfold range_good in G.
      assert (Tk : tok pl (d_max d) (TList [TKey KRange; TName a; TName b]) =
                   ordered pl (TList [TKey KRange; TName a; TName b])).
      { unfold tok. replace (uses_all (TList [TKey KRange; TName a; TName b])) with false by reflexivity.
        rewrite orb_true_r, andb_true_r. reflexivity. }
      assert (Ex : expr_bm ev d f (map (tm lf) [TKey KRange; TName a; TName b]) ebitmap_init s =
        thn (match f with FCat => cat_range d (lf a) (lf b) | _ => permx_range d (lf a) (lf b) end)
            (fun e => Fine (ebitmap_union ebitmap_init e, s))).
      { cbn [map tm expr_bm]. destruct H; subst f; [destruct (cat_range d (lf a) (lf b))|destruct (permx_range d (lf a) (lf b))];
          reflexivity. }
      rewrite Ex. clear Ex. unfold rgood. rewrite Tk.
      destruct (match f with FCat => cat_range d (lf a) (lf b) | _ => permx_range d (lf a) (lf b) end) as [e| | |];
        cbn [thn]; try contradiction.
      * destruct G as (V & Gv & O). destruct (init_union e V) as [Vu Hu]. split; [exact Vu|]. split.
        { intros v. rewrite Hu. apply Gv. }
        auto.
      * auto.
    + pose proof (union_case ev (h :: c) s) as G.
      specialize (G ltac:(intros x q Hx Iq; apply Hev; [exact Hx| |exact Iq];
                          rewrite forallb_forall in H0; exact (H0 x Hx)) Is ltac:(discriminate)).
      specialize (G ltac:(intros k r; cbn [map]; apply operator_head; assumption)).
      assert (Tk : tok pl (d_max d) (TList (h :: c)) = forallb (tok pl (d_max d)) (h :: c)).
      { apply tok_list. intros x y E. inversion E; subst. discriminate H. }
      assert (Hd : forall v, holds env pl (d_max d) (TList (h :: c)) v =
                   existsb (fun x => holds env pl (d_max d) x v) (h :: c)).
      { intros v. destruct h; [reflexivity|discriminate H|reflexivity]. }
      unfold rgood. rewrite Tk.
      destruct (expr_bm ev d f (map (tm lf) (h :: c)) ebitmap_init s) as [[e s']| | |]; try exact G.
      destruct G as (V & Gv & R). split; [exact V|]. split; [|exact R]. intros v. rewrite Gv, Hd. reflexivity.
Qed.
End Expr.
