(** Proofs about CIL constraint statements. *)
From Coq Require Import String Ascii.
From Verif Require Import Base EbitmapModel EbitmapSpec EbitmapProofs MlsModel MlsSpec AvtabModel AvtabSpec AvtabProofs
  ServicesModel ServicesSpec ServicesProofs CilparseModel KcilProofs CilconsModel CilconsSpec.
Local Open Scope N_scope.
Local Open Scope list_scope.

(** ** Words *)
Definition op_of (o : operand) : oper :=
  match o with
  | U1 => Attr WSrc KUser | U2 => Attr WTgt KUser | U3 => Attr WThird KUser
  | R1 => Attr WSrc KRole | R2 => Attr WTgt KRole | R3 => Attr WThird KRole
  | T1 => Attr WSrc KType | T2 => Attr WTgt KType | T3 => Attr WThird KType
  | L1 => Low WSrc | L2 => Low WTgt | H1 => High WSrc | H2 => High WTgt
  end.

Lemma operand_spelled s o : operand_flavor s = Some o -> spelled s (op_of o).
Proof.
  unfold operand_flavor. intros H.
  repeat match type of H with
  | (if same_str s ?w then _ else _) = _ =>
      let E := fresh "E" in destruct (same_str s w) eqn:E;
      [apply same_str_spec in E; subst s; injection H as <-;
       first [exact (Sp_user WSrc)|exact (Sp_user WTgt)|exact (Sp_user WThird)
             |exact (Sp_role WSrc)|exact (Sp_role WTgt)|exact (Sp_role WThird)
             |exact (Sp_type WSrc)|exact (Sp_type WTgt)|exact (Sp_type WThird)
             |apply (Sp_low WSrc); discriminate|apply (Sp_low WTgt); discriminate
             |apply (Sp_high WSrc); discriminate|apply (Sp_high WTgt); discriminate]|clear E]
  end.
  discriminate.
Qed.

Lemma spelled_operand s a : spelled s a -> exists o, operand_flavor s = Some o /\ op_of o = a.
Proof.
  intros [[| |]|[| |]|[| |]|[| |] H|[| |] H]; try (destruct (H eq_refl));
  eexists; (split; [vm_compute; reflexivity|reflexivity]).
Qed.

Lemma not_spelled s : operand_flavor s = None -> forall b, ~ spelled s b.
Proof. intros H b S. destruct (spelled_operand s b S) as (o & E & _). congruence. Qed.

Definition rel_of (op : cop) : rel :=
  match op with ONeq => RNeq | ODom => RDom | ODomby => RDomby | OIncomp => RIncomp | _ => REq end.
Definition cop_of (r : rel) : cop :=
  match r with REq => OEq | RNeq => ONeq | RDom => ODom | RDomby => ODomby | RIncomp => OIncomp end.

Lemma operator_word s op : operator_flavor s = Some op ->
  match op with
  | ONot => s = chars "not" | OAnd => s = chars "and" | OOr => s = chars "or"
  | _ => s = rel_word (rel_of op)
  end.
Proof.
  unfold operator_flavor. intros H.
  repeat match type of H with
  | (if same_str s ?w then _ else _) = _ =>
      let E := fresh "E" in destruct (same_str s w) eqn:E;
      [apply same_str_spec in E; subst s; injection H as <-; reflexivity|clear E]
  end.
  discriminate.
Qed.

Lemma rel_operator r : operator_flavor (rel_word r) = Some (cop_of r).
Proof. destruct r; vm_compute; reflexivity. Qed.
Lemma rel_of_cop r : rel_of (cop_of r) = r.
Proof. destruct r; reflexivity. Qed.

(** ** The tree built *)
Definition form_leaf (op : cop) (l : operand) (r : ritem (list N)) : formula :=
  match r with
  | RiOperand o => Compare (rel_of op) (op_of l) (op_of o)
  | RiOne s => Among (rel_of op) (op_of l) [s]
  | RiList ns => Among (rel_of op) (op_of l) ns
  end.
Fixpoint form_of (x : cilexp (list N)) : formula :=
  match x with
  | XLeaf op k l r => form_leaf op l r
  | XNot a => Not (form_of a)
  | XBin OAnd a b => And (form_of a) (form_of b)
  | XBin _ a b => Or (form_of a) (form_of b)
  end.
Definition leaf_op (op : cop) : Prop := match op with ONot | OAnd | OOr => False | _ => True end.
Fixpoint shaped {A} (x : cilexp A) : Prop :=
  match x with
  | XLeaf op k l r => leaf_op op /\ k = leaf_flavor l
  | XNot a => shaped a
  | XBin op a b => (op = OAnd \/ op = OOr) /\ shaped a /\ shaped b
  end.

(** What the first pass takes. *)
Fixpoint admitted (vt : bool) (f : formula) : Prop :=
  match f with
  | Compare r a b => legal_compare r a b \/ b = Low WSrc
  | Among r a _ => exists w k, a = Attr w k /\ (w = WThird -> vt = true)
  | Not f => admitted vt f
  | And f g | Or f g => admitted vt f /\ admitted vt g
  end.

Lemma verify_compare l o op vt : leaf_op op -> verify_leaf l (RfOperand o) op vt = true <->
  legal_compare (rel_of op) (op_of l) (op_of o) \/ op_of o = Low WSrc.
Proof.
  intros LO. unfold legal_compare. split.
  - intros H. destruct o; try discriminate H; destruct l; try discriminate H; destruct op; try discriminate H; destruct LO;
    try (right; reflexivity); left;
    first [left; eexists; split; [reflexivity|split; [reflexivity|cbn; auto]]
          |right; cbn [In op_of]; tauto].
  - intros [[(k & A & B & C)|I]|B].
    + destruct l; try discriminate A; injection A as <-; destruct o; try discriminate B; try reflexivity;
      destruct op; destruct LO; try reflexivity; destruct C as [C|[C|C]]; discriminate C.
    + cbn [In] in I. destruct I as [I|[I|[I|[I|[I|[I|[]]]]]]]; injection I; intros B A;
      destruct l; try discriminate A; destruct o; try discriminate B; reflexivity.
    + destruct o; try discriminate B. reflexivity.
Qed.

Lemma verify_names l op vt r : (r = RfString \/ r = RfList) -> verify_leaf l r op vt = true <->
  exists w k, op_of l = Attr w k /\ (w = WThird -> vt = true).
Proof.
  intros R. assert (E : verify_leaf l r op vt = match l with L1 | L2 | H1 | H2 => false | U3 | R3 | T3 => vt | _ => true end)
    by (destruct R; subst r; reflexivity).
  rewrite E. clear E R. split.
  - intros H. destruct l; try discriminate H; do 2 eexists; (split; [reflexivity|intros W; try discriminate W; exact H]).
  - intros (w & k & A & B). destruct l; try discriminate A; try reflexivity; injection A as <- <-; exact (B eq_refl).
Qed.

Lemma fill_list_map c ns : fill_list c = Some ns -> c = map PName ns /\ ns <> [].
Proof.
  revert ns. induction c as [|t c IH]; intros ns H; [discriminate|]. destruct t as [s|]; [|discriminate].
  destruct c as [|u c].
  - injection H as <-. split; [reflexivity|discriminate].
  - cbn [fill_list] in H, IH. destruct (match u with PName s0 => _ | PList _ => _ end) as [l|] eqn:E; [|discriminate].
    injection H as <-. destruct (IH l eq_refl) as [A B]. split; [cbn [map]; rewrite <- A; reflexivity|discriminate].
Qed.
Lemma fill_list_complete ns : ns <> [] -> fill_list (map PName ns) = Some ns.
Proof.
  induction ns as [|s ns IH]; intros H; [destruct (H eq_refl)|]. destruct ns as [|u ns]; [reflexivity|].
  specialize (IH ltac:(discriminate)). change (match fill_list (map PName (u :: ns)) with Some l => Some (s :: l) | None => None end = Some (s :: u :: ns)).
  rewrite IH. reflexivity.
Qed.

Lemma fill_leaf_sound vt op l r x : leaf_op op -> (op = OEq \/ op = ONeq \/ is_string r = true) -> fill_leaf vt op l r = Some x ->
  written (PList [PName (rel_word (rel_of op)); PName l; r]) (form_of x) /\ admitted vt (form_of x) /\ shaped x.
Proof.
  intros LO OP H. unfold fill_leaf in H. destruct (operand_flavor l) as [lo|] eqn:EL; [|discriminate].
  pose proof (operand_spelled _ _ EL) as SL.
  destruct (verify_leaf lo (right_flavor r) op vt) eqn:V; [|discriminate]. destruct r as [s|c]; cbn [right_flavor] in V.
  - destruct (operand_flavor s) as [o|] eqn:ES; injection H as <-; cbn [form_of form_leaf admitted shaped].
    + split; [apply Wr_compare; [exact SL|apply operand_spelled, ES]|]. split; [apply (verify_compare lo o op vt LO), V|split; [exact LO|reflexivity]].
    + split; [apply Wr_name; [exact SL|apply not_spelled, ES]|].
      split; [apply (verify_names lo op vt RfString (or_introl eq_refl)), V|split; [exact LO|reflexivity]].
  - destruct (fill_list c) as [ns|] eqn:F; [|discriminate]. injection H as <-. destruct (fill_list_map _ _ F) as [-> NE].
    cbn [form_of form_leaf admitted shaped].
    split; [apply Wr_names; [exact SL| |exact NE]|].
    { destruct OP as [->|[->|OP]]; [left; reflexivity|right; reflexivity|discriminate OP]. }
    split; [apply (verify_names lo op vt RfList (or_intror eq_refl)), V|split; [exact LO|reflexivity]].
Qed.

Lemma fill_sound vt : forall t x, fill_constraint vt t = Some x ->
  written t (form_of x) /\ admitted vt (form_of x) /\ shaped x.
Proof.
  fix IH 1. intros [w|[|[w|?] c]] x H; try discriminate H. cbn [fill_constraint] in H.
  destruct (operator_flavor w) as [op|] eqn:EO; [|discriminate H]. pose proof (operator_word _ _ EO) as W. clear EO.
  destruct op; rewrite W; clear W.
  - destruct c as [|a [|? ?]]; try discriminate H. destruct (is_list a); [|discriminate H].
    destruct (fill_constraint vt a) as [y|] eqn:E; [|discriminate H]. injection H as <-.
    destruct (IH a y E) as (A & B & C). split; [apply Wr_not, A|]. split; [exact B|exact C].
  - destruct c as [|a [|b [|? ?]]]; try discriminate H. destruct (is_list a && is_list b); [|discriminate H].
    destruct (fill_constraint vt a) as [y|] eqn:E; [|discriminate H].
    destruct (fill_constraint vt b) as [z|] eqn:F; [|discriminate H]. injection H as <-.
    destruct (IH a y E) as (A & B & C). destruct (IH b z F) as (A' & B' & C').
    split; [apply Wr_and; [exact A|exact A']|]. split; [split; [exact B|exact B']|]. split; [left; reflexivity|]. split; [exact C|exact C'].
  - destruct c as [|a [|b [|? ?]]]; try discriminate H. destruct (is_list a && is_list b); [|discriminate H].
    destruct (fill_constraint vt a) as [y|] eqn:E; [|discriminate H].
    destruct (fill_constraint vt b) as [z|] eqn:F; [|discriminate H]. injection H as <-.
    destruct (IH a y E) as (A & B & C). destruct (IH b z F) as (A' & B' & C').
    split; [apply Wr_or; [exact A|exact A']|]. split; [split; [exact B|exact B']|]. split; [right; reflexivity|]. split; [exact C|exact C'].
  - destruct c as [|[l|?] [|r [|? ?]]]; try discriminate H. destruct (is_string r || is_list r); [|discriminate H].
    apply (fill_leaf_sound vt OEq l r x I); [tauto|exact H].
  - destruct c as [|[l|?] [|r [|? ?]]]; try discriminate H. destruct (is_string r || is_list r); [|discriminate H].
    apply (fill_leaf_sound vt ONeq l r x I); [tauto|exact H].
  - destruct c as [|[l|?] [|r [|? ?]]]; try discriminate H. destruct (is_string r) eqn:R; [|discriminate H].
    apply (fill_leaf_sound vt ODom l r x I); [tauto|exact H].
  - destruct c as [|[l|?] [|r [|? ?]]]; try discriminate H. destruct (is_string r) eqn:R; [|discriminate H].
    apply (fill_leaf_sound vt ODomby l r x I); [tauto|exact H].
  - destruct c as [|[l|?] [|r [|? ?]]]; try discriminate H. destruct (is_string r) eqn:R; [|discriminate H].
    apply (fill_leaf_sound vt OIncomp l r x I); [tauto|exact H].
Qed.

Lemma cop_leaf r : leaf_op (cop_of r).
Proof. destruct r; exact I. Qed.

Lemma fill_rel vt r l t : is_string t || (match r with REq | RNeq => is_list t | _ => false end) = true ->
  fill_constraint vt (PList [PName (rel_word r); PName l; t]) = fill_leaf vt (cop_of r) l t.
Proof.
  intros H. cbn [fill_constraint]. rewrite rel_operator. destruct r; cbn [cop_of]; try rewrite orb_false_r in H; rewrite H; reflexivity.
Qed.

Lemma written_is_list t f : written t f -> is_list t = true.
Proof. intros []; reflexivity. Qed.

Lemma fill_complete vt t f : written t f -> admitted vt f ->
  exists x, fill_constraint vt t = Some x /\ form_of x = f.
Proof.
  intros W. induction W as [r sa sb a b SA SB|r sa a n SA SN|r sa a ns SA R NE|t f W IH|t f u g W IH W' IH'|t f u g W IH W' IH']; intros A.
  - rewrite fill_rel by reflexivity. unfold fill_leaf. destruct (spelled_operand _ _ SA) as (oa & EA & <-).
    destruct (spelled_operand _ _ SB) as (ob & EB & <-). rewrite EA. cbn [right_flavor]. rewrite EB.
    assert (V : verify_leaf oa (RfOperand ob) (cop_of r) vt = true).
    { apply (verify_compare oa ob (cop_of r) vt (cop_leaf r)). rewrite rel_of_cop. exact A. }
    rewrite V. eexists. split; [reflexivity|]. cbn [form_of form_leaf]. rewrite rel_of_cop. reflexivity.
  - rewrite fill_rel by reflexivity. unfold fill_leaf. destruct (spelled_operand _ _ SA) as (oa & EA & <-).
    rewrite EA. cbn [right_flavor]. destruct (operand_flavor n) as [o|] eqn:EN.
    { destruct (SN _ (operand_spelled _ _ EN)). }
    rewrite (proj2 (verify_names oa (cop_of r) vt RfString (or_introl eq_refl)) A).
    eexists. split; [reflexivity|]. cbn [form_of form_leaf]. rewrite rel_of_cop. reflexivity.
  - rewrite fill_rel by (destruct ns; [destruct (NE eq_refl)|]; destruct R; subst r; reflexivity).
    unfold fill_leaf. destruct (spelled_operand _ _ SA) as (oa & EA & <-). rewrite EA. cbn [right_flavor].
    rewrite (proj2 (verify_names oa (cop_of r) vt RfList (or_intror eq_refl)) A), (fill_list_complete ns NE).
    eexists. split; [reflexivity|]. cbn [form_of form_leaf]. rewrite rel_of_cop. reflexivity.
  - destruct (IH A) as (x & E & F). exists (XNot x). cbn [fill_constraint].
    change (operator_flavor (chars "not")) with (Some ONot). cbv beta iota.
    rewrite (written_is_list _ _ W), E. split; [reflexivity|]. cbn [form_of]. rewrite F. reflexivity.
  - destruct A as [A A']. destruct (IH A) as (x & E & F). destruct (IH' A') as (y & E' & F'). exists (XBin OAnd x y). cbn [fill_constraint].
    change (operator_flavor (chars "and")) with (Some OAnd). cbv beta iota.
    rewrite (written_is_list _ _ W), (written_is_list _ _ W'), E, E'. split; [reflexivity|]. cbn [form_of]. rewrite F, F'. reflexivity.
  - destruct A as [A A']. destruct (IH A) as (x & E & F). destruct (IH' A') as (y & E' & F'). exists (XBin OOr x y). cbn [fill_constraint].
    change (operator_flavor (chars "or")) with (Some OOr). cbv beta iota.
    rewrite (written_is_list _ _ W), (written_is_list _ _ W'), E, E'. split; [reflexivity|]. cbn [form_of]. rewrite F, F'. reflexivity.
Qed.

Lemma spelled_unique s a b : spelled s a -> spelled s b -> a = b.
Proof.
  intros A B. destruct (spelled_operand _ _ A) as (o & E & <-). destruct (spelled_operand _ _ B) as (o' & E' & <-). congruence.
Qed.

Lemma rel_word_inj r q : rel_word r = rel_word q -> r = q.
Proof. destruct r, q; intros H; try reflexivity; discriminate H. Qed.

Lemma map_PName_inj a : forall b, map PName a = map PName b -> a = b.
Proof. induction a as [|x a IH]; intros [|y b] H; try discriminate; [reflexivity|]. injection H as -> H. rewrite (IH _ H). reflexivity. Qed.

Lemma rel_word_not r : rel_word r <> chars "not".
Proof. destruct r; discriminate. Qed.
Lemma rel_word_and r : rel_word r <> chars "and".
Proof. destruct r; discriminate. Qed.
Lemma rel_word_or r : rel_word r <> chars "or".
Proof. destruct r; discriminate. Qed.

Ltac one_way := repeat match goal with
  | E : rel_word ?r = rel_word ?q |- _ => apply rel_word_inj in E; subst
  | E : map PName _ = map PName _ |- _ => apply map_PName_inj in E; subst
  | A : spelled ?s ?a, B : spelled ?s ?b |- _ => pose proof (spelled_unique s a b A B); subst; clear B
  | A : forall b, ~ spelled ?s b, B : spelled ?s ?a |- _ => destruct (A a B)
  | E : rel_word ?r = chars "not" |- _ => destruct (rel_word_not r E)
  | E : rel_word ?r = chars "and" |- _ => destruct (rel_word_and r E)
  | E : rel_word ?r = chars "or" |- _ => destruct (rel_word_or r E)
  | E : chars "not" = rel_word ?r |- _ => symmetry in E
  | E : chars "and" = rel_word ?r |- _ => symmetry in E
  | E : chars "or" = rel_word ?r |- _ => symmetry in E
  end.

(** An expression is written in one way. *)
Lemma written_unique t f : written t f -> forall g, written t g -> f = g.
Proof.
  intros W. induction W as [r sa sb a b SA SB|r sa a n SA SN|r sa a ns SA R NE|t f W IH|t f u g W IH W' IH'|t f u g W IH W' IH']; intros h H.
  - remember (PList [PName (rel_word r); PName sa; PName sb]) as T eqn:ET. destruct H; try discriminate ET; injection ET; intros; subst; one_way; first [reflexivity|discriminate|match goal with E : _ = rel_word ?q |- _ => destruct q; discriminate E | E : rel_word ?q = _ |- _ => destruct q; discriminate E end].
  - remember (PList [PName (rel_word r); PName sa; PName n]) as T eqn:ET. destruct H; try discriminate ET; injection ET; intros; subst; one_way; first [reflexivity|discriminate|match goal with E : _ = rel_word ?q |- _ => destruct q; discriminate E | E : rel_word ?q = _ |- _ => destruct q; discriminate E end].
  - remember (PList [PName (rel_word r); PName sa; PList (map PName ns)]) as T eqn:ET.
    destruct H; try discriminate ET; try injection ET; intros; subst; one_way; first [reflexivity|discriminate|match goal with E : _ = rel_word ?q |- _ => destruct q; discriminate E | E : rel_word ?q = _ |- _ => destruct q; discriminate E end].
  - remember (PList [PName (chars "not"); t]) as T eqn:ET. destruct H; try discriminate ET;
    try (exfalso; injection ET; intros; match goal with E : rel_word ?r = _ |- _ => exact (rel_word_not r E) end).
    injection ET as ->. rewrite (IH _ H). reflexivity.
  - remember (PList [PName (chars "and"); t; u]) as T eqn:ET. destruct H as [| | | |t' f' u' g' HA HB|]; try discriminate ET;
    try (exfalso; injection ET; intros; match goal with E : rel_word ?r = _ |- _ => exact (rel_word_and r E) end).
    injection ET as -> ->. rewrite (IH _ HA), (IH' _ HB). reflexivity.
  - remember (PList [PName (chars "or"); t; u]) as T eqn:ET. destruct H as [| | | | |t' f' u' g' HA HB]; try discriminate ET;
    try (exfalso; injection ET; intros; match goal with E : rel_word ?r = _ |- _ => exact (rel_word_or r E) end).
    injection ET as -> ->. rewrite (IH _ HA), (IH' _ HB). reflexivity.
Qed.

(** ** Resolved and translated *)
Lemma leaf_kind l w k : op_of l = Attr w k -> leaf_flavor l = kind k.
Proof. destruct l; intros H; try discriminate H; injection H as <- <-; reflexivity. Qed.

Lemma member_bound e b : valid e -> member e b -> b < 4294967232.
Proof.
  intros [V _] (s & m & I & _ & B & _). assert (Q : s + 128 <= 4294967296); [|lia]. clear B. revert V I. generalize 0.
  induction (e_nodes e) as [|[s' m'] l IH]; intros lo V I; [destruct I|]. cbn [valid_nodes] in V. destruct V as (_ & _ & _ & _ & A & V).
  destruct I as [I|I]; [injection I as <- <-; exact A|exact (IH _ V I)].
Qed.

(** The values of a list of names. *)
Definition vals (E : names_env) (k : what) (ns : list (list N)) (v : N) : Prop := exists n, In n ns /\ stands_for E k n v.

Section Env.
  Context (E : names_env) (EOK : env_ok E).

  Lemma set_values_ok k d l : n_values E k d = Some l -> forall e, valid e ->
    exists e', set_values e l = Some e' /\ valid e' /\ forall v, 1 <= v <= 4294967232 -> (member e' (v - 1) <-> member e (v - 1) \/ In v l).
  Proof.
    intros H. pose proof (fun v => EOK k d l v H) as B. clear H EOK. revert B.
    induction l as [|u l IH]; intros B e V; cbn [set_values].
    - exists e. split; [reflexivity|]. split; [exact V|]. intros v _. cbn [In]. tauto.
    - pose proof (B u (or_introl eq_refl)) as Bu.
      assert (PU : pred32 u = u - 1).
      { unfold pred32, wrap32, W32. replace (u + 4294967295) with ((u - 1) + 1 * 4294967296) by lia.
        rewrite N.mod_add by lia. apply N.mod_small. lia. }
      rewrite PU. destruct (set_bit_ok e (u - 1) true V ltac:(lia)) as (e1 & E1 & V1 & G1). rewrite E1.
      destruct (IH (fun v I => B v (or_intror I)) e1 V1) as (e2 & E2 & V2 & G2). exists e2. split; [exact E2|]. split; [exact V2|].
      intros v Hv. rewrite (G2 v Hv), <- (nget_member e1 _ V1), G1, <- (nget_member e _ V). cbn [In].
      destruct (N.eqb_spec (v - 1) (u - 1)) as [C|C].
      + assert (u = v) by lia. split; [intros _; right; left; exact H|intros _; left; reflexivity].
      + split; [intros [A|A]; [left; exact A|right; right; exact A]|]. intros [A|[A|A]]; [left; exact A|lia|right; exact A].
  Qed.

  Lemma names_ok k ns : forall ds, lookup_all E (kind k) ns = Some ds -> forall e e', valid e ->
    data_to_sepol E (kind k) e ds = Some e' ->
    valid e' /\ forall v, 1 <= v <= 4294967232 -> (member e' (v - 1) <-> member e (v - 1) \/ vals E k ns v).
  Proof.
    induction ns as [|n ns IH]; intros ds L e e' V D; cbn [lookup_all] in L.
    - injection L as <-. cbn [data_to_sepol] in D. injection D as <-. split; [exact V|]. intros v _.
      split; [auto|]. intros [A|(n & [] & _)]. exact A.
    - destruct (n_lookup E (kind k) n) as [d|] eqn:EL; [|discriminate]. destruct (lookup_all E (kind k) ns) as [r|] eqn:ER; [|discriminate].
      injection L as <-. cbn [data_to_sepol] in D. destruct (datum_to_sepol E (kind k) e d) as [e1|] eqn:ED; [|discriminate].
      assert (Q : exists l, n_values E (kind k) d = Some l /\ set_values e l = Some e1).
      { unfold datum_to_sepol in ED. destruct k; cbn [kind] in *; (destruct (n_values E _ d) as [l|]; [|discriminate]); eauto. }
      destruct Q as (l & NV & SV). destruct (set_values_ok _ _ _ NV e V) as (e1' & E1 & V1 & G1).
      rewrite SV in E1. injection E1 as <-. destruct (IH r eq_refl e1 e' V1 D) as [V2 G2]. split; [exact V2|].
      intros v Hv. rewrite (G2 v Hv), (G1 v Hv). split.
      + intros [[A|A]|(m & I & S)]; [left; exact A| |].
        * right. exists n. split; [left; reflexivity|]. exists d, l. auto.
        * right. exists m. split; [right; exact I|exact S].
      + intros [A|(m & [<-|I] & S)]; [left; left; exact A| |right; exists m; auto].
        left; right. destruct S as (d' & l' & S1 & S2 & S3). congruence.
  Qed.

  Lemma names_complete k ns : (forall n, In n ns -> exists d, n_lookup E (kind k) n = Some d /\ n_values E (kind k) d <> None) ->
    exists ds, lookup_all E (kind k) ns = Some ds /\ forall e, valid e -> exists e', data_to_sepol E (kind k) e ds = Some e'.
  Proof.
    induction ns as [|n ns IH]; intros K.
    - exists []. split; [reflexivity|]. intros e _. exists e. reflexivity.
    - destruct (K n (or_introl eq_refl)) as (d & L & NV). destruct (IH (fun m I => K m (or_intror I))) as (ds & LA & DS).
      exists (d :: ds). cbn [lookup_all]. rewrite L, LA. split; [reflexivity|]. intros e V. cbn [data_to_sepol].
      destruct (n_values E (kind k) d) as [l|] eqn:EV; [|destruct (NV eq_refl)].
      destruct (set_values_ok _ _ _ EV e V) as (e1 & E1 & V1 & _).
      assert (ED : datum_to_sepol E (kind k) e d = Some e1). { unfold datum_to_sepol. destruct k; cbn [kind] in *; rewrite EV; exact E1. }
      rewrite ED. apply DS, V1.
  Qed.

  Lemma names_known k ns : forall ds e e', lookup_all E (kind k) ns = Some ds -> data_to_sepol E (kind k) e ds = Some e' ->
    forall n, In n ns -> exists d, n_lookup E (kind k) n = Some d /\ n_values E (kind k) d <> None.
  Proof.
    induction ns as [|m ns IH]; intros ds e e' L D n I; [destruct I|]. cbn [lookup_all] in L.
    destruct (n_lookup E (kind k) m) as [d|] eqn:EL; [|discriminate]. destruct (lookup_all E (kind k) ns) as [r|] eqn:ER; [|discriminate].
    injection L as <-. cbn [data_to_sepol] in D. destruct (datum_to_sepol E (kind k) e d) as [e1|] eqn:ED; [|discriminate].
    destruct I as [<-|I]; [|exact (IH r e1 e' eq_refl D n I)].
    exists d. split; [exact EL|]. unfold datum_to_sepol in ED. destruct k; cbn [kind] in *; destruct (n_values E _ d); congruence.
  Qed.

  (** Both forms of naming are lists of names. *)
  Lemma datum_single k e d : datum_to_sepol E (kind k) e d = data_to_sepol E (kind k) e [d].
  Proof. cbn [data_to_sepol]. destruct (datum_to_sepol E (kind k) e d); reflexivity. Qed.

  Definition translated (x : cilexp (list N)) : option (list cexpr) :=
    match resolve_constraint E x with Some y => to_sepol E y | None => None end.

  Lemma translated_not a : translated (XNot a) =
    match translated a with Some l => Some (l ++ [mkCE CEXPR_NOT 0 0 ebitmap_init]) | None => None end.
  Proof. unfold translated. cbn [resolve_constraint]. destruct (resolve_constraint E a); reflexivity. Qed.
  Lemma translated_bin op a b : translated (XBin op a b) =
    match translated a, translated b with
    | Some l, Some m => Some (l ++ m ++ [mkCE (match op with OAnd => CEXPR_AND | _ => CEXPR_OR end) 0 0 ebitmap_init])
    | _, _ => None end.
  Proof.
    unfold translated. cbn [resolve_constraint]. destruct (resolve_constraint E a) as [c|]; [|reflexivity].
    destruct (resolve_constraint E b) as [d|]; [reflexivity|]. destruct (to_sepol E c); reflexivity.
  Qed.

  (** A leaf comparing with names. *)
  Definition names_leaf_of (op : cop) (l : operand) (ns : list (list N)) : option cexpr :=
    match lookup_all E (leaf_flavor l) ns with
    | Some ds =>
        match leaf_attr l (RiList ds), data_to_sepol E (leaf_flavor l) ebitmap_init ds with
        | Some a, Some e => Some (mkCE CEXPR_NAMES a (op_code op) e)
        | _, _ => None
        end
    | None => None
    end.
  Lemma translated_names op l r w k : op_of l = Attr w k ->
    translated (XLeaf op (leaf_flavor l) l r) =
    match r with
    | RiOperand o => match leaf_attr l (RiOperand o) with Some a => Some [mkCE CEXPR_ATTR a (op_code op) ebitmap_init] | None => None end
    | RiOne s => option_map (fun e => [e]) (names_leaf_of op l [s])
    | RiList ns => option_map (fun e => [e]) (names_leaf_of op l ns)
    end.
  Proof.
    intros A. unfold translated, names_leaf_of. destruct r as [s|ns|o]; cbn [resolve_constraint lookup_all].
    - destruct (n_lookup E (leaf_flavor l) s) as [d|]; [|reflexivity]. cbn [to_sepol leaf_to_sepol].
      unfold leaf_to_sepol. assert (Q : leaf_attr l (RiOne d) = leaf_attr l (RiList [d])) by (destruct l; reflexivity). rewrite Q.
      destruct (leaf_attr l (RiList [d])); [|reflexivity]. rewrite (leaf_kind _ _ _ A), datum_single.
      destruct (data_to_sepol E (kind k) ebitmap_init [d]); reflexivity.
    - destruct (lookup_all E (leaf_flavor l) ns) as [ds|]; [|reflexivity]. cbn [to_sepol]. unfold leaf_to_sepol.
      destruct (leaf_attr l (RiList ds)); [|reflexivity]. destruct (data_to_sepol E (leaf_flavor l) ebitmap_init ds); reflexivity.
    - cbn [to_sepol]. unfold leaf_to_sepol. destruct (leaf_attr l (RiOperand o)); reflexivity.
  Qed.

End Env.

Section Meaning.
  Context (E : names_env) (EOK : env_ok E).

  Lemma names_any k ns ds e' : lookup_all E (kind k) ns = Some ds ->
    data_to_sepol E (kind k) ebitmap_init ds = Some e' ->
    valid e' /\ forall v, 1 <= v -> (member e' (v - 1) <-> vals E k ns v).
  Proof.
    intros L D. destruct (names_ok E EOK k ns ds L ebitmap_init e' valid_init D) as [V H]. split; [exact V|]. intros v Hv.
    destruct (N.le_gt_cases v 4294967232) as [B|B].
    - rewrite (H v (conj Hv B)). split; [intros [(s & m & [] & _)|A]; exact A|right; assumption].
    - split.
      + intros M. pose proof (member_bound e' (v - 1) V M). lia.
      + intros (n & I & d & l & _ & NV & IV). pose proof (EOK _ _ _ _ NV IV). lia.
  Qed.

  Lemma attr_code l w k ds : op_of l = Attr w k -> leaf_attr l (RiList ds) = Some (what_code k + who_code w).
  Proof. destruct l; intros H; try discriminate H; injection H as <- <-; reflexivity. Qed.

  Lemma eq_op op : leaf_op op -> rel_of op = REq \/ rel_of op = RNeq ->
    op_code op = eq_code (match rel_of op with REq => true | _ => false end).
  Proof. destruct op; intros L H; destruct L; try reflexivity; destruct H; discriminate. Qed.

  Lemma rel_op op : leaf_op op -> op_code op = rel_code (rel_of op).
  Proof. destruct op; intros L; destruct L; reflexivity. Qed.

  (** The meaning is that of the formula of the access decision. *)
  Definition means (vt : bool) (f : formula) (l : list cexpr) : Prop :=
    exists cf, cwrites l cf /\ cdepth cf = cells f /\ sets_ok cf /\ (vt = false -> no_third cf) /\
      forall P s t x, ctx_ok s -> ctx_ok t -> (forall c, x = Some c -> ctx_ok c) ->
        (cholds P s t x cf <-> holds E P s t x f).

  Lemma means_names vt op l w k ns e : leaf_op op -> op_of l = Attr w k -> (w = WThird -> vt = true) ->
    rel_of op = REq \/ rel_of op = RNeq -> names_leaf_of E op l ns = Some e -> means vt (Among (rel_of op) (op_of l) ns) [e].
  Proof.
    intros LO A T R N. unfold names_leaf_of in N. rewrite (leaf_kind _ _ _ A) in N.
    destruct (lookup_all E (kind k) ns) as [ds|] eqn:EL; [|discriminate]. rewrite (attr_code l w k ds A) in N.
    destruct (data_to_sepol E (kind k) ebitmap_init ds) as [b|] eqn:ED; [|discriminate]. injection N as <-.
    destruct (names_any k ns ds b EL ED) as [V M]. rewrite (eq_op op LO R).
    exists (CLeaf (FNames w k (match rel_of op with REq => true | _ => false end) b)).
    split; [apply CW_leaf; exact (LC_names w k _ b)|]. split; [reflexivity|]. split; [exact V|].
    split. { intros ->. cbn. destruct w; try exact I. discriminate (T eq_refl). }
    intros P s t x Hs Ht Hx. rewrite A. cbn [cholds leaf_holds holds].
    assert (Q : forall c, ctx_ok c -> (member b (attr_of k c - 1) <-> vals E k ns (attr_of k c))).
    { intros c (C1 & C2 & C3 & _). apply M. destruct k; cbn [attr_of]; lia. }
    assert (Z : forall c, match w with WSrc => Some s | WTgt => Some t | WThird => x end = Some c -> ctx_ok c).
    { intros c HC. destruct w; [injection HC as <-; exact Hs|injection HC as <-; exact Ht|exact (Hx c HC)]. }
    unfold the. split.
    - intros (c & HC & EQ). exists c. split; [exact HC|]. specialize (Q c (Z c HC)). unfold vals in Q.
      destruct R as [R|R]; rewrite R in *; cbn [same_or_not eq_or_not] in *; tauto.
    - intros (c & HC & EQ). exists c. split; [exact HC|]. specialize (Q c (Z c HC)). unfold vals in Q.
      destruct R as [R|R]; rewrite R in *; cbn [same_or_not eq_or_not] in *; tauto.
  Qed.

  Lemma two_ctx (s t : context) (x : option context) (Q : context -> context -> Prop) :
    (exists c d, the WSrc s t x = Some c /\ the WTgt s t x = Some d /\ Q c d) <-> Q s t.
  Proof.
    split; [|intros H; exists s, t; auto]. intros (c & d & A & B & H). cbn [the] in A, B. injection A as <-. injection B as <-. exact H.
  Qed.

  Lemma level_pair s t x a b la lb r : level_of s t x a la -> level_of s t x b lb ->
    ((exists l m, level_of s t x a l /\ level_of s t x b m /\ levels_related r l m) <-> levels_related r la lb).
  Proof.
    intros A B. assert (U : forall o l m, level_of s t x o l -> level_of s t x o m -> l = m).
    { intros o l m X Y. destruct X as [w c X|w c X]; inversion Y; congruence. }
    split; [|intros H; exists la, lb; auto].
    intros (l & m & A' & B' & H). rewrite (U _ _ _ A A'), (U _ _ _ B B'). exact H.
  Qed.

  Lemma means_compare vt op l o a : leaf_op op -> legal_compare (rel_of op) (op_of l) (op_of o) ->
    leaf_attr l (RiOperand o) = Some a -> means vt (Compare (rel_of op) (op_of l) (op_of o)) [mkCE CEXPR_ATTR a (op_code op) ebitmap_init].
  Proof.
    intros LO [(k & A & B & C)|I] LA.
    - destruct l; try discriminate A; injection A as <-; destruct o; try discriminate B; injection LA as <-.
      + destruct C as [C|C]; [discriminate C|]. rewrite (eq_op op LO C). eexists.
        split; [apply CW_leaf; exact (LC_users _ _)|]. split; [reflexivity|]. split; [exact I|]. split; [intros _; exact I|].
        intros P s t x _ _ _. cbn [cholds leaf_holds holds op_of]. rewrite (two_ctx s t x (fun c d => same_or_not (rel_of op) (c_user c = c_user d))).
        destruct C as [C|C]; rewrite C; reflexivity.
      + rewrite (rel_op op LO). eexists.
        split; [apply CW_leaf; exact (LC_roles _ _)|]. split; [reflexivity|]. split; [exact I|]. split; [intros _; exact I|].
        intros P s t x _ _ _. cbn [cholds leaf_holds holds op_of]. rewrite (two_ctx s t x (fun c d => roles_related P (rel_of op) (c_role c) (c_role d))).
        destruct (rel_of op); reflexivity.
      + destruct C as [C|C]; [discriminate C|]. rewrite (eq_op op LO C). eexists.
        split; [apply CW_leaf; exact (LC_types _ _)|]. split; [reflexivity|]. split; [exact I|]. split; [intros _; exact I|].
        intros P s t x _ _ _. cbn [cholds leaf_holds holds op_of]. rewrite (two_ctx s t x (fun c d => same_or_not (rel_of op) (c_type c = c_type d))).
        destruct C as [C|C]; rewrite C; reflexivity.
    - rewrite (rel_op op LO).
      assert (G : forall p, a = lpair_code p -> (forall s t x, level_of s t x (op_of l) (fst (lpair_of p s t)) /\ level_of s t x (op_of o) (snd (lpair_of p s t))) ->
        (forall P s t x, holds E P s t x (Compare (rel_of op) (op_of l) (op_of o)) <->
          exists u m, level_of s t x (op_of l) u /\ level_of s t x (op_of o) m /\ levels_related (rel_of op) u m) ->
        means vt (Compare (rel_of op) (op_of l) (op_of o)) [mkCE CEXPR_ATTR a (rel_code (rel_of op)) ebitmap_init]).
      { intros p -> LV HH. exists (CLeaf (FLevels p (rel_of op))). split; [apply CW_leaf; exact (LC_levels p _ _)|].
        split; [reflexivity|]. split; [exact Logic.I|]. split; [intros _; exact Logic.I|]. intros P s t x _ _ _. rewrite HH.
        destruct (LV s t x) as [X Y]. rewrite (level_pair s t x _ _ _ _ (rel_of op) X Y). cbn [cholds leaf_holds].
        destruct (lpair_of p s t) as [u m]. cbn [fst snd]. destruct (rel_of op); reflexivity. }
      cbn [In] in I. destruct I as [I|[I|[I|[I|[I|[I|[]]]]]]]; injection I; intros B A;
      destruct l; try discriminate A; destruct o; try discriminate B; injection LA as <-.
      + apply (G L1L2); [reflexivity| |intros; reflexivity]. intros s t x. split; [apply Lv_low|apply Lv_low]; reflexivity.
      + apply (G L1H2); [reflexivity| |intros; reflexivity]. intros s t x. split; [apply Lv_low|apply Lv_high]; reflexivity.
      + apply (G H1L2); [reflexivity| |intros; reflexivity]. intros s t x. split; [apply Lv_high|apply Lv_low]; reflexivity.
      + apply (G H1H2); [reflexivity| |intros; reflexivity]. intros s t x. split; [apply Lv_high|apply Lv_high]; reflexivity.
      + apply (G L1H1); [reflexivity| |intros; reflexivity]. intros s t x. split; [apply Lv_low|apply Lv_high]; reflexivity.
      + apply (G L2H2); [reflexivity| |intros; reflexivity]. intros s t x. split; [apply Lv_low|apply Lv_high]; reflexivity.
  Qed.

  Lemma translated_means vt x : shaped x -> legal vt (form_of x) -> forall l, translated E x = Some l -> means vt (form_of x) l.
  Proof.
    induction x as [op k l r|a IH|op a IHa b IHb]; intros SH LG m T.
    - destruct SH as [LO ->]. destruct r as [s|ns|o]; cbn [form_of form_leaf legal] in *.
      + destruct LG as [(w & k & A & B) R]. rewrite (translated_names E op l _ w k A) in T.
        destruct (names_leaf_of E op l [s]) as [e|] eqn:N; [|discriminate]. injection T as <-. exact (means_names vt op l w k _ e LO A B R N).
      + destruct LG as [(w & k & A & B) R]. rewrite (translated_names E op l _ w k A) in T.
        destruct (names_leaf_of E op l ns) as [e|] eqn:N; [|discriminate]. injection T as <-. exact (means_names vt op l w k _ e LO A B R N).
      + unfold translated in T. cbn [resolve_constraint to_sepol] in T. unfold leaf_to_sepol in T.
        destruct (leaf_attr l (RiOperand o)) as [a|] eqn:LA; [|discriminate]. injection T as <-. exact (means_compare vt op l o a LO LG LA).
    - rewrite translated_not in T. destruct (translated E a) as [la|] eqn:TA; [|discriminate]. injection T as <-.
      destruct (IH SH LG la eq_refl) as (cf & W & D & V & T3 & M). exists (CNot cf). cbn [form_of].
      split; [apply CW_not; [exact W|reflexivity]|]. split; [exact D|]. split; [exact V|]. split; [exact T3|].
      intros P s t x Hs Ht Hx. cbn [cholds holds]. rewrite (M P s t x Hs Ht Hx). reflexivity.
    - rewrite translated_bin in T. destruct (translated E a) as [la|] eqn:TA; [|discriminate].
      destruct (translated E b) as [lb|] eqn:TB; [|discriminate]. injection T as <-.
      destruct SH as (OP & SA & SB). destruct OP; subst op; cbn [form_of legal] in *; destruct LG as [LA LB];
      destruct (IHa SA LA la eq_refl) as (cf & W & D & V & T3 & M); destruct (IHb SB LB lb eq_refl) as (cg & W' & D' & V' & T3' & M').
      + exists (CAnd cf cg). split; [apply CW_and; [exact W|exact W'|reflexivity]|]. split; [cbn [cdepth cells]; rewrite D, D'; reflexivity|].
        split; [split; assumption|]. split; [intros Z; split; [exact (T3 Z)|exact (T3' Z)]|].
        intros P s t x Hs Ht Hx. cbn [cholds holds]. rewrite (M P s t x Hs Ht Hx), (M' P s t x Hs Ht Hx). reflexivity.
      + exists (COr cf cg). split; [apply CW_or; [exact W|exact W'|reflexivity]|]. split; [cbn [cdepth cells]; rewrite D, D'; reflexivity|].
        split; [split; assumption|]. split; [intros Z; split; [exact (T3 Z)|exact (T3' Z)]|].
        intros P s t x Hs Ht Hx. cbn [cholds holds]. rewrite (M P s t x Hs Ht Hx), (M' P s t x Hs Ht Hx). reflexivity.
  Qed.

  (** What is translated at all. *)
  Lemma compare_attr l o : (exists a, leaf_attr l (RiOperand o) = Some a) <-> op_of l <> High WTgt.
  Proof. destruct l; cbn; (split; [intros [a H]; discriminate|intros H; try (destruct o; eexists; reflexivity); destruct (H eq_refl)]). Qed.

  Lemma names_leaf_iff op l w k ns : op_of l = Attr w k -> ((exists e, names_leaf_of E op l ns = Some e) <->
    forall n, In n ns -> exists d, n_lookup E (kind k) n = Some d /\ n_values E (kind k) d <> None).
  Proof.
    intros A. unfold names_leaf_of. rewrite (leaf_kind _ _ _ A). split.
    - intros (e & H). destruct (lookup_all E (kind k) ns) as [ds|] eqn:L; [|discriminate].
      destruct (leaf_attr l (RiList ds)); [|discriminate]. destruct (data_to_sepol E (kind k) ebitmap_init ds) as [b|] eqn:D; [|discriminate].
      exact (names_known E k ns ds _ b L D).
    - intros K. destruct (names_complete E EOK k ns K) as (ds & L & H). destruct (H ebitmap_init valid_init) as (b & D).
      rewrite L, (attr_code l w k ds A), D. eexists. reflexivity.
  Qed.

  Lemma translated_iff vt x : shaped x -> admitted vt (form_of x) ->
    ((exists l, translated E x = Some l) <-> taken vt (form_of x) /\ known E (form_of x)).
  Proof.
    induction x as [op k l r|a IH|op a IHa b IHb]; intros SH AD.
    - destruct SH as [LO ->].
      assert (NM : forall ns w k, op_of l = Attr w k -> ((exists e, option_map (fun e => [e]) (names_leaf_of E op l ns) = Some e) <->
        known E (Among (rel_of op) (op_of l) ns))).
      { intros ns w k A. assert (Z : (exists e, option_map (fun e => [e]) (names_leaf_of E op l ns) = Some e) <-> exists e, names_leaf_of E op l ns = Some e).
        { destruct (names_leaf_of E op l ns) as [e|]; cbn; (split; intros (u & H); [try discriminate; eauto|try discriminate; eauto]). }
        rewrite Z, (names_leaf_iff op l w k ns A). cbn [known]. split.
        - intros H w' k' n Q In_. rewrite A in Q. injection Q as <- <-. exact (H n In_).
        - intros H n In_. exact (H w k n A In_). }
      destruct r as [s|ns|o]; cbn [form_of form_leaf admitted] in AD |- *.
      + pose proof AD as (w & k & A & _). rewrite (translated_names E op l _ w k A), (NM [s] w k A). cbn [taken]. tauto.
      + pose proof AD as (w & k & A & _). rewrite (translated_names E op l _ w k A), (NM ns w k A). cbn [taken]. tauto.
      + cbn [taken known]. transitivity (exists a, leaf_attr l (RiOperand o) = Some a).
        * unfold translated. cbn [resolve_constraint to_sepol]. unfold leaf_to_sepol. destruct (leaf_attr l (RiOperand o)) as [a|];
          (split; intros (u & H); [try discriminate; eauto|try discriminate; eauto]).
        * rewrite compare_attr. split.
          -- intros H. split; [|exact Logic.I]. destruct AD as [AD|AD]; [left; exact AD|right; auto].
          -- intros [[LC|[_ H]] _]; [|exact H]. intros C. rewrite C in LC. destruct LC as [(k & Q & _)|Q]; [discriminate|].
             cbn [In] in Q. repeat (destruct Q as [Q|Q]; [discriminate|]). destruct Q.
    - rewrite translated_not. cbn [form_of taken known]. rewrite <- (IH SH AD).
      destruct (translated E a); (split; intros (u & H); [try discriminate; eauto|try discriminate; eauto]).
    - rewrite translated_bin. destruct SH as (OP & SA & SB).
      assert (Q : admitted vt (form_of a) /\ admitted vt (form_of b)) by (destruct OP; subst op; exact AD). destruct Q as [AA AB].
      transitivity ((exists l, translated E a = Some l) /\ (exists l, translated E b = Some l)).
      + destruct (translated E a), (translated E b); (split; [intros (u & H); try discriminate; eauto|intros ((u & H) & (v & H')); try discriminate; eauto]).
      + rewrite (IHa SA AA), (IHb SB AB). destruct OP; subst op; cbn [form_of taken known]; tauto.
  Qed.

  (** The depth test. *)
  Lemma translated_depth x : shaped x -> forall l, translated E x = Some l -> forall rest d, (d <= 5)%nat ->
    validate_constrain (l ++ rest) d = if Nat.leb (d + cells (form_of x)) 5 then validate_constrain rest (S d) else false.
  Proof.
    induction x as [op k l r|a IH|op a IHa b IHb]; intros SH m T rest d Hd.
    - assert (Q : exists e, m = [e] /\ (ce_type e = CEXPR_ATTR \/ ce_type e = CEXPR_NAMES)).
      { unfold translated in T. destruct (resolve_constraint E (XLeaf op k l r)) as [y|] eqn:R; [|discriminate].
        assert (Y : exists r', y = XLeaf op k l r').
        { destruct r as [s|ns|o]; cbn [resolve_constraint] in R.
          - destruct (n_lookup E k s); [|discriminate]. injection R as <-. eauto.
          - destruct (lookup_all E k ns); [|discriminate]. injection R as <-. eauto.
          - injection R as <-. eauto. }
        destruct Y as (r' & ->). cbn [to_sepol] in T. destruct (leaf_to_sepol E op k l r') as [e|] eqn:LS; [|discriminate].
        injection T as <-. exists e. split; [reflexivity|]. unfold leaf_to_sepol in LS. destruct (leaf_attr l r'); [|discriminate].
        destruct r' as [d0|ds|o].
        - destruct (datum_to_sepol E k ebitmap_init d0); [|discriminate]. injection LS as <-. right; reflexivity.
        - destruct (data_to_sepol E k ebitmap_init ds); [|discriminate]. injection LS as <-. right; reflexivity.
        - injection LS as <-. left; reflexivity. }
      destruct Q as (e & -> & TY). cbn [app validate_constrain].
      assert (Z : (ce_type e =? CEXPR_NOT) = false /\ ((ce_type e =? CEXPR_AND) || (ce_type e =? CEXPR_OR)) = false /\
                  ((ce_type e =? CEXPR_ATTR) || (ce_type e =? CEXPR_NAMES)) = true) by (destruct TY as [->| ->]; repeat split; reflexivity).
      destruct Z as (-> & -> & ->). assert (CE1 : cells (form_of (XLeaf op k l r)) = 1%nat) by (destruct r; reflexivity). rewrite CE1.
      unfold CEXPR_MAXDEPTH. destruct (Nat.eqb_spec d 5) as [->|ND]; [reflexivity|].
      destruct (Nat.leb_spec (d + 1) 5); [reflexivity|lia].
    - rewrite translated_not in T. destruct (translated E a) as [la|]; [|discriminate]. injection T as <-.
      rewrite <- app_assoc, (IH SH la eq_refl _ d Hd). cbn [form_of cells]. destruct (Nat.leb (d + cells (form_of a)) 5); [|reflexivity]. reflexivity.
    - rewrite translated_bin in T. destruct (translated E a) as [la|]; [|discriminate].
      destruct (translated E b) as [lb|]; [|discriminate]. injection T as <-. destruct SH as (OP & SA & SB).
      rewrite <- !app_assoc, (IHa SA la eq_refl _ d Hd).
      assert (CC : cells (form_of (XBin op a b)) = Nat.max (cells (form_of a)) (S (cells (form_of b)))) by (destruct OP; subst op; reflexivity).
      assert (C1 : (1 <= cells (form_of b))%nat).
      { clear. induction (form_of b); cbn [cells]; lia. }
      rewrite CC. destruct (Nat.leb_spec (d + cells (form_of a)) 5) as [A|A].
      + destruct (Nat.eq_dec d 5) as [->|ND]. { exfalso. assert (1 <= cells (form_of a))%nat by (clear; induction (form_of a); cbn [cells]; lia). lia. }
        rewrite (IHb SB lb eq_refl _ (S d) ltac:(lia)).
        destruct (Nat.leb_spec (S d + cells (form_of b)) 5) as [B|B].
        * destruct (Nat.leb_spec (d + Nat.max (cells (form_of a)) (S (cells (form_of b)))) 5); [|lia].
          destruct OP; subst op; reflexivity.
        * destruct (Nat.leb_spec (d + Nat.max (cells (form_of a)) (S (cells (form_of b)))) 5); [lia|reflexivity].
      + destruct (Nat.leb_spec (d + Nat.max (cells (form_of a)) (S (cells (form_of b)))) 5); [lia|reflexivity].
  Qed.
End Meaning.
