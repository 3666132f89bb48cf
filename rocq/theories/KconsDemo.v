(** A concrete policy used as the non-trivial case beside the theorems on writing constraints as CIL. *)
From Coq Require Import String.
From Verif Require Import Base EbitmapModel EbitmapSpec EbitmapProofs MlsModel MlsSpec MlsDemo AssertModel TypesetModel ServicesModel ServicesSpec
  CilparseModel CilparseSpec CilparseProofs CilexprModel KcilModel KcilSpec CilctxModel
  CilconsModel CilconsSpec CilconsProofs KconsModel KconsSpec.
Local Open Scope N_scope.
Local Open Scope list_scope.

(** Demo data, models no code: types ta, tb, tc and the attribute dom of ta and tb; the class file with the permissions
    read and write; the constraints "u1 == u2 or t1 == { tc dom }" on both and "l1 dom l2" on read, and the transition
    rule "t3 == ta". *)
Definition kd_type (attr : bool) (l : list N) : option tinfo := Some (mkTI attr false (demo_set l)).
(** Demo data, models no code. *)
Definition kd_e1 : kexpr := mkKX (mkCE 4 1 1 ebitmap_init) ebitmap_init.
(** Demo data, models no code. *)
Definition kd_e2 : kexpr := mkKX (mkCE 5 4 1 (demo_set [0; 1; 2])) (demo_set [2; 3]).
(** Demo data, models no code. *)
Definition kd_e3 : kexpr := mkKX (mkCE 3 0 0 ebitmap_init) ebitmap_init.
(** Demo data, models no code. *)
Definition kd_e4 : kexpr := mkKX (mkCE 4 32 3 ebitmap_init) ebitmap_init.
(** Demo data, models no code. *)
Definition kd_e5 : kexpr := mkKX (mkCE 5 20 1 (demo_set [0])) (demo_set [0]).
(** Demo data, models no code. *)
Definition kd_c1 : kcons := mkKN 3 [kd_e1; kd_e2; kd_e3].
(** Demo data, models no code. *)
Definition kd_c2 : kcons := mkKN 1 [kd_e4].
(** Demo data, models no code. *)
Definition kd_v : kcons := mkKN 0 [kd_e5].
(** Demo data, models no code. *)
Definition kd_class : kclass :=
  mkKC (chars "file") 2 (fun v => if v =? 1 then Some (chars "read") else if v =? 2 then Some (chars "write") else None)
    [kd_c1; kd_c2] [kd_v].
(** Demo data, models no code: class 1 is not there. *)
Definition kd : kpol :=
  mkKP [Some (chars "uone"); Some (chars "utwo")] [Some (chars "rone")]
    [Some (chars "ta"); Some (chars "tb"); Some (chars "tc"); Some (chars "dom")]
    [kd_type false []; kd_type false []; kd_type false []; kd_type true [0; 1]]
    [None; Some kd_class].

(** Demo data, models no code: in the new policy the types are numbered otherwise, and so are the permissions. *)
Definition kd_env : names_env :=
  mkNE (fun k n => match k with
                   | LUser => if same_str n (chars "uone") then Some 1 else if same_str n (chars "utwo") then Some 2 else None
                   | LRole => if same_str n (chars "rone") then Some 1 else None
                   | LType => if same_str n (chars "ta") then Some 3 else if same_str n (chars "tb") then Some 1
                              else if same_str n (chars "tc") then Some 2 else if same_str n (chars "dom") then Some 4 else None
                   | _ => None
                   end)
       (fun k d => match k with
                   | LUser | LRole | LType => if d =? 4 then Some [1; 3] else if (1 <=? d) && (d <=? 3) then Some [d] else None
                   | _ => None
                   end).
(** Demo data, models no code. *)
Definition kd_R (k : what) (v v' : N) : Prop :=
  match k with
  | KUser => In (v, v') [(1, 1); (2, 2)]
  | KRole => In (v, v') [(1, 1)]
  | KType => In (v, v') [(1, 3); (2, 1); (3, 2)]
  end.
(** Demo data, models no code. *)
Definition kd_code (w : list N) : N := fold_left (fun a c => a * 256 + c) w 1.
(** Demo data, models no code. *)
Definition kd_perms (n : N) : option decl :=
  if n =? kd_code (chars "read") then Some (DLeaf 1) else if n =? kd_code (chars "write") then Some (DLeaf 0) else None.
(** Demo data, models no code. *)
Definition kd_cl : cclasses := fun k => if same_str k (chars "file") then Some (5, kd_perms, 2, [0; 1]) else None.

Lemma kd_one : one_to_one kd_R.
Proof.
  intros k v v' w w' A B. destruct k; cbn [kd_R In] in A, B;
    repeat match goal with H : _ \/ _ |- _ => destruct H as [H|H] | H : (_, _) = (_, _) |- _ => injection H as <- <- | H : False |- _ => destruct H end; lia.
Qed.

Lemma in_bits e l : valid e -> positive_bits e = Some l -> forall b, member e b <-> In b l.
Proof. intros V H b. destruct (positive_bits_correct e V) as (l' & Q & _ & S). rewrite H in Q. injection Q as <-. symmetry. apply S. Qed.

Lemma kd_mem l : positive_bits (demo_set l) = Some l -> valid (demo_set l) -> forall b, member (demo_set l) b <-> In b l.
Proof. intros H V. exact (in_bits _ _ V H). Qed.

Ltac wordy := cbn; repeat (apply Forall_cons; [unfold word_char; lia|]); apply Forall_nil.

Lemma kd_called k i n : called kd k i n ->
  In (k, i, n) [(KUser, 1, chars "uone"); (KUser, 2, chars "utwo"); (KRole, 1, chars "rone"); (KType, 1, chars "ta");
                (KType, 2, chars "tb"); (KType, 3, chars "tc"); (KType, 4, chars "dom")].
Proof.
  intros (L & H).
  assert (G : forall (tab : list (option (list N))) j (m : list N), nth_error tab j = Some (Some m) -> In (N.of_nat j + 1, m) (map (fun x => (N.of_nat (fst x) + 1, match snd x with Some m => m | None => [] end)) (combine (seq 0 (List.length tab)) tab))).
  { clear. intros tab j m H. apply in_map_iff. exists (j, Some m). split; [reflexivity|].
    assert (Q : forall (tab : list (option (list N))) b j, nth_error tab j = Some (Some m) -> In ((b + j)%nat, Some m) (combine (seq b (List.length tab)) tab)).
    { clear. induction tab as [|x tab IH]; intros b j H; [destruct j; discriminate H|]. destruct j as [|j]; cbn [nth_error] in H.
      - injection H as ->. left. f_equal. lia.
      - right. replace (b + S j)%nat with (S b + j)%nat by lia. apply IH. exact H. }
    exact (Q tab 0%nat j H). }
  apply G in H. replace (N.of_nat (N.to_nat (i - 1)) + 1) with i in H by lia. destruct k; cbn [names_of] in H; vm_compute in H.
  - destruct H as [H|[H|[]]]; injection H as <- <-; cbn [In]; auto 10.
  - destruct H as [H|[]]; injection H as <- <-; cbn [In]; auto 10.
  - destruct H as [H|[H|[H|[H|[]]]]]; injection H as <- <-; cbn [In]; auto 10.
Qed.

Ltac cases_in := repeat match goal with H : _ \/ _ |- _ => destruct H as [H|H] | H : (_, _) = (_, _) |- _ => injection H as <- <- | H : False |- _ => destruct H end.

Lemma kd_names : names_declared kd kd_env kd_R.
Proof.
  assert (M : forall b, member (demo_set [0; 1]) b <-> In b [0; 1]) by (apply kd_mem; [vm_compute; reflexivity|apply valid_check; reflexivity]).
  assert (G : forall k i n d l, n_lookup kd_env (CilconsSpec.kind k) n = Some d -> n_values kd_env (CilconsSpec.kind k) d = Some l ->
    (forall v v', kd_R k v v' -> (In v' l <-> stands kd k i v)) ->
    (exists d, n_lookup kd_env (CilconsSpec.kind k) n = Some d /\ n_values kd_env (CilconsSpec.kind k) d <> None) /\
    forall v v', kd_R k v v' -> (stands_for kd_env k n v' <-> stands kd k i v)).
  { intros k i n d l HL HV HS. split; [exists d; split; [exact HL|congruence]|]. intros v v' Hv. rewrite <- (HS v v' Hv). split.
    - intros (d' & l' & A & B & C). congruence.
    - intros C. exists d, l. auto. }
  assert (T : forall i v, stands kd KType (N.of_nat i + 1) v <-> match i with 0%nat | 1%nat | 2%nat => v = N.of_nat i + 1 | 3%nat => In (v - 1) [0; 1] | _ => False end).
  { intros i v. unfold stands. replace (N.to_nat (N.of_nat i + 1 - 1)) with i by lia. cbn [kp_tinfo kd]. do 4 (destruct i as [|i]; [cbn [nth_error]; split;
      [intros (t & Q & J); injection Q as <-; cbn [ti_attr ti_types] in J; try (apply M in J); exact J
      |intros J; eexists; split; [reflexivity|]; cbn [ti_attr ti_types]; try (apply M); exact J]|]).
    split; [intros (t & Q & _); destruct i; discriminate Q|intros []]. }
  intros k i n H. apply kd_called in H. cbn [In] in H.
  destruct H as [H|[H|[H|[H|[H|[H|[H|[]]]]]]]]; injection H as <- <- <-;
    (eapply G; [vm_compute; reflexivity|vm_compute; reflexivity|]); intros v v' Hv; cbn [kd_R In] in Hv; cbn [In].
  - cbn [stands]. cases_in; lia.
  - cbn [stands]. cases_in; lia.
  - cbn [stands]. cases_in; lia.
  - rewrite (T 0%nat v). cases_in; lia.
  - rewrite (T 1%nat v). cases_in; lia.
  - rewrite (T 2%nat v). cases_in; lia.
  - rewrite (T 3%nat v). cbn [In]. cases_in; lia.
Qed.

Lemma kd_env_ok : env_ok kd_env.
Proof.
  intros k d l v H I. destruct k; cbn [n_values kd_env] in H; try discriminate H;
    (destruct (d =? 4); [injection H as <-; cbn [In] in I; lia|]; destruct ((1 <=? d) && (d <=? 3)) eqn:Q; [|discriminate H]; injection H as <-; cbn [In] in I; lia).
Qed.

Lemma kd_the cls c : the_class kd cls c -> cls = 2 /\ c = kd_class.
Proof.
  intros (L & H). cbn [kp_classes kd] in H. remember (N.to_nat (cls - 1)) as j eqn:Ej. destruct j as [|[|[|j]]]; try discriminate H.
  cbn [nth_error] in H. injection H as <-. split; [lia|reflexivity].
Qed.

Lemma kd_perm_now p p' : perm_now kd_code kd_perms kd_class p p' <-> (p = 0 /\ p' = 1) \/ (p = 1 /\ p' = 0).
Proof.
  assert (PR : plain_name (chars "read")).
  { split; [discriminate|]. split; [wordy|]. intros H. vm_compute in H.
    repeat (destruct H as [H|H]; [discriminate H|]). exact H. }
  assert (PW : plain_name (chars "write")).
  { split; [discriminate|]. split; [wordy|]. intros H. vm_compute in H.
    repeat (destruct H as [H|H]; [discriminate H|]). exact H. }
  split.
  - intros (L & q & Q & _ & T). change (kc_nperms kd_class) with 2 in L. assert (X : p = 0 \/ p = 1) by lia.
    destruct X as [->| ->]; vm_compute in Q; injection Q as <-; vm_compute in T; injection T as <-; auto.
  - intros [(-> & ->)|(-> & ->)].
    + split; [reflexivity|]. exists (chars "read"). split; [reflexivity|]. split; [exact PR|vm_compute; reflexivity].
    + split; [reflexivity|]. exists (chars "write"). split; [reflexivity|]. split; [exact PW|vm_compute; reflexivity].
Qed.

Lemma kd_declared : classes_declared kd kd_code kd_cl.
Proof.
  split.
  - intros cls c TC. destruct (kd_the cls c TC) as (-> & ->). exists 5, kd_perms. split; [exists 2, [0; 1]; reflexivity|]. split.
    + intros p L _. change (kc_nperms kd_class) with 2 in L. assert (X : p = 0 \/ p = 1) by lia. destruct X as [->| ->].
      * exists 1. split; [apply kd_perm_now; auto|lia].
      * exists 0. split; [apply kd_perm_now; auto|lia].
    + intros p q r A B. apply kd_perm_now in A. apply kd_perm_now in B. lia.
  - intros i j c d r tb tb' TC TD _ _. destruct (kd_the i c TC), (kd_the j d TD). lia.
Qed.

Lemma names_fields e w k eq set : leaf_code e (FNames w k eq set) -> ce_type e = 5 /\ ce_attr e = what_code k + who_code w /\ ce_names e = set.
Proof. intros H. remember (FNames w k eq set) as lf. destruct H; try discriminate. injection Heqlf as -> -> -> ->. auto. Qed.

Lemma type_attr a k w : what_code k + who_code w = a -> a = 4 \/ a = 20 -> k = KType.
Proof. intros <-. destruct k, w; vm_compute; intros [H|H]; congruence. Qed.

Lemma kd_word n : In n [chars "ta"; chars "tb"; chars "tc"; chars "dom"] -> n <> [] /\ Forall word_char n.
Proof.
  intros [<-|[<-|[<-|[<-|[]]]]]; (split; [discriminate|]); wordy.
Qed.

Lemma kd_nameable x : In x [kd_e1; kd_e2; kd_e3; kd_e4; kd_e5] -> nameable kd x.
Proof.
  assert (M01 : forall b, member (demo_set [0; 1]) b <-> In b [0; 1]) by (apply kd_mem; [vm_compute; reflexivity|apply valid_check; reflexivity]).
  assert (M012 : forall b, member (demo_set [0; 1; 2]) b <-> In b [0; 1; 2]) by (apply kd_mem; [vm_compute; reflexivity|apply valid_check; reflexivity]).
  assert (M23 : forall b, member (demo_set [2; 3]) b <-> In b [2; 3]) by (apply kd_mem; [vm_compute; reflexivity|apply valid_check; reflexivity]).
  assert (M0 : forall b, member (demo_set [0]) b <-> In b [0]) by (apply kd_mem; [vm_compute; reflexivity|apply valid_check; reflexivity]).
  assert (T : forall i v, stands kd KType (N.of_nat i + 1) v <-> match i with 0%nat | 1%nat | 2%nat => v = N.of_nat i + 1 | 3%nat => In (v - 1) [0; 1] | _ => False end).
  { intros i v. unfold stands. replace (N.to_nat (N.of_nat i + 1 - 1)) with i by lia. cbn [kp_tinfo kd]. do 4 (destruct i as [|i]; [cbn [nth_error]; split;
      [intros (t & Q & J); injection Q as <-; cbn [ti_attr ti_types] in J; try (apply M01 in J); exact J
      |intros J; eexists; split; [reflexivity|]; cbn [ti_attr ti_types]; try (apply M01); exact J]|]).
    split; [intros (t & Q & _); destruct i; discriminate Q|intros []]. }
  intros I w k eq set LC. destruct (names_fields _ _ _ _ _ LC) as (TY & AT & NM).
  destruct I as [<-|[<-|[<-|[<-|[<-|[]]]]]]; try discriminate TY.
  - pose proof (type_attr 4 k w (eq_sym AT) (or_introl eq_refl)) as ->. cbn [kx kd_e2 ce_names] in NM. subst set. cbn [named_set kx_types kd_e2].
    split; [apply valid_check; reflexivity|]. split; [exists 2; apply M23; cbn [In]; auto|]. split.
    + intros i Hi. apply M23 in Hi. destruct Hi as [<-|[<-|[]]].
      * exists (chars "tc"). split; [split; [lia|reflexivity]|]. destruct (kd_word (chars "tc")) as (A & B); [cbn [In]; auto|]. split; [exact A|]. split; [exact B|].
        intros U. specialize (U 3 (proj2 (M23 3) (or_intror (or_introl eq_refl)))). discriminate U.
      * exists (chars "dom"). split; [split; [lia|reflexivity]|]. destruct (kd_word (chars "dom")) as (A & B); [cbn [In]; auto|]. split; [exact A|]. split; [exact B|].
        intros U. specialize (U 2 (proj2 (M23 2) (or_introl eq_refl))). discriminate U.
    + intros v L. rewrite (M012 (v - 1)). split.
      * intros H. assert (X : v = 3 \/ In (v - 1) [0; 1]) by (cbn [In] in *; lia). destruct X as [->|X].
        -- exists 2. split; [apply M23; cbn [In]; auto|]. apply (T 2%nat 3). reflexivity.
        -- exists 3. split; [apply M23; cbn [In]; auto|]. apply (T 3%nat v). exact X.
      * intros (i & Hi & S). apply M23 in Hi. destruct Hi as [<-|[<-|[]]].
        -- apply (T 2%nat v) in S. subst v. cbn [In]. auto.
        -- apply (T 3%nat v) in S. cbn [In] in *. lia.
  - pose proof (type_attr 20 k w (eq_sym AT) (or_intror eq_refl)) as ->. cbn [kx kd_e5 ce_names] in NM. subst set. cbn [named_set kx_types kd_e5].
    split; [apply valid_check; reflexivity|]. split; [exists 0; apply M0; cbn [In]; auto|]. split.
    + intros i Hi. apply M0 in Hi. destruct Hi as [<-|[]].
      exists (chars "ta"). split; [split; [lia|reflexivity]|]. destruct (kd_word (chars "ta")) as (A & B); [cbn [In]; auto|]. split; [exact A|]. split; [exact B|].
      intros _. apply not_spelled. vm_compute; reflexivity.
    + intros v L. rewrite (M0 (v - 1)). split.
      * intros [H|[]]. exists 0. split; [apply M0; cbn [In]; auto|]. apply (T 0%nat v). lia.
      * intros (i & Hi & S). apply M0 in Hi. destruct Hi as [<-|[]]. apply (T 0%nat v) in S. subst v. cbn [In]. auto.
Qed.

Lemma kd_writable cls c : the_class kd cls c -> class_writable kd true c.
Proof.
  intros TC. destruct (kd_the cls c TC) as (-> & ->). split; [discriminate|].
  split; [wordy|].
  assert (NB : forall l, (forall x, In x l -> In x [kd_e1; kd_e2; kd_e3; kd_e4; kd_e5]) -> Forall (nameable kd) l).
  { intros l H. apply Forall_forall. intros x Hx. apply kd_nameable, H, Hx. }
  split.
  - intros n [<-|[<-|[]]].
    + split.
      * exists (COr (CLeaf (FUsers true)) (CLeaf (FNames WSrc KType true (demo_set [0; 1; 2])))). split.
        { apply (CW_or [kx kd_e1] (CLeaf (FUsers true)) [kx kd_e2] (CLeaf (FNames WSrc KType true (demo_set [0; 1; 2]))) (kx kd_e3)); [| |reflexivity].
          - apply CW_leaf. exact (LC_users true ebitmap_init).
          - apply CW_leaf. exact (LC_names WSrc KType true (demo_set [0; 1; 2])). }
        split; [cbn; lia|]. split; [cbn [nesting]; lia|]. split; [split; [exact I|apply valid_check; reflexivity]|].
        split; [intros _; split; exact I|]. split; [intros [[]|[]]|]. apply NB. intros x [<-|[<-|[<-|[]]]]; cbn [In]; auto.
      * intros p T. change (kc_nperms kd_class) with 2. assert (X : p < 2).
        { destruct (N.lt_ge_cases p 2) as [X|X]; [exact X|]. exfalso. cbn [kn_perms kd_c1] in T. rewrite N.bits_above_log2 in T; [discriminate|]. change (N.log2 3) with 1. lia. }
        split; [exact X|]. assert (Y : p = 0 \/ p = 1) by lia. destruct Y as [->| ->]; discriminate.
    + split.
      * exists (CLeaf (FLevels L1L2 RDom)). split; [apply CW_leaf; exact (LC_levels L1L2 RDom ebitmap_init)|].
        split; [cbn; lia|]. split; [cbn [nesting]; lia|]. split; [exact I|]. split; [intros _; exact I|]. split; [reflexivity|].
        apply NB. intros x [<-|[]]; cbn [In]; auto.
      * intros p T. change (kc_nperms kd_class) with 2. assert (X : p < 1).
        { destruct (N.lt_ge_cases p 1) as [X|X]; [exact X|]. exfalso. cbn [kn_perms kd_c2] in T. rewrite N.bits_above_log2 in T; [discriminate|]. change (N.log2 1) with 0. lia. }
        split; [lia|]. assert (Y : p = 0) by lia. subst p. discriminate.
  - intros n [<-|[]]. exists (CLeaf (FNames WThird KType true (demo_set [0]))). split; [apply CW_leaf; exact (LC_names WThird KType true (demo_set [0]))|].
    split; [cbn; lia|]. split; [cbn [nesting]; lia|]. split; [apply valid_check; reflexivity|]. split; [discriminate|]. split; [intros []|].
    apply NB. intros x [<-|[]]; cbn [In]; auto 10.
Qed.

(** Demo data, models no code: the statement (x) and a newline. *)
Definition kd_mid : list N := [40; 120; 41; 10].
Lemma kd_other : other_statements kd_mid [PList [PName [120]]].
Proof.
  split; [|split; [|split]].
  - apply (W_list 0 [120] [PName [120]] [10] []); [lia| |apply W_blank; [auto|apply W_end]].
    apply (W_symbol 0 [120] [] []); [discriminate| |exact I|apply W_end]. apply Forall_cons; [unfold word_char; lia|apply Forall_nil].
  - cbn [In kd_mid]. intuition discriminate.
  - cbn [In kd_mid]. intuition discriminate.
  - intros c t [H|[]]. injection H as <- <-. intros J. vm_compute in J. repeat (destruct J as [J|J]; [discriminate J|]). exact J.
Qed.
