(** Proofs about the binary format. *)
From Coq Require Import Permutation.
From Verif Require Import Base EbitmapModel EbitmapSpec EbitmapProofs MlsModel AvtabModel TypesetModel CondModel ServicesModel CodecModel CodecSpec.

Lemma octets bs : forallb byte_ok bs = true <-> Forall octet bs.
Proof. rewrite forallb_Forall. split; intros H; eapply Forall_impl; try exact H; intros x; unfold byte_ok, octet; cbn; lia. Qed.
Lemma octet_rest used rest : Forall octet (used ++ rest) -> Forall octet rest.
Proof. intros H. apply Forall_app in H. apply H. Qed.

(** Writers that do not fail. *)
Definition rt {A} (w : A -> list N) (r : list N -> option (A * list N)) (ok : A -> Prop) : Prop :=
  forall x, ok x -> Forall octet (w x) /\ w x <> [] /\ forall rest, r (w x ++ rest) = Some (x, rest).
Lemma rt_keeps {A} (w : A -> list N) r ok : rt w r ok -> keeps (fun x => Some (w x)) r ok.
Proof. intros H x O. destruct (H x O) as (A1 & _ & A2). exists (w x). auto. Qed.

Lemma only_bind {A B} (r : list N -> option (A * list N)) okA (k : A -> list N -> option (B * list N)) okB :
  only r okA -> (forall x, okA x -> only (k x) okB) -> only (fun bs => rbind (r bs) k) okB.
Proof.
  intros H K bs y rest O E. destruct (r bs) as [[x b1]|] eqn:R; [|discriminate]. cbn [rbind] in E. destruct (H _ _ _ O R) as (OK & u & ->).
  destruct (K x OK _ _ _ (octet_rest _ _ O) E) as (OK2 & u2 & ->). split; [exact OK2|]. exists (u ++ u2). apply app_assoc.
Qed.
Lemma only_ret {A} (x : A) (ok : A -> Prop) : ok x -> only (fun bs => Some (x, bs)) ok.
Proof. intros H bs y rest _ E. injection E as <- <-. split; [exact H|]. exists []. reflexivity. Qed.
Lemma only_none {A} (ok : A -> Prop) : only (fun _ => None) ok.
Proof. intros bs y rest _ E. discriminate. Qed.
Lemma only_if {A} (b : bool) r1 r2 (ok : A -> Prop) : (b = true -> only r1 ok) -> (b = false -> only r2 ok) -> only (fun bs => if b then r1 bs else r2 bs) ok.
Proof. destruct b; intros H1 H2; [apply H1|apply H2]; reflexivity. Qed.
Lemma only_weaken {A} r (ok ok' : A -> Prop) : only r ok -> (forall x, ok x -> ok' x) -> only r ok'.
Proof. intros H W bs x rest O E. destruct (H bs x rest O E). auto. Qed.

Lemma le_only k : only (le_dec k) (fun x => x < 256 ^ N.of_nat k).
Proof.
  intros bs x rest O E. apply octets in O. split; [apply (le_dec_bound _ _ _ _ O E)|]. exists (le_enc k x). apply (le_dec_split _ _ _ _ O E).
Qed.
Lemma le_rt k : k <> 0%nat -> rt (le_enc k) (le_dec k) (fun x => x < 256 ^ N.of_nat k).
Proof.
  intros K x H. split; [apply octets, le_enc_bytes|]. split; [intros E; apply (f_equal (@length N)) in E; rewrite le_enc_length in E; cbn in E; lia|].
  intros rest. apply le_dec_enc, H.
Qed.
Lemma get32_only : only get32 word. Proof. exact (le_only 4). Qed.
Lemma put32_rt : rt put32 get32 word. Proof. apply (le_rt 4). discriminate. Qed.
Lemma get16_only : only (le_dec 2) half. Proof. exact (le_only 2). Qed.
Lemma get8_only : only (le_dec 1) octet. Proof. exact (le_only 1). Qed.
Lemma get_put x rest : word x -> get32 (put32 x ++ rest) = Some (x, rest). Proof. intros H. apply put32_rt, H. Qed.
Lemma put_octets x : Forall octet (put32 x). Proof. apply octets, le_enc_bytes. Qed.
Lemma put_len x : length (put32 x) = 4%nat. Proof. apply le_enc_length. Qed.
Lemma put_nil x : put32 x <> []. Proof. discriminate. Qed.
Lemma get16_put x rest : half x -> le_dec 2 (le_enc 2 x ++ rest) = Some (x, rest). Proof. intros H. apply (le_rt 2); [discriminate|exact H]. Qed.
Lemma get8_put x rest : octet x -> le_dec 1 (le_enc 1 x ++ rest) = Some (x, rest). Proof. intros H. apply (le_rt 1); [discriminate|exact H]. Qed.

Lemma read_nodes_used : forall n high prev bs l rest, forallb byte_ok bs = true -> read_nodes n high prev bs = Some (l, rest) -> exists used, bs = used ++ rest.
Proof.
  induction n as [|n IH]; intros high prev bs l rest O E; cbn [read_nodes] in E; [injection E as <- <-; exists []; reflexivity|].
  destruct (le_dec 4 bs) as [[s b1]|] eqn:D1; [|discriminate]. pose proof (le_dec_split _ _ _ _ O D1) as ->. destruct (le_dec_bound _ _ _ _ O D1) as [_ O1].
  destruct (negb _); [discriminate|]. destruct (_ <? s); [discriminate|]. destruct (le_dec 8 b1) as [[m b2]|] eqn:D2; [|discriminate].
  pose proof (le_dec_split _ _ _ _ O1 D2) as ->. destruct (le_dec_bound _ _ _ _ O1 D2) as [_ O2]. destruct (m =? 0); [discriminate|].
  destruct (match prev with Some p => s <=? p | None => false end); [discriminate|]. destruct (read_nodes n high (Some s) b2) as [[l' b3]|] eqn:R; [|discriminate].
  injection E as <- <-. destruct (IH _ _ _ _ _ O2 R) as (u & ->). exists (le_enc 4 s ++ le_enc 8 m ++ u). rewrite <- !app_assoc. reflexivity.
Qed.
Lemma ebitmap_only : only ebitmap_read valid.
Proof.
  intros bs e rest O E. apply octets in O. split; [apply (read_valid bs e rest O E)|]. unfold ebitmap_read in E.
  destruct (le_dec 4 bs) as [[ms b1]|] eqn:D1; [|discriminate]. pose proof (le_dec_split _ _ _ _ O D1) as ->. destruct (le_dec_bound _ _ _ _ O D1) as [_ O1].
  destruct (le_dec 4 b1) as [[hi b2]|] eqn:D2; [|discriminate]. pose proof (le_dec_split _ _ _ _ O1 D2) as ->. destruct (le_dec_bound _ _ _ _ O1 D2) as [_ O2].
  destruct (le_dec 4 b2) as [[ct b3]|] eqn:D3; [|discriminate]. pose proof (le_dec_split _ _ _ _ O2 D3) as ->. destruct (le_dec_bound _ _ _ _ O2 D3) as [_ O3].
  destruct (negb _); [discriminate|]. destruct (hi =? 0).
  { injection E as <- <-. exists (le_enc 4 ms ++ le_enc 4 hi ++ le_enc 4 ct). rewrite <- !app_assoc. reflexivity. }
  destruct (negb _); [discriminate|]. destruct (ct =? 0); [discriminate|]. destruct (read_nodes _ hi None b3) as [[l r]|] eqn:R; [|discriminate].
  destruct (last_startbit l); [|discriminate]. destruct (_ =? hi); [|discriminate]. injection E as <- <-. destruct (read_nodes_used _ _ _ _ _ _ O3 R) as (u & ->).
  exists (le_enc 4 ms ++ le_enc 4 hi ++ le_enc 4 ct ++ u). rewrite <- !app_assoc. reflexivity.
Qed.
Lemma write_ebitmap_octets e : Forall octet (ebitmap_write e).
Proof.
  unfold ebitmap_write. repeat (apply Forall_app; split); try apply octets, le_enc_bytes.
  induction (e_nodes e) as [|n l IH]; [constructor|]. cbn [flat_map]. repeat (apply Forall_app; split); try apply octets, le_enc_bytes. exact IH.
Qed.
Lemma ebitmap_rt : rt ebitmap_write ebitmap_read valid.
Proof.
  intros e V. split; [apply write_ebitmap_octets|]. split; [|intros rest; apply read_write, V]. intros E. apply (f_equal (@length N)) in E. unfold ebitmap_write in E.
  rewrite !app_length, !le_enc_length in E. cbn in E. lia.
Qed.
Lemma get_bitmap e rest : valid e -> ebitmap_read (ebitmap_write e ++ rest) = Some (e, rest). Proof. intros V. apply read_write, V. Qed.

(** Lists. *)
Lemma read_n_only {A} (r : list N -> option (A * list N)) ok : only r ok -> forall n, only (read_n r n) (fun l => Forall ok l /\ length l = n).
Proof.
  intros H n. induction n as [|n IH]; cbn [read_n]; [apply only_ret; split; [constructor|reflexivity]|].
  apply (only_bind _ ok); [exact H|]. intros x OX. apply (only_bind _ _ _ _ IH). intros l [OL LL]. apply only_ret. cbn. auto.
Qed.
Lemma rounds_le n bs : N.of_nat (rounds n bs) <= n.
Proof. unfold rounds. lia. Qed.
Lemma rounds_ok n bs : N.of_nat n <= N.of_nat (length bs) + 1 -> rounds (N.of_nat n) bs = n.
Proof. unfold rounds. lia. Qed.
Lemma write_all_len {A} (w : A -> list N) l : (forall x, In x l -> w x <> []) -> (length l <= length (write_all_of w l))%nat.
Proof.
  unfold write_all_of. induction l as [|x l IH]; intros H; cbn [map concat length]; [lia|]. rewrite app_length. specialize (IH ltac:(intros y Y; apply H; right; exact Y)).
  pose proof (H x (or_introl eq_refl)). destruct (w x); [congruence|cbn [length]; lia].
Qed.
Lemma read_n_rt {A} (w : A -> list N) r ok : rt w r ok -> forall l, Forall ok l ->
  Forall octet (write_all_of w l) /\ forall rest, read_n r (length l) (write_all_of w l ++ rest) = Some (l, rest).
Proof.
  intros H l. unfold write_all_of. induction l as [|x l IH]; intros F; cbn [map concat length read_n]; [split; [constructor|reflexivity]|].
  apply Forall_cons_iff in F as [OX F]. destruct (IH F) as [O1 R1]. destruct (H x OX) as (O2 & _ & R2). split; [apply Forall_app; auto|]. intros rest.
  rewrite <- app_assoc, R2. cbn [rbind]. rewrite R1. reflexivity.
Qed.
Lemma read_list_only {A} (r : list N -> option (A * list N)) ok : only r ok -> only (read_list r) (fun l => short l /\ Forall ok l).
Proof.
  intros H. unfold read_list. apply (only_bind _ word); [exact get32_only|]. intros n WN bs x rest O E.
  destruct (read_n_only r ok H _ _ _ _ O E) as [[F L] U]. split; [|exact U]. split; [|exact F]. unfold short. rewrite L. pose proof (rounds_le n bs). unfold word in WN. lia.
Qed.
Lemma read_list_rt {A} (w : A -> list N) r ok : rt w r ok -> rt (write_list w) (read_list r) (fun l => short l /\ Forall ok l).
Proof.
  intros H l [SH F]. destruct (read_n_rt w r ok H l F) as [O R]. unfold write_list, read_list. split; [apply Forall_app; split; [apply put_octets|exact O]|].
  split; [destruct (put32 _) eqn:E; [exfalso; eapply put_nil; exact E|discriminate]|]. intros rest. rewrite <- app_assoc, get_put by exact SH. cbn [rbind].
  rewrite rounds_ok; [apply R|]. rewrite app_length. pose proof (write_all_len w l). assert (forall x, In x l -> w x <> []) by (intros x X; rewrite Forall_forall in F; apply (H x (F x X))). lia.
Qed.

(** Sets and levels. *)
Ltac oct := repeat match goal with |- Forall _ (_ ++ _) => apply Forall_app; split end; first [apply put_octets|apply write_ebitmap_octets|apply Forall_nil|idtac].
Ltac nonnil := let E := fresh in intros E; apply (f_equal (@length N)) in E; rewrite ?app_length, ?put_len in E; cbn [length] in E; lia.
Lemma nonnil_l {A} (a b : list A) : a <> [] -> a ++ b <> [].
Proof. destruct a; [congruence|discriminate]. Qed.
Lemma ebitmap_write_nil e : ebitmap_write e <> [].
Proof. intros E. apply (f_equal (@length N)) in E. unfold ebitmap_write in E. rewrite !app_length, !le_enc_length in E. cbn in E. lia. Qed.

Lemma role_set_rt : rt role_set_write role_set_read role_set_ok.
Proof.
  intros [e f] [V W]. cbn [rs_roles rs_flags] in *. unfold role_set_write, role_set_read. cbn [rs_roles rs_flags]. split; [oct|]. split; [apply nonnil_l, ebitmap_write_nil|].
  intros rest. rewrite <- !app_assoc, get_bitmap by exact V. cbn [rbind]. rewrite get_put by exact W. reflexivity.
Qed.
Lemma role_set_only : only role_set_read role_set_ok.
Proof.
  unfold role_set_read. apply (only_bind _ _ _ _ ebitmap_only). intros e V. apply (only_bind _ _ _ _ get32_only). intros f W. apply only_ret. split; assumption.
Qed.
Lemma type_set_rt : rt type_set_write type_set_read type_set_ok.
Proof.
  intros [e n f] (V & V2 & W). cbn [ts_types ts_neg ts_flags] in *. unfold type_set_write, type_set_read. cbn [ts_types ts_neg ts_flags]. split; [oct|]. split; [apply nonnil_l, ebitmap_write_nil|].
  intros rest. rewrite <- !app_assoc, get_bitmap by exact V. cbn [rbind]. rewrite get_bitmap by exact V2. cbn [rbind]. rewrite get_put by exact W. reflexivity.
Qed.
Lemma type_set_only : only type_set_read type_set_ok.
Proof.
  unfold type_set_read. apply (only_bind _ _ _ _ ebitmap_only). intros e V. apply (only_bind _ _ _ _ ebitmap_only). intros n V2. apply (only_bind _ _ _ _ get32_only). intros f W.
  apply only_ret. split; [|split]; assumption.
Qed.
Lemma level_rt : rt mls_write_level mls_read_level level_ok.
Proof.
  intros [s c] [W V]. cbn [l_sens l_cat] in *. unfold mls_write_level, mls_read_level. cbn [l_sens l_cat]. split; [oct|]. split; [apply nonnil_l, put_nil|].
  intros rest. rewrite <- !app_assoc, get_put by exact W. cbn [rbind]. rewrite get_bitmap by exact V. reflexivity.
Qed.
Lemma level_only : only mls_read_level level_ok.
Proof.
  unfold mls_read_level. apply (only_bind _ _ _ _ get32_only). intros s W. apply (only_bind _ _ _ _ ebitmap_only). intros c V. apply only_ret. split; assumption.
Qed.
Lemma cpy_id e : ebitmap_cpy e = e.
Proof. destruct e as [l h]. unfold ebitmap_cpy. cbn [e_nodes e_high]. f_equal. induction l as [|[a b] l IH]; cbn [map fst snd]; [reflexivity|rewrite IH; reflexivity]. Qed.
Lemma range_rt : rt mls_write_range_helper mls_read_range_helper range_ok.
Proof.
  intros [[s0 c0] [s1 c1]] [[W0 V0] [W1 V1]]. unfold mls_write_range_helper, mls_read_range_helper, mls_level_eq. cbn [l_sens l_cat r_low r_high] in *.
  destruct ((s1 =? s0) && ebitmap_cmp c1 c0) eqn:EQ.
  - apply andb_true_iff in EQ as [E1 E2]. apply N.eqb_eq in E1. apply cmp_eq in E2. subst s1 c1. split; [oct|]. split; [apply nonnil_l, put_nil|].
    intros rest. rewrite <- !app_assoc, get_put by (unfold word; lia). cbn [rbind]. change (2 <? 1) with false. change (1 =? 0) with false. change (1 =? 2) with false. change (1 <? 1) with false. cbn iota.
    rewrite get_put by exact W0. cbn [rbind]. rewrite get_bitmap by exact V0. cbn [rbind]. rewrite cpy_id. reflexivity.
  - split; [oct|]. split; [apply nonnil_l, put_nil|].
    intros rest. rewrite <- !app_assoc, get_put by (unfold word; lia). cbn [rbind]. change (2 <? 2) with false. change (2 =? 0) with false. change (2 =? 2) with true. change (1 <? 2) with true. cbn iota.
    rewrite get_put by exact W0. cbn [rbind]. rewrite get_put by exact W1. cbn [rbind]. rewrite get_bitmap by exact V0. cbn [rbind]. rewrite get_bitmap by exact V1. reflexivity.
Qed.
Lemma range_only : only mls_read_range_helper range_ok.
Proof.
  unfold mls_read_range_helper. apply (only_bind _ _ _ _ get32_only). intros items WI. apply only_if; intros _; [apply only_none|].
  apply (only_bind _ word).
  { apply only_if; intros _; [apply only_ret; exact WI|exact get32_only]. }
  intros s0 W0. apply (only_bind _ word).
  { apply only_if; intros _; [exact get32_only|apply only_ret; exact W0]. }
  intros s1 W1. apply (only_bind _ _ _ _ ebitmap_only). intros c0 V0. apply (only_bind _ valid).
  { apply only_if; intros _; [exact ebitmap_only|apply only_ret; rewrite cpy_id; exact V0]. }
  intros c1 V1. apply only_ret. split; split; assumption.
Qed.
Lemma pair_rt : rt (fun c => put32 (fst c) ++ put32 (snd c)) get_pair (fun c => word (fst c) /\ word (snd c)).
Proof.
  intros [a b] [W1 W2]. cbn [fst snd] in *. unfold get_pair. split; [oct|]. split; [apply nonnil_l, put_nil|]. intros rest. rewrite <- !app_assoc, get_put by exact W1. cbn [rbind]. rewrite get_put by exact W2. reflexivity.
Qed.
Lemma pair_only : only get_pair (fun c => word (fst c) /\ word (snd c)).
Proof. unfold get_pair. apply (only_bind _ _ _ _ get32_only). intros a W. apply (only_bind _ _ _ _ get32_only). intros b W2. apply only_ret. split; assumption. Qed.
Lemma slevel_trip l : slevel_ok l -> Forall octet (mls_write_semantic_level l) /\ mls_write_semantic_level l <> [] /\
  forall rest, mls_read_semantic_level (mls_write_semantic_level l ++ rest) = Some (mkSL (sl_sens l) (rev (sl_cat l)), rest).
Proof.
  destruct l as [s c]. intros (W & SH & F). cbn [sl_sens sl_cat] in *. destruct (read_n_rt _ _ _ pair_rt c F) as [O R]. unfold mls_write_semantic_level, mls_read_semantic_level. cbn [sl_sens sl_cat].
  split; [oct; exact O|]. split; [apply nonnil_l, put_nil|]. intros rest. rewrite <- !app_assoc, get_put by exact W. cbn [rbind]. rewrite get_put by exact SH. cbn [rbind].
  rewrite rounds_ok; [rewrite R; reflexivity|]. rewrite app_length. pose proof (write_all_len (fun c => put32 (fst c) ++ put32 (snd c)) c). assert (forall x, In x c -> put32 (fst x) ++ put32 (snd x) <> []) by (intros x _; apply nonnil_l, put_nil). lia.
Qed.
Lemma slevel_only : only mls_read_semantic_level slevel_ok.
Proof.
  unfold mls_read_semantic_level. apply (only_bind _ _ _ _ get32_only). intros s W. apply (only_bind _ _ _ _ get32_only). intros n WN.
  intros bs x rest O E. revert bs x rest O E. intros bs x rest O E. destruct (read_n get_pair (rounds n bs) bs) as [[l b]|] eqn:R; [|discriminate]. cbn [rbind] in E. injection E as <- <-.
  destruct (read_n_only _ _ pair_only _ _ _ _ O R) as [[F L] U]. split; [|exact U]. split; [exact W|]. cbn [sl_cat sl_sens]. split.
  - unfold short. rewrite rev_length, L. pose proof (rounds_le n bs). unfold word in WN. lia.
  - apply Forall_rev, F.
Qed.

(** Contexts. *)
Lemma has_mls_range_ok v : has_mls_range v = true <-> ranges_stored v.
Proof. unfold has_mls_range, ranges_stored. rewrite orb_true_iff, !andb_true_iff, !N.leb_le. tauto. Qed.
Lemma has_mls_range_no v : has_mls_range v = false <-> ~ ranges_stored v.
Proof. rewrite <- has_mls_range_ok. destruct (has_mls_range v); intuition congruence. Qed.
Lemma context_rt p v : rt (context_write v) (context_read_and_validate p v) (context_ok p v).
Proof.
  intros [u r t rg] (W1 & W2 & W3 & VC & HR & NR). cbn [c_user c_role c_type c_range] in *. unfold context_write, context_read_and_validate. cbn [c_user c_role c_type c_range].
  destruct (has_mls_range v) eqn:HM.
  - apply has_mls_range_ok in HM. destruct (range_rt rg (HR HM)) as (O & _ & R). split; [oct; exact O|]. split; [apply nonnil_l, put_nil|]. intros rest.
    rewrite <- !app_assoc, get_put by exact W1. cbn [rbind]. rewrite get_put by exact W2. cbn [rbind]. rewrite get_put by exact W3. cbn [rbind]. rewrite R. cbn [rbind]. rewrite VC. reflexivity.
  - apply has_mls_range_no in HM. split; [oct|]. split; [apply nonnil_l, put_nil|]. intros rest. fold no_range in NR. rewrite (NR HM) in *.
    rewrite <- !app_assoc, get_put by exact W1. cbn [rbind]. rewrite get_put by exact W2. cbn [rbind]. rewrite get_put by exact W3. cbn [rbind app]. rewrite VC. reflexivity.
Qed.
Lemma context_only p v : only (context_read_and_validate p v) (context_ok p v).
Proof.
  unfold context_read_and_validate. apply (only_bind _ _ _ _ get32_only). intros u W1. apply (only_bind _ _ _ _ get32_only). intros r W2. apply (only_bind _ _ _ _ get32_only). intros t W3.
  apply (only_bind _ (fun rg => (ranges_stored v -> range_ok rg) /\ (~ ranges_stored v -> rg = no_range))).
  { apply only_if; intros HM.
    - apply has_mls_range_ok in HM. apply (only_weaken _ _ _ range_only). intros rg RG. split; [intros _; exact RG|contradiction].
    - apply has_mls_range_no in HM. apply only_ret. split; [contradiction|reflexivity]. }
  intros rg [R1 R2]. apply only_if; intros VC; [|apply only_none]. apply only_ret. unfold context_ok. cbn [c_user c_role c_type c_range]. auto 7.
Qed.

(** Constraints. *)
Lemma xtarget_bit a : (N.land a CEXPR_XTARGET =? 0) = negb (N.testbit a 4).
Proof.
  change CEXPR_XTARGET with (2 ^ 4). destruct (N.testbit a 4) eqn:T; cbn [negb].
  - apply N.eqb_neq. intros E. assert (X : N.testbit (N.land a (2 ^ 4)) 4 = true) by (rewrite N.land_spec, T, N.pow2_bits_true; reflexivity). rewrite E in X. discriminate.
  - apply N.eqb_eq. apply N.bits_inj. intros i. rewrite N.land_spec, N.bits_0. destruct (N.eq_dec i 4) as [->|NE]; [rewrite T; reflexivity|]. rewrite N.pow2_bits_false by congruence. apply andb_false_r.
Qed.
Lemma has_type_names_ok v : has_type_names v = true <-> names_stored v.
Proof. unfold has_type_names, names_stored. rewrite orb_true_iff, negb_true_iff, N.leb_le. tauto. Qed.
Lemma has_type_names_no v : has_type_names v = false <-> ~ names_stored v.
Proof. rewrite <- has_type_names_ok. destruct (has_type_names v); intuition congruence. Qed.
Lemma write_cexprs_app v xt a b : write_cexprs v xt (a ++ b) = match write_cexprs v xt a, write_cexprs v xt b with Some x, Some y => Some (x ++ y) | _, _ => None end.
Proof.
  induction a as [|e a IH]; cbn [app write_cexprs]; [destruct (write_cexprs v xt b); reflexivity|]. rewrite IH. destruct (write_cexpr v xt e); [|reflexivity].
  destruct (write_cexprs v xt a); [|reflexivity]. destruct (write_cexprs v xt b); [rewrite app_assoc; reflexivity|reflexivity].
Qed.
Definition cont v xt m e d b := rbind (read_cexprs v xt m d b) (fun r b' => Some ((e :: fst r, snd r), b')).
Lemma leaf_trip v xt e : leaf_ok v xt e -> exists bs, write_cexpr v xt e = Some bs /\ Forall octet bs /\ bs <> [] /\
  forall m d rest, (d <> 4)%Z -> read_cexprs v xt (S m) d (bs ++ rest) = cont v xt m e (d + 1)%Z rest.
Proof.
  destruct e as [[ty at0 op nm] tn]. intros ((W1 & W2) & H). cbn [ct_expr ct_types ce_type ce_attr ce_op ce_names] in *. unfold write_cexpr. cbn [ct_expr ct_types ce_type ce_attr ce_op ce_names].
  destruct H as [(-> & NN1 & NN2)|(-> & V & XT & TS & NT)].
  - cbn [ct_expr ct_types ce_names] in *. subst nm tn. eexists. split; [reflexivity|]. split; [oct|]. split; [apply nonnil_l, put_nil|]. intros m d rest D. cbn [read_cexprs]. rewrite <- !app_assoc, get_put by (unfold word; lia). cbn [rbind].
    rewrite get_put by exact W1. cbn [rbind]. rewrite get_put by exact W2. cbn [rbind]. change (4 =? CEXPR_NOT) with false. change ((4 =? CEXPR_AND) || (4 =? CEXPR_OR)) with false. change (4 =? CEXPR_ATTR) with true. cbn iota.
    destruct (Z.eqb_spec d 4); [congruence|]. reflexivity.
  - change (5 =? CEXPR_NAMES) with true. cbn iota. rewrite xtarget_bit, negb_involutive.
    assert (XF : negb xt && N.testbit at0 4 = false) by (destruct XT as [-> | ->]; [reflexivity|apply andb_false_r]). rewrite XF.
    assert (TR : Forall octet (if has_type_names v then type_set_write tn else []) /\ forall rest, (if has_type_names v then type_set_read ((if has_type_names v then type_set_write tn else []) ++ rest) else Some (no_types, (if has_type_names v then type_set_write tn else []) ++ rest)) = Some (tn, rest)).
    { destruct (has_type_names v) eqn:HT; [apply has_type_names_ok in HT; destruct (type_set_rt tn (TS HT)) as (A & _ & B); auto|]. apply has_type_names_no in HT. split; [constructor|]. intros rest. rewrite (NT HT). reflexivity. }
    destruct TR as [O1 R1]. eexists. split; [reflexivity|]. split; [oct; exact O1|]. split; [apply nonnil_l, nonnil_l, put_nil|]. intros m d rest D. cbn [read_cexprs]. rewrite <- !app_assoc, get_put by (unfold word; lia). cbn [rbind].
    rewrite get_put by exact W1. cbn [rbind]. rewrite get_put by exact W2. cbn [rbind]. change (5 =? CEXPR_NOT) with false. change ((5 =? CEXPR_AND) || (5 =? CEXPR_OR)) with false. change (5 =? CEXPR_ATTR) with false. change (5 =? CEXPR_NAMES) with true. cbn iota.
    rewrite xtarget_bit, negb_involutive, XF. destruct (Z.eqb_spec d 4); [congruence|]. rewrite get_bitmap by exact V. cbn [rbind]. rewrite R1. reflexivity.
Qed.
Lemma op_trip v xt e : part_words e -> no_names e -> ce_type (ct_expr e) = 1 \/ ce_type (ct_expr e) = 2 \/ ce_type (ct_expr e) = 3 ->
  exists bs, write_cexpr v xt e = Some bs /\ Forall octet bs /\ bs <> [] /\ forall m d rest,
    (ce_type (ct_expr e) = 1 -> (0 <= d)%Z -> read_cexprs v xt (S m) d (bs ++ rest) = cont v xt m e d rest) /\
    (ce_type (ct_expr e) <> 1 -> (1 <= d)%Z -> read_cexprs v xt (S m) d (bs ++ rest) = cont v xt m e (d - 1)%Z rest).
Proof.
  destruct e as [[ty at0 op nm] tn]. intros [W1 W2] [N1 N2] T. cbn [ct_expr ct_types ce_type ce_attr ce_op ce_names] in *. subst nm tn. unfold write_cexpr. cbn [ct_expr ct_types ce_type ce_attr ce_op ce_names].
  assert (T5 : (ty =? CEXPR_NAMES) = false) by (apply N.eqb_neq; unfold CEXPR_NAMES; lia). rewrite T5. eexists. split; [reflexivity|]. split; [oct|]. split; [apply nonnil_l, put_nil|]. intros m d rest.
  cbn [read_cexprs]. rewrite <- !app_assoc, get_put by (unfold word; lia). cbn [rbind]. rewrite get_put by exact W1. cbn [rbind]. rewrite get_put by exact W2. cbn [rbind]. split.
  - intros -> D. change (1 =? CEXPR_NOT) with true. cbn iota. destruct (Z.ltb_spec d 0); [lia|]. reflexivity.
  - intros NE D. assert (E1 : (ty =? CEXPR_NOT) = false) by (apply N.eqb_neq; unfold CEXPR_NOT; lia). rewrite E1. assert (E2 : (ty =? CEXPR_AND) || (ty =? CEXPR_OR) = true) by (unfold CEXPR_AND, CEXPR_OR; lia). rewrite E2.
    destruct (Z.ltb_spec d 1); [lia|]. reflexivity.
Qed.
Definition conts v xt m l d b := rbind (read_cexprs v xt m d b) (fun r b' => Some ((l ++ fst r, snd r), b')).
Lemma need_pos t : 1 <= need t.
Proof. induction t; cbn [need]; lia. Qed.
Lemma tree_trip v xt : forall t, tree_ok v xt t -> exists bs, write_cexprs v xt (postfix t) = Some bs /\ Forall octet bs /\ (length (postfix t) <= length bs)%nat /\
  forall m d rest, (-1 <= d)%Z -> (Z.of_N (need t) + d <= 4)%Z -> read_cexprs v xt (length (postfix t) + m) d (bs ++ rest) = conts v xt m (postfix t) (d + 1)%Z rest.
Proof.
  assert (LEN : forall (b : list N), b <> [] -> (1 <= length b)%nat) by (intros [|]; [congruence|cbn; lia]).
  induction t as [e|e t IH|e a IHa b IHb]; intros OK; cbn [tree_ok postfix need] in *.
  - destruct (leaf_trip v xt e OK) as (bs & E & O & NN & R). exists bs. cbn [write_cexprs]. rewrite E, app_nil_r. split; [reflexivity|]. split; [exact O|]. split; [apply LEN, NN|].
    intros m d rest D1 D2. cbn [length Nat.add]. rewrite R by lia. reflexivity.
  - destruct OK as (PW & NN & T & OK). destruct (IH OK) as (bs & E & O & LL & R). destruct (op_trip v xt e PW NN (or_introl T)) as (bs2 & E2 & O2 & N2 & R2). exists (bs ++ bs2). rewrite write_cexprs_app, E. cbn [write_cexprs]. rewrite E2, app_nil_r.
    split; [reflexivity|]. split; [apply Forall_app; auto|]. split; [rewrite !app_length; cbn [length]; apply LEN in N2; lia|]. intros m d rest D1 D2. rewrite app_length, <- Nat.add_assoc, <- app_assoc. cbn [length Nat.add]. rewrite R by lia. unfold conts.
    destruct (R2 m (d + 1)%Z rest) as [R3 _]. rewrite R3 by lia. unfold cont. destruct (read_cexprs v xt m (d + 1) rest) as [[[l d'] b']|]; cbn [rbind fst snd]; [rewrite <- app_assoc; reflexivity|reflexivity].
  - destruct OK as (PW & NN & T & OKa & OKb). destruct (IHa OKa) as (ba & Ea & Oa & La & Ra). destruct (IHb OKb) as (bb & Eb & Ob & Lb & Rb). destruct (op_trip v xt e PW NN (or_intror T)) as (bs2 & E2 & O2 & N2 & R2).
    exists (ba ++ bb ++ bs2). rewrite !write_cexprs_app, Ea, Eb. cbn [write_cexprs]. rewrite E2, app_nil_r. split; [reflexivity|]. split; [repeat (apply Forall_app; split); assumption|]. split; [rewrite !app_length; cbn [length]; apply LEN in N2; lia|].
    intros m d rest D1 D2. rewrite !app_length. cbn [length]. pose proof (need_pos a). pose proof (need_pos b).
    replace (length (postfix a) + (length (postfix b) + 1) + m)%nat with (length (postfix a) + (length (postfix b) + S m))%nat by lia. rewrite <- !app_assoc. rewrite Ra by lia. unfold conts. rewrite Rb by lia. unfold conts.
    destruct (R2 m (d + 1 + 1)%Z rest) as [_ R3]. rewrite R3 by lia. replace (d + 1 + 1 - 1)%Z with (d + 1)%Z by lia. unfold cont. destruct (read_cexprs v xt m (d + 1) rest) as [[[l d'] b']|]; cbn [rbind fst snd]; [rewrite <- !app_assoc; reflexivity|reflexivity].
Qed.
Lemma cons_trip v xt c : cons_ok v xt c -> forall l bl, write_cons_helper v xt l = Some bl -> exists bs, write_cons_helper v xt (c :: l) = Some (bs ++ bl) /\ Forall octet bs /\ bs <> [] /\
  forall rest, read_cons v xt (bs ++ rest) = Some (c, rest).
Proof.
  destruct c as [pm ex]. intros (W & SH & t & E & OK & ND) l bl EL. cbn [cnt_perms cnt_expr] in *. subst ex. destruct (tree_trip v xt t OK) as (bs & E & O & L & R). cbn [write_cons_helper cnt_expr cnt_perms]. rewrite E, EL.
  exists (put32 pm ++ put32 (N.of_nat (length (postfix t))) ++ bs). split; [rewrite <- !app_assoc; reflexivity|]. split; [oct; exact O|]. split; [apply nonnil_l, put_nil|]. intros rest. unfold read_cons. rewrite <- !app_assoc, get_put by exact W. cbn [rbind].
  rewrite get_put by exact SH. cbn [rbind]. rewrite rounds_ok by (rewrite app_length; lia). specialize (R 0%nat (-1)%Z rest ltac:(lia) ltac:(lia)). rewrite Nat.add_0_r in R. rewrite R. unfold conts. cbn [read_cexprs rbind fst snd]. rewrite app_nil_r. reflexivity.
Qed.
Lemma cons_list_trip v xt l : Forall (cons_ok v xt) l -> exists bs, write_cons_helper v xt l = Some bs /\ Forall octet bs /\ (length l <= length bs)%nat /\ forall rest, read_n (read_cons v xt) (length l) (bs ++ rest) = Some (l, rest).
Proof.
  induction l as [|c l IH]; intros F.
  - exists []. split; [reflexivity|]. split; [constructor|]. split; [reflexivity|reflexivity].
  - apply Forall_cons_iff in F as [OC F]. destruct (IH F) as (bl & E & O & L & R). destruct (cons_trip v xt c OC l bl E) as (bs & E2 & O2 & N2 & R2). exists (bs ++ bl). split; [exact E2|]. split; [apply Forall_app; auto|].
    split; [rewrite app_length; cbn [length]; destruct bs; [congruence|cbn [length]; lia]|]. intros rest. cbn [length read_n]. rewrite <- app_assoc, R2. cbn [rbind]. rewrite R. reflexivity.
Qed.
(** Reading: the stack of trees built so far, the last one first. *)
Fixpoint fits (st : list ctree) : Prop := match st with [] => True | t :: st' => need t + N.of_nat (length st') <= 5 /\ fits st' end.
Definition flat (st : list ctree) : list cexprt := concat (map postfix (rev st)).
Lemma flat_cons t st : flat (t :: st) = flat st ++ postfix t.
Proof. unfold flat. cbn [rev]. rewrite map_app, concat_app. cbn [map concat]. rewrite app_nil_r. reflexivity. Qed.
Lemma read_cexprs_only v xt : forall n depth bs l d' rest, Forall octet bs -> read_cexprs v xt n depth bs = Some ((l, d'), rest) ->
  forall st, (depth = Z.of_nat (length st) - 1)%Z -> fits st -> Forall (tree_ok v xt) st ->
  (exists used, bs = used ++ rest) /\ exists st', (d' = Z.of_nat (length st') - 1)%Z /\ fits st' /\ Forall (tree_ok v xt) st' /\ flat st' = flat st ++ l /\ length l = n.
Proof.
  induction n as [|n IH]; intros depth bs l d' rest O E st D FT OKS; cbn [read_cexprs] in E.
  - injection E as <- <- <-. split; [exists []; reflexivity|]. exists st. rewrite app_nil_r. auto.
  - destruct (get32 bs) as [[ty b1]|] eqn:G1; [|discriminate]. cbn [rbind] in E. destruct (get32_only _ _ _ O G1) as (W1 & u1 & ->). apply octet_rest in O.
    destruct (get32 b1) as [[at0 b2]|] eqn:G2; [|discriminate]. cbn [rbind] in E. destruct (get32_only _ _ _ O G2) as (W2 & u2 & ->). apply octet_rest in O.
    destruct (get32 b2) as [[op b3]|] eqn:G3; [|discriminate]. cbn [rbind] in E. destruct (get32_only _ _ _ O G3) as (W3 & u3 & ->). apply octet_rest in O.
    set (plain := mkCT (mkCE ty at0 op (mkE [] 0)) no_types) in *. set (depth0 := depth) in *.
    assert (NEXT : forall e d b uu st2, Forall octet b -> (exists u, b3 = u ++ b) -> rbind (read_cexprs v xt n d b) (fun r b' => Some ((e :: fst r, snd r), b')) = Some ((l, d'), rest) ->
      (d = Z.of_nat (length st2) - 1)%Z -> fits st2 -> Forall (tree_ok v xt) st2 -> flat st2 = flat st ++ [e] -> uu = u1 ++ u2 ++ u3 ->
      (exists used, uu ++ b3 = used ++ rest) /\ exists st', (d' = Z.of_nat (length st') - 1)%Z /\ fits st' /\ Forall (tree_ok v xt) st' /\ flat st' = flat st ++ l /\ length l = S n).
    { intros e d b uu st2 OB (u & ->) E2 D2 F2 O2 FL ->. destruct (read_cexprs v xt n d b) as [[[l2 d2] b4]|] eqn:R; [|discriminate]. cbn [rbind fst snd] in E2. injection E2 as <- <- <-.
      destruct (IH _ _ _ _ _ OB R st2 D2 F2 O2) as ((u4 & ->) & st' & A & B & C & DD & L). split; [exists ((u1 ++ u2 ++ u3) ++ u ++ u4); rewrite <- !app_assoc; reflexivity|].
      exists st'. split; [exact A|]. split; [exact B|]. split; [exact C|]. split; [rewrite DD, FL, <- app_assoc; reflexivity|cbn [length]; lia]. }
    replace (u1 ++ u2 ++ u3 ++ b3) with ((u1 ++ u2 ++ u3) ++ b3) by (rewrite <- !app_assoc; reflexivity).
    assert (HERE : exists u, b3 = u ++ b3) by (exists []; reflexivity).
    assert (PW : part_words plain) by (split; assumption). assert (NNP : no_names plain) by (split; reflexivity).
    destruct (N.eqb_spec ty CEXPR_NOT) as [T|T1].
    { destruct (Z.ltb_spec depth0 0); [discriminate|]. destruct st as [|t st]; [cbn in D; lia|]. cbn [fits] in FT. destruct FT as [FT1 FT2]. apply Forall_cons_iff in OKS as [OKt OKS].
      apply (NEXT plain depth0 b3 _ (Not1 plain t :: st)); [exact O|exact HERE|exact E|exact D|split; [exact FT1|exact FT2]| |rewrite !flat_cons; cbn [postfix]; rewrite app_assoc; reflexivity|reflexivity].
      constructor; [|exact OKS]. cbn [tree_ok]. split; [exact PW|]. split; [exact NNP|]. split; [exact T|exact OKt]. }
    destruct ((ty =? CEXPR_AND) || (ty =? CEXPR_OR)) eqn:T23.
    { destruct (Z.ltb_spec depth0 1); [discriminate|]. destruct st as [|b [|a st]]; [cbn in D; lia|cbn in D; lia|]. cbn [fits length] in FT. destruct FT as (FT1 & FT2 & FT3). apply Forall_cons_iff in OKS as [OKb OKS]. apply Forall_cons_iff in OKS as [OKa OKS].
      apply (NEXT plain (depth0 - 1)%Z b3 _ (Both plain a b :: st)); [exact O|exact HERE|exact E|cbn [length] in D |- *; lia|split; [cbn [need]; lia|exact FT3]| |rewrite !flat_cons; cbn [postfix]; rewrite <- !app_assoc; reflexivity|reflexivity].
      constructor; [|exact OKS]. cbn [tree_ok]. split; [exact PW|]. split; [exact NNP|]. split; [unfold CEXPR_AND, CEXPR_OR in T23; cbn; lia|auto]. }
    assert (LIM : forall e, (depth0 =? 4)%Z = false -> fits (Leaf e :: st)).
    { intros e D4. split; [|exact FT]. cbn [need]. apply Z.eqb_neq in D4. destruct st as [|t st]; [cbn; lia|]. cbn [fits length] in FT. destruct FT as [FT _]. pose proof (need_pos t). cbn [length] in D |- *. lia. }
    destruct (N.eqb_spec ty CEXPR_ATTR) as [T|T4].
    { destruct (depth0 =? 4)%Z eqn:D4; [discriminate|].
      apply (NEXT plain (depth0 + 1)%Z b3 _ (Leaf plain :: st)); [exact O|exact HERE|exact E|cbn [length]; lia|apply LIM; reflexivity| |rewrite !flat_cons; reflexivity|reflexivity].
      constructor; [|exact OKS]. cbn [tree_ok]. split; [exact PW|]. left. split; [exact T|exact NNP]. }
    destruct (N.eqb_spec ty CEXPR_NAMES) as [T|T5]; [|discriminate].
    rewrite xtarget_bit, negb_involutive in E. destruct (negb xt && N.testbit at0 4) eqn:XT; [discriminate|]. destruct (depth0 =? 4)%Z eqn:D4; [discriminate|].
    destruct (ebitmap_read b3) as [[nm b4]|] eqn:G4; [|discriminate]. cbn [rbind] in E. destruct (ebitmap_only _ _ _ O G4) as (VN & u4 & ->). pose proof O as O3. apply octet_rest in O.
    assert (TN : only (fun b => if has_type_names v then type_set_read b else Some (no_types, b)) (fun tn => (names_stored v -> type_set_ok tn) /\ (~ names_stored v -> tn = no_types))).
    { apply only_if; intros HT; [apply has_type_names_ok in HT; apply (only_weaken _ _ _ type_set_only); intros x X; split; [intros _; exact X|contradiction]|apply has_type_names_no in HT; apply only_ret; split; [contradiction|reflexivity]]. }
    destruct (if has_type_names v then type_set_read b4 else Some (no_types, b4)) as [[tn b5]|] eqn:G5; [|discriminate]. cbn [rbind] in E. destruct (TN _ _ _ O G5) as ((T1' & T2') & u5 & ->). apply octet_rest in O.
    apply (NEXT (mkCT (mkCE ty at0 op nm) tn) (depth0 + 1)%Z b5 _ (Leaf (mkCT (mkCE ty at0 op nm) tn) :: st)); [exact O|exists (u4 ++ u5); rewrite <- app_assoc; reflexivity|exact E|cbn [length]; lia|apply LIM; reflexivity| |rewrite !flat_cons; reflexivity|reflexivity].
    constructor; [|exact OKS]. cbn [tree_ok]. split; [split; assumption|]. right. split; [exact T|]. split; [exact VN|]. split; [cbn; destruct xt; [left; reflexivity|right; exact XT]|]. split; [exact T1'|exact T2'].
Qed.
Lemma cons_only v xt : only (read_cons v xt) (cons_ok v xt).
Proof.
  unfold read_cons. apply (only_bind _ _ _ _ get32_only). intros pm W. apply (only_bind _ _ _ _ get32_only). intros n WN bs x rest O E.
  destruct (read_cexprs v xt (rounds n bs) (-1) bs) as [[[l d] b]|] eqn:R; [|discriminate]. cbn [rbind fst snd] in E. destruct (Z.eqb_spec d 0) as [->|]; [|discriminate]. injection E as <- <-.
  destruct (read_cexprs_only v xt _ _ _ _ _ _ O R [] eq_refl Coq.Init.Logic.I (Forall_nil _)) as (U & st & D & FT & OK & FL & L). split; [|exact U]. split; [exact W|]. cbn [cnt_expr]. split.
  - unfold short. rewrite L. pose proof (rounds_le n bs). unfold word in WN. lia.
  - destruct st as [|t [|t2 st]]; [cbn in D; lia| |cbn [length] in D; lia]. exists t. rewrite flat_cons in FL. cbn [flat rev map concat app] in FL. apply Forall_cons_iff in OK as [OK _]. cbn [fits length] in FT.
    split; [symmetry; exact FL|]. split; [exact OK|lia].
Qed.

(** Conditional expressions. *)
Lemma tok_rt nb : rt (fun t => put32 (t_type t) ++ put32 (t_bool t)) (cond_read_tok nb) (tok_ok nb).
Proof.
  intros [a b] (A & W & B). cbn [t_type t_bool] in *. split; [oct|]. split; [apply nonnil_l, put_nil|]. intros rest. unfold cond_read_tok. rewrite <- app_assoc, get_put by (unfold word; lia). cbn [rbind]. rewrite get_put by exact W. cbn [rbind].
  assert (E : expr_isvalid nb (mkT a b) = true) by (unfold expr_isvalid; cbn [t_type t_bool]; lia). rewrite E. reflexivity.
Qed.
Lemma tok_only nb : only (cond_read_tok nb) (tok_ok nb).
Proof.
  unfold cond_read_tok. apply (only_bind _ _ _ _ get32_only). intros a W1. apply (only_bind _ _ _ _ get32_only). intros b W2. apply only_if; intros E; [|apply only_none]. apply only_ret. unfold expr_isvalid in E. cbn [t_type t_bool] in E.
  unfold tok_ok. cbn [t_type t_bool]. split; [lia|]. split; [exact W2|lia].
Qed.
Lemma cond_rt nb : rt (fun x => cond_write_expr (fst x) (snd x)) (cond_read_expr nb) (cond_ok nb).
Proof.
  intros [s l] (W & SH & F). cbn [fst snd] in *. destruct (read_list_rt _ _ _ (tok_rt nb) l (conj SH F)) as (O & _ & R). unfold cond_write_expr, cond_read_expr. split; [oct; exact O|]. split; [apply nonnil_l, put_nil|].
  intros rest. rewrite <- app_assoc, get_put by exact W. cbn [rbind]. rewrite R. reflexivity.
Qed.
Lemma cond_only nb : only (cond_read_expr nb) (cond_ok nb).
Proof.
  unfold cond_read_expr. apply (only_bind _ _ _ _ get32_only). intros s W. apply (only_bind _ _ _ _ (read_list_only _ _ (tok_only nb))). intros l [SH F]. apply only_ret. split; [exact W|auto].
Qed.

(** Role transitions and role allow rules. *)
Lemma new_roletr_ok v : new_roletr v = true <-> classes_stored v.
Proof. unfold new_roletr, classes_stored. rewrite andb_true_iff, N.leb_le. tauto. Qed.
Lemma new_roletr_no v : new_roletr v = false <-> ~ classes_stored v.
Proof. rewrite <- new_roletr_ok. destruct (new_roletr v); intuition congruence. Qed.
Definition rt_one_write v (t : role_trans) := put32 (rt_role t) ++ put32 (rt_type t) ++ put32 (rt_new t) ++ (if new_roletr v then put32 (rt_class t) else []).
Definition rt_one_read v proc b := rbind (get32 b) (fun r b1 => rbind (get32 b1) (fun t b2 => rbind (get32 b2) (fun n b3 => rbind (if new_roletr v then get32 b3 else Some (proc, b3)) (fun c b4 => Some (mkRT r t c n, b4))))).
Lemma rt_one_rt v proc : rt (rt_one_write v) (rt_one_read v proc) (role_trans_ok v proc).
Proof.
  intros [r t c n] (W1 & W2 & W3 & HC & NC). cbn [rt_role rt_type rt_class rt_new] in *. unfold rt_one_write, rt_one_read. cbn [rt_role rt_type rt_class rt_new]. destruct (new_roletr v) eqn:NR.
  - apply new_roletr_ok in NR. split; [oct|]. split; [apply nonnil_l, put_nil|]. intros rest. rewrite <- !app_assoc. repeat (rewrite get_put by (first [assumption|apply HC; assumption]); cbn [rbind]). reflexivity.
  - apply new_roletr_no in NR. split; [oct|]. split; [apply nonnil_l, put_nil|]. intros rest. rewrite <- !app_assoc. repeat (rewrite get_put by assumption; cbn [rbind]). rewrite (NC NR). reflexivity.
Qed.
Lemma rt_one_only v proc : only (rt_one_read v proc) (role_trans_ok v proc).
Proof.
  unfold rt_one_read. apply (only_bind _ _ _ _ get32_only). intros r W1. apply (only_bind _ _ _ _ get32_only). intros t W2. apply (only_bind _ _ _ _ get32_only). intros n W3.
  apply (only_bind _ (fun c => (classes_stored v -> word c) /\ (~ classes_stored v -> c = proc))).
  { apply only_if; intros NR; [apply new_roletr_ok in NR; apply (only_weaken _ _ _ get32_only); intros x X; split; [intros _; exact X|contradiction]|apply new_roletr_no in NR; apply only_ret; split; [contradiction|reflexivity]]. }
  intros c [C1 C2]. apply only_ret. unfold role_trans_ok. cbn. auto 6.
Qed.
Lemma role_trans_rt v proc : rt (role_trans_write v proc) (role_trans_read v proc) (fun l => short l /\ Forall (role_trans_ok v proc) l).
Proof.
  intros l [SH F]. unfold role_trans_write. assert (K : filter (fun t => new_roletr v || (rt_class t =? proc)) l = l).
  { clear SH. induction F as [|t l OT F IH]; [reflexivity|]. cbn [filter]. assert (E : new_roletr v || (rt_class t =? proc) = true).
    { destruct (new_roletr v) eqn:NR; [reflexivity|]. apply new_roletr_no in NR. destruct OT as (_ & _ & _ & _ & C). apply N.eqb_eq, C, NR. }
    rewrite E, IH. reflexivity. }
  rewrite K. exact (read_list_rt _ _ _ (rt_one_rt v proc) l (conj SH F)).
Qed.
Lemma role_trans_only v proc : only (role_trans_read v proc) (fun l => short l /\ Forall (role_trans_ok v proc) l).
Proof. exact (read_list_only _ _ (rt_one_only v proc)). Qed.
Lemma role_allow_rt : rt role_allow_write role_allow_read (fun l => short l /\ Forall (fun p => word (fst p) /\ word (snd p)) l).
Proof. exact (read_list_rt _ _ _ pair_rt). Qed.
Lemma role_allow_only : only role_allow_read (fun l => short l /\ Forall (fun p => word (fst p) /\ word (snd p)) l).
Proof. exact (read_list_only _ _ pair_only). Qed.
