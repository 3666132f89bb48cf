(** A concrete policy used as the non-trivial case beside the access decision theorems: types 1 (bounded by
    2), 2 and 3, attribute 4 of types 1 and 2; classes 1 (a file class) and 2 (process); a conditional rule;
    constraints on both classes; one role allow rule. *)
From Verif Require Import Base EbitmapModel EbitmapSpec EbitmapProofs MlsModel MlsSpec MlsDemo
  AvtabModel AvtabSpec AvtabProofs CondModel ServicesModel ServicesSpec ServicesProofs.

(** Demo data, models no code. *)
Definition sd_te : avtab :=
  run [OpIns true (mkK 4 3 1 1) (mkD 3 None); OpIns true (mkK 1 3 1 1) (mkD 12 None); OpIns true (mkK 2 3 1 1) (mkD 4 None);
       OpIns true (mkK 1 3 1 2) (mkD 1 None); OpIns true (mkK 1 3 1 4) (mkD 4294967294 None);
       OpIns true (mkK 2 2 2 1) (mkD 7 None)] (avtab_alloc avtab_init 8).
(** Demo data, models no code: one enabled and one disabled conditional rule. *)
Definition sd_cond : avtab :=
  run [OpIns false (mkK 2 3 1 32769) (mkD 16 None); OpIns false (mkK 1 3 1 32769) (mkD 16 None); OpIns false (mkK 1 3 1 1) (mkD 32 None)]
      (avtab_alloc avtab_init 4).
(** Demo data, models no code: "u1 == u2 or r2 == {role 1}". *)
Definition sd_expr : list cexpr :=
  [mkCE 4 1 1 ebitmap_init; mkCE 5 10 1 (demo_set [0]); mkCE 3 0 0 ebitmap_init].
(** Demo data, models no code: the same formula. *)
Definition sd_form : cform := COr (CLeaf (FUsers true)) (CLeaf (FNames WTgt KRole true (demo_set [0]))).
(** Demo data, models no code: "u1 == u2 and t3 == {type 3}", a validatetrans rule. *)
Definition sd_vexpr : list cexpr :=
  [mkCE 4 1 1 ebitmap_init; mkCE 5 20 1 (demo_set [2]); mkCE 2 0 0 ebitmap_init].
(** Demo data, models no code: the same formula. *)
Definition sd_vform : cform := CAnd (CLeaf (FUsers true)) (CLeaf (FNames WThird KType true (demo_set [2]))).
(** Demo data, models no code. *)
Definition sd : spolicy :=
  mkSP sd_te sd_cond
    (fun ty => if ty =? 1 then demo_set [0; 3] else if ty =? 2 then demo_set [1; 3] else if ty =? 3 then demo_set [2] else ebitmap_init)
    2
    (fun c => if c =? 1 then [mkCN 2 sd_expr] else [])
    (fun c => if c =? 1 then [mkCN 0 sd_vexpr] else [])
    (fun r => if (1 <=? r) && (r <=? 2) then Some (demo_set [r - 1]) else None)
    [(1, 2)] 2 3
    (fun ty => if ty =? 1 then 2 else 0).
(** Demo data, models no code. *)
Definition sd_ctx (u r t : N) : context := MlsModel.mkC u r t (mkR (mkL 1 ebitmap_init) (mkL 1 ebitmap_init)).

Lemma sd_expr_writes : cwrites sd_expr sd_form.
Proof.
  apply (CW_or [mkCE 4 1 1 ebitmap_init] (CLeaf (FUsers true)) [mkCE 5 10 1 (demo_set [0])] (CLeaf (FNames WTgt KRole true (demo_set [0]))) (mkCE 3 0 0 ebitmap_init));
    [constructor; exact (LC_users true ebitmap_init)|constructor; exact (LC_names WTgt KRole true (demo_set [0]))|reflexivity].
Qed.

Lemma sd_vexpr_writes : cwrites sd_vexpr sd_vform.
Proof.
  apply (CW_and [mkCE 4 1 1 ebitmap_init] (CLeaf (FUsers true)) [mkCE 5 20 1 (demo_set [2])] (CLeaf (FNames WThird KType true (demo_set [2]))) (mkCE 2 0 0 ebitmap_init));
    [constructor; exact (LC_users true ebitmap_init)|constructor; exact (LC_names WThird KType true (demo_set [2]))|reflexivity].
Qed.

Lemma sd_sets : sets_ok sd_form /\ sets_ok sd_vform.
Proof. split; (split; [exact I|apply valid_check; reflexivity]). Qed.

Lemma init_valid : valid ebitmap_init.
Proof. apply valid_check; reflexivity. Qed.

Lemma sd_attr_valid ty : valid (sv_attr sd ty).
Proof.
  cbn [sv_attr sd]. destruct (ty =? 1); [apply valid_check; reflexivity|].
  destruct (ty =? 2); [apply valid_check; reflexivity|]. destruct (ty =? 3); apply valid_check; reflexivity.
Qed.

Lemma sd_attr_small ty i : member (sv_attr sd ty) i -> i < 65535.
Proof.
  cbn [sv_attr sd]. intros (s & m & H & H1 & H2 & _).
  assert (In s [0]); [|cbn in *; lia].
  destruct (ty =? 1); [vm_compute in H; destruct H as [[= <- <-]|[]]; left; reflexivity|].
  destruct (ty =? 2); [vm_compute in H; destruct H as [[= <- <-]|[]]; left; reflexivity|].
  destruct (ty =? 3); [vm_compute in H; destruct H as [[= <- <-]|[]]; left; reflexivity|].
  vm_compute in H. destruct H.
Qed.

Lemma run_wf h n : n <> 0 -> wf (run h (avtab_alloc avtab_init n)).
Proof.
  intros Hn. destruct (alloc_spec avtab_init n Hn) as (W & E & L).
  destruct (run_spec h _ [] W E) as (W' & _); [rewrite L; constructor|exact W'].
Qed.

Lemma sd_te_wf : wf sd_te.
Proof. unfold sd_te. apply run_wf. discriminate. Qed.
Lemma sd_cond_wf : wf sd_cond.
Proof. unfold sd_cond. apply run_wf. discriminate. Qed.

Lemma sd_ok : spolicy_ok wf sd.
Proof.
  split; [exact sd_te_wf|]. split; [exact sd_cond_wf|].
  split; [exact sd_attr_valid|]. split; [exact sd_attr_small|]. split; [reflexivity|].
  split.
  { intro c. cbn [sv_cons sd]. destruct (c =? 1); constructor; [|constructor]. exists sd_form.
    split; [exact sd_expr_writes|]. split; [cbn; lia|]. split; [apply sd_sets|]. intros _. split; exact I. }
  split.
  { intro c. cbn [sv_vtrans sd]. destruct (c =? 1); constructor; [|constructor]. exists sd_vform.
    split; [exact sd_vexpr_writes|]. split; [cbn; lia|]. split; [apply sd_sets|]. discriminate. }
  intro ty. cbn. destruct (ty =? 1); reflexivity.
Qed.

Lemma sd_ranked : ranked sd (fun ty => if ty =? 1 then 1%nat else 0%nat).
Proof.
  intros ty. cbn [sv_bounds sd]. destruct (N.eqb_spec ty 1) as [->|]; [intros _; vm_compute; constructor|congruence].
Qed.

Lemma sd_ctx_ok u r t : 1 <= u < 100 -> 1 <= r < 100 -> 1 <= t < 100 -> ctx_ok (sd_ctx u r t).
Proof.
  intros. split; [cbn; lia|]. split; [cbn; lia|]. split; [cbn; lia|]. split; apply init_valid.
Qed.

Lemma sd_role u r t : 1 <= r <= 2 -> role_known sd (sd_ctx u r t).
Proof.
  intros H. unfold role_known. cbn. assert (r = 1 \/ r = 2) as [-> | ->] by lia; eexists; (split; [reflexivity|apply valid_check; reflexivity]).
Qed.
