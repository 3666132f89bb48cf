(** Property theorems for writing constraints as CIL and compiling them again (C78). *)
From Coq Require Import String.
From Verif Require Import Base EbitmapModel EbitmapSpec MlsModel MlsSpec MlsDemo TypesetModel ServicesModel ServicesSpec
  CilparseModel CilparseSpec CilexprModel KcilSpec CilconsModel CilconsSpec KconsModel KconsSpec KconsMain KconsDemo.
Local Open Scope N_scope.
Local Open Scope list_scope.

(** C78. The constraints and transition rules of a policy whose names can be written are written as CIL; the text, with
    other statements in between, compiles; and in the new policy, where everything may be numbered otherwise, the
    constraints let the same permissions and the same transitions pass. *)
Theorem C78_round_trip : forall K E R fuel code cl pm mid fm,
  one_to_one R -> names_declared K E R -> env_ok E -> classes_declared K code cl ->
  (forall cls c, the_class K cls c -> class_writable K pm c) -> other_statements mid fm ->
  exists t1 t2 T, write_constraints K = WVal (t1, t2) /\ compile_text fuel code cl E pm (t1 ++ mid ++ t2) = Some T /\
    forall P P', policy_is K P -> (forall cls, sv_cons P' cls = ct_cons T cls) -> (forall cls, sv_vtrans P' cls = ct_vtrans T cls) ->
      same_dominance R P P' -> same_decisions K R code cl P P'.
Proof.
  intros K E R fuel code cl pm mid fm RO ND EOK CD CW OS. exact (round_trip_means K E R RO ND EOK fuel code cl CD pm CW mid fm OS).
Qed.
Print Assumptions C78_round_trip.

(** A policy that meets the hypotheses, the texts written for it, and what is compiled from them. *)
Example C78_case :
  one_to_one kd_R /\ names_declared kd kd_env kd_R /\ env_ok kd_env /\ classes_declared kd kd_code kd_cl /\
  (forall cls c, the_class kd cls c -> class_writable kd true c) /\ (exists cls c, the_class kd cls c /\ kc_cons c <> [] /\ kc_vtrans c <> []) /\
  other_statements kd_mid [PList [PName [120]]] /\
  write_constraints kd = WVal
    (chars "(mlsconstrain (file (read)) (dom l1 l2))" ++ [10],
     chars "(constrain (file (read write)) (or (eq u1 u2) (eq t1 (dom tc))))" ++ [10] ++
     chars "(validatetrans file (eq t3 ta))" ++ [10]) /\
  exists T, compile_text 9 kd_code kd_cl kd_env true
      (chars "(mlsconstrain (file (read)) (dom l1 l2))" ++ [10] ++ kd_mid ++
       chars "(constrain (file (read write)) (or (eq u1 u2) (eq t1 (dom tc))))" ++ [10] ++
       chars "(validatetrans file (eq t3 ta))" ++ [10]) = Some T /\
    map cn_perms (ct_cons T 5) = [3; 2] /\ List.length (ct_vtrans T 5) = 1%nat.
Proof.
  split; [exact kd_one|]. split; [exact kd_names|]. split; [exact kd_env_ok|]. split; [exact kd_declared|]. split; [exact kd_writable|].
  split. { exists 2, kd_class. split; [split; [lia|reflexivity]|]. split; discriminate. }
  split; [exact kd_other|]. split; [vm_compute; reflexivity|].
  eexists. split; [vm_compute; reflexivity|]. split; vm_compute; reflexivity.
Qed.

(** Demo data, models no code: a policy with one constraint on one class. *)
Definition kr_pol (types : list (option (list N))) (perm : list N) (x : kexpr) : kpol :=
  mkKP [Some (chars "uone")] [Some (chars "rone")] types [] [Some (mkKC (chars "file") 1 (fun v => if v =? 1 then Some perm else None) [mkKN 1 [x]] [])].
(** Demo data, models no code: names of types with their values. *)
Definition kr_env (l : list (list N * N)) : names_env :=
  mkNE (fun k n => match k with LType => match find (fun p => same_str n (fst p)) l with Some p => Some (snd p) | None => None end | _ => None end)
       (fun k d => match k with LType => Some [d] | _ => None end).
(** Demo data, models no code. *)
Definition kr_cl (perm : list N) : cclasses := fun k => if same_str k (chars "file") then Some (1, fun n => if n =? kd_code perm then Some (DLeaf 0) else None, 1, [0]) else None.
(** Demo data, models no code. *)
Definition kr_ctx (ty : N) : context := MlsModel.mkC 1 1 ty (mkR (mkL 1 ebitmap_init) (mkL 1 ebitmap_init)).

(** C78 refuted for complements and differences. The constraint "t1 == ~ta" ([ts_flags] 2), and "t1 == { tb tc -tc }",
    become after expansion a constraint about the types left; but the names kept for it are those before the complement
    or the difference. Written as CIL they are (eq t1 ta) and (eq t1 (tb tc)): with the same numbers in the new policy,
    the first lets exactly the other types pass, and the second also tc. *)
Theorem C78_refuted_complement :
  let ts := [kd_type false []; kd_type false []; kd_type false []] in
  let names := [Some (chars "ta"); Some (chars "tb"); Some (chars "tc")] in
  let env := kr_env [(chars "ta", 1); (chars "tb", 2); (chars "tc", 3)] in
  (exists x t T n, clone_names ts [1; 2; 3] 4 1 (mkTS (demo_set [0]) ebitmap_init 2) = Some x /\
     write_constraints (kr_pol names (chars "read") x) = WVal ([], t) /\ t = chars "(constrain (file (read)) (eq t1 ta))" ++ [10] /\
     compile_text 9 kd_code (kr_cl (chars "read")) env true t = Some T /\ ct_cons T 1 = [n] /\
     forall P s, (s = 1 \/ s = 2 \/ s = 3) ->
       exists b, constraint_expr_eval P (kr_ctx s) (kr_ctx 1) None [kx x] = CVal b /\
                 constraint_expr_eval P (kr_ctx s) (kr_ctx 1) None (cn_expr n) = CVal (negb b)) /\
  (exists x t T n, clone_names ts [1; 2; 3] 4 1 (mkTS (demo_set [1; 2]) (demo_set [2]) 0) = Some x /\
     write_constraints (kr_pol names (chars "read") x) = WVal ([], t) /\ t = chars "(constrain (file (read)) (eq t1 (tb tc)))" ++ [10] /\
     compile_text 9 kd_code (kr_cl (chars "read")) env true t = Some T /\ ct_cons T 1 = [n] /\
     forall P, constraint_expr_eval P (kr_ctx 3) (kr_ctx 1) None [kx x] = CVal false /\
               constraint_expr_eval P (kr_ctx 3) (kr_ctx 1) None (cn_expr n) = CVal true).
Proof.
  cbv zeta. split.
  - do 4 eexists. split; [vm_compute; reflexivity|]. split; [vm_compute; reflexivity|]. split; [vm_compute; reflexivity|].
    split; [vm_compute; reflexivity|]. split; [vm_compute; reflexivity|].
    intros P s [->|[->| ->]]; eexists; (split; [vm_compute; reflexivity|]); vm_compute; reflexivity.
  - do 4 eexists. split; [vm_compute; reflexivity|]. split; [vm_compute; reflexivity|]. split; [vm_compute; reflexivity|].
    split; [vm_compute; reflexivity|]. split; [vm_compute; reflexivity|]. intros P. split; vm_compute; reflexivity.
Qed.
Print Assumptions C78_refuted_complement.

(** C78 refuted for a type called t2: "t1 == t2", that type, is written as (eq t1 t2) and read as the comparison of the
    two types. A target of another type than the source is then refused. *)
Theorem C78_refuted_operand :
  exists t T n, let x := mkKX (mkCE 5 4 1 (demo_set [0])) (demo_set [0]) in
    write_constraints (kr_pol [Some (chars "t2"); Some (chars "tb")] (chars "read") x) = WVal ([], t) /\
    compile_text 9 kd_code (kr_cl (chars "read")) (kr_env [(chars "t2", 1); (chars "tb", 2)]) true t = Some T /\ ct_cons T 1 = [n] /\
    forall P, constraint_expr_eval P (kr_ctx 1) (kr_ctx 2) None [kx x] = CVal true /\
              constraint_expr_eval P (kr_ctx 1) (kr_ctx 2) None (cn_expr n) = CVal false /\
              constraint_expr_eval P (kr_ctx 2) (kr_ctx 2) None [kx x] = CVal false /\
              constraint_expr_eval P (kr_ctx 2) (kr_ctx 2) None (cn_expr n) = CVal true.
Proof.
  do 3 eexists. cbv zeta. split; [vm_compute; reflexivity|]. split; [vm_compute; reflexivity|]. split; [vm_compute; reflexivity|].
  intros P. do 3 (split; [vm_compute; reflexivity|]). vm_compute; reflexivity.
Qed.
Print Assumptions C78_refuted_operand.

(** C78 refuted for an empty set, which is written as a name that nothing declares, and for a permission called eq, which
    is read as an operator: the text is refused. *)
Theorem C78_refuted_refused :
  (exists t, write_constraints (kr_pol [Some (chars "ta")] (chars "read") (mkKX (mkCE 5 2 1 ebitmap_init) ebitmap_init)) = WVal ([], t) /\
     compile_text 9 kd_code (kr_cl (chars "read")) (kr_env [(chars "ta", 1)]) true t = None) /\
  (exists t, write_constraints (kr_pol [Some (chars "ta")] (chars "eq") (mkKX (mkCE 4 1 1 ebitmap_init) ebitmap_init)) = WVal ([], t) /\
     compile_text 9 kd_code (kr_cl (chars "eq")) (kr_env [(chars "ta", 1)]) true t = None).
Proof. split; (eexists; split; [vm_compute; reflexivity|vm_compute; reflexivity]). Qed.
Print Assumptions C78_refuted_refused.
