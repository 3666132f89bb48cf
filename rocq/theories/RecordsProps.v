(** C69: local customisations survive being written and read back. *)
From Verif Require Import Base MlsModel ContextModel LoginModel RecordsModel RecordsSpec RecordsProofs RecordsStable.

Theorem C69_logins rs : Forall seuser_ok rs -> exists s, read_file seuser_parse (write_file seuser_print rs) = POk rs s.
Proof. exact (seuser_trip rs). Qed.
Print Assumptions C69_logins.

Theorem C69_booleans rs : Forall bool_ok rs -> exists s, read_file bool_parse (write_file bool_print rs) = POk rs s.
Proof. exact (bool_trip rs). Qed.
Print Assumptions C69_booleans.

Theorem C69_prefixes rs : Forall userx_ok rs -> exists s, read_file userx_parse (write_file userx_print rs) = POk rs s.
Proof. exact (userx_trip rs). Qed.
Print Assumptions C69_prefixes.

Theorem C69_ports rs : Forall port_ok rs -> exists s, read_file port_parse (write_file port_print rs) = POk rs s.
Proof. exact (port_trip rs). Qed.
Print Assumptions C69_ports.

Theorem C69_interfaces rs : Forall iface_ok rs -> exists s, read_file iface_parse (write_file iface_print rs) = POk rs s.
Proof. exact (iface_trip rs). Qed.
Print Assumptions C69_interfaces.

Theorem C69_fcontexts rs : Forall fcontext_ok rs -> exists s, read_file fcontext_parse (write_file fcontext_print rs) = POk rs s.
Proof. exact (fcontext_trip rs). Qed.
Print Assumptions C69_fcontexts.

Theorem C69_users rs : Forall user_ok rs -> exists s, read_file user_parse (write_file user_print rs) = POk rs s.
Proof. exact (user_trip rs). Qed.
Print Assumptions C69_users.

(** Concrete cases: "root:staff u:s0-s15" and "%a b:user_u"; "x=1"; ports "80" and "1 - 65535"; a user with two roles
    and a range. *)
Definition ctx1 : crec := mkCR [115] [114] [116] (Some [115;48]).
Definition ctx2 : crec := mkCR [120] [114] [116] None.
Ltac lists := unfold context_ok, phrase, word, graphic, hash, dash, white; cbn [se_name se_sename se_mls cr_user cr_role cr_type cr_mls ctx1 ctx2];
  repeat first [ apply Forall_nil | apply Forall_cons | split | lia | discriminate | progress cbn | (intros (? & ?); discriminate) | (intros _ (? & ?); discriminate) | intuition lia | (eexists _, _; split; [reflexivity|lia]) ].
Example C69_logins_case : Forall seuser_ok [mkSe [114;111;111;116] [115;32;117] (Some [115;48;45;115;49;53]); mkSe [37;97;32;98] [117] None].
Proof. unfold seuser_ok. lists. Qed.
Example C69_booleans_case : Forall bool_ok [mkBo [120] 1; mkBo [121;35] 0].
Proof. unfold bool_ok. lists. Qed.
Example C69_prefixes_case : Forall userx_ok [mkUx [117] [112;32;113]; mkUx [118] [35]].
Proof. unfold userx_ok. lists. Qed.
Example C69_ports_case : Forall port_ok [mkPo 1 80 80 ctx1; mkPo 0 1 65535 ctx2].
Proof.
  unfold port_ok, ctx1, ctx2. change (2 ^ 31)%Z with 2147483648%Z. apply Forall_cons; [|apply Forall_cons; [|apply Forall_nil]]; cbn [po_proto po_low po_high po_con].
  - split; [lia|]. split; [lia|]. split; [lia|]. split; [lists|]. intros _ (t & X). discriminate.
  - split; [lia|]. split; [lia|]. split; [lia|]. split; [lists|]. intros _ (t & X). discriminate.
Qed.
Example C69_interfaces_case : Forall iface_ok [mkIf [108;111] ctx1 ctx2].
Proof. unfold iface_ok, ctx1, ctx2. lists. Qed.
Example C69_fcontexts_case : Forall fcontext_ok [mkFc [47;97;46;42] 0 (Some ctx1); mkFc [47] 1 None; mkFc [47;98] 7 (Some ctx2)].
Proof. unfold fcontext_ok, ctx1, ctx2. lists. Qed.
Example C69_users_case : Forall user_ok [mkUs [117] (Some [115;48]) (Some [115;48;32;45;32;115;49]) [[114;49]; [114;50]]; mkUs [118] None None [[114]]].
Proof.
  unfold user_ok. apply Forall_cons; [|apply Forall_cons; [|apply Forall_nil]]; cbn [us_name us_level us_range us_roles].
  - split; [lists|]. split; [right|lists]. split; [discriminate|]. split; [|lists]. constructor; [intros [X|[]]; discriminate|]. constructor; [intros []|constructor].
  - split; [lists|]. split; [right|exact I]. split; [discriminate|]. split; [|lists]. constructor; [intros []|constructor].
Qed.

(** Whatever is read from a file can be written and read again, except for records that start with '#' and negative
    port numbers or contexts that look like a range. *)
Theorem C69_reread text :
  (forall rs s, read_file seuser_parse text = POk rs s -> (forall r, In r rs -> ~ hash (se_name r)) -> exists s', read_file seuser_parse (write_file seuser_print rs) = POk rs s') /\
  (forall rs s, read_file bool_parse text = POk rs s -> (forall r, In r rs -> ~ hash (bo_name r)) -> exists s', read_file bool_parse (write_file bool_print rs) = POk rs s') /\
  (forall rs s, read_file userx_parse text = POk rs s -> exists s', read_file userx_parse (write_file userx_print rs) = POk rs s') /\
  (forall rs s, read_file port_parse text = POk rs s ->
     (forall r, In r rs -> (0 <= po_low r)%Z /\ (0 <= po_high r)%Z /\ (po_low r = po_high r -> ~ dash (cr_user (po_con r)))) ->
     exists s', read_file port_parse (write_file port_print rs) = POk rs s') /\
  (forall rs s, read_file iface_parse text = POk rs s -> exists s', read_file iface_parse (write_file iface_print rs) = POk rs s') /\
  (forall rs s, read_file fcontext_parse text = POk rs s -> (forall r, In r rs -> ~ hash (fc_expr r)) -> exists s', read_file fcontext_parse (write_file fcontext_print rs) = POk rs s') /\
  (forall rs s, read_file user_parse text = POk rs s -> exists s', read_file user_parse (write_file user_print rs) = POk rs s').
Proof.
  split; [|split; [|split; [|split; [|split; [|split]]]]]; intros rs s H.
  - intros X. apply seuser_trip. apply (read_post _ _ seuser_post) in H. rewrite Forall_forall in *. intros r R. apply (H r R), X, R.
  - intros X. apply bool_trip. apply (read_post _ _ bool_post) in H. rewrite Forall_forall in *. intros r R. apply (H r R), X, R.
  - apply userx_trip. apply (read_post _ _ userx_post) in H. exact H.
  - intros X. apply port_trip. apply (read_post _ _ port_post) in H. rewrite Forall_forall in *. intros r R. destruct (X r R) as (A & B & C). apply (H r R); [split; assumption|exact C].
  - apply iface_trip. apply (read_post _ _ iface_post) in H. exact H.
  - intros X. apply fcontext_trip. apply (read_post _ _ fcontext_post) in H. rewrite Forall_forall in *. intros r R. apply (H r R), X, R.
  - apply user_trip. apply (read_post _ _ user_post) in H. exact H.
Qed.
Print Assumptions C69_reread.
(** Files as an administrator may write them: "  a : u\n# c\nb:\tv :s0", two booleans on one line, a user over several lines. *)
Example C69_reread_case :
  read_file seuser_parse [32;32;97;32;58;32;117;10;35;32;99;10;98;58;9;118;58;115;48] =
    POk [mkSe [97;32] [117] None; mkSe [98] [118] (Some [115;48])] (mkPS None []) /\
  read_file bool_parse ([97;61] ++ w_true ++ [32;98;61;48;10]) = POk [mkBo [97] 1; mkBo [98] 0] (mkPS None []) /\
  read_file user_parse (w_user ++ [32;117;32] ++ w_roles ++ [10;123;10;97;10;98;10;125;10;59;10]) = POk [mkUs [117] None None [[97];[98]]] (mkPS (Some [0;0]) []).
Proof. vm_compute. split; [|split]; reflexivity. Qed.

(** A login name that starts with '#' is written as a comment: it is lost when the file is read. *)
Theorem C69_refuted_hash :
  read_file seuser_parse (write_file seuser_print [mkSe [35;97] [117] None; mkSe [98] [117] None]) = POk [mkSe [98] [117] None] (mkPS None []).
Proof. vm_compute. reflexivity. Qed.
Print Assumptions C69_refuted_hash.
(** Such a record can come from a file: "a=1 #b=0" is two booleans; rewriting the file loses the second. *)
Theorem C69_refuted_comment :
  read_file bool_parse [97;61;49;32;35;98;61;48;10] = POk [mkBo [97] 1; mkBo [35;98] 0] (mkPS None []) /\
  read_file bool_parse (write_file bool_print [mkBo [97] 1; mkBo [35;98] 0]) = POk [mkBo [97] 1] (mkPS None []).
Proof. vm_compute. split; reflexivity. Qed.
Print Assumptions C69_refuted_comment.
(** Port 4294967295 is accepted as -1; the file then written cannot be read. *)
Theorem C69_refuted_port :
  read_file port_parse (w_portcon ++ [32;116;99;112;32;52;50;57;52;57;54;55;50;57;53;32;120;58;114;58;116;10]) = POk [mkPo 1 (-1) (-1) ctx2] (mkPS None []) /\
  read_file port_parse (write_file port_print [mkPo 1 (-1) (-1) ctx2]) = PErr.
Proof. vm_compute. split; reflexivity. Qed.
Print Assumptions C69_refuted_port.
(** A user without roles comes back with a role whose name is empty; a level without a range is lost. *)
Theorem C69_refuted_user :
  read_file user_parse (write_file user_print [mkUs [117] None None []]) = POk [mkUs [117] None None [[]]] (mkPS (Some [0;0]) []) /\
  read_file user_parse (write_file user_print [mkUs [117] (Some [115;48]) None [[114]]]) = POk [mkUs [117] None None [[114]]] (mkPS (Some [0;0]) []).
Proof. vm_compute. split; reflexivity. Qed.
Print Assumptions C69_refuted_user.
(** Files that lead to undefined behaviour: one that ends after "a=" (NULL is compared), one that ends in a role name
    without a newline (the memory behind the line is read). *)
Theorem C69_refuted_ends :
  read_file bool_parse [97;61;10] = PUB /\
  read_file user_parse (w_user ++ [32;117;32] ++ w_roles ++ [32;114]) = PUB.
Proof. vm_compute. split; reflexivity. Qed.
Print Assumptions C69_refuted_ends.
