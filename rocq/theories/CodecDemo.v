(** Concrete objects for the binary format. *)
From Verif Require Import Base EbitmapModel EbitmapSpec MlsModel AvtabModel AvtabSpec TypesetModel CondModel ServicesModel CodecModel CodecSpec CodecProofs CodecTableProofs MlsDemo.

(** A set with the elements 1, 3 and 64. *)
Definition bits : ebitmap := mkE [(0, 10); (64, 1)] 128.
(** Versions. *)
Definition v33 : pvers := mkPV true false 33 true.
Definition v28 : pvers := mkPV true false 28 true.
Definition v25 : pvers := mkPV true false 25 true.
(** u1 == u2 and not (t1 == { names } or r1 == r2). *)
Definition cmp (a op : N) : cexprt := mkCT (mkCE 4 a op (mkE [] 0)) no_types.
Definition named (a : N) : cexprt := mkCT (mkCE 5 a 1 bits) (mkTS bits (mkE [] 0) 0).
Definition junct (t : N) : cexprt := mkCT (mkCE t 0 0 (mkE [] 0)) no_types.
Definition tree1 : ctree := Both (junct 2) (Leaf (cmp 1 1)) (Not1 (junct 1) (Both (junct 3) (Leaf (named 4)) (Leaf (cmp 2 1)))).
Definition cons1 : cnode_t := mkCNT 6 (postfix tree1).
(** A table with an allow rule, an enabled transition and two extended permission rules with one key. *)
Definition hist : list avop :=
  [OpIns true (mkK 1 2 3 1) (mkD 7 None); OpIns true (mkK 1 2 3 32784) (mkD 9 None);
   OpIns true (mkK 1 2 3 256) (mkD 0 (Some (mkX 1 5 [1; 0; 0; 0; 0; 0; 0; 0]))); OpIns true (mkK 1 2 3 256) (mkD 0 (Some (mkX 1 6 [2; 0; 0; 0; 0; 0; 0; 0])));
   OpIns true (mkK 4 2 3 1) (mkD 8 None)].
Definition table1 : avtab := run hist (avtab_alloc avtab_init 5).
(** The rules in the order visited. *)
Definition rules1 : list anode := Eval vm_compute in avtab_map_list table1.
Lemma rules1_eq : avtab_map_list table1 = rules1.
Proof. vm_compute. reflexivity. Qed.
Ltac fine_key := split; [reflexivity|]; split; [reflexivity|]; split; [reflexivity|]; split; [apply spec_fine_in; vm_compute; reflexivity|reflexivity].
Ltac plain_rule := split; [fine_key|]; right; split; [rewrite <- spec_ext_in; discriminate|]; split; [reflexivity|reflexivity].
Ltac ext_rule := split; [fine_key|]; left; split; [apply spec_ext_in; vm_compute; reflexivity|]; split; [discriminate|]; split; [reflexivity|];
  eexists; split; [reflexivity|]; split; [reflexivity|]; split; [reflexivity|]; split; [reflexivity|]; repeat constructor.
Lemma table1_ok : table_ok 33 table1.
Proof.
  unfold table_ok. rewrite rules1_eq. split; [|split; [|split]].
  - unfold rules1. repeat (apply Forall_cons; [first [plain_rule|ext_rule]|]). apply Forall_nil.
  - vm_compute. repeat (apply NoDup_cons; [cbn [In]; intuition discriminate|]). apply NoDup_nil.
  - vm_compute. reflexivity.
  - split; vm_compute; reflexivity.
Qed.
(** The table in the file, and as read back. *)
Definition bytes1 : list N := Eval vm_compute in match avtab_write v33 table1 with Some bs => bs | None => [] end.
Definition table2 : avtab := Eval vm_compute in match avtab_read 33 bytes1 with Some (a, _) => a | None => avtab_init end.
Lemma bytes1_eq : avtab_write v33 table1 = Some bytes1.
Proof. vm_compute. reflexivity. Qed.
Lemma table2_eq : avtab_read 33 bytes1 = Some (table2, []).
Proof. vm_compute. reflexivity. Qed.
(** The table of an old policy with one entry of the specifiers 1 and 256. *)
Definition old1 : list N := Eval vm_compute in write_words [1; 6; 1; 2; 3; 257; 7; 9].
Definition table3 : avtab := Eval vm_compute in match avtab_read 15 old1 with Some (a, _) => a | None => avtab_init end.
Lemma table3_eq : avtab_read 15 old1 = Some (table3, []).
Proof. vm_compute. reflexivity. Qed.
