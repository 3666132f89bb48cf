(** The record databases: C38 and C39. *)
From Verif Require Import Base DbModel DbSpec DbProofs DbJoinProofs DbDemo.
From Coq Require Import Sorted Permutation.

(** ** C39: a record list behaves as a keyed collection *)
(** Any transaction of calls answers and changes the collection as the specification says, and its list is what is shown
    afterwards. Missing for the full statement: a copy that fails while a record is replaced. *)
Theorem C39_history_partial : forall (R K : Type) (compare : R -> K -> comparison) (key : R -> K) (ser : Z) (src : list R) (ops : list (dop R K)) (db : llist R),
  (forall r k, compare r k = Eq <-> key r = k) -> (0 <= ser)%Z -> unloaded db -> ops <> [] -> Forall copies ops -> N.of_nat (length src + length ops) < 2 ^ 32 ->
  exists db' l xs, calls compare ser (src, true) ops db = Some (db', xs) /\ Steps key src ops l xs /\ shows db' l.
Proof.
  intros R K compare key ser src ops db CK P U NE CP LN.
  destruct (history_shows compare key CK ser src ops db P U NE CP LN) as (d & l & xs & E & SS & SH & _). eauto 6.
Qed.
Example C39_history_case :
  let ops := [OModify true true 2 (2, 9); OAdd true true (3, 1); ODel 1; OCount; OIterate (fun _ => 0%Z); OSet true 4 (4, 4); OQuery true 2; OList true (fun _ => true); OClear; OExists 3] in
  (0 <= 5)%Z /\ @unloaded rec empty /\ Forall copies ops /\
  option_map snd (calls rcmp 5 ([(1, 1); (2, 2)], true) ops empty) =
    Some [RDone; RDone; RDone; RNum 2; RSeen false [(2, 9); (3, 1)]; RFail; RRec (2, 9); RArr [(2, 9); (3, 1)]; RDone; RBool false].
Proof. cbn zeta. split; [lia|]. split; [reflexivity|]. split; [repeat constructor|]. vm_compute. reflexivity. Qed.
Print Assumptions C39_history_partial.

(** A record that was stored is found until a call concerns its key. *)
Theorem C39_latest : forall (R K : Type) (compare : R -> K -> comparison) (key : R -> K) ser src pre mid k r db,
  (forall r k, compare r k = Eq <-> key r = k) -> (0 <= ser)%Z -> unloaded db -> key r = k -> Forall copies pre -> Forall copies mid ->
  Forall (fun o => ~ touches key k o) mid -> N.of_nat (length src + length pre + length mid + 3) < 2 ^ 32 ->
  exists db' xs, calls compare ser (src, true) (pre ++ OModify true true k r :: mid ++ [OQuery true k; OExists k]) db = Some (db', xs ++ [RRec r; RBool true]).
Proof. intros R K compare key ser src pre mid k r db CK. exact (latest compare key CK ser src pre mid k r db). Qed.
Example C39_latest_case :
  Forall (fun o => ~ touches (@fst N N) 2 o) [ODel 1; OModify true true 3 (3, 0); OAdd true true (1, 7)] /\
  option_map snd (calls rcmp 5 ([(1, 1); (2, 2)], true) ([ODel 2] ++ OModify true true 2 (2, 8) :: [ODel 1; OModify true true 3 (3, 0); OAdd true true (1, 7)] ++ [OQuery true 2; OExists 2]) empty) =
    Some [RDone; RDone; RDone; RDone; RDone; RRec (2, 8); RBool true].
Proof. split; [repeat constructor; cbn; intuition discriminate|vm_compute; reflexivity]. Qed.
Print Assumptions C39_latest.

(** With unique keys, a deleted record is gone until it is stored again. *)
Theorem C39_gone : forall (R K : Type) (compare : R -> K -> comparison) (key : R -> K) ser src pre mid k c db,
  (forall r k, compare r k = Eq <-> key r = k) -> (0 <= ser)%Z -> unloaded db -> NoDup (map key src) ->
  Forall copies pre -> Forall (own_key key) pre -> Forall no_add pre -> Forall copies mid -> Forall (fun o => ~ touches key k o) mid ->
  N.of_nat (length src + length pre + length mid + 3) < 2 ^ 32 ->
  exists db' xs, calls compare ser (src, true) (pre ++ ODel k :: mid ++ [OQuery c k; OExists k]) db = Some (db', xs ++ [RFail; RBool false]).
Proof. intros R K compare key ser src pre mid k c db CK. exact (gone compare key CK ser src pre mid k c db). Qed.
Example C39_gone_case :
  NoDup (map (@fst N N) [(1, 1); (2, 2)]) /\ Forall (own_key (@fst N N)) [OModify true true 3 (3, 3)] /\
  option_map snd (calls rcmp 5 ([(1, 1); (2, 2)], true) ([OModify true true 3 (3, 3)] ++ ODel 2 :: [OSet true 1 (1, 9)] ++ [OQuery true 2; OExists 2]) empty) =
    Some [RDone; RDone; RDone; RFail; RBool false] /\
  (* two records with one key: deleting shows the older one *)
  option_map snd (calls rcmp 5 ([(2, 1); (2, 2)], true) [ODel 2; OQuery true 2] empty) = Some [RDone; RRec (2, 1)].
Proof. split; [repeat constructor; cbn; intuition discriminate|]. split; [repeat constructor|]. split; vm_compute; reflexivity. Qed.
Print Assumptions C39_gone.

(** After a flush whose writes succeed, the file holds the collection. *)
Theorem C39_flush : forall (R K : Type) (compare : R -> K -> comparison) (key : R -> K) ser src ops db,
  (forall r k, compare r k = Eq <-> key r = k) -> (0 <= ser)%Z -> unloaded db -> ops <> [] -> Forall copies ops -> N.of_nat (length src + length ops) < 2 ^ 32 ->
  exists db' l xs db'', calls compare ser (src, true) ops db = Some (db', xs) /\ Steps key src ops l xs /\
    file_flush (true, true, true) (Some src) db' = (DOk db'', Some l) /\ shows db'' l.
Proof. intros R K compare key ser src ops db CK. exact (flushed compare key CK ser src ops db). Qed.
Example C39_flush_case :
  match calls rcmp 5 ([(1, 1); (2, 2)], true) [OModify true true 2 (2, 9); OModify true true 0 (0, 0)] empty with
  | Some (db, _) => snd (file_flush (true, true, true) (Some [(1, 1); (2, 2)]) db)
  | None => None
  end = Some [(1, 1); (2, 9); (0, 0)].
Proof. vm_compute. reflexivity. Qed.
Print Assumptions C39_flush.

(** While the file cannot be read every call fails and leaves nothing behind: once it can be, the history is that of a fresh
    database. *)
Theorem C39_recovers : forall (R K : Type) (compare : R -> K -> comparison) (key : R -> K) ser bad src ops0 ops db,
  (forall r k, compare r k = Eq <-> key r = k) -> (0 <= ser)%Z -> unloaded db -> ops <> [] -> Forall copies ops -> N.of_nat (length src + length ops) < 2 ^ 32 ->
  exists db1 db2 l xs, calls compare ser (bad, false) ops0 db = Some (db1, map (fun _ => RFail) ops0) /\
    calls compare ser (src, true) ops db1 = Some (db2, xs) /\ Steps key src ops l xs /\ shows db2 l.
Proof.
  intros R K compare key ser bad src ops0 ops db CK P U NE CP LN. destruct (calls_fail K compare ser bad P ops0 db U) as (d1 & E1 & U1).
  destruct (history_shows compare key CK ser src ops d1 P U1 NE CP LN) as (d & l & xs & E & SS & SH & _). eauto 8.
Qed.
Example C39_recovers_case :
  match calls rcmp 5 ([(1, 1); (2, 2)], false) [OExists 1; OModify true true 1 (1, 9)] empty with
  | Some (d, xs) => (xs, option_map snd (calls rcmp 5 ([(1, 1); (2, 2)], true) [OQuery true 1; OCount] d))
  | None => ([], None)
  end = ([RFail; RFail], Some [RRec (1, 1); RNum 2]).
Proof. vm_compute. reflexivity. Qed.
Print Assumptions C39_recovers.

(** A copy that fails while a record is replaced leaves a freed record behind: the next call reads it. *)
Theorem C39_refuted_memory : exists db, option_map fst (calls rcmp 5 ([(1, 1)], true) [OModify true false 1 (1, 2)] empty) = Some db /\
  calls rcmp 5 ([(1, 1)], true) [OQuery true 1] db = None /\ option_map snd (calls rcmp 5 ([(1, 1)], true) [OModify true false 1 (1, 2)] empty) = Some [RFail].
Proof. eexists. split; [vm_compute; reflexivity|]. split; vm_compute; reflexivity. Qed.
Print Assumptions C39_refuted_memory.

(** If the commit number cannot be read once, the call fails, and the changes made before in the transaction are forgotten;
    flushing reports success and writes nothing. *)
Theorem C39_refuted_serial : exists db1 db2 db3,
  calls rcmp 5 ([(1, 1)], true) [OModify true true 1 (1, 2)] empty = Some (db1, [RDone]) /\
  calls rcmp (-1) ([(1, 1)], true) [OExists 1] db1 = Some (db2, [RFail]) /\
  calls rcmp 5 ([(1, 1)], true) [OQuery true 1] db2 = Some (db3, [RRec (1, 1)]) /\
  file_flush (true, true, true) (Some [(1, 1)]) db3 = (DOk db3, Some [(1, 1)]).
Proof. eexists _, _, _. split; [vm_compute; reflexivity|]. split; [vm_compute; reflexivity|]. split; vm_compute; reflexivity. Qed.
Print Assumptions C39_refuted_serial.

(** If closing the file fails, the flush fails; a second flush reports success though the file is incomplete. *)
Theorem C39_refuted_flush : exists db1 db2,
  option_map fst (calls rcmp 5 ([(1, 1)], true) [OModify true true 1 (1, 2)] empty) = Some db1 /\
  file_flush (true, true, false) (Some [(1, 1)]) db1 = (DErr db2, None) /\
  file_flush (true, true, true) None db2 = (DOk db2, None).
Proof. eexists _, _. split; [vm_compute; reflexivity|]. split; vm_compute; reflexivity. Qed.
Print Assumptions C39_refuted_flush.

(** ** C38: joined user databases *)
(** For tables with unique names, the users shown are the join: one for every name in either, combining the halves. *)
Theorem C38_join : forall sort1 sort2 ser src1 src2 j, sorts_by ub_name sort1 -> sorts_by ue_name sort2 -> (0 <= ser)%Z ->
  unloaded (j_users j) -> unloaded (j_base j) -> unloaded (j_extra j) -> NoDup (map ub_name src1) -> NoDup (map ue_name src2) ->
  N.of_nat (length src1 + length src2) < 2 ^ 32 ->
  exists j' us, join_cache sort1 sort2 ser (src1, true) (src2, true) j = DOk j' /\ shows (j_users j') us /\ Joined src1 src2 us.
Proof.
  intros s1 s2 ser src1 src2 j SB1 SB2 P U0 U1 U2 N1 N2 LN.
  destruct (join_cache_ok s1 s2 ser src1 src2 j SB1 SB2 P U0 U1 U2 N1 N2 ltac:(lia) ltac:(lia)) as (j1 & us & E & J & _ & LU & _).
  exists j1, us. split; [exact E|]. split; [|exact J]. apply list_whole; [apply LU|]. pose proof (joined_length _ _ _ J). lia.
Qed.
Example C38_join_case :
  sorts_by ub_name (isort ub_name) /\ sorts_by ue_name (isort ue_name) /\ NoDup (map ub_name bases) /\ NoDup (map ue_name extras) /\
  match join_cache (isort ub_name) (isort ue_name) 5 (bases, true) (extras, true) jempty with
  | DOk j => llist_list true (fun _ => true) (j_users j)
  | _ => DUb
  end = DOk [mkU ann (mkUb ann None None [[114]; [115]]) (mkUe ann [113]); mkU bob (mkUb bob None None []) (mkUe bob [112]);
             mkU cat (mkUb cat (Some [115]) (Some [115]) [[114]]) (mkUe cat [117; 115; 101; 114])].
Proof. split; [apply isort_ok|]. split; [apply isort_ok|]. split; [repeat constructor; cbn; intuition discriminate|]. split; [repeat constructor; cbn; intuition discriminate|]. vm_compute. reflexivity. Qed.
Print Assumptions C38_join.

(** A transaction on the users, flushed to the halves and from there to the files, and read again later: the users are those
    the transaction left. *)
Theorem C38_store : forall sort1 sort2 ser src1 src2 ops j, sorts_by ub_name sort1 -> sorts_by ue_name sort2 -> (0 <= ser)%Z ->
  unloaded (j_users j) -> unloaded (j_base j) -> unloaded (j_extra j) -> NoDup (map ub_name src1) -> NoDup (map ue_name src2) -> ops <> [] ->
  Forall copies ops -> Forall (own_key u_name) ops -> Forall no_add ops -> Forall (stores coherent) ops ->
  N.of_nat (length src1 + length src2 + length ops) < 2 ^ 32 ->
  exists j1 us l xs j2 b e f1 f2,
    jcalls sort1 sort2 ser (src1, true) (src2, true) ops j = Some (j1, xs) /\ Joined src1 src2 us /\ Steps u_name us ops l xs /\
    join_flush ser j1 = DOk j2 /\ file_flush (true, true, true) (Some src1) (j_base j2) = (DOk b, Some f1) /\
    file_flush (true, true, true) (Some src2) (j_extra j2) = (DOk e, Some f2) /\
    (modified (j_users j1) = false -> f1 = src1 /\ f2 = src2) /\ (modified (j_users j1) = true -> f1 = map u_base l /\ f2 = map u_extra l) /\
    forall ser' j', (0 <= ser')%Z -> unloaded (j_users j') -> unloaded (j_base j') -> unloaded (j_extra j') ->
      exists j3 us', join_cache sort1 sort2 ser' (f1, true) (f2, true) j' = DOk j3 /\ shows (j_users j3) us' /\ Permutation l us'.
Proof. exact store_again. Qed.
Definition demo_ops : list (dop user (list N)) := [OModify true true [122] zed; ODel bob; OCount].
Example C38_store_case :
  Forall copies demo_ops /\ Forall (own_key u_name) demo_ops /\ Forall no_add demo_ops /\ Forall (stores coherent) demo_ops /\
  match jcalls (isort ub_name) (isort ue_name) 5 (bases, true) (extras, true) demo_ops jempty with
  | Some (j, xs) => match join_flush 5 j with
    | DOk j2 => Some (xs, snd (file_flush (true, true, true) (Some bases) (j_base j2)), snd (file_flush (true, true, true) (Some extras) (j_extra j2)))
    | _ => None end
  | None => None
  end = Some ([RDone; RDone; RNum 3], Some [mkUb ann None None [[114]; [115]]; mkUb cat (Some [115]) (Some [115]) [[114]]; mkUb [122] None None [[114]]],
              Some [mkUe ann [113]; mkUe cat [117; 115; 101; 114]; mkUe [122] [112]]).
Proof. do 3 (split; [repeat constructor|]). split; [repeat constructor|]. vm_compute. reflexivity. Qed.
Print Assumptions C38_store.

(** A user that is given a name carries it in both halves: what a caller makes and names can be stored as above. *)
Theorem C38_named : forall u n, coherent (user_set_name u n) /\ u_name (user_set_name u n) = n /\
  ub_roles (u_base (user_set_name u n)) = ub_roles (u_base u) /\ ue_prefix (u_extra (user_set_name u n)) = ue_prefix (u_extra u).
Proof. intros u n. split; [split; reflexivity|]. split; [reflexivity|]. split; reflexivity. Qed.
Print Assumptions C38_named.
Example C38_named_case : coherent (user_set_name (mkU ann (mkUb bob None None [[114]]) (mkUe cat [112])) [122]).
Proof. split; reflexivity. Qed.

(** If both tables have the same names, the halves of the join are the tables again, up to order. *)
Theorem C38_restored : forall l1 l2 us, NoDup (map ub_name l1) -> NoDup (map ue_name l2) ->
  (forall n, In n (map ub_name l1) <-> In n (map ue_name l2)) -> Joined l1 l2 us -> Permutation l1 (map u_base us) /\ Permutation l2 (map u_extra us).
Proof. exact joined_halves. Qed.
Example C38_restored_case :
  let us := [mkU ann (mkUb ann None None [[114]; [115]]) (mkUe ann [113])] in
  Joined [mkUb ann None None [[114]; [115]]] [mkUe ann [113]] us.
Proof.
  cbn zeta. split.
  - repeat constructor; cbn; intuition.
  - intros n. cbn. tauto.
  - intros u [<-|[]]. split; [left; split; [left; reflexivity|reflexivity]|]. split; [left; split; [left; reflexivity|reflexivity]|]. left. eexists. split; [left; reflexivity|reflexivity].
Qed.
Print Assumptions C38_restored.

(** Otherwise flushing does not restore the tables: storing a user back unchanged adds a blank half to the other table. *)
Theorem C38_refuted_blank : exists j1 j2 u,
  jcalls (isort ub_name) (isort ue_name) 5 ([], true) ([mkUe bob [112]], true) [OQuery true bob; OModify true true bob u] jempty = Some (j1, [RRec u; RDone]) /\
  join_flush 5 j1 = DOk j2 /\ snd (file_flush (true, true, true) (Some []) (j_base j2)) = Some [mkUb bob None None []].
Proof. eexists _, _, _. split; [vm_compute; reflexivity|]. split; vm_compute; reflexivity. Qed.
Print Assumptions C38_refuted_blank.

(** With two records for one name in a file there are two users with that name, and only one of them has the other half. *)
Theorem C38_refuted_duplicates : exists j, 
  join_cache (isort ub_name) (isort ue_name) 5 ([mkUb ann None None [[114]]; mkUb ann None None [[115]]], true) ([mkUe ann [113]], true) jempty = DOk j /\
  llist_list true (fun _ => true) (j_users j) =
    DOk [mkU ann (mkUb ann None None [[114]]) (mkUe ann [113]); mkU ann (mkUb ann None None [[115]]) (mkUe ann [117; 115; 101; 114])].
Proof. eexists. split; vm_compute; reflexivity. Qed.
Print Assumptions C38_refuted_duplicates.
