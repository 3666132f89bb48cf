(** C84: policy module packages (libsepol/src/module.c). *)
From Verif Require Import Base CodecModel CodecSpec CodecProofs ContextModel FtransModel PackModel PackSpec PackProofs PackMain PackTrip.

(** Two small policies: a base policy and a module called n of version v. *)
Definition example_id : list N := [83; 69; 32; 76; 105; 110; 117; 120; 32; 77; 111; 100; 117; 108; 101].
Definition example_write (base : bool) : option (list N) :=
  Some (word_bytes 0xf97cff8d ++ word_bytes 15 ++ example_id ++ word_bytes (if base then 1 else 2) ++ word_bytes 19 ++ word_bytes 0 ++ word_bytes 8 ++ word_bytes 7
        ++ (if base then [] else word_bytes 1 ++ [110] ++ word_bytes 1 ++ [118])).
Definition example_read (bs : list N) : option bool :=
  if (33 <=? N.of_nat (length bs)) && (word_at bs 0 =? 0xf97cff8d) then Some (word_at bs 23 =? 1) else None.
Definition example_package : package bool := mkPkg 1 true (Some [47; 32; 97; 10; 10]) None (Some [117; 32; 114; 59]) None.
Definition example_file : list N := match package_write example_write (fun b => b) example_package with Some f => f | None => [] end.
Lemma example_reads_back b : reads_back example_write example_read b.
Proof.
  intros w E. injection E as <-. split; [|destruct b; split; vm_compute; auto 60; repeat constructor].
  intros rest. unfold example_read.
  assert (L : (33 <=? N.of_nat (length ((word_bytes 0xf97cff8d ++ word_bytes 15 ++ example_id ++ word_bytes (if b then 1 else 2) ++ word_bytes 19 ++ word_bytes 0 ++ word_bytes 8 ++ word_bytes 7
        ++ (if b then [] else word_bytes 1 ++ [110] ++ word_bytes 1 ++ [118])) ++ rest))) = true).
  { rewrite app_length. apply N.leb_le. assert (33 <= N.of_nat (length (word_bytes 0xf97cff8d ++ word_bytes 15 ++ example_id ++ word_bytes (if b then 1 else 2) ++ word_bytes 19 ++ word_bytes 0 ++ word_bytes 8 ++ word_bytes 7
        ++ (if b then [] else word_bytes 1 ++ [110] ++ word_bytes 1 ++ [118])))) by (destruct b; vm_compute; discriminate). lia. }
  unfold word_bytes, example_id in *. cbn [app] in *. rewrite L. destruct b; reflexivity.
Qed.

(** Reading a file gives a package exactly if the file holds it: the first word, the sections inside the file and after one another, each
    kind at most once, one policy, and the texts are exactly the bytes of their sections. *)
Theorem C84_read_exactly {P} (reads : list N -> option P) (f : list N) (p : package P) : N.of_nat (length f) < 2 ^ 32 ->
  (package_read reads f = ROk p
   <-> holds reads f (pk_version p) (pk_policy p) (pk_fc p) (pk_seusers p) (pk_user_extra p) (pk_netfilter p)).
Proof. apply read_exactly. Qed.
Print Assumptions C84_read_exactly.
Example C84_read_case : package_read example_read example_file = ROk example_package /\ N.of_nat (length example_file) = 84.
Proof. split; reflexivity. Qed.
(** A file that is cut short, or whose offsets point outside or go back, or with two sections of a kind, is refused. *)
Example C84_read_refused_case :
  package_read example_read (firstn 66 example_file) = RErr
  /\ package_read example_read (word_bytes 0xf97cff8f ++ word_bytes 1 ++ word_bytes 2 ++ word_bytes 20 ++ word_bytes 16 ++ skipn 24 example_file) = RErr
  /\ package_read example_read (word_bytes 0xf97cff8f ++ word_bytes 1 ++ word_bytes 2 ++ word_bytes 24 ++ word_bytes 24 ++ skipn 20 example_file) = RErr
  /\ package_read example_read (word_bytes 0xf97cff8f ++ word_bytes 1 ++ word_bytes 3 ++ word_bytes 24 ++ word_bytes 67 ++ word_bytes 500 ++ skipn 24 example_file) = RErr.
Proof. repeat split; reflexivity. Qed.

(** No file of less than four gigabytes makes the reader leave a text partly unset. *)
Theorem C84_read_defined {P} (reads : list N -> option P) (f : list N) : N.of_nat (length f) < 2 ^ 32 -> package_read reads f <> RUB.
Proof. apply read_defined. Qed.
Print Assumptions C84_read_defined.
Example C84_read_defined_case : package_read example_read (repeat 255 300) = RErr /\ package_read example_read [] = RErr.
Proof. split; reflexivity. Qed.

(** A package that is written and read again is the same package. *)
Theorem C84_round_trip {P} (writes : P -> option (list N)) (reads : list N -> option P) (base : P -> bool) (p : package P) (f : list N) :
  reads_back writes reads (pk_policy p) -> package_write writes base p = Some f -> pk_version p < 2 ^ 32 -> N.of_nat (length f) < 2 ^ 32 ->
  package_read reads f = ROk p.
Proof. intros R W V L. apply (trip writes base); assumption. Qed.
Print Assumptions C84_round_trip.
Example C84_round_trip_case : reads_back example_write example_read (pk_policy example_package)
  /\ package_write example_write (fun b => b) example_package = Some example_file /\ pk_version example_package < 2 ^ 32
  /\ N.of_nat (length example_file) < 2 ^ 32.
Proof. split; [apply example_reads_back|]. repeat split; reflexivity. Qed.

(** Writing fails exactly if the policy cannot be written, or if there are users or logins and the policy is not a base policy. *)
Theorem C84_write_refused {P} (writes : P -> option (list N)) (base : P -> bool) (p : package P) :
  package_write writes base p = None
  <-> (writes (pk_policy p) = None \/ writes (pk_policy p) = Some []
       \/ ((pk_seusers p <> None \/ pk_user_extra p <> None) /\ base (pk_policy p) = false)).
Proof.
  unfold package_write. destruct (writes (pk_policy p)) as [[|x w]|].
  - split; auto.
  - cbn [length]. destruct (N.of_nat (S (length w)) =? 0) eqn:Z; [lia|].
    destruct (pk_seusers p), (pk_user_extra p), (base (pk_policy p)); cbn [present negb andb N.eqb]; cbv zeta; split; intros H; try discriminate;
      try (right; right; split; [|reflexivity]; solve [left; discriminate | right; discriminate]); try reflexivity;
      destruct H as [H|[H|[H1 H2]]]; try discriminate; destruct H1 as [H1|H1]; elim H1; reflexivity.
  - split; auto.
Qed.
Print Assumptions C84_write_refused.
Example C84_write_refused_case : package_write example_write (fun b => b) (mkPkg 1 false None (Some [97]) None None) = None
  /\ package_write example_write (fun b => b) (mkPkg 1 false (Some [97]) None None (Some [])) <> None.
Proof. split; [reflexivity|discriminate]. Qed.

(** The short look into a written package tells its kind. *)
Theorem C84_info_base {P} (writes : P -> option (list N)) (base : P -> bool) (p : package P) (f w : list N) :
  package_write writes base p = Some f -> pk_version p < 2 ^ 32 -> N.of_nat (length f) < 2 ^ 32 -> writes (pk_policy p) = Some w -> base_begins w ->
  last_not_tiny (pk_fc p) (pk_seusers p) (pk_user_extra p) (pk_netfilter p) -> package_info f = Some (1, None).
Proof.
  intros PW V L Ew (id & v & c & s & o & rest & LI & EW) T. rewrite <- !word_bytes_put in EW.
  refine (info_trip writes base p f w 15 _ _ PW V L Ew EW _ _ T); [reflexivity|]. intros r. apply base_info. exists id, v, c, s, o, rest. auto.
Qed.
Print Assumptions C84_info_base.
Example C84_info_base_case : package_info example_file = Some (1, None)
  /\ last_not_tiny (pk_fc example_package) (pk_seusers example_package) (pk_user_extra example_package) (pk_netfilter example_package)
  /\ exists w, example_write true = Some w /\ base_begins w.
Proof.
  split; [reflexivity|]. split; [cbn; lia|]. eexists. split; [reflexivity|]. exists example_id, 19, 0, 8, 7, []. split; reflexivity.
Qed.

(** ... and the name and version of a module. *)
Theorem C84_info_module {P} (writes : P -> option (list N)) (base : P -> bool) (p : package P) (f w name vers : list N) :
  package_write writes base p = Some f -> pk_version p < 2 ^ 32 -> N.of_nat (length f) < 2 ^ 32 -> writes (pk_policy p) = Some w ->
  module_begins w name vers -> name <> [] -> vers <> [] -> Forall (fun c => c <> 0) name -> Forall (fun c => c <> 0) vers ->
  last_not_tiny (pk_fc p) (pk_seusers p) (pk_user_extra p) (pk_netfilter p) -> package_info f = Some (2, Some (name, vers)).
Proof.
  intros PW V L Ew (id & v & c & s & o & rest & LI & EW) N1 N2 F1 F2 T. rewrite <- !word_bytes_put in EW.
  destruct (written writes base p f PW L V) as (w' & pre & Ew' & Ef & _). rewrite Ew in Ew'. injection Ew' as <-.
  assert (LL : (length name + length vers <= length f)%nat) by (rewrite Ef, EW, !app_length; lia).
  refine (info_trip writes base p f w 15 _ _ PW V L Ew EW _ _ T); [reflexivity|]. intros r. apply module_info; try assumption; try (unfold word; change (2 ^ 32) with 4294967296 in L; lia).
  exists id, v, c, s, o, rest. auto.
Qed.
Print Assumptions C84_info_module.
Example C84_info_module_case : exists f, package_write example_write (fun b => b) (mkPkg 1 false (Some [47; 32; 97; 10]) None None None) = Some f
  /\ package_info f = Some (2, Some ([110], [118])) /\ exists w, example_write false = Some w /\ module_begins w [110] [118].
Proof.
  eexists. split; [reflexivity|]. split; [reflexivity|]. eexists. split; [reflexivity|]. exists example_id, 19, 0, 8, 7, []. split; reflexivity.
Qed.
(** Without the condition on the last text this is false: a package with file contexts of less than four bytes is written and read, but the
    short look into it fails, as it wants eight bytes of each section. *)
Theorem C84_refuted_info_short : exists (p : package bool) f, package_write example_write (fun b => b) p = Some f
  /\ package_read example_read f = ROk p /\ package_info f = None.
Proof. exists (mkPkg 1 false (Some [10]) None None None). eexists. repeat split; reflexivity. Qed.
Print Assumptions C84_refuted_info_short.

(** Linking: the file contexts and the netfilter contexts of the result are those of the base followed by those of the modules in order; the
    logins and users are those of the base. *)
Theorem C84_link {P} (link : P -> list P -> option P) (base : package P) (modules : list (package P)) (r : package P) :
  let text x := match x with Some d => d | None => [] end in
  link_packages link base modules = Some r ->
  link (pk_policy base) (map pk_policy modules) = Some (pk_policy r)
  /\ pk_fc r = Some (text (pk_fc base) ++ concat (map (fun m => text (pk_fc m)) modules))
  /\ pk_netfilter r = Some (text (pk_netfilter base) ++ concat (map (fun m => text (pk_netfilter m)) modules))
  /\ pk_seusers r = pk_seusers base /\ pk_user_extra r = pk_user_extra base /\ pk_version r = pk_version base.
Proof.
  intros text. unfold link_packages. destruct (link _ _) as [q|]; [|discriminate]. intros E. injection E as <-. cbn [pk_policy pk_fc pk_netfilter pk_seusers pk_user_extra pk_version].
  assert (X : forall (l : list (option (list N))) a, fold_left (fun acc m => acc ++ text m) l a = a ++ concat (map text l)).
  { induction l as [|m l IH]; intros a; cbn [fold_left map concat]; [symmetry; apply app_nil_r|]. rewrite IH, app_assoc. reflexivity. }
  unfold link_texts. repeat split; f_equal.
  - rewrite <- (map_map pk_fc text). apply X.
  - rewrite <- (map_map pk_netfilter text). apply X.
Qed.
Print Assumptions C84_link.
Example C84_link_case : link_packages (fun b _ => Some b) example_package [mkPkg 1 false (Some [1; 2]) None None (Some [9]); mkPkg 1 false None None None None; mkPkg 1 false (Some [3]) None None None]
  = Some (mkPkg 1 true (Some [47; 32; 97; 10; 10; 1; 2; 3]) None (Some [117; 32; 114; 59]) (Some [9])).
Proof. reflexivity. Qed.
