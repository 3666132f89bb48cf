(** C60: a login name is mapped to the SELinux user its file assigns. *)
From Verif Require Import Base MlsModel ContextModel LoginModel LoginSpec LoginProofs.
Open Scope N_scope.

(** A line is read as a mapping exactly when the grammar says so. *)
Theorem C60_line : forall mls buffer login se level,
  process_seusers buffer mls = SRec login se level <-> entry mls buffer login se level.
Proof. intros. apply process_entry. Qed.
Print Assumptions C60_line.

(** "  joe:staff_u:s0-s1 x" maps joe to staff_u, s0-s1. *)
Example C60_line_case :
  entry true ([32;32;106;111;101;58;115;116;97;102;102;95;117;58;115;48;45;115;49;32;120;10])
        [106;111;101] [115;116;97;102;102;95;117] (Some [115;48;45;115;49]).
Proof. apply process_entry. vm_compute. reflexivity. Qed.

(** What getseuserbyname returns for a file: what the file assigns, else the login name itself or,
    when entries are required, failure. *)
Theorem C60_lookup : forall getgr gids mls require file ls name,
  lines_of file ls ->
  let member g := exists i, getgr g = Some i /\ In i gids in
  (forall se lv, getseuserbyname getgr gids mls require (Some file) name = Some (se, lv) <->
     assigned mls member ls name se lv
     \/ (unassigned mls member ls name /\ require = false /\ se = name /\ lv = None)) /\
  (getseuserbyname getgr gids mls require (Some file) name = None <->
     unassigned mls member ls name /\ require = true).
Proof.
  intros getgr gids mls require file ls name Hls member.
  change member with (in_group getgr gids).
  destruct (lookup_cases getgr gids name mls require file ls Hls) as [(se0 & lv0 & E & A)|[U E]]; rewrite E.
  - split.
    + intros se lv. split.
      * intros [= <- <-]. left. exact A.
      * intros [B|[U _]]; [|destruct (assigned_not _ _ _ _ _ _ _ A U)].
        destruct (assigned_fun _ _ _ _ _ _ _ _ _ A B) as [-> ->]. reflexivity.
    + split; [discriminate|]. intros [U _]. destruct (assigned_not _ _ _ _ _ _ _ A U).
  - split.
    + intros se lv. split.
      * intros H. right. destruct require; [discriminate|]. injection H as <- <-. auto.
      * intros [B|(_ & -> & -> & ->)]; [destruct (assigned_not _ _ _ _ _ _ _ B U)|reflexivity].
    + destruct require; split; try discriminate; auto. intros [_ X]. discriminate.
Qed.
Print Assumptions C60_lookup.

(** Without the file, or without an assignment. *)
Theorem C60_no_file : forall getgr gids mls require name,
  getseuserbyname getgr gids mls require None name = if require then None else Some (name, None).
Proof. reflexivity. Qed.
Print Assumptions C60_no_file.

(** The file "__default__:user_u:s0\n%wheel:staff_u:s0\n# x\nbad\njoe:joe_u:s1\n". *)
Definition demo_file : list N :=
  [95;95;100;101;102;97;117;108;116;95;95;58;117;115;101;114;95;117;58;115;48;10;
   37;119;104;101;101;108;58;115;116;97;102;102;95;117;58;115;48;10;
   35;32;120;10; 98;97;100;10;
   106;111;101;58;106;111;101;95;117;58;115;49;10].

(** joe (a member of wheel) has its own line; ann (in wheel) the group's; bob the default. *)
Example C60_lookup_case :
  let getgr g := if list_eq_dec N.eq_dec g [119;104;101;101;108] then Some 10 else None in
  getseuserbyname getgr [10] true false (Some demo_file) [106;111;101]
    = Some ([106;111;101;95;117], Some [115;49]) /\
  getseuserbyname getgr [10] true false (Some demo_file) [97;110;110]
    = Some ([115;116;97;102;102;95;117], Some [115;48]) /\
  getseuserbyname getgr [100] true false (Some demo_file) [98;111;98]
    = Some ([117;115;101;114;95;117], Some [115;48]) /\
  exists ls, lines_of demo_file ls /\ length ls = 5%nat.
Proof.
  split; [vm_compute; reflexivity|]. split; [vm_compute; reflexivity|].
  split; [vm_compute; reflexivity|]. exists (getlines demo_file).
  split; [apply getlines_lines|vm_compute; reflexivity].
Qed.

(** Every file has exactly one sequence of lines, so that the theorem above applies to any file. *)
Theorem C60_lines : forall file, exists ls, lines_of file ls /\ forall ls', lines_of file ls' -> ls' = ls.
Proof.
  intros file. exists (getlines file). split; [apply getlines_lines|].
  intros ls' H. symmetry. apply lines_fun. exact H.
Qed.
Print Assumptions C60_lines.

(** The per-user file overrides the mapping for a service. *)
Theorem C60_service : forall getgr gids mls require cfg file user service ls,
  lines_of file ls ->
  (forall b se lv, chosen service ls b -> gives b se lv ->
     getseuser getgr gids mls require cfg (Some file) user service = Some (se, Some lv)) /\
  ((forall b se lv, chosen service ls b -> ~ gives b se lv) ->
     getseuser getgr gids mls require cfg (Some file) user service =
     getseuserbyname getgr gids mls require cfg user) /\
  getseuser getgr gids mls require cfg None user service =
     getseuserbyname getgr gids mls require cfg user.
Proof.
  intros getgr gids mls require cfg file user service ls H.
  split; [|split; [|reflexivity]].
  - intros b se lv Hc Hg. destruct (getseuser_cases getgr gids mls require cfg file user service ls H)
      as [(b' & se' & lv' & Hc' & Hg' & ->)|[Hn _]]; [|destruct (Hn b se lv Hc Hg)].
    rewrite (chosen_fun _ _ _ _ Hc' Hc) in Hg'. destruct (gives_fun _ _ _ _ _ Hg Hg') as [-> ->]. reflexivity.
  - intros Hn. destruct (getseuser_cases getgr gids mls require cfg file user service ls H)
      as [(b' & se' & lv' & Hc' & Hg' & _)|[_ E]]; [|exact E].
    destruct (Hn _ _ _ Hc' Hg').
Qed.
Print Assumptions C60_service.

(** "*:a:s0\nssh:b:s1:c2\n*:c:s3\n": for ssh the second line, for any other service the third. *)
Definition demo_logins : list N :=
  [42;58;97;58;115;48;10; 115;115;104;58;98;58;115;49;58;99;50;10; 42;58;99;58;115;51;10].
Example C60_service_case :
  chosen (Some [115;115;104]) (getlines demo_logins) [115;115;104;58;98;58;115;49;58;99;50;10] /\
  gives [115;115;104;58;98;58;115;49;58;99;50;10] [98] [115;49;58;99;50] /\
  getseuser (fun _ => None) [] true false None (Some demo_logins) [106] (Some [115;115;104])
    = Some ([98], Some [115;49;58;99;50]) /\
  getseuser (fun _ => None) [] true false None (Some demo_logins) [106] (Some [115;115])
    = Some ([99], Some [115;51]).
Proof.
  assert (G : gives [115;115;104;58;98;58;115;49;58;99;50;10] [98] [115;49;58;99;50]).
  { apply gives_model. exists [115;115;104], [98;58;115;49;58;99;50;10], [115;49;58;99;50;10].
    split; [vm_compute; reflexivity|]. split; vm_compute; reflexivity. }
  split; [|split; [exact G|split; vm_compute; reflexivity]].
  left. exists [115;115;104]. split; [reflexivity|].
  exists [[42;58;97;58;115;48;10]], [[42;58;99;58;115;51;10]]. split; [vm_compute; reflexivity|].
  split; [split|].
  - apply serves_starts. vm_compute. reflexivity.
  - rewrite <- serves_starts. vm_compute. discriminate.
  - intros x [<-|[]] [_ X]. apply X, serves_starts. vm_compute. reflexivity.
Qed.

(** The file libsemanage writes gives each login the first mapping with its name, else the first for
    a group of it, else the default. *)
Theorem C60_written : forall getgr gids mls require ms name m,
  Forall writable ms ->
  let member g := exists i, getgr g = Some i /\ In i gids in
  (first_such (fun m => m_login m = name) ms m
   \/ ((forall x, In x ms -> m_login x <> name) /\
       first_such (fun m => exists g, m_login m = 37 :: g /\ member g) ms m)
   \/ ((forall x, In x ms -> m_login x <> name) /\
       (forall x g, In x ms -> m_login x = 37 :: g -> ~ member g) /\
       first_such (fun m => m_login m = dflt) ms m)) ->
  getseuserbyname getgr gids mls require
    (Some (flat_map (fun m => seuser_print (mkSU (m_login m) (m_se m) (m_level m))) ms)) name
  = Some (m_se m, if mls then m_level m else None).
Proof.
  intros getgr gids mls require ms name m W member H.
  pose proof (written_assigned getgr gids mls ms name m W H) as A.
  apply (proj1 (C60_lookup getgr gids mls require _ _ name (written_lines ms W))). left. exact A.
Qed.
Print Assumptions C60_written.

Example C60_written_case :
  let ms := [mkMap [37;119] [115] None; mkMap dflt [117;95;117] (Some [115;48]); mkMap [106;111;101] [106;95;117] (Some [115;48;58;99;49])] in
  Forall writable ms /\ first_such (fun m => m_login m = [106;111;101]) ms (mkMap [106;111;101] [106;95;117] (Some [115;48;58;99;49])).
Proof.
  cbv zeta. split.
  - repeat constructor; cbn; unfold blank, no_colon, no_newline, no_nul; cbn; try discriminate; intuition discriminate.
  - exists [mkMap [37;119] [115] None; mkMap dflt [117;95;117] (Some [115;48])], [].
    split; [reflexivity|]. split; [reflexivity|]. intros x [<-|[<-|[]]]; cbn; discriminate.
Qed.

(** What the precondition on names excludes does happen: libsemanage writes a mapping whose login
    starts with '#', and reading the file then ignores it; a level with a blank is cut. *)
Theorem C60_refuted_hash : exists m,
  m_login m = [35; 97] /\ forall getgr gids mls require,
  getseuserbyname getgr gids mls require
    (Some (seuser_print (mkSU (m_login m) (m_se m) (m_level m)))) (m_login m)
  = if require then None else Some (m_login m, None).
Proof. exists (mkMap [35;97] [117] None). split; [reflexivity|]. intros. vm_compute. reflexivity. Qed.
Print Assumptions C60_refuted_hash.

Theorem C60_refuted_blank : exists m,
  m_level m = Some [115;48;32;45;32;115;49] /\ forall getgr gids require,
  getseuserbyname getgr gids true require
    (Some (seuser_print (mkSU (m_login m) (m_se m) (m_level m)))) (m_login m)
  = Some (m_se m, Some [115;48]).
Proof. exists (mkMap [97] [117] (Some [115;48;32;45;32;115;49])). split; [reflexivity|]. intros. vm_compute. reflexivity. Qed.
Print Assumptions C60_refuted_blank.
