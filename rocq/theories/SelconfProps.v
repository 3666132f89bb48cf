(** C88: the configuration file and the default types of roles. *)
From Verif Require Import Base MlsModel ContextModel LoginModel RestoreModel SelconfModel SelconfSpec SelconfProofs.
From Coq Require Import String ZArith.
Open Scope string_scope.
Open Scope list_scope.
Open Scope N_scope.

(** The mode is that of the first line that gives one; without such a line there is none. *)
Theorem C88_mode : forall page before l after m, Forall (plain_line (page - 1)) (before ++ l :: after) ->
  (forall x m', In x before -> ~ gives_mode x m') -> gives_mode l m ->
  getenforcemode page (Some (config_file (before ++ l :: after))) = Some m.
Proof.
  intros page before l after m F NG G. unfold getenforcemode. rewrite config_pieces by exact F. exact (mode_first _ _ _ _ _ F NG G).
Qed.
Theorem C88_no_mode : forall page lines, Forall (plain_line (page - 1)) lines -> (forall x m, In x lines -> ~ gives_mode x m) ->
  getenforcemode page (Some (config_file lines)) = None.
Proof. intros page lines F NG. unfold getenforcemode. rewrite config_pieces by exact F. exact (mode_none _ _ F NG). Qed.
(** The policy type is that of the last line for it, without blanks around; without such a line it is targeted. *)
Theorem C88_type : forall before l after t, Forall (fun x => ~ In 10 x /\ ~ In 0 x) (before ++ l :: after) ->
  gives_type l t -> (forall x, In x after -> ~ for_type x) -> fst (init_config (Some (config_file (before ++ l :: after)))) = t.
Proof.
  intros before l after t F G NF. unfold init_config. rewrite config_lines by (revert F; apply Forall_impl; tauto). rewrite map_app, fold_left_app. cbn [map fold_left fst].
  apply Forall_app in F. destruct F as [_ F]. inversion F as [|? ? [_ NZ] FA]; subst. rewrite (line_type _ l t NZ G).
  rewrite lines_no_type; [reflexivity|revert FA; apply Forall_impl; tauto|exact NF].
Qed.
Theorem C88_no_type : forall lines, Forall (fun x => ~ In 10 x /\ ~ In 0 x) lines -> (forall x, In x lines -> ~ for_type x) ->
  fst (init_config (Some (config_file lines))) = letters "targeted".
Proof.
  intros lines F NF. unfold init_config. rewrite config_lines by (revert F; apply Forall_impl; tauto). cbn [fst].
  rewrite lines_no_type; [reflexivity|revert F; apply Forall_impl; tauto|exact NF].
Qed.
(** The default type of a role is that of its first line; without a line for it the call fails. *)
Theorem C88_default_type : forall role before l after t, a_role role -> Forall (plain_line 249) (before ++ l :: after) ->
  (forall x t', In x before -> ~ gives_default role x t') -> gives_default role l t ->
  get_default_type role (Some (config_file (before ++ l :: after))) = ROk t.
Proof.
  intros role before l after t R F NG G. unfold get_default_type. rewrite config_pieces by exact F. induction before as [|x before IH]; cbn [app map].
  - inversion F as [|? ? (_ & NZ & _) _]; subst. apply default_here; assumption.
  - inversion F as [|? ? (_ & NZ & _) F']; subst. rewrite default_not; [|exact NZ|intros t'; apply NG; left; reflexivity].
    apply IH; [exact F'|]. intros y t' I. apply NG. right. exact I.
Qed.
Theorem C88_no_default_type : forall role lines, Forall (plain_line 249) lines -> (forall x t, In x lines -> ~ gives_default role x t) ->
  get_default_type role (Some (config_file lines)) = RErr.
Proof.
  intros role lines F NG. unfold get_default_type. rewrite config_pieces by exact F. induction F as [|x ls (_ & NZ & _) F IH]; [reflexivity|]. cbn [map].
  rewrite default_not; [|exact NZ|intros t; apply NG; left; reflexivity]. apply IH. intros y t I. apply NG. right. exact I.
Qed.

(** A file with a comment, the mode in capitals, a type with blanks around it. *)
Definition conf : list (list N) := [letters "# SELINUX=disabled"; letters "SELINUX=maybe"; letters "SELINUX= Permissive # for now"; letters " selinuxtype= mls "].
Lemma not_in_by x s : existsb (N.eqb x) s = false -> ~ In x s.
Proof. intros E I. assert (existsb (N.eqb x) s = true) by (apply existsb_exists; exists x; split; [exact I|apply N.eqb_refl]). congruence. Qed.
Ltac plain := split; [apply not_in_by; reflexivity|split; [apply not_in_by; reflexivity|cbn; lia]].
Example C88_mode_case : Forall (plain_line 99) conf /\ (forall x m', In x (firstn 2 conf) -> ~ gives_mode x m') /\ gives_mode (letters "SELINUX= Permissive # for now") 0.
Proof.
  split; [repeat (constructor; [plain|]); constructor|]. split.
  - intros x m [<-|[<-|[]]] G; apply mode_exact in G; discriminate.
  - apply mode_exact. reflexivity.
Qed.
Example C88_no_mode_case : Forall (plain_line 99) (firstn 2 conf) /\ (forall x m, In x (firstn 2 conf) -> ~ gives_mode x m).
Proof. split; [repeat (constructor; [plain|]); constructor|]. intros x m [<-|[<-|[]]] G; apply mode_exact in G; discriminate. Qed.
Example C88_type_case : Forall (fun x => ~ In 10 x /\ ~ In 0 x) (firstn 3 conf ++ letters " selinuxtype= mls " :: [letters "# end"])
  /\ gives_type (letters " selinuxtype= mls ") (letters "mls") /\ (forall x, In x [letters "# end"] -> ~ for_type x).
Proof.
  split; [repeat (constructor; [split; apply not_in_by; reflexivity|]); constructor|]. split.
  - exists (letters " "), (letters "selinuxtype="), (letters " "), (letters " "), 109, 115. split; [reflexivity|]. split; [constructor; [left; reflexivity|constructor]|]. split.
    { repeat (constructor; [apply tolower_same; reflexivity|]). constructor. }
    split; [constructor; [left; reflexivity|constructor]|]. split; [constructor; [left; discriminate|constructor]|]. split; [exists (letters "ls"); reflexivity|].
    split; [unfold blank; lia|]. split; [exists (letters "ml"); reflexivity|]. right. unfold junk. lia.
  - intros x [<-|[]] (ws & tag & rest & E & B & A). destruct ws as [|b ws].
    + inversion A as [|p q w v X A' E1 E2]; subst. cbn in E. injection E as <- _. cbn in X. unfold same_letter in X. lia.
    + cbn in E. injection E as <- _. inversion B; subst. unfold blank in *. lia.
Qed.
Example C88_default_type_case : a_role (letters "staff_r") /\ Forall (plain_line 249) [letters "staff_rx:a_t"; letters " staff_r:staff_t"]
  /\ (forall t', ~ gives_default (letters "staff_r") (letters "staff_rx:a_t") t') /\ gives_default (letters "staff_r") (letters " staff_r:staff_t") (letters "staff_t")
  /\ get_default_type (letters "staff_r") (Some (config_file [letters "staff_rx:a_t"; letters " staff_r:staff_t"])) = ROk (letters "staff_t").
Proof.
  split; [exists 115, (letters "taff_r"); split; [reflexivity|unfold blank; lia]|]. split; [repeat (constructor; [plain|]); constructor|]. split.
  - intros t (ws & E & B). destruct ws as [|b ws]; cbn in E; [discriminate|]. injection E as <- _. inversion B; subst. unfold blank in *. lia.
  - split; [|reflexivity]. exists (letters " "). split; [reflexivity|]. constructor; [left; reflexivity|constructor].
Qed.
Print Assumptions C88_mode.
Print Assumptions C88_no_mode.
Print Assumptions C88_type.
Print Assumptions C88_no_type.
Print Assumptions C88_default_type.
Print Assumptions C88_no_default_type.

(** REQUIRESEUSERS=true turns the requirement off, and false (or anything else) turns it on. *)
Theorem C88_refuted_require :
  snd (init_config (Some (config_file [letters "REQUIRESEUSERS=true"]))) = 0 /\ snd (init_config (Some (config_file [letters "REQUIRESEUSERS=1"; letters "REQUIRESEUSERS=true"]))) = 0
  /\ snd (init_config (Some (config_file [letters "REQUIRESEUSERS=false"]))) = 1.
Proof. split; [reflexivity|split; reflexivity]. Qed.
(** The last line of the default types loses its last character if it has no newline. *)
Theorem C88_refuted_last_line : get_default_type (letters "staff_r") (Some (letters "staff_r:staff_t")) = ROk (letters "staff_").
Proof. reflexivity. Qed.
(** Mode and type are looked for by different rules: a line with a blank before it gives the type but not the mode. *)
Theorem C88_refuted_blank : getenforcemode 100 (Some (config_file [letters " SELINUX=enforcing"; letters " SELINUXTYPE=mls"])) = None
  /\ fst (init_config (Some (config_file [letters " SELINUX=enforcing"; letters " SELINUXTYPE=mls"]))) = letters "mls".
Proof. split; reflexivity. Qed.
Print Assumptions C88_refuted_require.
Print Assumptions C88_refuted_last_line.
Print Assumptions C88_refuted_blank.
