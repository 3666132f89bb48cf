(** C87: the attributes of a thread and their cache. *)
From Verif Require Import Base MlsModel ContextModel ProcattrModel ProcattrSpec ProcattrProofs.

(** What was written to the kernel last is what was set last: the cache never keeps a setting from reaching the kernel. *)
Theorem C87_written : forall kernel readable daemon has page tr files os n t h a c, steady daemon has tr ->
  run kernel readable daemon has page 0 (new_thread files) [] os = (n, t, h) ->
  (last_set (tr RawOf) a h c <-> last_write a (th_log t) c).
Proof.
  intros kernel readable daemon has page tr files os n t h a c ST R. pose proof (run_ok _ _ _ _ _ _ _ _ _ _ _ ST R) as G.
  rewrite <- (prev_iff _ _ _ _ _ _ _ _ _ _ G). destruct G as [_ _ G]. specialize (G a). destruct (th_prev t a) as [|c'].
  - split; [discriminate|]. intros L. exfalso. exact (never_no_write _ _ _ (proj1 (proj2 G)) L).
  - destruct G as (_ & B & _). split; [intros E; injection E as <-; exact B|]. intros L. f_equal. exact (last_write_unique _ _ _ B _ L).
Qed.
(** Setting succeeds exactly if the kernel accepts the context or it is the one set last (and then the kernel is not asked). *)
Theorem C87_set : forall kernel readable daemon has page tr files os n t h a c, steady daemon has tr ->
  run kernel readable daemon has page 0 (new_thread files) [] os = (n, t, h) ->
  (snd (perform kernel readable daemon has page n t (SetRaw a c)) = Done <-> last_set (tr RawOf) a h c \/ kernel n a c <> None)
  /\ (snd (perform kernel readable daemon has page n t (Set_ a c)) = Done
      <-> last_set (tr RawOf) a h (option_map (tr RawOf) c) \/ kernel n a (option_map (tr RawOf) c) <> None)
  /\ (last_set (tr RawOf) a h c -> th_log (fst (perform kernel readable daemon has page n t (SetRaw a c))) = th_log t).
Proof.
  intros kernel readable daemon has page tr files os n t h a c ST R. pose proof (run_ok _ _ _ _ _ _ _ _ _ _ _ ST R) as G.
  assert (D : forall ok : bool, (if ok then Done else Fails) = Done <-> ok = true) by (intros []; split; congruence).
  split; [|split].
  - cbn [perform]. pose proof (proj1 (set_iff kernel readable daemon has page _ _ _ _ _ a c G)) as X. destruct (set_raw kernel n t a c) as [t' ok]. cbn [snd] in *. rewrite D. exact X.
  - cbn [perform]. destruct c as [s|]; cbn [to_raw option_map].
    + pose proof (translate_steady kernel readable daemon has page tr n RawOf (th_t2r t) s ST (g_t2r _ _ _ _ _ _ _ _ G)) as TS.
      pose proof (proj1 (translate_ok kernel readable daemon has page n RawOf (th_t2r t) s (g_t2r _ _ _ _ _ _ _ _ G))) as TE.
      destruct (translate daemon has n RawOf (th_t2r t) s) as [e x]. cbn [fst snd] in *. subst x. set (t1 := mkTh _ _ _ _ _).
      assert (G' : good kernel daemon has tr files n t1 h) by (destruct G; constructor; assumption).
      pose proof (proj1 (set_iff kernel readable daemon has page _ _ _ _ _ a (Some (tr RawOf s)) G')) as X. destruct (set_raw kernel n t1 a (Some (tr RawOf s))) as [t' ok]. cbn [snd] in *. rewrite D. exact X.
    + pose proof (proj1 (set_iff kernel readable daemon has page _ _ _ _ _ a None G)) as X. destruct (set_raw kernel n t a None) as [t' ok]. cbn [snd] in *. rewrite D. exact X.
  - cbn [perform]. pose proof (proj2 (set_iff kernel readable daemon has page _ _ _ _ _ a c G)) as X. destruct (set_raw kernel n t a c) as [t' ok]. exact X.
Qed.
(** Reading gives the context set last; if none was, or it was cleared, what the file of the kernel says. *)
Theorem C87_get : forall kernel readable daemon has page tr files os n t h a o, steady daemon has tr ->
  run kernel readable daemon has page 0 (new_thread files) [] os = (n, t, h) ->
  (exists c, last_set (tr RawOf) a h (Some c) /\ o = Some c)
  \/ (forall c, ~ last_set (tr RawOf) a h (Some c)) /\ readable n a = true /\ says (th_file t a) o /\ (List.length (th_file t a) < page)%nat ->
  snd (perform kernel readable daemon has page n t (GetRaw a)) = Text o
  /\ snd (perform kernel readable daemon has page n t (Get a)) = Text (option_map (tr TransOf) o).
Proof.
  intros kernel readable daemon has page tr files os n t h a o ST R C. pose proof (run_ok _ _ _ _ _ _ _ _ _ _ _ ST R) as G.
  assert (E : get_raw readable page n t a = Some o).
  { destruct C as [(c & L & ->)|(NL & RD & S & LN)]; [exact (get_set _ _ _ _ _ _ _ _ _ _ _ _ G L)|exact (get_unset _ _ _ _ _ _ _ _ _ _ _ _ G NL RD S LN)]. }
  cbn [perform]. rewrite E. split; [reflexivity|]. destruct o as [s|]; [|reflexivity]. cbn [to_trans option_map].
  pose proof (translate_steady kernel readable daemon has page tr n TransOf (th_r2t t) s ST (g_r2t _ _ _ _ _ _ _ _ G)) as TS.
  destruct (translate daemon has n TransOf (th_r2t t) s) as [e x]. cbn [snd] in *. subst x. reflexivity.
Qed.
(** If the kernel keeps contexts as they are written, reading gives what the kernel holds. *)
Theorem C87_truth : forall kernel readable daemon has page tr files os n t h a, steady daemon has tr ->
  (forall k b c f, kernel k b c = Some f -> says f c /\ (List.length f < page)%nat) ->
  (exists o, says (files a) o) -> (List.length (files a) < page)%nat -> readable n a = true ->
  run kernel readable daemon has page 0 (new_thread files) [] os = (n, t, h) ->
  exists o, says (th_file t a) o /\ snd (perform kernel readable daemon has page n t (GetRaw a)) = Text o.
Proof.
  intros kernel readable daemon has page tr files os n t h a ST K (o & F) LF RD R. pose proof (run_ok _ _ _ _ _ _ _ _ _ _ _ ST R) as G.
  assert (H := g_prev _ _ _ _ _ _ _ _ G a). cbn [perform snd]. unfold get_raw. rewrite RD. destruct (th_prev t a) as [|c].
  - destruct H as (_ & _ & ->). exists o. split; [exact F|]. rewrite (says_read page _ _ F LF). reflexivity.
  - destruct H as (_ & _ & k & _ & E). destruct (K _ _ _ _ E) as [S L]. exists c. split; [exact S|]. rewrite (says_read page _ _ S L). destruct c; reflexivity.
Qed.
(** With a daemon that answers as it likes, a translation is one it gave for that very text (the text itself if it failed then); without a
    daemon it is the text. *)
Theorem C87_translation : forall kernel readable daemon has page files os n t h s,
  run kernel readable daemon has page 0 (new_thread files) [] os = (n, t, h) ->
  exists x y, snd (perform kernel readable daemon has page n t (ToRaw (Some s))) = Text (Some x)
    /\ snd (perform kernel readable daemon has page n t (ToTrans (Some s))) = Text (Some y)
    /\ if has then given daemon n RawOf s x /\ given daemon n TransOf s y else x = s /\ y = s.
Proof.
  intros kernel readable daemon has page files os n t h s R.
  pose proof (run_entries kernel readable daemon has page os 0 (new_thread files) [] (conj I I)) as E. rewrite R in E. destruct E as [E1 E2].
  destruct (translate_ok kernel readable daemon has page n RawOf _ s E1) as (_ & A1 & B1). destruct (translate_ok kernel readable daemon has page n TransOf _ s E2) as (_ & A2 & B2).
  cbn [perform to_raw to_trans]. destruct (translate daemon has n RawOf (th_t2r t) s) as [e x], (translate daemon has n TransOf (th_r2t t) s) as [e' y].
  exists x, y. split; [reflexivity|]. split; [reflexivity|]. cbn [snd] in *. destruct has; auto.
Qed.

(** A case: a kernel that takes texts that do not begin with 9 and puts a 0 behind them, a daemon that writes a 1 before them. *)
Definition kern (n : nat) (a : attr) (c : option (list N)) : option (list N) :=
  match c with None => Some [] | Some (9 :: _) => None | Some c => if existsb (N.eqb 0) c then None else if (List.length c <? 50)%nat then Some (c ++ [0]) else None end.
Definition dm (n : nat) (w : way) (s : list N) : option (list N) := match w with RawOf => match s with 1 :: t => Some t | _ => None end | TransOf => Some (1 :: s) end.
Definition trans (w : way) (s : list N) : list N := match w with RawOf => match s with 1 :: t => t | _ => s end | TransOf => 1 :: s end.
Definition calls : list call := [Set_ Exec (Some [1; 5; 6]); SetRaw Exec (Some [9]); Get Exec; SetRaw Fscreate (Some [7]); SetRaw Fscreate None; SetRaw Exec (Some [5; 6])].
Example C87_case : steady dm true trans /\ (forall k b c f, kern k b c = Some f -> says f c /\ (List.length f < 100)%nat)
  /\ exists n t h, run kern (fun _ _ => true) dm true 100 0 (new_thread (fun _ => [])) [] calls = (n, t, h)
    /\ map snd h = [Done; Done; Done; Text (Some [1; 5; 6]); Fails; Done] /\ List.length (th_log t) = 4%nat
    /\ last_set (trans RawOf) Exec h (Some [5; 6]) /\ last_set (trans RawOf) Fscreate h None /\ says (th_file t Exec) (Some [5; 6]) /\ says (th_file t Fscreate) None.
Proof.
  split.
  { intros w s n. destruct w; [|left; reflexivity]. cbn. destruct s as [|x s]; [right; split; reflexivity|].
    destruct x as [|[p|p|]]; try (right; split; reflexivity). left. reflexivity. }
  split.
  { intros k b c f E. destruct c as [c|]; [|injection E as <-; split; [constructor|cbn; lia]].
    assert (X : (if existsb (N.eqb 0) c then None else if (List.length c <? 50)%nat then Some (c ++ [0]) else None) = Some f).
    { unfold kern in E. destruct c as [|x c]; [exact E|]. destruct x as [|[[p|[p|[p|p|]|]|]|p|]]; try exact E; discriminate. }
    destruct (existsb (N.eqb 0) c) eqn:Z; [discriminate|]. destruct (List.length c <? 50)%nat eqn:L; [|discriminate]. injection X as <-.
    split; [|rewrite app_length; apply Nat.ltb_lt in L; cbn; lia]. apply says_zero. intros I. assert (existsb (N.eqb 0) c = true) by (apply existsb_exists; exists 0; split; [exact I|reflexivity]). congruence. }
  eexists. eexists. eexists. split; [reflexivity|]. split; [reflexivity|]. split; [reflexivity|]. split; [constructor|]. split.
  { apply ls_other; [intros c' X; discriminate|intros c' X; discriminate|]. constructor. }
  split; [apply (says_zero [5; 6] []); cbn; intuition discriminate|constructor].
Qed.
Print Assumptions C87_written.
Print Assumptions C87_set.
Print Assumptions C87_get.
Print Assumptions C87_truth.
Print Assumptions C87_translation.

(** A failure of the daemon is remembered: asked again after it has recovered, the thread still gets the text untranslated. *)
Theorem C87_refuted_stale : exists daemon s a n t h, (forall k, (1 <= k)%nat -> daemon k RawOf s = Some a) /\ a <> s /\ (1 <= n)%nat
  /\ run kern (fun _ _ => true) daemon true 100 0 (new_thread (fun _ => [])) [] [ToRaw (Some s)] = (n, t, h)
  /\ snd (perform kern (fun _ _ => true) daemon true 100 n t (ToRaw (Some s))) = Text (Some s).
Proof.
  exists (fun k w s => match k with O => None | S _ => Some [2] end), [1], [2]. eexists. eexists. eexists.
  split; [intros [|k] L; [lia|reflexivity]|]. split; [discriminate|]. split; [|split; [reflexivity|reflexivity]]. lia.
Qed.
(** A kernel that keeps another spelling of the context: reading gives the spelling that was set, a new thread gets the kernel's. *)
Theorem C87_refuted_spelling : exists kernel n t h,
  run kernel (fun _ _ => true) dm false 100 0 (new_thread (fun _ => [])) [] [SetRaw Exec (Some [5])] = (n, t, h)
  /\ snd (perform kernel (fun _ _ => true) dm false 100 n t (GetRaw Exec)) = Text (Some [5])
  /\ snd (perform kernel (fun _ _ => true) dm false 100 n (new_thread (th_file t)) (GetRaw Exec)) = Text (Some [6]).
Proof. exists (fun _ _ _ => Some [6]). eexists. eexists. eexists. split; [reflexivity|]. split; reflexivity. Qed.
(** A context that the kernel has come to refuse is set again without complaint. *)
Theorem C87_refuted_refused : exists kernel n t h,
  run kernel (fun _ _ => true) dm false 100 0 (new_thread (fun _ => [])) [] [SetRaw Exec (Some [5])] = (n, t, h)
  /\ (forall k, (1 <= k)%nat -> kernel k Exec (Some [5]) = None) /\ (1 <= n)%nat
  /\ snd (perform kernel (fun _ _ => true) dm false 100 n t (SetRaw Exec (Some [5]))) = Done.
Proof.
  exists (fun k _ c => match k, c with O, Some c => Some c | _, _ => None end). eexists. eexists. eexists. split; [reflexivity|].
  split; [intros [|k] L; [lia|reflexivity]|]. split; [lia|reflexivity].
Qed.
Print Assumptions C87_refuted_stale.
Print Assumptions C87_refuted_spelling.
Print Assumptions C87_refuted_refused.
