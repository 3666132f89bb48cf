(** Property theorems for the userspace SID table (C30). *)
From Verif Require Import Base MlsModel AvtabModel UsidModel UsidProofs.

(** C30. In any history two successful lookups gave the same SID exactly when the contexts were equal. *)
Theorem C30_sids_identify : forall l T tr c1 c2 i1 i2, urun sidtab_init [] l = (T, tr) ->
  In (c1, Some i1) tr -> In (c2, Some i2) tr -> (i1 = i2 <-> c1 = c2).
Proof. intros l T tr c1 c2 i1 i2 E. apply (sids_identify T). exact (urun_inv l _ _ _ _ uinv0 E). Qed.
Print Assumptions C30_sids_identify.

(** C30. A SID given out is not NULL and still names its context after any history. *)
Theorem C30_sid_names_context : forall l T tr c i, urun sidtab_init [] l = (T, tr) -> In (c, Some i) tr ->
  i <> 0 /\ sid_to_context T i = Some c.
Proof. intros l T tr c i E. apply sid_back. exact (urun_inv l _ _ _ _ uinv0 E). Qed.
Print Assumptions C30_sid_names_context.

(** C30. Once a context has a SID, asking again cannot fail, even without memory, and changes nothing. *)
Theorem C30_known_context_never_fails : forall l T tr c i mem, urun sidtab_init [] l = (T, tr) -> In (c, Some i) tr ->
  sidtab_context_to_sid T c mem = (T, Some i).
Proof. intros l T tr c i mem E. apply (sid_again T tr). exact (urun_inv l _ _ _ _ uinv0 E). Qed.
Print Assumptions C30_known_context_never_fails.

(** C30. A new context gets a SID as long as there is memory and fewer than 2^32 - 2 SIDs exist. *)
Theorem C30_new_context : forall T c, us_nel T < 4294967294 -> exists T' i, sidtab_context_to_sid T c true = (T', Some i).
Proof.
  intros T c H. unfold sidtab_context_to_sid. destruct (sidtab_context_lookup T c) as [i|]; [eauto|].
  unfold sidtab_insert. rewrite (proj2 (N.leb_gt _ _) H). eauto.
Qed.
Print Assumptions C30_new_context.

(** "aa" and "ee" share a bucket and are kept apart; a failed allocation gives no SID. *)
Example C30_case :
  sidtab_hash [97; 97] = sidtab_hash [101; 101] /\
  snd (urun sidtab_init [] [([97; 97], true); ([101; 101], true); ([97; 97], false); ([99], false); ([99], true); ([101; 101], true)]) =
  [([101; 101], Some 2); ([99], Some 3); ([99], None); ([97; 97], Some 1); ([101; 101], Some 2); ([97; 97], Some 1)].
Proof. split; vm_compute; reflexivity. Qed.
