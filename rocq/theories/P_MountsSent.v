(* Proof: the mounts of a jail survive being sent. *)
From Verif Require Export P_Copy P_Mounts.
Local Open Scope N_scope.

Lemma mounts_transferred : forall addr e e' h j j0,
  history e minijail_new h j -> c_typed j -> nonnull addr -> k_landlock_abi e' = k_landlock_abi e ->
  j_suppl_gid_count j <= 65536 -> Forall (fun r => fr_flags r <> 0) (j_fs_rules j) -> j_fs_rules_fd j <> 0%Z ->
  exists size bytes j', minijail_size addr j = Some size /\ minijail_marshal addr j size = Some (0%Z, bytes) /\
    minijail_unmarshal e' j0 bytes = UOk j' /\ j_mounts j' = accepted mount_added h /\
    hasf F_vfs j' = hasf F_vfs j.
Proof.
  intros addr e e' h j j0 H1 H2 H3 H4 H5 H6 H7.
  destruct (transfer addr e e' h j j0 H1 H2 H3 H4 H5 H6 H7) as (size & bytes & A & B & C & _).
  exists size, bytes, (received j). split; [exact A|]. split; [exact B|]. split; [exact C|].
  split; [exact (proj1 (mounts_history _ _ _ H1))|reflexivity].
Qed.
