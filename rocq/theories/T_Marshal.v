(* C22-C25: serialization of a jail. *)
From Verif Require Import S_Marshal P_Copy.
Local Open Scope N_scope.

(* C22: the size computed is the number of bytes written; a smaller buffer
   makes marshalling fail with the buffer filled exactly, never overrun. *)
Theorem C22_serialized_size : forall addr e h j, history e minijail_new h j ->
  exists all, minijail_size addr j = Some (sizeof all) /\
    forall available, exists rc written,
      minijail_marshal addr j available = Some (rc, written) /\
      (rc = 0%Z <-> sizeof all <= available) /\
      (sizeof all <= available -> written = all) /\
      (available < sizeof all -> exists lost, all = (written ++ lost)%string /\ sizeof written = available).
Proof. exact size_exact. Qed.
Print Assumptions C22_serialized_size.
Example C22_case : exists h j, history full_env minijail_new h j /\ map fst h = full_calls /\
  minijail_size any_addr j = Some 2399.
Proof. destruct full_case as (h & j & A & B & _ & _ & _ & _ & _ & C & _). exists h, j. auto. Qed.

(* C23: what was sent arrives.  Missing from the full statement: rules without
   rights, ruleset descriptor 0 and more than 65536 groups, see below. *)
Theorem C23_transfer_partial : forall addr e e' h j j0,
  history e minijail_new h j -> c_typed j -> nonnull addr -> k_landlock_abi e' = k_landlock_abi e ->
  j_suppl_gid_count j <= 65536 -> Forall (fun r => fr_flags r <> 0) (j_fs_rules j) -> j_fs_rules_fd j <> 0%Z ->
  exists size bytes, minijail_size addr j = Some size /\
    minijail_marshal addr j size = Some (0%Z, bytes) /\
    minijail_unmarshal e' j0 bytes = UOk (received j) /\
    minijail_copy_jail addr e' j j0 = UOk (received j).
Proof. exact transfer. Qed.
Print Assumptions C23_transfer_partial.
Example C23_case : exists h j, history full_env minijail_new h j /\ map fst h = full_calls /\ c_typed j /\
  j_suppl_gid_count j <= 65536 /\ Forall (fun r => fr_flags r <> 0) (j_fs_rules j) /\ j_fs_rules_fd j <> 0%Z /\
  minijail_copy_jail any_addr full_env j minijail_new = UOk (received j) /\
  minijail_size any_addr j = Some 2399 /\
  content (j_suppl_gid_list j) = Some [4; 20; 24] /\ length (j_mounts j) = 2%nat /\ length (j_fs_rules j) = 2%nat /\
  j_cgroup_count j = 2 /\ j_filter_len j = 4.
Proof. exact full_case. Qed.
Example C23_addr : nonnull any_addr.
Proof. exact any_addr_ok. Qed.
(* The ruleset was created while descriptor 0 was free. *)
Theorem C23_descriptor_zero_refuted :
  exists h j, history fd0_env minijail_new h j /\ map fst h = [A_fs_ro "/etc"] /\
  exists size bytes j', minijail_size any_addr j = Some size /\ minijail_marshal any_addr j size = Some (0%Z, bytes) /\
    minijail_unmarshal fd0_env minijail_new bytes = UErr j'.
Proof. exact fd0_case. Qed.
Print Assumptions C23_descriptor_zero_refuted.
Theorem C23_no_rights_refuted :
  exists h j, history full_env minijail_new h j /\ map fst h = [A_fs_access_rights "/etc" 0] /\
  exists size bytes j', minijail_size any_addr j = Some size /\ minijail_marshal any_addr j size = Some (0%Z, bytes) /\
    minijail_unmarshal full_env minijail_new bytes = UErr j'.
Proof. exact norights_case. Qed.
Print Assumptions C23_no_rights_refuted.

(* C24: the bytes on which deserializing commits a memory error are exactly
   those of three shapes; on all others it succeeds or fails. *)
Theorem C24_memory_errors_partial : forall e j s,
  minijail_unmarshal e j s = UUb <-> too_many_cgroups s \/ truncated_mask s \/ truncated_descriptor s.
Proof. exact unmarshal_ub. Qed.
Print Assumptions C24_memory_errors_partial.
Example C24_shape : too_many_cgroups eleven_cgroups.
Proof. exact eleven_shape. Qed.
Theorem C24_memory_safe_refuted : forall e,
  minijail_unmarshal e minijail_new eleven_cgroups = UUb /\
  minijail_unmarshal e minijail_new half_a_mask = UUb /\
  minijail_unmarshal e minijail_new no_descriptor = UUb.
Proof. exact ub_cases. Qed.
Print Assumptions C24_memory_safe_refuted.

(* C25: an object that could be destroyed before can be destroyed after, if no
   filter is announced; and always after success. *)
Theorem C25_destroyable_partial : forall e j s, minijail_destroy_ok j = true ->
  (forall j', minijail_unmarshal e j s = UOk j' -> minijail_destroy_ok j' = true) /\
  (forall j', minijail_unmarshal e j s = UErr j' -> announced_filter s = 0 -> minijail_destroy_ok j' = true) /\
  minijail_unmarshal e j s <> UFuel.
Proof. exact destroyable. Qed.
Print Assumptions C25_destroyable_partial.
Example C25_new : minijail_destroy_ok minijail_new = true.
Proof. exact new_destroyable. Qed.
Example C25_case : forall e, exists j', minijail_unmarshal e minijail_new bad_host = UErr j' /\
  announced_filter bad_host = 0 /\ present 24 bad_host = 1 /\ minijail_destroy_ok j' = true.
Proof. exact failed_case. Qed.
(* A filter followed by a mount that cannot be read: the filter is freed twice. *)
Theorem C25_double_free_refuted : forall e, exists j',
  minijail_unmarshal e minijail_new filter_then_nothing = UErr j' /\
  minijail_destroy_ok j' = false /\ j_filter_prog j' = Freed.
Proof. exact double_free. Qed.
Print Assumptions C25_double_free_refuted.
