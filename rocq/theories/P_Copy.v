(* Copying a jail through its serialization, and witnesses. *)
From Coq Require Import ZifyBool ZifyNat ZifyN Lia.
From Verif Require Export P_Round P_Ub P_Mounts.
Local Open Scope N_scope.

Lemma transfer addr e e' h j j0 : history e minijail_new h j -> c_typed j -> nonnull addr ->
  k_landlock_abi e' = k_landlock_abi e ->
  j_suppl_gid_count j <= 65536 -> Forall (fun r => fr_flags r <> 0) (j_fs_rules j) -> j_fs_rules_fd j <> 0%Z ->
  exists size bytes, minijail_size addr j = Some size /\
    minijail_marshal addr j size = Some (0%Z, bytes) /\
    minijail_unmarshal e' j0 bytes = UOk (received j) /\
    minijail_copy_jail addr e' j j0 = UOk (received j).
Proof.
  intros H TY NN KE GC NZ FD. pose proof (reachable_sound _ _ _ H) as SD.
  pose proof (size_sound addr e j SD) as SZ.
  pose proof (marshal_sound addr e j (sizeof (image addr j ++ body j)) SD) as MS.
  pose proof (unmarshal_image addr e e' j0 j NN SD TY KE GC NZ FD) as U.
  rewrite N.ltb_irrefl in MS. rewrite stake_all in MS by (unfold sizeof; lia).
  eexists. eexists. split; [exact SZ|]. split; [exact MS|]. split; [exact U|].
  unfold minijail_copy_jail. rewrite SZ, MS. exact U.
Qed.

(* A jail with every kind of part. *)
Definition full_calls : list api :=
  [A_change_uid 1000; A_change_gid 1001; A_set_supplementary_gids [4; 20; 24]; A_use_caps 8192;
   A_namespace_vfs; A_namespace_net; A_namespace_pids; A_namespace_set_hostname "box";
   A_enter_pivot_root "/var/empty"; A_mount_tmp_size 1048576;
   A_mount_with_data "none" "/run" "tmpfs" 14 (Some "size=1M"%string); A_bind "/usr" "/usr" false None;
   A_rlimit 7 64 128; A_add_to_cgroup "/sys/fs/cgroup/a/tasks"; A_add_to_cgroup "/sys/fs/cgroup/b/tasks";
   A_fs_ro "/etc"; A_fs_rw "/tmp"; A_preserve_fd 5 3; A_use_alt_syscall "read_write_test";
   A_use_seccomp_filter; A_set_seccomp_filters [I 32 0 0 4; I 21 0 1 3221225534; I 6 0 0 2147418112; I 6 0 0 0];
   A_write_pid_file "/run/x.pid"; A_add_remount "/proc" 14].
Definition full_env : kenv := KEnv true false true true false false true false "" 14 14 true 3 5.
Definition any_addr (i : N) : N := 4096 + i mod 4096.
Lemma any_addr_ok : nonnull any_addr.
Proof. intros i. unfold any_addr. pose proof (N.mod_lt i 4096 ltac:(lia)). change (2 ^ 64) with 18446744073709551616. lia. Qed.
Ltac ty :=
  match goal with
  | |- _ /\ _ => split
  | |- Forall _ (j_cgroups _) => cbv [j_cgroups]
  | |- Forall _ (j_mounts _) => cbv [j_mounts]
  | |- Forall _ (j_fs_rules _) => cbv [j_fs_rules]
  | |- Forall _ (j_rlimits _) => cbv [j_rlimits]
  | |- Forall _ (j_preserved_fds _) => cbv [j_preserved_fds]
  | |- Forall _ _ => constructor
  | |- forall s, Own _ = Own s -> _ => intros ? X; injection X as <-
  | |- forall s, Null = Own s -> _ => intros ? X; discriminate X
  | |- forall s, ?c = Own s -> _ => let v := eval hnf in c in change c with v
  | |- forall s, None = Some s -> _ => intros ? X; discriminate X
  | |- forall s, Some _ = Some s -> _ => intros ? X; injection X as <-
  | |- forall s, ?c = Some s -> _ => let v := eval hnf in c in change c with v
  | |- no_nul ?c => let v := eval hnf in c in change c with v; cbn [no_nul]
  | |- True => exact Logic.I
  | |- _ <> _ => discriminate
  | |- (_ <= _)%Z => vm_compute; discriminate
  | |- (_ < _)%Z => vm_compute; reflexivity
  | |- u8 _ => vm_compute; reflexivity
  | |- u16 _ => vm_compute; reflexivity
  | |- u32 _ => vm_compute; reflexivity
  | |- u64 _ => vm_compute; reflexivity
  | |- _ < _ => vm_compute; reflexivity
  end.
Lemma full_case : exists h j, history full_env minijail_new h j /\ map fst h = full_calls /\ c_typed j /\
  j_suppl_gid_count j <= 65536 /\ Forall (fun r => fr_flags r <> 0) (j_fs_rules j) /\ j_fs_rules_fd j <> 0%Z /\
  minijail_copy_jail any_addr full_env j minijail_new = UOk (received j) /\
  minijail_size any_addr j = Some 2399 /\
  content (j_suppl_gid_list j) = Some [4; 20; 24] /\ length (j_mounts j) = 2%nat /\ length (j_fs_rules j) = 2%nat /\
  j_cgroup_count j = 2 /\ j_filter_len j = 4.
Proof.
  destruct (api_run full_env minijail_new full_calls) as [j|] eqn:E; [|vm_compute in E; discriminate].
  destruct (history_of _ _ _ _ E) as (h & H & M). exists h, j. split; [exact H|]. split; [exact M|].
  vm_compute in E. injection E as <-. clear H M.
  split; [unfold c_typed, text, i32; repeat ty|].
  split; [vm_compute; discriminate|]. split; [cbv [j_fs_rules]; repeat (apply Forall_cons; [vm_compute; discriminate|]); apply Forall_nil|].
  split; [vm_compute; discriminate|]. split; [vm_compute; reflexivity|]. split; [vm_compute; reflexivity|]. vm_compute. repeat split.
Qed.

(* The ruleset got descriptor 0 because standard input was closed. *)
Definition fd0_env : kenv := KEnv true false true true false false true false "" 14 14 true 3 0.
Lemma fd0_case : exists h j, history fd0_env minijail_new h j /\ map fst h = [A_fs_ro "/etc"] /\
  exists size bytes j', minijail_size any_addr j = Some size /\ minijail_marshal any_addr j size = Some (0%Z, bytes) /\
    minijail_unmarshal fd0_env minijail_new bytes = UErr j'.
Proof.
  destruct (api_run fd0_env minijail_new [A_fs_ro "/etc"]) as [j|] eqn:E; [|vm_compute in E; discriminate].
  destruct (history_of _ _ _ _ E) as (h & H & M). exists h, j. split; [exact H|]. split; [exact M|].
  vm_compute in E. injection E as <-. clear H M.
  eexists. eexists. eexists. split; [vm_compute; reflexivity|]. split; [vm_compute; reflexivity|]. vm_compute. reflexivity.
Qed.
(* A rule without rights. *)
Lemma norights_case : exists h j, history full_env minijail_new h j /\ map fst h = [A_fs_access_rights "/etc" 0] /\
  exists size bytes j', minijail_size any_addr j = Some size /\ minijail_marshal any_addr j size = Some (0%Z, bytes) /\
    minijail_unmarshal full_env minijail_new bytes = UErr j'.
Proof.
  destruct (api_run full_env minijail_new [A_fs_access_rights "/etc" 0]) as [j|] eqn:E; [|vm_compute in E; discriminate].
  destruct (history_of _ _ _ _ E) as (h & H & M). exists h, j. split; [exact H|]. split; [exact M|].
  vm_compute in E. injection E as <-. clear H M.
  eexists. eexists. eexists. split; [vm_compute; reflexivity|]. split; [vm_compute; reflexivity|]. vm_compute. reflexivity.
Qed.

(* Bytes: a header of zeros with some numbers in it. *)
Fixpoint zeros (n : nat) : string := match n with O => EmptyString | S n' => String NUL (zeros n') end.
Fixpoint times (n : nat) (s : string) : string := match n with O => EmptyString | S n' => (s ++ times n' s)%string end.
Definition eleven_cgroups : string :=
  (zeros 328 ++ num 8 11 ++ zeros 1840 ++ times 11 (cstring "/a"))%string.
Definition half_a_mask : string := (zeros 240 ++ num 8 1 ++ zeros 1928 ++ cstring "/etc" ++ num 4 1)%string.
Definition no_descriptor : string := zeros 2176.
Definition filter_then_nothing : string :=
  (num 6 (2 ^ 22) ++ zeros 138 ++ num 8 1 ++ zeros 32 ++ num 8 1 ++ zeros 1984 ++ num 8 6)%string.
Lemma ub_cases e : minijail_unmarshal e minijail_new eleven_cgroups = UUb /\
  minijail_unmarshal e minijail_new half_a_mask = UUb /\ minijail_unmarshal e minijail_new no_descriptor = UUb.
Proof. split; [|split]; vm_compute; reflexivity. Qed.
(* each of the three, and none of them *)
Lemma strings_times n s a r : no_nul a -> s = (times n (cstring a) ++ r)%string -> strings (N.of_nat n) s r.
Proof.
  intros A ->. induction n as [|n IH]; [constructor|]. cbn [times]. rewrite sapp_assoc, cstring_app.
  rewrite Nat2N.inj_succ. constructor; auto.
Qed.
Lemma eleven_shape : too_many_cgroups eleven_cgroups.
Proof.
  exists (times 11 (cstring "/a")), EmptyString. split; [|split].
  - exists (zeros 328 ++ num 8 11 ++ zeros 1840)%string. do 7 exists (times 11 (cstring "/a")).
    split; [reflexivity|]. split; [reflexivity|]. change (present 24 eleven_cgroups) with 0. split; [constructor|].
    change (announced_gids eleven_cgroups) with 0. split; [discriminate|]. split; [exists EmptyString; auto|].
    change (present 88 eleven_cgroups) with 0. split; [constructor|]. change (present 120 eleven_cgroups) with 0. split; [constructor|].
    change (present 160 eleven_cgroups) with 0. split; [constructor|].
    change (announced_filter eleven_cgroups) with 0. split; [discriminate|]. split; [exists EmptyString; auto|].
    change (announced_mounts eleven_cgroups) with 0. constructor.
  - reflexivity.
  - apply (strings_times 11 _ "/a"); [repeat split; discriminate|]. rewrite sapp_nil_r. reflexivity.
Qed.

(* Destruction after success, after failure. *)
Lemma destroyable e j s : minijail_destroy_ok j = true ->
  (forall j', minijail_unmarshal e j s = UOk j' -> minijail_destroy_ok j' = true) /\
  (forall j', minijail_unmarshal e j s = UErr j' -> announced_filter s = 0 -> minijail_destroy_ok j' = true) /\
  minijail_unmarshal e j s <> UFuel.
Proof.
  intros D. pose proof (unmarshal_ends e j s D) as H. split; [|split].
  - intros j' E. rewrite E in H. auto.
  - intros j' E A. rewrite E in H. destruct (_ <? _); [subst; auto|]. destruct H as [H1 H2]. specialize (H2 A).
    unfold minijail_destroy_ok in *. rewrite H2. exact H1.
  - intros E. rewrite E in H. exact H.
Qed.
Lemma new_destroyable : minijail_destroy_ok minijail_new = true.
Proof. reflexivity. Qed.
Lemma double_free e : exists j', minijail_unmarshal e minijail_new filter_then_nothing = UErr j' /\
  minijail_destroy_ok j' = false /\ j_filter_prog j' = Freed.
Proof. eexists. vm_compute. repeat split. Qed.
Definition bad_host : string :=
  (zeros 24 ++ num 8 1 ++ zeros 88 ++ num 8 1 ++ zeros 2048 ++ cstring "user" ++ "no end")%string.
Lemma failed_case e : exists j', minijail_unmarshal e minijail_new bad_host = UErr j' /\ announced_filter bad_host = 0 /\
  present 24 bad_host = 1 /\ minijail_destroy_ok j' = true.
Proof. eexists. vm_compute. repeat split. Qed.
