(* Theorems about the configuration API (C14, C34, C36, C52, C55). *)
From Verif Require Import S_Jail S_Paths S_Policy S_Text P_Jail P_Mounts P_Paths P_Secc P_PolicyEx.
Local Open Scope N_scope.

(* C34: limits, exclusions and contents after every history of calls. *)
Theorem C34_limits : forall e h j, history e minijail_new h j -> within_limits j /\
  rlimits_in_use j = accepted rlimit_added h /\ cgroups_in_use j = accepted cgroup_added h /\
  fds_in_use j = accepted fd_added h /\ j_remounts j = accepted remount_added h /\
  j_hooks j = accepted hook_added h.
Proof. exact limits. Qed.
Print Assumptions C34_limits.
Theorem C34_refused_exactly_beyond_limit : forall e h j a rc j',
  history e minijail_new h j -> api_step e j a = ARet rc j' ->
  match a with
  | A_rlimit t _ _ => rc = 0%Z <-> (length (rlimits_in_use j) < 32)%nat /\ ~ In t (map rl_type (rlimits_in_use j))
  | A_add_to_cgroup _ => rc = 0%Z <-> (length (cgroups_in_use j) < 10)%nat
  | A_preserve_fd p c => rc = 0%Z <-> (0 <= p)%Z /\ (0 <= c)%Z /\ (length (fds_in_use j) < 128)%nat
  | _ => True
  end.
Proof. exact refused_beyond. Qed.
Print Assumptions C34_refused_exactly_beyond_limit.
Theorem C34_first_value_stays : forall e h j, history e minijail_new h j ->
  content (j_chrootdir j) = first_of root_of h /\ content (j_hostname j) = first_of hostname_of h /\
  content (j_preload_path j) = first_of preload_of h.
Proof. exact one_shots. Qed.
Print Assumptions C34_first_value_stays.
Example C34_case :
  exists h j, history ex_env minijail_new h j /\
    map fst h = [A_rlimit 7 10 20; A_rlimit 7 1 2; A_rlimit 8 1 2; A_add_to_cgroup "/sys/fs/cgroup/x";
                 A_preserve_fd (-1) 3; A_preserve_fd 5 3; A_enter_chroot "/a"; A_enter_pivot_root "/b";
                 A_capbset_drop 7; A_use_caps 3] /\
    rlimits_in_use j = [Rlimit 7 10 20; Rlimit 8 1 2] /\ fds_in_use j = [(5, 3)%Z] /\
    content (j_chrootdir j) = Some "/a"%string /\ hasf F_use_caps j = true.
Proof. exact limits_case. Qed.

(* C55: the mounts of a jail are exactly the accepted ones, with the safe
   defaults filled in, and a mount namespace goes with them. *)
Theorem C55_mount_defaults : forall e h j, history e minijail_new h j ->
  j_mounts j = accepted mount_added h /\
  (j_mounts j <> [] -> hasf F_vfs j = true \/ hasf F_enter_vfs j = true).
Proof. exact mounts_history. Qed.
Print Assumptions C55_mount_defaults.
Example C55_case :
  exists h j, history ex_env minijail_new h j /\
    map fst h = [A_mount "tmpfs" "/tmp" "tmpfs" 0; A_mount "p" "proc" "proc" 0; A_bind "/a" "/b" false None] /\
    j_mounts j = [Mount "tmpfs" "/tmp" "tmpfs" (Some "mode=0755,size=10M"%string) 14;
                  Mount "/a" "/b" "minijail_bind" None 4097] /\ hasf F_vfs j = true.
Proof. exact mounts_case. Qed.

(* C36 holds when the textual and the component-wise reading agree, no two
   destinations contain the path and all mounts are bind mounts. *)
Theorem C36_original_path_partial : forall j p,
  (forall m, In m (j_mounts j) -> has_prefix (m_dest m) p = inside (m_dest m) p) ->
  (forall a b, In a (j_mounts j) -> In b (j_mounts j) ->
     inside (m_dest a) p = true -> inside (m_dest b) p = true -> a = b) ->
  (forall m, In m (j_mounts j) -> N.testbit (m_flags m) 12 = true) ->
  original (j_mounts j) (content (j_chrootdir j)) p = Some (components (minijail_get_original_path j p)).
Proof. exact original_exact. Qed.
Print Assumptions C36_original_path_partial.
Example C36_case :
  exists j, api_run ex_env minijail_new
      (A_enter_chroot "/var/empty" :: binds [("/usr/lib", "/lib"); ("/srv/", "/data/")]%string) = Some j /\
    minijail_get_original_path j "/lib/x/y.so" = "/usr/lib//x/y.so"%string /\
    minijail_get_original_path j "/data/f" = "/srv//f"%string /\
    minijail_get_original_path j "/etc/f" = "/var/empty//etc/f"%string /\
    (forall p, In p ["/lib/x/y.so"; "/data/f"; "/etc/f"]%string ->
     (forall m, In m (j_mounts j) -> has_prefix (m_dest m) p = inside (m_dest m) p) /\
     (forall a b, In a (j_mounts j) -> In b (j_mounts j) ->
        inside (m_dest a) p = true -> inside (m_dest b) p = true -> a = b) /\
     (forall m, In m (j_mounts j) -> N.testbit (m_flags m) 12 = true)).
Proof. exact original_case. Qed.
(* It fails for "/database" with a mount at "/data", and for nested mounts. *)
Theorem C36_component_boundary_refuted :
  exists j, api_run ex_env minijail_new (binds [("/a", "/data")]%string) = Some j /\
    minijail_get_original_path j "/database/x" = "/a/base/x"%string /\
    original (j_mounts j) (content (j_chrootdir j)) "/database/x" = Some ["database"; "x"]%string.
Proof. exact boundary_wrong. Qed.
Print Assumptions C36_component_boundary_refuted.
Theorem C36_nested_mounts_refuted :
  exists j, api_run ex_env minijail_new (binds [("/outer", "/data"); ("/inner", "/data/sub")]%string) = Some j /\
    minijail_get_original_path j "/data/sub/x" = "/outer//sub/x"%string /\
    original (j_mounts j) (content (j_chrootdir j)) "/data/sub/x" = Some ["inner"; "x"]%string.
Proof. exact nesting_wrong. Qed.
Print Assumptions C36_nested_mounts_refuted.

(* C52: with symlink blocking a bind source is accepted exactly when it
   resolves to itself or is textually below an allowed prefix. *)
Theorem C52_bind_source_partial : forall e ps j src dest w rp rc j',
  k_block_symlinks e = true -> splits "," (k_bind_prefixes e) ps -> Forall (fun p => p <> ""%string) ps ->
  starts_slash dest = true ->
  api_step e j (A_bind src dest w rp) = ARet rc j' ->
  (rc = 0%Z <-> resolves_to_itself src rp \/ exists p, In p ps /\ textually_under p src) /\
  (rc <> 0%Z -> rc = (- ELOOP)%Z /\ j' = j).
Proof. exact bind_accepts. Qed.
Print Assumptions C52_bind_source_partial.
Example C52_case : splits "," "/dev,/proc,/sys" ["/dev"; "/proc"; "/sys"]%string /\
  (exists j, api_step block_env minijail_new (A_bind "/dev/null" "/x" false (Some "/dev/zero"%string)) = ARet 0 j) /\
  (exists j, api_step block_env minijail_new (A_bind "/usr/lib/" "/x" false (Some "/usr/lib"%string)) = ARet 0 j) /\
  api_step block_env minijail_new (A_bind "/bin" "/x" false (Some "/usr/bin"%string)) = ARet (-40) minijail_new.
Proof. exact bind_case. Qed.
(* "Below a prefix" is textual: ".." leads out of it again. *)
Theorem C52_dotdot_refuted : exists j,
  api_step block_env minijail_new (A_bind "/dev/../etc/shadow" "/x" false (Some "/etc/shadow"%string)) = ARet 0 j /\
  ~ resolves_to_itself "/dev/../etc/shadow" (Some "/etc/shadow"%string) /\
  forall p, In p ["/dev"; "/proc"; "/sys"]%string -> ~ lies_under p "/dev/../etc/shadow".
Proof. exact bind_dotdot. Qed.
Print Assumptions C52_dotdot_refuted.

(* C14: the answer to unlisted system calls after every history of calls. *)
Theorem C14_violation_action : forall e h j s rc j' st prog,
  history e minijail_new h j -> ps_stream s = Some st ->
  little (b_plat (ps_build s)) = true -> names_ok (b_consts (ps_build s)) ->
  api_step e j (A_parse_seccomp_filters s) = ARet rc j' -> content (j_filter_prog j') = Some prog ->
  exists logging tsync pol,
    let action := violation_action logging tsync (k_ret_log e) (k_kill_process e) in
    let o := FOpts action logging (logging && negb (k_ret_log e)) (k_allow_dup e) (k_libc_compat e) in
    (logging = true -> k_debug_logging e = true /\
       (k_default_ret_log e = true \/ called A_log_seccomp_filter_failures h)) /\
    (tsync = true -> called A_set_seccomp_filter_tsync h) /\
    (k_softfail e = false ->
      (called A_set_seccomp_filter_tsync h -> tsync = true) /\
      (k_debug_logging e = true ->
         k_default_ret_log e = true \/ called A_log_seccomp_filter_failures h -> logging = true)) /\
    (tsync = true -> logging = true -> k_ret_log e = true) /\
    reads_policy (ps_build s) o (ps_files s) st pol /\
    forall d, sd_ok d -> sd_arch d = arch_no (b_plat (ps_build s)) ->
      ~ allowed_by_option (ps_build s) o (sd_nr d) -> Forall (fun r => e_nr r <> sd_nr d) pol ->
      run true prog d = VRet (action_value action) /\ action_value action <> ALLOW.
Proof. exact default_action. Qed.
Print Assumptions C14_violation_action.
Example C14_case :
  exists h j s j' prog, history ex_env minijail_new h j /\ map fst h = [A_set_seccomp_filter_tsync] /\
    ps_stream s = Some ex_policy /\ ps_build s = ex_build /\
    api_step ex_env j (A_parse_seccomp_filters s) = ARet 0 j' /\ content (j_filter_prog j') = Some prog /\
    run true prog (ex_d 999 0 0 0) = VRet KILL_PROCESS.
Proof. exact seccomp_case. Qed.
