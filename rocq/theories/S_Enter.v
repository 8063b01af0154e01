(* What entering a jail has to achieve, in terms of the kernel calls observed
   (libminijail.h, minijail0.1).  A trace is the list of calls made, oldest
   first, each with its answer. *)
From Verif Require Export M_Enter S_Jail S_Trace.
Local Open Scope N_scope.

(* The calls that must have succeeded for the configuration to be in force. *)
Inductive demands (g : cfg) (j : jail) : call -> Prop :=
  (* mount namespace, with the propagation mode of / and of single mounts *)
  | d_mountns : hasf F_vfs j = true -> demands g j (C_unshare 131072)
  | d_propagation : hasf F_vfs j = true -> j_remount_mode j <> 0 ->
      demands g j (C_mount None "/" None (N.lor 16384 (j_remount_mode j)) None)
  | d_remount r : hasf F_vfs j = true -> j_remount_mode j <> 0 -> In r (j_remounts j) ->
      demands g j (C_mount None (rm_name r) None (N.lor 16384 (rm_mode r)) None)
  | d_enter_mountns : hasf F_enter_vfs j = true -> demands g j (C_setns (j_mountns_fd j) 131072)
  (* other namespaces *)
  | d_ipc : hasf F_ipc j = true -> demands g j (C_unshare 134217728)
  | d_uts : hasf F_uts j = true -> demands g j (C_unshare 67108864)
  | d_hostname h : hasf F_uts j = true -> j_hostname j = Own h -> demands g j (C_sethostname h)
  | d_enter_net : hasf F_enter_net j = true -> demands g j (C_setns (j_netns_fd j) 1073741824)
  | d_net : hasf F_net j = true -> hasf F_enter_net j = false -> demands g j (C_unshare 1073741824)
  | d_cgroup : hasf F_ns_cgroups j = true -> demands g j (C_unshare 33554432)
  | d_keyring : hasf F_new_session_keyring j = true -> demands g j C_keyring
  (* the root directory *)
  | d_chroot d : hasf F_chroot j = true -> j_chrootdir j = Own d -> demands g j (C_chroot d)
  | d_pivot_bind d : hasf F_pivot_root j = true -> j_chrootdir j = Own d ->
      demands g j (C_mount (Some d) d (Some "bind"%string) 20480 (Some ""%string))
  | d_pivot_cd d : hasf F_pivot_root j = true -> j_chrootdir j = Own d -> demands g j (C_chdir d)
  | d_pivot : hasf F_pivot_root j = true -> demands g j (C_pivot_root "." ".")
  | d_pivot_detach : hasf F_pivot_root j = true -> demands g j (C_umount ".")
  | d_pivot_chroot : hasf F_pivot_root j = true -> demands g j (C_chroot "/")
  | d_cd : hasf F_chroot j = true \/ hasf F_pivot_root j = true -> demands g j (C_chdir "/")
  (* private /tmp: nodev, noexec, nosuid; read-only /proc *)
  | d_tmp : hasf F_mount_tmp j = true ->
      demands g j (C_mount (Some "none"%string) "/tmp" (Some "tmpfs"%string)
                     (if g_tmp_nosymfollow g then 270 else 14)
                     (Some ("size=" ++ dec (j_tmpfs_size j) ++ ",mode=1777")%string))
  | d_proc : hasf F_remount_proc_ro j = true ->
      demands g j (C_mount (Some "proc"%string) "/proc" (Some "proc"%string) 15 (Some ""%string))
  | d_proc_detach : hasf F_remount_proc_ro j = true -> hasf F_userns j = false -> demands g j (C_umount "/proc")
  (* identity *)
  | d_gid : hasf F_gid j = true -> demands g j (C_setresgid (j_gid j))
  | d_uid : hasf F_uid j = true -> demands g j (C_setresuid (j_uid j))
  (* no_new_privs, system call filter, alternate table *)
  | d_nnp : hasf F_no_new_privs j = true -> demands g j C_no_new_privs
  | d_filter : hasf F_seccomp_filter j = true -> g_asan g = false ->
      hasf F_seccomp_filter_tsync j = false -> hasf F_seccomp_filter_allow_speculation j = false ->
      demands g j (C_prctl_seccomp (content (j_filter_prog j)))
  | d_filter_flags : hasf F_seccomp_filter j = true -> g_asan g = false ->
      hasf F_seccomp_filter_tsync j || hasf F_seccomp_filter_allow_speculation j = true ->
      demands g j (C_seccomp ((if hasf F_seccomp_filter_tsync j then 1 else 0)
                              + (if hasf F_seccomp_filter_allow_speculation j then 4 else 0))
                             (content (j_filter_prog j)))
  | d_alt t : hasf F_alt_syscall j = true -> j_alt_syscall_table j = Own t -> demands g j (C_alt_syscall t)
  (* Landlock, when the kernel had given a ruleset; strict seccomp, unless the
     build lets it fail softly *)
  | d_landlock : hasf F_enable_fs_restrictions j = true -> j_fs_rules j <> [] -> (0 <= j_fs_rules_fd j)%Z ->
      demands g j (C_landlock_restrict (j_fs_rules_fd j))
  | d_strict : hasf F_seccomp j = true -> k_softfail (g_env g) = false -> demands g j C_seccomp_strict.

(* A temporary directory for the new /dev. *)
Definition dev_in (t : list event) (p : string) : Prop := exists v, In (C_mkdtemp "/tmp/minijail.dev.XXXXXX", Yes v p) t.
(* The failures that do not stop minijail_enter, [dev] being the temporary
   directories it made for /dev. *)
Definition tolerated (g : cfg) (dev : string -> Prop) (ev : event) : Prop :=
  match ev with
  | (_, Yes _ _) => True
  | (c, No e) =>
      match c with
      | C_close _ | C_rmdir _ | C_umask _ => True               (* cleaning up *)
      | C_umount p => dev p
      | C_socket | C_get_lo _ | C_set_lo_up _ => True           (* loopback stays down *)
      | C_stat _ => True                                        (* the destination does not exist yet *)
      | C_mkdir _ _ => e = 17%positive                          (* EEXIST *)
      | C_realpath _ => True                                    (* allowed prefixes are tried *)
      | C_landlock_version | C_open _ PathOnly | C_fstat _
      | C_landlock_add _ _ _ => True                            (* the rule is not added: less access *)
      | C_set_securebits b => e = 1%positive /\ N.land b 3840 <> 0   (* EPERM: retried without the new bits *)
      | C_seccomp_strict => e = 22%positive /\ k_softfail (g_env g) = true
      | C_statvfs _ => True                                     (* see C35 *)
      | _ => False
      end
  end.
