(* Model of the state of a jail: struct minijail, /repo/libminijail.c:83-229.
   Pointers are modelled with their content and ownership state; the lists
   (mounts, remounts, hooks, filesystem rules), which are only built and freed
   as a whole, are lists. *)
From Verif Require Export M_Util M_Filter.
Local Open Scope N_scope.

(* A pointer member: null; a live allocation owned by the jail with its
   content; a pointer to memory already freed; any other value. *)
Inductive cell (A : Type) := Null | Own (a : A) | Freed | Wild.
Arguments Null {A}.
Arguments Own {A} a.
Arguments Freed {A}.
Arguments Wild {A}.

(* libminijail.c:83-121 *)
Record rlimit := Rlimit { rl_type : Z; rl_cur : N; rl_max : N }.
Record mountpoint := Mount {
  m_src : string; m_dest : string; m_type : string;
  m_data : option string;               (* has_data / data *)
  m_flags : N
}.
Record remount := Remount { rm_mode : N; rm_name : string }.
Record hook := Hook { hk_fn : N; hk_payload : N; hk_event : N }.
Record fs_rule := FsRule { fr_path : string; fr_flags : N }.

(* libminijail.c:53-61 *)
Definition MAX_CGROUPS : nat := 10.
Definition MAX_RLIMITS : nat := 32.
Definition MAX_PRESERVED_FDS : nat := 128.

(* libminijail.c:134-181: the flags, in the order of the bit field. *)
Inductive flag :=
  | F_uid | F_gid | F_inherit_suppl_gids | F_set_suppl_gids | F_keep_suppl_gids
  | F_use_caps | F_capbset_drop | F_set_ambient_caps | F_vfs | F_enter_vfs
  | F_pids | F_ipc | F_uts | F_net | F_net_loopback | F_enter_net | F_ns_cgroups
  | F_userns | F_disable_setgroups | F_seccomp | F_remount_proc_ro | F_no_new_privs
  | F_seccomp_filter | F_seccomp_filter_tsync | F_seccomp_filter_logging
  | F_seccomp_filter_allow_speculation | F_chroot | F_pivot_root | F_mount_dev
  | F_mount_tmp | F_do_init | F_run_as_init | F_pid_file | F_cgroups | F_alt_syscall
  | F_reset_signal_mask | F_reset_signal_handlers | F_close_open_fds | F_new_session_keyring
  | F_forward_signals | F_setsid | F_using_minimalistic_mountns | F_enable_fs_restrictions
  | F_enable_profile_fs_restrictions | F_enable_default_runtime | F_enable_new_sessions.
Definition flag_bit (f : flag) : N :=
  match f with
  | F_uid => 0 | F_gid => 1 | F_inherit_suppl_gids => 2 | F_set_suppl_gids => 3 | F_keep_suppl_gids => 4
  | F_use_caps => 5 | F_capbset_drop => 6 | F_set_ambient_caps => 7 | F_vfs => 8 | F_enter_vfs => 9
  | F_pids => 10 | F_ipc => 11 | F_uts => 12 | F_net => 13 | F_net_loopback => 14 | F_enter_net => 15
  | F_ns_cgroups => 16 | F_userns => 17 | F_disable_setgroups => 18 | F_seccomp => 19
  | F_remount_proc_ro => 20 | F_no_new_privs => 21 | F_seccomp_filter => 22 | F_seccomp_filter_tsync => 23
  | F_seccomp_filter_logging => 24 | F_seccomp_filter_allow_speculation => 25 | F_chroot => 26
  | F_pivot_root => 27 | F_mount_dev => 28 | F_mount_tmp => 29 | F_do_init => 30 | F_run_as_init => 31
  | F_pid_file => 32 | F_cgroups => 33 | F_alt_syscall => 34 | F_reset_signal_mask => 35
  | F_reset_signal_handlers => 36 | F_close_open_fds => 37 | F_new_session_keyring => 38
  | F_forward_signals => 39 | F_setsid => 40 | F_using_minimalistic_mountns => 41 | F_enable_fs_restrictions => 42
  | F_enable_profile_fs_restrictions => 43 | F_enable_default_runtime => 44 | F_enable_new_sessions => 45
  end.
Definition all_flags : list flag :=
  [ F_uid; F_gid; F_inherit_suppl_gids; F_set_suppl_gids; F_keep_suppl_gids;
    F_use_caps; F_capbset_drop; F_set_ambient_caps; F_vfs; F_enter_vfs;
    F_pids; F_ipc; F_uts; F_net; F_net_loopback;
    F_enter_net; F_ns_cgroups; F_userns; F_disable_setgroups; F_seccomp;
    F_remount_proc_ro; F_no_new_privs; F_seccomp_filter; F_seccomp_filter_tsync; F_seccomp_filter_logging;
    F_seccomp_filter_allow_speculation; F_chroot; F_pivot_root; F_mount_dev; F_mount_tmp;
    F_do_init; F_run_as_init; F_pid_file; F_cgroups; F_alt_syscall;
    F_reset_signal_mask; F_reset_signal_handlers; F_close_open_fds; F_new_session_keyring; F_forward_signals;
    F_setsid; F_using_minimalistic_mountns; F_enable_fs_restrictions; F_enable_profile_fs_restrictions; F_enable_default_runtime;
    F_enable_new_sessions ].

(* libminijail.c:127-229. *)
Record jail := Jail {
  j_flags : N   (* libminijail.c:134-181, one bit per flag *);
  j_uid : N;
  j_gid : N;
  j_usergid : N;
  j_user : cell string;
  j_suppl_gid_count : N;
  j_suppl_gid_list : cell (list N);
  j_caps : N;
  j_cap_bset : N;
  j_initpid : Z;
  j_mountns_fd : Z;
  j_netns_fd : Z;
  j_fs_rules_fd : Z;
  j_fs_rules_landlock_abi : Z;
  j_chrootdir : cell string;
  j_pid_file_path : cell string;
  j_uidmap : cell string;
  j_gidmap : cell string;
  j_hostname : cell string;
  j_preload_path : cell string;
  j_filename : cell string;
  j_filter_len : N;
  j_filter_prog : cell (list instr)   (* the program; its length is fprog->len *);
  j_alt_syscall_table : cell string;
  j_mounts : list mountpoint   (* mounts_head/tail as a list *);
  j_mounts_count : N;
  j_remount_mode : N;
  j_remounts : list remount;
  j_tmpfs_size : N;
  j_fs_rules : list fs_rule;
  j_fs_rules_count : N;
  j_cgroups : list (cell string)   (* array of MAX_CGROUPS *);
  j_cgroup_count : N;
  j_rlimits : list rlimit   (* array of MAX_RLIMITS *);
  j_rlimit_count : N;
  j_securebits_skip_mask : N;
  j_hooks : list hook;
  j_preserved_fds : list (Z * Z)   (* array of MAX_PRESERVED_FDS: (parent, child) *);
  j_preserved_fd_count : N;
  j_seccomp_policy_path : cell string
}.

(* Field assignments j->f = v. *)
Definition set_flags (v : N) (j : jail) : jail :=
  Jail v (j_uid j) (j_gid j) (j_usergid j) (j_user j) (j_suppl_gid_count j) (j_suppl_gid_list j) (j_caps j)
    (j_cap_bset j) (j_initpid j) (j_mountns_fd j) (j_netns_fd j) (j_fs_rules_fd j)
    (j_fs_rules_landlock_abi j) (j_chrootdir j) (j_pid_file_path j) (j_uidmap j) (j_gidmap j)
    (j_hostname j) (j_preload_path j) (j_filename j) (j_filter_len j) (j_filter_prog j)
    (j_alt_syscall_table j) (j_mounts j) (j_mounts_count j) (j_remount_mode j) (j_remounts j)
    (j_tmpfs_size j) (j_fs_rules j) (j_fs_rules_count j) (j_cgroups j) (j_cgroup_count j) (j_rlimits j)
    (j_rlimit_count j) (j_securebits_skip_mask j) (j_hooks j) (j_preserved_fds j) (j_preserved_fd_count
    j) (j_seccomp_policy_path j).
Definition set_uid (v : N) (j : jail) : jail :=
  Jail (j_flags j) v (j_gid j) (j_usergid j) (j_user j) (j_suppl_gid_count j) (j_suppl_gid_list j) (j_caps
    j) (j_cap_bset j) (j_initpid j) (j_mountns_fd j) (j_netns_fd j) (j_fs_rules_fd j)
    (j_fs_rules_landlock_abi j) (j_chrootdir j) (j_pid_file_path j) (j_uidmap j) (j_gidmap j)
    (j_hostname j) (j_preload_path j) (j_filename j) (j_filter_len j) (j_filter_prog j)
    (j_alt_syscall_table j) (j_mounts j) (j_mounts_count j) (j_remount_mode j) (j_remounts j)
    (j_tmpfs_size j) (j_fs_rules j) (j_fs_rules_count j) (j_cgroups j) (j_cgroup_count j) (j_rlimits j)
    (j_rlimit_count j) (j_securebits_skip_mask j) (j_hooks j) (j_preserved_fds j) (j_preserved_fd_count
    j) (j_seccomp_policy_path j).
Definition set_gid (v : N) (j : jail) : jail :=
  Jail (j_flags j) (j_uid j) v (j_usergid j) (j_user j) (j_suppl_gid_count j) (j_suppl_gid_list j) (j_caps
    j) (j_cap_bset j) (j_initpid j) (j_mountns_fd j) (j_netns_fd j) (j_fs_rules_fd j)
    (j_fs_rules_landlock_abi j) (j_chrootdir j) (j_pid_file_path j) (j_uidmap j) (j_gidmap j)
    (j_hostname j) (j_preload_path j) (j_filename j) (j_filter_len j) (j_filter_prog j)
    (j_alt_syscall_table j) (j_mounts j) (j_mounts_count j) (j_remount_mode j) (j_remounts j)
    (j_tmpfs_size j) (j_fs_rules j) (j_fs_rules_count j) (j_cgroups j) (j_cgroup_count j) (j_rlimits j)
    (j_rlimit_count j) (j_securebits_skip_mask j) (j_hooks j) (j_preserved_fds j) (j_preserved_fd_count
    j) (j_seccomp_policy_path j).
Definition set_usergid (v : N) (j : jail) : jail :=
  Jail (j_flags j) (j_uid j) (j_gid j) v (j_user j) (j_suppl_gid_count j) (j_suppl_gid_list j) (j_caps j)
    (j_cap_bset j) (j_initpid j) (j_mountns_fd j) (j_netns_fd j) (j_fs_rules_fd j)
    (j_fs_rules_landlock_abi j) (j_chrootdir j) (j_pid_file_path j) (j_uidmap j) (j_gidmap j)
    (j_hostname j) (j_preload_path j) (j_filename j) (j_filter_len j) (j_filter_prog j)
    (j_alt_syscall_table j) (j_mounts j) (j_mounts_count j) (j_remount_mode j) (j_remounts j)
    (j_tmpfs_size j) (j_fs_rules j) (j_fs_rules_count j) (j_cgroups j) (j_cgroup_count j) (j_rlimits j)
    (j_rlimit_count j) (j_securebits_skip_mask j) (j_hooks j) (j_preserved_fds j) (j_preserved_fd_count
    j) (j_seccomp_policy_path j).
Definition set_user (v : cell string) (j : jail) : jail :=
  Jail (j_flags j) (j_uid j) (j_gid j) (j_usergid j) v (j_suppl_gid_count j) (j_suppl_gid_list j) (j_caps
    j) (j_cap_bset j) (j_initpid j) (j_mountns_fd j) (j_netns_fd j) (j_fs_rules_fd j)
    (j_fs_rules_landlock_abi j) (j_chrootdir j) (j_pid_file_path j) (j_uidmap j) (j_gidmap j)
    (j_hostname j) (j_preload_path j) (j_filename j) (j_filter_len j) (j_filter_prog j)
    (j_alt_syscall_table j) (j_mounts j) (j_mounts_count j) (j_remount_mode j) (j_remounts j)
    (j_tmpfs_size j) (j_fs_rules j) (j_fs_rules_count j) (j_cgroups j) (j_cgroup_count j) (j_rlimits j)
    (j_rlimit_count j) (j_securebits_skip_mask j) (j_hooks j) (j_preserved_fds j) (j_preserved_fd_count
    j) (j_seccomp_policy_path j).
Definition set_suppl_gid_count (v : N) (j : jail) : jail :=
  Jail (j_flags j) (j_uid j) (j_gid j) (j_usergid j) (j_user j) v (j_suppl_gid_list j) (j_caps j)
    (j_cap_bset j) (j_initpid j) (j_mountns_fd j) (j_netns_fd j) (j_fs_rules_fd j)
    (j_fs_rules_landlock_abi j) (j_chrootdir j) (j_pid_file_path j) (j_uidmap j) (j_gidmap j)
    (j_hostname j) (j_preload_path j) (j_filename j) (j_filter_len j) (j_filter_prog j)
    (j_alt_syscall_table j) (j_mounts j) (j_mounts_count j) (j_remount_mode j) (j_remounts j)
    (j_tmpfs_size j) (j_fs_rules j) (j_fs_rules_count j) (j_cgroups j) (j_cgroup_count j) (j_rlimits j)
    (j_rlimit_count j) (j_securebits_skip_mask j) (j_hooks j) (j_preserved_fds j) (j_preserved_fd_count
    j) (j_seccomp_policy_path j).
Definition set_suppl_gid_list (v : cell (list N)) (j : jail) : jail :=
  Jail (j_flags j) (j_uid j) (j_gid j) (j_usergid j) (j_user j) (j_suppl_gid_count j) v (j_caps j)
    (j_cap_bset j) (j_initpid j) (j_mountns_fd j) (j_netns_fd j) (j_fs_rules_fd j)
    (j_fs_rules_landlock_abi j) (j_chrootdir j) (j_pid_file_path j) (j_uidmap j) (j_gidmap j)
    (j_hostname j) (j_preload_path j) (j_filename j) (j_filter_len j) (j_filter_prog j)
    (j_alt_syscall_table j) (j_mounts j) (j_mounts_count j) (j_remount_mode j) (j_remounts j)
    (j_tmpfs_size j) (j_fs_rules j) (j_fs_rules_count j) (j_cgroups j) (j_cgroup_count j) (j_rlimits j)
    (j_rlimit_count j) (j_securebits_skip_mask j) (j_hooks j) (j_preserved_fds j) (j_preserved_fd_count
    j) (j_seccomp_policy_path j).
Definition set_caps (v : N) (j : jail) : jail :=
  Jail (j_flags j) (j_uid j) (j_gid j) (j_usergid j) (j_user j) (j_suppl_gid_count j) (j_suppl_gid_list j)
    v (j_cap_bset j) (j_initpid j) (j_mountns_fd j) (j_netns_fd j) (j_fs_rules_fd j)
    (j_fs_rules_landlock_abi j) (j_chrootdir j) (j_pid_file_path j) (j_uidmap j) (j_gidmap j)
    (j_hostname j) (j_preload_path j) (j_filename j) (j_filter_len j) (j_filter_prog j)
    (j_alt_syscall_table j) (j_mounts j) (j_mounts_count j) (j_remount_mode j) (j_remounts j)
    (j_tmpfs_size j) (j_fs_rules j) (j_fs_rules_count j) (j_cgroups j) (j_cgroup_count j) (j_rlimits j)
    (j_rlimit_count j) (j_securebits_skip_mask j) (j_hooks j) (j_preserved_fds j) (j_preserved_fd_count
    j) (j_seccomp_policy_path j).
Definition set_cap_bset (v : N) (j : jail) : jail :=
  Jail (j_flags j) (j_uid j) (j_gid j) (j_usergid j) (j_user j) (j_suppl_gid_count j) (j_suppl_gid_list j)
    (j_caps j) v (j_initpid j) (j_mountns_fd j) (j_netns_fd j) (j_fs_rules_fd j)
    (j_fs_rules_landlock_abi j) (j_chrootdir j) (j_pid_file_path j) (j_uidmap j) (j_gidmap j)
    (j_hostname j) (j_preload_path j) (j_filename j) (j_filter_len j) (j_filter_prog j)
    (j_alt_syscall_table j) (j_mounts j) (j_mounts_count j) (j_remount_mode j) (j_remounts j)
    (j_tmpfs_size j) (j_fs_rules j) (j_fs_rules_count j) (j_cgroups j) (j_cgroup_count j) (j_rlimits j)
    (j_rlimit_count j) (j_securebits_skip_mask j) (j_hooks j) (j_preserved_fds j) (j_preserved_fd_count
    j) (j_seccomp_policy_path j).
Definition set_initpid (v : Z) (j : jail) : jail :=
  Jail (j_flags j) (j_uid j) (j_gid j) (j_usergid j) (j_user j) (j_suppl_gid_count j) (j_suppl_gid_list j)
    (j_caps j) (j_cap_bset j) v (j_mountns_fd j) (j_netns_fd j) (j_fs_rules_fd j)
    (j_fs_rules_landlock_abi j) (j_chrootdir j) (j_pid_file_path j) (j_uidmap j) (j_gidmap j)
    (j_hostname j) (j_preload_path j) (j_filename j) (j_filter_len j) (j_filter_prog j)
    (j_alt_syscall_table j) (j_mounts j) (j_mounts_count j) (j_remount_mode j) (j_remounts j)
    (j_tmpfs_size j) (j_fs_rules j) (j_fs_rules_count j) (j_cgroups j) (j_cgroup_count j) (j_rlimits j)
    (j_rlimit_count j) (j_securebits_skip_mask j) (j_hooks j) (j_preserved_fds j) (j_preserved_fd_count
    j) (j_seccomp_policy_path j).
Definition set_mountns_fd (v : Z) (j : jail) : jail :=
  Jail (j_flags j) (j_uid j) (j_gid j) (j_usergid j) (j_user j) (j_suppl_gid_count j) (j_suppl_gid_list j)
    (j_caps j) (j_cap_bset j) (j_initpid j) v (j_netns_fd j) (j_fs_rules_fd j) (j_fs_rules_landlock_abi
    j) (j_chrootdir j) (j_pid_file_path j) (j_uidmap j) (j_gidmap j) (j_hostname j) (j_preload_path j)
    (j_filename j) (j_filter_len j) (j_filter_prog j) (j_alt_syscall_table j) (j_mounts j)
    (j_mounts_count j) (j_remount_mode j) (j_remounts j) (j_tmpfs_size j) (j_fs_rules j)
    (j_fs_rules_count j) (j_cgroups j) (j_cgroup_count j) (j_rlimits j) (j_rlimit_count j)
    (j_securebits_skip_mask j) (j_hooks j) (j_preserved_fds j) (j_preserved_fd_count j)
    (j_seccomp_policy_path j).
Definition set_netns_fd (v : Z) (j : jail) : jail :=
  Jail (j_flags j) (j_uid j) (j_gid j) (j_usergid j) (j_user j) (j_suppl_gid_count j) (j_suppl_gid_list j)
    (j_caps j) (j_cap_bset j) (j_initpid j) (j_mountns_fd j) v (j_fs_rules_fd j)
    (j_fs_rules_landlock_abi j) (j_chrootdir j) (j_pid_file_path j) (j_uidmap j) (j_gidmap j)
    (j_hostname j) (j_preload_path j) (j_filename j) (j_filter_len j) (j_filter_prog j)
    (j_alt_syscall_table j) (j_mounts j) (j_mounts_count j) (j_remount_mode j) (j_remounts j)
    (j_tmpfs_size j) (j_fs_rules j) (j_fs_rules_count j) (j_cgroups j) (j_cgroup_count j) (j_rlimits j)
    (j_rlimit_count j) (j_securebits_skip_mask j) (j_hooks j) (j_preserved_fds j) (j_preserved_fd_count
    j) (j_seccomp_policy_path j).
Definition set_fs_rules_fd (v : Z) (j : jail) : jail :=
  Jail (j_flags j) (j_uid j) (j_gid j) (j_usergid j) (j_user j) (j_suppl_gid_count j) (j_suppl_gid_list j)
    (j_caps j) (j_cap_bset j) (j_initpid j) (j_mountns_fd j) (j_netns_fd j) v (j_fs_rules_landlock_abi
    j) (j_chrootdir j) (j_pid_file_path j) (j_uidmap j) (j_gidmap j) (j_hostname j) (j_preload_path j)
    (j_filename j) (j_filter_len j) (j_filter_prog j) (j_alt_syscall_table j) (j_mounts j)
    (j_mounts_count j) (j_remount_mode j) (j_remounts j) (j_tmpfs_size j) (j_fs_rules j)
    (j_fs_rules_count j) (j_cgroups j) (j_cgroup_count j) (j_rlimits j) (j_rlimit_count j)
    (j_securebits_skip_mask j) (j_hooks j) (j_preserved_fds j) (j_preserved_fd_count j)
    (j_seccomp_policy_path j).
Definition set_fs_rules_landlock_abi (v : Z) (j : jail) : jail :=
  Jail (j_flags j) (j_uid j) (j_gid j) (j_usergid j) (j_user j) (j_suppl_gid_count j) (j_suppl_gid_list j)
    (j_caps j) (j_cap_bset j) (j_initpid j) (j_mountns_fd j) (j_netns_fd j) (j_fs_rules_fd j) v
    (j_chrootdir j) (j_pid_file_path j) (j_uidmap j) (j_gidmap j) (j_hostname j) (j_preload_path j)
    (j_filename j) (j_filter_len j) (j_filter_prog j) (j_alt_syscall_table j) (j_mounts j)
    (j_mounts_count j) (j_remount_mode j) (j_remounts j) (j_tmpfs_size j) (j_fs_rules j)
    (j_fs_rules_count j) (j_cgroups j) (j_cgroup_count j) (j_rlimits j) (j_rlimit_count j)
    (j_securebits_skip_mask j) (j_hooks j) (j_preserved_fds j) (j_preserved_fd_count j)
    (j_seccomp_policy_path j).
Definition set_chrootdir (v : cell string) (j : jail) : jail :=
  Jail (j_flags j) (j_uid j) (j_gid j) (j_usergid j) (j_user j) (j_suppl_gid_count j) (j_suppl_gid_list j)
    (j_caps j) (j_cap_bset j) (j_initpid j) (j_mountns_fd j) (j_netns_fd j) (j_fs_rules_fd j)
    (j_fs_rules_landlock_abi j) v (j_pid_file_path j) (j_uidmap j) (j_gidmap j) (j_hostname j)
    (j_preload_path j) (j_filename j) (j_filter_len j) (j_filter_prog j) (j_alt_syscall_table j)
    (j_mounts j) (j_mounts_count j) (j_remount_mode j) (j_remounts j) (j_tmpfs_size j) (j_fs_rules j)
    (j_fs_rules_count j) (j_cgroups j) (j_cgroup_count j) (j_rlimits j) (j_rlimit_count j)
    (j_securebits_skip_mask j) (j_hooks j) (j_preserved_fds j) (j_preserved_fd_count j)
    (j_seccomp_policy_path j).
Definition set_pid_file_path (v : cell string) (j : jail) : jail :=
  Jail (j_flags j) (j_uid j) (j_gid j) (j_usergid j) (j_user j) (j_suppl_gid_count j) (j_suppl_gid_list j)
    (j_caps j) (j_cap_bset j) (j_initpid j) (j_mountns_fd j) (j_netns_fd j) (j_fs_rules_fd j)
    (j_fs_rules_landlock_abi j) (j_chrootdir j) v (j_uidmap j) (j_gidmap j) (j_hostname j)
    (j_preload_path j) (j_filename j) (j_filter_len j) (j_filter_prog j) (j_alt_syscall_table j)
    (j_mounts j) (j_mounts_count j) (j_remount_mode j) (j_remounts j) (j_tmpfs_size j) (j_fs_rules j)
    (j_fs_rules_count j) (j_cgroups j) (j_cgroup_count j) (j_rlimits j) (j_rlimit_count j)
    (j_securebits_skip_mask j) (j_hooks j) (j_preserved_fds j) (j_preserved_fd_count j)
    (j_seccomp_policy_path j).
Definition set_uidmap (v : cell string) (j : jail) : jail :=
  Jail (j_flags j) (j_uid j) (j_gid j) (j_usergid j) (j_user j) (j_suppl_gid_count j) (j_suppl_gid_list j)
    (j_caps j) (j_cap_bset j) (j_initpid j) (j_mountns_fd j) (j_netns_fd j) (j_fs_rules_fd j)
    (j_fs_rules_landlock_abi j) (j_chrootdir j) (j_pid_file_path j) v (j_gidmap j) (j_hostname j)
    (j_preload_path j) (j_filename j) (j_filter_len j) (j_filter_prog j) (j_alt_syscall_table j)
    (j_mounts j) (j_mounts_count j) (j_remount_mode j) (j_remounts j) (j_tmpfs_size j) (j_fs_rules j)
    (j_fs_rules_count j) (j_cgroups j) (j_cgroup_count j) (j_rlimits j) (j_rlimit_count j)
    (j_securebits_skip_mask j) (j_hooks j) (j_preserved_fds j) (j_preserved_fd_count j)
    (j_seccomp_policy_path j).
Definition set_gidmap (v : cell string) (j : jail) : jail :=
  Jail (j_flags j) (j_uid j) (j_gid j) (j_usergid j) (j_user j) (j_suppl_gid_count j) (j_suppl_gid_list j)
    (j_caps j) (j_cap_bset j) (j_initpid j) (j_mountns_fd j) (j_netns_fd j) (j_fs_rules_fd j)
    (j_fs_rules_landlock_abi j) (j_chrootdir j) (j_pid_file_path j) (j_uidmap j) v (j_hostname j)
    (j_preload_path j) (j_filename j) (j_filter_len j) (j_filter_prog j) (j_alt_syscall_table j)
    (j_mounts j) (j_mounts_count j) (j_remount_mode j) (j_remounts j) (j_tmpfs_size j) (j_fs_rules j)
    (j_fs_rules_count j) (j_cgroups j) (j_cgroup_count j) (j_rlimits j) (j_rlimit_count j)
    (j_securebits_skip_mask j) (j_hooks j) (j_preserved_fds j) (j_preserved_fd_count j)
    (j_seccomp_policy_path j).
Definition set_hostname (v : cell string) (j : jail) : jail :=
  Jail (j_flags j) (j_uid j) (j_gid j) (j_usergid j) (j_user j) (j_suppl_gid_count j) (j_suppl_gid_list j)
    (j_caps j) (j_cap_bset j) (j_initpid j) (j_mountns_fd j) (j_netns_fd j) (j_fs_rules_fd j)
    (j_fs_rules_landlock_abi j) (j_chrootdir j) (j_pid_file_path j) (j_uidmap j) (j_gidmap j) v
    (j_preload_path j) (j_filename j) (j_filter_len j) (j_filter_prog j) (j_alt_syscall_table j)
    (j_mounts j) (j_mounts_count j) (j_remount_mode j) (j_remounts j) (j_tmpfs_size j) (j_fs_rules j)
    (j_fs_rules_count j) (j_cgroups j) (j_cgroup_count j) (j_rlimits j) (j_rlimit_count j)
    (j_securebits_skip_mask j) (j_hooks j) (j_preserved_fds j) (j_preserved_fd_count j)
    (j_seccomp_policy_path j).
Definition set_preload_path (v : cell string) (j : jail) : jail :=
  Jail (j_flags j) (j_uid j) (j_gid j) (j_usergid j) (j_user j) (j_suppl_gid_count j) (j_suppl_gid_list j)
    (j_caps j) (j_cap_bset j) (j_initpid j) (j_mountns_fd j) (j_netns_fd j) (j_fs_rules_fd j)
    (j_fs_rules_landlock_abi j) (j_chrootdir j) (j_pid_file_path j) (j_uidmap j) (j_gidmap j)
    (j_hostname j) v (j_filename j) (j_filter_len j) (j_filter_prog j) (j_alt_syscall_table j) (j_mounts
    j) (j_mounts_count j) (j_remount_mode j) (j_remounts j) (j_tmpfs_size j) (j_fs_rules j)
    (j_fs_rules_count j) (j_cgroups j) (j_cgroup_count j) (j_rlimits j) (j_rlimit_count j)
    (j_securebits_skip_mask j) (j_hooks j) (j_preserved_fds j) (j_preserved_fd_count j)
    (j_seccomp_policy_path j).
Definition set_filename (v : cell string) (j : jail) : jail :=
  Jail (j_flags j) (j_uid j) (j_gid j) (j_usergid j) (j_user j) (j_suppl_gid_count j) (j_suppl_gid_list j)
    (j_caps j) (j_cap_bset j) (j_initpid j) (j_mountns_fd j) (j_netns_fd j) (j_fs_rules_fd j)
    (j_fs_rules_landlock_abi j) (j_chrootdir j) (j_pid_file_path j) (j_uidmap j) (j_gidmap j)
    (j_hostname j) (j_preload_path j) v (j_filter_len j) (j_filter_prog j) (j_alt_syscall_table j)
    (j_mounts j) (j_mounts_count j) (j_remount_mode j) (j_remounts j) (j_tmpfs_size j) (j_fs_rules j)
    (j_fs_rules_count j) (j_cgroups j) (j_cgroup_count j) (j_rlimits j) (j_rlimit_count j)
    (j_securebits_skip_mask j) (j_hooks j) (j_preserved_fds j) (j_preserved_fd_count j)
    (j_seccomp_policy_path j).
Definition set_filter_len (v : N) (j : jail) : jail :=
  Jail (j_flags j) (j_uid j) (j_gid j) (j_usergid j) (j_user j) (j_suppl_gid_count j) (j_suppl_gid_list j)
    (j_caps j) (j_cap_bset j) (j_initpid j) (j_mountns_fd j) (j_netns_fd j) (j_fs_rules_fd j)
    (j_fs_rules_landlock_abi j) (j_chrootdir j) (j_pid_file_path j) (j_uidmap j) (j_gidmap j)
    (j_hostname j) (j_preload_path j) (j_filename j) v (j_filter_prog j) (j_alt_syscall_table j)
    (j_mounts j) (j_mounts_count j) (j_remount_mode j) (j_remounts j) (j_tmpfs_size j) (j_fs_rules j)
    (j_fs_rules_count j) (j_cgroups j) (j_cgroup_count j) (j_rlimits j) (j_rlimit_count j)
    (j_securebits_skip_mask j) (j_hooks j) (j_preserved_fds j) (j_preserved_fd_count j)
    (j_seccomp_policy_path j).
Definition set_filter_prog (v : cell (list instr)) (j : jail) : jail :=
  Jail (j_flags j) (j_uid j) (j_gid j) (j_usergid j) (j_user j) (j_suppl_gid_count j) (j_suppl_gid_list j)
    (j_caps j) (j_cap_bset j) (j_initpid j) (j_mountns_fd j) (j_netns_fd j) (j_fs_rules_fd j)
    (j_fs_rules_landlock_abi j) (j_chrootdir j) (j_pid_file_path j) (j_uidmap j) (j_gidmap j)
    (j_hostname j) (j_preload_path j) (j_filename j) (j_filter_len j) v (j_alt_syscall_table j)
    (j_mounts j) (j_mounts_count j) (j_remount_mode j) (j_remounts j) (j_tmpfs_size j) (j_fs_rules j)
    (j_fs_rules_count j) (j_cgroups j) (j_cgroup_count j) (j_rlimits j) (j_rlimit_count j)
    (j_securebits_skip_mask j) (j_hooks j) (j_preserved_fds j) (j_preserved_fd_count j)
    (j_seccomp_policy_path j).
Definition set_alt_syscall_table (v : cell string) (j : jail) : jail :=
  Jail (j_flags j) (j_uid j) (j_gid j) (j_usergid j) (j_user j) (j_suppl_gid_count j) (j_suppl_gid_list j)
    (j_caps j) (j_cap_bset j) (j_initpid j) (j_mountns_fd j) (j_netns_fd j) (j_fs_rules_fd j)
    (j_fs_rules_landlock_abi j) (j_chrootdir j) (j_pid_file_path j) (j_uidmap j) (j_gidmap j)
    (j_hostname j) (j_preload_path j) (j_filename j) (j_filter_len j) (j_filter_prog j) v (j_mounts j)
    (j_mounts_count j) (j_remount_mode j) (j_remounts j) (j_tmpfs_size j) (j_fs_rules j)
    (j_fs_rules_count j) (j_cgroups j) (j_cgroup_count j) (j_rlimits j) (j_rlimit_count j)
    (j_securebits_skip_mask j) (j_hooks j) (j_preserved_fds j) (j_preserved_fd_count j)
    (j_seccomp_policy_path j).
Definition set_mounts (v : list mountpoint) (j : jail) : jail :=
  Jail (j_flags j) (j_uid j) (j_gid j) (j_usergid j) (j_user j) (j_suppl_gid_count j) (j_suppl_gid_list j)
    (j_caps j) (j_cap_bset j) (j_initpid j) (j_mountns_fd j) (j_netns_fd j) (j_fs_rules_fd j)
    (j_fs_rules_landlock_abi j) (j_chrootdir j) (j_pid_file_path j) (j_uidmap j) (j_gidmap j)
    (j_hostname j) (j_preload_path j) (j_filename j) (j_filter_len j) (j_filter_prog j)
    (j_alt_syscall_table j) v (j_mounts_count j) (j_remount_mode j) (j_remounts j) (j_tmpfs_size j)
    (j_fs_rules j) (j_fs_rules_count j) (j_cgroups j) (j_cgroup_count j) (j_rlimits j) (j_rlimit_count
    j) (j_securebits_skip_mask j) (j_hooks j) (j_preserved_fds j) (j_preserved_fd_count j)
    (j_seccomp_policy_path j).
Definition set_mounts_count (v : N) (j : jail) : jail :=
  Jail (j_flags j) (j_uid j) (j_gid j) (j_usergid j) (j_user j) (j_suppl_gid_count j) (j_suppl_gid_list j)
    (j_caps j) (j_cap_bset j) (j_initpid j) (j_mountns_fd j) (j_netns_fd j) (j_fs_rules_fd j)
    (j_fs_rules_landlock_abi j) (j_chrootdir j) (j_pid_file_path j) (j_uidmap j) (j_gidmap j)
    (j_hostname j) (j_preload_path j) (j_filename j) (j_filter_len j) (j_filter_prog j)
    (j_alt_syscall_table j) (j_mounts j) v (j_remount_mode j) (j_remounts j) (j_tmpfs_size j)
    (j_fs_rules j) (j_fs_rules_count j) (j_cgroups j) (j_cgroup_count j) (j_rlimits j) (j_rlimit_count
    j) (j_securebits_skip_mask j) (j_hooks j) (j_preserved_fds j) (j_preserved_fd_count j)
    (j_seccomp_policy_path j).
Definition set_remount_mode (v : N) (j : jail) : jail :=
  Jail (j_flags j) (j_uid j) (j_gid j) (j_usergid j) (j_user j) (j_suppl_gid_count j) (j_suppl_gid_list j)
    (j_caps j) (j_cap_bset j) (j_initpid j) (j_mountns_fd j) (j_netns_fd j) (j_fs_rules_fd j)
    (j_fs_rules_landlock_abi j) (j_chrootdir j) (j_pid_file_path j) (j_uidmap j) (j_gidmap j)
    (j_hostname j) (j_preload_path j) (j_filename j) (j_filter_len j) (j_filter_prog j)
    (j_alt_syscall_table j) (j_mounts j) (j_mounts_count j) v (j_remounts j) (j_tmpfs_size j)
    (j_fs_rules j) (j_fs_rules_count j) (j_cgroups j) (j_cgroup_count j) (j_rlimits j) (j_rlimit_count
    j) (j_securebits_skip_mask j) (j_hooks j) (j_preserved_fds j) (j_preserved_fd_count j)
    (j_seccomp_policy_path j).
Definition set_remounts (v : list remount) (j : jail) : jail :=
  Jail (j_flags j) (j_uid j) (j_gid j) (j_usergid j) (j_user j) (j_suppl_gid_count j) (j_suppl_gid_list j)
    (j_caps j) (j_cap_bset j) (j_initpid j) (j_mountns_fd j) (j_netns_fd j) (j_fs_rules_fd j)
    (j_fs_rules_landlock_abi j) (j_chrootdir j) (j_pid_file_path j) (j_uidmap j) (j_gidmap j)
    (j_hostname j) (j_preload_path j) (j_filename j) (j_filter_len j) (j_filter_prog j)
    (j_alt_syscall_table j) (j_mounts j) (j_mounts_count j) (j_remount_mode j) v (j_tmpfs_size j)
    (j_fs_rules j) (j_fs_rules_count j) (j_cgroups j) (j_cgroup_count j) (j_rlimits j) (j_rlimit_count
    j) (j_securebits_skip_mask j) (j_hooks j) (j_preserved_fds j) (j_preserved_fd_count j)
    (j_seccomp_policy_path j).
Definition set_tmpfs_size (v : N) (j : jail) : jail :=
  Jail (j_flags j) (j_uid j) (j_gid j) (j_usergid j) (j_user j) (j_suppl_gid_count j) (j_suppl_gid_list j)
    (j_caps j) (j_cap_bset j) (j_initpid j) (j_mountns_fd j) (j_netns_fd j) (j_fs_rules_fd j)
    (j_fs_rules_landlock_abi j) (j_chrootdir j) (j_pid_file_path j) (j_uidmap j) (j_gidmap j)
    (j_hostname j) (j_preload_path j) (j_filename j) (j_filter_len j) (j_filter_prog j)
    (j_alt_syscall_table j) (j_mounts j) (j_mounts_count j) (j_remount_mode j) (j_remounts j) v
    (j_fs_rules j) (j_fs_rules_count j) (j_cgroups j) (j_cgroup_count j) (j_rlimits j) (j_rlimit_count
    j) (j_securebits_skip_mask j) (j_hooks j) (j_preserved_fds j) (j_preserved_fd_count j)
    (j_seccomp_policy_path j).
Definition set_fs_rules (v : list fs_rule) (j : jail) : jail :=
  Jail (j_flags j) (j_uid j) (j_gid j) (j_usergid j) (j_user j) (j_suppl_gid_count j) (j_suppl_gid_list j)
    (j_caps j) (j_cap_bset j) (j_initpid j) (j_mountns_fd j) (j_netns_fd j) (j_fs_rules_fd j)
    (j_fs_rules_landlock_abi j) (j_chrootdir j) (j_pid_file_path j) (j_uidmap j) (j_gidmap j)
    (j_hostname j) (j_preload_path j) (j_filename j) (j_filter_len j) (j_filter_prog j)
    (j_alt_syscall_table j) (j_mounts j) (j_mounts_count j) (j_remount_mode j) (j_remounts j)
    (j_tmpfs_size j) v (j_fs_rules_count j) (j_cgroups j) (j_cgroup_count j) (j_rlimits j)
    (j_rlimit_count j) (j_securebits_skip_mask j) (j_hooks j) (j_preserved_fds j) (j_preserved_fd_count
    j) (j_seccomp_policy_path j).
Definition set_fs_rules_count (v : N) (j : jail) : jail :=
  Jail (j_flags j) (j_uid j) (j_gid j) (j_usergid j) (j_user j) (j_suppl_gid_count j) (j_suppl_gid_list j)
    (j_caps j) (j_cap_bset j) (j_initpid j) (j_mountns_fd j) (j_netns_fd j) (j_fs_rules_fd j)
    (j_fs_rules_landlock_abi j) (j_chrootdir j) (j_pid_file_path j) (j_uidmap j) (j_gidmap j)
    (j_hostname j) (j_preload_path j) (j_filename j) (j_filter_len j) (j_filter_prog j)
    (j_alt_syscall_table j) (j_mounts j) (j_mounts_count j) (j_remount_mode j) (j_remounts j)
    (j_tmpfs_size j) (j_fs_rules j) v (j_cgroups j) (j_cgroup_count j) (j_rlimits j) (j_rlimit_count j)
    (j_securebits_skip_mask j) (j_hooks j) (j_preserved_fds j) (j_preserved_fd_count j)
    (j_seccomp_policy_path j).
Definition set_cgroups (v : list (cell string)) (j : jail) : jail :=
  Jail (j_flags j) (j_uid j) (j_gid j) (j_usergid j) (j_user j) (j_suppl_gid_count j) (j_suppl_gid_list j)
    (j_caps j) (j_cap_bset j) (j_initpid j) (j_mountns_fd j) (j_netns_fd j) (j_fs_rules_fd j)
    (j_fs_rules_landlock_abi j) (j_chrootdir j) (j_pid_file_path j) (j_uidmap j) (j_gidmap j)
    (j_hostname j) (j_preload_path j) (j_filename j) (j_filter_len j) (j_filter_prog j)
    (j_alt_syscall_table j) (j_mounts j) (j_mounts_count j) (j_remount_mode j) (j_remounts j)
    (j_tmpfs_size j) (j_fs_rules j) (j_fs_rules_count j) v (j_cgroup_count j) (j_rlimits j)
    (j_rlimit_count j) (j_securebits_skip_mask j) (j_hooks j) (j_preserved_fds j) (j_preserved_fd_count
    j) (j_seccomp_policy_path j).
Definition set_cgroup_count (v : N) (j : jail) : jail :=
  Jail (j_flags j) (j_uid j) (j_gid j) (j_usergid j) (j_user j) (j_suppl_gid_count j) (j_suppl_gid_list j)
    (j_caps j) (j_cap_bset j) (j_initpid j) (j_mountns_fd j) (j_netns_fd j) (j_fs_rules_fd j)
    (j_fs_rules_landlock_abi j) (j_chrootdir j) (j_pid_file_path j) (j_uidmap j) (j_gidmap j)
    (j_hostname j) (j_preload_path j) (j_filename j) (j_filter_len j) (j_filter_prog j)
    (j_alt_syscall_table j) (j_mounts j) (j_mounts_count j) (j_remount_mode j) (j_remounts j)
    (j_tmpfs_size j) (j_fs_rules j) (j_fs_rules_count j) (j_cgroups j) v (j_rlimits j) (j_rlimit_count
    j) (j_securebits_skip_mask j) (j_hooks j) (j_preserved_fds j) (j_preserved_fd_count j)
    (j_seccomp_policy_path j).
Definition set_rlimits (v : list rlimit) (j : jail) : jail :=
  Jail (j_flags j) (j_uid j) (j_gid j) (j_usergid j) (j_user j) (j_suppl_gid_count j) (j_suppl_gid_list j)
    (j_caps j) (j_cap_bset j) (j_initpid j) (j_mountns_fd j) (j_netns_fd j) (j_fs_rules_fd j)
    (j_fs_rules_landlock_abi j) (j_chrootdir j) (j_pid_file_path j) (j_uidmap j) (j_gidmap j)
    (j_hostname j) (j_preload_path j) (j_filename j) (j_filter_len j) (j_filter_prog j)
    (j_alt_syscall_table j) (j_mounts j) (j_mounts_count j) (j_remount_mode j) (j_remounts j)
    (j_tmpfs_size j) (j_fs_rules j) (j_fs_rules_count j) (j_cgroups j) (j_cgroup_count j) v
    (j_rlimit_count j) (j_securebits_skip_mask j) (j_hooks j) (j_preserved_fds j) (j_preserved_fd_count
    j) (j_seccomp_policy_path j).
Definition set_rlimit_count (v : N) (j : jail) : jail :=
  Jail (j_flags j) (j_uid j) (j_gid j) (j_usergid j) (j_user j) (j_suppl_gid_count j) (j_suppl_gid_list j)
    (j_caps j) (j_cap_bset j) (j_initpid j) (j_mountns_fd j) (j_netns_fd j) (j_fs_rules_fd j)
    (j_fs_rules_landlock_abi j) (j_chrootdir j) (j_pid_file_path j) (j_uidmap j) (j_gidmap j)
    (j_hostname j) (j_preload_path j) (j_filename j) (j_filter_len j) (j_filter_prog j)
    (j_alt_syscall_table j) (j_mounts j) (j_mounts_count j) (j_remount_mode j) (j_remounts j)
    (j_tmpfs_size j) (j_fs_rules j) (j_fs_rules_count j) (j_cgroups j) (j_cgroup_count j) (j_rlimits j)
    v (j_securebits_skip_mask j) (j_hooks j) (j_preserved_fds j) (j_preserved_fd_count j)
    (j_seccomp_policy_path j).
Definition set_securebits_skip_mask (v : N) (j : jail) : jail :=
  Jail (j_flags j) (j_uid j) (j_gid j) (j_usergid j) (j_user j) (j_suppl_gid_count j) (j_suppl_gid_list j)
    (j_caps j) (j_cap_bset j) (j_initpid j) (j_mountns_fd j) (j_netns_fd j) (j_fs_rules_fd j)
    (j_fs_rules_landlock_abi j) (j_chrootdir j) (j_pid_file_path j) (j_uidmap j) (j_gidmap j)
    (j_hostname j) (j_preload_path j) (j_filename j) (j_filter_len j) (j_filter_prog j)
    (j_alt_syscall_table j) (j_mounts j) (j_mounts_count j) (j_remount_mode j) (j_remounts j)
    (j_tmpfs_size j) (j_fs_rules j) (j_fs_rules_count j) (j_cgroups j) (j_cgroup_count j) (j_rlimits j)
    (j_rlimit_count j) v (j_hooks j) (j_preserved_fds j) (j_preserved_fd_count j) (j_seccomp_policy_path
    j).
Definition set_hooks (v : list hook) (j : jail) : jail :=
  Jail (j_flags j) (j_uid j) (j_gid j) (j_usergid j) (j_user j) (j_suppl_gid_count j) (j_suppl_gid_list j)
    (j_caps j) (j_cap_bset j) (j_initpid j) (j_mountns_fd j) (j_netns_fd j) (j_fs_rules_fd j)
    (j_fs_rules_landlock_abi j) (j_chrootdir j) (j_pid_file_path j) (j_uidmap j) (j_gidmap j)
    (j_hostname j) (j_preload_path j) (j_filename j) (j_filter_len j) (j_filter_prog j)
    (j_alt_syscall_table j) (j_mounts j) (j_mounts_count j) (j_remount_mode j) (j_remounts j)
    (j_tmpfs_size j) (j_fs_rules j) (j_fs_rules_count j) (j_cgroups j) (j_cgroup_count j) (j_rlimits j)
    (j_rlimit_count j) (j_securebits_skip_mask j) v (j_preserved_fds j) (j_preserved_fd_count j)
    (j_seccomp_policy_path j).
Definition set_preserved_fds (v : list (Z * Z)) (j : jail) : jail :=
  Jail (j_flags j) (j_uid j) (j_gid j) (j_usergid j) (j_user j) (j_suppl_gid_count j) (j_suppl_gid_list j)
    (j_caps j) (j_cap_bset j) (j_initpid j) (j_mountns_fd j) (j_netns_fd j) (j_fs_rules_fd j)
    (j_fs_rules_landlock_abi j) (j_chrootdir j) (j_pid_file_path j) (j_uidmap j) (j_gidmap j)
    (j_hostname j) (j_preload_path j) (j_filename j) (j_filter_len j) (j_filter_prog j)
    (j_alt_syscall_table j) (j_mounts j) (j_mounts_count j) (j_remount_mode j) (j_remounts j)
    (j_tmpfs_size j) (j_fs_rules j) (j_fs_rules_count j) (j_cgroups j) (j_cgroup_count j) (j_rlimits j)
    (j_rlimit_count j) (j_securebits_skip_mask j) (j_hooks j) v (j_preserved_fd_count j)
    (j_seccomp_policy_path j).
Definition set_preserved_fd_count (v : N) (j : jail) : jail :=
  Jail (j_flags j) (j_uid j) (j_gid j) (j_usergid j) (j_user j) (j_suppl_gid_count j) (j_suppl_gid_list j)
    (j_caps j) (j_cap_bset j) (j_initpid j) (j_mountns_fd j) (j_netns_fd j) (j_fs_rules_fd j)
    (j_fs_rules_landlock_abi j) (j_chrootdir j) (j_pid_file_path j) (j_uidmap j) (j_gidmap j)
    (j_hostname j) (j_preload_path j) (j_filename j) (j_filter_len j) (j_filter_prog j)
    (j_alt_syscall_table j) (j_mounts j) (j_mounts_count j) (j_remount_mode j) (j_remounts j)
    (j_tmpfs_size j) (j_fs_rules j) (j_fs_rules_count j) (j_cgroups j) (j_cgroup_count j) (j_rlimits j)
    (j_rlimit_count j) (j_securebits_skip_mask j) (j_hooks j) (j_preserved_fds j) v
    (j_seccomp_policy_path j).
Definition set_seccomp_policy_path (v : cell string) (j : jail) : jail :=
  Jail (j_flags j) (j_uid j) (j_gid j) (j_usergid j) (j_user j) (j_suppl_gid_count j) (j_suppl_gid_list j)
    (j_caps j) (j_cap_bset j) (j_initpid j) (j_mountns_fd j) (j_netns_fd j) (j_fs_rules_fd j)
    (j_fs_rules_landlock_abi j) (j_chrootdir j) (j_pid_file_path j) (j_uidmap j) (j_gidmap j)
    (j_hostname j) (j_preload_path j) (j_filename j) (j_filter_len j) (j_filter_prog j)
    (j_alt_syscall_table j) (j_mounts j) (j_mounts_count j) (j_remount_mode j) (j_remounts j)
    (j_tmpfs_size j) (j_fs_rules j) (j_fs_rules_count j) (j_cgroups j) (j_cgroup_count j) (j_rlimits j)
    (j_rlimit_count j) (j_securebits_skip_mask j) (j_hooks j) (j_preserved_fds j) (j_preserved_fd_count
    j) v.

(* j->flags.f and j->flags.f = b. *)
Definition hasf (f : flag) (j : jail) : bool := N.testbit (j_flags j) (flag_bit f).
Definition setf (f : flag) (b : bool) (j : jail) : jail :=
  set_flags ((if b then N.setbit else N.clearbit) (j_flags j) (flag_bit f)) j.
Fixpoint clearfs (fs : list flag) (j : jail) : jail :=
  match fs with [] => j | f :: t => clearfs t (setf f false j) end.
