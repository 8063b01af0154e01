(* What a sequence of configuration calls asks for (libminijail.h): which
   options are on, and the last value given for each setting. *)
From Verif Require Export S_Jail.
Local Open Scope N_scope.

(* The options a call that was accepted with code [rc] turns on. *)
Definition on_by (a : api) (rc : Z) : list flag :=
  if negb (rc =? 0)%Z then [] else
  match a with
  | A_change_uid _ | A_change_user _ (inr _) => [F_uid]
  | A_change_gid _ | A_change_group _ (inr _) => [F_gid]
  | A_set_supplementary_gids _ => [F_set_suppl_gids]
  | A_keep_supplementary_gids => [F_keep_suppl_gids]
  | A_inherit_usergroups => [F_inherit_suppl_gids]
  | A_use_seccomp => [F_seccomp] | A_no_new_privs => [F_no_new_privs] | A_use_seccomp_filter => [F_seccomp_filter]
  | A_set_seccomp_filter_tsync => [F_seccomp_filter_tsync]
  | A_set_seccomp_filter_allow_speculation => [F_seccomp_filter_allow_speculation]
  | A_use_alt_syscall _ => [F_alt_syscall]
  | A_use_caps _ => [F_use_caps] | A_capbset_drop _ => [F_capbset_drop] | A_set_ambient_caps => [F_set_ambient_caps]
  | A_namespace_vfs => [F_vfs] | A_namespace_enter_vfs _ => [F_enter_vfs]
  | A_namespace_pids => [F_vfs; F_remount_proc_ro; F_pids; F_do_init]
  | A_namespace_pids_rw_proc => [F_vfs; F_pids; F_do_init]
  | A_namespace_ipc => [F_ipc] | A_namespace_uts | A_namespace_set_hostname _ => [F_uts]
  | A_namespace_net_loopback _ | A_namespace_net => [F_net] | A_namespace_enter_net _ => [F_enter_net]
  | A_namespace_cgroups => [F_ns_cgroups] | A_namespace_user => [F_userns]
  | A_namespace_user_disable_setgroups => [F_disable_setgroups]
  | A_remount_proc_readonly => [F_vfs; F_remount_proc_ro]
  | A_new_session_keyring => [F_new_session_keyring] | A_close_open_fds => [F_close_open_fds]
  | A_enter_chroot _ => [F_chroot] | A_enter_pivot_root _ => [F_pivot_root]
  | A_mount_dev => [F_mount_dev] | A_mount_tmp | A_mount_tmp_size _ => [F_mount_tmp]
  | A_run_as_init => [F_run_as_init] | A_write_pid_file _ => [F_pid_file] | A_add_to_cgroup _ => [F_cgroups]
  | A_reset_signal_mask => [F_reset_signal_mask] | A_reset_signal_handlers => [F_reset_signal_handlers]
  | A_forward_signals => [F_forward_signals] | A_create_session => [F_setsid]
  | _ => []
  end.
Definition asked (f : flag) (h : list (api * Z)) : Prop := exists a rc, In (a, rc) h /\ In f (on_by a rc).

(* Options that stay on once asked for, and are on only when asked for;
   [soft]: seccomp may fail softly here (seccomp_should_use_filters). *)
Definition steady (soft : bool) (f : flag) : bool :=
  match f with
  | F_capbset_drop                        (* minijail_use_caps takes it back *)
  | F_vfs                                 (* a mount turns it on too *)
  | F_net_loopback
  | F_seccomp_filter_logging | F_seccomp_filter_allow_speculation
  | F_using_minimalistic_mountns | F_enable_fs_restrictions | F_enable_profile_fs_restrictions
  | F_enable_default_runtime | F_enable_new_sessions => false
  | F_seccomp_filter | F_seccomp_filter_tsync | F_no_new_privs => negb soft
  | _ => true
  end.

(* The last value a setting got. *)
Fixpoint last_of {A} (f : api -> option A) (h : list (api * Z)) (default : A) : A :=
  match h with
  | [] => default
  | (a, _) :: t => last_of f t (match f a with Some x => x | None => default end)
  end.
Definition uid_of (a : api) : option N :=
  match a with A_change_uid u | A_change_user _ (inr (u, _)) => Some u | _ => None end.
Definition gid_of (a : api) : option N :=
  match a with A_change_gid g | A_change_group _ (inr g) => Some g | _ => None end.
Definition user_of (a : api) : option (cell string * N) :=
  match a with A_change_user n (inr (_, g)) => Some (Own n, g) | _ => None end.
Definition suppl_of (a : api) : option (list N) := match a with A_set_supplementary_gids l => Some l | _ => None end.
Definition gid_list (c : cell (list N)) : list N := match c with Own l => l | _ => [] end.
Definition caps_of (a : api) : option N := match a with A_use_caps m => Some m | _ => None end.
Definition skip_of (a : api) : option N := match a with A_skip_setting_securebits m => Some m | _ => None end.
Definition remount_mode_of (a : api) : option N :=
  match a with A_remount_mode m => Some m | A_skip_remount_private => Some 0 | _ => None end.
Definition tmp_size_of (a : api) : option N :=
  match a with A_mount_tmp => Some 67108864 | A_mount_tmp_size n => Some n | _ => None end.
Definition alt_of (a : api) : option (cell string) := match a with A_use_alt_syscall t => Some (Own t) | _ => None end.
Definition dropped_caps_of (a : api) : option (option N) :=
  match a with A_capbset_drop m => Some (Some m) | A_use_caps _ => Some None | _ => None end.
Definition mountns_of (a : api) : option Z := match a with A_namespace_enter_vfs fd => Some fd | _ => None end.
Definition netns_of (a : api) : option Z := match a with A_namespace_enter_net fd => Some fd | _ => None end.
(* The last seccomp filter given. *)
Definition filter_of (a : api) : option (option (policy_source + list instr)) :=
  match a with
  | A_parse_seccomp_filters s => Some (Some (inl s))
  | A_set_seccomp_filters p => Some (Some (inr p))
  | _ => None
  end.
(* [c] holds the program for that filter: the one given, or what the
   compiler made of the policy. *)
Definition holds_filter (c : cell (list instr)) (f : option (policy_source + list instr)) : Prop :=
  match f with
  | None => c = Null
  | Some (inr p) => c = Own p
  | Some (inl s) => exists opts st p, ps_stream s = Some st /\
      compile_filter (ps_build s) opts (ps_files s) (Some st) = COk p /\ c = Own p
  end.
