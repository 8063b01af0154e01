(* Model of /repo/minijail0_cli.c and /repo/minijail0.c: how minijail0 turns
   its command line and configuration files into configuration calls and runs
   the program.
   getopt_long(3) is not modelled: the command line is the list of options it
   returns, each with its argument, and the words after them.  Memory
   allocation succeeds; logging is left out.  What the system answers is in
   [world]; it does not change while the options are read. *)
From Verif Require Export M_Config M_Elf M_Jail.
Local Open Scope N_scope.

(* What minijail0 learns from the system. *)
Inductive cap_flag := CapSet | CapClear | CapUnknown | CapError.    (* cap_get_flag: the flag, EINVAL, another error *)
Record world := World {
  w_env : kenv;                                (* what the library sees *)
  w_long : N;                                  (* bits of a long *)
  w_consts : consts;                           (* constants.gen.c *)
  w_user : string -> option (N * N);           (* lookup_user; None: an error *)
  w_group : string -> option N;                (* lookup_group *)
  w_cap_text : string -> option (N -> cap_flag); (* cap_from_text, then CAP_EFFECTIVE of each capability *)
  w_last_cap : N;                              (* get_last_valid_cap *)
  w_getuid : N; w_getgid : N; w_cap_setgid : bool;   (* has_cap_setgid; failures of libcap left out *)
  w_tty : bool;                                (* isatty(STDIN_FILENO) *)
  w_realpath : string -> option string;
  w_open : string -> Z;                        (* open(2) of a namespace: descriptor or -1 *)
  w_config : string -> option stream;          (* fopen of a configuration file *)
  w_config_ok : string -> bool;                (* the checks 1249-1275 that a build may have *)
  w_policy : string -> policy_source;          (* the policy file of -S *)
  w_bytes : string -> option (list N);         (* fopen of a binary filter or a program; its bytes *)
  w_host : host;
  w_exists : string -> bool;                   (* access(path, F_OK) == 0 *)
  w_writable : string -> bool;                 (* fopen(path, "w") != NULL *)
  w_executable : string -> bool;               (* access(path, X_OK) == 0 *)
  w_pivot_dir : string;                        (* DEFAULT_PIVOT_ROOT *)
  w_environ : env;
  w_setpgid : bool;                            (* setpgid(0, 0) works or says EPERM *)
  w_dlopen : string -> bool                    (* dlopen of the preload library works *)
}.

(* How a part of minijail0 ends: it goes on, calls exit, is aborted by the
   library, or has undefined behaviour. *)
Inductive went (A : Type) := Go (a : A) | Exits (code : Z) | Aborts | Crash.
Arguments Go {A} a. Arguments Exits {A} code. Arguments Aborts {A}. Arguments Crash {A}.
Definition go_on {A B} (r : went A) (f : A -> went B) : went B :=
  match r with Go a => f a | Exits n => Exits n | Aborts => Aborts | Crash => Crash end.

Inductive seccomp_type := ST_None | ST_Strict | ST_Filter | ST_BpfBinaryFilter.    (* 848-853 *)
Definition same_type (a b : seccomp_type) : bool :=
  match a, b with
  | ST_None, ST_None | ST_Strict, ST_Strict | ST_Filter, ST_Filter | ST_BpfBinaryFilter, ST_BpfBinaryFilter => true
  | _, _ => false
  end.

(* The variables of parse_args, 854-889, and its results. *)
Record cli := Cli {
  c_jail : jail;   (* the jail being configured *)
  c_calls : list (api * Z);   (* the configuration calls made so far, with their codes *)
  c_seccomp : seccomp_type;
  c_use_seccomp_filter : bool;
  c_use_seccomp_filter_binary : bool;
  c_use_seccomp_log : bool;
  c_forward_signals : bool;
  c_have_bind_mounts : bool;
  c_chroot : bool;
  c_pivot_root : bool;
  c_use_mount_ns : bool;
  c_change_remount : bool;
  c_remount_mode : option string;
  c_inherit_suppl_gids : bool;
  c_keep_suppl_gids : bool;
  c_caps : bool;
  c_use_ambient_caps : bool;
  c_use_uid : bool;
  c_use_gid : bool;
  c_uid : N;
  c_gid : N;
  c_suppl_gids : list N;   (* and suppl_gids_count *)
  c_uidmap : option string;
  c_gidmap : option string;
  c_set_uidmap : bool;
  c_set_gidmap : bool;
  c_tmp_size : N;
  c_filter_path : option string;
  c_log_to_stderr : Z;
  c_conf_open : bool;   (* conf_entry_list != NULL *)
  c_parse_mode : bool;
  c_entries : list entry;   (* opt_entry_head *)
  c_config_path : option string;
  c_fs_path_flag_used : bool;
  c_fs_path_rules_enabled : bool;
  c_exit_immediately : bool;   (* *exit_immediately *)
  c_elftype : elf_type;   (* *elftype *)
  c_preload : option string;   (* *preload_path *)
  c_envp : option env   (* *envp *)
}.
Definition put_jail (v : jail) (c : cli) : cli := Cli v (c_calls c) (c_seccomp c) (c_use_seccomp_filter c)
    (c_use_seccomp_filter_binary c) (c_use_seccomp_log c) (c_forward_signals c) (c_have_bind_mounts c) (c_chroot c)
    (c_pivot_root c) (c_use_mount_ns c) (c_change_remount c) (c_remount_mode c) (c_inherit_suppl_gids c)
    (c_keep_suppl_gids c) (c_caps c) (c_use_ambient_caps c) (c_use_uid c) (c_use_gid c) (c_uid c) (c_gid c)
    (c_suppl_gids c) (c_uidmap c) (c_gidmap c) (c_set_uidmap c) (c_set_gidmap c) (c_tmp_size c) (c_filter_path c)
    (c_log_to_stderr c) (c_conf_open c) (c_parse_mode c) (c_entries c) (c_config_path c) (c_fs_path_flag_used c)
    (c_fs_path_rules_enabled c) (c_exit_immediately c) (c_elftype c) (c_preload c) (c_envp c).
Definition put_calls (v : list (api * Z)) (c : cli) : cli := Cli (c_jail c) v (c_seccomp c) (c_use_seccomp_filter c)
    (c_use_seccomp_filter_binary c) (c_use_seccomp_log c) (c_forward_signals c) (c_have_bind_mounts c) (c_chroot c)
    (c_pivot_root c) (c_use_mount_ns c) (c_change_remount c) (c_remount_mode c) (c_inherit_suppl_gids c)
    (c_keep_suppl_gids c) (c_caps c) (c_use_ambient_caps c) (c_use_uid c) (c_use_gid c) (c_uid c) (c_gid c)
    (c_suppl_gids c) (c_uidmap c) (c_gidmap c) (c_set_uidmap c) (c_set_gidmap c) (c_tmp_size c) (c_filter_path c)
    (c_log_to_stderr c) (c_conf_open c) (c_parse_mode c) (c_entries c) (c_config_path c) (c_fs_path_flag_used c)
    (c_fs_path_rules_enabled c) (c_exit_immediately c) (c_elftype c) (c_preload c) (c_envp c).
Definition put_seccomp (v : seccomp_type) (c : cli) : cli := Cli (c_jail c) (c_calls c) v (c_use_seccomp_filter c)
    (c_use_seccomp_filter_binary c) (c_use_seccomp_log c) (c_forward_signals c) (c_have_bind_mounts c) (c_chroot c)
    (c_pivot_root c) (c_use_mount_ns c) (c_change_remount c) (c_remount_mode c) (c_inherit_suppl_gids c)
    (c_keep_suppl_gids c) (c_caps c) (c_use_ambient_caps c) (c_use_uid c) (c_use_gid c) (c_uid c) (c_gid c)
    (c_suppl_gids c) (c_uidmap c) (c_gidmap c) (c_set_uidmap c) (c_set_gidmap c) (c_tmp_size c) (c_filter_path c)
    (c_log_to_stderr c) (c_conf_open c) (c_parse_mode c) (c_entries c) (c_config_path c) (c_fs_path_flag_used c)
    (c_fs_path_rules_enabled c) (c_exit_immediately c) (c_elftype c) (c_preload c) (c_envp c).
Definition put_use_seccomp_filter (v : bool) (c : cli) : cli := Cli (c_jail c) (c_calls c) (c_seccomp c) v
    (c_use_seccomp_filter_binary c) (c_use_seccomp_log c) (c_forward_signals c) (c_have_bind_mounts c) (c_chroot c)
    (c_pivot_root c) (c_use_mount_ns c) (c_change_remount c) (c_remount_mode c) (c_inherit_suppl_gids c)
    (c_keep_suppl_gids c) (c_caps c) (c_use_ambient_caps c) (c_use_uid c) (c_use_gid c) (c_uid c) (c_gid c)
    (c_suppl_gids c) (c_uidmap c) (c_gidmap c) (c_set_uidmap c) (c_set_gidmap c) (c_tmp_size c) (c_filter_path c)
    (c_log_to_stderr c) (c_conf_open c) (c_parse_mode c) (c_entries c) (c_config_path c) (c_fs_path_flag_used c)
    (c_fs_path_rules_enabled c) (c_exit_immediately c) (c_elftype c) (c_preload c) (c_envp c).
Definition put_use_seccomp_filter_binary (v : bool) (c : cli) : cli := Cli (c_jail c) (c_calls c) (c_seccomp c)
    (c_use_seccomp_filter c) v (c_use_seccomp_log c) (c_forward_signals c) (c_have_bind_mounts c) (c_chroot c)
    (c_pivot_root c) (c_use_mount_ns c) (c_change_remount c) (c_remount_mode c) (c_inherit_suppl_gids c)
    (c_keep_suppl_gids c) (c_caps c) (c_use_ambient_caps c) (c_use_uid c) (c_use_gid c) (c_uid c) (c_gid c)
    (c_suppl_gids c) (c_uidmap c) (c_gidmap c) (c_set_uidmap c) (c_set_gidmap c) (c_tmp_size c) (c_filter_path c)
    (c_log_to_stderr c) (c_conf_open c) (c_parse_mode c) (c_entries c) (c_config_path c) (c_fs_path_flag_used c)
    (c_fs_path_rules_enabled c) (c_exit_immediately c) (c_elftype c) (c_preload c) (c_envp c).
Definition put_use_seccomp_log (v : bool) (c : cli) : cli := Cli (c_jail c) (c_calls c) (c_seccomp c)
    (c_use_seccomp_filter c) (c_use_seccomp_filter_binary c) v (c_forward_signals c) (c_have_bind_mounts c) (c_chroot
    c) (c_pivot_root c) (c_use_mount_ns c) (c_change_remount c) (c_remount_mode c) (c_inherit_suppl_gids c)
    (c_keep_suppl_gids c) (c_caps c) (c_use_ambient_caps c) (c_use_uid c) (c_use_gid c) (c_uid c) (c_gid c)
    (c_suppl_gids c) (c_uidmap c) (c_gidmap c) (c_set_uidmap c) (c_set_gidmap c) (c_tmp_size c) (c_filter_path c)
    (c_log_to_stderr c) (c_conf_open c) (c_parse_mode c) (c_entries c) (c_config_path c) (c_fs_path_flag_used c)
    (c_fs_path_rules_enabled c) (c_exit_immediately c) (c_elftype c) (c_preload c) (c_envp c).
Definition put_forward_signals (v : bool) (c : cli) : cli := Cli (c_jail c) (c_calls c) (c_seccomp c)
    (c_use_seccomp_filter c) (c_use_seccomp_filter_binary c) (c_use_seccomp_log c) v (c_have_bind_mounts c) (c_chroot
    c) (c_pivot_root c) (c_use_mount_ns c) (c_change_remount c) (c_remount_mode c) (c_inherit_suppl_gids c)
    (c_keep_suppl_gids c) (c_caps c) (c_use_ambient_caps c) (c_use_uid c) (c_use_gid c) (c_uid c) (c_gid c)
    (c_suppl_gids c) (c_uidmap c) (c_gidmap c) (c_set_uidmap c) (c_set_gidmap c) (c_tmp_size c) (c_filter_path c)
    (c_log_to_stderr c) (c_conf_open c) (c_parse_mode c) (c_entries c) (c_config_path c) (c_fs_path_flag_used c)
    (c_fs_path_rules_enabled c) (c_exit_immediately c) (c_elftype c) (c_preload c) (c_envp c).
Definition put_have_bind_mounts (v : bool) (c : cli) : cli := Cli (c_jail c) (c_calls c) (c_seccomp c)
    (c_use_seccomp_filter c) (c_use_seccomp_filter_binary c) (c_use_seccomp_log c) (c_forward_signals c) v (c_chroot
    c) (c_pivot_root c) (c_use_mount_ns c) (c_change_remount c) (c_remount_mode c) (c_inherit_suppl_gids c)
    (c_keep_suppl_gids c) (c_caps c) (c_use_ambient_caps c) (c_use_uid c) (c_use_gid c) (c_uid c) (c_gid c)
    (c_suppl_gids c) (c_uidmap c) (c_gidmap c) (c_set_uidmap c) (c_set_gidmap c) (c_tmp_size c) (c_filter_path c)
    (c_log_to_stderr c) (c_conf_open c) (c_parse_mode c) (c_entries c) (c_config_path c) (c_fs_path_flag_used c)
    (c_fs_path_rules_enabled c) (c_exit_immediately c) (c_elftype c) (c_preload c) (c_envp c).
Definition put_chroot (v : bool) (c : cli) : cli := Cli (c_jail c) (c_calls c) (c_seccomp c) (c_use_seccomp_filter c)
    (c_use_seccomp_filter_binary c) (c_use_seccomp_log c) (c_forward_signals c) (c_have_bind_mounts c) v (c_pivot_root
    c) (c_use_mount_ns c) (c_change_remount c) (c_remount_mode c) (c_inherit_suppl_gids c) (c_keep_suppl_gids c)
    (c_caps c) (c_use_ambient_caps c) (c_use_uid c) (c_use_gid c) (c_uid c) (c_gid c) (c_suppl_gids c) (c_uidmap c)
    (c_gidmap c) (c_set_uidmap c) (c_set_gidmap c) (c_tmp_size c) (c_filter_path c) (c_log_to_stderr c) (c_conf_open
    c) (c_parse_mode c) (c_entries c) (c_config_path c) (c_fs_path_flag_used c) (c_fs_path_rules_enabled c)
    (c_exit_immediately c) (c_elftype c) (c_preload c) (c_envp c).
Definition put_pivot_root (v : bool) (c : cli) : cli := Cli (c_jail c) (c_calls c) (c_seccomp c) (c_use_seccomp_filter
    c) (c_use_seccomp_filter_binary c) (c_use_seccomp_log c) (c_forward_signals c) (c_have_bind_mounts c) (c_chroot c)
    v (c_use_mount_ns c) (c_change_remount c) (c_remount_mode c) (c_inherit_suppl_gids c) (c_keep_suppl_gids c)
    (c_caps c) (c_use_ambient_caps c) (c_use_uid c) (c_use_gid c) (c_uid c) (c_gid c) (c_suppl_gids c) (c_uidmap c)
    (c_gidmap c) (c_set_uidmap c) (c_set_gidmap c) (c_tmp_size c) (c_filter_path c) (c_log_to_stderr c) (c_conf_open
    c) (c_parse_mode c) (c_entries c) (c_config_path c) (c_fs_path_flag_used c) (c_fs_path_rules_enabled c)
    (c_exit_immediately c) (c_elftype c) (c_preload c) (c_envp c).
Definition put_use_mount_ns (v : bool) (c : cli) : cli := Cli (c_jail c) (c_calls c) (c_seccomp c)
    (c_use_seccomp_filter c) (c_use_seccomp_filter_binary c) (c_use_seccomp_log c) (c_forward_signals c)
    (c_have_bind_mounts c) (c_chroot c) (c_pivot_root c) v (c_change_remount c) (c_remount_mode c)
    (c_inherit_suppl_gids c) (c_keep_suppl_gids c) (c_caps c) (c_use_ambient_caps c) (c_use_uid c) (c_use_gid c)
    (c_uid c) (c_gid c) (c_suppl_gids c) (c_uidmap c) (c_gidmap c) (c_set_uidmap c) (c_set_gidmap c) (c_tmp_size c)
    (c_filter_path c) (c_log_to_stderr c) (c_conf_open c) (c_parse_mode c) (c_entries c) (c_config_path c)
    (c_fs_path_flag_used c) (c_fs_path_rules_enabled c) (c_exit_immediately c) (c_elftype c) (c_preload c) (c_envp c).
Definition put_change_remount (v : bool) (c : cli) : cli := Cli (c_jail c) (c_calls c) (c_seccomp c)
    (c_use_seccomp_filter c) (c_use_seccomp_filter_binary c) (c_use_seccomp_log c) (c_forward_signals c)
    (c_have_bind_mounts c) (c_chroot c) (c_pivot_root c) (c_use_mount_ns c) v (c_remount_mode c) (c_inherit_suppl_gids
    c) (c_keep_suppl_gids c) (c_caps c) (c_use_ambient_caps c) (c_use_uid c) (c_use_gid c) (c_uid c) (c_gid c)
    (c_suppl_gids c) (c_uidmap c) (c_gidmap c) (c_set_uidmap c) (c_set_gidmap c) (c_tmp_size c) (c_filter_path c)
    (c_log_to_stderr c) (c_conf_open c) (c_parse_mode c) (c_entries c) (c_config_path c) (c_fs_path_flag_used c)
    (c_fs_path_rules_enabled c) (c_exit_immediately c) (c_elftype c) (c_preload c) (c_envp c).
Definition put_remount_mode (v : option string) (c : cli) : cli := Cli (c_jail c) (c_calls c) (c_seccomp c)
    (c_use_seccomp_filter c) (c_use_seccomp_filter_binary c) (c_use_seccomp_log c) (c_forward_signals c)
    (c_have_bind_mounts c) (c_chroot c) (c_pivot_root c) (c_use_mount_ns c) (c_change_remount c) v
    (c_inherit_suppl_gids c) (c_keep_suppl_gids c) (c_caps c) (c_use_ambient_caps c) (c_use_uid c) (c_use_gid c)
    (c_uid c) (c_gid c) (c_suppl_gids c) (c_uidmap c) (c_gidmap c) (c_set_uidmap c) (c_set_gidmap c) (c_tmp_size c)
    (c_filter_path c) (c_log_to_stderr c) (c_conf_open c) (c_parse_mode c) (c_entries c) (c_config_path c)
    (c_fs_path_flag_used c) (c_fs_path_rules_enabled c) (c_exit_immediately c) (c_elftype c) (c_preload c) (c_envp c).
Definition put_inherit_suppl_gids (v : bool) (c : cli) : cli := Cli (c_jail c) (c_calls c) (c_seccomp c)
    (c_use_seccomp_filter c) (c_use_seccomp_filter_binary c) (c_use_seccomp_log c) (c_forward_signals c)
    (c_have_bind_mounts c) (c_chroot c) (c_pivot_root c) (c_use_mount_ns c) (c_change_remount c) (c_remount_mode c) v
    (c_keep_suppl_gids c) (c_caps c) (c_use_ambient_caps c) (c_use_uid c) (c_use_gid c) (c_uid c) (c_gid c)
    (c_suppl_gids c) (c_uidmap c) (c_gidmap c) (c_set_uidmap c) (c_set_gidmap c) (c_tmp_size c) (c_filter_path c)
    (c_log_to_stderr c) (c_conf_open c) (c_parse_mode c) (c_entries c) (c_config_path c) (c_fs_path_flag_used c)
    (c_fs_path_rules_enabled c) (c_exit_immediately c) (c_elftype c) (c_preload c) (c_envp c).
Definition put_keep_suppl_gids (v : bool) (c : cli) : cli := Cli (c_jail c) (c_calls c) (c_seccomp c)
    (c_use_seccomp_filter c) (c_use_seccomp_filter_binary c) (c_use_seccomp_log c) (c_forward_signals c)
    (c_have_bind_mounts c) (c_chroot c) (c_pivot_root c) (c_use_mount_ns c) (c_change_remount c) (c_remount_mode c)
    (c_inherit_suppl_gids c) v (c_caps c) (c_use_ambient_caps c) (c_use_uid c) (c_use_gid c) (c_uid c) (c_gid c)
    (c_suppl_gids c) (c_uidmap c) (c_gidmap c) (c_set_uidmap c) (c_set_gidmap c) (c_tmp_size c) (c_filter_path c)
    (c_log_to_stderr c) (c_conf_open c) (c_parse_mode c) (c_entries c) (c_config_path c) (c_fs_path_flag_used c)
    (c_fs_path_rules_enabled c) (c_exit_immediately c) (c_elftype c) (c_preload c) (c_envp c).
Definition put_caps (v : bool) (c : cli) : cli := Cli (c_jail c) (c_calls c) (c_seccomp c) (c_use_seccomp_filter c)
    (c_use_seccomp_filter_binary c) (c_use_seccomp_log c) (c_forward_signals c) (c_have_bind_mounts c) (c_chroot c)
    (c_pivot_root c) (c_use_mount_ns c) (c_change_remount c) (c_remount_mode c) (c_inherit_suppl_gids c)
    (c_keep_suppl_gids c) v (c_use_ambient_caps c) (c_use_uid c) (c_use_gid c) (c_uid c) (c_gid c) (c_suppl_gids c)
    (c_uidmap c) (c_gidmap c) (c_set_uidmap c) (c_set_gidmap c) (c_tmp_size c) (c_filter_path c) (c_log_to_stderr c)
    (c_conf_open c) (c_parse_mode c) (c_entries c) (c_config_path c) (c_fs_path_flag_used c) (c_fs_path_rules_enabled
    c) (c_exit_immediately c) (c_elftype c) (c_preload c) (c_envp c).
Definition put_use_ambient_caps (v : bool) (c : cli) : cli := Cli (c_jail c) (c_calls c) (c_seccomp c)
    (c_use_seccomp_filter c) (c_use_seccomp_filter_binary c) (c_use_seccomp_log c) (c_forward_signals c)
    (c_have_bind_mounts c) (c_chroot c) (c_pivot_root c) (c_use_mount_ns c) (c_change_remount c) (c_remount_mode c)
    (c_inherit_suppl_gids c) (c_keep_suppl_gids c) (c_caps c) v (c_use_uid c) (c_use_gid c) (c_uid c) (c_gid c)
    (c_suppl_gids c) (c_uidmap c) (c_gidmap c) (c_set_uidmap c) (c_set_gidmap c) (c_tmp_size c) (c_filter_path c)
    (c_log_to_stderr c) (c_conf_open c) (c_parse_mode c) (c_entries c) (c_config_path c) (c_fs_path_flag_used c)
    (c_fs_path_rules_enabled c) (c_exit_immediately c) (c_elftype c) (c_preload c) (c_envp c).
Definition put_use_uid (v : bool) (c : cli) : cli := Cli (c_jail c) (c_calls c) (c_seccomp c) (c_use_seccomp_filter c)
    (c_use_seccomp_filter_binary c) (c_use_seccomp_log c) (c_forward_signals c) (c_have_bind_mounts c) (c_chroot c)
    (c_pivot_root c) (c_use_mount_ns c) (c_change_remount c) (c_remount_mode c) (c_inherit_suppl_gids c)
    (c_keep_suppl_gids c) (c_caps c) (c_use_ambient_caps c) v (c_use_gid c) (c_uid c) (c_gid c) (c_suppl_gids c)
    (c_uidmap c) (c_gidmap c) (c_set_uidmap c) (c_set_gidmap c) (c_tmp_size c) (c_filter_path c) (c_log_to_stderr c)
    (c_conf_open c) (c_parse_mode c) (c_entries c) (c_config_path c) (c_fs_path_flag_used c) (c_fs_path_rules_enabled
    c) (c_exit_immediately c) (c_elftype c) (c_preload c) (c_envp c).
Definition put_use_gid (v : bool) (c : cli) : cli := Cli (c_jail c) (c_calls c) (c_seccomp c) (c_use_seccomp_filter c)
    (c_use_seccomp_filter_binary c) (c_use_seccomp_log c) (c_forward_signals c) (c_have_bind_mounts c) (c_chroot c)
    (c_pivot_root c) (c_use_mount_ns c) (c_change_remount c) (c_remount_mode c) (c_inherit_suppl_gids c)
    (c_keep_suppl_gids c) (c_caps c) (c_use_ambient_caps c) (c_use_uid c) v (c_uid c) (c_gid c) (c_suppl_gids c)
    (c_uidmap c) (c_gidmap c) (c_set_uidmap c) (c_set_gidmap c) (c_tmp_size c) (c_filter_path c) (c_log_to_stderr c)
    (c_conf_open c) (c_parse_mode c) (c_entries c) (c_config_path c) (c_fs_path_flag_used c) (c_fs_path_rules_enabled
    c) (c_exit_immediately c) (c_elftype c) (c_preload c) (c_envp c).
Definition put_uid (v : N) (c : cli) : cli := Cli (c_jail c) (c_calls c) (c_seccomp c) (c_use_seccomp_filter c)
    (c_use_seccomp_filter_binary c) (c_use_seccomp_log c) (c_forward_signals c) (c_have_bind_mounts c) (c_chroot c)
    (c_pivot_root c) (c_use_mount_ns c) (c_change_remount c) (c_remount_mode c) (c_inherit_suppl_gids c)
    (c_keep_suppl_gids c) (c_caps c) (c_use_ambient_caps c) (c_use_uid c) (c_use_gid c) v (c_gid c) (c_suppl_gids c)
    (c_uidmap c) (c_gidmap c) (c_set_uidmap c) (c_set_gidmap c) (c_tmp_size c) (c_filter_path c) (c_log_to_stderr c)
    (c_conf_open c) (c_parse_mode c) (c_entries c) (c_config_path c) (c_fs_path_flag_used c) (c_fs_path_rules_enabled
    c) (c_exit_immediately c) (c_elftype c) (c_preload c) (c_envp c).
Definition put_gid (v : N) (c : cli) : cli := Cli (c_jail c) (c_calls c) (c_seccomp c) (c_use_seccomp_filter c)
    (c_use_seccomp_filter_binary c) (c_use_seccomp_log c) (c_forward_signals c) (c_have_bind_mounts c) (c_chroot c)
    (c_pivot_root c) (c_use_mount_ns c) (c_change_remount c) (c_remount_mode c) (c_inherit_suppl_gids c)
    (c_keep_suppl_gids c) (c_caps c) (c_use_ambient_caps c) (c_use_uid c) (c_use_gid c) (c_uid c) v (c_suppl_gids c)
    (c_uidmap c) (c_gidmap c) (c_set_uidmap c) (c_set_gidmap c) (c_tmp_size c) (c_filter_path c) (c_log_to_stderr c)
    (c_conf_open c) (c_parse_mode c) (c_entries c) (c_config_path c) (c_fs_path_flag_used c) (c_fs_path_rules_enabled
    c) (c_exit_immediately c) (c_elftype c) (c_preload c) (c_envp c).
Definition put_suppl_gids (v : list N) (c : cli) : cli := Cli (c_jail c) (c_calls c) (c_seccomp c)
    (c_use_seccomp_filter c) (c_use_seccomp_filter_binary c) (c_use_seccomp_log c) (c_forward_signals c)
    (c_have_bind_mounts c) (c_chroot c) (c_pivot_root c) (c_use_mount_ns c) (c_change_remount c) (c_remount_mode c)
    (c_inherit_suppl_gids c) (c_keep_suppl_gids c) (c_caps c) (c_use_ambient_caps c) (c_use_uid c) (c_use_gid c)
    (c_uid c) (c_gid c) v (c_uidmap c) (c_gidmap c) (c_set_uidmap c) (c_set_gidmap c) (c_tmp_size c) (c_filter_path c)
    (c_log_to_stderr c) (c_conf_open c) (c_parse_mode c) (c_entries c) (c_config_path c) (c_fs_path_flag_used c)
    (c_fs_path_rules_enabled c) (c_exit_immediately c) (c_elftype c) (c_preload c) (c_envp c).
Definition put_uidmap (v : option string) (c : cli) : cli := Cli (c_jail c) (c_calls c) (c_seccomp c)
    (c_use_seccomp_filter c) (c_use_seccomp_filter_binary c) (c_use_seccomp_log c) (c_forward_signals c)
    (c_have_bind_mounts c) (c_chroot c) (c_pivot_root c) (c_use_mount_ns c) (c_change_remount c) (c_remount_mode c)
    (c_inherit_suppl_gids c) (c_keep_suppl_gids c) (c_caps c) (c_use_ambient_caps c) (c_use_uid c) (c_use_gid c)
    (c_uid c) (c_gid c) (c_suppl_gids c) v (c_gidmap c) (c_set_uidmap c) (c_set_gidmap c) (c_tmp_size c)
    (c_filter_path c) (c_log_to_stderr c) (c_conf_open c) (c_parse_mode c) (c_entries c) (c_config_path c)
    (c_fs_path_flag_used c) (c_fs_path_rules_enabled c) (c_exit_immediately c) (c_elftype c) (c_preload c) (c_envp c).
Definition put_gidmap (v : option string) (c : cli) : cli := Cli (c_jail c) (c_calls c) (c_seccomp c)
    (c_use_seccomp_filter c) (c_use_seccomp_filter_binary c) (c_use_seccomp_log c) (c_forward_signals c)
    (c_have_bind_mounts c) (c_chroot c) (c_pivot_root c) (c_use_mount_ns c) (c_change_remount c) (c_remount_mode c)
    (c_inherit_suppl_gids c) (c_keep_suppl_gids c) (c_caps c) (c_use_ambient_caps c) (c_use_uid c) (c_use_gid c)
    (c_uid c) (c_gid c) (c_suppl_gids c) (c_uidmap c) v (c_set_uidmap c) (c_set_gidmap c) (c_tmp_size c)
    (c_filter_path c) (c_log_to_stderr c) (c_conf_open c) (c_parse_mode c) (c_entries c) (c_config_path c)
    (c_fs_path_flag_used c) (c_fs_path_rules_enabled c) (c_exit_immediately c) (c_elftype c) (c_preload c) (c_envp c).
Definition put_set_uidmap (v : bool) (c : cli) : cli := Cli (c_jail c) (c_calls c) (c_seccomp c) (c_use_seccomp_filter
    c) (c_use_seccomp_filter_binary c) (c_use_seccomp_log c) (c_forward_signals c) (c_have_bind_mounts c) (c_chroot c)
    (c_pivot_root c) (c_use_mount_ns c) (c_change_remount c) (c_remount_mode c) (c_inherit_suppl_gids c)
    (c_keep_suppl_gids c) (c_caps c) (c_use_ambient_caps c) (c_use_uid c) (c_use_gid c) (c_uid c) (c_gid c)
    (c_suppl_gids c) (c_uidmap c) (c_gidmap c) v (c_set_gidmap c) (c_tmp_size c) (c_filter_path c) (c_log_to_stderr c)
    (c_conf_open c) (c_parse_mode c) (c_entries c) (c_config_path c) (c_fs_path_flag_used c) (c_fs_path_rules_enabled
    c) (c_exit_immediately c) (c_elftype c) (c_preload c) (c_envp c).
Definition put_set_gidmap (v : bool) (c : cli) : cli := Cli (c_jail c) (c_calls c) (c_seccomp c) (c_use_seccomp_filter
    c) (c_use_seccomp_filter_binary c) (c_use_seccomp_log c) (c_forward_signals c) (c_have_bind_mounts c) (c_chroot c)
    (c_pivot_root c) (c_use_mount_ns c) (c_change_remount c) (c_remount_mode c) (c_inherit_suppl_gids c)
    (c_keep_suppl_gids c) (c_caps c) (c_use_ambient_caps c) (c_use_uid c) (c_use_gid c) (c_uid c) (c_gid c)
    (c_suppl_gids c) (c_uidmap c) (c_gidmap c) (c_set_uidmap c) v (c_tmp_size c) (c_filter_path c) (c_log_to_stderr c)
    (c_conf_open c) (c_parse_mode c) (c_entries c) (c_config_path c) (c_fs_path_flag_used c) (c_fs_path_rules_enabled
    c) (c_exit_immediately c) (c_elftype c) (c_preload c) (c_envp c).
Definition put_tmp_size (v : N) (c : cli) : cli := Cli (c_jail c) (c_calls c) (c_seccomp c) (c_use_seccomp_filter c)
    (c_use_seccomp_filter_binary c) (c_use_seccomp_log c) (c_forward_signals c) (c_have_bind_mounts c) (c_chroot c)
    (c_pivot_root c) (c_use_mount_ns c) (c_change_remount c) (c_remount_mode c) (c_inherit_suppl_gids c)
    (c_keep_suppl_gids c) (c_caps c) (c_use_ambient_caps c) (c_use_uid c) (c_use_gid c) (c_uid c) (c_gid c)
    (c_suppl_gids c) (c_uidmap c) (c_gidmap c) (c_set_uidmap c) (c_set_gidmap c) v (c_filter_path c) (c_log_to_stderr
    c) (c_conf_open c) (c_parse_mode c) (c_entries c) (c_config_path c) (c_fs_path_flag_used c)
    (c_fs_path_rules_enabled c) (c_exit_immediately c) (c_elftype c) (c_preload c) (c_envp c).
Definition put_filter_path (v : option string) (c : cli) : cli := Cli (c_jail c) (c_calls c) (c_seccomp c)
    (c_use_seccomp_filter c) (c_use_seccomp_filter_binary c) (c_use_seccomp_log c) (c_forward_signals c)
    (c_have_bind_mounts c) (c_chroot c) (c_pivot_root c) (c_use_mount_ns c) (c_change_remount c) (c_remount_mode c)
    (c_inherit_suppl_gids c) (c_keep_suppl_gids c) (c_caps c) (c_use_ambient_caps c) (c_use_uid c) (c_use_gid c)
    (c_uid c) (c_gid c) (c_suppl_gids c) (c_uidmap c) (c_gidmap c) (c_set_uidmap c) (c_set_gidmap c) (c_tmp_size c) v
    (c_log_to_stderr c) (c_conf_open c) (c_parse_mode c) (c_entries c) (c_config_path c) (c_fs_path_flag_used c)
    (c_fs_path_rules_enabled c) (c_exit_immediately c) (c_elftype c) (c_preload c) (c_envp c).
Definition put_log_to_stderr (v : Z) (c : cli) : cli := Cli (c_jail c) (c_calls c) (c_seccomp c) (c_use_seccomp_filter
    c) (c_use_seccomp_filter_binary c) (c_use_seccomp_log c) (c_forward_signals c) (c_have_bind_mounts c) (c_chroot c)
    (c_pivot_root c) (c_use_mount_ns c) (c_change_remount c) (c_remount_mode c) (c_inherit_suppl_gids c)
    (c_keep_suppl_gids c) (c_caps c) (c_use_ambient_caps c) (c_use_uid c) (c_use_gid c) (c_uid c) (c_gid c)
    (c_suppl_gids c) (c_uidmap c) (c_gidmap c) (c_set_uidmap c) (c_set_gidmap c) (c_tmp_size c) (c_filter_path c) v
    (c_conf_open c) (c_parse_mode c) (c_entries c) (c_config_path c) (c_fs_path_flag_used c) (c_fs_path_rules_enabled
    c) (c_exit_immediately c) (c_elftype c) (c_preload c) (c_envp c).
Definition put_conf_open (v : bool) (c : cli) : cli := Cli (c_jail c) (c_calls c) (c_seccomp c) (c_use_seccomp_filter
    c) (c_use_seccomp_filter_binary c) (c_use_seccomp_log c) (c_forward_signals c) (c_have_bind_mounts c) (c_chroot c)
    (c_pivot_root c) (c_use_mount_ns c) (c_change_remount c) (c_remount_mode c) (c_inherit_suppl_gids c)
    (c_keep_suppl_gids c) (c_caps c) (c_use_ambient_caps c) (c_use_uid c) (c_use_gid c) (c_uid c) (c_gid c)
    (c_suppl_gids c) (c_uidmap c) (c_gidmap c) (c_set_uidmap c) (c_set_gidmap c) (c_tmp_size c) (c_filter_path c)
    (c_log_to_stderr c) v (c_parse_mode c) (c_entries c) (c_config_path c) (c_fs_path_flag_used c)
    (c_fs_path_rules_enabled c) (c_exit_immediately c) (c_elftype c) (c_preload c) (c_envp c).
Definition put_parse_mode (v : bool) (c : cli) : cli := Cli (c_jail c) (c_calls c) (c_seccomp c) (c_use_seccomp_filter
    c) (c_use_seccomp_filter_binary c) (c_use_seccomp_log c) (c_forward_signals c) (c_have_bind_mounts c) (c_chroot c)
    (c_pivot_root c) (c_use_mount_ns c) (c_change_remount c) (c_remount_mode c) (c_inherit_suppl_gids c)
    (c_keep_suppl_gids c) (c_caps c) (c_use_ambient_caps c) (c_use_uid c) (c_use_gid c) (c_uid c) (c_gid c)
    (c_suppl_gids c) (c_uidmap c) (c_gidmap c) (c_set_uidmap c) (c_set_gidmap c) (c_tmp_size c) (c_filter_path c)
    (c_log_to_stderr c) (c_conf_open c) v (c_entries c) (c_config_path c) (c_fs_path_flag_used c)
    (c_fs_path_rules_enabled c) (c_exit_immediately c) (c_elftype c) (c_preload c) (c_envp c).
Definition put_entries (v : list entry) (c : cli) : cli := Cli (c_jail c) (c_calls c) (c_seccomp c)
    (c_use_seccomp_filter c) (c_use_seccomp_filter_binary c) (c_use_seccomp_log c) (c_forward_signals c)
    (c_have_bind_mounts c) (c_chroot c) (c_pivot_root c) (c_use_mount_ns c) (c_change_remount c) (c_remount_mode c)
    (c_inherit_suppl_gids c) (c_keep_suppl_gids c) (c_caps c) (c_use_ambient_caps c) (c_use_uid c) (c_use_gid c)
    (c_uid c) (c_gid c) (c_suppl_gids c) (c_uidmap c) (c_gidmap c) (c_set_uidmap c) (c_set_gidmap c) (c_tmp_size c)
    (c_filter_path c) (c_log_to_stderr c) (c_conf_open c) (c_parse_mode c) v (c_config_path c) (c_fs_path_flag_used c)
    (c_fs_path_rules_enabled c) (c_exit_immediately c) (c_elftype c) (c_preload c) (c_envp c).
Definition put_config_path (v : option string) (c : cli) : cli := Cli (c_jail c) (c_calls c) (c_seccomp c)
    (c_use_seccomp_filter c) (c_use_seccomp_filter_binary c) (c_use_seccomp_log c) (c_forward_signals c)
    (c_have_bind_mounts c) (c_chroot c) (c_pivot_root c) (c_use_mount_ns c) (c_change_remount c) (c_remount_mode c)
    (c_inherit_suppl_gids c) (c_keep_suppl_gids c) (c_caps c) (c_use_ambient_caps c) (c_use_uid c) (c_use_gid c)
    (c_uid c) (c_gid c) (c_suppl_gids c) (c_uidmap c) (c_gidmap c) (c_set_uidmap c) (c_set_gidmap c) (c_tmp_size c)
    (c_filter_path c) (c_log_to_stderr c) (c_conf_open c) (c_parse_mode c) (c_entries c) v (c_fs_path_flag_used c)
    (c_fs_path_rules_enabled c) (c_exit_immediately c) (c_elftype c) (c_preload c) (c_envp c).
Definition put_fs_path_flag_used (v : bool) (c : cli) : cli := Cli (c_jail c) (c_calls c) (c_seccomp c)
    (c_use_seccomp_filter c) (c_use_seccomp_filter_binary c) (c_use_seccomp_log c) (c_forward_signals c)
    (c_have_bind_mounts c) (c_chroot c) (c_pivot_root c) (c_use_mount_ns c) (c_change_remount c) (c_remount_mode c)
    (c_inherit_suppl_gids c) (c_keep_suppl_gids c) (c_caps c) (c_use_ambient_caps c) (c_use_uid c) (c_use_gid c)
    (c_uid c) (c_gid c) (c_suppl_gids c) (c_uidmap c) (c_gidmap c) (c_set_uidmap c) (c_set_gidmap c) (c_tmp_size c)
    (c_filter_path c) (c_log_to_stderr c) (c_conf_open c) (c_parse_mode c) (c_entries c) (c_config_path c) v
    (c_fs_path_rules_enabled c) (c_exit_immediately c) (c_elftype c) (c_preload c) (c_envp c).
Definition put_fs_path_rules_enabled (v : bool) (c : cli) : cli := Cli (c_jail c) (c_calls c) (c_seccomp c)
    (c_use_seccomp_filter c) (c_use_seccomp_filter_binary c) (c_use_seccomp_log c) (c_forward_signals c)
    (c_have_bind_mounts c) (c_chroot c) (c_pivot_root c) (c_use_mount_ns c) (c_change_remount c) (c_remount_mode c)
    (c_inherit_suppl_gids c) (c_keep_suppl_gids c) (c_caps c) (c_use_ambient_caps c) (c_use_uid c) (c_use_gid c)
    (c_uid c) (c_gid c) (c_suppl_gids c) (c_uidmap c) (c_gidmap c) (c_set_uidmap c) (c_set_gidmap c) (c_tmp_size c)
    (c_filter_path c) (c_log_to_stderr c) (c_conf_open c) (c_parse_mode c) (c_entries c) (c_config_path c)
    (c_fs_path_flag_used c) v (c_exit_immediately c) (c_elftype c) (c_preload c) (c_envp c).
Definition put_exit_immediately (v : bool) (c : cli) : cli := Cli (c_jail c) (c_calls c) (c_seccomp c)
    (c_use_seccomp_filter c) (c_use_seccomp_filter_binary c) (c_use_seccomp_log c) (c_forward_signals c)
    (c_have_bind_mounts c) (c_chroot c) (c_pivot_root c) (c_use_mount_ns c) (c_change_remount c) (c_remount_mode c)
    (c_inherit_suppl_gids c) (c_keep_suppl_gids c) (c_caps c) (c_use_ambient_caps c) (c_use_uid c) (c_use_gid c)
    (c_uid c) (c_gid c) (c_suppl_gids c) (c_uidmap c) (c_gidmap c) (c_set_uidmap c) (c_set_gidmap c) (c_tmp_size c)
    (c_filter_path c) (c_log_to_stderr c) (c_conf_open c) (c_parse_mode c) (c_entries c) (c_config_path c)
    (c_fs_path_flag_used c) (c_fs_path_rules_enabled c) v (c_elftype c) (c_preload c) (c_envp c).
Definition put_elftype (v : elf_type) (c : cli) : cli := Cli (c_jail c) (c_calls c) (c_seccomp c)
    (c_use_seccomp_filter c) (c_use_seccomp_filter_binary c) (c_use_seccomp_log c) (c_forward_signals c)
    (c_have_bind_mounts c) (c_chroot c) (c_pivot_root c) (c_use_mount_ns c) (c_change_remount c) (c_remount_mode c)
    (c_inherit_suppl_gids c) (c_keep_suppl_gids c) (c_caps c) (c_use_ambient_caps c) (c_use_uid c) (c_use_gid c)
    (c_uid c) (c_gid c) (c_suppl_gids c) (c_uidmap c) (c_gidmap c) (c_set_uidmap c) (c_set_gidmap c) (c_tmp_size c)
    (c_filter_path c) (c_log_to_stderr c) (c_conf_open c) (c_parse_mode c) (c_entries c) (c_config_path c)
    (c_fs_path_flag_used c) (c_fs_path_rules_enabled c) (c_exit_immediately c) v (c_preload c) (c_envp c).
Definition put_preload (v : option string) (c : cli) : cli := Cli (c_jail c) (c_calls c) (c_seccomp c)
    (c_use_seccomp_filter c) (c_use_seccomp_filter_binary c) (c_use_seccomp_log c) (c_forward_signals c)
    (c_have_bind_mounts c) (c_chroot c) (c_pivot_root c) (c_use_mount_ns c) (c_change_remount c) (c_remount_mode c)
    (c_inherit_suppl_gids c) (c_keep_suppl_gids c) (c_caps c) (c_use_ambient_caps c) (c_use_uid c) (c_use_gid c)
    (c_uid c) (c_gid c) (c_suppl_gids c) (c_uidmap c) (c_gidmap c) (c_set_uidmap c) (c_set_gidmap c) (c_tmp_size c)
    (c_filter_path c) (c_log_to_stderr c) (c_conf_open c) (c_parse_mode c) (c_entries c) (c_config_path c)
    (c_fs_path_flag_used c) (c_fs_path_rules_enabled c) (c_exit_immediately c) (c_elftype c) v (c_envp c).
Definition put_envp (v : option env) (c : cli) : cli := Cli (c_jail c) (c_calls c) (c_seccomp c) (c_use_seccomp_filter
    c) (c_use_seccomp_filter_binary c) (c_use_seccomp_log c) (c_forward_signals c) (c_have_bind_mounts c) (c_chroot c)
    (c_pivot_root c) (c_use_mount_ns c) (c_change_remount c) (c_remount_mode c) (c_inherit_suppl_gids c)
    (c_keep_suppl_gids c) (c_caps c) (c_use_ambient_caps c) (c_use_uid c) (c_use_gid c) (c_uid c) (c_gid c)
    (c_suppl_gids c) (c_uidmap c) (c_gidmap c) (c_set_uidmap c) (c_set_gidmap c) (c_tmp_size c) (c_filter_path c)
    (c_log_to_stderr c) (c_conf_open c) (c_parse_mode c) (c_entries c) (c_config_path c) (c_fs_path_flag_used c)
    (c_fs_path_rules_enabled c) (c_exit_immediately c) (c_elftype c) (c_preload c) v.
(* 854-889, minijail0.c:22-27 *)
Definition cli_start (preload_path : string) : cli :=  Cli minijail_new [] ST_None false false false true false false
    false false false None false false false false false false 0 0 [] None None false false 0 None (-1)%Z false false
    [] None false true false ELFERROR (Some preload_path) None.

Definition act := cli -> went cli.
Definition then_ (f g : act) : act := fun c => go_on (f c) g.
Notation "f >> g" := (then_ f g) (at level 55, right associativity).
Definition put (f : cli -> cli) : act := fun c => Go (f c).
Definition nothing : act := fun c => Go c.
Definition only_if (b : bool) (f : act) : act := if b then f else nothing.
Definition look {A} (get : cli -> A) (f : A -> act) : act := fun c => f (get c) c.
Definition quit (code : Z) : act := fun _ => Exits code.
Definition refuse_if (b : bool) : act := if b then quit 1 else nothing.
(* a pointer that is dereferenced *)
Definition need (arg : option string) (f : string -> act) : act := match arg with Some s => f s | None => fun _ => Crash end.
(* a call of the library, with its code looked at by [f] *)
Definition lib_then (w : world) (a : api) (f : Z -> act) : act := fun c =>
  match api_step (w_env w) (c_jail c) a with
  | ARet rc j => f rc (put_calls (c_calls c ++ [(a, rc)])%list (put_jail j c))
  | ADie => Aborts
  | AUb => Crash
  end.
Definition lib (w : world) (a : api) : act := lib_then w a (fun _ => nothing).                          (* code ignored *)
Definition lib0 (w : world) (a : api) : act := lib_then w a (fun rc => refuse_if (negb (rc =? 0)%Z)).   (* must be 0 *)
Definition streq (a b : string) : bool := String.eqb a b.
Definition null_or_empty (a : option string) : bool := match a with None | Some EmptyString => true | _ => false end.
Definition is_none {A} (a : option A) : bool := match a with None => true | _ => false end.

(* The value of an id argument, as the library gets it, if it is a number
   (67-69, 91-93, 115-118): strtoul's result is cut to 32 bits. *)
Definition id_number (w : world) (arg : string) : option N :=
  let '(v, rest, _) := strtoul (w_long w) 10 arg in
  if streq rest "" && negb (streq arg "") then Some (v mod 2 ^ 32) else None.
(* 65-87 *)
Definition cli_set_user (w : world) (arg : string) : act :=
  match id_number w arg with
  | Some uid => put (put_uid uid) >> lib w (A_change_uid uid)
  | None =>
      match w_user w arg with
      | None => quit 1
      | Some (u, g) => put (put_uid u) >> put (put_gid g) >> lib0 w (A_change_user arg (inr (u, g)))
      end
  end.
(* 89-106 *)
Definition cli_set_group (w : world) (arg : string) : act :=
  match id_number w arg with
  | Some gid => put (put_gid gid) >> lib w (A_change_gid gid)
  | None =>
      match w_group w arg with
      | None => quit 1
      | Some g => put (put_gid g) >> lib w (A_change_gid g)
      end
  end.
(* 112-139 *)
Definition suppl_group_add (w : world) (arg : string) : act :=
  let add g := look c_suppl_gids (fun l => put (put_suppl_gids (l ++ [g])%list)) in
  match id_number w arg with
  | Some gid => add gid
  | None => match w_group w arg with None => quit 1 | Some g => add g end
  end.
(* 141-149; strtoull of no digits is 0 with end = arg *)
Definition skip_securebits (w : world) (arg : string) : act :=
  let '(v, rest, _) := strtoul 64 16 arg in
  if streq rest "" then lib w (A_skip_setting_securebits v) else quit 1.
(* 151-190.  Shifting by 64 or more is undefined. *)
Fixpoint caps_from (n : nat) (i : N) (flag : N -> cap_flag) (caps : N) : went N :=
  match n with
  | O => Go caps
  | S n =>
      match flag i with
      | CapSet => if i <? 64 then caps_from n (i + 1) flag (N.lor caps (N.shiftl 1 i)) else Crash
      | CapClear | CapUnknown => caps_from n (i + 1) flag caps
      | CapError => Exits 1
      end
  end.
Definition use_caps (w : world) (arg : string) : act :=
  match w_cap_text w arg with
  | Some flag => fun c => go_on (caps_from (S (N.to_nat (w_last_cap w))) 0 flag 0) (fun m => lib w (A_use_caps m) c)
  | None =>
      let '(v, rest, _) := strtoul 64 16 arg in
      if streq rest "" then lib w (A_use_caps v) else quit 1
  end.
(* tokenize(&arg, ",") for an arg that may be NULL *)
Definition token (arg : option string) : option string * option string :=
  match arg with
  | None => (None, None)
  | Some s => let (t, r) := tokenize "," s in (Some t, r)
  end.
(* 192-210 *)
Definition add_binding (w : world) (arg : option string) : act :=
  let (src, arg) := token arg in
  let (dest, arg) := token arg in
  let (flags, arg) := token arg in
  match src with
  | None | Some EmptyString => quit 1
  | Some src =>
      if negb (is_none arg) then quit 1
      else
        let dest := match dest with None | Some EmptyString => src | Some d => d end in
        if null_or_empty flags || match flags with Some f => streq f "0" | None => false end
        then lib0 w (A_bind src dest false (w_realpath w src))
        else if match flags with Some f => streq f "1" | None => false end
        then lib0 w (A_bind src dest true (w_realpath w src))
        else quit 1
  end.
(* 220-237 *)
Definition rlimit_value (w : world) (s : string) : option N :=
  if streq s "unlimited" then Some (2 ^ w_long w - 1)
  else let '(v, rest, _) := strtoul (w_long w) 0 s in if streq rest "" then Some v else None.
(* 212-248 *)
Definition add_rlimit (w : world) (arg : option string) : act :=
  let (type, arg) := token arg in
  let (cur, arg) := token arg in
  let (max, arg) := token arg in
  match type, cur, max with
  | Some type, Some cur, Some max =>
      if streq type "" || streq cur "" || streq max "" || negb (is_none arg) then quit 1
      else match rlimit_value w cur, rlimit_value w max with
           | Some cur, Some max =>
               match parse_single_constant (w_long w) (w_consts w) type with
               | Some v => lib0 w (A_rlimit (to_int (Z.of_N v)) cur max)
               | None => quit 1
               end
           | _, _ => quit 1
           end
  | _, _, _ => quit 1
  end.
(* 250-289.  The data is everything after the fourth comma. *)
Definition add_mount (w : world) (arg : option string) : act :=
  let (src, arg) := token arg in
  let (dest, arg) := token arg in
  let (type, arg) := token arg in
  let (flags, data) := token arg in
  match src, dest, type with
  | Some src, Some dest, Some type =>
      if streq src "" || streq dest "" || streq type "" then quit 1
      else match flags with
           | None | Some EmptyString => lib0 w (A_mount_with_data src dest type 0 data)
           | Some f =>
               match parse_constant (w_long w) (w_consts w) f with
               | POk v => lib0 w (A_mount_with_data src dest type v data)
               | _ => quit 1
               end
           end
  | _, _, _ => quit 1
  end.
(* 291-301: "%d %d 1"; it fits in 32 characters *)
Definition int_text (n : N) : string :=
  let z := to_signed 32 n in
  if (z <? 0)%Z then String "-" (dec (Z.to_N (- z))) else dec (Z.to_N z).
Definition build_idmap (id lowerid : N) : string := (int_text id ++ " " ++ int_text lowerid ++ " 1")%string.
(* 324-369 *)
Definition set_ugid_mapping (w : world) : act :=
  look (fun c => c) (fun c =>
  only_if (c_set_uidmap c)
    (lib w A_namespace_user >> lib w A_namespace_pids >>
     lib0 w (A_uidmap (match c_uidmap c with Some m => m | None => build_idmap (c_uid c) (w_getuid w) end))) >>
  only_if (c_set_gidmap c)
    (lib w A_namespace_user >> lib w A_namespace_pids >>
     only_if (negb (w_cap_setgid w)) (lib w A_namespace_user_disable_setgroups) >>
     lib0 w (A_gidmap (match c_gidmap c with Some m => m | None => build_idmap (c_gid c) (w_getgid w) end)))).
(* 371-390; libminijail.c:944-964 copy the path unless there is one already *)
Definition need_dir (path : option string) (f : string -> act) : act :=
  match path with
  | Some p => f p
  | None => look c_jail (fun j => if is_null (j_chrootdir j) then fun _ => Crash else quit 1)
  end.
Definition use_chroot (w : world) (path : option string) : act :=
  look c_pivot_root refuse_if >> need_dir path (fun p => lib0 w (A_enter_chroot p)) >> put (put_chroot true).
Definition use_pivot_root (w : world) (path : option string) : act :=
  look c_chroot refuse_if >> need_dir path (fun p => lib0 w (A_enter_pivot_root p)) >> lib w A_namespace_vfs >>
  put (put_pivot_root true).
Definition DEFAULT_TMP_SIZE : N := 67108864.
Definition default_tmp : act := look c_tmp_size (fun n => only_if (n =? 0) (put (put_tmp_size DEFAULT_TMP_SIZE))).
(* 392-418 *)
Definition use_profile (w : world) (profile : string) : act :=
  let bind_ro p := lib0 w (A_bind p p false (w_realpath w p)) in
  let full := streq profile "minimalistic-mountns" in
  if full || streq profile "minimalistic-mountns-nodev" then
    lib w A_namespace_vfs >> bind_ro "/"%string >> bind_ro "/proc"%string >>
    only_if full (bind_ro "/dev/log"%string >> lib w A_mount_dev) >>
    default_tmp >> lib w A_remount_proc_readonly >> lib w A_set_using_minimalistic_mountns >>
    use_pivot_root w (Some (w_pivot_dir w))
  else quit 1.
(* 420-434; linux/mount.h *)
Definition remount_flag (mode : string) : option N :=
  if streq mode "shared" then Some 1048576 else if streq mode "private" then Some 262144
  else if streq mode "slave" then Some 524288 else if streq mode "unbindable" then Some 131072 else None.
Definition cli_remount_mode (w : world) (mode : string) : act :=
  match remount_flag mode with Some m => lib w (A_remount_mode m) | None => quit 1 end.

(* 436-459.  The number of instructions is kept in 16 bits. *)
Fixpoint filter_of_bytes (little : bool) (n : nat) (b : list N) : list instr :=
  match n with
  | O => []
  | S n => I (load little (firstn 2 b)) (nth 2 b 0) (nth 3 b 0) (load little (firstn 4 (skipn 4 b)))
           :: filter_of_bytes little n (skipn 8 b)
  end.
Definition read_seccomp_filter (w : world) (path : string) : went (list instr) :=
  match w_bytes w path with
  | None => Exits 1
  | Some b =>
      let size := N.of_nat (length b) in
      if negb (size mod 8 =? 0) then Exits 1
      else Go (filter_of_bytes (h_little (w_host w)) (N.to_nat ((size / 8) mod 65536)) b)
  end.
(* 461-467 *)
Definition cli_set_seccomp_filters (w : world) (path : string) : act := fun c =>
  go_on (read_seccomp_filter w path) (fun prog => lib w (A_set_seccomp_filters prog) c).
Definition default_policy_path : string := "/etc/security/minijail/v0.bin".    (* 470 *)

(* 819-842 *)
Definition set_child_env (w : world) (arg : string) : act :=
  match strsep "="%char arg with
  | (_, None) => quit 1
  | (name, Some value) =>
      look c_envp (fun e =>
        let e := match e with Some e => e | None => minijail_copy_env (Some (w_environ w)) end in
        match minijail_setenv e name value true with
        | (0, e') => put (put_envp (Some e'))
        | _ => quit 1
        end)
  end.

(* The cases of the switch. *)
Inductive opt :=
  | O_u | O_g | O_n | O_s | O_S_ | O_l | O_L | O_b | O_B | O_c | O_C_ | O_k | O_K | O_P | O_f | O_t | O_v | O_V_ | O_r
  | O_G_ | O_y | O_N_ | O_p | O_e | O_i | O_H_ | O_I_ | O_U_ | O_m | O_M_ | O_a | O_R | O_T | O_w | O_Y_ | O_z | O_d
  | O_ambient | O_uts | O_logging | O_profile | O_preload | O_profile_fs | O_fs_default | O_fs_rx | O_fs_ro | O_fs_rw
  | O_fs_adv | O_no_fs | O_no_runtime | O_no_sessions | O_preserve_fd | O_bpf | O_suppl | O_spec | O_config
  | O_gen_config | O_env_add | O_env_reset | O_help | O_other.
Definition opt_codes : list (opt * N) :=
  [(O_u, opt_char "u"); (O_g, opt_char "g"); (O_n, opt_char "n"); (O_s, opt_char "s"); (O_S_, opt_char "S"); (O_l, opt_char "l");
   (O_L, opt_char "L"); (O_b, opt_char "b"); (O_B, opt_char "B"); (O_c, opt_char "c"); (O_C_, opt_char "C"); (O_k, opt_char "k");
   (O_K, opt_char "K"); (O_P, opt_char "P"); (O_f, opt_char "f"); (O_t, opt_char "t"); (O_v, opt_char "v"); (O_V_, opt_char "V");
   (O_r, opt_char "r"); (O_G_, opt_char "G"); (O_y, opt_char "y"); (O_N_, opt_char "N"); (O_p, opt_char "p"); (O_e, opt_char "e");
   (O_i, opt_char "i"); (O_H_, opt_char "H"); (O_I_, opt_char "I"); (O_U_, opt_char "U"); (O_m, opt_char "m"); (O_M_, opt_char "M");
   (O_a, opt_char "a"); (O_R, opt_char "R"); (O_T, opt_char "T"); (O_w, opt_char "w"); (O_Y_, opt_char "Y"); (O_z, opt_char "z");
   (O_d, opt_char "d"); (O_ambient, OPT_AMBIENT); (O_uts, OPT_UTS); (O_logging, OPT_LOGGING); (O_profile, OPT_PROFILE);
   (O_preload, OPT_PRELOAD_LIBRARY); (O_profile_fs, OPT_ENABLE_PROFILE_FS_RESTRICTIONS); (O_fs_default, OPT_FS_DEFAULT_PATHS);
   (O_fs_rx, OPT_FS_PATH_RX); (O_fs_ro, OPT_FS_PATH_RO); (O_fs_rw, OPT_FS_PATH_RW); (O_fs_adv, OPT_FS_PATH_ADVANCED_RW);
   (O_no_fs, OPT_NO_FS_RESTRICTIONS); (O_no_runtime, OPT_NO_DEFAULT_RUNTIME); (O_no_sessions, OPT_NO_NEW_SESSIONS);
   (O_preserve_fd, OPT_PRESERVE_FD); (O_bpf, OPT_SECCOMP_BPF_BINARY); (O_suppl, OPT_ADD_SUPPL_GROUP);
   (O_spec, OPT_ALLOW_SPECULATIVE_EXECUTION); (O_config, OPT_CONFIG); (O_gen_config, OPT_GEN_CONFIG); (O_env_add, OPT_ENV_ADD);
   (O_env_reset, OPT_ENV_RESET); (O_help, opt_char "h")].
Fixpoint opt_of (tbl : list (opt * N)) (n : N) : opt :=
  match tbl with
  | [] => O_other
  | (o, m) :: t => if n =? m then o else opt_of t n
  end.
Definition MS_SLAVE_ : N := 524288.

(* 889-1311: one turn of the loop, for the option [o] with argument [arg]
   (None: optarg is NULL). *)
Definition option_step (w : world) (o : opt) (arg : option string) : act :=
  let unless_parsing f := look c_parse_mode (fun p => only_if (negb p) f) in
  let on_seccomp (t : seccomp_type) := look c_seccomp (fun s => refuse_if (negb (same_type s ST_None) && negb (same_type s t))) >> put (put_seccomp t) in
  match o with
  | O_u => look c_use_uid refuse_if >> put (put_use_uid true) >> unless_parsing (need arg (cli_set_user w))
  | O_g => look c_use_gid refuse_if >> put (put_use_gid true) >> unless_parsing (need arg (cli_set_group w))
  | O_n => lib w A_no_new_privs
  | O_s => on_seccomp ST_Strict >> lib w A_use_seccomp
  | O_S_ => on_seccomp ST_Filter >> lib w A_use_seccomp_filter >> need arg (fun p => put (put_filter_path (Some p))) >> put (put_use_seccomp_filter true)
  | O_l => lib w A_namespace_ipc
  | O_L => look c_seccomp (fun s => refuse_if (same_type s ST_BpfBinaryFilter)) >> put (put_use_seccomp_log true) >> lib w A_log_seccomp_filter_failures
  | O_b => unless_parsing (add_binding w arg) >> put (put_have_bind_mounts true)
  | O_B => need arg (skip_securebits w)
  | O_c => put (put_caps true) >> need arg (use_caps w)
  | O_C_ => use_chroot w arg
  | O_k => unless_parsing (add_mount w arg)
  | O_K => put (put_remount_mode arg) >> put (put_change_remount true)
  | O_P => use_pivot_root w arg
  | O_f => unless_parsing (need arg (fun p => lib0 w (A_write_pid_file p)))
  | O_t =>
      lib w A_namespace_vfs >> default_tmp >>
      match arg with
      | None => nothing
      | Some a => match parse_size a with
                  | SizeOk v => if 2 ^ w_long w - 1 <? v then quit 1 else put (put_tmp_size v)
                  | _ => quit 1
                  end
      end
  | O_v => lib w A_namespace_vfs >> lib w (A_remount_mode MS_SLAVE_) >> put (put_use_mount_ns true)
  | O_V_ => unless_parsing (lib w (A_namespace_enter_vfs (match arg with Some p => w_open w p | None => -1 end)))
  | O_r => lib w A_remount_proc_readonly
  | O_G_ => look c_keep_suppl_gids refuse_if >> lib w A_inherit_usergroups >> put (put_inherit_suppl_gids true)
  | O_y => look c_inherit_suppl_gids refuse_if >> lib w A_keep_supplementary_gids >> put (put_keep_suppl_gids true)
  | O_N_ => lib w A_namespace_cgroups
  | O_p => lib w A_namespace_pids
  | O_e => unless_parsing (match arg with Some p => lib w (A_namespace_enter_net (w_open w p)) | None => lib w A_namespace_net end)
  | O_i => put (put_exit_immediately true)
  | O_H_ => quit 0
  | O_I_ => lib w A_namespace_pids >> lib w A_run_as_init
  | O_U_ => lib w A_namespace_user >> lib w A_namespace_pids
  | O_m => put (put_set_uidmap true) >> put (put_uidmap arg)
  | O_M_ => put (put_set_gidmap true) >> put (put_gidmap arg)
  | O_a => need arg (fun t => lib0 w (A_use_alt_syscall t))
  | O_R => add_rlimit w arg
  | O_T => need arg (fun t => if streq t "static" then put (put_elftype ELFSTATIC)
                              else if streq t "dynamic" then put (put_elftype ELFDYNAMIC) else quit 1)
  | O_w => lib w A_new_session_keyring
  | O_Y_ => lib w A_set_seccomp_filter_tsync
  | O_z => put (put_forward_signals false)
  | O_d => lib w A_namespace_vfs >> lib w A_mount_dev
  | O_ambient => put (put_use_ambient_caps true) >> lib w A_set_ambient_caps
  | O_uts => lib w A_namespace_uts >> match arg with Some n => lib w (A_namespace_set_hostname n) | None => nothing end
  | O_logging => need arg (fun l => if streq l "auto" then put (put_log_to_stderr (-1)) else if streq l "syslog" then put (put_log_to_stderr 0)
                                    else if streq l "stderr" then put (put_log_to_stderr 1) else quit 1)
  | O_profile => need arg (use_profile w)
  | O_preload => put (put_preload arg)
  | O_profile_fs => lib w A_set_enable_profile_fs_restrictions
  | O_fs_default => lib w A_enable_default_fs_restrictions >> put (put_fs_path_flag_used true)
  | O_fs_rx => need arg (fun p => lib w (A_fs_rx p)) >> put (put_fs_path_flag_used true)
  | O_fs_ro => need arg (fun p => lib w (A_fs_ro p)) >> put (put_fs_path_flag_used true)
  | O_fs_rw => need arg (fun p => lib w (A_fs_rw p)) >> put (put_fs_path_flag_used true)
  | O_fs_adv => need arg (fun p => lib w (A_fs_advanced_rw p)) >> put (put_fs_path_flag_used true)
  | O_no_fs => lib w A_disable_fs_restrictions >> put (put_fs_path_rules_enabled false)
  | O_no_runtime => lib w (A_set_enable_default_runtime false)
  | O_no_sessions => lib w (A_set_enable_new_sessions false)
  | O_preserve_fd =>
      need arg (fun a => let '(v, rest, _) := strtol (w_long w) 10 a in
                         if streq rest "" then lib w (A_preserve_fd (to_int v) (to_int v)) else quit 1)
  | O_bpf =>
      look c_seccomp (fun s => refuse_if (negb (same_type s ST_None) && negb (same_type s ST_BpfBinaryFilter))) >>
      look c_use_seccomp_log refuse_if >> put (put_seccomp ST_BpfBinaryFilter) >> lib w A_use_seccomp_filter >>
      need arg (fun p => put (put_filter_path (Some p))) >> put (put_use_seccomp_filter_binary true)
  | O_suppl => need arg (suppl_group_add w)
  | O_spec => lib w A_set_seccomp_filter_allow_speculation
  | O_config => nothing       (* in [cli_options] *)
  | O_gen_config => put (put_parse_mode true) >> need arg (fun p => put (put_config_path (Some p)))
  | O_env_add => need arg (set_child_env w)
  | O_env_reset => put (put_envp (Some []))
  | O_help => quit 0
  | O_other => quit 1
  end.
(* 892-910: the option is recorded first *)
Definition turn (w : world) (n : N) (arg : option string) : act :=
  look c_entries (fun es => put (put_entries (es ++ [(recorded_name n, arg)])%list)) >> option_step w (opt_of opt_codes n) arg.

(* 734-772: the options of a configuration file, up to its end, where it is
   closed; 1239-1242: it may not name another. *)
Fixpoint conf_options (w : world) (es : list entry) : act :=
  match es with
  | [] => put (put_conf_open false)
  | e :: t =>
      match opt_from_conf e with
      | None => quit 1
      | Some (n, arg) =>
          match opt_of opt_codes n with
          | O_config => quit 1
          | _ => turn w n arg >> conf_options w t
          end
      end
  end.
(* 1238-1286, 781-792, 734-745: the file's options come before the rest of the
   command line *)
Definition read_config (w : world) (path : option string) : act :=
  look c_conf_open refuse_if >> put (put_conf_open true) >>
  match path with
  | None => quit 1                           (* fopen(NULL) fails with EFAULT *)
  | Some p =>
      if negb (w_config_ok w p) then quit 1
      else match w_config w p with
           | None => quit 1
           | Some f => match parse_config_file f with
                       | FOk es => conf_options w es
                       | FFail => quit 1
                       | FUb => fun _ => Crash
                       end
           end
  end.
(* 889: the loop *)
Fixpoint cli_options (w : world) (l : list (N * option string)) : act :=
  match l with
  | [] => nothing
  | (n, arg) :: t =>
      turn w n arg >> match opt_of opt_codes n with O_config => read_config w arg | _ => nothing end >> cli_options w t
  end.

(* 1342-1369: --gen-config; the program is not run *)
Definition gen_config (w : world) : act :=
  look (fun c => c) (fun c =>
    match c_config_path c with
    | None => fun _ => Crash
    | Some p => if w_exists w p || negb (w_writable w p) then quit 1 else quit 0
    end).
(* 1313-1502 *)
Definition finish (w : world) (args : list string) : act :=
  look c_log_to_stderr (fun l => only_if (if (l =? -1)%Z then w_tty w else negb (l =? 0)%Z) (lib0 w (A_preserve_fd 2 2))) >>
  look (fun c => c) (fun c => refuse_if (c_fs_path_flag_used c && negb (c_fs_path_rules_enabled c))) >>
  look c_parse_mode (fun p => only_if p (gen_config w)) >>
  look (fun c => c) (fun c => only_if (c_set_uidmap c || c_set_gidmap c) (set_ugid_mapping w)) >>
  look (fun c => c) (fun c => refuse_if (c_use_ambient_caps c && negb (c_caps c))) >>
  look c_forward_signals (fun f => only_if f (lib w A_forward_signals)) >>
  look (fun c => c) (fun c => refuse_if (c_have_bind_mounts c && negb (c_chroot c || c_pivot_root c || c_use_mount_ns c))) >>
  look (fun c => c) (fun c => refuse_if (c_change_remount c && negb (c_use_mount_ns c))) >>
  look (fun c => c) (fun c => only_if (c_change_remount c)
    (match c_remount_mode c with Some m => cli_remount_mode w m | None => lib w A_skip_remount_private end)) >>
  look c_suppl_gids (fun l => match l with [] => nothing | _ => lib w (A_set_supplementary_gids l) end) >>
  look (fun c => c) (fun c =>
    let path := match c_filter_path c with Some p => p | None => ""%string end in
    if c_use_seccomp_filter c then lib w (A_parse_seccomp_filters (w_policy w path))
    else if c_use_seccomp_filter_binary c then cli_set_seccomp_filters w path
    else only_if (hasf F_enable_default_runtime (c_jail c))
      (only_if (w_exists w default_policy_path) (lib w A_use_seccomp_filter >> cli_set_seccomp_filters w default_policy_path) >>
       lib w A_no_new_privs)) >>
  look c_tmp_size (fun n => only_if (negb (n =? 0)) (lib w (A_mount_tmp_size n))) >>
  lib w A_add_minimalistic_mountns_fs_rules >>
  look c_envp (fun e => match e with Some _ => nothing | None => put (put_envp (Some (minijail_copy_env (Some (w_environ w))))) end) >>
  match args with
  | [] => quit 1
  | prog :: _ =>
      look (fun c => c) (fun c =>
        match c_elftype c with
        | ELFERROR =>
            let path := minijail_get_original_path (c_jail c) prog in
            if w_executable w path then put (put_elftype (get_elf_linkage (w_host w) (w_bytes w path))) else quit 1
        | _ => nothing
        end)
  end >>
  look (fun c => c) (fun c => refuse_if (c_caps c && match c_elftype c with ELFSTATIC => true | _ => false end && negb (c_use_ambient_caps c))).
(* 844-1502 *)
Definition parse_args (w : world) (preload_path : string) (opts : list (N * option string)) (args : list string) : went cli :=
  (cli_options w opts >> finish w args) (cli_start preload_path).

(* minijail0.c:20-83, up to the call that runs the program [args]: is the
   preload library used, with which environment (None: the caller's). *)
Record start := Start { st_cli : cli; st_preload : bool; st_env : option env }.
Definition minijail0 (w : world) (preload_path : string) (opts : list (N * option string)) (args : list string) : went start :=
  go_on (parse_args w preload_path opts args) (fun c =>
    if negb (w_setpgid w) then Exits 1
    else match c_elftype c with
    | ELFSTATIC => Go (Start c false None)
    | ELFDYNAMIC =>
        match c_preload c with
        | None => Crash          (* dlopen(NULL) works, strdup(NULL) does not *)
        | Some p =>
            if negb (w_dlopen w p) then Exits 1
            else go_on (lib w (A_set_preload_path p) c) (fun c => Go (Start c true (c_envp c)))
        end
    | ELFERROR => Exits 1
    end).
