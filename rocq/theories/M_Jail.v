(* Model of the configuration API of /repo/libminijail.c (lines 313-1585):
   functions that only change the jail object, with the answers of the
   environment they consult as arguments. *)
From Verif Require Export M_JailRec.
Local Open Scope N_scope.

(* errno values *)
Definition ENOENT : Z := 2.  Definition EINTR : Z := 4.  Definition E2BIG : Z := 7.
Definition ENOMEM : Z := 12. Definition EEXIST : Z := 17. Definition EINVAL : Z := 22.
Definition ERANGE : Z := 34. Definition ENOSYS : Z := 38. Definition ELOOP : Z := 40.

(* mount(2) flags *)
Definition MS_RDONLY : N := 1.        Definition MS_NOSUID : N := 2.
Definition MS_NODEV : N := 4.         Definition MS_NOEXEC : N := 8.
Definition MS_REMOUNT : N := 32.      Definition MS_NOSYMFOLLOW : N := 256.
Definition MS_NOATIME : N := 1024.    Definition MS_NODIRATIME : N := 2048.
Definition MS_BIND : N := 4096.       Definition MS_MOVE : N := 8192.
Definition MS_REC : N := 16384.       Definition MS_UNBINDABLE : N := 131072.
Definition MS_PRIVATE : N := 262144.  Definition MS_SLAVE : N := 524288.
Definition MS_SHARED : N := 1048576.  Definition MS_RELATIME : N := 2097152.

(* landlock.h:80-133, landlock_util.h:36-68 *)
Definition LL_EXECUTE : N := 1.       Definition LL_WRITE_FILE : N := 2.
Definition LL_READ_FILE : N := 4.     Definition LL_READ_DIR : N := 8.
Definition LL_REMOVE_DIR : N := 16.   Definition LL_REMOVE_FILE : N := 32.
Definition LL_MAKE_CHAR : N := 64.    Definition LL_MAKE_DIR : N := 128.
Definition LL_MAKE_REG : N := 256.    Definition LL_MAKE_SOCK : N := 512.
Definition LL_MAKE_FIFO : N := 1024.  Definition LL_MAKE_BLOCK : N := 2048.
Definition LL_MAKE_SYM : N := 4096.   Definition LL_REFER : N := 8192.
Definition ors (l : list N) : N := fold_left N.lor l 0.
Definition ACCESS_FS_ROUGHLY_READ : N := ors [LL_READ_FILE; LL_READ_DIR].
Definition ACCESS_FS_ROUGHLY_READ_EXECUTE : N := ors [LL_EXECUTE; LL_READ_FILE; LL_READ_DIR].
Definition ACCESS_FS_ROUGHLY_BASIC_WRITE : N :=
  ors [LL_WRITE_FILE; LL_REMOVE_DIR; LL_REMOVE_FILE; LL_MAKE_DIR; LL_MAKE_REG].
Definition ACCESS_FS_ROUGHLY_EDIT : N := ors [LL_WRITE_FILE; LL_REMOVE_DIR; LL_REMOVE_FILE].
Definition ACCESS_FS_ROUGHLY_FULL_WRITE : N :=
  ors [LL_WRITE_FILE; LL_REMOVE_DIR; LL_REMOVE_FILE; LL_MAKE_CHAR; LL_MAKE_DIR; LL_MAKE_REG;
       LL_MAKE_SOCK; LL_MAKE_FIFO; LL_MAKE_BLOCK; LL_MAKE_SYM].
Definition ACCESS_FILE : N := ors [LL_EXECUTE; LL_WRITE_FILE; LL_READ_FILE].
Definition HANDLED_ACCESS_TYPES : N :=
  N.lor ACCESS_FS_ROUGHLY_READ_EXECUTE ACCESS_FS_ROUGHLY_FULL_WRITE.

(* What the configuration functions learn about the build and the kernel.
   The kernel's answers are fixed for the life of the process (two of them are
   cached in static variables, system.c:567-586). *)
Record kenv := KEnv {
  k_debug_logging : bool;       (* util.h:218 debug_logging_allowed *)
  k_default_ret_log : bool;     (* util.h:227 seccomp_default_ret_log *)
  k_ret_log : bool;             (* system.c:567 seccomp_ret_log_available *)
  k_kill_process : bool;        (* system.c:577 *)
  k_softfail : bool;            (* util.h seccomp_can_softfail *)
  k_libc_compat : bool;         (* allow_libc_compatibility_syscalls *)
  k_allow_dup : bool;           (* allow_duplicate_syscalls *)
  k_block_symlinks : bool;      (* util.h:236 *)
  k_bind_prefixes : string;     (* BINDMOUNT_ALLOWED_PREFIXES *)
  k_filter_errno : Z;           (* prctl(PR_SET_SECCOMP, FILTER, NULL): errno, 0 = ok *)
  k_tsync_errno : Z;            (* seccomp(SET_MODE_FILTER, TSYNC, NULL) *)
  k_spec_allow : bool;          (* system.c:602 for SPEC_ALLOW *)
  k_landlock_abi : Z;           (* landlock_create_ruleset(NULL, 0, VERSION) *)
  k_landlock_fd : Z             (* landlock_create_ruleset(attr): fd, or -1 *)
}.

(* Outcome of an API call: it returned; it aborted the process (die); the
   behaviour is undefined. *)
Inductive ares := ARet (rc : Z) (j : jail) | ADie | AUb.

(* libminijail.c:234-237 *)
Definition logging_allowed (e : kenv) (j : jail) : bool :=
  k_default_ret_log e || hasf F_seccomp_filter_logging j.

(* libminijail.c:313-335 *)
Definition minijail_preenter (j : jail) : jail :=
  set_remounts [] (set_remount_mode 0
   (clearfs [F_vfs; F_enter_vfs; F_ns_cgroups; F_net; F_net_loopback; F_uts; F_remount_proc_ro;
             F_pids; F_do_init; F_run_as_init; F_pid_file; F_cgroups; F_forward_signals; F_setsid;
             F_using_minimalistic_mountns; F_enable_profile_fs_restrictions;
             F_enable_default_runtime; F_enable_new_sessions] j)).

(* libminijail.c:435-479 *)
Definition preexec_kept : list flag :=
  [F_vfs; F_enter_vfs; F_ns_cgroups; F_net; F_net_loopback; F_uts; F_remount_proc_ro; F_userns;
   F_using_minimalistic_mountns; F_enable_fs_restrictions; F_enable_profile_fs_restrictions;
   F_enable_default_runtime; F_enable_new_sessions].
Fixpoint keep_flags (fs : list flag) (old : jail) (j : jail) : jail :=
  match fs with [] => j | f :: t => keep_flags t old (setf f (hasf f old) j) end.
Definition minijail_preexec (j : jail) : jail :=
  keep_flags preexec_kept j
   (set_flags 0 (set_fs_rules [] (set_mounts []
     (set_preload_path Null (set_suppl_gid_list Null (set_user Null j)))))).

(* libminijail.c:337-353 *)
Definition note_abi (e : kenv) (j : jail) : jail :=
  if (j_fs_rules_landlock_abi j <? 0)%Z && (0 <? k_landlock_abi e)%Z
  then set_fs_rules_landlock_abi (k_landlock_abi e) j else j.
Definition refer_supported (j : jail) : bool := (2 <=? j_fs_rules_landlock_abi j)%Z.

(* libminijail.c:356-378.  The first component is the access mask the ruleset
   is created with (what the kernel will handle). *)
Definition handled_mask (j : jail) : N :=
  if refer_supported j then N.lor HANDLED_ACCESS_TYPES LL_REFER else HANDLED_ACCESS_TYPES.
Definition setup_fs_rules_fd (e : kenv) (j : jail) : N * jail :=
  let j := note_abi e j in (handled_mask j, set_fs_rules_fd (k_landlock_fd e) j).

(* libminijail.c:381-414 *)
Definition add_fs_restriction_path (e : kenv) (path : string) (flags : N) (j : jail) : jail :=
  let j := set_fs_rules (j_fs_rules j ++ [FsRule path flags])%list j in
  let j := if j_fs_rules_count j =? 0 then snd (setup_fs_rules_fd e j) else j in
  set_fs_rules_count (j_fs_rules_count j + 1) j.

(* libminijail.c:483-497 *)
Definition minijail_new : jail :=
  let j := Jail 0 0 0 0 Null 0 Null 0 0 0 0 0 0 0 Null Null Null Null Null Null Null 0 Null Null
    [] 0 0 [] 0 [] 0 (repeat Null MAX_CGROUPS) 0 (repeat (Rlimit 0 0 0) MAX_RLIMITS) 0 0 []
    (repeat (0%Z, 0%Z) MAX_PRESERVED_FDS) 0 Null in
  let j := set_remount_mode MS_PRIVATE j in
  let j := set_fs_rules_fd (-1) j in
  let j := set_fs_rules_landlock_abi (-1) j in
  setf F_enable_new_sessions true (setf F_enable_default_runtime true
    (setf F_enable_profile_fs_restrictions true (setf F_enable_fs_restrictions true
      (setf F_using_minimalistic_mountns false j)))).

Definition flags_on (fs : list flag) (j : jail) : jail := fold_left (fun j f => setf f true j) fs j.
Definition ok (j : jail) : ares := ARet 0 j.
Definition on (fs : list flag) (j : jail) : ares := ok (flags_on fs j).

(* libminijail.c:499-513 *)
Definition minijail_change_uid (uid : N) (j : jail) : ares :=
  if uid =? 0 then ADie else ok (setf F_uid true (set_uid uid j)).
Definition minijail_change_gid (gid : N) (j : jail) : ares :=
  if gid =? 0 then ADie else ok (setf F_gid true (set_gid gid j)).

(* libminijail.c:515-543 *)
Definition minijail_set_supplementary_gids (l : list N) (j : jail) : ares :=
  if hasf F_inherit_suppl_gids j then ADie
  else if hasf F_keep_suppl_gids j then ADie
  else match l with
       | [] => on [F_set_suppl_gids] (set_suppl_gid_count 0 (set_suppl_gid_list Null j))
       | _ => on [F_set_suppl_gids] (set_suppl_gid_count (N.of_nat (length l)) (set_suppl_gid_list (Own l) j))
       end.

(* libminijail.c:550-573; the lookup's answer is an error code or ids. *)
Definition minijail_change_user (name : string) (r : Z + N * N) (j : jail) : ares :=
  match r with
  | inl rc => ARet rc j
  | inr (uid, gid) =>
      match minijail_change_uid uid j with
      | ARet _ j => ok (set_usergid gid (set_user (Own name) j))
      | r => r
      end
  end.
Definition minijail_change_group (r : Z + N) (j : jail) : ares :=
  match r with inl rc => ARet rc j | inr gid => minijail_change_gid gid j end.

(* filter_len > 0 && filter_prog != NULL *)
Definition has_filter (j : jail) : bool :=
  (0 <? j_filter_len j) && match j_filter_prog j with Null => false | _ => true end.

(* libminijail.c:590-643 *)
Definition minijail_set_seccomp_filter_tsync (e : kenv) (j : jail) : ares :=
  if has_filter j then ADie
  else if logging_allowed e j && negb (k_ret_log e) then ADie
  else on [F_seccomp_filter_tsync] j.
Definition minijail_set_seccomp_filter_allow_speculation (j : jail) : ares :=
  if has_filter j then ADie else on [F_seccomp_filter_allow_speculation] j.
Definition minijail_log_seccomp_filter_failures (e : kenv) (j : jail) : ares :=
  if has_filter j then ADie
  else if hasf F_seccomp_filter_tsync j && negb (k_ret_log e) then ADie
  else if k_debug_logging e then on [F_seccomp_filter_logging] j else ok j.

(* libminijail.c:714-729 *)
Definition minijail_enable_default_fs_restrictions (e : kenv) (j : jail) : jail :=
  fold_left (fun j p => add_fs_restriction_path e (fst p) (snd p) j)
   ([("/lib", ACCESS_FS_ROUGHLY_READ_EXECUTE); ("/lib64", ACCESS_FS_ROUGHLY_READ_EXECUTE);
     ("/usr/lib", ACCESS_FS_ROUGHLY_READ_EXECUTE); ("/usr/lib64", ACCESS_FS_ROUGHLY_READ_EXECUTE);
     ("/bin", ACCESS_FS_ROUGHLY_READ_EXECUTE); ("/sbin", ACCESS_FS_ROUGHLY_READ_EXECUTE);
     ("/usr/sbin", ACCESS_FS_ROUGHLY_READ_EXECUTE); ("/usr/bin", ACCESS_FS_ROUGHLY_READ_EXECUTE);
     ("/etc/group", ACCESS_FS_ROUGHLY_READ); ("/etc/passwd", ACCESS_FS_ROUGHLY_READ)]%string) j.

(* libminijail.c:1076-1116 *)
Definition fs_rw_mask : N := N.lor ACCESS_FS_ROUGHLY_READ ACCESS_FS_ROUGHLY_BASIC_WRITE.
Definition fs_edit_mask : N := N.lor ACCESS_FS_ROUGHLY_READ ACCESS_FS_ROUGHLY_EDIT.
Definition minijail_add_fs_restriction_advanced_rw (e : kenv) (path : string) (j : jail) : jail :=
  let j := note_abi e j in
  let fl := N.lor ACCESS_FS_ROUGHLY_READ ACCESS_FS_ROUGHLY_FULL_WRITE in
  add_fs_restriction_path e path (if refer_supported j then N.lor fl LL_REFER else fl) j.

(* libminijail.c:416-429 *)
Definition has_bit (flags bit : N) : bool := negb (N.land flags bit =? 0).
Definition mount_has_bind_flag (m : mountpoint) : bool := has_bit (m_flags m) MS_BIND.
Definition mount_has_readonly_flag (m : mountpoint) : bool := has_bit (m_flags m) MS_RDONLY.
Definition mount_events_allowed (m : mountpoint) : bool :=
  has_bit (m_flags m) MS_SHARED || has_bit (m_flags m) MS_SLAVE.

(* libminijail.c:685-712 *)
Definition minimalistic_rules (e : kenv) (ms : list mountpoint) (j : jail) : jail :=
  fold_left (fun j m =>
    let j := add_fs_restriction_path e (m_dest m) ACCESS_FS_ROUGHLY_READ_EXECUTE j in
    if negb (mount_has_readonly_flag m) || mount_events_allowed m
    then minijail_add_fs_restriction_advanced_rw e (m_dest m) j else j) ms j.
Definition minijail_add_minimalistic_mountns_fs_rules (e : kenv) (j : jail) : jail :=
  if negb (hasf F_using_minimalistic_mountns j) || negb (hasf F_enable_profile_fs_restrictions j) then j
  else match j_mounts j with
       | [] => j
       | ms =>
           let j := minimalistic_rules e ms j in
           let j := minijail_enable_default_fs_restrictions e j in
           let j := add_fs_restriction_path e "/dev" fs_edit_mask j in
           let j := add_fs_restriction_path e "/proc" ACCESS_FS_ROUGHLY_READ j in
           if hasf F_vfs j then add_fs_restriction_path e "/tmp" fs_rw_mask j else j
       end.

(* libminijail.c:731-765 *)
Definition minijail_use_caps (capmask : N) (j : jail) : ares :=
  let j := if hasf F_capbset_drop j then setf F_capbset_drop false (set_cap_bset 0 j) else j in
  on [F_use_caps] (set_caps capmask j).
Definition minijail_capbset_drop (capmask : N) (j : jail) : ares :=
  if hasf F_use_caps j then ADie else on [F_capbset_drop] (set_cap_bset capmask j).

(* libminijail.c:787-796, 867-876; the descriptor open(2) returned *)
Definition minijail_namespace_enter_vfs (fd : Z) (j : jail) : ares :=
  if (fd <? 0)%Z then ADie else on [F_enter_vfs] (set_mountns_fd fd j).
Definition minijail_namespace_enter_net (fd : Z) (j : jail) : ares :=
  if (fd <? 0)%Z then ADie else on [F_enter_net] (set_netns_fd fd j).

Definition is_null {A} (c : cell A) : bool := match c with Null => true | _ => false end.
(* libminijail.c:844-853, 944-964, 1333-1341 *)
Definition minijail_namespace_set_hostname (name : string) (j : jail) : ares :=
  if negb (is_null (j_hostname j)) then ARet (- EINVAL) j
  else ok (set_hostname (Own name) (setf F_uts true j)).
Definition minijail_enter_chroot (dir : string) (j : jail) : ares :=
  if negb (is_null (j_chrootdir j)) then ARet (- EINVAL) j
  else ok (setf F_chroot true (set_chrootdir (Own dir) j)).
Definition minijail_enter_pivot_root (dir : string) (j : jail) : ares :=
  if negb (is_null (j_chrootdir j)) then ARet (- EINVAL) j
  else ok (setf F_pivot_root true (set_chrootdir (Own dir) j)).
Definition minijail_set_preload_path (p : string) (j : jail) : ares :=
  if negb (is_null (j_preload_path j)) then ARet (- EINVAL) j
  else ok (set_preload_path (Own p) j).

(* libminijail.c:855-865 *)
Definition minijail_namespace_net_loopback (b : bool) (j : jail) : ares :=
  ok (setf F_net_loopback b (setf F_net true j)).

(* libminijail.c:904-928: commas become newlines *)
Fixpoint commas_to_newlines (s : string) : string :=
  match s with
  | EmptyString => EmptyString
  | String c r => String (if Ascii.eqb c ","%char then c_nl else c) (commas_to_newlines r)
  end.

(* libminijail.c:966-1006 *)
Fixpoint original_in_mounts (ms : list mountpoint) (p : string) : option string :=
  match ms with
  | [] => None
  | b :: t =>
      if String.eqb (m_dest b) p then Some (m_src b)
      else if has_prefix (m_dest b) p
           then Some (path_join (m_src b) (sdrop (String.length (m_dest b)) p))
           else original_in_mounts t p
  end.
Definition minijail_get_original_path (j : jail) (p : string) : string :=
  match original_in_mounts (j_mounts j) p with
  | Some r => r
  | None => match j_chrootdir j with Own d => path_join d p | _ => p end
  end.

(* libminijail.c:1018-1031 *)
Definition minijail_mount_tmp_size (size : N) (j : jail) : ares := on [F_mount_tmp] (set_tmpfs_size size j).
Definition minijail_write_pid_file (path : string) (j : jail) : ares :=
  on [F_pid_file] (set_pid_file_path (Own path) j).

(* libminijail.c:1033-1043 *)
Definition minijail_add_to_cgroup (path : string) (j : jail) : ares :=
  if N.of_nat MAX_CGROUPS <=? j_cgroup_count j then ARet (- ENOMEM) j
  else
    let j := set_cgroups (set_nth (N.to_nat (j_cgroup_count j)) (Own path) (j_cgroups j)) j in
    on [F_cgroups] (set_cgroup_count (j_cgroup_count j + 1) j).

(* libminijail.c:1045-1062 *)
Definition minijail_rlimit (type : Z) (cur max : N) (j : jail) : ares :=
  if N.of_nat MAX_RLIMITS <=? j_rlimit_count j then ARet (- ENOMEM) j
  else if existsb (fun r => (rl_type r =? type)%Z) (firstn (N.to_nat (j_rlimit_count j)) (j_rlimits j))
  then ARet (- EEXIST) j
  else
    let j := set_rlimits (set_nth (N.to_nat (j_rlimit_count j)) (Rlimit type cur max) (j_rlimits j)) j in
    ok (set_rlimit_count (j_rlimit_count j + 1) j).

(* system.c:608-625; [rp] is the answer of realpath(3) *)
Definition is_canonical_path (path : string) (rp : option string) : bool :=
  match rp with
  | None => false
  | Some rp => String.eqb path rp || String.eqb path (rp ++ "/")%string
  end.
(* libminijail.c:1140-1148: is the path below one of the prefixes? *)
Fixpoint under_prefix (prefixes : list string) (path : string) : bres :=
  match prefixes with
  | [] => BVal false
  | p :: t => match path_is_parent p path with
              | BVal true => BVal true
              | BVal false => under_prefix t path
              | BUb => BUb
              end
  end.
(* libminijail.c:1124-1159 *)
Definition is_valid_bind_path (e : kenv) (path : string) (rp : option string) : bres :=
  if negb (k_block_symlinks e) then BVal true
  else if is_canonical_path path rp then BVal true
  else under_prefix (tokens "," (k_bind_prefixes e)) path.

(* libminijail.c:1161-1231 *)
Definition starts_slash (s : string) : bool := has_prefix "/" s.
Definition tmpfs_default : string := "mode=0755,size=10M".
Definition SAFE_FLAGS : N := ors [MS_NODEV; MS_NOEXEC; MS_NOSUID].
Definition minijail_mount_with_data (src dest type : string) (flags : N) (data : option string)
  (j : jail) : ares :=
  if negb (starts_slash dest) then ARet (- EINVAL) j
  else
    let data := match data with
                | None | Some EmptyString => if String.eqb type "tmpfs" then Some tmpfs_default else data
                | _ => data
                end in
    let flags := if flags =? 0 then SAFE_FLAGS else flags in
    let j := if hasf F_enter_vfs j then j else setf F_vfs true j in
    let j := set_mounts (j_mounts j ++ [Mount src dest type data flags])%list j in
    ok (set_mounts_count (j_mounts_count j + 1) j).
(* libminijail.c:1233-1237 *)
Definition minijail_mount (src dest type : string) (flags : N) (j : jail) : ares :=
  minijail_mount_with_data src dest type flags None j.
(* libminijail.c:1239-1268 *)
Definition minijail_bind (e : kenv) (src dest : string) (writeable : bool) (rp : option string)
  (j : jail) : ares :=
  match is_valid_bind_path e src rp with
  | BUb => AUb
  | BVal false => ARet (- ELOOP) j
  | BVal true =>
      minijail_mount src dest "minijail_bind" (if writeable then MS_BIND else N.lor MS_BIND MS_RDONLY) j
  end.

(* libminijail.c:1270-1331 *)
Definition minijail_add_remount (name : string) (mode : N) (j : jail) : ares :=
  if negb (starts_slash name) then ARet (- EINVAL) j
  else ok (set_remounts (j_remounts j ++ [Remount mode name])%list j).
Definition HOOK_PRE_DROP_CAPS : N := 0.
Definition HOOK_PRE_EXECVE : N := 1.
Definition HOOK_PRE_CHROOT : N := 2.
Definition HOOK_MAX : N := 3.
Definition minijail_add_hook (fn payload event : N) (j : jail) : ares :=
  if HOOK_MAX <=? event then ARet (- EINVAL) j
  else ok (set_hooks (j_hooks j ++ [Hook fn payload event])%list j).
Definition minijail_preserve_fd (parent child : Z) (j : jail) : ares :=
  if (parent <? 0)%Z || (child <? 0)%Z then ARet (- EINVAL) j
  else if N.of_nat MAX_PRESERVED_FDS <=? j_preserved_fd_count j then ARet (- ENOMEM) j
  else
    let j := set_preserved_fds (set_nth (N.to_nat (j_preserved_fd_count j)) (parent, child) (j_preserved_fds j)) j in
    ok (set_preserved_fd_count (j_preserved_fd_count j + 1) j).

(* libminijail.c:1343-1356 *)
Definition clear_seccomp_options (j : jail) : jail :=
  set_seccomp_policy_path Null (set_filter_prog Null (set_filter_len 0
   (clearfs [F_seccomp_filter; F_seccomp_filter_tsync; F_seccomp_filter_logging;
             F_seccomp_filter_allow_speculation; F_no_new_privs] j))).

(* libminijail.c:1358-1413 *)
Definition seccomp_should_use_filters (e : kenv) (j : jail) : bool * jail :=
  if (k_filter_errno e =? EINVAL)%Z && k_softfail e then (false, clear_seccomp_options j)
  else if hasf F_seccomp_filter_tsync j && k_softfail e
          && ((k_tsync_errno e =? ENOSYS)%Z || (k_tsync_errno e =? EINVAL)%Z)
  then (false, clear_seccomp_options j)
  else if hasf F_seccomp_filter_allow_speculation j && negb (k_spec_allow e)
  then (true, setf F_seccomp_filter_allow_speculation false j)
  else (true, j).

(* libminijail.c:1415-1449 *)
Definition set_seccomp_filters_internal (prog : list instr) (j : jail) : jail :=
  set_filter_prog (Own prog) (set_filter_len (N.of_nat (length prog)) j).

(* libminijail.c:1458-1497: the options given to the compiler *)
Definition filter_options (e : kenv) (j : jail) : fopts :=
  let logging := k_debug_logging e && logging_allowed e j in
  let action :=
    if logging then (if k_ret_log e then ACT_LOG else ACT_TRAP)
    else if hasf F_seccomp_filter_tsync j
         then (if k_kill_process e then ACT_KILL_PROCESS else ACT_TRAP)
         else ACT_KILL in
  FOpts action logging (logging && negb (k_ret_log e)) (k_allow_dup e) (k_libc_compat e).

(* libminijail.c:1451-1505, 1507-1555.  The policy source: build tables, files
   for includes, the stream (None: it could not be opened), and the path
   recorded for logging (None: unknown, from_fd only). *)
Record policy_source := PolicySource {
  ps_build : build; ps_files : files; ps_stream : option stream; ps_path : option string }.
Definition minijail_parse_seccomp_filters (e : kenv) (s : policy_source) (j : jail) : ares :=
  let (use, j) := seccomp_should_use_filters e j in
  if negb use then ok j
  else match ps_stream s with
  | None => ADie
  | Some st =>
      match compile_filter (ps_build s) (filter_options e j) (ps_files s) (Some st) with
      | COk prog => ok (set_seccomp_policy_path (match ps_path s with Some p => Own p | None => Null end)
                          (set_seccomp_filters_internal prog j))
      | CUb => AUb
      | _ => ADie
      end
  end.

(* libminijail.c:1557-1576 *)
Definition minijail_set_seccomp_filters (e : kenv) (prog : list instr) (j : jail) : ares :=
  let (use, j) := seccomp_should_use_filters e j in
  if negb use then ok j
  else if logging_allowed e j then ADie
  else ok (set_seccomp_filters_internal prog j).

(* libminijail.c:1578-1585 *)
Definition minijail_use_alt_syscall (table : string) (j : jail) : ares :=
  on [F_alt_syscall] (set_alt_syscall_table (Own table) j).

(* All configuration calls of libminijail.h, with the answers of the
   environment they consult. *)
Inductive api :=
  | A_change_uid (uid : N) | A_change_gid (gid : N)
  | A_set_supplementary_gids (l : list N) | A_keep_supplementary_gids
  | A_change_user (name : string) (r : Z + N * N) | A_change_group (name : string) (r : Z + N)
  | A_use_seccomp | A_no_new_privs | A_use_seccomp_filter
  | A_set_seccomp_filter_tsync | A_set_seccomp_filter_allow_speculation
  | A_log_seccomp_filter_failures
  | A_parse_seccomp_filters (s : policy_source) | A_set_seccomp_filters (prog : list instr)
  | A_use_alt_syscall (table : string)
  | A_set_using_minimalistic_mountns | A_set_enable_new_sessions (b : bool)
  | A_set_enable_default_runtime (b : bool) | A_disable_fs_restrictions
  | A_set_enable_profile_fs_restrictions | A_add_minimalistic_mountns_fs_rules
  | A_enable_default_fs_restrictions
  | A_use_caps (mask : N) | A_capbset_drop (mask : N) | A_set_ambient_caps
  | A_reset_signal_mask | A_reset_signal_handlers
  | A_namespace_vfs | A_namespace_enter_vfs (fd : Z) | A_new_session_keyring
  | A_skip_setting_securebits (mask : N) | A_remount_mode (mode : N) | A_skip_remount_private
  | A_namespace_pids | A_namespace_pids_rw_proc | A_namespace_ipc | A_namespace_uts
  | A_namespace_set_hostname (name : string)
  | A_namespace_net_loopback (b : bool) | A_namespace_net | A_namespace_enter_net (fd : Z)
  | A_namespace_cgroups | A_close_open_fds | A_remount_proc_readonly
  | A_namespace_user | A_namespace_user_disable_setgroups
  | A_uidmap (s : string) | A_gidmap (s : string)
  | A_inherit_usergroups | A_run_as_init
  | A_enter_chroot (dir : string) | A_enter_pivot_root (dir : string)
  | A_mount_dev | A_mount_tmp | A_mount_tmp_size (size : N)
  | A_write_pid_file (path : string) | A_add_to_cgroup (path : string)
  | A_rlimit (type : Z) (cur max : N) | A_forward_signals | A_create_session
  | A_fs_rx (p : string) | A_fs_ro (p : string) | A_fs_rw (p : string)
  | A_fs_advanced_rw (p : string) | A_fs_edit (p : string) | A_fs_access_rights (p : string) (fl : N)
  | A_mount_with_data (src dest type : string) (flags : N) (data : option string)
  | A_mount (src dest type : string) (flags : N)
  | A_bind (src dest : string) (writeable : bool) (rp : option string)
  | A_add_remount (name : string) (mode : N) | A_add_hook (fn payload event : N)
  | A_preserve_fd (parent child : Z) | A_set_preload_path (p : string).

(* The simple setters are libminijail.c:545-548, 575-588, 645-683, 767-819,
   819-842, 862-902, 930-942, 1008-1016, 1064-1074. *)
Definition api_step (e : kenv) (j : jail) (a : api) : ares :=
  match a with
  | A_change_uid uid => minijail_change_uid uid j
  | A_change_gid gid => minijail_change_gid gid j
  | A_set_supplementary_gids l => minijail_set_supplementary_gids l j
  | A_keep_supplementary_gids => on [F_keep_suppl_gids] j
  | A_change_user n r => minijail_change_user n r j
  | A_change_group _ r => minijail_change_group r j
  | A_use_seccomp => on [F_seccomp] j
  | A_no_new_privs => on [F_no_new_privs] j
  | A_use_seccomp_filter => on [F_seccomp_filter] j
  | A_set_seccomp_filter_tsync => minijail_set_seccomp_filter_tsync e j
  | A_set_seccomp_filter_allow_speculation => minijail_set_seccomp_filter_allow_speculation j
  | A_log_seccomp_filter_failures => minijail_log_seccomp_filter_failures e j
  | A_parse_seccomp_filters s => minijail_parse_seccomp_filters e s j
  | A_set_seccomp_filters p => minijail_set_seccomp_filters e p j
  | A_use_alt_syscall t => minijail_use_alt_syscall t j
  | A_set_using_minimalistic_mountns => on [F_using_minimalistic_mountns] j
  | A_set_enable_new_sessions b => ok (setf F_enable_new_sessions b j)
  | A_set_enable_default_runtime b => ok (setf F_enable_default_runtime b j)
  | A_disable_fs_restrictions => ok (setf F_enable_fs_restrictions false j)
  | A_set_enable_profile_fs_restrictions => on [F_enable_profile_fs_restrictions] j
  | A_add_minimalistic_mountns_fs_rules => ok (minijail_add_minimalistic_mountns_fs_rules e j)
  | A_enable_default_fs_restrictions => ok (minijail_enable_default_fs_restrictions e j)
  | A_use_caps m => minijail_use_caps m j
  | A_capbset_drop m => minijail_capbset_drop m j
  | A_set_ambient_caps => on [F_set_ambient_caps] j
  | A_reset_signal_mask => on [F_reset_signal_mask] j
  | A_reset_signal_handlers => on [F_reset_signal_handlers] j
  | A_namespace_vfs => on [F_vfs] j
  | A_namespace_enter_vfs fd => minijail_namespace_enter_vfs fd j
  | A_new_session_keyring => on [F_new_session_keyring] j
  | A_skip_setting_securebits m => ok (set_securebits_skip_mask m j)
  | A_remount_mode m => ok (set_remount_mode m j)
  | A_skip_remount_private => ok (set_remount_mode 0 j)
  | A_namespace_pids => on [F_vfs; F_remount_proc_ro; F_pids; F_do_init] j
  | A_namespace_pids_rw_proc => on [F_vfs; F_pids; F_do_init] j
  | A_namespace_ipc => on [F_ipc] j
  | A_namespace_uts => on [F_uts] j
  | A_namespace_set_hostname n => minijail_namespace_set_hostname n j
  | A_namespace_net_loopback b => minijail_namespace_net_loopback b j
  | A_namespace_net => minijail_namespace_net_loopback true j
  | A_namespace_enter_net fd => minijail_namespace_enter_net fd j
  | A_namespace_cgroups => on [F_ns_cgroups] j
  | A_close_open_fds => on [F_close_open_fds] j
  | A_remount_proc_readonly => on [F_vfs; F_remount_proc_ro] j
  | A_namespace_user => on [F_userns] j
  | A_namespace_user_disable_setgroups => on [F_disable_setgroups] j
  | A_uidmap s => ok (set_uidmap (Own (commas_to_newlines s)) j)
  | A_gidmap s => ok (set_gidmap (Own (commas_to_newlines s)) j)
  | A_inherit_usergroups => on [F_inherit_suppl_gids] j
  | A_run_as_init => on [F_run_as_init] j
  | A_enter_chroot d => minijail_enter_chroot d j
  | A_enter_pivot_root d => minijail_enter_pivot_root d j
  | A_mount_dev => on [F_mount_dev] j
  | A_mount_tmp => minijail_mount_tmp_size 67108864 j
  | A_mount_tmp_size n => minijail_mount_tmp_size n j
  | A_write_pid_file p => minijail_write_pid_file p j
  | A_add_to_cgroup p => minijail_add_to_cgroup p j
  | A_rlimit t c m => minijail_rlimit t c m j
  | A_forward_signals => on [F_forward_signals] j
  | A_create_session => on [F_setsid] j
  | A_fs_rx p => ARet 1 (add_fs_restriction_path e p ACCESS_FS_ROUGHLY_READ_EXECUTE j)
  | A_fs_ro p => ARet 1 (add_fs_restriction_path e p ACCESS_FS_ROUGHLY_READ j)
  | A_fs_rw p => ARet 1 (add_fs_restriction_path e p fs_rw_mask j)
  | A_fs_advanced_rw p => ARet 1 (minijail_add_fs_restriction_advanced_rw e p j)
  | A_fs_edit p => ARet 1 (add_fs_restriction_path e p fs_edit_mask j)
  | A_fs_access_rights p fl => ARet 1 (add_fs_restriction_path e p fl j)
  | A_mount_with_data s d t f x => minijail_mount_with_data s d t f x j
  | A_mount s d t f => minijail_mount s d t f j
  | A_bind s d w rp => minijail_bind e s d w rp j
  | A_add_remount n m => minijail_add_remount n m j
  | A_add_hook f p ev => minijail_add_hook f p ev j
  | A_preserve_fd p c => minijail_preserve_fd p c j
  | A_set_preload_path p => minijail_set_preload_path p j
  end.

(* A history: the calls in order; None when one of them ended the process. *)
Fixpoint api_run (e : kenv) (j : jail) (l : list api) : option jail :=
  match l with
  | [] => Some j
  | a :: t => match api_step e j a with ARet _ j' => api_run e j' t | _ => None end
  end.
