(* Model of minijail_enter and the functions it calls:
   libminijail.c:1930-2993, system.c:85-149 and 186-432, landlock_util.c:36-62.
   Simplifications: messages are dropped; malloc and asprintf succeed; the
   Android variant of get_last_valid_cap (system.c:199-208) is not modelled. *)
From Verif Require Export M_Io.
Local Open Scope N_scope.
Local Open Scope io_scope.

(* Compile-time choices. *)
Record cfg := Cfg {
  g_env : kenv;                  (* those the configuration API consults too *)
  g_asan : bool;                 (* util.h:203-216 running_with_asan *)
  g_tmp_nosymfollow : bool;      (* util.h:245-252 *)
  g_secure_all_bits : N          (* SECURE_ALL_BITS of <linux/securebits.h> *)
}.

Definition CLONE_NEWNS : N := 131072.       Definition CLONE_NEWCGROUP : N := 33554432.
Definition CLONE_NEWUTS : N := 67108864.    Definition CLONE_NEWIPC : N := 134217728.
Definition CLONE_NEWNET : N := 1073741824.
Definition EPERM : Z := 1.

(* ---- system.c ---- *)
(* <linux/securebits.h>, system.c:27-79 *)
Definition SECBIT_NOROOT : N := 1.          Definition SECBIT_NOROOT_LOCKED : N := 2.
Definition SECBIT_KEEP_CAPS : N := 16.      Definition SECBIT_KEEP_CAPS_LOCKED : N := 32.
Definition SECBIT_NO_CAP_AMBIENT_RAISE : N := 64.
Definition SECBIT_NO_CAP_AMBIENT_RAISE_LOCKED : N := 128.
Definition SECURE_6_14 : N := 3840.         (* bits 8 to 11: both bits and both locks *)
Definition SECURE_ALL_LOCKS (g : cfg) : N := N.shiftl (g_secure_all_bits g) 1.

(* system.c:85-89, of ~skip_mask *)
Definition noroot_kept (skip : N) : bool :=
  N.land skip (N.lor SECBIT_NOROOT SECBIT_NOROOT_LOCKED) =? 0.

(* system.c:91-149; the result is 0 or -1 *)
Definition initial_securebits (g : cfg) : N := N.lor (g_secure_all_bits g) (SECURE_ALL_LOCKS g).
Definition set_securebits_retry (bits : N) : io Z :=
  x <- ask (C_set_securebits bits);;
  match x with
  | Yes _ _ => Pure 0%Z
  | No e =>
      if is_err e EPERM && negb (N.land bits SECURE_6_14 =? 0)
      then rc (C_set_securebits (N.ldiff bits SECURE_6_14))
      else Pure (-1)%Z
  end.
Definition lock_securebits_with (bits : N) (skip : N) : io Z :=
  let bits := N.ldiff bits (N.lor SECBIT_NO_CAP_AMBIENT_RAISE SECBIT_NO_CAP_AMBIENT_RAISE_LOCKED) in
  let bits := N.ldiff bits skip in
  if bits =? 0 then Pure 0%Z else set_securebits_retry bits.
Definition lock_securebits (g : cfg) (skip : N) (require_keep_caps : bool) : io Z :=
  if require_keep_caps then lock_securebits_with (initial_securebits g) skip
  else x <- ask C_get_securebits;;
       match x with
       | No _ => Pure (-1)%Z
       | Yes cur _ =>
           let locked_off := negb (N.land cur SECBIT_KEEP_CAPS_LOCKED =? 0) && (N.land cur SECBIT_KEEP_CAPS =? 0) in
           lock_securebits_with (if locked_off then N.ldiff (initial_securebits g) SECBIT_KEEP_CAPS
                                 else initial_securebits g) skip
       end.

(* system.c:196-222 *)
Definition get_last_valid_cap : io N :=
  x <- ask C_last_cap;;
  match x with
  | No _ => Abort
  | Yes n _ => if 64 <? n then Abort else Pure n
  end.

(* system.c:230-263; every result is ignored by the caller *)
Definition config_net_loopback : io unit :=
  x <- ask C_socket;;
  match x with
  | No _ => Pure tt
  | Yes fd _ =>
      x <- ask (C_get_lo (Z.of_N fd));;
      match x with No _ => Pure tt | Yes _ _ => try (C_set_lo_up (Z.of_N fd)) end;;
      try (C_close (Z.of_N fd))
  end.

(* system.c:292-327.  The strings given to mkdir(2) before the last one: the
   text before each slash, the first character excepted.  An empty path is read
   past its end. *)
Fixpoint dir_prefixes (seen rest : string) : list string :=
  match rest with
  | EmptyString => []
  | String c r =>
      let t := dir_prefixes (seen ++ String c EmptyString) r in
      if Ascii.eqb c "/"%char then seen :: t else t
  end.
Definition mkdir_or_exists (path : string) (mode : N) : io Z :=
  x <- ask (C_mkdir path mode);;
  match x with
  | Yes _ _ => Pure 0%Z
  | No e => if is_err e EEXIST then Pure 0%Z else Pure (Z.neg e)
  end.
Fixpoint mkdirs (l : list string) (mode : N) : io Z :=
  match l with
  | [] => Pure 0%Z
  | p :: t => andthen (mkdir_or_exists p mode) (mkdirs t mode)
  end.
Definition mkdir_p (path : string) (mode : N) (isdir : bool) : io Z :=
  match path with
  | EmptyString => Undef
  | String c r =>
      andthen (mkdirs (dir_prefixes (String c EmptyString) r) mode)
              (if isdir then mkdir_or_exists path mode else Pure 0%Z)
  end.

(* <sys/stat.h> *)
Definition S_IFMT : N := 61440.
Definition s_isdir (mode : N) : bool := N.land mode S_IFMT =? 16384.
Definition s_isblk (mode : N) : bool := N.land mode S_IFMT =? 24576.
Definition s_ischr (mode : N) : bool := N.land mode S_IFMT =? 8192.

(* system.c:352-432 *)
Definition make_destination (dest : string) (uid gid : N) (domkdir : bool) : io Z :=
  andthen (mkdir_p dest 493 domkdir)                      (* 0755 *)
 (andthen (if domkdir then Pure 0%Z
           else x <- ask (C_open dest Create);;
                match x with
                | No e => Pure (Z.neg e)
                | Yes fd _ => try (C_close (Z.of_N fd));; Pure 0%Z
                end)
          (neg_errno (C_chown dest uid gid))).
Definition setup_mount_destination (source dest : string) (uid gid : N) (bind : bool) : io Z :=
  x <- ask (C_stat dest);;
  match x with
  | Yes _ _ => Pure 0%Z
  | No _ =>
      if starts_slash source then
        x <- ask (C_stat source);;
        match x with
        | No e => Pure (Z.neg e)
        | Yes mode _ =>
            make_destination dest uid gid
              (s_isdir mode || (negb bind && (s_isblk mode || s_ischr mode)))
        end
      else if bind then Pure (- EINVAL)%Z
      else make_destination dest uid gid true
  end.

(* ---- landlock_util.c:36-62; the result is ignored by the only caller here ---- *)
Definition populate_ruleset_internal (path : string) (ruleset : Z) (access : N) : io unit :=
  x <- ask (C_open path PathOnly);;
  match x with
  | No _ => Pure tt
  | Yes fd _ =>
      x <- ask (C_fstat (Z.of_N fd));;
      match x with
      | No _ => Pure tt
      | Yes mode _ =>
          try (C_landlock_add ruleset (Z.of_N fd)
                 (if s_isdir mode then access else N.land access ACCESS_FILE))
      end;;
      try (C_close (Z.of_N fd))
  end.

(* ---- libminijail.c ---- *)
(* 1936-1985 *)
Definition S_IFCHR : N := 8192.
Definition device_nodes : list (string * N * N * N) :=
  [("null", S_IFCHR + 438, 1, 3); ("zero", S_IFCHR + 438, 1, 5); ("full", S_IFCHR + 438, 1, 7);
   ("urandom", S_IFCHR + 292, 1, 9); ("tty", S_IFCHR + 438, 5, 0)]%string.
Definition device_symlinks : list (string * string) :=   (* (source, dest): source -> dest *)
  [("ptmx", "pts/ptmx"); ("fd", "/proc/self/fd"); ("stdin", "fd/0"); ("stdout", "fd/1"); ("stderr", "fd/2")]%string.

(* 1987-1996 *)
Definition mount_dev_cleanup (dev : string) : io unit := try (C_umount dev);; try (C_rmdir dev).

(* 2002-2066; also returns the temporary path *)
Fixpoint make_nodes (fd : Z) (l : list (string * N * N * N)) : io Z :=
  match l with
  | [] => Pure 0%Z
  | (name, mode, major, minor) :: t => andthen (rc (C_mknodat fd name mode major minor)) (make_nodes fd t)
  end.
Fixpoint make_symlinks (fd : Z) (l : list (string * string)) : io Z :=
  match l with
  | [] => Pure 0%Z
  | (src, dst) :: t => andthen (rc (C_symlinkat dst fd src)) (make_symlinks fd t)
  end.
Definition fill_dev (fd : Z) : io Z :=
  andthen (make_nodes fd device_nodes)
 (andthen (make_symlinks fd device_symlinks)
          (rc (C_mkdirat fd "shm" 1023))).                (* 01777 *)
Definition mount_dev : io (Z * string) :=
  x <- ask (C_mkdtemp "/tmp/minijail.dev.XXXXXX");;
  match x with
  | No _ => Abort
  | Yes _ dev =>
      r <- rc (C_mount (Some "minijail-devfs"%string) dev (Some "tmpfs"%string) (N.lor MS_NOEXEC MS_NOSUID)
                       (Some "size=5M,mode=755"%string));;
      if negb (r =? 0)%Z then try (C_rmdir dev);; Pure (r, dev)
      else
        m <- ask (C_umask 0);;
        let mask := match m with Yes v _ => v | No _ => 0 end in  (* umask(2) cannot fail *)
        x <- ask (C_open dev DirPath);;
        match x with
        | No _ =>
            try (C_umask mask);; mount_dev_cleanup dev;; Pure (1%Z, dev)
        | Yes fd _ =>
            r <- fill_dev (Z.of_N fd);;
            try (C_umask mask);;
            when (negb (r =? 0)%Z) (mount_dev_cleanup dev);;
            try (C_close (Z.of_N fd));;
            Pure (r, dev)
        end
  end.

Definition root_or_empty (o : option string) : string := match o with Some d => d | None => "" end.
(* 2073-2094 *)
Definition mount_dev_finalize (j : jail) (dev : string) : io Z :=
  deref (j_chrootdir j) (fun root =>
    r <- andthen (rc (C_umount "/dev"))
                 (rc (C_mount (Some dev) (root_or_empty root ++ "/dev")%string None MS_MOVE None));;
    mount_dev_cleanup dev;;
    Pure r).

(* 70-72 *)
Definition MS_USER_SETTABLE_MASK : N :=
  ors [MS_NOSUID; MS_NODEV; MS_NOEXEC; MS_NOATIME; MS_NODIRATIME; MS_RELATIME; MS_RDONLY].

(* 1124-1159 with the call of realpath(3) it makes *)
Definition check_bind_path (e : kenv) (path : string) : io bool :=
  let result rp := match is_valid_bind_path e path rp with BVal b => Pure b | BUb => Undef end in
  if k_block_symlinks e then
    x <- ask (C_realpath path);; result (match x with Yes _ rp => Some rp | No _ => None end)
  else result None.

(* Where a mount goes, 2113-2123. *)
Definition mount_target (root dev : option string) (m : mountpoint) : string :=
  match dev with
  | Some d => if has_prefix "/dev/" (m_dest m) then (d ++ sdrop 4 (m_dest m))%string
              else (root_or_empty root ++ m_dest m)%string
  | None => (root_or_empty root ++ m_dest m)%string
  end.
(* 2103-2212.  Some f: the bind mount has to be mounted again with the flags f
   of its source.  When the flags of the source cannot be read, or the source
   is refused, the code jumps to its exit with ret still 0: the remaining
   mounts are skipped and the function reports success. *)
Definition bind_flags (m : mountpoint) : io (option (option N)) :=
  if mount_has_bind_flag m && String.eqb (m_type m) "minijail_bind" && negb (has_bit (m_flags m) MS_REMOUNT)
  then x <- ask (C_statvfs (m_src m));;
       match x with
       | No _ => Pure None
       | Yes fl _ =>
           Pure (Some (if negb (N.land (m_flags m) MS_RDONLY =? N.land fl MS_RDONLY)
                       then Some (N.land fl (N.ldiff MS_USER_SETTABLE_MASK MS_RDONLY)) else None))
       end
  else Pure (Some None).
Fixpoint mount_one (e : kenv) (uid gid : N) (root dev : option string) (ms : list mountpoint) : io Z :=
  match ms with
  | [] => Pure 0%Z
  | m :: t =>
      let dest := mount_target root dev m in
      andthen (setup_mount_destination (m_src m) dest uid gid (mount_has_bind_flag m))
     (f <- bind_flags m;;
      match f with
      | None => Pure 0%Z
      | Some again =>
          ok <- (if mount_has_bind_flag m && negb (has_bit (m_flags m) MS_REMOUNT)
                 then check_bind_path e (m_src m) else Pure true);;
          if negb ok then Pure 0%Z
          else
            andthen (rc (C_mount (Some (m_src m)) dest (Some (m_type m)) (m_flags m) (m_data m)))
           (andthen (match again with
                     | None => Pure 0%Z
                     | Some fl => rc (C_mount (Some (m_src m)) dest None
                                        (N.lor (N.lor (m_flags m) fl) MS_REMOUNT) (m_data m))
                     end)
                    (mount_one e uid gid root dev t))
      end)
  end.

(* 2214-2239 *)
Definition process_mounts_or_die (e : kenv) (j : jail) : io unit :=
  dev <- (if hasf F_mount_dev j
          then r <- mount_dev;;
               let '(rc, dev) := r in if (rc =? 0)%Z then Pure (Some dev) else Abort
          else Pure None);;
  match j_mounts j with
  | [] => Pure tt
  | ms => deref (j_chrootdir j) (fun root =>
            r <- mount_one e (j_uid j) (j_gid j) root dev ms;;
            if (r =? 0)%Z then Pure tt
            else match dev with Some d => mount_dev_cleanup d | None => Pure tt end;; Abort)
  end;;
  match dev with
  | Some d => zero_or_die (mount_dev_finalize j d)
  | None => Pure tt
  end.

(* 2782-2799 *)
Fixpoint run_hooks (l : list hook) (event : N) : io unit :=
  match l with
  | [] => Pure tt
  | h :: t => if hk_event h =? event then must (C_hook h);; run_hooks t event else run_hooks t event
  end.
Definition run_hooks_or_die (j : jail) (event : N) : io unit := run_hooks (j_hooks j) event.

(* A string argument that must not be NULL. *)
Definition nonnull {A B} (c : cell A) (f : A -> io B) : io B :=
  deref c (fun o => match o with Some a => f a | None => Undef end).

(* 2241-2252 *)
Definition enter_chroot (j : jail) : io Z :=
  run_hooks_or_die j HOOK_PRE_CHROOT;;
  nonnull (j_chrootdir j) (fun d => andthen (neg_errno (C_chroot d)) (neg_errno (C_chdir "/"))).

(* 2254-2314 *)
Definition must_open (path : string) (h : how) (f : Z -> io Z) : io Z :=
  x <- ask (C_open path h);;
  match x with No _ => Abort | Yes fd _ => r <- f (Z.of_N fd);; try (C_close (Z.of_N fd));; Pure r end.
Definition enter_pivot_root (j : jail) : io Z :=
  run_hooks_or_die j HOOK_PRE_CHROOT;;
  nonnull (j_chrootdir j) (fun d =>
    must_open "/" DirRead (fun oldroot =>
    must_open d DirRead (fun newroot =>
      must (C_mount (Some d) d (Some "bind"%string) (N.lor MS_BIND MS_REC) (Some ""%string));;
      andthen (neg_errno (C_chdir d))
     (must (C_pivot_root "." ".");;
      must (C_fchdir oldroot);;
      must (C_mount None "." None (N.lor MS_REC MS_PRIVATE) None);;
      must (C_umount ".");;
      andthen (neg_errno (C_fchdir newroot))
     (andthen (neg_errno (C_chroot "/")) (neg_errno (C_chdir "/"))))))).

(* 2316-2337; the text always fits the buffer *)
Definition mount_tmp (g : cfg) (j : jail) : io Z :=
  rc (C_mount (Some "none"%string) "/tmp" (Some "tmpfs"%string)
        (if g_tmp_nosymfollow g then N.lor SAFE_FLAGS MS_NOSYMFOLLOW else SAFE_FLAGS)
        (Some ("size=" ++ dec (j_tmpfs_size j) ++ ",mode=1777")%string)).

(* 2339-2383 *)
Definition remount_proc_readonly (j : jail) : io Z :=
  andthen (if hasf F_userns j then Pure 0%Z else neg_errno (C_umount "/proc"))
          (neg_errno (C_mount (Some "proc"%string) "/proc" (Some "proc"%string) (N.lor SAFE_FLAGS MS_RDONLY)
                        (Some ""%string))).

(* 2481-2512 *)
Definition b2n (b : bool) : N := if b then 1 else 0.
Definition drop_groups (j : jail) : io unit :=
  if hasf F_inherit_suppl_gids j then nonnull (j_user j) (fun u => must (C_initgroups u (j_usergid j)))
  else if hasf F_set_suppl_gids j then
    deref (j_suppl_gid_list j) (fun o =>
      match o with
      | None => if j_suppl_gid_count j =? 0 then must (C_setgroups []) else Undef
      | Some l => if j_suppl_gid_count j <=? N.of_nat (length l)
                  then must (C_setgroups (firstn (N.to_nat (j_suppl_gid_count j)) l)) else Undef
      end)
  else when (negb (hasf F_keep_suppl_gids j) && negb (hasf F_disable_setgroups j)
             && (hasf F_uid j || hasf F_gid j))
         (must (C_setgroups [])).
Definition drop_ugid (j : jail) : io unit :=
  if 1 <? b2n (hasf F_inherit_suppl_gids j) + b2n (hasf F_keep_suppl_gids j) + b2n (hasf F_set_suppl_gids j)
  then Abort
  else
    drop_groups j;;
    when (hasf F_gid j) (must (C_setresgid (j_gid j)));;
    when (hasf F_uid j) (must (C_setresuid (j_uid j))).

(* The capability numbers the loops visit: i < 64 && i <= last_valid_cap. *)
Definition caps_upto (last : N) : list N :=
  map N.of_nat (seq 0 (N.to_nat (N.min 64 (last + 1)))).
(* 2514-2524 *)
Fixpoint drop_each (keep : N) (l : list N) : io unit :=
  match l with
  | [] => Pure tt
  | i :: t => when (negb (N.testbit keep i)) (must (C_capbset_drop i));; drop_each keep t
  end.
Definition drop_capbset (keep last : N) : io unit := drop_each keep (caps_upto last).

(* 2526-2621.  The three sets always hold the same bits, so one mask stands for
   the cap_t; each cap_set_flag may fail. *)
Definition CAP_SETPCAP : N := 8.
Definition cap_set_flag3 (i : N) : io unit := must (C_cap_flag i);; must (C_cap_flag i);; must (C_cap_flag i).
Fixpoint collect_caps (caps : N) (l : list N) (acc : N) : io N :=
  match l with
  | [] => Pure acc
  | i :: t =>
      if negb (i =? CAP_SETPCAP) && negb (N.testbit caps i) then collect_caps caps t acc
      else cap_set_flag3 i;; collect_caps caps t (N.setbit acc i)
  end.
Fixpoint raise_each (caps : N) (l : list N) : io unit :=
  match l with
  | [] => Pure tt
  | i :: t => when (N.testbit caps i) (must (C_ambient_raise i));; raise_each caps t
  end.
Definition drop_caps (j : jail) (last : N) : io unit :=
  if negb (hasf F_use_caps j) then Pure tt
  else
    must C_capget;;
    s <- collect_caps (j_caps j) (caps_upto last) 0;;
    must (C_capset s s s);;
    when (noroot_kept (j_securebits_skip_mask j)) (drop_capbset (j_caps j) last);;
    s <- (if negb (N.testbit (j_caps j) CAP_SETPCAP)
          then cap_set_flag3 CAP_SETPCAP;; Pure (N.clearbit s CAP_SETPCAP) else Pure s);;
    must (C_capset s s s);;
    when (hasf F_set_ambient_caps j)
      (must C_ambient_is_set;; must C_ambient_clear;; raise_each (j_caps j) (caps_upto last)).

(* 667-673, 2624-2651 *)
Fixpoint populate_all (ruleset : Z) (l : list fs_rule) : io unit :=
  match l with
  | [] => Pure tt
  | r :: t => populate_ruleset_internal (fr_path r) ruleset (fr_flags r);; populate_all ruleset t
  end.
Definition apply_landlock_restrictions (j : jail) : io unit :=
  if negb (hasf F_enable_fs_restrictions j) || match j_fs_rules j with [] => true | _ => false end then Pure tt
  else
    x <- ask C_landlock_version;;
    when (match x with Yes abi _ => 0 <? abi | No _ => false end)
      (populate_all (j_fs_rules_fd j) (j_fs_rules j));;
    when (0 <=? j_fs_rules_fd j)%Z
      (must (C_landlock_restrict (j_fs_rules_fd j));; try (C_close (j_fs_rules_fd j))).

(* 2653-2660 *)
Definition set_no_new_privs (j : jail) : io unit := when (hasf F_no_new_privs j) (must C_no_new_privs).

(* 2662-2726 *)
Definition SECCOMP_FILTER_FLAG_TSYNC : N := 1.
Definition SECCOMP_FILTER_FLAG_SPEC_ALLOW : N := 4.
Definition set_seccomp_filter (g : cfg) (j : jail) : io unit :=
  if negb (hasf F_seccomp_filter j) || g_asan g then Pure tt
  else
    (if logging_allowed (g_env g) j
     then when (negb (k_ret_log (g_env g))) (must C_sigsys_handler)
     else when (hasf F_seccomp_filter_tsync j) (must C_sigsys_default));;
    deref (j_filter_prog j) (fun prog =>
      if hasf F_seccomp_filter_tsync j || hasf F_seccomp_filter_allow_speculation j
      then must (C_seccomp (N.lor (if hasf F_seccomp_filter_tsync j then SECCOMP_FILTER_FLAG_TSYNC else 0)
                                  (if hasf F_seccomp_filter_allow_speculation j
                                   then SECCOMP_FILTER_FLAG_SPEC_ALLOW else 0)) prog)
      else must (C_prctl_seccomp prog)).

(* 2838-2858 *)
Fixpoint apply_remounts (mode : N) (l : list remount) : io unit :=
  match l with
  | [] => Pure tt
  | r :: t => if rm_mode r <? mode then Abort
              else must (C_mount None (rm_name r) None (N.lor MS_REC (rm_mode r)) None);; apply_remounts mode t
  end.

(* 2801-2993 *)
Definition enter_namespaces (j : jail) : io unit :=
  when (hasf F_enter_vfs j) (must (C_setns (j_mountns_fd j) CLONE_NEWNS);; try (C_close (j_mountns_fd j)));;
  when (hasf F_vfs j)
    (must (C_unshare CLONE_NEWNS);;
     when (negb (j_remount_mode j =? 0))
       (must (C_mount None "/" None (N.lor MS_REC (j_remount_mode j)) None);;
        apply_remounts (j_remount_mode j) (j_remounts j)));;
  when (hasf F_ipc j) (must (C_unshare CLONE_NEWIPC));;
  when (hasf F_uts j)
    (must (C_unshare CLONE_NEWUTS);;
     deref (j_hostname j) (fun o => match o with Some h => must (C_sethostname h) | None => Pure tt end));;
  (if hasf F_enter_net j
   then must (C_setns (j_netns_fd j) CLONE_NEWNET);; try (C_close (j_netns_fd j))
   else when (hasf F_net j)
          (must (C_unshare CLONE_NEWNET);; when (hasf F_net_loopback j) config_net_loopback));;
  when (hasf F_ns_cgroups j) (must (C_unshare CLONE_NEWCGROUP));;
  when (hasf F_new_session_keyring j) (must C_keyring).
Definition enter_filesystem (g : cfg) (j : jail) : io unit :=
  process_mounts_or_die (g_env g) j;;
  when (hasf F_chroot j) (zero_or_die (enter_chroot j));;
  when (hasf F_pivot_root j) (zero_or_die (enter_pivot_root j));;
  when (hasf F_mount_tmp j) (zero_or_die (mount_tmp g j));;
  when (hasf F_remount_proc_ro j) (zero_or_die (remount_proc_readonly j)).
Definition drop_privileges (g : cfg) (j : jail) (last : N) : io unit :=
  when (hasf F_capbset_drop j) (drop_capbset (j_cap_bset j) last);;
  when (hasf F_use_caps j)
    (zero_or_die (lock_securebits g (j_securebits_skip_mask j) (negb (hasf F_set_ambient_caps j))));;
  if hasf F_no_new_privs j
  then drop_ugid j;; drop_caps j last;; set_no_new_privs j;; apply_landlock_restrictions j;; set_seccomp_filter g j
  else apply_landlock_restrictions j;; set_seccomp_filter g j;; drop_ugid j;; drop_caps j last.
Definition last_steps (g : cfg) (j : jail) : io unit :=
  when (hasf F_alt_syscall j) (nonnull (j_alt_syscall_table j) (fun t => must (C_alt_syscall t)));;
  when (hasf F_seccomp j)
    (x <- ask C_seccomp_strict;;
     match x with
     | Yes _ _ => Pure tt
     | No e => if is_err e EINVAL && k_softfail (g_env g) then Pure tt else Abort
     end).
Definition minijail_enter (g : cfg) (j : jail) : io unit :=
  last <- (if hasf F_capbset_drop j || hasf F_use_caps j then get_last_valid_cap else Pure 0);;
  if hasf F_pids j then Abort
  else if hasf F_inherit_suppl_gids j && is_null (j_user j) then Abort
  else
    enter_namespaces j;;
    enter_filesystem g j;;
    run_hooks_or_die j HOOK_PRE_DROP_CAPS;;
    drop_privileges g j last;;
    last_steps g j.
