(* Model of the Rust bindings, rust/minijail/src/lib.rs, on top of the C
   library (M_Jail, M_Marshal, M_Wait).  Line numbers without a file are those
   of lib.rs.  Simplifications: Rust strings and paths are byte strings; the
   Vec and CString allocations succeed; the logging functions are left out, as
   is the log descriptor that try_clone (452-457) copies. *)
From Verif Require Export M_Marshal M_Wait M_Fds.
From Verif Require Import S_Jail.
Local Open Scope N_scope.

(* 163-237, the variants that are ever made here; io::Error without content *)
Inductive rerr :=
  | E_BindMount (errno : Z) (src dst : string)
  | E_Mount (errno : Z) (src dest fstype : string) (flags : N) (data : string)
  | E_CheckingMultiThreaded | E_ForkingMinijail (rc : Z) | E_ForkingWhileMultiThreaded
  | E_SeccompPath (p : string) | E_StrToCString (s : string) | E_PathToCString (p : string)
  | E_OpenDevNull | E_ReadProgram
  | E_SetAltSyscallTable (errno : Z) (name : string) | E_SetRlimit (errno kind : Z)
  | E_SettingChrootDirectory (rc : Z) (p : string) | E_SettingPivotRootDirectory (rc : Z) (p : string)
  | E_PreservingFd (rc : Z)
  | E_ProgramTooLarge | E_WrongProgramAlignment | E_WrongProgramSize
  | E_NoCommand | E_NoAccess | E_SeccompViolation (rc : Z) | E_Killed (sig : N) | E_ReturnCode (code : N) | E_Wait (rc : Z).

(* The outcome of a method: its result and the jail afterwards; the C library
   ended the process; undefined behaviour; a panic. *)
Inductive rust_res (A : Type) := RsOk (x : A) (j : jail) | RsErr (x : rerr) (j : jail) | RsDie | RsUb | RsPanic.
Arguments RsOk {A}. Arguments RsErr {A}. Arguments RsDie {A}. Arguments RsUb {A}. Arguments RsPanic {A}.

(* What the methods find outside: str::from_utf8, the user and group databases
   (as M_Jail's lookups), realpath(3), Path::is_file, fs::read, and what
   opening and reading a policy gives (M_Jail.policy_source). *)
Record outside := Outside {
  o_utf8 : string -> bool;
  o_user : string -> Z + N * N; o_group : string -> Z + N;
  o_realpath : string -> option string;
  o_is_file : string -> bool; o_read : string -> option string;
  o_policy : string -> policy_source }.

(* CString::new fails on a NUL byte. *)
Fixpoint has_nul (s : string) : bool :=
  match s with EmptyString => false | String c r => Ascii.eqb c NUL || has_nul r end.
Definition to_cstring {A} (s : string) (err : rerr) (j : jail) (k : string -> rust_res A) : rust_res A :=
  if has_nul s then RsErr err j else k s.
(* path.as_os_str().to_str() *)
Definition to_str {A} (o : outside) (p : string) (j : jail) (k : string -> rust_res A) : rust_res A :=
  if o_utf8 o p then k p else RsErr (E_PathToCString p) j.

(* A C call whose result is not looked at. *)
Definition ignoring (r : ares) : rust_res unit :=
  match r with ARet _ j => RsOk tt j | ADie => RsDie | AUb => RsUb end.
(* A C call checked with `ret < 0`. *)
Definition checking (r : ares) (err : Z -> rerr) : rust_res unit :=
  match r with
  | ARet rc j => if (rc <? 0)%Z then RsErr (err rc) j else RsOk tt j
  | ADie => RsDie | AUb => RsUb
  end.

(* 539-562 parse_seccomp_bytes; [addr] is where the bytes are *)
Definition parse_seccomp_bytes (e : kenv) (buffer : string) (addr : N) (j : jail) : rust_res unit :=
  let len := N.of_nat (String.length buffer) in
  if negb (len mod 8 =? 0) then RsErr E_WrongProgramSize j
  else
    let count := len / 8 in
    if 65535 <? count then RsErr E_ProgramTooLarge j
    else if negb (addr mod 4 =? 0) then RsErr E_WrongProgramAlignment j
    else ignoring (minijail_set_seccomp_filters e (map load_instr (blocks (N.to_nat count) 8 buffer)) j).

(* 746-791 mount_with_data *)
Definition mount_with_data (o : outside) (src dest fstype : string) (flags : N) (data : string) (j : jail) : rust_res unit :=
  to_str o src j (fun s => to_cstring s (E_StrToCString s) j (fun src' =>
  to_str o dest j (fun d => to_cstring d (E_StrToCString d) j (fun dest' =>
  to_cstring fstype (E_StrToCString fstype) j (fun t =>
  to_cstring data (E_StrToCString data) j (fun x =>
  checking (minijail_mount_with_data src' dest' t flags (Some x) j)
           (fun rc => E_Mount rc src dest fstype flags data))))))).

(* 465-841: the configuration methods *)
Inductive method :=
  | R_change_uid (uid : N) | R_change_gid (gid : N) | R_change_user (user : string) | R_change_group (group : string)
  | R_set_supplementary_gids (ids : list N) | R_keep_supplementary_gids
  | R_set_rlimit (kind : Z) (cur max : N)
  | R_use_seccomp | R_no_new_privs | R_use_seccomp_filter | R_set_seccomp_filter_tsync
  | R_parse_seccomp_program (file : string) (addr : N) | R_parse_seccomp_bytes (buffer : string) (addr : N)
  | R_parse_seccomp_filters (file : string) | R_log_seccomp_filter_failures
  | R_use_caps (mask : N) | R_capbset_drop (mask : N) | R_set_ambient_caps | R_reset_signal_mask | R_run_as_init
  | R_namespace_pids | R_namespace_user | R_namespace_user_disable_setgroups | R_namespace_vfs
  | R_new_session_keyring | R_skip_remount_private | R_namespace_ipc | R_namespace_net | R_namespace_cgroups
  | R_remount_proc_readonly | R_set_remount_mode (mode : N)
  | R_uidmap (map : string) | R_gidmap (map : string) | R_inherit_usergroups | R_use_alt_syscall (table : string)
  | R_enter_chroot (dir : string) | R_enter_pivot_root (dir : string)
  | R_mount (src dest fstype : string) (flags : N)
  | R_mount_with_data (src dest fstype : string) (flags : N) (data : string)
  | R_mount_dev | R_mount_tmp | R_mount_tmp_size (size : N)
  | R_mount_bind (src dest : string) (writable : bool).

Definition rust_step (o : outside) (e : kenv) (j : jail) (m : method) : rust_res unit :=
  let call a := ignoring (api_step e j a) in
  match m with
  | R_change_uid u => call (A_change_uid u)                                        (* 465-469 *)
  | R_change_gid g => call (A_change_gid g)                                        (* 470-474 *)
  | R_change_user u =>                                                             (* 475-481 *)
      to_cstring u (E_StrToCString u) j (fun u => call (A_change_user u (o_user o u)))
  | R_change_group g =>                                                            (* 482-489 *)
      to_cstring g (E_StrToCString g) j (fun g => call (A_change_group g (o_group o g)))
  | R_set_supplementary_gids l => call (A_set_supplementary_gids l)                (* 490-494 *)
  | R_keep_supplementary_gids => call A_keep_supplementary_gids                    (* 495-499 *)
  | R_set_rlimit kind cur max =>                                                   (* 503-510 *)
      match api_step e j (A_rlimit kind cur max) with
      | ARet errno j => if (errno =? 0)%Z then RsOk tt j else RsErr (E_SetRlimit errno kind) j
      | ADie => RsDie | AUb => RsUb
      end
  | R_use_seccomp => call A_use_seccomp                                            (* 511-530 *)
  | R_no_new_privs => call A_no_new_privs
  | R_use_seccomp_filter => call A_use_seccomp_filter
  | R_set_seccomp_filter_tsync => call A_set_seccomp_filter_tsync
  | R_parse_seccomp_program p addr =>                                              (* 531-538 *)
      if negb (o_is_file o p) then RsErr (E_SeccompPath p) j
      else match o_read o p with
           | None => RsErr E_ReadProgram j
           | Some b => parse_seccomp_bytes e b addr j
           end
  | R_parse_seccomp_bytes b addr => parse_seccomp_bytes e b addr j                 (* 539-562 *)
  | R_parse_seccomp_filters p =>                                                   (* 563-579 *)
      if negb (o_is_file o p) then RsErr (E_SeccompPath p) j
      else to_str o p j (fun p => to_cstring p (E_PathToCString p) j (fun p =>
           call (A_parse_seccomp_filters (o_policy o p))))
  | R_log_seccomp_filter_failures => call A_log_seccomp_filter_failures            (* 580-662 *)
  | R_use_caps m => call (A_use_caps m)
  | R_capbset_drop m => call (A_capbset_drop m)
  | R_set_ambient_caps => call A_set_ambient_caps
  | R_reset_signal_mask => call A_reset_signal_mask
  | R_run_as_init => call A_run_as_init
  | R_namespace_pids => call A_namespace_pids
  | R_namespace_user => call A_namespace_user
  | R_namespace_user_disable_setgroups => call A_namespace_user_disable_setgroups
  | R_namespace_vfs => call A_namespace_vfs
  | R_new_session_keyring => call A_new_session_keyring
  | R_skip_remount_private => call A_skip_remount_private
  | R_namespace_ipc => call A_namespace_ipc
  | R_namespace_net => call A_namespace_net
  | R_namespace_cgroups => call A_namespace_cgroups
  | R_remount_proc_readonly => call A_remount_proc_readonly
  | R_set_remount_mode m => call (A_remount_mode m)
  | R_uidmap m => to_cstring m (E_StrToCString m) j (fun m => call (A_uidmap m))   (* 663-670 *)
  | R_gidmap m => to_cstring m (E_StrToCString m) j (fun m => call (A_gidmap m))   (* 671-678 *)
  | R_inherit_usergroups => call A_inherit_usergroups
  | R_use_alt_syscall t =>                                                         (* 684-695 *)
      to_cstring t (E_StrToCString t) j (fun t' =>
      checking (api_step e j (A_use_alt_syscall t')) (fun rc => E_SetAltSyscallTable rc t))
  | R_enter_chroot d =>                                                            (* 706-719 *)
      to_str o d j (fun d' => to_cstring d' (E_PathToCString d) j (fun d' =>
      checking (api_step e j (A_enter_chroot d')) (fun rc => E_SettingChrootDirectory rc d)))
  | R_enter_pivot_root d =>                                                        (* 720-736 *)
      to_str o d j (fun d' => to_cstring d' (E_PathToCString d) j (fun d' =>
      checking (api_step e j (A_enter_pivot_root d')) (fun rc => E_SettingPivotRootDirectory rc d)))
  | R_mount s d t f => mount_with_data o s d t f "" j                              (* 737-745 *)
  | R_mount_with_data s d t f x => mount_with_data o s d t f x j                   (* 746-791 *)
  | R_mount_dev => call A_mount_dev                                                (* 792-806 *)
  | R_mount_tmp => call A_mount_tmp
  | R_mount_tmp_size n => call (A_mount_tmp_size n)
  | R_mount_bind s d w =>                                                          (* 807-841 *)
      to_str o s j (fun s' => to_cstring s' (E_StrToCString s') j (fun s' =>
      to_str o d j (fun d' => to_cstring d' (E_StrToCString d') j (fun d' =>
      checking (api_step e j (A_bind s' d' w (o_realpath o s'))) (fun rc => E_BindMount rc s d)))))
  end.

(* A program that configures a jail: the result of each method, and the jail;
   None when the process ended. *)
Fixpoint rust_run (o : outside) (e : kenv) (j : jail) (l : list method) : option (list (option rerr) * jail) :=
  match l with
  | [] => Some ([], j)
  | m :: r =>
      match rust_step o e j m with
      | RsOk _ j' => match rust_run o e j' r with Some (x, j2) => Some (None :: x, j2) | None => None end
      | RsErr err j' => match rust_run o e j' r with Some (x, j2) => Some (Some err :: x, j2) | None => None end
      | _ => None
      end
  end.

(* 393-418 translate_wait_error; [rtmax] is __libc_current_sigrtmax() *)
Inductive translated := T_ok | T_err (x : rerr) | T_panic.
Definition translate_wait_error (rtmax : Z) (ret : Z) : translated :=
  if (ret =? 0)%Z then T_ok
  else if (ret <? 0)%Z then T_err (E_Wait ret)
  else if (ret =? 127)%Z then T_err E_NoCommand
  else if (ret =? 126)%Z then T_err E_NoAccess
  else
    let sig_base := 128%Z in
    let sig_max_code := (rtmax + sig_base)%Z in
    if (sig_base <? ret)%Z && (ret <=? sig_max_code)%Z then T_err (E_Killed (Z.to_N ((ret - 128) mod 256)))
    else if (0 <? ret)%Z && (ret <=? 255)%Z then T_err (E_ReturnCode (Z.to_N (ret mod 256)))
    else T_panic.
(* 1034-1051 wait and kill; None: still waiting *)
Definition after_wait (rtmax : Z) (w : waited) : option translated :=
  match w with Returns v => Some (translate_wait_error rtmax v) | Blocked => None end.
Definition rust_wait (rtmax : Z) (sigsys : N) (pid : Z) (answers : list (M_Wait.answer N)) : option translated :=
  after_wait rtmax (minijail_wait sigsys pid answers).
Definition rust_kill (rtmax : Z) (sigsys : N) (pid : Z) (k : M_Wait.answer unit) (answers : list (M_Wait.answer N)) : option translated :=
  after_wait rtmax (minijail_kill sigsys pid k answers).

(* 437-459 try_clone; the code of a failure is left out *)
Inductive cloned := Clone (j : jail) | NoClone | CloneUb | CloneFuel.
Definition try_clone (addr : N -> N) (e : kenv) (j : jail) : cloned :=
  match minijail_copy_jail addr e j minijail_new with UOk j' => Clone j' | UErr _ => NoClone | UUb => CloneUb | UFuel => CloneFuel end.

(* ---- starting programs: 923-957 and 973-1032 ---- *)
(* for (src_fd, dst_fd) in ... preserve *)
Fixpoint preserve_all (e : kenv) (l : list (Z * Z)) (j : jail) : rust_res unit :=
  match l with
  | [] => RsOk tt j
  | (src, dst) :: r =>
      match checking (api_step e j (A_preserve_fd src dst)) E_PreservingFd with
      | RsOk _ j' => preserve_all e r j'
      | x => x
      end
  end.
Definition then_ {A} (r : rust_res unit) (k : jail -> rust_res A) : rust_res A :=
  match r with RsOk _ j => k j | RsErr x j => RsErr x j | RsDie => RsDie | RsUb => RsUb | RsPanic => RsPanic end.
(* 924-951, 998-1022: what run_internal and fork_remap do before the C call;
   [null]: the descriptor of /dev/null, None if it cannot be opened *)
Definition prepare_fds (e : kenv) (l : list (Z * Z)) (null : option Z) (j : jail) : rust_res unit :=
  then_ (preserve_all e l j) (fun j =>
  match null with
  | None => RsErr E_OpenDevNull j
  | Some d =>
      let missing := filter (fun i => negb (existsb (fun p => (snd p =? i)%Z) l)) [0; 1; 2]%Z in
      then_ (preserve_all e (map (fun i => (d, i)) missing) j) (fun j => ignoring (api_step e j A_close_open_fds))
  end).
(* 68-74 keep_fds and 973-980 *)
Definition keep_fds (l : list Z) : list (Z * Z) := map (fun a => (a, a)) l.
(* 1066-1087: the threads of this process and whether each is a kernel thread;
   None: reading them failed *)
Definition num_threads (tasks : option (list bool)) : option N :=
  match tasks with None => None | Some l => Some (N.of_nat (length (filter negb l))) end.
(* 988-996 *)
Definition check_threads {A} (disabled : bool) (tasks : option (list bool)) (j : jail) (k : rust_res A) : rust_res A :=
  if disabled then k
  else match num_threads tasks with
       | None => RsErr E_CheckingMultiThreaded j
       | Some n => if n =? 1 then k else RsErr E_ForkingWhileMultiThreaded j
       end.
(* 987-1022: fork_remap up to the call of minijail_fork *)
Definition fork_prepare (e : kenv) (disabled : bool) (tasks : option (list bool)) (l : list (Z * Z)) (null : option Z) (j : jail) : rust_res unit :=
  check_threads disabled tasks j (prepare_fds e l null j).

(* 1089-1107 to_execve_cstring_array: the strings, or the first one that is no
   C string *)
Fixpoint to_execve_cstring_array (l : list string) : string + list string :=
  match l with
  | [] => inr []
  | s :: r => if has_nul s then inl s
              else match to_execve_cstring_array r with inl b => inl b | inr t => inr (s :: t) end
  end.

(* OpenOptions::open: the lowest free descriptor, close-on-exec.  [f] is the
   open file. *)
Definition open_null (lim : Z) (f : N) (t : table) : option (Z * table) :=
  match lowest_free lim t with None => None | Some d => Some (d, upd t d (Some (f, true))) end.
