(* What the Rust bindings promise (C75-C78).  The documentation is in
   rust/minijail/src/lib.rs and libminijail.h. *)
From Verif Require Export M_Rust S_Reuse S_Wait S_Fds.
Local Open Scope N_scope.

(* ---- C75: configuration ---- *)
Definition is_filter (prog : list instr) : Prop :=
  N.of_nat (length prog) <= 65535 /\ Forall (fun i => u16 (code i) /\ u8 (jt i) /\ u8 (jf i) /\ u32 (k i)) prog.
(* The bytes are those of a filter: its instructions, in memory. *)
Definition bytes_of (prog : list instr) (bytes : string) : Prop := is_filter prog /\ bytes = images instr_image prog.

(* The call of libminijail.h that a method is for: the one of its name, with
   its arguments. *)
Definition stands_for (o : outside) (m : method) (a : api) : Prop :=
  match m with
  | R_change_uid u => a = A_change_uid u
  | R_change_gid g => a = A_change_gid g
  | R_change_user u => a = A_change_user u (o_user o u)
  | R_change_group g => a = A_change_group g (o_group o g)
  | R_set_supplementary_gids l => a = A_set_supplementary_gids l
  | R_keep_supplementary_gids => a = A_keep_supplementary_gids
  | R_set_rlimit t c m => a = A_rlimit t c m
  | R_use_seccomp => a = A_use_seccomp
  | R_no_new_privs => a = A_no_new_privs
  | R_use_seccomp_filter => a = A_use_seccomp_filter
  | R_set_seccomp_filter_tsync => a = A_set_seccomp_filter_tsync
  | R_parse_seccomp_program p _ => exists b prog, o_read o p = Some b /\ bytes_of prog b /\ a = A_set_seccomp_filters prog
  | R_parse_seccomp_bytes b _ => exists prog, bytes_of prog b /\ a = A_set_seccomp_filters prog
  | R_parse_seccomp_filters p => a = A_parse_seccomp_filters (o_policy o p)
  | R_log_seccomp_filter_failures => a = A_log_seccomp_filter_failures
  | R_use_caps m => a = A_use_caps m
  | R_capbset_drop m => a = A_capbset_drop m
  | R_set_ambient_caps => a = A_set_ambient_caps
  | R_reset_signal_mask => a = A_reset_signal_mask
  | R_run_as_init => a = A_run_as_init
  | R_namespace_pids => a = A_namespace_pids
  | R_namespace_user => a = A_namespace_user
  | R_namespace_user_disable_setgroups => a = A_namespace_user_disable_setgroups
  | R_namespace_vfs => a = A_namespace_vfs
  | R_new_session_keyring => a = A_new_session_keyring
  | R_skip_remount_private => a = A_skip_remount_private
  | R_namespace_ipc => a = A_namespace_ipc
  | R_namespace_net => a = A_namespace_net
  | R_namespace_cgroups => a = A_namespace_cgroups
  | R_remount_proc_readonly => a = A_remount_proc_readonly
  | R_set_remount_mode m => a = A_remount_mode m
  | R_uidmap m => a = A_uidmap m
  | R_gidmap m => a = A_gidmap m
  | R_inherit_usergroups => a = A_inherit_usergroups
  | R_use_alt_syscall t => a = A_use_alt_syscall t
  | R_enter_chroot d => a = A_enter_chroot d
  | R_enter_pivot_root d => a = A_enter_pivot_root d
  | R_mount s d t f => a = A_mount_with_data s d t f (Some ""%string)
  | R_mount_with_data s d t f x => a = A_mount_with_data s d t f (Some x)
  | R_mount_dev => a = A_mount_dev
  | R_mount_tmp => a = A_mount_tmp
  | R_mount_tmp_size n => a = A_mount_tmp_size n
  | R_mount_bind s d w => a = A_bind s d w (o_realpath o s)
  end.
(* Text that C can be given: without NUL; paths also have to be UTF-8. *)
Definition path (o : outside) (p : string) : Prop := o_utf8 o p = true /\ no_nul p.
Definition program (b : string) (addr : N) : Prop := (exists prog, bytes_of prog b) /\ addr mod 4 = 0.
Definition acceptable (o : outside) (m : method) : Prop :=
  match m with
  | R_change_user s | R_change_group s | R_uidmap s | R_gidmap s | R_use_alt_syscall s => no_nul s
  | R_enter_chroot p | R_enter_pivot_root p => path o p
  | R_parse_seccomp_filters p => o_is_file o p = true /\ path o p
  | R_parse_seccomp_program p addr => o_is_file o p = true /\ exists b, o_read o p = Some b /\ program b addr
  | R_parse_seccomp_bytes b addr => program b addr
  | R_mount s d t _ => path o s /\ path o d /\ no_nul t
  | R_mount_with_data s d t _ x => path o s /\ path o d /\ no_nul t /\ no_nul x
  | R_mount_bind s d _ => path o s /\ path o d
  | _ => True
  end.
(* The methods that tell whether the library took the setting. *)
Definition tells (m : method) : Prop := match m with R_change_user _ | R_change_group _ => False | _ => True end.

(* The methods [l], their results [r] (None: Ok) and the calls [h] they made. *)
Inductive made (o : outside) : list method -> list (option rerr) -> list (api * Z) -> Prop :=
  | made_nil : made o [] [] []
  | made_none m x l r h : ~ acceptable o m -> made o l r h -> made o (m :: l) (Some x :: r) h
  | made_ok m a rc l r h : stands_for o m a -> (tells m -> rc = 0%Z) -> made o l r h -> made o (m :: l) (None :: r) ((a, rc) :: h)
  | made_err m x a rc l r h : stands_for o m a -> tells m -> rc <> 0%Z -> made o l r h -> made o (m :: l) (Some x :: r) ((a, rc) :: h).

(* No method gives the program another user: they are not called, or with
   names that are unknown. *)
Definition gives_no_user (o : outside) (m : method) : Prop :=
  match m with
  | R_change_uid _ | R_namespace_user => False
  | R_change_user u => exists rc, o_user o u = inl rc
  | _ => True
  end.

(* ---- C76: what wait and kill say, by the documentation of Error ---- *)
Definition documented (sigsys : N) (e : ending) : translated :=
  match e with
  | Exited 0 => T_ok
  | Exited c => T_err (E_ReturnCode c)
  | S_Wait.Killed s _ => if s =? sigsys then T_err (E_SeccompViolation 253) else T_err (E_Killed s)
  end.
(* Codes with a meaning of their own: 126 and 127 as for shells, 129 to 192 for
   signals. *)
Definition reserved (e : ending) : Prop :=
  match e with Exited c => 126 <= c <= 127 \/ 129 <= c <= 192 | S_Wait.Killed _ _ => False end.
Definition endings (answers : list (M_Wait.answer N)) : Prop :=
  Forall (fun a => match a with inl _ => True | inr st => exists e, possible e /\ st = status_of e end) answers.

(* ---- C77 ---- *)
Definition std (i : Z) : Prop := (0 <= i <= 2)%Z.

(* ---- C78: settings only the original of a jail has ---- *)
Definition copied (a : api) : Prop :=
  match a with
  | A_write_pid_file _ | A_uidmap _ | A_gidmap _ | A_set_preload_path _ | A_add_remount _ _ | A_add_hook _ _ _ => False
  | _ => True
  end.
(* A filter is installed, or none was given. *)
Definition filter_ready (h : list (api * Z)) : Prop :=
  last_of filter_of h None = None \/ (asked F_seccomp_filter h /\ last_of filter_of h None <> Some (inr [])).
(* What can be sent at all (C23). *)
Definition sendable (j : jail) : Prop :=
  c_typed j /\ j_suppl_gid_count j <= 65536 /\ Forall (fun r => fr_flags r <> 0) (j_fs_rules j) /\ j_fs_rules_fd j <> 0%Z.
(* The descriptors a child passes on: libminijail.c:3784-3787 and 3921-3924. *)
Definition passed (ec : kenv) (j : jail) : list (Z * Z) :=
  entry_pairs (hasf F_close_open_fds j) (hasf F_enter_vfs j) (j_mountns_fd j) (hasf F_enter_net j) (j_netns_fd j)
    (to_pass (with_ruleset ec j)).
Definition closes (j : jail) : bool := hasf F_close_open_fds j.
