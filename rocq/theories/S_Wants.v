(* What a history of configuration calls asks minijail_enter to achieve: the
   kernel calls that must have succeeded when it returns (libminijail.h,
   minijail0.1). *)
From Verif Require Export S_Enter S_Settings S_Creds S_Order S_Rules.
Local Open Scope N_scope.

(* A new mount namespace: asked for, or implied by a mount. *)
Definition own_mountns (h : list (api * Z)) : Prop :=
  asked F_vfs h \/ (accepted mount_added h <> [] /\ ~ asked F_enter_vfs h).
(* / is made private (MS_PRIVATE) unless another mode was given *)
Definition root_mode (h : list (api * Z)) : N := last_of remount_mode_of h 262144.

Inductive wants (g : cfg) (h : list (api * Z)) : call -> Prop :=
  | w_mountns : own_mountns h -> wants g h (C_unshare 131072)
  | w_propagation : own_mountns h -> root_mode h <> 0 ->
      wants g h (C_mount None "/" None (N.lor 16384 (root_mode h)) None)
  | w_remount r : own_mountns h -> root_mode h <> 0 -> In r (accepted remount_added h) ->
      wants g h (C_mount None (rm_name r) None (N.lor 16384 (rm_mode r)) None)
  | w_enter_mountns : asked F_enter_vfs h -> wants g h (C_setns (last_of mountns_of h 0%Z) 131072)
  | w_ipc : asked F_ipc h -> wants g h (C_unshare 134217728)
  | w_uts : asked F_uts h -> wants g h (C_unshare 67108864)
  | w_hostname n : asked F_uts h -> first_of hostname_of h = Some n -> wants g h (C_sethostname n)
  | w_enter_net : asked F_enter_net h -> wants g h (C_setns (last_of netns_of h 0%Z) 1073741824)
  | w_net : asked F_net h -> ~ asked F_enter_net h -> wants g h (C_unshare 1073741824)
  | w_cgroup : asked F_ns_cgroups h -> wants g h (C_unshare 33554432)
  | w_keyring : asked F_new_session_keyring h -> wants g h C_keyring
  | w_chroot d : asked F_chroot h -> first_of root_of h = Some d -> wants g h (C_chroot d)
  | w_pivot_bind d : asked F_pivot_root h -> first_of root_of h = Some d ->
      wants g h (C_mount (Some d) d (Some "bind"%string) 20480 (Some ""%string))
  | w_pivot_cd d : asked F_pivot_root h -> first_of root_of h = Some d -> wants g h (C_chdir d)
  | w_pivot : asked F_pivot_root h -> wants g h (C_pivot_root "." ".")
  | w_pivot_detach : asked F_pivot_root h -> wants g h (C_umount ".")
  | w_pivot_chroot : asked F_pivot_root h -> wants g h (C_chroot "/")
  | w_cd : asked F_chroot h \/ asked F_pivot_root h -> wants g h (C_chdir "/")
  | w_tmp : asked F_mount_tmp h ->
      wants g h (C_mount (Some "none"%string) "/tmp" (Some "tmpfs"%string)
                   (if g_tmp_nosymfollow g then 270 else 14)
                   (Some ("size=" ++ dec (last_of tmp_size_of h 0) ++ ",mode=1777")%string))
  | w_proc : asked F_remount_proc_ro h ->
      wants g h (C_mount (Some "proc"%string) "/proc" (Some "proc"%string) 15 (Some ""%string))
  | w_proc_detach : asked F_remount_proc_ro h -> ~ asked F_userns h -> wants g h (C_umount "/proc")
  | w_gid : asked F_gid h -> wants g h (C_setresgid (last_of gid_of h 0))
  | w_uid : asked F_uid h -> wants g h (C_setresuid (last_of uid_of h 0))
  | w_nnp : asked F_no_new_privs h -> k_softfail (g_env g) = false -> wants g h C_no_new_privs
  | w_alt t : asked F_alt_syscall h -> last_of alt_of h Null = Own t -> wants g h (C_alt_syscall t)
  | w_strict : asked F_seccomp h -> k_softfail (g_env g) = false -> wants g h C_seccomp_strict.

(* The hooks due: those for entering the root directory (event 2) if there is
   one, then those before privileges are dropped (event 0). *)
Definition hooks_due (h : list (api * Z)) (l : list hook) : Prop :=
  let added := accepted hook_added h in
  ((asked F_chroot h \/ asked F_pivot_root h) /\ l = hooks_for 2 added ++ hooks_for 0 added) \/
  (~ asked F_chroot h /\ ~ asked F_pivot_root h /\ l = hooks_for 0 added).

(* The supplementary groups in the end: those of the user given last; the list
   given last; the old ones; or none. *)
Definition groups_due (groups_of : string -> N -> list N) (h : list (api * Z)) (old new : list N) : Prop :=
  (asked F_inherit_suppl_gids h ->
     exists u g, last_of user_of h (Null, 0) = (Own u, g) /\ new = groups_of u g) /\
  (asked F_set_suppl_gids h -> new = last_of suppl_of h []) /\
  (asked F_keep_suppl_gids h -> new = old) /\
  (~ asked F_inherit_suppl_gids h -> ~ asked F_set_suppl_gids h -> ~ asked F_keep_suppl_gids h ->
     ((asked F_uid h \/ asked F_gid h) /\ ~ asked F_disable_setgroups h -> new = []) /\
     (~ ((asked F_uid h \/ asked F_gid h) /\ ~ asked F_disable_setgroups h) -> new = old)).
Definition at_most_one (p q r : Prop) : Prop := ~ (p /\ q) /\ ~ (p /\ r) /\ ~ (q /\ r).

(* The capabilities of this kernel: it said the last one is [last]. *)
Definition supported (last i : N) : bool := (i <? 64) && (i <=? last).

(* Where the mounts of the history go. *)
Definition new_root (h : list (api * Z)) : string := match first_of root_of h with Some d => d | None => "" end.
Definition dev_of (h : list (api * Z)) (t : list event) (dev : option string) : Prop :=
  (asked F_mount_dev h /\ exists d, dev = Some d /\ dev_in t d) \/ (~ asked F_mount_dev h /\ dev = None).
