(* What a program run by minijail0 has to find, from the options alone
   (minijail0.1). *)
From Verif Require Export S_Policy S_CliCalls S_Run.
Local Open Scope N_scope.

(* Options that give the program its own mount namespace, and those that ask
   for a read-only /proc. *)
Definition own_mounts : list N := (map short ["v"; "t"; "d"; "P"; "r"; "p"; "I"; "U"; "m"; "M"]%char ++ [OPT_PROFILE])%list.
Definition proc_ro : list N := (map short ["r"; "p"; "U"; "m"; "M"]%char ++ [OPT_PROFILE])%list.
(* Options that make a user namespace. *)
Definition own_users : list N := map short ["U"; "m"; "M"]%char.

(* [insists w g L c]: with the options [L] the kernel call [c] has to succeed
   before the program runs. *)
Inductive insists (w : world) (g : cfg) (L : list (N * option string)) : call -> Prop :=
  | in_mounts n : has L n -> In n own_mounts -> insists w g L (C_unshare 131072)
  | in_slave : has L (short "v") -> ~ has L (short "K") -> insists w g L (C_mount None "/" None (N.lor 16384 524288) None)
  | in_mode a m : last_arg L (short "K") = Some (Some a) -> In (a, m) propagation -> insists w g L (C_mount None "/" None (N.lor 16384 m) None)
  | in_ipc : has L (short "l") -> insists w g L (C_unshare 134217728)
  | in_uts : has L OPT_UTS -> insists w g L (C_unshare 67108864)
  | in_hostname l1 a l2 : L = (l1 ++ (OPT_UTS, Some a) :: l2)%list -> (forall b, ~ In (OPT_UTS, Some b) l1) -> insists w g L (C_sethostname a)
  | in_net : In (short "e", None) L -> (forall a, ~ In (short "e", Some a) L) -> insists w g L (C_unshare 1073741824)
  | in_enter_net a : args_of L (short "e") = [Some a] -> insists w g L (C_setns (w_open w a) 1073741824)
  | in_enter_mounts a : args_of L (short "V") = [Some a] -> insists w g L (C_setns (w_open w a) 131072)
  | in_cgroup : has L (short "N") -> insists w g L (C_unshare 33554432)
  | in_keyring : has L (short "w") -> insists w g L C_keyring
  | in_chroot d c : In (short "C", Some d) L -> In c [C_chroot d; C_chdir "/"] -> insists w g L c
  | in_pivot d c : In (short "P", Some d) L \/ has L OPT_PROFILE /\ d = w_pivot_dir w ->
      In c [C_mount (Some d) d (Some "bind"%string) 20480 (Some ""%string); C_chdir d; C_pivot_root "." "."; C_umount "."; C_chroot "/"; C_chdir "/"] ->
      insists w g L c
  | in_tmp n : tmp_size L n -> n <> 0 ->
      insists w g L (C_mount (Some "none"%string) "/tmp" (Some "tmpfs"%string) (if g_tmp_nosymfollow g then 270 else 14)
                       (Some ("size=" ++ dec n ++ ",mode=1777")%string))
  | in_proc n : has L n -> In n proc_ro -> ~ has L (short "I") ->
      insists w g L (C_mount (Some "proc"%string) "/proc" (Some "proc"%string) 15 (Some ""%string))
  | in_proc_gone n : has L n -> In n proc_ro -> ~ has L (short "I") -> (forall n, In n own_users -> ~ has L n) -> insists w g L (C_umount "/proc")
  | in_nnp : has L (short "n") -> k_softfail (w_env w) = false -> insists w g L C_no_new_privs
  | in_default : no_policy L -> ~ has L OPT_NO_DEFAULT_RUNTIME -> k_softfail (w_env w) = false -> insists w g L C_no_new_privs
  | in_strict : has L (short "s") -> k_softfail (w_env w) = false -> insists w g L C_seccomp_strict
  | in_alt t : last_arg L (short "a") = Some (Some t) -> insists w g L (C_alt_syscall t).

(* A capability set, by names or in hexadecimal. *)
Definition caps_arg (w : world) (a : string) (m : N) : Prop :=
  (exists f, w_cap_text w a = Some f /\ cap_bits w f m) \/ (w_cap_text w a = None /\ hex_integer a (Z.of_N m)).

(* The user, group and supplementary groups of the program; [old] are the
   credentials minijail0 was started with. *)
Definition ids_due (w : world) (groups_of : string -> N -> list N) (L : list (N * option string)) (old new : creds) : Prop :=
  (forall a, In (short "u", a) L -> exists t n, a = Some t /\ uid_arg w t n /\ (n <> 2 ^ 32 - 1 -> uids new = (n, n, n))) /\
  (forall a, In (short "g", a) L -> exists t n, a = Some t /\ gid_arg w t n /\ (n <> 2 ^ 32 - 1 -> gids new = (n, n, n))) /\
  (* supplementary groups: those listed, the user's, the old ones; otherwise a
     new user or group has none *)
  (has L OPT_ADD_SUPPL_GROUP -> exists l, Forall2 (fun a n => exists t, a = Some t /\ gid_arg w t n) (args_of L OPT_ADD_SUPPL_GROUP) l /\ groups new = l) /\
  (has L (short "G") -> exists a n m, In (short "u", Some a) L /\ w_user w a = Some (n, m) /\ groups new = groups_of a m) /\
  (has L (short "y") -> groups new = groups old) /\
  (~ has L OPT_ADD_SUPPL_GROUP -> ~ has L (short "G") -> ~ has L (short "y") -> has L (short "u") \/ has L (short "g") ->
     ~ (has L (short "M") /\ w_cap_setgid w = false) -> groups new = []).

(* The mounts of -b, -k and --profile, in the order of the options. *)
Inductive mounts_due (w : world) : list (N * option string) -> list mountpoint -> Prop :=
  | md_nil : mounts_due w [] []
  | md_cons o L cs ms : asks w (fst o) (snd o) cs -> mounts_due w L ms -> mounts_due w (o :: L) (flat_map (fun a => mount_added a 0) cs ++ ms).
(* Where they go: below the root of -C, -P or --profile. *)
Inductive root_dir (w : world) (L : list (N * option string)) : string -> Prop :=
  | rd_chroot d : In (short "C", Some d) L -> root_dir w L d
  | rd_pivot d : In (short "P", Some d) L -> root_dir w L d
  | rd_profile : has L OPT_PROFILE -> root_dir w L (w_pivot_dir w)
  | rd_same : (forall n, root_option n -> ~ has L n) -> root_dir w L "".
(* The new /dev of -d and --profile=minimalistic-mountns. *)
Definition own_dev (L : list (N * option string)) : Prop := has L (short "d") \/ In (OPT_PROFILE, Some "minimalistic-mountns"%string) L.
Definition dev_due (L : list (N * option string)) (t : list event) (dev : option string) : Prop :=
  own_dev L /\ (exists d, dev = Some d /\ dev_in t d) \/ ~ own_dev L /\ dev = None.

(* [prog] was installed as a system call filter. *)
Definition installed (prog : list instr) (t : list event) : Prop :=
  worked (C_prctl_seccomp (Some prog)) t \/ exists flags, worked (C_seccomp flags (Some prog)) t.
(* The policy of -S, with -L and -Y: the program's system calls are decided by
   what the text says (little-endian builds, see C01). *)
Definition policy_enforced (w : world) (L : list (N * option string)) (s : policy_source) (t : list event) : Prop :=
  let b := ps_build s in little (b_plat b) = true -> names_ok (b_consts b) ->
  exists st prog logging tsync pol,
    let e := w_env w in
    let o := FOpts (violation_action logging tsync (k_ret_log e) (k_kill_process e)) logging (logging && negb (k_ret_log e)) (k_allow_dup e) (k_libc_compat e) in
    ps_stream s = Some st /\
    (logging = true <-> k_debug_logging e = true /\ (k_default_ret_log e = true \/ has L (short "L"))) /\
    (tsync = true <-> has L (short "Y")) /\
    reads_policy b o (ps_files s) st pol /\ installed prog t /\
    forall d, sd_ok d -> (forall r, find_rule (sd_nr d) pol = Some r -> rule_args_ok r) ->
    exists v, S_Bpf.run true prog d = VRet v /\ verdict b o pol d v.

(* Arguments in their documented ranges. *)
Definition well_formed (w : world) (L : list (N * option string)) : Prop :=
  32 <= w_long w /\ names_ok (w_consts w) /\ Forall (fits w) L /\ small_ids w L /\ files_ok w.
