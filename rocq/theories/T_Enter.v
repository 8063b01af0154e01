(* C29-C33, C35, C42, C43, C53, C55: entering a jail.  In all of them [h] is any
   sequence of configuration calls with their return codes, [j] the jail it
   builds, [kernel] any kernel, [t] the calls minijail_enter made with the
   kernel's answers.  [ex_history] asks for many restrictions at once; on
   [ex_kernel] everything works and the trace is [ex_trace]. *)
From Verif Require Import P_MountsSent S_Marshal S_Wants S_Mount P_EnterEx P_Pivot.
Local Open Scope N_scope.

Example enter_case : history (g_env ex_cfg) minijail_new ex_history ex_jail /\
  run ex_kernel [] (minijail_enter ex_cfg ex_jail) = (Returned tt, ex_trace) /\ length ex_trace = 139%nat.
Proof. split; [exact ex_jail_built|]. split; [exact ex_run|]. vm_compute. reflexivity. Qed.

(* ---- C29: fail-closed ----
   When minijail_enter returns, what was asked for is in force.  Missing from
   the full statement: mounts (C35) and per-mount modes when / is left alone,
   both refuted. *)
Theorem C29_fail_closed_partial : forall g h j kernel t c,
  history (g_env g) minijail_new h j -> run kernel [] (minijail_enter g j) = (Returned tt, t) ->
  wants g h c -> worked c t.
Proof. exact wants_met. Qed.
Print Assumptions C29_fail_closed_partial.
Example C29_case : Forall (wants ex_cfg ex_history)
  [C_unshare 131072; C_mount None "/" None (16384 + 262144) None; C_mount None "/media" None (16384 + 524288) None;
   C_sethostname "inside"; C_unshare 1073741824; C_chdir "/jail"; C_pivot_root "." ".";
   C_mount (Some "proc"%string) "/proc" (Some "proc"%string) 15 (Some ""%string);
   C_setresgid 100; C_setresuid 1000; C_no_new_privs].
Proof. exact ex_wants. Qed.
(* the filter given last is installed (not under AddressSanitizer) *)
Theorem C29_filter_installed : forall g h j kernel t,
  history (g_env g) minijail_new h j -> run kernel [] (minijail_enter g j) = (Returned tt, t) ->
  asked F_seccomp_filter h -> k_softfail (g_env g) = false -> g_asan g = false ->
  exists prog, holds_filter prog (last_of filter_of h None) /\
    (worked (C_prctl_seccomp (content prog)) t \/ exists flags, worked (C_seccomp flags (content prog)) t).
Proof. exact filter_met. Qed.
Print Assumptions C29_filter_installed.
Example C29_filter_case : asked F_seccomp_filter ex_history /\ k_softfail (g_env ex_cfg) = false /\ g_asan ex_cfg = false /\
  last_of filter_of ex_history None = Some (inr ex_prog) /\
  In (C_prctl_seccomp (Some ex_prog), Yes 0 "") ex_trace.
Proof. exact ex_filter. Qed.
(* file access is restricted, if the kernel gave a ruleset *)
Theorem C29_files_restricted : forall g h j kernel t,
  history (g_env g) minijail_new h j -> run kernel [] (minijail_enter g j) = (Returned tt, t) ->
  ~ called A_add_minimalistic_mountns_fs_rules h -> ~ called A_disable_fs_restrictions h ->
  rules_added (k_landlock_abi (g_env g)) h <> [] -> (0 <= k_landlock_fd (g_env g))%Z ->
  worked (C_landlock_restrict (k_landlock_fd (g_env g))) t.
Proof. exact restrict_claim. Qed.
Print Assumptions C29_files_restricted.
(* no other failure is survived *)
Theorem C29_failures_survived : forall g j kernel t,
  run kernel [] (minijail_enter g j) = (Returned tt, t) -> Forall (tolerated g (dev_in t)) t.
Proof. exact tolerated_claim. Qed.
Print Assumptions C29_failures_survived.
Theorem C29_remounts_refuted : exists j t, history (g_env ex_cfg) minijail_new skip_calls j /\
  run ex_kernel [] (minijail_enter ex_cfg j) = (Returned tt, t) /\
  accepted remount_added skip_calls = [Remount 524288 "/media"] /\
  forall ev, In ev t -> mounts (fst ev) = false.
Proof. exact remount_lost. Qed.
Print Assumptions C29_remounts_refuted.

(* ---- C30: the order, whether it returns or dies ---- *)
Theorem C30_root_order : forall g h j kernel o t,
  history (g_env g) minijail_new h j -> run kernel [] (minijail_enter g j) = (o, t) ->
  never_after namespaces (fun c => changes_root c || is_hook c || changes_identity c || changes_caps c || installs_filter c) t /\
  never_after configured_mount changes_root t /\
  never_after mounts (fun c => changes_identity c || changes_caps c || installs_filter c) t /\
  never_after changes_root (fun c => changes_identity c || changes_caps c || installs_filter c) t.
Proof. exact order_root. Qed.
Print Assumptions C30_root_order.
Theorem C30_identity_order : forall g j kernel o t,
  run kernel [] (minijail_enter g j) = (o, t) ->
  never_after changes_groups (fun c => changes_gid c || changes_uid c) t /\
  never_after changes_gid changes_uid t /\
  never_after changes_identity changes_caps t /\
  never_after restricts_files installs_filter t.
Proof. exact order_ids. Qed.
Print Assumptions C30_identity_order.
Theorem C30_filter_last : forall g h j kernel o t,
  history (g_env g) minijail_new h j -> run kernel [] (minijail_enter g j) = (o, t) ->
  asked F_no_new_privs h -> k_softfail (g_env g) = false ->
  only_after installs_filter sets_nnp t /\ never_after (fun c => negb (final_step c)) installs_filter t.
Proof. exact order_filter. Qed.
Print Assumptions C30_filter_last.

(* ---- C31: capabilities ----
   [s] is the process before, [hook_effect] whatever the caller's hooks do. *)
Theorem C31_capabilities : forall g h j kernel t,
  history (g_env g) minijail_new h j -> run kernel [] (minijail_enter g j) = (Returned tt, t) ->
  forall groups_of hook_effect s, let s' := after groups_of hook_effect s t in
  asked F_use_caps h -> exists last x, In (C_last_cap, Yes last x) t /\ last <= 64 /\
  let mask := last_of caps_of h 0 in
  (forall i, N.testbit (effective s') i = supported last i && N.testbit mask i) /\
  permitted s' = effective s' /\ inheritable s' = effective s' /\
  (asked F_set_ambient_caps h -> ambient s' = effective s') /\
  (forall i, N.testbit (ambient s') i = true -> supported last i && N.testbit mask i = true) /\
  (N.land (last_of skip_of h 0) 3 = 0 -> (forall hk c, bounding (hook_effect hk c) = bounding c) ->
   forall i, N.testbit (bounding s') i = N.testbit (bounding s) i && (N.testbit mask i || negb (supported last i))).
Proof. exact caps_claim. Qed.
Print Assumptions C31_capabilities.
Theorem C31_bounding_set : forall g h j kernel t,
  history (g_env g) minijail_new h j -> run kernel [] (minijail_enter g j) = (Returned tt, t) ->
  forall groups_of hook_effect s keep, let s' := after groups_of hook_effect s t in
  last_of dropped_caps_of h None = Some keep -> exists last x, In (C_last_cap, Yes last x) t /\ last <= 64 /\
  ((forall hk c, bounding (hook_effect hk c) = bounding c) ->
   forall i, N.testbit (bounding s') i = N.testbit (bounding s) i && (N.testbit keep i || negb (supported last i))).
Proof. exact bset_claim. Qed.
Print Assumptions C31_bounding_set.
Example C31_case : let s := Creds 0 0 0 0 0 0 [0; 1; 2] (2 ^ 41 - 1) (2 ^ 41 - 1) 0 (2 ^ 41 - 1) 0 0 false in
  asked F_use_caps ex_history /\ asked F_set_ambient_caps ex_history /\ asked F_uid ex_history /\
  asked F_set_suppl_gids ex_history /\ last_of caps_of ex_history 0 = 1025 /\ last_of skip_of ex_history 0 = 0 /\
  N.land (g_secure_all_bits ex_cfg) 21 = 21 /\
  after (fun _ _ => []) (fun _ c => c) s ex_trace
  = Creds 1000 1000 1000 100 100 100 [7; 8] 1025 1025 1025 1025 1025 63 true.
Proof. exact ex_creds. Qed.
Example C31_bounding_case : history (g_env ex_cfg) minijail_new [(A_capbset_drop 5, 0%Z)] bset_jail /\
  last_of dropped_caps_of [(A_capbset_drop 5, 0%Z)] None = Some 5 /\
  exists t, run ex_kernel [] (minijail_enter ex_cfg bset_jail) = (Returned tt, t) /\
    bounding (after (fun _ _ => []) (fun _ c => c) (Creds 0 0 0 0 0 0 [] 7 7 0 (2 ^ 41 - 1) 0 0 false) t) = 5.
Proof. exact bset_case. Qed.

(* ---- C32: securebits ----
   Bits 0, 2, 4 are NOROOT, NO_SETUID_FIXUP, KEEP_CAPS; 1, 3, 5 their locks.
   The exception is KEEP_CAPS that was already locked in the off position. *)
Theorem C32_securebits_locked : forall g h j kernel t,
  history (g_env g) minijail_new h j -> run kernel [] (minijail_enter g j) = (Returned tt, t) ->
  forall groups_of hook_effect s, let s' := after groups_of hook_effect s t in
  N.land (g_secure_all_bits g) 21 = 21 -> asked F_use_caps h ->
  forall i, i < 6 -> N.testbit (last_of skip_of h 0) i = false ->
  N.testbit (securebits s') i = true \/
  (i = 4 /\ asked F_set_ambient_caps h /\
   exists cur x, In (C_get_securebits, Yes cur x) t /\ N.testbit cur 5 = true /\ N.testbit cur 4 = false).
Proof. exact locked_claim. Qed.
Print Assumptions C32_securebits_locked.

(* ---- C33: identity ----
   Partial: for ids other than (uid_t)-1, [NO_ID], with which the kernel's calls
   change nothing; see the last theorem. *)
Theorem C33_identity_partial : forall g h j kernel t,
  history (g_env g) minijail_new h j -> run kernel [] (minijail_enter g j) = (Returned tt, t) ->
  forall groups_of hook_effect s, let s' := after groups_of hook_effect s t in
  (forall hk c, uids (hook_effect hk c) = uids c /\ gids (hook_effect hk c) = gids c /\ groups (hook_effect hk c) = groups c) ->
  at_most_one (asked F_inherit_suppl_gids h) (asked F_keep_suppl_gids h) (asked F_set_suppl_gids h) /\
  groups_due groups_of h (groups s) (groups s') /\
  (asked F_uid h -> last_of uid_of h 0 <> NO_ID -> uids s' = (last_of uid_of h 0, last_of uid_of h 0, last_of uid_of h 0)) /\ (~ asked F_uid h -> uids s' = uids s) /\
  (asked F_gid h -> last_of gid_of h 0 <> NO_ID -> gids s' = (last_of gid_of h 0, last_of gid_of h 0, last_of gid_of h 0)) /\ (~ asked F_gid h -> gids s' = gids s).
Proof. exact identity_claim. Qed.
Print Assumptions C33_identity_partial.
(* minijail_change_uid(j, -1) and minijail_change_gid(j, -1) are accepted, and
   minijail_enter leaves root as root. *)
Theorem C33_no_id_refuted : exists j t, history (g_env ex_cfg) minijail_new no_id_calls j /\
  run ex_kernel [] (minijail_enter ex_cfg j) = (Returned tt, t) /\ asked F_uid no_id_calls /\ asked F_gid no_id_calls /\
  (let s := Creds 0 0 0 0 0 0 [] 7 7 0 7 0 0 false in after (fun _ _ => []) (fun _ c => c) s t = s).
Proof. exact still_root. Qed.
Print Assumptions C33_no_id_refuted.

(* ---- C35: mounts ----
   The mounts are performed in order up to the first bind whose source could
   not be checked; from there on none is, and nobody is told. *)
Theorem C35_mounts_partial : forall g h j kernel t,
  history (g_env g) minijail_new h j -> run kernel [] (minijail_enter g j) = (Returned tt, t) ->
  exists dev done rest, dev_of h t dev /\ accepted mount_added h = done ++ rest /\
  mounted (new_root h) dev done t /\ (rest = [] \/ exists m tl, rest = m :: tl /\ unchecked (g_env g) m t).
Proof. exact mounts_claim. Qed.
Print Assumptions C35_mounts_partial.
Example C35_case : accepted mount_added ex_history =
  [Mount "none" "/run" "tmpfs" (Some "mode=0755,size=10M"%string) 14; Mount "/src" "/dev/log" "minijail_bind" None 4096;
   Mount "/usr" "/usr" "minijail_bind" None 4097] /\ new_root ex_history = "/jail"%string /\
  dev_in ex_trace "/tmp/minijail.dev.a1b2c3".
Proof. split; [reflexivity|]. split; [reflexivity|]. exists 0. vm_compute. find_in. Qed.
Theorem C35_all_mounted_refuted : exists j t, history (g_env ex_cfg) minijail_new two_binds j /\
  run (fun past c => match c with C_statvfs _ => No 13%positive | _ => ex_kernel past c end) [] (minijail_enter ex_cfg j) = (Returned tt, t) /\
  accepted mount_added two_binds = [Mount "/a" "/a" "minijail_bind" None 4096; Mount "/b" "/b" "minijail_bind" None 4097] /\
  forall src dest type fl data x, In (C_mount (Some src) dest type fl data, x) t -> False.
Proof. exact binds_lost. Qed.
Print Assumptions C35_all_mounted_refuted.

(* ---- C42: hooks ----
   For the hooks run before execve (event 1) see T_Run. *)
Theorem C42_hooks_when_entered : forall g h j kernel o t,
  history (g_env g) minijail_new h j -> run kernel [] (minijail_enter g j) = (o, t) ->
  exists l, hooks_due h l /\ hooks_spec l t o.
Proof. exact hooks_claim. Qed.
Print Assumptions C42_hooks_when_entered.
Theorem C42_hooks_at_their_event : forall g h j kernel o t,
  history (g_env g) minijail_new h j -> run kernel [] (minijail_enter g j) = (o, t) ->
  never_after (hook_at 2) changes_root t /\
  never_after (fun c => changes_root c || mounts c || namespaces c) (hook_at 0) t /\
  never_after is_hook (fun c => changes_identity c || changes_caps c || installs_filter c || restricts_files c
    || match c with C_capbset_drop _ | C_set_securebits _ | C_no_new_privs => true | _ => false end) t.
Proof. exact hooks_order. Qed.
Print Assumptions C42_hooks_at_their_event.
Example C42_case : accepted hook_added ex_history = [Hook 1 10 0; Hook 2 20 2; Hook 3 30 0; Hook 4 40 2] /\
  hooks_run ex_trace = [(C_hook (Hook 2 20 2), Yes 0 ""); (C_hook (Hook 4 40 2), Yes 0 "");
                        (C_hook (Hook 1 10 0), Yes 0 ""); (C_hook (Hook 3 30 0), Yes 0 "")].
Proof. split; vm_compute; reflexivity. Qed.
Example C42_failing_case : exists t, run (fun past c => match c with C_hook h => if hk_fn h =? 4 then No 1%positive else Yes 0 "" | _ => ex_kernel past c end)
    [] (minijail_enter ex_cfg ex_jail) = (Died, t) /\
  hooks_run t = [(C_hook (Hook 2 20 2), Yes 0 ""); (C_hook (Hook 4 40 2), No 1%positive)].
Proof. exact hook_fails. Qed.

(* ---- C43: file access rules ----
   The rules are added one by one in the order given, each with the rights
   asked for (those that make sense for a file, on a file), all before access
   is restricted; none at all if the kernel has no Landlock.  Missing: a rule
   the kernel refuses is dropped in silence, see below. *)
Theorem C43_rules_partial : forall g h j kernel o t,
  history (g_env g) minijail_new h j -> run kernel [] (minijail_enter g j) = (o, t) ->
  ~ called A_add_minimalistic_mountns_fs_rules h -> ~ called A_disable_fs_restrictions h ->
  never_after is_add restricts_files t /\
  exists a m z, t = a ++ m ++ z /\ (forall ev, In ev (a ++ z) -> is_add (fst ev) = false) /\
  ((m = [] /\ forall abi s, In (C_landlock_version, Yes abi s) t -> abi = 0) \/
   exists segs, m = concat segs /\ Forall2 (rule_calls (k_landlock_fd (g_env g))) (rules_added (k_landlock_abi (g_env g)) h) segs).
Proof. exact rules_claim. Qed.
Print Assumptions C43_rules_partial.
Example C43_case : ~ called A_add_minimalistic_mountns_fs_rules ex_history /\ ~ called A_disable_fs_restrictions ex_history /\
  rules_added 3 ex_history = [FsRule "/etc" 12; FsRule "/usr" 13] /\ (0 <= k_landlock_fd (g_env ex_cfg))%Z /\
  In (C_landlock_add 5 9 13, Yes 0 "") ex_trace /\ In (C_landlock_restrict 5, Yes 0 "") ex_trace.
Proof. exact ex_rules. Qed.
Theorem C43_unhandled_right_refuted : exists j t, history (g_env abi1_cfg) minijail_new refer_calls j /\
  run (fun past c => match c with
         | C_landlock_version => Yes 1 ""
         | C_landlock_add _ _ r => if r <? 8192 then Yes 0 "" else No 22%positive   (* EINVAL: a right that is not handled *)
         | _ => ex_kernel past c end) [] (minijail_enter abi1_cfg j) = (Returned tt, t) /\
  rules_added 1 refer_calls = [FsRule "/data" (12 + 8192)] /\
  (forall fd p r v s, ~ In (C_landlock_add fd p r, Yes v s) t) /\ In (C_landlock_restrict 5, Yes 0 "") t.
Proof. exact rule_lost. Qed.
Print Assumptions C43_unhandled_right_refuted.

(* ---- C53: propagation ----
   With a mode for / (MS_PRIVATE unless changed): / first, then the mounts with
   a mode of their own, in order; none of them below the mode of /. *)
Theorem C53_propagation : forall g h j kernel t,
  history (g_env g) minijail_new h j -> run kernel [] (minijail_enter g j) = (Returned tt, t) ->
  own_mountns h -> root_mode h <> 0 ->
  Forall (fun r => root_mode h <= rm_mode r) (accepted remount_added h) /\
  did (C_unshare 131072 :: propagate "/" (root_mode h) :: map (fun r => propagate (rm_name r) (rm_mode r)) (accepted remount_added h)) t.
Proof. exact propagation_claim. Qed.
Print Assumptions C53_propagation.
(* and these are the only propagation changes, besides that of the old root
   just before it is detached, whether it returns or dies *)
Theorem C53_no_other_propagation : forall g h j kernel o t,
  history (g_env g) minijail_new h j -> run kernel [] (minijail_enter g j) = (o, t) ->
  forall ev, In ev t -> is_propagate (fst ev) = true ->
  fst ev = propagate "." 262144 \/ fst ev = propagate "/" (root_mode h) \/
  exists r, In r (accepted remount_added h) /\ root_mode h <= rm_mode r /\ fst ev = propagate (rm_name r) (rm_mode r).
Proof. exact propagation_any. Qed.
Print Assumptions C53_no_other_propagation.
Example C53_case : root_mode ex_history = 262144 /\ accepted remount_added ex_history = [Remount 524288 "/media"] /\
  filter (fun ev => is_propagate (fst ev)) ex_trace =
  [(propagate "/" 262144, Yes 0 ""); (propagate "/media" 524288, Yes 0 ""); (propagate "." 262144, Yes 0 "")].
Proof. repeat split; vm_compute; reflexivity. Qed.

(* ---- C55: the mounts recorded, with their defaults, arrive unchanged in a
   process the jail is sent to (and are performed as C35 says). ---- *)
Theorem C55_mounts_transferred : forall addr e e' h j j0,
  history e minijail_new h j -> c_typed j -> S_Marshal.nonnull addr -> k_landlock_abi e' = k_landlock_abi e ->
  j_suppl_gid_count j <= 65536 -> Forall (fun r => fr_flags r <> 0) (j_fs_rules j) -> j_fs_rules_fd j <> 0%Z ->
  exists size bytes j', minijail_size addr j = Some size /\ minijail_marshal addr j size = Some (0%Z, bytes) /\
    minijail_unmarshal e' j0 bytes = UOk j' /\ j_mounts j' = accepted mount_added h /\
    hasf F_vfs j' = hasf F_vfs j.
Proof. exact mounts_transferred. Qed.
Print Assumptions C55_mounts_transferred.
Example C55_sent_case : exists h j, history full_env minijail_new h j /\ map fst h = full_calls /\ c_typed j /\
  j_suppl_gid_count j <= 65536 /\ Forall (fun r => fr_flags r <> 0) (j_fs_rules j) /\ j_fs_rules_fd j <> 0%Z /\
  length (j_mounts j) = 2%nat.
Proof. destruct full_case as (h & j & A & B & C & D & E & F & _ & _ & _ & G & _). exists h, j. auto 10. Qed.

(* ---- C56: the new root ----
   The steps worked in this order; the old root is entered and made private
   before it is detached, and the process ends in the new root. *)
Theorem C56_pivot_root : forall g h j kernel t d,
  history (g_env g) minijail_new h j -> run kernel [] (minijail_enter g j) = (Returned tt, t) ->
  asked F_pivot_root h -> first_of root_of h = Some d ->
  exists old new so sn, In (C_open "/" DirRead, Yes old so) t /\ In (C_open d DirRead, Yes new sn) t /\
  did [C_open "/" DirRead; C_open d DirRead; C_mount (Some d) d (Some "bind"%string) 20480 (Some ""%string); C_chdir d;
       C_pivot_root "." "."; C_fchdir (Z.of_N old); propagate "." 262144; C_umount "."; C_fchdir (Z.of_N new);
       C_chroot "/"; C_chdir "/"] t.
Proof. exact pivot_claim. Qed.
Print Assumptions C56_pivot_root.
Example C56_case : asked F_pivot_root ex_history /\ first_of root_of ex_history = Some "/jail"%string /\
  did [C_pivot_root "." "."; C_fchdir 9; propagate "." 262144; C_umount "."; C_fchdir 9; C_chroot "/"; C_chdir "/"] ex_trace.
Proof. exact pivot_case. Qed.
Theorem C56_chroot : forall g h j kernel t d,
  history (g_env g) minijail_new h j -> run kernel [] (minijail_enter g j) = (Returned tt, t) ->
  asked F_chroot h -> first_of root_of h = Some d -> did [C_chroot d; C_chdir "/"] t.
Proof. exact chroot_claim. Qed.
Print Assumptions C56_chroot.
Example C56_chroot_case : history ex_env minijail_new chroot_history chroot_jail /\
  fst (run ex_kernel [] (minijail_enter ex_cfg chroot_jail)) = Returned tt /\ asked F_chroot chroot_history /\ first_of root_of chroot_history = Some "/jail"%string.
Proof. exact chroot_case. Qed.
