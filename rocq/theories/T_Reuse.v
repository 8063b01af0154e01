(* C72: a jail can be launched again.
   [u] is the past of a jail: configuration calls, runs that failed and runs
   that started a process.  [relaunched]: a program was then started in it with
   the preload library, [relaunched_plain]: without; the rest is as for C28. *)
From Verif Require Import S_Reuse S_Fds P_ReuseEx.
Local Open Scope N_scope.

(* Every launch of a jail with a past is the launch of a jail that was only
   configured, by the same calls but for descriptors to pass on.  So whatever
   C28, C41, C42 and C56 say of [launched] holds for it. *)
Theorem C72_as_first : forall g ec ep u j t1 t2 envp envp', relaunched g ec ep u j t1 t2 envp envp' ->
  exists h j0, launched g ec ep h j0 t1 t2 envp envp' /\ but_descriptors h = but_descriptors (calls u).
Proof. exact as_first. Qed.
Print Assumptions C72_as_first.
Theorem C72_as_first_no_preload : forall g ec exec u j t, relaunched_plain g ec exec u j t ->
  exists h j0, launched_plain g ec exec h j0 t /\ but_descriptors h = but_descriptors (calls u).
Proof. exact as_first_plain. Qed.
Print Assumptions C72_as_first_no_preload.
Example C72_case : relaunched ex_cfg second_env second_env two_uses two_jail two_t1 two_t2 run_envp ["PATH=/bin"; "LD_PRELOAD=/lib/a.so"]%string /\
  calls two_uses = run_history /\ last_pid two_uses = 4000%Z /\
  In (C_prctl_seccomp (Some ex_prog), Yes 0 "") two_t2 /\ In (C_landlock_restrict 6, Yes 0 "") two_t2 /\
  In (C_unshare 131072, Yes 0 "") two_t1 /\ In (C_setresuid 1000, Yes 0 "") two_t2.
Proof. split; [exact two_case|exact two_rest]. Qed.

(* In particular: what the calls ask for is applied (partial as C28). *)
Theorem C72_applied_partial : forall g ec ep u j t1 t2 envp envp' c, relaunched g ec ep u j t1 t2 envp envp' ->
  wants g (calls u) c -> ~ (is_own_init (calls u) /\ on_proc c) -> worked c (t1 ++ t2).
Proof. intros g ec ep u j t1 t2 envp envp' c L. exact (again_applied g ec ep u j t1 t2 envp envp' L c). Qed.
Print Assumptions C72_applied_partial.
Theorem C72_applied_no_preload : forall g ec exec u j t c, relaunched_plain g ec exec u j t ->
  wants g (calls u) c -> ~ (is_own_init (calls u) /\ on_proc c) -> worked c t.
Proof. intros g ec exec u j t c L. exact (again_plain_applied g ec exec u j t L c). Qed.
Print Assumptions C72_applied_no_preload.
Theorem C72_filter : forall g ec ep u j t1 t2 envp envp', relaunched g ec ep u j t1 t2 envp envp' ->
  asked F_seccomp_filter (calls u) -> k_softfail (g_env g) = false -> g_asan g = false ->
  exists prog, holds_filter prog (last_of filter_of (calls u) None) /\
  (content prog <> Some [] ->
   worked (C_prctl_seccomp (content prog)) t2 \/ exists flags, worked (C_seccomp flags (content prog)) t2).
Proof. exact again_filter. Qed.
Print Assumptions C72_filter.
Theorem C72_filter_no_preload : forall g ec exec u j t, relaunched_plain g ec exec u j t ->
  asked F_seccomp_filter (calls u) -> k_softfail (g_env g) = false -> g_asan g = false ->
  exists prog, holds_filter prog (last_of filter_of (calls u) None) /\
  (worked (C_prctl_seccomp (content prog)) t \/ exists flags, worked (C_seccomp flags (content prog)) t).
Proof. exact again_plain_filter. Qed.
Print Assumptions C72_filter_no_preload.
Theorem C72_files_restricted : forall g ec ep u j t1 t2 envp envp', relaunched g ec ep u j t1 t2 envp envp' ->
  ~ called A_add_minimalistic_mountns_fs_rules (calls u) -> ~ called A_disable_fs_restrictions (calls u) ->
  rules_added (k_landlock_abi (g_env g)) (calls u) <> [] -> (0 <= k_landlock_fd ep)%Z ->
  worked (C_landlock_restrict (k_landlock_fd ep)) t2.
Proof. exact again_restricted. Qed.
Print Assumptions C72_files_restricted.
Theorem C72_mounts : forall g ec ep u j t1 t2 envp envp', relaunched g ec ep u j t1 t2 envp envp' ->
  exists dev done rest, dev_of (calls u) t2 dev /\ accepted mount_added (calls u) = done ++ rest /\
  mounted (new_root (calls u)) dev done t2 /\ (rest = [] \/ exists m tl, rest = m :: tl /\ unchecked (g_env g) m t2).
Proof. exact again_mounts. Qed.
Print Assumptions C72_mounts.
Theorem C72_identity_partial : forall g ec ep u j t1 t2 envp envp', relaunched g ec ep u j t1 t2 envp envp' ->
  forall groups_of s s2, let after := after groups_of (fun _ c => c) in let h := calls u in
  same_ids (after s t1) s2 -> let s' := after s2 t2 in
  groups_due groups_of h (groups s) (groups s') /\
  (asked F_uid h -> last_of uid_of h 0 <> NO_ID -> uids s' = (last_of uid_of h 0, last_of uid_of h 0, last_of uid_of h 0)) /\
  (~ asked F_uid h -> uids s' = uids s \/ (asked F_userns h /\ uids s' = (0, 0, 0))) /\
  (asked F_gid h -> last_of gid_of h 0 <> NO_ID -> gids s' = (last_of gid_of h 0, last_of gid_of h 0, last_of gid_of h 0)) /\
  (~ asked F_gid h -> gids s' = gids s \/ (asked F_userns h /\ gids s' = (0, 0, 0))).
Proof. intros g ec ep u j t1 t2 envp envp' L groups_of s s2. exact (again_identity g ec ep u j t1 t2 envp envp' L groups_of s s2). Qed.
Print Assumptions C72_identity_partial.
Theorem C72_capabilities : forall g ec ep u j t1 t2 envp envp', relaunched g ec ep u j t1 t2 envp envp' ->
  forall groups_of s, let h := calls u in asked F_use_caps h ->
  let s' := after groups_of (fun _ c => c) s t2 in exists last x, In (C_last_cap, Yes last x) t2 /\ last <= 64 /\
  let mask := last_of caps_of h 0 in
  (forall i, N.testbit (effective s') i = supported last i && N.testbit mask i) /\
  permitted s' = effective s' /\ inheritable s' = effective s' /\
  (asked F_set_ambient_caps h -> ambient s' = effective s') /\
  (forall i, N.testbit (ambient s') i = true -> supported last i && N.testbit mask i = true) /\
  (N.land (last_of skip_of h 0) 3 = 0 ->
   forall i, N.testbit (bounding s') i = N.testbit (bounding s) i && (N.testbit mask i || negb (supported last i))).
Proof. intros g ec ep u j t1 t2 envp envp' L groups_of s. exact (again_caps g ec ep u j t1 t2 envp envp' L groups_of s). Qed.
Print Assumptions C72_capabilities.

(* minijail_wait and minijail_kill are about the process started last
   (j_initpid is what M_Wait's functions are given); 0 before the first. *)
Theorem C72_latest : forall e u j, used e minijail_new u j -> j_initpid j = last_pid u.
Proof. intros e u j U. exact (latest e minijail_new u j U). Qed.
Print Assumptions C72_latest.

(* ---- what is false ---- *)
(* A jail that enters existing namespaces can do so once: starting a program
   closes the descriptor in the launching process, and the next launch of the
   jail has to enter through that number. *)
Theorem C72_entered_once_refuted : forall e u j t filename pid, used e minijail_new u j ->
  (asked F_enter_vfs (calls u) -> let fd := last_of mountns_of (calls u) 0%Z in
     launcher_after j t fd = None /\ forall g, wants g (calls (u ++ [Ran filename pid])) (C_setns fd 131072)) /\
  (asked F_enter_net (calls u) -> let fd := last_of netns_of (calls u) 0%Z in
     launcher_after j t fd = None /\ forall g, wants g (calls (u ++ [Ran filename pid])) (C_setns fd 1073741824)).
Proof. exact entered_closed. Qed.
Print Assumptions C72_entered_once_refuted.
Example C72_entered_case : exists j, used ex_env minijail_new [Call (A_namespace_enter_vfs 7) 0] j /\
  asked F_enter_vfs (calls [Call (A_namespace_enter_vfs 7) 0]) /\ last_of mountns_of (calls [Call (A_namespace_enter_vfs 7) 0]) 0%Z = 7%Z.
Proof. exact enter_case. Qed.
(* A jail with file access rules starts 128 programs.  Each start makes a
   ruleset (close-on-exec) that is to be passed on, and there is room for 128
   such descriptors; the next program does not get the ruleset that the preload
   library restricts itself with. *)
Theorem C72_any_number_refuted : exists e ec u j t0 st t,
  used e minijail_new u j /\ same_kernel e ec /\ calls u = [(A_fs_rx "/usr"%string, 1%Z)] /\ length u = 129%nat /\
  open_pipes 1024 true false false false false 1000 t0 = Some (st, t) /\ lowest_free 1024 t = Some (k_landlock_fd ec) /\
  forall close_all, exists st' elf' t',
    child_setup 1024 close_all (to_pass (with_ruleset ec j)) (-1) false st (upd t (k_landlock_fd ec) (Some (500, true))) = Some (st', elf', t') /\
    at_start st' t' (k_landlock_fd ec) = None.
Proof. exact rulesets_run_out. Qed.
Print Assumptions C72_any_number_refuted.
(* the one before that does *)
Example C72_any_number_case : child_of 127 true = Some (133%Z, Some (500%N, false)) /\ child_of 127 false = Some (133%Z, Some (500%N, false)).
Proof. exact rulesets_kept. Qed.
