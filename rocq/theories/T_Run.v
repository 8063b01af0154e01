(* C28, C41, C42: running a program in a jail.  [h] is any sequence of
   configuration calls with their return codes, [j] the jail it builds.
   [launched]: a program started with the preload library reached its main
   function; the forked child made the calls [t1], the library in the new
   program [t2].  [launched_plain]: without the library, or minijail_fork; the
   child made the calls [t]. *)
From Verif Require Import S_Run S_Mount S_Creds S_Util P_RunEx P_RunEnv.
Local Open Scope N_scope.

Example launched_case : launched ex_cfg ex_env ex_env run_history run_jail run_t1 run_t2 run_envp ["PATH=/bin"; "LD_PRELOAD=/lib/a.so"]%string /\
  launched_plain ex_cfg ex_env true plain_history plain_jail plain_trace.
Proof. split; [exact run_case|exact plain_case]. Qed.

(* ---- C28: every restriction is applied by the child or by the library ----
   Partial: a program that is the first process of a pid namespace is left to
   mount /proc itself.  See also the end of this part. *)
Theorem C28_applied_partial : forall g ec ep h j t1 t2 envp envp' c,
  launched g ec ep h j t1 t2 envp envp' -> wants g h c -> ~ (is_own_init h /\ on_proc c) -> worked c (t1 ++ t2).
Proof. intros g ec ep h j t1 t2 envp envp' c L. exact (applied g ec ep h j t1 t2 envp envp' L c). Qed.
Print Assumptions C28_applied_partial.
(* The system call filter, by the library. *)
Theorem C28_filter : forall g ec ep h j t1 t2 envp envp',
  launched g ec ep h j t1 t2 envp envp' ->
  asked F_seccomp_filter h -> k_softfail (g_env g) = false -> g_asan g = false ->
  exists prog, holds_filter prog (last_of filter_of h None) /\
  (content prog <> Some [] ->
   worked (C_prctl_seccomp (content prog)) t2 \/ exists flags, worked (C_seccomp flags (content prog)) t2).
Proof. intros g ec ep h j t1 t2 envp envp' L. exact (filter_run g ec ep h j t1 t2 envp envp' L). Qed.
Print Assumptions C28_filter.
(* The file access rules. *)
Theorem C28_files_restricted : forall g ec ep h j t1 t2 envp envp',
  launched g ec ep h j t1 t2 envp envp' ->
  ~ called A_add_minimalistic_mountns_fs_rules h -> ~ called A_disable_fs_restrictions h ->
  rules_added (k_landlock_abi (g_env g)) h <> [] -> (0 <= k_landlock_fd ep)%Z ->
  worked (C_landlock_restrict (k_landlock_fd ep)) t2.
Proof. intros g ec ep h j t1 t2 envp envp' L. exact (restrict_run g ec ep h j t1 t2 envp envp' L). Qed.
Print Assumptions C28_files_restricted.
(* The mounts, by the library (see C35 for mounts that are skipped). *)
Theorem C28_mounts : forall g ec ep h j t1 t2 envp envp',
  launched g ec ep h j t1 t2 envp envp' ->
  exists dev done rest, dev_of h t2 dev /\ accepted mount_added h = done ++ rest /\
  mounted (new_root h) dev done t2 /\ (rest = [] \/ exists m tl, rest = m :: tl /\ unchecked (g_env g) m t2).
Proof. exact P_RunClaims.mounts_run. Qed.
Print Assumptions C28_mounts.
(* The identity of the program: [s] are the credentials of the forked child,
   [s2] those after execve of a program that is not set-user-id.  Without a
   request the ids stay, or are 0 in a new user namespace with an id map.
   Partial: [NO_ID] excluded, see C33. *)
Theorem C28_identity_partial : forall g ec ep h j t1 t2 envp envp',
  launched g ec ep h j t1 t2 envp envp' -> forall groups_of s s2,
  let after := after groups_of (fun _ c => c) in
  same_ids (after s t1) s2 -> let s' := after s2 t2 in
  at_most_one (asked F_inherit_suppl_gids h) (asked F_keep_suppl_gids h) (asked F_set_suppl_gids h) /\
  groups_due groups_of h (groups s) (groups s') /\
  (asked F_uid h -> last_of uid_of h 0 <> NO_ID -> uids s' = (last_of uid_of h 0, last_of uid_of h 0, last_of uid_of h 0)) /\
  (~ asked F_uid h -> uids s' = uids s \/ (asked F_userns h /\ uids s' = (0, 0, 0))) /\
  (asked F_gid h -> last_of gid_of h 0 <> NO_ID -> gids s' = (last_of gid_of h 0, last_of gid_of h 0, last_of gid_of h 0)) /\
  (~ asked F_gid h -> gids s' = gids s \/ (asked F_userns h /\ gids s' = (0, 0, 0))).
Proof. exact P_RunClaims.identity_run. Qed.
Print Assumptions C28_identity_partial.
(* The capabilities; [s] are the credentials after execve. *)
Theorem C28_capabilities : forall g ec ep h j t1 t2 envp envp',
  launched g ec ep h j t1 t2 envp envp' -> forall groups_of s, asked F_use_caps h ->
  let s' := after groups_of (fun _ c => c) s t2 in exists last x, In (C_last_cap, Yes last x) t2 /\ last <= 64 /\
  let mask := last_of caps_of h 0 in
  (forall i, N.testbit (effective s') i = supported last i && N.testbit mask i) /\
  permitted s' = effective s' /\ inheritable s' = effective s' /\
  (asked F_set_ambient_caps h -> ambient s' = effective s') /\
  (forall i, N.testbit (ambient s') i = true -> supported last i && N.testbit mask i = true) /\
  (N.land (last_of skip_of h 0) 3 = 0 ->
   forall i, N.testbit (bounding s') i = N.testbit (bounding s) i && (N.testbit mask i || negb (supported last i))).
Proof. exact P_RunClaims.caps_run. Qed.
Print Assumptions C28_capabilities.
Theorem C28_bounding_set : forall g ec ep h j t1 t2 envp envp',
  launched g ec ep h j t1 t2 envp envp' -> forall groups_of s keep, last_of dropped_caps_of h None = Some keep ->
  let s' := after groups_of (fun _ c => c) s t2 in exists last x, In (C_last_cap, Yes last x) t2 /\ last <= 64 /\
   forall i, N.testbit (bounding s') i = N.testbit (bounding s) i && (N.testbit keep i || negb (supported last i)).
Proof. exact P_RunClaims.bset_run. Qed.
Print Assumptions C28_bounding_set.
Theorem C28_securebits : forall g ec ep h j t1 t2 envp envp',
  launched g ec ep h j t1 t2 envp envp' -> forall groups_of s,
  N.land (g_secure_all_bits g) 21 = 21 -> asked F_use_caps h -> let s' := after groups_of (fun _ c => c) s t2 in
  forall i, i < 6 -> N.testbit (last_of skip_of h 0) i = false ->
  N.testbit (securebits s') i = true \/
  (i = 4 /\ asked F_set_ambient_caps h /\
   exists cur x, In (C_get_securebits, Yes cur x) t2 /\ N.testbit cur 5 = true /\ N.testbit cur 4 = false).
Proof. exact P_RunClaims.locked_run. Qed.
Print Assumptions C28_securebits.
Example C28_case : asked F_seccomp_filter run_history /\ last_of filter_of run_history None = Some (inr ex_prog) /\
  In (C_prctl_seccomp (Some ex_prog), Yes 0 "") run_t2 /\
  ~ called A_add_minimalistic_mountns_fs_rules run_history /\ ~ called A_disable_fs_restrictions run_history /\
  rules_added 3 run_history = [FsRule "/etc" 12; FsRule "/usr" 13] /\ In (C_landlock_restrict 5, Yes 0 "") run_t2 /\
  length (accepted mount_added run_history) = 3%nat /\
  In (C_unshare 131072, Yes 0 "") run_t1 /\ In (C_setresuid 1000, Yes 0 "") run_t2.
Proof. exact run_rest. Qed.
Example C28_creds_case : let s := Creds 0 0 0 0 0 0 [0; 1; 2] (2 ^ 41 - 1) (2 ^ 41 - 1) 0 (2 ^ 41 - 1) 0 0 false in
  asked F_use_caps run_history /\ asked F_set_ambient_caps run_history /\ asked F_uid run_history /\
  asked F_set_suppl_gids run_history /\ last_of caps_of run_history 0 = 1025 /\ last_of skip_of run_history 0 = 0 /\
  after (fun _ _ => []) (fun _ c => c) s run_t1 = s /\
  after (fun _ _ => []) (fun _ c => c) s run_t2 = Creds 1000 1000 1000 100 100 100 [7; 8] 1025 1025 1025 1025 1025 63 true.
Proof. exact run_creds. Qed.

(* A finding: a read-only /proc was asked for, and a new root.  The call above
   was made, but by the child, on the old root's /proc: the library changes the
   root later and does not touch the /proc in there. *)
Theorem C28_proc_of_the_new_root_refuted : exists g ec ep h j t1 t2 envp envp',
  launched g ec ep h j t1 t2 envp envp' /\
  asked F_remount_proc_ro h /\ asked F_pivot_root h /\ ~ is_own_init h /\
  existsb (fun ev => match fst ev with C_mount _ d _ _ _ => String.eqb d "/proc" | _ => false end) t2 = false /\
  existsb (fun ev => changes_root (fst ev)) t1 = false /\
  worked (C_pivot_root "." ".") t2.
Proof. exists ex_cfg, ex_env, ex_env, run_history, run_jail, run_t1, run_t2, run_envp, ["PATH=/bin"; "LD_PRELOAD=/lib/a.so"]%string. exact proc_outside. Qed.
Print Assumptions C28_proc_of_the_new_root_refuted.

(* ---- the same without the library ---- *)
Theorem C28_applied_no_preload : forall g ec exec h j t c,
  launched_plain g ec exec h j t -> wants g h c -> ~ (is_own_init h /\ on_proc c) -> worked c t.
Proof. intros g ec exec h j t c L. exact (plain_applied g ec exec h j t L c). Qed.
Print Assumptions C28_applied_no_preload.
Theorem C28_filter_no_preload : forall g ec exec h j t, launched_plain g ec exec h j t ->
  asked F_seccomp_filter h -> k_softfail (g_env g) = false -> g_asan g = false ->
  exists prog, holds_filter prog (last_of filter_of h None) /\
  (worked (C_prctl_seccomp (content prog)) t \/ exists flags, worked (C_seccomp flags (content prog)) t).
Proof. exact P_RunClaims.plain_filter. Qed.
Print Assumptions C28_filter_no_preload.
Theorem C28_files_restricted_no_preload : forall g ec exec h j t, launched_plain g ec exec h j t ->
  ~ called A_add_minimalistic_mountns_fs_rules h -> ~ called A_disable_fs_restrictions h ->
  rules_added (k_landlock_abi (g_env g)) h <> [] -> (0 <= k_landlock_fd ec)%Z ->
  worked (C_landlock_restrict (k_landlock_fd ec)) t.
Proof. exact P_RunClaims.plain_restrict. Qed.
Print Assumptions C28_files_restricted_no_preload.
Theorem C28_mounts_no_preload : forall g ec exec h j t, launched_plain g ec exec h j t ->
  exists dev done rest, dev_of h t dev /\ accepted mount_added h = done ++ rest /\
  mounted (new_root h) dev done t /\ (rest = [] \/ exists m tl, rest = m :: tl /\ unchecked (g_env g) m t).
Proof. exact P_RunClaims.plain_mounts. Qed.
Print Assumptions C28_mounts_no_preload.
(* hooks that leave the credentials alone *)
Theorem C28_identity_no_preload_partial : forall g ec exec h j t, launched_plain g ec exec h j t ->
  forall groups_of s, let s' := after groups_of (fun _ c => c) s t in
  at_most_one (asked F_inherit_suppl_gids h) (asked F_keep_suppl_gids h) (asked F_set_suppl_gids h) /\
  groups_due groups_of h (groups s) (groups s') /\
  (asked F_uid h -> last_of uid_of h 0 <> NO_ID -> uids s' = (last_of uid_of h 0, last_of uid_of h 0, last_of uid_of h 0)) /\
  (~ asked F_uid h -> uids s' = uids s \/ (asked F_userns h /\ uids s' = (0, 0, 0))) /\
  (asked F_gid h -> last_of gid_of h 0 <> NO_ID -> gids s' = (last_of gid_of h 0, last_of gid_of h 0, last_of gid_of h 0)) /\
  (~ asked F_gid h -> gids s' = gids s \/ (asked F_userns h /\ gids s' = (0, 0, 0))).
Proof. exact P_RunClaims.plain_identity. Qed.
Print Assumptions C28_identity_no_preload_partial.
Theorem C28_capabilities_no_preload : forall g ec exec h j t, launched_plain g ec exec h j t ->
  forall groups_of s, asked F_use_caps h ->
  let s' := after groups_of (fun _ c => c) s t in exists last x, In (C_last_cap, Yes last x) t /\ last <= 64 /\
  let mask := last_of caps_of h 0 in
  (forall i, N.testbit (effective s') i = supported last i && N.testbit mask i) /\
  permitted s' = effective s' /\ inheritable s' = effective s' /\
  (asked F_set_ambient_caps h -> ambient s' = effective s') /\
  (forall i, N.testbit (ambient s') i = true -> supported last i && N.testbit mask i = true) /\
  (N.land (last_of skip_of h 0) 3 = 0 ->
   forall i, N.testbit (bounding s') i = N.testbit (bounding s) i && (N.testbit mask i || negb (supported last i))).
Proof. exact P_RunClaims.plain_caps. Qed.
Print Assumptions C28_capabilities_no_preload.
Theorem C28_bounding_set_no_preload : forall g ec exec h j t, launched_plain g ec exec h j t ->
  forall groups_of s keep, last_of dropped_caps_of h None = Some keep ->
  let s' := after groups_of (fun _ c => c) s t in exists last x, In (C_last_cap, Yes last x) t /\ last <= 64 /\
   forall i, N.testbit (bounding s') i = N.testbit (bounding s) i && (N.testbit keep i || negb (supported last i)).
Proof. exact P_RunClaims.plain_bset. Qed.
Print Assumptions C28_bounding_set_no_preload.

(* ---- C42: hooks, for all three events ----
   Programs are only run with hooks without the preload library; with it, a
   jail with hooks is refused. *)
Theorem C42_hooks_when_run : forall g ec h j kernel o t,
  history (g_env g) minijail_new h j ->
  M_Io.run kernel [] (run_child g false (with_ruleset ec j)) = (o, t) ->
  exists l, hooks_due h l /\ hooks_spec (l ++ hooks_for 1 (accepted hook_added h)) t o.
Proof. exact hooks_run_claim. Qed.
Print Assumptions C42_hooks_when_run.
(* nothing else is done after the hooks before execve *)
Theorem C42_execve_hooks_last : forall g ec exec h j t,
  launched_plain g ec exec h j t -> never_after (fun c => negb (is_hook c)) (hook_at 1) t.
Proof. exact hooks_last. Qed.
Print Assumptions C42_execve_hooks_last.
Theorem C42_no_hooks_with_preload : forall e h j, history e minijail_new h j -> accepted hook_added h <> [] ->
  run_refuses (RunConfig true true) j = true.
Proof. exact hooks_refused. Qed.
Print Assumptions C42_no_hooks_with_preload.
Example C42_run_case : accepted hook_added plain_history = [Hook 1 10 0; Hook 2 20 2; Hook 3 30 0; Hook 4 40 2; Hook 5 50 1; Hook 6 60 1] /\
  map fst (hooks_run plain_trace) = map C_hook [Hook 2 20 2; Hook 4 40 2; Hook 1 10 0; Hook 3 30 0; Hook 5 50 1; Hook 6 60 1] /\
  last (map fst plain_trace) C_keyring = C_hook (Hook 6 60 1).
Proof. exact plain_hooks. Qed.

(* ---- C41: the environment ----
   The environment the program's main function gets is the one given to
   minijail_run, entry by entry and in the same order, apart from
   SECCOMP_POLICY_PATH if a policy path was set; and the library read the jail
   from the descriptor the launcher announced.  Partial: see below. *)
Theorem C41_environment_partial : forall g j default fd e,
  all_chars (fun c => c <> " "%char) (match j_preload_path j with Own p => p | _ => default end) ->
  ~ (exists x, In x e /\ for_name "__MINIJAIL_FD" x) -> ~ In "LD_PRELOAD="%string e ->
  exists e1, child_env true default fd j e = Some e1 /\
  forall from kernel t e', M_Io.run kernel [] (fake_main g true from e1) = (Returned (Some e'), t) ->
  (exists j', from (Z.of_N fd) = FOk j') /\
  e' = match j_seccomp_policy_path j with
       | Own p => snd (minijail_setenv e "SECCOMP_POLICY_PATH" p true)
       | _ => e
       end.
Proof. exact env_claim. Qed.
Print Assumptions C41_environment_partial.
Theorem C41_environment_no_preload : forall default fd j e,
  child_env false default fd j e =
  Some match j_seccomp_policy_path j with
       | Own p => snd (minijail_setenv e "SECCOMP_POLICY_PATH" p true)
       | _ => e
       end.
Proof. exact env_plain. Qed.
Print Assumptions C41_environment_no_preload.
Example C41_case : main_env minijail_new lib ["A=1"; "LD_PRELOAD=/a.so /b.so"; "B=2"; "LD_PRELOAD=/c.so"]%string =
  Some ["A=1"; "LD_PRELOAD=/a.so /b.so"; "B=2"; "LD_PRELOAD=/c.so"]%string /\
  child_env true lib 7 minijail_new ["A=1"; "LD_PRELOAD=/a.so"]%string =
  Some ["A=1"; "LD_PRELOAD=/a.so /lib/libminijailpreload.so"; "__MINIJAIL_FD=7"]%string /\ main_env minijail_new lib ["A=1"]%string = Some ["A=1"]%string.
Proof. exact env_case_kept. Qed.
(* Findings: an empty LD_PRELOAD is lost; of a preload path with a space in it
   the first words stay. *)
Theorem C41_empty_value_refuted : exists g j default fd e e1 from kernel t e',
  child_env true default fd j e = Some e1 /\ M_Io.run kernel [] (fake_main g true from e1) = (Returned (Some e'), t) /\
  In "LD_PRELOAD="%string e /\ ~ (exists x, In x e' /\ for_name "LD_PRELOAD" x).
Proof. exact empty_lost. Qed.
Print Assumptions C41_empty_value_refuted.
Theorem C41_path_with_space_refuted : exists g j default fd e e1 from kernel t e',
  child_env true default fd j e = Some e1 /\ M_Io.run kernel [] (fake_main g true from e1) = (Returned (Some e'), t) /\
  ~ (exists x, In x e /\ for_name "LD_PRELOAD" x) /\ In "LD_PRELOAD=/my"%string e'.
Proof. exact space_left. Qed.
Print Assumptions C41_path_with_space_refuted.
