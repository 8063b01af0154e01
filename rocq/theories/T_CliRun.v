(* Property theorems: what a program run by minijail0 finds (C60). *)
From Verif Require M_Sync S_Sync.
From Verif Require Import P_CliSetupEx.
Local Open Scope N_scope.

(* ---- C60: from the command line to the program ----
   minijail0 accepted its options [L] (with those of configuration files) and
   the program started: everything the options say was done before.  [t1] and
   [t2] are the system calls before and after execve, with the preload library;
   without it [t] has all of them.  Partial: arguments are in their documented
   ranges (see C49 and C59 for others). *)
Theorem C60_applied_partial : forall w pre opts args s g ec ep t1 t2 envp envp' c, let L := all_options w opts in
  minijail0 w pre opts args = Go s -> well_formed w L -> g_env g = w_env w ->
  launched g ec ep (c_calls (st_cli s)) (c_jail (st_cli s)) t1 t2 envp envp' ->
  insists w g L c -> worked c (t1 ++ t2).
Proof. intros w pre opts args s g ec ep t1 t2 envp envp' c L E W G R. exact (cli_applied w pre opts args s g E W G ec ep t1 t2 envp envp' R c). Qed.
Print Assumptions C60_applied_partial.
Theorem C60_applied_static_partial : forall w pre opts args s g ec exec t c, let L := all_options w opts in
  minijail0 w pre opts args = Go s -> well_formed w L -> g_env g = w_env w ->
  launched_plain g ec exec (c_calls (st_cli s)) (c_jail (st_cli s)) t ->
  insists w g L c -> worked c t.
Proof. intros w pre opts args s g ec exec t c L E W G R. exact (plain_cli_applied w pre opts args s g E W G ec exec t R c). Qed.
Print Assumptions C60_applied_static_partial.

(* The ids: [s0] are minijail0's own, [s2] those after execve. *)
Theorem C60_identity_partial : forall w pre opts args s g ec ep t1 t2 envp envp', let L := all_options w opts in
  minijail0 w pre opts args = Go s -> well_formed w L ->
  launched g ec ep (c_calls (st_cli s)) (c_jail (st_cli s)) t1 t2 envp envp' ->
  forall groups_of s0 s2, let after := after groups_of (fun _ c => c) in
  same_ids (after s0 t1) s2 -> ids_due w groups_of L s0 (after s2 t2).
Proof. intros w pre opts args s g ec ep t1 t2 envp envp' L E W R. exact (cli_identity w pre opts args s g E W ec ep t1 t2 envp envp' R). Qed.
Print Assumptions C60_identity_partial.
Theorem C60_identity_static_partial : forall w pre opts args s g ec exec t, let L := all_options w opts in
  minijail0 w pre opts args = Go s -> well_formed w L ->
  launched_plain g ec exec (c_calls (st_cli s)) (c_jail (st_cli s)) t ->
  forall groups_of s0, ids_due w groups_of L s0 (after groups_of (fun _ c => c) s0 t).
Proof. intros w pre opts args s g ec exec t L E W R. exact (plain_cli_identity w pre opts args s g E W ec exec t R). Qed.
Print Assumptions C60_identity_static_partial.

(* The capabilities of -c: [m] are those it names. *)
Theorem C60_capabilities_partial : forall w pre opts args s g ec ep t1 t2 envp envp', let L := all_options w opts in
  minijail0 w pre opts args = Go s -> well_formed w L ->
  launched g ec ep (c_calls (st_cli s)) (c_jail (st_cli s)) t1 t2 envp envp' ->
  forall groups_of s0 a, last_arg L (short "c") = Some (Some a) ->
  let s' := after groups_of (fun _ c => c) s0 t2 in exists last x m, In (C_last_cap, Yes last x) t2 /\ caps_arg w a m /\
  (forall i, N.testbit (effective s') i = supported last i && N.testbit m i) /\
  permitted s' = effective s' /\ inheritable s' = effective s' /\ (has L OPT_AMBIENT -> ambient s' = effective s') /\
  (forall i, N.testbit (ambient s') i = true -> supported last i && N.testbit m i = true) /\
  (~ has L (short "B") -> forall i, N.testbit (bounding s') i = N.testbit (bounding s0) i && (N.testbit m i || negb (supported last i))).
Proof. intros w pre opts args s g ec ep t1 t2 envp envp' L E W R. exact (cli_caps w pre opts args s g E W ec ep t1 t2 envp envp' R). Qed.
Print Assumptions C60_capabilities_partial.
Theorem C60_capabilities_static_partial : forall w pre opts args s g ec exec t, let L := all_options w opts in
  minijail0 w pre opts args = Go s -> well_formed w L ->
  launched_plain g ec exec (c_calls (st_cli s)) (c_jail (st_cli s)) t ->
  forall groups_of s0 a, last_arg L (short "c") = Some (Some a) ->
  let s' := after groups_of (fun _ c => c) s0 t in exists last x m, In (C_last_cap, Yes last x) t /\ caps_arg w a m /\
  (forall i, N.testbit (effective s') i = supported last i && N.testbit m i) /\
  permitted s' = effective s' /\ inheritable s' = effective s' /\ (has L OPT_AMBIENT -> ambient s' = effective s') /\
  (forall i, N.testbit (ambient s') i = true -> supported last i && N.testbit m i = true) /\
  (~ has L (short "B") -> forall i, N.testbit (bounding s') i = N.testbit (bounding s0) i && (N.testbit m i || negb (supported last i))).
Proof. intros w pre opts args s g ec exec t L E W R. exact (plain_cli_caps w pre opts args s g E W ec exec t R). Qed.
Print Assumptions C60_capabilities_static_partial.

(* The mounts of -b, -k and --profile (C35: those after one that cannot be
   checked are left out). *)
Theorem C60_mounts_partial : forall w pre opts args s g ec ep t1 t2 envp envp' root, let L := all_options w opts in
  minijail0 w pre opts args = Go s -> well_formed w L -> g_env g = w_env w ->
  launched g ec ep (c_calls (st_cli s)) (c_jail (st_cli s)) t1 t2 envp envp' -> root_dir w L root ->
  exists ms dev done rest, mounts_due w L ms /\ ms = (done ++ rest)%list /\ dev_due L t2 dev /\
  mounted root dev done t2 /\ (rest = [] \/ exists m tl, rest = m :: tl /\ unchecked (w_env w) m t2).
Proof. intros w pre opts args s g ec ep t1 t2 envp envp' root L E W G R. exact (cli_mounts w pre opts args s g E W G ec ep t1 t2 envp envp' R root). Qed.
Print Assumptions C60_mounts_partial.
Theorem C60_mounts_static_partial : forall w pre opts args s g ec exec t root, let L := all_options w opts in
  minijail0 w pre opts args = Go s -> well_formed w L -> g_env g = w_env w ->
  launched_plain g ec exec (c_calls (st_cli s)) (c_jail (st_cli s)) t -> root_dir w L root ->
  exists ms dev done rest, mounts_due w L ms /\ ms = (done ++ rest)%list /\ dev_due L t dev /\
  mounted root dev done t /\ (rest = [] \/ exists m tl, rest = m :: tl /\ unchecked (w_env w) m t).
Proof. intros w pre opts args s g ec exec t root L E W G R. exact (plain_cli_mounts w pre opts args s g E W G ec exec t R root). Qed.
Print Assumptions C60_mounts_static_partial.

(* The policy of -S. *)
Theorem C60_policy_partial : forall w pre opts args s g ec ep t1 t2 envp envp' p, let L := all_options w opts in
  minijail0 w pre opts args = Go s -> well_formed w L -> g_env g = w_env w -> k_softfail (w_env w) = false -> g_asan g = false ->
  launched g ec ep (c_calls (st_cli s)) (c_jail (st_cli s)) t1 t2 envp envp' ->
  last_arg L (short "S") = Some (Some p) -> policy_enforced w L (w_policy w p) t2.
Proof. intros w pre opts args s g ec ep t1 t2 envp envp' p L E W G K A R. exact (cli_policy w pre opts args s E W K g G A ec ep t1 t2 envp envp' R p). Qed.
Print Assumptions C60_policy_partial.
Theorem C60_policy_static_partial : forall w pre opts args s g ec exec t p, let L := all_options w opts in
  minijail0 w pre opts args = Go s -> well_formed w L -> g_env g = w_env w -> k_softfail (w_env w) = false -> g_asan g = false ->
  launched_plain g ec exec (c_calls (st_cli s)) (c_jail (st_cli s)) t ->
  last_arg L (short "S") = Some (Some p) -> policy_enforced w L (w_policy w p) t.
Proof. intros w pre opts args s g ec exec t p L E W G K A R. exact (plain_cli_policy w pre opts args s E W K g G A ec exec t R p). Qed.
Print Assumptions C60_policy_static_partial.
(* A filter from a file: that of --seccomp-bpf-binary, or the system's default
   where there is one and no other was given. *)
Theorem C60_binary_partial : forall w pre opts args s g ec ep t1 t2 envp envp' p, let L := all_options w opts in
  minijail0 w pre opts args = Go s -> well_formed w L -> g_env g = w_env w -> k_softfail (w_env w) = false -> g_asan g = false ->
  launched g ec ep (c_calls (st_cli s)) (c_jail (st_cli s)) t1 t2 envp envp' ->
  last_arg L OPT_SECCOMP_BPF_BINARY = Some (Some p) \/
    no_policy L /\ ~ has L OPT_NO_DEFAULT_RUNTIME /\ w_exists w "/etc/security/minijail/v0.bin" = true /\ p = "/etc/security/minijail/v0.bin"%string ->
  exists prog, filter_file w p prog /\ (prog <> [] -> installed prog t2).
Proof. intros w pre opts args s g ec ep t1 t2 envp envp' p L E W G K A R. exact (cli_file w pre opts args s E W K g G A ec ep t1 t2 envp envp' R p). Qed.
Print Assumptions C60_binary_partial.
Theorem C60_binary_static_partial : forall w pre opts args s g ec exec t p, let L := all_options w opts in
  minijail0 w pre opts args = Go s -> well_formed w L -> g_env g = w_env w -> k_softfail (w_env w) = false -> g_asan g = false ->
  launched_plain g ec exec (c_calls (st_cli s)) (c_jail (st_cli s)) t ->
  last_arg L OPT_SECCOMP_BPF_BINARY = Some (Some p) \/
    no_policy L /\ ~ has L OPT_NO_DEFAULT_RUNTIME /\ w_exists w "/etc/security/minijail/v0.bin" = true /\ p = "/etc/security/minijail/v0.bin"%string ->
  exists prog, filter_file w p prog /\ installed prog t.
Proof. intros w pre opts args s g ec exec t p L E W G K A R. exact (plain_cli_file w pre opts args s E W K g G A ec exec t R p). Qed.
Print Assumptions C60_binary_static_partial.

Example C60_case : let L := all_options ex_world full_opts in
  minijail0 ex_world "/lib/p.so" full_opts ["/bin/app"%string] = Go box_start /\ well_formed ex_world L /\ g_env ex_cfg = w_env ex_world /\
  launched ex_cfg ex_env ex_env (c_calls (st_cli box_start)) (c_jail (st_cli box_start)) box_t1 box_t2 run_envp ["PATH=/bin"; "LD_PRELOAD=/lib/a.so"]%string.
Proof. split; [exact box_goes|]. split; [exact box_formed|]. split; [reflexivity|exact box_case]. Qed.
Example C60_insists_case : let L := all_options ex_world full_opts in Forall (insists ex_world ex_cfg L)
    [C_unshare 131072; C_mount None "/" None (N.lor 16384 524288) None; C_sethostname "box"; C_unshare 1073741824; C_unshare 134217728; C_unshare 33554432;
     C_chroot "/jail"; C_chdir "/"; C_mount (Some "proc"%string) "/proc" (Some "proc"%string) 15 (Some ""%string); C_no_new_privs;
     C_mount (Some "none"%string) "/tmp" (Some "tmpfs"%string) 270 (Some "size=67108864,mode=1777"%string)] /\
  root_dir ex_world L "/jail" /\ last_arg L (short "c") = Some (Some "0x21"%string) /\ last_arg L (short "S") = Some (Some "/etc/app.policy"%string) /\
  k_softfail ex_env = false /\ g_asan ex_cfg = false.
Proof. exact box_insists. Qed.
Example C60_static_case : let L := all_options ex_world alone_opts in
  minijail0 ex_world "/lib/p.so" alone_opts ["/bin/static"%string] = Go alone_start /\ st_preload alone_start = false /\ well_formed ex_world L /\
  launched_plain ex_cfg ex_env true (c_calls (st_cli alone_start)) (c_jail (st_cli alone_start)) alone_trace.
Proof. split; [exact (proj1 alone_goes)|]. split; [exact (proj2 alone_goes)|]. split; [exact alone_formed|exact alone_case]. Qed.

(* What minijail0 sets up from outside: when the child does anything after the
   synchronization, signals are forwarded (unless -z was given), the pid file of -f, the limits of -R and the id maps of -m
   and -M are in place, and nothing else was done.  [reaches]: any interleaving
   of minijail0 and the child [pid].  Partial also because minijail0 must not be
   killed meanwhile (C57_parent_killed_refuted). *)
Theorem C60_set_up_partial : forall w pre opts args s pid st, let L := all_options w opts in let j := c_jail (st_cli s) in
  minijail0 w pre opts args = Go s -> well_formed w L ->
  M_Sync.reaches (M_Sync.child_after j) (M_Sync.start pid j) st -> ~ In M_Sync.Parent_killed (M_Sync.s_trace st) ->
  forall t1 c err t2, M_Sync.s_trace st = (t1 ++ M_Sync.Child c err :: t2)%list ->
  set_up_due w L pid (map fst (S_Sync.by_parent t1)) /\ Forall S_Sync.fine (S_Sync.by_parent t1) /\ S_Sync.by_parent t2 = [].
Proof. intros w pre opts args s pid st L j E W. exact (cli_setup w pre opts args s E W pid st). Qed.
Print Assumptions C60_set_up_partial.
(* The child enters the jail with the ids of -g and -u, or root's, where -M and
   -m gave it maps. *)
Theorem C60_namespace_ids_partial : forall w pre opts args s pid st, let L := all_options w opts in let j := c_jail (st_cli s) in
  minijail0 w pre opts args = Go s -> well_formed w L ->
  M_Sync.reaches (M_Sync.child_after j) (M_Sync.start pid j) st -> In (M_Sync.Child M_Sync.Goes_on 0) (M_Sync.s_trace st) ->
  ids_taken w L (map fst (S_Sync.by_child (M_Sync.s_trace st))) /\ Forall (fun r => snd r = 0) (S_Sync.by_child (M_Sync.s_trace st)).
Proof. intros w pre opts args s pid st L j E W. exact (cli_ids w pre opts args s E W pid st). Qed.
Print Assumptions C60_namespace_ids_partial.
Example C60_set_up_case : let j := c_jail (st_cli map_start) in
  minijail0 ex_world "/lib/p.so" map_opts ["/bin/app"%string] = Go map_start /\ well_formed ex_world (all_options ex_world map_opts) /\
  M_Sync.reaches (M_Sync.child_after j) (M_Sync.start 4242 j)
  (M_Sync.Sys M_Sync.Done (M_Sync.Going [])
    [M_Sync.Parent (M_Sync.ForwardTo 4242) 0; M_Sync.Parent (M_Sync.WritePid (Own "/run/x.pid"%string) 4242) 0; M_Sync.Parent (M_Sync.Prlimit 4242 (Rlimit 7 64 (2 ^ 64 - 1))) 0;
     M_Sync.Parent (M_Sync.Prlimit 4242 (Rlimit 4 0 16)) 0; M_Sync.Parent (M_Sync.WriteProc 4242 "uid_map" "5 1000 1") 0;
     M_Sync.Parent (M_Sync.WriteProc 4242 "setgroups" "deny") 0; M_Sync.Parent (M_Sync.WriteProc 4242 "gid_map" ("100 1000 1" ++ String c_nl "0 1001 1")) 0;
     M_Sync.Child (M_Sync.Setresgid 100) 0; M_Sync.Child (M_Sync.Setresuid 5) 0; M_Sync.Child M_Sync.Goes_on 0]).
Proof. split; [exact map_goes|]. split; [exact map_formed|exact map_case]. Qed.
