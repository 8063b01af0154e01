(* Property theorems: minijail0 from its command line to its exit status (C81). *)
From Verif Require Import P_MainEx.
Local Open Scope N_scope.

(* ---- C81 ----
   [w] is the system that minijail0 reads its options in, [l] the one in which
   it launches the program (w_fork: what fork returns), [t] its descriptors and
   [answers] those of waitpid; [L] are its options with those of configuration
   files. *)
(* The exit status is that of the program: its exit code, 253 when it was
   killed by SIGSYS, 128 + n for another signal n. *)
Theorem C81_status : forall w l sigsys pre opts args t answers n acts pid e, let L := all_options w opts in
  main w l sigsys pre opts args t answers = (M_exits n, acts) -> in_launcher l -> plausible l t -> ~ has L (S_Cli.short "i") ->
  started_by acts pid -> ended_as answers e -> Z.of_N n = reported_as sigsys e.
Proof. intros w l sigsys pre opts args t answers n acts pid e L. exact (main_status w l sigsys pre opts args t answers n acts pid e). Qed.
Print Assumptions C81_status.
(* With a process of minijail0 as init of the program's pid namespace (-p): 254
   for all signals.  Partial: no process is left when init ends (C40). *)
Theorem C81_status_init_partial : forall w l sigsys pre opts args t answers n acts pid root e lst err rest code, let L := all_options w opts in
  main w l sigsys pre opts args t answers = (M_exits n, acts) -> in_launcher l -> plausible l t -> ~ has L (S_Cli.short "i") ->
  started_by acts pid -> possible e -> ended root e lst -> init root (reaped lst ++ WaitFails err :: rest) = M_Wait.Exits code ->
  ended_as answers (Exited code) -> n = init_code e.
Proof. intros w l sigsys pre opts args t answers n acts pid root e lst err rest code L. exact (main_status_init w l sigsys pre opts args t answers n acts pid root e lst err rest code). Qed.
Print Assumptions C81_status_init_partial.
Example C81_status_case : (sees 4242 1024 0 full_opts "/bin/app" (Exited 3) = (M_exits 3, acts_of app_run) /\
  started_by (acts_of app_run) 4242 /\ In (Sent main_bytes) (acts_of app_run) /\
  in_launcher (told (launch_world 1024 0) 4242) /\ ~ has (all_options ex_world full_opts) (S_Cli.short "i") /\ ~ only_tells (all_options ex_world full_opts) /\
  ended_as [inl M_Wait.EINTR; inr (status_of (Exited 3))] (Exited 3)) /\
  (forall lim errno, (40 < lim)%Z -> plausible (launch_world lim errno) P_LaunchEx.the_table) /\
  ended 2 (Exited 3) [(5, Exited 1); (2, Exited 3)] /\ init 2 (reaped [(5, Exited 1); (2, Exited 3)] ++ [WaitFails ECHILD]) = M_Wait.Exits 3.
Proof. split; [exact app_case|]. split; [exact sees_plausible|exact app_wait]. Qed.

(* Without -i, -h, -H and --gen-config, status 0 says that the program was
   started and ended with exit code 0. *)
Theorem C81_zero : forall w l sigsys pre opts args t answers acts, let L := all_options w opts in
  main w l sigsys pre opts args t answers = (M_exits 0, acts) -> in_launcher l -> plausible l t -> real_answers answers ->
  ~ has L (S_Cli.short "i") -> ~ only_tells L -> exists pid, started_by acts pid /\ ended_as answers (Exited 0).
Proof. intros w l sigsys pre opts args t answers acts L. exact (main_zero w l sigsys pre opts args t answers acts). Qed.
Print Assumptions C81_zero.
Example C81_zero_case : sees 4242 1024 0 full_opts "/bin/app" (Exited 0) = (M_exits 0, acts_of app_run) /\
  real_answers [inl M_Wait.EINTR; inr (status_of (Exited 0))].
Proof. exact app_zero. Qed.
(* When nothing was started the status is 1, or 246 if only the launch failed. *)
Theorem C81_nothing : forall w l sigsys pre opts args t answers n acts, let L := all_options w opts in
  main w l sigsys pre opts args t answers = (M_exits n, acts) -> in_launcher l -> ~ has L (S_Cli.short "i") -> ~ only_tells L ->
  nothing_started acts -> n = 1 \/ n = 246.
Proof. intros w l sigsys pre opts args t answers n acts L. exact (main_nothing w l sigsys pre opts args t answers n acts). Qed.
Print Assumptions C81_nothing.
Example C81_nothing_case : sees 4242 4 0 full_opts "/bin/app" (Exited 0) = (M_exits 246, []) /\
  main ex_world (told (launch_world 1024 0) 4242) 31 "/lib/p.so" full_opts ["/bin/none"%string] P_LaunchEx.the_table [] = (M_exits 1, []).
Proof. exact app_nothing. Qed.

(* With -i it exits with 0 once the program is started. *)
Theorem C81_immediately : forall w l sigsys pre opts args t answers n acts pid, let L := all_options w opts in
  main w l sigsys pre opts args t answers = (M_exits n, acts) -> in_launcher l -> has L (S_Cli.short "i") -> started_by acts pid -> n = 0.
Proof. intros w l sigsys pre opts args t answers n acts pid L. exact (main_immediately w l sigsys pre opts args t answers n acts pid). Qed.
Print Assumptions C81_immediately.
Example C81_immediately_case : sees 4242 1024 0 quick_opts "/bin/app" (Exited 3) = (M_exits 0, acts_of app_run) /\
  has (all_options ex_world quick_opts) (S_Cli.short "i") /\ sees 4242 4 0 quick_opts "/bin/app" (Exited 3) = (M_exits 0, []).
Proof. exact quick_case. Qed.
(* But also when it could not start it: the result of the launch is not looked at. *)
Theorem C81_immediately_refuted : ~ forall w l sigsys pre opts args t answers acts,
  main w l sigsys pre opts args t answers = (M_exits 0, acts) -> in_launcher l -> ~ only_tells (all_options w opts) -> exists pid, started_by acts pid.
Proof.
  intros H. destruct quick_refuted as (w & l & sigsys & pre & opts & args & t & answers & IL & NT & E). destruct (H _ _ _ _ _ _ _ _ _ E IL NT) as [pid []].
Qed.
Print Assumptions C81_immediately_refuted.

(* A program that could not be run in the jail. *)
Theorem C81_not_executed : forall w l sigsys pre opts args t answers pid n acts r acts' e, let L := all_options w opts in
  pid <> 0%Z -> plausible l t -> ~ has L (S_Cli.short "i") -> sigsys <> 6 ->
  main w (told l pid) sigsys pre opts args t answers = (M_exits n, acts) -> started_by acts pid ->
  main w (told l 0) sigsys pre opts args t answers = (r, acts') -> ending_seen r = Some e -> ended_as answers e ->
  (n = 127 /\ w_exec l = 2) \/ (n = 126 /\ w_exec l <> 2 /\ w_exec l <> 0) \/ (n = 255 /\ (w_fork2 l < 0)%Z) \/ (n = 134 /\ r = M_aborts).
Proof. intros w l sigsys pre opts args t answers pid n acts r acts' e L. exact (main_not_executed w l sigsys pre opts args t answers pid n acts r acts' e). Qed.
Print Assumptions C81_not_executed.
Example C81_not_executed_case : sees 4242 1024 2 alone_opts "/bin/static" (Exited 127) = (M_exits 127, acts_of (sees 4242 1024 2 alone_opts "/bin/static" (Exited 127))) /\
  started_by (acts_of (sees 4242 1024 2 alone_opts "/bin/static" (Exited 127))) 4242 /\
  fst (sees 0 1024 2 alone_opts "/bin/static" (Exited 127)) = M_exits 127.
Proof. exact missing_case. Qed.

(* What the child executes: the first argument that is not an option, with all
   of them as its argv. *)
Theorem C81_program : forall w l sigsys pre opts args t answers p argv envp t' acts,
  main w l sigsys pre opts args t answers = (M_executes p argv envp t', acts) -> w_fork l = 0%Z ->
  argv = args /\ exists prog rest, args = prog :: rest /\ p = Named prog.
Proof. exact main_program. Qed.
Print Assumptions C81_program.
(* The environment its main sees, behind the preload library: minijail0's, as
   changed by --env-add and --env-reset.  Partial: with -S the variable
   SECCOMP_POLICY_PATH is the library's; no variable of the options is one that
   the library uses; its name has no space (C41). *)
Theorem C81_environment_partial : forall w l sigsys pre opts args t answers s p argv envp t' acts lib from same_ids kernel tr envp', let L := all_options w opts in
  main w l sigsys pre opts args t answers = (M_executes p argv envp t', acts) -> w_fork l = 0%Z ->
  minijail0 w pre opts args = Go s -> st_preload s = true -> S_Util.distinct (M_Cli.w_environ w) ->
  library L pre lib -> S_Text.all_chars (fun c => c <> " "%char) lib ->
  (forall v, ~ env_has w L "__MINIJAIL_FD" v) -> ~ env_has w L "LD_PRELOAD" "" ->
  M_Io.run kernel [] (fake_main (w_cfg l) same_ids from envp) = (Returned (Some envp'), tr) ->
  forall n v, S_Util.var_name n -> n <> "SECCOMP_POLICY_PATH"%string -> (S_Util.has_value envp' n v <-> env_has w L n v).
Proof.
  intros w l sigsys pre opts args t answers s p argv envp t' acts lib from same_ids kernel tr envp' L.
  exact (main_env w l sigsys pre opts args t answers s p argv envp t' acts lib from same_ids kernel tr envp').
Qed.
Print Assumptions C81_environment_partial.
(* Without the library: minijail0's own (C51: the options do nothing). *)
Theorem C81_environment_static_partial : forall w l sigsys pre opts args t answers s p argv envp t' acts,
  main w l sigsys pre opts args t answers = (M_executes p argv envp t', acts) -> w_fork l = 0%Z ->
  minijail0 w pre opts args = Go s -> st_preload s = false -> w_environ l = M_Cli.w_environ w ->
  forall n v, S_Util.var_name n -> n <> "SECCOMP_POLICY_PATH"%string -> (S_Util.has_value envp n v <-> S_Util.has_value (M_Cli.w_environ w) n v).
Proof. exact main_env_static. Qed.
Print Assumptions C81_environment_static_partial.
Example C81_program_case : sees 0 1024 0 full_opts "/bin/app" (Exited 3) =
    (M_executes (Named "/bin/app") ["/bin/app"%string] main_envp (after_of (sees 0 1024 0 full_opts "/bin/app" (Exited 3))), [Asked app_t1]) /\
  (minijail0 ex_world "/lib/p.so" full_opts ["/bin/app"%string] = Go box_start /\ st_preload box_start = true /\
  S_Util.distinct (M_Cli.w_environ ex_world) /\ library (all_options ex_world full_opts) "/lib/p.so" "/lib/p.so" /\
  S_Text.all_chars (fun c => c <> " "%char) "/lib/p.so" /\
  (forall v, ~ env_has ex_world (all_options ex_world full_opts) "__MINIJAIL_FD" v) /\
  ~ env_has ex_world (all_options ex_world full_opts) "LD_PRELOAD" "" /\
  env_has ex_world (all_options ex_world full_opts) "HOME" "/tmp") /\
  exists t1, sees 0 1024 0 alone_opts "/bin/static" (Exited 3) =
  (M_executes (Named "/bin/static") ["/bin/static"%string] static_envp (after_of (sees 0 1024 0 alone_opts "/bin/static" (Exited 3))), [Asked t1]) /\
  In (C_unshare 131072, Yes 0 "") t1.
Proof. split; [exact app_child|]. split; [exact app_env|exact static_child]. Qed.

(* The program of a minijail0 that waits, or has ended, runs in the jail of the
   options (C60, whose other theorems apply to [launched], too).  [t1] are the
   system calls of the child before execve, [t2] those of the library in the
   program, which reads [piped], all or the first part of what was sent.
   Partial: as C60. *)
Theorem C81_in_jail_partial : forall w l sigsys pre opts args t answers s pid r acts p argv envp tc t1 bytes size piped lost rd same_ids kernel envp' t2,
  let L := all_options w opts in
  minijail0 w pre opts args = Go s -> st_preload s = true -> same_system w l -> plausible l t -> pid <> 0%Z ->
  main w (told l pid) sigsys pre opts args t answers = (r, acts) -> launcher_done r -> started_by acts pid -> In (Sent bytes) acts ->
  main w (told l 0) sigsys pre opts args t answers = (M_executes p argv envp tc, [Asked t1]) ->
  let j' := parent_jail (w_parent l) (Some (hd EmptyString args)) pid (c_jail (st_cli s)) in
  c_typed j' -> S_Marshal.nonnull (w_addr l) -> real_errors (w_write l) -> minijail_size (w_addr l) j' = Some size -> size < 2 ^ 64 ->
  bytes = (piped ++ lost)%string ->
  M_Io.run kernel [] (fake_main (w_cfg l) same_ids (fun _ => minijail_from_fd (g_env (w_cfg l)) minijail_new rd piped) envp) = (Returned (Some envp'), t2) ->
  launched (w_cfg l) (w_child l) (w_parent l) (c_calls (st_cli s)) (c_jail (st_cli s)) t1 t2 envp envp' /\
  (well_formed w L ->
    (forall c, insists w (w_cfg l) L c -> worked c (t1 ++ t2)) /\
    forall groups_of s0 s2, let after := after groups_of (fun _ c => c) in
      S_Run.same_ids (after s0 t1) s2 -> ids_due w groups_of L s0 (after s2 t2)).
Proof.
  intros w l sigsys pre opts args t answers s pid r acts p argv envp tc t1 bytes size piped lost rd same_ids kernel envp' t2 L E PL SY PP P0 H D ST SB HC j' TY NN RE SZ SM EB FM.
  assert (LA : launched (w_cfg l) (w_child l) (w_parent l) (c_calls (st_cli s)) (c_jail (st_cli s)) t1 t2 envp envp')
    by exact (main_launched w l sigsys pre opts args t answers s pid r acts p argv envp tc t1 bytes size piped lost rd same_ids kernel envp' t2 E PL SY PP P0 H D ST SB HC TY NN RE SZ SM EB FM).
  split; [exact LA|]. intros W. split.
  - exact (P_CliRun.cli_applied w pre opts args s (w_cfg l) E W (proj1 SY) _ _ t1 t2 envp envp' LA).
  - exact (P_CliRun.cli_identity w pre opts args s (w_cfg l) E W _ _ t1 t2 envp envp' LA).
Qed.
Print Assumptions C81_in_jail_partial.
Theorem C81_in_jail_static_partial : forall w l sigsys pre opts args t answers s p argv envp tc acts, let L := all_options w opts in
  minijail0 w pre opts args = Go s -> st_preload s = false -> same_system w l -> plausible l t -> w_fork l = 0%Z ->
  main w l sigsys pre opts args t answers = (M_executes p argv envp tc, acts) ->
  exists t1, acts = [Asked t1] /\ launched_plain (w_cfg l) (w_child l) true (c_calls (st_cli s)) (c_jail (st_cli s)) t1 /\
  (well_formed w L ->
    (forall c, insists w (w_cfg l) L c -> worked c t1) /\
    forall groups_of s0, ids_due w groups_of L s0 (after groups_of (fun _ c => c) s0 t1)).
Proof.
  intros w l sigsys pre opts args t answers s p argv envp tc acts L E PL SY PP F0 HC.
  destruct (main_launched_static w l sigsys pre opts args t answers s p argv envp tc acts E PL SY PP F0 HC) as (t1 & EA & LA).
  exists t1. split; [exact EA|]. split; [exact LA|]. intros W. split.
  - exact (P_CliRun.plain_cli_applied w pre opts args s (w_cfg l) E W (proj1 SY) _ _ t1 LA).
  - exact (P_CliRun.plain_cli_identity w pre opts args s (w_cfg l) E W _ _ t1 LA).
Qed.
Print Assumptions C81_in_jail_static_partial.
Example C81_in_jail_case : same_system ex_world (launch_world 1024 0) /\ well_formed ex_world (all_options ex_world full_opts) /\
  exists size, c_typed main_sent /\ S_Marshal.nonnull any_addr /\ real_errors slow /\
  minijail_size any_addr main_sent = Some size /\ size < 2 ^ 64 /\
  M_Io.run P_EnterEx.ex_kernel [] (fake_main ex_cfg true (fun _ => minijail_from_fd ex_env minijail_new whole main_bytes) main_envp) =
    (Returned (Some ["PATH=/bin"; "HOME=/tmp"; "SECCOMP_POLICY_PATH=/etc/app.policy"]%string), app_t2) /\
  In (C_chroot "/jail", Yes 0 "") app_t2 /\ In (C_unshare 131072, Yes 0 "") app_t1.
Proof. split; [split; reflexivity|]. split; [exact box_formed|exact app_library]. Qed.
