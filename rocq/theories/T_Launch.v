(* C79, C80: the functions that start programs.
   [call_run w f m t j] is the call of the function [f] (with its arguments) by
   a process with the variables [m] and the descriptors [t]; [w] says how the
   outside answers, [w_fork w] what fork returned: 0 in the child.  The result
   is how the call ends for the process and what others can see of it. *)
From Verif Require Import P_LaunchEx.
Local Open Scope Z_scope.

(* ---- C79: what the launching process gets ---- *)
(* A call that started nothing changes no variable and no descriptor; the jail
   is as after a failed run in the sense of C72. *)
Theorem C79_failed : forall w f m t j rc m' t' j' acts, in_launcher w ->
  call_run w f m t j = (L_returns rc m' t' j', acts) -> nothing_started acts ->
  rc <> 0 /\ (forall x, t' x = t x) /\ m' = m /\ (forall e, used e j [Failed (file_of f)] j').
Proof. exact launch_failed. Qed.
Print Assumptions C79_failed.
Example C79_failed_case : exists t', call_run (told (the_world true 5 0) 4242) the_call no_vars the_table run_jail =
  (L_returns 14 no_vars t' (named (Some "/bin/true"%string) run_jail), []).
Proof. exact few_descriptors. Qed.
(* minijail_run and its variants return 0 if and only if a process was started. *)
Theorem C79_zero : forall w f m t j rc m' t' j' acts, in_launcher w ->
  call_run w f m t j = (L_returns rc m' t' j', acts) -> is_fork f = false -> (rc = 0 <-> exists pid, started_by acts pid).
Proof. intros w f m t j rc m' t' j' acts L C. exact (call_codes w f m t j rc m' t' j' acts C L). Qed.
Print Assumptions C79_zero.
(* minijail_fork returns the pid of the process it started, or something
   negative.  Partial: unless there is no memory, see below. *)
Theorem C79_fork_partial : forall w m t j rc m' t' j' acts, in_launcher w ->
  call_run w Fork m t j = (L_returns rc m' t' j', acts) -> w_copied w = true \/ labelled j = false ->
  (0 < rc /\ started_by acts rc) \/ (rc < 0 /\ nothing_started acts).
Proof. intros w m t j rc m' t' j' acts L C. exact (fork_codes w m t j rc m' t' j' acts C L). Qed.
Print Assumptions C79_fork_partial.
(* When a process was started: its pid is stored, and is the one the jail is
   about (C72); other variables stay. *)
Theorem C79_started : forall w f m t j rc m' t' j' acts pid, in_launcher w -> plausible w t -> NoDup (vars f) ->
  call_run w f m t j = (L_returns rc m' t' j', acts) -> started_by acts pid ->
  0 < pid /\ rc = (if is_fork f then pid else 0) /\
  (forall a, pid_var f = Some a -> m' a = pid) /\ (forall a, ~ In a (vars f) -> m' a = m a) /\
  used (g_env (w_cfg w)) j [Ran (file_of f) pid] j' /\ j_initpid j' = pid.
Proof. exact launch_started. Qed.
Print Assumptions C79_started.
(* Its descriptors: new ones for the ends of the streams asked for (w_base + 3
   is the end of the pipe for standard input to write to, + 4 and + 6 are those
   of standard output and error to read from; the others are C38's).  The
   descriptors of entered namespaces are closed.  Nothing else changes, except
   that a ruleset for file access rules stays open. *)
Theorem C79_descriptors : forall w f m t j rc m' t' j' acts pid, in_launcher w -> plausible w t -> NoDup (vars f) ->
  new_ruleset w f j t -> (forall x, entered j x -> t x <> None) ->
  call_run w f m t j = (L_returns rc m' t' j', acts) -> started_by acts pid ->
  (forall a, in_var f = Some a -> t (m' a) = None /\ t' (m' a) = Some (w_base w + 3, false)%N) /\
  (forall a, out_var f = Some a -> t (m' a) = None /\ t' (m' a) = Some (w_base w + 4, false)%N) /\
  (forall a, err_var f = Some a -> t (m' a) = None /\ t' (m' a) = Some (w_base w + 6, false)%N) /\
  (forall x, entered j x -> t' x = None) /\
  (j_fs_rules j <> [] -> 0 <= k_landlock_fd (w_parent w) -> t' (k_landlock_fd (w_parent w)) = Some (w_ruleset w, true)) /\
  (forall x, t' x = t x \/ (exists a, In (Some a) [in_var f; out_var f; err_var f] /\ m' a = x) \/ entered j x \/
             (j_fs_rules j <> [] /\ x = k_landlock_fd (w_parent w))).
Proof. exact launch_descriptors. Qed.
Print Assumptions C79_descriptors.
(* With the preload library: the program is sent the whole jail, or killed.
   Without it is never killed. *)
Theorem C79_sent : forall w f m t j rc m' t' j' acts pid, in_launcher w -> real_errors (w_write w) ->
  call_run w f m t j = (L_returns rc m' t' j', acts) -> started_by acts pid ->
  if preloaded f
  then exists bytes, In (Sent bytes) acts /\
    (~ killed acts pid -> exists size buf, minijail_size (w_addr w) j' = Some size /\ minijail_marshal (w_addr w) j' size = Some (0, buf) /\
       bytes = (num 8 size ++ buf)%string)
  else ~ killed acts pid.
Proof. intros w f m t j rc m' t' j' acts pid L R C S. exact (call_sent w f m t j rc m' t' j' acts pid C L S R). Qed.
Print Assumptions C79_sent.
(* If the launching process gives up after the fork, the program is killed. *)
Theorem C79_died : forall w f m t j acts pid, in_launcher w -> call_run w f m t j = (L_dies, acts) -> started_by acts pid -> killed acts pid.
Proof. intros w f m t j acts pid L C. exact (call_died w f m t j acts pid C L). Qed.
Print Assumptions C79_died.
Example C79_case : (call_run (told (the_world true 1024 0) 4242) the_call no_vars the_table run_jail =
    (L_returns 0 (m_of the_parent) (t_of the_parent) the_jail', [Forked 4242; Sent the_bytes]) /\
  map (m_of the_parent) [1; 2; 3; 4; 5]%N = [4242; 6; 7; 9; 77] /\
  map (t_of the_parent) [0; 1; 2; 3; 4; 5; 6; 7; 8; 9; 10; 11; 12; 40] =
    [Some (1, false); Some (2, false); Some (3, false); None; None; None; Some (1003, false); Some (1004, false); None; Some (1006, false); None;
     Some (500, true); None; Some (7, true)]%N) /\
  in_launcher (told (the_world true 1024 0) 4242) /\ NoDup (vars the_call) /\ plausible (told (the_world true 1024 0) 4242) the_table /\
  new_ruleset (told (the_world true 1024 0) 4242) the_call run_jail the_table /\ (forall x, entered run_jail x -> the_table x <> None).
Proof. split; [exact launch_case|exact launch_hyps]. Qed.
Example C79_died_case : exists t', call_run (told (refusing 13) 4242) Fork no_vars the_table limited_jail = (L_dies, [Forked 4242; Set_up t' 13; Signalled 4242 9]).
Proof. exact died_case. Qed.
(* Errors are not always negative: without a descriptor left for a stream it
   returns EFAULT itself. *)
Theorem C79_negative_refuted : exists w f m t j m' t' j', in_launcher w /\ call_run w f m t j = (L_returns 14 m' t' j', []).
Proof. exact positive_error. Qed.
Print Assumptions C79_negative_refuted.
(* Without memory for the environment minijail_fork returns ENOMEM, which is a
   possible pid, although there is no process. *)
Theorem C79_fork_refuted : exists w h m t j m' t' j', in_launcher w /\ history (g_env (w_cfg w)) minijail_new h j /\
  call_run w Fork m t j = (L_returns 12 m' t' j', []).
Proof. exact not_a_pid. Qed.
Print Assumptions C79_fork_refuted.
(* 0 does not say that the program was executed. *)
Theorem C79_executed_refuted : exists w f m t j m' t' j' acts pid acts', pid <> 0 /\
  call_run (told w pid) f m t j = (L_returns 0 m' t' j', acts) /\ call_run (told w 0) f m t j = (L_exits 127, acts').
Proof. exact not_executed. Qed.
Print Assumptions C79_executed_refuted.

(* ---- C80: what happens in the child ---- *)
(* A program that is executed is the one asked for, with the arguments asked
   for.  With neither the library nor a policy the environment is the one asked
   for; otherwise it is changed as for C41 (child_env). *)
Theorem C80_program : forall w f m t j p argv envp t' acts, w_fork w = 0 ->
  call_run w f m t j = (L_execs p argv envp t', acts) ->
  is_fork f = false /\ argv = argv_of f /\ w_exec w = 0%N /\
  (forall path, file_of f = Some path -> p = Named path) /\
  (preloaded f = false -> labelled j = false -> envp = env_of f (w_environ w)) /\
  (exists fd, child_env (preloaded f) (w_default w) fd j (env_of f (w_environ w)) = Some envp).
Proof. exact launch_program. Qed.
Print Assumptions C80_program.
(* A program given by a descriptor is the open file behind it. *)
Theorem C80_descriptor_partial : forall w f m t j p argv envp t' acts fd x, w_fork w = 0 ->
  call_run w f m t j = (L_execs p argv envp t', acts) -> well_prepared w f t j ->
  fd_of f = Some fd -> holds t fd x -> ~ In fd (map fst (pairs_of j)) -> ~ In fd [0; 1; 2] -> p = Opened x.
Proof. intros w f m t j p argv envp t' acts fd x F0 C W. exact (opened_program w f m t j p argv envp t' acts C F0 W fd x). Qed.
Print Assumptions C80_descriptor_partial.
(* The program's standard streams are the other ends of the pipes whose ends
   the caller gets (C79_descriptors); it has the descriptors passed on, and if
   the jail closes open descriptors then nothing else but the configuration. *)
Theorem C80_streams_partial : forall w f m t j p argv envp t' acts, w_fork w = 0 ->
  call_run w f m t j = (L_execs p argv envp t', acts) -> well_prepared w f t j ->
  (in_var f <> None -> t' 0 = Some (w_base w + 2, false)%N) /\ (out_var f <> None -> t' 1 = Some (w_base w + 5, false)%N) /\
  (err_var f <> None -> t' 2 = Some (w_base w + 7, false)%N).
Proof. intros w f m t j p argv envp t' acts F0 C W. exact (program_streams w f m t j p argv envp t' acts C F0 W). Qed.
Print Assumptions C80_streams_partial.
Theorem C80_passed_partial : forall w f m t j p argv envp t' acts, w_fork w = 0 ->
  call_run w f m t j = (L_execs p argv envp t', acts) -> well_prepared w f t j ->
  (forall a c x, In (a, c) (pairs_of j) -> holds t a x -> ~ piped (given (in_var f)) (given (out_var f)) (given (err_var f)) c -> t' c = Some (x, false)) /\
  (hasf F_close_open_fds j = true -> forall n x, holds t' n x ->
    (exists a, In (a, n) (pairs_of j) /\ holds t a x) \/
    (piped (given (in_var f)) (given (out_var f)) (given (err_var f)) n /\ (x = w_base w + 2 \/ x = w_base w + 5 \/ x = w_base w + 7)%N) \/
    (exists fd, fd_of f = Some fd /\ holds t fd x) \/ (preloaded f = true /\ x = w_base w)).
Proof.
  intros w f m t j p argv envp t' acts F0 C W. split; [exact (program_passed w f m t j p argv envp t' acts C F0 W)|].
  intros CA n x. exact (program_only w f m t j p argv envp t' acts C F0 W n x CA).
Qed.
Print Assumptions C80_passed_partial.
Example C80_streams_case : call_run (told (the_world true 1024 0) 0) fd_call no_vars the_table passing_jail =
    (L_execs (Opened 7) ["x"]%string the_envp (t_of passing_child), [Asked passing_t]) /\
  well_prepared (told (the_world true 1024 0) 0) fd_call the_table passing_jail /\ pairs_of passing_jail = [(1, 9)] /\ hasf F_close_open_fds passing_jail = true /\
  map (t_of passing_child) [0; 1; 2; 3; 4; 5; 6; 7; 8; 9; 40] =
    [Some (1002, false); None; None; Some (1000, false); None; None; None; None; None; Some (2, false); None]%N.
Proof. exact passing_case. Qed.
(* With the preload library: once the launching process was told 0, the child
   executed the program and the library in it read the jail and called main,
   that is a launch in the sense of C28 and C72, for any past of the jail.  So
   everything proved of [relaunched] holds: in particular, what the calls asked
   for was applied. *)
Theorem C80_in_jail : forall w f m t j u pid m' t' j' acts p argv envp tc t1 bytes size piped lost r same_ids kernel envp' t2,
  preloaded f = true -> plausible w t -> pid <> 0 -> used (g_env (w_cfg w)) minijail_new u j ->
  call_run (told w pid) f m t j = (L_returns 0 m' t' j', acts) -> In (Sent bytes) acts ->
  call_run (told w 0) f m t j = (L_execs p argv envp tc, [Asked t1]) ->
  c_typed j' -> S_Marshal.nonnull (w_addr w) -> real_errors (w_write w) -> minijail_size (w_addr w) j' = Some size -> (size < 2 ^ 64)%N ->
  bytes = (piped ++ lost)%string ->
  M_Io.run kernel [] (fake_main (w_cfg w) same_ids (fun _ => minijail_from_fd (g_env (w_cfg w)) minijail_new r piped) envp) = (Returned (Some envp'), t2) ->
  relaunched (w_cfg w) (w_child w) (w_parent w) u j t1 t2 envp envp' /\
  forall c, wants (w_cfg w) (calls u) c -> ~ (is_own_init (calls u) /\ on_proc c) -> worked c (t1 ++ t2).
Proof. exact launch_in_jail. Qed.
Print Assumptions C80_in_jail.
Example C80_in_jail_case : (call_run (told (the_world true 1024 0) 0) the_call no_vars the_table run_jail =
    (L_execs (Named "/bin/true") ["true"; "-v"]%string the_envp (t_of the_child), [Asked the_t1]) /\
  map (t_of the_child) [0; 1; 2; 3; 4; 5; 6; 7; 8; 9; 10; 11; 12; 40] =
    [Some (1002, false); Some (1005, false); Some (1007, false); Some (1000, false); None; None; None; None; None; None; None; Some (500, false); None; None]%N) /\
  exists size, c_typed the_jail' /\ S_Marshal.nonnull any_addr /\ real_errors slow /\
  minijail_size any_addr the_jail' = Some size /\ (size < 2 ^ 64)%N /\
  M_Io.run ex_kernel [] (fake_main ex_cfg true (fun _ => minijail_from_fd ex_env minijail_new whole the_bytes) the_envp) =
    (Returned (Some ["PATH=/bin"; "LD_PRELOAD=/lib/a.so"]%string), the_t2) /\
  In (C_unshare 131072, Yes 0 "") the_t1 /\ In (C_setresuid 1000, Yes 0 "") the_t2.
Proof. split; [exact child_case|exact main_case]. Qed.
(* Without the library the program is in the jail when it is executed. *)
Theorem C80_in_jail_no_preload : forall w f m t j u p argv envp tc acts, preloaded f = false -> plausible w t -> w_fork w = 0 ->
  used (g_env (w_cfg w)) minijail_new u j -> call_run w f m t j = (L_execs p argv envp tc, acts) ->
  exists l, acts = [Asked l] /\ relaunched_plain (w_cfg w) (w_child w) true u j l /\
  forall c, wants (w_cfg w) (calls u) c -> ~ (is_own_init (calls u) /\ on_proc c) -> worked c l.
Proof. exact launch_plain. Qed.
Print Assumptions C80_in_jail_no_preload.
(* So is the child in which minijail_fork returns 0. *)
Theorem C80_forked : forall w f m t j u rc m' t' j' acts, plausible w t -> w_fork w = 0 -> acts <> [] ->
  used (g_env (w_cfg w)) minijail_new u j -> call_run w f m t j = (L_returns rc m' t' j', acts) ->
  f = Fork /\ rc = 0 /\ m' = m /\ exists l, acts = [Asked l] /\ relaunched_plain (w_cfg w) (w_child w) false u j l /\
  forall c, wants (w_cfg w) (calls u) c -> ~ (is_own_init (calls u) /\ on_proc c) -> worked c l.
Proof. exact launch_forked. Qed.
Print Assumptions C80_forked.
(* A child that does not get to the program: waiting for it reports 127 if
   there is no such file, 126 if it cannot be executed, 255 if the process for
   it cannot be made, 134 (128 + SIGABRT) if the jail cannot be entered;
   nothing else. *)
Theorem C80_reported : forall w f m t j r acts e sigsys pid k rest, w_fork w = 0 -> call_run w f m t j = (r, acts) ->
  ending_of r = Some e -> sigsys <> 6%N -> 0 < pid ->
  exists v, minijail_wait sigsys pid (repeat (inl M_Wait.EINTR) k ++ inr (status_of e) :: rest) = Returns v /\
  ((v = 127 /\ w_exec w = 2%N) \/ (v = 126 /\ w_exec w <> 2%N /\ (fd_of f = None -> w_exec w <> 0%N)) \/
   (v = 255 /\ w_fork2 w < 0) \/ (v = 134 /\ r = L_dies)).
Proof. intros w f m t j r acts e sigsys pid k rest F0 C. exact (told_by_wait w f m t j r acts e sigsys pid k rest C F0). Qed.
Print Assumptions C80_reported.
(* The same through an init process that reaps all its children (C40; the
   program is process [root] of its pid namespace): 254 in place of 134. *)
Theorem C80_reported_init_partial : forall w f m t j r acts e sigsys pid root l err rest code, w_fork w = 0 -> 0 <= w_fork2 w ->
  call_run w f m t j = (r, acts) -> ending_of r = Some e -> 0 < pid ->
  ended root e l -> init root (reaped l ++ WaitFails err :: rest) = Exits code ->
  exists v, minijail_wait sigsys pid [inr (status_of (Exited code))] = Returns v /\
  ((v = 127 /\ w_exec w = 2%N) \/ (v = 126 /\ w_exec w <> 2%N /\ (fd_of f = None -> w_exec w <> 0%N)) \/ (v = 254 /\ r = L_dies)).
Proof. intros w f m t j r acts e sigsys pid root l err rest code F0 F2 C. exact (told_through_init w f m t j r acts e sigsys pid root l err rest code C F0 F2). Qed.
Print Assumptions C80_reported_init_partial.
Example C80_cases :
  quick_run plain_call 0 0 = (L_execs (Named "/bin/true") ["true"]%string ["A=1"]%string (t_of (quick_run plain_call 0 0)), [Asked quick_t]) /\
  quick_run plain_call 2 0 = (L_exits 127, [Asked quick_t]) /\
  quick_run plain_call 13 0 = (L_exits 126, [Asked quick_t]) /\
  quick_run Fork 0 0 = (L_returns 0 no_vars (t_of (quick_run Fork 0 0)) quick_jail, [Asked quick_t]) /\
  quick_run Fork 0 77 = (L_returns 77 no_vars (t_of (quick_run Fork 0 77)) (set_initpid 77 quick_jail), [Forked 77]) /\
  quick_run (Run_fd_env_pid_pipes 40 ["x"]%string None None None None None) 0 0 =
    (L_execs (Opened 7) ["x"]%string the_envp (t_of (quick_run (Run_fd_env_pid_pipes 40 ["x"]%string None None None None None) 0 0)),
     [Asked (snd (M_Io.run ex_kernel [] (run_child ex_cfg true quick_jail)))]) /\
  In (C_setresuid 1000, Yes 0 "") quick_t.
Proof. exact plain_fates. Qed.
Example C80_past : used (g_env ex_cfg) minijail_new (map (fun p => Call (fst p) (snd p)) run_history) run_jail.
Proof. exact past_case. Qed.
