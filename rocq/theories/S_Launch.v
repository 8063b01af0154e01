(* What the functions that start programs are given and promise
   (libminijail.h:496-650), for C79 and C80. *)
From Verif Require Export M_Launch S_Wait S_Reuse S_Fds.
Local Open Scope Z_scope.

(* ---- the arguments of a call ---- *)
Definition is_fork (f : run_call) : bool := match f with Fork => true | _ => false end.
Definition preloaded (f : run_call) : bool :=
  match f with
  | Run_no_preload _ _ | Run_pid_pipes_no_preload _ _ _ _ _ _ | Run_env_pid_pipes_no_preload _ _ _ _ _ _ _ | Fork => false
  | _ => true
  end.
(* the program, by name or by descriptor *)
Definition file_of (f : run_call) : option string :=
  match f with
  | Run p _ | Run_env p _ _ | Run_pid p _ _ | Run_pipe p _ _ | Run_pid_pipes p _ _ _ _ _ | Run_env_pid_pipes p _ _ _ _ _ _
  | Run_no_preload p _ | Run_pid_pipes_no_preload p _ _ _ _ _ | Run_env_pid_pipes_no_preload p _ _ _ _ _ _ => Some p
  | Run_fd_env_pid_pipes _ _ _ _ _ _ _ | Fork => None
  end.
Definition fd_of (f : run_call) : option Z := match f with Run_fd_env_pid_pipes fd _ _ _ _ _ _ => Some fd | _ => None end.
Definition argv_of (f : run_call) : list string :=
  match f with
  | Run _ a | Run_env _ a _ | Run_pid _ a _ | Run_pipe _ a _ | Run_pid_pipes _ a _ _ _ _ | Run_env_pid_pipes _ a _ _ _ _ _
  | Run_fd_env_pid_pipes _ a _ _ _ _ _
  | Run_no_preload _ a | Run_pid_pipes_no_preload _ a _ _ _ _ | Run_env_pid_pipes_no_preload _ a _ _ _ _ _ => a
  | Fork => []
  end.
(* the environment asked for; [inherited] is the caller's *)
Definition env_of (f : run_call) (inherited : env) : env :=
  match f with
  | Run_env _ _ v => v
  | Run_env_pid_pipes _ _ (Some v) _ _ _ _ | Run_fd_env_pid_pipes _ _ (Some v) _ _ _ _
  | Run_env_pid_pipes_no_preload _ _ (Some v) _ _ _ _ => v
  | _ => inherited
  end.
(* the variables for the results *)
Definition pid_var (f : run_call) : option var :=
  match f with
  | Run_pid _ _ p | Run_pid_pipes _ _ p _ _ _ | Run_env_pid_pipes _ _ _ p _ _ _ | Run_fd_env_pid_pipes _ _ _ p _ _ _
  | Run_pid_pipes_no_preload _ _ p _ _ _ | Run_env_pid_pipes_no_preload _ _ _ p _ _ _ => p
  | _ => None
  end.
Definition in_var (f : run_call) : option var :=
  match f with
  | Run_pipe _ _ i | Run_pid_pipes _ _ _ i _ _ | Run_env_pid_pipes _ _ _ _ i _ _ | Run_fd_env_pid_pipes _ _ _ _ i _ _
  | Run_pid_pipes_no_preload _ _ _ i _ _ | Run_env_pid_pipes_no_preload _ _ _ _ i _ _ => i
  | _ => None
  end.
Definition out_var (f : run_call) : option var :=
  match f with
  | Run_pid_pipes _ _ _ _ o _ | Run_env_pid_pipes _ _ _ _ _ o _ | Run_fd_env_pid_pipes _ _ _ _ _ o _
  | Run_pid_pipes_no_preload _ _ _ _ o _ | Run_env_pid_pipes_no_preload _ _ _ _ _ o _ => o
  | _ => None
  end.
Definition err_var (f : run_call) : option var :=
  match f with
  | Run_pid_pipes _ _ _ _ _ e | Run_env_pid_pipes _ _ _ _ _ _ e | Run_fd_env_pid_pipes _ _ _ _ _ _ e
  | Run_pid_pipes_no_preload _ _ _ _ _ e | Run_env_pid_pipes_no_preload _ _ _ _ _ _ e => e
  | _ => None
  end.
Definition vars (f : run_call) : list var :=
  flat_map (fun p => match p with Some a => [a] | None => [] end) [pid_var f; in_var f; out_var f; err_var f].

(* ---- the situation of a call ---- *)
(* The kernel is the same for everyone; descriptors are not negative. *)
Definition plausible (w : world) (t : table) : Prop :=
  same_kernel (g_env (w_cfg w)) (w_parent w) /\ same_kernel (g_env (w_cfg w)) (w_child w) /\ (forall x, x < 0 -> t x = None).
(* The process that made the call was told [pid] by fork, and not as the child. *)
Definition in_launcher (w : world) : Prop := w_fork w <> 0.
Definition started_by (acts : list act) (pid : Z) : Prop := In (Forked pid) acts.
Definition nothing_started (acts : list act) : Prop := forall pid, ~ started_by acts pid.
Definition killed (acts : list act) (pid : Z) : Prop := In (Signalled pid 9) acts.
(* The descriptor of a ruleset for file access rules is a new one. *)
Definition new_ruleset (w : world) (f : run_call) (j : jail) (t : table) : Prop :=
  forall st t1 j1 v, prepare w (config_of f) j t = P_ready st t1 j1 v -> t1 (k_landlock_fd (w_parent w)) = None.
(* Namespaces to enter are given by open descriptors. *)
Definition entered (j : jail) (x : Z) : Prop :=
  (hasf F_enter_vfs j = true /\ x = j_mountns_fd j) \/ (hasf F_enter_net j = true /\ x = j_netns_fd j).

(* ---- C80: how the process that was to become the program ended ---- *)
Definition ending_of (r : fate) : option ending :=
  match r with
  | L_exits code => Some (Exited code)
  | L_dies => Some (Killed 6 true)             (* SIGABRT *)
  | _ => None
  end.
(* The same call as the process that was told [n] by fork sees it. *)
Definition told (w : world) (n : Z) : world :=
  World (w_cfg w) (w_default w) (w_environ w) (w_copied w) (w_lim w) (w_base w) (w_pipe w) n (w_ruleset w)
    (w_parent w) (w_setup w) (w_addr w) (w_fuel w) (w_write w) (w_child w) (w_kernel w) (w_fork2 w) (w_exec w).

(* The descriptors a jail passes on, and those of namespaces to enter. *)
Definition pairs_of (j : jail) : list (Z * Z) :=
  entry_pairs (hasf F_close_open_fds j) (hasf F_enter_vfs j) (j_mountns_fd j) (hasf F_enter_net j) (j_netns_fd j)
    (firstn (N.to_nat (j_preserved_fd_count j)) (j_preserved_fds j)).
(* The conditions of C37 and C38, for jails without file access rules (the
   ruleset is a descriptor those do not know of): descriptors to pass on are
   open and numbers for them exist, and there is room for temporaries. *)
Definition well_prepared (w : world) (f : run_call) (t : table) (j : jail) : Prop :=
  j_fs_rules j = [] /\
  (forall st t1, open_pipes (w_lim w) (preloaded f) (given (in_var f)) (given (out_var f)) (given (err_var f)) (M_Sync.sync_child j) (w_base w) t = Some (st, t1) ->
     started (w_lim w) (preloaded f) (given (in_var f)) (given (out_var f)) (given (err_var f)) (M_Sync.sync_child j) (w_base w) (pairs_of j)
       (match fd_of f with Some fd => fd | None => -1 end) t st t1) /\
  valid_children (w_lim w) (pairs_of j) /\ std_open t.
