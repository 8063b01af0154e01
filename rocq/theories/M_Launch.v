(* Model of the functions that start programs: what minijail_run and its
   variants and minijail_fork return, store and leave behind, in the launching
   process and in the child.  libminijail.c:3429-3440, 3446-3628, 3630-3870 and
   3873-4101; die and pdie abort (util.c, do_fatal_log).
   Simplifications: malloc works except where minijail_copy_env needs it; the
   calls on signal masks and handlers are in M_Signal, sessions in M_Session;
   the child's wait for its parent (2467-2479, M_Sync) ends well; memory that
   is freed or leaked is left out. *)
From Verif Require Export M_Run M_Fds M_Wait.
From Verif Require M_Sync.
Local Open Scope Z_scope.

(* The caller's variables for results. *)
Definition var : Type := N.
Definition memory : Type := var -> Z.
Definition store (p : option var) (v : Z) (m : memory) : memory :=
  match p with None => m | Some a => fun x => if (x =? a)%N then v else m x end.

(* 3429-3440 struct minijail_run_config; None: a null pointer *)
Record config := Config {
  c_filename : option string; c_elf : Z; c_argv : list string; c_envp : option env;
  c_preload : bool; c_exec : bool;
  c_in : option var; c_out : option var; c_err : option var; c_pid : option var }.

(* The functions (libminijail.h:496-650).  [pid], [i], [o], [e]: pointers to
   variables for the child's pid and the caller's ends of its standard streams. *)
Inductive run_call :=
  | Run (file : string) (argv : list string)
  | Run_env (file : string) (argv : list string) (envp : env)
  | Run_pid (file : string) (argv : list string) (pid : option var)
  | Run_pipe (file : string) (argv : list string) (i : option var)
  | Run_pid_pipes (file : string) (argv : list string) (pid i o e : option var)
  | Run_env_pid_pipes (file : string) (argv : list string) (envp : option env) (pid i o e : option var)
  | Run_fd_env_pid_pipes (fd : Z) (argv : list string) (envp : option env) (pid i o e : option var)
  | Run_no_preload (file : string) (argv : list string)
  | Run_pid_pipes_no_preload (file : string) (argv : list string) (pid i o e : option var)
  | Run_env_pid_pipes_no_preload (file : string) (argv : list string) (envp : option env) (pid i o e : option var)
  | Fork.
(* 3446-3628; members that are not named are zero *)
Definition config_of (c : run_call) : config :=
  match c with
  | Run f a => Config (Some f) (-1) a None true true None None None None               (* 3446-3458 *)
  | Run_env f a v => Config (Some f) (-1) a (Some v) true true None None None None     (* 3460-3472 *)
  | Run_pid f a p => Config (Some f) (-1) a None true true None None None p            (* 3474-3487 *)
  | Run_pipe f a i => Config (Some f) (-1) a None true true i None None None           (* 3489-3502 *)
  | Run_pid_pipes f a p i o e => Config (Some f) (-1) a None true true i o e p         (* 3504-3521 *)
  | Run_env_pid_pipes f a v p i o e => Config (Some f) (-1) a v true true i o e p      (* 3523-3541 *)
  | Run_fd_env_pid_pipes fd a v p i o e => Config None fd a v true true i o e p        (* 3543-3561 *)
  | Run_no_preload f a => Config (Some f) (-1) a None false true None None None None   (* 3563-3575 *)
  | Run_pid_pipes_no_preload f a p i o e => Config (Some f) (-1) a None false true i o e p  (* 3577-3597 *)
  | Run_env_pid_pipes_no_preload f a v p i o e => Config (Some f) (-1) a v false true i o e p (* 3599-3620 *)
  | Fork => Config None (-1) [] None false false None None None None                   (* 3622-3628 *)
  end.

(* Everything the functions ask of the outside. *)
Record world := World {
  w_cfg : cfg;                      (* how the library was built, and the kernel *)
  w_default : string;               (* PRELOADPATH *)
  w_environ : env;                  (* environ *)
  w_copied : bool;                  (* minijail_copy_env (util.c) got its memory *)
  w_lim : Z;                        (* RLIMIT_NOFILE *)
  w_base : N;                       (* open files from here on are new *)
  w_pipe : nat -> bool;             (* the i-th pipe of the run does not fail for want of memory or files *)
  w_fork : Z;                       (* what fork or clone returns here *)
  w_ruleset : N;                    (* the open file of a new Landlock ruleset *)
  (* for the launching process *)
  w_parent : kenv;
  w_setup : M_Sync.pcall -> N;      (* error numbers of the calls that set up the child *)
  w_addr : N -> N; w_fuel : nat; w_write : script;   (* for sending the jail, see M_Pipe *)
  (* for the child *)
  w_child : kenv;
  w_kernel : list event -> call -> M_Io.answer;
  w_fork2 : Z;                      (* what the fork of the process of init returns *)
  w_exec : N }.                     (* errno of execve; 0: it works *)

(* What a process does that others can see. *)
Inductive act :=
  | Forked (pid : Z)
  | Set_up (c : M_Sync.pcall) (err : N)
  | Sent (bytes : string)                    (* to the pipe for the configuration *)
  | Signalled (pid : Z) (sig : Z)
  | Asked (t : list event).                  (* the calls that enter the jail *)
(* What is executed: a file by name, or an open file *)
Inductive image := Named (path : string) | Opened (file : N).
(* How the call of the function ends for a process. *)
Inductive fate :=
  | L_returns (rc : Z) (m : memory) (t : table) (j : jail)
  | L_dies                                     (* abort *)
  | L_execs (p : image) (argv : list string) (envp : env) (t : table)
  | L_exits (code : N)
  | L_inits (t : table)                        (* it goes on as init (M_Wait) for ever *)
  | L_undef
  | L_waits.                                   (* still writing to the pipe *)

(* 3641-3716, up to the fork *)
Inductive prepared :=
  | P_dies
  | P_fails (rc : Z) (st : run_state) (t : table) (j : jail)
  | P_ready (st : run_state) (t : table) (j : jail) (child_env : option env).
Definition none : Z * Z := (-1, -1).
(* pipe(2) number [i] of a run *)
Definition new_pipe (w : world) (i : nat) (t : table) : option ((Z * Z) * table) :=
  if w_pipe w i then let id := (w_base w + 2 * N.of_nat i)%N in M_Fds.pipe (w_lim w) t id (id + 1)%N else None.
Definition new_pipe_if (b : bool) (w : world) (i : nat) (t : table) : option ((Z * Z) * table) :=
  if b then new_pipe w i t else Some (none, t).
Definition given {A} (p : option A) : bool := match p with Some _ => true | None => false end.
Definition ENOMEM : Z := 12.
Definition EFAULT : Z := 14.
(* 3694-3716: the pipes for the streams, and to make the child wait *)
Definition prepare_streams (w : world) (c : config) (j : jail) (v : option env) (p : Z * Z) (t : table) : prepared :=
  match new_pipe_if (given (c_in c)) w 1 t with
  | None => P_fails EFAULT (RunState p none none none none) t j
  | Some (i, t) =>
  match new_pipe_if (given (c_out c)) w 2 t with
  | None => P_fails EFAULT (RunState p none i none none) t j
  | Some (o, t) =>
  match new_pipe_if (given (c_err c)) w 3 t with
  | None => P_fails EFAULT (RunState p none i o none) t j
  | Some (e, t) =>
  match new_pipe_if (M_Sync.sync_child j) w 4 t with
  | None => P_fails (- EFAULT) (RunState p none i o e) t j
  | Some (s, t) => P_ready (RunState p s i o e) t j v
  end end end end.
(* j->seccomp_policy_path, as in M_Run's child_env *)
Definition labelled (j : jail) : bool := match j_seccomp_policy_path j with Own _ => true | _ => false end.
(* 3641-3692 *)
Definition prepare (w : world) (c : config) (j : jail) (t : table) : prepared :=
  let start := RunState none none none none none in
  if given (c_filename c) && negb (c_elf c =? -1) then P_dies else
  let j := match c_filename c with None => j | Some f => set_filename (Own f) j end in
  let copies := c_preload c || labelled j in
  if copies && negb (w_copied w) then P_fails ENOMEM start t j else
  let v := match c_envp c with Some v => v | None => w_environ w end in
  let '(r, v) := if labelled j then setup_seccomp_policy_path j v else (0%N, v) in
  if negb (r =? 0)%N then P_fails (- EFAULT) start t j else
  if c_preload c then
    match j_hooks j with _ :: _ => P_dies | [] =>
    if negb (c_exec c) then P_dies else
    let '(r, v) := setup_preload (w_default w) j v in
    if negb (r =? 0)%N then P_fails (- EFAULT) start t j else
    match new_pipe w 0 t with                                    (* 3122-3132 *)
    | None => P_fails (- EFAULT) start t j
    | Some (p, t) =>
        let '(r, v) := setup_pipe (Z.to_N (fst p)) v in
        if negb (r =? 0)%N then P_fails (- EFAULT) (RunState p none none none none) t j
        else prepare_streams w c j (Some v) p t
    end end
  else if hasf F_use_caps j && negb (j_caps j =? 0)%N && negb (hasf F_set_ambient_caps j) then P_dies
  else prepare_streams w c j (if copies then Some v else None) none t.

(* 3799-3809: the calls that set up the child, until one fails *)
Fixpoint set_up (w : world) (l : list M_Sync.pstep) : bool * list act :=
  match l with
  | [] => (true, [])
  | (c, tolerated) :: r =>
      let e := w_setup w c in
      if (e =? 0)%N || tolerated e then let '(b, a) := set_up w r in (b, Set_up c e :: a)
      else (false, [Set_up c e])
  end.
(* 3784-3787: a new descriptor for the ruleset, if there are rules *)
Definition with_ruleset_fd (k : kenv) (file : N) (j : jail) (t : table) : table :=
  match j_fs_rules j with
  | [] => t
  | _ => if 0 <=? k_landlock_fd k then upd t (k_landlock_fd k) (Some (file, true)) else t
  end.
(* 4074-4101, for a process in which minijail_run_internal returned 0 *)
Definition finish_call (c : config) (pid : Z) (st : run_state) (m : memory) (t : table) (j : jail) : fate :=
  let '((i, o, e), t) := parent_result (given (c_in c)) (given (c_out c)) (given (c_err c)) st t in
  let m := store (c_pid c) pid m in
  let m := store (c_in c) i m in let m := store (c_out c) o m in let m := store (c_err c) e m in
  L_returns (if c_exec c then 0 else pid) m t j.
Definition SIGKILL : Z := 9.
(* 3784-3870, the parent of [pid] *)
Definition run_parent (w : world) (c : config) (pid : Z) (st : run_state) (m : memory) (t : table) (j : jail) : fate * list act :=
  let t := with_ruleset_fd (w_parent w) (w_ruleset w) j t in
  let j := set_initpid pid (with_ruleset (w_parent w) j) in
  let '(ok, acts) := set_up w (M_Sync.parent_setup (Z.to_N pid) j) in
  if negb ok then (L_dies, acts ++ [Signalled pid SIGKILL])%list else           (* 2384-2388 *)
  let t := close_entered (hasf F_enter_vfs j) (j_mountns_fd j) (hasf F_enter_net j) (j_netns_fd j) t in
  let '(st, t) :=                                                             (* 2459-2463 *)
    if M_Sync.sync_child j then (RunState (rs_pipe st) none (rs_in st) (rs_out st) (rs_err st), close_pair (rs_sync st) t)
    else (st, t) in
  if negb (c_preload c) then (finish_call c pid st m t j, acts)
  else
    match minijail_to_fd (w_addr w) j (w_fuel w) (w_write w) with
    | None => (L_undef, acts)
    | Some (More bytes) => (L_waits, acts ++ [Sent bytes])%list
    | Some (Wrote r bytes _) =>
        let t := close_pair (rs_pipe st) t in
        let st := RunState none (rs_sync st) (rs_in st) (rs_out st) (rs_err st) in
        (finish_call c pid st m t j,
         acts ++ [Sent bytes] ++ (if r =? 0 then [] else [Signalled pid SIGKILL]))%list
    end.

Definition MINIJAIL_ERR_NO_ACCESS : N := 126.
Definition MINIJAIL_ERR_NO_COMMAND : N := 127.
(* 4038-4055 *)
Definition exec (w : world) (c : config) (v : option env) (elf : Z) (t : table) : fate :=
  let v := match v with Some v => v | None => match c_envp c with Some v => v | None => w_environ w end end in
  let fails (e : N) := L_exits (if (e =? M_Sync.ENOENT)%N then MINIJAIL_ERR_NO_COMMAND else MINIJAIL_ERR_NO_ACCESS) in
  if negb (w_exec w =? 0)%N then fails (w_exec w)
  else if -1 <? elf
       then match t elf with Some (f, _) => L_execs (Opened f) (c_argv c) v (after_exec t) | None => fails 9%N end
       else match c_filename c with Some f => L_execs (Named f) (c_argv c) v (after_exec t) | None => L_undef end.
Local Open Scope io_scope.
(* 3784-3787, 3873-4055, the child *)
Definition run_forked (w : world) (c : config) (st : run_state) (m : memory) (t : table) (j : jail) (v : option env) : fate * list act :=
  let t := with_ruleset_fd (w_child w) (w_ruleset w) j t in
  let j := with_ruleset (w_child w) j in
  let do_init := hasf F_do_init j && negb (hasf F_run_as_init j) in
  let ca := hasf F_close_open_fds j in
  let pairs := entry_pairs ca (hasf F_enter_vfs j) (j_mountns_fd j) (hasf F_enter_net j) (j_netns_fd j)
                 (firstn (N.to_nat (j_preserved_fd_count j)) (j_preserved_fds j)) in
  match child_setup (w_lim w) ca pairs (c_elf c) (M_Sync.sync_child j) st t with
  | None => (L_dies, [])
  | Some (st, elf, t) =>
      let j' := child_jail (c_preload c) j in
      match M_Io.run (w_kernel w) [] (when (hasf F_userns j) (enter_user_namespace j);; minijail_enter (w_cfg w) j') with
      | (Died, l) => (L_dies, [Asked l])
      | (Undefined, l) => (L_undef, [Asked l])
      | (Returned _, l) =>
          let here := match M_Io.run (w_kernel w) l (run_hooks_or_die j' HOOK_PRE_EXECVE) with
                      | (Died, l') => (L_dies, [Asked (l ++ l')])
                      | (Undefined, l') => (L_undef, [Asked (l ++ l')])
                      | (Returned _, l') =>
                          (if c_exec c then exec w c v elf (before_exec st t)
                           else finish_call c 0 st m t j', [Asked (l ++ l')])
                      end in
          if c_exec c && hasf F_pids j && do_init
          then if w_fork2 w <? 0 then (L_exits (exit_code 255), [Asked l])                 (* _exit(-1) *)
               else if 0 <? w_fork2 w then (L_inits (init_table st t), [Asked l; Forked (w_fork2 w)])
               else here
          else here
      end
  end%list.

(* 3630-4101: a call of one of the functions, as [w_fork] says in the launching
   process or in the child; [m], [t], [j]: the caller's variables, its
   descriptors and the jail *)
Definition call_run (w : world) (f : run_call) (m : memory) (t : table) (j : jail) : fate * list act :=
  let c := config_of f in
  match prepare w c j t with
  | P_dies => (L_dies, [])
  | P_fails r st t j => (L_returns r m (free_run_state st t) j, [])
  | P_ready st t j v =>
      if negb (hasf F_pids j) && hasf F_userns j then (L_dies, [])                          (* 3769-3771 *)
      else if w_fork w <? 0 then (L_dies, [])
      else if w_fork w =? 0 then run_forked w c st m t j v
      else let '(r, a) := run_parent w c (w_fork w) st m t j in (r, Forked (w_fork w) :: a)
  end.
