(* Model of minijail0's main function, minijail0.c:20-83, around parse_args and
   the checks before the program is run, which are M_Cli's [minijail0]: the
   function that runs the program, whose result is not looked at, and the exit
   status.  The jail is not destroyed before the end (76-78 is for sanitizers). *)
From Verif Require Export M_Launch.
From Verif Require M_Cli.
Local Open Scope N_scope.

(* 47-74: the program is argv[0], [args] are its arguments with that *)
Definition run_of (s : M_Cli.start) (args : list string) : run_call :=
  let prog := hd EmptyString args in
  if M_Cli.st_preload s
  then match M_Cli.st_env s with
       | Some envp => Run_env prog args envp
       | None => Run prog args
       end
  else Run_no_preload prog args.

(* What becomes of minijail0's process, or of the child it forked. *)
Inductive outcome :=
  | M_exits (code : N)                  (* as its parent is told *)
  | M_aborts
  | M_undefined
  | M_writing                           (* it still sends the jail *)
  | M_waiting                           (* for the program *)
  | M_executes (p : image) (argv : list string) (envp : env) (t : table)
  | M_inits (t : table).
(* exit(2) keeps 8 bits *)
Definition low_byte (n : Z) : N := Z.to_N (n mod 256).
(* 75-82; [answers]: those of waitpid *)
Definition end_of_main (immediately : bool) (sigsys : N) (answers : list (answer N)) (j : jail) : outcome :=
  if immediately then M_exits 0
  else match minijail_wait sigsys (j_initpid j) answers with
       | Returns ret => M_exits (low_byte ret)
       | Blocked => M_waiting
       end.
(* 20-83; main has no variables for pids and pipes *)
Definition no_results : memory := fun _ => 0%Z.
Definition main (w : M_Cli.world) (l : world) (sigsys : N) (preload_path : string) (opts : list (N * option string)) (args : list string)
                (t : table) (answers : list (answer N)) : outcome * list act :=
  match M_Cli.minijail0 w preload_path opts args with
  | M_Cli.Exits code => (M_exits (low_byte code), [])
  | M_Cli.Aborts => (M_aborts, [])
  | M_Cli.Crash => (M_undefined, [])
  | M_Cli.Go s =>
      let c := M_Cli.st_cli s in
      match call_run l (run_of s args) no_results t (M_Cli.c_jail c) with
      | (L_returns _ _ _ j, acts) => (end_of_main (M_Cli.c_exit_immediately c) sigsys answers j, acts)
      | (L_dies, acts) => (M_aborts, acts)
      | (L_execs p argv envp t, acts) => (M_executes p argv envp t, acts)
      | (L_exits code, acts) => (M_exits code, acts)
      | (L_inits t, acts) => (M_inits t, acts)
      | (L_undef, acts) => (M_undefined, acts)
      | (L_waits, acts) => (M_writing, acts)
      end
  end.
