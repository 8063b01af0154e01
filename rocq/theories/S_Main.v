(* What a user of minijail0 sees of it, for C81. *)
From Verif Require Export S_Launch M_Main.
From Verif Require S_Cli S_CliCalls S_CliRun.
Local Open Scope N_scope.

(* minijail0 and its launch of the program see the same system. *)
Definition same_system (w : M_Cli.world) (l : world) : Prop :=
  g_env (w_cfg l) = M_Cli.w_env w /\ w_environ l = M_Cli.w_environ w.
(* What waitpid may answer. *)
Definition real_answers (answers : list (answer N)) : Prop :=
  Forall (fun a => match a with inl n => 0 < n < 256 | inr st => exists e, possible e /\ st = status_of e end) answers.
(* The first answer of waitpid that is not an interruption: the process ended. *)
Definition ended_as (answers : list (answer N)) (e : ending) : Prop :=
  exists k rest, answers = (repeat (inl M_Wait.EINTR) k ++ inr (status_of e) :: rest)%list /\ possible e.
(* The options for which minijail0 is to end well without running anything:
   -h, -H and --gen-config. *)
Definition only_tells (opts : list (N * option string)) : Prop :=
  S_Cli.has opts (S_Cli.short "h") \/ S_Cli.has opts (S_Cli.short "H") \/ S_Cli.has opts M_Config.OPT_GEN_CONFIG.
(* The name of the preload library: that of --preload-library, or the one the
   build has. *)
Definition library (opts : list (N * option string)) (built_in lib : string) : Prop :=
  match S_CliCalls.last_arg opts M_Config.OPT_PRELOAD_LIBRARY with Some a => a = Some lib | None => lib = built_in end.
(* What minijail0 is doing once it launched the program: it ended or waits. *)
Definition launcher_done (r : outcome) : Prop := r = M_waiting \/ exists n, r = M_exits n.
(* How a process ends that does not execute a program. *)
Definition ending_seen (r : outcome) : option ending :=
  match r with
  | M_exits code => Some (Exited code)
  | M_aborts => Some (Killed 6 true)               (* SIGABRT *)
  | _ => None
  end.
