(* Model of running a program in a jail: what the launching process, the
   forked child and the preload library do with the jail and the environment.
   libminijail.c:2445-2457, 3082-3132, 3628-4056; libminijailpreload.c:27-91.
   File descriptors are in M_Fds, the transfer of the jail in M_Pipe.
   Simplifications: fork and clone work; pids, signals, sessions and the
   synchronization with the parent are left out; [Returned] means that execve
   is called (or, in a forked child without exec, that minijail_fork returns). *)
From Verif Require Export M_Enter M_Pipe M_Util.
Local Open Scope N_scope.
Local Open Scope io_scope.

(* libminijail.c:3429-3440 *)
Record run_config := RunConfig { rc_use_preload : bool; rc_exec_in_child : bool }.

(* 3667-3684, 3769-3771: what minijail_run refuses *)
Definition run_refuses (c : run_config) (j : jail) : bool :=
  (if rc_use_preload c
   then match j_hooks j with [] => false | _ => true end || negb (rc_exec_in_child c)
   else hasf F_use_caps j && negb (j_caps j =? 0) && negb (hasf F_set_ambient_caps j))
  || (negb (hasf F_pids j) && hasf F_userns j).

(* 3784-3787, in the parent and in the child; [e] has the ruleset descriptor
   this process gets.  The code of minijail_preserve_fd is ignored. *)
Definition with_ruleset (e : kenv) (j : jail) : jail :=
  match j_fs_rules j with
  | [] => j
  | _ => let j := snd (setup_fs_rules_fd e j) in
         match minijail_preserve_fd (j_fs_rules_fd j) (j_fs_rules_fd j) j with ARet _ j' => j' | _ => j end
  end.
(* 3646-3648, 3791 and 3828: the jail the parent sends *)
Definition parent_jail (e : kenv) (filename : option string) (pid : Z) (j : jail) : jail :=
  set_initpid pid (with_ruleset e (match filename with None => j | Some f => set_filename (Own f) j end)).

(* 2445-2457 *)
Definition enter_user_namespace (j : jail) : io unit :=
  when (negb (is_null (j_gidmap j))) (must (C_setresgid (if hasf F_gid j then j_gid j else 0)));;
  when (negb (is_null (j_uidmap j))) (must (C_setresuid (if hasf F_uid j then j_uid j else 0))).

(* 3639, 3962-3977: the jail the child enters.  3901-3904 only adds to the
   descriptors to keep, which entering does not look at. *)
Definition child_jail (preload : bool) (j : jail) : jail :=
  let do_init := hasf F_do_init j && negb (hasf F_run_as_init j) in
  let j := if hasf F_pids j && negb do_init then setf F_remount_proc_ro false j else j in
  if preload then minijail_preexec j else setf F_pids false j.
(* 3956-3957, 3962-4010 *)
Definition run_child (g : cfg) (preload : bool) (j : jail) : io unit :=
  when (hasf F_userns j) (enter_user_namespace j);;
  minijail_enter g (child_jail preload j);;
  run_hooks_or_die (child_jail preload j) HOOK_PRE_EXECVE.

(* ---- The environment ---- *)
(* libminijail-private.h:24-26 *)
Definition kFdEnvVar : string := "__MINIJAIL_FD".
Definition kLdPreloadEnvVar : string := "LD_PRELOAD".
Definition kSeccompPolicyPathEnvVar : string := "SECCOMP_POLICY_PATH".
(* 3082-3107; [default] is PRELOADPATH *)
Definition setup_preload (default : string) (j : jail) (e : env) : N * env :=
  let path := match j_preload_path j with Own p => p | _ => default end in
  let old := match minijail_getenv e kLdPreloadEnvVar with Some s => s | None => EmptyString end in
  minijail_setenv e kLdPreloadEnvVar (old ++ (if String.eqb old "" then "" else " ") ++ path)%string true.
(* 3113-3120 *)
Definition setup_seccomp_policy_path (j : jail) (e : env) : N * env :=
  minijail_setenv e kSeccompPolicyPathEnvVar (match j_seccomp_policy_path j with Own p => p | _ => "NO-LABEL"%string end) true.
(* 3122-3132; [fd] is the read end of the pipe *)
Definition setup_pipe (fd : N) (e : env) : N * env := minijail_setenv e kFdEnvVar (dec fd) true.
(* 3650-3676 and 4038-4042: the environment given to execve; None: an error
   was returned *)
Definition child_env (preload : bool) (default : string) (fd : N) (j : jail) (e : env) : option env :=
  match (match j_seccomp_policy_path j with Own _ => setup_seccomp_policy_path j e | _ => (0, e) end) with
  | (0, e) =>
      if preload
      then match setup_preload default j e with
           | (0, e) => match setup_pipe fd e with (0, e) => Some e | _ => None end
           | _ => None
           end
      else Some e
  | _ => None
  end.

(* libminijailpreload.c:27-45 *)
Fixpoint cut_last_space (s : string) : option string :=     (* strrchr(s, ' ') and cutting there *)
  match s with
  | EmptyString => None
  | String c t => match cut_last_space t with
                  | Some p => Some (String c p)
                  | None => if Ascii.eqb c " "%char then Some EmptyString else None
                  end
  end.
Definition truncate_preload_env (e : env) (name : string) : env :=
  match getenv_index e name with
  | None => e
  | Some i =>
      let value := sdrop (String.length name + 1) (nth i e EmptyString) in
      match cut_last_space value with
      | Some v => set_nth i (stake (String.length name + 1) (nth i e EmptyString) ++ v)%string e
      | None => snd (minijail_unsetenv e name)
      end
  end.

(* atoi(3): blanks, a sign, digits; without overflow *)
Definition is_blank (c : ascii) : bool :=
  let n := N_of_ascii c in (n =? 32) || ((9 <=? n) && (n <=? 13)).
Fixpoint digits (s : string) (acc : Z) : Z :=
  match s with
  | String c t => let n := N_of_ascii c in
      if (48 <=? n) && (n <=? 57) then digits t (10 * acc + Z.of_N (n - 48))%Z else acc
  | EmptyString => acc
  end.
Fixpoint atoi (s : string) : Z :=
  match s with
  | EmptyString => 0%Z
  | String c t => if is_blank c then atoi t
                  else if Ascii.eqb c "-"%char then (- digits t 0)%Z
                  else if Ascii.eqb c "+"%char then digits t 0%Z else digits s 0%Z
  end.

(* libminijailpreload.c:54-91.  [same_ids]: the effective ids are the real
   ones; [from fd] is what minijail_from_fd does with the descriptor.  The
   result is the environment main is called with, or None if it is not called.
   minijail_destroy and dlclose are left out. *)
Definition fake_main (g : cfg) (same_ids : bool) (from : Z -> fresult) (e : env) : io (option env) :=
  if negb same_ids then Pure None else
  match minijail_getenv e kFdEnvVar with
  | None => Pure None
  | Some fd_name =>
      let fd := atoi fd_name in
      if (fd <? 0)%Z then Pure None else
      match from fd with
      | FErr _ _ => Abort
      | FUb => Undef
      | FOk j =>
          try (C_close fd);;
          minijail_enter g (minijail_preenter j);;
          Pure (Some (truncate_preload_env (snd (minijail_unsetenv e kFdEnvVar)) kLdPreloadEnvVar))
      end
  end.
