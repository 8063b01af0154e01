(* What running a program in a jail means, from the call that starts it to the
   call of the program's main function (libminijail.h, minijail0.1). *)
From Verif Require Export S_Marshal S_Pipe M_Run S_Wants.
Local Open Scope N_scope.

(* The same kernel, in whichever process it is asked. *)
Definition same_kernel (e e' : kenv) : Prop := k_landlock_abi e' = k_landlock_abi e.

(* A program is started in the jail [j] with the preload library: the child
   made the calls [t1] and reached execve; the parent wrote the jail to a pipe,
   from which some prefix of the bytes arrived; in the new program the library
   read them, made the calls [t2] and called main with the environment [envp'].
   [ec] and [ep] are the kernel as the child and the parent see it, [envp] is
   what execve was given. *)
Definition starts (g : cfg) (ec ep : kenv) (j : jail) (t1 t2 : list event) (envp envp' : env) : Prop :=
  same_kernel (g_env g) ec /\ same_kernel (g_env g) ep /\
  run_refuses (RunConfig true true) j = false /\
  (exists kernel, M_Io.run kernel [] (run_child g true (with_ruleset ec j)) = (Returned tt, t1)) /\
  exists filename pid addr fuel w res size piped lost r same_ids kernel,
    let sent := parent_jail ep filename pid j in
    c_typed sent /\ S_Marshal.nonnull addr /\ real_errors w /\
    minijail_size addr sent = Some size /\ size < 2 ^ 64 /\
    minijail_to_fd addr sent fuel w = Some res /\ delivered res = (piped ++ lost)%string /\
    M_Io.run kernel [] (fake_main g same_ids (fun _ => minijail_from_fd (g_env g) minijail_new r piped) envp)
      = (Returned (Some envp'), t2).
(* Without it: the child made the calls [t] and reached execve, or returned
   from minijail_fork. *)
Definition starts_plain (g : cfg) (ec : kenv) (exec : bool) (j : jail) (t : list event) : Prop :=
  same_kernel (g_env g) ec /\ run_refuses (RunConfig false exec) j = false /\
  exists kernel, M_Io.run kernel [] (run_child g false (with_ruleset ec j)) = (Returned tt, t).
(* The same for a jail that the calls [h] configured. *)
Definition launched (g : cfg) (ec ep : kenv) (h : list (api * Z)) (j : jail) (t1 t2 : list event)
                    (envp envp' : env) : Prop :=
  history (g_env g) minijail_new h j /\ starts g ec ep j t1 t2 envp envp'.
Definition launched_plain (g : cfg) (ec : kenv) (exec : bool) (h : list (api * Z)) (j : jail) (t : list event) : Prop :=
  history (g_env g) minijail_new h j /\ starts_plain g ec exec j t.

(* The program is the first process of a new pid namespace itself: it mounts
   /proc as it likes. *)
Definition is_own_init (h : list (api * Z)) : Prop :=
  asked F_pids h /\ (~ asked F_do_init h \/ asked F_run_as_init h).
Definition on_proc (c : call) : Prop :=
  c = C_umount "/proc" \/ c = C_mount (Some "proc"%string) "/proc" (Some "proc"%string) 15 (Some ""%string).

(* execve of a file that is not set-user-id leaves the ids alone *)
Definition same_ids (s s' : creds) : Prop := uids s' = uids s /\ gids s' = gids s /\ groups s' = groups s.
