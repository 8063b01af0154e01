(* A jail that is configured and launched any number of times (C72). *)
From Verif Require Export S_Run.
From Verif Require Import M_Fds.
Local Open Scope N_scope.

(* What a program does with a jail: a configuration call that returned [rc]; a
   run that returned an error before anything was started; a run that started
   the process [pid].  [filename] is the program, or None for minijail_fork and
   for programs given as a descriptor. *)
Inductive use : Type :=
  | Call (a : api) (rc : Z)
  | Failed (filename : option string)
  | Ran (filename : option string) (pid : Z).
(* libminijail.c:3646-3648 *)
Definition named (filename : option string) (j : jail) : jail :=
  match filename with None => j | Some f => set_filename (Own f) j end.
Inductive used (e : kenv) : jail -> list use -> jail -> Prop :=
  | u_nil j : used e j [] j
  | u_call j a rc j1 t j2 : api_step e j a = ARet rc j1 -> used e j1 t j2 -> used e j (Call a rc :: t) j2
  | u_failed j filename t j2 : used e (named filename j) t j2 -> used e j (Failed filename :: t) j2
  | u_ran j ep filename pid t j2 : same_kernel e ep ->
      used e (parent_jail ep filename pid j) t j2 -> used e j (Ran filename pid :: t) j2.
(* the configuration calls among them *)
Definition calls (u : list use) : list (api * Z) :=
  flat_map (fun x => match x with Call a rc => [(a, rc)] | _ => [] end) u.
(* the process started last *)
Definition last_pid (u : list use) : Z :=
  fold_left (fun p x => match x with Ran _ pid => pid | _ => p end) u 0%Z.

(* A program is started in a jail with that past. *)
Definition relaunched (g : cfg) (ec ep : kenv) (u : list use) (j : jail) (t1 t2 : list event) (envp envp' : env) : Prop :=
  used (g_env g) minijail_new u j /\ starts g ec ep j t1 t2 envp envp'.
Definition relaunched_plain (g : cfg) (ec : kenv) (exec : bool) (u : list use) (j : jail) (t : list event) : Prop :=
  used (g_env g) minijail_new u j /\ starts_plain g ec exec j t.

(* The calls but those about descriptors to pass on. *)
Definition but_descriptors (h : list (api * Z)) : list (api * Z) :=
  filter (fun p => match fst p with A_preserve_fd _ _ => false | _ => true end) h.
(* The descriptors a jail passes on, as (parent, child) numbers. *)
Definition to_pass (j : jail) : list (Z * Z) := firstn (N.to_nat (j_preserved_fd_count j)) (j_preserved_fds j).
(* The descriptors of the launching process once a program was started:
   libminijail.c:3811-3815. *)
Definition launcher_after (j : jail) (t : table) : table :=
  close_entered (hasf F_enter_vfs j) (j_mountns_fd j) (hasf F_enter_net j) (j_netns_fd j) t.
