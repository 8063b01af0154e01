(* Kinds of calls, for the order in which a jail is entered (C30, C42, C53). *)
From Verif Require Export S_Trace M_Enter.
Local Open Scope N_scope.

Definition changes_root (c : call) : bool := match c with C_chroot _ | C_pivot_root _ _ => true | _ => false end.
Definition mounts (c : call) : bool :=
  match c with C_mount _ _ _ _ _ => true | _ => false end.
(* the private /tmp and the read-only /proc: mounted inside the new root *)
Definition tmp_or_proc (c : call) : bool :=
  match c with
  | C_mount (Some s) d (Some t) _ _ =>
      (String.eqb s "none" && String.eqb d "/tmp" && String.eqb t "tmpfs") ||
      (String.eqb s "proc" && String.eqb d "/proc" && String.eqb t "proc")
  | _ => false
  end.
(* detaching the old root from the new one *)
Definition detaches (c : call) : bool := match c with C_mount None d None _ _ => String.eqb d "." | _ => false end.
Definition configured_mount (c : call) : bool := mounts c && negb (tmp_or_proc c) && negb (detaches c).

Definition changes_groups (c : call) : bool := match c with C_setgroups _ | C_initgroups _ _ => true | _ => false end.
Definition changes_gid (c : call) : bool := match c with C_setresgid _ => true | _ => false end.
Definition changes_uid (c : call) : bool := match c with C_setresuid _ => true | _ => false end.
Definition changes_identity (c : call) : bool := changes_groups c || changes_gid c || changes_uid c.
Definition changes_caps (c : call) : bool :=
  match c with C_capset _ _ _ | C_ambient_clear | C_ambient_raise _ => true | _ => false end.
Definition namespaces (c : call) : bool := match c with C_unshare _ | C_setns _ _ => true | _ => false end.
Definition sets_nnp (c : call) : bool := match c with C_no_new_privs => true | _ => false end.
Definition installs_filter (c : call) : bool :=
  match c with C_seccomp _ _ | C_prctl_seccomp _ => true | _ => false end.
Definition restricts_files (c : call) : bool := match c with C_landlock_restrict _ => true | _ => false end.
(* all that may follow the filter: the alternate system call table and strict mode *)
Definition final_step (c : call) : bool := match c with C_alt_syscall _ | C_seccomp_strict => true | _ => false end.
Definition hook_at (event : N) (c : call) : bool := match c with C_hook h => hk_event h =? event | _ => false end.
Definition is_hook (c : call) : bool := match c with C_hook _ => true | _ => false end.

(* The hooks of an event, as added. *)
Definition hooks_for (event : N) (l : list hook) : list hook := filter (fun h => hk_event h =? event) l.
(* The hooks run, with what they answered. *)
Definition hooks_run (t : list event) : list event := filter (fun ev => is_hook (fst ev)) t.

(* Each hook of the list ran and answered 0. *)
Definition oks (l : list hook) (t : list event) : Prop := Forall2 (fun h ev => exists v s, ev = (C_hook h, Yes v s)) l t.
(* The hooks that ran are the first ones of the list: all of them if the
   function returned; if one fails the process dies there. *)
Definition hooks_spec {A} (expected : list hook) (t : list event) (o : outcome A) : Prop :=
  exists ran todo, expected = ran ++ todo /\
  ((oks ran (hooks_run t) /\ ((exists a, o = Returned a) -> todo = [])) \/
   (exists h rest e t', todo = h :: rest /\ o = Died /\ oks ran (hooks_run t') /\ t = t' ++ [(C_hook h, No e)])).
