(* Model of the set-up the launching process does for the forked child, and of
   how the child waits for it.  libminijail.c:2384-2479, 3700-3716, 3789-3822,
   3938-3952; system.c:151-184, 265-286.
   Both processes are steps of one transition system; every interleaving is
   possible, and the parent can be killed at any point.
   Simplifications: writing a file (open, write, close) is one call that works
   or fails with an error number; installing the signal handlers of
   forward_signals (M_Signal) is one call, which may fail like the others
   although it cannot in the code; fork and clone work; the child's actions after entering the user
   namespace are one action ([Goes_on]). *)
From Verif Require Export M_Jail.
Local Open Scope N_scope.

Definition ENOENT : N := 2.

(* The calls of the parent for the child [pid]. *)
Inductive pcall :=
  | ForwardTo (pid : N)                               (* 3794-3797, 2738-2761 *)
  | WritePid (path : cell string) (pid : N)          (* system.c:265-286: the pid to a file *)
  | Prlimit (pid : N) (limit : rlimit)
  | WriteProc (pid : N) (base content : string).     (* system.c:151-184: /proc/<pid>/<base> *)

(* A call and the errors after which the parent goes on. *)
Definition pstep : Type := pcall * (N -> bool).
Definition or_die (c : pcall) : pstep := (c, fun _ => false).

(* 2390-2394 *)
Definition write_pid_file_or_die (pid : N) (j : jail) : list pstep := [or_die (WritePid (j_pid_file_path j) pid)].
(* 2396-2404 *)
Definition add_to_cgroups_or_die (pid : N) (j : jail) : list pstep :=
  map (fun p => or_die (WritePid p pid)) (firstn (N.to_nat (j_cgroup_count j)) (j_cgroups j)).
(* 2406-2417 *)
Definition set_rlimits_or_die (pid : N) (j : jail) : list pstep :=
  map (fun r => or_die (Prlimit pid r)) (firstn (N.to_nat (j_rlimit_count j)) (j_rlimits j)).
(* 2419-2443; a pointer that is not null is assumed to own its text (C24) *)
Definition write_ugid_maps_or_die (pid : N) (j : jail) : list pstep :=
  (match j_uidmap j with Own m => [or_die (WriteProc pid "uid_map" m)] | _ => [] end) ++
  (match j_gidmap j with
   | Own _ => if hasf F_disable_setgroups j then [(WriteProc pid "setgroups" "deny", fun e => e =? ENOENT)] else []
   | _ => [] end) ++
  (match j_gidmap j with Own m => [or_die (WriteProc pid "gid_map" m)] | _ => [] end).
(* 3794-3809 *)
Definition parent_setup (pid : N) (j : jail) : list pstep :=
  (if hasf F_forward_signals j then [or_die (ForwardTo pid)] else []) ++
  (if hasf F_pid_file j then write_pid_file_or_die pid j else []) ++
  (if hasf F_cgroups j then add_to_cgroups_or_die pid j else []) ++
  (if negb (j_rlimit_count j =? 0) then set_rlimits_or_die pid j else []) ++
  (if hasf F_userns j then write_ugid_maps_or_die pid j else []).
(* 3707-3713 *)
Definition sync_child (j : jail) : bool :=
  hasf F_forward_signals j || hasf F_pid_file j || hasf F_cgroups j || negb (j_rlimit_count j =? 0) || hasf F_userns j.

(* The calls of the child after the synchronization. *)
Inductive ccall := Setresgid (g : N) | Setresuid (u : N) | Goes_on.
(* 2445-2457 *)
Definition enter_user_namespace (j : jail) : list ccall :=
  (match j_gidmap j with Own _ => [Setresgid (if hasf F_gid j then j_gid j else 0)] | _ => [] end) ++
  (match j_uidmap j with Own _ => [Setresuid (if hasf F_uid j then j_uid j else 0)] | _ => [] end).
(* 3941-3952 *)
Definition child_after (j : jail) : list ccall := (if hasf F_userns j then enter_user_namespace j else []) ++ [Goes_on].

(* What happened: a call and its error number (0: it worked). *)
Inductive event := Parent (c : pcall) (err : N) | Kills_child | Parent_killed | Child (c : ccall) (err : N).

Inductive pstate :=
  | Setting_up (todo : list pstep)
  | Failing                                (* 2384-2388, before kill *)
  | Dying                                  (* 2384-2388, before exit *)
  | Done                                   (* 2459-2463: the pipe is closed *)
  | Gone.                                  (* exited or killed *)
Inductive cstate := Waiting | Going (todo : list ccall) | Dead.
Record sys := Sys { s_parent : pstate; s_child : cstate; s_trace : list event }.
Definition upd (s : sys) (p : pstate) (c : cstate) (l : list event) : sys := Sys p c (s_trace s ++ l).

(* The parent's write end of the pipe is open; the child closed its own
   (2473) before reading. *)
Definition pipe_open (p : pstate) : bool := match p with Done | Gone => false | _ => true end.

Inductive step (after : list ccall) : sys -> sys -> Prop :=
  | st_works s c tol l : s_parent s = Setting_up ((c, tol) :: l) ->
      step after s (upd s (Setting_up l) (s_child s) [Parent c 0])
  | st_tolerated s c tol l e : s_parent s = Setting_up ((c, tol) :: l) -> e <> 0 -> tol e = true ->
      step after s (upd s (Setting_up l) (s_child s) [Parent c e])
  | st_fails s c tol l e : s_parent s = Setting_up ((c, tol) :: l) -> e <> 0 -> tol e = false ->
      step after s (upd s Failing (s_child s) [Parent c e])
  | st_kill s : s_parent s = Failing -> step after s (upd s Dying Dead [Kills_child])
  | st_die s : s_parent s = Dying -> step after s (upd s Gone (s_child s) [])
  | st_complete s : s_parent s = Setting_up [] -> step after s (upd s Done (s_child s) [])
  | st_parent_killed s : step after s (upd s Gone (s_child s) [Parent_killed])
  (* 2469-2479: read returns 0 when no write end is open; it may fail *)
  | st_eof s : s_child s = Waiting -> pipe_open (s_parent s) = false -> step after s (upd s (s_parent s) (Going after) [])
  | st_read_fails s : s_child s = Waiting -> step after s (upd s (s_parent s) Dead [])
  | st_child s c l : s_child s = Going (c :: l) -> step after s (upd s (s_parent s) (Going l) [Child c 0])
  | st_child_dies s c l e : s_child s = Going (c :: l) -> e <> 0 -> step after s (upd s (s_parent s) Dead [Child c e])
  (* killed by anyone *)
  | st_child_killed s : step after s (upd s (s_parent s) Dead []).

(* 3938-3942: without synchronization the child goes on at once. *)
Definition start (pid : N) (j : jail) : sys :=
  Sys (Setting_up (parent_setup pid j)) (if sync_child j then Waiting else Going (child_after j)) [].
Inductive reaches (after : list ccall) : sys -> sys -> Prop :=
  | re_refl s : reaches after s s
  | re_step s s' s'' : reaches after s s' -> step after s' s'' -> reaches after s s''.
