(* C39, C40: what is reported about a jailed program. *)
From Verif Require Import S_Wait P_Wait.
Local Open Scope N_scope.

(* ---- C39 ---- [sigsys] is the number of SIGSYS. *)
(* However often the wait is interrupted by signals: the exit code, 253 for
   SIGSYS, 128 + n for another signal n. *)
Theorem C39_reported : forall sigsys pid k e rest, (0 < pid)%Z -> possible e ->
  minijail_wait sigsys pid (repeat (inl EINTR) k ++ inr (status_of e) :: rest) = Returns (reported_as sigsys e).
Proof. exact wait_ended. Qed.
Print Assumptions C39_reported.
(* Nothing else is ever reported, but that waiting failed. *)
Theorem C39_only : forall sigsys pid answers v, (0 < pid)%Z ->
  Forall (fun a => match a with inl _ => True | inr st => exists e, possible e /\ st = status_of e end) answers ->
  minijail_wait sigsys pid answers = Returns v ->
  (exists e, In (inr (status_of e)) answers /\ possible e /\ v = reported_as sigsys e) \/
  (exists n, In (inl n) answers /\ n <> EINTR /\ v = (- Z.of_N n)%Z).
Proof. exact wait_result. Qed.
Print Assumptions C39_only.
(* A jail that runs nothing: -ECHILD; killing reports like waiting. *)
Theorem C39_no_child : forall sigsys pid answers, (pid <= 0)%Z -> minijail_wait sigsys pid answers = Returns (-10).
Proof. exact wait_no_child. Qed.
Print Assumptions C39_no_child.
Theorem C39_kill : forall sigsys pid answers, (0 < pid)%Z ->
  minijail_kill sigsys pid (inr tt) answers = minijail_wait sigsys pid answers.
Proof. exact kill_waits. Qed.
Print Assumptions C39_kill.
Example C39_cases :
  minijail_wait 31 7 [inl EINTR; inr (status_of (Exited 42))] = Returns 42 /\
  minijail_wait 31 7 [inr (status_of (Killed 31 true))] = Returns 253 /\
  minijail_wait 31 7 [inl EINTR; inl EINTR; inr (status_of (Killed 9 false))] = Returns 137 /\
  possible (Exited 42) /\ possible (Killed 31 true) /\ possible (Killed 9 false).
Proof. repeat split; reflexivity || discriminate. Qed.

(* ---- C40 ---- [l]: the processes that ended, in order. *)
(* When no process is left.  Partial: see the refuted parts. *)
Theorem C40_all_gone_partial : forall root e l err rest, possible e -> ended root e l ->
  init root (reaped l ++ WaitFails err :: rest) = Exits (init_code e).
Proof. exact init_done. Qed.
Print Assumptions C40_all_gone_partial.
(* It does not exit while waiting works and it is not told to. *)
Theorem C40_keeps_reaping : forall root l, init root (reaped l) = Running.
Proof. exact init_waits. Qed.
Print Assumptions C40_keeps_reaping.
(* What the caller of minijail_wait gets then. *)
Theorem C40_seen_by_caller_partial : forall sigsys pid root e l err rest code, (0 < pid)%Z -> possible e -> ended root e l ->
  init root (reaped l ++ WaitFails err :: rest) = Exits code ->
  minijail_wait sigsys pid [inr (status_of (Exited code))] = Returns (Z.of_N (init_code e)).
Proof. exact through_wait. Qed.
Print Assumptions C40_seen_by_caller_partial.
Example C40_case : ended 2 (Exited 3) [(5, Exited 1); (2, Exited 3); (9, Killed 9 false)] /\
  init 2 (reaped [(5, Exited 1); (2, Exited 3); (9, Killed 9 false)] ++ [WaitFails ECHILD]) = Exits 3 /\
  init 2 (reaped [(5, Exited 1); (2, Killed 11 true)] ++ [WaitFails ECHILD]) = Exits 254.
Proof.
  split; [|split; reflexivity]. exists [(5, Exited 1)], [(9, Killed 9 false)]. split; [reflexivity|].
  split; intros [X|[]]; discriminate.
Qed.
(* Told to terminate after the program ended, init passes the wait status to
   _exit: every exit code is reported as success, and a signal n as exit code
   n (with a core file 128 + n). *)
Theorem C40_told_to_terminate : forall root e l rest, possible e -> ended root e l ->
  init root (reaped l ++ Terminate :: rest) =
  Exits (match e with Exited _ => 0 | Killed s core => s + (if core then 128 else 0) end).
Proof. exact init_told. Qed.
Print Assumptions C40_told_to_terminate.
Theorem C40_told_to_terminate_refuted : exists root e l, possible e /\ ended root e l /\
  init root (reaped l ++ [Terminate]) <> Exits (init_code e) /\ init root (reaped l ++ [Terminate]) = Exits 0.
Proof.
  exists 2, (Exited 1), [(2, Exited 1)]. split; [reflexivity|]. split.
  - exists [], []. split; [reflexivity|]. split; intros [].
  - split; [discriminate|reflexivity].
Qed.
Print Assumptions C40_told_to_terminate_refuted.
(* A wait that fails because a signal came (a handler installed without
   SA_RESTART before the fork) ends init while the program runs, with success. *)
Theorem C40_interrupted_refuted : exists root l, ~ In root (map fst l) /\ init root (reaped l ++ [WaitFails EINTR]) = Exits 0.
Proof. exists 2, [(5, Exited 1)]. split; [intros [X|[]]; discriminate|reflexivity]. Qed.
Print Assumptions C40_interrupted_refuted.
(* Statuses of other processes are not always ignored: after the program was
   reaped its pid can be used again. *)
Theorem C40_pid_reused_refuted : exists root e l, possible e /\ In (root, e) l /\
  init root (reaped l ++ [WaitFails ECHILD]) <> Exits (init_code e).
Proof. exists 2, (Exited 1), [(2, Exited 1); (2, Exited 0)]. split; [reflexivity|]. split; [left; reflexivity|discriminate]. Qed.
Print Assumptions C40_pid_reused_refuted.
