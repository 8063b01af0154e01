(* C69, C70, C71: signals.  [refuses n] is the error the kernel gives when the
   disposition of signal [n] is changed. *)
From Verif Require Import P_SignalEx.
Local Open Scope N_scope.

(* ---- C69: the program's signals at its start ----
   [s0] is the launcher's state when it starts the program, [s1] the child's
   after the resets; [t1] and [t2] are the child's system calls before and
   after execve (hooks are assumed to leave signals alone). *)
Theorem C69_program : forall refuses last g ec ep h j t1 t2 envp envp' s0 s1,
  S_Run.launched g ec ep h j t1 t2 envp envp' -> child_signals refuses last j s0 = Some s1 ->
  let p := entered refuses t2 (exec_signals (entered refuses t1 s1)) in
  mask_due h s0 p /\
  (forall n, n <> SIGSYS \/ (~ about_sigsys t1 /\ ~ about_sigsys t2) -> action_due refuses last h s0 p n) /\
  (forall n hd, sig_action p n = Handled hd -> n = SIGSYS /\ hd = Log_sigsys).
Proof.
  intros refuses last g ec ep h j t1 t2 envp envp' s0 s1 (H & _) C p. split; [exact (program_mask refuses last _ h j s0 s1 H C t1 t2)|].
  split; [exact (program_action refuses last _ h j s0 s1 H C t1 t2)|exact (program_handlers refuses s1 t1 t2)].
Qed.
Print Assumptions C69_program.
(* without the preload library *)
Theorem C69_program_static : forall refuses last g ec exec h j t s0 s1,
  S_Run.launched_plain g ec exec h j t -> child_signals refuses last j s0 = Some s1 ->
  let p := exec_signals (entered refuses t s1) in
  mask_due h s0 p /\ (forall n, n <> SIGSYS \/ ~ about_sigsys t -> action_due refuses last h s0 p n) /\
  (forall n hd, sig_action p n <> Handled hd).
Proof.
  intros refuses last g ec exec h j t s0 s1 (H & _) C p. split; [exact (program_mask refuses last _ h j s0 s1 H C t [])|].
  split; [|exact (exec_handlers _)]. intros n A. apply (program_action refuses last _ h j s0 s1 H C t []). destruct A as [A|A]; [left; exact A|right; split; [exact A|exact nothing_about]].
Qed.
Print Assumptions C69_program_static.
Example C69_case :
  S_Run.launched ex_cfg ex_env ex_env run_history run_jail run_t1 run_t2 run_envp ["PATH=/bin"; "LD_PRELOAD=/lib/a.so"]%string /\
  child_signals linux_refuses 64 run_jail ex_signals = Some ex_signals /\ ~ asked F_reset_signal_mask run_history /\ ~ asked F_reset_signal_handlers run_history /\
  let p := entered linux_refuses run_t2 (exec_signals (entered linux_refuses run_t1 ex_signals)) in
  map (blocked p) [1; 2; 15] = [false; true; false] /\ map (sig_action p) [1; 2; 15] = [Ignored; Default; Default].
Proof.
  split; [exact run_case|]. split; [exact run_resets|]. split; [apply run_not_asked; vm_compute; reflexivity|]. split; [apply run_not_asked; vm_compute; reflexivity|].
  split; vm_compute; reflexivity.
Qed.
Example C69_reset_case :
  S_Run.launched_plain ex_cfg ex_env true sig_history sig_jail sig_trace /\
  child_signals linux_refuses 64 sig_jail ex_signals = Some (child_of sig_jail ex_signals) /\
  asked F_reset_signal_mask sig_history /\ asked F_reset_signal_handlers sig_history /\
  let p := exec_signals (entered linux_refuses sig_trace (child_of sig_jail ex_signals)) in
  map (blocked p) [1; 2; 15; 31] = [false; false; false; false] /\ map (sig_action p) [1; 2; 15] = [Default; Default; Default].
Proof. split; [exact sig_case|]. split; [exact sig_resets|]. split; [apply sig_asked|]. split; [apply sig_asked|]. split; vm_compute; reflexivity. Qed.

(* ---- C70: forwarded signals ----
   The launcher [l] starts a jail that forwards signals; afterwards the events
   [es] happen, among them no other forwarding jail and no change of handlers.
   The signals sent are those that arrived, in order, all to the jail's
   process. *)
Theorem C70_forwarded : forall refuses rtmin rtmax e h j pid who l es,
  SIGCHLD < rtmin -> history e minijail_new h j -> asked F_forward_signals h -> Forall undisturbed es ->
  (forall n, In n (arrived es) -> forwardable refuses n \/ n = SIGCHLD /\ refuses n = None) ->
  map fst (snd (lrun refuses rtmin rtmax l (Launch j pid who :: es))) = map (fun n => (pid, n)) (filter (fun n => negb (n =? SIGCHLD)) (arrived es)).
Proof. exact forwards. Qed.
Print Assumptions C70_forwarded.
(* A jail that does not forward signals leaves the launcher's handlers. *)
Theorem C70_not_forwarded : forall refuses rtmin rtmax e h j pid who l,
  history e minijail_new h j -> ~ asked F_forward_signals h ->
  l_signals (fst (lstep refuses rtmin rtmax l (Launch j pid who))) = l_signals l.
Proof. exact not_forwarding. Qed.
Print Assumptions C70_not_forwarded.
Example C70_case : history ex_env minijail_new fwd_history fwd_jail /\ asked F_forward_signals fwd_history /\
  (forall n, In n (arrived [Arrives 2; Arrives 17; Launch minijail_new 5 6; Arrives 64]) -> forwardable linux_refuses n \/ n = SIGCHLD /\ linux_refuses n = None) /\
  snd (lrun linux_refuses 34 64 nobody (Launch fwd_jail 100 1 :: [Arrives 2; Arrives 17; Launch minijail_new 5 6; Arrives 64])) = [(100, 2, Some 1); (100, 64, Some 1)].
Proof.
  split; [exact fwd_built|]. split; [exact fwd_asked|]. split; [|vm_compute; reflexivity].
  intros n I. cbn in I. destruct I as [<-|[<-|[<-|[]]]]; [left; apply can_forward; cbn; tauto|right; split; reflexivity|left; apply can_forward; cbn; tauto].
Qed.
(* False: each jail gets the signals.  There is one number for all jails of the
   launcher: the first jail gets no more signals once a second is started. *)
Theorem C70_every_jail_refuted :
  snd (lrun linux_refuses 34 64 nobody [Launch fwd_jail 100 1; Launch fwd_jail 200 2; Arrives SIGINT]) = [(200, SIGINT, Some 2)].
Proof. vm_compute. reflexivity. Qed.
Print Assumptions C70_every_jail_refuted.
(* False: signals go to the jail only.  After the launcher has waited for it, the
   number may be another process's. *)
Theorem C70_only_jail_refuted :
  snd (lrun linux_refuses 34 64 nobody [Launch fwd_jail 100 1; Reaps 100; Born 100 77; Arrives SIGTERM]) = [(100, SIGTERM, Some 77)].
Proof. vm_compute. reflexivity. Qed.
Print Assumptions C70_only_jail_refuted.
(* With a pid namespace the process that gets the signals is the init that
   minijail provides: SIGTERM ends it (C40), all others do nothing, so the
   program never sees them ([s0]: the launcher handled no signals). *)
Theorem C70_init : forall refuses last e h j s0 s1 t1 n,
  history e minijail_new h j -> child_signals refuses last j s0 = Some s1 -> (forall m hd, sig_action s0 m <> Handled hd) ->
  n <> SIGSYS \/ ~ about_sigsys t1 -> refuses n = None -> refuses SIGKILL <> None -> refuses SIGSTOP <> None ->
  react_init (init_signals refuses (entered refuses t1 s1)) n = if n =? SIGTERM then Runs Init_term else Nothing.
Proof. intros refuses last e h j s0 s1 t1 n H C. exact (init_reacts refuses last e h j s0 s1 H C t1 n). Qed.
Print Assumptions C70_init.
Example C70_init_case : history ex_env minijail_new pidns_history pidns_jail /\ asked F_forward_signals pidns_history /\ asked F_do_init pidns_history /\
  child_signals linux_refuses 64 pidns_jail calm = Some calm /\ ~ about_sigsys pidns_t1 /\ linux_refuses SIGINT = None.
Proof. split; [exact pidns_built|]. split; [apply pidns_asked|]. split; [apply pidns_asked|]. split; [reflexivity|]. split; [exact pidns_quiet|reflexivity]. Qed.
(* False: a signal to the launcher reaches the program it was forwarded for. *)
Theorem C70_reaches_program_refuted : exists h j s1 t1,
  history ex_env minijail_new h j /\ asked F_forward_signals h /\ child_signals linux_refuses 64 j calm = Some s1 /\ asked F_do_init h /\
  forwardable linux_refuses SIGINT /\ react_init (init_signals linux_refuses (entered linux_refuses t1 s1)) SIGINT = Nothing.
Proof.
  exists pidns_history, pidns_jail, calm, pidns_t1. split; [exact pidns_built|]. split; [apply pidns_asked|]. split; [reflexivity|]. split; [apply pidns_asked|].
  split; [apply can_forward; cbn; tauto|vm_compute; reflexivity].
Qed.
Print Assumptions C70_reaches_program_refuted.
(* False: the init has no part in other jails.  It still has the handlers of a
   jail started before and sends its signals to that jail's number, in its own
   pid namespace. *)
Theorem C70_stale_handlers_refuted :
  let s0 := l_signals (fst (lrun linux_refuses 34 64 nobody [Launch fwd_jail 100 1])) in
  exists s1, child_signals linux_refuses 64 pidns_jail s0 = Some s1 /\
  let init := init_signals linux_refuses (entered linux_refuses pidns_t1 s1) in
  react_init init SIGINT = Runs Forward /\ handle init SIGINT = [(100, SIGINT)].
Proof. eexists. split; [reflexivity|]. split; vm_compute; reflexivity. Qed.
Print Assumptions C70_stale_handlers_refuted.

(* ---- C71: sending the configuration ----
   [m0] is the launcher's mask, [answers] what the kernel says to the writes,
   [k] the number of SIGPIPEs that others send meanwhile, [other]: one is
   pending before. *)
Theorem C71_mask_restored : forall answers k m0 other s, ssteps answers k (begins m0 other) s ->
  ~ In true (s_delivered s) /\ (s_phase s = Sent -> s_mask s = m0 /\ pend_own s = false).
Proof. exact sends_quietly. Qed.
Print Assumptions C71_mask_restored.
Theorem C71_none_added : forall answers k m0 other s, ssteps answers k (begins m0 other) s ->
  (length (s_delivered s) + nbit (pend_other s) <= k + nbit other)%nat.
Proof. exact sends_count. Qed.
Print Assumptions C71_none_added.
Example C71_case : exists s, ssteps gone 1 (begins no_mask false) s /\ s_phase s = Sent /\ s_delivered s = [false].
Proof. exact gone_case. Qed.
(* The child is killed unless it was sent the whole configuration. *)
Theorem C71_killed_unless_sent : forall addr j fuel w rc out i, real_errors w -> minijail_to_fd addr j fuel w = Some (Wrote rc out i) ->
  kill_after rc = None <-> exists sz buf, minijail_size addr j = Some sz /\ minijail_marshal addr j sz = Some (0%Z, buf) /\ sz <> 0 /\ out = (num 8 sz ++ buf)%string.
Proof. exact killed_unless_sent. Qed.
Print Assumptions C71_killed_unless_sent.
Example C71_sent_case : real_errors slow /\ exists rc out i, minijail_to_fd any_addr run_sent 1700 slow = Some (Wrote rc out i) /\ kill_after rc = None.
Proof. split; [exact slow_real|]. exact sent_case. Qed.
(* False: the caller's own pending SIGPIPE survives. *)
Theorem C71_pending_refuted : exists s, ssteps [M_Pipe.Bytes 8; M_Pipe.Bytes 100] 0 (begins pipe_mask true) s /\
  s_phase s = Sent /\ s_delivered s = [] /\ pend_other s = false /\ s_mask s SIGPIPE = true.
Proof. exact lost_case. Qed.
Print Assumptions C71_pending_refuted.
