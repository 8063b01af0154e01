(* Property theorems: policies generated from traces (C66). *)
From Coq Require Import Permutation.
From Verif Require Import P_CStr P_Const S_Policy S_PyPolicy P_PyFile P_PyEx.
From Verif Require Import M_PyParse S_PyText P_PyLex P_PyGram P_PyStmt P_PyText P_PyMean P_PyTextEx S_Common P_CommonPy P_CommonC P_Common P_CommonEx S_Accept P_CommonFit.
From Verif Require M_Gen.
From Verif Require Import S_Gen P_GenText P_GenRead P_Gen P_GenEx.
Local Open Scope N_scope.
Local Open Scope string_scope.

(* C66: from well-formed logs of strace generate_seccomp_policy.py writes a
   policy that allows the calls that were traced, with the arguments that were
   traced, and no others.  [order] is the order in which Python walks a set. *)
Theorem C66_generates : forall a x w tr, (arch_bits (pa_arch a) = 32 \/ arch_bits (pa_arch a) = 64) -> trace_ok a tr ->
  const_ok a (Part "PROT_EXEC" x) -> const_ok a (Part "PROT_WRITE" w) -> has_basic a ->
  forall order, (forall l, Permutation (order l) l) -> one_name_each a -> forall year frequency, all_chars dec_digit year ->
  exists p, M_Gen.generate order year frequency (on_disk tr) = Some (policy_text p) /\ common_ok a p /\
  forall v d, (permitted a x w tr d -> common_decision (arch_bits (pa_arch a)) v p d = ALLOW) /\
              (~ permitted a x w tr d -> common_decision (arch_bits (pa_arch a)) v p d = v).
Proof. exact generated. Qed.
Print Assumptions C66_generates.
(* ... once compiled by minijail0 *)
Theorem C66_c_partial : forall a x w tr order year frequency t, (arch_bits (pa_arch a) = 32 \/ arch_bits (pa_arch a) = 64) -> trace_ok a tr ->
  const_ok a (Part "PROT_EXEC" x) -> const_ok a (Part "PROT_WRITE" w) -> has_basic a -> one_name_each a ->
  (forall l, Permutation (order l) l) -> all_chars dec_digit year -> M_Gen.generate order year frequency (on_disk tr) = Some t ->
  forall b fo fs prog d, same_tables b a -> M_Bpf.little (M_Filter.b_plat b) = true ->
  M_Filter.compile_filter b fo fs (Some (M_Lines.Stream t false)) = M_Filter.COk prog ->
  sd_ok d -> sd_arch d = M_Bpf.arch_no (M_Filter.b_plat b) -> ~ allowed_by_option b fo (sd_nr d) ->
  (permitted a x w tr d -> run true prog d = VRet ALLOW) /\
  (~ permitted a x w tr d -> run true prog d = VRet (action_value (M_Filter.fo_action fo))).
Proof. exact generated_c. Qed.
Print Assumptions C66_c_partial.
(* ... once compiled by compile_seccomp_policy.py *)
Theorem C66_python_partial : forall a x w tr order year frequency t, (arch_bits (pa_arch a) = 32 \/ arch_bits (pa_arch a) = 64) -> trace_ok a tr ->
  const_ok a (Part "PROT_EXEC" x) -> const_ok a (Part "PROT_WRITE" w) -> has_basic a -> one_name_each a ->
  (forall l, Permutation (order l) l) -> all_chars dec_digit year -> M_Gen.generate order year frequency (on_disk tr) = Some t ->
  forall o resolve text file prog d, tables_ok a -> options_ok o -> o_denylist o = false -> o_ret_log o = false ->
  text file = Some t -> compile_text a o resolve text file = Some prog -> sd_ok d -> sd_arch d = arch_nr (pa_arch a) ->
  (permitted a x w tr d -> run true prog d = VRet ALLOW) /\ (~ permitted a x w tr d -> run true prog d = VRet (py_default o)).
Proof. exact generated_python. Qed.
Print Assumptions C66_python_partial.
(* Both compilers take it, the one always, the other while there is room. *)
Theorem C66_python_compiles : forall a x w tr order year frequency t, (arch_bits (pa_arch a) = 32 \/ arch_bits (pa_arch a) = 64) -> trace_ok a tr ->
  const_ok a (Part "PROT_EXEC" x) -> const_ok a (Part "PROT_WRITE" w) -> has_basic a -> one_name_each a ->
  (forall l, Permutation (order l) l) -> all_chars dec_digit year -> M_Gen.generate order year frequency (on_disk tr) = Some t ->
  forall o resolve text file, tables_ok a -> options_ok o -> o_denylist o = false -> o_ret_log o = false -> text file = Some t ->
  exists prog, compile_text a o resolve text file = Some prog /\ ((length prog <= 4096)%nat -> kernel_accepts prog).
Proof. exact generated_compiles. Qed.
Print Assumptions C66_python_compiles.
Theorem C66_c_compiles : forall a x w tr order year frequency b fo fs,
  arch_bits (pa_arch a) = 32 \/ arch_bits (pa_arch a) = 64 -> trace_ok a tr -> const_ok a (Part "PROT_EXEC" x) -> const_ok a (Part "PROT_WRITE" w) ->
  has_basic a -> one_name_each a -> (forall l, Permutation (order l) l) -> all_chars dec_digit year ->
  same_tables b a -> syscall_table (pa_syscalls a) -> (M_Filter.fo_action fo = M_Filter.ACT_LOG -> M_Filter.fo_allow_logging fo = true) ->
  exists p, M_Gen.generate order year frequency (on_disk tr) = Some (policy_text p) /\
  (has_room (length (M_Filter.b_log b) + length (M_Filter.b_libc b)) p ->
   exists prog, M_Filter.compile_filter b fo fs (Some (M_Lines.Stream (policy_text p) false)) = M_Filter.COk prog).
Proof. exact generated_c_compiles. Qed.
Print Assumptions C66_c_compiles.
(* What was traced is permitted, when the mappings for writing and for
   execution are written with the names of both. *)
Theorem C66_traced_permitted : forall a x w tr n c d, trace_ok a tr -> traced tr n c -> (maps_memory n -> symbolic x w c) -> made a n c d -> permitted a x w tr d.
Proof. exact traced_permitted. Qed.
Print Assumptions C66_traced_permitted.
Example C66_log : map snd (on_disk log) =
  ["123   open(" ++ q ++ "/etc/passwd" ++ q ++ ", O_RDONLY) = 3" ++ nl ++
   "[pid 124] mmap(NULL, 4096, PROT_READ|PROT_WRITE, MAP_PRIVATE, -1, 0) = 0x7f" ++ nl ++
   "--- SIGCHLD (x) ---" ++ nl ++
   "124 ioctl(3, 0x5401, {c_iflags=0} <unfinished ...>" ++ nl ++
   "socket(AF_UNIX, SOCK_STREAM, 0) = 4" ++ nl ++
   "+++ exited with 0 +++" ++ nl].
Proof. exact log_text. Qed.
Example C66_log_policy : M_Gen.generate same "2026" false (on_disk log) = Some (
  "# Copyright 2026 The ChromiumOS Authors" ++ nl ++
  "# Use of this source code is governed by a BSD-style license that can be" ++ nl ++
  "# found in the LICENSE file." ++ nl ++ nl ++
  "open: 1" ++ nl ++ "mmap: arg2 in ~PROT_EXEC || arg2 in ~PROT_WRITE" ++ nl ++ "ioctl: arg1 == 0x5401" ++ nl ++ "socket: arg0 == AF_UNIX" ++ nl ++
  "restart_syscall: 1" ++ nl ++ "exit: 1" ++ nl ++ "exit_group: 1" ++ nl ++ "rt_sigreturn: 1" ++ nl).
Proof. exact log_generates. Qed.
Example C66_case : trace_ok home log /\ const_ok home (Part "PROT_EXEC" 4) /\ const_ok home (Part "PROT_WRITE" 2) /\ has_basic home /\ one_name_each home /\
  same_tables c_home home /\ tables_ok home /\ syscall_table (pa_syscalls home) /\ all_chars dec_digit "2026" /\ (forall l, Permutation (same l) l).
Proof. exact log_case. Qed.
Example C66_case_traced : traced log "mmap" mapped.
Proof. exact mapped_traced. Qed.
Example C66_case_made : made home "mmap" mapped (call3 9 0 4096 3) /\ symbolic 4 2 mapped.
Proof. exact mapped_made. Qed.
Example C66_case_runs : (gc_run (policy_of (on_disk log)) (call3 9 0 4096 3), gpy_run (policy_of (on_disk log)) (call3 9 0 4096 3)) = (Some (VRet ALLOW), Some (VRet ALLOW)) /\
  (gc_run (policy_of (on_disk log)) (call3 9 0 4096 7), gpy_run (policy_of (on_disk log)) (call3 9 0 4096 7)) = (Some (VRet KILL_PROCESS), Some (VRet KILL_PROCESS)).
Proof. exact log_runs. Qed.
(* In raw logs, which the documentation asks for, the numbers of a mapping for
   writing and for execution are not recognised: the policy denies the very
   call that was traced. *)
Theorem C66_raw_refuted : denied [("strace.txt", "123 mmap(0, 0x1000, 0x7, 0x22, 0xffffffff, 0) = 0x7f0000000000" ++ nl)] (call3 9 0 0x1000 7).
Proof. exact raw_denied. Qed.
Print Assumptions C66_raw_refuted.
(* Lines with the time are skipped. *)
Theorem C66_time_refuted : denied [("strace.txt", "12:00:01 open(" ++ q ++ "/etc/passwd" ++ q ++ ", O_RDONLY) = 3" ++ nl)] (call3 2 0 0 0).
Proof. exact timed_denied. Qed.
Print Assumptions C66_time_refuted.
(* The name of the log decides what becomes of sockets. *)
Theorem C66_file_name_refuted : policy_of [("x86.txt", "socket(AF_UNIX, SOCK_STREAM, 0) = 3" ++ nl)] = Some (M_Gen.NOTICE "2026" ++ nl ++ "socketcall: 1" ++ nl ++
  "restart_syscall: 1" ++ nl ++ "exit: 1" ++ nl ++ "exit_group: 1" ++ nl ++ "rt_sigreturn: 1" ++ nl).
Proof. exact renamed. Qed.
Print Assumptions C66_file_name_refuted.
(* Descriptors with their paths end the program with an exception. *)
Theorem C66_paths_refuted : policy_of [("strace.txt", "ioctl(3</dev/tty>, 0x5401, 0) = 0" ++ nl)] = None.
Proof. exact path_fails. Qed.
Print Assumptions C66_paths_refuted.
(* strace writes all the names that a number may have, joined by "or"; neither
   compiler reads the policy then, though both know the names. *)
Theorem C66_names_refuted : exists t, policy_of [("strace.txt", "ioctl(1, SNDCTL_TMR_TIMEBASE or TCGETS, {B38400 opost isig icanon echo ...}) = 0" ++ nl)] = Some t /\
  compile_text tty strict same_dir (alone t) "p" = None /\
  forall prog, M_Filter.compile_filter c_tty c_opts c_none (Some (M_Lines.Stream t false)) <> M_Filter.COk prog.
Proof. exact names_refused. Qed.
Print Assumptions C66_names_refuted.
