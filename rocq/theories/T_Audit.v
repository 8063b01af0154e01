(* Property theorems: policies generated from logs of the audit subsystem
   (C86). *)
From Coq Require Import Permutation.
From Verif Require Import P_CStr P_Const S_Policy S_PyPolicy P_PyFile P_PyEx.
From Verif Require Import M_PyParse S_PyText P_PyLex P_PyGram P_PyStmt P_PyText P_PyMean P_PyTextEx S_Common P_CommonPy P_CommonC P_Common P_CommonEx S_Accept P_CommonFit.
From Verif Require M_Gen.
From Verif Require Import S_Gen P_GenText P_GenRead P_Gen P_GenEx.
From Verif Require Import M_Audit S_Audit P_Audit P_AuditEx.
Local Open Scope N_scope.
Local Open Scope string_scope.

(* C86: the logs of the audit subsystem give the policy that logs of strace of
   the same calls would give. *)
Theorem C86_as_traced : forall a comm order year frequency tr logs css fs,
  trace_ok a (tr ++ fs) -> Forall2 (log_records comm) logs css -> Forall2 same_calls fs css ->
  generate_all comm order year frequency (on_disk tr) logs = M_Gen.generate order year frequency (on_disk (tr ++ fs)%list).
Proof. exact as_traced. Qed.
Print Assumptions C86_as_traced.
(* Such logs of strace exist, and the policy allows their calls and no others. *)
Theorem C86_generates : forall a x w comm tr logs css, (arch_bits (pa_arch a) = 32 \/ arch_bits (pa_arch a) = 64) -> trace_ok a tr ->
  Forall2 (log_records comm) logs css -> Forall (Forall (acall_ok a)) css ->
  const_ok a (Part "PROT_EXEC" x) -> const_ok a (Part "PROT_WRITE" w) -> has_basic a ->
  forall order, (forall l, Permutation (order l) l) -> one_name_each a -> forall year frequency, all_chars dec_digit year ->
  exists fs p, Forall2 same_calls fs css /\ trace_ok a (tr ++ fs) /\
  generate_all comm order year frequency (on_disk tr) logs = Some (policy_text p) /\ common_ok a p /\
  forall v d, (permitted a x w (tr ++ fs) d -> common_decision (arch_bits (pa_arch a)) v p d = ALLOW) /\
              (~ permitted a x w (tr ++ fs) d -> common_decision (arch_bits (pa_arch a)) v p d = v).
Proof. exact generated_all. Qed.
Print Assumptions C86_generates.
(* ... once compiled by minijail0 *)
Theorem C86_c : forall a x w comm tr fs logs css order year frequency t, (arch_bits (pa_arch a) = 32 \/ arch_bits (pa_arch a) = 64) ->
  trace_ok a (tr ++ fs) -> Forall2 (log_records comm) logs css -> Forall2 same_calls fs css ->
  const_ok a (Part "PROT_EXEC" x) -> const_ok a (Part "PROT_WRITE" w) -> has_basic a -> one_name_each a ->
  (forall l, Permutation (order l) l) -> all_chars dec_digit year -> generate_all comm order year frequency (on_disk tr) logs = Some t ->
  forall b fo st prog d, same_tables b a -> M_Bpf.little (M_Filter.b_plat b) = true ->
  M_Filter.compile_filter b fo st (Some (M_Lines.Stream t false)) = M_Filter.COk prog ->
  sd_ok d -> sd_arch d = M_Bpf.arch_no (M_Filter.b_plat b) -> ~ allowed_by_option b fo (sd_nr d) ->
  (permitted a x w (tr ++ fs) d -> run true prog d = VRet ALLOW) /\
  (~ permitted a x w (tr ++ fs) d -> run true prog d = VRet (action_value (M_Filter.fo_action fo))).
Proof. exact audited_c. Qed.
Print Assumptions C86_c.
(* ... once compiled by compile_seccomp_policy.py *)
Theorem C86_python : forall a x w comm tr fs logs css order year frequency t, (arch_bits (pa_arch a) = 32 \/ arch_bits (pa_arch a) = 64) ->
  trace_ok a (tr ++ fs) -> Forall2 (log_records comm) logs css -> Forall2 same_calls fs css ->
  const_ok a (Part "PROT_EXEC" x) -> const_ok a (Part "PROT_WRITE" w) -> has_basic a -> one_name_each a ->
  (forall l, Permutation (order l) l) -> all_chars dec_digit year -> generate_all comm order year frequency (on_disk tr) logs = Some t ->
  forall o resolve text file prog d, tables_ok a -> options_ok o -> o_denylist o = false -> o_ret_log o = false ->
  text file = Some t -> compile_text a o resolve text file = Some prog -> sd_ok d -> sd_arch d = arch_nr (pa_arch a) ->
  (permitted a x w (tr ++ fs) d -> run true prog d = VRet ALLOW) /\ (~ permitted a x w (tr ++ fs) d -> run true prog d = VRet (py_default o)).
Proof. exact audited_python. Qed.
Print Assumptions C86_python.
(* From logs that are empty, or in which a call or an inspected argument is
   missing, no policy is written. *)
Theorem C86_nothing_missing : forall comm order year frequency files logs t, generate_all comm order year frequency files logs = Some t ->
  Forall (fun l => (exists r e u, l = (r :: e) :: u) /\ Forall (Forall (complete comm)) l) logs.
Proof. exact nothing_missing. Qed.
Print Assumptions C86_nothing_missing.
Example C86_case_missing : generate_all "prog" same "2026" false [] [[[[fld "type" "SYSCALL"; AField "syscall" "16" "ioctl"; prog_comm]]]] = None.
Proof. reflexivity. Qed.
(* A log of five events: a refused call, a call with its arguments, a refused
   call whose argument is inspected, a call of another program, a call with its
   arguments. *)
Example C86_case : log_records "prog" audit_demo audit_calls.
Proof. exact demo_records. Qed.
Example C86_case_ok : Forall (acall_ok home) audit_calls.
Proof. exact demo_ok. Qed.
Example C86_case_policy : generate_all "prog" same "2026" false [] [audit_demo] = Some (M_Gen.NOTICE "2026" ++ nl ++
  "open: 1" ++ nl ++ "mmap: arg2 in ~PROT_EXEC || arg2 in ~PROT_WRITE" ++ nl ++ "socket: arg0 == AF_UNIX" ++ nl ++ basic_lines).
Proof. exact demo_generates. Qed.
Example C86_case_runs : let p := generate_all "prog" same "2026" false [] [audit_demo] in
  (gc_run p (call3 9 0 4096 3), gpy_run p (call3 9 0 4096 3)) = (Some (VRet ALLOW), Some (VRet ALLOW)) /\
  (gc_run p (call3 9 0 4096 7), gpy_run p (call3 9 0 4096 7)) = (Some (VRet KILL_PROCESS), Some (VRet KILL_PROCESS)) /\
  (gc_run p (call3 16 0 0x5401 0), gpy_run p (call3 16 0 0x5401 0)) = (Some (VRet KILL_PROCESS), Some (VRet KILL_PROCESS)) /\
  (gc_run p (call3 41 1 1 0), gpy_run p (call3 41 1 1 0)) = (Some (VRet ALLOW), Some (VRet ALLOW)).
Proof. exact demo_runs. Qed.
Example C86_case_arm : generate_all "prog" same "2026" false [] [[[[fld "type" "SECCOMP"; prog_comm; AField "syscall" "983045" "unknown-syscall(983045)"]]]] =
  Some (M_Gen.NOTICE "2026" ++ nl ++ "ARM_set_tls: 1" ++ nl ++ basic_lines).
Proof. exact arm_generates. Qed.
(* The kernel writes the name of a program in hexadecimal when it has a space;
   the calls of such a program are not found. *)
Theorem C86_encoded_refuted : generate_all "my prog" same "2026" false [] [[[[fld "type" "SECCOMP"; AField "comm" "6D792070726F67" "my prog"; AField "syscall" "2" "open"]]]] =
  Some (M_Gen.NOTICE "2026" ++ nl ++ basic_lines).
Proof. exact encoded_missed. Qed.
Print Assumptions C86_encoded_refuted.
(* A call that the library does not know is written by its number, and the
   policy is refused by both compilers. *)
Theorem C86_unknown_refuted : unknown_policy = Some (M_Gen.NOTICE "2026" ++ nl ++ "unknown-syscall(999): 1" ++ nl ++ basic_lines) /\
  gc_run unknown_policy (call3 2 0 0 0) = None /\ gpy_run unknown_policy (call3 2 0 0 0) = None.
Proof. exact number_printed. Qed.
Print Assumptions C86_unknown_refuted.
