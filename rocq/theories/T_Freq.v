(* Property theorems: the frequency file (C87). *)
From Verif Require Import P_CStr P_Const S_Policy S_PyPolicy P_PyFile P_PyEx.
From Verif Require Import M_PyParse S_PyText P_PyLex P_PyGram P_PyStmt P_PyText P_PyMean P_PyTextEx S_Common P_CommonPy P_CommonC P_Common P_CommonEx S_Accept P_CommonFit.
From Verif Require M_Gen.
From Verif Require Import S_Gen P_GenText P_GenRead P_Gen P_GenEx.
From Verif Require Import M_Audit S_Audit P_Audit P_AuditEx M_Freq S_Freq P_Freq P_FreqEx.
Local Open Scope N_scope.
Local Open Scope string_scope.

(* C87: the frequency file that generate_seccomp_policy.py writes beside the
   policy, read by compile_seccomp_policy.py, gives every call of the traces,
   once, with the number of times it was made ([fs]: traces of the calls of the
   audit logs). *)
Theorem C87_read_back : forall a, (arch_bits (pa_arch a) = 32 \/ arch_bits (pa_arch a) = 64) -> forall comm tr fs logs css,
  trace_ok a (tr ++ fs) -> Forall2 (log_records comm) logs css -> Forall2 same_calls fs css -> has_basic a -> forall year, all_chars dec_digit year ->
  exists t f, frequency_file comm year (on_disk tr) logs = Some t /\
  (forall text file, text file = Some t -> freq_file a text file f) /\ NoDup (map (fun x => fst (fst x)) f) /\
  forall n nr k, In (n, nr, k) f <-> first_entry (pa_syscalls a) n nr /\ frequency_of (tr ++ fs) n k.
Proof. exact read_back. Qed.
Print Assumptions C87_read_back.
Example C87_case : frequency_file "prog" "2026" (on_disk log) [audit_demo] = Some (M_Gen.NOTICE "2026" ++ nl ++
  "exit: 1" ++ nl ++ "exit_group: 1" ++ nl ++ "ioctl: 1" ++ nl ++ "mmap: 2" ++ nl ++ "open: 2" ++ nl ++ "restart_syscall: 1" ++ nl ++ "rt_sigreturn: 1" ++ nl ++ "socket: 2" ++ nl).
Proof. exact demo_frequency. Qed.
Example C87_case_times : frequency_of (log ++ [trace_of audit_calls]) "open" 2.
Proof. exact demo_times. Qed.
Example C87_case_trace : trace_ok home (log ++ [trace_of audit_calls]) /\ Forall2 same_calls [trace_of audit_calls] [audit_calls].
Proof. exact demo_trace. Qed.
