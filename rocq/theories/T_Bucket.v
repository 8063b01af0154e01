(* Property theorems: which files are taken for audit logs (C88). *)
From Coq Require Import Permutation.
From Verif Require Import P_CStr P_Const S_Policy S_PyPolicy P_PyFile P_PyEx.
From Verif Require Import M_PyParse S_PyText P_PyLex P_PyGram P_PyStmt P_PyText P_PyMean P_PyTextEx S_Common P_CommonPy P_CommonC P_Common P_CommonEx S_Accept P_CommonFit.
From Verif Require M_Gen.
From Verif Require Import S_Gen P_GenText P_GenRead P_Gen P_GenEx.
From Verif Require Import M_Audit S_Audit P_Audit P_AuditEx M_Bucket S_Bucket P_Bucket P_BucketEx.
Local Open Scope N_scope.
Local Open Scope string_scope.

(* C88: every file is read once, as a log of the audit subsystem when the first
   line that tells the kinds apart is of that subsystem, and otherwise as a log
   of strace. *)
Theorem C88_kinds : forall files au tr, parted files au tr -> bucket (found files) [] [] = Some (au, tr).
Proof. exact (fun files au tr P => parted_bucket files au tr P [] []). Qed.
Print Assumptions C88_kinds.
(* So the tool gives, from files of both kinds in any order, the policy of one
   trace of all their calls ([fs]: traces of the calls of the audit logs;
   [auparse]: what the library finds in a text). *)
Theorem C88_tool : forall a auparse comm order year frequency files au tr css fs, parted files au (on_disk tr) ->
  trace_ok a (tr ++ fs) -> Forall2 (fun f => log_records comm (auparse (snd f))) au css -> Forall2 same_calls fs css ->
  generate_tool auparse comm order year frequency (found files) = M_Gen.generate order year frequency (on_disk (tr ++ fs)%list).
Proof. exact tool_generates. Qed.
Print Assumptions C88_tool.
(* Such traces exist, and the policy allows the calls of all the files, and no
   others. *)
Theorem C88_policy : forall a x w auparse comm files au tr css, (arch_bits (pa_arch a) = 32 \/ arch_bits (pa_arch a) = 64) -> parted files au (on_disk tr) -> trace_ok a tr ->
  Forall2 (fun f => log_records comm (auparse (snd f))) au css -> Forall (Forall (acall_ok a)) css ->
  const_ok a (Part "PROT_EXEC" x) -> const_ok a (Part "PROT_WRITE" w) -> has_basic a ->
  forall order, (forall l, Permutation (order l) l) -> one_name_each a -> forall year frequency, all_chars dec_digit year ->
  exists fs p, Forall2 same_calls fs css /\ trace_ok a (tr ++ fs) /\
  generate_tool auparse comm order year frequency (found files) = Some (policy_text p) /\ common_ok a p /\
  forall v d, (permitted a x w (tr ++ fs) d -> common_decision (arch_bits (pa_arch a)) v p d = ALLOW) /\
              (~ permitted a x w (tr ++ fs) d -> common_decision (arch_bits (pa_arch a)) v p d = v).
Proof. exact tool_policy. Qed.
Print Assumptions C88_policy.
(* A missing file ends the tool without a policy. *)
Theorem C88_missing : forall auparse comm order year frequency files name, In (name, None) files -> generate_tool auparse comm order year frequency files = None.
Proof. exact tool_missing. Qed.
Print Assumptions C88_missing.
Example C88_case : parted inputs [("audit.log", raw_audit)] (on_disk log).
Proof. exact inputs_parted. Qed.
Example C88_case_logs : Forall2 (fun f => log_records "prog" (demo_auparse (snd f))) [("audit.log", raw_audit)] [audit_calls] /\
  trace_ok home (log ++ [trace_of audit_calls]) /\ Forall2 same_calls [trace_of audit_calls] [audit_calls].
Proof. exact demo_case. Qed.
(* A log of strace is taken for an audit log when a program writes such a line
   and the call is interrupted in the log before any call is complete. *)
Theorem C88_mistaken_refuted : bucket (found [("strace.txt", misleading)]) [] [] = Some ([("strace.txt", misleading)], []).
Proof. exact mistaken. Qed.
Print Assumptions C88_mistaken_refuted.
