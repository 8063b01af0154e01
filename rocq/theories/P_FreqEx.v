(* Traces for the examples of T_Freq. *)
From Verif Require Import P_CStr P_Const S_Policy S_PyPolicy P_PyFile P_PyEx.
From Verif Require Import M_PyParse S_PyText P_PyLex P_PyGram P_PyStmt P_PyText P_PyMean P_PyTextEx S_Common P_CommonPy P_CommonC P_Common P_CommonEx S_Accept P_CommonFit.
From Verif Require M_Gen.
From Verif Require Import S_Gen P_GenText P_GenRead P_Gen P_GenEx.
From Verif Require Import M_Audit S_Audit P_Audit P_AuditEx M_Freq S_Freq P_Freq.
Local Open Scope N_scope.
Local Open Scope string_scope.

Lemma demo_frequency : frequency_file "prog" "2026" (on_disk log) [audit_demo] = Some (M_Gen.NOTICE "2026" ++ nl ++
  "exit: 1" ++ nl ++ "exit_group: 1" ++ nl ++ "ioctl: 1" ++ nl ++ "mmap: 2" ++ nl ++ "open: 2" ++ nl ++ "restart_syscall: 1" ++ nl ++ "rt_sigreturn: 1" ++ nl ++ "socket: 2" ++ nl).
Proof. vm_compute. reflexivity. Qed.
Lemma demo_times : frequency_of (log ++ [trace_of audit_calls]) "open" 2.
Proof.
  exists 2. split; [|left; split; [reflexivity|reflexivity]]. destruct (times_exist "open" (all_lines (log ++ [trace_of audit_calls]))) as (k & H).
  pose proof (final_times _ _ _ H) as E. vm_compute in E. subst k. exact H.
Qed.
Lemma demo_trace : trace_ok home (log ++ [trace_of audit_calls]) /\ Forall2 same_calls [trace_of audit_calls] [audit_calls].
Proof.
  split.
  - apply Forall_app. split; [apply log_case|]. constructor; [|constructor]. cbn [trace_of tf_name tf_lines].
    induction demo_ok as [|c cs C _ IH]; cbn [map]; [constructor|]. constructor; [|exact IH]. apply shown_ok. exact C.
  - constructor; [|constructor]. apply trace_same. generalize demo_ok. apply Forall_impl. intros c C. apply C.
Qed.
