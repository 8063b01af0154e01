(* Files for the examples of T_Bucket. *)
From Verif Require Import P_CStr P_Const S_Policy S_PyPolicy P_PyFile P_PyEx.
From Verif Require Import M_PyParse S_PyText P_PyLex P_PyGram P_PyStmt P_PyText P_PyMean P_PyTextEx S_Common P_CommonPy P_CommonC P_Common P_CommonEx S_Accept P_CommonFit.
From Verif Require M_Gen.
From Verif Require Import S_Gen P_GenText P_GenRead P_Gen P_GenEx.
From Verif Require Import M_Audit S_Audit P_Audit P_AuditEx P_FreqEx M_Bucket S_Bucket P_Bucket.
Local Open Scope N_scope.
Local Open Scope string_scope.

Definition audit_lines : list string :=
  ["type=DAEMON_START msg=audit(1600000000.000:1): op=start";
   "type=SECCOMP msg=audit(1600000001.000:2): auid=0 comm=" ++ q ++ "prog" ++ q ++ " syscall=2 code=0x7ffc0000"].
Definition raw_audit : string := String.concat nl audit_lines ++ nl.
Definition inputs : list (string * string) := [("audit.log", raw_audit); ("strace.txt", trace_text (tf_lines (hd (TFile "" []) log)))].
Lemma cut_one l r ls : in_line l -> text_cut r ls -> text_cut (l ++ String newline r) (l :: ls).
Proof. apply tc_newline. Qed.
Lemma inputs_parted : parted inputs [("audit.log", raw_audit)] (on_disk log).
Proof.
  apply (pt_audit _ _ audit_lines).
  - unfold raw_audit, audit_lines. cbn [String.concat]. rewrite sapp_assoc. unfold nl. cbn [append].
    match goal with |- text_cut ?t [?x; ?y] => change t with (x ++ String newline (y ++ String newline "")) end. apply tc_newline; [apply every_line; reflexivity|]. apply tc_newline; [apply every_line; reflexivity|]. constructor.
  - apply is_audit_spec. vm_compute. reflexivity.
  - eapply pt_trace; [apply (trace_cut home "strace.txt")| |constructor].
    + destruct log_case as (T & _). inversion T; subst. assumption.
    + intros H. apply is_audit_spec in H. vm_compute in H. discriminate H.
Qed.
Definition demo_auparse (t : string) : alog := audit_demo.
Lemma demo_case : Forall2 (fun f => log_records "prog" (demo_auparse (snd f))) [("audit.log", raw_audit)] [audit_calls] /\
  trace_ok home (log ++ [trace_of audit_calls]) /\ Forall2 same_calls [trace_of audit_calls] [audit_calls].
Proof. split; [constructor; [apply demo_records|constructor]|apply demo_trace]. Qed.
Definition misleading : string := "123 write(2, " ++ q ++ "type=SECCOMP" ++ q ++ ", 12 <unfinished ...>" ++ nl ++ "124 open(" ++ q ++ "/etc/passwd" ++ q ++ ", O_RDONLY) = 3" ++ nl.
Lemma mistaken : bucket (found [("strace.txt", misleading)]) [] [] = Some ([("strace.txt", misleading)], []).
Proof. vm_compute. reflexivity. Qed.
