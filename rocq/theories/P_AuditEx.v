(* Logs for the examples of T_Audit. *)
From Coq Require Import Permutation.
From Verif Require Import P_CStr P_Const S_Policy S_PyPolicy P_PyFile P_PyEx.
From Verif Require Import M_PyParse S_PyText P_PyLex P_PyGram P_PyStmt P_PyText P_PyMean P_PyTextEx S_Common P_CommonPy P_CommonC P_Common P_CommonEx S_Accept P_CommonFit.
From Verif Require M_Gen.
From Verif Require Import S_Gen P_GenText P_GenRead P_Gen P_GenEx.
From Verif Require Import M_Audit S_Audit P_Audit.
Local Open Scope N_scope.
Local Open Scope string_scope.

Definition fld (n t : string) : afield := AField n t t.
Definition prog_comm : afield := AField "comm" (quoted "prog") "prog".
(* A refused call; a call with its arguments and the command line; a refused
   call with an inspected argument; a call of another program; a private call
   of ARM. *)
Definition audit_demo : alog :=
  [[[fld "type" "SECCOMP"; prog_comm; AField "syscall" "2" "open"]];
   [[fld "type" "SYSCALL"; AField "syscall" "9" "mmap"; fld "a0" "0"; fld "a1" "1000"; AField "a2" "3" "PROT_READ|PROT_WRITE"; prog_comm]; [fld "type" "PROCTITLE"; fld "proctitle" "prog"]];
   [[fld "type" "SECCOMP"; prog_comm; AField "syscall" "16" "ioctl"]];
   [[fld "type" "SECCOMP"; AField "comm" (quoted "other") "other"; AField "syscall" "41" "socket"]];
   [[fld "type" "SYSCALL"; AField "syscall" "41" "socket"; AField "a0" "1" "AF_UNIX"; prog_comm]]].
Definition audit_calls : list acall := [ACall "open" []; ACall "mmap" [Part "PROT_READ" 1; Part "PROT_WRITE" 2]; ACall "socket" [Part "AF_UNIX" 1]].
Lemma has_field r n f : find_field r n = Some f -> first_field r n f.
Proof. apply find_field_spec. Qed.
Lemma has_text r n t : is_str (field_str r n) t = true -> field_is r n t.
Proof. apply field_is_spec. Qed.
Lemma lacks_text r n t : is_str (field_str r n) t = false -> ~ field_is r n t.
Proof. apply field_false. Qed.
Lemma shown_plain n : plainb n = true -> shown_as n n.
Proof. intros H. apply sa_name, plainb_name. exact H. Qed.
Lemma named n i : lookup n inspected = Some i -> first_entry inspected n i.
Proof. apply lookup_spec. Qed.
Lemma unnamed n : lookup n inspected = None -> forall i, ~ first_entry inspected n i.
Proof. intros H i I. apply lookup_spec in I. congruence. Qed.
Lemma demo_records : log_records "prog" audit_demo audit_calls.
Proof.
  split; [eexists _, _, _; reflexivity|]. exists [[ACall "open" []]; [ACall "mmap" [Part "PROT_READ" 1; Part "PROT_WRITE" 2]]; []; []; []; [ACall "socket" [Part "AF_UNIX" 1]]].
  split; [|reflexivity]. cbn [audit_demo concat app].
  constructor. { eapply rc_plain; [apply has_text; reflexivity|apply has_field; reflexivity|discriminate|apply shown_plain; reflexivity|apply has_text; reflexivity|apply unnamed; reflexivity]. }
  constructor. { eapply rc_inspected with (i := 2%nat); [apply has_text; reflexivity|apply has_field; reflexivity|discriminate|apply shown_plain; reflexivity|apply has_text; reflexivity|apply named; reflexivity|apply has_field; reflexivity|discriminate|reflexivity]. }
  constructor. { apply rc_other. left. intros [H|H]; apply field_is_spec in H; discriminate H. }
  constructor. { eapply rc_skipped; [apply has_text; reflexivity|apply has_field; reflexivity|discriminate|apply shown_plain; reflexivity|]. left. split; [apply has_text; reflexivity|]. exists 1%nat. apply named. reflexivity. }
  constructor. { apply rc_other. right. intros H. apply field_is_spec in H. discriminate H. }
  constructor. { eapply rc_inspected with (i := 0%nat); [apply has_text; reflexivity|apply has_field; reflexivity|discriminate|apply shown_plain; reflexivity|apply has_text; reflexivity|apply named; reflexivity|apply has_field; reflexivity|discriminate|reflexivity]. }
  constructor.
Qed.
Lemma call_known n nr ps : plainb n = true -> existsb (String.eqb n) ("in" :: "return" :: actions_named) = false -> String.prefix "arg" n = false ->
  M_Gen.inb n arm_calls = false -> lookup n (pa_syscalls home) = Some nr -> (lookup n inspected = None \/ (ps <> [] /\ Forall (part_ok home) ps)) -> acall_ok home (ACall n ps).
Proof.
  intros P R A NA L V. split; [apply plainb_name; exact P|]. split; [intros H; exfalso; revert H; apply not_reserved; assumption|]. split; [apply inb_false; exact NA|].
  split; [exists nr; apply lookup_spec; exact L|]. intros i I. cbn [ac_name ac_value] in *. destruct V as [V|V]; [|exact V]. apply lookup_spec in I. congruence.
Qed.
Lemma demo_ok : Forall (acall_ok home) audit_calls.
Proof.
  constructor; [|constructor; [|constructor; [|constructor]]].
  - apply (call_known "open" 2); try reflexivity. left. reflexivity.
  - apply (call_known "mmap" 9); try reflexivity. right. split; [discriminate|]. constructor; [left; apply home_read|]. constructor; [left; apply home_write|constructor].
  - apply (call_known "socket" 41); try reflexivity. right. split; [discriminate|]. constructor; [left; apply home_unix|constructor].
Qed.
Definition basic_lines : string := "restart_syscall: 1" ++ nl ++ "exit: 1" ++ nl ++ "exit_group: 1" ++ nl ++ "rt_sigreturn: 1" ++ nl.
Lemma demo_generates : generate_all "prog" same "2026" false [] [audit_demo] = Some (M_Gen.NOTICE "2026" ++ nl ++
  "open: 1" ++ nl ++ "mmap: arg2 in ~PROT_EXEC || arg2 in ~PROT_WRITE" ++ nl ++ "socket: arg0 == AF_UNIX" ++ nl ++ basic_lines).
Proof. vm_compute. reflexivity. Qed.
Lemma demo_runs : let p := generate_all "prog" same "2026" false [] [audit_demo] in
  (gc_run p (call3 9 0 4096 3), gpy_run p (call3 9 0 4096 3)) = (Some (VRet ALLOW), Some (VRet ALLOW)) /\
  (gc_run p (call3 9 0 4096 7), gpy_run p (call3 9 0 4096 7)) = (Some (VRet KILL_PROCESS), Some (VRet KILL_PROCESS)) /\
  (gc_run p (call3 16 0 0x5401 0), gpy_run p (call3 16 0 0x5401 0)) = (Some (VRet KILL_PROCESS), Some (VRet KILL_PROCESS)) /\
  (gc_run p (call3 41 1 1 0), gpy_run p (call3 41 1 1 0)) = (Some (VRet ALLOW), Some (VRet ALLOW)).
Proof. vm_compute. repeat split; reflexivity. Qed.
Lemma arm_generates : generate_all "prog" same "2026" false [] [[[[fld "type" "SECCOMP"; prog_comm; AField "syscall" "983045" "unknown-syscall(983045)"]]]] =
  Some (M_Gen.NOTICE "2026" ++ nl ++ "ARM_set_tls: 1" ++ nl ++ basic_lines).
Proof. vm_compute. reflexivity. Qed.
Lemma encoded_missed : generate_all "my prog" same "2026" false [] [[[[fld "type" "SECCOMP"; AField "comm" "6D792070726F67" "my prog"; AField "syscall" "2" "open"]]]] =
  Some (M_Gen.NOTICE "2026" ++ nl ++ basic_lines).
Proof. vm_compute. reflexivity. Qed.
Definition unknown_policy : option string :=
  generate_all "prog" same "2026" false [] [[[[fld "type" "SECCOMP"; prog_comm; AField "syscall" "999" "unknown-syscall(999)"]]]].
Lemma number_printed : unknown_policy = Some (M_Gen.NOTICE "2026" ++ nl ++ "unknown-syscall(999): 1" ++ nl ++ basic_lines) /\
  gc_run unknown_policy (call3 2 0 0 0) = None /\ gpy_run unknown_policy (call3 2 0 0 0) = None.
Proof. vm_compute. repeat split; reflexivity. Qed.
