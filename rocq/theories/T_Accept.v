(* Property theorems: which policies compile (C65). *)
From Verif Require Import P_Accept P_PolicyEx P_AcceptEx.
Local Open Scope N_scope.

(* C65: a policy file compiles exactly if all of it can be read and there is
   room for it; the filter then has exactly the size that was counted. *)
Theorem C65_compiles_exactly : forall b o fs f, names_ok (b_consts b) -> syscall_table (b_syscalls b) ->
  ((exists prog, compile_filter b o fs (Some f) = COk prog) <->
   exists pol, reads_policy b o fs f pol /\ acceptable b o pol).
Proof. exact accept_compiles. Qed.
Print Assumptions C65_compiles_exactly.
Theorem C65_size : forall b o fs f prog pol, names_ok (b_consts b) -> syscall_table (b_syscalls b) ->
  compile_filter b o fs (Some f) = COk prog -> reads_policy b o fs f pol -> length prog = policy_size b o pol.
Proof. exact accept_size. Qed.
Print Assumptions C65_size.
Example C65_case : names_ok (b_consts ex_build) /\ syscall_table (b_syscalls ex_build) /\
  reads_policy ex_build ex_opts no_files ex_policy ex_rules /\ acceptable ex_build ex_opts ex_rules /\ policy_size ex_build ex_opts ex_rules = 41%nat.
Proof. exact accept_case. Qed.
(* With repeated system calls allowed, two conditions for the same one are
   still refused. *)
Theorem C65_duplicates_refuted : exists f pol, let o := FOpts ACT_KILL false false true false in
  reads_policy ex_build o no_files f pol /\ (policy_labels pol <= 512)%nat /\ (policy_size ex_build o pol <= 4096)%nat /\
  fo_allow_dup o = true /\ compile_filter ex_build o no_files (Some f) = CFail.
Proof. exact dup_refused. Qed.
Print Assumptions C65_duplicates_refuted.
