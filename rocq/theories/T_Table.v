(* Property theorems: the generated tables of names (C85). *)
From Verif Require Import M_Table S_Table P_Table P_TableEx.
Local Open Scope string_scope.

(* ---- C85: the tables hold the macros of the system's headers ----
   System calls: exactly the macros __NR_* and __ARM_NR_* (small letters, digits
   and underscores) that are defined at the end of the headers, each with the
   value of its macro, whatever else is defined, undefined or defined again. *)
Theorem C85_syscalls : forall ds value, Forall directive_ok ds -> sees ds value -> exists es, sys_entries (map line_of ds) = Some es /\
  forall n v, In (n, v) (built value es) <-> exists m, call_macro m n /\ defined ds m /\ value m = Some v.
Proof. exact sys_table. Qed.
Print Assumptions C85_syscalls.
(* A name has one number, even if its macro is defined several times. *)
Theorem C85_one_number : forall ds value es n v v', Forall directive_ok ds -> sees ds value -> sys_entries (map line_of ds) = Some es ->
  In (n, v) (built value es) -> In (n, v') (built value es) -> v = v'.
Proof. exact sys_table_value. Qed.
Print Assumptions C85_one_number.
(* Constants: the macros in capital letters that are defined at the end, if
   their text is plain (S_Table), with their values, which are thus unique. *)
Theorem C85_constants_partial : forall ds value, Forall directive_ok ds -> sees ds value -> forall n v,
  In (n, v) (built value (const_entries (map line_of ds))) <->
  constant_macro n /\ defined ds n /\ (exists t, In (Define n t) ds /\ plain_text n t) /\ value n = Some v.
Proof. exact const_table. Qed.
Print Assumptions C85_constants_partial.

Example C85_case : Forall directive_ok unistd /\ sees unistd unistd_value.
Proof. exact unistd_case. Qed.
Example C85_case_table : option_map (built unistd_value) (sys_entries (map line_of unistd)) =
  Some [("read", 0); ("_llseek", 140); ("ARM_breakpoint", 983041); ("syscalls", 463)]%Z.
Proof. exact unistd_table. Qed.
Example C85_case_constants : Forall directive_ok headers /\ sees headers headers_value /\
  built headers_value (const_entries (map line_of headers)) = [("EPERM", 1); ("PROT_READ", 1)]%Z.
Proof. split; [exact (proj1 headers_case)|]. split; [exact (proj2 headers_case)|exact headers_table]. Qed.

(* Refuted: that every constant of the headers can be used in policies.  Those
   whose text starts with a parenthesis or a minus sign, or that contain SIG_ or
   NULL, are not in the table. *)
Theorem C85_constants_refuted : exists ds value, Forall directive_ok ds /\ sees ds value /\
  forall n, In n ["O_TMPFILE"; "SIG_BLOCK"; "AT_FDCWD"] -> constant_macro n /\ defined ds n /\ forall v, ~ In (n, v) (built value (const_entries (map line_of ds))).
Proof. exact headers_missing. Qed.
Print Assumptions C85_constants_refuted.
