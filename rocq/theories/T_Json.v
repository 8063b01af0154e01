(* Property theorems: the tables of the Python compiler (C84). *)
From Verif Require Import S_PyText S_Common M_Json S_Json P_Json P_JsonFile P_JsonEx.
Local Open Scope string_scope.

(* ---- C84: constants.json has the tables that were compiled ----
   From a table that clang writes, every name gets the number it has there (the
   last one, if there are several), negative ones included, and there are no
   other names; pointers are left out. *)
Theorem C84_table : forall kind table lines, kind = "constant" \/ kind = "syscall" -> ir_file kind table lines ->
  exists d, parse_llvm_ir lines = Some (kind ++ "s", d) /\ holds d table.
Proof. exact file_holds. Qed.
Print Assumptions C84_table.
(* With both tables, in any order, of a known machine: the compiler finds the
   machine, every constant and every system call, as C62 and C63 require. *)
Theorem C84_loaded : forall fc fs cs ss files nr bits name, ir_file "constant" cs fc -> ir_file "syscall" ss fs -> files = [fc; fs] \/ files = [fs; fc] ->
  last_value cs "MINIJAIL_ARCH_NR" nr -> last_value cs "MINIJAIL_ARCH_BITS" bits -> machine nr name ->
  exists j a, generate files = Some j /\ load_from_json j = Some a /\
    pa_arch a = Arch (Z.to_N nr) (Z.to_N bits) /\ pa_name a = name /\ pa_groups a = [] /\
    (forall n v, first_entry (pa_constants a) n v <-> last_value cs n v) /\
    (forall n v, first_entry (pa_syscalls a) n v <-> exists z, last_value ss n z /\ v = Z.to_N z) /\
    ((bits = 32 \/ bits = 64)%Z -> (forall n z, In (n, z) ss -> (0 <= z < 2 ^ 32 - 1)%Z) -> tables_ok a).
Proof. exact json_made. Qed.
Print Assumptions C84_loaded.
(* Nothing is written for other machines, or without the machine's constants. *)
Theorem C84_known_machine : forall fc fs cs ss files, ir_file "constant" cs fc -> ir_file "syscall" ss fs -> files = [fc; fs] \/ files = [fs; fc] ->
  generate files <> None -> exists nr bits name, last_value cs "MINIJAIL_ARCH_NR" nr /\ last_value cs "MINIJAIL_ARCH_BITS" bits /\ machine nr name.
Proof. exact json_refused. Qed.
Print Assumptions C84_known_machine.
(* In a table that names nothing twice, as C's: the value is that of the entry. *)
Theorem C84_as_in_c : forall table n v, NoDup (map fst table) -> (last_value table n v <-> In (n, v) table).
Proof. exact unrepeated. Qed.
Print Assumptions C84_as_in_c.
(* A C compiler built with tables that name nothing twice then has the same
   tables as the Python compiler, which C64, C66 and C67 assume.  (Its table of
   constants has pointers as well, if there are any.) *)
Theorem C84_same_tables : forall fc fs cs ss files nr bits name b, ir_file "constant" cs fc -> ir_file "syscall" ss fs -> files = [fc; fs] \/ files = [fs; fc] ->
  last_value cs "MINIJAIL_ARCH_NR" nr -> last_value cs "MINIJAIL_ARCH_BITS" bits -> machine nr name ->
  NoDup (map fst cs) -> NoDup (map fst ss) -> Forall (fun e => plain_name (fst e)) cs ->
  M_Bpf.arch_no (M_Filter.b_plat b) = Z.to_N nr -> bits = (if M_Bpf.bits64 (M_Filter.b_plat b) then 64 else 32)%Z ->
  M_Filter.b_syscalls b = map (fun e => (fst e, Z.to_N (snd e))) ss ->
  M_Filter.b_consts b = map (fun e => (fst e, Z.to_N (snd e mod 2 ^ bits))) cs ->
  exists j a, generate files = Some j /\ load_from_json j = Some a /\ same_tables b a.
Proof. exact json_same. Qed.
Print Assumptions C84_same_tables.

Example C84_case : ir_file "constant" constants constant_file /\ ir_file "syscall" syscalls syscall_file /\
  last_value constants "MINIJAIL_ARCH_NR" 3221225534 /\ last_value constants "MINIJAIL_ARCH_BITS" 64 /\ machine 3221225534 "x86_64".
Proof.
  split; [exact constant_file_ok|]. split; [exact syscall_file_ok|]. split; [exists [], (List.tl constants)|split; [exists [("MINIJAIL_ARCH_NR", 3221225534%Z)], [("AT_FDCWD", (-100)%Z)]|left; reflexivity]];
  (split; [reflexivity|cbn; intuition discriminate]).
Qed.
Example C84_case_json : exists j a, generate [constant_file; syscall_file] = Some j /\ load_from_json j = Some a /\
  pa_arch a = Arch 3221225534 64 /\ pa_name a = "x86_64" /\ pa_syscalls a = [("read", 0%N); ("write", 1%N)] /\ lookup "AT_FDCWD" (pa_constants a) = Some (-100)%Z.
Proof. exact example_json. Qed.

Example C84_case_build : NoDup (map fst constants) /\ NoDup (map fst syscalls) /\ Forall (fun e => plain_name (fst e)) constants /\
  M_Bpf.arch_no (M_Filter.b_plat build64) = 3221225534%N /\ M_Bpf.bits64 (M_Filter.b_plat build64) = true /\
  M_Filter.b_syscalls build64 = map (fun e => (fst e, Z.to_N (snd e))) syscalls /\
  M_Filter.b_consts build64 = map (fun e => (fst e, Z.to_N (snd e mod 2 ^ 64))) constants.
Proof. exact build64_case. Qed.

(* Refuted: that a file written with status 0 can be used (the table of system
   calls may be missing), and that pointers are left out however clang writes
   them (older versions: the value 0). *)
Theorem C84_incomplete_refuted : exists files j, generate files = Some j /\ load_from_json j = None.
Proof. exact incomplete_json. Qed.
Print Assumptions C84_incomplete_refuted.
Theorem C84_pointer_refuted : parse_llvm_ir old_pointer = Some ("constants", [("FS_KEY_DESC_PREFIX", 0%Z)]).
Proof. exact old_pointer_zero. Qed.
Print Assumptions C84_pointer_refuted.
