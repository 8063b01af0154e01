(* C84: files of clang, as examples and counterexamples. *)
From Verif Require Import P_CStr P_Const S_Policy S_PyPolicy P_PyFile.
From Verif Require Import M_PyParse S_PyText P_PyLex P_PyGram S_Common P_CommonPy P_GenText P_GenRead.
From Verif Require P_CommonEx.
From Verif Require Import M_Json S_Json P_Json P_JsonFile.
From Coq Require Import Lia.
Local Open Scope string_scope.

Lemma without_check bad s : every (fun c => any c && every (but c) bad) s = true -> without bad s.
Proof.
  intros H. apply every_all in H. revert H. apply all_chars_impl. intros c C. apply andb_true_iff in C as [A B]. split; [apply but_true; exact A|].
  intros a b ->. rewrite every_app in B. cbn [every] in B. assert (but c c = false) as E by (unfold but, is_c; rewrite Ascii.eqb_refl; reflexivity).
  rewrite E, andb_false_r in B. discriminate.
Qed.
Lemma symbol_check t : t <> "" -> every sym_char t = true -> symbol ("@" ++ t).
Proof. intros N E. exists t. split; [reflexivity|]. split; [exact N|]. apply every_all in E. revert E. apply all_chars_impl. intros c C. apply sym_char_spec, C. Qed.
Lemma decimal_check s n : read_mag 10 s = Some n -> decimal s (Z.of_N n).
Proof. intros H. exists n. left. split; [apply read_mag_10, H|reflexivity]. Qed.
Lemma contains_check x s : M_Gen.py_in x s = false -> ~ contains x s.
Proof. intros H C. apply py_in_true in C. congruence. Qed.
Lemma other_check l : M_Gen.py_in """" l = false -> M_Gen.py_in "@syscall_table" l = false -> M_Gen.py_in "@constant_table" l = false -> other_line l.
Proof. intros A B C. split; [apply contains_check, A|]. split; apply contains_check; assumption. Qed.

Definition str (sym mid name rest : string) : string := sym ++ " = " ++ mid ++ "c""" ++ name ++ "\00""" ++ rest.
Definition constant_file : list string :=
  ["; ModuleID = libconstants.gen.c";
   "%struct.constant_entry = type { ptr, i64 }";
   str "@.str" "private unnamed_addr constant [17 x i8] " "MINIJAIL_ARCH_NR" ", align 1";
   str "@.str.1" "private unnamed_addr constant [19 x i8] " "MINIJAIL_ARCH_BITS" ", align 1";
   str "@.str.2" "private unnamed_addr constant [9 x i8] " "AT_FDCWD" ", align 1";
   str "@.str.3" "private unnamed_addr constant [19 x i8] " "FS_KEY_DESC_PREFIX" ", align 1";
   str "@.str.4" "private unnamed_addr constant [9 x i8] " "fscrypt:" ", align 1";
   "@constant_table = dso_local constant [5 x %struct.constant_entry] [%struct.constant_entry { ptr @.str, i64 3221225534 }, %struct.constant_entry { ptr @.str.1, i64 64 }, %struct.constant_entry { ptr @.str.2, i64 -100 }, %struct.constant_entry { ptr @.str.3, i64 ptrtoint (ptr @.str.4 to i64) }, %struct.constant_entry zeroinitializer], align 16";
   "!llvm.ident = !{!0}"].
Definition syscall_file : list string :=
  [str "@.str" "private unnamed_addr constant [5 x i8] " "read" ", align 1";
   str "@.str.1" "private unnamed_addr constant [6 x i8] " "write" ", align 1";
   "@syscall_table = dso_local constant [3 x %struct.syscall_entry] [%struct.syscall_entry { i8* getelementptr inbounds ([5 x i8], [5 x i8]* @.str, i32 0, i32 0), i32 0 }, %struct.syscall_entry { i8* getelementptr inbounds ([6 x i8], [6 x i8]* @.str.1, i32 0, i32 0), i32 1 }, %struct.syscall_entry { i8* null, i32 -1 }], align 16";
   "@syscall_table_size = dso_local constant i64 3, align 8"].
Definition constants : list (string * Z) := [("MINIJAIL_ARCH_NR", 3221225534); ("MINIJAIL_ARCH_BITS", 64); ("AT_FDCWD", -100)]%Z.
Definition syscalls : list (string * Z) := [("read", 0); ("write", 1)]%Z.

Ltac chk := first [apply without_check; reflexivity | intros c t E; injection E as <- _; first [apply not_white; reflexivity | rewrite <- sym_char_spec; vm_compute; discriminate]
  | apply contains_check; reflexivity | apply (symbol_check ".str"); [discriminate|reflexivity] | apply (symbol_check ".str.1"); [discriminate|reflexivity]
  | apply (symbol_check ".str.2"); [discriminate|reflexivity] | apply (symbol_check ".str.3"); [discriminate|reflexivity] | apply (symbol_check ".str.4"); [discriminate|reflexivity]
  | discriminate].
Ltac str_line := apply sl; chk.
Lemma digits64 : one_of dec_digit "64".
Proof. split; [discriminate|]. apply (digits_one_of 10 "64" 64). apply read_mag_10. reflexivity. Qed.
Lemma constant_file_ok : ir_file "constant" constants constant_file.
Proof.
  apply (irf "constant" constants (firstn 7 constant_file) (nth 7 constant_file "") ["!llvm.ident = !{!0}"]
    [("@.str", "MINIJAIL_ARCH_NR"); ("@.str.1", "MINIJAIL_ARCH_BITS"); ("@.str.2", "AT_FDCWD"); ("@.str.3", "FS_KEY_DESC_PREFIX"); ("@.str.4", "fscrypt:")]).
  - apply ls_other; [apply other_check; reflexivity|]. apply ls_other; [apply other_check; reflexivity|].
    do 5 (apply ls_string; [str_line|]). apply ls_nil.
  - cbn. repeat (constructor; [cbn; intuition discriminate|]). constructor.
  - apply (tl "constant" _ "dso_local constant [5 x " "%struct.constant_entry { ptr @.str, i64 3221225534 }, %struct.constant_entry { ptr @.str.1, i64 64 }, %struct.constant_entry { ptr @.str.2, i64 -100 }, %struct.constant_entry { ptr @.str.3, i64 ptrtoint (ptr @.str.4 to i64) }, %struct.constant_entry zeroinitializer], align 16");
      [chk| |chk|reflexivity|intros _; chk].
    apply (es_entry "constant" _ "ptr @.str, i64 3221225534" "@.str" "MINIJAIL_ARCH_NR"); [|cbn; tauto|].
    { apply (et "ptr " "@.str" ", i64" "3221225534"); [chk|chk|chk|chk|chk|chk|apply (decimal_check _ 3221225534); reflexivity]. }
    apply (es_entry "constant" _ "ptr @.str.1, i64 64" "@.str.1" "MINIJAIL_ARCH_BITS"); [|cbn; tauto|].
    { apply (et "ptr " "@.str.1" ", i64" "64"); [chk|chk|chk|chk|chk|chk|apply (decimal_check _ 64); reflexivity]. }
    apply (es_entry "constant" _ "ptr @.str.2, i64 -100" "@.str.2" "AT_FDCWD"); [|cbn; tauto|].
    { apply (et "ptr " "@.str.2" ", i64" "-100"); [chk|chk|chk|chk|chk|chk|]. exists 100%N. right. exists "100". split; [reflexivity|]. split; [apply read_mag_10; reflexivity|reflexivity]. }
    apply (es_pointer "constant" _ "ptr @.str.3, i64 ptrtoint (ptr @.str.4 to i64)").
    { apply (pt "@.str.3" "@.str.4" "64" "64"); [chk|chk|apply digits64|apply digits64]. }
    apply (es_zero "constant" _ "], align 16"). chk.
  - constructor; [|constructor]. left. apply other_check; reflexivity.
Qed.
Lemma syscall_file_ok : ir_file "syscall" syscalls syscall_file.
Proof.
  apply (irf "syscall" syscalls (firstn 2 syscall_file) (nth 2 syscall_file "") ["@syscall_table_size = dso_local constant i64 3, align 8"] [("@.str", "read"); ("@.str.1", "write")]).
  - do 2 (apply ls_string; [str_line|]). apply ls_nil.
  - cbn. repeat (constructor; [cbn; intuition discriminate|]). constructor.
  - apply (tl "syscall" _ "dso_local constant [3 x " "%struct.syscall_entry { i8* getelementptr inbounds ([5 x i8], [5 x i8]* @.str, i32 0, i32 0), i32 0 }, %struct.syscall_entry { i8* getelementptr inbounds ([6 x i8], [6 x i8]* @.str.1, i32 0, i32 0), i32 1 }, %struct.syscall_entry { i8* null, i32 -1 }], align 16");
      [chk| |chk|reflexivity|discriminate].
    apply (es_entry "syscall" _ "i8* getelementptr inbounds ([5 x i8], [5 x i8]* @.str, i32 0, i32 0), i32 0" "@.str" "read"); [|cbn; tauto|].
    { apply (et "i8* getelementptr inbounds ([5 x i8], [5 x i8]* " "@.str" ", i32 0, i32 0), i32" "0"); [chk|chk|chk|chk|chk|chk|apply (decimal_check _ 0); reflexivity]. }
    apply (es_entry "syscall" _ "i8* getelementptr inbounds ([6 x i8], [6 x i8]* @.str.1, i32 0, i32 0), i32 1" "@.str.1" "write"); [|cbn; tauto|].
    { apply (et "i8* getelementptr inbounds ([6 x i8], [6 x i8]* " "@.str.1" ", i32 0, i32 0), i32" "1"); [chk|chk|chk|chk|chk|chk|apply (decimal_check _ 1); reflexivity]. }
    apply (es_end "syscall" _ "i8* " "-1" (-1) "], align 16"); [chk|chk| |chk].
    exists 1%N. right. exists "1". split; [reflexivity|]. split; [apply read_mag_10; reflexivity|reflexivity].
  - constructor; [|constructor]. right. split; [reflexivity|]. exists " = dso_local constant i64 3, align 8". split; [reflexivity|chk].
Qed.
(* What C's table says, for a table without repeated names. *)
Lemma unrepeated table n v : NoDup (map fst table) -> (last_value table n v <-> In (n, v) table).
Proof.
  intros ND. split; [intros (a & b & -> & _); apply in_app_iff; right; left; reflexivity|]. intros I. apply in_split in I as (a & b & ->). exists a, b. split; [reflexivity|].
  rewrite map_app in ND. apply NoDup_remove_2 in ND. intros H. apply ND. apply in_app_iff. right. exact H.
Qed.
Lemma example_json : exists j a, generate [constant_file; syscall_file] = Some j /\ load_from_json j = Some a /\
  pa_arch a = Arch 3221225534 64 /\ pa_name a = "x86_64" /\ pa_syscalls a = [("read", 0%N); ("write", 1%N)] /\ lookup "AT_FDCWD" (pa_constants a) = Some (-100)%Z.
Proof. eexists _, _. split; [vm_compute; reflexivity|]. split; [vm_compute; reflexivity|]. repeat split. Qed.
(* The C compiler built with these tables. *)
Definition build64 : M_Filter.build :=
  M_Filter.Build (M_Filter.b_plat P_CommonEx.c_pc) [("read", 0%N); ("write", 1%N)]
    [("MINIJAIL_ARCH_NR", 3221225534%N); ("MINIJAIL_ARCH_BITS", 64%N); ("AT_FDCWD", 18446744073709551516%N)] [] [].
Lemma build64_case : NoDup (map fst constants) /\ NoDup (map fst syscalls) /\ Forall (fun e => plain_name (fst e)) constants /\
  M_Bpf.arch_no (M_Filter.b_plat build64) = 3221225534%N /\ M_Bpf.bits64 (M_Filter.b_plat build64) = true /\
  M_Filter.b_syscalls build64 = map (fun e => (fst e, Z.to_N (snd e))) syscalls /\
  M_Filter.b_consts build64 = map (fun e => (fst e, Z.to_N (snd e mod 2 ^ 64))) constants.
Proof.
  split; [cbn; repeat (constructor; [cbn; intuition discriminate|]); constructor|]. split; [cbn; repeat (constructor; [cbn; intuition discriminate|]); constructor|].
  split; [repeat (constructor; [apply P_CommonEx.plainb_name; reflexivity|]); constructor|]. repeat split.
Qed.
(* Without a table of system calls the tool writes a file that cannot be used. *)
Lemma incomplete_json : exists files j, generate files = Some j /\ load_from_json j = None.
Proof. exists [constant_file]. eexists. split; [vm_compute; reflexivity|vm_compute; reflexivity]. Qed.
(* A pointer as older versions of clang write it gets the value 0. *)
Definition old_pointer : list string :=
  [str "@.str" "private unnamed_addr constant [19 x i8] " "FS_KEY_DESC_PREFIX" ", align 1";
   "@constant_table = dso_local constant [2 x %struct.constant_entry] [%struct.constant_entry { i8* getelementptr inbounds ([19 x i8], [19 x i8]* @.str, i32 0, i32 0), i32 ptrtoint ([9 x i8]* @.str.1 to i32) }, %struct.constant_entry zeroinitializer], align 4"].
Lemma old_pointer_zero : parse_llvm_ir old_pointer = Some ("constants", [("FS_KEY_DESC_PREFIX", 0%Z)]).
Proof. vm_compute. reflexivity. Qed.
