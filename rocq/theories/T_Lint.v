(* Property theorems: policies that seccomp_policy_lint.py passes (C67). *)
From Verif Require Import P_CStr P_Const S_Policy S_PyPolicy P_PyFile P_PyEx.
From Verif Require Import M_PyParse S_PyText P_PyLex P_PyGram P_PyStmt P_PyText P_PyMean P_PyTextEx S_Common P_CommonPy P_CommonC P_Common P_CommonEx.
From Verif Require Import M_Lint S_Lint P_Lint P_LintEx.
Local Open Scope N_scope.
Local Open Scope string_scope.

(* C67: what the linter reports, for every text. *)
Theorem C67_reports : forall dangerous t ls e, text_cut t ls -> In e (l_errors (check_seccomp_policy dangerous t)) <-> reported dangerous ls e.
Proof. exact lint_reports. Qed.
Print Assumptions C67_reports.
Theorem C67_passes : forall dangerous t ls, text_cut t ls -> exit_status dangerous t = 0 <-> clean dangerous ls.
Proof. exact lint_passes. Qed.
Print Assumptions C67_passes.
(* ... and when it says that the policy contains dangerous calls *)
Theorem C67_mentions : forall dangerous t ls, text_cut t ls -> l_dangerous (check_seccomp_policy dangerous t) = true <-> names_dangerous dangerous ls.
Proof. exact lint_danger. Qed.
Print Assumptions C67_mentions.
(* ... and both from the command line *)
Theorem C67_tool : forall o l t ls, asked o l -> text_cut t ls ->
  (lint_main o t = 0 <-> clean l ls) /\ (l_dangerous (check_seccomp_policy (dangerous_of o) t) = true <-> names_dangerous l ls).
Proof. exact lint_tool. Qed.
Print Assumptions C67_tool.
Example C67_tool_case : asked (Some "read,clone") ["read"; "clone"] /\ lint_main (Some "read,clone") ("read: 1" ++ nl) = 1 /\ lint_main None ("read: 1" ++ nl) = 0 /\ lint_main None ("bpf: 1" ++ nl) = 1.
Proof. exact given_asked. Qed.
(* A filter that minijail0 compiles from a policy that passes lets a dangerous
   call through only if a comment comes before its rule, or its arguments are
   harmless.  Missing: continuation lines and included files, for which this is
   refuted below. *)
Theorem C67_c_partial : forall a b fo, arch_bits (pa_arch a) = 32 \/ arch_bits (pa_arch a) = 64 -> same_tables b a -> M_Bpf.little (M_Filter.b_plat b) = true ->
  word_table (pa_syscalls a) -> kernel_constants a ->
  forall dangerous fs t ls n prog d v, lines_of t ls -> Forall tame_line ls -> exit_status dangerous t = 0 ->
  M_Filter.compile_filter b fo fs (Some (M_Lines.Stream t false)) = M_Filter.COk prog -> M_Filter.fo_action fo <> M_Filter.ACT_LOG ->
  sd_ok d -> ~ allowed_by_option b fo (sd_nr d) -> In n dangerous -> first_entry (pa_syscalls a) n (sd_nr d) ->
  run true prog d = VRet v -> v = ALLOW \/ v = LOG -> justified ls n \/ harmless (arch_bits (pa_arch a)) n d.
Proof. exact lint_c. Qed.
Print Assumptions C67_c_partial.
(* From a policy said to contain no dangerous calls, none gets through. *)
Theorem C67_none_partial : forall a b fo, arch_bits (pa_arch a) = 32 \/ arch_bits (pa_arch a) = 64 -> same_tables b a -> M_Bpf.little (M_Filter.b_plat b) = true ->
  word_table (pa_syscalls a) ->
  forall dangerous fs t ls n prog d v, lines_of t ls -> Forall tame_line ls -> l_dangerous (check_seccomp_policy dangerous t) = false ->
  M_Filter.compile_filter b fo fs (Some (M_Lines.Stream t false)) = M_Filter.COk prog -> M_Filter.fo_action fo <> M_Filter.ACT_LOG ->
  sd_ok d -> ~ allowed_by_option b fo (sd_nr d) -> In n dangerous -> first_entry (pa_syscalls a) n (sd_nr d) ->
  run true prog d = VRet v -> v <> ALLOW /\ v <> LOG.
Proof. exact lint_none. Qed.
Print Assumptions C67_none_partial.
(* The same for compile_seccomp_policy.py and the policies that both compilers
   take.  Missing: the rest of its language, for which it is refuted below. *)
Theorem C67_python_partial : forall a p, common_ok a p -> arch_bits (pa_arch a) = 32 \/ arch_bits (pa_arch a) = 64 ->
  kernel_constants a -> Forall (fun e => plain_name (fst e)) (pa_constants a) ->
  forall dangerous o resolve text file n prog d v, word_table (pa_syscalls a) -> tables_ok a -> options_ok o -> o_denylist o = false -> o_ret_log o = false ->
  text file = Some (policy_text p) -> compile_text a o resolve text file = Some prog -> py_default o <> ALLOW -> py_default o <> LOG ->
  exit_status dangerous (policy_text p) = 0 -> sd_ok d -> sd_arch d = arch_nr (pa_arch a) -> In n dangerous -> first_entry (pa_syscalls a) n (sd_nr d) ->
  run true prog d = VRet v -> v = ALLOW \/ v = LOG -> justified (map line_text p) n \/ harmless (arch_bits (pa_arch a)) n d.
Proof. exact lint_python. Qed.
Print Assumptions C67_python_partial.
Example C67_case_text : policy_text sample =
  "# runs a shell" ++ nl ++ nl ++ "execve: 1" ++ nl ++ "read: 1" ++ nl ++ "clone: return 1" ++ nl ++ "mmap: arg2 in ~PROT_EXEC || arg2 in ~PROT_WRITE" ++ nl.
Proof. exact sample_policy. Qed.
Example C67_case : kernel_constants desk /\ same_tables c_desk desk /\ word_table (pa_syscalls desk) /\ tables_ok desk /\ options_ok strict /\ common_ok desk sample /\
  lines_of (policy_text sample) sample_lines /\ Forall tame_line sample_lines /\ M_Filter.fo_action c_opts <> M_Filter.ACT_LOG /\ py_default strict <> ALLOW /\ py_default strict <> LOG.
Proof. exact desk_case. Qed.
Example C67_case_passes : (exit_status DANGEROUS_SYSCALLS (lines_text sample_lines), l_dangerous (check_seccomp_policy DANGEROUS_SYSCALLS (lines_text sample_lines))) = (0, true).
Proof. exact sample_passes. Qed.
Example C67_case_justified : justified sample_lines "execve".
Proof. exact sample_justified. Qed.
Example C67_case_runs :
  map (fun d => (desk_run c_none (lines_text sample_lines) d, desk_py (lines_text sample_lines) d)) [call3 59 0 0 0; call3 56 0 0 0; call3 9 0 4096 5; call3 9 0 4096 7; call3 16 0 0 0] =
  [(Some (VRet ALLOW), Some (VRet ALLOW)); (Some (VRet (ERRNO 1)), Some (VRet (ERRNO 1))); (Some (VRet ALLOW), Some (VRet ALLOW));
   (Some (VRet KILL_PROCESS), Some (VRet KILL_PROCESS)); (Some (VRet KILL_PROCESS), Some (VRet KILL_PROCESS))].
Proof. exact sample_runs. Qed.
Example C67_case_fails : exit_status DANGEROUS_SYSCALLS ("read: 1" ++ nl ++ "clone: 1" ++ nl ++ "read: 1" ++ nl) = 1 /\
  l_errors (check_seccomp_policy DANGEROUS_SYSCALLS ("read: 1" ++ nl ++ "clone: 1" ++ nl ++ "read: 1" ++ nl)) = [Error 1 "clone" NeedsComment; Error 2 "read" Duplicate].
Proof. exact broken_fails. Qed.
(* A name and its colon on two lines: the linter says that there is no
   dangerous call, and both compilers allow it. *)
Theorem C67_continuation_refuted : pass ("clone \" ++ nl ++ ": 1" ++ nl) = (0, false) /\
  desk_run c_none ("clone \" ++ nl ++ ": 1" ++ nl) (call3 56 0 0 0) = Some (VRet ALLOW) /\ desk_py ("clone \" ++ nl ++ ": 1" ++ nl) (call3 56 0 0 0) = Some (VRet ALLOW).
Proof. exact continued_passes. Qed.
Print Assumptions C67_continuation_refuted.
(* Included files are not looked at. *)
Theorem C67_include_refuted : pass ("@include ./more.policy" ++ nl) = (0, false) /\ desk_run more ("@include ./more.policy" ++ nl) (call3 56 0 0 0) = Some (VRet ALLOW).
Proof. exact including_passes. Qed.
Print Assumptions C67_include_refuted.
(* Neither are several calls in one rule, nor calls with an architecture. *)
Theorem C67_several_refuted : pass ("{clone, execve}: 1" ++ nl) = (0, false) /\ desk_py ("{clone, execve}: 1" ++ nl) (call3 56 0 0 0) = Some (VRet ALLOW).
Proof. exact together_passes. Qed.
Print Assumptions C67_several_refuted.
Theorem C67_architecture_refuted : pass ("clone[arch=x86_64]: 1" ++ nl) = (0, false) /\ desk_py ("clone[arch=x86_64]: 1" ++ nl) (call3 56 0 0 0) = Some (VRet ALLOW).
Proof. exact for_arch_passes. Qed.
Print Assumptions C67_architecture_refuted.
(* A space after a safe rule makes it one to complain about. *)
Theorem C67_space_refuted : check_seccomp_policy DANGEROUS_SYSCALLS ("mmap: arg2 in ~PROT_EXEC " ++ nl) = Lint ["mmap"] [Error 0 "mmap" (UseRules MAP_RULES)] true false.
Proof. exact spaced_fails. Qed.
Print Assumptions C67_space_refuted.
