(* Property theorems: the two compilers on the same policy (C64). *)
From Verif Require Import P_CStr P_Const S_Policy S_PyPolicy P_PyFile P_PyEx.
From Verif Require Import M_PyParse S_PyText P_PyLex P_PyGram P_PyStmt P_PyText P_PyMean P_PyTextEx S_Common P_CommonPy P_CommonC P_Common P_CommonEx S_Accept P_CommonFit.
Local Open Scope N_scope.
Local Open Scope string_scope.

(* C64: a policy of rules "1", "return CONSTANT" and conditions, with comments
   and blank lines, means the same to the parser of minijail0 and to
   compile_seccomp_policy.py: each decides every call as the policy says. *)
Theorem C64_c_decides : forall a p, common_ok a p -> (arch_bits (pa_arch a) = 32 \/ arch_bits (pa_arch a) = 64) ->
  forall b fo fs prog, same_tables b a -> M_Bpf.little (M_Filter.b_plat b) = true ->
  M_Filter.compile_filter b fo fs (Some (M_Lines.Stream (policy_text p) false)) = M_Filter.COk prog ->
  forall d, sd_ok d -> sd_arch d = M_Bpf.arch_no (M_Filter.b_plat b) -> ~ allowed_by_option b fo (sd_nr d) ->
  run true prog d = VRet (common_decision (arch_bits (pa_arch a)) (action_value (M_Filter.fo_action fo)) p d).
Proof. exact c_answers. Qed.
Print Assumptions C64_c_decides.
Theorem C64_python_decides : forall a p, common_ok a p -> (arch_bits (pa_arch a) = 32 \/ arch_bits (pa_arch a) = 64) ->
  forall o resolve text file, tables_ok a -> options_ok o -> o_denylist o = false -> o_ret_log o = false ->
  text file = Some (policy_text p) -> forall prog d, compile_text a o resolve text file = Some prog ->
  sd_ok d -> sd_arch d = arch_nr (pa_arch a) ->
  run true prog d = VRet (common_decision (arch_bits (pa_arch a)) (py_default o) p d).
Proof. exact py_answers. Qed.
Print Assumptions C64_python_decides.
Theorem C64_agree_partial : forall a b fo o fs resolve text file p prog prog' d,
  tables_ok a -> same_tables b a -> M_Bpf.little (M_Filter.b_plat b) = true ->
  options_ok o -> o_denylist o = false -> o_ret_log o = false -> py_default o = action_value (M_Filter.fo_action fo) ->
  common_ok a p ->
  M_Filter.compile_filter b fo fs (Some (M_Lines.Stream (policy_text p) false)) = M_Filter.COk prog ->
  text file = Some (policy_text p) -> compile_text a o resolve text file = Some prog' ->
  sd_ok d -> sd_arch d = arch_nr (pa_arch a) -> ~ allowed_by_option b fo (sd_nr d) ->
  run true prog d = run true prog' d.
Proof. exact compilers_agree. Qed.
Print Assumptions C64_agree_partial.
(* The Python compiler takes all of these policies. *)
Theorem C64_python_compiles : forall a p, common_ok a p -> (arch_bits (pa_arch a) = 32 \/ arch_bits (pa_arch a) = 64) ->
  forall o resolve text file, tables_ok a -> options_ok o -> o_denylist o = false -> o_ret_log o = false ->
  text file = Some (policy_text p) ->
  exists prog, compile_text a o resolve text file = Some prog /\ ((length prog <= 4096)%nat -> kernel_accepts prog).
Proof. exact py_compiles. Qed.
Print Assumptions C64_python_compiles.
(* The C compiler takes them while there is room. *)
Theorem C64_c_compiles : forall a fo b fs p, common_ok a p -> same_tables b a -> syscall_table (pa_syscalls a) ->
  (M_Filter.fo_action fo = M_Filter.ACT_LOG -> M_Filter.fo_allow_logging fo = true) ->
  has_room (length (M_Filter.b_log b) + length (M_Filter.b_libc b)) p ->
  exists prog, M_Filter.compile_filter b fo fs (Some (M_Lines.Stream (policy_text p) false)) = M_Filter.COk prog.
Proof. exact c_compiles. Qed.
Print Assumptions C64_c_compiles.
Example C64_room : common_ok pc both /\ same_tables c_pc pc /\ syscall_table (pa_syscalls pc) /\
  has_room (length (M_Filter.b_log c_pc) + length (M_Filter.b_libc c_pc)) both.
Proof. exact compiles_case. Qed.
Example C64_text : policy_text both =
  "# both compilers" ++ nl ++ nl ++ "read: 1" ++ nl ++
  "write: arg0 == 1 || arg0 == 0x2 && arg2 in PROT_EXEC|010" ++ nl ++ "open: return EACCES" ++ nl ++
  "kill: arg1 != -1 && arg0 in ~PROT_EXEC" ++ nl.
Proof. exact both_text. Qed.
Example C64_case : tables_ok pc /\ same_tables c_pc pc /\ options_ok strict /\ py_default strict = action_value (M_Filter.fo_action c_opts) /\ common_ok pc both /\
  (forall nr, ~ allowed_by_option c_pc c_opts nr) /\
  exists prog prog', M_Filter.compile_filter c_pc c_opts c_none (Some (M_Lines.Stream (policy_text both) false)) = M_Filter.COk prog /\
  compile_text pc strict same_dir (alone (policy_text both)) "p" = Some prog' /\
  run true prog (call3 1 2 0 12) = VRet ALLOW /\ run true prog' (call3 1 2 0 12) = VRet ALLOW /\
  run true prog (call3 1 2 0 16) = VRet KILL_PROCESS /\ run true prog' (call3 1 2 0 16) = VRet KILL_PROCESS /\
  run true prog (call3 2 0 0 0) = VRet (ERRNO 13) /\ run true prog' (call3 2 0 0 0) = VRet (ERRNO 13).
Proof. exact both_case. Qed.
(* Other texts mean different things: a condition with a return allows when it
   holds to the one and denies when it holds to the other; a comment that ends
   in a backslash swallows the next rule to the one only. *)
Theorem C64_return_refuted :
  differ ("read: arg0 == 0; return EBADF" ++ nl) (call3 0 0 0 0) ALLOW (ERRNO 9) /\
  differ ("read: arg0 == 0; return EBADF" ++ nl) (call3 0 1 0 0) (ERRNO 9) KILL_PROCESS.
Proof. exact return_differs. Qed.
Print Assumptions C64_return_refuted.
Theorem C64_comment_refuted : differ ("# c \" ++ nl ++ "read: 1" ++ nl) (call3 0 0 0 0) KILL_PROCESS ALLOW.
Proof. exact comment_differs. Qed.
Print Assumptions C64_comment_refuted.
