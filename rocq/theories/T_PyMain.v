(* Property theorems: what compile_seccomp_policy.py writes (C83). *)
From Verif Require Import P_CliRunEx P_DumpCli.
From Verif Require Import P_Dump P_PyTextEx P_PyMain P_PyMainCli.
Local Open Scope N_scope.

(* ---- C83: from the command line of the compiler to the filter ----
   When it exits with status 0, the output has a filter for the policy with the
   options that the command line (and MINIJAIL_DEFAULT_RET_LOG) asks for: what
   "kill" means, the default action, the denylist; the filter decides as the
   text says, with the exceptions of C63.  A header has the same bytes. *)
Theorem C83_written_partial : forall w c a path content, one_line c -> py_main w c = Y_done path content -> y_arch w = Some a -> tables_ok a ->
  exists o prog, asked w c a o /\ means w a o (policy_name c) prog /\
    let bytes := concat (map (M_Dump.dump_instr (y_little w)) prog) in
    (c_header c = false -> path = c_output c /\ content = bytes) /\
    (c_header c = true -> path = (c_output c ++ ".h")%string /\ content = codes (header (c_output c) bytes)).
Proof. exact main_written. Qed.
Print Assumptions C83_written_partial.
(* Nothing else is written, and nothing at all if the policy does not compile. *)
Theorem C83_rejected : forall w c a o, one_line c -> c_limit c = None -> y_arch w = Some a -> asked w c a o ->
  compile_text a o (y_resolve w) (y_text w) (policy_name c) = None -> py_main w c = Y_failed None.
Proof. exact main_rejects. Qed.
Print Assumptions C83_rejected.
(* Every policy that says something, settles each system call and has a filter
   that the kernel takes is accepted. *)
Theorem C83_accepts_partial : forall w c a o default ss, one_line c -> c_limit c = None -> y_arch w = Some a -> tables_ok a -> asked w c a o ->
  says a o (y_resolve w) (y_text w) nothing (policy_name c) default ss -> one_name ss -> six_arguments ss -> settled ss ->
  (forall prog, compile_text a o (y_resolve w) (y_text w) (policy_name c) = Some prog -> (length prog <= 4096)%nat) ->
  (forall p, y_opens w p = true) -> (forall l, (length l <= y_arrives w l)%nat) -> exists path content, py_main w c = Y_done path content.
Proof. exact main_takes. Qed.
Print Assumptions C83_accepts_partial.
(* Headers for the same name are the same only for the same filter. *)
Theorem C83_header : forall name b b', codes (header name b) = codes (header name b') -> b = b'.
Proof. intros name b b' H. exact (header_inj name b b' (codes_inj _ _ H)). Qed.
Print Assumptions C83_header.
(* The output, given to minijail0 --seccomp-bpf-binary: the program runs under
   a filter that decides as the text says.  Partial: as C60 and C63. *)
Theorem C83_enforced_partial : forall pw c a path bytes w pre opts args s g ec ep t1 t2 envp envp' p, let L := all_options w opts in
  one_line c -> c_header c = false -> py_main pw c = Y_done path bytes -> y_arch pw = Some a -> tables_ok a ->
  y_little pw = h_little (w_host w) -> w_bytes w p = Some bytes ->
  minijail0 w pre opts args = Go s -> well_formed w L -> g_env g = w_env w -> k_softfail (w_env w) = false -> g_asan g = false ->
  launched g ec ep (c_calls (st_cli s)) (c_jail (st_cli s)) t1 t2 envp envp' -> last_arg L OPT_SECCOMP_BPF_BINARY = Some (Some p) ->
  exists o prog, asked pw c a o /\ installed prog t2 /\ means pw a o (policy_name c) prog.
Proof.
  intros pw c a path bytes w pre opts args s g ec ep t1 t2 envp envp' p L OL HE D A TO.
  exact (py_installed pw c a path bytes OL HE D A TO w pre opts args s g ec ep t1 t2 envp envp' p).
Qed.
Print Assumptions C83_enforced_partial.
Theorem C83_enforced_static_partial : forall pw c a path bytes w pre opts args s g ec exec t p, let L := all_options w opts in
  one_line c -> c_header c = false -> py_main pw c = Y_done path bytes -> y_arch pw = Some a -> tables_ok a ->
  y_little pw = h_little (w_host w) -> w_bytes w p = Some bytes ->
  minijail0 w pre opts args = Go s -> well_formed w L -> g_env g = w_env w -> k_softfail (w_env w) = false -> g_asan g = false ->
  launched_plain g ec exec (c_calls (st_cli s)) (c_jail (st_cli s)) t -> last_arg L OPT_SECCOMP_BPF_BINARY = Some (Some p) ->
  exists o prog, asked pw c a o /\ installed prog t /\ means pw a o (policy_name c) prog.
Proof.
  intros pw c a path bytes w pre opts args s g ec exec t p L OL HE D A TO.
  exact (py_installed_static pw c a path bytes OL HE D A TO w pre opts args s g ec exec t p).
Qed.
Print Assumptions C83_enforced_static_partial.

(* Findings.  The number given with --include-depth-limit is not looked at, and
   giving one switches the limit off: with "2" files are included three deep,
   where the limit 2 allows none. *)
Theorem C83_limit_refuted :
  (forall w c s s', py_main w (PyLine (c_strategy c) (Some s) (c_denylist c) (c_default c) (c_kill_process c) (c_ret_log c) (c_header c) (c_policy c) (c_output c)) =
     py_main w (PyLine (c_strategy c) (Some s') (c_denylist c) (c_default c) (c_kill_process c) (c_ret_log c) (c_header c) (c_policy c) (c_output c))) /\
  exists content, py_main (py_disk chain) (limited "2") = Y_done "/tmp/py" content /\
    compile_text pc (POpts KILL_THREAD false false 0 None BST) same_dir chain "p" = None.
Proof. split; [exact limit_ignored|exact chain_accepted]. Qed.
Print Assumptions C83_limit_refuted.
(* --use-ret-log, "change all seccomp failures to return SECCOMP_RET_LOG
   instead of killing": not those of kill-process or trap in the policy. *)
Theorem C83_log_refuted : let o := POpts LOG false true 8 None BST in let t := ("read: kill-process" ++ nl ++ "@default trap" ++ nl)%string in
  asked (py_disk (alone t)) log_line pc o /\ py_main (py_disk (alone t)) log_line = Y_done "/tmp/py" (program (py_disk (alone t)) (out_prog o t)) /\
  run true (out_prog o t) (call3 0 0 0 0) = VRet KILL_PROCESS /\ run true (out_prog o t) (call3 1 0 0 0) = VRet TRAP.
Proof. exact log_kills. Qed.
Print Assumptions C83_log_refuted.
(* --default-action kill-process with --denylist: system calls that the policy
   does not mention are allowed. *)
Theorem C83_denylist_refuted : let o := POpts (ERRNO 1) true false 8 (Some KILL_PROCESS) BST in let t := ("@denylist" ++ nl ++ "read: return EPERM" ++ nl)%string in
  asked (py_disk (alone t)) deny_line pc o /\ py_main (py_disk (alone t)) deny_line = Y_done "/tmp/py" (program (py_disk (alone t)) (out_prog o t)) /\
  run true (out_prog o t) (call3 1 0 0 0) = VRet ALLOW.
Proof. exact deny_allows. Qed.
Print Assumptions C83_denylist_refuted.

Example C83_case : forall h, one_line (py_args h) /\ asked (py_disk files) (py_args h) pc (POpts KILL_PROCESS false false 8 (Some TRAP) BST) /\ tables_ok pc /\
  py_main (py_disk files) (py_args false) = Y_done "/tmp/py" (program (py_disk files) py_prog) /\ length (program (py_disk files) py_prog) = 296%nat /\
  py_main (py_disk files) (py_args true) = Y_done "/tmp/py.h" (codes (header "/tmp/py" (program (py_disk files) py_prog))).
Proof. intros h. split; [apply py_line_ok|]. split; [apply py_asked|]. split; [exact pc_ok|]. split; [exact (proj1 py_runs)|]. split; [exact (proj2 py_runs)|exact py_runs_header]. Qed.
Example C83_rejected_case : let w := py_disk (alone "read 1") in let o := POpts KILL_PROCESS false false 8 (Some TRAP) BST in
  asked w (py_args false) pc o /\ compile_text pc o (y_resolve w) (y_text w) (policy_name (py_args false)) = None.
Proof. exact rejected_case. Qed.
Example C83_enforced_case : y_little (py_disk files) = h_little (w_host py_cli_world) /\ w_bytes py_cli_world "/tmp/app.bin" = Some (program (py_disk files) py_prog) /\
  minijail0 py_cli_world "/lib/p.so" bin_opts ["/bin/static"%string] = Go py_start /\ well_formed py_cli_world (all_options py_cli_world bin_opts) /\
  launched_plain ex_cfg (w_env py_cli_world) true (c_calls (st_cli py_start)) (c_jail (st_cli py_start)) py_trace /\
  last_arg (all_options py_cli_world bin_opts) OPT_SECCOMP_BPF_BINARY = Some (Some "/tmp/app.bin"%string).
Proof. split; [reflexivity|]. split; [reflexivity|]. split; [exact py_goes|]. split; [exact py_formed|]. split; [exact py_case|exact py_last]. Qed.
Example C83_accepts_case : says pc page_opts (y_resolve (py_disk files)) (y_text (py_disk files)) nothing (policy_name (py_args false)) (Act 1 TRAP) page_statements /\
  one_name page_statements /\ six_arguments page_statements /\ settled page_statements /\
  (forall prog, compile_text pc page_opts (y_resolve (py_disk files)) (y_text (py_disk files)) (policy_name (py_args false)) = Some prog -> (length prog <= 4096)%nat).
Proof. exact page_accepts_case. Qed.
