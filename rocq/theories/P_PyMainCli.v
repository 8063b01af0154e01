(* Runs of compile_seccomp_policy.py, and its output given to minijail0. *)
From Verif Require Import P_CliRunEx P_DumpCli.
From Verif Require Import P_Dump P_PyTextEx P_PyMain.
From Coq Require Import Lia.
Local Open Scope N_scope.

Section Given.
  Variables (pw : py_world) (c : py_line) (a : parch) (path : string) (bytes : list N).
  Hypothesis OL : one_line c.
  Hypothesis HE : c_header c = false.
  Hypothesis D : py_main pw c = Y_done path bytes.
  Hypothesis A : y_arch pw = Some a.
  Hypothesis TO : tables_ok a.
  Lemma py_file w p : y_little pw = h_little (w_host w) -> w_bytes w p = Some bytes ->
    exists o prog, asked pw c a o /\ means pw a o (policy_name c) prog /\ S_CliCalls.filter_file w p prog /\ prog <> [].
  Proof.
    intros HL B. destruct (main_done _ _ _ _ OL D) as (a' & o & prog & A' & AS & C & F & [(_ & _ & X)|(X & _)]); [|rewrite HE in X; discriminate X].
    rewrite A in A'. injection A' as <-. exists o, prog. split; [exact AS|]. split; [exact (compiled_means _ _ _ _ _ TO (asked_ok _ _ _ _ AS) C)|].
    split; [|exact (compiled_some _ _ _ _ _ _ C)]. split; [|exact F]. rewrite B, X. unfold program. f_equal. f_equal. apply map_ext_in. intros i Hi. apply same_bytes; [exact (eq_sym HL)|].
    rewrite Forall_forall in F. exact (F i Hi).
  Qed.
  Lemma py_installed w pre opts args s g ec ep t1 t2 envp envp' p : let L := all_options w opts in
    y_little pw = h_little (w_host w) -> w_bytes w p = Some bytes ->
    minijail0 w pre opts args = Go s -> well_formed w L -> g_env g = w_env w -> k_softfail (w_env w) = false -> g_asan g = false ->
    launched g ec ep (c_calls (st_cli s)) (c_jail (st_cli s)) t1 t2 envp envp' -> last_arg L OPT_SECCOMP_BPF_BINARY = Some (Some p) ->
    exists o prog, asked pw c a o /\ installed prog t2 /\ means pw a o (policy_name c) prog.
  Proof.
    cbv zeta. intros HL B E W G K AS R LA. destruct (py_file w p HL B) as (o & prog & O & M & F & NE).
    destruct (cli_file w pre opts args s E W K g G AS ec ep t1 t2 envp envp' R p (or_introl LA)) as (prog' & F' & IN).
    rewrite (filter_file_one w p prog' prog F' F) in IN. exists o, prog. split; [exact O|]. split; [exact (IN NE)|exact M].
  Qed.
  Lemma py_installed_static w pre opts args s g ec exec t p : let L := all_options w opts in
    y_little pw = h_little (w_host w) -> w_bytes w p = Some bytes ->
    minijail0 w pre opts args = Go s -> well_formed w L -> g_env g = w_env w -> k_softfail (w_env w) = false -> g_asan g = false ->
    launched_plain g ec exec (c_calls (st_cli s)) (c_jail (st_cli s)) t -> last_arg L OPT_SECCOMP_BPF_BINARY = Some (Some p) ->
    exists o prog, asked pw c a o /\ installed prog t /\ means pw a o (policy_name c) prog.
  Proof.
    cbv zeta. intros HL B E W G K AS R LA. destruct (py_file w p HL B) as (o & prog & O & M & F & NE).
    destruct (plain_cli_file w pre opts args s E W K g G AS ec exec t R p (or_introl LA)) as (prog' & F' & IN).
    rewrite (filter_file_one w p prog' prog F' F) in IN. exists o, prog. split; [exact O|]. split; [exact IN|exact M].
  Qed.
End Given.

(* ---- runs ---- *)
Definition py_disk (text : string -> option string) : py_world := PyWorld (Some pc) false same_dir text 900 true (fun _ => true) (@length N).
Definition py_args (header : bool) : py_line := PyLine BST None false (Some "trap"%string) true false header "p" "/tmp/py".
Definition py_prog : list instr := match compile_text pc (POpts RET_KILL_PROCESS false false 8 (Some RET_TRAP) BST) same_dir files "p" with Some p => p | None => [] end.
Lemma py_runs : py_main (py_disk files) (py_args false) = Y_done "/tmp/py" (program (py_disk files) py_prog) /\ length (program (py_disk files) py_prog) = 296%nat.
Proof. split; vm_compute; reflexivity. Qed.
Lemma py_runs_header : py_main (py_disk files) (py_args true) = Y_done "/tmp/py.h" (codes (header "/tmp/py" (program (py_disk files) py_prog))).
Proof. vm_compute. reflexivity. Qed.
Lemma py_line_ok h : one_line (py_args h).
Proof. intros s [= <-]. apply in_text. vm_compute. repeat split; discriminate. Qed.
Lemma py_asked h : asked (py_disk files) (py_args h) pc (POpts RET_KILL_PROCESS false false 8 (Some RET_TRAP) BST).
Proof. apply options_asked; [apply py_line_ok|]. vm_compute. reflexivity. Qed.
Definition py_cli_world : world := with_bytes ex_world (fun p => if (p =? "/tmp/app.bin")%string then Some (program (py_disk files) py_prog) else w_bytes ex_world p).
Definition py_start : start :=
  match minijail0 py_cli_world "/lib/p.so" bin_opts ["/bin/static"%string] with Go s => s | _ => Start (cli_start EmptyString) false None end.
Definition py_trace : list event := snd (M_Io.run P_EnterEx.ex_kernel [] (run_child ex_cfg false (with_ruleset (w_env ex_world) (c_jail (st_cli py_start))))).
Lemma py_goes : minijail0 py_cli_world "/lib/p.so" bin_opts ["/bin/static"%string] = Go py_start.
Proof. vm_compute. reflexivity. Qed.
Lemma py_bytes : N.of_nat (length (program (py_disk files) py_prog)) < 8 * 65536 /\ Forall (fun x => x < 256) (program (py_disk files) py_prog).
Proof.
  split; [vm_compute; reflexivity|]. assert (F : forallb (fun x => x <? 256) (program (py_disk files) py_prog) = true) by (vm_compute; reflexivity).
  rewrite forallb_forall in F. apply Forall_forall. intros x Hx. apply N.ltb_lt, F, Hx.
Qed.
Lemma py_files : files_ok py_cli_world.
Proof.
  intros p b. unfold py_cli_world, with_bytes. cbn [w_bytes]. destruct (p =? "/tmp/app.bin")%string; [|exact (world_files p b)].
  pose proof py_bytes as X. revert X. generalize (program (py_disk files) py_prog). intros l X E. injection E as <-. exact X.
Qed.
Lemma py_formed : well_formed py_cli_world (all_options py_cli_world bin_opts).
Proof.
  split; [discriminate|]. split; [exact world_names|]. split.
  - match goal with |- Forall _ ?l => let v := eval vm_compute in l in change l with v end.
    repeat apply Forall_cons; try apply Forall_nil; intros x EA; try discriminate EA; injection EA as <-; (split; [|split; [|split]]);
      intros H; try (exfalso; revert H; clear; vm_compute; intuition discriminate);
      first [number | split; [discriminate|number] | exact limits_case].
  - split; [|exact py_files]. split; intros [x H]; exfalso; revert H; vm_compute; intuition discriminate.
Qed.
Lemma py_case : launched_plain ex_cfg (w_env py_cli_world) true (c_calls (st_cli py_start)) (c_jail (st_cli py_start)) py_trace.
Proof.
  split; [exact (jail_built py_cli_world _ _ _ _ py_goes)|]. split; [reflexivity|]. split; [vm_compute; reflexivity|].
  exists P_EnterEx.ex_kernel. vm_compute. reflexivity.
Qed.
Lemma py_last : last_arg (all_options py_cli_world bin_opts) OPT_SECCOMP_BPF_BINARY = Some (Some "/tmp/app.bin"%string).
Proof. vm_compute. reflexivity. Qed.

(* ---- what the help does not say ---- *)
(* a chain of included files: "p" includes "q", and so on *)
Definition chain : string -> option string := fun f =>
  if (f =? "p")%string then Some ("@include ./q" ++ nl ++ "read: 1" ++ nl)%string else if (f =? "./q")%string then Some ("@include ./r" ++ nl)%string
  else if (f =? "./r")%string then Some ("@include ./s" ++ nl)%string else if (f =? "./s")%string then Some ("write: 1" ++ nl)%string else None.
Definition limited (n : string) : py_line := PyLine BST (Some n) false None false false false "p" "/tmp/py".
Lemma limit_ignored w c s s' : py_main w (PyLine (c_strategy c) (Some s) (c_denylist c) (c_default c) (c_kill_process c) (c_ret_log c) (c_header c) (c_policy c) (c_output c)) =
  py_main w (PyLine (c_strategy c) (Some s') (c_denylist c) (c_default c) (c_kill_process c) (c_ret_log c) (c_header c) (c_policy c) (c_output c)).
Proof. reflexivity. Qed.
Lemma chain_accepted : exists content, py_main (py_disk chain) (limited "2") = Y_done "/tmp/py" content /\
  compile_text pc (POpts RET_KILL_THREAD false false 0 None BST) same_dir chain "p" = None.
Proof. eexists. split; [vm_compute; reflexivity|vm_compute; reflexivity]. Qed.
Definition out_prog (o : popts) (t : string) : list instr := match compile_text pc o same_dir (alone t) "p" with Some p => p | None => [] end.
Definition log_line : py_line := PyLine BST None false None false true false "p" "/tmp/py".
Lemma log_kills : let o := POpts RET_LOG false true 8 None BST in let t := ("read: kill-process" ++ nl ++ "@default trap" ++ nl)%string in
  asked (py_disk (alone t)) log_line pc o /\ py_main (py_disk (alone t)) log_line = Y_done "/tmp/py" (program (py_disk (alone t)) (out_prog o t)) /\
  run true (out_prog o t) (call3 0 0 0 0) = VRet KILL_PROCESS /\ run true (out_prog o t) (call3 1 0 0 0) = VRet TRAP.
Proof. cbv zeta. split; [apply options_asked; [intros s X; discriminate X|vm_compute; reflexivity]|]. split; [vm_compute; reflexivity|]. split; vm_compute; reflexivity. Qed.
Definition deny_line : py_line := PyLine BST None true (Some "kill-process"%string) false false false "p" "/tmp/py".
Lemma deny_allows : let o := POpts (N.lor RET_ERRNO 1) true false 8 (Some RET_KILL_PROCESS) BST in let t := ("@denylist" ++ nl ++ "read: return EPERM" ++ nl)%string in
  asked (py_disk (alone t)) deny_line pc o /\ py_main (py_disk (alone t)) deny_line = Y_done "/tmp/py" (program (py_disk (alone t)) (out_prog o t)) /\
  run true (out_prog o t) (call3 1 0 0 0) = VRet ALLOW.
Proof.
  cbv zeta. split; [apply options_asked; [|vm_compute; reflexivity]; intros s [= <-]; apply in_text; vm_compute; repeat split; discriminate|].
  split; vm_compute; reflexivity.
Qed.
Lemma rejected_case : let w := py_disk (alone "read 1") in let o := POpts RET_KILL_PROCESS false false 8 (Some RET_TRAP) BST in
  asked w (py_args false) pc o /\ compile_text pc o (y_resolve w) (y_text w) (policy_name (py_args false)) = None.
Proof. cbv zeta. split; [apply options_asked; [apply py_line_ok|vm_compute; reflexivity]|vm_compute; reflexivity]. Qed.
Definition page_opts : popts := POpts RET_KILL_PROCESS false false 8 (Some RET_TRAP) BST.
Lemma page_accepts_case : says pc page_opts (y_resolve (py_disk files)) (y_text (py_disk files)) nothing (policy_name (py_args false)) (Act 1 RET_TRAP) page_statements /\
  one_name page_statements /\ six_arguments page_statements /\ settled page_statements /\
  (forall prog, compile_text pc page_opts (y_resolve (py_disk files)) (y_text (py_disk files)) (policy_name (py_args false)) = Some prog -> (length prog <= 4096)%nat).
Proof.
  destruct page_case as (_ & _ & _ & _ & ON & SA & ST & _). split; [|split; [exact ON|split; [exact SA|split; [exact ST|]]]].
  - eapply says_strictly; [vm_compute; reflexivity|vm_compute; reflexivity|reflexivity|]. cbn [ct_statements]. same_values.
  - intros prog H. assert (X : Some prog = Some py_prog) by (rewrite <- H; vm_compute; reflexivity). assert (E : prog = py_prog) by exact (f_equal (fun x => match x with Some q => q | None => prog end) X). clear X H. rewrite E. clear E prog. apply Nat.leb_le. vm_compute. reflexivity.
Qed.
