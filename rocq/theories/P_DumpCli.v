(* A filter dumped by parse_seccomp_policy and given to minijail0. *)
From Verif Require Export P_CliRunEx.
From Verif Require Import P_DumpEx.
From Coq Require Import Lia.
Local Open Scope N_scope.

Section Given.
  Variables (dw : dump_world) (c : dump_line) (q : option string) (f : stream) (pol : policy) (bytes : list N).
  Hypothesis KE : arch_no (b_plat (d_build dw)) < 2 ^ 32 /\ Forall (fun e => snd e < 2 ^ 32) (b_syscalls (d_build dw)).
  Hypothesis LI : little (b_plat (d_build dw)) = true.
  Hypothesis NM : names_ok (b_consts (d_build dw)).
  Hypothesis D : dump_main dw c = (D_exits 0, Out_bytes q bytes).
  Hypothesis KEPT : forall l, (length l <= d_kept dw l)%nat.
  Hypothesis PI : policy_input dw c f.
  Hypothesis RP : reads_policy (d_build dw) (plain_opts dw) (d_files dw) f pol.
  Hypothesis AR : args_in_range pol.

  Lemma input_one g : policy_input dw c g -> g = f.
  Proof. intros H. apply input_spec in H. pose proof (proj2 (input_spec dw c f) PI) as X. rewrite H in X. injection X as X. exact X. Qed.
  Lemma given_file w p : h_little (w_host w) = true -> w_bytes w p = Some bytes ->
    exists prog, S_CliCalls.filter_file w p prog /\ decides dw f prog /\ prog <> [].
  Proof.
    intros HL B. destruct (dump_exits dw c 0 _ D) as (_ & [[_ X]|(NH & f' & prog & I0 & C & [[_ X]|(_ & path & X & _)])]); [discriminate X|discriminate X|].
    rewrite (input_one _ I0) in C. clear f' I0. injection X as <- X. rewrite firstn_all2 in X by apply KEPT. subst bytes.
    pose proof (compile_filter_kernel _ _ LI NM (proj1 KE) (proj2 KE) _ _ _ _ C RP AR) as K. exists prog.
    split; [apply (dump_is_file dw w p prog); [rewrite LI; exact HL|exact (accepted_fits _ K)|exact B]|]. split; [exact (policy_decides _ _ LI NM _ _ _ C)|].
    intros ->. destruct K as [K _]. cbn in K. discriminate K.
  Qed.
  Lemma given_installed w pre opts args s g ec ep t1 t2 envp envp' p : let L := all_options w opts in
    h_little (w_host w) = true -> w_bytes w p = Some bytes ->
    minijail0 w pre opts args = Go s -> well_formed w L -> g_env g = w_env w -> k_softfail (w_env w) = false -> g_asan g = false ->
    launched g ec ep (c_calls (st_cli s)) (c_jail (st_cli s)) t1 t2 envp envp' -> last_arg L OPT_SECCOMP_BPF_BINARY = Some (Some p) ->
    exists prog, installed prog t2 /\ decides dw f prog.
  Proof.
    cbv zeta. intros HL B E W G K A R LA. destruct (given_file w p HL B) as (prog & F & DE & NE).
    destruct (cli_file w pre opts args s E W K g G A ec ep t1 t2 envp envp' R p (or_introl LA)) as (prog' & F' & IN).
    rewrite (filter_file_one w p prog' prog F' F) in IN. exists prog. split; [exact (IN NE)|exact DE].
  Qed.
  Lemma given_installed_static w pre opts args s g ec exec t p : let L := all_options w opts in
    h_little (w_host w) = true -> w_bytes w p = Some bytes ->
    minijail0 w pre opts args = Go s -> well_formed w L -> g_env g = w_env w -> k_softfail (w_env w) = false -> g_asan g = false ->
    launched_plain g ec exec (c_calls (st_cli s)) (c_jail (st_cli s)) t -> last_arg L OPT_SECCOMP_BPF_BINARY = Some (Some p) ->
    exists prog, installed prog t /\ decides dw f prog.
  Proof.
    cbv zeta. intros HL B E W G K A R LA. destruct (given_file w p HL B) as (prog & F & DE & NE).
    destruct (plain_cli_file w pre opts args s E W K g G A ec exec t R p (or_introl LA)) as (prog' & F' & IN).
    rewrite (filter_file_one w p prog' prog F' F) in IN. exists prog. split; [exact IN|exact DE].
  Qed.
End Given.

(* minijail0 with the dumped file *)
Definition with_bytes (w : world) (b : string -> option (list N)) : world :=
  World (w_env w) (w_long w) (w_consts w) (w_user w) (w_group w) (w_cap_text w) (w_last_cap w) (w_getuid w) (w_getgid w) (w_cap_setgid w)
    (w_tty w) (w_realpath w) (w_open w) (w_config w) (w_config_ok w) (w_policy w) b (w_host w) (w_exists w) (w_writable w) (w_executable w)
    (w_pivot_dir w) (w_environ w) (w_setpgid w) (w_dlopen w).
Definition bin_world : world := with_bytes ex_world
  (fun p => if (p =? "/tmp/app.bin")%string then Some (program_bytes parse_world ex_prog) else w_bytes ex_world p).
Definition bin_opts : list (N * option string) := (cli_opts ++ [(OPT_SECCOMP_BPF_BINARY, Some "/tmp/app.bin"%string)])%list.
Definition bin_start (prog : string) : start :=
  match minijail0 bin_world "/lib/p.so" bin_opts [prog] with Go s => s | _ => Start (cli_start EmptyString) false None end.
Notation bin_jail p := (c_jail (st_cli (bin_start p))).
Definition bin_trace : list event := snd (M_Io.run P_EnterEx.ex_kernel [] (run_child ex_cfg false (with_ruleset (w_env ex_world) (bin_jail "/bin/static")))).
Lemma bin_goes : minijail0 bin_world "/lib/p.so" bin_opts ["/bin/static"%string] = Go (bin_start "/bin/static").
Proof. vm_compute. reflexivity. Qed.
Lemma bin_files : files_ok bin_world.
Proof.
  intros p b. unfold bin_world, with_bytes. cbn [w_bytes]. destruct (p =? "/tmp/app.bin")%string; [|exact (world_files p b)].
  intros [= <-]. split; [reflexivity|]. match goal with |- Forall _ ?l => let v := eval vm_compute in l in change l with v end. repeat constructor.
Qed.
Lemma bin_formed : well_formed bin_world (all_options bin_world bin_opts).
Proof.
  split; [discriminate|]. split; [exact world_names|]. split.
  - match goal with |- Forall _ ?l => let v := eval vm_compute in l in change l with v end.
    repeat apply Forall_cons; try apply Forall_nil; intros a EA; try discriminate EA; injection EA as <-; (split; [|split; [|split]]);
      intros H; try (exfalso; revert H; clear; vm_compute; intuition discriminate);
      first [number | split; [discriminate|number] | exact limits_case].
  - split; [|exact bin_files]. split; intros [a H]; exfalso; revert H; vm_compute; intuition discriminate.
Qed.
Lemma bin_case : launched_plain ex_cfg (w_env bin_world) true (c_calls (st_cli (bin_start "/bin/static"))) (bin_jail "/bin/static") bin_trace.
Proof.
  split; [exact (jail_built bin_world _ _ _ _ bin_goes)|]. split; [reflexivity|]. split; [vm_compute; reflexivity|].
  exists P_EnterEx.ex_kernel. vm_compute. reflexivity.
Qed.
Lemma bin_last : last_arg (all_options bin_world bin_opts) OPT_SECCOMP_BPF_BINARY = Some (Some "/tmp/app.bin"%string).
Proof. vm_compute. reflexivity. Qed.
