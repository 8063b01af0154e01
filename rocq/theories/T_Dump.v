(* Property theorems: what parse_seccomp_policy accepts and writes (C82). *)
From Verif Require Import P_DumpCli P_DumpEx.
Local Open Scope N_scope.

(* ---- C82: exit status 0 means that the policy was compiled ----
   Without -h, parse_seccomp_policy exits with status 0 only if the policy (the
   named file, or standard input) compiles with the action "kill" and without
   logging; what it lists or writes to the file of --dump is a filter that
   decides every system call as the text says.  Of the bytes the system may
   have lost some: see C82_lost_refuted. *)
Theorem C82_accepted : forall w c n out, little (b_plat (d_build w)) = true -> names_ok (b_consts (d_build w)) ->
  dump_main w c = (D_exits n, out) -> ~ asks_help c ->
  n = 0 /\ exists f prog, policy_input w c f /\ decides w f prog /\ compile_filter (d_build w) (plain_opts w) (d_files w) (Some f) = COk prog /\
    (~ asks_dump c /\ out = Out_listing (show_prog prog) \/
     asks_dump c /\ exists path, dump_file c path /\
       out = Out_bytes path (let all := concat (map (dump_instr true) prog) in firstn (d_kept w all) all)).
Proof. exact dump_accepted. Qed.
Print Assumptions C82_accepted.
(* And it does accept every policy that compiles, if it was given any argument
   (see C82_no_arguments_refuted) and the output can be written. *)
Theorem C82_accepts : forall w c f prog, ~ asks_help c -> has_argv1 c = true -> policy_input w c f ->
  compile_filter (d_build w) (plain_opts w) (d_files w) (Some f) = COk prog ->
  (forall p, d_opens w p = true) -> (forall l, d_wrote w l = true) -> fst (dump_main w c) = D_exits 0.
Proof. intros w c f prog H A P C O W. exact (dump_accepts w c f prog H A P C O (W _)). Qed.
Print Assumptions C82_accepts.
(* Two policies are listed alike only if their filters are the same. *)
Theorem C82_listing : forall p q, show_prog p = show_prog q -> p = q.
Proof. exact listing_inj. Qed.
Print Assumptions C82_listing.
(* The dumped file, given to minijail0 --seccomp-bpf-binary: the program runs
   under a filter that decides as the text says.  [pol] is what the text says;
   its arguments are written in range (C06).  Partial: as C60; the two programs
   are on little-endian machines and no byte was lost. *)
Theorem C82_enforced_partial : forall dw c q f pol bytes w pre opts args s g ec ep t1 t2 envp envp' p, let L := all_options w opts in
  arch_no (b_plat (d_build dw)) < 2 ^ 32 /\ Forall (fun e => snd e < 2 ^ 32) (b_syscalls (d_build dw)) ->
  little (b_plat (d_build dw)) = true -> names_ok (b_consts (d_build dw)) ->
  dump_main dw c = (D_exits 0, Out_bytes q bytes) -> (forall l, (length l <= d_kept dw l)%nat) ->
  policy_input dw c f -> reads_policy (d_build dw) (plain_opts dw) (d_files dw) f pol -> args_in_range pol ->
  h_little (w_host w) = true -> w_bytes w p = Some bytes ->
  minijail0 w pre opts args = Go s -> well_formed w L -> g_env g = w_env w -> k_softfail (w_env w) = false -> g_asan g = false ->
  launched g ec ep (c_calls (st_cli s)) (c_jail (st_cli s)) t1 t2 envp envp' -> last_arg L OPT_SECCOMP_BPF_BINARY = Some (Some p) ->
  exists prog, installed prog t2 /\ decides dw f prog.
Proof.
  intros dw c q f pol bytes w pre opts args s g ec ep t1 t2 envp envp' p L KE LI NM D KEPT PI RP AR.
  exact (given_installed dw c q f pol bytes KE LI NM D KEPT PI RP AR w pre opts args s g ec ep t1 t2 envp envp' p).
Qed.
Print Assumptions C82_enforced_partial.
Theorem C82_enforced_static_partial : forall dw c q f pol bytes w pre opts args s g ec exec t p, let L := all_options w opts in
  arch_no (b_plat (d_build dw)) < 2 ^ 32 /\ Forall (fun e => snd e < 2 ^ 32) (b_syscalls (d_build dw)) ->
  little (b_plat (d_build dw)) = true -> names_ok (b_consts (d_build dw)) ->
  dump_main dw c = (D_exits 0, Out_bytes q bytes) -> (forall l, (length l <= d_kept dw l)%nat) ->
  policy_input dw c f -> reads_policy (d_build dw) (plain_opts dw) (d_files dw) f pol -> args_in_range pol ->
  h_little (w_host w) = true -> w_bytes w p = Some bytes ->
  minijail0 w pre opts args = Go s -> well_formed w L -> g_env g = w_env w -> k_softfail (w_env w) = false -> g_asan g = false ->
  launched_plain g ec exec (c_calls (st_cli s)) (c_jail (st_cli s)) t -> last_arg L OPT_SECCOMP_BPF_BINARY = Some (Some p) ->
  exists prog, installed prog t /\ decides dw f prog.
Proof.
  intros dw c q f pol bytes w pre opts args s g ec exec t p L KE LI NM D KEPT PI RP AR.
  exact (given_installed_static dw c q f pol bytes KE LI NM D KEPT PI RP AR w pre opts args s g ec exec t p).
Qed.
Print Assumptions C82_enforced_static_partial.

(* Findings.  The usage text says that the policy is read from standard input
   without a file name; but without any argument the name of the file, which
   the compiler copies for its messages, is NULL: every policy with a rule and
   no @ line that would be accepted is undefined behaviour instead. *)
Theorem C82_no_arguments_refuted : forall w prog, let c := DumpLine [] [] false in policy_input w c (d_stdin w) /\
  (compile_filter (d_build w) (plain_opts w) (d_files w) (Some (d_stdin w)) = COk prog -> no_statements (d_stdin w) ->
   Exists rule_line (multilines (s_bytes (d_stdin w))) -> dump_main w c = (D_undefined, Out_none)).
Proof. intros w prog. split; [apply pi_stdin; reflexivity|exact (dump_no_name w (DumpLine [] [] false) prog eq_refl eq_refl eq_refl)]. Qed.
Print Assumptions C82_no_arguments_refuted.
(* Whether the file could be closed is not looked at: the exit status is 0
   although the end of the filter is missing. *)
Theorem C82_lost_refuted : exists w c prog bytes, compile_filter (d_build w) (plain_opts w) (d_files w) (Some ex_policy) = COk prog /\
  dump_main w c = (D_exits 0, Out_bytes (Some "/tmp/app.bin"%string) bytes) /\ bytes <> concat (map (dump_instr true) prog).
Proof. exists full_disk, parse_args, ex_prog. eexists. split; [exact (parse_compiles full_disk eq_refl eq_refl eq_refl)|]. split; [exact full_runs|exact full_short]. Qed.
Print Assumptions C82_lost_refuted.

Example C82_case : little (b_plat (d_build parse_world)) = true /\ names_ok (b_consts (d_build parse_world)) /\
  dump_main parse_world parse_args = (D_exits 0, Out_bytes (Some "/tmp/app.bin"%string) (concat (map (dump_instr true) ex_prog))) /\
  ~ asks_help parse_args /\ has_argv1 parse_args = true /\ length ex_prog = 41%nat /\
  dump_main parse_world list_args = (D_exits 0, Out_listing (show_prog ex_prog)) /\ ~ asks_dump list_args.
Proof. split; [exact ex_little|]. split; [exact ex_names|]. split; [exact parse_runs|]. split; [exact (proj1 parse_no_help)|]. split; [reflexivity|]. split; [vm_compute; reflexivity|]. split; [exact list_runs|exact (proj2 (proj2 (proj2 parse_no_help)))]. Qed.
Example C82_enforced_case : arch_no (b_plat (d_build parse_world)) < 2 ^ 32 /\ Forall (fun e => snd e < 2 ^ 32) (b_syscalls (d_build parse_world)) /\
  (forall l, (length l <= d_kept parse_world l)%nat) /\ policy_input parse_world parse_args ex_policy /\
  reads_policy (d_build parse_world) (plain_opts parse_world) (d_files parse_world) ex_policy ex_rules /\ args_in_range ex_rules /\
  h_little (w_host bin_world) = true /\ w_bytes bin_world "/tmp/app.bin" = Some (concat (map (dump_instr true) ex_prog)) /\
  minijail0 bin_world "/lib/p.so" bin_opts ["/bin/static"%string] = Go (bin_start "/bin/static") /\ well_formed bin_world (all_options bin_world bin_opts) /\
  launched_plain ex_cfg (w_env bin_world) true (c_calls (st_cli (bin_start "/bin/static"))) (bin_jail "/bin/static") bin_trace /\
  last_arg (all_options bin_world bin_opts) OPT_SECCOMP_BPF_BINARY = Some (Some "/tmp/app.bin"%string).
Proof.
  split; [exact ex_arch|]. split; [exact ex_nrs|]. split; [intros l; apply Nat.le_refl|]. split; [apply (pi_file parse_world parse_args "/etc/app.policy"%string []); [reflexivity|discriminate|reflexivity]|].
  split; [exact parse_reads|]. split; [exact ex_args|]. split; [reflexivity|]. split; [reflexivity|]. split; [exact bin_goes|]. split; [exact bin_formed|].
  split; [exact bin_case|exact bin_last].
Qed.
Example C82_no_arguments_case : compile_filter (d_build parse_world) (plain_opts parse_world) (d_files parse_world) (Some (d_stdin parse_world)) = COk ex_prog /\
  no_statements (d_stdin parse_world) /\ Exists rule_line (multilines (s_bytes (d_stdin parse_world))).
Proof. split; [exact (parse_compiles parse_world eq_refl eq_refl eq_refl)|exact ex_stdin_rule]. Qed.
