(* Runs of minijail0 as a whole (C81). *)
From Coq Require Import Lia.
From Verif Require Export P_CliRunEx P_Main.
From Verif Require P_LaunchEx P_FdsEx.
Local Open Scope N_scope.

Definition launch_world (lim : Z) (errno : N) : M_Launch.world :=
  M_Launch.World ex_cfg "/lib/q.so" (M_Cli.w_environ ex_world) true lim 1000 (fun _ => true) 4242 500
    P_LaunchEx.call_env (fun _ => 0%N) any_addr 4000 slow P_LaunchEx.call_env P_EnterEx.ex_kernel 0 errno.
Definition sees (pid lim : Z) (errno : N) (opts : list (N * option string)) (prog : string) (e : ending) : outcome * list M_Launch.act :=
  main ex_world (told (launch_world lim errno) pid) 31 "/lib/p.so" opts [prog] P_LaunchEx.the_table [inl M_Wait.EINTR; inr (status_of e)].
Lemma sees_plausible lim errno : (40 < lim)%Z -> plausible (launch_world lim errno) P_LaunchEx.the_table.
Proof.
  intros L. split; [reflexivity|]. split; [reflexivity|]. intros x X. change (w_lim (launch_world lim errno)) with lim in X.
  destruct (P_LaunchEx.the_table x) as [y|] eqn:E; [|reflexivity]. apply P_FdsEx.table_of_in in E.
  cbn in E. repeat destruct E as [E|E]; try (injection E as <- _; lia). destruct E.
Qed.
Lemma no_option opts n : existsb (fun o => fst o =? n) (all_options ex_world opts) = false -> ~ has (all_options ex_world opts) n.
Proof.
  intros X [a I]. assert (Y : existsb (fun o => fst o =? n) (all_options ex_world opts) = true) by (apply existsb_exists; exists (n, a); split; [exact I|apply N.eqb_refl]). congruence.
Qed.
Definition acts_of (r : outcome * list M_Launch.act) : list M_Launch.act := snd r.
Definition after_of (r : outcome * list M_Launch.act) : table := match fst r with M_executes _ _ _ t => t | _ => fun _ => None end.
Definition app_run : outcome * list M_Launch.act := sees 4242 1024 0 full_opts "/bin/app" (Exited 3).
Definition main_sent : jail := parent_jail P_LaunchEx.call_env (Some "/bin/app"%string) 4242 box_jail.
Definition main_bytes : string := match minijail_to_fd any_addr main_sent 4000 slow with Some (Wrote _ b _) => b | _ => EmptyString end.
Definition main_envp : env := ["PATH=/bin"; "HOME=/tmp"; "SECCOMP_POLICY_PATH=/etc/app.policy"; "LD_PRELOAD=/lib/p.so"; "__MINIJAIL_FD=3"]%string.
Definition app_t1 : list event := snd (M_Io.run P_EnterEx.ex_kernel [] (run_child ex_cfg true (with_ruleset P_LaunchEx.call_env box_jail))).
Definition app_t2 : list event :=
  snd (M_Io.run P_EnterEx.ex_kernel [] (fake_main ex_cfg true (fun _ => minijail_from_fd ex_env minijail_new whole main_bytes) main_envp)).
Ltac find_act := repeat (first [left; reflexivity | right]).
Lemma app_case : sees 4242 1024 0 full_opts "/bin/app" (Exited 3) = (M_exits 3, acts_of app_run) /\
  started_by (acts_of app_run) 4242 /\ In (Sent main_bytes) (acts_of app_run) /\
  in_launcher (told (launch_world 1024 0) 4242) /\ ~ has (all_options ex_world full_opts) (S_Cli.short "i") /\ ~ only_tells (all_options ex_world full_opts) /\
  ended_as [inl M_Wait.EINTR; inr (status_of (Exited 3))] (Exited 3).
Proof.
  split; [vm_compute; reflexivity|]. split; [vm_compute; find_act|]. split; [vm_compute; find_act|]. split; [discriminate|].
  split; [apply no_option; vm_compute; reflexivity|]. split; [intros [X|[X|X]]; revert X; apply no_option; vm_compute; reflexivity|].
  exists 1%nat, []. split; reflexivity.
Qed.
Lemma app_child : sees 0 1024 0 full_opts "/bin/app" (Exited 3) =
  (M_executes (Named "/bin/app") ["/bin/app"%string] main_envp (after_of (sees 0 1024 0 full_opts "/bin/app" (Exited 3))), [Asked app_t1]).
Proof. vm_compute. reflexivity. Qed.
Lemma main_typed : c_typed main_sent.
Proof.
  assert (E : exists x, main_sent = x) by (eexists; reflexivity). destruct E as (x & E). rewrite E. vm_compute in E. subst x.
  unfold c_typed, text, i32; repeat ty.
Qed.
Lemma app_library : exists size, c_typed main_sent /\ S_Marshal.nonnull any_addr /\ real_errors slow /\
  minijail_size any_addr main_sent = Some size /\ size < 2 ^ 64 /\
  M_Io.run P_EnterEx.ex_kernel [] (fake_main ex_cfg true (fun _ => minijail_from_fd ex_env minijail_new whole main_bytes) main_envp) =
    (Returned (Some ["PATH=/bin"; "HOME=/tmp"; "SECCOMP_POLICY_PATH=/etc/app.policy"]%string), app_t2) /\
  In (C_chroot "/jail", Yes 0 "") app_t2 /\ In (C_unshare 131072, Yes 0 "") app_t1.
Proof.
  destruct (minijail_size any_addr main_sent) as [size|] eqn:Z; [|vm_compute in Z; discriminate Z].
  exists size. split; [exact main_typed|]. split; [exact any_addr_ok|]. split; [exact slow_real|]. split; [reflexivity|].
  split; [vm_compute in Z; injection Z as <-; reflexivity|]. split; [vm_compute; reflexivity|]. split; vm_compute; find_act.
Qed.
Lemma app_env : minijail0 ex_world "/lib/p.so" full_opts ["/bin/app"%string] = Go box_start /\ st_preload box_start = true /\
  S_Util.distinct (M_Cli.w_environ ex_world) /\ library (all_options ex_world full_opts) "/lib/p.so" "/lib/p.so" /\
  S_Text.all_chars (fun c => c <> " "%char) "/lib/p.so" /\
  (forall v, ~ env_has ex_world (all_options ex_world full_opts) "__MINIJAIL_FD" v) /\
  ~ env_has ex_world (all_options ex_world full_opts) "LD_PRELOAD" "" /\
  env_has ex_world (all_options ex_world full_opts) "HOME" "/tmp".
Proof.
  assert (D : S_Util.distinct (M_Cli.w_environ ex_world)) by exact world_distinct.
  assert (P : st_preload box_start = true) by (vm_compute; reflexivity).
  destruct (P_CliIds.env_given ex_world _ _ _ _ box_goes P D) as (e & EN & _ & HV).
  assert (E2 : e = ["PATH=/bin"; "HOME=/tmp"]%string). { change (st_env box_start) with (Some ["PATH=/bin"; "HOME=/tmp"]%string) in EN. injection EN as <-. reflexivity. }
  subst e. split; [exact box_goes|]. split; [exact P|]. split; [exact D|]. split; [vm_compute; reflexivity|].
  split; [apply in_text; cbn; repeat split; discriminate|].
  split; [|split].
  - intros v H. apply HV in H; [|exact P_RunEnv.fd_name]. destruct H as [H|[H|[]]]; discriminate H.
  - intros H. apply HV in H; [|exact P_RunEnv.ld_name]. destruct H as [H|[H|[]]]; discriminate H.
  - apply HV; [|right; left; reflexivity]. split; [discriminate|]. apply in_text; cbn; repeat split; discriminate.
Qed.
Lemma app_wait : ended 2 (Exited 3) [(5, Exited 1); (2, Exited 3)] /\ init 2 (reaped [(5, Exited 1); (2, Exited 3)] ++ [WaitFails ECHILD]) = M_Wait.Exits 3.
Proof. split; [|reflexivity]. exists [(5, Exited 1)], []. split; [reflexivity|]. split; [intros [X|[]]; discriminate X|intros []]. Qed.
Lemma app_zero : sees 4242 1024 0 full_opts "/bin/app" (Exited 0) = (M_exits 0, acts_of app_run) /\
  real_answers [inl M_Wait.EINTR; inr (status_of (Exited 0))].
Proof.
  split; [vm_compute; reflexivity|]. repeat apply Forall_cons; try apply Forall_nil; [split; reflexivity|]. exists (Exited 0). split; reflexivity.
Qed.
(* no descriptor left for a pipe: nothing is started *)
Lemma app_nothing : sees 4242 4 0 full_opts "/bin/app" (Exited 0) = (M_exits 246, []) /\
  main ex_world (told (launch_world 1024 0) 4242) 31 "/lib/p.so" full_opts ["/bin/none"%string] P_LaunchEx.the_table [] = (M_exits 1, []).
Proof. split; vm_compute; reflexivity. Qed.
Definition quick_opts : list (N * option string) := (full_opts ++ [(S_Cli.short "i", None)])%list.
Lemma quick_case : sees 4242 1024 0 quick_opts "/bin/app" (Exited 3) = (M_exits 0, acts_of app_run) /\
  has (all_options ex_world quick_opts) (S_Cli.short "i") /\ sees 4242 4 0 quick_opts "/bin/app" (Exited 3) = (M_exits 0, []).
Proof.
  split; [vm_compute; reflexivity|]. split; [|vm_compute; reflexivity]. exists None. vm_compute. find_act.
Qed.
Lemma quick_refuted : exists w l sigsys pre opts args t answers, in_launcher l /\ ~ only_tells (all_options w opts) /\
  main w l sigsys pre opts args t answers = (M_exits 0, []).
Proof.
  exists ex_world, (told (launch_world 4 0) 4242), 31, "/lib/p.so"%string, quick_opts, ["/bin/app"%string], P_LaunchEx.the_table, [].
  split; [discriminate|]. split; [intros [X|[X|X]]; revert X; apply no_option; vm_compute; reflexivity|]. vm_compute. reflexivity.
Qed.
Lemma missing_case : sees 4242 1024 2 alone_opts "/bin/static" (Exited 127) = (M_exits 127, acts_of (sees 4242 1024 2 alone_opts "/bin/static" (Exited 127))) /\
  started_by (acts_of (sees 4242 1024 2 alone_opts "/bin/static" (Exited 127))) 4242 /\
  fst (sees 0 1024 2 alone_opts "/bin/static" (Exited 127)) = M_exits 127.
Proof. split; [vm_compute; reflexivity|]. split; [vm_compute; find_act|vm_compute; reflexivity]. Qed.
Definition static_envp : env := ["PATH=/bin"; "HOME=/root"; "SECCOMP_POLICY_PATH=/etc/app.policy"]%string.
Lemma static_child : exists t1, sees 0 1024 0 alone_opts "/bin/static" (Exited 3) =
  (M_executes (Named "/bin/static") ["/bin/static"%string] static_envp (after_of (sees 0 1024 0 alone_opts "/bin/static" (Exited 3))), [Asked t1]) /\
  In (C_unshare 131072, Yes 0 "") t1.
Proof.
  exists (match acts_of (sees 0 1024 0 alone_opts "/bin/static" (Exited 3)) with [Asked t1] => t1 | _ => [] end). split; vm_compute; [reflexivity|find_act].
Qed.
