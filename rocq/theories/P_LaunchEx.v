(* Cases and counterexamples for the functions that start programs (C79, C80). *)
From Verif Require Export P_LaunchChild P_RunEx.
From Verif Require Import P_FdsEx P_ReuseEx.
From Verif Require P_PolicyEx.
From Coq Require Import Lia.
Local Open Scope Z_scope.

Definition call_env : kenv := next_fd ex_env 11.
Definition the_world (copied : bool) (lim : Z) (errno : N) : world :=
  World ex_cfg "/lib/libminijailpreload.so" ["PATH=/bin"; "LD_PRELOAD=/lib/a.so"]%string copied lim 1000 (fun _ => true) 4242 500
    call_env (fun _ => 0%N) any_addr 1800 slow call_env ex_kernel 0 errno.
Definition the_table : table := table_of [(0, (1%N, false)); (1, (2%N, false)); (2, (3%N, false)); (40, (7%N, true))].
Definition no_vars : memory := fun _ => 77.
Definition the_call : run_call := Run_pid_pipes "/bin/true" ["true"; "-v"]%string (Some 1%N) (Some 2%N) (Some 3%N) (Some 4%N).

Definition the_jail' : jail := parent_jail call_env (Some "/bin/true"%string) 4242 run_jail.
Definition the_bytes : string := match minijail_to_fd any_addr the_jail' 1800 slow with Some (Wrote _ b _) => b | _ => EmptyString end.
Definition the_envp : env := ["PATH=/bin"; "LD_PRELOAD=/lib/a.so /lib/libminijailpreload.so"; "__MINIJAIL_FD=3"]%string.
Definition the_t1 : list event := snd (M_Io.run ex_kernel [] (run_child ex_cfg true (with_ruleset call_env run_jail))).
Definition the_t2 : list event :=
  snd (M_Io.run ex_kernel [] (fake_main ex_cfg true (fun _ => minijail_from_fd ex_env minijail_new whole the_bytes) the_envp)).
Definition the_parent : fate * list act := call_run (told (the_world true 1024 0) 4242) the_call no_vars the_table run_jail.
Definition m_of (r : fate * list act) : memory := match fst r with L_returns _ m _ _ => m | _ => no_vars end.
Definition t_of (r : fate * list act) : table := match fst r with L_returns _ _ t _ | L_execs _ _ _ t => t | _ => fun _ => None end.
Lemma launch_case : call_run (told (the_world true 1024 0) 4242) the_call no_vars the_table run_jail =
    (L_returns 0 (m_of the_parent) (t_of the_parent) the_jail', [Forked 4242; Sent the_bytes]) /\
  map (m_of the_parent) [1; 2; 3; 4; 5]%N = [4242; 6; 7; 9; 77] /\
  map (t_of the_parent) [0; 1; 2; 3; 4; 5; 6; 7; 8; 9; 10; 11; 12; 40] =
    [Some (1, false); Some (2, false); Some (3, false); None; None; None; Some (1003, false); Some (1004, false); None; Some (1006, false); None;
     Some (500, true); None; Some (7, true)]%N.
Proof. split; [vm_compute; reflexivity|]. split; vm_compute; reflexivity. Qed.
Lemma launch_hyps : in_launcher (told (the_world true 1024 0) 4242) /\ NoDup (vars the_call) /\ plausible (told (the_world true 1024 0) 4242) the_table /\
  new_ruleset (told (the_world true 1024 0) 4242) the_call run_jail the_table /\ (forall x, entered run_jail x -> the_table x <> None).
Proof.
  split; [discriminate|]. split.
  { cbn. repeat constructor; cbn; intros H; repeat destruct H as [H|H]; discriminate || contradiction. }
  split.
  { split; [reflexivity|]. split; [reflexivity|]. intros x L. destruct (the_table x) as [y|] eqn:E; [|reflexivity]. apply table_of_in in E.
    cbn in E. repeat destruct E as [E|E]; try (injection E as <- _; lia). destruct E. }
  split.
  - intros st t1 j1 v H. vm_compute in H. injection H as _ <- _ _. vm_compute. reflexivity.
  - intros x [[H _]|[H _]]; vm_compute in H; discriminate H.
Qed.
Definition the_child : fate * list act := call_run (told (the_world true 1024 0) 0) the_call no_vars the_table run_jail.
Lemma child_case : call_run (told (the_world true 1024 0) 0) the_call no_vars the_table run_jail =
    (L_execs (Named "/bin/true") ["true"; "-v"]%string the_envp (t_of the_child), [Asked the_t1]) /\
  map (t_of the_child) [0; 1; 2; 3; 4; 5; 6; 7; 8; 9; 10; 11; 12; 40] =
    [Some (1002, false); Some (1005, false); Some (1007, false); Some (1000, false); None; None; None; None; None; None; None; Some (500, false); None; None]%N.
Proof. split; vm_compute; reflexivity. Qed.
Lemma the_typed : c_typed the_jail'.
Proof.
  assert (E : exists x, the_jail' = x) by (eexists; reflexivity). destruct E as (x & E). rewrite E. vm_compute in E. subst x.
  unfold c_typed, text, i32; repeat ty.
Qed.
Lemma main_case : exists size, c_typed the_jail' /\ S_Marshal.nonnull any_addr /\ real_errors slow /\
  minijail_size any_addr the_jail' = Some size /\ (size < 2 ^ 64)%N /\
  M_Io.run ex_kernel [] (fake_main ex_cfg true (fun _ => minijail_from_fd ex_env minijail_new whole the_bytes) the_envp) =
    (Returned (Some ["PATH=/bin"; "LD_PRELOAD=/lib/a.so"]%string), the_t2) /\
  In (C_unshare 131072, Yes 0 "") the_t1 /\ In (C_setresuid 1000, Yes 0 "") the_t2.
Proof.
  destruct (minijail_size any_addr the_jail') as [size|] eqn:Z; [|vm_compute in Z; discriminate Z]. exists size.
  split; [exact the_typed|]. split; [exact any_addr_ok|]. split; [exact slow_real|]. split; [reflexivity|].
  split; [vm_compute in Z; injection Z as <-; reflexivity|]. split; [vm_compute; reflexivity|]. split; vm_compute; find_in.
Qed.
(* other fates *)
Definition plain_call : run_call := Run_env_pid_pipes_no_preload "/bin/true" ["true"]%string (Some ["A=1"]%string) None None (Some 3%N) None.
Definition quick : list api := [A_change_uid 1000; A_namespace_vfs].
Definition quick_jail : jail := match replay ex_env minijail_new quick with Some (_, j) => j | None => minijail_new end.
Definition quick_t : list event := snd (M_Io.run ex_kernel [] (run_child ex_cfg false (with_ruleset call_env quick_jail))).
Lemma quick_built : exists h, history ex_env minijail_new h quick_jail.
Proof. eexists. apply (replay_history ex_env quick). vm_compute. reflexivity. Qed.
Definition quick_run (f : run_call) (errno : N) (pid : Z) : fate * list act := call_run (told (the_world true 1024 errno) pid) f no_vars the_table quick_jail.
Lemma plain_fates :
  quick_run plain_call 0 0 = (L_execs (Named "/bin/true") ["true"]%string ["A=1"]%string (t_of (quick_run plain_call 0 0)), [Asked quick_t]) /\
  quick_run plain_call 2 0 = (L_exits 127, [Asked quick_t]) /\
  quick_run plain_call 13 0 = (L_exits 126, [Asked quick_t]) /\
  quick_run Fork 0 0 = (L_returns 0 no_vars (t_of (quick_run Fork 0 0)) quick_jail, [Asked quick_t]) /\
  quick_run Fork 0 77 = (L_returns 77 no_vars (t_of (quick_run Fork 0 77)) (set_initpid 77 quick_jail), [Forked 77]) /\
  quick_run (Run_fd_env_pid_pipes 40 ["x"]%string None None None None None) 0 0 =
    (L_execs (Opened 7) ["x"]%string the_envp (t_of (quick_run (Run_fd_env_pid_pipes 40 ["x"]%string None None None None None) 0 0)),
     [Asked (snd (M_Io.run ex_kernel [] (run_child ex_cfg true quick_jail)))]) /\
  In (C_setresuid 1000, Yes 0 "") quick_t.
Proof.
  split; [vm_compute; reflexivity|]. split; [vm_compute; reflexivity|]. split; [vm_compute; reflexivity|]. split; [vm_compute; reflexivity|].
  split; [vm_compute; reflexivity|]. split; [vm_compute; reflexivity|]. vm_compute. find_in.
Qed.
(* a limit of five descriptors: the pipe for the configuration, but none for a stream *)
Lemma few_descriptors : exists t', call_run (told (the_world true 5 0) 4242) the_call no_vars the_table run_jail =
  (L_returns 14 no_vars t' (named (Some "/bin/true"%string) run_jail), []).
Proof.
  exists (t_of (call_run (told (the_world true 5 0) 4242) the_call no_vars the_table run_jail)). vm_compute. reflexivity.
Qed.
Definition label : policy_source := PolicySource P_PolicyEx.ex_build (fun _ => None) (Some (Stream "read: 1" false)) (Some "/etc/app.policy"%string).
Lemma no_memory : exists h j t', history ex_env minijail_new h j /\
  call_run (told (the_world false 1024 0) 4242) Fork no_vars the_table j = (L_returns 12 no_vars t' j, []).
Proof.
  destruct (replay ex_env minijail_new [A_use_seccomp_filter; A_parse_seccomp_filters label]) as [[h j]|] eqn:E; [|vm_compute in E; discriminate E].
  exists h, j, (t_of (call_run (told (the_world false 1024 0) 4242) Fork no_vars the_table j)).
  split; [exact (replay_history _ _ _ _ _ E)|]. vm_compute in E. injection E as <- <-. vm_compute. reflexivity.
Qed.
Lemma positive_error : exists w f m t j m' t' j', in_launcher w /\ call_run w f m t j = (L_returns 14 m' t' j', []).
Proof. destruct few_descriptors as (t' & H). do 8 eexists. split; [|exact H]. discriminate. Qed.
Lemma not_a_pid : exists w h m t j m' t' j', in_launcher w /\ history (g_env (w_cfg w)) minijail_new h j /\
  call_run w Fork m t j = (L_returns 12 m' t' j', []).
Proof. destruct no_memory as (h & j & t' & B & H). do 8 eexists. split; [|split; [|exact H]]; [discriminate|exact B]. Qed.
Lemma not_executed : exists w f m t j m' t' j' acts pid acts', pid <> 0 /\
  call_run (told w pid) f m t j = (L_returns 0 m' t' j', acts) /\ call_run (told w 0) f m t j = (L_exits 127, acts').
Proof.
  exists (the_world true 1024 2), plain_call, no_vars, the_table, quick_jail,
    (m_of (quick_run plain_call 2 77)), (t_of (quick_run plain_call 2 77)), (set_initpid 77 (named (Some "/bin/true"%string) quick_jail)), [Forked 77], 77, [Asked quick_t].
  split; [discriminate|]. split; vm_compute; reflexivity.
Qed.
Lemma past_case : used (g_env ex_cfg) minijail_new (map (fun p => Call (fst p) (snd p)) run_history) run_jail.
Proof.
  rewrite <- (List.app_nil_r (map _ _)). apply (used_calls ex_env run_history minijail_new run_jail); [exact run_built|constructor].
Qed.
(* a call that sets up the child fails *)
Definition refusing (errno : N) : world :=
  World ex_cfg "/lib/libminijailpreload.so" ["PATH=/bin"]%string true 1024 1000 (fun _ => true) 4242 500
    call_env (fun _ => errno) any_addr 1800 slow call_env ex_kernel 0 0.
Definition limited_jail : jail := match replay ex_env minijail_new [A_rlimit 7 10 10] with Some (_, j) => j | None => minijail_new end.
Lemma died_case : exists c, call_run (told (refusing 13) 4242) Fork no_vars the_table limited_jail = (L_dies, [Forked 4242; Set_up c 13; Signalled 4242 9]).
Proof. eexists. vm_compute. reflexivity. Qed.
(* a program given by a descriptor, and a descriptor passed on *)
Definition fd_call : run_call := Run_fd_env_pid_pipes 40 ["x"]%string None None (Some 2%N) None None.
Definition passing_jail : jail := match replay ex_env minijail_new [A_close_open_fds; A_preserve_fd 1 9] with Some (_, j) => j | None => minijail_new end.
Definition passing_child : fate * list act := call_run (told (the_world true 1024 0) 0) fd_call no_vars the_table passing_jail.
Definition passing_t : list event := snd (M_Io.run ex_kernel [] (run_child ex_cfg true passing_jail)).
Lemma passing_case : call_run (told (the_world true 1024 0) 0) fd_call no_vars the_table passing_jail =
    (L_execs (Opened 7) ["x"]%string the_envp (t_of passing_child), [Asked passing_t]) /\
  well_prepared (told (the_world true 1024 0) 0) fd_call the_table passing_jail /\ pairs_of passing_jail = [(1, 9)] /\ hasf F_close_open_fds passing_jail = true /\
  map (t_of passing_child) [0; 1; 2; 3; 4; 5; 6; 7; 8; 9; 40] =
    [Some (1002, false); None; None; Some (1000, false); None; None; None; None; None; Some (2, false); None]%N.
Proof.
  split; [vm_compute; reflexivity|]. split; [|split; [vm_compute; reflexivity|split; vm_compute; reflexivity]].
  split; [vm_compute; reflexivity|]. split.
  { intros st t1 O. change (M_Sync.sync_child passing_jail) with false in *. change (pairs_of passing_jail) with [(1, 9)].
    assert (B : startedb 1024 true true false false false 1000 [(1, 9)] 40 [(0, (1%N, false)); (1, (2%N, false)); (2, (3%N, false)); (40, (7%N, true))] = true) by (vm_compute; reflexivity).
    apply startedb_ok in B. destruct B as (st' & t' & S & O'). fold the_table in S, O'.
    change (open_pipes 1024 true true false false false 1000 the_table = Some (st, t1)) in O. rewrite O in O'. injection O' as <- <-. exact S. }
  split; [|split; [|split]; discriminate]. intros c I. change (wanted (pairs_of passing_jail)) with [9] in I. change (w_lim (told (the_world true 1024 0) 0)) with 1024. cbn in I. lia.
Qed.
