(* Concrete launches: cases and counterexamples for running a program. *)
From Verif Require Export P_RunClaims P_EnterEx P_Copy P_Pipe.
Local Open Scope N_scope.

(* the jail of the example without its hooks, in a new pid namespace *)
Definition run_calls : list api :=
  A_namespace_pids :: filter (fun a => match a with A_add_hook _ _ _ => false | _ => true end) ex_calls.
Definition run_history : list (api * Z) := match replay ex_env minijail_new run_calls with Some (h, _) => h | None => [] end.
Definition run_jail : jail := match replay ex_env minijail_new run_calls with Some (_, j) => j | None => minijail_new end.
Lemma run_built : history ex_env minijail_new run_history run_jail.
Proof. apply (replay_history ex_env run_calls). vm_compute. reflexivity. Qed.
Definition run_t1 : list event := snd (M_Io.run ex_kernel [] (run_child ex_cfg true (with_ruleset ex_env run_jail))).
Definition run_sent : jail := parent_jail ex_env (Some "/bin/true"%string) 4242 run_jail.
Definition run_bytes : string := match minijail_to_fd any_addr run_sent 1700 slow with Some (Wrote _ b _) => b | _ => EmptyString end.
Definition run_envp : env := ["PATH=/bin"; "LD_PRELOAD=/lib/a.so /lib/libminijailpreload.so"; "__MINIJAIL_FD=7"]%string.
Definition run_t2 : list event :=
  snd (M_Io.run ex_kernel [] (fake_main ex_cfg true (fun _ => minijail_from_fd ex_env minijail_new whole run_bytes) run_envp)).
Lemma slow_real : real_errors slow.
Proof. intros i n. unfold slow. destruct (Nat.even i); intros X; [injection X as <-; reflexivity|discriminate]. Qed.
Lemma run_typed : c_typed run_sent.
Proof.
  assert (E : exists x, run_sent = x) by (eexists; reflexivity). destruct E as (x & E). rewrite E. vm_compute in E. subst x.
  unfold c_typed, text, i32; repeat ty.
Qed.
Lemma run_case : launched ex_cfg ex_env ex_env run_history run_jail run_t1 run_t2 run_envp ["PATH=/bin"; "LD_PRELOAD=/lib/a.so"]%string.
Proof.
  split; [exact run_built|]. split; [reflexivity|]. split; [reflexivity|]. split; [vm_compute; reflexivity|].
  split; [exists ex_kernel; vm_compute; reflexivity|].
  exists (Some "/bin/true"%string), 4242%Z, any_addr, 1700%nat, slow.
  destruct (minijail_to_fd any_addr run_sent 1700 slow) as [res|] eqn:E; [|vm_compute in E; discriminate E].
  destruct (minijail_size any_addr run_sent) as [size|] eqn:Z; [|vm_compute in Z; discriminate Z].
  exists res, size, run_bytes, EmptyString, whole, true, ex_kernel. cbv zeta. fold run_sent.
  split; [exact run_typed|]. split; [exact any_addr_ok|]. split; [exact slow_real|]. split; [exact Z|].
  split; [vm_compute in Z; injection Z as <-; reflexivity|]. split; [exact E|].
  split; [|vm_compute; reflexivity].
  vm_compute in E. injection E as <-. vm_compute. reflexivity.
Qed.
Lemma run_asked f : steady false f = true -> hasf f run_jail = true -> asked f run_history.
Proof. intros S F. apply (flag_asked _ _ _ f run_built S). exact F. Qed.
Lemma run_not_asked f : steady false f = true -> hasf f run_jail = false -> ~ asked f run_history.
Proof. intros S F X. apply (flag_asked _ _ _ f run_built S) in X. rewrite F in X. discriminate X. Qed.

(* /proc is mounted read-only in the old root, before the root is changed. *)
Definition is_proc_mount (c : call) : bool := match c with C_mount _ d _ _ _ => String.eqb d "/proc" | _ => false end.
Lemma proc_outside : launched ex_cfg ex_env ex_env run_history run_jail run_t1 run_t2 run_envp ["PATH=/bin"; "LD_PRELOAD=/lib/a.so"]%string /\
  asked F_remount_proc_ro run_history /\ asked F_pivot_root run_history /\ ~ is_own_init run_history /\
  existsb (fun ev => is_proc_mount (fst ev)) run_t2 = false /\
  existsb (fun ev => changes_root (fst ev)) run_t1 = false /\
  worked (C_pivot_root "." ".") run_t2.
Proof.
  split; [exact run_case|]. split; [apply run_asked; vm_compute; reflexivity|]. split; [apply run_asked; vm_compute; reflexivity|].
  split.
  { intros [_ [X|X]]; [apply X, run_asked; vm_compute; reflexivity|]. revert X. apply run_not_asked; vm_compute; reflexivity. }
  split; [vm_compute; reflexivity|]. split; [vm_compute; reflexivity|].
  exists 0, ""%string. vm_compute. find_in.
Qed.
Lemma run_creds : let s := Creds 0 0 0 0 0 0 [0; 1; 2] (2 ^ 41 - 1) (2 ^ 41 - 1) 0 (2 ^ 41 - 1) 0 0 false in
  asked F_use_caps run_history /\ asked F_set_ambient_caps run_history /\ asked F_uid run_history /\
  asked F_set_suppl_gids run_history /\ last_of caps_of run_history 0 = 1025 /\ last_of skip_of run_history 0 = 0 /\
  after (fun _ _ => []) (fun _ c => c) s run_t1 = s /\
  after (fun _ _ => []) (fun _ c => c) s run_t2 = Creds 1000 1000 1000 100 100 100 [7; 8] 1025 1025 1025 1025 1025 63 true.
Proof. cbv zeta. do 4 (split; [apply run_asked; vm_compute; reflexivity|]). do 2 (split; [reflexivity|]). split; vm_compute; reflexivity. Qed.
Lemma run_rest : asked F_seccomp_filter run_history /\ last_of filter_of run_history None = Some (inr ex_prog) /\
  In (C_prctl_seccomp (Some ex_prog), Yes 0 "") run_t2 /\
  ~ called A_add_minimalistic_mountns_fs_rules run_history /\ ~ called A_disable_fs_restrictions run_history /\
  rules_added 3 run_history = [FsRule "/etc" 12; FsRule "/usr" 13] /\ In (C_landlock_restrict 5, Yes 0 "") run_t2 /\
  length (accepted mount_added run_history) = 3%nat /\
  In (C_unshare 131072, Yes 0 "") run_t1 /\ In (C_setresuid 1000, Yes 0 "") run_t2.
Proof.
  split; [apply run_asked; vm_compute; reflexivity|]. split; [reflexivity|]. split; [vm_compute; find_in|].
  split; [intros (rc & I); vm_compute in I; repeat destruct I as [I|I]; try discriminate I; contradiction|].
  split; [intros (rc & I); vm_compute in I; repeat destruct I as [I|I]; try discriminate I; contradiction|].
  split; [reflexivity|]. split; [vm_compute; find_in|]. split; [reflexivity|]. split; vm_compute; find_in.
Qed.

(* without the preload library, with hooks for all three events *)
Definition plain_calls : list api := (ex_calls ++ [A_add_hook 5 50 1; A_add_hook 6 60 1])%list.
Definition plain_history : list (api * Z) := match replay ex_env minijail_new plain_calls with Some (h, _) => h | None => [] end.
Definition plain_jail : jail := match replay ex_env minijail_new plain_calls with Some (_, j) => j | None => minijail_new end.
Definition plain_trace : list event := snd (M_Io.run ex_kernel [] (run_child ex_cfg false (with_ruleset ex_env plain_jail))).
Lemma plain_case : launched_plain ex_cfg ex_env true plain_history plain_jail plain_trace.
Proof.
  split; [apply (replay_history ex_env plain_calls); vm_compute; reflexivity|]. split; [reflexivity|]. split; [vm_compute; reflexivity|].
  exists ex_kernel. vm_compute. reflexivity.
Qed.
Lemma plain_hooks : accepted hook_added plain_history = [Hook 1 10 0; Hook 2 20 2; Hook 3 30 0; Hook 4 40 2; Hook 5 50 1; Hook 6 60 1] /\
  map fst (hooks_run plain_trace) = map C_hook [Hook 2 20 2; Hook 4 40 2; Hook 1 10 0; Hook 3 30 0; Hook 5 50 1; Hook 6 60 1] /\
  last (map fst plain_trace) C_keyring = C_hook (Hook 6 60 1).
Proof. split; [reflexivity|]. split; vm_compute; reflexivity. Qed.
