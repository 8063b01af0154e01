(* Cases and counterexamples for jails that are used again (C72). *)
From Verif Require Export P_Reuse P_RunEx.
From Verif Require Import S_Fds.
Local Open Scope N_scope.

(* the environment with another number for the next ruleset *)
Definition next_fd (e : kenv) (fd : Z) : kenv :=
  KEnv (k_debug_logging e) (k_default_ret_log e) (k_ret_log e) (k_kill_process e) (k_softfail e) (k_libc_compat e)
    (k_allow_dup e) (k_block_symlinks e) (k_bind_prefixes e) (k_filter_errno e) (k_tsync_errno e) (k_spec_allow e)
    (k_landlock_abi e) fd.

(* ---- the second launch of the jail of C28_case ---- *)
Definition two_uses : list use :=
  (map (fun p => Call (fst p) (snd p)) run_history ++ [Ran (Some "/bin/first"%string) 4000; Failed (Some "/bin/other"%string)])%list.
Definition two_jail : jail := named (Some "/bin/other"%string) (parent_jail ex_env (Some "/bin/first"%string) 4000 run_jail).
Lemma used_calls e h : forall j j1 u j2, history e j h j1 -> used e j1 u j2 -> used e j (map (fun p => Call (fst p) (snd p)) h ++ u)%list j2.
Proof. induction h as [|[a rc] h IH]; intros j j1 u j2 H U; inversion H; subst; [exact U|]. cbn [map app fst snd]. econstructor; [eassumption|]. eapply IH; eassumption. Qed.
Lemma two_used : used ex_env minijail_new two_uses two_jail.
Proof. apply (used_calls ex_env run_history minijail_new run_jail); [exact run_built|]. apply u_ran with (ep := ex_env); [reflexivity|]. apply u_failed. apply u_nil. Qed.
Definition second_env : kenv := next_fd ex_env 6.
Definition two_t1 : list event := snd (M_Io.run ex_kernel [] (run_child ex_cfg true (with_ruleset second_env two_jail))).
Definition two_sent : jail := parent_jail second_env (Some "/bin/true"%string) 4242 two_jail.
Definition two_bytes : string := match minijail_to_fd any_addr two_sent 1800 slow with Some (Wrote _ b _) => b | _ => EmptyString end.
Definition two_t2 : list event :=
  snd (M_Io.run ex_kernel [] (fake_main ex_cfg true (fun _ => minijail_from_fd ex_env minijail_new whole two_bytes) run_envp)).
Lemma two_typed : c_typed two_sent.
Proof.
  assert (E : exists x, two_sent = x) by (eexists; reflexivity). destruct E as (x & E). rewrite E. vm_compute in E. subst x.
  unfold c_typed, text, i32; repeat ty.
Qed.
Lemma two_case : relaunched ex_cfg second_env second_env two_uses two_jail two_t1 two_t2 run_envp ["PATH=/bin"; "LD_PRELOAD=/lib/a.so"]%string.
Proof.
  split; [exact two_used|]. split; [reflexivity|]. split; [reflexivity|]. split; [vm_compute; reflexivity|].
  split; [exists ex_kernel; vm_compute; reflexivity|].
  exists (Some "/bin/true"%string), 4242%Z, any_addr, 1800%nat, slow.
  destruct (minijail_to_fd any_addr two_sent 1800 slow) as [res|] eqn:E; [|vm_compute in E; discriminate E].
  destruct (minijail_size any_addr two_sent) as [size|] eqn:Z; [|vm_compute in Z; discriminate Z].
  exists res, size, two_bytes, EmptyString, whole, true, ex_kernel. cbv zeta. fold two_sent.
  split; [exact two_typed|]. split; [exact any_addr_ok|]. split; [exact slow_real|]. split; [exact Z|].
  split; [vm_compute in Z; injection Z as <-; reflexivity|]. split; [exact E|].
  split; [|vm_compute; reflexivity].
  vm_compute in E. injection E as <-. vm_compute. reflexivity.
Qed.
Lemma two_calls : calls two_uses = run_history.
Proof. unfold two_uses, calls. rewrite flat_map_app. cbn [flat_map]. rewrite !List.app_nil_r. generalize run_history as l. induction l as [|[a rc] l IH]; [reflexivity|]. cbn [map flat_map app fst snd]. rewrite IH. reflexivity. Qed.
Lemma two_rest : calls two_uses = run_history /\ last_pid two_uses = 4000%Z /\
  In (C_prctl_seccomp (Some ex_prog), Yes 0 "") two_t2 /\ In (C_landlock_restrict 6, Yes 0 "") two_t2 /\
  In (C_unshare 131072, Yes 0 "") two_t1 /\ In (C_setresuid 1000, Yes 0 "") two_t2.
Proof.
  split; [exact two_calls|]. split; [vm_compute; reflexivity|]. split; [vm_compute; find_in|]. split; [vm_compute; find_in|]. split; vm_compute; find_in.
Qed.

(* ---- a namespace can be entered once ---- *)
Lemma enter_settings e u j : used e minijail_new u j ->
  (asked F_enter_vfs (calls u) -> hasf F_enter_vfs j = true /\ j_mountns_fd j = last_of mountns_of (calls u) 0%Z) /\
  (asked F_enter_net (calls u) -> hasf F_enter_net j = true /\ j_netns_fd j = last_of netns_of (calls u) 0%Z).
Proof.
  intros U. destruct (past_new _ _ _ U) as (h & a & b & c & j0 & H & E & _ & _ & ->). split; intros A; apply (asked_same _ _ E) in A.
  - split; [exact (proj2 (flag_asked e h j0 F_enter_vfs H eq_refl) A)|].
    rewrite <- (last_same _ _ E mountns_of (fun _ _ => eq_refl) 0%Z). exact (mountns_last e h j0 H).
  - split; [exact (proj2 (flag_asked e h j0 F_enter_net H eq_refl) A)|].
    rewrite <- (last_same _ _ E netns_of (fun _ _ => eq_refl) 0%Z). exact (netns_last e h j0 H).
Qed.
Lemma calls_app u v : calls (u ++ v) = (calls u ++ calls v)%list.
Proof. apply flat_map_app. Qed.
Lemma entered_closed e u j t filename pid : used e minijail_new u j ->
  (asked F_enter_vfs (calls u) -> let fd := last_of mountns_of (calls u) 0%Z in
     launcher_after j t fd = None /\ forall g, wants g (calls (u ++ [Ran filename pid])) (C_setns fd 131072)) /\
  (asked F_enter_net (calls u) -> let fd := last_of netns_of (calls u) 0%Z in
     launcher_after j t fd = None /\ forall g, wants g (calls (u ++ [Ran filename pid])) (C_setns fd 1073741824)).
Proof.
  intros U. destruct (enter_settings e u j U) as [V N]. rewrite calls_app. change (calls [Ran filename pid]) with (@nil (api * Z)). rewrite List.app_nil_r.
  split; intros A; cbv zeta.
  - destruct (V A) as [F D]. split; [|intros g; exact (w_enter_mountns g (calls u) A)].
    unfold launcher_after, close_entered. rewrite F, <- D. cbv zeta. destruct (hasf F_enter_net j); unfold close, upd; rewrite ?Z.eqb_refl; [destruct (_ =? _)%Z; reflexivity|reflexivity].
  - destruct (N A) as [F D]. split; [|intros g; exact (w_enter_net g (calls u) A)].
    unfold launcher_after, close_entered. rewrite F, <- D. cbv zeta. unfold close, upd. rewrite Z.eqb_refl. reflexivity.
Qed.

(* ---- rulesets ---- *)
Definition one_rule : jail := match replay ex_env minijail_new [A_fs_rx "/usr"%string] with Some (_, j) => j | None => minijail_new end.
(* the n-th run gets the ruleset number n + 6; 4 and 5 are the pipe *)
Definition nth_env (n : nat) : kenv := next_fd ex_env (Z.of_nat n + 6).
Fixpoint after_runs (n : nat) : jail := match n with O => one_rule | S m => parent_jail (nth_env m) None 100 (after_runs m) end.
Definition runs (n : nat) : list use := repeat (Ran None 100) n.
Lemma used_one e j u j1 ep f pid : used e j u j1 -> same_kernel e ep -> used e j (u ++ [Ran f pid])%list (parent_jail ep f pid j1).
Proof.
  intros U K. induction U as [j|j x rc j1 t j2 E U IH|j f0 t j2 U IH|j ep0 f0 pid0 t j2 K0 U IH].
  - apply u_ran with (ep := ep); [exact K|apply u_nil].
  - apply u_call with (j1 := j1); [exact E|exact IH].
  - apply u_failed. exact IH.
  - apply u_ran with (ep := ep0); [exact K0|exact IH].
Qed.
Lemma runs_used n : used ex_env minijail_new (Call (A_fs_rx "/usr"%string) 1 :: runs n) (after_runs n).
Proof.
  induction n as [|n IH]; [apply u_call with (j1 := one_rule); [vm_compute; reflexivity|apply u_nil]|].
  unfold runs. replace (S n) with (n + 1)%nat by lia. rewrite repeat_app.
  change (used ex_env minijail_new ((Call (A_fs_rx "/usr"%string) 1 :: runs n) ++ [Ran None 100])%list (after_runs (n + 1))).
  replace (n + 1)%nat with (S n) by lia. apply used_one; [exact IH|reflexivity].
Qed.
(* the launcher after n runs: its standard streams, the ruleset made when the
   rule was added, and one ruleset for each run *)
Definition after_runs_table (n : Z) : table := fun x =>
  if ((0 <=? x) && (x <=? 3) || (6 <=? x) && (x <? n + 6))%Z then Some (Z.to_N x + 10, (3 <=? x)%Z)%N else None.
Definition child_in (o : option (run_state * table)) (fd : Z) (pairs : list (Z * Z)) (close_all : bool) : option (Z * option (N * bool)) :=
  match o with
  | None => None
  | Some (st, t) =>
      match lowest_free 1024 t with
      | Some x => if (x =? fd)%Z then
          match child_setup 1024 close_all pairs (-1) false st (upd t fd (Some (500%N, true))) with
          | Some (st', _, t') => Some (fd, at_start st' t' fd)
          | None => None
          end
        else None
      | None => None
      end
  end.
Lemma child_in_some o fd pairs close_all r : child_in o fd pairs close_all = Some r ->
  exists st t, o = Some (st, t) /\ lowest_free 1024 t = Some fd /\
  exists st' elf' t', child_setup 1024 close_all pairs (-1) false st (upd t fd (Some (500%N, true))) = Some (st', elf', t') /\
    snd r = at_start st' t' fd.
Proof.
  unfold child_in. destruct o as [[st t]|]; [|discriminate]. destruct (lowest_free 1024 t) as [x|] eqn:Q; [|discriminate].
  destruct (Z.eqb_spec x fd) as [->|]; [|discriminate].
  destruct (child_setup _ _ _ _ _ _ _) as [[[st' elf'] t']|] eqn:C; [|discriminate]. intros X. injection X as <-.
  exists st, t. split; [reflexivity|]. split; [exact Q|]. exists st', elf', t'. split; [exact C|reflexivity].
Qed.
Definition child_of (n : nat) : bool -> option (Z * option (N * bool)) :=
  child_in (open_pipes 1024 true false false false false 1000 (after_runs_table (Z.of_nat n)))
    (k_landlock_fd (nth_env n)) (to_pass (with_ruleset (nth_env n) (after_runs n))).
Lemma child_of_in n close_all : child_of n close_all =
  child_in (open_pipes 1024 true false false false false 1000 (after_runs_table (Z.of_nat n)))
    (k_landlock_fd (nth_env n)) (to_pass (with_ruleset (nth_env n) (after_runs n))) close_all.
Proof. reflexivity. Qed.
Lemma rulesets_kept : child_of 127 true = Some (133%Z, Some (500%N, false)) /\ child_of 127 false = Some (133%Z, Some (500%N, false)).
Proof. vm_compute. split; reflexivity. Qed.
Lemma rulesets_lost : child_of 128 true = Some (134%Z, None) /\ child_of 128 false = Some (134%Z, None).
Proof. vm_compute. split; reflexivity. Qed.
Lemma rulesets_run_out : exists e ec u j t0 st t,
  used e minijail_new u j /\ same_kernel e ec /\ calls u = [(A_fs_rx "/usr"%string, 1%Z)] /\ length u = 129%nat /\
  open_pipes 1024 true false false false false 1000 t0 = Some (st, t) /\ lowest_free 1024 t = Some (k_landlock_fd ec) /\
  forall close_all, exists st' elf' t',
    child_setup 1024 close_all (to_pass (with_ruleset ec j)) (-1) false st (upd t (k_landlock_fd ec) (Some (500, true))) = Some (st', elf', t') /\
    at_start st' t' (k_landlock_fd ec) = None.
Proof.
  destruct rulesets_lost as [A B]. rewrite child_of_in in A, B.
  destruct (child_in_some _ _ _ _ _ A) as (st & t & P & Q & A1). destruct (child_in_some _ _ _ _ _ B) as (st2 & t2 & P2 & Q2 & B1).
  exists ex_env, (nth_env 128), (Call (A_fs_rx "/usr"%string) 1 :: runs 128), (after_runs 128), (after_runs_table (Z.of_nat 128)), st, t.
  split; [exact (runs_used 128)|]. split; [reflexivity|]. split; [vm_compute; reflexivity|]. split; [vm_compute; reflexivity|].
  split; [exact P|]. split; [exact Q|].
  assert (E : (st2, t2) = (st, t)) by (rewrite P in P2; injection P2 as <- <-; reflexivity).
  intros [].
  - destruct A1 as (st' & elf' & t' & C & S). exists st', elf', t'. split; [exact C|symmetry; exact S].
  - apply (f_equal (fun p => (fst p, snd p))) in E. injection E as -> ->.
    destruct B1 as (st' & elf' & t' & C & S). exists st', elf', t'. split; [exact C|symmetry; exact S].
Qed.
(* a jail that enters a mount namespace *)
Lemma enter_case : exists j, used ex_env minijail_new [Call (A_namespace_enter_vfs 7) 0] j /\ asked F_enter_vfs (calls [Call (A_namespace_enter_vfs 7) 0]) /\
  last_of mountns_of (calls [Call (A_namespace_enter_vfs 7) 0]) 0%Z = 7%Z.
Proof.
  destruct (api_step ex_env minijail_new (A_namespace_enter_vfs 7)) as [rc j| |] eqn:E; try (vm_compute in E; discriminate E).
  assert (rc = 0%Z) as -> by (vm_compute in E; injection E; intros; congruence).
  exists j. split; [exact (u_call _ _ _ _ _ _ _ E (u_nil _ _))|]. split; [|reflexivity].
  exists (A_namespace_enter_vfs 7), 0%Z. split; [left; reflexivity|left; reflexivity].
Qed.
