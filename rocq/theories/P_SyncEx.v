(* Concrete launches for the set-up by the parent. *)
From Verif Require Export P_EnterEx.
From Verif Require Export P_Sync.
Local Open Scope N_scope.

Definition sync_calls : list api :=
  [A_namespace_pids; A_namespace_user; A_uidmap "0 1000 1,1 2000 5"; A_gidmap "0 100 1"; A_namespace_user_disable_setgroups;
   A_rlimit 7 64 64; A_rlimit 4 0 0; A_add_to_cgroup "/sys/fs/cgroup/a/tasks"; A_write_pid_file "/run/x.pid"; A_change_uid 5; A_forward_signals]%string.
Definition sync_history : list (api * Z) := match replay ex_env minijail_new sync_calls with Some (h, _) => h | None => [] end.
Definition sync_jail : jail := match replay ex_env minijail_new sync_calls with Some (_, j) => j | None => minijail_new end.
Lemma sync_built : history ex_env minijail_new sync_history sync_jail.
Proof. apply (replay_history ex_env sync_calls). vm_compute. reflexivity. Qed.

Lemma reach_works after s0 c tol l ch t : reaches after s0 (Sys (Setting_up ((c, tol) :: l)) ch t) ->
  reaches after s0 (Sys (Setting_up l) ch (t ++ [Parent c 0])).
Proof. intros R. eapply re_step; [exact R|]. exact (st_works after (Sys (Setting_up ((c, tol) :: l)) ch t) c tol l eq_refl). Qed.
Lemma reach_setup after s0 ch : forall l t, reaches after s0 (Sys (Setting_up l) ch t) ->
  reaches after s0 (Sys Done ch (t ++ map (fun s => Parent (fst s) 0) l)).
Proof.
  induction l as [|[c tol] l IH]; intros t R.
  - eapply re_step; [exact R|]. exact (st_complete after (Sys (Setting_up []) ch t) eq_refl).
  - apply reach_works in R. apply IH in R. rewrite <- app_assoc in R. exact R.
Qed.
Lemma reach_child after s0 p : forall l t, reaches after s0 (Sys p (Going l) t) ->
  reaches after s0 (Sys p (Going []) (t ++ map (fun c => Child c 0) l)).
Proof.
  induction l as [|c l IH]; intros t R; [rewrite app_nil_r; exact R|].
  assert (R1 : reaches after s0 (Sys p (Going l) (t ++ [Child c 0]))) by (eapply re_step; [exact R|exact (st_child after (Sys p (Going (c :: l)) t) c l eq_refl)]).
  apply IH in R1. rewrite <- app_assoc in R1. exact R1.
Qed.
(* A launch where everything works is possible, for every jail. *)
Lemma can_finish pid j : reaches (child_after j) (start pid j)
  (Sys Done (Going []) (map (fun s => Parent (fst s) 0) (parent_setup pid j) ++ map (fun c => Child c 0) (child_after j))).
Proof.
  destruct (sync_child j) eqn:S1.
  - apply reach_child. eapply re_step with (s' := Sys Done Waiting (map (fun s => Parent (fst s) 0) (parent_setup pid j))).
    + refine (reach_setup (child_after j) (start pid j) Waiting (parent_setup pid j) [] _). unfold start. rewrite S1. apply re_refl.
    + pose proof (st_eof (child_after j) (Sys Done Waiting (map (fun s => Parent (fst s) 0) (parent_setup pid j))) eq_refl eq_refl) as X.
      unfold upd in X. cbn [s_parent s_trace] in X. rewrite app_nil_r in X. exact X.
  - rewrite (not_synced pid j S1). apply (reach_child (child_after j) (start pid j) Done (child_after j) []).
    eapply re_step; [apply re_refl|]. unfold start. rewrite S1, (not_synced pid j S1). exact (st_complete (child_after j) (Sys (Setting_up []) (Going (child_after j)) []) eq_refl).
Qed.
Lemma sync_case : reaches (child_after sync_jail) (start 4242 sync_jail)
  (Sys Done (Going []) 
    [Parent (ForwardTo 4242) 0; Parent (WritePid (Own "/run/x.pid"%string) 4242) 0; Parent (WritePid (Own "/sys/fs/cgroup/a/tasks"%string) 4242) 0;
     Parent (Prlimit 4242 (Rlimit 7 64 64)) 0; Parent (Prlimit 4242 (Rlimit 4 0 0)) 0;
     Parent (WriteProc 4242 "uid_map" ("0 1000 1" ++ String c_nl "1 2000 5")) 0; Parent (WriteProc 4242 "setgroups" "deny") 0;
     Parent (WriteProc 4242 "gid_map" "0 100 1") 0; Child (Setresgid 0) 0; Child (Setresuid 5) 0; Child Goes_on 0]).
Proof. pose proof (can_finish 4242 sync_jail) as R. vm_compute in R |- *. exact R. Qed.

(* The parent is killed before the limits are set. *)
Definition limit_history : list (api * Z) := [(A_rlimit 7 64 64, 0%Z)].
Lemma orphan : exists j s, history ex_env minijail_new limit_history j /\ reaches (child_after j) (start 4242 j) s /\
  by_parent (s_trace s) = [] /\ In (Child Goes_on 0) (s_trace s) /\ ~ set_up limit_history 4242 [].
Proof.
  eexists. exists (Sys Gone (Going []) [Parent_killed; Child Goes_on 0]).
  split; [apply (replay_history ex_env (map fst limit_history)); vm_compute; reflexivity|].
  split; [|split; [reflexivity|split; [right; left; reflexivity|]]].
  - eapply re_step; [eapply re_step; [eapply re_step; [apply re_refl|]|]|].
    + eapply st_parent_killed.
    + eapply st_eof; reflexivity.
    + vm_compute. match goal with |- step ?a ?s _ => exact (st_child a s Goes_on [] eq_refl) end.
  - intros (fwd & file & maps & deny & E & _). symmetry in E. apply app_eq_nil in E. destruct E as [_ E]. apply app_eq_nil in E. destruct E as [_ E]. apply app_eq_nil in E. destruct E as [_ E]. discriminate E.
Qed.
