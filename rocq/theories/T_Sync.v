(* C57: the launching process sets up the child before the child goes on.
   [h] is any sequence of configuration calls with their return codes, [j] the
   jail it builds, [pid] the child; [reaches]: any interleaving of the parent
   and the child. *)
From Verif Require Import S_Sync P_SyncEx.
Local Open Scope N_scope.

(* Before the child does anything after the synchronization (taking its ids in
   the user namespace, entering the jail, running the program), the parent made
   exactly the calls that were asked for, in order, and they worked; it makes
   none later.  In particular no call failed.
   Partial: the parent must not be killed meanwhile, see below. *)
Theorem C57_set_up_first_partial : forall e h j pid s,
  history e minijail_new h j -> reaches (child_after j) (start pid j) s -> ~ In Parent_killed (s_trace s) ->
  forall t1 c err t2, s_trace s = t1 ++ Child c err :: t2 ->
  set_up h pid (map fst (by_parent t1)) /\ Forall fine (by_parent t1) /\ by_parent t2 = [].
Proof. exact setup_first. Qed.
Print Assumptions C57_set_up_first_partial.
Example C57_case : history ex_env minijail_new sync_history sync_jail /\
  reaches (child_after sync_jail) (start 4242 sync_jail)
  (Sys Done (Going []) 
    [Parent (ForwardTo 4242) 0; Parent (WritePid (Own "/run/x.pid"%string) 4242) 0; Parent (WritePid (Own "/sys/fs/cgroup/a/tasks"%string) 4242) 0;
     Parent (Prlimit 4242 (Rlimit 7 64 64)) 0; Parent (Prlimit 4242 (Rlimit 4 0 0)) 0;
     Parent (WriteProc 4242 "uid_map" ("0 1000 1" ++ String c_nl "1 2000 5")) 0; Parent (WriteProc 4242 "setgroups" "deny") 0;
     Parent (WriteProc 4242 "gid_map" "0 100 1") 0; Child (Setresgid 0) 0; Child (Setresuid 5) 0; Child Goes_on 0]).
Proof. split; [exact sync_built|exact sync_case]. Qed.
(* The child goes on to enter the jail only after it took the chosen ids in its
   user namespace, for which it had id maps: the group first, then the user. *)
Theorem C57_takes_ids : forall e h j pid s,
  history e minijail_new h j -> reaches (child_after j) (start pid j) s -> In (Child Goes_on 0) (s_trace s) ->
  takes_ids h (map fst (by_child (s_trace s))) /\ Forall (fun r => snd r = 0) (by_child (s_trace s)).
Proof. exact child_goes_on. Qed.
Print Assumptions C57_takes_ids.
(* For every jail there is a run in which everything works and the child goes
   on. *)
Theorem C57_can_finish : forall pid j, reaches (child_after j) (start pid j)
  (Sys Done (Going []) (map (fun s => Parent (fst s) 0) (parent_setup pid j) ++ map (fun c => Child c 0) (child_after j))).
Proof. exact can_finish. Qed.
Print Assumptions C57_can_finish.
(* A parent that is killed closes the pipe, which the child takes for the end
   of the set-up: the program runs without its limits (or control groups, or
   id maps). *)
Theorem C57_parent_killed_refuted : exists j s, history ex_env minijail_new limit_history j /\
  reaches (child_after j) (start 4242 j) s /\
  by_parent (s_trace s) = [] /\ In (Child Goes_on 0) (s_trace s) /\ ~ set_up limit_history 4242 [].
Proof. exact orphan. Qed.
Print Assumptions C57_parent_killed_refuted.
