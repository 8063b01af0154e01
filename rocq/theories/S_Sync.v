(* What the launching process is to set up for the child, in terms of the
   configuration calls. *)
From Verif Require Export M_Sync S_Settings.
Local Open Scope N_scope.

Definition pid_file_of (a : api) : option (cell string) := match a with A_write_pid_file p => Some (Own p) | _ => None end.
Definition uid_map_of (a : api) : option (option string) := match a with A_uidmap m => Some (Some m) | _ => None end.
Definition gid_map_of (a : api) : option (option string) := match a with A_gidmap m => Some (Some m) | _ => None end.

(* [l] is [due] if [P] holds, nothing otherwise. *)
Definition when {A} (P : Prop) (due l : list A) : Prop := (P -> l = due) /\ (~ P -> l = []).

(* An id map: one entry per line. *)
Definition map_file (pid : N) (name : string) (m : option string) : list pcall :=
  match m with Some m => [WriteProc pid name (commas_to_newlines m)] | None => [] end.
(* Forwarding of signals, the pid file, the control groups, the limits, the id maps; setgroups is
   denied before the group map is written. *)
Definition set_up (h : list (api * Z)) (pid : N) (l : list pcall) : Prop :=
  exists fwd file maps deny,
  (l = fwd ++ file ++ map (fun p => WritePid p pid) (accepted cgroup_added h) ++ map (Prlimit pid) (accepted rlimit_added h) ++ maps)%list /\
  when (asked F_forward_signals h) [ForwardTo pid] fwd /\
  when (asked F_pid_file h) [WritePid (last_of pid_file_of h Null) pid] file /\
  when (asked F_userns h)
    (map_file pid "uid_map" (last_of uid_map_of h None) ++ deny ++ map_file pid "gid_map" (last_of gid_map_of h None))%list maps /\
  when (asked F_disable_setgroups h /\ last_of gid_map_of h None <> None) [WriteProc pid "setgroups" "deny"] deny.

(* The parent's calls in a trace, and their results. *)
Definition by_parent (t : list event) : list (pcall * N) :=
  flat_map (fun e => match e with Parent c err => [(c, err)] | _ => [] end) t.
(* A call worked; only a kernel without /proc/<pid>/setgroups is tolerated. *)
Definition fine (r : pcall * N) : Prop :=
  snd r = 0 \/ (exists pid, fst r = WriteProc pid "setgroups" "deny" /\ snd r = 2).

(* The child's calls after the synchronization, and their results: with id
   maps it takes the chosen group and user of the new namespace, or root. *)
Definition by_child (t : list event) : list (ccall * N) :=
  flat_map (fun e => match e with Child c err => [(c, err)] | _ => [] end) t.
Definition takes_ids (h : list (api * Z)) (l : list ccall) : Prop :=
  exists g u, l = (g ++ u ++ [Goes_on])%list /\
  when (asked F_userns h /\ last_of gid_map_of h None <> None) [Setresgid (last_of gid_of h 0)] g /\
  when (asked F_userns h /\ last_of uid_map_of h None <> None) [Setresuid (last_of uid_of h 0)] u.
