(* Specification of the API limits (libminijail.h). *)
From Verif Require Export M_Jail.
Local Open Scope N_scope.

(* The entries in use. *)
Definition rlimits_in_use (j : jail) : list rlimit := firstn (N.to_nat (j_rlimit_count j)) (j_rlimits j).
Definition cgroups_in_use (j : jail) : list (cell string) := firstn (N.to_nat (j_cgroup_count j)) (j_cgroups j).
Definition fds_in_use (j : jail) : list (Z * Z) := firstn (N.to_nat (j_preserved_fd_count j)) (j_preserved_fds j).

Definition within_limits (j : jail) : Prop :=
  (length (rlimits_in_use j) <= 32)%nat /\ NoDup (map rl_type (rlimits_in_use j)) /\
  (length (cgroups_in_use j) <= 10)%nat /\
  (length (fds_in_use j) <= 128)%nat /\ Forall (fun p => 0 <= fst p /\ 0 <= snd p)%Z (fds_in_use j) /\
  ~ (hasf F_use_caps j = true /\ hasf F_capbset_drop j = true) /\
  ~ (hasf F_chroot j = true /\ hasf F_pivot_root j = true).

(* The counters are the lengths of the arrays' used parts. *)
Definition counted (j : jail) : Prop :=
  N.of_nat (length (rlimits_in_use j)) = j_rlimit_count j /\
  N.of_nat (length (cgroups_in_use j)) = j_cgroup_count j /\
  N.of_nat (length (fds_in_use j)) = j_preserved_fd_count j.

(* What an accepted call adds (0: accepted). *)
Definition rlimit_added (a : api) (rc : Z) : list rlimit :=
  match a with A_rlimit t c m => if (rc =? 0)%Z then [Rlimit t c m] else [] | _ => [] end.
Definition cgroup_added (a : api) (rc : Z) : list (cell string) :=
  match a with A_add_to_cgroup p => if (rc =? 0)%Z then [Own p] else [] | _ => [] end.
Definition fd_added (a : api) (rc : Z) : list (Z * Z) :=
  match a with A_preserve_fd p c => if (rc =? 0)%Z then [(p, c)] else [] | _ => [] end.
Definition remount_added (a : api) (rc : Z) : list remount :=
  match a with A_add_remount n m => if (rc =? 0)%Z then [Remount m n] else [] | _ => [] end.
Definition hook_added (a : api) (rc : Z) : list hook :=
  match a with A_add_hook f p e => if (rc =? 0)%Z then [Hook f p e] else [] | _ => [] end.

(* A history with the return code of each call. *)
Inductive history (e : kenv) : jail -> list (api * Z) -> jail -> Prop :=
  | h_nil j : history e j [] j
  | h_call j a rc j1 t j2 : api_step e j a = ARet rc j1 -> history e j1 t j2 -> history e j ((a, rc) :: t) j2.
Definition accepted {A} (f : api -> Z -> list A) (h : list (api * Z)) : list A :=
  flat_map (fun p => f (fst p) (snd p)) h.

(* The one-shot settings: the value of the first call in the history. *)
Definition first_of {A} (f : api -> option A) (h : list (api * Z)) : option A :=
  List.hd_error (flat_map (fun p => match f (fst p) with Some x => [x] | None => [] end) h).
Definition root_of (a : api) : option string :=
  match a with A_enter_chroot d | A_enter_pivot_root d => Some d | _ => None end.
Definition hostname_of (a : api) : option string :=
  match a with A_namespace_set_hostname n => Some n | _ => None end.
Definition preload_of (a : api) : option string :=
  match a with A_set_preload_path p => Some p | _ => None end.
Definition content {A} (c : cell A) : option A := match c with Own a => Some a | _ => None end.

(* The mounts an accepted call adds: flags 0 mean nodev, noexec and nosuid
   (4, 8, 2); a tmpfs without data gets restrictive data; a bind mount is
   read-only (1) unless asked to be writeable. *)
Definition effective_flags (f : N) : N := if f =? 0 then 14 else f.
Definition effective_data (type : string) (d : option string) : option string :=
  if String.eqb type "tmpfs" && (match d with None => true | Some x => String.eqb x "" end)
  then Some "mode=0755,size=10M"%string else d.
Definition mount_added (a : api) (rc : Z) : list mountpoint :=
  if negb (rc =? 0)%Z then [] else
  match a with
  | A_mount_with_data s d t f x => [Mount s d t (effective_data t x) (effective_flags f)]
  | A_mount s d t f => [Mount s d t (effective_data t None) (effective_flags f)]
  | A_bind s d w _ => [Mount s d "minijail_bind" None (if w then 4096 else 4097)]
  | _ => []
  end.

(* ---- Seccomp options ---- *)
(* The answer to a system call the policy does not allow. *)
Definition violation_action (logging tsync ret_log kill_process : bool) : action :=
  match logging, tsync, ret_log, kill_process with
  | true, _, true, _ => ACT_LOG               (* log and continue *)
  | true, _, false, _ => ACT_TRAP             (* the handler logs and dies *)
  | false, true, _, true => ACT_KILL_PROCESS
  | false, true, _, false => ACT_TRAP         (* default disposition: the process dies *)
  | false, false, _, _ => ACT_KILL
  end.
Definition called (a : api) (h : list (api * Z)) : Prop := exists rc, In (a, rc) h.
