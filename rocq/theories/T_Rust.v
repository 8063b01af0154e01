(* C75-C78: the Rust bindings. *)
From Verif Require Import S_Rust P_Rust P_RustRun P_RustEx.
From Verif Require M_Sync.
Local Open Scope N_scope.

(* ---- C75: configuring a jail from Rust ---- *)
(* Missing from the full statement: change_user and change_group, which do not
   look at what the library answered. *)
Theorem C75_ok_partial : forall o e j m j', rust_step o e j m = RsOk tt j' ->
  acceptable o m /\ exists a rc, stands_for o m a /\ api_step e j a = ARet rc j' /\ (tells m -> rc = 0%Z).
Proof. exact method_ok. Qed.
Print Assumptions C75_ok_partial.
Theorem C75_error : forall o e j m x j', rust_step o e j m = RsErr x j' ->
  j' = j /\ (~ acceptable o m \/ exists a rc, stands_for o m a /\ api_step e j a = ARet rc j /\ rc <> 0%Z /\ tells m).
Proof. exact method_err. Qed.
Print Assumptions C75_error.
Theorem C75_reaches : forall o e j m, acceptable o m -> exists a, stands_for o m a /\
  match api_step e j a with
  | ARet rc j' => if (rc =? 0)%Z then rust_step o e j m = RsOk tt j'
                  else tells m -> exists x, rust_step o e j m = RsErr x j
  | ADie => rust_step o e j m = RsDie
  | AUb => rust_step o e j m = RsUb
  end.
Proof. exact method_reaches. Qed.
Print Assumptions C75_reaches.
(* a program that configures a jail makes, in order, the calls of its methods *)
Theorem C75_history : forall o e l j r j', rust_run o e j l = Some (r, j') -> exists h, history e j h j' /\ S_Rust.made o l r h.
Proof. exact rust_made. Qed.
Print Assumptions C75_history.
Example C75_case : rust_run ex_out ex_env minijail_new ex_methods = Some (ex_results, ex_made).
Proof. exact ex_made_ok. Qed.
(* the bytes determine the filter *)
Theorem C75_program_bytes : forall o m a b, stands_for o m a -> stands_for o m b -> a = b.
Proof. exact stands_once. Qed.
Print Assumptions C75_program_bytes.
(* Found: a user or group nobody knows is accepted and changes nothing... *)
Theorem C75_unknown_user_refuted : forall o e j u rc, no_nul u -> o_user o u = inl rc -> rust_step o e j (R_change_user u) = RsOk tt j.
Proof. exact unknown_user. Qed.
Print Assumptions C75_unknown_user_refuted.
Theorem C75_unknown_group_refuted : forall o e j g rc, no_nul g -> o_group o g = inl rc -> rust_step o e j (R_change_group g) = RsOk tt j.
Proof. exact unknown_group. Qed.
Print Assumptions C75_unknown_group_refuted.
(* ... so that the program runs as the user who launched it. *)
Theorem C75_runs_as_launcher_refuted : forall o g ec ep ms r j l d j' h t1 t2 envp envp' groups_of s s2,
  rust_run o (g_env g) minijail_new ms = Some (r, j) -> prepare_fds (g_env g) l (Some d) j = RsOk tt j' ->
  launched g ec ep h j' t1 t2 envp envp' -> (forall m, In m ms -> gives_no_user o m) ->
  same_ids (after groups_of (fun _ c => c) s t1) s2 -> uids (after groups_of (fun _ c => c) s2 t2) = uids s.
Proof. exact run_as_launcher. Qed.
Print Assumptions C75_runs_as_launcher_refuted.
Example C75_runs_case :
  rust_run ex_out (g_env ex_cfg) minijail_new ex_methods = Some (ex_results, ex_made) /\ In (R_change_user "service") ex_methods /\
  prepare_fds (g_env ex_cfg) ex_fds (Some 8%Z) ex_made = RsOk tt ex_ready /\
  (exists h envp', launched ex_cfg ex_env ex_env h ex_ready rs_t1 rs_t2 rs_envp envp') /\ forall m, In m ex_methods -> gives_no_user ex_out m.
Proof. exact (conj ex_made_ok (conj (or_introl eq_refl) (conj ex_ready_ok (conj rs_case ex_no_user)))). Qed.
(* Found: no bytes at all are accepted as a filter. *)
Theorem C75_empty_program_refuted : exists o e j m j', m = R_parse_seccomp_bytes "" 4096 /\ rust_step o e minijail_new R_no_new_privs = RsOk tt j /\
  rust_step o e j m = RsOk tt j' /\ j_filter_prog j' = Own [].
Proof. exact empty_program. Qed.
Print Assumptions C75_empty_program_refuted.

(* ---- C76: wait and kill ---- *)
(* Missing from the full statement: programs killed by SIGSYS, and exit codes
   126, 127 and 129-192. *)
Theorem C76_endings_partial : forall sigsys pid n e rest, (0 < pid)%Z -> possible e -> ~ reserved e ->
  (forall s c, e = S_Wait.Killed s c -> s <> sigsys) ->
  rust_wait 64 sigsys pid (repeat (inl M_Wait.EINTR) n ++ inr (status_of e) :: rest) = Some (documented sigsys e).
Proof. exact wait_says. Qed.
Print Assumptions C76_endings_partial.
Example C76_endings_case : possible (Exited 77) /\ ~ reserved (Exited 77) /\ possible (S_Wait.Killed 9 true) /\ ~ reserved (S_Wait.Killed 9 true) /\
  documented 31 (Exited 77) = T_err (E_ReturnCode 77) /\ documented 31 (S_Wait.Killed 9 true) = T_err (E_Killed 9) /\ documented 31 (Exited 0) = T_ok.
Proof. exact endings_case. Qed.
Theorem C76_conventional : forall sigsys pid n c rest, (0 < pid)%Z ->
  (c = 127 -> rust_wait 64 sigsys pid (repeat (inl M_Wait.EINTR) n ++ inr (status_of (Exited c)) :: rest) = Some (T_err E_NoCommand)) /\
  (c = 126 -> rust_wait 64 sigsys pid (repeat (inl M_Wait.EINTR) n ++ inr (status_of (Exited c)) :: rest) = Some (T_err E_NoAccess)).
Proof. exact wait_conventional. Qed.
Print Assumptions C76_conventional.
(* success means that the process exited with 0 *)
Theorem C76_success : forall rtmax sigsys pid answers, endings answers ->
  Forall (fun a => match a with inl n => n <> 0 | inr _ => True end) answers ->
  rust_wait rtmax sigsys pid answers = Some T_ok -> In (inr (status_of (Exited 0))) answers.
Proof. exact wait_ok_means. Qed.
Print Assumptions C76_success.
Example C76_success_case : endings [inl 4; inr 0] /\ Forall (fun a : M_Wait.answer N => match a with inl n => n <> 0 | inr _ => True end) [inl 4; inr 0] /\
  rust_wait 64 31 4242 [inl 4; inr 0] = Some T_ok.
Proof. exact success_case. Qed.
(* no panic *)
Theorem C76_wait_no_panic : forall rtmax sigsys pid answers, endings answers -> rust_wait rtmax sigsys pid answers <> Some T_panic.
Proof. exact wait_no_panic. Qed.
Print Assumptions C76_wait_no_panic.
Theorem C76_kill_no_panic : forall rtmax sigsys pid k answers, endings answers -> rust_kill rtmax sigsys pid k answers <> Some T_panic.
Proof. exact kill_no_panic. Qed.
Print Assumptions C76_kill_no_panic.
(* kill is wait once the signal was sent *)
Theorem C76_kill : forall rtmax sigsys pid answers, (0 < pid)%Z -> rust_kill rtmax sigsys pid (inr tt) answers = rust_wait rtmax sigsys pid answers.
Proof. exact rust_kill_waits. Qed.
Print Assumptions C76_kill.
(* a program killed by a signal under the init that the library provides *)
Theorem C76_under_init : forall sigsys pid root s core l err rest code, (0 < pid)%Z -> possible (S_Wait.Killed s core) -> ended root (S_Wait.Killed s core) l ->
  init root (reaped l ++ WaitFails err :: rest) = M_Wait.Exits code ->
  rust_wait 64 sigsys pid [inr (status_of (Exited code))] = Some (T_err (E_ReturnCode 254)).
Proof. exact wait_under_init. Qed.
Print Assumptions C76_under_init.
Example C76_under_init_case : ended 2 (S_Wait.Killed 9 false) [(5, Exited 1); (2, S_Wait.Killed 9 false); (7, Exited 0)] /\
  init 2 (reaped [(5, Exited 1); (2, S_Wait.Killed 9 false); (7, Exited 0)] ++ WaitFails 10 :: []) = M_Wait.Exits 254.
Proof. exact under_init_case. Qed.
(* Found: an exit code can look like a signal. *)
Theorem C76_code_as_signal_refuted : forall sigsys pid n c rest, (0 < pid)%Z -> 129 <= c <= 192 ->
  rust_wait 64 sigsys pid (repeat (inl M_Wait.EINTR) n ++ inr (status_of (Exited c)) :: rest) = Some (T_err (E_Killed (c - 128))).
Proof. exact wait_code_as_signal. Qed.
Print Assumptions C76_code_as_signal_refuted.
(* Found: a program that violated its policy is reported as an exit code; the
   error SeccompViolation is never returned. *)
Theorem C76_violation_refuted : forall sigsys pid n core rest, (0 < pid)%Z -> 1 <= sigsys <= 64 ->
  rust_wait 64 sigsys pid (repeat (inl M_Wait.EINTR) n ++ inr (status_of (S_Wait.Killed sigsys core)) :: rest) = Some (T_err (E_ReturnCode 253)).
Proof. exact wait_violation. Qed.
Print Assumptions C76_violation_refuted.
Theorem C76_never_violation_refuted : forall rtmax ret rc, translate_wait_error rtmax ret <> T_err (E_SeccompViolation rc).
Proof. exact never_violation. Qed.
Print Assumptions C76_never_violation_refuted.

(* ---- C77: programs started from Rust ---- *)
(* [t0] are the descriptors of the launching process; the library opens
   /dev/null ([nf]) as [d].  Missing from the full statement: jails that were
   used before (below). *)
Theorem C77_descriptors_partial : forall o e ec ms r j l lim nf t0 d t1 j' sync base elf st t,
  rust_run o e minijail_new ms = Some (r, j) ->
  open_null lim nf t0 = Some (d, t1) -> prepare_fds e l (Some d) j = RsOk tt j' ->
  started lim true false false false sync base (passed ec j') elf t1 st t ->
  NoDup (map snd l) -> (forall c, In c (map snd l) -> (c < lim)%Z) ->
  (forall p, In p (map fst l) -> t0 p <> None) -> (elf = -1 \/ t0 elf <> None)%Z ->
  exists st' elf' t', child_setup lim (closes j') (passed ec j') elf sync st t = Some (st', elf', t') /\
  (forall p c f, In (p, c) l -> holds t0 p f -> at_start st' t' c = Some (f, false)) /\
  (forall i, std i -> ~ In i (map snd l) -> at_start st' t' i = Some (nf, false)) /\
  (forall x f, holds (at_start st' t') x f ->
     (exists p, In (p, x) l /\ holds t0 p f) \/ (std x /\ ~ In x (map snd l) /\ f = nf) \/
     (x = elf' /\ elf <> -1 /\ holds t0 elf f)%Z \/ (x = fst (rs_pipe st') /\ f = base)).
Proof. exact rust_descriptors. Qed.
Print Assumptions C77_descriptors_partial.
Example C77_case : open_null 1024 20 ex_open = Some (8%Z, ex_null) /\ prepare_fds ex_env ex_fds (Some 8%Z) ex_made = RsOk tt ex_ready /\
  (exists st t, started 1024 true false false false false 100 (passed ex_env ex_ready) 4 ex_null st t) /\
  NoDup (map snd ex_fds) /\ (forall c, In c (map snd ex_fds) -> (c < 1024)%Z) /\
  (forall p, In p (map fst ex_fds) -> ex_open p <> None) /\ ex_open 4%Z <> None.
Proof. exact (conj ex_null_ok (conj ex_ready_ok (conj ex_rust_started ex_rust_sources))). Qed.
(* the launching process keeps its descriptors, and no others *)
Theorem C77_launcher : forall o e ec ms r j l lim nf t0 d t1 j' sync base elf st t,
  rust_run o e minijail_new ms = Some (r, j) ->
  open_null lim nf t0 = Some (d, t1) -> prepare_fds e l (Some d) j = RsOk tt j' ->
  started lim true false false false sync base (passed ec j') elf t1 st t ->
  forall x, close (launcher_after j' (snd (parent_result false false false st t))) d x = t0 x.
Proof. exact rust_launcher. Qed.
Print Assumptions C77_launcher.
(* fork is refused in a process with several threads *)
Theorem C77_threads : forall e l null j disabled tasks, fork_prepare e disabled tasks l null j =
  if disabled then prepare_fds e l null j
  else match tasks with
       | None => RsErr E_CheckingMultiThreaded j
       | Some ts => if (length (filter negb ts) =? 1)%nat then prepare_fds e l null j else RsErr E_ForkingWhileMultiThreaded j
       end.
Proof. exact threads. Qed.
Print Assumptions C77_threads.
(* arguments are passed as they are, or the first bad one is reported *)
Theorem C77_arguments : forall l, match to_execve_cstring_array l with
  | inr t => t = l /\ Forall no_nul l
  | inl s => exists l1 l2, l = (l1 ++ s :: l2)%list /\ Forall no_nul l1 /\ ~ no_nul s
  end.
Proof. exact to_execve. Qed.
Print Assumptions C77_arguments.
(* Found: a jail made in Rust starts one program only.  The processes of later
   runs end before they execute anything... *)
Theorem C77_again_refuted : forall o e ec ms r j l d j' ep f pid l2 d2 j3 lim ca elf sync st t,
  rust_run o e minijail_new ms = Some (r, j) -> prepare_fds e l (Some d) j = RsOk tt j' ->
  prepare_fds e l2 (Some d2) (parent_jail ep f pid j') = RsOk tt j3 ->
  child_setup lim ca (passed ec j3) elf sync st t = None.
Proof. exact again. Qed.
Print Assumptions C77_again_refuted.
Example C77_again_case : prepare_fds ex_env ex_fds (Some 8%Z) ex_made = RsOk tt ex_ready /\
  exists j3, prepare_fds ex_env [(3, 3)]%Z (Some 8%Z) (parent_jail ex_env (Some "/bin/true"%string) 4242 ex_ready) = RsOk tt j3.
Proof. exact (conj ex_ready_ok ex_second). Qed.
(* ... also after a run that returned an error. *)
Theorem C77_after_error_refuted : exists o e ms r j l err j1 l2 d j2, rust_run o e minijail_new ms = Some (r, j) /\
  prepare_fds e l (Some d) j = RsErr err j1 /\ prepare_fds e l2 (Some d) j1 = RsOk tt j2 /\ NoDup (map snd l2) /\
  forall lim ca elf sync st t, child_setup lim ca (passed e j2) elf sync st t = None.
Proof. exact failed_dies. Qed.
Print Assumptions C77_after_error_refuted.

(* ---- C78: copies of a jail ---- *)
(* Missing from the full statement: jails with a pid file, id maps, a preload
   path, remounts or hooks, and filters that are not installed (below). *)
Theorem C78_identical_partial : forall addr e e' h j, history e minijail_new h j -> sendable j -> nonnull addr ->
  k_landlock_abi e' = k_landlock_abi e -> k_softfail e = false ->
  (forall a rc, In (a, rc) h -> copied a) -> filter_ready h -> try_clone addr e' j = Clone j.
Proof. exact clone_identical. Qed.
Print Assumptions C78_identical_partial.
Example C78_case : history ex_env minijail_new copy_history copy_jail /\ map fst copy_history = copy_calls /\ sendable copy_jail /\ nonnull any_addr /\
  k_softfail ex_env = false /\ (forall a rc, In (a, rc) copy_history -> copied a) /\ filter_ready copy_history.
Proof. exact (conj copy_built (conj eq_refl (conj copy_sendable (conj any_addr_ok (conj eq_refl copy_copied))))). Qed.
(* Found: what a copy never has. *)
Theorem C78_lacks_refuted : forall addr e e' h j, history e minijail_new h j -> sendable j -> nonnull addr ->
  k_landlock_abi e' = k_landlock_abi e -> k_softfail e = false ->
  exists c, try_clone addr e' j = Clone c /\ (forall f, hasf f c = hasf f j) /\
    (forall pid base text ok, ~ In (M_Sync.WriteProc pid base text, ok) (M_Sync.parent_setup pid c)) /\
    M_Sync.child_after c = [M_Sync.Goes_on] /\
    (forall pid, asked F_pid_file h -> In (M_Sync.WritePid Null pid) (map fst (M_Sync.parent_setup pid c))) /\
    j_remounts c = [] /\ j_hooks c = [] /\ j_preload_path c = Null /\
    (~ asked F_seccomp_filter h -> j_filter_prog c = Null).
Proof. exact clone_without. Qed.
Print Assumptions C78_lacks_refuted.
(* a jail with a user namespace, its maps, a pid file and a filter, and its copy *)
Theorem C78_identical_refuted : exists e addr h j c, history e minijail_new h j /\ sendable j /\ nonnull addr /\ try_clone addr e j = Clone c /\
  (forall pid, map fst (M_Sync.parent_setup pid j) =
    [M_Sync.WritePid (Own "/run/app.pid"%string) pid; M_Sync.WriteProc pid "uid_map" "0 1000 1"; M_Sync.WriteProc pid "gid_map" "0 1000 1"]) /\
  (forall pid, map fst (M_Sync.parent_setup pid c) = [M_Sync.WritePid Null pid]) /\
  M_Sync.child_after j = [M_Sync.Setresgid 0; M_Sync.Setresuid 0; M_Sync.Goes_on] /\ M_Sync.child_after c = [M_Sync.Goes_on] /\
  j_filter_prog j <> Null /\ j_filter_prog c = Null.
Proof. exact copy_differs. Qed.
Print Assumptions C78_identical_refuted.
