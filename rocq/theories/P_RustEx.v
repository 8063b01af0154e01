(* Concrete jails made and used from Rust. *)
From Coq Require Import Lia.
From Verif Require P_PolicyEx.
From Verif Require Export P_RustRun P_RunEx P_FdsEx.
Local Open Scope N_scope.
Local Open Scope string_scope.

(* the user "service" is not known; "/x" is no UTF-8 *)
Definition ex_out : outside := Outside (fun s => negb (String.eqb s "/x")) (fun u => if String.eqb u "nobody" then inr (99, 98) else inl (-2)%Z)
  (fun g => inl (-2)%Z) (fun p => Some p) (fun p => true) (fun p => Some "0123456") (fun p => PolicySource P_PolicyEx.ex_build (fun _ => None) (Some (Stream ("read: 1") false)) (Some p)).
Definition ex_methods : list method :=
  [R_change_user "service"; R_no_new_privs; R_namespace_vfs; R_mount "proc" "/proc" "proc" 0; R_mount "proc" "proc" "proc" 0;
   R_enter_pivot_root "/x"; R_enter_pivot_root "/var/empty"; R_set_rlimit 7 100 100; R_set_rlimit 7 5 5;
   R_parse_seccomp_program "/etc/filter" 0; R_parse_seccomp_bytes (images instr_image ex_prog) 4096; R_use_seccomp_filter].
Definition ex_results : list (option rerr) :=
  [None; None; None; None; Some (E_Mount (-22) "proc" "proc" "proc" 0 ""); Some (E_PathToCString "/x"); None; None; Some (E_SetRlimit (-17) 7);
   Some E_WrongProgramSize; None; None].
Definition ex_made : jail := match rust_run ex_out ex_env minijail_new ex_methods with Some (_, j) => j | None => minijail_new end.
Lemma ex_made_ok : rust_run ex_out ex_env minijail_new ex_methods = Some (ex_results, ex_made).
Proof. vm_compute. reflexivity. Qed.

(* descriptors 0 to 7 are open; 8 becomes /dev/null *)
Definition ex_fds : list (Z * Z) := [(5, 6); (6, 5); (7, 1)]%Z.
Definition ex_ready : jail := match prepare_fds ex_env ex_fds (Some 8%Z) ex_made with RsOk _ j => j | _ => minijail_new end.
Lemma ex_ready_ok : prepare_fds ex_env ex_fds (Some 8%Z) ex_made = RsOk tt ex_ready.
Proof. vm_compute. reflexivity. Qed.

Section Z.
Local Open Scope Z_scope.
(* as startedb (P_FdsEx), for any table that has only the descriptors of [l] *)
Definition startedt (lim : Z) (preload sin sout serr sync : bool) (base : N) (pairs : list (Z * Z)) (elf : Z) (u : table) (l : list (Z * (N * bool))) : bool :=
  match open_pipes lim preload sin sout serr sync base u with
  | Some (st, t) =>
      (1024 <=? lim) && forallb (fun p => (fst (snd p) <? base)%N && (0 <=? fst p)) l &&
      forallb (fun p => is_open u (fst p)) pairs && ((elf =? -1) || ((0 <=? elf) && is_open u elf)) &&
      (length pairs + 11 <=? 30)%nat &&
      forallb (fun x => negb (is_open t x) && negb (existsb (Z.eqb x) (wanted pairs))) (map Z.of_nat (seq 900 30))
  | None => false
  end.
Lemma startedt_ok lim preload sin sout serr sync base pairs elf u l : (forall x v, u x = Some v -> In (x, v) l) ->
  startedt lim preload sin sout serr sync base pairs elf u l = true ->
  exists st t, started lim preload sin sout serr sync base pairs elf u st t /\
               open_pipes lim preload sin sout serr sync base u = Some (st, t).
Proof.
  intros SUP. unfold startedt. destruct (open_pipes _ _ _ _ _ _ _ _) as [[st t]|] eqn:O; [|discriminate]. intros H. exists st, t. split; [|reflexivity].
  apply andb_prop in H. destruct H as [H HR]. apply andb_prop in H. destruct H as [H HN]. apply andb_prop in H. destruct H as [H HE].
  apply andb_prop in H. destruct H as [H HP]. apply andb_prop in H. destruct H as [HL HF]. rewrite forallb_forall in HR, HP, HF.
  split; [lia|]. split; [exact O|]. split; [|split; [|split; [|split]]].
  - intros x f (b & T). apply SUP in T. specialize (HF _ T). cbn [fst snd] in HF. apply andb_prop in HF. destruct HF as [HF1 HF2]. apply N.ltb_lt in HF1. apply Z.leb_le in HF2. lia.
  - intros x X. destruct (u x) as [v|] eqn:T; [|reflexivity]. apply SUP in T. specialize (HF _ T). cbn [fst snd] in HF. apply andb_prop in HF. destruct HF as [HF1 HF2]. apply N.ltb_lt in HF1. apply Z.leb_le in HF2. lia.
  - intros p I. apply in_map_iff in I. destruct I as (q & <- & I). specialize (HP _ I). unfold is_open in HP. destruct (u (fst q)); [discriminate|discriminate HP].
  - apply orb_prop in HE. destruct HE as [HE|HE]; [left; lia|right]. apply andb_prop in HE. destruct HE as [HE HE']. split; [lia|].
    unfold is_open in HE'. destruct (u elf); [discriminate|discriminate HE'].
  - exists (map Z.of_nat (seq 900 30)). split; [|split].
    + apply FinFun.Injective_map_NoDup; [intros a b; lia|apply seq_NoDup].
    + rewrite map_length, seq_length. apply Nat.leb_le. exact HN.
    + intros x I. specialize (HR _ I). apply in_map_iff in I. destruct I as (n & <- & I). apply in_seq in I. apply andb_prop in HR. destruct HR as [H1 H2].
      split; [lia|]. split; [unfold is_open in H1; destruct (t (Z.of_nat n)); [discriminate H1|reflexivity]|]. intro J.
      apply negb_true_iff, Bool.not_true_iff_false in H2. apply H2. apply existsb_exists. exists (Z.of_nat n). split; [exact J|apply Z.eqb_refl].
Qed.

End Z.
Definition ex_open : table := table_of ex_list.
Definition ex_null : table := upd ex_open 8%Z (Some (20, true)).
Lemma ex_null_ok : open_null 1024 20 ex_open = Some (8%Z, ex_null).
Proof. assert (E : lowest_free 1024 ex_open = Some 8%Z) by (vm_compute; reflexivity). unfold open_null. rewrite E. reflexivity. Qed.
Lemma ex_passed : passed ex_env ex_ready = [(5, 6); (6, 5); (7, 1); (8, 0); (8, 2)]%Z.
Proof. vm_compute. reflexivity. Qed.
Lemma ex_rust_started : exists st t, started 1024 true false false false false 100 (passed ex_env ex_ready) 4 ex_null st t.
Proof.
  rewrite ex_passed. assert (B : startedt 1024 true false false false false 100 [(5, 6); (6, 5); (7, 1); (8, 0); (8, 2)]%Z 4 ex_null ((8%Z, (20, true)) :: ex_list) = true) by (vm_compute; reflexivity).
  apply startedt_ok in B; [destruct B as (st & t & S & _); exists st, t; exact S|].
  intros x v. unfold ex_null, upd. destruct (Z.eqb_spec x 8) as [-> |N]; [intros [= <-]; left; reflexivity|]. intros T. right. apply table_of_in. exact T.
Qed.
Lemma ex_rust_sources : NoDup (map snd ex_fds) /\ (forall c, In c (map snd ex_fds) -> (c < 1024)%Z) /\
  (forall p, In p (map fst ex_fds) -> ex_open p <> None) /\ ex_open 4%Z <> None.
Proof.
  split; [repeat constructor; cbn; lia|]. split; [cbn; lia|]. split; [|vm_compute; discriminate].
  intros p I. cbn in I. repeat destruct I as [<- |I]; try (vm_compute; discriminate). destruct I.
Qed.

(* the launched program *)
Definition rs_t1 : list event := snd (M_Io.run ex_kernel [] (run_child ex_cfg true (with_ruleset ex_env ex_ready))).
Definition rs_sent : jail := parent_jail ex_env (Some "/bin/true") 4242 ex_ready.
Definition rs_bytes : string := match minijail_to_fd any_addr rs_sent 1700 slow with Some (Wrote _ b _) => b | _ => EmptyString end.
Definition rs_envp : env := ["PATH=/bin"; "LD_PRELOAD=/lib/libminijailpreload.so"; "__MINIJAIL_FD=9"].
Definition rs_t2 : list event :=
  snd (M_Io.run ex_kernel [] (fake_main ex_cfg true (fun _ => minijail_from_fd ex_env minijail_new whole rs_bytes) rs_envp)).
Lemma rs_typed : c_typed rs_sent.
Proof.
  assert (E : exists x, rs_sent = x) by (eexists; reflexivity). destruct E as (x & E). rewrite E. vm_compute in E. subst x.
  unfold c_typed, text, i32; repeat ty.
Qed.
Lemma rs_case : exists h envp', launched ex_cfg ex_env ex_env h ex_ready rs_t1 rs_t2 rs_envp envp'.
Proof.
  destruct (prepared ex_out ex_env ex_methods ex_results ex_made ex_made_ok ex_fds 8%Z ex_ready ex_ready_ok) as (h & H & _). exists h. eexists.
  split; [exact H|]. split; [reflexivity|]. split; [reflexivity|]. split; [vm_compute; reflexivity|].
  split; [exists ex_kernel; vm_compute; reflexivity|].
  exists (Some "/bin/true"), 4242%Z, any_addr, 1700%nat, slow.
  destruct (minijail_to_fd any_addr rs_sent 1700 slow) as [res|] eqn:E; [|vm_compute in E; discriminate E].
  destruct (minijail_size any_addr rs_sent) as [size|] eqn:Z; [|vm_compute in Z; discriminate Z].
  exists res, size, rs_bytes, EmptyString, whole, true, ex_kernel. cbv zeta. fold rs_sent.
  split; [exact rs_typed|]. split; [exact any_addr_ok|]. split; [exact slow_real|]. split; [exact Z|].
  split; [vm_compute in Z; injection Z as <-; reflexivity|]. split; [exact E|].
  split; [|vm_compute; reflexivity].
  vm_compute in E. injection E as <-. vm_compute. reflexivity.
Qed.
Lemma ex_no_user : forall m, In m ex_methods -> gives_no_user ex_out m.
Proof. intros m I. cbn in I. repeat destruct I as [<- |I]; try exact Logic.I; [exists (-2)%Z; reflexivity|destruct I]. Qed.

(* the same jail again *)
Definition ex_after : jail := parent_jail ex_env (Some "/bin/true") 4242 ex_ready.
Lemma ex_second : exists j3, prepare_fds ex_env [(3, 3)]%Z (Some 8%Z) ex_after = RsOk tt j3.
Proof. eexists. vm_compute. reflexivity. Qed.
(* after an attempt that failed *)
Lemma ex_failed : exists j1 j2, prepare_fds ex_env [(5, 6); (-1, 7)]%Z (Some 8%Z) ex_made = RsErr (E_PreservingFd (-22)) j1 /\
  prepare_fds ex_env [(5, 6); (4, 7)]%Z (Some 8%Z) j1 = RsOk tt j2 /\
  passed ex_env j2 = [(5, 6); (5, 6); (4, 7); (8, 0); (8, 1); (8, 2)]%Z.
Proof. eexists. eexists. split; [vm_compute; reflexivity|]. split; vm_compute; reflexivity. Qed.
Lemma failed_dies : exists o e ms r j l err j1 l2 d j2, rust_run o e minijail_new ms = Some (r, j) /\
  prepare_fds e l (Some d) j = RsErr err j1 /\ prepare_fds e l2 (Some d) j1 = RsOk tt j2 /\ NoDup (map snd l2) /\
  forall lim ca elf sync st t, child_setup lim ca (passed e j2) elf sync st t = None.
Proof.
  destruct ex_failed as (j1 & j2 & A & B & C). exists ex_out, ex_env, ex_methods, ex_results, ex_made, [(5, 6); (-1, 7)]%Z, (E_PreservingFd (-22)), j1, [(5, 6); (4, 7)]%Z, 8%Z, j2.
  split; [exact ex_made_ok|]. split; [exact A|]. split; [exact B|]. split; [repeat constructor; cbn; lia|].
  intros. apply no_duplicates. rewrite C. intros N. inversion N as [|? ? I0 _]. apply I0. left. reflexivity.
Qed.

(* ---- copies ---- *)
Definition copy_calls : list api :=
  [A_no_new_privs; A_namespace_vfs; A_mount_with_data "proc" "/proc" "proc" 14 (Some "hidepid=2"); A_enter_pivot_root "/var/empty";
   A_rlimit 7 100 100; A_set_seccomp_filters ex_prog; A_use_seccomp_filter; A_change_uid 1000; A_set_supplementary_gids [7; 8]; A_preserve_fd 5 6; A_fs_ro "/etc"].
Definition copy_history : list (api * Z) := match replay ex_env minijail_new copy_calls with Some (h, _) => h | None => [] end.
Definition copy_jail : jail := match replay ex_env minijail_new copy_calls with Some (_, j) => j | None => minijail_new end.
Lemma copy_built : history ex_env minijail_new copy_history copy_jail.
Proof. apply (replay_history ex_env copy_calls). vm_compute. reflexivity. Qed.
Lemma copy_sendable : sendable copy_jail.
Proof.
  assert (E : exists x, copy_jail = x) by (eexists; reflexivity). destruct E as (x & E). rewrite E. vm_compute in E. subst x.
  split; [unfold c_typed, text, i32; repeat ty|]. split; [vm_compute; discriminate|]. split; [repeat constructor; discriminate|discriminate].
Qed.
Lemma copy_copied : (forall a rc, In (a, rc) copy_history -> copied a) /\ filter_ready copy_history.
Proof.
  split.
  - intros a rc I. vm_compute in I. repeat destruct I as [E|I]; try (injection E as <- _; exact Logic.I). destruct I.
  - right. split; [|vm_compute; discriminate]. apply (flag_asked _ _ _ F_seccomp_filter copy_built eq_refl). vm_compute. reflexivity.
Qed.

Definition lost_calls : list api :=
  [A_namespace_user; A_uidmap "0 1000 1"; A_gidmap "0 1000 1"; A_write_pid_file "/run/app.pid"; A_set_seccomp_filters ex_prog].
Definition lost_history : list (api * Z) := match replay ex_env minijail_new lost_calls with Some (h, _) => h | None => [] end.
Definition lost_jail : jail := match replay ex_env minijail_new lost_calls with Some (_, j) => j | None => minijail_new end.
Lemma lost_built : history ex_env minijail_new lost_history lost_jail.
Proof. apply (replay_history ex_env lost_calls). vm_compute. reflexivity. Qed.
Lemma lost_sendable : sendable lost_jail.
Proof.
  assert (E : exists x, lost_jail = x) by (eexists; reflexivity). destruct E as (x & E). rewrite E. vm_compute in E. subst x.
  split; [unfold c_typed, text, i32; repeat ty|]. split; [vm_compute; discriminate|]. split; [repeat constructor; discriminate|discriminate].
Qed.
Lemma lost_here pid : map fst (M_Sync.parent_setup pid lost_jail) =
    [M_Sync.WritePid (Own "/run/app.pid") pid; M_Sync.WriteProc pid "uid_map" "0 1000 1"; M_Sync.WriteProc pid "gid_map" "0 1000 1"] /\
  M_Sync.child_after lost_jail = [M_Sync.Setresgid 0; M_Sync.Setresuid 0; M_Sync.Goes_on].
Proof. split; vm_compute; reflexivity. Qed.
Lemma lost_there : exists c, try_clone any_addr ex_env lost_jail = Clone c /\ M_Sync.child_after c = [M_Sync.Goes_on] /\ j_filter_prog c = Null /\
  j_filter_prog lost_jail = Own ex_prog /\ forall pid, map fst (M_Sync.parent_setup pid c) = [M_Sync.WritePid Null pid].
Proof.
  destruct lost_sendable as (T & G & Z & F).
  destruct (transfer any_addr ex_env ex_env lost_history lost_jail minijail_new lost_built T any_addr_ok eq_refl G Z F) as (_ & _ & _ & _ & _ & CJ).
  exists (received lost_jail). unfold try_clone. rewrite CJ. split; [reflexivity|]. split; [vm_compute; reflexivity|]. split; [vm_compute; reflexivity|].
  split; [vm_compute; reflexivity|]. intros pid. vm_compute. reflexivity.
Qed.

(* ---- the statements of T_Rust ---- *)
Lemma empty_program : exists o e j m j', m = R_parse_seccomp_bytes "" 4096 /\ rust_step o e minijail_new R_no_new_privs = RsOk tt j /\
  rust_step o e j m = RsOk tt j' /\ j_filter_prog j' = Own [].
Proof.
  exists ex_out, ex_env. eexists. eexists. eexists. split; [reflexivity|]. split; [vm_compute; reflexivity|]. split; vm_compute; reflexivity.
Qed.
Lemma endings_case : possible (Exited 77) /\ ~ reserved (Exited 77) /\ possible (S_Wait.Killed 9 true) /\ ~ reserved (S_Wait.Killed 9 true) /\
  documented 31 (Exited 77) = T_err (E_ReturnCode 77) /\ documented 31 (S_Wait.Killed 9 true) = T_err (E_Killed 9) /\ documented 31 (Exited 0) = T_ok.
Proof. cbn. repeat split; try lia. Qed.
Lemma success_case : endings [inl 4; inr 0] /\ Forall (fun a : M_Wait.answer N => match a with inl n => n <> 0 | inr _ => True end) [inl 4; inr 0] /\
  rust_wait 64 31 4242 [inl 4; inr 0] = Some T_ok.
Proof.
  split; [constructor; [exact Logic.I|constructor; [|constructor]]; exists (Exited 0); split; [reflexivity|reflexivity]|].
  split; [constructor; [discriminate|constructor; [exact Logic.I|constructor]]|]. vm_compute. reflexivity.
Qed.
Lemma under_init_case : ended 2 (S_Wait.Killed 9 false) [(5, Exited 1); (2, S_Wait.Killed 9 false); (7, Exited 0)] /\
  init 2 (reaped [(5, Exited 1); (2, S_Wait.Killed 9 false); (7, Exited 0)] ++ WaitFails 10 :: []) = M_Wait.Exits 254.
Proof.
  split; [|vm_compute; reflexivity]. exists [(5, Exited 1)], [(7, Exited 0)]. split; [reflexivity|]. cbn. split; intros [H|[]]; discriminate H.
Qed.
Lemma clone_identical addr e e' h j : history e minijail_new h j -> sendable j -> nonnull addr ->
  k_landlock_abi e' = k_landlock_abi e -> k_softfail e = false ->
  (forall a rc, In (a, rc) h -> copied a) -> filter_ready h -> try_clone addr e' j = Clone j.
Proof. intros H (T & G & Z & F) NN K SF C R. exact (clone_same addr e e' h j H T NN K G Z F SF C R). Qed.
Lemma clone_without addr e e' h j : history e minijail_new h j -> sendable j -> nonnull addr ->
  k_landlock_abi e' = k_landlock_abi e -> k_softfail e = false ->
  exists c, try_clone addr e' j = Clone c /\ (forall f, hasf f c = hasf f j) /\
    (forall pid base text ok, ~ In (M_Sync.WriteProc pid base text, ok) (M_Sync.parent_setup pid c)) /\
    M_Sync.child_after c = [M_Sync.Goes_on] /\
    (forall pid, asked F_pid_file h -> In (M_Sync.WritePid Null pid) (map fst (M_Sync.parent_setup pid c))) /\
    j_remounts c = [] /\ j_hooks c = [] /\ j_preload_path c = Null /\
    (~ asked F_seccomp_filter h -> j_filter_prog c = Null).
Proof. intros H (T & G & Z & F) NN K SF. exact (clone_lacks addr e e' h j H T NN K G Z F SF). Qed.
Lemma copy_differs : exists e addr h j c, history e minijail_new h j /\ sendable j /\ nonnull addr /\ try_clone addr e j = Clone c /\
  (forall pid, map fst (M_Sync.parent_setup pid j) =
    [M_Sync.WritePid (Own "/run/app.pid") pid; M_Sync.WriteProc pid "uid_map" "0 1000 1"; M_Sync.WriteProc pid "gid_map" "0 1000 1"]) /\
  (forall pid, map fst (M_Sync.parent_setup pid c) = [M_Sync.WritePid Null pid]) /\
  M_Sync.child_after j = [M_Sync.Setresgid 0; M_Sync.Setresuid 0; M_Sync.Goes_on] /\ M_Sync.child_after c = [M_Sync.Goes_on] /\
  j_filter_prog j <> Null /\ j_filter_prog c = Null.
Proof.
  destruct lost_there as (c & CL & CA & FP & FJ & PS). exists ex_env, any_addr, lost_history, lost_jail, c.
  split; [exact lost_built|]. split; [exact lost_sendable|]. split; [exact any_addr_ok|]. split; [exact CL|].
  split; [intros pid; apply (lost_here pid)|]. split; [exact PS|]. split; [apply (lost_here 1)|]. split; [exact CA|]. split; [rewrite FJ; discriminate|exact FP].
Qed.
