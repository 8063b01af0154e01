(* Concrete jails entered on concrete kernels: cases for the theorems about
   minijail_enter, and the counterexamples. *)
From Verif Require Export P_EnterClaims P_Paths.
Local Open Scope N_scope.

(* a 64-bit Linux with Landlock 3; SECURE_ALL_BITS has four bits *)
Definition ex_cfg : cfg := Cfg ex_env false true 85.
Definition ex_prog : list instr := [I 6 0 0 2147418112].
(* a kernel on which everything works *)
Definition ex_kernel (past : list event) (c : call) : answer :=
  match c with
  | C_last_cap => Yes 40 ""
  | C_mkdtemp _ => Yes 0 "/tmp/minijail.dev.a1b2c3"
  | C_open _ _ | C_socket => Yes 9 ""
  | C_stat _ | C_fstat _ => Yes 16877 ""        (* a directory, rwxr-xr-x *)
  | C_realpath p => Yes 0 p
  | C_landlock_version => Yes 3 ""
  | C_ambient_is_set => Yes 0 ""
  | _ => Yes 0 ""
  end.
Definition ex_calls : list api :=
  [A_namespace_vfs; A_add_remount "/media" 524288; A_enter_pivot_root "/jail"; A_mount_dev; A_mount_tmp;
   A_mount "none" "/run" "tmpfs" 0; A_bind "/src" "/dev/log" true None; A_bind "/usr" "/usr" false None;
   A_namespace_ipc; A_namespace_net; A_namespace_set_hostname "inside";
   A_remount_proc_readonly; A_new_session_keyring;
   A_add_hook 1 10 0; A_add_hook 2 20 2; A_add_hook 3 30 0; A_add_hook 4 40 2;
   A_fs_ro "/etc"; A_fs_rx "/usr";
   A_use_caps 1025; A_set_ambient_caps; A_change_uid 1000; A_change_gid 100; A_set_supplementary_gids [7; 8];
   A_no_new_privs; A_use_seccomp_filter; A_set_seccomp_filters ex_prog].
(* all calls return 0, except those for file access rules, which return 1 *)
Definition ex_history : list (api * Z) :=
  map (fun a => (a, match a with A_fs_ro _ | A_fs_rx _ => 1%Z | _ => 0%Z end)) ex_calls.
Definition ex_jail : jail := match api_run ex_env minijail_new ex_calls with Some j => j | None => minijail_new end.
Definition ex_trace : list event := snd (run ex_kernel [] (minijail_enter ex_cfg ex_jail)).

(* the history of some calls, with their codes *)
Fixpoint replay (e : kenv) (j : jail) (l : list api) : option (list (api * Z) * jail) :=
  match l with
  | [] => Some ([], j)
  | a :: t =>
      match api_step e j a with
      | ARet rc j1 => match replay e j1 t with Some (h, j2) => Some ((a, rc) :: h, j2) | None => None end
      | _ => None
      end
  end.
Lemma replay_history e : forall l j h j', replay e j l = Some (h, j') -> history e j h j'.
Proof.
  induction l as [|a t IH]; cbn [replay]; intros j h j' H.
  - injection H as <- <-. constructor.
  - destruct (api_step e j a) as [rc k| |] eqn:E; try discriminate.
    destruct (replay e k t) as [[h1 j1]|] eqn:E1; try discriminate. injection H as <- <-. econstructor; [exact E|apply IH; exact E1].
Qed.
Lemma ex_jail_built : history (g_env ex_cfg) minijail_new ex_history ex_jail.
Proof. apply (replay_history ex_env ex_calls). vm_compute. reflexivity. Qed.
Lemma ex_run : run ex_kernel [] (minijail_enter ex_cfg ex_jail) = (Returned tt, ex_trace).
Proof. vm_compute. reflexivity. Qed.

Ltac find_in := repeat (first [left; reflexivity|right]).
(* an option asked for by one of the calls of the example *)
Lemma ex_asked f : steady false f = true -> hasf f ex_jail = true -> asked f ex_history.
Proof. intros S F. apply (flag_asked _ _ _ f ex_jail_built S). exact F. Qed.

Lemma ex_wants : Forall (wants ex_cfg ex_history)
  [C_unshare 131072; C_mount None "/" None (16384 + 262144) None; C_mount None "/media" None (16384 + 524288) None;
   C_sethostname "inside"; C_unshare 1073741824; C_chdir "/jail"; C_pivot_root "." ".";
   C_mount (Some "proc"%string) "/proc" (Some "proc"%string) 15 (Some ""%string);
   C_setresgid 100; C_setresuid 1000; C_no_new_privs].
Proof.
  assert (O : own_mountns ex_history).
  { left. exists A_namespace_vfs, 0%Z. split; [left; reflexivity|left; reflexivity]. }
  assert (M : root_mode ex_history <> 0) by (vm_compute; discriminate).
  assert (A : forall f, steady false f = true -> hasf f ex_jail = true -> asked f ex_history) by exact ex_asked.
  Local Ltac on A := apply A; vm_compute; reflexivity.
  apply Forall_cons; [exact (w_mountns ex_cfg ex_history O)|].
  apply Forall_cons; [exact (w_propagation ex_cfg ex_history O M)|].
  apply Forall_cons; [apply (w_remount ex_cfg ex_history (Remount 524288 "/media") O M); left; reflexivity|].
  apply Forall_cons; [apply w_hostname; [on A|reflexivity]|].
  apply Forall_cons.
  { apply w_net; [on A|]. intro X. apply (flag_asked _ _ _ F_enter_net ex_jail_built eq_refl) in X. vm_compute in X. discriminate. }
  apply Forall_cons; [apply w_pivot_cd; [on A|reflexivity]|].
  apply Forall_cons; [apply w_pivot; on A|].
  apply Forall_cons; [apply w_proc; on A|].
  apply Forall_cons; [apply (w_gid ex_cfg ex_history); on A|].
  apply Forall_cons; [apply (w_uid ex_cfg ex_history); on A|].
  apply Forall_cons; [apply w_nnp; [on A|reflexivity]|].
  apply Forall_nil.
Qed.

(* --- further cases --- *)
Lemma ex_filter : asked F_seccomp_filter ex_history /\ k_softfail (g_env ex_cfg) = false /\ g_asan ex_cfg = false /\
  last_of filter_of ex_history None = Some (inr ex_prog) /\
  In (C_prctl_seccomp (Some ex_prog), Yes 0 "") ex_trace.
Proof. split; [apply ex_asked; vm_compute; reflexivity|]. do 3 (split; [reflexivity|]). vm_compute. find_in. Qed.
Lemma ex_rules : ~ called A_add_minimalistic_mountns_fs_rules ex_history /\ ~ called A_disable_fs_restrictions ex_history /\
  rules_added 3 ex_history = [FsRule "/etc" 12; FsRule "/usr" 13] /\ (0 <= k_landlock_fd (g_env ex_cfg))%Z /\
  In (C_landlock_add 5 9 13, Yes 0 "") ex_trace /\ In (C_landlock_restrict 5, Yes 0 "") ex_trace.
Proof.
  split; [|split; [|split; [reflexivity|split; [vm_compute; discriminate|split; vm_compute; find_in]]]];
    intros (rc & I); vm_compute in I; repeat destruct I as [I|I]; try discriminate I; contradiction.
Qed.
Lemma ex_creds : let s := Creds 0 0 0 0 0 0 [0; 1; 2] (2 ^ 41 - 1) (2 ^ 41 - 1) 0 (2 ^ 41 - 1) 0 0 false in
  asked F_use_caps ex_history /\ asked F_set_ambient_caps ex_history /\ asked F_uid ex_history /\
  asked F_set_suppl_gids ex_history /\ last_of caps_of ex_history 0 = 1025 /\ last_of skip_of ex_history 0 = 0 /\
  N.land (g_secure_all_bits ex_cfg) 21 = 21 /\
  after (fun _ _ => []) (fun _ c => c) s ex_trace
  = Creds 1000 1000 1000 100 100 100 [7; 8] 1025 1025 1025 1025 1025 63 true.
Proof. cbv zeta. do 4 (split; [apply ex_asked; vm_compute; reflexivity|]). do 3 (split; [reflexivity|]). vm_compute. reflexivity. Qed.

(* minijail_capbset_drop: only these stay in the bounding set *)
Definition bset_jail : jail := match api_run ex_env minijail_new [A_capbset_drop 5] with Some j => j | None => minijail_new end.
Lemma bset_case : history (g_env ex_cfg) minijail_new [(A_capbset_drop 5, 0%Z)] bset_jail /\
  last_of dropped_caps_of [(A_capbset_drop 5, 0%Z)] None = Some 5 /\
  exists t, run ex_kernel [] (minijail_enter ex_cfg bset_jail) = (Returned tt, t) /\
    bounding (after (fun _ _ => []) (fun _ c => c) (Creds 0 0 0 0 0 0 [] 7 7 0 (2 ^ 41 - 1) 0 0 false) t) = 5.
Proof.
  split; [apply (replay_history ex_env [A_capbset_drop 5]); vm_compute; reflexivity|]. split; [reflexivity|].
  eexists. split; vm_compute; reflexivity.
Qed.

(* A hook that fails stops everything. *)
Lemma hook_fails : exists t, run (fun past c => match c with C_hook h => if hk_fn h =? 4 then No 1%positive else Yes 0 "" | _ => ex_kernel past c end)
    [] (minijail_enter ex_cfg ex_jail) = (Died, t) /\
  hooks_run t = [(C_hook (Hook 2 20 2), Yes 0 ""); (C_hook (Hook 4 40 2), No 1%positive)].
Proof. eexists. split; vm_compute; reflexivity. Qed.

(* --- counterexamples --- *)
(* Per-mount modes are forgotten when / is to be left alone. *)
Definition skip_calls : list (api * Z) := [(A_namespace_vfs, 0%Z); (A_skip_remount_private, 0%Z); (A_add_remount "/media" 524288, 0%Z)].
Lemma remount_lost : exists j t, history (g_env ex_cfg) minijail_new skip_calls j /\
  run ex_kernel [] (minijail_enter ex_cfg j) = (Returned tt, t) /\
  accepted remount_added skip_calls = [Remount 524288 "/media"] /\
  forall ev, In ev t -> mounts (fst ev) = false.
Proof.
  eexists. eexists. split; [apply (replay_history ex_env (map fst skip_calls)); vm_compute; reflexivity|].
  split; [vm_compute; reflexivity|]. split; [reflexivity|].
  intros ev I. vm_compute in I. repeat destruct I as [<-|I]; try reflexivity. contradiction.
Qed.
(* The flags of the first source cannot be read: no bind is made at all. *)
Definition two_binds : list (api * Z) := [(A_bind "/a" "/a" true None, 0%Z); (A_bind "/b" "/b" false None, 0%Z)].
Lemma binds_lost : exists j t, history (g_env ex_cfg) minijail_new two_binds j /\
  run (fun past c => match c with C_statvfs _ => No 13%positive | _ => ex_kernel past c end) [] (minijail_enter ex_cfg j) = (Returned tt, t) /\
  accepted mount_added two_binds = [Mount "/a" "/a" "minijail_bind" None 4096; Mount "/b" "/b" "minijail_bind" None 4097] /\
  forall src dest type fl data x, In (C_mount (Some src) dest type fl data, x) t -> False.
Proof.
  eexists. eexists. split; [apply (replay_history ex_env (map fst two_binds)); vm_compute; reflexivity|].
  split; [vm_compute; reflexivity|]. split; [reflexivity|].
  intros src dest ty fl data x I. vm_compute in I. repeat destruct I as [I|I]; try discriminate I. contradiction.
Qed.
(* Landlock 1 does not know the refer right: the whole rule is refused, and
   the refusal ignored. *)
Definition abi1_cfg : cfg := Cfg (KEnv true false true true false false true false "" 14 14 true 1 5) false true 85.
Definition refer_calls : list (api * Z) := [(A_fs_access_rights "/data" (12 + 8192), 1%Z)].
Lemma rule_lost : exists j t, history (g_env abi1_cfg) minijail_new refer_calls j /\
  run (fun past c => match c with
         | C_landlock_version => Yes 1 ""
         | C_landlock_add _ _ r => if r <? 8192 then Yes 0 "" else No 22%positive   (* EINVAL: a right that is not handled *)
         | _ => ex_kernel past c end) [] (minijail_enter abi1_cfg j) = (Returned tt, t) /\
  rules_added 1 refer_calls = [FsRule "/data" (12 + 8192)] /\
  (forall fd p r v s, ~ In (C_landlock_add fd p r, Yes v s) t) /\ In (C_landlock_restrict 5, Yes 0 "") t.
Proof.
  eexists. eexists. split; [apply (replay_history (g_env abi1_cfg) (map fst refer_calls)); vm_compute; reflexivity|].
  split; [vm_compute; reflexivity|]. split; [reflexivity|]. split; [|vm_compute; find_in].
  intros fd p r v s I. vm_compute in I. repeat destruct I as [I|I]; try discriminate I. contradiction.
Qed.

(* Asked for the id (uid_t)-1, setresuid succeeds and changes nothing. *)
Definition no_id_calls : list (api * Z) := [(A_change_uid NO_ID, 0%Z); (A_change_gid NO_ID, 0%Z)].
Lemma still_root : exists j t, history (g_env ex_cfg) minijail_new no_id_calls j /\
  run ex_kernel [] (minijail_enter ex_cfg j) = (Returned tt, t) /\ asked F_uid no_id_calls /\ asked F_gid no_id_calls /\
  (let s := Creds 0 0 0 0 0 0 [] 7 7 0 7 0 0 false in after (fun _ _ => []) (fun _ c => c) s t = s).
Proof.
  eexists. eexists. split; [apply (replay_history ex_env (map fst no_id_calls)); vm_compute; reflexivity|].
  split; [vm_compute; reflexivity|]. split; [exists (A_change_uid NO_ID), 0%Z; split; [left|left]; reflexivity|].
  split; [exists (A_change_gid NO_ID), 0%Z; split; [right; left|left]; reflexivity|]. vm_compute. reflexivity.
Qed.
