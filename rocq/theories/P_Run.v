(* Proofs about running a program: the jails of the processes involved. *)
From Verif Require Export S_Run P_Pipe P_EnterClaims.
Local Open Scope N_scope.

(* ---- the jail with its ruleset ---- *)
Definition ruled (fd abi : Z) (fds : list (Z * Z)) (n : N) (j : jail) : jail :=
  set_preserved_fd_count n (set_preserved_fds fds (set_fs_rules_fd fd (set_fs_rules_landlock_abi abi j))).
Lemma ruled_id j : j = ruled (j_fs_rules_fd j) (j_fs_rules_landlock_abi j) (j_preserved_fds j) (j_preserved_fd_count j) j.
Proof. destruct j. reflexivity. Qed.
Lemma ruleset_same e j : exists fd abi fds n, with_ruleset e j = ruled fd abi fds n j /\
  (j_fs_rules j <> [] -> fd = k_landlock_fd e) /\
  (j_fs_rules j = [] -> fd = j_fs_rules_fd j /\ abi = j_fs_rules_landlock_abi j /\ fds = j_preserved_fds j /\ n = j_preserved_fd_count j) /\
  (abi = j_fs_rules_landlock_abi j \/ (abi = k_landlock_abi e /\ 0 < abi)%Z) /\ length fds = length (j_preserved_fds j) /\
  (j_preserved_fd_count j <= 128 -> n <= 128) /\ ((abi < 0)%Z -> (k_landlock_abi e <= 0)%Z \/ j_fs_rules j = []).
Proof.
  unfold with_ruleset. destruct (j_fs_rules j) as [|r l] eqn:L.
  { exists (j_fs_rules_fd j), (j_fs_rules_landlock_abi j), (j_preserved_fds j), (j_preserved_fd_count j). split; [apply ruled_id|]. repeat split; auto; congruence. }
  unfold setup_fs_rules_fd, note_abi. cbn [snd].
  set (abi := if (j_fs_rules_landlock_abi j <? 0)%Z && (0 <? k_landlock_abi e)%Z then k_landlock_abi e else j_fs_rules_landlock_abi j).
  replace (if (j_fs_rules_landlock_abi j <? 0)%Z && (0 <? k_landlock_abi e)%Z then set_fs_rules_landlock_abi (k_landlock_abi e) j else j)
    with (set_fs_rules_landlock_abi abi j) by (unfold abi; destruct (_ && _); destruct j; reflexivity).
  assert (AB : (abi = j_fs_rules_landlock_abi j \/ (abi = k_landlock_abi e /\ 0 < abi)%Z) /\ ((abi < 0)%Z -> (k_landlock_abi e <= 0)%Z)).
  { unfold abi. destruct (Z.ltb_spec (j_fs_rules_landlock_abi j) 0), (Z.ltb_spec 0 (k_landlock_abi e)); cbn [andb]; split; auto; lia. }
  destruct AB as [AB1 AB2]. unfold minijail_preserve_fd.
  change (j_fs_rules_fd (set_fs_rules_fd (k_landlock_fd e) (set_fs_rules_landlock_abi abi j))) with (k_landlock_fd e).
  change (j_preserved_fd_count (set_fs_rules_fd (k_landlock_fd e) (set_fs_rules_landlock_abi abi j))) with (j_preserved_fd_count j).
  change (j_preserved_fds (set_fs_rules_fd (k_landlock_fd e) (set_fs_rules_landlock_abi abi j))) with (j_preserved_fds j).
  destruct ((k_landlock_fd e <? 0)%Z || (k_landlock_fd e <? 0)%Z).
  { exists (k_landlock_fd e), abi, (j_preserved_fds j), (j_preserved_fd_count j). split; [destruct j; reflexivity|]. repeat split; auto; congruence. }
  destruct (N.leb_spec (N.of_nat MAX_PRESERVED_FDS) (j_preserved_fd_count j)) as [F|F].
  { exists (k_landlock_fd e), abi, (j_preserved_fds j), (j_preserved_fd_count j). split; [destruct j; reflexivity|]. repeat split; auto; congruence. }
  exists (k_landlock_fd e), abi, (set_nth (N.to_nat (j_preserved_fd_count j)) (k_landlock_fd e, k_landlock_fd e) (j_preserved_fds j)), (j_preserved_fd_count j + 1).
  split; [destruct j; reflexivity|]. rewrite set_nth_length. change (N.of_nat MAX_PRESERVED_FDS) with 128 in F.
  repeat split; auto; try congruence. lia.
Qed.

(* ---- which flags are left ---- *)
Lemma hasf_ruled f fd abi fds n j : hasf f (ruled fd abi fds n j) = hasf f j.
Proof. reflexivity. Qed.
Lemma hasf_keep f : forall fs old j, hasf f (keep_flags fs old j) = if existsb (fun g => flag_eqb g f) fs then hasf f old else hasf f j.
Proof.
  induction fs as [|a fs IH]; intros old j; [reflexivity|]. cbn [keep_flags existsb]. rewrite IH, hasf_setf.
  destruct (flag_eqb a f) eqn:E; cbn [orb]; [|reflexivity]. apply flag_eqb_eq in E. subst. destruct (existsb _ fs); reflexivity.
Qed.
Definition kept_before (f : flag) : bool := existsb (fun g => flag_eqb g f) preexec_kept.
Definition own_init (j : jail) : bool := hasf F_pids j && negb (hasf F_do_init j && negb (hasf F_run_as_init j)).
Lemma hasf_child_preload f j : hasf f (child_jail true j) =
  if kept_before f then hasf f j && negb (own_init j && flag_eqb F_remount_proc_ro f) else false.
Proof.
  unfold child_jail, minijail_preexec, kept_before. rewrite hasf_keep. fold (own_init j).
  destruct (existsb (fun g => flag_eqb g f) preexec_kept); [|unfold hasf; cbn [j_flags set_flags]; apply N.bits_0].
  destruct (own_init j); [rewrite hasf_setf; destruct (flag_eqb _ f), (hasf f j)|destruct (hasf f j)]; reflexivity.
Qed.
Lemma hasf_child_plain f j : hasf f (child_jail false j) =
  hasf f j && negb (flag_eqb F_pids f) && negb (own_init j && flag_eqb F_remount_proc_ro f).
Proof.
  unfold child_jail. fold (own_init j). rewrite hasf_setf. destruct (flag_eqb F_pids f), (own_init j); try rewrite hasf_setf;
  destruct (flag_eqb F_remount_proc_ro f), (hasf f j); reflexivity.
Qed.
Lemma hasf_preenter f j : hasf f (minijail_preenter j) = hasf f j && negb (is_launcher f).
Proof.
  unfold minijail_preenter, is_launcher, launcher. change (hasf f (set_remounts [] (set_remount_mode 0 ?x))) with (hasf f x).
  rewrite <- hasf_clearfs. reflexivity.
Qed.

(* The parts of the jail a child looks at while entering. *)
Lemma child_fields preload j : let j1 := child_jail preload j in
  j_mountns_fd j1 = j_mountns_fd j /\ j_remount_mode j1 = j_remount_mode j /\ j_remounts j1 = j_remounts j /\
  j_hostname j1 = j_hostname j /\ j_hooks j1 = j_hooks j.
Proof. cbv zeta. unfold child_jail. destruct (_ && _), preload; repeat split; reflexivity. Qed.

Section Jails.
Variables (ec ep : kenv) (filename : option string) (pid : Z) (j : jail).
Let jc := with_ruleset ec j.
Let jp := parent_jail ep filename pid j.
Let j1 := child_jail true jc.
Let j2 := minijail_preenter (received jp).

Lemma hasf_jc f : hasf f jc = hasf f j.
Proof. unfold jc. destruct (ruleset_same ec j) as (fd & abi & fds & n & -> & _). reflexivity. Qed.
Lemma hasf_jp f : hasf f jp = hasf f j.
Proof.
  unfold jp, parent_jail. set (j' := match filename with None => j | Some f => set_filename (Own f) j end).
  destruct (ruleset_same ep j') as (fd & abi & fds & n & -> & _). unfold j'. destruct filename; reflexivity.
Qed.
Lemma hasf_j2 f : hasf f j2 = hasf f j && negb (is_launcher f).
Proof. unfold j2. rewrite hasf_preenter. change (hasf f (received jp)) with (hasf f jp). now rewrite hasf_jp. Qed.
Lemma hasf_j1 f : hasf f j1 = if kept_before f then hasf f j && negb (own_init j && flag_eqb F_remount_proc_ro f) else false.
Proof. unfold j1. rewrite hasf_child_preload. unfold own_init. now rewrite !hasf_jc. Qed.
Lemma jp_ruled : exists fd abi fds n, jp = set_initpid pid (ruled fd abi fds n (match filename with None => j | Some f => set_filename (Own f) j end)) /\
  (j_fs_rules j <> [] -> fd = k_landlock_fd ep).
Proof.
  unfold jp, parent_jail. set (j' := match filename with None => j | Some f => set_filename (Own f) j end).
  destruct (ruleset_same ep j') as (fd & abi & fds & n & -> & A & _). exists fd, abi, fds, n. split; [reflexivity|].
  intros NE. apply A. unfold j'. destruct filename; exact NE.
Qed.
Lemma alike_after : alike j j2.
Proof.
  constructor.
  { intros f L. rewrite hasf_j2, L. apply andb_true_r. }
  all: unfold j2; destruct jp_ruled as (fd & abi & fds & n & -> & _); destruct filename; reflexivity.
Qed.
Lemma alike_plain : alike j (child_jail false jc).
Proof.
  constructor.
  { intros f L. rewrite hasf_child_plain, hasf_jc.
    assert (flag_eqb F_pids f = false) as -> by (destruct f; try discriminate L; reflexivity).
    assert (flag_eqb F_remount_proc_ro f = false) as -> by (destruct f; try discriminate L; reflexivity).
    rewrite andb_false_r. cbn. now rewrite !andb_true_r. }
  all: unfold jc, child_jail; destruct (ruleset_same ec j) as (fd & abi & fds & n & -> & _); destruct (_ && _); reflexivity.
Qed.
Lemma j2_fields : j_netns_fd j2 = j_netns_fd j /\ j_tmpfs_size j2 = j_tmpfs_size j /\ j_alt_syscall_table j2 = j_alt_syscall_table j /\
  (j_fs_rules j <> [] -> j_fs_rules_fd j2 = k_landlock_fd ep).
Proof.
  unfold j2. destruct jp_ruled as (fd & abi & fds & n & -> & A).
  destruct filename; (split; [reflexivity|]; split; [reflexivity|]; split; [reflexivity|exact A]).
Qed.
Lemma j1_fields : j_mountns_fd j1 = j_mountns_fd j /\ j_remount_mode j1 = j_remount_mode j /\ j_remounts j1 = j_remounts j /\
  j_hostname j1 = j_hostname j /\ j_hooks j1 = j_hooks j.
Proof.
  unfold j1. pose proof (child_fields true jc) as F. cbv zeta in F. destruct F as (-> & -> & -> & -> & ->). unfold jc.
  destruct (ruleset_same ec j) as (fd & abi & fds & n & -> & _). repeat split; reflexivity.
Qed.

Definition not_filter (c : call) : Prop :=
  match c with C_prctl_seccomp _ | C_seccomp _ _ | C_landlock_restrict _ => False | _ => True end.
Lemma split_demands g c : demands g j c -> not_filter c -> ~ (own_init j = true /\ on_proc c) ->
  demands g j1 c \/ demands g j2 c.
Proof.
  intros D NF NP. pose proof hasf_j1 as F1. pose proof hasf_j2 as F2.
  destruct j1_fields as (M1 & M2 & M3 & M4 & _). destruct j2_fields as (K1 & K2 & K3 & _). pose proof alike_after as AL.
  assert (B : forall f, kept_before f = true -> flag_eqb F_remount_proc_ro f = false -> hasf f j = true -> hasf f j1 = true).
  { intros f X Y Z. rewrite F1, X, Y, Z, andb_false_r. reflexivity. }
  assert (A : forall f, is_launcher f = false -> hasf f j = true -> hasf f j2 = true).
  { intros f X Y. rewrite F2, X, Y. reflexivity. }
  destruct D; try contradiction NF.
  - left. apply d_mountns. apply B; auto.
  - left. rewrite <- M2 in *. apply d_propagation; [apply B; auto|assumption].
  - left. rewrite <- M2, <- M3 in *. apply d_remount; [apply B; auto|assumption|assumption].
  - left. rewrite <- M1 in *. apply d_enter_mountns. apply B; auto.
  - right. apply d_ipc; apply A; auto.
  - left. apply d_uts. apply B; auto.
  - left. rewrite <- M4 in *. apply d_hostname; [apply B; auto|assumption].
  - right. rewrite <- K1. apply d_enter_net. apply A; auto.
  - left. apply d_net; [apply B; auto|]. rewrite F1. reflexivity.
  - left. apply d_cgroup; apply B; auto.
  - right. apply d_keyring; apply A; auto.
  - right. rewrite <- (al_root _ _ AL) in *. apply d_chroot; [apply A; auto|assumption].
  - right. rewrite <- (al_root _ _ AL) in *. apply d_pivot_bind; [apply A; auto|assumption].
  - right. rewrite <- (al_root _ _ AL) in *. apply d_pivot_cd; [apply A; auto|assumption].
  - right. apply d_pivot; apply A; auto.
  - right. apply d_pivot_detach; apply A; auto.
  - right. apply d_pivot_chroot; apply A; auto.
  - right. apply d_cd. destruct H; [left|right]; apply A; auto.
  - right. rewrite <- K2. apply d_tmp. apply A; auto.
  - left. apply d_proc. rewrite F1, H. cbn. destruct (own_init j); [destruct NP; split; [reflexivity|right; reflexivity]|reflexivity].
  - left. apply d_proc_detach; rewrite F1; [rewrite H|rewrite H0; reflexivity].
    cbn. destruct (own_init j); [destruct NP; split; [reflexivity|left; reflexivity]|reflexivity].
  - right. rewrite <- (al_gid _ _ AL). apply d_gid. apply A; auto.
  - right. rewrite <- (al_uid _ _ AL). apply d_uid. apply A; auto.
  - right. apply d_nnp; apply A; auto.
  - right. rewrite <- K3 in *. apply d_alt; [apply A; auto|assumption].
  - right. apply d_strict; [apply A; auto|assumption].
Qed.
Lemma plain_demands g c : demands g j c -> not_filter c -> ~ (own_init j = true /\ on_proc c) ->
  demands g (child_jail false jc) c.
Proof.
  intros D NF NP. set (jx := child_jail false jc).
  assert (F : forall f, flag_eqb F_pids f = false -> flag_eqb F_remount_proc_ro f = false -> hasf f jx = hasf f j).
  { intros f X Y. unfold jx. rewrite hasf_child_plain, hasf_jc, X, Y, andb_false_r. cbn. now rewrite !andb_true_r. }
  assert (V : j_mountns_fd jx = j_mountns_fd j /\ j_remount_mode jx = j_remount_mode j /\ j_remounts jx = j_remounts j /\
    j_hostname jx = j_hostname j /\ j_netns_fd jx = j_netns_fd j /\ j_tmpfs_size jx = j_tmpfs_size j /\ j_alt_syscall_table jx = j_alt_syscall_table j).
  { unfold jx, child_jail, jc. destruct (ruleset_same ec j) as (fd & abi & fds & n & -> & _). destruct (_ && _); repeat split; reflexivity. }
  destruct V as (M1 & M2 & M3 & M4 & K1 & K2 & K3). pose proof alike_plain as AL. fold jx in AL.
  assert (P : hasf F_remount_proc_ro j = true -> own_init j = false -> hasf F_remount_proc_ro jx = true).
  { intros X Y. unfold jx. rewrite hasf_child_plain, hasf_jc, X. unfold own_init in *. rewrite !hasf_jc, Y. reflexivity. }
  destruct D; try contradiction NF.
  - apply d_mountns. rewrite F; auto.
  - rewrite <- M2 in *. apply d_propagation; [rewrite F; auto|assumption].
  - rewrite <- M2, <- M3 in *. apply d_remount; [rewrite F; auto|assumption|assumption].
  - rewrite <- M1 in *. apply d_enter_mountns. rewrite F; auto.
  - apply d_ipc; rewrite F; auto.
  - apply d_uts. rewrite F; auto.
  - rewrite <- M4 in *. apply d_hostname; [rewrite F; auto|assumption].
  - rewrite <- K1. apply d_enter_net. rewrite F; auto.
  - apply d_net; rewrite F; auto.
  - apply d_cgroup; rewrite F; auto.
  - apply d_keyring; rewrite F; auto.
  - rewrite <- (al_root _ _ AL) in *. apply d_chroot; [rewrite F; auto|assumption].
  - rewrite <- (al_root _ _ AL) in *. apply d_pivot_bind; [rewrite F; auto|assumption].
  - rewrite <- (al_root _ _ AL) in *. apply d_pivot_cd; [rewrite F; auto|assumption].
  - apply d_pivot; rewrite F; auto.
  - apply d_pivot_detach; rewrite F; auto.
  - apply d_pivot_chroot; rewrite F; auto.
  - apply d_cd. rewrite !F; auto.
  - rewrite <- K2. apply d_tmp. rewrite F; auto.
  - apply d_proc. apply P; [assumption|]. destruct (own_init j); [destruct NP; split; [reflexivity|right; reflexivity]|reflexivity].
  - apply d_proc_detach; [apply P; [assumption|]|rewrite F; auto].
    destruct (own_init j); [destruct NP; split; [reflexivity|left; reflexivity]|reflexivity].
  - rewrite <- (al_gid _ _ AL). apply d_gid. rewrite F; auto.
  - rewrite <- (al_uid _ _ AL). apply d_uid. rewrite F; auto.
  - apply d_nnp; rewrite F; auto.
  - rewrite <- K3 in *. apply d_alt; [rewrite F; auto|assumption].
  - apply d_strict; [rewrite F; auto|assumption].
Qed.

(* what is sent can be read back *)
Lemma sound_jp e : sound e j -> k_landlock_abi ep = k_landlock_abi e -> sound e jp.
Proof.
  intros (S1 & S2 & S3 & S4 & S5 & S6 & S7) KE. unfold jp, parent_jail. set (j' := match filename with None => j | Some f => set_filename (Own f) j end).
  assert (E : j_fs_rules j' = j_fs_rules j /\ j_fs_rules_landlock_abi j' = j_fs_rules_landlock_abi j /\ j_preserved_fds j' = j_preserved_fds j /\
    j_preserved_fd_count j' = j_preserved_fd_count j) by (unfold j'; destruct filename; repeat split; reflexivity).
  destruct E as (E1 & E2 & E3 & E4).
  destruct (ruleset_same ep j') as (fd & abi & fds & n & -> & _ & A0 & A1 & A2 & A3 & A4). rewrite E1, E2, E3, E4 in *.
  destruct S1 as (P1 & P2 & P3 & P4 & P5 & P6). destruct S7 as [R1 R2].
  assert (SH : shaped (set_initpid pid (ruled fd abi fds n j'))).
  { unfold j'. rewrite <- A2 in P3. specialize (A3 P6).
    destruct filename; exact (conj P1 (conj P2 (conj P3 (conj P4 (conj P5 A3))))). }
  assert (RU : rules_ok e (set_initpid pid (ruled fd abi fds n j'))).
  { split; [unfold j'; destruct filename; exact R1|].
    change (j_fs_rules (set_initpid pid (ruled fd abi fds n j'))) with (j_fs_rules j').
    change (j_fs_rules_landlock_abi (set_initpid pid (ruled fd abi fds n j'))) with abi. rewrite E1.
    intros NE LT. destruct (A4 LT); [lia|contradiction]. }
  assert (LV : live_strings (set_initpid pid (ruled fd abi fds n j'))).
  { destruct S2 as (L1 & L2 & L3 & L4 & L5 & L6 & L7 & L8 & L9 & L10). unfold j'.
    destruct filename; [exact (conj L1 (conj L2 (conj L3 (conj L4 (conj L5 (conj L6 (conj L7 (conj Logic.I (conj L9 L10)))))))))|].
    exact (conj L1 (conj L2 (conj L3 (conj L4 (conj L5 (conj L6 (conj L7 (conj L8 (conj L9 L10))))))))). }
  split; [exact SH|]. split; [exact LV|]. clear SH LV.
  unfold j'; destruct filename; (split; [exact S3|]; split; [exact S4|]; split; [exact S5|]; split; [exact S6|]); exact RU.
Qed.
End Jails.
