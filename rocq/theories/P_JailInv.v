(* Invariants of the jail object under every history of API calls. *)
From Coq Require Import ZifyBool ZifyNat ZifyN Lia.
From Verif Require Export P_Jail.
Local Open Scope N_scope.

Definition live {A} (c : cell A) : Prop := match c with Null | Own _ => True | _ => False end.
Definition live_strings (j : jail) : Prop :=
  live (j_user j) /\ live (j_chrootdir j) /\ live (j_pid_file_path j) /\ live (j_uidmap j) /\
  live (j_gidmap j) /\ live (j_hostname j) /\ live (j_preload_path j) /\ live (j_filename j) /\
  live (j_alt_syscall_table j) /\ live (j_seccomp_policy_path j).
Definition gids_ok (j : jail) : Prop :=
  match j_suppl_gid_list j with
  | Null => j_suppl_gid_count j = 0
  | Own l => j_suppl_gid_count j = N.of_nat (length l)
  | _ => False
  end.
Definition filter_ok (j : jail) : Prop :=
  match j_filter_prog j with
  | Null => j_filter_len j = 0
  | Own p => j_filter_len j = N.of_nat (length p)
  | _ => False
  end.
Definition cgroups_ok (j : jail) : Prop :=
  Forall (fun c => exists s, c = Own s) (firstn (N.to_nat (j_cgroup_count j)) (j_cgroups j)) /\
  Forall (fun c => c = Null) (skipn (N.to_nat (j_cgroup_count j)) (j_cgroups j)).
(* A mount that adding again would leave the same. *)
Definition mount_ok (m : mountpoint) : Prop :=
  starts_slash (m_dest m) = true /\ m_flags m <> 0 /\
  (m_type m = "tmpfs"%string -> m_data m <> None /\ m_data m <> Some EmptyString).
Definition mounts_ok (j : jail) : Prop :=
  Forall mount_ok (j_mounts j) /\ j_mounts_count j = N.of_nat (length (j_mounts j)) /\
  (j_mounts j <> [] -> hasf F_enter_vfs j = true \/ hasf F_vfs j = true).
Definition rules_ok (e : kenv) (j : jail) : Prop :=
  j_fs_rules_count j = N.of_nat (length (j_fs_rules j)) /\
  (j_fs_rules j <> [] -> (j_fs_rules_landlock_abi j < 0)%Z -> (k_landlock_abi e <= 0)%Z).

Lemma should_use_cells e j use j1 : seccomp_should_use_filters e j = (use, j1) ->
  (use = false /\ j1 = clear_seccomp_options j) \/
  (use = true /\ (j1 = j \/ j1 = setf F_seccomp_filter_allow_speculation false j)).
Proof.
  unfold seccomp_should_use_filters. destruct (_ && _); [intros E; injection E as <- <-; auto|].
  destruct (_ && _); [intros E; injection E as <- <-; auto|].
  destruct (_ && _); intros E; injection E as <- <-; auto.
Qed.
Lemma parse_cases e s j rc j' : minijail_parse_seccomp_filters e s j = ARet rc j' ->
  j' = clear_seccomp_options j \/
  exists j1 prog p, (j1 = j \/ j1 = setf F_seccomp_filter_allow_speculation false j) /\
    j' = set_seccomp_policy_path (match p with Some p => Own p | None => Null end) (set_seccomp_filters_internal prog j1).
Proof.
  unfold minijail_parse_seccomp_filters. destruct (seccomp_should_use_filters e j) as [use j1] eqn:E.
  apply should_use_cells in E. destruct E as [[-> ->]|[-> E]]; cbn [negb].
  - intros H. apply ARet_inj in H. destruct H as [_ <-]. auto.
  - destruct (ps_stream s); [|discriminate]. destruct (compile_filter _ _ _ _); try discriminate.
    intros H. apply ARet_inj in H. destruct H as [_ <-]. right. eauto.
Qed.
Lemma set_filters_cases e p j rc j' : minijail_set_seccomp_filters e p j = ARet rc j' ->
  j' = clear_seccomp_options j \/
  exists j1, (j1 = j \/ j1 = setf F_seccomp_filter_allow_speculation false j) /\
    j' = set_seccomp_filters_internal p j1.
Proof.
  unfold minijail_set_seccomp_filters. destruct (seccomp_should_use_filters e j) as [use j1] eqn:E.
  apply should_use_cells in E. destruct E as [[-> ->]|[-> E]]; cbn [negb].
  - intros H. apply ARet_inj in H. destruct H as [_ <-]. auto.
  - destruct (logging_allowed e j1); [discriminate|].
    intros H. apply ARet_inj in H. destruct H as [_ <-]. right. eauto.
Qed.
Lemma live_step e j a rc j' : api_step e j a = ARet rc j' -> live_strings j -> live_strings j'.
Proof.
  intros H L.
  destruct (match a with
            | A_change_user _ _ | A_enter_chroot _ | A_enter_pivot_root _ | A_write_pid_file _ | A_uidmap _ | A_gidmap _
            | A_namespace_set_hostname _ | A_set_preload_path _ | A_use_alt_syscall _ | A_parse_seccomp_filters _ | A_set_seccomp_filters _ => true
            | _ => false end) eqn:Q.
  2: { assert (K : (j_user j', j_chrootdir j', j_pid_file_path j', j_uidmap j', j_gidmap j', j_hostname j', j_preload_path j', j_filename j', j_alt_syscall_table j', j_seccomp_policy_path j')
                = (j_user j, j_chrootdir j, j_pid_file_path j, j_uidmap j, j_gidmap j, j_hostname j, j_preload_path j, j_filename j, j_alt_syscall_table j, j_seccomp_policy_path j)).
       { destruct a; try discriminate Q; frame_step H. }
       unfold live_strings in *. injection K as -> -> -> -> -> -> -> -> -> ->. exact L. }
  destruct L as (L1 & L2 & L3 & L4 & L5 & L6 & L7 & L8 & L9 & L10). unfold live_strings.
  destruct a; try discriminate Q; clear Q.
  3: { cbn [api_step] in H. apply set_filters_cases in H. destruct H as [->|(j1 & [->| ->] & ->)]; cbn; auto 10. }
  2: { cbn [api_step] in H. apply parse_cases in H. destruct H as [->|(j1 & prog & p & [->| ->] & ->)]; try destruct p; cbn; auto 10. }
  all: api_cases H; cbn; auto 12.
Qed.
Lemma gids_step e j a rc j' : api_step e j a = ARet rc j' -> gids_ok j -> gids_ok j'.
Proof.
  intros H G.
  assert (K : (forall l, a <> A_set_supplementary_gids l) -> (j_suppl_gid_list j', j_suppl_gid_count j') = (j_suppl_gid_list j, j_suppl_gid_count j)).
  { intros NA. destruct a; try (frame_step H). exfalso. eapply NA. reflexivity. }
  destruct a; try (unfold gids_ok; specialize (K ltac:(discriminate)); injection K as -> ->; exact G).
  clear K. api_cases H; unfold gids_ok; cbn; auto.
Qed.
Lemma filter_step e j a rc j' : api_step e j a = ARet rc j' -> filter_ok j -> filter_ok j'.
Proof.
  intros H G.
  destruct (match a with A_parse_seccomp_filters _ | A_set_seccomp_filters _ => true | _ => false end) eqn:Q.
  2: { assert (K : (j_filter_prog j', j_filter_len j') = (j_filter_prog j, j_filter_len j)).
       { destruct a; try discriminate Q; frame_step H. }
       unfold filter_ok. injection K as -> ->. exact G. }
  destruct a; try discriminate Q; cbn [api_step] in H.
  - apply parse_cases in H. destruct H as [->|(j1 & prog & p & [->| ->] & ->)]; reflexivity.
  - apply set_filters_cases in H. destruct H as [->|(j1 & [->| ->] & ->)]; reflexivity.
Qed.
Lemma skipn_set_nth {A} (l : list A) n v : skipn (S n) (set_nth n v l) = skipn (S n) l.
Proof. revert n. induction l as [|x t IH]; intros [|n]; auto. exact (IH n). Qed.
Lemma Forall_skipn_S {A} (P : A -> Prop) n l : Forall P (skipn n l) -> Forall P (skipn (S n) l).
Proof.
  revert l. induction n as [|n IH]; intros [|x t] H; auto; [inversion H; auto|]. exact (IH t H).
Qed.
Lemma cgroups_step e j a rc j' : api_step e j a = ARet rc j' -> shaped j -> cgroups_ok j -> cgroups_ok j'.
Proof.
  intros H SH G.
  destruct (match a with A_add_to_cgroup _ => true | _ => false end) eqn:Q.
  2: { assert (K : (j_cgroups j', j_cgroup_count j') = (j_cgroups j, j_cgroup_count j)).
       { destruct a; try discriminate Q; frame_step H. }
       unfold cgroups_ok. injection K as -> ->. exact G. }
  destruct a; try discriminate Q. api_cases H; auto.
  destruct SH as (_ & S1 & _). unfold MAX_CGROUPS in *. destruct G as [G1 G2]. apply N.leb_gt in E.
  unfold cgroups_ok. cbn [j_cgroups j_cgroup_count set_cgroups set_cgroup_count flags_on fold_left setf set_flags].
  replace (N.to_nat (j_cgroup_count j + 1)) with (S (N.to_nat (j_cgroup_count j))) by lia.
  rewrite firstn_set_nth by (clear -E S1; lia). split.
  - apply Forall_app. split; auto. constructor; eauto.
  - rewrite skipn_set_nth. apply Forall_skipn_S. exact G2.
Qed.
Lemma hasf_setf_true f g j : hasf f j = true -> hasf f (setf g true j) = true.
Proof. intros H. rewrite hasf_setf. destruct (flag_eqb g f); auto. Qed.
Lemma mount_ok_default s d t f x : starts_slash d = true ->
  mount_ok (Mount s d t (match x with None | Some EmptyString => if String.eqb t "tmpfs" then Some tmpfs_default else x | _ => x end)
                  (if f =? 0 then SAFE_FLAGS else f)).
Proof.
  intros D. split; [exact D|]. split; cbn [m_flags m_type m_data].
  - destruct (f =? 0) eqn:E; [discriminate|]. apply N.eqb_neq. exact E.
  - intros ->. destruct x as [[|c x]|]; cbn; split; discriminate.
Qed.
Lemma mounts_ok_add s d t f x j rc j' : minijail_mount_with_data s d t f x j = ARet rc j' -> mounts_ok j -> mounts_ok j'.
Proof.
  unfold minijail_mount_with_data. destruct (starts_slash d) eqn:D; cbn [negb].
  2: { intros H. apply ARet_inj in H. destruct H as [_ <-]. auto. }
  intros H (M1 & M2 & M3). apply ARet_inj in H. destruct H as [_ <-].
  unfold mounts_ok.
  destruct (hasf F_enter_vfs j) eqn:V; cbn [j_mounts j_mounts_count set_mounts set_mounts_count setf set_flags].
  all: split; [apply Forall_app; split; [exact M1|constructor; [apply mount_ok_default; exact D|constructor]]|].
  all: split; [rewrite app_length, M2; cbn [length]; lia|intros _].
  - left. exact V.
  - right. change (hasf F_vfs (setf F_vfs true j) = true). rewrite hasf_setf. reflexivity.
Qed.
Lemma mount_keeps g s d t f x j rc j' : minijail_mount_with_data s d t f x j = ARet rc j' -> hasf g j = true -> hasf g j' = true.
Proof.
  unfold minijail_mount_with_data. destruct (starts_slash d); cbn [negb].
  2: { intros H. apply ARet_inj in H. destruct H as [_ <-]. auto. }
  intros H V. apply ARet_inj in H. destruct H as [_ <-].
  destruct (hasf F_enter_vfs j); [exact V|].
  change (hasf g (setf F_vfs true j) = true). apply hasf_setf_true. exact V.
Qed.
Lemma mount_flags_step e j a rc j' : api_step e j a = ARet rc j' -> 
  (hasf F_enter_vfs j = true -> hasf F_enter_vfs j' = true) /\ (hasf F_vfs j = true -> hasf F_vfs j' = true).
Proof.
  intros H.
  destruct (match a with A_parse_seccomp_filters _ | A_set_seccomp_filters _ => true | _ => false end) eqn:Q.
  1: { destruct a; try discriminate Q; cbn [api_step] in H;
       [apply parse_cases in H; destruct H as [->|(j1 & prog & p & [->| ->] & ->)]|apply set_filters_cases in H; destruct H as [->|(j1 & [->| ->] & ->)]];
       (split; intros <-; flag_solve). }
  destruct (match a with A_mount_with_data _ _ _ _ _ | A_mount _ _ _ _ | A_bind _ _ _ _ => true | _ => false end) eqn:Q2.
  1: { destruct a; try discriminate Q2; cbn [api_step] in H; unfold minijail_bind, minijail_mount in H;
       try (destruct (is_valid_bind_path e src rp) as [[|]|]; try discriminate H);
       try (apply ARet_inj in H; destruct H as [_ <-]; auto; fail);
       split; intros V; eapply mount_keeps; eauto. }
  split; intros V; destruct a; try discriminate Q; try discriminate Q2.
  all: try (rewrite <- V; flag_step H).
  all: api_cases H; rewrite hasf_flags_on; apply orb_true_iff; left; exact V.
Qed.
Lemma mounts_ok_step e j a rc j' : api_step e j a = ARet rc j' -> mounts_ok j -> mounts_ok j'.
Proof.
  intros H G.
  destruct (match a with A_mount_with_data _ _ _ _ _ | A_mount _ _ _ _ | A_bind _ _ _ _ => true | _ => false end) eqn:Q.
  2: { assert (K : (j_mounts j', j_mounts_count j') = (j_mounts j, j_mounts_count j)).
       { destruct a; try discriminate Q; frame_step H. }
       destruct (mount_flags_step _ _ _ _ _ H) as [K1 K2].
       unfold mounts_ok in *. injection K as -> ->. destruct G as (G1 & G2 & G3). split; [auto|split; [auto|]].
       intros NE. destruct (G3 NE); auto. }
  destruct a; try discriminate Q; cbn [api_step] in H; unfold minijail_bind, minijail_mount in H;
       try (destruct (is_valid_bind_path e src rp) as [[|]|]; try discriminate H);
       try (apply ARet_inj in H; destruct H as [_ <-]; auto; fail);
       eapply mounts_ok_add; eauto.
Qed.
Lemma rules_ok_add e p fl j : rules_ok e j -> rules_ok e (add_fs_restriction_path e p fl j).
Proof.
  intros [R1 R2]. unfold add_fs_restriction_path. cbn [j_fs_rules_count set_fs_rules].
  destruct (j_fs_rules_count j =? 0) eqn:Z; unfold setup_fs_rules_fd, note_abi; cbn [snd j_fs_rules_landlock_abi set_fs_rules].
  - destruct ((j_fs_rules_landlock_abi j <? 0)%Z && (0 <? k_landlock_abi e)%Z) eqn:B; split;
    cbn [j_fs_rules j_fs_rules_count j_fs_rules_landlock_abi set_fs_rules set_fs_rules_count set_fs_rules_fd set_fs_rules_landlock_abi].
    1,3: rewrite app_length, R1; cbn [length]; lia.
    + intros _ ?. lia.
    + intros _ ?. lia.
  - split; cbn [j_fs_rules j_fs_rules_count j_fs_rules_landlock_abi set_fs_rules set_fs_rules_count].
    + rewrite app_length, R1; cbn [length]; lia.
    + intros _. apply R2. intros X. rewrite X in R1. cbn in R1. lia.
Qed.
Lemma rules_ok_note e j : rules_ok e j -> rules_ok e (note_abi e j).
Proof.
  intros [R1 R2]. unfold note_abi. destruct (_ && _) eqn:B; [|split; auto].
  split; [exact R1|]. cbn. intros _ ?. lia.
Qed.
Lemma rules_ok_advanced e p j : rules_ok e j -> rules_ok e (minijail_add_fs_restriction_advanced_rw e p j).
Proof. intros R. unfold minijail_add_fs_restriction_advanced_rw. apply rules_ok_add, rules_ok_note, R. Qed.
Lemma rules_ok_default e j : rules_ok e j -> rules_ok e (minijail_enable_default_fs_restrictions e j).
Proof. intros R. unfold minijail_enable_default_fs_restrictions. cbn [fold_left fst snd]. do 10 apply rules_ok_add. exact R. Qed.
Lemma rules_ok_minimalistic e ms : forall j, rules_ok e j -> rules_ok e (minimalistic_rules e ms j).
Proof.
  unfold minimalistic_rules. induction ms as [|m t IH]; intros j R; cbn [fold_left]; auto.
  apply IH. destruct (_ || _); [apply rules_ok_advanced|]; apply rules_ok_add, R.
Qed.
Lemma rules_ok_step e j a rc j' : api_step e j a = ARet rc j' -> rules_ok e j -> rules_ok e j'.
Proof.
  intros H G.
  destruct (match a with A_fs_rx _ | A_fs_ro _ | A_fs_rw _ | A_fs_advanced_rw _ | A_fs_edit _ | A_fs_access_rights _ _
             | A_enable_default_fs_restrictions | A_add_minimalistic_mountns_fs_rules => true | _ => false end) eqn:Q.
  2: { assert (K : (j_fs_rules j', j_fs_rules_count j', j_fs_rules_landlock_abi j') = (j_fs_rules j, j_fs_rules_count j, j_fs_rules_landlock_abi j)).
       { destruct a; try discriminate Q; frame_step H. }
       unfold rules_ok in *. injection K as -> -> ->. exact G. }
  destruct a; try discriminate Q; cbn [api_step] in H; apply ARet_inj in H; destruct H as [_ <-];
    auto using rules_ok_add, rules_ok_advanced, rules_ok_default.
  unfold minijail_add_minimalistic_mountns_fs_rules. destruct (_ || _); auto. destruct (j_mounts j); auto.
  destruct (hasf F_vfs _); auto 10 using rules_ok_add, rules_ok_advanced, rules_ok_default, rules_ok_minimalistic.
Qed.

(* Everything together. *)
Definition sound (e : kenv) (j : jail) : Prop :=
  shaped j /\ live_strings j /\ gids_ok j /\ filter_ok j /\ cgroups_ok j /\ mounts_ok j /\ rules_ok e j.
Lemma sound_new e : sound e minijail_new.
Proof.
  split; [apply new_shaped|]. split; [repeat split|]. split; [exact eq_refl|]. split; [reflexivity|].
  split; [split; vm_compute; repeat constructor|].
  split; [split; [constructor|split; [reflexivity|intros X; destruct (X eq_refl)]]|].
  split; [reflexivity|intros X; destruct (X eq_refl)].
Qed.
Lemma sound_step e j a rc j' : api_step e j a = ARet rc j' -> sound e j -> sound e j'.
Proof.
  intros H (S1 & S2 & S3 & S4 & S5 & S6 & S7). unfold sound.
  split; [eapply shaped_step; eauto|]. split; [eapply live_step; eauto|]. split; [eapply gids_step; eauto|].
  split; [eapply filter_step; eauto|]. split; [eapply cgroups_step; eauto|]. split; [eapply mounts_ok_step; eauto|eapply rules_ok_step; eauto].
Qed.
Lemma sound_run e : forall h j j', sound e j -> history e j h j' -> sound e j'.
Proof. intros h j j' G H. induction H; auto. eapply IHhistory, sound_step; eauto. Qed.
Lemma reachable_sound e h j : history e minijail_new h j -> sound e j.
Proof. intros H. eapply sound_run; [apply sound_new|exact H]. Qed.
