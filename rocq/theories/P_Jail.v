From Coq Require Import ZifyBool ZifyNat ZifyN Lia.
From Verif Require Export M_Jail S_Jail.
Local Open Scope N_scope.

Definition flag_eqb (f g : flag) : bool := flag_bit f =? flag_bit g.
Lemma flag_bit_inj f g : flag_bit f = flag_bit g -> f = g.
Proof.
  set (unbit := fun n => nth (N.to_nat n) all_flags F_uid).
  assert (H : forall f, unbit (flag_bit f) = f) by (intros x; destruct x; reflexivity).
  intros E. rewrite <- (H f), <- (H g). congruence.
Qed.
Lemma flag_eqb_eq f g : flag_eqb f g = true <-> f = g.
Proof. unfold flag_eqb. rewrite N.eqb_eq. split; [apply flag_bit_inj|congruence]. Qed.
Lemma hasf_setf f g b j : hasf f (setf g b j) = if flag_eqb g f then b else hasf f j.
Proof.
  unfold hasf, setf, flag_eqb. cbn [j_flags set_flags]. destruct b.
  - rewrite N.setbit_eqb. destruct (flag_bit g =? flag_bit f); reflexivity.
  - rewrite N.clearbit_eqb. destruct (flag_bit g =? flag_bit f); cbn; [apply andb_false_r|apply andb_true_r].
Qed.
Lemma hasf_clearfs f fs j : hasf f (clearfs fs j) = hasf f j && negb (existsb (fun g => flag_eqb g f) fs).
Proof.
  revert j. induction fs as [|g t IH]; intros j; cbn [clearfs existsb]; [rewrite andb_true_r; reflexivity|].
  rewrite IH, hasf_setf. destruct (flag_eqb g f), (hasf f j), (existsb _ t); reflexivity.
Qed.
Lemma hasf_flags_on f fs j : hasf f (flags_on fs j) = hasf f j || existsb (fun g => flag_eqb g f) fs.
Proof.
  unfold flags_on. revert j. induction fs as [|g t IH]; intros j; cbn [fold_left existsb]; [rewrite orb_false_r; reflexivity|].
  rewrite IH, hasf_setf. destruct (flag_eqb g f), (hasf f j), (existsb _ t); reflexivity.
Qed.
Lemma flags_eq a b : a < 2 ^ 46 -> b < 2 ^ 46 -> (forall f, N.testbit a (flag_bit f) = N.testbit b (flag_bit f)) -> a = b.
Proof.
  intros A B H. apply N.bits_inj. intros n.
  destruct (N.lt_ge_cases n 46) as [L|L].
  - assert (X : exists f, flag_bit f = n).
    { exists (nth (N.to_nat n) all_flags F_uid).
      assert (N.to_nat n < 46)%nat as Y by lia. rewrite <- (N2Nat.id n) at 2.
      revert Y. generalize (N.to_nat n). clear. intros m L.
      do 46 (destruct m as [|m]; [reflexivity|]). lia. }
    destruct X as [f <-]. apply H.
  - destruct (N.eq_dec a 0) as [->|NA], (N.eq_dec b 0) as [->|NB]; try rewrite N.bits_0; auto.
    + symmetry. apply N.bits_above_log2. apply N.log2_lt_pow2; [lia|]. eapply N.lt_le_trans; [apply B|]. apply N.pow_le_mono_r; lia.
    + apply N.bits_above_log2. apply N.log2_lt_pow2; [lia|]. eapply N.lt_le_trans; [apply A|]. apply N.pow_le_mono_r; lia.
    + rewrite !N.bits_above_log2; auto; apply N.log2_lt_pow2; try lia; eapply N.lt_le_trans; eauto; apply N.pow_le_mono_r; lia.
Qed.

(* Frame: what the filesystem-rule functions leave alone. *)
Lemma add_fs_frame (P : jail -> Prop) e p fl j :
  (forall j v, P j -> P (set_fs_rules v j)) -> (forall j v, P j -> P (set_fs_rules_count v j)) ->
  (forall j v, P j -> P (set_fs_rules_fd v j)) -> (forall j v, P j -> P (set_fs_rules_landlock_abi v j)) ->
  P j -> P (add_fs_restriction_path e p fl j).
Proof.
  intros A B C D H. unfold add_fs_restriction_path. apply B.
  destruct (_ =? 0); [|apply A, H]. unfold setup_fs_rules_fd. cbn [snd]. apply C. unfold note_abi.
  destruct (_ && _); [apply D|]; apply A, H.
Qed.
Lemma advanced_frame (P : jail -> Prop) e p j :
  (forall j v, P j -> P (set_fs_rules v j)) -> (forall j v, P j -> P (set_fs_rules_count v j)) ->
  (forall j v, P j -> P (set_fs_rules_fd v j)) -> (forall j v, P j -> P (set_fs_rules_landlock_abi v j)) ->
  P j -> P (minijail_add_fs_restriction_advanced_rw e p j).
Proof.
  intros A B C D H. unfold minijail_add_fs_restriction_advanced_rw. apply add_fs_frame; auto.
  unfold note_abi. destruct (_ && _); auto.
Qed.
Lemma default_frame (P : jail -> Prop) e j :
  (forall j v, P j -> P (set_fs_rules v j)) -> (forall j v, P j -> P (set_fs_rules_count v j)) ->
  (forall j v, P j -> P (set_fs_rules_fd v j)) -> (forall j v, P j -> P (set_fs_rules_landlock_abi v j)) ->
  P j -> P (minijail_enable_default_fs_restrictions e j).
Proof.
  intros A B C D. unfold minijail_enable_default_fs_restrictions. generalize ([("/lib", ACCESS_FS_ROUGHLY_READ_EXECUTE); ("/lib64", ACCESS_FS_ROUGHLY_READ_EXECUTE);
     ("/usr/lib", ACCESS_FS_ROUGHLY_READ_EXECUTE); ("/usr/lib64", ACCESS_FS_ROUGHLY_READ_EXECUTE);
     ("/bin", ACCESS_FS_ROUGHLY_READ_EXECUTE); ("/sbin", ACCESS_FS_ROUGHLY_READ_EXECUTE);
     ("/usr/sbin", ACCESS_FS_ROUGHLY_READ_EXECUTE); ("/usr/bin", ACCESS_FS_ROUGHLY_READ_EXECUTE);
     ("/etc/group", ACCESS_FS_ROUGHLY_READ); ("/etc/passwd", ACCESS_FS_ROUGHLY_READ)]%string).
  intros l. revert j. induction l as [|x t IH]; intros j H; cbn [fold_left]; auto. apply IH. apply add_fs_frame; auto.
Qed.
Lemma minimalistic_frame (P : jail -> Prop) e j :
  (forall j v, P j -> P (set_fs_rules v j)) -> (forall j v, P j -> P (set_fs_rules_count v j)) ->
  (forall j v, P j -> P (set_fs_rules_fd v j)) -> (forall j v, P j -> P (set_fs_rules_landlock_abi v j)) ->
  P j -> P (minijail_add_minimalistic_mountns_fs_rules e j).
Proof.
  intros A B C D H. unfold minijail_add_minimalistic_mountns_fs_rules. destruct (_ || _); auto.
  destruct (j_mounts j) as [|m ms]; auto. cbv zeta.
  assert (R : forall l j, P j -> P (minimalistic_rules e l j)).
  { unfold minimalistic_rules. induction l as [|x t IH]; intros j' H'; cbn [fold_left]; auto. apply IH.
    destruct (_ || _); [apply advanced_frame; auto|]; apply add_fs_frame; auto. }
  assert (X : P (add_fs_restriction_path e "/proc" ACCESS_FS_ROUGHLY_READ
     (add_fs_restriction_path e "/dev" fs_edit_mask
        (minijail_enable_default_fs_restrictions e (minimalistic_rules e (m :: ms) j))))).
  { repeat apply add_fs_frame; auto. apply default_frame; auto. }
  destruct (hasf _ _); auto. apply add_fs_frame; auto.
Qed.

(* One step changes [f] in an understood way: used with projections. *)
Lemma step_frame {A} (f : jail -> A) e j a rc j' :
  api_step e j a = ARet rc j' ->
  (forall j v, f (set_fs_rules v j) = f j) -> (forall j v, f (set_fs_rules_count v j) = f j) ->
  (forall j v, f (set_fs_rules_fd v j) = f j) -> (forall j v, f (set_fs_rules_landlock_abi v j) = f j) ->
  match a with
  | A_add_minimalistic_mountns_fs_rules | A_enable_default_fs_restrictions
  | A_fs_rx _ | A_fs_ro _ | A_fs_rw _ | A_fs_advanced_rw _ | A_fs_edit _ | A_fs_access_rights _ _ => True
  | _ => False
  end -> f j' = f j.
Proof.
  intros H A1 A2 A3 A4 C.
  assert (Q : forall g : jail -> jail, (forall P : jail -> Prop, (forall j v, P j -> P (set_fs_rules v j)) -> (forall j v, P j -> P (set_fs_rules_count v j)) ->
  (forall j v, P j -> P (set_fs_rules_fd v j)) -> (forall j v, P j -> P (set_fs_rules_landlock_abi v j)) ->
  P j -> P (g j)) -> f (g j) = f j).
  { intros g G. apply (G (fun j' => f j' = f j)); auto; intros; rewrite <- H0; auto. }
  destruct a; try contradiction; cbn [api_step] in H; injection H as <- <-.
  - apply Q. intros; apply minimalistic_frame; auto.
  - apply Q. intros; apply default_frame; auto.
  - apply (Q (add_fs_restriction_path e p _)). intros; apply add_fs_frame; auto.
  - apply (Q (add_fs_restriction_path e p _)). intros; apply add_fs_frame; auto.
  - apply (Q (add_fs_restriction_path e p _)). intros; apply add_fs_frame; auto.
  - apply (Q (minijail_add_fs_restriction_advanced_rw e p)). intros; apply advanced_frame; auto.
  - apply (Q (add_fs_restriction_path e p _)). intros; apply add_fs_frame; auto.
  - apply (Q (add_fs_restriction_path e p _)). intros; apply add_fs_frame; auto.
Qed.

Lemma ARet_inj a b c d : ARet a b = ARet c d -> a = c /\ b = d.
Proof. intros H. split; congruence. Qed.
Ltac api_unfold H :=
  cbv [api_step minijail_change_uid minijail_change_gid minijail_set_supplementary_gids
    minijail_change_user minijail_change_group minijail_set_seccomp_filter_tsync
    minijail_set_seccomp_filter_allow_speculation minijail_log_seccomp_filter_failures
    minijail_use_caps minijail_capbset_drop minijail_namespace_enter_vfs minijail_namespace_enter_net
    minijail_namespace_set_hostname minijail_enter_chroot minijail_enter_pivot_root minijail_set_preload_path
    minijail_namespace_net_loopback minijail_mount_tmp_size minijail_write_pid_file
    minijail_add_to_cgroup minijail_rlimit minijail_bind minijail_mount minijail_mount_with_data
    minijail_add_remount minijail_add_hook minijail_preserve_fd minijail_parse_seccomp_filters
    minijail_set_seccomp_filters seccomp_should_use_filters minijail_use_alt_syscall on ok] in H.
Ltac api_cases H :=
  api_unfold H;
  repeat match type of H with
    | ARet _ _ = ARet _ _ => fail 1
    | context [match ?x with _ => _ end] =>
        lazymatch x with context [match _ with _ => _ end] => fail | _ => let E := fresh "E" in destruct x eqn:E end
    end;
  try discriminate H; apply ARet_inj in H; destruct H as [<- <-].
(* [f] is left alone by every step except those excluded. *)
Ltac frame_step H :=
  first [ match type of H with api_step ?e ?j ?a = ARet ?rc ?j' =>
            match goal with |- ?L = _ =>
              match eval pattern j' in L with ?f _ => apply (step_frame f e j a rc j' H) end end end;
          [intros; reflexivity ..|exact Logic.I]
        | api_cases H; repeat match goal with |- context [if ?b then _ else _] => destruct b end; reflexivity ].

Lemma firstn_set_nth {A} (l : list A) n v : (n < length l)%nat -> firstn (S n) (set_nth n v l) = (firstn n l ++ [v])%list.
Proof.
  revert n. induction l as [|x t IH]; intros n L; [cbn in L; lia|].
  destruct n; [reflexivity|]. cbn [set_nth]. cbn [length] in L.
  change (firstn (S (S n)) (x :: set_nth n v t)) with (x :: firstn (S n) (set_nth n v t)).
  rewrite IH by lia. reflexivity.
Qed.
Lemma set_nth_length {A} (l : list A) n v : length (set_nth n v l) = length l.
Proof. revert n. induction l as [|x t IH]; intros n; [destruct n; reflexivity|]. destruct n; cbn; auto. Qed.

(* Array shapes. *)
Definition shaped (j : jail) : Prop :=
  length (j_rlimits j) = MAX_RLIMITS /\ length (j_cgroups j) = MAX_CGROUPS /\
  length (j_preserved_fds j) = MAX_PRESERVED_FDS /\
  j_rlimit_count j <= 32 /\ j_cgroup_count j <= 10 /\ j_preserved_fd_count j <= 128.
Lemma new_shaped : shaped minijail_new.
Proof. unfold shaped. repeat split; vm_compute; congruence. Qed.

Lemma rlimit_step e j a rc j' : api_step e j a = ARet rc j' -> shaped j ->
  rlimits_in_use j' = (rlimits_in_use j ++ rlimit_added a rc)%list /\
  length (j_rlimits j') = MAX_RLIMITS /\ j_rlimit_count j' <= 32 /\
  (forall t c m, a = A_rlimit t c m -> rc = 0%Z -> ~ In t (map rl_type (rlimits_in_use j))).
Proof.
  intros H (S1 & _ & _ & S2 & _).
  assert (F : (forall t c m, a <> A_rlimit t c m) -> (j_rlimits j', j_rlimit_count j') = (j_rlimits j, j_rlimit_count j)).
  { intros NA. destruct a; try (frame_step H). exfalso. eapply NA. reflexivity. }
  assert (G : (forall t c m, a <> A_rlimit t c m) -> rlimits_in_use j' = (rlimits_in_use j ++ rlimit_added a rc)%list /\
  length (j_rlimits j') = MAX_RLIMITS /\ j_rlimit_count j' <= 32 /\
  (forall t c m, a = A_rlimit t c m -> rc = 0%Z -> ~ In t (map rl_type (rlimits_in_use j)))).
  { intros NA. specialize (F NA). assert (j_rlimits j' = j_rlimits j) by congruence.
    assert (j_rlimit_count j' = j_rlimit_count j) by congruence.
    replace (rlimit_added a rc) with (@nil rlimit) by (destruct a; try reflexivity; exfalso; eapply NA; reflexivity).
    rewrite app_nil_r. unfold rlimits_in_use. rewrite H0, H1. repeat split; auto. intros t c m E; exfalso; eapply NA; eauto. }
  destruct a; try (apply G; discriminate).
  clear F G. cbn [api_step] in H. unfold minijail_rlimit, ok in H.
  destruct (N.of_nat MAX_RLIMITS <=? j_rlimit_count j) eqn:E1.
  { apply ARet_inj in H. destruct H as [<- <-]. cbn [rlimit_added]. rewrite app_nil_r. repeat split; auto. discriminate. }
  fold (rlimits_in_use j) in H. destruct (existsb _ (rlimits_in_use j)) eqn:E2; apply ARet_inj in H; destruct H as [<- <-].
  { cbn [rlimit_added]. rewrite app_nil_r. repeat split; auto. discriminate. }
  unfold MAX_RLIMITS in *. cbn [rlimit_added]. unfold rlimits_in_use at 1. cbn [j_rlimits j_rlimit_count set_rlimits set_rlimit_count].
  split; [|split; [|split]].
  - replace (N.to_nat (j_rlimit_count j + 1)) with (S (N.to_nat (j_rlimit_count j))) by lia.
    apply firstn_set_nth. lia.
  - rewrite set_nth_length. auto.
  - lia.
  - intros t c m E _ I. injection E as -> _ _. apply in_map_iff in I. destruct I as (r & <- & I).
    assert (X : existsb (fun r0 => (rl_type r0 =? rl_type r)%Z) (rlimits_in_use j) = true).
    { apply existsb_exists. exists r. split; auto. apply Z.eqb_refl. }
    congruence.
Qed.
Lemma cgroup_step e j a rc j' : api_step e j a = ARet rc j' -> shaped j ->
  cgroups_in_use j' = (cgroups_in_use j ++ cgroup_added a rc)%list /\
  length (j_cgroups j') = MAX_CGROUPS /\ j_cgroup_count j' <= 10.
Proof.
  intros H (_ & S1 & _ & _ & S2 & _).
  assert (G : (forall p, a <> A_add_to_cgroup p) -> cgroups_in_use j' = (cgroups_in_use j ++ cgroup_added a rc)%list /\
  length (j_cgroups j') = MAX_CGROUPS /\ j_cgroup_count j' <= 10).
  { intros NA.
    assert (F : (j_cgroups j', j_cgroup_count j') = (j_cgroups j, j_cgroup_count j)).
    { destruct a; try (frame_step H). exfalso. eapply NA. reflexivity. }
    assert (j_cgroups j' = j_cgroups j) by congruence.
    assert (j_cgroup_count j' = j_cgroup_count j) by congruence.
    replace (cgroup_added a rc) with (@nil (cell string)) by (destruct a; try reflexivity; exfalso; eapply NA; reflexivity).
    rewrite app_nil_r. unfold cgroups_in_use. rewrite H0, H1. repeat split; auto. }
  destruct a; try (apply G; discriminate).
  clear G. cbn [api_step] in H. unfold minijail_add_to_cgroup, on, ok in H.
  destruct (N.of_nat MAX_CGROUPS <=? j_cgroup_count j) eqn:E1; apply ARet_inj in H; destruct H as [<- <-].
  { cbn [cgroup_added]. rewrite app_nil_r. repeat split; auto. }
  unfold MAX_CGROUPS in *. cbn [cgroup_added]. unfold cgroups_in_use at 1. cbn [flags_on fold_left].
  cbn [setf set_flags j_cgroups j_cgroup_count set_cgroups set_cgroup_count].
  split; [|split].
  - replace (N.to_nat (j_cgroup_count j + 1)) with (S (N.to_nat (j_cgroup_count j))) by lia.
    apply firstn_set_nth. lia.
  - rewrite set_nth_length. auto.
  - lia.
Qed.
Lemma fd_step e j a rc j' : api_step e j a = ARet rc j' -> shaped j ->
  fds_in_use j' = (fds_in_use j ++ fd_added a rc)%list /\
  length (j_preserved_fds j') = MAX_PRESERVED_FDS /\ j_preserved_fd_count j' <= 128 /\
  Forall (fun p => 0 <= fst p /\ 0 <= snd p)%Z (fd_added a rc).
Proof.
  intros H (_ & _ & S1 & _ & _ & S2).
  assert (G : (forall p c, a <> A_preserve_fd p c) -> fds_in_use j' = (fds_in_use j ++ fd_added a rc)%list /\
  length (j_preserved_fds j') = MAX_PRESERVED_FDS /\ j_preserved_fd_count j' <= 128 /\
  Forall (fun p => 0 <= fst p /\ 0 <= snd p)%Z (fd_added a rc)).
  { intros NA.
    assert (F : (j_preserved_fds j', j_preserved_fd_count j') = (j_preserved_fds j, j_preserved_fd_count j)).
    { destruct a; try (frame_step H). exfalso. eapply NA. reflexivity. }
    assert (j_preserved_fds j' = j_preserved_fds j) by congruence.
    assert (j_preserved_fd_count j' = j_preserved_fd_count j) by congruence.
    replace (fd_added a rc) with (@nil (Z * Z)) by (destruct a; try reflexivity; exfalso; eapply NA; reflexivity).
    rewrite app_nil_r. unfold fds_in_use. rewrite H0, H1. repeat split; auto. }
  destruct a; try (apply G; discriminate).
  clear G. cbn [api_step] in H. unfold minijail_preserve_fd, ok in H.
  destruct ((parent <? 0)%Z || (child <? 0)%Z) eqn:E0.
  { apply ARet_inj in H. destruct H as [<- <-]. cbn [fd_added]. rewrite app_nil_r. repeat split; auto. constructor. }
  destruct (N.of_nat MAX_PRESERVED_FDS <=? j_preserved_fd_count j) eqn:E1; apply ARet_inj in H; destruct H as [<- <-].
  { cbn [fd_added]. rewrite app_nil_r. repeat split; auto. constructor. }
  unfold MAX_PRESERVED_FDS in *. cbn [fd_added]. unfold fds_in_use at 1.
  cbn [j_preserved_fds j_preserved_fd_count set_preserved_fds set_preserved_fd_count].
  split; [|split; [|split]].
  - replace (N.to_nat (j_preserved_fd_count j + 1)) with (S (N.to_nat (j_preserved_fd_count j))) by lia.
    apply firstn_set_nth. lia.
  - rewrite set_nth_length. auto.
  - lia.
  - constructor; [|constructor]. cbn. lia.
Qed.
Lemma shaped_step e j a rc j' : api_step e j a = ARet rc j' -> shaped j -> shaped j'.
Proof.
  intros H S. destruct (rlimit_step _ _ _ _ _ H S) as (_ & A & B & _).
  destruct (cgroup_step _ _ _ _ _ H S) as (_ & C & D). destruct (fd_step _ _ _ _ _ H S) as (_ & E & F & _).
  unfold shaped. auto 10.
Qed.
Lemma list_step e j a rc j' : api_step e j a = ARet rc j' ->
  j_remounts j' = (j_remounts j ++ remount_added a rc)%list /\ j_hooks j' = (j_hooks j ++ hook_added a rc)%list.
Proof.
  intros H. split.
  - assert (G : (forall n m, a <> A_add_remount n m) -> j_remounts j' = (j_remounts j ++ remount_added a rc)%list).
    { intros NA. replace (remount_added a rc) with (@nil remount) by (destruct a; try reflexivity; exfalso; eapply NA; reflexivity).
      rewrite app_nil_r. destruct a; try (frame_step H). exfalso. eapply NA. reflexivity. }
    destruct a; try (apply G; discriminate). clear G. api_cases H; cbn; rewrite ?app_nil_r; reflexivity.
  - assert (G : (forall f p ev, a <> A_add_hook f p ev) -> j_hooks j' = (j_hooks j ++ hook_added a rc)%list).
    { intros NA. replace (hook_added a rc) with (@nil hook) by (destruct a; try reflexivity; exfalso; eapply NA; reflexivity).
      rewrite app_nil_r. destruct a; try (frame_step H). exfalso. eapply NA. reflexivity. }
    destruct a; try (apply G; discriminate). clear G. api_cases H; cbn; rewrite ?app_nil_r; reflexivity.
Qed.

Ltac flag_solve :=
  repeat match goal with |- context [if ?b then _ else _] => destruct b end;
  cbv [hasf flags_on clear_seccomp_options set_seccomp_filters_internal clearfs setf];
  cbn -[N.testbit N.setbit N.clearbit];
  repeat match goal with |- context [if ?b then _ else _] => destruct b end;
  repeat first [rewrite N.setbit_eqb | rewrite N.clearbit_eqb]; cbn -[N.testbit]; rewrite ?andb_true_r; reflexivity.
Ltac flag_step H :=
  first [ match type of H with api_step ?e ?j ?a = ARet ?rc ?j' =>
            match goal with |- ?L = _ =>
              match eval pattern j' in L with ?f _ => apply (step_frame f e j a rc j' H) end end end;
          [intros; reflexivity ..|exact Logic.I]
        | api_cases H; flag_solve ].
Lemma caps_step e j a rc j' : api_step e j a = ARet rc j' ->
  ~ (hasf F_use_caps j = true /\ hasf F_capbset_drop j = true) ->
  ~ (hasf F_use_caps j' = true /\ hasf F_capbset_drop j' = true).
Proof.
  intros H NB.
  assert (G : (forall m, a <> A_use_caps m) -> (forall m, a <> A_capbset_drop m) ->
     (hasf F_use_caps j', hasf F_capbset_drop j') = (hasf F_use_caps j, hasf F_capbset_drop j)).
  { intros N1 N2. destruct a; try (flag_step H); exfalso; [eapply N1|eapply N2]; reflexivity. }
  assert (K : (forall m, a <> A_use_caps m) -> (forall m, a <> A_capbset_drop m) ->
    ~ (hasf F_use_caps j' = true /\ hasf F_capbset_drop j' = true)).
  { intros N1 N2. specialize (G N1 N2).
    assert (hasf F_use_caps j' = hasf F_use_caps j) by congruence.
    assert (hasf F_capbset_drop j' = hasf F_capbset_drop j) by congruence. congruence. }
  destruct a; try (apply K; discriminate); clear G K.
  - api_cases H. rewrite !hasf_flags_on. destruct (hasf F_capbset_drop j) eqn:D.
    + intros [_ X]. revert X. cbv [hasf setf]. cbn -[N.testbit N.setbit N.clearbit]. rewrite N.clearbit_eqb. cbn -[N.testbit]. rewrite andb_false_r. discriminate.
    + intros [_ X]. revert X. unfold hasf in *. cbn -[N.testbit]. change (flag_bit F_capbset_drop) with 6 in D. rewrite D. discriminate.
  - api_cases H. intros [X _]. revert X. rewrite hasf_flags_on. unfold hasf in *. cbn -[N.testbit]. change (flag_bit F_use_caps) with 5 in E. rewrite E. discriminate.
Qed.
(* The root directory is chosen once. *)
Lemma root_step e j a rc j' : api_step e j a = ARet rc j' ->
  (is_null (j_chrootdir j) = true -> hasf F_chroot j = false /\ hasf F_pivot_root j = false) /\
    ~ (hasf F_chroot j = true /\ hasf F_pivot_root j = true) ->
  (is_null (j_chrootdir j') = true -> hasf F_chroot j' = false /\ hasf F_pivot_root j' = false) /\
    ~ (hasf F_chroot j' = true /\ hasf F_pivot_root j' = true).
Proof.
  intros H [NI NB].
  assert (G : (forall m, a <> A_enter_chroot m) -> (forall m, a <> A_enter_pivot_root m) ->
     (j_chrootdir j', hasf F_chroot j', hasf F_pivot_root j') = (j_chrootdir j, hasf F_chroot j, hasf F_pivot_root j)).
  { intros N1 N2. destruct a; try (flag_step H); exfalso; [eapply N1|eapply N2]; reflexivity. }
  assert (K : (forall m, a <> A_enter_chroot m) -> (forall m, a <> A_enter_pivot_root m) ->
  (is_null (j_chrootdir j') = true -> hasf F_chroot j' = false /\ hasf F_pivot_root j' = false) /\
    ~ (hasf F_chroot j' = true /\ hasf F_pivot_root j' = true)).
  { intros N1 N2. specialize (G N1 N2). assert (A1 : j_chrootdir j' = j_chrootdir j) by congruence.
    assert (A2 : hasf F_chroot j' = hasf F_chroot j) by congruence. assert (A3 : hasf F_pivot_root j' = hasf F_pivot_root j) by congruence.
    rewrite A1, A2, A3. auto. }
  destruct a; try (apply K; discriminate); clear G K.
  - api_cases H; auto. split; [discriminate|]. destruct (is_null (j_chrootdir j)); [|discriminate]. destruct NI as [A B]; auto.
    intros [_ X]. rewrite hasf_setf in X. unfold hasf in *. cbn -[N.testbit] in *. congruence.
  - api_cases H; auto. split; [discriminate|]. destruct (is_null (j_chrootdir j)); [|discriminate]. destruct NI as [A B]; auto.
    intros [X _]. rewrite hasf_setf in X. unfold hasf in *. cbn -[N.testbit] in *. congruence.
Qed.
Lemma once_step e j a rc j' : api_step e j a = ARet rc j' ->
  (is_null (j_chrootdir j) = false -> j_chrootdir j' = j_chrootdir j) /\
  (is_null (j_hostname j) = false -> j_hostname j' = j_hostname j) /\
  (is_null (j_preload_path j) = false -> j_preload_path j' = j_preload_path j).
Proof.
  intros H. repeat split; intros N.
  - destruct a; try (frame_step H); api_cases H; auto; rewrite N in *; discriminate.
  - destruct a; try (frame_step H); api_cases H; auto; rewrite N in *; discriminate.
  - destruct a; try (frame_step H); api_cases H; auto; rewrite N in *; discriminate.
Qed.

(* Histories. *)
Definition good (j : jail) : Prop := within_limits j /\ counted j /\ shaped j /\
  (is_null (j_chrootdir j) = true -> hasf F_chroot j = false /\ hasf F_pivot_root j = false).
Lemma in_use_length {A} (n : N) (l : list A) : n <= N.of_nat (length l) -> length (firstn (N.to_nat n) l) = N.to_nat n.
Proof. intros H. rewrite firstn_length. lia. Qed.
Lemma good_step e j a rc j' : api_step e j a = ARet rc j' -> good j -> good j'.
Proof.
  intros H ((L1 & L2 & L3 & L4 & L5 & L6 & L7) & C & S & R).
  pose proof (shaped_step _ _ _ _ _ H S) as S'. pose proof S' as (T1 & T2 & T3 & T4 & T5 & T6).
  destruct (rlimit_step _ _ _ _ _ H S) as (A1 & _ & _ & A2).
  destruct (cgroup_step _ _ _ _ _ H S) as (B1 & _ & _). destruct (fd_step _ _ _ _ _ H S) as (D1 & _ & _ & D2).
  destruct (root_step _ _ _ _ _ H (conj R L7)) as [R' L7'].
  unfold MAX_RLIMITS, MAX_CGROUPS, MAX_PRESERVED_FDS in *.
  assert (U1 : length (rlimits_in_use j') = N.to_nat (j_rlimit_count j')) by (apply in_use_length; clear -T1 T4; lia).
  assert (U2 : length (cgroups_in_use j') = N.to_nat (j_cgroup_count j')) by (apply in_use_length; clear -T2 T5; lia).
  assert (U3 : length (fds_in_use j') = N.to_nat (j_preserved_fd_count j')) by (apply in_use_length; clear -T3 T6; lia).
  split; [|split; [|split; auto]].
  - split; [clear -T4 U1; lia|]. split; [|split; [clear -T5 U2; lia|split; [clear -T6 U3; lia|split; [|split; [|exact L7']]]]].
    + rewrite A1, map_app. destruct a; cbn [rlimit_added map]; rewrite ?app_nil_r; auto.
      destruct (rc =? 0)%Z eqn:RC; cbn [map]; rewrite ?app_nil_r; auto. apply Z.eqb_eq in RC.
      specialize (A2 _ _ _ eq_refl RC). apply NoDup_rev in L2. rewrite <- (rev_involutive (map rl_type (rlimits_in_use j) ++ [rl_type _]))%list.
      apply NoDup_rev. rewrite rev_app_distr. cbn. constructor; [|exact L2]. rewrite <- in_rev. exact A2.
    + rewrite D1. apply Forall_app. auto.
    + eapply caps_step; eauto.
  - unfold counted. rewrite U1, U2, U3. rewrite !N2Nat.id. auto.
Qed.
Lemma good_new : good minijail_new.
Proof.
  split; [|split; [|split]].
  - unfold within_limits. cbn. repeat split; try lia; try constructor; intros [A B]; discriminate.
  - unfold counted. cbn. auto.
  - apply new_shaped.
  - auto.
Qed.
Lemma good_run e : forall h j j', good j -> history e j h j' -> good j'.
Proof. intros h j j' G H. induction H; auto. eapply IHhistory, good_step; eauto. Qed.

Definition one_shot {A} (c : cell A) (o : option A) : cell A :=
  match c with Null => match o with Some x => Own x | None => Null end | _ => c end.
Lemma one_shot_step e j a rc j' : api_step e j a = ARet rc j' ->
  j_chrootdir j' = one_shot (j_chrootdir j) (root_of a) /\
  j_hostname j' = one_shot (j_hostname j) (hostname_of a) /\
  j_preload_path j' = one_shot (j_preload_path j) (preload_of a).
Proof.
  intros H.
  assert (K : forall A (c : cell A), c = one_shot c None) by (intros A []; reflexivity).
  repeat split.
  - destruct a; cbn [root_of]; rewrite <- ?K; try (frame_step H); api_cases H; destruct (j_chrootdir j); auto; discriminate.
  - destruct a; cbn [hostname_of]; rewrite <- ?K; try (frame_step H); api_cases H; destruct (j_hostname j); auto; discriminate.
  - destruct a; cbn [preload_of]; rewrite <- ?K; try (frame_step H); api_cases H; destruct (j_preload_path j); auto; discriminate.
Qed.
Lemma one_shot_first {A} (f : api -> option A) a rc h (c : cell A) :
  one_shot (one_shot c (f a)) (first_of f h) = one_shot c (first_of f ((a, rc) :: h)).
Proof.
  unfold first_of. cbn [flat_map fst]. destruct c; try reflexivity. cbn [one_shot]. destruct (f a); reflexivity.
Qed.
Lemma one_shot_run e : forall h j j', history e j h j' ->
  j_chrootdir j' = one_shot (j_chrootdir j) (first_of root_of h) /\
  j_hostname j' = one_shot (j_hostname j) (first_of hostname_of h) /\
  j_preload_path j' = one_shot (j_preload_path j) (first_of preload_of h).
Proof.
  intros h j j' H. induction H as [j|j a rc j1 t j2 E H (A & B & C)].
  - repeat split; match goal with |- ?c = _ => destruct c; reflexivity end.
  - destruct (one_shot_step _ _ _ _ _ E) as (A1 & B1 & C1). rewrite A, B, C, A1, B1, C1, !(one_shot_first _ _ rc). auto.
Qed.
Lemma one_shot_null {A} (o : option A) : content (one_shot Null o) = o.
Proof. destruct o; reflexivity. Qed.
Lemma one_shots e h j : history e minijail_new h j ->
  content (j_chrootdir j) = first_of root_of h /\ content (j_hostname j) = first_of hostname_of h /\
  content (j_preload_path j) = first_of preload_of h.
Proof.
  intros H. apply one_shot_run in H. destruct H as (A & B & C). rewrite A, B, C.
  change (j_chrootdir minijail_new) with (@Null string). change (j_hostname minijail_new) with (@Null string).
  change (j_preload_path minijail_new) with (@Null string). rewrite !one_shot_null. auto.
Qed.

Lemma contents_run e : forall h j j', history e j h j' -> good j ->
  rlimits_in_use j' = (rlimits_in_use j ++ accepted rlimit_added h)%list /\
  cgroups_in_use j' = (cgroups_in_use j ++ accepted cgroup_added h)%list /\
  fds_in_use j' = (fds_in_use j ++ accepted fd_added h)%list /\
  j_remounts j' = (j_remounts j ++ accepted remount_added h)%list /\
  j_hooks j' = (j_hooks j ++ accepted hook_added h)%list.
Proof.
  unfold accepted. intros h j j' H. induction H as [j|j a rc j1 t j2 E H IH]; intros G.
  - cbn [flat_map]. rewrite !app_nil_r. auto.
  - pose proof G as (_ & _ & S & _). pose proof (good_step _ _ _ _ _ E G) as G1.
    destruct (rlimit_step _ _ _ _ _ E S) as (A1 & _). destruct (cgroup_step _ _ _ _ _ E S) as (A2 & _).
    destruct (fd_step _ _ _ _ _ E S) as (A3 & _). destruct (list_step _ _ _ _ _ E) as (A4 & A5).
    destruct (IH G1) as (B1 & B2 & B3 & B4 & B5). cbn [flat_map fst snd].
    rewrite B1, B2, B3, B4, B5, A1, A2, A3, A4, A5, !app_assoc. auto.
Qed.
Lemma limits e h j : history e minijail_new h j -> within_limits j /\
  rlimits_in_use j = accepted rlimit_added h /\ cgroups_in_use j = accepted cgroup_added h /\
  fds_in_use j = accepted fd_added h /\ j_remounts j = accepted remount_added h /\ j_hooks j = accepted hook_added h.
Proof.
  intros H. split; [eapply good_run; [apply good_new|eauto]|]. exact (contents_run _ _ _ _ H good_new).
Qed.
(* A call is refused only for one of the documented reasons. *)
Lemma refusals e j a rc j' : good j -> api_step e j a = ARet rc j' ->
  match a with
  | A_rlimit t _ _ => rc = 0%Z <-> (length (rlimits_in_use j) < 32)%nat /\ ~ In t (map rl_type (rlimits_in_use j))
  | A_add_to_cgroup _ => rc = 0%Z <-> (length (cgroups_in_use j) < 10)%nat
  | A_preserve_fd p c => rc = 0%Z <-> (0 <= p)%Z /\ (0 <= c)%Z /\ (length (fds_in_use j) < 128)%nat
  | _ => True
  end.
Proof.
  intros (_ & (C1 & C2 & C3) & (S1 & S2 & S3 & S4 & S5 & S6) & _) H. destruct a; auto.
  - unfold api_step, minijail_add_to_cgroup in H. destruct (_ <=? _) eqn:E in H; apply ARet_inj in H; destruct H as [<- _].
    + split; [discriminate|]. clear - E C2. unfold MAX_CGROUPS in *. lia.
    + clear - E C2. unfold MAX_CGROUPS in *. split; lia.
  - unfold api_step, minijail_rlimit in H. destruct (_ <=? _) eqn:E in H.
    + apply ARet_inj in H; destruct H as [<- _]. split; [discriminate|]. clear - E C1. unfold MAX_RLIMITS in *. lia.
    + fold (rlimits_in_use j) in H. destruct (existsb _ _) eqn:X in H; apply ARet_inj in H; destruct H as [<- _].
      * split; [discriminate|]. intros [_ NI]. exfalso. apply NI. apply existsb_exists in X. destruct X as (r & I1 & I2).
        apply Z.eqb_eq in I2. subst type. apply in_map. exact I1.
      * split; [intros _|auto]. split; [clear - E C1; unfold MAX_RLIMITS in *; lia|]. intros I0. apply in_map_iff in I0.
        destruct I0 as (r & <- & I2). assert (Y : existsb (fun r0 => (rl_type r0 =? rl_type r)%Z) (rlimits_in_use j) = true).
        { apply existsb_exists. exists r. rewrite Z.eqb_refl. auto. } congruence.
  - unfold api_step, minijail_preserve_fd in H. destruct (_ || _) eqn:E0 in H.
    + apply ARet_inj in H; destruct H as [<- _]. split; [discriminate|]. clear - E0. lia.
    + destruct (_ <=? _) eqn:E in H; apply ARet_inj in H; destruct H as [<- _].
      * split; [discriminate|]. clear - E C3. unfold MAX_PRESERVED_FDS in *. lia.
      * clear - E C3 E0. unfold MAX_PRESERVED_FDS in *. split; lia.
Qed.
Lemma refused_beyond e h j a rc j' : history e minijail_new h j -> api_step e j a = ARet rc j' ->
  match a with
  | A_rlimit t _ _ => rc = 0%Z <-> (length (rlimits_in_use j) < 32)%nat /\ ~ In t (map rl_type (rlimits_in_use j))
  | A_add_to_cgroup _ => rc = 0%Z <-> (length (cgroups_in_use j) < 10)%nat
  | A_preserve_fd p c => rc = 0%Z <-> (0 <= p)%Z /\ (0 <= c)%Z /\ (length (fds_in_use j) < 128)%nat
  | _ => True
  end.
Proof. intros H. apply refusals. eapply good_run; [apply good_new|eauto]. Qed.

(* C55. *)
Lemma mount_step e j a rc j' : api_step e j a = ARet rc j' ->
  j_mounts j' = (j_mounts j ++ mount_added a rc)%list /\
  (mount_added a rc <> [] -> hasf F_vfs j' = true \/ hasf F_enter_vfs j' = true).
Proof.
  intros H.
  assert (G : (forall s d t f x, a <> A_mount_with_data s d t f x) -> (forall s d t f, a <> A_mount s d t f) ->
    (forall s d w r, a <> A_bind s d w r) -> j_mounts j' = j_mounts j /\ mount_added a rc = []).
  { intros N1 N2 N3. split.
    - destruct a; try (frame_step H); exfalso; [eapply N1|eapply N2|eapply N3]; reflexivity.
    - unfold mount_added. destruct (rc =? 0)%Z; [|reflexivity]. cbn [negb].
      destruct a; try reflexivity; exfalso; [eapply N1|eapply N2|eapply N3]; reflexivity. }
  assert (M : forall s d t f x j j', minijail_mount_with_data s d t f x j = ARet rc j' ->
     (rc = 0%Z -> j_mounts j' = (j_mounts j ++ [Mount s d t (effective_data t x) (effective_flags f)])%list /\ (hasf F_vfs j' = true \/ hasf F_enter_vfs j' = true)) /\ (rc <> 0%Z -> j_mounts j' = j_mounts j)).
  { clear. intros s d t f x j j' H. unfold minijail_mount_with_data in H. destruct (negb _) in H.
    - apply ARet_inj in H. destruct H as [<- <-]. split; [discriminate|auto].
    - apply ARet_inj in H. destruct H as [<- <-]. split; [intros _|intros X; contradiction X; reflexivity]. split.
      + unfold set_mounts_count, set_mounts. cbn [j_mounts]. unfold effective_data, effective_flags.
        replace (j_mounts (if hasf F_enter_vfs j then j else setf F_vfs true j)) with (j_mounts j) by (destruct (hasf _ _); reflexivity).
        do 2 f_equal. f_equal. destruct x as [[|c x]|]; destruct (String.eqb t "tmpfs"); reflexivity.
      + match goal with |- hasf _ ?y = _ \/ _ => assert (Y : forall g, hasf g y = hasf g (if hasf F_enter_vfs j then j else setf F_vfs true j)) by reflexivity end.
        rewrite !Y. clear Y.
        destruct (hasf F_enter_vfs j) eqn:EV; [auto|left]. rewrite hasf_setf. reflexivity. }
  assert (L : forall s d t f x, minijail_mount_with_data s d t f x j = ARet rc j' ->
     mount_added a rc = (if negb (rc =? 0)%Z then [] else [Mount s d t (effective_data t x) (effective_flags f)]) ->
     j_mounts j' = (j_mounts j ++ mount_added a rc)%list /\ (mount_added a rc <> [] -> hasf F_vfs j' = true \/ hasf F_enter_vfs j' = true)).
  { intros s d t f x H0 E. apply M in H0. destruct H0 as [H1 H2]. rewrite E. destruct (rc =? 0)%Z eqn:R; cbn [negb].
    - apply Z.eqb_eq in R. destruct (H1 R) as [-> V]. auto.
    - apply Z.eqb_neq in R. rewrite (H2 R), app_nil_r. split; [auto|congruence]. }
  destruct a; try (destruct G as [-> ->]; try discriminate; rewrite app_nil_r; split; [reflexivity|congruence]).
  - eapply L; [exact H|reflexivity].
  - eapply L; [exact H|reflexivity].
  - unfold api_step, minijail_bind in H. destruct (is_valid_bind_path _ _ _) as [[]|] in H; [|apply ARet_inj in H; destruct H as [<- <-]; cbn; rewrite app_nil_r; split; congruence|discriminate].
    eapply L; [exact H|]. unfold mount_added. destruct (negb _); [reflexivity|]. destruct writeable; reflexivity.
Qed.
