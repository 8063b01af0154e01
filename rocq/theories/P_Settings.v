(* Proofs: the jail holds what the configuration calls asked for. *)
From Verif Require Export S_Settings P_Jail P_JailInv P_Mounts.
Local Open Scope N_scope.

Lemma hasf_frame f j j' : j_flags j' = j_flags j -> hasf f j' = hasf f j.
Proof. unfold hasf. now intros ->. Qed.

Ltac flags_out f :=
  repeat first
    [ rewrite hasf_flags_on | rewrite hasf_setf | rewrite hasf_clearfs
    | match goal with |- context [hasf f (if ?b then _ else _)] => destruct b eqn:? end
    | match goal with |- context [hasf f (match ?b with _ => _ end)] => destruct b eqn:? end
    | match goal with |- context [hasf f (?s ?v ?k)] => change (hasf f (s v k)) with (hasf f k) end
    | match goal with |- context [hasf f (?s ?k)] => progress unfold s end ].

Lemma unsteady soft g f : steady soft f = true -> steady soft g = false -> flag_eqb g f = false.
Proof. intros A B. destruct (flag_eqb g f) eqn:E; [|reflexivity]. apply flag_eqb_eq in E. congruence. Qed.
Ltac flags_end S :=
  cbn -[hasf flag_eqb];
  repeat match goal with |- context [flag_eqb ?g ?f] =>
    first [rewrite (unsteady _ g f S eq_refl) | destruct (flag_eqb g f)] end;
  cbn -[hasf flag_eqb]; try reflexivity;
  repeat match goal with |- context [hasf ?f ?j] => destruct (hasf f j) end; try reflexivity.
Lemma mount_flag soft s d t fl x j rc j' f : minijail_mount_with_data s d t fl x j = ARet rc j' -> steady soft f = true -> hasf f j' = hasf f j.
Proof.
  intros E S. unfold minijail_mount_with_data in E. destruct (negb _) in E; apply ARet_inj in E; destruct E as [_ <-]; [reflexivity|].
  match goal with |- hasf _ ?y = _ => assert (Y : forall g, hasf g y = hasf g (if hasf F_enter_vfs j then j else setf F_vfs true j)) by reflexivity end.
  rewrite Y. destruct (hasf F_enter_vfs j); [reflexivity|]. rewrite hasf_setf, (unsteady _ F_vfs f S eq_refl). reflexivity.
Qed.
Lemma should_use_hard e j : k_softfail e = false -> exists j1, seccomp_should_use_filters e j = (true, j1) /\
  (j1 = j \/ j1 = setf F_seccomp_filter_allow_speculation false j).
Proof. intros S. unfold seccomp_should_use_filters. rewrite S, !andb_false_r. cbn [andb]. destruct (_ && _); eauto. Qed.
Lemma parse_hard e s j rc j' : minijail_parse_seccomp_filters e s j = ARet rc j' -> k_softfail e = false ->
  exists j1 prog p, (j1 = j \/ j1 = setf F_seccomp_filter_allow_speculation false j) /\
    j' = set_seccomp_policy_path (match p with Some p => Own p | None => Null end) (set_seccomp_filters_internal prog j1).
Proof.
  intros H S. unfold minijail_parse_seccomp_filters in H. destruct (should_use_hard e j S) as (j1 & E & C). rewrite E in H. cbn [negb] in H.
  destruct (ps_stream s); [|discriminate]. destruct (compile_filter _ _ _ _); try discriminate.
  apply ARet_inj in H. destruct H as [_ <-]. eauto.
Qed.
Lemma set_filters_hard e p j rc j' : minijail_set_seccomp_filters e p j = ARet rc j' -> k_softfail e = false ->
  exists j1, (j1 = j \/ j1 = setf F_seccomp_filter_allow_speculation false j) /\ j' = set_seccomp_filters_internal p j1.
Proof.
  intros H S. unfold minijail_set_seccomp_filters in H. destruct (should_use_hard e j S) as (j1 & E & C). rewrite E in H. cbn [negb] in H.
  destruct (logging_allowed e j1); [discriminate|]. apply ARet_inj in H. destruct H as [_ <-]. eauto.
Qed.
(* The flags after a call, in full. *)
Lemma flag_api e j a rc j' f : api_step e j a = ARet rc j' -> steady (k_softfail e) f = true ->
  hasf f j' = hasf f j || existsb (fun g => flag_eqb g f) (on_by a rc).
Proof.
  intros H S.
  assert (FR : match a with
    | A_add_minimalistic_mountns_fs_rules | A_enable_default_fs_restrictions
    | A_fs_rx _ | A_fs_ro _ | A_fs_rw _ | A_fs_advanced_rw _ | A_fs_edit _ | A_fs_access_rights _ _ => True
    | _ => False end ->
    hasf f j' = hasf f j || existsb (fun g => flag_eqb g f) (on_by a rc)).
  { intro M. rewrite (hasf_frame f j j').
    - destruct a; try contradiction; unfold on_by; destruct (negb _); symmetry; apply orb_false_r.
    - apply (step_frame j_flags e j a rc j' H); auto; intros; reflexivity. }
  destruct a; try (apply FR; exact Logic.I); clear FR;
    try (apply ARet_inj in H; destruct H as [<- <-]; rewrite hasf_flags_on; reflexivity).
  all: lazymatch type of H with
    | context [A_parse_seccomp_filters] => idtac | context [A_set_seccomp_filters] => idtac
    | context [A_mount] => idtac | context [A_mount_with_data] => idtac | context [A_bind] => idtac
    | _ => try (timeout 10 (api_cases H; flags_out f; flags_end S; fail)) end.
  - cbn [api_step] in H. unfold minijail_change_user, minijail_change_uid in H. destruct r as [z|[u g]].
    + apply ARet_inj in H. destruct H as [<- <-]. unfold on_by. destruct (negb _); symmetry; apply orb_false_r.
    + destruct (u =? 0); [discriminate|]. apply ARet_inj in H. destruct H as [<- <-]. flags_out f. flags_end S.
  - cbn [api_step] in H. unfold minijail_change_group, minijail_change_gid in H. destruct r as [z|g].
    + apply ARet_inj in H. destruct H as [<- <-]. unfold on_by. destruct (negb _); symmetry; apply orb_false_r.
    + destruct (g =? 0); [discriminate|]. apply ARet_inj in H. destruct H as [<- <-]. flags_out f. flags_end S.
  - replace (on_by (A_parse_seccomp_filters s) rc) with (@nil flag) by (unfold on_by; destruct (negb _); reflexivity).
    cbn [api_step] in H. destruct (k_softfail e) eqn:SF.
    + apply parse_cases in H. destruct H as [->|(j1 & pr & p & [->| ->] & ->)]; unfold clear_seccomp_options; flags_out f; flags_end S.
    + apply parse_hard in H; [|exact SF]. destruct H as (j1 & pr & p & [->| ->] & ->); flags_out f; flags_end S.
  - replace (on_by (A_set_seccomp_filters prog) rc) with (@nil flag) by (unfold on_by; destruct (negb _); reflexivity).
    cbn [api_step] in H. destruct (k_softfail e) eqn:SF.
    + apply set_filters_cases in H. destruct H as [->|(j1 & [->| ->] & ->)]; unfold clear_seccomp_options; flags_out f; flags_end S.
    + apply set_filters_hard in H; [|exact SF]. destruct H as (j1 & [->| ->] & ->); flags_out f; flags_end S.
  - replace (on_by _ rc) with (@nil flag) by (unfold on_by; destruct (negb _); reflexivity).
    cbn [api_step] in H. rewrite (mount_flag _ _ _ _ _ _ _ _ _ f H S). symmetry; apply orb_false_r.
  - replace (on_by _ rc) with (@nil flag) by (unfold on_by; destruct (negb _); reflexivity).
    cbn [api_step] in H. rewrite (mount_flag _ _ _ _ _ _ _ _ _ f H S). symmetry; apply orb_false_r.
  - replace (on_by _ rc) with (@nil flag) by (unfold on_by; destruct (negb _); reflexivity).
    cbn [api_step] in H. unfold minijail_bind in H. destruct (is_valid_bind_path e src rp) as [[|]|]; [| |discriminate].
    + rewrite (mount_flag _ _ _ _ _ _ _ _ _ f H S). symmetry; apply orb_false_r.
    + apply ARet_inj in H. destruct H as [_ <-]. symmetry; apply orb_false_r.
Qed.
Lemma existsb_in {A} (g : A -> bool) l : existsb g l = true -> exists x, In x l /\ g x = true.
Proof. apply existsb_exists. Qed.
Lemma flag_run e f h j j' : steady (k_softfail e) f = true -> history e j h j' -> (hasf f j' = true <-> hasf f j = true \/ asked f h).
Proof.
  intros S H. induction H as [j|j a rc j1 h j2 E R IH].
  - split; [auto|]. intros [X|(a & rc & [] & _)]. exact X.
  - rewrite IH, (flag_api _ _ _ _ _ f E S), orb_true_iff. unfold asked. split.
    + intros [[X|X]|(a' & rc' & X & Y)]; [auto| |right; exists a', rc'; split; [right; exact X|exact Y]].
      right. apply existsb_in in X. destruct X as (g & X & Y). apply flag_eqb_eq in Y. subst. exists a, rc. split; [left; reflexivity|exact X].
    + intros [X|(a' & rc' & [X|X] & Y)]; [auto| |right; exists a', rc'; auto].
      injection X as -> ->. left. right. apply existsb_exists. exists f. split; [exact Y|]. apply flag_eqb_eq. reflexivity.
Qed.
Lemma flag_asked e h j f : history e minijail_new h j -> steady (k_softfail e) f = true -> (hasf f j = true <-> asked f h).
Proof.
  intros H S. rewrite (flag_run e f h _ j S H). split; [intros [X|X]; [destruct f; discriminate|exact X]|auto].
Qed.

(* The last value given for a setting. *)
Lemma last_run {A} (field : jail -> A) (v : api -> option A) e :
  (forall j a rc j', api_step e j a = ARet rc j' -> field j' = match v a with Some x => x | None => field j end) ->
  forall h j j', history e j h j' -> field j' = last_of v h (field j).
Proof.
  intros ST h j j' H. induction H as [j|j a rc j1 h j2 E R IH]; [reflexivity|]. cbn [last_of]. rewrite IH, (ST _ _ _ _ E). reflexivity.
Qed.
Lemma mount_field {A} (field : jail -> A) s d t fl x j rc j' :
  (forall j v, field (set_flags v j) = field j) -> (forall j v, field (set_mounts v j) = field j) ->
  (forall j v, field (set_mounts_count v j) = field j) ->
  minijail_mount_with_data s d t fl x j = ARet rc j' -> field j' = field j.
Proof.
  intros A1 A2 A3 E. unfold minijail_mount_with_data in E. destruct (negb _) in E; apply ARet_inj in E; destruct E as [_ <-]; [reflexivity|].
  rewrite A3, A2. destruct (hasf F_enter_vfs j); [reflexivity|]. apply A1.
Qed.
Ltac value_step H :=
  first
  [ frame_step H
  | match type of H with
    | api_step _ _ (A_parse_seccomp_filters _) = _ => apply parse_cases in H; destruct H as [->|(? & ? & ? & [->| ->] & ->)]; reflexivity
    | api_step _ _ (A_set_seccomp_filters _) = _ => apply set_filters_cases in H; destruct H as [->|(? & [->| ->] & ->)]; reflexivity
    | api_step _ _ _ = ARet _ ?j' => match goal with |- ?L = _ => match eval pattern j' in L with ?f _ =>
        first [apply (mount_field f) in H; [exact H|intros; reflexivity ..]] end end
    end
  | api_cases H; repeat match goal with |- context [if ?b then _ else _] => destruct b end; reflexivity ].
Lemma uid_step e j a rc j' : api_step e j a = ARet rc j' -> j_uid j' = match uid_of a with Some x => x | None => j_uid j end.
Proof. intros H. destruct a; cbn [uid_of]; try (value_step H). Qed.
Lemma uid_last e h j : history e minijail_new h j -> j_uid j = last_of uid_of h (j_uid minijail_new).
Proof. intros H. apply (last_run (fun j => j_uid j) uid_of e); [intros; eapply uid_step; eassumption|exact H]. Qed.
Lemma gid_step e j a rc j' : api_step e j a = ARet rc j' -> j_gid j' = match gid_of a with Some x => x | None => j_gid j end.
Proof. intros H. destruct a; cbn [gid_of]; try (value_step H). Qed.
Lemma gid_last e h j : history e minijail_new h j -> j_gid j = last_of gid_of h (j_gid minijail_new).
Proof. intros H. apply (last_run (fun j => j_gid j) gid_of e); [intros; eapply gid_step; eassumption|exact H]. Qed.
Lemma suppl_step e j a rc j' : api_step e j a = ARet rc j' -> gid_list (j_suppl_gid_list j') = match suppl_of a with Some x => x | None => gid_list (j_suppl_gid_list j) end.
Proof. intros H. destruct a; cbn [suppl_of]; try (value_step H). Qed.
Lemma suppl_last e h j : history e minijail_new h j -> gid_list (j_suppl_gid_list j) = last_of suppl_of h (gid_list (j_suppl_gid_list minijail_new)).
Proof. intros H. apply (last_run (fun j => gid_list (j_suppl_gid_list j)) suppl_of e); [intros; eapply suppl_step; eassumption|exact H]. Qed.
Lemma user_step e j a rc j' : api_step e j a = ARet rc j' -> (j_user j', j_usergid j') = match user_of a with Some x => x | None => (j_user j, j_usergid j) end.
Proof. intros H. destruct a; cbn [user_of]; try (value_step H). Qed.
Lemma user_last e h j : history e minijail_new h j -> (j_user j, j_usergid j) = last_of user_of h ((j_user minijail_new, j_usergid minijail_new)).
Proof. intros H. apply (last_run (fun j => (j_user j, j_usergid j)) user_of e); [intros; eapply user_step; eassumption|exact H]. Qed.
Lemma alt_step e j a rc j' : api_step e j a = ARet rc j' -> j_alt_syscall_table j' = match alt_of a with Some x => x | None => j_alt_syscall_table j end.
Proof. intros H. destruct a; cbn [alt_of]; try (value_step H). Qed.
Lemma alt_last e h j : history e minijail_new h j -> j_alt_syscall_table j = last_of alt_of h (j_alt_syscall_table minijail_new).
Proof. intros H. apply (last_run (fun j => j_alt_syscall_table j) alt_of e); [intros; eapply alt_step; eassumption|exact H]. Qed.
Lemma caps_step e j a rc j' : api_step e j a = ARet rc j' -> j_caps j' = match caps_of a with Some x => x | None => j_caps j end.
Proof. intros H. destruct a; cbn [caps_of]; try (value_step H). Qed.
Lemma caps_last e h j : history e minijail_new h j -> j_caps j = last_of caps_of h (j_caps minijail_new).
Proof. intros H. apply (last_run (fun j => j_caps j) caps_of e); [intros; eapply caps_step; eassumption|exact H]. Qed.
Lemma skip_step e j a rc j' : api_step e j a = ARet rc j' -> j_securebits_skip_mask j' = match skip_of a with Some x => x | None => j_securebits_skip_mask j end.
Proof. intros H. destruct a; cbn [skip_of]; try (value_step H). Qed.
Lemma skip_last e h j : history e minijail_new h j -> j_securebits_skip_mask j = last_of skip_of h (j_securebits_skip_mask minijail_new).
Proof. intros H. apply (last_run (fun j => j_securebits_skip_mask j) skip_of e); [intros; eapply skip_step; eassumption|exact H]. Qed.
Lemma rmode_step e j a rc j' : api_step e j a = ARet rc j' -> j_remount_mode j' = match remount_mode_of a with Some x => x | None => j_remount_mode j end.
Proof. intros H. destruct a; cbn [remount_mode_of]; try (value_step H). Qed.
Lemma rmode_last e h j : history e minijail_new h j -> j_remount_mode j = last_of remount_mode_of h (j_remount_mode minijail_new).
Proof. intros H. apply (last_run (fun j => j_remount_mode j) remount_mode_of e); [intros; eapply rmode_step; eassumption|exact H]. Qed.
Lemma tmp_step e j a rc j' : api_step e j a = ARet rc j' -> j_tmpfs_size j' = match tmp_size_of a with Some x => x | None => j_tmpfs_size j end.
Proof. intros H. destruct a; cbn [tmp_size_of]; try (value_step H). Qed.
Lemma tmp_last e h j : history e minijail_new h j -> j_tmpfs_size j = last_of tmp_size_of h (j_tmpfs_size minijail_new).
Proof. intros H. apply (last_run (fun j => j_tmpfs_size j) tmp_size_of e); [intros; eapply tmp_step; eassumption|exact H]. Qed.
Lemma mountns_step e j a rc j' : api_step e j a = ARet rc j' -> j_mountns_fd j' = match mountns_of a with Some x => x | None => j_mountns_fd j end.
Proof. intros H. destruct a; cbn [mountns_of]; try (value_step H). Qed.
Lemma mountns_last e h j : history e minijail_new h j -> j_mountns_fd j = last_of mountns_of h (j_mountns_fd minijail_new).
Proof. intros H. apply (last_run (fun j => j_mountns_fd j) mountns_of e); [intros; eapply mountns_step; eassumption|exact H]. Qed.
Lemma netns_step e j a rc j' : api_step e j a = ARet rc j' -> j_netns_fd j' = match netns_of a with Some x => x | None => j_netns_fd j end.
Proof. intros H. destruct a; cbn [netns_of]; try (value_step H). Qed.
Lemma netns_last e h j : history e minijail_new h j -> j_netns_fd j = last_of netns_of h (j_netns_fd minijail_new).
Proof. intros H. apply (last_run (fun j => j_netns_fd j) netns_of e); [intros; eapply netns_step; eassumption|exact H]. Qed.
Lemma dropped_step e j a rc j' : api_step e j a = ARet rc j' ->
  (if hasf F_capbset_drop j' then Some (j_cap_bset j') else None) =
  match dropped_caps_of a with Some x => x | None => if hasf F_capbset_drop j then Some (j_cap_bset j) else None end.
Proof.
  intros H.
  assert (G : (forall m, a <> A_use_caps m) -> (forall m, a <> A_capbset_drop m) ->
     (hasf F_capbset_drop j', j_cap_bset j') = (hasf F_capbset_drop j, j_cap_bset j)).
  { intros N1 N2. destruct a; try (flag_step H); exfalso; [eapply N1|eapply N2]; reflexivity. }
  assert (K : (forall m, a <> A_use_caps m) -> (forall m, a <> A_capbset_drop m) ->
    (if hasf F_capbset_drop j' then Some (j_cap_bset j') else None) = if hasf F_capbset_drop j then Some (j_cap_bset j) else None).
  { intros N1 N2. specialize (G N1 N2).
    assert (E1 : hasf F_capbset_drop j' = hasf F_capbset_drop j) by congruence. assert (E2 : j_cap_bset j' = j_cap_bset j) by congruence.
    rewrite E1, E2. reflexivity. }
  destruct a; try (apply K; discriminate); clear G K; cbn [dropped_caps_of].
  - cbn [api_step] in H. unfold minijail_use_caps in H. apply ARet_inj in H. destruct H as [_ <-].
    rewrite hasf_flags_on. change (hasf F_capbset_drop (set_caps mask ?k)) with (hasf F_capbset_drop k).
    destruct (hasf F_capbset_drop j) eqn:E; [rewrite hasf_setf; reflexivity|rewrite E; reflexivity].
  - cbn [api_step] in H. unfold minijail_capbset_drop in H. destruct (hasf F_use_caps j); [discriminate|]. apply ARet_inj in H. destruct H as [_ <-].
    rewrite hasf_flags_on. cbn -[hasf flags_on j_cap_bset]. rewrite orb_true_r. reflexivity.
Qed.
Lemma dropped_last e h j : history e minijail_new h j ->
  (if hasf F_capbset_drop j then Some (j_cap_bset j) else None) = last_of dropped_caps_of h None.
Proof. intros H. exact (last_run (fun j => if hasf F_capbset_drop j then Some (j_cap_bset j) else None) dropped_caps_of e (dropped_step e) h _ j H). Qed.

Lemma filter_frame e j a rc j' : filter_of a = None -> api_step e j a = ARet rc j' -> j_filter_prog j' = j_filter_prog j.
Proof. intros F H. destruct a; try discriminate F; value_step H. Qed.
Lemma filter_step e j a rc j' c : k_softfail e = false -> api_step e j a = ARet rc j' -> holds_filter (j_filter_prog j) c ->
  holds_filter (j_filter_prog j') (match filter_of a with Some x => x | None => c end).
Proof.
  intros S H C. destruct (filter_of a) as [x|] eqn:F; [|rewrite (filter_frame _ _ _ _ _ F H); exact C].
  destruct a; try discriminate; injection F as <-; cbn [api_step] in H.
  - unfold minijail_parse_seccomp_filters in H. destruct (should_use_hard e j S) as (j1 & E & _). rewrite E in H. cbn [negb] in H.
    destruct (ps_stream s) as [st|] eqn:ST; [|discriminate]. destruct (compile_filter _ _ _ _) as [p| | |] eqn:CF in H; try discriminate.
    apply ARet_inj in H. destruct H as [_ <-]. cbn [holds_filter]. exists (filter_options e j1), st, p. split; [exact ST|]. split; [exact CF|reflexivity].
  - unfold minijail_set_seccomp_filters in H. destruct (should_use_hard e j S) as (j1 & E & _). rewrite E in H. cbn [negb] in H.
    destruct (logging_allowed e j1); [discriminate|]. apply ARet_inj in H. destruct H as [_ <-]. reflexivity.
Qed.
Lemma filter_last e h j : k_softfail e = false -> history e minijail_new h j -> holds_filter (j_filter_prog j) (last_of filter_of h None).
Proof.
  intros S H. assert (G : forall h j j' c, history e j h j' -> holds_filter (j_filter_prog j) c -> holds_filter (j_filter_prog j') (last_of filter_of h c)).
  { clear - S. intros h j j' c H. revert c. induction H as [j|j a rc j1 h j2 E R IH]; intros c C; [exact C|]. cbn [last_of]. apply IH. eapply filter_step; eauto. }
  apply (G _ _ _ _ H). reflexivity.
Qed.

Lemma vfs_asked e h j : history e minijail_new h j -> asked F_vfs h -> hasf F_vfs j = true.
Proof.
  assert (K : forall h j j', history e j h j' -> hasf F_vfs j = true -> hasf F_vfs j' = true).
  { intros h0 j0 j' H. induction H; auto. intros V. apply IHhistory. eapply (vfs_step _ _ _ _ _ H); exact V. }
  assert (O : forall j a rc j', api_step e j a = ARet rc j' -> In F_vfs (on_by a rc) -> hasf F_vfs j' = true).
  { intros j0 a rc j' H X. destruct a; unfold on_by in X; destruct (rc =? 0)%Z; cbn in X; try contradiction;
      try (destruct r; cbn in X; intuition discriminate);
      repeat (destruct X as [X|X]; try discriminate X); try contradiction;
      apply ARet_inj in H; destruct H as [_ <-]; rewrite hasf_flags_on; cbn -[hasf]; apply orb_true_r. }
  intros H (a & rc & I0 & X). induction H as [|j0 a0 rc0 j1 h0 j2 E R IH]; [destruct I0|].
  destruct I0 as [I0|I0]; [|exact (IH I0)]. injection I0 as -> ->. eapply K; [exact R|]. eapply O; eassumption.
Qed.
