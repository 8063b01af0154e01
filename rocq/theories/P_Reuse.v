(* Proofs: jails that are used again (C72). *)
From Verif Require Export S_Reuse P_RunClaims.
Local Open Scope N_scope.

(* what a run may leave behind in the jail, apart from a descriptor to keep *)
Definition put (a : Z) (b : cell string) (c : Z) (j : jail) : jail := set_initpid a (set_filename b (set_fs_rules_fd c j)).
Definition lift (f : jail -> jail) (r : ares) : ares :=
  match r with ARet rc j => ARet rc (f j) | x => x end.

Lemma put_id j : put (j_initpid j) (j_filename j) (j_fs_rules_fd j) j = j.
Proof. destruct j. reflexivity. Qed.
Lemma put_note e a b c j : note_abi e (put a b c j) = put a b c (note_abi e j).
Proof.
  unfold note_abi. change (j_fs_rules_landlock_abi (put a b c j)) with (j_fs_rules_landlock_abi j).
  destruct (_ && _); reflexivity.
Qed.
Lemma put_add e p fl a b c j : exists c', add_fs_restriction_path e p fl (put a b c j) = put a b c' (add_fs_restriction_path e p fl j).
Proof.
  unfold add_fs_restriction_path, setup_fs_rules_fd.
  change (j_fs_rules_count (set_fs_rules (j_fs_rules (put a b c j) ++ [FsRule p fl]) (put a b c j))) with (j_fs_rules_count j).
  change (j_fs_rules_count (set_fs_rules (j_fs_rules j ++ [FsRule p fl]) j)) with (j_fs_rules_count j).
  destruct (j_fs_rules_count j =? 0).
  - exists (k_landlock_fd e). cbn [snd].
    change (set_fs_rules (j_fs_rules (put a b c j) ++ [FsRule p fl]) (put a b c j)) with (put a b c (set_fs_rules (j_fs_rules j ++ [FsRule p fl]) j)).
    rewrite put_note. reflexivity.
  - exists c. reflexivity.
Qed.

Ltac look a b c j :=
  repeat match goal with
         | |- context [?F (put a b c j)] => progress change (F (put a b c j)) with (F j)
         end.
Ltac cases :=
  repeat match goal with
         | |- context [if ?x then _ else _] => destruct x
         | |- context [match ?x with _ => _ end] => destruct x
         end.
Ltac by_cases a b c j := look a b c j; cases; solve [exists c; reflexivity].

(* the same but for what a run leaves behind *)
Definition akin (a : Z) (b : cell string) (j j' : jail) : Prop := exists c, j = put a b c j'.
Lemma fold_akin {A} (f : jail -> A -> jail) a b (F : forall x j j', akin a b j j' -> akin a b (f j x) (f j' x)) l :
  forall j j', akin a b j j' -> akin a b (fold_left f l j) (fold_left f l j').
Proof. induction l as [|x l IH]; intros j j' K; [exact K|]. exact (IH _ _ (F x _ _ K)). Qed.
Lemma akin_add e p fl a b j j' : akin a b j j' -> akin a b (add_fs_restriction_path e p fl j) (add_fs_restriction_path e p fl j').
Proof. intros (c & ->). apply put_add. Qed.
Lemma put_added e l a b c j : akin a b
  (fold_left (fun j (r : string * N) => add_fs_restriction_path e (fst r) (snd r) j) l (put a b c j))
  (fold_left (fun j (r : string * N) => add_fs_restriction_path e (fst r) (snd r) j) l j).
Proof. apply fold_akin; [|exists c; reflexivity]. intros x ? ?. apply akin_add. Qed.
Lemma put_advanced e p a b c j : exists c',
  minijail_add_fs_restriction_advanced_rw e p (put a b c j) = put a b c' (minijail_add_fs_restriction_advanced_rw e p j).
Proof.
  unfold minijail_add_fs_restriction_advanced_rw. rewrite put_note. cbv zeta.
  change (refer_supported (put a b c (note_abi e j))) with (refer_supported (note_abi e j)). apply put_add.
Qed.
Lemma put_use e a b c j : seccomp_should_use_filters e (put a b c j) =
  let '(u, j') := seccomp_should_use_filters e j in (u, put a b c j').
Proof. unfold seccomp_should_use_filters. look a b c j. cases; reflexivity. Qed.
Lemma akin_advanced e p a b j j' : akin a b j j' -> akin a b (minijail_add_fs_restriction_advanced_rw e p j) (minijail_add_fs_restriction_advanced_rw e p j').
Proof. intros (c & ->). apply put_advanced. Qed.
Lemma put_minimalistic e ms a b c j : akin a b (minimalistic_rules e ms (put a b c j)) (minimalistic_rules e ms j).
Proof.
  apply fold_akin; [|exists c; reflexivity]. intros m j1 j2 K. cbv zeta.
  destruct (_ || _); [apply akin_advanced|]; apply akin_add; exact K.
Qed.
Lemma put_default e a b c j : exists c', minijail_enable_default_fs_restrictions e (put a b c j) = put a b c' (minijail_enable_default_fs_restrictions e j).
Proof. apply put_added. Qed.
Lemma akin_default e a b j j' : akin a b j j' -> akin a b (minijail_enable_default_fs_restrictions e j) (minijail_enable_default_fs_restrictions e j').
Proof. intros (c & ->). apply put_default. Qed.
Lemma akin_tmp e a b j j' : akin a b j j' ->
  akin a b (if hasf F_vfs j then add_fs_restriction_path e "/tmp" fs_rw_mask j else j) (if hasf F_vfs j' then add_fs_restriction_path e "/tmp" fs_rw_mask j' else j').
Proof.
  intros (c & ->). change (hasf F_vfs (put a b c j')) with (hasf F_vfs j').
  destruct (hasf F_vfs j'); [apply put_add|exists c; reflexivity].
Qed.
Lemma put_profile e a b c j : akin a b (minijail_add_minimalistic_mountns_fs_rules e (put a b c j)) (minijail_add_minimalistic_mountns_fs_rules e j).
Proof.
  unfold minijail_add_minimalistic_mountns_fs_rules. look a b c j. destruct (_ || _); [exists c; reflexivity|].
  destruct (j_mounts j) as [|m ms]; [exists c; reflexivity|]. cbv zeta.
  apply akin_tmp, akin_add, akin_add, akin_default, put_minimalistic.
Qed.
Lemma ret_put a b rc j j' : (exists c', j = put a b c' j') -> exists c', ARet rc j = lift (put a b c') (ARet rc j').
Proof. intros (c' & ->). exists c'. reflexivity. Qed.
Lemma put_uid u a b c j : minijail_change_uid u (put a b c j) = lift (put a b c) (minijail_change_uid u j).
Proof. unfold minijail_change_uid. look a b c j. cases; reflexivity. Qed.
Lemma put_gid u a b c j : minijail_change_gid u (put a b c j) = lift (put a b c) (minijail_change_gid u j).
Proof. unfold minijail_change_gid. look a b c j. cases; reflexivity. Qed.
Lemma put_mount s d t f x a b c j : minijail_mount_with_data s d t f x (put a b c j) = lift (put a b c) (minijail_mount_with_data s d t f x j).
Proof. unfold minijail_mount_with_data. look a b c j. destruct (negb _); [reflexivity|]. cbv zeta. destruct (hasf F_enter_vfs j); reflexivity. Qed.

Lemma step_put e x a b c j : exists c', api_step e (put a b c j) x = lift (put a b c') (api_step e j x).
Proof.
  destruct x; cbn [api_step]; try solve [exists c; reflexivity]; try (match goal with |- exists _, ARet 1 (add_fs_restriction_path _ _ _ _) = _ => apply ret_put, put_add end).
  - exists c. apply put_uid.
  - exists c. apply put_gid.
  - unfold minijail_set_supplementary_gids. by_cases a b c j.
  - unfold minijail_change_user. destruct r as [rc|[uid gid]]; [exists c; reflexivity|]. rewrite put_uid. exists c.
    destruct (minijail_change_uid uid j); reflexivity.
  - unfold minijail_change_group. destruct r as [rc|gid]; [exists c; reflexivity|]. rewrite put_gid. exists c. reflexivity.
  - unfold minijail_set_seccomp_filter_tsync. by_cases a b c j.
  - unfold minijail_set_seccomp_filter_allow_speculation. by_cases a b c j.
  - unfold minijail_log_seccomp_filter_failures. by_cases a b c j.
  - unfold minijail_parse_seccomp_filters. rewrite put_use. destruct (seccomp_should_use_filters e j) as [u j1]. exists c.
    destruct (negb u); [reflexivity|]. destruct (ps_stream s) as [st|]; [|reflexivity].
    change (filter_options e (put a b c j1)) with (filter_options e j1).
    destruct (compile_filter _ _ _ _) as [p| | |]; reflexivity.
  - unfold minijail_set_seccomp_filters. rewrite put_use. destruct (seccomp_should_use_filters e j) as [u j1]. exists c.
    destruct (negb u); [reflexivity|]. change (logging_allowed e (put a b c j1)) with (logging_allowed e j1). destruct (logging_allowed e j1); reflexivity.
  - apply ret_put, put_profile.
  - apply ret_put, put_default.
  - unfold minijail_use_caps. by_cases a b c j.
  - unfold minijail_capbset_drop. by_cases a b c j.
  - unfold minijail_namespace_enter_vfs. by_cases a b c j.
  - unfold minijail_namespace_set_hostname. by_cases a b c j.
  - unfold minijail_namespace_enter_net. by_cases a b c j.
  - unfold minijail_enter_chroot. by_cases a b c j.
  - unfold minijail_enter_pivot_root. by_cases a b c j.
  - unfold minijail_add_to_cgroup. by_cases a b c j.
  - unfold minijail_rlimit. by_cases a b c j.
  - apply ret_put, put_advanced.
  - exists c. apply put_mount.
  - exists c. apply put_mount.
  - unfold minijail_bind. destruct (is_valid_bind_path e src rp) as [[]|]; exists c; [apply put_mount|reflexivity|reflexivity].
  - unfold minijail_add_remount. by_cases a b c j.
  - unfold minijail_add_hook. by_cases a b c j.
  - unfold minijail_preserve_fd. look a b c j. destruct (_ || _); [exists c; reflexivity|]. destruct (_ <=? _); exists c; reflexivity.
  - unfold minijail_set_preload_path. by_cases a b c j.
Qed.

(* ---- what a run does to such a jail ---- *)
Lemma note_noop e ep j : same_kernel e ep -> rules_ok e j -> j_fs_rules j <> [] -> note_abi ep j = j.
Proof.
  unfold same_kernel. intros K [_ R] NE. unfold note_abi. rewrite K. destruct (Z.ltb_spec (j_fs_rules_landlock_abi j) 0) as [L|L]; [|reflexivity].
  specialize (R NE L). destruct (Z.ltb_spec 0 (k_landlock_abi e)); [lia|reflexivity].
Qed.
Lemma preserve_returns p c j : exists rc j', minijail_preserve_fd p c j = ARet rc j'.
Proof. unfold minijail_preserve_fd. destruct (_ || _); [eexists _, _; reflexivity|]. destruct (_ <=? _); eexists _, _; reflexivity. Qed.
Lemma put_preserve p d a b c j : minijail_preserve_fd p d (put a b c j) = lift (put a b c) (minijail_preserve_fd p d j).
Proof. unfold minijail_preserve_fd. look a b c j. destruct (_ || _); [reflexivity|]. destruct (_ <=? _); reflexivity. Qed.

(* what the past of a jail may have left in it *)
Record left (j : jail) (b : cell string) (c : Z) : Prop := Left {
  l_name : b = j_filename j \/ exists f, b = Own f;
  l_fd : j_fs_rules j = [] -> c = j_fs_rules_fd j }.

Lemma ruleset_put e ep a b c j : same_kernel e ep -> rules_ok e j -> j_fs_rules j <> [] ->
  exists rc j', api_step e j (A_preserve_fd (k_landlock_fd ep) (k_landlock_fd ep)) = ARet rc j' /\
    with_ruleset ep (put a b c j) = put a b (k_landlock_fd ep) j'.
Proof.
  intros K R NE. destruct (preserve_returns (k_landlock_fd ep) (k_landlock_fd ep) j) as (rc & j' & E).
  exists rc, j'. split; [exact E|]. unfold with_ruleset. change (j_fs_rules (put a b c j)) with (j_fs_rules j).
  destruct (j_fs_rules j) as [|r l] eqn:L; [destruct (NE eq_refl)|]. cbv zeta.
  assert (S : snd (setup_fs_rules_fd ep (put a b c j)) = put a b (k_landlock_fd ep) j).
  { unfold setup_fs_rules_fd. cbn [snd]. rewrite put_note, (note_noop e ep j K R); [reflexivity|rewrite L; discriminate]. }
  rewrite S. change (j_fs_rules_fd (put a b (k_landlock_fd ep) j)) with (k_landlock_fd ep). rewrite put_preserve, E. reflexivity.
Qed.
Lemma ruleset_none ep a b c j : j_fs_rules j = [] -> with_ruleset ep (put a b c j) = put a b c j.
Proof. intros E. unfold with_ruleset. change (j_fs_rules (put a b c j)) with (j_fs_rules j). rewrite E. reflexivity. Qed.

Lemma child_same pre a b j : child_jail pre (set_initpid a (set_filename b j)) = set_initpid a (set_filename b (child_jail pre j)).
Proof.
  unfold child_jail. change (hasf F_pids (set_initpid a (set_filename b j))) with (hasf F_pids j).
  change (hasf F_do_init (set_initpid a (set_filename b j))) with (hasf F_do_init j).
  change (hasf F_run_as_init (set_initpid a (set_filename b j))) with (hasf F_run_as_init j).
  destruct (_ && negb _); destruct pre; reflexivity.
Qed.
Lemma enter_same g a b j : minijail_enter g (set_initpid a (set_filename b j)) = minijail_enter g j.
Proof. reflexivity. Qed.
Lemma run_child_same g pre a b j : run_child g pre (set_initpid a (set_filename b j)) = run_child g pre j.
Proof. unfold run_child. rewrite child_same, enter_same. reflexivity. Qed.

(* a child of such a jail does what a child of the other does *)
Lemma child_put g pre e ec a b c j : same_kernel e ec -> rules_ok e j -> left j b c ->
  run_child g pre (with_ruleset ec (put a b c j)) = run_child g pre (with_ruleset ec j).
Proof.
  intros K R [_ F]. rewrite <- (put_id j) at 2.
  destruct (j_fs_rules j) as [|r l] eqn:L.
  - rewrite !ruleset_none by exact L. rewrite (F eq_refl). unfold put. rewrite !run_child_same. reflexivity.
  - assert (NE : j_fs_rules j <> []) by (rewrite L; discriminate).
    destruct (ruleset_put e ec a b c j K R NE) as (rc & j' & E & ->).
    destruct (ruleset_put e ec (j_initpid j) (j_filename j) (j_fs_rules_fd j) j K R NE) as (rc' & j'' & E' & ->).
    rewrite E in E'. injection E' as _ <-. unfold put. rewrite !run_child_same. reflexivity.
Qed.
(* and is sent the same jail *)
Lemma sent_put e ep filename pid a b c j : same_kernel e ep -> rules_ok e j -> left j b c ->
  exists f, parent_jail ep filename pid (put a b c j) = parent_jail ep f pid j.
Proof.
  intros K R [N F].
  assert (X : exists f, forall x y, (match filename with None => put a b c j | Some f => set_filename (Own f) (put a b c j) end) =
                            put a (match f with None => j_filename j | Some f => Own f end) c j /\
                            (match f with None => put x (j_filename j) y j | Some f => set_filename (Own f) (put x (j_filename j) y j) end) =
                            put x (match f with None => j_filename j | Some f => Own f end) y j).
  { destruct filename as [f|]; [exists (Some f); split; reflexivity|]. destruct N as [->|[f ->]]; [exists None|exists (Some f)]; split; reflexivity. }
  destruct X as (f & X). exists f. rewrite <- (put_id j) at 2. unfold parent_jail. rewrite (proj1 (X 0%Z 0%Z)), (proj2 (X _ _)).
  set (b' := match f with None => j_filename j | Some f => Own f end).
  destruct (j_fs_rules j) as [|r l] eqn:L.
  - rewrite !ruleset_none by exact L. rewrite (F eq_refl). reflexivity.
  - assert (NE : j_fs_rules j <> []) by (rewrite L; discriminate).
    destruct (ruleset_put e ep a b' c j K R NE) as (rc & j' & E & ->).
    destruct (ruleset_put e ep (j_initpid j) b' (j_fs_rules_fd j) j K R NE) as (rc' & j'' & E' & ->).
    rewrite E in E'. injection E' as _ <-. reflexivity.
Qed.

Lemma starts_put g ec ep a b c j t1 t2 envp envp' : rules_ok (g_env g) j -> left j b c ->
  starts g ec ep (put a b c j) t1 t2 envp envp' -> starts g ec ep j t1 t2 envp envp'.
Proof.
  intros R LF (KC & KP & RF & (k1 & R1) & filename & pid & addr & fuel & w & res & size & piped & lost & r & ids & k2 & S).
  rewrite (child_put g true (g_env g) ec a b c j KC R LF) in R1.
  destruct (sent_put (g_env g) ep filename pid a b c j KP R LF) as (f & SP). cbv zeta in S. rewrite SP in S.
  split; [exact KC|]. split; [exact KP|]. split; [exact RF|]. split; [exists k1; exact R1|].
  exists f, pid, addr, fuel, w, res, size, piped, lost, r, ids, k2. exact S.
Qed.
Lemma starts_plain_put g ec exec a b c j t : rules_ok (g_env g) j -> left j b c ->
  starts_plain g ec exec (put a b c j) t -> starts_plain g ec exec j t.
Proof.
  intros R LF (KC & RF & k1 & R1). rewrite (child_put g false (g_env g) ec a b c j KC R LF) in R1.
  split; [exact KC|]. split; [exact RF|]. exists k1; exact R1.
Qed.

(* ---- every jail with a past is one that was only configured ---- *)
Notation strip := but_descriptors (only parsing).

Definition grown (j j' : jail) : Prop := j_fs_rules j' = [] -> j_fs_rules j = [] /\ j_fs_rules_fd j' = j_fs_rules_fd j.
Lemma grown_refl j : grown j j.
Proof. intros E. split; [exact E|reflexivity]. Qed.
Lemma grown_trans j1 j2 j3 : grown j1 j2 -> grown j2 j3 -> grown j1 j3.
Proof. intros A B E. destruct (B E) as [E2 F2]. destruct (A E2) as [E1 F1]. split; [exact E1|]. rewrite F2. exact F1. Qed.
Lemma grown_note e j : grown j (note_abi e j).
Proof. unfold note_abi. destruct (_ && _); intros E; (split; [exact E|reflexivity]). Qed.
Lemma grown_add e p fl j : grown j (add_fs_restriction_path e p fl j).
Proof.
  intros E. exfalso. unfold add_fs_restriction_path, setup_fs_rules_fd in E. cbv zeta in E. cbn [snd] in E.
  destruct (_ =? 0) in E.
  - change (j_fs_rules (note_abi e (set_fs_rules (j_fs_rules j ++ [FsRule p fl]) j)) = []) in E. rewrite note_rules in E.
    exact (app_cons_not_nil _ _ _ (eq_sym E)).
  - exact (app_cons_not_nil _ _ _ (eq_sym E)).
Qed.
Lemma grown_fold {A} (f : jail -> A -> jail) (F : forall x j, grown j (f j x)) l : forall j, grown j (fold_left f l j).
Proof. induction l as [|x l IH]; intros j; [apply grown_refl|]. exact (grown_trans _ _ _ (F x j) (IH _)). Qed.
Lemma grown_default e j : grown j (minijail_enable_default_fs_restrictions e j).
Proof. unfold minijail_enable_default_fs_restrictions. apply grown_fold. intros x j0. apply grown_add. Qed.
Lemma grown_advanced e p j : grown j (minijail_add_fs_restriction_advanced_rw e p j).
Proof. unfold minijail_add_fs_restriction_advanced_rw. exact (grown_trans _ _ _ (grown_note e j) (grown_add _ _ _ _)). Qed.
Lemma grown_profile e j : grown j (minijail_add_minimalistic_mountns_fs_rules e j).
Proof.
  unfold minijail_add_minimalistic_mountns_fs_rules. destruct (_ || _); [apply grown_refl|].
  destruct (j_mounts j) as [|m ms]; [apply grown_refl|]. cbv zeta.
  set (j1 := minimalistic_rules e (m :: ms) j).
  assert (G1 : grown j j1).
  { apply grown_fold. intros x j0. destruct (_ || _); [|apply grown_add]. exact (grown_trans _ _ _ (grown_add _ _ _ _) (grown_advanced _ _ _)). }
  clearbody j1. pose proof (grown_trans _ _ _ G1 (grown_default e j1)) as G2. revert G2. generalize (minijail_enable_default_fs_restrictions e j1) as j2. intros j2 G2.
  pose proof (grown_trans _ _ _ G2 (grown_add e "/dev" fs_edit_mask j2)) as G3. revert G3. generalize (add_fs_restriction_path e "/dev" fs_edit_mask j2) as j3. intros j3 G3.
  pose proof (grown_trans _ _ _ G3 (grown_add e "/proc" ACCESS_FS_ROUGHLY_READ j3)) as G4. revert G4. generalize (add_fs_restriction_path e "/proc" ACCESS_FS_ROUGHLY_READ j3) as j4. intros j4 G4.
  destruct (hasf F_vfs j4); [|exact G4]. exact (grown_trans _ _ _ G4 (grown_add _ _ _ _)).
Qed.
Lemma grown_step e j a rc j' : api_step e j a = ARet rc j' -> grown j j'.
Proof.
  intros H.
  destruct (match a with A_fs_rx _ | A_fs_ro _ | A_fs_rw _ | A_fs_advanced_rw _ | A_fs_edit _ | A_fs_access_rights _ _
             | A_enable_default_fs_restrictions | A_add_minimalistic_mountns_fs_rules => true | _ => false end) eqn:Q.
  2: { assert (K : (j_fs_rules j', j_fs_rules_fd j') = (j_fs_rules j, j_fs_rules_fd j)).
       { destruct a; try discriminate Q; value_step H. }
       injection K as K1 K2. intros E. rewrite <- K1. split; assumption. }
  destruct a; try discriminate Q; cbn [api_step] in H; apply ARet_inj in H; destruct H as [_ <-];
    [apply grown_profile|apply grown_default|apply grown_add|apply grown_add|apply grown_add|apply grown_advanced|apply grown_add|apply grown_add].
Qed.
Lemma filename_step e j a rc j' : api_step e j a = ARet rc j' -> j_filename j' = j_filename j.
Proof. intros H. destruct a; value_step H. Qed.
Lemma left_step e j x rc j1 a b c c' : api_step e j x = ARet rc j1 ->
  api_step e (put a b c j) x = ARet rc (put a b c' j1) -> left j b c -> left j1 b c'.
Proof.
  intros E E' [N F]. split.
  - rewrite (filename_step _ _ _ _ _ E). exact N.
  - intros R. destruct (grown_step _ _ _ _ _ E R) as [R0 ->]. rewrite <- (F R0).
    exact (proj2 (grown_step _ _ _ _ _ E' R)).
Qed.

Lemma past e j u j' : used e j u j' -> forall a b c j0, rules_ok e j0 -> left j0 b c -> j = put a b c j0 ->
  exists h a' b' c' j0', history e j0 h j0' /\ strip h = strip (calls u) /\ left j0' b' c' /\ j' = put a' b' c' j0'.
Proof.
  intros U. induction U as [j|j x rc j1 t j2 E U IH|j f t j2 U IH|j ep f pid t j2 K U IH]; intros a b c j0 R LF ->.
  - exists [], a, b, c, j0. split; [constructor|]. split; [reflexivity|]. split; [exact LF|reflexivity].
  - destruct (step_put e x a b c j0) as (c' & S). rewrite E in S.
    destruct (api_step e j0 x) as [rc0 j01| |] eqn:E0; try discriminate S. apply ARet_inj in S. destruct S as [<- S].
    assert (LF' : left j01 b c') by (apply (left_step e j0 x rc j01 a b c c' E0); [rewrite E, S; reflexivity|exact LF]).
    destruct (IH a b c' j01 (rules_ok_step _ _ _ _ _ E0 R) LF' S) as (h & a' & b' & c2 & j0' & H & SH & LF2 & ->).
    exists ((x, rc) :: h), a', b', c2, j0'. split; [exact (h_call e j0 x rc j01 h j0' E0 H)|].
    split; [|split; [exact LF2|reflexivity]]. change (calls (Call x rc :: t)) with ((x, rc) :: calls t). unfold but_descriptors in *. cbn [filter]. rewrite SH. reflexivity.
  - apply (IH a (match f with None => b | Some f => Own f end) c j0 R).
    + destruct LF as [N F]. split; [|exact F]. destruct f as [f|]; [right; exists f; reflexivity|exact N].
    + destruct f; reflexivity.
  - assert (X : parent_jail ep f pid (put a b c j0) = set_initpid pid (with_ruleset ep (put a (match f with None => b | Some f => Own f end) c j0))) by (destruct f; reflexivity).
    set (b1 := match f with None => b | Some f => Own f end) in *.
    assert (N1 : b1 = j_filename j0 \/ exists g, b1 = Own g).
    { unfold b1. destruct f as [f|]; [right; exists f; reflexivity|apply LF]. }
    clearbody b1. destruct (j_fs_rules j0) as [|r l] eqn:L.
    + rewrite ruleset_none in X by exact L. apply (IH pid b1 c j0 R); [split; [exact N1|apply LF]|]. rewrite X. reflexivity.
    + assert (NE : j_fs_rules j0 <> []) by (rewrite L; discriminate).
      destruct (ruleset_put e ep a b1 c j0 K R NE) as (rc & j01 & E0 & RU). rewrite RU in X.
      destruct (IH pid b1 (k_landlock_fd ep) j01 (rules_ok_step _ _ _ _ _ E0 R)) as (h & a' & b' & c2 & j0' & H & SH & LF2 & ->).
      * split; [rewrite (filename_step _ _ _ _ _ E0); exact N1|]. intros R1. destruct NE. exact (proj1 (grown_step _ _ _ _ _ E0 R1)).
      * rewrite X. reflexivity.
      * exists ((A_preserve_fd (k_landlock_fd ep) (k_landlock_fd ep), rc) :: h), a', b', c2, j0'.
        split; [exact (h_call e j0 _ rc j01 h j0' E0 H)|]. split; [exact SH|]. split; [exact LF2|reflexivity].
Qed.
Lemma past_new e u j : used e minijail_new u j -> exists h a b c j0,
  history e minijail_new h j0 /\ strip h = strip (calls u) /\ left j0 b c /\ rules_ok e j0 /\ j = put a b c j0.
Proof.
  intros U. destruct (past e _ u j U (j_initpid minijail_new) (j_filename minijail_new) (j_fs_rules_fd minijail_new) minijail_new) as (h & a & b & c & j0 & H & SH & LF & ->).
  - apply sound_new.
  - split; [left; reflexivity|reflexivity].
  - symmetry. apply put_id.
  - exists h, a, b, c, j0. split; [exact H|]. split; [exact SH|]. split; [exact LF|]. split; [apply (reachable_sound e h j0 H)|reflexivity].
Qed.

(* a launch of a jail with a past is the launch of one without *)
Lemma as_first g ec ep u j t1 t2 envp envp' : relaunched g ec ep u j t1 t2 envp envp' ->
  exists h j0, launched g ec ep h j0 t1 t2 envp envp' /\ strip h = strip (calls u).
Proof.
  intros [U S]. destruct (past_new _ _ _ U) as (h & a & b & c & j0 & H & SH & LF & R & ->).
  exists h, j0. split; [|exact SH]. split; [exact H|]. exact (starts_put g ec ep a b c j0 t1 t2 envp envp' R LF S).
Qed.
Lemma as_first_plain g ec exec u j t : relaunched_plain g ec exec u j t ->
  exists h j0, launched_plain g ec exec h j0 t /\ strip h = strip (calls u).
Proof.
  intros [U S]. destruct (past_new _ _ _ U) as (h & a & b & c & j0 & H & SH & LF & R & ->).
  exists h, j0. split; [|exact SH]. split; [exact H|]. exact (starts_plain_put g ec exec a b c j0 t R LF S).
Qed.

(* ---- the calls left out are of no account ---- *)
Lemma asked_strip f h : asked f (strip h) <-> asked f h.
Proof.
  split; intros (a & rc & I0 & F); exists a, rc; (split; [|exact F]).
  - apply filter_In in I0. apply I0.
  - apply filter_In. split; [exact I0|]. destruct a; try reflexivity. unfold on_by in F. destruct (negb _) in F; destruct F.
Qed.
Lemma last_strip {A} (f : api -> option A) (N : forall p c, f (A_preserve_fd p c) = None) h : forall d, last_of f (strip h) d = last_of f h d.
Proof.
  induction h as [|[a rc] h IH]; intros d; [reflexivity|]. unfold but_descriptors in *. cbn [filter fst last_of].
  destruct a; cbn [last_of]; try (rewrite IH; reflexivity). rewrite N. apply IH.
Qed.
Lemma flat_strip {A} (f : api * Z -> list A) (N : forall p c rc, f (A_preserve_fd p c, rc) = []) h : flat_map f (strip h) = flat_map f h.
Proof.
  induction h as [|[a rc] h IH]; [reflexivity|]. unfold but_descriptors in *. cbn [filter fst flat_map].
  destruct a; cbn [flat_map]; try (rewrite IH; reflexivity). rewrite N. apply IH.
Qed.
Lemma first_strip {A} (f : api -> option A) (N : forall p c, f (A_preserve_fd p c) = None) h : first_of f (strip h) = first_of f h.
Proof. unfold first_of. rewrite flat_strip; [reflexivity|]. intros. cbn [fst]. rewrite N. reflexivity. Qed.
Lemma accepted_strip {A} (f : api -> Z -> list A) (N : forall p c rc, f (A_preserve_fd p c) rc = []) h : accepted f (strip h) = accepted f h.
Proof. unfold accepted. apply flat_strip. intros. apply N. Qed.
Lemma called_strip a h : (forall p c, a <> A_preserve_fd p c) -> called a (strip h) <-> called a h.
Proof.
  intros N. split; intros (rc & I0); exists rc.
  - apply filter_In in I0. apply I0.
  - apply filter_In. split; [exact I0|]. destruct a; try reflexivity. destruct (N _ _ eq_refl).
Qed.
Lemma mounts_strip h : accepted mount_added (strip h) = accepted mount_added h.
Proof. apply accepted_strip. intros. unfold mount_added. destruct (negb _); reflexivity. Qed.

Section Same.
Variables h h' : list (api * Z).
Hypothesis E : strip h = strip h'.
Lemma asked_same f : asked f h <-> asked f h'.
Proof. rewrite <- asked_strip, E, asked_strip. reflexivity. Qed.
Lemma last_same {A} (f : api -> option A) (N : forall p c, f (A_preserve_fd p c) = None) d : last_of f h d = last_of f h' d.
Proof. rewrite <- (last_strip f N h), E. apply last_strip, N. Qed.
Lemma first_same {A} (f : api -> option A) (N : forall p c, f (A_preserve_fd p c) = None) : first_of f h = first_of f h'.
Proof. rewrite <- (first_strip f N h), E. apply first_strip, N. Qed.
Lemma remounts_same : accepted remount_added h = accepted remount_added h'.
Proof. rewrite <- (accepted_strip remount_added (fun _ _ _ => eq_refl) h), E. apply accepted_strip. reflexivity. Qed.
Lemma mounts_same : accepted mount_added h = accepted mount_added h'.
Proof. rewrite <- mounts_strip, E. apply mounts_strip. Qed.
Lemma called_same a : (forall p c, a <> A_preserve_fd p c) -> called a h <-> called a h'.
Proof. intros N. rewrite <- (called_strip a h N), E. apply called_strip, N. Qed.
Lemma rules_same v : rules_added v h = rules_added v h'.
Proof. unfold rules_added. rewrite <- (flat_strip (fun p => rule_added v (fst p)) (fun _ _ _ => eq_refl) h), E. apply flat_strip. reflexivity. Qed.
Lemma own_mountns_same : own_mountns h <-> own_mountns h'.
Proof. unfold own_mountns. rewrite mounts_same, !asked_same. reflexivity. Qed.
Lemma own_init_same : is_own_init h <-> is_own_init h'.
Proof. unfold is_own_init. rewrite !asked_same. reflexivity. Qed.
Lemma root_mode_same : root_mode h = root_mode h'.
Proof. apply last_same. reflexivity. Qed.

Lemma wants_same g c : wants g h' c -> wants g h c.
Proof.
  intros W. destruct W; rewrite <- ?own_mountns_same, <- ?root_mode_same, <- ?remounts_same, <- ?asked_same in *;
    try solve [constructor; assumption].
  - rewrite <- (last_same mountns_of) by reflexivity. constructor; assumption.
  - apply w_hostname; [assumption|]. rewrite (first_same hostname_of) by reflexivity. assumption.
  - rewrite <- (last_same netns_of) by reflexivity. constructor; assumption.
  - apply w_chroot; [assumption|]. rewrite (first_same root_of) by reflexivity. assumption.
  - apply w_pivot_bind; [assumption|]. rewrite (first_same root_of) by reflexivity. assumption.
  - apply w_pivot_cd; [assumption|]. rewrite (first_same root_of) by reflexivity. assumption.
  - rewrite <- (last_same tmp_size_of) by reflexivity. constructor; assumption.
  - rewrite <- (last_same gid_of) by reflexivity. constructor; assumption.
  - rewrite <- (last_same uid_of) by reflexivity. constructor; assumption.
  - apply w_alt; [assumption|]. rewrite (last_same alt_of) by reflexivity. assumption.
Qed.
End Same.

(* ---- the claims ---- *)
Section Again.
Variables (g : cfg) (ec ep : kenv) (u : list use) (j : jail) (t1 t2 : list event) (envp envp' : env).
Hypothesis L : relaunched g ec ep u j t1 t2 envp envp'.
Let h := calls u.
Lemma again_applied c : wants g h c -> ~ (is_own_init h /\ on_proc c) -> worked c (t1 ++ t2).
Proof.
  intros W N. destruct (as_first _ _ _ _ _ _ _ _ _ L) as (h0 & j0 & L0 & E).
  apply (applied g ec ep h0 j0 t1 t2 envp envp' L0); [exact (wants_same _ _ E g c W)|].
  intros [O P]. apply N. split; [apply (own_init_same _ _ E); exact O|exact P].
Qed.
Lemma again_filter : asked F_seccomp_filter h -> k_softfail (g_env g) = false -> g_asan g = false ->
  exists prog, holds_filter prog (last_of filter_of h None) /\
   (content prog <> Some [] -> worked (C_prctl_seccomp (content prog)) t2 \/ exists flags, worked (C_seccomp flags (content prog)) t2).
Proof.
  intros A S G. destruct (as_first _ _ _ _ _ _ _ _ _ L) as (h0 & j0 & L0 & E).
  apply (asked_same _ _ E) in A. destruct (filter_run g ec ep h0 j0 t1 t2 envp envp' L0 A S G) as (prog & H & W).
  exists prog. split; [|exact W]. rewrite (last_same _ _ E filter_of (fun _ _ => eq_refl) None) in H. exact H.
Qed.
Lemma again_restricted : ~ called A_add_minimalistic_mountns_fs_rules h -> ~ called A_disable_fs_restrictions h ->
  rules_added (k_landlock_abi (g_env g)) h <> [] -> (0 <= k_landlock_fd ep)%Z ->
  worked (C_landlock_restrict (k_landlock_fd ep)) t2.
Proof.
  intros M D R P. destruct (as_first _ _ _ _ _ _ _ _ _ L) as (h0 & j0 & L0 & E).
  apply (restrict_run g ec ep h0 j0 t1 t2 envp envp' L0); [| | |exact P].
  - intros X. apply M. apply (called_same _ _ E); [discriminate|exact X].
  - intros X. apply D. apply (called_same _ _ E); [discriminate|exact X].
  - rewrite (rules_same _ _ E). exact R.
Qed.
Lemma again_mounts : exists dev done rest, dev_of h t2 dev /\ accepted mount_added h = done ++ rest /\
  mounted (new_root h) dev done t2 /\ (rest = [] \/ exists m tl, rest = m :: tl /\ unchecked (g_env g) m t2).
Proof.
  destruct (as_first _ _ _ _ _ _ _ _ _ L) as (h0 & j0 & L0 & E).
  destruct (mounts_run g ec ep h0 j0 t1 t2 envp envp' L0) as (dev & done & rest & D & A & M & R).
  exists dev, done, rest. rewrite (mounts_same _ _ E) in A. unfold new_root in M. rewrite (first_same _ _ E root_of (fun _ _ => eq_refl)) in M.
  unfold dev_of in *. rewrite (asked_same _ _ E) in D. split; [exact D|]. split; [exact A|]. split; [exact M|exact R].
Qed.
Lemma again_identity groups_of s s2 :
  let after := after groups_of (fun _ c => c) in
  same_ids (after s t1) s2 -> let s' := after s2 t2 in
  groups_due groups_of h (groups s) (groups s') /\
  (asked F_uid h -> last_of uid_of h 0 <> NO_ID -> uids s' = (last_of uid_of h 0, last_of uid_of h 0, last_of uid_of h 0)) /\
  (~ asked F_uid h -> uids s' = uids s \/ (asked F_userns h /\ uids s' = (0, 0, 0))) /\
  (asked F_gid h -> last_of gid_of h 0 <> NO_ID -> gids s' = (last_of gid_of h 0, last_of gid_of h 0, last_of gid_of h 0)) /\
  (~ asked F_gid h -> gids s' = gids s \/ (asked F_userns h /\ gids s' = (0, 0, 0))).
Proof.
  intros aft SI s'. destruct (as_first _ _ _ _ _ _ _ _ _ L) as (h0 & j0 & L0 & E).
  pose proof (identity_run g ec ep h0 j0 t1 t2 envp envp' L0 groups_of s s2 SI) as (_ & D). fold aft in D. fold s' in D.
  unfold groups_due in *. rewrite !(asked_same _ _ E) in D.
  rewrite (last_same _ _ E uid_of (fun _ _ => eq_refl) 0), (last_same _ _ E gid_of (fun _ _ => eq_refl) 0),
    (last_same _ _ E user_of (fun _ _ => eq_refl) (Null, 0)), (last_same _ _ E suppl_of (fun _ _ => eq_refl) []) in D. exact D.
Qed.
Lemma again_caps groups_of s : asked F_use_caps h ->
  let s' := after groups_of (fun _ c => c) s t2 in exists last x, In (C_last_cap, Yes last x) t2 /\ last <= 64 /\
  let mask := last_of caps_of h 0 in
  (forall i, N.testbit (effective s') i = supported last i && N.testbit mask i) /\
  permitted s' = effective s' /\ inheritable s' = effective s' /\
  (asked F_set_ambient_caps h -> ambient s' = effective s') /\
  (forall i, N.testbit (ambient s') i = true -> supported last i && N.testbit mask i = true) /\
  (N.land (last_of skip_of h 0) 3 = 0 ->
   forall i, N.testbit (bounding s') i = N.testbit (bounding s) i && (N.testbit mask i || negb (supported last i))).
Proof.
  intros A s'. destruct (as_first _ _ _ _ _ _ _ _ _ L) as (h0 & j0 & L0 & E). apply (asked_same _ _ E) in A.
  pose proof (caps_run g ec ep h0 j0 t1 t2 envp envp' L0 groups_of s A) as (last & x & D). fold s' in D. exists last, x. cbv zeta in D |- *.
  rewrite (last_same _ _ E caps_of (fun _ _ => eq_refl) 0), (last_same _ _ E skip_of (fun _ _ => eq_refl) 0), (asked_same _ _ E) in D. exact D.
Qed.
End Again.
Section AgainPlain.
Variables (g : cfg) (ec : kenv) (exec : bool) (u : list use) (j : jail) (t : list event).
Hypothesis L : relaunched_plain g ec exec u j t.
Let h := calls u.
Lemma again_plain_applied c : wants g h c -> ~ (is_own_init h /\ on_proc c) -> worked c t.
Proof.
  intros W N. destruct (as_first_plain _ _ _ _ _ _ L) as (h0 & j0 & L0 & E).
  apply (plain_applied g ec exec h0 j0 t L0); [exact (wants_same _ _ E g c W)|].
  intros [O P]. apply N. split; [apply (own_init_same _ _ E); exact O|exact P].
Qed.
Lemma again_plain_filter : asked F_seccomp_filter h -> k_softfail (g_env g) = false -> g_asan g = false ->
  exists prog, holds_filter prog (last_of filter_of h None) /\
  (worked (C_prctl_seccomp (content prog)) t \/ exists flags, worked (C_seccomp flags (content prog)) t).
Proof.
  intros A S G. destruct (as_first_plain _ _ _ _ _ _ L) as (h0 & j0 & L0 & E).
  apply (asked_same _ _ E) in A. destruct (plain_filter g ec exec h0 j0 t L0 A S G) as (prog & H & W).
  exists prog. split; [|exact W]. rewrite (last_same _ _ E filter_of (fun _ _ => eq_refl) None) in H. exact H.
Qed.
End AgainPlain.

Lemma initpid_step e j a rc j' : api_step e j a = ARet rc j' -> j_initpid j' = j_initpid j.
Proof. intros H. destruct a; value_step H. Qed.
Lemma latest e j u j' : used e j u j' ->
  j_initpid j' = fold_left (fun p x => match x with Ran _ pid => pid | _ => p end) u (j_initpid j).
Proof.
  intros U. induction U as [j|j x rc j1 t j2 E U IH|j f t j2 U IH|j ep f pid t j2 K U IH]; cbn [fold_left].
  - reflexivity.
  - rewrite IH, (initpid_step _ _ _ _ _ E). reflexivity.
  - rewrite IH. destruct f; reflexivity.
  - rewrite IH. reflexivity.
Qed.
