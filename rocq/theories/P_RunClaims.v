(* Proofs: the claims about running a program. *)
From Verif Require Export P_Run.
Local Open Scope N_scope.

Lemma wants_plain g h c : wants g h c -> not_filter c.
Proof. intros []; exact Logic.I. Qed.
Lemma own_init_asked e h j : history e minijail_new h j -> own_init j = true -> is_own_init h.
Proof.
  intros H O. unfold own_init in O. apply andb_true_iff in O. destruct O as [P O]. split; [apply (flag_asked _ _ _ F_pids H eq_refl), P|].
  pose proof (flag_asked _ _ _ F_do_init H eq_refl) as D. pose proof (flag_asked _ _ _ F_run_as_init H eq_refl) as R.
  destruct (hasf F_do_init j); [|left; intro X; apply D in X; discriminate]. destruct (hasf F_run_as_init j); [|discriminate O].
  right. apply R. reflexivity.
Qed.

Lemma child_parts g preload j t u : does (run_child g preload j) t (Returned u) ->
  exists t0 te th, t = t0 ++ te ++ th /\
    does (when (hasf F_userns j) (enter_user_namespace j)) t0 (Returned tt) /\
    does (minijail_enter g (child_jail preload j)) te (Returned tt) /\
    does (run_hooks_or_die (child_jail preload j) HOOK_PRE_EXECVE) th (Returned u).
Proof.
  unfold run_child. intro E. apply exec_bind_ret in E. destruct E as (t0 & t1 & [] & -> & E0 & E).
  apply exec_bind_ret in E. destruct E as (te & th & [] & -> & E1 & E2). exists t0, te, th. auto.
Qed.
Lemma main_parts g ids from envp t envp' : does (fake_main g ids from envp) t (Returned (Some envp')) ->
  exists fd j x te, t = (C_close fd, x) :: te /\ from fd = FOk j /\ does (minijail_enter g (minijail_preenter j)) te (Returned tt) /\
    (exists s, minijail_getenv envp kFdEnvVar = Some s /\ fd = atoi s) /\ ids = true /\
    envp' = truncate_preload_env (snd (minijail_unsetenv envp kFdEnvVar)) kLdPreloadEnvVar.
Proof.
  unfold fake_main. destruct ids; cbn [negb]; [|intros [_ X]; discriminate X].
  destruct (minijail_getenv envp kFdEnvVar) as [s|]; [|intros [_ X]; discriminate X].
  destruct (atoi s <? 0)%Z; [intros [_ X]; discriminate X|]. destruct (from (atoi s)) as [?|j|] eqn:F; try (intros [_ X]; discriminate X).
  intros E. apply exec_bind_ret in E. destruct E as (tc & t1 & [] & -> & E0 & E). apply exec_bind_ret in E. destruct E as (te & t2 & [] & -> & E1 & E2).
  apply try_ret in E0. destruct E0 as (x & ->).
  destruct E2 as [-> E2]. rewrite List.app_nil_r. exists (atoi s), j, x, te. split; [reflexivity|]. split; [exact F|]. split; [exact E1|].
  split; [exists s; split; reflexivity|]. split; [reflexivity|]. injection E2 as E2. exact E2.
Qed.

Lemma FOk_inj a b : FOk a = FOk b -> a = b.
Proof. intros X. injection X as X. exact X. Qed.

(* ---- with the preload library ---- *)
Section Launched.
Variables (g : cfg) (ec ep : kenv) (h : list (api * Z)) (j : jail) (t1 t2 : list event) (envp envp' : env).
Hypothesis L : launched g ec ep h j t1 t2 envp envp'.

Lemma launch_parts : exists filename pid t0 te fd x t2',
  history (g_env g) minijail_new h j /\ j_hooks j = [] /\ t1 = t0 ++ te /\ t2 = (C_close fd, x) :: t2' /\
  does (when (hasf F_userns j) (enter_user_namespace j)) t0 (Returned tt) /\
  does (minijail_enter g (child_jail true (with_ruleset ec j))) te (Returned tt) /\
  does (minijail_enter g (minijail_preenter (received (parent_jail ep filename pid j)))) t2' (Returned tt) /\
  (exists s, minijail_getenv envp kFdEnvVar = Some s) /\
  envp' = truncate_preload_env (snd (minijail_unsetenv envp kFdEnvVar)) kLdPreloadEnvVar.
Proof.
  destruct L as (H & KC & KP & RF & (k1 & R1) & filename & pid & addr & fuel & w & res & size & piped & lost & r & ids & k2 & R).
  cbv zeta in R. destruct R as (TY & NN & RE & SZ & FIT & TO & DL & R2).
  apply run_exec' in R1. apply run_exec' in R2.
  assert (HK : j_hooks j = []).
  { unfold run_refuses in RF. cbn [rc_use_preload rc_exec_in_child negb] in RF. destruct (j_hooks j); [reflexivity|discriminate RF]. }
  destruct (child_parts _ _ _ _ _ R1) as (t0 & te & th & T1 & E0 & E1 & EH).
  rewrite hasf_jc in E0.
  assert (E0' : does (when (hasf F_userns j) (enter_user_namespace j)) t0 (Returned tt)).
  { destruct (ruleset_same ec j) as (fd & abi & fds & n & X & _). rewrite X in E0. exact E0. }
  unfold run_hooks_or_die in EH. destruct (j1_fields ec j) as (_ & _ & _ & _ & HK1). rewrite HK1, HK in EH. destruct EH as [-> _].
  rewrite List.app_nil_r in T1.
  destruct (main_parts _ _ _ _ _ _ R2) as (fd & jr & x & t2' & T2 & FR & E2 & (s & GE & FD) & _ & EV).
  assert (SD : sound (g_env g) (parent_jail ep filename pid j)) by (apply sound_jp; [eapply reachable_sound; exact H|exact KP]).
  destruct (sound_truncated addr (g_env g) (g_env g) (parent_jail ep filename pid j) minijail_new fuel w res size piped lost r SD TY NN eq_refl RE SZ FIT TO DL)
    as [X|(rc & j' & X & _)].
  2: { rewrite X in FR. discriminate FR. }
  assert (jr = received (parent_jail ep filename pid j)) as ->.
  { apply FOk_inj. rewrite <- FR. exact X. }
  exists filename, pid, t0, te, fd, x, t2'. split; [exact H|]. split; [exact HK|]. split; [exact T1|]. split; [exact T2|].
  split; [exact E0'|]. split; [exact E1|]. split; [exact E2|]. split; [exists s; exact GE|exact EV].
Qed.

Lemma applied c : wants g h c -> ~ (is_own_init h /\ on_proc c) -> worked c (t1 ++ t2).
Proof.
  intros W NP. destruct launch_parts as (filename & pid & t0 & te & fd & x & t2' & H & _ & -> & -> & _ & E1 & E2 & _).
  assert (NI : ~ (own_init j = true /\ on_proc c)) by (intros [A B]; apply NP; split; [exact (own_init_asked _ _ _ H A)|exact B]).
  destruct (split_demands ec ep filename pid j g c (wants_demands _ _ _ _ H W) (wants_plain _ _ _ W) NI) as [D|D].
  - apply worked_l, worked_r. exact (fail_closed _ _ _ _ _ D E1).
  - apply worked_r. change ((C_close fd, x) :: t2') with ([(C_close fd, x)] ++ t2'). apply worked_r. exact (fail_closed _ _ _ _ _ D E2).
Qed.
Lemma filter_at : asked F_seccomp_filter h -> k_softfail (g_env g) = false -> g_asan g = false ->
  let prog := j_filter_prog j in
  content prog <> Some [] -> worked (C_prctl_seccomp (content prog)) t2 \/ exists flags, worked (C_seccomp flags (content prog)) t2.
Proof.
  intros A S G prog NE. subst prog. destruct launch_parts as (filename & pid & t0 & te & fd & x & t2' & H & _ & _ & -> & _ & _ & E2 & _).
  assert (F : hasf F_seccomp_filter j = true) by (eapply asked_on; [exact H|rewrite S; reflexivity|exact A]).
  pose proof (al_flag _ _ (alike_after ep filename pid j)) as AF.
  set (j2 := minijail_preenter (received (parent_jail ep filename pid j))) in *.
  assert (C : content (j_filter_prog j2) = content (j_filter_prog j)).
  { unfold j2. destruct (jp_ruled ep filename pid j) as (fd' & abi & fds & n & -> & _).
    change (content (if hasf F_seccomp_filter (match filename with None => j | Some f => set_filename (Own f) j end)
      then match j_filter_prog (match filename with None => j | Some f => set_filename (Own f) j end) with Own [] => Null | p => p end else Null) = content (j_filter_prog j)).
    assert (hasf F_seccomp_filter (match filename with None => j | Some f => set_filename (Own f) j end) = true) as -> by (destruct filename; exact F).
    assert (j_filter_prog (match filename with None => j | Some f => set_filename (Own f) j end) = j_filter_prog j) as -> by (destruct filename; reflexivity).
    destruct (j_filter_prog j) as [|[|? ?]| |]; try reflexivity. destruct NE. reflexivity. }
  rewrite <- C. change ((C_close fd, x) :: t2') with ([(C_close fd, x)] ++ t2').
  rewrite <- (AF F_seccomp_filter eq_refl) in F.
  destruct (hasf F_seccomp_filter_tsync j2 || hasf F_seccomp_filter_allow_speculation j2) eqn:E.
  - right. eexists. apply worked_r. eapply (fail_closed g j2); [apply d_filter_flags; assumption|exact E2].
  - left. apply worked_r. apply orb_false_iff in E. destruct E. eapply (fail_closed g j2); [apply d_filter; assumption|exact E2].
Qed.
Lemma filter_run : asked F_seccomp_filter h -> k_softfail (g_env g) = false -> g_asan g = false ->
  exists prog, holds_filter prog (last_of filter_of h None) /\
   (content prog <> Some [] -> worked (C_prctl_seccomp (content prog)) t2 \/ exists flags, worked (C_seccomp flags (content prog)) t2).
Proof.
  intros A S G. exists (j_filter_prog j). split; [|exact (filter_at A S G)]. destruct L as [H _]. apply filter_last with (e := g_env g); assumption.
Qed.

Lemma performed_pre root dev m t a : performed root dev m t -> performed root dev m (a ++ t).
Proof.
  intros (target & LA & D & F). exists target. split; [exact LA|]. split; [apply did_pre; exact D|].
  intros A B C. destruct (F A B C) as (fl & s & I0 & K). exists fl, s. split; [apply in_or_app; right; exact I0|].
  intros X. apply did_pre. exact (K X).
Qed.
Lemma mounted_pre root dev ms t a : mounted root dev ms t -> mounted root dev ms (a ++ t).
Proof.
  intros M. destruct M as [t|m ms ta tb P M]; [constructor|]. rewrite app_assoc. constructor; [apply performed_pre; exact P|exact M].
Qed.
Lemma unchecked_pre e m t a : unchecked e m t -> unchecked e m (a ++ t).
Proof.
  intros (A & B & C). split; [exact A|]. split; [exact B|]. destruct C as [(C & er & I0)|(C & x & I0 & V)].
  - left. split; [exact C|]. exists er. apply in_or_app. right. exact I0.
  - right. split; [exact C|]. exists x. split; [apply in_or_app; right; exact I0|exact V].
Qed.
Lemma dev_of_pre hh t a dev : dev_of hh t dev -> dev_of hh (a ++ t) dev.
Proof.
  intros [(A & d & B & v & I0)|N0]; [left|right; exact N0]. split; [exact A|]. exists d. split; [exact B|]. exists v. apply in_or_app. right. exact I0.
Qed.
Lemma mounts_run : exists dev done rest, dev_of h t2 dev /\ accepted mount_added h = done ++ rest /\
  mounted (new_root h) dev done t2 /\ (rest = [] \/ exists m tl, rest = m :: tl /\ unchecked (g_env g) m t2).
Proof.
  destruct launch_parts as (filename & pid & t0 & te & fd & x & t2' & H & _ & _ & -> & _ & _ & E2 & _).
  destruct (mounts_alike g h j _ t2' H (alike_after ep filename pid j) E2) as (dev & dn & rest & D & A & M & U).
  exists dev, dn, rest. change ((C_close fd, x) :: t2') with ([(C_close fd, x)] ++ t2').
  split; [apply dev_of_pre; exact D|]. split; [exact A|]. split; [apply mounted_pre; exact M|].
  destruct U as [U|(m & tl & U & V)]; [left; exact U|right]. exists m, tl. split; [exact U|apply unchecked_pre; exact V].
Qed.
Lemma restrict_run : ~ called A_add_minimalistic_mountns_fs_rules h -> ~ called A_disable_fs_restrictions h ->
  rules_added (k_landlock_abi (g_env g)) h <> [] -> (0 <= k_landlock_fd ep)%Z ->
  worked (C_landlock_restrict (k_landlock_fd ep)) t2.
Proof.
  intros NM ND NE LE. destruct launch_parts as (filename & pid & t0 & te & fd & x & t2' & H & _ & _ & -> & _ & _ & E2 & _).
  pose proof (rules_history _ _ _ H NM) as RH. pose proof NE as NE'. rewrite <- RH in NE'.
  destruct (j2_fields ep filename pid j) as (_ & _ & _ & FD). specialize (FD NE').
  change ((C_close fd, x) :: t2') with ([(C_close fd, x)] ++ t2'). apply worked_r.
  rewrite <- FD in LE |- *. exact (restrict_alike g h j _ t2' H (alike_after ep filename pid j) E2 NM ND NE LE).
Qed.

Section Creds.
Variable groups_of : string -> N -> list N.
Let aft := after groups_of (fun _ c => c).
Lemma close_keeps s fd x : after groups_of (fun _ c => c) s [(C_close fd, x)] = s.
Proof. destruct x; reflexivity. Qed.
Lemma userns_ids s t0 jj : does (when (hasf F_userns jj) (enter_user_namespace jj)) t0 (Returned tt) ->
  groups (aft s t0) = groups s /\
  (hasf F_uid jj = false -> uids (aft s t0) = uids s \/ (hasf F_userns jj = true /\ uids (aft s t0) = (0, 0, 0))) /\
  (hasf F_gid jj = false -> gids (aft s t0) = gids s \/ (hasf F_userns jj = true /\ gids (aft s t0) = (0, 0, 0))).
Proof.
  destruct (hasf F_userns jj); cbn [when].
  2: { intros [-> _]. split; [reflexivity|]. split; intros _; left; reflexivity. }
  unfold enter_user_namespace. intros E. apply exec_bind_ret in E. destruct E as (ta & tb & [] & -> & EA & EB). unfold aft. rewrite after_app.
  assert (A : groups (after groups_of (fun _ c => c) s ta) = groups s /\ uids (after groups_of (fun _ c => c) s ta) = uids s /\
    (hasf F_gid jj = false -> gids (after groups_of (fun _ c => c) s ta) = gids s \/ gids (after groups_of (fun _ c => c) s ta) = (0, 0, 0))).
  { destruct (negb (is_null (j_gidmap jj))); cbn [when] in EA.
    - apply must_ret in EA. destruct EA as (v & z & ->). unfold after. cbn [fold_left after_event effect]. split; [destruct (_ =? NO_ID); reflexivity|].
      split; [destruct (_ =? NO_ID); reflexivity|]. intros ->. right. reflexivity.
    - destruct EA as [-> _]. split; [reflexivity|]. split; [reflexivity|]. intros _. left. reflexivity. }
  destruct A as (A1 & A2 & A3). set (sa := after groups_of (fun _ c => c) s ta) in *.
  assert (B : groups (after groups_of (fun _ c => c) sa tb) = groups sa /\ gids (after groups_of (fun _ c => c) sa tb) = gids sa /\
    (hasf F_uid jj = false -> uids (after groups_of (fun _ c => c) sa tb) = uids sa \/ uids (after groups_of (fun _ c => c) sa tb) = (0, 0, 0))).
  { destruct (negb (is_null (j_uidmap jj))); cbn [when] in EB.
    - apply must_ret in EB. destruct EB as (v & z & ->). unfold after. cbn [fold_left after_event effect].
      split; [|split].
      + destruct (_ =? NO_ID); [reflexivity|]. destruct (setuid_caps _ sa) as [[? ?] ?]. reflexivity.
      + destruct (_ =? NO_ID); [reflexivity|]. destruct (setuid_caps _ sa) as [[? ?] ?]. reflexivity.
      + intros ->. right. change (0 =? NO_ID) with false. cbv iota. destruct (setuid_caps _ sa) as [[? ?] ?]. reflexivity.
    - destruct EB as [-> _]. split; [reflexivity|]. split; [reflexivity|]. intros _. left. reflexivity. }
  destruct B as (B1 & B2 & B3). rewrite B1, B2, A1. split; [reflexivity|]. rewrite A2 in B3. split.
  - intros U. destruct (B3 U) as [X|X]; [left; exact X|right; split; [reflexivity|exact X]].
  - intros U. destruct (A3 U) as [X|X]; [left; exact X|right; split; [reflexivity|exact X]].
Qed.
Lemma identity_run s s2 : same_ids (aft s t1) s2 -> let s' := aft s2 t2 in
  at_most_one (asked F_inherit_suppl_gids h) (asked F_keep_suppl_gids h) (asked F_set_suppl_gids h) /\
  groups_due groups_of h (groups s) (groups s') /\
  (asked F_uid h -> last_of uid_of h 0 <> NO_ID -> uids s' = (last_of uid_of h 0, last_of uid_of h 0, last_of uid_of h 0)) /\
  (~ asked F_uid h -> uids s' = uids s \/ (asked F_userns h /\ uids s' = (0, 0, 0))) /\
  (asked F_gid h -> last_of gid_of h 0 <> NO_ID -> gids s' = (last_of gid_of h 0, last_of gid_of h 0, last_of gid_of h 0)) /\
  (~ asked F_gid h -> gids s' = gids s \/ (asked F_userns h /\ gids s' = (0, 0, 0))).
Proof.
  intros SI s'. destruct launch_parts as (filename & pid & t0 & te & fd & x & t2' & H & _ & T1 & T2 & E0 & E1 & E2 & _).
  destruct (identity_alike g h j _ t2' H (alike_after ep filename pid j) E2 groups_of (fun _ c => c) s2) as (ONE & GR & U1 & U2 & G1 & G2).
  { intros; split; [reflexivity|split; reflexivity]. }
  assert (S' : s' = after groups_of (fun _ c => c) s2 t2').
  { unfold s', aft. rewrite T2. change ((C_close fd, x) :: t2') with ([(C_close fd, x)] ++ t2'). rewrite after_app, close_keeps. reflexivity. }
  rewrite S'. destruct SI as (SU & SG & SS). unfold aft in SU, SG, SS. rewrite T1, after_app in SU, SG, SS.
  pose proof (userns_ids s t0 j E0) as (K1 & K2 & K3). unfold aft in K1, K2, K3. set (s0 := after groups_of (fun _ c => c) s t0) in *.
  destruct (identity groups_of (fun _ c => c) g _ te s0 E1) as (_ & s1 & V1 & V2 & V3 & GA & UA & GDA).
  specialize (V1 (fun _ _ => eq_refl)). specialize (V2 (fun _ _ => eq_refl)). specialize (V3 (fun _ _ => eq_refl)).
  unfold groups_after in GA. rewrite (hasf_j1 ec j F_inherit_suppl_gids), (hasf_j1 ec j F_set_suppl_gids), (hasf_j1 ec j F_keep_suppl_gids),
    (hasf_j1 ec j F_disable_setgroups), (hasf_j1 ec j F_uid), (hasf_j1 ec j F_gid) in GA.
  rewrite (hasf_j1 ec j F_uid) in UA. rewrite (hasf_j1 ec j F_gid) in GDA.
  change (kept_before F_inherit_suppl_gids) with false in GA. change (kept_before F_set_suppl_gids) with false in GA.
  change (kept_before F_keep_suppl_gids) with false in GA. change (kept_before F_disable_setgroups) with false in GA.
  change (kept_before F_uid) with false in GA, UA. change (kept_before F_gid) with false in GA, GDA. cbn [negb andb orb] in GA.
  rewrite GA, V3, K1 in SS. rewrite UA, V1 in SU. rewrite GDA, V2 in SG. rewrite SS in GR. rewrite SU in U2. rewrite SG in G2.
  pose proof (flag_asked _ _ _ F_uid H eq_refl) as AU. pose proof (flag_asked _ _ _ F_gid H eq_refl) as AG. pose proof (flag_asked _ _ _ F_userns H eq_refl) as AN.
  split; [exact ONE|]. split; [exact GR|]. split; [exact U1|]. split; [|split; [exact G1|]].
  - intros NU. rewrite (U2 NU). assert (F : hasf F_uid j = false) by (apply not_true_iff_false; intro X; apply NU, AU; exact X).
    destruct (K2 F) as [X|[Y X]]; [left; exact X|right; split; [apply AN; exact Y|exact X]].
  - intros NU. rewrite (G2 NU). assert (F : hasf F_gid j = false) by (apply not_true_iff_false; intro X; apply NU, AG; exact X).
    destruct (K3 F) as [X|[Y X]]; [left; exact X|right; split; [apply AN; exact Y|exact X]].
Qed.
Lemma caps_run s : asked F_use_caps h -> let s' := aft s t2 in exists last x, In (C_last_cap, Yes last x) t2 /\ last <= 64 /\
  let mask := last_of caps_of h 0 in
  (forall i, N.testbit (effective s') i = supported last i && N.testbit mask i) /\
  permitted s' = effective s' /\ inheritable s' = effective s' /\
  (asked F_set_ambient_caps h -> ambient s' = effective s') /\
  (forall i, N.testbit (ambient s') i = true -> supported last i && N.testbit mask i = true) /\
  (N.land (last_of skip_of h 0) 3 = 0 ->
   forall i, N.testbit (bounding s') i = N.testbit (bounding s) i && (N.testbit mask i || negb (supported last i))).
Proof.
  intros A s'. destruct launch_parts as (filename & pid & t0 & te & fd & x & t2' & H & _ & _ & T2 & _ & _ & E2 & _).
  assert (S' : s' = after groups_of (fun _ c => c) s t2').
  { unfold s', aft. rewrite T2. change ((C_close fd, x) :: t2') with ([(C_close fd, x)] ++ t2'). rewrite after_app, close_keeps. reflexivity. }
  rewrite S'. destruct (caps_alike g h j _ t2' H (alike_after ep filename pid j) E2 groups_of (fun _ c => c) s A) as (last & y & I0 & LE & C1 & C2 & C3 & C4 & C5 & C6).
  exists last, y. split; [rewrite T2; right; exact I0|]. split; [exact LE|]. cbv zeta. split; [exact C1|]. split; [exact C2|]. split; [exact C3|].
  split; [exact C4|]. split; [exact C5|]. intros SK. exact (C6 SK (fun _ _ => eq_refl)).
Qed.
Lemma bset_run s keep : last_of dropped_caps_of h None = Some keep -> let s' := aft s t2 in
  exists last x, In (C_last_cap, Yes last x) t2 /\ last <= 64 /\
   forall i, N.testbit (bounding s') i = N.testbit (bounding s) i && (N.testbit keep i || negb (supported last i)).
Proof.
  intros A s'. destruct launch_parts as (filename & pid & t0 & te & fd & x & t2' & H & _ & _ & T2 & _ & _ & E2 & _).
  assert (S' : s' = after groups_of (fun _ c => c) s t2').
  { unfold s', aft. rewrite T2. change ((C_close fd, x) :: t2') with ([(C_close fd, x)] ++ t2'). rewrite after_app, close_keeps. reflexivity. }
  rewrite S'. destruct (bset_alike g h j _ t2' H (alike_after ep filename pid j) E2 groups_of (fun _ c => c) s keep A) as (last & y & I0 & LE & C).
  exists last, y. split; [rewrite T2; right; exact I0|]. split; [exact LE|]. exact (C (fun _ _ => eq_refl)).
Qed.
Lemma locked_run s : N.land (g_secure_all_bits g) 21 = 21 -> asked F_use_caps h -> let s' := aft s t2 in
  forall i, i < 6 -> N.testbit (last_of skip_of h 0) i = false ->
  N.testbit (securebits s') i = true \/
  (i = 4 /\ asked F_set_ambient_caps h /\
   exists cur x, In (C_get_securebits, Yes cur x) t2 /\ N.testbit cur 5 = true /\ N.testbit cur 4 = false).
Proof.
  intros G A s' i LT SK. destruct launch_parts as (filename & pid & t0 & te & fd & x & t2' & H & _ & _ & T2 & _ & _ & E2 & _).
  assert (S' : s' = after groups_of (fun _ c => c) s t2').
  { unfold s', aft. rewrite T2. change ((C_close fd, x) :: t2') with ([(C_close fd, x)] ++ t2'). rewrite after_app, close_keeps. reflexivity. }
  rewrite S'. destruct (locked_alike g h j _ t2' H (alike_after ep filename pid j) E2 groups_of (fun _ c => c) s G A i LT SK) as [X|(X & Y & cur & z & I0 & Z)]; [left; exact X|right].
  split; [exact X|]. split; [exact Y|]. exists cur, z. split; [rewrite T2; right; exact I0|exact Z].
Qed.
End Creds.
End Launched.

(* ---- without it ---- *)
Lemma mounted_post root dev ms t z : mounted root dev ms t -> mounted root dev ms (t ++ z).
Proof. intros M. induction M as [t|m ms ta tb P M IH]; [constructor|]. rewrite <- app_assoc. constructor; [exact P|exact IH]. Qed.
Lemma unchecked_post e m t z : unchecked e m t -> unchecked e m (t ++ z).
Proof.
  intros (A & B & C). split; [exact A|]. split; [exact B|]. destruct C as [(C & er & I0)|(C & x & I0 & V)].
  - left. split; [exact C|]. exists er. apply in_or_app. left. exact I0.
  - right. split; [exact C|]. exists x. split; [apply in_or_app; left; exact I0|exact V].
Qed.
Lemma dev_of_post hh t z dev : dev_of hh t dev -> dev_of hh (t ++ z) dev.
Proof.
  intros [(A & d & B & v & I0)|N0]; [left|right; exact N0]. split; [exact A|]. exists d. split; [exact B|]. exists v. apply in_or_app. left. exact I0.
Qed.
Lemma only_hooks gs s : forall l ev t u, does (run_hooks l ev) t (Returned u) -> after gs (fun _ c => c) s t = s.
Proof.
  induction l as [|h l IH]; intros ev t u E; [destruct E as [-> _]; reflexivity|]. cbn [run_hooks] in E. destruct (hk_event h =? ev); [|exact (IH _ _ _ E)].
  apply exec_bind_ret in E. destruct E as (ta & tb & [] & -> & EA & EB). rewrite after_app.
  apply must_ret in EA. destruct EA as (v & z & ->). exact (IH _ _ _ EB).
Qed.
Section Plain.
Variables (g : cfg) (ec : kenv) (exec : bool) (h : list (api * Z)) (j : jail) (t : list event).
Hypothesis L : launched_plain g ec exec h j t.

Lemma plain_parts : exists t0 te th,
  history (g_env g) minijail_new h j /\ t = t0 ++ te ++ th /\
  does (when (hasf F_userns j) (enter_user_namespace j)) t0 (Returned tt) /\
  does (minijail_enter g (child_jail false (with_ruleset ec j))) te (Returned tt) /\
  does (run_hooks (j_hooks j) 1) th (Returned tt).
Proof.
  destruct L as (H & KC & RF & k1 & R1). apply run_exec' in R1.
  destruct (child_parts _ _ _ _ _ R1) as (t0 & te & th & T1 & E0 & E1 & EH). rewrite hasf_jc in E0.
  assert (E0' : does (when (hasf F_userns j) (enter_user_namespace j)) t0 (Returned tt)).
  { destruct (ruleset_same ec j) as (fd & abi & fds & n & X & _). rewrite X in E0. exact E0. }
  unfold run_hooks_or_die in EH. pose proof (child_fields false (with_ruleset ec j)) as (_ & _ & _ & _ & HK1). rewrite HK1 in EH.
  assert (j_hooks (with_ruleset ec j) = j_hooks j) as HK by (destruct (ruleset_same ec j) as (fd & abi & fds & n & -> & _); reflexivity).
  rewrite HK in EH.
  exists t0, te, th. split; [exact H|]. split; [exact T1|]. split; [exact E0'|]. split; [exact E1|exact EH].
Qed.
Lemma plain_applied c : wants g h c -> ~ (is_own_init h /\ on_proc c) -> worked c t.
Proof.
  intros W NP. destruct plain_parts as (t0 & te & th & H & -> & _ & E1 & _).
  assert (NI : ~ (own_init j = true /\ on_proc c)) by (intros [A B]; apply NP; split; [exact (own_init_asked _ _ _ H A)|exact B]).
  apply worked_r, worked_l. exact (fail_closed _ _ _ _ _ (plain_demands ec j g c (wants_demands _ _ _ _ H W) (wants_plain _ _ _ W) NI) E1).
Qed.
Lemma plain_filter_at : asked F_seccomp_filter h -> k_softfail (g_env g) = false -> g_asan g = false ->
  let prog := j_filter_prog j in worked (C_prctl_seccomp (content prog)) t \/ exists flags, worked (C_seccomp flags (content prog)) t.
Proof.
  intros A S G prog. subst prog. destruct plain_parts as (t0 & te & th & H & -> & _ & E2 & _).
  assert (F : hasf F_seccomp_filter j = true) by (eapply asked_on; [exact H|rewrite S; reflexivity|exact A]).
  pose proof (al_flag _ _ (alike_plain ec j)) as AF.
  set (j2 := child_jail false (with_ruleset ec j)) in *.
  assert (C : content (j_filter_prog j2) = content (j_filter_prog j)).
  { unfold j2, child_jail. destruct (ruleset_same ec j) as (fd' & abi & fds & n & -> & _). destruct (_ && _); reflexivity. }
  rewrite <- C. rewrite <- (AF F_seccomp_filter eq_refl) in F.
  destruct (hasf F_seccomp_filter_tsync j2 || hasf F_seccomp_filter_allow_speculation j2) eqn:E.
  - right. eexists. apply worked_r, worked_l. eapply (fail_closed g j2); [apply d_filter_flags; assumption|exact E2].
  - left. apply worked_r, worked_l. apply orb_false_iff in E. destruct E. eapply (fail_closed g j2); [apply d_filter; assumption|exact E2].
Qed.
Lemma plain_filter : asked F_seccomp_filter h -> k_softfail (g_env g) = false -> g_asan g = false ->
  exists prog, holds_filter prog (last_of filter_of h None) /\
   (worked (C_prctl_seccomp (content prog)) t \/ exists flags, worked (C_seccomp flags (content prog)) t).
Proof.
  intros A S G. exists (j_filter_prog j). split; [|exact (plain_filter_at A S G)]. destruct plain_parts as (t0 & te & th & H & _). apply filter_last with (e := g_env g); assumption.
Qed.
Lemma plain_mounts : exists dev done rest, dev_of h t dev /\ accepted mount_added h = done ++ rest /\
  mounted (new_root h) dev done t /\ (rest = [] \/ exists m tl, rest = m :: tl /\ unchecked (g_env g) m t).
Proof.
  destruct plain_parts as (t0 & te & th & H & -> & _ & E2 & _).
  destruct (mounts_alike g h j _ te H (alike_plain ec j) E2) as (dev & dn & rest & D & A & M & U).
  exists dev, dn, rest. split; [apply dev_of_pre, dev_of_post; exact D|]. split; [exact A|]. split; [apply mounted_pre, mounted_post; exact M|].
  destruct U as [U|(m & tl & U & V)]; [left; exact U|right]. exists m, tl. split; [exact U|apply unchecked_pre, unchecked_post; exact V].
Qed.
Lemma plain_restrict : ~ called A_add_minimalistic_mountns_fs_rules h -> ~ called A_disable_fs_restrictions h ->
  rules_added (k_landlock_abi (g_env g)) h <> [] -> (0 <= k_landlock_fd ec)%Z ->
  worked (C_landlock_restrict (k_landlock_fd ec)) t.
Proof.
  intros NM ND NE LE. destruct plain_parts as (t0 & te & th & H & -> & _ & E2 & _).
  pose proof (rules_history _ _ _ H NM) as RH. pose proof NE as NE'. rewrite <- RH in NE'.
  assert (FD : j_fs_rules_fd (child_jail false (with_ruleset ec j)) = k_landlock_fd ec).
  { unfold child_jail. destruct (ruleset_same ec j) as (fd' & abi & fds & n & -> & X & _). rewrite <- (X NE'). destruct (_ && _); reflexivity. }
  apply worked_r, worked_l. rewrite <- FD in LE |- *. exact (restrict_alike g h j _ te H (alike_plain ec j) E2 NM ND NE LE).
Qed.
Section Creds.
Variable groups_of : string -> N -> list N.
Let aft := after groups_of (fun _ c => c).
Lemma plain_identity s : let s' := aft s t in
  at_most_one (asked F_inherit_suppl_gids h) (asked F_keep_suppl_gids h) (asked F_set_suppl_gids h) /\
  groups_due groups_of h (groups s) (groups s') /\
  (asked F_uid h -> last_of uid_of h 0 <> NO_ID -> uids s' = (last_of uid_of h 0, last_of uid_of h 0, last_of uid_of h 0)) /\
  (~ asked F_uid h -> uids s' = uids s \/ (asked F_userns h /\ uids s' = (0, 0, 0))) /\
  (asked F_gid h -> last_of gid_of h 0 <> NO_ID -> gids s' = (last_of gid_of h 0, last_of gid_of h 0, last_of gid_of h 0)) /\
  (~ asked F_gid h -> gids s' = gids s \/ (asked F_userns h /\ gids s' = (0, 0, 0))).
Proof.
  intros s'. destruct plain_parts as (t0 & te & th & H & T & E0 & E1 & EH).
  pose proof (userns_ids groups_of s t0 j E0) as (K1 & K2 & K3). set (s0 := after groups_of (fun _ c => c) s t0) in *.
  assert (S' : s' = after groups_of (fun _ c => c) s0 te).
  { unfold s', aft. rewrite T, !after_app. exact (only_hooks groups_of _ _ _ _ _ EH). }
  rewrite S'.
  destruct (identity_alike g h j _ te H (alike_plain ec j) E1 groups_of (fun _ c => c) s0) as (ONE & GR & U1 & U2 & G1 & G2).
  { intros; split; [reflexivity|split; reflexivity]. }
  rewrite K1 in GR.
  pose proof (flag_asked _ _ _ F_uid H eq_refl) as AU. pose proof (flag_asked _ _ _ F_gid H eq_refl) as AG. pose proof (flag_asked _ _ _ F_userns H eq_refl) as AN.
  split; [exact ONE|]. split; [exact GR|]. split; [exact U1|]. split; [|split; [exact G1|]].
  - intros NU. rewrite (U2 NU). assert (F : hasf F_uid j = false) by (apply not_true_iff_false; intro X; apply NU, AU; exact X).
    destruct (K2 F) as [X|[Y X]]; [left; exact X|right; split; [apply AN; exact Y|exact X]].
  - intros NU. rewrite (G2 NU). assert (F : hasf F_gid j = false) by (apply not_true_iff_false; intro X; apply NU, AG; exact X).
    destruct (K3 F) as [X|[Y X]]; [left; exact X|right; split; [apply AN; exact Y|exact X]].
Qed.
Lemma userns_bounding s t0 jj : does (when (hasf F_userns jj) (enter_user_namespace jj)) t0 (Returned tt) -> bounding (aft s t0) = bounding s.
Proof.
  destruct (hasf F_userns jj); cbn [when].
  2: { intros [-> _]. reflexivity. }
  unfold enter_user_namespace. intros E. apply exec_bind_ret in E. destruct E as (ta & tb & [] & -> & EA & EB). unfold aft. rewrite after_app.
  assert (A : bounding (after groups_of (fun _ c => c) s ta) = bounding s).
  { destruct (negb (is_null (j_gidmap jj))); cbn [when] in EA; [apply must_ret in EA; destruct EA as (v & z & ->); unfold after; cbn [fold_left after_event effect]; destruct (_ =? NO_ID); reflexivity|destruct EA as [-> _]; reflexivity]. }
  rewrite <- A. set (sa := after groups_of (fun _ c => c) s ta).
  destruct (negb (is_null (j_uidmap jj))); cbn [when] in EB; [|destruct EB as [-> _]; reflexivity].
  apply must_ret in EB. destruct EB as (v & z & ->). unfold after. cbn [fold_left after_event effect]. destruct (_ =? NO_ID); [reflexivity|]. destruct (setuid_caps _ sa) as [[? ?] ?]. reflexivity.
Qed.
Lemma plain_caps s : asked F_use_caps h -> let s' := aft s t in exists last x, In (C_last_cap, Yes last x) t /\ last <= 64 /\
  let mask := last_of caps_of h 0 in
  (forall i, N.testbit (effective s') i = supported last i && N.testbit mask i) /\
  permitted s' = effective s' /\ inheritable s' = effective s' /\
  (asked F_set_ambient_caps h -> ambient s' = effective s') /\
  (forall i, N.testbit (ambient s') i = true -> supported last i && N.testbit mask i = true) /\
  (N.land (last_of skip_of h 0) 3 = 0 ->
   forall i, N.testbit (bounding s') i = N.testbit (bounding s) i && (N.testbit mask i || negb (supported last i))).
Proof.
  intros A s'. destruct plain_parts as (t0 & te & th & H & T & E0 & E1 & EH).
  pose proof (userns_bounding s t0 j E0) as KB. unfold aft in KB. set (s0 := after groups_of (fun _ c => c) s t0) in *.
  assert (S' : s' = after groups_of (fun _ c => c) s0 te).
  { unfold s', aft. rewrite T, !after_app. exact (only_hooks groups_of _ _ _ _ _ EH). }
  rewrite S'. destruct (caps_alike g h j _ te H (alike_plain ec j) E1 groups_of (fun _ c => c) s0 A) as (last & y & I0 & LE & C1 & C2 & C3 & C4 & C5 & C6).
  exists last, y. split; [rewrite T; apply in_or_app; right; apply in_or_app; left; exact I0|]. split; [exact LE|]. cbv zeta. split; [exact C1|]. split; [exact C2|]. split; [exact C3|].
  split; [exact C4|]. split; [exact C5|]. intros SK. rewrite <- KB. exact (C6 SK (fun _ _ => eq_refl)).
Qed.
Lemma plain_bset s keep : last_of dropped_caps_of h None = Some keep -> let s' := aft s t in
  exists last x, In (C_last_cap, Yes last x) t /\ last <= 64 /\
   forall i, N.testbit (bounding s') i = N.testbit (bounding s) i && (N.testbit keep i || negb (supported last i)).
Proof.
  intros A s'. destruct plain_parts as (t0 & te & th & H & T & E0 & E1 & EH).
  pose proof (userns_bounding s t0 j E0) as KB. unfold aft in KB. set (s0 := after groups_of (fun _ c => c) s t0) in *.
  assert (S' : s' = after groups_of (fun _ c => c) s0 te).
  { unfold s', aft. rewrite T, !after_app. exact (only_hooks groups_of _ _ _ _ _ EH). }
  rewrite S'. destruct (bset_alike g h j _ te H (alike_plain ec j) E1 groups_of (fun _ c => c) s0 keep A) as (last & y & I0 & LE & C).
  exists last, y. split; [rewrite T; apply in_or_app; right; apply in_or_app; left; exact I0|]. split; [exact LE|]. rewrite <- KB. exact (C (fun _ _ => eq_refl)).
Qed.
Lemma plain_locked s : N.land (g_secure_all_bits g) 21 = 21 -> asked F_use_caps h -> let s' := aft s t in
  forall i, i < 6 -> N.testbit (last_of skip_of h 0) i = false ->
  N.testbit (securebits s') i = true \/
  (i = 4 /\ asked F_set_ambient_caps h /\
   exists cur x, In (C_get_securebits, Yes cur x) t /\ N.testbit cur 5 = true /\ N.testbit cur 4 = false).
Proof.
  intros G A s' i LT SK. destruct plain_parts as (t0 & te & th & H & T & E0 & E1 & EH).
  set (s0 := after groups_of (fun _ c => c) s t0) in *.
  assert (S' : s' = after groups_of (fun _ c => c) s0 te).
  { unfold s', aft. rewrite T, !after_app. exact (only_hooks groups_of _ _ _ _ _ EH). }
  rewrite S'. destruct (locked_alike g h j _ te H (alike_plain ec j) E1 groups_of (fun _ c => c) s0 G A i LT SK) as [X|(X & Y & cur & z & I0 & Z)]; [left; exact X|right].
  split; [exact X|]. split; [exact Y|]. exists cur, z. split; [rewrite T; apply in_or_app; right; apply in_or_app; left; exact I0|exact Z].
Qed.
End Creds.
End Plain.

(* ---- hooks ---- *)
Lemma hooks_run_claim g ec h j kernel o t : history (g_env g) minijail_new h j ->
  M_Io.run kernel [] (run_child g false (with_ruleset ec j)) = (o, t) ->
  exists l, hooks_due h l /\ hooks_spec (l ++ hooks_for 1 (accepted hook_added h)) t o.
Proof.
  intros H R. apply run_exec' in R.
  pose proof (child_fields false (with_ruleset ec j)) as (_ & _ & _ & _ & HK1).
  assert (j_hooks (with_ruleset ec j) = j_hooks j) as HK by (destruct (ruleset_same ec j) as (fd & abi & fds & n & -> & _); reflexivity).
  rewrite HK in HK1.
  destruct (limits _ _ _ H) as (_ & _ & _ & _ & _ & HA). rewrite HA in HK1.
  set (jx := child_jail false (with_ruleset ec j)) in *.
  exists (expected_hooks jx). split.
  - unfold hooks_due, expected_hooks. rewrite HK1.
    assert (NB : ~ (hasf F_chroot j = true /\ hasf F_pivot_root j = true)) by (destruct (limits _ _ _ H) as [LL _]; apply LL).
    unfold jx. rewrite (al_flag _ _ (alike_plain ec j) F_chroot eq_refl), (al_flag _ _ (alike_plain ec j) F_pivot_root eq_refl).
    pose proof (flag_asked _ _ _ F_chroot H eq_refl) as C. pose proof (flag_asked _ _ _ F_pivot_root H eq_refl) as P.
    destruct (hasf F_chroot j).
    + left. split; [left; apply C; reflexivity|]. destruct (hasf F_pivot_root j); [destruct NB; split; reflexivity|]. reflexivity.
    + destruct (hasf F_pivot_root j).
      * left. split; [right; apply P; reflexivity|]. reflexivity.
      * right. split; [intro X; apply C in X; discriminate|]. split; [intro X; apply P in X; discriminate|]. reflexivity.
  - revert t o R. change (hk (run_child g false (with_ruleset ec j)) (expected_hooks jx ++ hooks_for 1 (accepted hook_added h))).
    unfold run_child. fold jx. refine (hk_bind _ _ [] (expected_hooks jx ++ hooks_for 1 (accepted hook_added h)) _ _).
    + apply hk_none. destruct (hasf F_userns (with_ruleset ec j)); [|exact Logic.I]. cbn [when]. unfold enter_user_namespace.
      destruct (negb (is_null (j_gidmap (with_ruleset ec j)))), (negb (is_null (j_uidmap (with_ruleset ec j)))); cbn; repeat (split; [reflexivity|]; intros [? ?|?]; cbn); exact Logic.I.
    + intros _. apply hk_bind; [apply hk_any|]. intros _. unfold run_hooks_or_die. rewrite HK1. apply hk_hooks.
Qed.
Lemma oks_events ev : forall l t, oks l t -> (forall h, In h l -> hk_event h =? ev = false) -> forall x, In x t -> hook_at ev (fst x) = false.
Proof.
  intros l t O. induction O as [|h x l t (v & s & ->) O IH]; intros F y I0; [destruct I0|].
  destruct I0 as [<-|I0]; [exact (F h (or_introl eq_refl))|]. exact (IH (fun h' I' => F h' (or_intror I')) y I0).
Qed.
Lemma hooks_last g ec exec h j t : launched_plain g ec exec h j t -> never_after (fun c => negb (is_hook c)) (hook_at 1) t.
Proof.
  intros L. destruct (plain_parts g ec exec h j t L) as (t0 & te & th & H & -> & E0 & E1 & EH).
  assert (A : forall x, In x (t0 ++ te) -> hook_at 1 (fst x) = false).
  { intros x I0. apply in_app_or in I0. destruct I0 as [I0|I0].
    - assert (calls_in (fun c => negb (is_hook c)) (when (hasf F_userns j) (enter_user_namespace j))) as CI.
      { destruct (hasf F_userns j); [|exact Logic.I]. cbn [when]. unfold enter_user_namespace.
        destruct (negb (is_null (j_gidmap j))), (negb (is_null (j_uidmap j))); cbn; repeat (split; [reflexivity|]; intros [? ?|?]; cbn); exact Logic.I. }
      pose proof (only_of _ _ _ _ CI E0 x I0) as X. cbn beta in X. destruct (fst x); try reflexivity. discriminate X.
    - destruct (hk_any g _ te _ E1) as (ran & todo & EX & [[K1 D1]|(h0 & rest & e & t' & _ & X & _)]); [|discriminate X].
      specialize (D1 (ex_intro _ tt eq_refl)). subst todo. rewrite List.app_nil_r in EX. subst ran.
      assert (HE : forall h0, In h0 (expected_hooks (child_jail false (with_ruleset ec j))) -> hk_event h0 =? 1 = false).
      { intros h0 I1. unfold expected_hooks in I1. rewrite !in_app_iff in I1.
        assert (Z : forall ev l, ev <> 1 -> In h0 (hooks_for ev l) -> hk_event h0 =? 1 = false).
        { intros ev l NE I2. unfold hooks_for in I2. apply filter_In in I2. destruct I2 as [_ I2]. apply N.eqb_eq in I2. rewrite I2. apply N.eqb_neq. exact NE. }
        destruct I1 as [I1|[I1|I1]]; [destruct (hasf F_chroot _) in I1|destruct (hasf F_pivot_root _) in I1|]; try contradiction I1;
          (eapply Z; [|exact I1]; discriminate). }
      destruct (is_hook (fst x)) eqn:IH; [|destruct (fst x); try reflexivity; discriminate IH].
      apply (oks_events 1 _ _ K1 HE x). apply filter_In. split; [exact I0|exact IH]. }
  assert (B : forall x, In x th -> is_hook (fst x) = true).
  { clear - EH. revert th EH. induction (j_hooks j) as [|a l IH]; intros th E; [destruct E as [-> _]; intros x []|].
    cbn [run_hooks] in E. destruct (hk_event a =? 1); [|exact (IH _ E)].
    apply exec_bind_ret in E. destruct E as (ta & tb & [] & -> & EA & EB). apply must_ret in EA. destruct EA as (v & z & ->).
    intros x [<-|I0]; [reflexivity|exact (IH _ EB x I0)]. }
  intros ta c x tb T Q ev I0. rewrite app_assoc in T.
  assert (K : In ev th \/ exists y, In y (t0 ++ te) /\ hook_at 1 (fst y) = true).
  { clear - T Q I0. revert ta T. generalize (t0 ++ te) as tx. induction tx as [|y tx IH]; intros ta T.
    - left. cbn [app] in T. rewrite T. apply in_or_app. right. right. exact I0.
    - destruct ta as [|z ta]; cbn [app] in T; injection T as -> T.
      + right. exists (c, x). split; [left; reflexivity|exact Q].
      + destruct (IH ta T) as [X|(y0 & X & Y)]; [left; exact X|right; exists y0; split; [right; exact X|exact Y]]. }
  destruct K as [K|(y & K & Y)]; [rewrite (B ev K); reflexivity|]. rewrite (A y K) in Y. discriminate Y.
Qed.
Lemma hooks_refused e h j : history e minijail_new h j -> accepted hook_added h <> [] -> run_refuses (RunConfig true true) j = true.
Proof.
  intros H NE. destruct (limits _ _ _ H) as (_ & _ & _ & _ & _ & HK). rewrite <- HK in NE. unfold run_refuses. cbn [rc_use_preload rc_exec_in_child].
  destruct (j_hooks j); [destruct NE; reflexivity|reflexivity].
Qed.
