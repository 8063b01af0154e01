(* Proofs: the claims about minijail_enter, for jails built by configuration
   calls. *)
From Verif Require Export P_Wants P_RulesApi P_Caps P_Rules P_EnterFail.
Local Open Scope N_scope.

(* a jail that is refused at once *)
Lemma hk_any g j : hk (minijail_enter g j) (expected_hooks j).
Proof.
  intros t o E. destruct (hasf F_pids j || (hasf F_inherit_suppl_gids j && is_null (j_user j))) eqn:X.
  2: { apply orb_false_iff in X. destruct X. eapply hk_enter; eauto. }
  assert (B : hk (minijail_enter g j) ([] ++ [])).
  { unfold minijail_enter. refine (hk_bind _ _ [] [] _ _).
    - destruct (hasf F_capbset_drop j || hasf F_use_caps j); [|apply hk_none; exact Logic.I]. apply hk_none. eapply ci_weaken; [|apply ci_getlast]. intros []; cbn; auto.
    - intro last. destruct (hasf F_pids j); [apply hk_none; exact Logic.I|]. cbn [orb] in X. rewrite X. apply hk_none; exact Logic.I. }
  destruct (B t o E) as (ran & todo & L & C). destruct ran; [|discriminate]. destruct todo; [|discriminate].
  destruct C as [[C1 _]|(h0 & rest & e & t' & C & _)]; [|discriminate].
  exists [], (expected_hooks j). split; [reflexivity|]. left. split; [exact C1|].
  intros (a & ->). exfalso. clear - E X. unfold minijail_enter in E. apply exec_bind_ret in E. destruct E as (t1 & t2 & last & _ & _ & E).
  destruct (hasf F_pids j); [destruct E; discriminate|]. cbn [orb] in X. rewrite X in E. destruct E; discriminate.
Qed.

Section Claims.
Variables (g : cfg) (h : list (api * Z)) (j : jail) (kernel : list event -> call -> answer).
Variables (o : outcome unit) (t : list event).
Hypothesis H : history (g_env g) minijail_new h j.
Hypothesis R : run kernel [] (minijail_enter g j) = (o, t).

Lemma R' : does (minijail_enter g j) t o.
Proof. eapply run_exec'. exact R. Qed.
Lemma not_both : ~ (hasf F_chroot j = true /\ hasf F_pivot_root j = true).
Proof. destruct (limits _ _ _ H) as [L _]. apply L. Qed.

Lemma order_root :
  never_after namespaces (fun c => changes_root c || is_hook c || changes_identity c || changes_caps c || installs_filter c) t /\
  never_after configured_mount changes_root t /\
  never_after mounts (fun c => changes_identity c || changes_caps c || installs_filter c) t /\
  never_after changes_root (fun c => changes_identity c || changes_caps c || installs_filter c) t.
Proof.
  pose proof R' as E. split; [|split; [|split]].
  - assert (X := ns_before_rest g j t o E). intros t1 c x t2 T Q. apply (X t1 c x t2 T).
    destruct (changes_root c), (is_hook c), (changes_identity c), (changes_caps c), (installs_filter c); auto.
  - exact (mounts_before_root g j not_both t o E).
  - exact (mounts_before_identity g j t o E).
  - exact (root_before_identity g j t o E).
Qed.
Lemma order_ids :
  never_after changes_groups (fun c => changes_gid c || changes_uid c) t /\
  never_after changes_gid changes_uid t /\
  never_after changes_identity changes_caps t /\
  never_after restricts_files installs_filter t.
Proof.
  pose proof R' as E. split; [|split; [|split]].
  - exact (groups_before_gid g j t o E).
  - assert (X := gid_before_uid g j t o E). intros t1 c x t2 T Q ev I. specialize (X t1 c x t2 T Q ev I). apply orb_false_iff in X. apply X.
  - exact (identity_before_caps g j t o E).
  - exact (files_before_filter g j t o E).
Qed.
Lemma order_filter : asked F_no_new_privs h -> k_softfail (g_env g) = false ->
  only_after installs_filter sets_nnp t /\ never_after (fun c => negb (final_step c)) installs_filter t.
Proof.
  intros A S. pose proof R' as E.
  assert (F : hasf F_no_new_privs j = true) by (eapply asked_on; [exact H|rewrite S; reflexivity|exact A]).
  split; [exact (nnp_before_filter g j F t o E)|exact (nothing_after_filter g j F t o E)].
Qed.

Lemma hooks_order :
  never_after (hook_at 2) changes_root t /\
  never_after (fun c => changes_root c || mounts c || namespaces c) (hook_at 0) t /\
  never_after is_hook (fun c => changes_identity c || changes_caps c || installs_filter c || restricts_files c
    || match c with C_capbset_drop _ | C_set_securebits _ | C_no_new_privs => true | _ => false end) t.
Proof.
  pose proof R' as E. split; [exact (early_hooks_before_root g j not_both t o E)|].
  split; [exact (late_hooks_after_root g j t o E)|exact (hooks_before_drop g j t o E)].
Qed.

Lemma hooks_any : hooks_spec (expected_hooks j) t o.
Proof. exact (hk_any g j t o R'). Qed.
Lemma hooks_claim : exists l, hooks_due h l /\ hooks_spec l t o.
Proof.
  exists (expected_hooks j). split; [|exact hooks_any]. unfold hooks_due, expected_hooks.
  destruct (limits _ _ _ H) as (_ & _ & _ & _ & _ & HK). rewrite HK. pose proof not_both as NB.
  pose proof (flag_asked _ _ _ F_chroot H eq_refl) as C. pose proof (flag_asked _ _ _ F_pivot_root H eq_refl) as P.
  destruct (hasf F_chroot j).
  - left. split; [left; apply C; reflexivity|]. destruct (hasf F_pivot_root j); [destruct NB; auto|]. reflexivity.
  - destruct (hasf F_pivot_root j).
    + left. split; [right; apply P; reflexivity|]. reflexivity.
    + right. split; [intro X; apply C in X; discriminate|]. split; [intro X; apply P in X; discriminate|]. reflexivity.
Qed.

Lemma rules_claim : ~ called A_add_minimalistic_mountns_fs_rules h -> ~ called A_disable_fs_restrictions h ->
  never_after is_add restricts_files t /\
  exists a m z, t = a ++ m ++ z /\ (forall ev, In ev (a ++ z) -> is_add (fst ev) = false) /\
  ((m = [] /\ forall abi s, In (C_landlock_version, Yes abi s) t -> abi = 0) \/
   exists segs, m = concat segs /\ Forall2 (rule_calls (k_landlock_fd (g_env g))) (rules_added (k_landlock_abi (g_env g)) h) segs).
Proof.
  intros NM ND. pose proof R' as E. split; [exact (rules_before_restrict g j t o E)|].
  destruct (rules_all g j t o E) as (a & m & z & -> & O1 & O2 & M). exists a, m, z. split; [reflexivity|]. split.
  { intros ev I. apply in_app_or in I. destruct I as [I|I]; [apply O1 in I|apply O2 in I]; now destruct (is_add (fst ev)). }
  destruct M as [M|(segs & M & F)]; [left; exact M|right]. exists segs. split; [exact M|].
  rewrite <- (rules_history _ _ _ H NM). destruct (j_fs_rules j) as [|r l] eqn:L; [inversion F; constructor|].
  rewrite <- (ruleset_history _ _ _ H); [exact F|]. rewrite L. discriminate.
Qed.

Lemma propagation_any : forall ev, In ev t -> is_propagate (fst ev) = true ->
  fst ev = propagate "." 262144 \/ fst ev = propagate "/" (root_mode h) \/
  exists r, In r (accepted remount_added h) /\ root_mode h <= rm_mode r /\ fst ev = propagate (rm_name r) (rm_mode r).
Proof.
  intros ev I P. pose proof (ci_exec _ _ (enter_may_propagate g j) _ _ R' _ I) as X.
  pose proof (rmode_last _ _ _ H) as RM. change (j_remount_mode minijail_new) with 262144 in RM. fold (root_mode h) in RM.
  destruct (limits _ _ _ H) as (_ & _ & _ & _ & RR & _).
  destruct (fst ev) eqn:EV; try discriminate P. match goal with K : fst ev = C_mount ?a ?b ?c ?d ?e |- _ => rename a into src, b into d, c into ty, d into f, e into dat end.
  destruct src; try discriminate P. destruct ty; try discriminate P. destruct dat; try discriminate P.
  cbn [may_propagate] in X. rewrite RM, RR in X. apply orb_true_iff in X. destruct X as [X|X]; [apply orb_true_iff in X; destruct X as [X|X]|].
  - apply andb_true_iff in X. destruct X as [X1 X2]. apply String.eqb_eq in X1. apply N.eqb_eq in X2. subst. right. left. reflexivity.
  - apply andb_true_iff in X. destruct X as [X1 X2]. apply String.eqb_eq in X1. apply N.eqb_eq in X2. subst. left. reflexivity.
  - apply existsb_exists in X. destruct X as (r & X0 & X). apply andb_true_iff in X. destruct X as [X X3]. apply andb_true_iff in X. destruct X as [X1 X2].
    apply String.eqb_eq in X1. apply N.eqb_eq in X2. apply N.leb_le in X3. subst. right. right. exists r. auto.
Qed.
End Claims.

Section Returned.
Variables (g : cfg) (h : list (api * Z)) (j : jail) (kernel : list event -> call -> answer) (t : list event).
Hypothesis H : history (g_env g) minijail_new h j.
Hypothesis R : run kernel [] (minijail_enter g j) = (Returned tt, t).

Lemma tolerated_claim : Forall (tolerated g (dev_in t)) t.
Proof. eapply only_tolerated. eapply run_exec'. exact R. Qed.

Lemma propagation_claim : own_mountns h -> root_mode h <> 0 ->
  Forall (fun r => root_mode h <= rm_mode r) (accepted remount_added h) /\
  did (C_unshare 131072 :: propagate "/" (root_mode h) :: map (fun r => propagate (rm_name r) (rm_mode r)) (accepted remount_added h)) t.
Proof.
  intros O N0. pose proof (rmode_last _ _ _ H) as RM. change (j_remount_mode minijail_new) with 262144 in RM. fold (root_mode h) in RM.
  destruct (limits _ _ _ H) as (_ & _ & _ & _ & RR & _). rewrite <- RM, <- RR in *.
  apply (propagation g j t); [eapply run_exec'; exact R|eapply own_vfs; eassumption|assumption].
Qed.

End Returned.

(* The jail entered need not be the one built: the process that runs a program
   enters a changed copy.  These are the parts that are the same. *)
Definition launcher : list flag :=
  [F_vfs; F_enter_vfs; F_ns_cgroups; F_net; F_net_loopback; F_uts; F_remount_proc_ro;
   F_pids; F_do_init; F_run_as_init; F_pid_file; F_cgroups; F_forward_signals; F_setsid;
   F_using_minimalistic_mountns; F_enable_profile_fs_restrictions; F_enable_default_runtime; F_enable_new_sessions].
Definition is_launcher (f : flag) : bool := existsb (fun g => flag_eqb g f) launcher.
Record alike (j j' : jail) : Prop := Alike {
  al_flag : forall f, is_launcher f = false -> hasf f j' = hasf f j;
  al_uid : j_uid j' = j_uid j; al_gid : j_gid j' = j_gid j;
  al_user : j_user j' = j_user j; al_usergid : j_usergid j' = j_usergid j;
  al_suppl : j_suppl_gid_list j' = j_suppl_gid_list j; al_count : j_suppl_gid_count j' = j_suppl_gid_count j;
  al_caps : j_caps j' = j_caps j; al_bset : j_cap_bset j' = j_cap_bset j;
  al_skip : j_securebits_skip_mask j' = j_securebits_skip_mask j;
  al_mounts : j_mounts j' = j_mounts j; al_root : j_chrootdir j' = j_chrootdir j;
  al_rules : j_fs_rules j' = j_fs_rules j
}.
Lemma alike_refl j : alike j j.
Proof. constructor; reflexivity. Qed.

Section Alike.
Variables (g : cfg) (h : list (api * Z)) (j0 j : jail) (t : list event).
Hypothesis H0 : history (g_env g) minijail_new h j0.
Hypothesis AL : alike j0 j.
Hypothesis R : does (minijail_enter g j) t (Returned tt).

Lemma fa f : is_launcher f = false -> steady (k_softfail (g_env g)) f = true -> (hasf f j = true <-> asked f h).
Proof. intros L S. rewrite (al_flag _ _ AL f L). exact (flag_asked _ _ _ f H0 S). Qed.
Lemma mounts_alike : exists dev done rest, dev_of h t dev /\ accepted mount_added h = done ++ rest /\
  mounted (new_root h) dev done t /\ (rest = [] \/ exists m tl, rest = m :: tl /\ unchecked (g_env g) m t).
Proof.
  destruct (enter_mounts g j t R) as (root & dev & dn & rest & RT & D & L & M & U).
  destruct (mounts_history _ _ _ H0) as [ML _]. destruct (one_shots _ _ _ H0) as (C & _ & _).
  rewrite <- (al_mounts _ _ AL) in ML. rewrite <- (al_root _ _ AL) in C.
  exists dev, dn, rest. split.
  { pose proof (fa F_mount_dev eq_refl eq_refl) as F. unfold dev_dir in D. destruct (hasf F_mount_dev j).
    - left. split; [apply F; reflexivity|]. destruct D as (v & d & -> & I). exists d. split; [reflexivity|]. exists v. exact I.
    - right. split; [|exact D]. intro X. apply F in X. discriminate. }
  rewrite <- ML. split; [exact L|]. split; [|exact U].
  destruct dn as [|m dn]; [constructor|]. rewrite L in RT. cbn [app] in RT. unfold new_root. rewrite <- C.
  destruct RT as [[-> ->]| ->]; exact M.
Qed.
Lemma restrict_alike : ~ called A_add_minimalistic_mountns_fs_rules h -> ~ called A_disable_fs_restrictions h ->
  rules_added (k_landlock_abi (g_env g)) h <> [] -> (0 <= j_fs_rules_fd j)%Z ->
  worked (C_landlock_restrict (j_fs_rules_fd j)) t.
Proof.
  intros NM ND NE L. pose proof (rules_history _ _ _ H0 NM) as RH. rewrite <- RH, <- (al_rules _ _ AL) in NE.
  eapply (fail_closed g j); [apply d_landlock; [|assumption|assumption]|exact R].
  rewrite (al_flag _ _ AL); [eapply enabled_history; eassumption|reflexivity].
Qed.

Section Creds.
Variable groups_of : string -> N -> list N.
Variable hook_effect : hook -> creds -> creds.
Variable s : creds.
Let s' := after groups_of hook_effect s t.

Lemma identity_alike :
  (forall hk c, uids (hook_effect hk c) = uids c /\ gids (hook_effect hk c) = gids c /\ groups (hook_effect hk c) = groups c) ->
  at_most_one (asked F_inherit_suppl_gids h) (asked F_keep_suppl_gids h) (asked F_set_suppl_gids h) /\
  groups_due groups_of h (groups s) (groups s') /\
  (asked F_uid h -> last_of uid_of h 0 <> NO_ID -> uids s' = (last_of uid_of h 0, last_of uid_of h 0, last_of uid_of h 0)) /\ (~ asked F_uid h -> uids s' = uids s) /\
  (asked F_gid h -> last_of gid_of h 0 <> NO_ID -> gids s' = (last_of gid_of h 0, last_of gid_of h 0, last_of gid_of h 0)) /\ (~ asked F_gid h -> gids s' = gids s).
Proof.
  intros HK. destruct (identity groups_of hook_effect g j t s R) as (ONE & s1 & U1 & G1 & GR1 & GA & UA & GDA).
  specialize (U1 (fun a b => proj1 (HK a b))). specialize (G1 (fun a b => proj1 (proj2 (HK a b)))). specialize (GR1 (fun a b => proj2 (proj2 (HK a b)))).
  rewrite U1 in UA. rewrite G1 in GDA. rewrite GR1 in GA. fold s' in UA, GDA, GA.
  pose proof (uid_last _ _ _ H0) as LU. change (j_uid minijail_new) with 0 in LU. pose proof (gid_last _ _ _ H0) as LG. change (j_gid minijail_new) with 0 in LG.
  pose proof (user_last _ _ _ H0) as LUS. change (j_user minijail_new, j_usergid minijail_new) with (@Null string, 0) in LUS.
  rewrite <- (al_uid _ _ AL) in LU. rewrite <- (al_gid _ _ AL) in LG. rewrite <- (al_user _ _ AL), <- (al_usergid _ _ AL) in LUS.
  pose proof (suppl_last _ _ _ H0) as LS. rewrite <- (al_suppl _ _ AL) in LS. change (gid_list (j_suppl_gid_list minijail_new)) with (@nil N) in LS.
  assert (SG : firstn (N.to_nat (j_suppl_gid_count j)) (match content (j_suppl_gid_list j) with Some l => l | None => [] end) = last_of suppl_of h []).
  { rewrite <- LS. pose proof (reachable_sound _ _ _ H0) as (_ & _ & G & _). unfold gids_ok in G. rewrite <- (al_suppl _ _ AL), <- (al_count _ _ AL) in G. unfold gid_list.
    destruct (j_suppl_gid_list j); try contradiction; cbn [content]; rewrite G; [reflexivity|]. rewrite Nat2N.id. apply firstn_all. }
  pose proof (fa F_uid eq_refl eq_refl) as AU. pose proof (fa F_gid eq_refl eq_refl) as AG.
  pose proof (fa F_inherit_suppl_gids eq_refl eq_refl) as AI. pose proof (fa F_keep_suppl_gids eq_refl eq_refl) as AK.
  pose proof (fa F_set_suppl_gids eq_refl eq_refl) as AS. pose proof (fa F_disable_setgroups eq_refl eq_refl) as AD.
  rewrite <- LU, <- LG. split.
  { unfold at_most_one. rewrite <- AI, <- AK, <- AS. repeat split; intros [X Y]; rewrite X, Y in ONE; destruct (hasf _ _) in ONE; cbn in ONE; lia. }
  split.
  { unfold groups_after in GA. rewrite SG in GA. unfold groups_due. rewrite <- AI, <- AK, <- AS, <- AU, <- AG, <- AD, <- LUS.
    destruct (hasf F_inherit_suppl_gids j), (hasf F_set_suppl_gids j), (hasf F_keep_suppl_gids j); cbn in ONE; try lia; cbn [negb andb] in GA.
    - split; [intros _; destruct GA as (u & -> & GA); eauto|]. repeat split; intros; congruence.
    - split; [congruence|]. split; [auto|]. repeat split; intros; congruence.
    - split; [congruence|]. split; [congruence|]. split; [auto|]. intros _ _ X. congruence.
    - split; [congruence|]. split; [congruence|]. split; [congruence|]. intros _ _ _.
      destruct (hasf F_disable_setgroups j), (hasf F_uid j), (hasf F_gid j); cbn [negb andb orb] in GA; split; intros X; intuition congruence. }
  split; [|split; [|split]].
  - intros X NU. apply AU in X. rewrite X in UA. unfold to_id in UA. rewrite (proj2 (N.eqb_neq _ _) NU) in UA. exact UA.
  - intros X. destruct (hasf F_uid j); [destruct X; apply AU; reflexivity|exact UA].
  - intros X NU. apply AG in X. rewrite X in GDA. unfold to_id in GDA. rewrite (proj2 (N.eqb_neq _ _) NU) in GDA. exact GDA.
  - intros X. destruct (hasf F_gid j); [destruct X; apply AG; reflexivity|exact GDA].
Qed.

Lemma caps_alike : asked F_use_caps h -> exists last x, In (C_last_cap, Yes last x) t /\ last <= 64 /\
  let mask := last_of caps_of h 0 in
  (forall i, N.testbit (effective s') i = supported last i && N.testbit mask i) /\
  permitted s' = effective s' /\ inheritable s' = effective s' /\
  (asked F_set_ambient_caps h -> ambient s' = effective s') /\
  (forall i, N.testbit (ambient s') i = true -> supported last i && N.testbit mask i = true) /\
  (N.land (last_of skip_of h 0) 3 = 0 -> (forall hk c, bounding (hook_effect hk c) = bounding c) ->
   forall i, N.testbit (bounding s') i = N.testbit (bounding s) i && (N.testbit mask i || negb (supported last i))).
Proof.
  intros A. apply (fa F_use_caps eq_refl eq_refl) in A.
  destruct (capabilities groups_of hook_effect g j t s R) as (last & x & s1 & I & L & B1 & B & C).
  { rewrite A. apply orb_true_r. }
  exists last, x. split; [exact I|]. split; [exact L|]. cbv zeta.
  pose proof (caps_last _ _ _ H0) as LC. change (j_caps minijail_new) with 0 in LC. rewrite <- (al_caps _ _ AL) in LC. rewrite <- LC.
  pose proof (skip_last _ _ _ H0) as LSK. change (j_securebits_skip_mask minijail_new) with 0 in LSK. rewrite <- (al_skip _ _ AL) in LSK. rewrite <- LSK.
  fold s' in B, C. destruct (C A) as (C1 & C2 & C3 & C4). unfold supported.
  split; [exact C1|]. split; [exact C2|]. split; [exact C3|].
  pose proof (fa F_set_ambient_caps eq_refl eq_refl) as AA.
  split; [intros X; apply AA in X; rewrite X in C4; exact C4|]. split.
  { intros i X. destruct (hasf F_set_ambient_caps j); [|exact (C4 i X)]. rewrite C4, C1 in X. exact X. }
  intros SK HK i. rewrite (B i), (B1 HK). f_equal. unfold bounds, noroot_kept.
  change (N.lor SECBIT_NOROOT SECBIT_NOROOT_LOCKED) with 3. rewrite SK, A. cbn [N.eqb negb orb].
  assert (D : hasf F_capbset_drop j = false).
  { destruct (hasf F_capbset_drop j) eqn:D; [|reflexivity]. destruct (limits _ _ _ H0) as [(_ & _ & _ & _ & _ & NB & _) _]. exfalso. apply NB. split; [rewrite <- (al_flag _ _ AL F_use_caps eq_refl); exact A|rewrite <- (al_flag _ _ AL F_capbset_drop eq_refl); exact D]. }
  rewrite D. cbn. reflexivity.
Qed.
Lemma bset_alike keep : last_of dropped_caps_of h None = Some keep -> exists last x, In (C_last_cap, Yes last x) t /\ last <= 64 /\
  ((forall hk c, bounding (hook_effect hk c) = bounding c) ->
   forall i, N.testbit (bounding s') i = N.testbit (bounding s) i && (N.testbit keep i || negb (supported last i))).
Proof.
  intros A. rewrite <- (dropped_last _ _ _ H0), <- (al_bset _ _ AL), <- (al_flag _ _ AL F_capbset_drop eq_refl) in A. destruct (hasf F_capbset_drop j) eqn:D; [|discriminate]. injection A as A.
  destruct (capabilities groups_of hook_effect g j t s R) as (last & x & s1 & I & L & B1 & B & _).
  { rewrite D. reflexivity. }
  exists last, x. split; [exact I|]. split; [exact L|]. intros HK i. fold s' in B. rewrite (B i), (B1 HK). f_equal. unfold bounds, supported.
  rewrite D, A. cbn [negb orb].
  destruct (hasf F_use_caps j) eqn:U.
  { destruct (limits _ _ _ H0) as [(_ & _ & _ & _ & _ & NB & _) _]. exfalso. apply NB. split; [rewrite <- (al_flag _ _ AL F_use_caps eq_refl); exact U|rewrite <- (al_flag _ _ AL F_capbset_drop eq_refl); exact D]. }
  cbn [negb orb]. apply andb_true_r.
Qed.
Lemma locked_alike : N.land (g_secure_all_bits g) 21 = 21 -> asked F_use_caps h ->
  forall i, i < 6 -> N.testbit (last_of skip_of h 0) i = false ->
  N.testbit (securebits s') i = true \/
  (i = 4 /\ asked F_set_ambient_caps h /\
   exists cur x, In (C_get_securebits, Yes cur x) t /\ N.testbit cur 5 = true /\ N.testbit cur 4 = false).
Proof.
  intros G A i L SK. apply (fa F_use_caps eq_refl eq_refl) in A.
  pose proof (skip_last _ _ _ H0) as LSK. change (j_securebits_skip_mask minijail_new) with 0 in LSK. rewrite <- (al_skip _ _ AL) in LSK. rewrite <- LSK in SK.
  destruct (locked groups_of hook_effect g j t s G R A i L SK) as [X|(X & Y & Z)]; [left; exact X|right].
  split; [exact X|]. split; [apply (fa F_set_ambient_caps eq_refl eq_refl); exact Y|exact Z].
Qed.
End Creds.
End Alike.

Section Same.
Variables (g : cfg) (h : list (api * Z)) (j : jail) (kernel : list event -> call -> answer) (t : list event).
Hypothesis H : history (g_env g) minijail_new h j.
Hypothesis R : run kernel [] (minijail_enter g j) = (Returned tt, t).
Let E : does (minijail_enter g j) t (Returned tt) := run_exec' _ _ _ _ _ R.
Definition mounts_claim := mounts_alike g h j j t H (alike_refl j) E.
Lemma restrict_claim : ~ called A_add_minimalistic_mountns_fs_rules h -> ~ called A_disable_fs_restrictions h ->
  rules_added (k_landlock_abi (g_env g)) h <> [] -> (0 <= k_landlock_fd (g_env g))%Z ->
  worked (C_landlock_restrict (k_landlock_fd (g_env g))) t.
Proof.
  intros NM ND NE L. pose proof (rules_history _ _ _ H NM) as RH. pose proof NE as NE'. rewrite <- RH in NE.
  rewrite <- (ruleset_history _ _ _ H NE) in *. exact (restrict_alike g h j j t H (alike_refl j) E NM ND NE' L).
Qed.
Definition identity_claim gs he s := identity_alike g h j j t H (alike_refl j) E gs he s.
Definition caps_claim gs he s := caps_alike g h j j t H (alike_refl j) E gs he s.
Definition bset_claim gs he s := bset_alike g h j j t H (alike_refl j) E gs he s.
Definition locked_claim gs he s := locked_alike g h j j t H (alike_refl j) E gs he s.
End Same.
