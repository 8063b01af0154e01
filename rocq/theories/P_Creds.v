(* Proofs: the credentials after entering a jail. *)
From Verif Require Export P_EnterFail S_Creds.
Local Open Scope N_scope.
Local Open Scope io_scope.

Section K.
Variable groups_of : string -> N -> list N.
Variable hook_effect : hook -> creds -> creds.
Notation after := (after groups_of hook_effect).
Notation effect := (effect groups_of hook_effect).

Lemma after_app s t1 t2 : after s (t1 ++ t2) = after (after s t1) t2.
Proof. apply fold_left_app. Qed.

(* A projection of the state that no call in [S] changes. *)
Lemma keep {A X} (f : creds -> X) (S : call -> bool) (p : io A) :
  calls_in S p -> (forall c s, S c = true -> f (effect c s) = f s) ->
  forall t o, does p t o -> forall s, f (after s t) = f s.
Proof.
  intros H K t o E s. assert (C := ci_exec _ _ H _ _ E). clear H E. revert s.
  induction t as [|[c [v z|e]] t IH]; intro s; [reflexivity| |]; cbn.
  - change (fold_left _ t ?x) with (after x t). rewrite IH; [|intros ev I; apply C; right; auto].
    apply K. exact (C (c, Yes v z) (or_introl eq_refl)).
  - change (fold_left _ t ?x) with (after x t). apply IH. intros ev I; apply C; right; auto.
Qed.
End K.

Ltac ci_atom := first
  [ exact Logic.I
  | apply ci_must; reflexivity | apply ci_try; reflexivity | apply ci_rc; reflexivity | apply ci_neg; reflexivity
  | apply ci_ask; reflexivity ].
Ltac ci1 := first
  [ ci_atom | apply ci_when | apply ci_zero | apply ci_andthen | apply ci_deref; intros ?
  | apply ci_bind; [|intros ?]
  | match goal with
    | |- calls_in _ (if ?b then _ else _) => destruct b
    | |- calls_in _ (match ?o with _ => _ end) => destruct o
    | |- calls_in _ (let '(_, _) := ?o in _) => destruct o
    end ].
Ltac ci := repeat ci1.

(* Which calls each part makes. *)
Definition k_hook (c : call) : bool := match c with C_hook _ => true | _ => false end.
Definition k_ns (c : call) : bool :=
  match c with
  | C_setns _ _ | C_unshare _ | C_close _ | C_sethostname _ | C_socket | C_get_lo _ | C_set_lo_up _ | C_keyring => true
  | C_mount None _ None _ None => true
  | _ => false
  end.
Definition k_mnt (c : call) : bool :=
  match c with
  | C_mount (Some _) _ _ _ _ | C_umount _ | C_mkdtemp _ | C_rmdir _ | C_umask _ | C_open _ _ | C_mknodat _ _ _ _ _
  | C_symlinkat _ _ _ | C_mkdirat _ _ _ | C_stat _ | C_mkdir _ _ | C_chown _ _ _ | C_statvfs _ | C_realpath _
  | C_close _ => true
  | _ => false
  end.
Definition k_root (c : call) : bool :=
  match c with
  | C_chroot _ | C_chdir _ | C_fchdir _ | C_pivot_root _ _ | C_open _ DirRead | C_close _ => true
  | C_mount (Some s) d (Some _) _ _ => String.eqb s d
  | C_mount None "." None _ None | C_umount "." => true
  | _ => false
  end.
Definition k_tmp (c : call) : bool :=
  match c with C_mount (Some _) "/tmp" _ _ _ => true | _ => false end.
Definition k_proc (c : call) : bool :=
  match c with C_mount (Some _) "/proc" _ _ _ | C_umount "/proc" => true | _ => false end.
Definition k_id (c : call) : bool :=
  match c with C_initgroups _ _ | C_setgroups _ | C_setresgid _ | C_setresuid _ => true | _ => false end.
Definition k_caps (c : call) : bool :=
  match c with
  | C_capget | C_cap_flag _ | C_capset _ _ _ | C_capbset_drop _ | C_ambient_is_set | C_ambient_clear | C_ambient_raise _ => true
  | _ => false
  end.
Definition k_bits (c : call) : bool := match c with C_get_securebits | C_set_securebits _ => true | _ => false end.
Definition k_bset (c : call) : bool := match c with C_capbset_drop _ => true | _ => false end.
Definition k_nnp (c : call) : bool := match c with C_no_new_privs => true | _ => false end.
Definition k_landlock (c : call) : bool :=
  match c with
  | C_landlock_version | C_landlock_add _ _ _ | C_landlock_restrict _ | C_open _ PathOnly | C_fstat _ | C_close _ => true
  | _ => false
  end.
Definition k_filter (c : call) : bool :=
  match c with C_sigsys_handler | C_sigsys_default | C_seccomp _ _ | C_prctl_seccomp _ => true | _ => false end.
Definition k_last (c : call) : bool := match c with C_alt_syscall _ | C_seccomp_strict => true | _ => false end.
Definition k_lastcap (c : call) : bool := match c with C_last_cap => true | _ => false end.

Lemma ci_hooks l ev : calls_in k_hook (run_hooks l ev).
Proof. induction l; [exact Logic.I|]. cbn [run_hooks]. destruct (_ =? ev); auto. apply ci_bind; [ci|auto]. Qed.
Lemma ci_remounts mode l : calls_in k_ns (apply_remounts mode l).
Proof. induction l; [exact Logic.I|]. cbn [apply_remounts]. destruct (_ <? _); [exact Logic.I|]. apply ci_bind; [ci|auto]. Qed.
Lemma ci_ns j : calls_in k_ns (enter_namespaces j).
Proof. unfold enter_namespaces, config_net_loopback. repeat first [apply ci_remounts | ci1]. Qed.
Lemma ci_mkdirs l mode : calls_in k_mnt (mkdirs l mode).
Proof. induction l; [exact Logic.I|]. cbn [mkdirs]. apply ci_andthen; auto. unfold mkdir_or_exists. ci. Qed.
Lemma ci_setup src dest uid gid b : calls_in k_mnt (setup_mount_destination src dest uid gid b).
Proof.
  unfold setup_mount_destination, make_destination, mkdir_p. repeat first [apply ci_mkdirs | ci1 | unfold mkdir_or_exists].
Qed.
Lemma ci_check e path : calls_in k_mnt (check_bind_path e path).
Proof. unfold check_bind_path. ci. Qed.
Lemma ci_mounts e uid gid root dev ms : calls_in k_mnt (mount_one e uid gid root dev ms).
Proof.
  induction ms as [|m ms IH]; [exact Logic.I|]. cbn [mount_one]. cbv zeta. unfold bind_flags.
  repeat first [exact IH | apply ci_setup | apply ci_check | ci1].
Qed.
Lemma ci_nodes fd l : calls_in k_mnt (make_nodes fd l).
Proof. induction l as [|[[[n m] a] b] l IH]; [exact Logic.I|]. cbn [make_nodes]. apply ci_andthen; auto. ci. Qed.
Lemma ci_links fd l : calls_in k_mnt (make_symlinks fd l).
Proof. induction l as [|[n m] l IH]; [exact Logic.I|]. cbn [make_symlinks]. apply ci_andthen; auto. ci. Qed.
Lemma ci_dev : calls_in k_mnt mount_dev.
Proof. unfold mount_dev, fill_dev, mount_dev_cleanup. repeat first [apply ci_nodes | apply ci_links | ci1]. Qed.
Lemma ci_process e j : calls_in k_mnt (process_mounts_or_die e j).
Proof.
  unfold process_mounts_or_die, mount_dev_finalize, mount_dev_cleanup.
  repeat first [apply ci_dev | apply ci_mounts | ci1].
Qed.
Definition orb2 (f g : call -> bool) (c : call) : bool := f c || g c.
Lemma ci_orl {A} f g (p : io A) : calls_in f p -> calls_in (orb2 f g) p.
Proof. apply ci_weaken. intros c H. unfold orb2. now rewrite H. Qed.
Lemma ci_orr {A} f g (p : io A) : calls_in g p -> calls_in (orb2 f g) p.
Proof. apply ci_weaken. intros c H. unfold orb2. rewrite H. apply orb_true_r. Qed.
Lemma ci_chroot j : calls_in (orb2 k_hook k_root) (enter_chroot j).
Proof. unfold enter_chroot. apply ci_bind; [apply ci_orl, ci_hooks|intros _]. apply ci_orr. unfold nonnull. ci. Qed.
Lemma ci_pivot j : calls_in (orb2 k_hook k_root) (enter_pivot_root j).
Proof.
  unfold enter_pivot_root. apply ci_bind; [apply ci_orl, ci_hooks|intros _]. apply ci_orr. unfold nonnull, must_open.
  repeat first [ci1 | apply ci_must; cbn; apply String.eqb_refl].
Qed.
Lemma ci_ugid j : calls_in k_id (drop_ugid j).
Proof. unfold drop_ugid, drop_groups, nonnull. ci. Qed.
Lemma ci_drop_each keep l : calls_in k_bset (drop_each keep l).
Proof. induction l; [exact Logic.I|]. cbn [drop_each]. apply ci_bind; [ci|auto]. Qed.
Lemma bset_caps {A} (p : io A) : calls_in k_bset p -> calls_in k_caps p.
Proof. apply ci_weaken. intros []; auto. Qed.
Lemma ci_raise keep l : calls_in k_caps (raise_each keep l).
Proof. induction l; [exact Logic.I|]. cbn [raise_each]. apply ci_bind; [ci|auto]. Qed.
Lemma ci_collect caps l : forall acc, calls_in k_caps (collect_caps caps l acc).
Proof.
  induction l; intro acc; [exact Logic.I|]. cbn [collect_caps]. unfold cap_set_flag3.
  destruct (_ && _); auto. apply ci_bind; [ci|auto].
Qed.
Lemma ci_caps j last : calls_in k_caps (drop_caps j last).
Proof.
  unfold drop_caps, drop_capbset, cap_set_flag3.
  repeat first [apply ci_collect | apply bset_caps, ci_drop_each | apply ci_raise | ci1].
Qed.
Lemma ci_populate r l : calls_in k_landlock (populate_all r l).
Proof. induction l; [exact Logic.I|]. cbn [populate_all]. unfold populate_ruleset_internal. apply ci_bind; [ci|auto]. Qed.
Lemma ci_landlock j : calls_in k_landlock (apply_landlock_restrictions j).
Proof. unfold apply_landlock_restrictions. repeat first [apply ci_populate | ci1]. Qed.
Lemma ci_filter g j : calls_in k_filter (set_seccomp_filter g j).
Proof. unfold set_seccomp_filter. ci. Qed.
Lemma ci_last g j : calls_in k_last (last_steps g j).
Proof. unfold last_steps, nonnull. ci. Qed.
Lemma ci_lock g skip b : calls_in k_bits (lock_securebits g skip b).
Proof. unfold lock_securebits, lock_securebits_with, set_securebits_retry. ci. Qed.
Lemma ci_nnp j : calls_in k_nnp (set_no_new_privs j).
Proof. unfold set_no_new_privs. ci. Qed.
Lemma ci_getlast : calls_in k_lastcap get_last_valid_cap.
Proof. unfold get_last_valid_cap. ci. Qed.
Lemma ci_tmp g j : calls_in k_tmp (mount_tmp g j).
Proof. unfold mount_tmp. ci. Qed.
Lemma ci_proc j : calls_in k_proc (remount_proc_readonly j).
Proof. unfold remount_proc_readonly. ci. Qed.

(* ---- The pieces of a run that returned ---- *)
Definition only (S : call -> bool) (t : list event) : Prop := forall ev, In ev t -> S (fst ev) = true.
Lemma only_app S t1 t2 : only S t1 -> only S t2 -> only S (t1 ++ t2).
Proof. intros H1 H2 ev I. apply in_app_or in I. destruct I; auto. Qed.
Lemma only_of {A} S (p : io A) t o : calls_in S p -> does p t o -> only S t.
Proof. intros H E ev. exact (ci_exec _ _ H _ _ E ev). Qed.
Lemma only_weaken (S S' : call -> bool) t : (forall c, S c = true -> S' c = true) -> only S t -> only S' t.
Proof. intros W H ev I. auto. Qed.
Lemma only_nil S : only S [].
Proof. intros ev []. Qed.

(* Calls that change no credential. *)
Definition quiet (c : call) : bool :=
  match c with
  | C_setresuid _ | C_setresgid _ | C_setgroups _ | C_initgroups _ _ | C_capset _ _ _ | C_capbset_drop _
  | C_set_securebits _ | C_ambient_clear | C_ambient_raise _ | C_no_new_privs | C_hook _ => false
  | _ => true
  end.
Definition quiet_or (f : call -> bool) : call -> bool := orb2 quiet f.

Lemma ci_fs g j : calls_in (quiet_or k_hook) (enter_filesystem g j).
Proof.
  unfold enter_filesystem.
  assert (W : forall (f : call -> bool), (forall c, f c = true -> quiet c = true) -> forall c, f c = true -> quiet_or k_hook c = true).
  { intros f H c E. unfold quiet_or, orb2. now rewrite (H c E). }
  apply ci_bind; [|intros _].
  { eapply ci_weaken; [apply (W k_mnt)|apply ci_process]. intros []; try discriminate; reflexivity. }
  assert (R : forall c, orb2 k_hook k_root c = true -> quiet_or k_hook c = true)
    by (intros []; cbn; try discriminate; reflexivity).
  apply ci_bind; [apply ci_when, ci_zero; eapply ci_weaken; [exact R|apply ci_chroot]|intros _].
  apply ci_bind; [apply ci_when, ci_zero; eapply ci_weaken; [exact R|apply ci_pivot]|intros _].
  apply ci_bind; [apply ci_when, ci_zero; eapply ci_weaken; [apply (W k_tmp)|apply ci_tmp]; intros []; try discriminate; reflexivity|intros _].
  apply ci_when, ci_zero; eapply ci_weaken; [apply (W k_proc)|apply ci_proc]; intros []; try discriminate; reflexivity.
Qed.
Lemma quiet_weaken {A} (f : call -> bool) (p : io A) : (forall c, f c = true -> quiet c = true) -> calls_in f p -> calls_in quiet p.
Proof. intros H. now apply ci_weaken. Qed.
Lemma q_ns j : calls_in quiet (enter_namespaces j).
Proof. eapply quiet_weaken; [|apply ci_ns]. intros []; try discriminate; reflexivity. Qed.
Lemma q_last g j : calls_in quiet (last_steps g j).
Proof. eapply quiet_weaken; [|apply ci_last]. intros []; try discriminate; reflexivity. Qed.
Lemma q_landlock j : calls_in quiet (apply_landlock_restrictions j).
Proof. eapply quiet_weaken; [|apply ci_landlock]. intros []; try discriminate; reflexivity. Qed.
Lemma q_filter g j : calls_in quiet (set_seccomp_filter g j).
Proof. eapply quiet_weaken; [|apply ci_filter]. intros []; try discriminate; reflexivity. Qed.
Lemma q_getlast : calls_in quiet get_last_valid_cap.
Proof. eapply quiet_weaken; [|apply ci_getlast]. intros []; try discriminate; reflexivity. Qed.

(* Everything that changes credentials: the hooks, then the bounding set, the
   securebits, and the identity before the capabilities. *)
Lemma cred_parts g j t u : does (minijail_enter g j) t (Returned u) ->
  exists last a b l i m c z,
    t = a ++ b ++ l ++ i ++ m ++ c ++ z /\
    (hasf F_capbset_drop j || hasf F_use_caps j = true -> exists x, In (C_last_cap, Yes last x) t /\ last <= 64) /\
    (forall f, (forall h, f (C_hook h) = true) -> (forall c, quiet c = true -> f c = true) -> only f a) /\
    (j_hooks j = [] -> only quiet a) /\
    does (when (hasf F_capbset_drop j) (drop_capbset (j_cap_bset j) last)) b (Returned tt) /\
    does (when (hasf F_use_caps j)
      (zero_or_die (lock_securebits g (j_securebits_skip_mask j) (negb (hasf F_set_ambient_caps j))))) l (Returned tt) /\
    only quiet m /\ only (quiet_or k_nnp) z /\
    exists i1 i2, i = i1 ++ i2 /\ only quiet i1 /\ does (drop_ugid j) i2 (Returned tt) /\
    does (drop_caps j last) c (Returned tt).
Proof.
  intro E. apply enter_parts in E.
  destruct E as (t0 & t1 & t2 & t3 & t4 & t5 & last & -> & _ & E0 & E1 & E2 & E3 & E4 & E5).
  assert (Q0 : only quiet t0).
  { destruct (_ || _) in E0; [exact (only_of _ _ _ _ q_getlast E0)|]. destruct E0 as [-> _]. apply only_nil. }
  assert (Q1 := only_of _ _ _ _ (q_ns j) E1). assert (Q2 := only_of _ _ _ _ (ci_fs g j) E2).
  assert (Q3 := only_of _ _ _ _ (ci_hooks _ _) E3 : only k_hook t3). assert (Q5 := only_of _ _ _ _ (q_last g j) E5).
  unfold drop_privileges in E4.
  apply exec_bind_ret in E4. destruct E4 as (b & s4 & [] & -> & EB & E4).
  apply exec_bind_ret in E4. destruct E4 as (l & s5 & [] & -> & EL & E4).
  assert (A : forall f, (forall h, f (C_hook h) = true) -> (forall c, quiet c = true -> f c = true) -> only f (t0 ++ t1 ++ t2 ++ t3)).
  { intros f H1 H2. repeat apply only_app.
    - eapply only_weaken; [exact H2|exact Q0].
    - eapply only_weaken; [exact H2|exact Q1].
    - eapply only_weaken; [|exact Q2]. intros c. unfold quiet_or, orb2. destruct (quiet c) eqn:Y; auto.
      destruct c; try discriminate; auto.
    - eapply only_weaken; [|exact Q3]. intros c. destruct c; try discriminate; auto. }
  assert (A0 : j_hooks j = [] -> only quiet (t0 ++ t1 ++ t2 ++ t3)).
  { intro H0. unfold run_hooks_or_die in E3. rewrite H0 in E3. destruct E3 as [-> _]. rewrite List.app_nil_r.
    repeat apply only_app; auto.
    assert (K : calls_in quiet (enter_filesystem g j)); [|exact (only_of _ _ _ _ K E2)].
    unfold enter_filesystem, enter_chroot, enter_pivot_root, run_hooks_or_die. rewrite H0. cbn [run_hooks bind].
    apply ci_bind; [|intros _]. { eapply quiet_weaken; [|apply ci_process]. intros []; try discriminate; reflexivity. }
    unfold nonnull, must_open, mount_tmp, remount_proc_readonly. ci. }
  assert (L : hasf F_capbset_drop j || hasf F_use_caps j = true ->
    forall r, exists x, In (C_last_cap, Yes last x) ((t0 ++ t1 ++ t2 ++ t3) ++ r) /\ last <= 64).
  { intros H r. rewrite H in E0. destruct E0 as (x & t' & -> & E0). destruct x as [v z|]; [|destruct E0 as [_ E0]; discriminate E0].
    destruct (N.ltb_spec 64 v) as [B|B].
    - cbn in E0. assert (X : (64 <? v) = true) by now apply N.ltb_lt. rewrite X in E0. destruct E0 as [_ E0]. discriminate E0.
    - cbn in E0. assert (X : (64 <? v) = false) by now apply N.ltb_ge. rewrite X in E0. destruct E0 as [-> E0]. injection E0 as ->.
      exists z. split; auto. left. reflexivity. }
  destruct (hasf F_no_new_privs j) eqn:NN.
  - apply exec_bind_ret in E4. destruct E4 as (i & s6 & [] & -> & EI & E4).
    apply exec_bind_ret in E4. destruct E4 as (c & s7 & [] & -> & EC & E4).
    apply exec_bind_ret in E4. destruct E4 as (n & s8 & [] & -> & EN & E4).
    apply exec_bind_ret in E4. destruct E4 as (ll & f & [] & -> & ELL & EF).
    exists last, (t0 ++ t1 ++ t2 ++ t3), b, l, i, [], c, (n ++ ll ++ f ++ t5).
    split; [now rewrite <- !List.app_assoc|].
    split. { intro H. destruct (L H (b ++ l ++ i ++ c ++ n ++ ll ++ f ++ t5)) as (x & I & B). exists x. split; auto.
             rewrite <- !List.app_assoc in *. exact I. }
    split; [exact A|]. split; [exact A0|]. split; [exact EB|]. split; [exact EL|]. split; [apply only_nil|].
    split. { assert (W : forall c, quiet c = true -> quiet_or k_nnp c = true) by (intros x H; unfold quiet_or, orb2; now rewrite H).
      repeat apply only_app.
      - eapply only_weaken; [|exact (only_of _ _ _ _ (ci_nnp j) EN)]. intros []; try discriminate; reflexivity.
      - eapply only_weaken; [exact W|exact (only_of _ _ _ _ (q_landlock j) ELL)].
      - eapply only_weaken; [exact W|exact (only_of _ _ _ _ (q_filter g j) EF)].
      - eapply only_weaken; [exact W|exact Q5]. }
    exists [], i. split; auto. split; [apply only_nil|]. split; auto.
  - apply exec_bind_ret in E4. destruct E4 as (ll & s6 & [] & -> & ELL & E4).
    apply exec_bind_ret in E4. destruct E4 as (f & s7 & [] & -> & EF & E4).
    apply exec_bind_ret in E4. destruct E4 as (i & c & [] & -> & EI & EC).
    exists last, (t0 ++ t1 ++ t2 ++ t3), b, l, ((ll ++ f) ++ i), [], c, t5.
    split; [now rewrite <- !List.app_assoc|].
    split. { intro H. destruct (L H (b ++ l ++ ll ++ f ++ i ++ c ++ t5)) as (x & I & B). exists x. split; auto.
             rewrite <- !List.app_assoc in *. exact I. }
    split; [exact A|]. split; [exact A0|]. split; [exact EB|]. split; [exact EL|]. split; [apply only_nil|].
    split. { eapply only_weaken; [|exact Q5]. intros x H; unfold quiet_or, orb2; now rewrite H. }
    exists (ll ++ f), i. split; auto. split; [|split; auto].
    apply only_app; [exact (only_of _ _ _ _ (q_landlock j) ELL)|exact (only_of _ _ _ _ (q_filter g j) EF)].
Qed.

Section State.
Variable groups_of : string -> N -> list N.
Variable hook_effect : hook -> creds -> creds.
Notation after := (after groups_of hook_effect).
Notation effect := (effect groups_of hook_effect).

Lemma keeps {X} (f : creds -> X) (S : call -> bool) t :
  only S t -> (forall c s, S c = true -> f (effect c s) = f s) -> forall s, f (after s t) = f s.
Proof.
  intros C K. induction t as [|[c [v z|e]] t IH]; intro s; [reflexivity| |].
  - change (after s ((c, Yes v z) :: t)) with (after (effect c s) t).
    rewrite IH; [|intros ev I; apply C; right; auto]. apply K. exact (C (c, Yes v z) (or_introl eq_refl)).
  - change (after s ((c, No e) :: t)) with (after s t). apply IH. intros ev I; apply C; right; auto.
Qed.
Lemma quiet_keeps t : only quiet t -> forall s, after s t = s.
Proof. intro H. apply (keeps (fun s => s) quiet); auto. intros []; try discriminate; reflexivity. Qed.
Lemma nnp_keeps {X} (f : creds -> X) t : only (quiet_or k_nnp) t ->
  (forall s, f (effect C_no_new_privs s) = f s) -> forall s, f (after s t) = f s.
Proof.
  intros H K. apply (keeps f (quiet_or k_nnp)); auto. intros []; try discriminate; try reflexivity. intros; apply K.
Qed.

(* identity *)
Lemma b_ids j last b s : does (when (hasf F_capbset_drop j) (drop_capbset (j_cap_bset j) last)) b (Returned tt) ->
  uids (after s b) = uids s /\ gids (after s b) = gids s /\ groups (after s b) = groups s /\
  securebits (after s b) = securebits s.
Proof.
  intro E. assert (K := only_of k_bset _ _ _ (ci_when _ _ _ (ci_drop_each _ _)) E).
  repeat split; eapply keeps; try exact K; intros []; try discriminate; reflexivity.
Qed.
Lemma l_ids g j l s : does (when (hasf F_use_caps j)
      (zero_or_die (lock_securebits g (j_securebits_skip_mask j) (negb (hasf F_set_ambient_caps j))))) l (Returned tt) ->
  uids (after s l) = uids s /\ gids (after s l) = gids s /\ groups (after s l) = groups s /\
  bounding (after s l) = bounding s.
Proof.
  intro E. assert (K := only_of k_bits _ _ _ (ci_when _ _ _ (ci_zero _ _ (ci_lock _ _ _))) E).
  repeat split; eapply keeps; try exact K; intros []; try discriminate; reflexivity.
Qed.
Lemma c_ids j last c s : does (drop_caps j last) c (Returned tt) ->
  uids (after s c) = uids s /\ gids (after s c) = gids s /\ groups (after s c) = groups s /\
  securebits (after s c) = securebits s.
Proof.
  intro E. assert (K := only_of _ _ _ _ (ci_caps j last) E).
  repeat split; eapply keeps; try exact K; intros []; try discriminate; reflexivity.
Qed.
Lemma i_other j i s : does (drop_ugid j) i (Returned tt) ->
  bounding (after s i) = bounding s /\ securebits (after s i) = securebits s.
Proof.
  intro E. assert (K := only_of _ _ _ _ (ci_ugid j) E).
  split; eapply keeps; try exact K; intros []; try discriminate; try reflexivity;
    intros s0 _; cbn [effect S_Creds.effect]; destruct (_ =? NO_ID); try reflexivity;
    destruct (setuid_caps uid s0) as [[? ?] ?]; reflexivity.
Qed.

(* What the groups are after drop_groups. *)
Definition groups_after (j : jail) (old : list N) (new : list N) : Prop :=
  if hasf F_inherit_suppl_gids j then exists u, j_user j = Own u /\ new = groups_of u (j_usergid j)
  else if hasf F_set_suppl_gids j
       then new = firstn (N.to_nat (j_suppl_gid_count j)) (match content (j_suppl_gid_list j) with Some l => l | None => [] end)
  else if negb (hasf F_keep_suppl_gids j) && negb (hasf F_disable_setgroups j) && (hasf F_uid j || hasf F_gid j)
       then new = [] else new = old.
Lemma groups_run j t s : does (drop_groups j) t (Returned tt) ->
  groups_after j (groups s) (groups (after s t)) /\ uids (after s t) = uids s /\ gids (after s t) = gids s.
Proof.
  unfold drop_groups, groups_after. destruct (hasf F_inherit_suppl_gids j).
  - unfold nonnull. destruct (j_user j) as [|u| |]; cbn [deref]; intro E; try (destruct E as [_ E]; discriminate E).
    apply must_ret in E. destruct E as (v & z & ->). cbn. eauto.
  - destruct (hasf F_set_suppl_gids j).
    + destruct (j_suppl_gid_list j) as [|l| |]; cbn [deref content]; intro E; try (destruct E as [_ E]; discriminate E).
      * destruct (j_suppl_gid_count j =? 0) eqn:Z; [|destruct E as [_ E]; discriminate E].
        apply must_ret in E. destruct E as (v & z & ->). cbn. now rewrite firstn_nil.
      * destruct (_ <=? _); [|destruct E as [_ E]; discriminate E].
        apply must_ret in E. destruct E as (v & z & ->). cbn. auto.
    + destruct (_ && _); cbn [when]; intro E.
      * apply must_ret in E. destruct E as (v & z & ->). cbn. auto.
      * destruct E as [-> _]. auto.
Qed.
Lemma ugid_run j t s : does (drop_ugid j) t (Returned tt) ->
  b2n (hasf F_inherit_suppl_gids j) + b2n (hasf F_keep_suppl_gids j) + b2n (hasf F_set_suppl_gids j) <= 1 /\
  groups_after j (groups s) (groups (after s t)) /\
  uids (after s t) = (if hasf F_uid j then to_id (j_uid j) (uids s) else uids s) /\
  gids (after s t) = (if hasf F_gid j then to_id (j_gid j) (gids s) else gids s).
Proof.
  unfold drop_ugid. destruct (N.ltb_spec 1 (b2n (hasf F_inherit_suppl_gids j) + b2n (hasf F_keep_suppl_gids j) + b2n (hasf F_set_suppl_gids j))) as [C|C].
  { intros [_ E]. discriminate E. }
  intro E. apply exec_bind_ret in E. destruct E as (t1 & t' & [] & -> & E1 & E).
  apply exec_bind_ret in E. destruct E as (t2 & t3 & [] & -> & E2 & E3).
  destruct (groups_run j t1 s E1) as (G & U & I). split; auto. rewrite !after_app.
  assert (X2 : groups (after (after s t1) t2) = groups (after s t1) /\ uids (after (after s t1) t2) = uids (after s t1) /\
    gids (after (after s t1) t2) = if hasf F_gid j then to_id (j_gid j) (gids (after s t1)) else gids (after s t1)).
  { destruct (hasf F_gid j); cbn [when] in E2.
    - apply must_ret in E2. destruct E2 as (v & z & ->). cbn. unfold to_id. destruct (_ =? NO_ID); auto.
    - destruct E2 as [-> _]. auto. }
  destruct X2 as (G2 & U2 & I2). set (s2 := after (after s t1) t2) in *.
  assert (X3 : groups (after s2 t3) = groups s2 /\ gids (after s2 t3) = gids s2 /\
    uids (after s2 t3) = if hasf F_uid j then to_id (j_uid j) (uids s2) else uids s2).
  { destruct (hasf F_uid j); cbn [when] in E3.
    - apply must_ret in E3. destruct E3 as (v & z & ->). cbn.
      unfold to_id. destruct (_ =? NO_ID); [auto|]. destruct (setuid_caps (j_uid j) s2) as [[? ?] ?]. cbn. auto.
    - destruct E3 as [-> _]. auto. }
  destruct X3 as (G3 & I3 & U3). rewrite G3, G2, U3, I3, I2, U2, U, I. auto.
Qed.

Lemma identity g j t s : does (minijail_enter g j) t (Returned tt) ->
  b2n (hasf F_inherit_suppl_gids j) + b2n (hasf F_keep_suppl_gids j) + b2n (hasf F_set_suppl_gids j) <= 1 /\
  exists s1, ((forall h s, uids (hook_effect h s) = uids s) -> uids s1 = uids s) /\
  ((forall h s, gids (hook_effect h s) = gids s) -> gids s1 = gids s) /\
  ((forall h s, groups (hook_effect h s) = groups s) -> groups s1 = groups s) /\
  groups_after j (groups s1) (groups (after s t)) /\
  uids (after s t) = (if hasf F_uid j then to_id (j_uid j) (uids s1) else uids s1) /\
  gids (after s t) = (if hasf F_gid j then to_id (j_gid j) (gids s1) else gids s1).
Proof.
  intro E. apply cred_parts in E.
  destruct E as (last & a & b & l & i & m & c & z & -> & _ & A & _ & EB & EL & M & Z & i1 & i2 & -> & I1 & EI & EC).
  rewrite !after_app. set (s0 := after s a).
  assert (K : forall X (f : creds -> X), (forall h s, f (hook_effect h s) = f s) -> f s0 = f s).
  { intros X f H. apply (keeps f (quiet_or k_hook)); [apply A; [reflexivity|intros y Y; unfold quiet_or, orb2; now rewrite Y]|].
    intros []; try discriminate; try reflexivity. intros; apply H. }
  destruct (b_ids j last b s0 EB) as (B1 & B2 & B3 & _). destruct (l_ids g j l (after s0 b) EL) as (L1 & L2 & L3 & _).
  rewrite (quiet_keeps i1 I1), (quiet_keeps m M). set (s2 := after (after s0 b) l) in *.
  destruct (ugid_run j i2 s2 EI) as (C & G & U & I).
  destruct (c_ids j last c (after s2 i2) EC) as (C1 & C2 & C3 & _).
  set (s3 := after (after s2 i2) c) in *.
  assert (Z1 : uids (after s3 z) = uids s3) by (apply (nnp_keeps uids); auto).
  assert (Z2 : gids (after s3 z) = gids s3) by (apply (nnp_keeps gids); auto).
  assert (Z3 : groups (after s3 z) = groups s3) by (apply (nnp_keeps groups); auto).
  split; auto. exists s2. rewrite L1, B1, L2, B2, L3, B3 in *.
  repeat split; auto; rewrite ?Z1, ?Z2, ?Z3, ?C1, ?C2, ?C3; auto; rewrite L3, B3; auto.
Qed.
End State.
