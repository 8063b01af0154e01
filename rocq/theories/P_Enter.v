(* Proofs: entering a jail is fail-closed. *)
From Verif Require Export P_Io S_Enter.
Local Open Scope N_scope.
Local Open Scope io_scope.

Definition ens {A} c (p : io A) : Prop := forall t a, does p t (Returned a) -> worked c t.
Definition ensz c (p : io Z) : Prop := forall t, does p t (Returned 0%Z) -> worked c t.

Lemma worked_l c t1 t2 : worked c t1 -> worked c (t1 ++ t2).
Proof. intros (v & s & H). exists v, s. apply in_or_app; auto. Qed.
Lemma worked_r c t1 t2 : worked c t2 -> worked c (t1 ++ t2).
Proof. intros (v & s & H). exists v, s. apply in_or_app; auto. Qed.
Lemma worked_here c v s t : worked c ((c, Yes v s) :: t).
Proof. exists v, s. left; auto. Qed.

Lemma ens_l {A B} c (p : io A) (f : A -> io B) : ens c p -> ens c (bind p f).
Proof. intros H t b E. apply exec_bind_ret in E. destruct E as (t1 & t2 & a & -> & E1 & E2). apply worked_l; eauto. Qed.
Lemma ens_r {A B} c (p : io A) (f : A -> io B) : (forall a, ens c (f a)) -> ens c (bind p f).
Proof. intros H t b E. apply exec_bind_ret in E. destruct E as (t1 & t2 & a & -> & E1 & E2). apply worked_r. exact (H a _ _ E2). Qed.
Lemma ensz_l {A} c (p : io A) (f : A -> io Z) : ens c p -> ensz c (bind p f).
Proof. intros H t E. exact (ens_l c p f H t _ E). Qed.
Lemma ensz_r {A} c (p : io A) (f : A -> io Z) : (forall a, ensz c (f a)) -> ensz c (bind p f).
Proof. intros H t E. apply exec_bind_ret in E. destruct E as (t1 & t2 & a & -> & E1 & E2). apply worked_r. exact (H a _ E2). Qed.
Lemma ens_must c : ens c (must c).
Proof. intros t a E. apply must_ret in E. destruct E as (v & s & ->). apply worked_here. Qed.
Lemma ensz_rc c : ensz c (rc c).
Proof. intros t (x & t' & -> & E). destruct x as [v s|e]; [apply worked_here|]. destruct E as [_ E]. discriminate E. Qed.
Lemma ensz_neg c : ensz c (neg_errno c).
Proof. intros t (x & t' & -> & E). destruct x as [v s|e]; [apply worked_here|]. destruct E as [_ E]. discriminate E. Qed.
Lemma andthen_ret p q t : does (andthen p q) t (Returned 0%Z) ->
  exists t1 t2, t = t1 ++ t2 /\ does p t1 (Returned 0%Z) /\ does q t2 (Returned 0%Z).
Proof.
  intro E. apply exec_bind_ret in E. destruct E as (t1 & t2 & r & -> & E1 & E2).
  destruct (Z.eqb_spec r 0) as [->|N]; [eauto|]. cbn in E2. destruct E2 as [_ E2]. injection E2 as E2. congruence.
Qed.
Lemma zero_ret p t u : does (zero_or_die p) t (Returned u) -> does p t (Returned 0%Z).
Proof.
  intro E. apply exec_bind_ret in E. destruct E as (t1 & t2 & r & -> & E1 & E2).
  destruct (Z.eqb_spec r 0) as [->|N]; destruct E2 as [-> E2]; [|discriminate E2].
  now rewrite List.app_nil_r.
Qed.
Lemma ensz_andl c p q : ensz c p -> ensz c (andthen p q).
Proof. intros H t E. apply andthen_ret in E. destruct E as (t1 & t2 & -> & E1 & E2). apply worked_l; auto. Qed.
Lemma ensz_andr c p q : ensz c q -> ensz c (andthen p q).
Proof. intros H t E. apply andthen_ret in E. destruct E as (t1 & t2 & -> & E1 & E2). apply worked_r; auto. Qed.
Lemma ens_zero c p : ensz c p -> ens c (zero_or_die p).
Proof. intros H t u E. apply zero_ret in E. auto. Qed.
Lemma ens_when c b p : b = true -> ens c p -> ens c (when b p).
Proof. intros ->. auto. Qed.
Lemma ens_nonnull {A B} c (x : cell A) (f : A -> io B) : (forall a, x = Own a -> ens c (f a)) -> ens c (nonnull x f).
Proof. intros H. destruct x; cbn; auto; intros t a E; destruct E as [_ E]; discriminate E. Qed.
Lemma ensz_nonnull {A} c (x : cell A) (f : A -> io Z) : (forall a, x = Own a -> ensz c (f a)) -> ensz c (nonnull x f).
Proof. intros H. destruct x; cbn; auto; intros t E; destruct E as [_ E]; discriminate E. Qed.
Lemma ensz_open c path h f : (forall fd, ensz c (f fd)) -> ensz c (must_open path h f).
Proof.
  intros H t E. destruct E as (x & t' & -> & E). destruct x as [v s|e]; cbn in E; [|destruct E as [_ E]; discriminate E].
  apply exec_bind_ret in E. destruct E as (t1 & t2 & r & -> & E1 & E2).
  destruct E2 as (x & t3 & -> & -> & E2). injection E2 as <-.
  change ((C_open path h, Yes v s) :: (t1 ++ [(C_close (Z.of_N v), x)]))
    with ([(C_open path h, Yes v s)] ++ (t1 ++ [(C_close (Z.of_N v), x)])).
  apply worked_r, worked_l. exact (H _ _ E1).
Qed.
Lemma ens_dead {A} c : ens c (@Abort A).
Proof. intros t a [_ E]. discriminate E. Qed.
Lemma ens_undef {A} c : ens c (@Undef A).
Proof. intros t a [_ E]. discriminate E. Qed.
(* inspecting an answer *)
Lemma ens_ask {A} c c' (k : answer -> io A) : (forall x, ens c (k x)) -> ens c (bind (ask c') k).
Proof. intro H. apply ens_r. exact H. Qed.

Lemma ens_remounts mode l r : In r l -> ens (C_mount None (rm_name r) None (N.lor 16384 (rm_mode r)) None) (apply_remounts mode l).
Proof.
  induction l as [|r0 l IH]; cbn [In apply_remounts]; [tauto|].
  intros H. destruct (rm_mode r0 <? mode); [apply ens_dead|]. destruct H as [->|H].
  - apply ens_l, ens_must.
  - apply ens_r. intros _. auto.
Qed.

(* Looks for the call in the program. *)
Ltac find_call :=
  match goal with
  | |- ens _ (must _) => solve [apply ens_must]
  | |- ens _ Abort => apply ens_dead
  | |- ens _ Undef => apply ens_undef
  | |- ensz _ (rc _) => solve [apply ensz_rc]
  | |- ensz _ (neg_errno _) => solve [apply ensz_neg]
  | |- ens _ (when _ _) => apply ens_when; [now auto|]; find_call
  | |- ens _ (zero_or_die _) => apply ens_zero; find_call
  | |- ens _ (nonnull _ _) => let a := fresh in let E := fresh in apply ens_nonnull; intros a E; find_call
  | |- ensz _ (nonnull _ _) => let a := fresh in let E := fresh in apply ensz_nonnull; intros a E; find_call
  | |- ensz _ (must_open _ _ _) => apply ensz_open; intros ?; find_call
  | |- ensz _ (andthen _ _) => first [solve [apply ensz_andl; find_call] | solve [apply ensz_andr; find_call]]
  | |- ens _ (bind _ _) => first [solve [apply ens_l; find_call] | solve [apply ens_r; intros ?; find_call]]
  | |- ensz _ (bind _ _) => first [solve [apply ensz_l; find_call] | solve [apply ensz_r; intros ?; find_call]]
  end.

Lemma enter_parts g j t u : does (minijail_enter g j) t (Returned u) ->
  exists t0 t1 t2 t3 t4 t5 last, t = t0 ++ t1 ++ t2 ++ t3 ++ t4 ++ t5 /\
  hasf F_pids j = false /\
  does (if hasf F_capbset_drop j || hasf F_use_caps j then get_last_valid_cap else Pure 0) t0 (Returned last) /\
  does (enter_namespaces j) t1 (Returned tt) /\
  does (enter_filesystem g j) t2 (Returned tt) /\
  does (run_hooks_or_die j HOOK_PRE_DROP_CAPS) t3 (Returned tt) /\
  does (drop_privileges g j last) t4 (Returned tt) /\
  does (last_steps g j) t5 (Returned tt).
Proof.
  unfold minijail_enter. intro E.
  apply exec_bind_ret in E. destruct E as (t0 & s & last & -> & E0 & E).
  destruct (hasf F_pids j); [destruct E as [_ E]; discriminate E|].
  destruct (hasf F_inherit_suppl_gids j && is_null (j_user j)); [destruct E as [_ E]; discriminate E|].
  apply exec_bind_ret in E. destruct E as (t1 & s1 & [] & -> & E1 & E).
  apply exec_bind_ret in E. destruct E as (t2 & s2 & [] & -> & E2 & E).
  apply exec_bind_ret in E. destruct E as (t3 & s3 & [] & -> & E3 & E).
  apply exec_bind_ret in E. destruct E as (t4 & t5 & [] & -> & E4 & E5). destruct u.
  exists t0, t1, t2, t3, t4, t5, last. auto 10.
Qed.

Lemma ens_all {A} c (p : io A) t a : does p t (Returned a) -> ens c p -> worked c t.
Proof. intros E H. exact (H _ _ E). Qed.

(* Where a demand is met. *)
Ltac in_ns := left; unfold enter_namespaces.
Ltac in_fs := right; left; unfold enter_filesystem.
Ltac in_drop := right; right; left; intro last; unfold drop_privileges.
Ltac in_last := right; right; right; unfold last_steps.

Lemma ens_nonew {A} c (b : bool) (p q : io A) : ens c p -> ens c q -> ens c (if b then p else q).
Proof. destruct b; auto. Qed.

Lemma ens_seccomp g j : hasf F_seccomp_filter j = true -> g_asan g = false ->
  ens (if hasf F_seccomp_filter_tsync j || hasf F_seccomp_filter_allow_speculation j
       then C_seccomp (N.lor (if hasf F_seccomp_filter_tsync j then 1 else 0)
                             (if hasf F_seccomp_filter_allow_speculation j then 4 else 0)) (content (j_filter_prog j))
       else C_prctl_seccomp (content (j_filter_prog j))) (set_seccomp_filter g j).
Proof.
  intros H1 H2. unfold set_seccomp_filter. rewrite H1, H2. cbn [negb orb].
  apply ens_r. intros _. destruct (j_filter_prog j); cbn [deref content]; try apply ens_undef;
  destruct (hasf F_seccomp_filter_tsync j), (hasf F_seccomp_filter_allow_speculation j); cbn [orb]; apply ens_must.
Qed.
Lemma ens_landlock j : hasf F_enable_fs_restrictions j = true -> j_fs_rules j <> [] -> (0 <= j_fs_rules_fd j)%Z ->
  ens (C_landlock_restrict (j_fs_rules_fd j)) (apply_landlock_restrictions j).
Proof.
  intros H1 H2 H3. unfold apply_landlock_restrictions. rewrite H1. destruct (j_fs_rules j) as [|r l] eqn:R; [congruence|].
  cbn [negb orb]. apply ens_ask. intro x. apply ens_r. intros _. apply ens_when; [lia|]. apply ens_l, ens_must.
Qed.

Lemma ens_or {A} c c' (p : io A) : c' = c -> ens c p -> ens c' p.
Proof. intros ->. auto. Qed.

(* Both orders of dropping privileges do the same things. *)
Lemma ens_drop_part g j last c :
  ens c (drop_ugid j) \/ ens c (apply_landlock_restrictions j) \/ ens c (set_seccomp_filter g j) ->
  ens c (drop_privileges g j last).
Proof.
  intro H. unfold drop_privileges. apply ens_r. intros _. apply ens_r. intros _.
  destruct (hasf F_no_new_privs j); destruct H as [H|[H|H]].
  - apply ens_l; auto.
  - do 3 (apply ens_r; intros _). apply ens_l; auto.
  - do 4 (apply ens_r; intros _). auto.
  - do 2 (apply ens_r; intros _). apply ens_l; auto.
  - apply ens_l; auto.
  - apply ens_r; intros _. apply ens_l; auto.
Qed.

Ltac use_own := match goal with
  | H : j_chrootdir ?j = Own ?d, E : j_chrootdir ?j = Own ?a |- _ => rewrite H in E; injection E as <-
  end.

Lemma demands_met g j c : demands g j c ->
  ens c (enter_namespaces j) \/ ens c (enter_filesystem g j) \/
  (forall last, ens c (drop_privileges g j last)) \/ ens c (last_steps g j).
Proof.
  intros D. destruct D.
  (* namespaces *)
  - in_ns; find_call.
  - in_ns. apply ens_r; intros _. apply ens_l, ens_when; auto. apply ens_r; intros _.
    apply ens_when; [now rewrite (proj2 (N.eqb_neq _ _))|]. apply ens_l, ens_must.
  - in_ns. apply ens_r; intros _. apply ens_l, ens_when; auto. apply ens_r; intros _.
    apply ens_when; [now rewrite (proj2 (N.eqb_neq _ _))|]. apply ens_r; intros _. now apply ens_remounts.
  - in_ns; find_call.
  - in_ns; find_call.
  - in_ns; find_call.
  - in_ns. do 3 (apply ens_r; intros _). apply ens_l, ens_when; auto. apply ens_r; intros _.
    match goal with H : j_hostname j = _ |- _ => rewrite H end. cbn [deref]. apply ens_must.
  - in_ns. do 4 (apply ens_r; intros _). apply ens_l. match goal with H : hasf F_enter_net j = _ |- _ => rewrite H end. find_call.
  - in_ns. do 4 (apply ens_r; intros _). apply ens_l. match goal with H : hasf F_enter_net j = _ |- _ => rewrite H end. find_call.
  - in_ns; find_call.
  - in_ns; find_call.
  (* root directory *)
  - in_fs. apply ens_r; intros _. apply ens_l, ens_when; auto. apply ens_zero. unfold enter_chroot.
    apply ensz_r; intros _. apply ensz_nonnull. intros a E. use_own. find_call.
  - in_fs. do 2 (apply ens_r; intros _). apply ens_l, ens_when; auto. apply ens_zero. unfold enter_pivot_root.
    apply ensz_r; intros _. apply ensz_nonnull. intros a E. use_own. find_call.
  - in_fs. do 2 (apply ens_r; intros _). apply ens_l, ens_when; auto. apply ens_zero. unfold enter_pivot_root.
    apply ensz_r; intros _. apply ensz_nonnull. intros a E. use_own. find_call.
  - in_fs. do 2 (apply ens_r; intros _). apply ens_l, ens_when; auto. apply ens_zero. unfold enter_pivot_root.
    apply ensz_r; intros _. find_call.
  - in_fs. do 2 (apply ens_r; intros _). apply ens_l, ens_when; auto. apply ens_zero. unfold enter_pivot_root.
    apply ensz_r; intros _. find_call.
  - in_fs. do 2 (apply ens_r; intros _). apply ens_l, ens_when; auto. apply ens_zero. unfold enter_pivot_root.
    apply ensz_r; intros _. find_call.
  - in_fs. destruct H as [H|H].
    + apply ens_r; intros _. apply ens_l, ens_when; auto. apply ens_zero. unfold enter_chroot.
      apply ensz_r; intros _. find_call.
    + do 2 (apply ens_r; intros _). apply ens_l, ens_when; auto. apply ens_zero. unfold enter_pivot_root.
      apply ensz_r; intros _. find_call.
  - in_fs. unfold mount_tmp. do 3 (apply ens_r; intros _). apply ens_l, ens_when; auto. apply ens_zero.
    destruct (g_tmp_nosymfollow g); apply ensz_rc.
  - in_fs. unfold remount_proc_readonly. do 4 (apply ens_r; intros _). apply ens_when; auto. apply ens_zero.
    apply ensz_andr. apply ensz_neg.
  - in_fs. unfold remount_proc_readonly. do 4 (apply ens_r; intros _). apply ens_when; auto. apply ens_zero.
    apply ensz_andl. match goal with H : hasf F_userns j = _ |- _ => rewrite H end. apply ensz_neg.
  (* identity *)
  - in_drop. apply ens_drop_part. left. unfold drop_ugid. apply ens_nonew; [apply ens_dead|]. find_call.
  - in_drop. apply ens_drop_part. left. unfold drop_ugid. apply ens_nonew; [apply ens_dead|]. find_call.
  - in_drop. do 2 (apply ens_r; intros _). match goal with H : hasf F_no_new_privs j = _ |- _ => rewrite H end.
    do 2 (apply ens_r; intros _). unfold set_no_new_privs. find_call.
  - in_drop. apply ens_drop_part. right; right.
    pose proof (ens_seccomp g j) as X. rewrite H1, H2 in X. cbn [orb] in X. auto.
  - in_drop. apply ens_drop_part. right; right.
    pose proof (ens_seccomp g j) as X. rewrite H1 in X.
    replace ((if hasf F_seccomp_filter_tsync j then 1 else 0) + (if hasf F_seccomp_filter_allow_speculation j then 4 else 0))
      with (N.lor (if hasf F_seccomp_filter_tsync j then 1 else 0) (if hasf F_seccomp_filter_allow_speculation j then 4 else 0)) by
      (destruct (hasf F_seccomp_filter_tsync j), (hasf F_seccomp_filter_allow_speculation j); reflexivity). auto.
  - in_last. apply ens_l, ens_when; auto. match goal with H : j_alt_syscall_table j = _ |- _ => rewrite H end. apply ens_must.
  - in_drop. apply ens_drop_part. right; left. now apply ens_landlock.
  - in_last. apply ens_r; intros _. apply ens_when; auto. rewrite H0.
    intros t a (x & t' & -> & E). destruct x as [v s|e]; [apply worked_here|].
    cbn [bind does] in E. rewrite Bool.andb_false_r in E. destruct E as [_ E]. discriminate E.
Qed.

Lemma fail_closed g j c t u : demands g j c -> does (minijail_enter g j) t (Returned u) -> worked c t.
Proof.
  intros D E. apply enter_parts in E. destruct E as (t0 & t1 & t2 & t3 & t4 & t5 & last & -> & _ & E0 & E1 & E2 & E3 & E4 & E5).
  apply worked_r. destruct (demands_met _ _ _ D) as [H|[H|[H|H]]].
  - apply worked_l. eauto.
  - apply worked_r, worked_l. eauto.
  - do 3 apply worked_r. apply worked_l. exact (H last _ _ E4).
  - do 4 apply worked_r. eauto.
Qed.
