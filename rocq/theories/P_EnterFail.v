(* Proofs: which failures entering a jail survives. *)
From Verif Require Export P_Enter.
Local Open Scope N_scope.
Local Open Scope io_scope.

Section Tol.
Variable g : cfg.
Variable D : string -> Prop.
Notation tol := (tolerated g D).
Definition okf {A} (p : io A) : Prop := forall t a, does p t (Returned a) -> Forall tol t.
Definition okz (p : io Z) : Prop := forall t, does p t (Returned 0%Z) -> Forall tol t.

Lemma okf_bind {A B} (p : io A) (f : A -> io B) : okf p -> (forall a, okf (f a)) -> okf (bind p f).
Proof.
  intros H1 H2 t b E. apply exec_bind_ret in E. destruct E as (t1 & t2 & a & -> & E1 & E2).
  apply Forall_app. split; [eapply H1|eapply H2]; eauto.
Qed.
Lemma okz_bind {A} (p : io A) (f : A -> io Z) : okf p -> (forall a, okz (f a)) -> okz (bind p f).
Proof.
  intros H1 H2 t E. apply exec_bind_ret in E. destruct E as (t1 & t2 & a & -> & E1 & E2).
  apply Forall_app. split; [eapply H1|eapply H2]; eauto.
Qed.
Lemma okf_pure {A} (a : A) : okf (Pure a).
Proof. intros t b [-> _]. constructor. Qed.
Lemma okz_pure r : okz (Pure r).
Proof. intros t [-> _]. constructor. Qed.
Lemma okf_abort {A} : okf (@Abort A).
Proof. intros t b [-> _]. constructor. Qed.
Lemma okf_undef {A} : okf (@Undef A).
Proof. intros t b [-> _]. constructor. Qed.
Lemma okf_must c : okf (must c).
Proof. intros t a E. apply must_ret in E. destruct E as (v & s & ->). constructor; [exact Logic.I|constructor]. Qed.
Lemma okf_ask {A} c (k : answer -> io A) : (forall v s, okf (k (Yes v s))) -> (forall e, tol (c, No e)) -> (forall e, okf (k (No e))) ->
  okf (bind (ask c) k).
Proof.
  intros H1 H2 H3 t a (x & t' & -> & E). destruct x as [v s|e]; constructor.
  - exact Logic.I. - eapply H1; eauto. - apply H2. - eapply H3; eauto.
Qed.
Lemma okf_ask' {A} c (k : answer -> io A) : (forall v s, okf (k (Yes v s))) -> (forall e t a, ~ does (k (No e)) t (Returned a)) ->
  okf (bind (ask c) k).
Proof.
  intros H1 H2 t a (x & t' & -> & E). destruct x as [v s|e]; [constructor; [exact Logic.I|eapply H1; eauto]|].
  elim (H2 e t' a E).
Qed.
Lemma okz_ask c (k : answer -> io Z) : (forall v s, okz (k (Yes v s))) -> (forall e, tol (c, No e)) -> (forall e, okz (k (No e))) ->
  okz (bind (ask c) k).
Proof.
  intros H1 H2 H3 t (x & t' & -> & E). destruct x as [v s|e]; constructor.
  - exact Logic.I. - eapply H1; eauto. - apply H2. - eapply H3; eauto.
Qed.
(* the failing branch does not return 0 *)
Lemma okz_ask' c (k : answer -> io Z) : (forall v s, okz (k (Yes v s))) -> (forall e t, ~ does (k (No e)) t (Returned 0%Z)) ->
  okz (bind (ask c) k).
Proof.
  intros H1 H2 t (x & t' & -> & E). destruct x as [v s|e].
  - constructor; [exact Logic.I|eapply H1; eauto].
  - elim (H2 e t' E).
Qed.
Lemma okf_try c : (forall e, tol (c, No e)) -> okf (try c).
Proof. intros H t a E. apply try_ret in E. destruct E as (x & ->). constructor; [|constructor]. destruct x; [exact Logic.I|auto]. Qed.
Lemma okf_when b p : okf p -> okf (when b p).
Proof. destruct b; [auto|]. intros _. apply okf_pure. Qed.
Lemma okf_zero p : okz p -> okf (zero_or_die p).
Proof. intros H t u E. apply zero_ret in E. auto. Qed.
Lemma okz_and p q : okz p -> okz q -> okz (andthen p q).
Proof. intros H1 H2 t E. apply andthen_ret in E. destruct E as (t1 & t2 & -> & E1 & E2). apply Forall_app; auto. Qed.
Lemma okz_rc c : okz (rc c).
Proof.
  intros t (x & t' & -> & E). destruct x as [v s|e]; destruct E as [-> E]; [constructor; [exact Logic.I|constructor]|discriminate E].
Qed.
Lemma okz_neg c : okz (neg_errno c).
Proof.
  intros t (x & t' & -> & E). destruct x as [v s|e]; destruct E as [-> E]; [constructor; [exact Logic.I|constructor]|discriminate E].
Qed.
Lemma okf_z p : okf p -> okz p.
Proof. intros H t E. eauto. Qed.
Lemma okf_deref {A B} (c : cell A) (f : option A -> io B) : (forall o, okf (f o)) -> okf (deref c f).
Proof. destruct c; cbn; auto; intros _; apply okf_undef. Qed.
Lemma okz_deref {A} (c : cell A) (f : option A -> io Z) : (forall o, okz (f o)) -> okz (deref c f).
Proof. destruct c; cbn; auto; intros _; apply okf_z, okf_undef. Qed.
Lemma okf_nonnull {A B} (c : cell A) (f : A -> io B) : (forall o, okf (f o)) -> okf (nonnull c f).
Proof. intros H. apply okf_deref. intros [a|]; auto. apply okf_undef. Qed.
Lemma okz_nonnull {A} (c : cell A) (f : A -> io Z) : (forall o, okz (f o)) -> okz (nonnull c f).
Proof. intros H. apply okz_deref. intros [a|]; auto. apply okf_z, okf_undef. Qed.
Lemma okf_if {A} (b : bool) (p q : io A) : okf p -> okf q -> okf (if b then p else q).
Proof. destruct b; auto. Qed.
Lemma okz_if (b : bool) p q : okz p -> okz q -> okz (if b then p else q).
Proof. destruct b; auto. Qed.
Lemma okz_open path h f : (forall fd, okz (f fd)) -> okz (must_open path h f).
Proof.
  intros H. unfold must_open. apply okz_ask'.
  - intros v s t E. apply exec_bind_ret in E. destruct E as (t1 & t2 & r & -> & E1 & E2).
    destruct E2 as (x & t3 & -> & -> & E2). injection E2 as <-.
    apply Forall_app. split; [exact (H _ _ E1)|]. constructor; [|constructor]. destruct x; exact Logic.I.
  - intros e t [_ E]. discriminate E.
Qed.
Ltac never := cbn; intros ? ? [_ E]; discriminate E.

(* One step of the search. *)
Ltac ok1 :=
  first
  [ apply okf_pure | apply okz_pure | apply okf_abort | apply okf_undef | apply okf_must | apply okz_rc | apply okz_neg
  | apply okf_try; intros ?; exact Logic.I
  | apply okf_when | apply okf_zero | apply okz_and | apply okz_open; intros ? | apply okf_nonnull; intros ?
  | apply okz_nonnull; intros ? | apply okf_deref; intros ? | apply okz_deref; intros ? ].

Lemma okf_securebits bits : okz (set_securebits_retry bits).
Proof.
  unfold set_securebits_retry. intros t (x & t' & -> & E). destruct x as [v s|e].
  - destruct E as [-> _]. constructor; [exact Logic.I|constructor].
  - cbn [bind] in E. destruct (is_err e EPERM && negb (N.land bits SECURE_6_14 =? 0)) eqn:C.
    + apply andb_true_iff in C. destruct C as [C1 C2]. constructor; [|exact (okz_rc _ _ E)].
      cbn. split.
      * unfold is_err, EPERM in C1. lia.
      * apply negb_true_iff, N.eqb_neq in C2. exact C2.
    + destruct E as [_ E]. discriminate E.
Qed.
Lemma okf_lockbits bits skip : okz (lock_securebits_with bits skip).
Proof. unfold lock_securebits_with. apply okz_if; [apply okz_pure|apply okf_securebits]. Qed.
Lemma okf_lock skip b : okz (lock_securebits g skip b).
Proof.
  unfold lock_securebits. apply okz_if; [apply okf_lockbits|]. apply okz_ask'.
  - intros v s. apply okf_lockbits.
  - intros e t [_ E]. discriminate E.
Qed.
Lemma okf_last : okf get_last_valid_cap.
Proof.
  unfold get_last_valid_cap. apply okf_ask'.
  - intros v s. apply okf_if; [apply okf_abort|apply okf_pure].
  - intros e t a [_ E]. discriminate E.
Qed.
Lemma okf_loopback : okf config_net_loopback.
Proof.
  apply okf_ask; [|intro; exact Logic.I|intro; apply okf_pure]. intros fd s.
  apply okf_ask; [|intro; exact Logic.I|].
  - intros v s'. apply okf_bind; [|intros _]; apply okf_try; intro; exact Logic.I.
  - intro e. apply okf_bind; [apply okf_pure|intros _]. apply okf_try; intro; exact Logic.I.
Qed.
Lemma okz_mkdir path mode : okz (mkdir_or_exists path mode).
Proof.
  intros t (x & t' & -> & E). destruct x as [v s|e].
  - destruct E as [-> _]. constructor; [exact Logic.I|constructor].
  - cbn [bind] in E. unfold is_err, EEXIST in E. destruct (Z.eqb_spec (Z.pos e) 17) as [C|C].
    + destruct E as [-> _]. constructor; [|constructor]. cbn. lia.
    + destruct E as [_ E]. discriminate E.
Qed.
Lemma okz_mkdirs l mode : okz (mkdirs l mode).
Proof. induction l; [apply okz_pure|]. apply okz_and; [apply okz_mkdir|auto]. Qed.
Lemma okz_mkdir_p path mode b : okz (mkdir_p path mode b).
Proof.
  destruct path; [apply okf_z, okf_undef|]. apply okz_and; [apply okz_mkdirs|].
  apply okz_if; [apply okz_mkdir|apply okz_pure].
Qed.
Lemma okz_make dest uid gid b : okz (make_destination dest uid gid b).
Proof.
  apply okz_and; [apply okz_mkdir_p|]. apply okz_and; [|apply okz_neg].
  apply okz_if; [apply okz_pure|]. apply okz_ask'.
  - intros v s. apply okz_bind; [|intros _; apply okz_pure]. apply okf_try. intro; exact Logic.I.
  - intros e t [_ E]. discriminate E.
Qed.
Lemma okz_setup src dest uid gid b : okz (setup_mount_destination src dest uid gid b).
Proof.
  apply okz_ask; [intros; apply okz_pure|intro; exact Logic.I|]. intro e. apply okz_if.
  - apply okz_ask; [intros; apply okz_make|intro; exact Logic.I|intro; apply okz_pure].
  - apply okz_if; [apply okz_pure|apply okz_make].
Qed.
Lemma okf_bindpath e path : okf (check_bind_path e path).
Proof.
  unfold check_bind_path.
  assert (X : forall rp, okf (match is_valid_bind_path e path rp with BVal b => Pure b | BUb => Undef end)).
  { intro rp. destruct (is_valid_bind_path e path rp); [apply okf_pure|apply okf_undef]. }
  apply okf_if; [|apply X]. apply okf_ask; intros; [apply X|exact Logic.I|apply X].
Qed.
Lemma okf_bindflags m : okf (bind_flags m).
Proof. apply okf_if; [|apply okf_pure]. apply okf_ask; intros; [apply okf_pure|exact Logic.I|apply okf_pure]. Qed.
Lemma okz_mounts e uid gid root dev ms : okz (mount_one e uid gid root dev ms).
Proof.
  induction ms as [|m ms IH]; [apply okz_pure|]. cbn [mount_one]. cbv zeta. apply okz_and; [apply okz_setup|].
  apply okz_bind; [apply okf_bindflags|]. intros [again|]; [|apply okz_pure].
  apply okz_bind; [apply okf_if; [apply okf_bindpath|apply okf_pure]|]. intro ok. apply okz_if; [apply okz_pure|].
  apply okz_and; [apply okz_rc|]. apply okz_and; [|exact IH]. destruct again; [apply okz_rc|apply okz_pure].
Qed.
Lemma okf_cleanup d : D d -> okf (mount_dev_cleanup d).
Proof. intro H. apply okf_bind; [|intros _]; apply okf_try; intro; cbn; auto. Qed.
Lemma okz_nodes fd l : okz (make_nodes fd l).
Proof. induction l as [|[[[n m] a] b] l IH]; [apply okz_pure|]. apply okz_and; [apply okz_rc|auto]. Qed.
Lemma okz_links fd l : okz (make_symlinks fd l).
Proof. induction l as [|[n m] l IH]; [apply okz_pure|]. apply okz_and; [apply okz_rc|auto]. Qed.
Lemma okz_fill fd : okz (fill_dev fd).
Proof. apply okz_and; [apply okz_nodes|]. apply okz_and; [apply okz_links|apply okz_rc]. Qed.
Lemma okf_hooks l ev : okf (run_hooks l ev).
Proof.
  induction l as [|h l IH]; [apply okf_pure|]. cbn [run_hooks]. apply okf_if; auto. apply okf_bind; [apply okf_must|auto].
Qed.
Lemma okz_chroot j : okz (enter_chroot j).
Proof. apply okz_bind; [apply okf_hooks|intros _]. repeat ok1. Qed.
Lemma okz_pivot j : okz (enter_pivot_root j).
Proof.
  apply okz_bind; [apply okf_hooks|intros _].
  repeat first [ok1 | apply okz_bind; [|intros _]].
Qed.
Lemma okf_remounts mode l : okf (apply_remounts mode l).
Proof. induction l; [apply okf_pure|]. cbn [apply_remounts]. apply okf_if; [apply okf_abort|]. apply okf_bind; [apply okf_must|auto]. Qed.
Lemma okf_namespaces j : okf (enter_namespaces j).
Proof.
  unfold enter_namespaces.
  repeat first [ok1 | apply okf_remounts | apply okf_loopback | apply okf_if | apply okf_bind; [|intros _] |
    match goal with |- okf (match ?o with Some _ => _ | None => _ end) => destruct o end].
Qed.
Lemma okf_drop_each keep l : okf (drop_each keep l).
Proof. induction l; [apply okf_pure|]. cbn [drop_each]. apply okf_bind; [apply okf_when, okf_must|auto]. Qed.
Lemma okf_raise_each keep l : okf (raise_each keep l).
Proof. induction l; [apply okf_pure|]. cbn [raise_each]. apply okf_bind; [apply okf_when, okf_must|auto]. Qed.
Lemma okf_flag3 i : okf (cap_set_flag3 i).
Proof. unfold cap_set_flag3. repeat first [ok1 | apply okf_bind; [|intros _]]. Qed.
Lemma okf_collect caps l : forall acc, okf (collect_caps caps l acc).
Proof.
  induction l; intro acc; [apply okf_pure|]. cbn [collect_caps]. apply okf_if; auto. apply okf_bind; [apply okf_flag3|auto].
Qed.
Lemma okf_caps j last : okf (drop_caps j last).
Proof.
  unfold drop_caps, drop_capbset.
  repeat first [ok1 | apply okf_collect | apply okf_drop_each | apply okf_raise_each | apply okf_flag3 | apply okf_if |
    apply okf_bind; [|intros ?]].
Qed.
Lemma okf_ugid j : okf (drop_ugid j).
Proof.
  unfold drop_ugid, drop_groups.
  repeat first [ok1 | apply okf_if | apply okf_bind; [|intros ?] |
    match goal with |- okf (match ?o with Some _ => _ | None => _ end) => destruct o end].
Qed.
Lemma okf_populate r l : okf (populate_all r l).
Proof.
  induction l as [|x l IH]; [apply okf_pure|]. apply okf_bind; [|auto].
  apply okf_ask; [|intro; exact Logic.I|intro; apply okf_pure]. intros fd s.
  apply okf_ask; [|intro; exact Logic.I|].
  - intros v s'. apply okf_bind; [|intros _]; apply okf_try; intro; exact Logic.I.
  - intro e. apply okf_bind; [apply okf_pure|intros _]. apply okf_try; intro; exact Logic.I.
Qed.
Lemma okf_landlock j : okf (apply_landlock_restrictions j).
Proof.
  apply okf_if; [apply okf_pure|]. apply okf_ask; [intros v s|intro; exact Logic.I|intro e].
  all: repeat first [ok1 | apply okf_populate | apply okf_bind; [|intros ?]].
Qed.
Lemma okf_filter j : okf (set_seccomp_filter g j).
Proof.
  unfold set_seccomp_filter. repeat first [ok1 | apply okf_if | apply okf_bind; [|intros ?]].
Qed.
Lemma okf_last_steps j : okf (last_steps g j).
Proof.
  unfold last_steps. apply okf_bind; [repeat ok1|intros _]. apply okf_when.
  intros t a (x & t' & -> & E). destruct x as [v s|e].
  - destruct E as [-> _]. constructor; [exact Logic.I|constructor].
  - cbn [bind does] in E. destruct (is_err e EINVAL && k_softfail (g_env g)) eqn:C.
    + destruct E as [-> _]. constructor; [|constructor]. apply andb_true_iff in C. destruct C as [C1 C2].
      unfold is_err, EINVAL in C1. cbn. split; [lia|auto].
    + destruct E as [_ E]. discriminate E.
Qed.
Lemma okf_drop j last : okf (drop_privileges g j last).
Proof.
  unfold drop_privileges, drop_capbset, set_no_new_privs.
  repeat first [ok1 | apply okf_ugid | apply okf_caps | apply okf_landlock | apply okf_filter | apply okf_drop_each |
    apply okf_lock | apply okf_if | apply okf_bind; [|intros ?]].
Qed.
End Tol.

Lemma tol_weaken g (D D' : string -> Prop) t : (forall p, D p -> D' p) -> Forall (tolerated g D) t -> Forall (tolerated g D') t.
Proof.
  intros W. apply Forall_impl. intros [c [v s|e]]; auto. destruct c; auto. apply W.
Qed.
Lemma mount_dev_ok g t dev : does mount_dev t (Returned (0%Z, dev)) -> Forall (tolerated g (dev_in t)) t /\ dev_in t dev.
Proof.
  intros (x & t' & -> & E). destruct x as [v d|e]; [|destruct E as [_ E]; discriminate E].
  cbn [bind] in E. apply exec_bind_ret in E. destruct E as (t1 & t2 & r & -> & E1 & E).
  destruct (Z.eqb_spec r 0) as [->|Nz]; cbn [negb] in E.
  2: { apply exec_bind_ret in E. destruct E as (u1 & u2 & [] & -> & _ & E). destruct E as [_ E]. congruence. }
  set (T := (C_mkdtemp "/tmp/minijail.dev.XXXXXX", Yes v d) :: t1 ++ t2).
  assert (HD : dev_in T d) by (exists v; left; reflexivity).
  apply (okz_rc g (dev_in T)) in E1.
  apply exec_bind_ret in E. destruct E as (u1 & u2 & m & -> & Em & E).
  assert (Hm : Forall (tolerated g (dev_in T)) u1).
  { destruct Em as (x & t' & -> & -> & _). constructor; [|constructor]. destruct x; exact Logic.I. }
  apply exec_bind_ret in E. destruct E as (u3 & u4 & x & -> & Ex & E).
  destruct Ex as (x' & t' & -> & -> & Ex). injection Ex as <-. destruct x as [fd s|e].
  - apply exec_bind_ret in E. destruct E as (u5 & u6 & r & -> & E2 & E).
    apply exec_bind_ret in E. destruct E as (u7 & u8 & [] & -> & E3 & E).
    apply exec_bind_ret in E. destruct E as (u9 & u10 & [] & -> & E4 & E).
    apply exec_bind_ret in E. destruct E as (u11 & u12 & [] & -> & E5 & [-> E]).
    injection E as <- ->.
    apply (okz_fill g (dev_in T)) in E2. apply (okf_try g (dev_in T)) in E3; [|intro; exact Logic.I].
    apply (okf_try g (dev_in T)) in E5; [|intro; exact Logic.I].
    cbn [negb Z.eqb when] in E4. destruct E4 as [-> _].
    split; [|exact HD]. unfold T at 2. constructor; [exact Logic.I|].
    repeat (apply Forall_app; split; auto). constructor; [exact Logic.I|]. repeat (apply Forall_app; split; auto). constructor.
  - apply exec_bind_ret in E. destruct E as (u5 & u6 & r & -> & E2 & E).
    apply exec_bind_ret in E. destruct E as (u7 & u8 & [] & -> & E3 & [_ E]). discriminate E.
Qed.
Lemma mounts_ok g j t : does (process_mounts_or_die (g_env g) j) t (Returned tt) -> Forall (tolerated g (dev_in t)) t.
Proof.
  unfold process_mounts_or_die. intro E.
  apply exec_bind_ret in E. destruct E as (t1 & t2 & dev & -> & E1 & E).
  apply exec_bind_ret in E. destruct E as (t3 & t4 & [] & -> & E2 & E3).
  set (T := t1 ++ t3 ++ t4).
  assert (H1 : Forall (tolerated g (dev_in T)) t1 /\ (forall d, dev = Some d -> dev_in T d)).
  { destruct (hasf F_mount_dev j).
    - apply exec_bind_ret in E1. destruct E1 as (u1 & u2 & [r d] & -> & E1 & E).
      destruct (Z.eqb_spec r 0) as [->|Nz]; [|destruct E as [_ E]; discriminate E].
      destruct E as [-> E]. injection E as ->. rewrite List.app_nil_r in *.
      apply (mount_dev_ok g) in E1. destruct E1 as [F HD].
      assert (W : forall p, dev_in u1 p -> dev_in T p).
      { intros p (v & Hv). exists v. unfold T. apply in_or_app; left. apply in_or_app; auto. }
      split; [eapply tol_weaken; eauto|]. intros d' [= <-]. auto.
    - destruct E1 as [-> E1]. injection E1 as ->. split; [constructor|discriminate]. }
  destruct H1 as [H1 HD].
  assert (H2 : Forall (tolerated g (dev_in T)) t3).
  { destruct (j_mounts j) as [|m ms]; [destruct E2 as [-> _]; constructor|].
    refine (okf_deref g (dev_in T) _ _ _ _ _ E2). intro root.
    intros t a E. apply exec_bind_ret in E. destruct E as (u1 & u2 & r & -> & E & E').
    destruct (Z.eqb_spec r 0) as [->|Nz].
    - apply (okz_mounts g (dev_in T)) in E. destruct E' as [-> _]. rewrite List.app_nil_r. exact E.
    - apply exec_bind_ret in E'. destruct E' as (? & ? & ? & ? & ? & [_ E']). discriminate E'. }
  assert (H3 : Forall (tolerated g (dev_in T)) t4).
  { destruct dev as [d|]; [|destruct E3 as [-> _]; constructor].
    apply zero_ret in E3. revert E3. apply okz_deref. intros root t E.
    apply exec_bind_ret in E. destruct E as (u1 & u2 & r & -> & E & E').
    apply exec_bind_ret in E'. destruct E' as (u3 & u4 & [] & -> & E' & [-> E'']). injection E'' as <-.
    apply (okz_and g (dev_in T) _ _ (okz_rc _ _ _) (okz_rc _ _ _)) in E.
    apply (okf_cleanup g (dev_in T)) in E'; [|auto].
    rewrite List.app_nil_r. apply Forall_app; auto. }
  repeat (apply Forall_app; split; auto).
Qed.

Lemma only_tolerated g j t u : does (minijail_enter g j) t (Returned u) -> Forall (tolerated g (dev_in t)) t.
Proof.
  intro E. apply enter_parts in E.
  destruct E as (t0 & t1 & t2 & t3 & t4 & t5 & last & -> & _ & E0 & E1 & E2 & E3 & E4 & E5).
  set (T := t0 ++ t1 ++ t2 ++ t3 ++ t4 ++ t5).
  assert (H0 : Forall (tolerated g (dev_in T)) t0).
  { revert E0. apply okf_if; [apply okf_last|apply okf_pure]. }
  apply (okf_namespaces g (dev_in T)) in E1. apply (okf_hooks g (dev_in T)) in E3.
  apply (okf_drop g (dev_in T)) in E4. apply (okf_last_steps g (dev_in T)) in E5.
  assert (H2 : Forall (tolerated g (dev_in T)) t2).
  { unfold enter_filesystem in E2.
    apply exec_bind_ret in E2. destruct E2 as (u1 & u2 & [] & -> & F1 & F2).
    apply mounts_ok in F1. apply Forall_app. split.
    - eapply tol_weaken; [|exact F1]. intros p (v & Hv). exists v. unfold T.
      apply in_or_app; right. apply in_or_app; right. apply in_or_app; left. apply in_or_app; auto.
    - revert F2. apply okf_bind; [apply okf_when, okf_zero, okz_chroot|intros _].
      apply okf_bind; [apply okf_when, okf_zero, okz_pivot|intros _].
      apply okf_bind; [apply okf_when, okf_zero, okz_rc|intros _].
      apply okf_when, okf_zero. unfold remount_proc_readonly. apply okz_and; [|apply okz_neg].
      apply okz_if; [apply okz_pure|apply okz_neg]. }
  repeat (apply Forall_app; split; auto).
Qed.
