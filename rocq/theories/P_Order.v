(* Proofs: the order of the steps (C30, C42, C53). *)
From Verif Require Export P_Creds S_Order.
Local Open Scope N_scope.
Local Open Scope io_scope.

Definition oa {A} P Q (p : io A) : Prop := forall t o, does p t o -> only_after P Q t.
Lemma oa_none {A} P Q (p : io A) : calls_in (fun c => negb (P c)) p -> oa P Q p.
Proof.
  intros H t o E t1 c x t2 -> Hp. exfalso.
  pose proof (ci_exec _ _ H _ _ E (c, x) ltac:(apply in_or_app; right; left; auto)) as X. cbn in X.
  rewrite Hp in X. discriminate X.
Qed.
Lemma oa_bind {A B} P Q (p : io A) (f : A -> io B) :
  oa P Q p -> (forall a, oa P Q (f a)) -> oa P Q (bind p f).
Proof.
  intros H1 H2 t o E. destruct (exec_bind _ _ _ _ E) as [(u & v & a & -> & E1 & E2)|[[-> E1]|[-> E1]]];
    [|exact (H1 _ _ E1)|exact (H1 _ _ E1)].
  intros t1 c x t2 EE Hp. destruct (List.app_eq_app _ _ _ _ EE) as (w & [[X1 X2]|[X1 X2]]).
  - destruct w as [|y w].
    + cbn in X2. rewrite List.app_nil_r in X1. subst u.
      destruct (H2 a _ _ E2 [] c x t2 (eq_sym X2) Hp) as (c' & v' & s' & [] & _).
    + cbn in X2. injection X2 as <- X2. exact (H1 _ _ E1 t1 c x w X1 Hp).
  - destruct (H2 a _ _ E2 w c x t2 X2 Hp) as (c' & v' & s' & I & Q'). exists c', v', s'. split; auto.
    rewrite X1. apply in_or_app; auto.
Qed.
Lemma oa_must {A} P Q c (f : unit -> io A) : Q c = true -> P c = false -> oa P Q (bind (must c) f).
Proof.
  intros Hq Hp t o E. cbn in E. destruct E as (x & t' & -> & E).
  intros t1 c' y t2 E' Hp'. destruct t1 as [|ev t1].
  - cbn in E'. injection E' as <- _ _. congruence.
  - cbn in E'. injection E' as <- E'. destruct x as [v s|e].
    + exists c, v, s. split; auto. left; auto.
    + cbn in E. destruct E as [-> _]. destruct t1; discriminate E'.
Qed.

(* [p] makes only calls of kind S, none of which is P. *)
Ltac sub := let c := fresh "c" in intros c; destruct c; cbn; try discriminate; try reflexivity; auto.
Lemma no_kind {A} (S P : call -> bool) (p : io A) :
  calls_in S p -> (forall c, S c = true -> P c = false) -> calls_in (fun c => negb (P c)) p.
Proof. intros H W. eapply ci_weaken; [|exact H]. intros c Hc. now rewrite (W c Hc). Qed.

(* The calls of each stage of minijail_enter. *)
Definition st_fs : call -> bool := orb2 (orb2 k_mnt (orb2 k_hook k_root)) (orb2 k_tmp k_proc).
Definition st_priv : call -> bool :=
  orb2 (orb2 k_bset k_bits) (orb2 (orb2 k_id k_caps) (orb2 k_nnp (orb2 k_landlock k_filter))).
Lemma ci_fs_all g j : calls_in st_fs (enter_filesystem g j).
Proof.
  unfold enter_filesystem, st_fs.
  apply ci_bind; [apply ci_orl, ci_orl, ci_process|intros _].
  apply ci_bind; [apply ci_when, ci_zero, ci_orl, ci_orr, ci_chroot|intros _].
  apply ci_bind; [apply ci_when, ci_zero, ci_orl, ci_orr, ci_pivot|intros _].
  apply ci_bind; [apply ci_when, ci_zero, ci_orr, ci_orl, ci_tmp|intros _].
  apply ci_when, ci_zero, ci_orr, ci_orr, ci_proc.
Qed.
Lemma ci_priv_all g j last : calls_in st_priv (drop_privileges g j last).
Proof.
  unfold drop_privileges, st_priv.
  apply ci_bind; [apply ci_when, ci_orl, ci_orl, ci_drop_each|intros _].
  apply ci_bind; [apply ci_when, ci_zero, ci_orl, ci_orr, ci_lock|intros _].
  assert (I := ci_orr (orb2 k_bset k_bits) _ _ (ci_orl _ (orb2 k_nnp (orb2 k_landlock k_filter)) _ (ci_orl _ k_caps _ (ci_ugid j)))).
  assert (C := ci_orr (orb2 k_bset k_bits) _ _ (ci_orl _ (orb2 k_nnp (orb2 k_landlock k_filter)) _ (ci_orr k_id _ _ (ci_caps j last)))).
  assert (N := ci_orr (orb2 k_bset k_bits) _ _ (ci_orr (orb2 k_id k_caps) _ _ (ci_orl _ (orb2 k_landlock k_filter) _ (ci_nnp j)))).
  assert (L := ci_orr (orb2 k_bset k_bits) _ _ (ci_orr (orb2 k_id k_caps) _ _ (ci_orr k_nnp _ _ (ci_orl _ k_filter _ (ci_landlock j))))).
  assert (F := ci_orr (orb2 k_bset k_bits) _ _ (ci_orr (orb2 k_id k_caps) _ _ (ci_orr k_nnp _ _ (ci_orr k_landlock _ _ (ci_filter g j))))).
  destruct (hasf F_no_new_privs j); repeat (apply ci_bind; [assumption|intros _]); assumption.
Qed.

(* minijail_enter as a sequence of stages: no P after Q when it holds inside
   each stage and each pair of stages is harmless. *)
Definition no_PQ {A} (P : call -> bool) (p : io A) : Prop := calls_in (fun c => negb (P c)) p.
Lemma enter_na P Q g j :
  no_PQ Q (get_last_valid_cap) ->
  (forall last,
    na P Q (enter_namespaces j) /\ na P Q (enter_filesystem g j) /\ na P Q (run_hooks_or_die j HOOK_PRE_DROP_CAPS) /\
    na P Q (drop_privileges g j last) /\ na P Q (last_steps g j)) ->
  (forall last,
    (no_PQ Q (enter_namespaces j) \/
      (no_PQ P (enter_filesystem g j) /\ no_PQ P (run_hooks_or_die j HOOK_PRE_DROP_CAPS) /\
       no_PQ P (drop_privileges g j last) /\ no_PQ P (last_steps g j))) /\
    (no_PQ Q (enter_filesystem g j) \/
      (no_PQ P (run_hooks_or_die j HOOK_PRE_DROP_CAPS) /\ no_PQ P (drop_privileges g j last) /\ no_PQ P (last_steps g j))) /\
    (no_PQ Q (run_hooks_or_die j HOOK_PRE_DROP_CAPS) \/
      (no_PQ P (drop_privileges g j last) /\ no_PQ P (last_steps g j))) /\
    (no_PQ Q (drop_privileges g j last) \/ no_PQ P (last_steps g j))) ->
  na P Q (minijail_enter g j).
Proof.
  intros G S D. unfold minijail_enter.
  assert (G' : forall b : bool, no_PQ Q (if b then get_last_valid_cap else Pure 0)) by (intros []; [exact G|exact Logic.I]).
  apply na_bind; [apply na_left, G'| |left; apply G'].
  intro last. destruct (S last) as (S1 & S2 & S3 & S4 & S5). destruct (D last) as (D1 & D2 & D3 & D4).
  destruct (hasf F_pids j); [intros t o [-> _] u c x v E; destruct u; discriminate E|].
  destruct (_ && _); [intros t o [-> _] u c x v E; destruct u; discriminate E|].
  assert (B : forall A B (p : io A) (q : io B), no_PQ P p -> no_PQ P q -> no_PQ P (p ;; q)).
  { intros A B p q H1 H2. apply ci_bind; auto. }
  apply na_bind; [exact S1| |destruct D1 as [D1|(X1 & X2 & X3 & X4)]; [left; exact D1|right; intros _; solve [repeat first [assumption | apply ci_bind; [|intros _]]]]].
  intros _. apply na_bind; [exact S2| |destruct D2 as [D2|(X2 & X3 & X4)]; [left; exact D2|right; intros _; solve [repeat first [assumption | apply ci_bind; [|intros _]]]]].
  intros _. apply na_bind; [exact S3| |destruct D3 as [D3|(X3 & X4)]; [left; exact D3|right; intros _; solve [repeat first [assumption | apply ci_bind; [|intros _]]]]].
  intros _. apply na_bind; [exact S4|intros _; exact S5|destruct D4 as [D4|X4]; [left; exact D4|right; intros _; exact X4]].
Qed.

(* A stage makes no call of a kind: from the list of calls it makes. *)
Ltac stage :=
  unfold no_PQ;
  first
  [ eapply no_kind; [apply ci_getlast|] | eapply no_kind; [apply ci_ns|] | eapply no_kind; [apply ci_fs_all|]
  | eapply no_kind; [apply ci_hooks|] | eapply no_kind; [apply ci_priv_all|] | eapply no_kind; [apply ci_last|] 
  | eapply no_kind; [apply ci_process|] | eapply no_kind; [apply ci_ugid|] | eapply no_kind; [apply ci_caps|]
  | eapply no_kind; [apply ci_nnp|] | eapply no_kind; [apply ci_landlock|] | eapply no_kind; [apply ci_filter|]
  | eapply no_kind; [apply ci_tmp|] | eapply no_kind; [apply ci_proc|]
  | eapply no_kind; [apply ci_when, ci_drop_each|] | eapply no_kind; [apply ci_when, ci_zero, ci_lock|] ];
  let c := fresh "c" in intros c; destruct c; cbn; try discriminate; try reflexivity;
  repeat match goal with |- context [match ?x with _ => _ end] => destruct x; cbn; try discriminate; try reflexivity end.
(* the order of two stages *)
Ltac by_stages :=
  apply enter_na;
  [ stage
  | intro; repeat split; first [apply na_left; stage; fail | apply na_right; stage; fail | idtac]
  | intro; repeat split; first [left; stage; fail | right; repeat split; stage; fail | idtac] ].

(* roots before identity, capabilities and namespaces *)
Lemma root_before_identity g j : na changes_root (fun c => changes_identity c || changes_caps c || installs_filter c) (minijail_enter g j).
Proof. by_stages. Qed.
Lemma ns_before_rest g j :
  na namespaces (fun c => changes_root c || changes_identity c || changes_caps c || installs_filter c || is_hook c) (minijail_enter g j).
Proof. by_stages. Qed.
Lemma mounts_before_identity g j : na mounts (fun c => changes_identity c || changes_caps c || installs_filter c) (minijail_enter g j).
Proof. by_stages. Qed.

Lemma na_single {A} P Q c (k : answer -> io A) : (forall x, k x = Abort \/ exists a, k x = Pure a) -> na P Q (Ask c k).
Proof.
  intros H t o (x & t' & -> & E). assert (t' = []) as ->.
  { destruct (H x) as [K|[a K]]; rewrite K in E; now destruct E. }
  intros t1 c' y t2 E' _ ev I. destruct t1 as [|e1 t1]; cbn in E'; [injection E' as _ _ <-; destruct I|].
  injection E' as _ E'. destruct t1; discriminate E'.
Qed.
Lemma na_must P Q c : na P Q (must c).
Proof. apply na_single. intros [v s|e]; eauto. Qed.
Lemma na_pure {A} P Q (a : A) : na P Q (Pure a).
Proof. apply na_left. exact Logic.I. Qed.
Lemma na_abort {A} P Q : na P Q (@Abort A).
Proof. apply na_left. exact Logic.I. Qed.
Lemma na_undef {A} P Q : na P Q (@Undef A).
Proof. apply na_left. exact Logic.I. Qed.
Lemma na_when P Q b p : na P Q p -> na P Q (when b p).
Proof. destruct b; cbn; auto. intros _. apply na_pure. Qed.
Lemma na_deref {A B} P Q (c : cell A) (f : option A -> io B) : (forall o, na P Q (f o)) -> na P Q (deref c f).
Proof. destruct c; cbn; intros; auto using na_undef. Qed.
Lemma na_nonnull {A B} P Q (c : cell A) (f : A -> io B) : (forall a, na P Q (f a)) -> na P Q (nonnull c f).
Proof. intro H. apply na_deref. intros [a|]; auto using na_undef. Qed.
Lemma na_after {A B} P Q (p : io A) (f : A -> io B) : no_PQ Q p -> (forall a, na P Q (f a)) -> na P Q (bind p f).
Proof. intros H1 H2. apply na_bind; [now apply na_left|exact H2|left; exact H1]. Qed.
Lemma na_before {A B} P Q (p : io A) (f : A -> io B) : na P Q p -> (forall a, no_PQ P (f a)) -> na P Q (bind p f).
Proof. intros H1 H2. apply na_bind; [exact H1|intro a; apply na_right, H2|right; exact H2]. Qed.
Lemma na_andthen P Q p q : no_PQ Q p -> na P Q q -> na P Q (andthen p q).
Proof. intros H1 H2. apply na_after; auto. intro r. destruct (r =? 0)%Z; auto using na_pure. Qed.
Lemma na_zero P Q p : na P Q p -> na P Q (zero_or_die p).
Proof. intros H. apply na_before; auto. intro r. destruct (r =? 0)%Z; exact Logic.I. Qed.

(* configured mounts before the root changes *)
Lemma chroot_no_mount j : no_PQ configured_mount (enter_chroot j).
Proof.
  unfold enter_chroot, run_hooks_or_die. apply ci_bind; [|intros _; unfold nonnull; ci].
  eapply no_kind; [apply ci_hooks|]. sub.
Qed.
Lemma pivot_order j : na configured_mount changes_root (enter_pivot_root j).
Proof.
  unfold enter_pivot_root, run_hooks_or_die, must_open.
  apply na_after; [eapply no_kind; [apply ci_hooks|]; sub|intros _]. apply na_nonnull. intro d.
  apply na_after; [ci|]. intros [fd z|e]; [|apply na_abort].
  apply na_before; [|intro; ci].
  apply na_after; [ci|]. intros [fd' z'|e]; [|apply na_abort].
  apply na_before; [|intro; ci].
  apply na_after; [ci|intros _]. apply na_andthen; [ci|].
  apply na_before; [apply na_must|]. intros _. ci.
Qed.
Lemma process_no_root e j : no_PQ changes_root (process_mounts_or_die e j).
Proof. stage. Qed.
Lemma mounts_before_root g j : ~ (hasf F_chroot j = true /\ hasf F_pivot_root j = true) ->
  na configured_mount changes_root (minijail_enter g j).
Proof.
  intro NB. apply enter_na; [stage| |].
  - intro last. split; [apply na_left; stage|]. split; [|split; [apply na_left; stage|split; apply na_left; stage]].
    unfold enter_filesystem. apply na_after; [apply process_no_root|intros _].
    assert (T : no_PQ configured_mount (zero_or_die (mount_tmp g j))) by (apply ci_zero; unfold mount_tmp; ci).
    assert (R : no_PQ configured_mount (zero_or_die (remount_proc_readonly j))) by (apply ci_zero; unfold remount_proc_readonly; ci).
    assert (TR : no_PQ configured_mount
      (when (hasf F_mount_tmp j) (zero_or_die (mount_tmp g j));;
       when (hasf F_remount_proc_ro j) (zero_or_die (remount_proc_readonly j))))
      by (apply ci_bind; [apply ci_when, T|intros _; apply ci_when, R]).
    destruct (hasf F_chroot j); cbn [when].
    + destruct (hasf F_pivot_root j); [exfalso; auto|]. cbn [when bind].
      apply na_before; [|intros _; exact TR]. apply na_zero, na_right, chroot_no_mount.
    + cbn [bind]. apply na_before; [|intros _; exact TR]. apply na_when, na_zero, pivot_order.
  - intro last. split; [left; stage|]. split; [right; repeat split; stage|]. split; left; stage.
Qed.

(* supplementary groups, then gid, then uid *)
Lemma ugid_order P Q j :
  (forall c, changes_groups c = false -> changes_gid c = false -> changes_uid c = false -> Q c = false) ->
  (forall c, P c = true -> changes_uid c = false) ->
  (forall c, changes_groups c = true -> Q c = false) ->
  (forall c, changes_gid c = true -> Q c = false \/ forall c', changes_gid c' || changes_uid c' = true -> P c' = false) ->
  na P Q (drop_ugid j).
Proof.
  intros Q0 P0 Q1 Q2. unfold drop_ugid. destruct (1 <? _); [apply na_abort|].
  assert (PU : forall u, P (C_setresuid u) = false)
    by (intro u; destruct (P (C_setresuid u)) eqn:E; auto; apply P0 in E; discriminate E).
  assert (G : no_PQ Q (drop_groups j)).
  { eapply no_kind with (S := changes_groups); [|intros c Hc; auto]. unfold drop_groups, nonnull. ci. }
  apply na_after; [exact G|intros _]. apply na_before; [apply na_when, na_must|].
  intros _. apply ci_when, ci_must. now rewrite PU.
Qed.
Lemma ugid_na P Q g j : na P Q (drop_ugid j) ->
  (forall c, P c = true -> changes_identity c = true) -> (forall c, Q c = true -> changes_identity c = true) ->
  na P Q (minijail_enter g j).
Proof.
  intros H WP WQ.
  assert (X : forall A (S : call -> bool) (p : io A), calls_in S p -> (forall c, S c = true -> changes_identity c = false) ->
     no_PQ P p /\ no_PQ Q p).
  { intros A S p C D. split; (eapply no_kind; [exact C|]); intros c Sc; specialize (D c Sc).
    - destruct (P c) eqn:E; auto. rewrite (WP c E) in D. discriminate D.
    - destruct (Q c) eqn:E; auto. rewrite (WQ c E) in D. discriminate D. }
  assert (N1 := X _ _ _ (ci_ns j) ltac:(sub)).
  assert (N2 := X _ _ _ (ci_fs_all g j) ltac:(sub)).
  assert (N3 := X _ _ _ (ci_hooks (j_hooks j) HOOK_PRE_DROP_CAPS) ltac:(sub)).
  assert (N5 := X _ _ _ (ci_last g j) ltac:(sub)).
  assert (N0 := X _ _ _ ci_getlast ltac:(sub)).
  apply enter_na; [apply N0| |].
  - intro last. repeat split; try (apply na_left; first [apply N1|apply N2|apply N3|apply N5]).
    assert (M1 := X _ _ _ (ci_when _ (hasf F_capbset_drop j) _ (ci_drop_each (j_cap_bset j) (caps_upto last))) ltac:(sub)).
    assert (M2 := X _ _ _ (ci_when _ (hasf F_use_caps j) _ (ci_zero _ _ (ci_lock g (j_securebits_skip_mask j) (negb (hasf F_set_ambient_caps j))))) ltac:(sub)).
    assert (M3 := X _ _ _ (ci_caps j last) ltac:(sub)).
    assert (M4 := X _ _ _ (ci_nnp j) ltac:(sub)).
    assert (M5 := X _ _ _ (ci_landlock j) ltac:(sub)).
    assert (M6 := X _ _ _ (ci_filter g j) ltac:(sub)).
    unfold drop_privileges. apply na_after; [apply M1|intros _]. apply na_after; [apply M2|intros _].
    destruct (hasf F_no_new_privs j).
    + apply na_before; [exact H|intros _]. repeat (apply ci_bind; [first [apply M3|apply M4|apply M5]|intros _]). apply M6.
    + apply na_after; [apply M5|intros _]. apply na_after; [apply M6|intros _]. apply na_before; [exact H|intros _; apply M3].
  - intro last. repeat split.
    + left; apply N1.
    + left; apply N2.
    + left; apply N3.
    + right; apply N5.
Qed.
Lemma groups_before_gid g j : na changes_groups (fun c => changes_gid c || changes_uid c) (minijail_enter g j).
Proof.
  apply ugid_na; [|intros c; unfold changes_identity; intros ->; reflexivity|
    intros c; unfold changes_identity; destruct (changes_groups c); cbn; auto; intro; rewrite H; reflexivity].
  apply ugid_order; try (intros []; cbn; try discriminate; try reflexivity; auto; fail).
  intros c _. right. intros []; cbn; try discriminate; reflexivity.
Qed.
Lemma gid_before_uid g j : na (fun c => changes_groups c || changes_gid c) changes_uid (minijail_enter g j).
Proof.
  apply ugid_na.
  - apply ugid_order; intros []; cbn; try discriminate; try reflexivity; auto.
  - intros c; unfold changes_identity; intros ->; reflexivity.
  - intros c; unfold changes_identity; intros ->; apply orb_true_r.
Qed.

(* ---- the filter ---- *)
Lemma filter_na P g j : na P installs_filter (set_seccomp_filter g j).
Proof.
  unfold set_seccomp_filter. destruct (_ || _); [apply na_pure|].
  apply na_after; [unfold no_PQ; ci|intros _]. apply na_deref. intro prog. destruct (_ || _); apply na_must.
Qed.
Lemma nothing_after_filter g j : hasf F_no_new_privs j = true ->
  na (fun c => negb (final_step c)) installs_filter (minijail_enter g j).
Proof.
  intro NN. apply enter_na; [stage| |].
  - intro last. repeat split; try (apply na_left; stage; fail).
    unfold drop_privileges. rewrite NN. repeat (apply na_after; [stage|intros _]). apply filter_na.
  - intro last. repeat split.
    + left; stage.
    + left; stage.
    + left; stage.
    + right. eapply no_kind; [apply ci_last|]. sub.
Qed.
Lemma nnp_before_filter g j : hasf F_no_new_privs j = true -> oa installs_filter sets_nnp (minijail_enter g j).
Proof.
  intro NN. unfold minijail_enter.
  apply oa_bind; [apply oa_none; destruct (_ || _); [stage|exact Logic.I]|intro last].
  destruct (hasf F_pids j); [apply oa_none; exact Logic.I|]. destruct (_ && _); [apply oa_none; exact Logic.I|].
  apply oa_bind; [apply oa_none; stage|intros _]. apply oa_bind; [apply oa_none; stage|intros _].
  apply oa_bind; [apply oa_none; stage|intros _].
  apply oa_bind; [|intros _; apply oa_none; stage].
  unfold drop_privileges. rewrite NN.
  apply oa_bind; [apply oa_none; stage|intros _]. apply oa_bind; [apply oa_none; stage|intros _].
  apply oa_bind; [apply oa_none; stage|intros _]. apply oa_bind; [apply oa_none; stage|intros _].
  unfold set_no_new_privs. rewrite NN. cbn [when]. apply oa_must; reflexivity.
Qed.
Lemma files_before_filter g j : na restricts_files installs_filter (minijail_enter g j).
Proof.
  apply enter_na; [stage| |].
  - intro last. repeat split; try (apply na_left; stage; fail).
    unfold drop_privileges. do 2 (apply na_after; [stage|intros _]). destruct (hasf F_no_new_privs j).
    + do 4 (apply na_after; [stage|intros _]). apply filter_na.
    + apply na_after; [stage|intros _]. apply na_right. repeat (apply ci_bind; [stage|intros _]). stage.
  - intro last. repeat split; try (left; stage; fail). right. stage.
Qed.
Lemma identity_before_caps g j : na changes_identity changes_caps (minijail_enter g j).
Proof.
  apply enter_na; [stage| |].
  - intro last. repeat split; try (apply na_left; stage; fail).
    unfold drop_privileges. do 2 (apply na_after; [stage|intros _]). destruct (hasf F_no_new_privs j).
    + apply na_after; [stage|intros _]. apply na_right. repeat (apply ci_bind; [stage|intros _]). stage.
    + do 3 (apply na_after; [stage|intros _]). apply na_right. stage.
  - intro last. repeat split; try (left; stage; fail). right. stage.
Qed.

(* ---- hooks ---- *)
Lemma hooks_before_drop g j : na is_hook (fun c => changes_identity c || changes_caps c || installs_filter c || restricts_files c
    || match c with C_capbset_drop _ | C_set_securebits _ | C_no_new_privs => true | _ => false end) (minijail_enter g j).
Proof. by_stages. Qed.
(* the first hook after which the process dies *)
Lemma hooks_only ev l : calls_in (hook_at ev) (run_hooks l ev).
Proof.
  induction l; [exact Logic.I|]. cbn [run_hooks]. destruct (hk_event a =? ev) eqn:E; auto.
  apply ci_bind; auto. apply ci_must. exact E.
Qed.
Lemma late_hooks_after_root g j :
  na (fun c => changes_root c || mounts c || namespaces c) (hook_at 0) (minijail_enter g j).
Proof.
  apply enter_na; [stage| |].
  - intro last. repeat split; try (apply na_left; stage; fail).
    + unfold enter_filesystem. apply na_left.
      assert (H2 : calls_in (fun c => negb (hook_at 0 c)) (run_hooks_or_die j HOOK_PRE_CHROOT)).
      { eapply no_kind; [apply hooks_only|]. intros []; cbn; try reflexivity. destruct (N.eqb_spec (hk_event h) HOOK_PRE_CHROOT) as [->|]; [reflexivity|discriminate]. }
      apply ci_bind; [stage|intros _].
      apply ci_bind; [apply ci_when, ci_zero; unfold enter_chroot, nonnull; apply ci_bind; [exact H2|intros _; ci]|intros _].
      apply ci_bind; [apply ci_when, ci_zero; unfold enter_pivot_root, nonnull, must_open; apply ci_bind; [exact H2|intros _; ci]|intros _].
      apply ci_bind; [apply ci_when, ci_zero; unfold mount_tmp; ci|intros _]. apply ci_when, ci_zero; unfold remount_proc_readonly; ci.
    + apply na_right. stage.
  - intro last. repeat split.
    + left; stage.
    + right; repeat split; stage.
    + right; repeat split; stage.
    + left; stage.
Qed.
Lemma early_hooks_before_root g j : ~ (hasf F_chroot j = true /\ hasf F_pivot_root j = true) ->
  na (hook_at 2) changes_root (minijail_enter g j).
Proof.
  intro NB.
  assert (H0 : no_PQ (hook_at 2) (run_hooks_or_die j HOOK_PRE_DROP_CAPS)).
  { eapply no_kind; [apply hooks_only|]. intros []; cbn; try reflexivity.
    destruct (N.eqb_spec (hk_event h) HOOK_PRE_DROP_CAPS) as [->|]; [reflexivity|discriminate]. }
  apply enter_na; [stage| |].
  - intro last. split; [apply na_left; stage|]. split; [|split; [apply na_left; stage|split; apply na_left; stage]].
    unfold enter_filesystem. apply na_after; [apply process_no_root|intros _].
    assert (TR : no_PQ (hook_at 2)
      (when (hasf F_mount_tmp j) (zero_or_die (mount_tmp g j));;
       when (hasf F_remount_proc_ro j) (zero_or_die (remount_proc_readonly j)))).
    { apply ci_bind; [apply ci_when, ci_zero; unfold mount_tmp; ci|intros _; apply ci_when, ci_zero; unfold remount_proc_readonly; ci]. }
    destruct (hasf F_chroot j); cbn [when].
    + destruct (hasf F_pivot_root j); [exfalso; auto|]. cbn [when bind].
      apply na_before; [|intros _; exact TR]. apply na_zero. unfold enter_chroot, run_hooks_or_die.
      apply na_after; [stage|intros _]. apply na_right. unfold nonnull. ci.
    + cbn [bind]. apply na_before; [|intros _; exact TR]. apply na_when, na_zero. unfold enter_pivot_root, run_hooks_or_die.
      apply na_after; [stage|intros _]. apply na_right. unfold nonnull, must_open. ci.
  - intro last. repeat split; try (left; stage; fail). right. repeat split; [exact H0|stage|stage].
Qed.

(* which hooks ran *)
Definition hk {A} (p : io A) (l : list hook) : Prop := forall t o, does p t o -> hooks_spec l t o.
Lemma oks_app l1 l2 t1 t2 : oks l1 t1 -> oks l2 t2 -> oks (l1 ++ l2) (t1 ++ t2).
Proof. apply Forall2_app. Qed.
Lemma hooks_run_app t1 t2 : hooks_run (t1 ++ t2) = hooks_run t1 ++ hooks_run t2.
Proof. apply filter_app. Qed.
Lemma hk_bind {A B} (p : io A) (f : A -> io B) l1 l2 : hk p l1 -> (forall a, hk (f a) l2) -> hk (bind p f) (l1 ++ l2).
Proof.
  intros H1 H2 t o E. destruct (exec_bind _ _ _ _ E) as [(u & v & a & -> & E1 & E2)|X].
  - destruct (H1 _ _ E1) as (r1 & d1 & L1 & [[K1 D1]|(h & rest & e & t' & _ & X & _)]); [|discriminate X].
    specialize (D1 (ex_intro _ a eq_refl)). subst d1. rewrite List.app_nil_r in L1. subst r1.
    destruct (H2 _ _ _ E2) as (r2 & d2 & L2 & [[K2 D2]|(h & rest & e & t' & T & X & K2 & W)]).
    + exists (l1 ++ r2), d2. split; [now rewrite L2, List.app_assoc|]. left. split; auto.
      rewrite hooks_run_app. now apply oks_app.
    + exists (l1 ++ r2), d2. split; [now rewrite L2, List.app_assoc|]. right. exists h, rest, e, (u ++ t').
      split; auto. split; auto. split; [rewrite hooks_run_app; now apply oks_app|]. now rewrite W, List.app_assoc.
  - assert (Y : exists o', does p t o' /\ ((o = Died /\ o' = Died) \/ (o = Undefined /\ o' = Undefined)))
      by (destruct X as [[-> X]|[-> X]]; eauto). destruct Y as (o' & Y & OO).
    destruct (H1 _ _ Y) as (r1 & d1 & L1 & [[K1 D1]|(h & rest & e & t' & T & X' & K2 & W)]).
    + exists r1, (d1 ++ l2). split; [now rewrite L1, List.app_assoc|]. left. split; auto.
      intros (a & Z). destruct OO as [[-> _]|[-> _]]; discriminate Z.
    + exists r1, (d1 ++ l2). split; [now rewrite L1, List.app_assoc|]. right. exists h, (rest ++ l2), e, t'. subst.
      split; auto. split; auto. destruct OO as [[-> _]|[_ Z]]; [reflexivity|discriminate Z].
Qed.
Lemma hk_none {A} (p : io A) : calls_in (fun c => negb (is_hook c)) p -> hk p [].
Proof.
  intros H t o E. exists [], []. split; auto. left. split; auto.
  assert (K := only_of _ _ _ _ H E). clear H E.
  assert (X : hooks_run t = []); [|rewrite X; constructor].
  induction t as [|ev t IH]; [reflexivity|]. unfold hooks_run. cbn [filter].
  assert (Z := K ev (or_introl eq_refl)). cbn in Z. apply negb_true_iff in Z. rewrite Z. apply IH.
  intros e I. apply K. right; auto.
Qed.
Lemma hk_hooks l ev : hk (run_hooks l ev) (hooks_for ev l).
Proof.
  induction l as [|h l IH]; [apply hk_none; exact Logic.I|]. cbn [run_hooks hooks_for filter].
  destruct (hk_event h =? ev); [|exact IH].
  change (h :: filter (fun h0 => hk_event h0 =? ev) l) with ([h] ++ hooks_for ev l). apply hk_bind; [|intros _; exact IH].
  intros t o (x & t' & -> & E). destruct x as [v s|e]; destruct E as [-> ->].
  - exists [h], []. split; auto. left. split; auto. constructor; [eauto|constructor].
  - exists [], [h]. split; auto. right. exists h, [], e, []. repeat split; auto. constructor.
Qed.
Lemma hk_nil_r {A} (p : io A) l : hk p (l ++ []) -> hk p l.
Proof. now rewrite List.app_nil_r. Qed.
Lemma hk_when b p l : hk p l -> hk (when b p) (if b then l else []).
Proof. destruct b; auto. intros _. apply hk_none. exact Logic.I. Qed.
Lemma hk_zero p l : hk p l -> hk (zero_or_die p) l.
Proof.
  intro H. apply hk_nil_r. apply hk_bind; auto. intro r. apply hk_none. destruct (r =? 0)%Z; exact Logic.I.
Qed.
Definition expected_hooks (j : jail) : list hook :=
  (if hasf F_chroot j then hooks_for 2 (j_hooks j) else []) ++
  (if hasf F_pivot_root j then hooks_for 2 (j_hooks j) else []) ++ hooks_for 0 (j_hooks j).
Lemma hk_enter g j t o : hasf F_pids j = false -> hasf F_inherit_suppl_gids j && is_null (j_user j) = false ->
  does (minijail_enter g j) t o -> hooks_spec (expected_hooks j) t o.
Proof.
  intros NP NI. revert t o. change (hk (minijail_enter g j) (expected_hooks j)).
  unfold minijail_enter, expected_hooks. rewrite NP, NI. rewrite List.app_assoc.
  set (A := if hasf F_chroot j then _ else _). set (B := if hasf F_pivot_root j then _ else _).
  set (C := hooks_for 0 (j_hooks j)).
  refine (hk_bind _ _ [] ((A ++ B) ++ C) _ _); [apply hk_none; destruct (_ || _); [stage|exact Logic.I]|intro last].
  refine (hk_bind _ _ [] ((A ++ B) ++ C) _ _); [apply hk_none; stage|intros _].
  refine (hk_bind _ _ (A ++ B) C _ _); [|intros _].
  - unfold enter_filesystem. refine (hk_bind _ _ [] (A ++ B) _ _); [apply hk_none; eapply no_kind; [apply ci_process|sub]|intros _].
    assert (R : hk (enter_chroot j) (hooks_for 2 (j_hooks j))).
    { apply hk_nil_r. unfold enter_chroot. apply hk_bind; [apply hk_hooks|intros _]. apply hk_none. unfold nonnull. ci. }
    assert (V : hk (enter_pivot_root j) (hooks_for 2 (j_hooks j))).
    { apply hk_nil_r. unfold enter_pivot_root. apply hk_bind; [apply hk_hooks|intros _]. apply hk_none. unfold nonnull, must_open. ci. }
    apply hk_bind; [apply hk_when, hk_zero, R|intros _]. apply hk_nil_r.
    apply hk_bind; [apply hk_when, hk_zero, V|intros _]. apply hk_none.
    apply ci_bind; [apply ci_when, ci_zero; unfold mount_tmp; ci|intros _]. apply ci_when, ci_zero. unfold remount_proc_readonly. ci.
  - apply hk_nil_r. apply hk_bind; [apply hk_hooks|intros _]. apply hk_none. apply ci_bind; [stage|intros _; stage].
Qed.
