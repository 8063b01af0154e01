(* Proofs about the session of a jailed program. *)
From Verif Require Export S_Session P_Settings.
Local Open Scope N_scope.

Lemma mount_new s d t fl x j rc j' : minijail_mount_with_data s d t fl x j = ARet rc j' -> hasf F_enable_new_sessions j' = hasf F_enable_new_sessions j.
Proof.
  intros E. unfold minijail_mount_with_data in E. destruct (negb _) in E; apply ARet_inj in E; destruct E as [_ <-]; [reflexivity|].
  match goal with |- hasf _ ?y = _ => assert (Y : forall g, hasf g y = hasf g (if hasf F_enter_vfs j then j else setf F_vfs true j)) by reflexivity end.
  rewrite Y. destruct (hasf F_enter_vfs j); [reflexivity|]. rewrite hasf_setf. reflexivity.
Qed.
Lemma sessions_step e j a rc j' : api_step e j a = ARet rc j' ->
  hasf F_enable_new_sessions j' = match sessions_of a with Some b => b | None => hasf F_enable_new_sessions j end.
Proof.
  intros H.
  assert (FR : match a with
    | A_add_minimalistic_mountns_fs_rules | A_enable_default_fs_restrictions
    | A_fs_rx _ | A_fs_ro _ | A_fs_rw _ | A_fs_advanced_rw _ | A_fs_edit _ | A_fs_access_rights _ _ => True
    | _ => False end -> hasf F_enable_new_sessions j' = hasf F_enable_new_sessions j).
  { intro M. apply hasf_frame. apply (step_frame j_flags e j a rc j' H); auto; intros; reflexivity. }
  destruct a; try (apply FR; exact Logic.I); clear FR; cbn [sessions_of];
    try (apply ARet_inj in H; destruct H as [<- <-]; rewrite hasf_flags_on; cbn -[hasf]; apply orb_false_r).
  all: lazymatch type of H with
    | context [A_parse_seccomp_filters] => idtac | context [A_set_seccomp_filters] => idtac
    | context [A_mount] => idtac | context [A_mount_with_data] => idtac | context [A_bind] => idtac
    | _ => try (timeout 10 (api_cases H; flags_out F_enable_new_sessions; cbn -[hasf]; rewrite ?orb_false_r; reflexivity)) end.
  all: cbn [api_step] in H.
  - apply parse_cases in H. destruct H as [->|(j1 & pr & p & [->| ->] & ->)]; unfold clear_seccomp_options; flags_out F_enable_new_sessions; cbn -[hasf]; rewrite ?andb_true_r, ?orb_false_r; reflexivity.
  - apply set_filters_cases in H. destruct H as [->|(j1 & [->| ->] & ->)]; unfold clear_seccomp_options; flags_out F_enable_new_sessions; cbn -[hasf]; rewrite ?andb_true_r, ?orb_false_r; reflexivity.
  - exact (mount_new _ _ _ _ _ _ _ _ H).
  - exact (mount_new _ _ _ _ _ _ _ _ H).
  - unfold minijail_bind in H. destruct (is_valid_bind_path e src rp) as [[|]|]; [| |discriminate]; [exact (mount_new _ _ _ _ _ _ _ _ H)|].
    apply ARet_inj in H. destruct H as [_ <-]. reflexivity.
Qed.
Lemma sessions_last e h j : history e minijail_new h j -> hasf F_enable_new_sessions j = new_sessions h.
Proof. intros H. unfold new_sessions. change true with (hasf F_enable_new_sessions minijail_new). apply (last_run (fun j => hasf F_enable_new_sessions j) sessions_of e); [intros; eapply sessions_step; eassumption|exact H]. Qed.

(* closing descriptors only takes away *)
Lemma close_less t fd x v : close_and_reset t fd x = Some v -> t x = Some v.
Proof. unfold close_and_reset, M_Fds.close, M_Fds.upd. destruct (fd =? -1)%Z; [auto|]. destruct (x =? fd)%Z; [discriminate|auto]. Qed.
Lemma closed_less st t x v : before_exec st t x = Some v -> t x = Some v.
Proof.
  unfold before_exec, free_run_state. cbn [fold_left rs_pipe rs_in rs_out rs_err rs_sync]. unfold close_pair. intros H.
  repeat apply close_less in H. exact H.
Qed.
Lemma start_less st t x f : holds (at_start st t) x f -> holds t x f.
Proof.
  intros [b H]. unfold at_start, after_exec in H. destruct (before_exec st t x) as [[g c]|] eqn:B; [|discriminate H]. apply closed_less in B.
  destruct c; [discriminate H|]. injection H as -> _. exists false. exact B.
Qed.

Section Session.
Variables (tty_of : N -> option N) (controls : N -> bool) (allowed : bool).
Variables (e : kenv) (h : list (api * Z)) (j : jail).
Hypothesis H : history e minijail_new h j.
Variables (st : run_state) (t : table) (s0 s1 : session).
Hypothesis R : new_session tty_of controls allowed j t s0 = Some s1.

Lemma flag_is f : steady (k_softfail e) f = true -> (hasf f j = true <-> asked f h).
Proof. apply flag_asked. exact H. Qed.
Lemma seen : on_terminal tty_of (at_start st t) -> isatty tty_of t 0 || isatty tty_of t 1 || isatty tty_of t 2 = true.
Proof.
  intros (c & f & x & I & HO & T). apply start_less in HO. destruct HO as [b HO].
  assert (K : isatty tty_of t c = true) by (unfold isatty, tty; rewrite HO, T; reflexivity).
  destruct I as [<-|[<-|[<-|[]]]]; rewrite K, ?orb_true_r; reflexivity.
Qed.
Lemma session_made : new_sessions h = true -> asked F_setsid h \/ on_terminal tty_of (at_start st t) ->
  own_session s1 = true /\ forall x, terminal s1 = Some x -> controls x = false /\ exists f, holds t 0 f /\ tty_of f = Some x.
Proof.
  intros NS A. unfold new_session in R. rewrite (sessions_last _ _ _ H), NS in R. cbn [negb andb] in R.
  assert (Z : hasf F_setsid j || isatty tty_of t 0 || isatty tty_of t 1 || isatty tty_of t 2 = true).
  { destruct A as [A|A]; [apply (flag_is F_setsid eq_refl) in A; rewrite A; reflexivity|]. rewrite <- !orb_assoc, (orb_assoc (isatty tty_of t 0)), (seen A). apply orb_true_r. }
  rewrite Z in R. unfold setsid in R. destruct allowed; [|discriminate R]. injection R as <-.
  destruct (isatty tty_of t 0) eqn:I0; [|split; [reflexivity|intros x X; discriminate X]].
  unfold take_terminal. cbn [own_session terminal]. unfold isatty in I0. destruct (tty tty_of t 0) as [x|] eqn:T0; [|discriminate I0].
  destruct (controls x) eqn:C; cbn [own_session terminal]; (split; [reflexivity|]); intros y Y; [discriminate Y|]. injection Y as <-. split; [exact C|].
  unfold tty in T0. destruct (t 0%Z) as [[f b]|] eqn:TF; [|discriminate T0]. exists f. split; [exists b; exact TF|exact T0].
Qed.
Lemma session_apart : new_sessions h = true -> asked F_setsid h \/ on_terminal tty_of (at_start st t) ->
  own_session s1 = true /\ (forall x, terminal s1 = Some x -> controls x = false /\ exists f, holds t 0 f /\ tty_of f = Some x) /\
  (forall x, terminal s0 = Some x -> controls x = true -> terminal s1 <> Some x).
Proof.
  intros NS A. destruct (session_made NS A) as [X Y]. split; [exact X|]. split; [exact Y|]. intros x _ C Z. destruct (Y x Z) as [C' _]. rewrite C in C'. discriminate C'.
Qed.
Lemma session_kept : new_sessions h = false \/ (~ asked F_setsid h /\ forall c f, In c [0; 1; 2]%Z -> holds t c f -> tty_of f = None) -> s1 = s0.
Proof.
  intros A. unfold new_session in R. rewrite (sessions_last _ _ _ H) in R. destruct (negb (new_sessions h) && hasf F_pids j); [discriminate R|].
  assert (Z : new_sessions h && (hasf F_setsid j || isatty tty_of t 0 || isatty tty_of t 1 || isatty tty_of t 2) = false).
  { destruct A as [-> |[A B]]; [reflexivity|]. assert (K : forall c, In c [0; 1; 2]%Z -> isatty tty_of t c = false).
    { intros c I. unfold isatty, tty. destruct (t c) as [[f b]|] eqn:TC; [|reflexivity]. rewrite (B c f I); [reflexivity|exists b; exact TC]. }
    rewrite (K 0%Z), (K 1%Z), (K 2%Z) by (cbn; tauto). destruct (hasf F_setsid j) eqn:FS; [|apply andb_false_r]. destruct A. apply (flag_is F_setsid eq_refl). exact FS. }
  rewrite Z in R. injection R as <-. reflexivity.
Qed.
Lemma session_pids : new_sessions h = false -> ~ asked F_pids h.
Proof.
  intros NS A. apply (flag_is F_pids eq_refl) in A. unfold new_session in R. rewrite (sessions_last _ _ _ H), NS, A in R. discriminate R.
Qed.
End Session.
