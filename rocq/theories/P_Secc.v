(* Proofs about the seccomp options (C14) and bind paths (C52). *)
From Verif Require Import S_Paths S_Policy S_Text P_CStr P_Util P_Claims P_Verdict P_PolicyEx P_Jail P_Mounts P_Paths.
Local Open Scope N_scope.

(* ---- C52 ---- *)
Lemma under_prefix_true ps path : Forall (fun p => p <> ""%string) ps ->
  exists b, under_prefix ps path = BVal b /\ (b = true <-> exists p, In p ps /\ textually_under p path).
Proof.
  induction ps as [|p t IH]; intros F.
  - exists false. split; [reflexivity|]. split; [discriminate|intros (p & [] & _)].
  - inversion F; subst. destruct (IH H2) as (b & E & K). cbn [under_prefix].
    assert (V : exists c, path_is_parent p path = BVal c).
    { unfold path_is_parent. destruct (has_prefix p path); [|eauto]. destruct (Nat.ltb _ _); [|eauto].
      destruct (String.length p) eqn:L; [|eauto]. destruct p; [congruence|discriminate]. }
    destruct V as [c V]. pose proof (path_parent_spec p path H1) as PS. rewrite V in *. destruct c.
    + exists true. split; [reflexivity|]. split; [intros _|auto]. exists p. split; [left; auto|]. apply PS. reflexivity.
    + exists b. split; [exact E|]. rewrite K. split.
      * intros (q & I1 & T). exists q. split; [right|]; auto.
      * intros (q & [<-|I1] & T); [|eauto]. apply PS in T. discriminate.
Qed.
Lemma canonical_true path rp : is_canonical_path path rp = true <-> resolves_to_itself path rp.
Proof.
  unfold is_canonical_path, resolves_to_itself. destruct rp as [q|].
  - rewrite orb_true_iff, !String.eqb_eq. split; [intros H; exists q; auto|intros (q' & [= <-] & H); auto].
  - split; [discriminate|intros (q & H & _); discriminate].
Qed.
Lemma bind_accepts e ps j src dest w rp rc j' :
  k_block_symlinks e = true -> splits "," (k_bind_prefixes e) ps -> Forall (fun p => p <> ""%string) ps ->
  starts_slash dest = true ->
  api_step e j (A_bind src dest w rp) = ARet rc j' ->
  (rc = 0%Z <-> resolves_to_itself src rp \/ exists p, In p ps /\ textually_under p src) /\
  (rc <> 0%Z -> rc = (- ELOOP)%Z /\ j' = j).
Proof.
  intros B S F D H. apply tokens_spec in S; [|discriminate]. unfold api_step, minijail_bind, is_valid_bind_path in H.
  rewrite B in H. cbn [negb] in H. unfold minijail_mount, minijail_mount_with_data in H. rewrite D in H. cbn [negb] in H.
  pose proof (canonical_true src rp) as C. destruct (is_canonical_path src rp).
  - apply ARet_inj in H. destruct H as [<- _]. split; [|congruence]. split; auto. intros _. left. apply C. reflexivity.
  - destruct (under_prefix_true ps src F) as (b & E & K). rewrite S, E in H. destruct b.
    + apply ARet_inj in H. destruct H as [<- _]. split; [|congruence]. split; auto. intros _. right. apply K. reflexivity.
    + apply ARet_inj in H. destruct H as [<- <-]. split; [|auto]. split; [discriminate|].
      intros [X|X]; [apply C in X|apply K in X]; discriminate.
Qed.
Definition block_env : kenv := KEnv true false true true false false true true "/dev,/proc,/sys" 14 14 true 3 5.
Lemma bind_dotdot : exists j, 
  api_step block_env minijail_new (A_bind "/dev/../etc/shadow" "/x" false (Some "/etc/shadow"%string)) = ARet 0 j /\
  ~ resolves_to_itself "/dev/../etc/shadow" (Some "/etc/shadow"%string) /\
  forall p, In p ["/dev"; "/proc"; "/sys"]%string -> ~ lies_under p "/dev/../etc/shadow".
Proof.
  eexists. split; [reflexivity|]. split.
  - intros (q & [= <-] & [X|X]); discriminate.
  - intros p P. cbn [In] in P. unfold lies_under.
    repeat (destruct P as [<-|P]); try contradiction; intros (r & _ & X); vm_compute in X; discriminate.
Qed.
Lemma bind_case : splits "," "/dev,/proc,/sys" ["/dev"; "/proc"; "/sys"]%string /\
  (exists j, api_step block_env minijail_new (A_bind "/dev/null" "/x" false (Some "/dev/zero"%string)) = ARet 0 j) /\
  (exists j, api_step block_env minijail_new (A_bind "/usr/lib/" "/x" false (Some "/usr/lib"%string)) = ARet 0 j) /\
  api_step block_env minijail_new (A_bind "/bin" "/x" false (Some "/usr/bin"%string)) = ARet (-40) minijail_new.
Proof.
  split; [apply tokens_spec; [discriminate|reflexivity]|]. split; [eexists; reflexivity|]. split; [eexists; reflexivity|reflexivity].
Qed.

(* ---- C14 ---- *)
(* What holds of the seccomp options after every history. *)
Definition opt_inv (e : kenv) (j : jail) : Prop :=
  (hasf F_seccomp_filter_tsync j = true -> logging_allowed e j = true -> k_ret_log e = true) /\
  (hasf F_seccomp_filter_logging j = true -> k_debug_logging e = true).
Notation ts := (hasf F_seccomp_filter_tsync).
Notation lg := (hasf F_seccomp_filter_logging).
Lemma should_use_flags e j : let j' := snd (seccomp_should_use_filters e j) in
  (ts j' = ts j /\ lg j' = lg j /\ fst (seccomp_should_use_filters e j) = true) \/
  (ts j' = false /\ lg j' = false /\ k_softfail e = true /\ fst (seccomp_should_use_filters e j) = false).
Proof.
  assert (C : ts (clear_seccomp_options j) = false /\ lg (clear_seccomp_options j) = false).
  { unfold clear_seccomp_options. split; unfold hasf; cbn -[N.testbit N.clearbit]; rewrite !N.clearbit_eqb; cbn; rewrite ?andb_false_r; reflexivity. }
  unfold seccomp_should_use_filters. destruct (_ && k_softfail e) eqn:E1.
  - right. apply andb_true_iff in E1. cbn [snd fst]. intuition.
  - destruct (_ && (_ || _)) eqn:E2.
    + right. rewrite !andb_true_iff in E2. cbn [snd fst]. intuition.
    + left. destruct (_ && negb _) eqn:E3; cbn [snd fst]; auto. rewrite !hasf_setf. auto.
Qed.
Lemma secc_step e j a rc j' : api_step e j a = ARet rc j' ->
  (ts j' = ts j /\ lg j' = lg j /\ (a = A_log_seccomp_filter_failures -> k_debug_logging e = false)
     /\ a <> A_set_seccomp_filter_tsync) \/
  (ts j' = false /\ lg j' = false /\ k_softfail e = true) \/
  (a = A_set_seccomp_filter_tsync /\ ts j' = true /\ lg j' = lg j /\ (logging_allowed e j = true -> k_ret_log e = true)) \/
  (a = A_log_seccomp_filter_failures /\ ts j' = ts j /\ lg j' = true /\ k_debug_logging e = true /\ (ts j = true -> k_ret_log e = true)).
Proof.
  intros H.
  assert (D : forall j1 j2, (forall f, hasf f j2 = hasf f j1) ->
    (ts j1 = ts j /\ lg j1 = lg j) -> (ts j2 = ts j /\ lg j2 = lg j)) by (intros j1 j2 E; rewrite !E; auto).
  assert (G : (ts j', lg j') = (ts j, lg j) -> a <> A_set_seccomp_filter_tsync -> a <> A_log_seccomp_filter_failures ->
    (ts j' = ts j /\ lg j' = lg j /\ (a = A_log_seccomp_filter_failures -> k_debug_logging e = false) /\ a <> A_set_seccomp_filter_tsync)).
  { intros E N1 N2. repeat split; try congruence. }
  destruct a; try (left; apply G; [flag_step H|discriminate|discriminate]); clear G.
  - right; right; left. unfold api_step, minijail_set_seccomp_filter_tsync in H. destruct (has_filter j); [discriminate|].
    destruct (_ && _) eqn:E; [discriminate|]. apply ARet_inj in H. destruct H as [<- <-]. rewrite !hasf_flags_on. cbn -[hasf].
    split; [reflexivity|]. rewrite orb_true_r. split; [reflexivity|]. rewrite orb_false_r. split; [reflexivity|]. intros L. rewrite L in E. destruct (k_ret_log e); [reflexivity|discriminate].
  - unfold api_step, minijail_log_seccomp_filter_failures in H. destruct (has_filter j); [discriminate|].
    destruct (_ && _) eqn:E; [discriminate|]. destruct (k_debug_logging e) eqn:DL; apply ARet_inj in H; destruct H as [<- <-].
    + right; right; right. rewrite !hasf_flags_on. cbn -[hasf]. rewrite orb_false_r, orb_true_r. repeat split; auto.
      intros L. rewrite L in E. destruct (k_ret_log e); [reflexivity|discriminate].
    + left. repeat split; auto; discriminate.
  - pose proof (should_use_flags e j) as K. unfold api_step, minijail_parse_seccomp_filters in H.
    destruct (seccomp_should_use_filters e j) as [use j1]. cbn [fst snd] in K.
    assert (Q : ts j' = ts j1 /\ lg j' = lg j1).
    { destruct use; cbn [negb] in H; [|apply ARet_inj in H; destruct H as [<- <-]; auto].
      destruct (ps_stream s); [|discriminate]. destruct (compile_filter _ _ _ _); try discriminate.
      apply ARet_inj in H. destruct H as [<- <-]. auto. }
    destruct Q as [-> ->]. destruct K as [(A & B & C)|(A & B & C & _)]; [left|right; left]; repeat split; auto; discriminate.
  - pose proof (should_use_flags e j) as K. unfold api_step, minijail_set_seccomp_filters in H.
    destruct (seccomp_should_use_filters e j) as [use j1]. cbn [fst snd] in K.
    assert (Q : ts j' = ts j1 /\ lg j' = lg j1).
    { destruct use; cbn [negb] in H; [|apply ARet_inj in H; destruct H as [<- <-]; auto].
      destruct (logging_allowed e j1); [discriminate|]. apply ARet_inj in H. destruct H as [<- <-]. auto. }
    destruct Q as [-> ->]. destruct K as [(A & B & C)|(A & B & C & _)]; [left|right; left]; repeat split; auto; discriminate.
Qed.
Lemma opt_inv_run e h j : history e minijail_new h j -> opt_inv e j.
Proof.
  assert (I0 : opt_inv e minijail_new) by (split; intros X; discriminate X).
  intros H. revert I0. induction H as [j|j a rc j1 t j2 E H IH]; auto. intros [I1 I2]. apply IH. clear IH H. unfold opt_inv, logging_allowed in *.
  destruct (secc_step _ _ _ _ _ E) as [(A & B & _)|[(A & B & _)|[(_ & A & B & C)|(_ & A & B & C & D)]]]; rewrite A, B; auto.
  - split; intros X; discriminate X.
Qed.
Lemma requested_run e j0 h j : history e j0 h j ->
  (ts j = true -> ts j0 = true \/ called A_set_seccomp_filter_tsync h) /\
  (lg j = true -> lg j0 = true \/ called A_log_seccomp_filter_failures h).
Proof.
  intros H. induction H as [j|j a rc j1 t j2 E H [IH1 IH2]]; auto.
  assert (K : forall x, called x t -> called x ((a, rc) :: t)) by (intros x [r X]; exists r; right; auto).
  destruct (secc_step _ _ _ _ _ E) as [(A & B & _)|[(A & B & _)|[(-> & A & B & C)|(-> & A & B & C & D)]]]; rewrite A, B in *.
  - split; intros X; [destruct (IH1 X)|destruct (IH2 X)]; auto.
  - split; intros X; [destruct (IH1 X)|destruct (IH2 X)]; auto; discriminate.
  - split; intros X; [|destruct (IH2 X); auto]. right. exists rc. left. auto.
  - split; intros X; [destruct (IH1 X); auto|]. right. exists rc. left. auto.
Qed.
Lemma kept_run e j0 h j : history e j0 h j -> k_softfail e = false ->
  (ts j0 = true \/ called A_set_seccomp_filter_tsync h -> ts j = true) /\
  (lg j0 = true \/ (called A_log_seccomp_filter_failures h /\ k_debug_logging e = true) -> lg j = true).
Proof.
  intros H NS. induction H as [j|j a rc j1 t j2 E H [IH1 IH2]].
  - split; [intros [X|[r []]]|intros [X|[[r []] _]]]; auto.
  - destruct (secc_step _ _ _ _ _ E) as [(A & B & C1 & C2)|[(_ & _ & C)|[(-> & A & B & C)|(-> & A & B & C & D)]]]; try congruence; rewrite A, B in *.
    + split; [intros [X|[r [[= X1 X2]|X]]]|intros [X|[[r [[= X1 X2]|X]] Y]]]; auto; try congruence.
      * apply IH1. right. exists r. auto.
      * rewrite C1 in Y by auto. discriminate.
      * apply IH2. right. split; auto. exists r. auto.
    + split; [auto|]. intros [X|[[r [[= X1 X2]|X]] Y]]; auto. apply IH2. right. split; auto. exists r. auto.
    + split; [|auto]. intros [X|[r [[= X1 X2]|X]]]; auto. apply IH1. right. exists r. auto.
Qed.

Definition expected_options (e : kenv) (logging tsync : bool) : fopts :=
  FOpts (violation_action logging tsync (k_ret_log e) (k_kill_process e)) logging (logging && negb (k_ret_log e))
    (k_allow_dup e) (k_libc_compat e).
Lemma filter_options_eq e j : filter_options e j = expected_options e (k_debug_logging e && logging_allowed e j) (ts j).
Proof. reflexivity. Qed.

Lemma default_action e h j s rc j' st prog :
  history e minijail_new h j -> ps_stream s = Some st ->
  little (b_plat (ps_build s)) = true -> names_ok (b_consts (ps_build s)) ->
  api_step e j (A_parse_seccomp_filters s) = ARet rc j' -> content (j_filter_prog j') = Some prog ->
  exists logging tsync pol,
    let action := violation_action logging tsync (k_ret_log e) (k_kill_process e) in
    let o := FOpts action logging (logging && negb (k_ret_log e)) (k_allow_dup e) (k_libc_compat e) in
    (logging = true -> k_debug_logging e = true /\ (k_default_ret_log e = true \/ called A_log_seccomp_filter_failures h)) /\
    (tsync = true -> called A_set_seccomp_filter_tsync h) /\
    (k_softfail e = false ->
      (called A_set_seccomp_filter_tsync h -> tsync = true) /\
      (k_debug_logging e = true -> k_default_ret_log e = true \/ called A_log_seccomp_filter_failures h -> logging = true)) /\
    (tsync = true -> logging = true -> k_ret_log e = true) /\
    reads_policy (ps_build s) o (ps_files s) st pol /\
    forall d, sd_ok d -> sd_arch d = arch_no (b_plat (ps_build s)) ->
      ~ allowed_by_option (ps_build s) o (sd_nr d) -> Forall (fun r => e_nr r <> sd_nr d) pol ->
      run true prog d = VRet (action_value action) /\ action_value action <> ALLOW.
Proof.
  intros H ST LE NM E P.
  pose proof (opt_inv_run _ _ _ H) as [I1 I2]. pose proof (requested_run _ _ _ _ H) as [R1 R2].
  pose proof (kept_run _ _ _ _ H) as KR.
  unfold api_step, minijail_parse_seccomp_filters in E. pose proof (should_use_flags e j) as K.
  destruct (seccomp_should_use_filters e j) as [use j1] eqn:SU. cbn [fst snd] in K. destruct use; cbn [negb] in E.
  2: { exfalso. unfold seccomp_should_use_filters in SU. apply ARet_inj in E. destruct E as [_ <-].
       destruct (_ && _) in SU; [injection SU as <-; discriminate|]. destruct (_ && _) in SU; [injection SU as <-; discriminate|].
       destruct (_ && _) in SU; discriminate. }
  destruct K as [(A & B & _)|(_ & _ & _ & X)]; [|discriminate]. rewrite ST in E.
  destruct (compile_filter _ _ _ _) as [p| | |] eqn:C in E; try discriminate.
  apply ARet_inj in E. destruct E as [<- <-]. injection P as <-.
  assert (FO : filter_options e j1 = expected_options e (k_debug_logging e && logging_allowed e j) (ts j)).
  { rewrite filter_options_eq, A. unfold logging_allowed. rewrite B. reflexivity. }
  rewrite FO in C. destruct (policy_decides _ _ LE NM _ _ _ C) as (pol & RP & _).
  exists (k_debug_logging e && logging_allowed e j), (ts j), pol. cbn zeta.
  split; [|split; [|split; [|split; [|split]]]].
  - intros L. apply andb_true_iff in L. destruct L as [L1 L2]. split; [auto|]. unfold logging_allowed in L2. apply orb_true_iff in L2.
    destruct L2 as [L2|L2]; [auto|]. destruct (R2 L2) as [X|X]; [discriminate X|auto].
  - intros X. destruct (R1 X) as [Y|Y]; [discriminate Y|auto].
  - intros NS. destruct (KR NS) as [K1 K2]. split; [auto|]. intros DL [X|X]; unfold logging_allowed; rewrite DL.
    + rewrite X. reflexivity.
    + rewrite K2 by auto. apply orb_true_r.
  - intros X L. apply andb_true_iff in L. apply I1; intuition.
  - exact RP.
  - intros d D1 D2 D3 D4. destruct (unlisted_default _ _ LE NM _ _ _ _ d C RP D1 D2 D3 D4) as (X & Y & _). auto.
Qed.
Lemma seccomp_case :
  exists h j s j' prog, history ex_env minijail_new h j /\ map fst h = [A_set_seccomp_filter_tsync] /\
    ps_stream s = Some ex_policy /\ ps_build s = ex_build /\
    api_step ex_env j (A_parse_seccomp_filters s) = ARet 0 j' /\ content (j_filter_prog j') = Some prog /\
    run true prog (ex_d 999 0 0 0) = VRet KILL_PROCESS.
Proof.
  exists [(A_set_seccomp_filter_tsync, 0%Z)]. eexists. exists (PolicySource ex_build no_files (Some ex_policy) None).
  eexists. eexists. split; [econstructor; [reflexivity|constructor]|]. split; [reflexivity|]. split; [reflexivity|]. split; [reflexivity|].
  split; [vm_compute; reflexivity|]. split; [reflexivity|]. vm_compute. reflexivity.
Qed.
Lemma limits_case :
  exists h j, history ex_env minijail_new h j /\
    map fst h = [A_rlimit 7 10 20; A_rlimit 7 1 2; A_rlimit 8 1 2; A_add_to_cgroup "/sys/fs/cgroup/x";
                 A_preserve_fd (-1) 3; A_preserve_fd 5 3; A_enter_chroot "/a"; A_enter_pivot_root "/b";
                 A_capbset_drop 7; A_use_caps 3] /\
    rlimits_in_use j = [Rlimit 7 10 20; Rlimit 8 1 2] /\ fds_in_use j = [(5, 3)%Z] /\
    content (j_chrootdir j) = Some "/a"%string /\ hasf F_use_caps j = true.
Proof.
  match goal with |- context [map fst _ = ?c] => destruct (api_run ex_env minijail_new c) as [j|] eqn:E end; [|vm_compute in E; discriminate].
  destruct (history_of _ _ _ _ E) as (h & A & B). exists h, j. split; [exact A|]. split; [exact B|].
  vm_compute in E. injection E as <-. vm_compute. auto.
Qed.
Lemma mounts_case :
  exists h j, history ex_env minijail_new h j /\
    map fst h = [A_mount "tmpfs" "/tmp" "tmpfs" 0; A_mount "p" "proc" "proc" 0; A_bind "/a" "/b" false None] /\
    j_mounts j = [Mount "tmpfs" "/tmp" "tmpfs" (Some "mode=0755,size=10M"%string) 14;
                  Mount "/a" "/b" "minijail_bind" None 4097] /\ hasf F_vfs j = true.
Proof.
  match goal with |- context [map fst _ = ?c] => destruct (api_run ex_env minijail_new c) as [j|] eqn:E end; [|vm_compute in E; discriminate].
  destruct (history_of _ _ _ _ E) as (h & A & B). exists h, j. split; [exact A|]. split; [exact B|].
  vm_compute in E. injection E as <-. vm_compute. auto.
Qed.
