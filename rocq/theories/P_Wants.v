(* Proofs: what the configuration calls ask for, minijail_enter demands. *)
From Verif Require Export S_Wants P_Settings P_Enter.
Local Open Scope N_scope.

Lemma asked_on e h j f : history e minijail_new h j -> steady (k_softfail e) f = true -> asked f h -> hasf f j = true.
Proof. intros H S A. apply (flag_asked e h j f H S). exact A. Qed.
Lemma not_asked_off e h j f : history e minijail_new h j -> steady (k_softfail e) f = true -> ~ asked f h -> hasf f j = false.
Proof. intros H S A. destruct (hasf f j) eqn:E; [|reflexivity]. exfalso. apply A. apply (flag_asked e h j f H S). exact E. Qed.
Lemma own_vfs e h j : history e minijail_new h j -> own_mountns h -> hasf F_vfs j = true.
Proof.
  intros H [A|[M E]]; [eapply vfs_asked; eassumption|]. destruct (mounts_history e h j H) as [L V].
  rewrite L in V. destruct (V M) as [V1|V1]; [exact V1|]. exfalso. apply E. apply (flag_asked e h j F_enter_vfs H eq_refl). exact V1.
Qed.
Lemma content_own {A} (c : cell A) a : content c = Some a -> c = Own a.
Proof. destruct c; cbn; congruence. Qed.

Lemma wants_demands g h j c : history (g_env g) minijail_new h j -> wants g h c -> demands g j c.
Proof.
  intros H W. pose proof (one_shots _ _ _ H) as (R & HN & _).
  pose proof (rmode_last _ _ _ H) as RM. change (j_remount_mode minijail_new) with 262144 in RM. fold (root_mode h) in RM.
  destruct W.
  - apply d_mountns. eapply own_vfs; eauto.
  - rewrite <- RM in *. apply d_propagation; [eapply own_vfs; eauto|assumption].
  - rewrite <- RM in *. apply d_remount; [eapply own_vfs; eauto|assumption|].
    destruct (limits _ _ _ H) as (_ & _ & _ & _ & RR & _). rewrite RR. assumption.
  - pose proof (mountns_last _ _ _ H) as V. change (j_mountns_fd minijail_new) with 0%Z in V. rewrite <- V. apply d_enter_mountns. eapply asked_on; eauto.
  - apply d_ipc. eapply asked_on; eauto.
  - apply d_uts. eapply asked_on; eauto.
  - apply d_hostname; [eapply asked_on; eauto|]. apply content_own. congruence.
  - pose proof (netns_last _ _ _ H) as V. change (j_netns_fd minijail_new) with 0%Z in V. rewrite <- V. apply d_enter_net. eapply asked_on; eauto.
  - apply d_net; [eapply asked_on; eauto|eapply not_asked_off; eauto].
  - apply d_cgroup. eapply asked_on; eauto.
  - apply d_keyring. eapply asked_on; eauto.
  - apply d_chroot; [eapply asked_on; eauto|]. apply content_own. congruence.
  - apply d_pivot_bind; [eapply asked_on; eauto|]. apply content_own. congruence.
  - apply d_pivot_cd; [eapply asked_on; eauto|]. apply content_own. congruence.
  - apply d_pivot; eapply asked_on; eauto.
  - apply d_pivot_detach; eapply asked_on; eauto.
  - apply d_pivot_chroot; eapply asked_on; eauto.
  - apply d_cd. destruct H0; [left|right]; eapply asked_on; eauto.
  - pose proof (tmp_last _ _ _ H) as V. change (j_tmpfs_size minijail_new) with 0 in V. rewrite <- V. apply d_tmp. eapply asked_on; eauto.
  - apply d_proc; eapply asked_on; eauto.
  - apply d_proc_detach; [eapply asked_on; eauto|eapply not_asked_off; eauto].
  - pose proof (gid_last _ _ _ H) as V. change (j_gid minijail_new) with 0 in V. rewrite <- V. apply d_gid. eapply asked_on; eauto.
  - pose proof (uid_last _ _ _ H) as V. change (j_uid minijail_new) with 0 in V. rewrite <- V. apply d_uid. eapply asked_on; eauto.
  - apply d_nnp. eapply asked_on; eauto. rewrite H1. reflexivity.
  - apply d_alt; [eapply asked_on; eauto|]. rewrite (alt_last _ _ _ H). assumption.
  - apply d_strict; [eapply asked_on; eauto|assumption].
Qed.
Lemma wants_met g h j kernel t c : history (g_env g) minijail_new h j ->
  run kernel [] (minijail_enter g j) = (Returned tt, t) -> wants g h c -> worked c t.
Proof. intros H R W. eapply fail_closed; [eapply wants_demands; eassumption|eapply run_exec'; exact R]. Qed.
Lemma filter_met g h j kernel t : history (g_env g) minijail_new h j ->
  run kernel [] (minijail_enter g j) = (Returned tt, t) ->
  asked F_seccomp_filter h -> k_softfail (g_env g) = false -> g_asan g = false ->
  exists prog, holds_filter prog (last_of filter_of h None) /\
   (worked (C_prctl_seccomp (content prog)) t \/ exists flags, worked (C_seccomp flags (content prog)) t).
Proof.
  intros H R A S G. exists (j_filter_prog j). split; [apply filter_last with (e := g_env g); assumption|].
  assert (F : hasf F_seccomp_filter j = true) by (eapply asked_on; [exact H|rewrite S; reflexivity|exact A]).
  apply run_exec' in R.
  destruct (hasf F_seccomp_filter_tsync j || hasf F_seccomp_filter_allow_speculation j) eqn:E.
  - right. eexists. eapply (fail_closed g j); [apply d_filter_flags; assumption|exact R].
  - left. apply orb_false_iff in E. destruct E. eapply (fail_closed g j); [apply d_filter; assumption|exact R].
Qed.
