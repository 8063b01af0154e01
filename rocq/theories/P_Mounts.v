(* Proofs about the mount list (C55). *)
From Verif Require Import S_Jail P_Jail.
Local Open Scope N_scope.
Notation vfs := (hasf F_vfs).
Notation evfs := (hasf F_enter_vfs).
Lemma vfs_step e j a rc j' : api_step e j a = ARet rc j' ->
  (vfs j = true -> vfs j' = true) /\ (evfs j = true -> evfs j' = true).
Proof.
  intros H.
  assert (G : (vfs j', evfs j') = (vfs j, evfs j) -> (vfs j = true -> vfs j' = true) /\ (evfs j = true -> evfs j' = true)).
  { intros E. injection E as -> ->. auto. }
  assert (M : forall s d t f x, minijail_mount_with_data s d t f x j = ARet rc j' -> (vfs j = true -> vfs j' = true) /\ (evfs j = true -> evfs j' = true)).
  { intros s d t f x E. unfold minijail_mount_with_data in E. destruct (negb _) in E; apply ARet_inj in E; destruct E as [_ <-]; auto.
    match goal with |- context [hasf _ ?y] => assert (Y : forall g, hasf g y = hasf g (if hasf F_enter_vfs j then j else setf F_vfs true j)) by reflexivity end.
    rewrite !Y. destruct (hasf F_enter_vfs j) eqn:EV; [auto|]. rewrite !hasf_setf, EV. auto. }
  destruct a; try (apply G; flag_step H); try (eapply M; exact H).
  - apply ARet_inj in H. destruct H as [_ <-]. rewrite !hasf_flags_on. cbn -[hasf]. split; intros ->; auto.
  - unfold api_step, minijail_namespace_enter_vfs in H. destruct (_ <? _)%Z; [discriminate|]. apply ARet_inj in H. destruct H as [_ <-].
    rewrite !hasf_flags_on. change (hasf F_vfs (set_mountns_fd fd j)) with (vfs j). change (hasf F_enter_vfs (set_mountns_fd fd j)) with (evfs j).
    split; intros ->; reflexivity.
  - apply ARet_inj in H. destruct H as [_ <-]. rewrite !hasf_flags_on. cbn -[hasf]. split; intros ->; auto.
  - apply ARet_inj in H. destruct H as [_ <-]. rewrite !hasf_flags_on. cbn -[hasf]. split; intros ->; auto.
  - apply ARet_inj in H. destruct H as [_ <-]. rewrite !hasf_flags_on. cbn -[hasf]. split; intros ->; auto.
  - unfold api_step, minijail_bind in H. destruct (is_valid_bind_path _ _ _) as [[]|] in H; [|apply ARet_inj in H; destruct H as [_ <-]; auto|discriminate].
    eapply M; exact H.
Qed.

Lemma mounts_run e j0 h j : history e j0 h j ->
  j_mounts j = (j_mounts j0 ++ accepted mount_added h)%list /\
  (vfs j0 = true -> vfs j = true) /\ (evfs j0 = true -> evfs j = true) /\
  (accepted mount_added h <> [] -> vfs j = true \/ evfs j = true).
Proof.
  unfold accepted. intros H. induction H as [j|j a rc j1 t j2 E H (A & B & C & D)].
  - cbn [flat_map]. rewrite app_nil_r. repeat split; auto; try congruence.
  - destruct (mount_step _ _ _ _ _ E) as [M1 M2]. destruct (vfs_step _ _ _ _ _ E) as [V1 V2].
    cbn [flat_map fst snd]. rewrite A, M1, app_assoc. split; [reflexivity|]. split; [auto|]. split; [auto|].
    intros NE. destruct (mount_added a rc) as [|m l]; [apply D; exact NE|].
    destruct M2 as [M2|M2]; [discriminate| |]; auto.
Qed.
Lemma mounts_history e h j : history e minijail_new h j ->
  j_mounts j = accepted mount_added h /\ (j_mounts j <> [] -> vfs j = true \/ evfs j = true).
Proof. intros H. apply mounts_run in H. destruct H as (A & _ & _ & D). change (j_mounts minijail_new) with (@nil mountpoint) in A. cbn in A. rewrite A. auto. Qed.
Lemma history_of e : forall l j j', api_run e j l = Some j' -> exists h, history e j h j' /\ map fst h = l.
Proof.
  induction l as [|a t IH]; cbn [api_run]; intros j j' H.
  - injection H as <-. exists []. split; [constructor|reflexivity].
  - destruct (api_step e j a) as [rc k| |] eqn:E; try discriminate. destruct (IH _ _ H) as (h & A & B).
    exists ((a, rc) :: h). split; [econstructor; eauto|cbn; congruence].
Qed.
