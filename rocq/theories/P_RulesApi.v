(* Proofs: the rules a jail holds are those the configuration calls added. *)
From Verif Require Export S_Rules P_Settings.
Local Open Scope N_scope.

Definition abi_ok (e : kenv) (j : jail) : Prop :=
  (j_fs_rules_landlock_abi j < 0)%Z \/ j_fs_rules_landlock_abi j = k_landlock_abi e.
Lemma note_refer e j : abi_ok e j -> refer_supported (note_abi e j) = (2 <=? k_landlock_abi e)%Z.
Proof.
  unfold abi_ok, refer_supported, note_abi. intros A.
  destruct ((j_fs_rules_landlock_abi j <? 0)%Z && (0 <? k_landlock_abi e)%Z) eqn:E; cbn [j_fs_rules_landlock_abi set_fs_rules_landlock_abi]; [reflexivity|].
  destruct A as [A|A]; [|rewrite A; reflexivity].
  destruct (Z.leb_spec 2 (k_landlock_abi e)), (Z.leb_spec 2 (j_fs_rules_landlock_abi j)); try reflexivity; lia.
Qed.
Lemma note_ok e j : abi_ok e j -> abi_ok e (note_abi e j).
Proof. unfold note_abi. destruct (_ && _); [right; reflexivity|auto]. Qed.
Lemma note_rules e j : j_fs_rules (note_abi e j) = j_fs_rules j.
Proof. unfold note_abi. destruct (_ && _); reflexivity. Qed.
Lemma add_rule e p fl j : abi_ok e j ->
  abi_ok e (add_fs_restriction_path e p fl j) /\ j_fs_rules (add_fs_restriction_path e p fl j) = (j_fs_rules j ++ [FsRule p fl])%list.
Proof.
  intros A. unfold add_fs_restriction_path. destruct (_ =? 0).
  - unfold setup_fs_rules_fd. cbn [snd]. split.
    + apply (note_ok e (set_fs_rules (j_fs_rules j ++ [FsRule p fl])%list j)). exact A.
    + change (j_fs_rules (note_abi e (set_fs_rules (j_fs_rules j ++ [FsRule p fl])%list j)) = (j_fs_rules j ++ [FsRule p fl])%list).
      rewrite note_rules. reflexivity.
  - split; [exact A|reflexivity].
Qed.
Lemma add_rules e l : forall j, abi_ok e j ->
  let j' := fold_left (fun j p => add_fs_restriction_path e (fst p) (snd p) j) l j in
  abi_ok e j' /\ j_fs_rules j' = (j_fs_rules j ++ map (fun p => FsRule (fst p) (snd p)) l)%list.
Proof.
  induction l as [|x l IH]; intros j A; cbn [fold_left map]; [rewrite app_nil_r; auto|].
  destruct (add_rule e (fst x) (snd x) j A) as [A1 R1]. destruct (IH _ A1) as [A2 R2]. cbv zeta in *. split; [exact A2|].
  rewrite R2, R1, <- app_assoc. reflexivity.
Qed.
Lemma rules_step e j a rc j' : a <> A_add_minimalistic_mountns_fs_rules -> api_step e j a = ARet rc j' -> abi_ok e j ->
  abi_ok e j' /\ j_fs_rules j' = (j_fs_rules j ++ rule_added (k_landlock_abi e) a)%list.
Proof.
  intros NM H A.
  destruct (match a with A_fs_rx _ | A_fs_ro _ | A_fs_rw _ | A_fs_advanced_rw _ | A_fs_edit _ | A_fs_access_rights _ _
             | A_enable_default_fs_restrictions | A_add_minimalistic_mountns_fs_rules => true | _ => false end) eqn:Q.
  2: { assert (K : (j_fs_rules j', j_fs_rules_landlock_abi j') = (j_fs_rules j, j_fs_rules_landlock_abi j)).
       { destruct a; try discriminate Q; value_step H. }
       replace (rule_added (k_landlock_abi e) a) with (@nil fs_rule) by (destruct a; try discriminate Q; reflexivity).
       rewrite app_nil_r. split; [|congruence]. unfold abi_ok in *. replace (j_fs_rules_landlock_abi j') with (j_fs_rules_landlock_abi j) by congruence. exact A. }
  destruct a; try discriminate Q; cbn [api_step] in H; apply ARet_inj in H; destruct H as [_ <-].
  - congruence.
  - unfold minijail_enable_default_fs_restrictions. match goal with |- context [fold_left _ ?l j] => destruct (add_rules e l j A) as [A1 R1] end.
    cbv zeta in *. split; [exact A1|]. rewrite R1. reflexivity.
  - apply (add_rule e _ _ j A).
  - apply (add_rule e _ _ j A).
  - apply (add_rule e _ _ j A).
  - unfold minijail_add_fs_restriction_advanced_rw. rewrite (note_refer e j A).
    destruct (add_rule e p (if (2 <=? k_landlock_abi e)%Z then N.lor (N.lor ACCESS_FS_ROUGHLY_READ ACCESS_FS_ROUGHLY_FULL_WRITE) LL_REFER
      else N.lor ACCESS_FS_ROUGHLY_READ ACCESS_FS_ROUGHLY_FULL_WRITE) (note_abi e j) (note_ok _ _ A)) as [A1 R1].
    split; [exact A1|]. rewrite R1, note_rules. cbn [rule_added]. destruct (2 <=? k_landlock_abi e)%Z; reflexivity.
  - apply (add_rule e _ _ j A).
  - apply (add_rule e _ _ j A).
Qed.
Lemma rules_history e h j : history e minijail_new h j -> ~ called A_add_minimalistic_mountns_fs_rules h ->
  j_fs_rules j = rules_added (k_landlock_abi e) h.
Proof.
  intros H NC. assert (G : forall h j j', history e j h j' -> ~ called A_add_minimalistic_mountns_fs_rules h -> abi_ok e j ->
    j_fs_rules j' = (j_fs_rules j ++ rules_added (k_landlock_abi e) h)%list).
  { clear. intros h j j' H. induction H as [j|j a rc j1 h j2 E R IH]; intros NC A; [symmetry; apply app_nil_r|].
    destruct (rules_step e j a rc j1) as [A1 R1]; auto.
    { intros ->. apply NC. exists rc. left. reflexivity. }
    rewrite (IH (fun X => NC (match X with ex_intro _ r i => ex_intro _ r (or_intror i) end)) A1), R1, <- app_assoc. reflexivity. }
  apply (G _ _ _ H NC). left. reflexivity.
Qed.
(* the ruleset *)
Definition fd_ok (e : kenv) (j : jail) : Prop := rules_ok e j /\ (j_fs_rules j <> [] -> j_fs_rules_fd j = k_landlock_fd e).
Lemma fd_ok_add e p fl j : fd_ok e j -> fd_ok e (add_fs_restriction_path e p fl j).
Proof.
  intros [R F]. split; [apply rules_ok_add, R|]. intros _. destruct R as [R _]. unfold add_fs_restriction_path.
  cbn [j_fs_rules_count set_fs_rules]. destruct (j_fs_rules_count j =? 0) eqn:Z.
  - reflexivity.
  - cbn [j_fs_rules_fd set_fs_rules_count set_fs_rules]. apply F. intros X. rewrite X in R. cbn in R. apply N.eqb_neq in Z. congruence.
Qed.
Lemma fd_ok_note e j : fd_ok e j -> fd_ok e (note_abi e j).
Proof. intros [R F]. split; [apply rules_ok_note, R|]. rewrite note_rules. unfold note_abi. destruct (_ && _); exact F. Qed.
Lemma fd_ok_advanced e p j : fd_ok e j -> fd_ok e (minijail_add_fs_restriction_advanced_rw e p j).
Proof. intros R. unfold minijail_add_fs_restriction_advanced_rw. apply fd_ok_add, fd_ok_note, R. Qed.
Lemma fd_ok_default e j : fd_ok e j -> fd_ok e (minijail_enable_default_fs_restrictions e j).
Proof. intros R. unfold minijail_enable_default_fs_restrictions. cbn [fold_left fst snd]. do 10 apply fd_ok_add. exact R. Qed.
Lemma fd_ok_minimalistic e ms : forall j, fd_ok e j -> fd_ok e (minimalistic_rules e ms j).
Proof.
  unfold minimalistic_rules. induction ms as [|m t IH]; intros j R; cbn [fold_left]; auto.
  apply IH. destruct (_ || _); [apply fd_ok_advanced|]; apply fd_ok_add, R.
Qed.
Lemma fd_ok_step e j a rc j' : api_step e j a = ARet rc j' -> fd_ok e j -> fd_ok e j'.
Proof.
  intros H G.
  destruct (match a with A_fs_rx _ | A_fs_ro _ | A_fs_rw _ | A_fs_advanced_rw _ | A_fs_edit _ | A_fs_access_rights _ _
             | A_enable_default_fs_restrictions | A_add_minimalistic_mountns_fs_rules => true | _ => false end) eqn:Q.
  2: { assert (K : (j_fs_rules j', j_fs_rules_count j', j_fs_rules_landlock_abi j', j_fs_rules_fd j') = (j_fs_rules j, j_fs_rules_count j, j_fs_rules_landlock_abi j, j_fs_rules_fd j)).
       { destruct a; try discriminate Q; value_step H. }
       unfold fd_ok, rules_ok in *. injection K as -> -> -> ->. exact G. }
  destruct a; try discriminate Q; cbn [api_step] in H; apply ARet_inj in H; destruct H as [_ <-];
    auto using fd_ok_add, fd_ok_advanced, fd_ok_default.
  unfold minijail_add_minimalistic_mountns_fs_rules. destruct (_ || _); auto. destruct (j_mounts j); auto.
  destruct (hasf F_vfs _); auto 10 using fd_ok_add, fd_ok_advanced, fd_ok_default, fd_ok_minimalistic.
Qed.
Lemma ruleset_history e h j : history e minijail_new h j -> j_fs_rules j <> [] -> j_fs_rules_fd j = k_landlock_fd e.
Proof.
  intros H. assert (G : fd_ok e j).
  { assert (K : forall h j j', history e j h j' -> fd_ok e j -> fd_ok e j').
    { clear. intros h j j' H. induction H; auto. intros G. apply IHhistory. eapply fd_ok_step; eauto. }
    apply (K _ _ _ H). split; [|intros X; destruct (X eq_refl)]. split; [reflexivity|intros X; destruct (X eq_refl)]. }
  apply G.
Qed.
(* file access rules stay enabled unless disabled *)
Lemma enabled_step e j a rc j' : api_step e j a = ARet rc j' -> a <> A_disable_fs_restrictions ->
  hasf F_enable_fs_restrictions j' = hasf F_enable_fs_restrictions j.
Proof.
  intros H NA.
  destruct a; try congruence;
    lazymatch type of H with
    | context [A_parse_seccomp_filters] => cbn [api_step] in H; apply parse_cases in H; destruct H as [->|(? & ? & ? & [->| ->] & ->)];
        unfold clear_seccomp_options; flags_out F_enable_fs_restrictions; cbn -[hasf]; rewrite ?andb_true_r; reflexivity
    | context [A_set_seccomp_filters] => cbn [api_step] in H; apply set_filters_cases in H; destruct H as [->|(? & [->| ->] & ->)];
        unfold clear_seccomp_options; flags_out F_enable_fs_restrictions; cbn -[hasf]; rewrite ?andb_true_r; reflexivity
    | _ => flag_step H
    end.
Qed.
Lemma enabled_history e h j : history e minijail_new h j -> ~ called A_disable_fs_restrictions h -> hasf F_enable_fs_restrictions j = true.
Proof.
  assert (G : forall h j j', history e j h j' -> ~ called A_disable_fs_restrictions h -> hasf F_enable_fs_restrictions j' = hasf F_enable_fs_restrictions j).
  { clear. intros h j j' H. induction H as [j|j a rc j1 h j2 E R IH]; intros NC; [reflexivity|].
    rewrite IH, (enabled_step _ _ _ _ _ E); [reflexivity| |].
    - intros ->. apply NC. exists rc. left. reflexivity.
    - intros (r & I). apply NC. exists r. right. exact I. }
  intros H NC. rewrite (G _ _ _ H NC). reflexivity.
Qed.
