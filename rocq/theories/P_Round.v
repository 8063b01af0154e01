(* Reading back what was written. *)
From Coq Require Import ZifyBool ZifyNat ZifyN Lia.
From Verif Require Export P_Marshal.
Local Open Scope N_scope.

Lemma load_string_ok c set bad j r kk : live c -> text c -> (c = Null -> set Null j = j) ->
  load_string (mark c) set bad j (opt_text c ++ r)%string kk = kk (set c j) r.
Proof.
  intros L T E. destruct c as [|s| |]; try contradiction; cbn [mark load_string opt_text].
  - rewrite E by auto. reflexivity.
  - rewrite consumestr_cstring by (apply T; reflexivity). reflexivity.
Qed.
Lemma load_gids_ok j0 j r kk : gids_ok j -> (forall l, j_suppl_gid_list j = Own l -> Forall u32 l) -> j_suppl_gid_count j <= 65536 ->
  j_suppl_gid_list j0 = mark (j_suppl_gid_list j) -> j_suppl_gid_count j0 = j_suppl_gid_count j ->
  (j_suppl_gid_list j = Null -> set_suppl_gid_list Null j0 = j0) ->
  load_gids j0 (gid_text j ++ r)%string kk = kk (set_suppl_gid_list (j_suppl_gid_list j) j0) r.
Proof.
  unfold gids_ok, gid_text, load_gids. intros G T C E1 E2 ES. rewrite E1, E2. destruct (j_suppl_gid_list j) as [|l| |]; try contradiction; cbn [mark].
  - rewrite ES by auto. reflexivity.
  - unfold NGROUPS_MAX. destruct (N.ltb_spec 65536 (j_suppl_gid_count j)); [lia|].
    assert (LN : String.length (images (num 4) l) = (length l * 4)%nat) by (apply images_len; intros; apply num_len).
    rewrite consumebytes_app by (rewrite LN; lia). f_equal. f_equal. f_equal.
    rewrite G, Nat2N.id. rewrite <- (sapp_nil_r (images (num 4) l)), (blocks_images (num 4) 4) by (intros; apply num_len).
    rewrite map_map. rewrite <- (map_id l) at 2. apply map_ext_in. intros x X. specialize (T l eq_refl). rewrite Forall_forall in T.
    apply val_num_id. apply (T x X).
Qed.
Lemma load_instr_image i : u16 (code i) -> u8 (jt i) -> u8 (jf i) -> u32 (k i) -> load_instr (instr_image i) = i.
Proof.
  intros A B C D. destruct i as [c t f v]. unfold load_instr. f_equal.
  - change (word 0 2 (instr_image (I c t f v))) with (val (num 2 c)). apply val_num_id, A.
  - change (word 2 1 (instr_image (I c t f v))) with (val (num 1 t)). apply val_num_id, B.
  - change (word 3 1 (instr_image (I c t f v))) with (val (num 1 f)). apply val_num_id, C.
  - change (word 4 4 (instr_image (I c t f v))) with (val (num 4 v)). apply val_num_id, D.
Qed.
Definition sent_filter (j : jail) : cell (list instr) :=
  if hasf F_seccomp_filter j then match j_filter_prog j with Own [] => Null | p => p end else Null.
Lemma load_filter_ok j0 j r kk : filter_ok j ->
  (forall p, j_filter_prog j = Own p -> u16 (N.of_nat (length p)) /\
     Forall (fun i => u16 (code i) /\ u8 (jt i) /\ u8 (jf i) /\ u32 (k i)) p) ->
  hasf F_seccomp_filter j0 = hasf F_seccomp_filter j -> j_filter_len j0 = j_filter_len j ->
  (sent_filter j = Null -> set_filter_prog Null j0 = j0) ->
  load_filter j0 (filter_text j ++ r)%string kk = kk (set_filter_prog (sent_filter j) j0) r.
Proof.
  unfold filter_ok, filter_text, load_filter, sent_filter. intros F T E1 E2 ES. rewrite E1, E2.
  destruct (hasf F_seccomp_filter j); cbn [andb]; [|rewrite ES by auto; reflexivity].
  destruct (j_filter_prog j) as [|p| |]; try contradiction.
  - rewrite F. cbn. rewrite ES by auto. reflexivity.
  - destruct p as [|i p']; [rewrite F; cbn; rewrite ES by auto; reflexivity|]. set (p := i :: p') in *.
    destruct (T p eq_refl) as [T1 T2]. rewrite F. replace (0 <? N.of_nat (length p)) with true by (symmetry; subst p; cbn [length]; apply N.ltb_lt; lia).
    unfold USHRT_MAX. unfold u16 in T1. change (2 ^ 16) with 65536 in T1. destruct (N.ltb_spec 65535 (N.of_nat (length p))); [lia|].
    assert (LN : String.length (images instr_image p) = (length p * 8)%nat) by (apply images_len; reflexivity).
    rewrite consumebytes_app by (rewrite LN; lia). f_equal. f_equal. f_equal. rewrite Nat2N.id.
    rewrite <- (sapp_nil_r (images instr_image p)), (blocks_images instr_image 8) by reflexivity.
    rewrite map_map. rewrite <- (map_id p) at 2. apply map_ext_in. intros x X. rewrite Forall_forall in T2.
    destruct (T2 x X) as (A & B & C & D). apply load_instr_image; auto.
Qed.

(* mounts *)
Lemma set_flags_same j : set_flags (j_flags j) j = j.
Proof. destruct j; reflexivity. Qed.
Lemma setf_same f j : hasf f j = true -> setf f true j = j.
Proof.
  intros H. unfold setf. replace (N.setbit (j_flags j) (flag_bit f)) with (j_flags j); [apply set_flags_same|].
  apply N.bits_inj. intros n. rewrite N.setbit_eqb. destruct (N.eqb_spec (flag_bit f) n) as [<-|]; [exact H|reflexivity].
Qed.
Definition add_mounts (j : jail) (ms : list mountpoint) : jail :=
  set_mounts_count (j_mounts_count j + N.of_nat (length ms)) (set_mounts (j_mounts j ++ ms)%list j).
Definition m_typed (m : mountpoint) : Prop :=
  no_nul (m_src m) /\ no_nul (m_dest m) /\ no_nul (m_type m) /\ (forall d, m_data m = Some d -> no_nul d) /\ u64 (m_flags m).
Lemma add_one j m : mount_ok m -> hasf F_enter_vfs j = true \/ hasf F_vfs j = true ->
  minijail_mount_with_data (m_src m) (m_dest m) (m_type m) (m_flags m) (m_data m) j = ARet 0 (add_mounts j [m]).
Proof.
  intros (A & B & C) V. unfold minijail_mount_with_data. rewrite A. cbn [negb].
  replace (m_flags m =? 0) with false by (symmetry; apply N.eqb_neq; auto).
  assert (J : (if hasf F_enter_vfs j then j else setf F_vfs true j) = j).
  { destruct (hasf F_enter_vfs j) eqn:E; auto. destruct V as [V|V]; [discriminate|]. apply setf_same, V. }
  rewrite J.
  assert (D : match m_data m with None | Some EmptyString => if String.eqb (m_type m) "tmpfs" then Some tmpfs_default else m_data m | _ => m_data m end = m_data m).
  { destruct (m_data m) as [[|c d]|]; auto; destruct (String.eqb_spec (m_type m) "tmpfs") as [T|T]; auto; destruct (C T); congruence. }
  rewrite D. destruct m; reflexivity.
Qed.
Lemma mtext_len m : (1 <= String.length (mtext m))%nat.
Proof. unfold mtext, mount_chunks. cbn [app images]. rewrite slen_app, cstring_len. lia. Qed.
Lemma load_mounts_ok kk r : forall ms fuel j, Forall mount_ok ms -> Forall m_typed ms ->
  (ms <> [] -> hasf F_enter_vfs j = true \/ hasf F_vfs j = true) -> (length ms <= fuel)%nat ->
  load_mounts fuel (N.of_nat (length ms)) j (images mtext ms ++ r)%string kk = kk (add_mounts j ms) r.
Proof.
  induction ms as [|m ms IH]; intros fuel j OK TY V FU.
  - destruct fuel; cbn; unfold add_mounts; cbn [length]; rewrite app_nil_r, N.add_0_r; destruct j; reflexivity.
  - inversion OK as [|? ? O1 O2]; inversion TY as [|? ? T1 T2]; subst. destruct T1 as (A & B & C & D & F).
    destruct fuel as [|fuel]; [cbn in FU; lia|]. cbn [length] in FU.
    specialize (V ltac:(discriminate)).
    assert (NX : forall s, match minijail_mount_with_data (m_src m) (m_dest m) (m_type m) (val (num 8 (m_flags m))) (m_data m) j with
            | ARet 0%Z j' => load_mounts fuel (N.of_nat (length (m :: ms)) - 1) j' s kk
            | ARet _ j' => bad_mounts j' | _ => UUb end = load_mounts fuel (N.of_nat (length ms)) (add_mounts j [m]) s kk).
    { intros s. rewrite val_num_id by exact F. rewrite add_one by auto. f_equal. cbn [length]. lia. }
    cbn [load_mounts]. replace (N.of_nat (length (m :: ms)) =? 0) with false by (symmetry; apply N.eqb_neq; cbn [length]; lia).
    cbn [images]. change (mtext m) with (cat_all (mount_chunks m)). unfold mount_chunks. cbn [app images]. rewrite !sapp_assoc.
    rewrite consumestr_cstring by auto. rewrite consumestr_cstring by auto. rewrite consumestr_cstring by auto.
    rewrite consumebytes_app by (rewrite int32_len; reflexivity).
    assert (IHA : load_mounts fuel (N.of_nat (length ms)) (add_mounts j [m]) (images mtext ms ++ r)%string kk = kk (add_mounts j (m :: ms)) r).
    { rewrite (IH fuel (add_mounts j [m]) O2 T2); [|intros _; exact V|lia]. f_equal. unfold add_mounts. cbn [j_mounts j_mounts_count set_mounts set_mounts_count length]. rewrite <- app_assoc. cbn [app]. replace (j_mounts_count j + N.of_nat 1 + N.of_nat (length ms)) with (j_mounts_count j + N.of_nat (S (length ms))) by lia. reflexivity. }
    destruct (m_data m) as [d|] eqn:MD.
    + replace (val (int32 1) =? 0) with false by reflexivity. cbn [app images append]; rewrite ?sapp_assoc; cbn [append].
      rewrite consumestr_cstring by (apply D; reflexivity). rewrite consumebytes_app by (rewrite num_len; reflexivity).
      rewrite NX. exact IHA.
    + replace (val (int32 0) =? 0) with true by reflexivity. cbn [app images append]; rewrite ?sapp_assoc; cbn [append].
      rewrite consumebytes_app by (rewrite num_len; reflexivity).
      rewrite NX. exact IHA.
Qed.

(* cgroups *)
Lemma set_nth_cell_app x y done rest : set_nth_cell (length done) x (done ++ y :: rest)%list = (done ++ x :: rest)%list.
Proof. induction done as [|c d IH]; cbn [length set_nth_cell app]; auto. rewrite IH. reflexivity. Qed.
Lemma load_cgroups_ok kk r tail : forall use done fuel j, Forall (fun c => exists s, c = Own s) use -> Forall text use ->
  j_cgroups j = (done ++ map mark use ++ tail)%list -> (length use <= fuel)%nat ->
  load_cgroups fuel (N.of_nat (length use)) (N.of_nat (length done)) j (images opt_text use ++ r)%string kk =
  kk (set_cgroup_count (j_cgroup_count j + N.of_nat (length use)) (set_cgroups (done ++ use ++ tail)%list j)) r.
Proof.
  induction use as [|c use IH]; intros done fuel j OW TX E FU.
  - cbn [map app] in *. replace (j_cgroup_count j + N.of_nat (length (@nil (cell string)))) with (j_cgroup_count j) by (cbn; lia).
    rewrite <- E. destruct fuel; destruct j; reflexivity.
  - inversion OW as [|? ? [s ->] O2]; inversion TX as [|? ? T1 T2]; subst. specialize (T1 s eq_refl).
    destruct fuel as [|fuel]; [cbn in FU; lia|]. cbn [length] in FU. cbn [load_cgroups].
    replace (N.of_nat (length (Own s :: use)) =? 0) with false by (symmetry; apply N.eqb_neq; cbn [length]; lia).
    cbn [images opt_text]. rewrite sapp_assoc, consumestr_cstring by auto.
    assert (LE : (N.of_nat (length (j_cgroups j)) <=? N.of_nat (length done)) = false).
    { apply N.leb_gt. rewrite E, !app_length. cbn [map length]. lia. }
    rewrite LE. rewrite Nat2N.id. rewrite E. cbn [map mark app]. rewrite set_nth_cell_app.
    replace (N.of_nat (length (Own s :: use)) - 1) with (N.of_nat (length use)) by (cbn [length]; lia).
    replace (N.of_nat (length done) + 1) with (N.of_nat (length (done ++ [Own s]))) by (rewrite app_length; cbn [length]; lia).
    rewrite IH; auto; [|cbn [j_cgroups set_cgroups set_cgroup_count]; rewrite <- app_assoc; reflexivity|lia].
    f_equal. rewrite <- app_assoc. cbn [app length j_cgroup_count set_cgroups set_cgroup_count].
    replace (j_cgroup_count j + 1 + N.of_nat (length use)) with (j_cgroup_count j + N.of_nat (S (length use))) by lia. reflexivity.
Qed.

(* filesystem rules *)
Lemma load_rules_ok e kk r : forall rs fuel j, Forall (fun r => no_nul (fr_path r) /\ u64 (fr_flags r)) rs ->
  Forall (fun r => fr_flags r <> 0) rs ->
  ((j_fs_rules_landlock_abi j < 0)%Z -> rs = [] \/ (k_landlock_abi e <= 0)%Z) -> (length rs <= fuel)%nat ->
  exists fd, load_rules e fuel (N.of_nat (length rs)) j (images rtext rs ++ r)%string kk =
  kk (set_fs_rules_fd fd (set_fs_rules_count (j_fs_rules_count j + N.of_nat (length rs)) (set_fs_rules (j_fs_rules j ++ rs)%list j))) r.
Proof.
  induction rs as [|x rs IH]; intros fuel j TY NZ AB FU.
  - exists (j_fs_rules_fd j). destruct fuel; cbn [length load_rules images]; rewrite app_nil_r, N.add_0_r; destruct j; reflexivity.
  - inversion TY as [|? ? [A B] T2]; inversion NZ as [|? ? N1 N2]; subst.
    destruct fuel as [|fuel]; [cbn in FU; lia|]. cbn [length] in FU. cbn [load_rules].
    replace (N.of_nat (length (x :: rs)) =? 0) with false by (symmetry; apply N.eqb_neq; cbn [length]; lia).
    cbn [images]. change (rtext x) with (cat_all (rule_chunks x)). unfold rule_chunks. cbn [images]. rewrite !sapp_assoc.
    rewrite consumestr_cstring by auto. rewrite consumebytes_app by (rewrite num_len; reflexivity).
    rewrite val_num_id by exact B. replace (fr_flags x =? 0) with false by (symmetry; apply N.eqb_neq; auto). cbn [append].
    replace (N.of_nat (length (x :: rs)) - 1) with (N.of_nat (length rs)) by (cbn [length]; lia).
    assert (ST : exists fd, add_fs_restriction_path e (fr_path x) (fr_flags x) j =
       set_fs_rules_fd fd (set_fs_rules_count (j_fs_rules_count j + 1) (set_fs_rules (j_fs_rules j ++ [x])%list j))).
    { unfold add_fs_restriction_path, setup_fs_rules_fd, note_abi. replace (FsRule (fr_path x) (fr_flags x)) with x by (destruct x; reflexivity).
      cbn [j_fs_rules_count set_fs_rules snd j_fs_rules_landlock_abi].
      destruct (j_fs_rules_count j =? 0); [|exists (j_fs_rules_fd j); destruct j; reflexivity].
      destruct ((j_fs_rules_landlock_abi j <? 0)%Z && (0 <? k_landlock_abi e)%Z) eqn:Q.
      - exfalso. destruct AB as [AB|AB]; [lia|discriminate|lia].
      - exists (k_landlock_fd e). reflexivity. }
    destruct ST as [fd ->].
    match goal with |- context [load_rules e fuel _ ?j1 _ _] => destruct (IH fuel j1 T2 N2) as [fd' ->] end; [|lia|].
    { cbn. intros L. destruct (AB L) as [|K]; [discriminate|auto]. }
    exists fd'. f_equal. cbn [j_fs_rules j_fs_rules_count set_fs_rules set_fs_rules_count set_fs_rules_fd].
    rewrite <- app_assoc. cbn [app length].
    replace (j_fs_rules_count j + 1 + N.of_nat (length rs)) with (j_fs_rules_count j + N.of_nat (S (length rs))) by lia. reflexivity.
Qed.

Lemma images_ge {A} (f : A -> string) l : (forall x, In x l -> (1 <= String.length (f x))%nat) -> (length l <= String.length (images f l))%nat.
Proof.
  induction l as [|x l IH]; intros H; cbn [length images]; [lia|]. rewrite slen_app. specialize (H x (or_introl eq_refl)) as H1.
  specialize (IH (fun y Y => H y (or_intror Y))). lia.
Qed.
Lemma rtext_len x : (1 <= String.length (rtext x))%nat.
Proof. unfold rtext, rule_chunks. cbn [images]. rewrite slen_app, cstring_len. lia. Qed.

Ltac fields :=
  cbv [j_flags j_uid j_gid j_usergid j_user j_suppl_gid_count j_suppl_gid_list j_caps j_cap_bset j_initpid j_mountns_fd
       j_netns_fd j_fs_rules_fd j_fs_rules_landlock_abi j_chrootdir j_pid_file_path j_uidmap j_gidmap j_hostname
       j_preload_path j_filename j_filter_len j_filter_prog j_alt_syscall_table j_mounts j_mounts_count j_remount_mode
       j_remounts j_tmpfs_size j_fs_rules j_fs_rules_count j_cgroups j_cgroup_count j_rlimits j_rlimit_count
       j_securebits_skip_mask j_hooks j_preserved_fds j_preserved_fd_count j_seccomp_policy_path
       set_user set_suppl_gid_list set_chrootdir set_hostname set_alt_syscall_table set_filter_prog set_mounts
       set_mounts_count set_cgroups set_cgroup_count set_fs_rules set_fs_rules_count set_fs_rules_fd
       set_seccomp_policy_path set_preload_path set_filename set_pid_file_path set_uidmap set_gidmap set_remounts set_hooks mark].
(* the exits, from a state whose blocks are all live *)
Lemma live_free {A} (c : cell A) : live c -> freeable c = true.
Proof. destruct c; cbn; intros H; auto; contradiction. Qed.
Definition blocks_live (j : jail) : Prop :=
  live (j_user j) /\ live (j_suppl_gid_list j) /\ live (j_chrootdir j) /\ live (j_hostname j) /\
  live (j_alt_syscall_table j) /\ live (j_filter_prog j).
Lemma bl_fd f j : blocks_live j -> blocks_live (set_fs_rules_fd f j).
Proof. exact (fun H => H). Qed.
Lemma bl_count f j : blocks_live j -> blocks_live (set_fs_rules_count f j).
Proof. exact (fun H => H). Qed.
Lemma bl_rules f j : blocks_live j -> blocks_live (set_fs_rules f j).
Proof. exact (fun H => H). Qed.
Lemma rules_exit j : blocks_live j -> exists j', bad_fs_rules j = UErr j'.
Proof.
  intros (A & B & C & D & E & F). unfold bad_fs_rules, bad_mounts, bad_filters, bad_syscall_table, bad_hostname, bad_chrootdir, bad_gid_list.
  cbn [j_filter_prog j_alt_syscall_table j_hostname j_chrootdir j_suppl_gid_list j_user set_fs_rules set_filter_prog set_alt_syscall_table set_hostname set_chrootdir set_suppl_gid_list].
  rewrite !live_free by auto. eexists. reflexivity.
Qed.
Lemma cgroups_exit j : blocks_live j -> freeable_first (N.to_nat (j_cgroup_count j)) (j_cgroups j) = true -> exists j', bad_cgroups j = UErr j'.
Proof. intros B F. unfold bad_cgroups. rewrite F. apply rules_exit. exact B. Qed.
Lemma freeable_owned l r : Forall (fun c => exists s, c = Own s) l -> freeable_first (length l) (l ++ r)%list = true.
Proof. induction 1 as [|c l [s ->] _ IH]; cbn; auto. Qed.
Lemma load_rules_bad e kk r : forall rs fuel j, Forall (fun r => no_nul (fr_path r) /\ u64 (fr_flags r)) rs ->
  Exists (fun r => ~ fr_flags r <> 0) rs -> (length rs <= fuel)%nat -> blocks_live j ->
  exists j', load_rules e fuel (N.of_nat (length rs)) j (images rtext rs ++ r)%string kk = UErr j'.
Proof.
  induction rs as [|x rs IH]; intros fuel j TY EX FU BL; [inversion EX|].
  inversion TY as [|? ? [A B] T2]; subst.
  destruct fuel as [|fuel]; [cbn in FU; lia|]. cbn [length] in FU. cbn [load_rules].
  replace (N.of_nat (length (x :: rs)) =? 0) with false by (symmetry; apply N.eqb_neq; cbn [length]; lia).
  cbn [images]. change (rtext x) with (cat_all (rule_chunks x)). unfold rule_chunks. cbn [images]. rewrite !sapp_assoc.
  rewrite consumestr_cstring by auto. rewrite consumebytes_app by (rewrite num_len; reflexivity).
  rewrite val_num_id by exact B. destruct (N.eqb_spec (fr_flags x) 0) as [Z|NZ]; [apply rules_exit, BL|]. cbn [append].
  replace (N.of_nat (length (x :: rs)) - 1) with (N.of_nat (length rs)) by (cbn [length]; lia).
  apply IH; auto; [inversion EX; subst; [contradiction|auto]|lia|].
  apply add_fs_frame; auto.
Qed.

Theorem unmarshal_any addr e e' j0 j : nonnull addr -> sound e j -> c_typed j ->
  k_landlock_abi e' = k_landlock_abi e ->
  j_suppl_gid_count j <= 65536 ->
  (Forall (fun r => fr_flags r <> 0) (j_fs_rules j) /\ j_fs_rules_fd j <> 0%Z /\
   minijail_unmarshal e' j0 (image addr j ++ body j)%string = UOk (received j)) \/
  (~ (Forall (fun r => fr_flags r <> 0) (j_fs_rules j) /\ j_fs_rules_fd j <> 0%Z) /\
   exists j', minijail_unmarshal e' j0 (image addr j ++ body j)%string = UErr j').
Proof.
  intros NN SD TY KE GC.
  set (P := fun r : ures => (Forall (fun r => fr_flags r <> 0) (j_fs_rules j) /\ j_fs_rules_fd j <> 0%Z /\ r = UOk (received j)) \/
    (~ (Forall (fun r => fr_flags r <> 0) (j_fs_rules j) /\ j_fs_rules_fd j <> 0%Z) /\ exists j', r = UErr j')).
  change (P (minijail_unmarshal e' j0 (image addr j ++ body j)%string)).
  pose proof SD as (SH & (L1 & L2 & _ & _ & _ & L6 & _ & _ & L9 & L10) & G & F & [C1 C2] & (M1 & M2 & M3) & (R1 & R2)).
  pose proof SH as (_ & S2 & _ & _ & S5 & _). unfold MAX_CGROUPS in S2.
  pose proof TY as (T1 & T2 & T3 & T4 & T5 & T6 & T7 & T8 & T9 & T10 & T11 & T12 & T13 & T14 & T15 & T16 & T17 & T18 & T19 & T20 & T21 & T22 & T23 & T24 & T25 & T26 & T27 & T28 & T29).
  unfold minijail_unmarshal.
  assert (LN : String.length (image addr j) = 2176%nat) by (apply image_len; auto).
  assert (SZ : (sizeof (image addr j ++ body j) <? IMAGE_SIZE) = false).
  { unfold sizeof, IMAGE_SIZE. rewrite slen_app, LN. apply N.ltb_ge. lia. }
  rewrite SZ. rewrite (load_image_ok addr NN e j) by auto.
  replace (sdrop 2176 (image addr j ++ body j)%string) with (body j) by (rewrite <- LN at 1; symmetry; apply sdrop_app).
  assert (FU : (length (j_mounts j) <= S (String.length (image addr j ++ body j)) /\
     length (firstn (N.to_nat (j_cgroup_count j)) (j_cgroups j)) <= S (String.length (image addr j ++ body j)) /\
     length (j_fs_rules j) <= S (String.length (image addr j ++ body j)))%nat).
  { assert (X1 := images_ge mtext (j_mounts j) (fun x _ => mtext_len x)).
    assert (X2 := images_ge rtext (j_fs_rules j) (fun x _ => rtext_len x)).
    assert (X3 : (length (firstn (N.to_nat (j_cgroup_count j)) (j_cgroups j)) <= 10)%nat) by (rewrite firstn_length; lia).
    rewrite slen_app, LN. unfold body. rewrite !slen_app. clear - X1 X2 X3. lia. }
  destruct FU as (FU1 & FU2 & FU3). set (fuel := S (String.length (image addr j ++ body j))) in *. clearbody fuel.
  unfold body. clear SZ LN.
  change (j_user (stale_jail j)) with (mark (j_user j)).
  rewrite load_string_ok; [|auto|auto|intros E; unfold stale_jail; rewrite E; fields; reflexivity]. cbv beta.
  rewrite (load_gids_ok _ j); [|auto|auto|auto|reflexivity|reflexivity|intros E; unfold stale_jail; rewrite E; fields; reflexivity]. cbv beta.
  match goal with |- context [load_string (j_chrootdir ?x)] => change (j_chrootdir x) with (mark (j_chrootdir j)) end.
  rewrite load_string_ok; [|auto|auto|intros E; unfold stale_jail; rewrite E; fields; reflexivity]. cbv beta.
  match goal with |- context [load_string (j_hostname ?x)] => change (j_hostname x) with (mark (j_hostname j)) end.
  rewrite load_string_ok; [|auto|auto|intros E; unfold stale_jail; rewrite E; fields; reflexivity]. cbv beta.
  match goal with |- context [load_string (j_alt_syscall_table ?x)] => change (j_alt_syscall_table x) with (mark (j_alt_syscall_table j)) end.
  rewrite load_string_ok; [|auto|auto|intros E; unfold stale_jail; rewrite E; fields; reflexivity]. cbv beta.
  rewrite (load_filter_ok _ j); [|auto|auto|reflexivity|reflexivity|reflexivity]. cbv beta.
  match goal with |- context [load_mounts fuel (j_mounts_count ?x)] => change (j_mounts_count x) with (j_mounts_count j) end.
  rewrite M2. rewrite load_mounts_ok; [|auto|auto|exact M3|auto]. cbv beta. unfold add_mounts.
  match goal with |- context [load_cgroups fuel (j_cgroup_count ?x)] => change (j_cgroup_count x) with (j_cgroup_count j) end.
  set (use := firstn (N.to_nat (j_cgroup_count j)) (j_cgroups j)) in *.
  set (rest := skipn (N.to_nat (j_cgroup_count j)) (j_cgroups j)) in *.
  assert (LU : j_cgroup_count j = N.of_nat (length use)) by (subst use; rewrite firstn_length; lia).
  assert (SP : j_cgroups j = (use ++ rest)%list) by (symmetry; apply firstn_skipn).
  assert (MR : map mark rest = rest).
  { clear -C2. induction C2 as [|c l -> _ IH]; cbn; f_equal; auto. }
  assert (TU : Forall text use) by (rewrite SP in T25; apply Forall_app in T25; tauto).
  match goal with |- context [load_cgroups fuel (j_cgroup_count j) 0 ?x] =>
    assert (EC : j_cgroups x = ([] ++ map mark use ++ rest)%list) end.
  { cbn. rewrite SP, map_app, MR. reflexivity. }
  rewrite LU at 1. change 0 with (N.of_nat (length (@nil (cell string)))) at 1.
  rewrite (load_cgroups_ok _ _ rest); [|auto|auto|exact EC|auto]. cbv beta. clear EC.
  match goal with |- context [load_rules e' fuel (j_fs_rules_count ?x)] => change (j_fs_rules_count x) with (j_fs_rules_count j) end.
  rewrite R1.
  assert (LF : live (sent_filter j)).
  { unfold sent_filter. destruct (hasf F_seccomp_filter j); [|exact Logic.I]. clear - F. unfold filter_ok in F. destruct (j_filter_prog j) as [|[|]| |]; try exact Logic.I; contradiction. }
  assert (LG : live (j_suppl_gid_list j)).
  { clear - G. unfold gids_ok in G. destruct (j_suppl_gid_list j); try exact Logic.I; contradiction. }
  match goal with |- context [load_rules e' fuel _ ?x (_ ++ ?r)%string ?kk] => assert (BL : blocks_live x) by (unfold blocks_live; split; [exact L1|]; split; [exact LG|]; split; [exact L2|]; split; [exact L6|]; split; [exact L9|]; exact LF) end.
  destruct (Forall_Exists_dec (fun r => fr_flags r <> 0) (fun r => match N.eq_dec (fr_flags r) 0 with left p => right (fun n => n p) | right n => left n end) (j_fs_rules j)) as [NZ|EX].
  2: { unfold P. right. split; [intros [X _]; clear - X EX; rewrite Forall_forall in X; rewrite Exists_exists in EX; destruct EX as (x & I1 & I2); exact (I2 (X x I1))|].
       apply load_rules_bad; auto. }
  match goal with |- context [load_rules e' fuel _ ?x (_ ++ ?r)%string ?kk] => destruct (load_rules_ok e' kk r (j_fs_rules j) fuel x T24 NZ) as [fd ->] end; [|auto|].
  { rewrite KE. cbn. intros L. destruct (j_fs_rules j); [auto|]. right. apply R2; [discriminate|auto]. }
  rewrite consumebytes_app by (rewrite int32_len; reflexivity). cbv zeta.
  rewrite signed_int32 by auto. cbn [j_fs_rules_fd set_fs_rules_fd].
  destruct (Z.eqb_spec (j_fs_rules_fd j) 0) as [FD|FD].
  { unfold P. right. split; [tauto|]. apply cgroups_exit; [apply bl_fd, bl_fd, bl_count, bl_rules, BL|].
    match goal with |- freeable_first (N.to_nat ?a) ?b = true => change a with (0 + N.of_nat (length use)); change b with ([] ++ use ++ rest)%list end.
    cbn [app]. rewrite N.add_0_l, Nat2N.id. apply freeable_owned. exact C1. }
  unfold P. clear P. left. split; [exact NZ|]. split; [exact FD|].
  match goal with |- context [load_string (j_seccomp_policy_path ?x)] => change (j_seccomp_policy_path x) with (mark (j_seccomp_policy_path j)) end.
  rewrite <- (sapp_nil_r (opt_text (j_seccomp_policy_path j))).
  rewrite load_string_ok; [|auto|auto|intros E; unfold stale_jail; rewrite E; fields; reflexivity]. cbv beta. f_equal.
  unfold received, stale_jail. fold (sent_filter j).
  clearbody use rest. clear - SP M2 R1 LU. revert SP M2 R1 LU. fields. intros SP M2 R1 LU.
  cbn [app]. rewrite !N.add_0_l, SP, M2, R1, LU. reflexivity.
Qed.
Theorem unmarshal_image addr e e' j0 j : nonnull addr -> sound e j -> c_typed j ->
  k_landlock_abi e' = k_landlock_abi e ->
  j_suppl_gid_count j <= 65536 -> Forall (fun r => fr_flags r <> 0) (j_fs_rules j) -> j_fs_rules_fd j <> 0%Z ->
  minijail_unmarshal e' j0 (image addr j ++ body j)%string = UOk (received j).
Proof.
  intros NN SD TY KE GC NZ FD. destruct (unmarshal_any addr e e' j0 j NN SD TY KE GC) as [(_ & _ & H)|[H _]]; auto. destruct H. auto.
Qed.
