(* Deserializing arbitrary bytes. *)
From Coq Require Import ZifyBool ZifyNat ZifyN Lia.
From Verif Require Export P_Bytes.
Local Open Scope N_scope.

Definition fr {A} (c : cell A) : Prop := freeable c = true.
Definition from (k n : nat) (P : Prop) : Prop := (k <= n)%nat -> P.
(* How far reading has come: members up to number n are null or owned. *)
Record inv (nf : Prop) (n : nat) (j : jail) : Prop := Inv {
  i_user : from 1 n (fr (j_user j)); i_gids : from 2 n (fr (j_suppl_gid_list j));
  i_chroot : from 3 n (fr (j_chrootdir j)); i_host : from 4 n (fr (j_hostname j));
  i_alt : from 5 n (fr (j_alt_syscall_table j));
  i_filter : fr (j_filter_prog j); i_nofilter : nf -> j_filter_prog j = Null;
  i_others : j_pid_file_path j = Null /\ j_uidmap j = Null /\ j_gidmap j = Null /\
             j_preload_path j = Null /\ j_filename j = Null;
  i_cg : length (j_cgroups j) = 10%nat;
  i_cgfree : from 7 n (j_cgroup_count j <= 10 /\ freeable_first (N.to_nat (j_cgroup_count j)) (j_cgroups j) = true)
}.
Definition closed (nf : Prop) (j : jail) : Prop :=
  minijail_destroy_ok (set_filter_prog Null j) = true /\ (nf -> j_filter_prog j = Null).
Definition fails (nf : Prop) (r : ures) : Prop := exists j', r = UErr j' /\ closed nf j'.

Lemma fr_after {A} (c : cell A) : c = Null -> after_free c = Null.
Proof. intros ->. reflexivity. Qed.
Ltac others j := match goal with H : inv _ _ j |- _ => destruct (i_others _ _ _ H) as (O1 & O2 & O3 & O4 & O5) end.
Lemma clear_fails nf n j : inv nf n j -> fails nf (clear_pointers j).
Proof.
  intros H. others j. eexists. split; [reflexivity|]. split.
  - unfold minijail_destroy_ok. cbn -[N.leb]. rewrite O1, O2, O3, O4, O5. cbn -[N.leb]. replace (0 <=? _) with true by (symmetry; apply N.leb_le; lia). reflexivity.
  - intros F. apply (i_nofilter _ _ _ H F).
Qed.
Ltac carry H := destruct H; constructor; auto.
Lemma gid_fails nf n j : (1 <= n)%nat -> inv nf n j -> fails nf (bad_gid_list j).
Proof.
  intros L H. unfold bad_gid_list. rewrite (i_user _ _ _ H L). apply (clear_fails nf 0).
  destruct H; constructor; cbn; auto; unfold from; lia.
Qed.
Lemma chroot_fails nf n j : (2 <= n)%nat -> inv nf n j -> fails nf (bad_chrootdir j).
Proof.
  intros L H. unfold bad_chrootdir. rewrite (i_gids _ _ _ H L). apply (gid_fails nf 1); [lia|].
  destruct H; constructor; cbn; auto; unfold from in *; try lia. intros _. apply i_user0. lia.
Qed.
Lemma host_fails nf n j : (3 <= n)%nat -> inv nf n j -> fails nf (bad_hostname j).
Proof.
  intros L H. unfold bad_hostname. rewrite (i_chroot _ _ _ H L). apply (chroot_fails nf 2); [lia|].
  destruct H; constructor; cbn; auto; unfold from in *; try lia; intros _; [apply i_user0|apply i_gids0]; lia.
Qed.
Lemma table_fails nf n j : (4 <= n)%nat -> inv nf n j -> fails nf (bad_syscall_table j).
Proof.
  intros L H. unfold bad_syscall_table. rewrite (i_host _ _ _ H L). apply (host_fails nf 3); [lia|].
  destruct H; constructor; cbn; auto; unfold from in *; try lia; intros _; [apply i_user0|apply i_gids0|apply i_chroot0]; lia.
Qed.
Lemma filters_fails nf n j : (5 <= n)%nat -> inv nf n j -> fails nf (bad_filters j).
Proof.
  intros L H. unfold bad_filters. rewrite (i_alt _ _ _ H L). apply (table_fails nf 4); [lia|].
  destruct H; constructor; cbn; auto; unfold from in *; try lia; intros _; [apply i_user0|apply i_gids0|apply i_chroot0|apply i_host0]; lia.
Qed.
(* After the mounts exit the filter is freed but still pointed to. *)
Definition with_filter (x : cell (list instr)) (r : ures) : ures :=
  match r with UErr j => UErr (set_filter_prog x j) | r => r end.
Lemma filters_with x j : bad_filters (set_filter_prog x j) = with_filter x (bad_filters j).
Proof.
  unfold bad_filters, bad_syscall_table, bad_hostname, bad_chrootdir, bad_gid_list.
  cbn [j_alt_syscall_table j_hostname j_chrootdir j_suppl_gid_list j_user set_filter_prog set_alt_syscall_table set_hostname set_chrootdir set_suppl_gid_list set_user].
  destruct (freeable (j_alt_syscall_table j)); [|reflexivity]. destruct (freeable (j_hostname j)); [|reflexivity].
  destruct (freeable (j_chrootdir j)); [|reflexivity]. destruct (freeable (j_suppl_gid_list j)); [|reflexivity].
  destruct (freeable (j_user j)); reflexivity.
Qed.
Lemma mounts_fails nf n j : (5 <= n)%nat -> inv nf n j -> fails nf (bad_mounts j).
Proof.
  intros L H. unfold bad_mounts. rewrite (i_filter _ _ _ H). rewrite filters_with.
  destruct (filters_fails nf n j L H) as (j' & -> & C1 & C2). eexists. split; [reflexivity|]. split; [exact C1|].
  intros F. cbn. rewrite (i_nofilter _ _ _ H F). reflexivity.
Qed.
Lemma rules_fails nf n j : (5 <= n)%nat -> inv nf n j -> fails nf (bad_fs_rules j).
Proof. intros L H. unfold bad_fs_rules. apply (mounts_fails nf n); auto. destruct H; constructor; auto. Qed.
Lemma cgroups_fails nf n j : (7 <= n)%nat -> inv nf n j -> fails nf (bad_cgroups j).
Proof.
  intros L H. unfold bad_cgroups. destruct (i_cgfree _ _ _ H L) as [CL CF]. rewrite CF. apply (rules_fails nf 5); [lia|].
  destruct H; constructor; auto; unfold from in *; cbn -[firstn skipn]; try (intros; lia).
  all: try (intros _; first [apply i_user0|apply i_gids0|apply i_chroot0|apply i_host0|apply i_alt0]; lia).
  rewrite app_length, map_length. rewrite <- app_length, firstn_skipn. exact i_cg0.
Qed.

(* What the result may be: never out of fuel, and destroyable. *)
Definition ends (nf : Prop) (r : ures) : Prop :=
  match r with
  | UOk j' => minijail_destroy_ok j' = true
  | UErr j' => closed nf j'
  | UUb => True
  | UFuel => False
  end.
Lemma fails_ends nf r : fails nf r -> ends nf r.
Proof. intros (j' & -> & C). exact C. Qed.
Lemma consumestr_shrinks s a r : consumestr s = Some (a, r) -> (String.length r < String.length s)%nat.
Proof. intros H. apply consumestr_inv in H. destruct H as [-> _]. rewrite slen_app. cbn. lia. Qed.
Lemma consumebytes_shrinks n s a r : consumebytes n s = Some (a, r) -> (String.length r <= String.length s)%nat.
Proof. intros H. apply consumebytes_inv in H. destruct H as [-> _]. rewrite slen_app. lia. Qed.

Ltac keep H := destruct H; constructor; auto; unfold from in *; cbn; auto; try (intros; lia); try (intros; reflexivity);
    try (intros _; match goal with X : (_ <= _)%nat -> _ |- _ => apply X; lia end).
(* One step for both questions: [good] is any predicate on results that holds
   of the failures. *)
Section Steps.
Variable nf : Prop.
Variable fuel0 : nat.
Definition shorter (s : string) : Prop := (String.length s <= fuel0)%nat.

Definition ann (j : jail) : Prop := nf -> (hasf F_seccomp_filter j && (0 <? j_filter_len j)) = false.
Lemma string_step (R : jail -> Prop) c set bad j s kk : fails nf (bad j) -> shorter s ->
  (c = Null -> R j) -> (forall x, R (set (Own x) j)) ->
  (forall j' s', R j' -> shorter s' -> ends nf (kk j' s')) -> ends nf (load_string c set bad j s kk).
Proof.
  intros B SH NU ST K. unfold load_string.
  assert (G : ends nf (match consumestr s with None => bad j | Some (x, s') => kk (set (Own x) j) s' end)).
  { destruct (consumestr s) as [[x s']|] eqn:E; [|apply fails_ends, B]. apply K; auto. apply consumestr_shrinks in E. unfold shorter in *. lia. }
  destruct c; auto.
Qed.
Lemma gids_step' j s kk : inv nf 1 j -> ann j -> shorter s ->
  (forall j' s', inv nf 2 j' /\ ann j' -> shorter s' -> ends nf (kk j' s')) -> ends nf (load_gids j s kk).
Proof.
  intros H A SH K. unfold load_gids.
  assert (B : ends nf (bad_gid_list j)) by (apply fails_ends, (gid_fails nf 1); auto).
  assert (G : ends nf (if NGROUPS_MAX <? j_suppl_gid_count j then bad_gid_list j
     else match consumebytes (j_suppl_gid_count j * 4) s with None => bad_gid_list j
          | Some (b, s') => kk (set_suppl_gid_list (Own (map val (blocks (N.to_nat (j_suppl_gid_count j)) 4 b))) j) s' end)).
  { destruct (_ <? _); auto. destruct (consumebytes _ s) as [[b s']|] eqn:E; auto. apply K.
    - split; [keep H|exact A].
    - apply consumebytes_shrinks in E. unfold shorter in *. lia. }
  destruct (j_suppl_gid_list j) eqn:E; auto. apply K; auto. split; auto.
  keep H. intros _. rewrite E. reflexivity.
Qed.
Lemma inv_up n m j : inv nf n j -> (n <= m)%nat -> (m = n \/ (n = 5 /\ m = 6)%nat) -> inv nf m j.
Proof.
  intros H L [->|[-> ->]]; auto. destruct H; constructor; auto; unfold from in *; try (intros; lia); intros _;
  first [apply i_user0|apply i_gids0|apply i_chroot0|apply i_host0|apply i_alt0]; lia.
Qed.
Lemma filter_step' j s kk : inv nf 5 j -> shorter s -> (nf -> (hasf F_seccomp_filter j && (0 <? j_filter_len j)) = false) ->
  (forall j' s', inv nf 6 j' -> shorter s' -> ends nf (kk j' s')) -> ends nf (load_filter j s kk).
Proof.
  intros H SH NF K. unfold load_filter.
  destruct (hasf F_seccomp_filter j && (0 <? j_filter_len j)) eqn:Q; [|apply K; auto; apply (inv_up 5); auto].
  destruct (USHRT_MAX <? _); [apply fails_ends, (filters_fails nf 5); auto|].
  destruct (consumebytes _ s) as [[b s']|] eqn:E; [|apply fails_ends, (filters_fails nf 5); auto]. apply K.
  - assert (NN : ~ nf) by (intros F; specialize (NF F); discriminate).
    destruct H; constructor; auto; unfold from in *; cbn; try (intros; lia); try (intros; tauto);
    try (intros _; match goal with X : (_ <= _)%nat -> _ |- _ => apply X; lia end). reflexivity.
  - apply consumebytes_shrinks in E. unfold shorter in *. lia.
Qed.
Lemma inv_frame n j j' : inv nf n j ->
  (j_user j', j_suppl_gid_list j', j_chrootdir j', j_hostname j', j_alt_syscall_table j', j_filter_prog j', j_pid_file_path j', j_uidmap j', j_gidmap j', j_preload_path j', j_filename j', j_cgroups j', j_cgroup_count j') =
  (j_user j, j_suppl_gid_list j, j_chrootdir j, j_hostname j, j_alt_syscall_table j, j_filter_prog j, j_pid_file_path j, j_uidmap j, j_gidmap j, j_preload_path j, j_filename j, j_cgroups j, j_cgroup_count j) ->
  inv nf n j'.
Proof.
  intros H E. injection E as E1 E2 E3 E4 E5 E6 E7 E8 E9 E10 E11 E12 E13.
  destruct H; constructor; rewrite ?E1, ?E2, ?E3, ?E4, ?E5, ?E6, ?E7, ?E8, ?E9, ?E10, ?E11, ?E12, ?E13; auto.
Qed.
Lemma mount_frame s d t f x j rc j' n : minijail_mount_with_data s d t f x j = ARet rc j' -> inv nf n j -> inv nf n j'.
Proof.
  unfold minijail_mount_with_data. destruct (starts_slash d); cbn [negb]; intros H I; apply ARet_inj in H; destruct H as [_ <-]; auto.
  eapply inv_frame; [exact I|]. destruct (hasf F_enter_vfs j); reflexivity.
Qed.
Lemma mounts_step' : forall fuel count j s kk, inv nf 6 j -> shorter s -> (String.length s < fuel)%nat ->
  (forall j' s', inv nf 6 j' -> shorter s' -> ends nf (kk j' s')) -> ends nf (load_mounts fuel count j s kk).
Proof.
  induction fuel as [|fuel IH]; intros count j s kk H SH FU K; [lia|].
  cbn [load_mounts]. destruct (count =? 0); [apply K; auto|].
  assert (B : ends nf (bad_mounts j)) by (apply fails_ends, (mounts_fails nf 6); auto).
  destruct (consumestr s) as [[src s1]|] eqn:E1; auto. apply consumestr_shrinks in E1.
  destruct (consumestr s1) as [[dest s2]|] eqn:E2; auto. apply consumestr_shrinks in E2.
  destruct (consumestr s2) as [[type s3]|] eqn:E3; auto. apply consumestr_shrinks in E3.
  destruct (consumebytes 4 s3) as [[hd s4]|] eqn:E4; auto. apply consumebytes_shrinks in E4.
  assert (W : forall data s5, (String.length s5 <= String.length s4)%nat ->
    ends nf (match consumebytes 8 s5 with
        | None => bad_mounts j
        | Some (fl, s) =>
            match minijail_mount_with_data src dest type (val fl) data j with
            | ARet 0%Z j' => load_mounts fuel (count - 1) j' s kk
            | ARet _ j' => bad_mounts j'
            | _ => UUb
            end
        end)).
  { intros data s5 L5. destruct (consumebytes 8 s5) as [[fl s6]|] eqn:E6; auto. apply consumebytes_shrinks in E6.
    destruct (minijail_mount_with_data _ _ _ _ _ j) as [rc j'| |] eqn:M; try exact Logic.I.
    apply mount_frame with (n := 6%nat) in M; auto.
    destruct rc; [apply IH; auto; unfold shorter in *; lia|apply fails_ends, (mounts_fails nf 6); auto|apply fails_ends, (mounts_fails nf 6); auto]. }
  cbv zeta. destruct (val hd =? 0); [apply W; auto|].
  destruct (consumestr s4) as [[d s5]|] eqn:E5; auto. apply consumestr_shrinks in E5. apply W. lia.
Qed.
Lemma freeable_set : forall n l x, (n < length l)%nat -> freeable_first n l = true -> fr x -> freeable_first (S n) (set_nth_cell n x l) = true.
Proof.
  induction n as [|n IH]; intros [|c l] x L F X; cbn in L; try lia.
  - cbn. rewrite X. reflexivity.
  - cbn [set_nth_cell]. change (freeable c && freeable_first (S n) (set_nth_cell n x l) = true). cbn [freeable_first] in F.
    apply andb_true_iff in F. destruct F as [F1 F2]. rewrite F1. apply IH; auto. lia.
Qed.
Lemma set_nth_cell_length : forall n l x, length (set_nth_cell n x l) = length l.
Proof. induction n as [|n IH]; intros [|c l] x; cbn; auto. Qed.
Lemma cgroups_step' : forall fuel count i j s kk, inv nf 7 j -> i = j_cgroup_count j -> shorter s -> (String.length s < fuel)%nat ->
  (forall j' s', inv nf 7 j' -> shorter s' -> ends nf (kk j' s')) -> ends nf (load_cgroups fuel count i j s kk).
Proof.
  induction fuel as [|fuel IH]; intros count i j s kk H EI SH FU K; [lia|].
  cbn [load_cgroups]. destruct (count =? 0); [apply K; auto|].
  destruct (consumestr s) as [[c s1]|] eqn:E1; [|apply fails_ends, (cgroups_fails nf 7); auto]. apply consumestr_shrinks in E1.
  destruct (N.leb_spec (N.of_nat (length (j_cgroups j))) i) as [L|L]; [exact Logic.I|].
  apply IH; auto; [|subst i; reflexivity|unfold shorter in *; lia|lia].
  rewrite (i_cg _ _ _ H) in L. destruct H. constructor; auto; unfold from in *; cbn -[freeable_first].
  - rewrite set_nth_cell_length. auto.
  - intros _. destruct (i_cgfree0 ltac:(lia)) as [C1 C2]. subst i. split; [lia|].
    replace (N.to_nat (j_cgroup_count j + 1)) with (S (N.to_nat (j_cgroup_count j))) by lia.
    apply freeable_set; auto; [lia|reflexivity].
Qed.
Lemma rule_frame e p fl j n : inv nf n j -> inv nf n (add_fs_restriction_path e p fl j).
Proof.
  intros H. apply add_fs_frame; auto; intros; (eapply inv_frame; [eassumption|reflexivity]).
Qed.
Lemma rules_step' e : forall fuel count j s kk, inv nf 7 j -> shorter s -> (String.length s < fuel)%nat ->
  (forall j' s', inv nf 7 j' -> shorter s' -> ends nf (kk j' s')) -> ends nf (load_rules e fuel count j s kk).
Proof.
  induction fuel as [|fuel IH]; intros count j s kk H SH FU K; [lia|].
  cbn [load_rules]. destruct (count =? 0); [apply K; auto|].
  destruct (consumestr s) as [[c s1]|] eqn:E1; [|apply fails_ends, (rules_fails nf 7); auto; lia]. apply consumestr_shrinks in E1.
  destruct (consumebytes 8 s1) as [[b s2]|] eqn:E2; [|exact Logic.I]. apply consumebytes_shrinks in E2.
  destruct (val b =? 0); [apply fails_ends, (rules_fails nf 7); auto; lia|].
  apply IH; auto using rule_frame; unfold shorter in *; lia.
Qed.
End Steps.

Lemma blocks_length n w : forall s, length (blocks n w s) = n.
Proof. induction n as [|n IH]; intros s; cbn; auto. Qed.
Ltac up H := destruct H; constructor; auto; unfold from in *; cbn; try (intros; lia);
    try (intros _; match goal with X : (_ <= _)%nat -> _ |- _ => apply X; lia end); try (intros; reflexivity); auto.
Lemma unmarshal_ends e j s : minijail_destroy_ok j = true ->
  match minijail_unmarshal e j s with
  | UOk j' => minijail_destroy_ok j' = true
  | UErr j' => if sizeof s <? IMAGE_SIZE then j' = j else closed (announced_filter s = 0) j'
  | UUb => True | UFuel => False
  end.
Proof.
  intros D. unfold minijail_unmarshal. destruct (sizeof s <? IMAGE_SIZE) eqn:SZ; [reflexivity|].
  set (nf := announced_filter s = 0). set (fuel := S (String.length s)).
  assert (SH : shorter (String.length s) (sdrop 2176 s)) by (unfold shorter; rewrite sdrop_length; lia).
  change (ends nf (let j := load_image s in
  load_string (j_user j) set_user clear_pointers j (sdrop 2176 s) (fun j s =>
  load_gids j s (fun j s =>
  load_string (j_chrootdir j) set_chrootdir bad_chrootdir j s (fun j s =>
  load_string (j_hostname j) set_hostname bad_hostname j s (fun j s =>
  load_string (j_alt_syscall_table j) set_alt_syscall_table bad_syscall_table j s (fun j s =>
  load_filter j s (fun j s =>
  load_mounts fuel (j_mounts_count j) (set_mounts_count 0 j) s (fun j s =>
  load_cgroups fuel (j_cgroup_count j) 0 (set_cgroup_count 0 j) s (fun j s =>
  load_rules e fuel (j_fs_rules_count j) (set_fs_rules_count 0 j) s (fun j s =>
  match consumebytes 4 s with
  | None => UUb
  | Some (b, s) =>
      let j := set_fs_rules_fd (to_signed 32 (val b)) j in
      if (j_fs_rules_fd j =? 0)%Z then bad_cgroups j
      else load_string (j_seccomp_policy_path j) set_seccomp_policy_path bad_cgroups j s
             (fun j _ => UOk j)
  end))))))))))).
  cbv zeta. clear j D.
  assert (I0 : inv nf 0 (load_image s)).
  { constructor; unfold from; try (intros; lia); try reflexivity. repeat split; reflexivity. }
  assert (A0 : ann nf (load_image s)).
  { unfold ann, nf, announced_filter. intros F. unfold hasf, load_image. cbn [j_flags j_filter_len flag_bit].
    change (N.testbit (at_offset 0 6 s) 22 && (0 <? at_offset 144 8 s) = false).
    destruct (N.testbit (at_offset 0 6 s) 22); [rewrite F; reflexivity|reflexivity]. }
  revert I0 A0. generalize (load_image s). intros j I0 A0.
  apply (string_step nf (String.length s) (fun j => inv nf 1 j /\ ann nf j)); auto.
  { apply (clear_fails nf 0); auto. }
  { intros E. split; auto. keep I0. intros _. rewrite E. reflexivity. }
  { intros x. split; [keep I0|exact A0]. }
  clear j I0 A0 SH. intros j r [I0 A0] SH. apply (gids_step' nf (String.length s)); auto.
  clear j r I0 A0 SH. intros j r [I0 A0] SH.
  apply (string_step nf (String.length s) (fun j => inv nf 3 j /\ ann nf j)); auto.
  { apply (chroot_fails nf 2); auto. }
  { intros E. split; auto. keep I0. intros _. rewrite E. reflexivity. }
  { intros x. split; [keep I0|exact A0]. }
  clear j r I0 A0 SH. intros j r [I0 A0] SH.
  apply (string_step nf (String.length s) (fun j => inv nf 4 j /\ ann nf j)); auto.
  { apply (host_fails nf 3); auto. }
  { intros E. split; auto. keep I0. intros _. rewrite E. reflexivity. }
  { intros x. split; [keep I0|exact A0]. }
  clear j r I0 A0 SH. intros j r [I0 A0] SH.
  apply (string_step nf (String.length s) (fun j => inv nf 5 j /\ ann nf j)); auto.
  { apply (table_fails nf 4); auto. }
  { intros E. split; auto. keep I0. intros _. rewrite E. reflexivity. }
  { intros x. split; [keep I0|exact A0]. }
  clear j r I0 A0 SH. intros j r [I0 A0] SH. apply (filter_step' nf (String.length s)); auto.
  clear j r I0 A0 SH. intros j r I0 SH. apply (mounts_step' nf (String.length s)); auto; [keep I0|subst fuel; unfold shorter in SH; lia|].
  clear j r I0 SH. intros j r I0 SH. apply (cgroups_step' nf (String.length s)); auto; [|subst fuel; unfold shorter in SH; lia|].
  { keep I0. }
  clear j r I0 SH. intros j r I0 SH. apply (rules_step' nf (String.length s)); auto; [keep I0|subst fuel; unfold shorter in SH; lia|].
  clear j r I0 SH. intros j r I0 SH. destruct (consumebytes 4 r) as [[b r1]|] eqn:E; [|exact Logic.I].
  assert (I1 : inv nf 7 (set_fs_rules_fd (to_signed 32 (val b)) j)) by keep I0.
  revert I1. generalize (set_fs_rules_fd (to_signed 32 (val b)) j). clear j I0. intros j I0.
  assert (B : fails nf (bad_cgroups j)) by (apply (cgroups_fails nf 7); auto).
  destruct (_ =? 0)%Z; [apply fails_ends, B|].
  apply (string_step nf (String.length s) (fun j => inv nf 7 j /\ fr (j_seccomp_policy_path j))); auto.
  { apply consumebytes_shrinks in E. unfold shorter in *. lia. }
  { intros E0. split; auto. rewrite E0. reflexivity. }
  { intros x. split; [keep I0|reflexivity]. }
  intros j' s' [H F] _. cbn [ends]. unfold minijail_destroy_ok. destruct (i_others _ _ _ H) as (-> & -> & -> & -> & ->).
  destruct H. unfold from, fr in *.
  destruct i_cgfree0 as [C1 C2]; [lia|]. rewrite i_filter0, i_user0, i_gids0, i_chroot0, i_host0, i_alt0, F, C2, i_cg0 by lia. cbn [freeable andb].
  replace (_ <=? _) with true by (symmetry; apply N.leb_le; lia). reflexivity.
Qed.
