(* Exactly when deserializing commits a memory error. *)
From Coq Require Import ZifyBool ZifyNat ZifyN Lia.
From Verif Require Export P_Safe.
Local Open Scope N_scope.

Lemma fails_not_ub nf r : fails nf r -> r <> UUb.
Proof. intros (j' & -> & _). discriminate. Qed.
Definition no_null (A : Type) (c : cell A) : N := match c with Null => 0 | _ => 1 end.
Arguments no_null {A} c.

Lemma strings_0 s r : strings 0 s r -> s = r.
Proof. intros H. inversion H as [|n a s0 r0 NA R E]; subst; auto. lia. Qed.
Lemma strings_S n s r : n <> 0 -> strings n s r -> exists a s1, no_nul a /\ s = (a ++ String NUL s1)%string /\ strings (n - 1) s1 r.
Proof.
  intros NZ H. inversion H as [|m a s0 r0 NA R E]; subst; [lia|]. exists a, s0. repeat split; auto.
  replace (N.succ m - 1) with m by lia. auto.
Qed.
Lemma strings_cons n a s r : n <> 0 -> no_nul a -> strings (n - 1) s r -> strings n (a ++ String NUL s)%string r.
Proof. intros NZ A H. replace n with (N.succ (n - 1)) by lia. constructor; auto. Qed.
Lemma string_ub (R : jail -> Prop) (Q : string -> Prop) M c set bad j s kk : (String.length s <= M)%nat -> bad j <> UUb ->
  (c = Null -> R j) -> (forall x, R (set (Own x) j)) ->
  (forall j' s', R j' -> (String.length s' <= M)%nat -> kk j' s' = UUb <-> Q s') ->
  (load_string c set bad j s kk = UUb <-> exists s', strings (no_null c) s s' /\ Q s').
Proof.
  intros LM B NU ST K. unfold load_string.
  assert (G : match consumestr s with None => bad j | Some (x, s') => kk (set (Own x) j) s' end = UUb <-> exists s', strings 1 s s' /\ Q s').
  { destruct (consumestr s) as [[x s']|] eqn:E.
    - pose proof (consumestr_shrinks _ _ _ E) as SH. apply consumestr_inv in E. destruct E as [-> NX]. rewrite K by (auto; lia). split.
      + intros H. exists s'. split; auto. apply strings_cons; auto; [lia|constructor].
      + intros (s2 & H & HQ). apply strings_S in H; [|lia]. destruct H as (a & s1 & NA & E & H). apply strings_0 in H. subst s2.
        apply (f_equal consumestr) in E. rewrite !consumestr_app in E by auto. injection E as -> ->. auto.
    - split; [contradiction|]. intros (s2 & H & HQ). apply strings_S in H; [|lia]. destruct H as (a & s1 & NA & -> & H).
      rewrite consumestr_app in E by auto. discriminate. }
  destruct c; cbn [no_null]; auto. rewrite K by auto. split.
  - intros H. exists s. split; auto. constructor.
  - intros (s2 & H & HQ). apply strings_0 in H. subst. auto.
Qed.
Lemma fixed_iff n s (Q : string -> Prop) :
  (exists s', fixed n s s' /\ Q s') <-> match consumebytes n s with Some (_, s') => Q s' | None => False end.
Proof.
  destruct (consumebytes n s) as [[b s']|] eqn:E.
  - apply consumebytes_inv in E. destruct E as [-> L]. split.
    + intros (s2 & (b2 & E & L2) & HQ). apply sapp_len_inv in E; [|lia]. destruct E as [_ ->]. auto.
    + intros H. exists s'. split; auto. exists b. auto.
  - apply consumebytes_none in E. split; [|contradiction]. intros (s2 & (b2 & -> & L2) & _). rewrite slen_app in E. lia.
Qed.
Lemma fixed_0 s r : fixed 0 s r -> s = r.
Proof. intros (b & -> & L). destruct b; [reflexivity|cbn in L; lia]. Qed.
Lemma gids_ub (R : jail -> Prop) (Q : string -> Prop) M j s kk : (String.length s <= M)%nat -> bad_gid_list j <> UUb ->
  (j_suppl_gid_list j = Null -> R j) -> (forall x, R (set_suppl_gid_list (Own x) j)) ->
  (forall j' s', R j' -> (String.length s' <= M)%nat -> kk j' s' = UUb <-> Q s') ->
  let n := if no_null (j_suppl_gid_list j) =? 0 then 0 else j_suppl_gid_count j in
  (load_gids j s kk = UUb <-> n <= 65536 /\ exists s', fixed (n * 4) s s' /\ Q s').
Proof.
  intros LM B NU ST K. cbv zeta. unfold load_gids.
  assert (G : (if NGROUPS_MAX <? j_suppl_gid_count j then bad_gid_list j
     else match consumebytes (j_suppl_gid_count j * 4) s with None => bad_gid_list j
          | Some (b, s') => kk (set_suppl_gid_list (Own (map val (blocks (N.to_nat (j_suppl_gid_count j)) 4 b))) j) s' end) = UUb <->
     j_suppl_gid_count j <= 65536 /\ exists s', fixed (j_suppl_gid_count j * 4) s s' /\ Q s').
  { rewrite fixed_iff. unfold NGROUPS_MAX. destruct (N.ltb_spec 65536 (j_suppl_gid_count j)).
    - split; [contradiction|lia].
    - destruct (consumebytes _ s) as [[b s']|] eqn:E; [|split; [contradiction|tauto]]. apply consumebytes_shrinks in E. rewrite K by (auto; lia). tauto. }
  destruct (j_suppl_gid_list j); cbn [no_null N.eqb]; auto. rewrite K by auto. split.
  - intros H. split; [lia|]. exists s. split; auto. exists EmptyString. auto.
  - intros (_ & s2 & H & HQ). apply fixed_0 in H. subst. auto.
Qed.
Lemma filter_ub (R : jail -> Prop) (Q : string -> Prop) M j s kk : (String.length s <= M)%nat -> bad_filters j <> UUb ->
  R j -> (forall x, R (set_filter_prog (Own x) j)) ->
  (forall j' s', R j' -> (String.length s' <= M)%nat -> kk j' s' = UUb <-> Q s') ->
  let n := if hasf F_seccomp_filter j then j_filter_len j else 0 in
  (load_filter j s kk = UUb <-> n <= 65535 /\ exists s', fixed (n * 8) s s' /\ Q s').
Proof.
  intros LM B NU ST K. cbv zeta. unfold load_filter.
  assert (Z : kk j s = UUb <-> 0 <= 65535 /\ exists s', fixed (0 * 8) s s' /\ Q s').
  { rewrite K by auto. split.
    - intros H. split; [lia|]. exists s. split; auto. exists EmptyString. auto.
    - intros (_ & s2 & H & HQ). apply fixed_0 in H. subst. auto. }
  destruct (hasf F_seccomp_filter j); cbn [andb]; auto. destruct (N.ltb_spec 0 (j_filter_len j)).
  - rewrite fixed_iff. unfold USHRT_MAX. destruct (N.ltb_spec 65535 (j_filter_len j)).
    + split; [contradiction|lia].
    + destruct (consumebytes _ s) as [[b s']|] eqn:E; [|split; [contradiction|tauto]]. apply consumebytes_shrinks in E. rewrite K by (auto; lia). tauto.
  - replace (j_filter_len j) with 0 by lia. auto.
Qed.

(* mounts *)
Lemma val_zero hd : N.of_nat (String.length hd) = 4 -> (val hd =? 0) = true <-> hd = num 4 0.
Proof.
  intros L. rewrite N.eqb_eq. split; [|intros ->; reflexivity].
  intros V. rewrite <- (num_val hd), V. f_equal. lia.
Qed.
Lemma mount_rc s d t f x j : exists j', minijail_mount_with_data s d t f x j = ARet (if starts_slash d then 0 else -22)%Z j'.
Proof. unfold minijail_mount_with_data. destruct (starts_slash d); cbn [negb]; eexists; reflexivity. Qed.
Lemma mount_text_src s r : mount_text s r -> consumestr s <> None.
Proof. intros (src & dest & type & hd & s1 & fl & A & _ & _ & _ & -> & _). rewrite consumestr_app by auto. discriminate. Qed.
Lemma mounts_0 s r : mounts_text 0 s r -> s = r.
Proof. intros H. inversion H; subst; auto. lia. Qed.
Lemma mounts_S n s r : n <> 0 -> mounts_text n s r <-> exists s1, mount_text s s1 /\ mounts_text (n - 1) s1 r.
Proof.
  intros NZ. split.
  - intros H. inversion H as [|m s0 s1 r0 M R E]; subst; [lia|]. exists s1. replace (N.succ m - 1) with m by lia. auto.
  - intros (s1 & M & H). replace n with (N.succ (n - 1)) by lia. econstructor; eauto.
Qed.
(* the next mount, as the code reads it *)
Definition next_mount (s : string) : option (string * string * string * option string * string * string) :=
  match consumestr s with None => None | Some (src, s) =>
  match consumestr s with None => None | Some (dest, s) =>
  match consumestr s with None => None | Some (type, s) =>
  match consumebytes 4 s with None => None | Some (hd, s) =>
  let fin data s := match consumebytes 8 s with None => None | Some (fl, s) => Some (src, dest, type, data, fl, s) end in
  if val hd =? 0 then fin None s
  else match consumestr s with None => None | Some (d, s) => fin (Some d) s end
  end end end end.
Lemma next_mount_text s r : mount_text s r <->
  exists src dest type data fl, next_mount s = Some (src, dest, type, data, fl, r) /\ starts_slash dest = true.
Proof.
  unfold next_mount. split.
  - intros (src & dest & type & hd & s1 & fl & A & B & C & S & -> & L & D & F).
    rewrite consumestr_app by auto. rewrite consumestr_app by auto. rewrite consumestr_app by auto.
    rewrite consumebytes_app by auto. exists src, dest, type.
    destruct D as [[-> ->]|(NE & d & ND & ->)].
    + exists None, fl. replace (val (num 4 0) =? 0) with true by reflexivity. rewrite consumebytes_app by auto. auto.
    + exists (Some d), fl. destruct (val hd =? 0) eqn:V; [apply val_zero in V; auto; contradiction|].
      rewrite consumestr_app by auto. rewrite consumebytes_app by auto. auto.
  - intros (src & dest & type & data & fl & H & S).
    destruct (consumestr s) as [[src' s1]|] eqn:E1; [|discriminate]. apply consumestr_inv in E1. destruct E1 as [-> N1].
    destruct (consumestr s1) as [[dest' s2]|] eqn:E2; [|discriminate]. apply consumestr_inv in E2. destruct E2 as [-> N2].
    destruct (consumestr s2) as [[type' s3]|] eqn:E3; [|discriminate]. apply consumestr_inv in E3. destruct E3 as [-> N3].
    destruct (consumebytes 4 s3) as [[hd s4]|] eqn:E4; [|discriminate]. apply consumebytes_inv in E4. destruct E4 as [-> L4].
    cbv zeta in H. destruct (val hd =? 0) eqn:V.
    + destruct (consumebytes 8 s4) as [[f s5]|] eqn:E5; [|discriminate]. apply consumebytes_inv in E5. destruct E5 as [-> L5].
      injection H as -> -> -> <- -> ->. exists src, dest, type, hd, (fl ++ r)%string, fl. repeat split; auto.
      left. split; auto. apply val_zero; auto.
    + destruct (consumestr s4) as [[d s6]|] eqn:E6; [|discriminate]. apply consumestr_inv in E6. destruct E6 as [-> N6].
      destruct (consumebytes 8 s6) as [[f s5]|] eqn:E5; [|discriminate]. apply consumebytes_inv in E5. destruct E5 as [-> L5].
      injection H as -> -> -> <- -> ->. exists src, dest, type, hd, (d ++ String NUL (fl ++ r))%string, fl. repeat split; auto.
      right. split; [|exists d; auto]. intros X. apply val_zero in X; auto. congruence.
Qed.
Lemma next_mount_len s src dest type data fl r : next_mount s = Some (src, dest, type, data, fl, r) -> (String.length r < String.length s)%nat.
Proof.
  unfold next_mount. intros H.
  destruct (consumestr s) as [[src' s1]|] eqn:E1; [|discriminate]. apply consumestr_shrinks in E1.
  destruct (consumestr s1) as [[dest' s2]|] eqn:E2; [|discriminate]. apply consumestr_shrinks in E2.
  destruct (consumestr s2) as [[type' s3]|] eqn:E3; [|discriminate]. apply consumestr_shrinks in E3.
  destruct (consumebytes 4 s3) as [[hd s4]|] eqn:E4; [|discriminate]. apply consumebytes_shrinks in E4.
  cbv zeta in H. destruct (val hd =? 0).
  + destruct (consumebytes 8 s4) as [[f s5]|] eqn:E5; [|discriminate]. apply consumebytes_shrinks in E5. injection H as _ _ _ _ _ ->. lia.
  + destruct (consumestr s4) as [[d s6]|] eqn:E6; [|discriminate]. apply consumestr_shrinks in E6.
    destruct (consumebytes 8 s6) as [[f s5]|] eqn:E5; [|discriminate]. apply consumebytes_shrinks in E5. injection H as _ _ _ _ _ ->. lia.
Qed.
Lemma load_mounts_next fuel count j s kk : count <> 0 -> load_mounts (S fuel) count j s kk =
  match next_mount s with
  | None => bad_mounts j
  | Some (src, dest, type, data, fl, s) =>
      match minijail_mount_with_data src dest type (val fl) data j with
      | ARet 0%Z j' => load_mounts fuel (count - 1) j' s kk
      | ARet _ j' => bad_mounts j'
      | _ => UUb
      end
  end.
Proof.
  intros NZ. cbn [load_mounts]. destruct (N.eqb_spec count 0); [lia|]. unfold next_mount. cbv zeta.
  destruct (consumestr s) as [[src s1]|]; auto. destruct (consumestr s1) as [[dest s2]|]; auto.
  destruct (consumestr s2) as [[type s3]|]; auto. destruct (consumebytes 4 s3) as [[hd s4]|]; auto.
  destruct (val hd =? 0).
  - destruct (consumebytes 8 s4) as [[fl s5]|]; auto.
  - destruct (consumestr s4) as [[d s5]|]; auto. destruct (consumebytes 8 s5) as [[fl s6]|]; auto.
Qed.
Lemma mounts_ub (R : jail -> Prop) (Q : string -> Prop) M kk :
  (forall j, R j -> bad_mounts j <> UUb) ->
  (forall s d t f x j rc j', R j -> minijail_mount_with_data s d t f x j = ARet rc j' -> R j') ->
  (forall j' s', R j' -> (String.length s' <= M)%nat -> kk j' s' = UUb <-> Q s') ->
  forall fuel count j s, R j -> (String.length s <= M)%nat -> (String.length s < fuel)%nat ->
  (load_mounts fuel count j s kk = UUb <-> exists s', mounts_text count s s' /\ Q s').
Proof.
  intros B ST K. induction fuel as [|fuel IH]; intros count j s RJ LS FU; [lia|].
  destruct (N.eq_dec count 0) as [->|NZ].
  - cbn [load_mounts N.eqb]. rewrite K by auto. split.
    + intros H. exists s. split; auto. constructor.
    + intros (s2 & H & HQ). apply mounts_0 in H. subst. auto.
  - rewrite load_mounts_next by auto.
    assert (EX : (exists s', mounts_text count s s' /\ Q s') <->
      exists src dest type data fl r, next_mount s = Some (src, dest, type, data, fl, r) /\ starts_slash dest = true /\ exists s', mounts_text (count - 1) r s' /\ Q s').
    { split.
      - intros (s' & H & HQ). apply mounts_S in H; auto. destruct H as (s1 & MT & H). apply next_mount_text in MT.
        destruct MT as (a & b & c & d & f & M1 & M2). exists a, b, c, d, f, s1. eauto.
      - intros (a & b & c & d & f & r & M1 & M2 & s' & H & HQ). exists s'. split; auto. apply mounts_S; auto.
        exists r. split; auto. apply next_mount_text. eauto 10. }
    rewrite EX. destruct (next_mount s) as [[[[[[a b] c] d] f] r]|] eqn:NM.
    + destruct (mount_rc a b c (val f) d j) as [j' MW]. rewrite MW.
      assert (RJ' : R j') by (eapply ST; eauto). destruct (starts_slash b) eqn:SS.
      * rewrite IH; auto; try (apply next_mount_len in NM; lia). split.
        -- intros H. exists a, b, c, d, f, r. auto.
        -- intros (a' & b' & c' & d' & f' & r' & E & S' & H). injection E as -> -> -> -> -> ->. auto.
      * split; [intros X; exfalso; revert X; apply B; auto|].
        intros (a' & b' & c' & d' & f' & r' & E & S' & H). injection E as -> -> -> -> -> ->. congruence.
    + split; [intros X; exfalso; revert X; apply B; auto|]. intros (a' & b' & c' & d' & f' & r' & E & _). discriminate.
Qed.

(* cgroups *)
Lemma cgroups_ub (R : jail -> Prop) (Q : string -> Prop) M kk :
  (forall j, R j -> bad_cgroups j <> UUb) -> (forall j, R j -> length (j_cgroups j) = 10%nat) ->
  (forall j c i, R j -> i = j_cgroup_count j -> i < 10 ->
     R (set_cgroup_count (j_cgroup_count j + 1) (set_cgroups (set_nth_cell (N.to_nat i) (Own c) (j_cgroups j)) j))) ->
  (forall j' s', R j' -> (String.length s' <= M)%nat -> kk j' s' = UUb <-> Q s') ->
  forall fuel count i j s, R j -> (String.length s <= M)%nat -> i = j_cgroup_count j -> i <= 10 -> (String.length s < fuel)%nat ->
  (load_cgroups fuel count i j s kk = UUb <->
     (10 - i < count /\ exists r, strings (11 - i) s r) \/
     (count <= 10 - i /\ exists s', strings count s s' /\ Q s')).
Proof.
  intros B L ST K. induction fuel as [|fuel IH]; intros count i j s RJ LS EI LI FU; [lia|].
  cbn [load_cgroups]. destruct (N.eqb_spec count 0) as [->|NZ].
  - rewrite K by auto. split.
    + intros H. right. split; [lia|]. exists s. split; auto. constructor.
    + intros [[X _]|(_ & s2 & H & HQ)]; [lia|]. apply strings_0 in H. subst. auto.
  - destruct (consumestr s) as [[c s1]|] eqn:E.
    + pose proof (consumestr_shrinks _ _ _ E) as SHR. apply consumestr_inv in E. destruct E as [-> NC]. rewrite L by auto.
      destruct (N.leb_spec (N.of_nat 10) i).
      * assert (i = 10) by lia. subst i. rewrite H0. split; [|auto]. intros _. left. split; [lia|].
        exists s1. apply strings_cons; auto; [lia|]. constructor.
      * rewrite IH; [|apply ST; auto; lia|lia|subst i; reflexivity|lia|lia].
        assert (P : forall n r, n <> 0 -> strings n (c ++ String NUL s1)%string r <-> strings (n - 1) s1 r).
        { intros n r NZ'. split; intros HH.
          - apply strings_S in HH; auto. destruct HH as (a & s2 & NA & E & HH). apply (f_equal consumestr) in E.
            rewrite !consumestr_app in E by auto. injection E as -> ->. auto.
          - apply strings_cons; auto. }
        split.
        -- intros [(A & r & HH)|(A & r & HH & HQ)]; [left|right]; (split; [lia|]); exists r.
           ++ apply P; [lia|]. replace (11 - i - 1) with (11 - (i + 1)) by lia. auto.
           ++ split; auto. apply P; auto.
        -- intros [(A & r & HH)|(A & r & HH & HQ)]; [left|right]; (split; [lia|]); exists r.
           ++ apply P in HH; [|lia]. replace (11 - (i + 1)) with (11 - i - 1) by lia. auto.
           ++ split; auto. apply P in HH; auto.
    + assert (P : forall n r, n <> 0 -> ~ strings n s r).
      { intros n r NZ' HH. apply strings_S in HH; auto. destruct HH as (a & s2 & NA & -> & HH). rewrite consumestr_app in E by auto. discriminate. }
      split; [intros X; exfalso; revert X; apply B; auto|].
      intros [(A & r & HH)|(A & r & HH & HQ)]; exfalso; revert HH; apply P; lia.
Qed.

(* rules *)
Lemma rules_0 s r : rules_text 0 s r -> s = r.
Proof. intros H. inversion H; subst; auto. lia. Qed.
Lemma rules_S n s r : n <> 0 -> rules_text n s r <-> exists p m s1, no_nul p /\ N.of_nat (String.length m) = 8 /\ m <> num 8 0 /\ s = (p ++ String NUL (m ++ s1))%string /\ rules_text (n - 1) s1 r.
Proof.
  intros NZ. split.
  - intros H. inversion H as [|m0 p m s0 r0 A B C R E]; subst; [lia|]. exists p, m, s0. replace (N.succ m0 - 1) with m0 by lia. repeat split; auto.
  - intros (p & m & s1 & A & B & C & -> & H). replace n with (N.succ (n - 1)) by lia. constructor; auto.
Qed.
Definition cut_mask (count : N) (s : string) : Prop :=
  exists i r p r3, i < count /\ rules_text i s r /\ r = (p ++ String NUL r3)%string /\ no_nul p /\ N.of_nat (String.length r3) < 8.
Lemma rules_ub e (R : jail -> Prop) (Q : string -> Prop) M kk :
  (forall j, R j -> bad_fs_rules j <> UUb) -> (forall p f j, R j -> R (add_fs_restriction_path e p f j)) ->
  (forall j' s', R j' -> (String.length s' <= M)%nat -> kk j' s' = UUb <-> Q s') ->
  forall fuel count j s, R j -> (String.length s <= M)%nat -> (String.length s < fuel)%nat ->
  (load_rules e fuel count j s kk = UUb <-> cut_mask count s \/ exists s', rules_text count s s' /\ Q s').
Proof.
  intros B ST K. induction fuel as [|fuel IH]; intros count j s RJ LS FU; [lia|].
  cbn [load_rules]. destruct (N.eqb_spec count 0) as [->|NZ].
  - rewrite K by auto. split.
    + intros H. right. exists s. split; auto. constructor.
    + intros [(i & r & p & r3 & A & _)|(s2 & H & HQ)]; [lia|]. apply rules_0 in H. subst. auto.
  - destruct (consumestr s) as [[p s1]|] eqn:E.
    + pose proof (consumestr_shrinks _ _ _ E) as SHR. apply consumestr_inv in E. destruct E as [-> NP].
      destruct (consumebytes 8 s1) as [[m s2]|] eqn:E2.
      * pose proof (consumebytes_shrinks _ _ _ _ E2) as SHR2. apply consumebytes_inv in E2. destruct E2 as [-> LM].
        assert (P : forall n r, n <> 0 -> rules_text n (p ++ String NUL (m ++ s2))%string r <-> m <> num 8 0 /\ rules_text (n - 1) s2 r).
        { intros n r NZ'. rewrite rules_S by auto. split.
          - intros (p' & m' & s' & A & B' & C & E & H). apply (f_equal consumestr) in E.
            rewrite !consumestr_app in E by auto. injection E as -> E. apply sapp_len_inv in E; [|lia]. destruct E as [-> ->]. auto.
          - intros [A H]. exists p, m, s2. auto. }
        assert (Z : (val m =? 0) = true <-> m = num 8 0).
        { rewrite N.eqb_eq. split; [|intros ->; reflexivity]. intros V. rewrite <- (num_val m), V. f_equal. lia. }
        assert (Q2 : cut_mask count (p ++ String NUL (m ++ s2)) <-> m <> num 8 0 /\ cut_mask (count - 1) s2).
        { split.
          - intros (i & r & p' & r3 & A & HR & -> & NP' & L3). destruct (N.eq_dec i 0) as [->|NZI].
            + apply rules_0 in HR. apply (f_equal consumestr) in HR. rewrite !consumestr_app in HR by auto. injection HR as _ HR. subst r3.
              rewrite slen_app in L3. lia.
            + apply P in HR; auto. destruct HR as [NM HR]. split; auto. exists (i - 1), (p' ++ String NUL r3)%string, p', r3. repeat split; auto. lia.
          - intros (NM & i & r & p' & r3 & A & HR & -> & NP' & L3). exists (i + 1), (p' ++ String NUL r3)%string, p', r3. repeat split; auto; [lia|].
            apply P; [lia|]. split; auto. replace (i + 1 - 1) with i by lia. auto. }
        destruct (val m =? 0) eqn:V.
        -- apply proj1 in Z. specialize (Z eq_refl). split; [intros X; exfalso; revert X; apply B; auto|].
           intros [H|(s' & H & _)]; [apply Q2 in H; destruct H; contradiction|apply P in H; auto; destruct H; contradiction].
        -- assert (NM : m <> num 8 0) by (intros X; apply Z in X; discriminate).
           rewrite IH; auto; try lia. rewrite Q2. split.
           ++ intros [H|(s' & H & HQ)]; [left; auto|right]. exists s'. split; auto. apply P; auto.
           ++ intros [[_ H]|(s' & H & HQ)]; [left; auto|right]. exists s'. split; auto. apply P in H; auto. apply H.
      * apply consumebytes_none in E2. split; [|reflexivity]. intros _. left. exists 0, (p ++ String NUL s1)%string, p, s1.
        repeat split; auto; [lia|constructor].
    + split; [intros X; exfalso; revert X; apply B; auto|].
      intros [(i & r & p & r3 & A & HR & -> & NP & L3)|(s' & HR & _)].
      * destruct (N.eq_dec i 0) as [->|NZI].
        -- apply rules_0 in HR. subst s. rewrite consumestr_app in E by auto. discriminate.
        -- apply rules_S in HR; auto. destruct HR as (p' & m' & s' & A' & _ & _ & -> & _). rewrite consumestr_app in E by auto. discriminate.
      * apply rules_S in HR; auto. destruct HR as (p' & m' & s2 & A' & _ & _ & -> & _). rewrite consumestr_app in E by auto. discriminate.
Qed.

(* the whole *)
Definition hd3 (j : jail) := (no_null (j_hostname j), no_null (j_alt_syscall_table j), hasf F_seccomp_filter j, j_filter_len j, j_mounts_count j, j_cgroup_count j, j_fs_rules_count j).
Definition hd2 (j : jail) := (no_null (j_chrootdir j), hd3 j).
Definition hd1 (j : jail) := (no_null (j_suppl_gid_list j), j_suppl_gid_count j, hd2 j).
Definition hd4 (j : jail) := (no_null (j_alt_syscall_table j), hasf F_seccomp_filter j, j_filter_len j, j_mounts_count j, j_cgroup_count j, j_fs_rules_count j).
Definition hd5 (j : jail) := (hasf F_seccomp_filter j, j_filter_len j, j_mounts_count j, j_cgroup_count j, j_fs_rules_count j).
Definition hd6 (j : jail) := (j_mounts_count j, j_cgroup_count j, j_fs_rules_count j).

Lemma stale_present {A} off s : no_null (A := A) (stale off s) = present off s.
Proof. unfold stale, present. change (word off 8 s) with (at_offset off 8 s). destruct (at_offset off 8 s =? 0); reflexivity. Qed.
Definition Q9 (s : string) : Prop := N.of_nat (String.length s) < 4.
Definition Q8 (n : N) s := cut_mask n s \/ exists s', rules_text n s s' /\ Q9 s'.
Definition Q7 (c n : N) s := (10 - 0 < c /\ exists r, strings (11 - 0) s r) \/ (c <= 10 - 0 /\ exists s', strings c s s' /\ Q8 n s').

Lemma unmarshal_ub e j0 s : minijail_unmarshal e j0 s = UUb <->
  too_many_cgroups s \/ truncated_mask s \/ truncated_descriptor s.
Proof.
  unfold minijail_unmarshal. destruct (sizeof s <? IMAGE_SIZE) eqn:SZ.
  { split; [discriminate|]. unfold sizeof, IMAGE_SIZE in SZ. apply N.ltb_lt in SZ.
    assert (X : forall r, ~ up_to_cgroups s r).
    { intros r (h & r0 & r1 & r2 & r3 & r4 & r5 & r6 & -> & L & _). rewrite slen_app in SZ. lia. }
    intros [(r & r' & U & _)|[(r & ? & ? & ? & ? & ? & U & _)|(r & ? & ? & U & _)]]; destruct (X _ U). }
  set (fuel := S (String.length s)).
  assert (Hd : exists h, s = (h ++ sdrop 2176 s)%string /\ N.of_nat (String.length h) = 2176).
  { exists (stake 2176 s). rewrite stake_sdrop. split; auto. unfold sizeof, IMAGE_SIZE in SZ. apply N.ltb_ge in SZ.
    rewrite stake_length; [reflexivity|]. change 2176 with (N.of_nat 2176) in SZ. clear - SZ. lia. }
  assert (SHR : (String.length (sdrop 2176 s) <= String.length s)%nat) by (rewrite sdrop_length; lia).
  assert (I0 : inv False 0 (load_image s)).
  { constructor; unfold from; try (intros; lia); try reflexivity; try (intros []). repeat split; reflexivity. }
  set (v3 := (present 120 s, present 160 s, N.testbit (at_offset 0 6 s) 22, at_offset 144 8 s, announced_mounts s, announced_cgroups s, announced_rules s)).
  assert (H0 : hd1 (load_image s) = (present 40 s, at_offset 32 8 s, (present 88 s, v3))).
  { unfold hd1, hd2, hd3, v3. rewrite <- (stale_present (A := list N) 40), <- !(stale_present (A := string)). reflexivity. }
  assert (U0 : no_null (j_user (load_image s)) = present 24 s) by (rewrite <- (stale_present (A := string)); reflexivity).
  cbv zeta. revert I0 H0 U0. generalize (load_image s). intros j1 I0 H0 U0.
  set (Q6 := fun x => exists x', mounts_text (announced_mounts s) x x' /\ Q7 (announced_cgroups s) (announced_rules s) x').
  set (nf := announced_filter s). set (Q5 := fun x => nf <= 65535 /\ exists x', fixed (nf * 8) x x' /\ Q6 x').
  set (Q4 := fun x => exists x', strings (present 160 s) x x' /\ Q5 x').
  set (Q3 := fun x => exists x', strings (present 120 s) x x' /\ Q4 x').
  set (Q2 := fun x => exists x', strings (present 88 s) x x' /\ Q3 x').
  set (ng := announced_gids s). set (Q1 := fun x => ng <= 65536 /\ exists x', fixed (ng * 4) x x' /\ Q2 x').
  set (Q0 := fun x => exists x', strings (present 24 s) x x' /\ Q1 x').
  transitivity (Q0 (sdrop 2176 s)).
  - unfold Q0. rewrite <- U0. apply (string_ub (fun j => inv False 1 j /\ hd1 j = hd1 j1) Q1 (String.length s)); auto.
    { apply (fails_not_ub False), (clear_fails False 0); auto. }
    { intros E. split; auto. keep I0. intros _. rewrite E. reflexivity. }
    { intros x. split; [keep I0|reflexivity]. }
    rewrite H0. clear U0 H0 I0 SHR. intros j r [I0 H0] SHR.
    assert (H2 : hd2 j = (present 88 s, v3)) by exact (f_equal snd H0).
    pose proof (f_equal (fun x => fst (fst x)) H0) as HG. pose proof (f_equal (fun x => snd (fst x)) H0) as HC. cbn in HG, HC.
    assert (EN : (if no_null (j_suppl_gid_list j) =? 0 then 0 else j_suppl_gid_count j) = ng).
    { rewrite HG, HC. unfold ng, announced_gids, present. destruct (at_offset 40 8 s =? 0); reflexivity. }
    unfold Q1. rewrite <- EN. apply (gids_ub (fun j' => inv False 2 j' /\ hd2 j' = hd2 j) Q2 (String.length s)); auto.
    { apply (fails_not_ub False), (gid_fails False 1); auto. }
    { intros E. split; auto. keep I0. intros _. rewrite E. reflexivity. }
    { intros x. split; [keep I0|reflexivity]. }
    rewrite H2. clear HG HC EN H0 H2 I0 SHR j r. intros j r [I0 H0] SHR.
    assert (H3 : hd3 j = v3) by exact (f_equal snd H0). pose proof (f_equal fst H0) as HC. cbn in HC.
    unfold Q2. rewrite <- HC. apply (string_ub (fun j' => inv False 3 j' /\ hd3 j' = hd3 j) Q3 (String.length s)); auto.
    { apply (fails_not_ub False), (chroot_fails False 2); auto. }
    { intros E. split; auto. keep I0. intros _. rewrite E. reflexivity. }
    { intros x. split; [keep I0|reflexivity]. }
    rewrite H3. clear HC H0 H3 I0 SHR j r. intros j r [I0 H0] SHR.
    assert (HC : no_null (j_hostname j) = present 120 s) by (injection H0; auto).
    assert (H4 : hd4 j = (present 160 s, N.testbit (at_offset 0 6 s) 22, at_offset 144 8 s, announced_mounts s, announced_cgroups s, announced_rules s)).
    { unfold hd3, v3 in H0. injection H0 as E1 E2 E3 E4 E5 E6 E7. unfold hd4. rewrite E2, E3, E4, E5, E6, E7. reflexivity. }
    unfold Q3. rewrite <- HC. apply (string_ub (fun j' => inv False 4 j' /\ hd4 j' = hd4 j) Q4 (String.length s)); auto.
    { apply (fails_not_ub False), (host_fails False 3); auto. }
    { intros E. split; auto. keep I0. intros _. rewrite E. reflexivity. }
    { intros x. split; [keep I0|reflexivity]. }
    rewrite H4. clear HC H4 H0 I0 SHR j r. intros j r [I0 H0] SHR.
    assert (HC : no_null (j_alt_syscall_table j) = present 160 s) by (injection H0; auto).
    assert (H5 : hd5 j = (N.testbit (at_offset 0 6 s) 22, at_offset 144 8 s, announced_mounts s, announced_cgroups s, announced_rules s)).
    { unfold hd4 in H0. injection H0 as E2 E3 E4 E5 E6 E7. unfold hd5. rewrite E3, E4, E5, E6, E7. reflexivity. }
    unfold Q4. rewrite <- HC. apply (string_ub (fun j' => inv False 5 j' /\ hd5 j' = hd5 j) Q5 (String.length s)); auto.
    { apply (fails_not_ub False), (table_fails False 4); auto. }
    { intros E. split; auto. keep I0. intros _. rewrite E. reflexivity. }
    { intros x. split; [keep I0|reflexivity]. }
    rewrite H5. clear HC H5 H0 I0 SHR j r. intros j r [I0 H0] SHR.
    unfold hd5 in H0. injection H0 as HS HL HM HC HR.
    assert (EN : (if hasf F_seccomp_filter j then j_filter_len j else 0) = nf).
    { rewrite HS, HL. reflexivity. }
    unfold Q5. rewrite <- EN. apply (filter_ub (fun j' => inv False 6 j' /\ hd6 j' = hd6 j) Q6 (String.length s)); auto.
    { apply (fails_not_ub False), (filters_fails False 5); auto. }
    { split; auto. apply (inv_up False 5 6); auto. }
    { intros x. split; [keep I0|reflexivity]. }
    unfold hd6. rewrite HM, HC, HR. clear HS HL HM HC HR EN I0 SHR j r. intros j r [I0 H0] SHR. injection H0 as HM HC HR.
    unfold Q6. rewrite <- HM. apply (mounts_ub (fun j' => inv False 6 j' /\ (j_cgroup_count j', j_fs_rules_count j') = (j_cgroup_count j, j_fs_rules_count j)) (Q7 (announced_cgroups s) (announced_rules s)) (String.length s)); auto.
    { intros j' [I' _]. apply (fails_not_ub False), (mounts_fails False 6); auto. }
    { intros a b c d x jx rc j' [I' E] M. split; [eapply mount_frame; eauto|]. rewrite <- E. clear - M.
      unfold minijail_mount_with_data in M. destruct (starts_slash b); cbn [negb] in M; apply ARet_inj in M; destruct M as [_ <-]; auto.
      destruct (hasf F_enter_vfs jx); reflexivity. }
    2: { split; [keep I0|reflexivity]. }
    2: { subst fuel. lia. }
    rewrite HC, HR. clear HM HC HR I0 SHR j r. intros j r [I0 H0] SHR. injection H0 as HC HR.
    unfold Q7. rewrite <- HC. apply (cgroups_ub (fun j' => inv False 7 j' /\ j_fs_rules_count j' = j_fs_rules_count j) (Q8 (announced_rules s)) (String.length s)); auto.
    { intros j' [I' _]. apply (fails_not_ub False), (cgroups_fails False 7); auto. }
    { intros j' [I' _]. apply (i_cg _ _ _ I'). }
    { intros j' c i [I' E] EI L. split; [|exact E]. destruct I' as [X1 X2 X3 X4 X5 X6 X7 X8 X9 X10]. constructor; auto; unfold from in *; cbn -[freeable_first].
      - rewrite set_nth_cell_length. auto.
      - intros _. destruct (X10 ltac:(lia)) as [C1 C2]. subst i. split; [lia|].
        replace (N.to_nat (j_cgroup_count j' + 1)) with (S (N.to_nat (j_cgroup_count j'))) by lia.
        apply freeable_set; auto; [lia|reflexivity]. }
    2: { split; [keep I0|reflexivity]. }
    2: { lia. }
    2: { subst fuel. lia. }
    rewrite HR. clear HC HR I0 SHR j r. intros j r [I0 HR] SHR.
    unfold Q8. rewrite <- HR. apply (rules_ub e (inv False 7) Q9 (String.length s)); auto.
    { intros j' I'. apply (fails_not_ub False), (rules_fails False 7); auto; lia. }
    { intros p f j' I'. apply rule_frame, I'. }
    2: { keep I0. }
    2: { subst fuel. lia. }
    clear HR I0 SHR j r. intros j r I0 _. unfold Q9. destruct (consumebytes 4 r) as [[b r1]|] eqn:E.
    + assert (NL : ~ N.of_nat (String.length r) < 4) by (intros X; apply consumebytes_none in X; congruence).
      split; [|intros X; destruct (NL X)]. intros X. exfalso. revert X. cbv zeta.
      assert (I1 : inv False 7 (set_fs_rules_fd (to_signed 32 (val b)) j)) by keep I0.
      revert I1. generalize (set_fs_rules_fd (to_signed 32 (val b)) j). clear j I0. intros j I0.
      assert (B : bad_cgroups j <> UUb) by (apply (fails_not_ub False), (cgroups_fails False 7); auto).
      destruct (_ =? 0)%Z; [exact B|]. unfold load_string. destruct (j_seccomp_policy_path j); try discriminate;
      (destruct (consumestr r1) as [[x y]|]; [discriminate|exact B]).
    + apply consumebytes_none in E. tauto.
  - destruct Hd as (h & Hd & LH). clear - Hd LH. set (r0 := sdrop 2176 s) in *.
    assert (UP : forall (P : string -> Prop), (exists r, up_to_cgroups s r /\ P r) <->
      exists r1, strings (present 24 s) r0 r1 /\ ng <= 65536 /\ exists r2, fixed (ng * 4) r1 r2 /\ exists r3, strings (present 88 s) r2 r3 /\ exists r4, strings (present 120 s) r3 r4 /\ exists r5, strings (present 160 s) r4 r5 /\ nf <= 65535 /\ exists r6, fixed (nf * 8) r5 r6 /\ exists r, mounts_text (announced_mounts s) r6 r /\ P r).
    { intros P. split.
      - intros (r & (h' & r0' & r1 & r2 & r3 & r4 & r5 & r6 & E & L & A) & HP).
        assert (r0' = r0) as ->. { rewrite Hd in E at 1. apply sapp_len_inv in E; [|lia]. destruct E; auto. }
        destruct A as (A1 & A2 & A3 & A4 & A5 & A6 & A7 & A8 & A9).
        exists r1. split; auto. split; auto. exists r2. split; auto. exists r3. split; auto. exists r4. split; auto. exists r5. split; auto.
        split; auto. exists r6. split; auto. exists r. auto.
      - intros (r1 & A1 & A2 & r2 & A3 & r3 & A4 & r4 & A5 & r5 & A6 & A7 & r6 & A8 & r & A9 & HP). exists r. split; auto.
        exists h, r0, r1, r2, r3, r4, r5, r6. repeat (split; [assumption|]). assumption. }
    assert (E0 : Q0 r0 <-> exists r, up_to_cgroups s r /\ Q7 (announced_cgroups s) (announced_rules s) r).
    { rewrite UP. unfold Q0, Q1, Q2, Q3, Q4, Q5, Q6. reflexivity. }
    rewrite E0. unfold too_many_cgroups, truncated_mask, truncated_descriptor, Q7, Q8, Q9, cut_mask. change (10 - 0) with 10. change (11 - 0) with 11.
    clear. split.
    + intros (r & U & [(A & r' & B)|(A & r1 & B & [(i & r2 & p & r3 & C)|(r2 & C & D)])]).
      * left. exists r, r'. auto.
      * right; left. exists r, r1, i, r2, p, r3. tauto.
      * right; right. exists r, r1, r2. auto.
    + intros [(r & r' & U & A & B)|[(r & r1 & i & r2 & p & r3 & U & A & B & C)|(r & r1 & r2 & U & A & B & C & D)]]; exists r; (split; [exact U|]).
      * left. split; auto. exists r'. auto.
      * right. split; auto. exists r1. split; auto. left. exists i, r2, p, r3. tauto.
      * right. split; auto. exists r1. split; auto. right. exists r2. auto.
Qed.
