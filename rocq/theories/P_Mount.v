(* Proofs: the configured mounts are performed in order. *)
From Verif Require Export P_EnterFail S_Mount.
Local Open Scope N_scope.
Local Open Scope io_scope.

Lemma did_mono cs : forall t t1 t2, did cs t -> did cs (t1 ++ t ++ t2).
Proof.
  induction cs as [|c r IH]; cbn [did]; [auto|]. intros t t1 t2 (u1 & v & s & u2 & -> & H).
  exists (t1 ++ u1), v, s, (u2 ++ t2). split.
  - now rewrite <- !List.app_assoc.
  - exact (IH u2 [] t2 H).
Qed.
Lemma did_app a : forall b t1 t2, did a t1 -> did b t2 -> did (a ++ b) (t1 ++ t2).
Proof.
  induction a as [|c r IH]; cbn [did app]; intros b t1 t2 H1 H2.
  - rewrite <- (List.app_nil_r t2). now apply did_mono.
  - destruct H1 as (u1 & v & s & u2 & -> & H). exists u1, v, s, (u2 ++ t2). split; auto.
    rewrite <- List.app_assoc. reflexivity.
Qed.
Lemma did_pre cs t t1 : did cs t -> did cs (t1 ++ t).
Proof. intro H. rewrite <- (List.app_nil_r t). now apply did_mono. Qed.
Lemma did_post cs t t2 : did cs t -> did cs (t ++ t2).
Proof. intro H. exact (did_mono cs t [] t2 H). Qed.
Lemma did_one c v s : did [c] [(c, Yes v s)].
Proof. exists [], v, s, []. cbn. auto. Qed.
Lemma did_worked c t : did [c] t <-> worked c t.
Proof.
  split.
  - intros (t1 & v & s & t2 & -> & _). exists v, s. apply in_or_app. right; left; auto.
  - intros (v & s & H). apply in_split in H. destruct H as (t1 & t2 & ->). exists t1, v, s, t2. cbn. auto.
Qed.

Lemma performed_mono root dev m t t1 t2 : performed root dev m t -> performed root dev m (t1 ++ t ++ t2).
Proof.
  intros (tg & L & H1 & H2). exists tg. split; auto. cbv zeta in *. split; [now apply did_mono|].
  intros A B C. destruct (H2 A B C) as (fl & s & I1 & I2). exists fl, s. split.
  - apply in_or_app; right. apply in_or_app; auto.
  - intro X. apply did_mono; auto.
Qed.
Lemma mounted_r root dev ms t t2 : mounted root dev ms t -> mounted root dev ms (t ++ t2).
Proof.
  intro H. induction H as [t|m ms u1 u2 P _ IH]; [constructor|]. rewrite <- List.app_assoc. now constructor.
Qed.
Lemma mounted_l root dev ms t t1 : mounted root dev ms t -> mounted root dev ms (t1 ++ t).
Proof.
  intro H. destruct H as [t|m ms u1 u2 P H]; [constructor|].
  rewrite List.app_assoc. constructor; auto. rewrite <- (List.app_nil_r u1). now apply performed_mono.
Qed.
Lemma unchecked_mono e m t t1 t2 : unchecked e m t -> unchecked e m (t1 ++ t ++ t2).
Proof.
  intros (A & B & C). split; auto. split; auto. destruct C as [[C (er & D)]|[C (x & D & E)]].
  - left. split; auto. exists er. apply in_or_app; right. apply in_or_app; auto.
  - right. split; auto. exists x. split; auto. apply in_or_app; right. apply in_or_app; auto.
Qed.

Lemma has_bit_test f i : has_bit f (2 ^ i) = N.testbit f i.
Proof.
  unfold has_bit. destruct (N.testbit f i) eqn:T.
  - apply negb_true_iff, N.eqb_neq. intro Z. assert (X : N.testbit (N.land f (2 ^ i)) i = true).
    { rewrite N.land_spec, T, N.pow2_bits_true. reflexivity. }
    rewrite Z, N.bits_0 in X. discriminate X.
  - apply negb_false_iff, N.eqb_eq. apply N.bits_inj. intro k. rewrite N.land_spec, N.bits_0, N.pow2_bits_eqb.
    destruct (N.eqb_spec i k) as [<-|]; [rewrite T|rewrite andb_false_r]; auto.
Qed.
Lemma land1_test f g : (N.land f 1 =? N.land g 1) = Bool.eqb (N.testbit f 0) (N.testbit g 0).
Proof.
  assert (X : forall a, N.land a 1 = if N.testbit a 0 then 1 else 0).
  { intro a. change 1 with (N.ones 1) at 1. rewrite N.land_ones. change (2 ^ 1) with 2. rewrite N.bit0_odd.
    pose proof (N.bit0_mod a) as M. rewrite N.bit0_odd in M. rewrite <- M. destruct (N.odd a); reflexivity. }
  rewrite !X. destruct (N.testbit f 0), (N.testbit g 0); reflexivity.
Qed.

Lemma has_prefix_split p : forall s, has_prefix p s = true -> s = (p ++ sdrop (String.length p) s)%string.
Proof.
  unfold has_prefix. induction p as [|c p IH]; intros s H; [reflexivity|].
  destruct s as [|d s]; [discriminate H|]. cbn [String.prefix] in H. destruct (ascii_dec c d) as [<-|]; [|discriminate H].
  cbn. f_equal. auto.
Qed.
Lemma has_prefix_refl p : forall r, has_prefix p (p ++ r)%string = true.
Proof.
  unfold has_prefix. induction p as [|c p IH]; intro r; [destruct r; reflexivity|]. cbn. destruct (ascii_dec c c); [auto|congruence].
Qed.
Lemma sdrop_all p : forall r, sdrop (String.length p) (p ++ r)%string = r.
Proof. induction p as [|c p IH]; intro r; [destruct r; reflexivity|]. cbn. auto. Qed.

Lemma lands_target root dev m : lands (root_or_empty root) dev (m_dest m) (mount_target root dev m).
Proof.
  unfold lands, mount_target. destruct dev as [d|]; [|reflexivity].
  destruct (has_prefix "/dev/" (m_dest m)) eqn:P.
  - left. apply has_prefix_split in P. exists (sdrop 5 (m_dest m)). split; [exact P|].
    f_equal. rewrite P at 1. reflexivity.
  - right. split; auto. intros r E. rewrite E, has_prefix_refl in P. discriminate P.
Qed.

Lemma andthen_rets p q t r : does (andthen p q) t (Returned r) -> r = 0%Z ->
  exists t1 t2, t = t1 ++ t2 /\ does p t1 (Returned 0%Z) /\ does q t2 (Returned 0%Z).
Proof. intros E ->. now apply andthen_ret. Qed.

Lemma rc_ret c t : does (rc c) t (Returned 0%Z) -> exists v s, t = [(c, Yes v s)].
Proof. intros (x & t' & -> & E). destruct x as [v s|e]; destruct E as [-> E]; [eauto|discriminate E]. Qed.

Lemma bind_flags_ret m t o : does (bind_flags m) t (Returned o) ->
  match o with
  | None => m_type m = "minijail_bind"%string /\ N.testbit (m_flags m) 12 = true /\ N.testbit (m_flags m) 5 = false /\
            exists er, In (C_statvfs (m_src m), No er) t
  | Some again =>
      m_type m = "minijail_bind"%string -> N.testbit (m_flags m) 12 = true -> N.testbit (m_flags m) 5 = false ->
      exists fl s, In (C_statvfs (m_src m), Yes fl s) t /\
        (N.testbit fl 0 <> N.testbit (m_flags m) 0 -> again = Some (kept_flags fl))
  end.
Proof.
  unfold bind_flags, mount_has_bind_flag. change MS_BIND with (2 ^ 12). change MS_REMOUNT with (2 ^ 5).
  rewrite !has_bit_test.
  destruct (N.testbit (m_flags m) 12 && (m_type m =? "minijail_bind")%string && negb (N.testbit (m_flags m) 5)) eqn:C.
  - apply andb_true_iff in C. destruct C as [C C3]. apply andb_true_iff in C. destruct C as [C1 C2].
    apply String.eqb_eq in C2. apply negb_true_iff in C3.
    intros (x & t' & -> & E). destruct x as [fl s|e]; destruct E as [-> E]; injection E as ->.
    + intros _ _ _. exists fl, s. split; [left; auto|]. change MS_RDONLY with 1. rewrite land1_test.
      intro X. destruct (N.testbit (m_flags m) 0), (N.testbit fl 0); try reflexivity; elim X; reflexivity.
    + repeat split; auto. exists e. left; auto.
  - intros [-> E]. injection E as ->. intros A B X. rewrite A, B, X in C. discriminate C.
Qed.

Lemma check_ret e path t b : does (check_bind_path e path) t (Returned b) -> b = false ->
  k_block_symlinks e = true /\
  exists x, In (C_realpath path, x) t /\
    is_valid_bind_path e path (match x with Yes _ rp => Some rp | No _ => None end) = BVal false.
Proof.
  unfold check_bind_path. intros E ->. destruct (k_block_symlinks e) eqn:K.
  - split; auto. destruct E as (x & t' & -> & E). exists x. split; [left; auto|]. cbn [bind does] in E.
    destruct x; cbn match in E |- *;
    destruct (is_valid_bind_path _ _ _) as [[]|]; destruct E as [_ E]; try discriminate E; auto.
  - unfold is_valid_bind_path in E. rewrite K in E. destruct E as [_ E]. discriminate E.
Qed.

Lemma mounts_spec e uid gid root dev ms : forall t, does (mount_one e uid gid root dev ms) t (Returned 0%Z) ->
  exists done rest, ms = done ++ rest /\ mounted (root_or_empty root) dev done t /\
    (rest = [] \/ exists m tl, rest = m :: tl /\ unchecked e m t).
Proof.
  induction ms as [|m ms IH]; intros t E.
  - exists [], []. repeat split; auto. constructor.
  - cbn [mount_one] in E. cbv zeta in E. apply andthen_ret in E. destruct E as (t1 & t2 & -> & E1 & E).
    apply exec_bind_ret in E. destruct E as (t3 & t4 & f & -> & E2 & E).
    apply bind_flags_ret in E2. destruct f as [again|].
    2: { destruct E2 as (A & B & C & er & I1). exists [], (m :: ms). repeat split; [constructor|]. right.
         exists m, ms. split; auto. apply unchecked_mono. split; auto. split; auto. left. eauto. }
    apply exec_bind_ret in E. destruct E as (t5 & t6 & ok & -> & E3 & E).
    destruct ok.
    2: { exists [], (m :: ms). repeat split; [constructor|]. right. exists m, ms. split; auto.
         revert E3. unfold mount_has_bind_flag. change MS_BIND with (2 ^ 12). change MS_REMOUNT with (2 ^ 5).
         rewrite !has_bit_test. destruct (N.testbit (m_flags m) 12 && negb (N.testbit (m_flags m) 5)) eqn:C.
         - intro E3. apply check_ret in E3; [|reflexivity]. destruct E3 as (K & x & I1 & I2).
           apply andb_true_iff in C. destruct C as [C1 C2]. apply negb_true_iff in C2.
           rewrite List.app_assoc. apply unchecked_mono. split; auto. split; auto. right. split; auto. exists x; auto.
         - intros [_ E3]. discriminate E3. }
    cbn [negb] in E. apply andthen_ret in E. destruct E as (t7 & t8 & -> & E4 & E).
    apply andthen_ret in E. destruct E as (t9 & t10 & -> & E5 & E6).
    destruct (IH _ E6) as (done & rest & -> & M & R).
    exists (m :: done), rest. split; [reflexivity|]. split.
    + replace (t1 ++ t3 ++ t5 ++ t7 ++ t9 ++ t10) with ((t1 ++ t3 ++ t5 ++ t7 ++ t9) ++ t10)
        by (rewrite <- !List.app_assoc; reflexivity).
      constructor; auto. apply rc_ret in E4. destruct E4 as (v & s & ->).
      exists (mount_target root dev m). split; [apply lands_target|]. cbv zeta.
      set (first := C_mount (Some (m_src m)) (mount_target root dev m) (Some (m_type m)) (m_flags m) (m_data m)).
      split.
      * do 3 apply did_pre. apply (did_post [first]), did_one.
      * intros A B C. destruct (E2 A B C) as (fl & s' & I1 & I2). exists fl, s'. split.
        -- apply in_or_app; right. apply in_or_app; auto.
        -- intro X. rewrite (I2 X) in E5. apply rc_ret in E5. destruct E5 as (v' & s'' & ->).
           do 3 apply did_pre. exact (did_app [first] [_] _ _ (did_one _ _ _) (did_one _ _ _)).
    + destruct R as [R|(m' & tl & R & U)]; [left; auto|]. right. exists m', tl. split; auto.
      rewrite <- (List.app_nil_r t10). rewrite !List.app_assoc. rewrite <- List.app_assoc. apply unchecked_mono. exact U.
Qed.

Lemma process_spec e j t : does (process_mounts_or_die e j) t (Returned tt) ->
  exists root dev done rest,
    match j_mounts j with [] => True | _ => (j_chrootdir j = Null /\ root = ""%string) \/ j_chrootdir j = Own root end /\
    dev_dir j t dev /\ j_mounts j = done ++ rest /\ mounted root dev done t /\
    (rest = [] \/ exists m tl, rest = m :: tl /\ unchecked e m t).
Proof.
  unfold process_mounts_or_die. intro E.
  apply exec_bind_ret in E. destruct E as (t1 & t2 & dev & -> & E1 & E).
  apply exec_bind_ret in E. destruct E as (t3 & t4 & [] & -> & E2 & E3).
  assert (HD : dev_dir j (t1 ++ t3 ++ t4) dev).
  { unfold dev_dir. destruct (hasf F_mount_dev j).
    - apply exec_bind_ret in E1. destruct E1 as (u1 & u2 & [r d] & -> & E1 & E).
      destruct (Z.eqb_spec r 0) as [->|Nz]; [|destruct E as [_ E]; discriminate E].
      destruct E as [-> E]. injection E as ->.
      pose (g0 := Cfg e false false 0).
      apply (mount_dev_ok g0) in E1. destruct E1 as [_ (v & H)].
      exists v, d. split; auto. rewrite List.app_nil_r. apply in_or_app; auto.
    - destruct E1 as [-> E1]. injection E1 as ->. reflexivity. }
  destruct (j_mounts j) as [|m ms] eqn:M.
  - exists ""%string, dev, [], []. repeat split; auto. constructor.
  - destruct (j_chrootdir j) as [|root| |] eqn:R; cbn [deref] in E2; try (destruct E2 as [_ E2]; discriminate E2).
    + apply exec_bind_ret in E2. destruct E2 as (u1 & u2 & r & -> & E2 & E).
      destruct (Z.eqb_spec r 0) as [->|Nz].
      2: { apply exec_bind_ret in E. destruct E as (? & ? & ? & ? & ? & [_ E]). discriminate E. }
      destruct E as [-> _]. apply mounts_spec in E2. destruct E2 as (done & rest & E & Md & Rest).
      exists ""%string, dev, done, rest. split; [left; auto|]. split; auto. split; auto. rewrite List.app_nil_r. split.
      * apply mounted_l, mounted_r. exact Md.
      * destruct Rest as [|(m' & tl & -> & U)]; auto. right. exists m', tl. split; auto. now apply unchecked_mono.
    + apply exec_bind_ret in E2. destruct E2 as (u1 & u2 & r & -> & E2 & E).
      destruct (Z.eqb_spec r 0) as [->|Nz].
      2: { apply exec_bind_ret in E. destruct E as (? & ? & ? & ? & ? & [_ E]). discriminate E. }
      destruct E as [-> _]. apply mounts_spec in E2. destruct E2 as (done & rest & E & Md & Rest).
      exists root, dev, done, rest. split; [right; auto|]. split; auto. split; auto. rewrite List.app_nil_r. split.
      * apply mounted_l, mounted_r. exact Md.
      * destruct Rest as [|(m' & tl & -> & U)]; auto. right. exists m', tl. split; auto. now apply unchecked_mono.
Qed.

Lemma enter_mounts g j t : does (minijail_enter g j) t (Returned tt) ->
  exists root dev done rest,
    match j_mounts j with [] => True | _ => (j_chrootdir j = Null /\ root = ""%string) \/ j_chrootdir j = Own root end /\
    dev_dir j t dev /\ j_mounts j = done ++ rest /\ mounted root dev done t /\
    (rest = [] \/ exists m tl, rest = m :: tl /\ unchecked (g_env g) m t).
Proof.
  intro E. apply enter_parts in E.
  destruct E as (t0 & t1 & t2 & t3 & t4 & t5 & last & -> & _ & E0 & E1 & E2 & E3 & E4 & E5).
  unfold enter_filesystem in E2. apply exec_bind_ret in E2. destruct E2 as (u1 & u2 & [] & -> & F1 & F2).
  apply process_spec in F1. destruct F1 as (root & dev & done & rest & R & HD & L & M & Rest).
  exists root, dev, done, rest. split; auto.
  assert (W : exists a b, t0 ++ t1 ++ (u1 ++ u2) ++ t3 ++ t4 ++ t5 = a ++ u1 ++ b).
  { exists (t0 ++ t1), (u2 ++ t3 ++ t4 ++ t5). now rewrite <- !List.app_assoc. }
  destruct W as (a & b & ->). split.
  - unfold dev_dir in *. destruct (hasf F_mount_dev j); auto. destruct HD as (v & d & -> & I1). exists v, d. split; auto.
    apply in_or_app; right. apply in_or_app; auto.
  - split; auto. split; [apply mounted_l, mounted_r; exact M|].
    destruct Rest as [|(m' & tl & -> & U)]; auto. right. exists m', tl. split; auto. now apply unchecked_mono.
Qed.
