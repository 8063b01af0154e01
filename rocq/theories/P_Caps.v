(* Proofs: capabilities and securebits after entering a jail (C31, C32). *)
From Verif Require Export P_Creds.
From Coq Require Import ZifyBool ZifyNat ZifyN.
Local Open Scope N_scope.
Local Open Scope io_scope.

Lemma in_caps_upto last i : In i (caps_upto last) <-> i < 64 /\ i <= last.
Proof.
  unfold caps_upto. rewrite in_map_iff. split.
  - intros (n & <- & I). apply in_seq in I. lia.
  - intros H. exists (N.to_nat i). rewrite N2Nat.id, in_seq. split; auto. lia.
Qed.

Section State.
Variable groups_of : string -> N -> list N.
Variable hook_effect : hook -> creds -> creds.
Notation after := (after groups_of hook_effect).
Notation effect := (effect groups_of hook_effect).

Lemma drop_each_run keep : forall l t s, does (drop_each keep l) t (Returned tt) ->
  forall i, N.testbit (bounding (after s t)) i =
            N.testbit (bounding s) i && (N.testbit keep i || negb (existsb (N.eqb i) l)).
Proof.
  induction l as [|c l IH]; intros t s E i; cbn [drop_each] in E.
  - destruct E as [-> _]. cbn. now rewrite orb_true_r, andb_true_r.
  - apply exec_bind_ret in E. destruct E as (t1 & t2 & [] & -> & E1 & E2). rewrite after_app.
    rewrite (IH _ _ E2 i). clear IH E2. destruct (N.testbit keep c) eqn:K; cbn [negb when] in E1.
    + destruct E1 as [-> _]. cbn [existsb]. destruct (N.eqb_spec i c) as [->|D]; [now rewrite K|]. reflexivity.
    + apply must_ret in E1. destruct E1 as (v & z & ->). cbn [existsb].
      change (bounding (after s [(C_capbset_drop c, Yes v z)])) with (N.clearbit (bounding s) c).
      rewrite N.clearbit_eqb, (N.eqb_sym c i). destruct (N.eqb_spec i c) as [->|D].
      * rewrite K. cbn. now rewrite !andb_false_r.
      * cbn. now rewrite andb_true_r.
Qed.
Lemma drop_each_keeps {X} (f : creds -> X) keep l t s : does (drop_each keep l) t (Returned tt) ->
  (forall c s, f (effect (C_capbset_drop c) s) = f s) -> f (after s t) = f s.
Proof.
  intros E K. apply (keeps _ _ f k_bset); [exact (only_of _ _ _ _ (ci_drop_each keep l) E)|].
  intros []; try discriminate. auto.
Qed.
Lemma existsb_caps last i : existsb (N.eqb i) (caps_upto last) = (i <? 64) && (i <=? last).
Proof.
  apply eq_iff_eq_true. rewrite existsb_exists, andb_true_iff, N.ltb_lt, N.leb_le, <- in_caps_upto.
  split; [intros (x & I & E); apply N.eqb_eq in E; now subst|intro I; exists i; rewrite N.eqb_refl; auto].
Qed.

Lemma flag3_run i t : does (cap_set_flag3 i) t (Returned tt) -> only quiet t.
Proof. apply only_of. unfold cap_set_flag3. ci. Qed.
Lemma collect_run caps : forall l acc t r, does (collect_caps caps l acc) t (Returned r) ->
  only quiet t /\
  forall i, N.testbit r i = N.testbit acc i || (existsb (N.eqb i) l && ((i =? 8) || N.testbit caps i)).
Proof.
  induction l as [|c l IH]; intros acc t r E; cbn [collect_caps] in E.
  - destruct E as [-> E]. injection E as ->. split; [apply only_nil|]. intro i. cbn. now rewrite orb_false_r.
  - unfold CAP_SETPCAP in E. destruct (negb (c =? 8) && negb (N.testbit caps c)) eqn:B.
    + destruct (IH _ _ _ E) as [Q R]. split; auto. intro i. rewrite R. cbn [existsb].
      destruct (N.eqb_spec i c) as [->|D]; auto. apply andb_true_iff in B. destruct B as [B1 B2].
      apply negb_true_iff in B1. apply negb_true_iff in B2. rewrite B1, B2. cbn. now rewrite andb_false_r.
    + apply exec_bind_ret in E. destruct E as (t1 & t2 & [] & -> & E1 & E2).
      destruct (IH _ _ _ E2) as [Q R]. split. { apply only_app; auto. exact (flag3_run _ _ E1). }
      intro i. rewrite R, N.setbit_eqb, (N.eqb_sym c i). cbn [existsb]. destruct (N.eqb_spec i c) as [->|D]; auto.
      cbn. destruct (c =? 8); cbn [negb andb orb] in *; [now rewrite orb_true_r|]. destruct (N.testbit caps c); cbn [negb andb orb] in *; [|discriminate B].
      now rewrite orb_true_r.
Qed.
Lemma raise_run caps : forall l t s, does (raise_each caps l) t (Returned tt) ->
  (forall i, N.testbit (ambient (after s t)) i = N.testbit (ambient s) i || (existsb (N.eqb i) l && N.testbit caps i)) /\
  effective (after s t) = effective s /\ permitted (after s t) = permitted s /\
  inheritable (after s t) = inheritable s /\ bounding (after s t) = bounding s.
Proof.
  induction l as [|c l IH]; intros t s E; cbn [raise_each] in E.
  - destruct E as [-> _]. cbn. split; auto. intro i. now rewrite orb_false_r.
  - apply exec_bind_ret in E. destruct E as (t1 & t2 & [] & -> & E1 & E2). rewrite after_app.
    destruct (IH _ (after s t1) E2) as (A & E & P & I & B). rewrite E, P, I, B. clear IH E2 E P I B.
    destruct (N.testbit caps c) eqn:K; cbn [when] in E1.
    + apply must_ret in E1. destruct E1 as (v & z & ->). split; auto. intro i. rewrite A. cbn [existsb].
      change (ambient (after s [(C_ambient_raise c, Yes v z)])) with (N.setbit (ambient s) c).
      rewrite N.setbit_eqb, (N.eqb_sym c i). destruct (N.eqb_spec i c) as [->|D]; auto. rewrite K. cbn. now rewrite orb_true_r.
    + destruct E1 as [-> _]. split; auto. intro i. rewrite A. cbn [existsb].
      destruct (N.eqb_spec i c) as [->|D]; auto. rewrite K, !andb_false_r. reflexivity.
Qed.

Lemma caps_run j last t s : hasf F_use_caps j = true -> does (drop_caps j last) t (Returned tt) ->
  let s' := after s t in
  let want i := (i <? 64) && (i <=? last) && N.testbit (j_caps j) i in
  (forall i, N.testbit (effective s') i = want i) /\
  permitted s' = effective s' /\ inheritable s' = effective s' /\
  (forall i, N.testbit (bounding s') i =
     N.testbit (bounding s) i &&
     (negb (noroot_kept (j_securebits_skip_mask j)) || N.testbit (j_caps j) i || negb ((i <? 64) && (i <=? last)))) /\
  (if hasf F_set_ambient_caps j then forall i, N.testbit (ambient s') i = want i
   else forall i, N.testbit (ambient s') i = true -> want i = true /\ N.testbit (ambient s) i = true).
Proof.
  intros U E. cbv zeta. unfold drop_caps in E. rewrite U in E. cbn [negb] in E.
  apply exec_bind_ret in E. destruct E as (t1 & s1 & [] & -> & E1 & E). apply must_ret in E1. destruct E1 as (v1 & z1 & ->).
  apply exec_bind_ret in E. destruct E as (t2 & s2 & set1 & -> & E2 & E). destruct (collect_run _ _ _ _ _ E2) as [Q2 R2]. clear E2.
  apply exec_bind_ret in E. destruct E as (t3 & s3 & [] & -> & E3 & E). apply must_ret in E3. destruct E3 as (v3 & z3 & ->).
  apply exec_bind_ret in E. destruct E as (t4 & s4 & [] & -> & E4 & E).
  apply exec_bind_ret in E. destruct E as (t5 & s5 & set2 & -> & E5 & E).
  apply exec_bind_ret in E. destruct E as (t6 & t7 & [] & -> & E6 & E7). apply must_ret in E6. destruct E6 as (v6 & z6 & ->).
  assert (Q5 : only quiet t5 /\ forall i, N.testbit set2 i = (i <? 64) && (i <=? last) && N.testbit (j_caps j) i).
  { assert (R3 : forall i, N.testbit set1 i = (i <? 64) && (i <=? last) && ((i =? 8) || N.testbit (j_caps j) i)).
    { intro i. now rewrite R2, N.bits_0, existsb_caps. }
    unfold CAP_SETPCAP in E5. destruct (N.testbit (j_caps j) 8) eqn:C8; cbn [negb] in E5.
    - apply pure_ret in E5. destruct E5 as [-> ->]. split; [apply only_nil|]. intro i. rewrite R3.
      destruct (N.eqb_spec i 8) as [->|D]; auto. now rewrite C8.
    - apply exec_bind_ret in E5. destruct E5 as (t51 & t52 & [] & -> & E51 & E52).
      apply pure_ret in E52. destruct E52 as [-> ->]. rewrite List.app_nil_r. split; [exact (flag3_run _ _ E51)|].
      intro i. rewrite N.clearbit_eqb, R3, (N.eqb_sym 8 i). destruct (N.eqb_spec i 8) as [->|D].
      + rewrite C8. cbn [negb]. now rewrite !andb_false_r.
      + cbn [negb orb]. now rewrite andb_true_r. }
  destruct Q5 as [Q5 R5]. clear R2 E5. rewrite !after_app.
  change (after s [(C_capget, Yes v1 z1)]) with s. rewrite (quiet_keeps _ _ t2 Q2).
  set (sa := after s [(C_capset set1 set1 set1, Yes v3 z3)]).
  assert (Ba : bounding sa = bounding s) by reflexivity.
  assert (Aa : ambient sa = N.land (ambient s) (N.land set1 set1)) by reflexivity.
  set (sb := after sa t4).
  assert (Bb : forall i, N.testbit (bounding sb) i = N.testbit (bounding s) i &&
     (negb (noroot_kept (j_securebits_skip_mask j)) || N.testbit (j_caps j) i || negb ((i <? 64) && (i <=? last)))).
  { intro i. rewrite <- Ba. unfold sb. destruct (noroot_kept _); cbn [when] in E4.
    - rewrite (drop_each_run _ _ _ sa E4 i), existsb_caps. reflexivity.
    - destruct E4 as [-> _]. cbn. now rewrite andb_true_r. }
  assert (Ab : ambient sb = ambient sa).
  { unfold sb. destruct (noroot_kept _); cbn [when] in E4; [|destruct E4 as [-> _]; reflexivity].
    apply (drop_each_keeps ambient _ _ _ _ E4). reflexivity. }
  rewrite (quiet_keeps _ _ t5 Q5). set (sc := after sb [(C_capset set2 set2 set2, Yes v6 z6)]).
  assert (Ec : effective sc = set2 /\ permitted sc = set2 /\ inheritable sc = set2 /\ bounding sc = bounding sb /\
               ambient sc = N.land (ambient sb) (N.land set2 set2)) by (repeat split).
  destruct Ec as (Ec & Pc & Ic & Bc & Ac). clearbody sc sb sa.
  destruct (hasf F_set_ambient_caps j); cbn [when] in E7.
  - apply exec_bind_ret in E7. destruct E7 as (t8 & s8 & [] & -> & E8 & E7). apply must_ret in E8. destruct E8 as (v8 & z8 & ->).
    apply exec_bind_ret in E7. destruct E7 as (t9 & t10 & [] & -> & E9 & E10). apply must_ret in E9. destruct E9 as (v9 & z9 & ->).
    rewrite !after_app. change (after sc [(C_ambient_is_set, Yes v8 z8)]) with sc.
    set (sd := after sc [(C_ambient_clear, Yes v9 z9)]).
    assert (Ed : effective sd = effective sc /\ permitted sd = permitted sc /\ inheritable sd = inheritable sc /\
      bounding sd = bounding sc /\ ambient sd = 0) by (repeat split).
    destruct Ed as (Ed & Pd & Id & Bd & Ad). clearbody sd.
    destruct (raise_run _ _ _ sd E10) as (R & -> & -> & -> & ->).
    rewrite Ed, Pd, Id, Bd, Ec, Pc, Ic, Bc. repeat split; auto. intro i. rewrite R, Ad, N.bits_0, existsb_caps. reflexivity.
  - destruct E7 as [-> _]. change (after sc []) with sc. rewrite Ec, Pc, Ic, Bc. repeat split; auto.
    + rewrite Ac, N.land_diag, N.land_spec, R5 in H. apply andb_true_iff in H. apply H.
    + rewrite Ac, N.land_diag, N.land_spec, Ab, Aa, N.land_spec in H. apply andb_true_iff in H. destruct H as [H _].
      apply andb_true_iff in H. apply H.
Qed.

Lemma bset_run j last t s : does (when (hasf F_capbset_drop j) (drop_capbset (j_cap_bset j) last)) t (Returned tt) ->
  forall i, N.testbit (bounding (after s t)) i =
    N.testbit (bounding s) i && (negb (hasf F_capbset_drop j) || N.testbit (j_cap_bset j) i || negb ((i <? 64) && (i <=? last))).
Proof.
  destruct (hasf F_capbset_drop j); cbn [when]; intros E i.
  - rewrite (drop_each_run _ _ _ s E i), existsb_caps. reflexivity.
  - destruct E as [-> _]. cbn. now rewrite andb_true_r.
Qed.

(* The bounding set with both options. *)
Definition bounds (j : jail) (last i : N) : bool :=
  let supported := (i <? 64) && (i <=? last) in
  (negb (hasf F_capbset_drop j) || N.testbit (j_cap_bset j) i || negb supported) &&
  (negb (hasf F_use_caps j) || negb (noroot_kept (j_securebits_skip_mask j)) || N.testbit (j_caps j) i || negb supported).
Lemma capabilities g j t s : does (minijail_enter g j) t (Returned tt) ->
  hasf F_capbset_drop j || hasf F_use_caps j = true ->
  exists last x s1, In (C_last_cap, Yes last x) t /\ last <= 64 /\
  ((forall h s, bounding (hook_effect h s) = bounding s) -> bounding s1 = bounding s) /\
  let s' := after s t in
  let want i := (i <? 64) && (i <=? last) && N.testbit (j_caps j) i in
  (forall i, N.testbit (bounding s') i = N.testbit (bounding s1) i && bounds j last i) /\
  (hasf F_use_caps j = true ->
    (forall i, N.testbit (effective s') i = want i) /\ permitted s' = effective s' /\ inheritable s' = effective s' /\
    (if hasf F_set_ambient_caps j then ambient s' = effective s'
     else forall i, N.testbit (ambient s') i = true -> want i = true)).
Proof.
  intros E F. apply cred_parts in E.
  destruct E as (last & a & b & l & i & m & c & z & -> & L & A & _ & EB & EL & M & Z & i1 & i2 & -> & I1 & EI & EC).
  destruct (L F) as (x & IL & LE). exists last, x. rewrite !after_app. set (s0 := after s a).
  exists s0. split; auto. split; auto.
  assert (K : (forall h s, bounding (hook_effect h s) = bounding s) -> bounding s0 = bounding s).
  { intros H. apply (keeps _ _ bounding (quiet_or k_hook)); [apply A; [reflexivity|intros y Y; unfold quiet_or, orb2; now rewrite Y]|].
    intros []; try discriminate; try reflexivity. intros; apply H. }
  split; auto. clear K. cbv zeta.
  rewrite (quiet_keeps _ _ i1 I1), (quiet_keeps _ _ m M).
  set (s1 := after s0 b). assert (B1 := bset_run j last b s0 EB). fold s1 in B1.
  set (s2 := after s1 l). destruct (l_ids groups_of hook_effect g j l s1 EL) as (_ & _ & _ & B2). fold s2 in B2.
  set (s3 := after s2 i2). destruct (i_other groups_of hook_effect j i2 s2 EI) as (B3 & _). fold s3 in B3.
  set (s4 := after s3 c).
  assert (Z1 : bounding (after s4 z) = bounding s4) by (apply (nnp_keeps _ _ bounding); auto).
  assert (Z2 : effective (after s4 z) = effective s4) by (apply (nnp_keeps _ _ effective); auto).
  assert (Z3 : permitted (after s4 z) = permitted s4) by (apply (nnp_keeps _ _ permitted); auto).
  assert (Z4 : inheritable (after s4 z) = inheritable s4) by (apply (nnp_keeps _ _ inheritable); auto).
  assert (Z5 : ambient (after s4 z) = ambient s4) by (apply (nnp_keeps _ _ ambient); auto).
  rewrite Z1, Z2, Z3, Z4, Z5. unfold bounds. cbv zeta.
  destruct (hasf F_use_caps j) eqn:UC.
  - destruct (caps_run j last c s3 UC EC) as (R1 & R2 & R3 & R4 & R5). fold s4 in R1, R2, R3, R4, R5. split.
    + intro i. rewrite R4, B3, B2, B1. cbn [negb orb]. now rewrite andb_assoc.
    + intros _. repeat split; auto. destruct (hasf F_set_ambient_caps j).
      * apply N.bits_inj. intro i. now rewrite R5, R1.
      * intros i Hi. now apply R5.
  - split; [|intro H; discriminate H]. intro i.
    unfold drop_caps in EC. rewrite UC in EC. destruct EC as [-> _]. unfold s4. change (after s3 []) with s3.
    rewrite B3, B2, B1. cbn [negb orb]. now rewrite andb_true_r.
Qed.

(* ---- securebits ---- *)
Lemma retry_run bits t s : does (set_securebits_retry bits) t (Returned 0%Z) ->
  securebits (after s t) = bits \/ securebits (after s t) = N.ldiff bits SECURE_6_14.
Proof.
  unfold set_securebits_retry. intros (x & t' & -> & E). destruct x as [v z|e]; cbn [bind] in E.
  - destruct E as [-> _]. left. reflexivity.
  - destruct (_ && _); [|destruct E as [_ E]; discriminate E].
    destruct E as (y & t'' & -> & E). destruct y as [v z|e']; [|destruct E as [_ E]; discriminate E].
    destruct E as [-> _]. right. reflexivity.
Qed.
(* one of the six bits kernels have had from the start *)
Definition basic_bit (i : N) : Prop := i < 6.
Lemma basic_excluded i : i < 6 -> N.testbit SECURE_6_14 i = false /\
  N.testbit (N.lor SECBIT_NO_CAP_AMBIENT_RAISE SECBIT_NO_CAP_AMBIENT_RAISE_LOCKED) i = false.
Proof.
  intro H. assert (C : i = 0 \/ i = 1 \/ i = 2 \/ i = 3 \/ i = 4 \/ i = 5) by lia.
  destruct C as [->|[->|[->|[->|[->| ->]]]]]; split; reflexivity.
Qed.
Lemma with_run bits skip t s : does (lock_securebits_with bits skip) t (Returned 0%Z) ->
  forall i, i < 6 -> N.testbit bits i = true -> N.testbit skip i = false -> N.testbit (securebits (after s t)) i = true.
Proof.
  unfold lock_securebits_with. intros E i L B S.
  destruct (basic_excluded i L) as [X1 X2].
  set (b := N.ldiff (N.ldiff bits _) skip) in E.
  assert (Bi : N.testbit b i = true) by (unfold b; rewrite !N.ldiff_spec, B, X2, S; reflexivity).
  destruct (N.eqb_spec b 0) as [Z|_]; [rewrite Z, N.bits_0 in Bi; discriminate Bi|].
  destruct (retry_run _ _ s E) as [-> | ->]; auto. rewrite N.ldiff_spec, Bi, X1. reflexivity.
Qed.
Lemma initial_bit g i : N.land (g_secure_all_bits g) 21 = 21 -> i < 6 -> N.testbit (initial_securebits g) i = true.
Proof.
  intros H L. unfold initial_securebits, SECURE_ALL_LOCKS.
  assert (T : forall k, N.testbit 21 k = true -> N.testbit (g_secure_all_bits g) k = true).
  { intros k K. rewrite <- H, N.land_spec in K. apply andb_true_iff in K. apply K. }
  rewrite N.lor_spec.
  assert (C : i = 0 \/ i = 1 \/ i = 2 \/ i = 3 \/ i = 4 \/ i = 5) by lia.
  destruct C as [->|[->|[->|[->|[->| ->]]]]].
  - now rewrite (T 0).
  - rewrite N.shiftl_spec_high'; [|lia]. change (1 - 1) with 0. rewrite (T 0); auto. apply orb_true_r.
  - now rewrite (T 2).
  - rewrite N.shiftl_spec_high'; [|lia]. change (3 - 1) with 2. rewrite (T 2); auto. apply orb_true_r.
  - now rewrite (T 4).
  - rewrite N.shiftl_spec_high'; [|lia]. change (5 - 1) with 4. rewrite (T 4); auto. apply orb_true_r.
Qed.
Lemma lock_run g skip keep t s : N.land (g_secure_all_bits g) 21 = 21 ->
  does (lock_securebits g skip keep) t (Returned 0%Z) ->
  forall i, i < 6 -> N.testbit skip i = false ->
  N.testbit (securebits (after s t)) i = true \/
  (i = 4 /\ keep = false /\ exists cur x, In (C_get_securebits, Yes cur x) t /\ N.testbit cur 5 = true /\ N.testbit cur 4 = false).
Proof.
  intros H E i L S. assert (B := initial_bit g i H L). unfold lock_securebits in E. destruct keep.
  - left. exact (with_run _ _ _ s E i L B S).
  - destruct E as (x & t' & -> & E). destruct x as [cur z|e]; [|destruct E as [_ E]; discriminate E].
    cbn [bind] in E. change (after s ((C_get_securebits, Yes cur z) :: t')) with (after s t').
    destruct (negb (N.land cur SECBIT_KEEP_CAPS_LOCKED =? 0) && (N.land cur SECBIT_KEEP_CAPS =? 0)) eqn:Q.
    + destruct (N.eqb_spec i 4) as [->|D].
      * right. split; auto. split; auto. exists cur, z. split; [left; reflexivity|].
        apply andb_true_iff in Q. destruct Q as [Q1 Q2]. unfold SECBIT_KEEP_CAPS_LOCKED, SECBIT_KEEP_CAPS in *.
        apply negb_true_iff in Q1. apply N.eqb_neq in Q1. apply N.eqb_eq in Q2. split.
        -- destruct (N.testbit cur 5) eqn:T; auto. exfalso. apply Q1. apply N.bits_inj. intro k.
           change 32 with (2 ^ 5). rewrite N.land_spec, N.pow2_bits_eqb, N.bits_0.
           destruct (N.eqb_spec 5 k) as [<-|]; [now rewrite T|now rewrite andb_false_r].
        -- destruct (N.testbit cur 4) eqn:T; auto. exfalso.
           assert (X : N.testbit (N.land cur 16) 4 = true) by (now rewrite N.land_spec, T).
           rewrite Q2, N.bits_0 in X. discriminate X.
      * left. apply (with_run _ _ _ s E i L); auto. rewrite N.ldiff_spec, B. unfold SECBIT_KEEP_CAPS.
        change 16 with (2 ^ 4). rewrite N.pow2_bits_eqb. destruct (N.eqb_spec 4 i); [congruence|reflexivity].
    + left. exact (with_run _ _ _ s E i L B S).
Qed.
Lemma locked g j t s : N.land (g_secure_all_bits g) 21 = 21 ->
  does (minijail_enter g j) t (Returned tt) -> hasf F_use_caps j = true ->
  forall i, i < 6 -> N.testbit (j_securebits_skip_mask j) i = false ->
  N.testbit (securebits (after s t)) i = true \/
  (i = 4 /\ hasf F_set_ambient_caps j = true /\
   exists cur x, In (C_get_securebits, Yes cur x) t /\ N.testbit cur 5 = true /\ N.testbit cur 4 = false).
Proof.
  intros G E U i L S. apply cred_parts in E.
  destruct E as (last & a & b & l & id & m & c & z & -> & _ & A & _ & EB & EL & M & Z & i1 & i2 & -> & I1 & EI & EC).
  rewrite !after_app. rewrite (quiet_keeps _ _ i1 I1), (quiet_keeps _ _ m M).
  set (s1 := after (after s a) b). rewrite U in EL. cbn [when] in EL. apply zero_ret in EL.
  set (s2 := after s1 l). destruct (i_other groups_of hook_effect j i2 s2 EI) as (_ & B3).
  destruct (c_ids groups_of hook_effect j last c (after s2 i2) EC) as (_ & _ & _ & B4).
  assert (Z1 : securebits (after (after (after s2 i2) c) z) = securebits (after (after s2 i2) c))
    by (apply (nnp_keeps _ _ securebits); auto).
  rewrite Z1, B4, B3. destruct (lock_run g _ _ l s1 G EL i L S) as [H|(-> & K & cur & x & I & T)]; [left; exact H|right].
  split; auto. apply negb_false_iff in K. split; auto. exists cur, x. split; auto.
  apply in_or_app; right. apply in_or_app; right. apply in_or_app; left. exact I.
Qed.
End State.
