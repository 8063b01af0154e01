(* Proofs about M_Util. *)
From Coq Require Import ZifyBool ZifyNat ZifyN Permutation.
From Verif Require Export M_Util P_CStr P_Const S_Util.
Local Open Scope string_scope.

(* ---- parse_size ---- *)
Lemma digit10_range c v : digit_val 10 c = Some v -> (48 <= N_of_ascii c <= 57)%N.
Proof.
  unfold digit_val. cbv zeta.
  repeat match goal with |- context [if ?b then _ else _] => destruct b eqn:?; try discriminate end; intros; lia.
Qed.
Lemma digit10_of_range c : (48 <= N_of_ascii c <= 57)%N -> digit_val 10 c = Some (N_of_ascii c - 48)%N.
Proof.
  intros H. unfold digit_val. cbv zeta.
  repeat match goal with |- context [if ?b then _ else _] => destruct b eqn:?; try lia end; auto; lia.
Qed.
Lemma digits_split base s : forall acc any, exists d r,
  s = d ++ r /\ dfold base acc d = Some (fst (fst (digits base acc any s))) /\
  digits base acc any s = (fst (fst (digits base acc any s)), any || negb (String.eqb d ""), r) /\
  (forall c t, r = String c t -> digit_val base c = None).
Proof.
  induction s as [|c s IH]; intros acc any.
  - exists "", "". cbn. repeat split; auto; try (destruct any; reflexivity). discriminate.
  - cbn [digits]. destruct (digit_val base c) as [v|] eqn:D.
    + destruct (IH (acc * base + v)%N true) as (d & r & E & F & G & N). exists (String c d), r. subst s.
      repeat split; auto.
      * cbn [dfold]. rewrite D. exact F.
      * rewrite G at 1. cbn. destruct any; reflexivity.
    + exists "", (String c s). cbn. repeat split; auto; try (destruct any; reflexivity).
      intros c' t H. injection H as <- <-. auto.
Qed.
Lemma range_starts c s : (48 <= N_of_ascii c <= 57)%N -> starts_digit (String c s).
Proof. intros H. apply digit10_of_range in H. exists c, s. eexists. split; [reflexivity|exact H]. Qed.

Lemma scale_ok n k : (k <= 5)%N ->
  let scale := ((k + 1) * 10)%N in
  let mask := N.lxor (N.ones 64) (N.shiftl 1 (64 - scale) - 1) in
  (n < 2 ^ 64)%N ->
  (if (N.land n mask =? 0)%N then SizeOk (N.shiftl n scale mod 2 ^ 64) else SizeRange) =
  (if (n * 1024 ^ (k + 1) <? 2 ^ 64)%N then SizeOk (n * 1024 ^ (k + 1)) else SizeRange).
Proof.
  intros K scale mask L.
  assert (S : (scale <= 60)%N) by (unfold scale; lia).
  assert (P : (1024 ^ (k + 1) = 2 ^ scale)%N).
  { unfold scale. change 1024%N with (2 ^ 10)%N. rewrite <- N.pow_mul_r. f_equal. lia. }
  assert (M : mask = N.shiftl (N.ones scale) (64 - scale)).
  { unfold mask. rewrite N.shiftl_1_l, N.sub_1_r. fold (N.ones (64 - scale)) .
    replace (N.pred (2 ^ (64 - scale))) with (N.ones (64 - scale)) by (rewrite N.ones_equiv; reflexivity).
    apply N.bits_inj. intros i. rewrite N.lxor_spec.
    destruct (N.lt_ge_cases i 64) as [I|I].
    - rewrite (N.ones_spec_low 64) by lia. destruct (N.lt_ge_cases i (64 - scale)) as [J|J].
      + rewrite N.ones_spec_low by lia. rewrite N.shiftl_spec_low by lia. reflexivity.
      + rewrite N.ones_spec_high by lia. rewrite N.shiftl_spec_high' by lia. rewrite N.ones_spec_low by lia. reflexivity.
    - rewrite (N.ones_spec_high 64) by lia. rewrite N.ones_spec_high by lia.
      rewrite N.shiftl_spec_high' by lia. rewrite N.ones_spec_high by lia. reflexivity. }
  assert (Z : (N.land n mask =? 0)%N = (n <? 2 ^ (64 - scale))%N).
  { rewrite M. destruct (n <? 2 ^ (64 - scale))%N eqn:E.
    - apply N.ltb_lt in E. apply N.eqb_eq. apply N.bits_inj. intros i. rewrite N.land_spec, N.bits_0.
      destruct (N.lt_ge_cases i (64 - scale)) as [I|I].
      + rewrite N.shiftl_spec_low by lia. apply andb_false_r.
      + assert (H : N.testbit n i = false).
        { destruct (N.eq_dec n 0) as [->|NZ]; [apply N.bits_0|].
          apply N.bits_above_log2. assert (N.log2 n < 64 - scale)%N by (apply N.log2_lt_pow2; lia). lia. }
        rewrite H. reflexivity.
    - apply N.ltb_ge in E. apply N.eqb_neq. intros H.
      assert (NZ : n <> 0%N) by (intros ->; assert (0 < 2 ^ (64 - scale))%N by (apply N.neq_0_lt_0, N.pow_nonzero; lia); lia).
      assert (T : N.testbit (N.land n (N.shiftl (N.ones scale) (64 - scale))) (N.log2 n) = true).
      { rewrite N.land_spec, N.bit_log2 by auto.
        assert (64 - scale <= N.log2 n)%N by (apply N.log2_le_pow2; lia).
        assert (N.log2 n < 64)%N by (apply N.log2_lt_pow2; lia).
        rewrite N.shiftl_spec_high' by lia. rewrite N.ones_spec_low by lia. reflexivity. }
      rewrite H, N.bits_0 in T. discriminate. }
  rewrite Z, P.
  assert (Q : (2 ^ 64 = 2 ^ (64 - scale) * 2 ^ scale)%N) by (rewrite <- N.pow_add_r; f_equal; lia).
  assert (R : (2 ^ scale <> 0)%N) by (apply N.pow_nonzero; lia).
  destruct (n <? 2 ^ (64 - scale))%N eqn:E.
  - apply N.ltb_lt in E.
    assert (X : (n * 2 ^ scale < 2 ^ 64)%N) by (rewrite Q; apply N.mul_lt_mono_pos_r; [apply N.neq_0_lt_0|]; auto).
    rewrite (proj2 (N.ltb_lt _ _) X). rewrite N.shiftl_mul_pow2. rewrite N.mod_small by auto. reflexivity.
  - apply N.ltb_ge in E.
    assert (X : (2 ^ 64 <= n * 2 ^ scale)%N) by (rewrite Q; apply N.mul_le_mono_r; auto).
    rewrite (proj2 (N.ltb_ge _ _) X). reflexivity.
Qed.

Lemma scale_by_spec c n k : (n < 2 ^ 64)%N ->
  get k "KMGTPE" = Some c ->
  scale_by c 0 "KMGTPE" n =
  (if (n * 1024 ^ N.of_nat (S k) <? 2 ^ 64)%N then SizeOk (n * 1024 ^ N.of_nat (S k)) else SizeRange).
Proof.
  intros L G.
  do 6 (destruct k as [|k]; [injection G as <-;
    match goal with |- context [(1024 ^ N.of_nat (S ?m))%N] =>
      pose proof (scale_ok n (N.of_nat m) ltac:(cbn; lia) L) as X end;
    cbv zeta in X; exact X|]).
  destruct k; discriminate.
Qed.
Lemma scale_by_none c n : (forall k, get k "KMGTPE" <> Some c) -> scale_by c 0 "KMGTPE" n = SizeInval.
Proof.
  intros H. cbn [scale_by].
  repeat match goal with |- context [Ascii.eqb c ?x] => destruct (Ascii.eqb c x) eqn:? end; auto;
  match goal with E : Ascii.eqb c _ = true |- _ => apply aeqb_true in E; subst; exfalso end.
  - apply (H 0%nat); reflexivity. - apply (H 1%nat); reflexivity. - apply (H 2%nat); reflexivity.
  - apply (H 3%nat); reflexivity. - apply (H 4%nat); reflexivity. - apply (H 5%nat); reflexivity.
Qed.

Lemma digits_val_first s n : digits_val 10 s n -> exists c t, s = String c t /\ (48 <= N_of_ascii c <= 57)%N.
Proof.
  intros H. destruct (digits_val_starts 10 s n ltac:(lia) H) as (c & t & v & -> & D).
  apply digit10_range in D. eauto.
Qed.
Lemma digits_val_app_read s n r : digits_val 10 s n -> (forall c t, r = String c t -> digit_val 10 c = None) ->
  read_int 10 (s ++ r) = Some (false, n, r).
Proof.
  intros H NR. destruct (digits_val_first _ _ H) as (c & t & E & RG).
  apply digits_val_dfold in H. destruct H as [NE F].
  unfold read_int.
  destruct (skip_starts (s ++ r)) as [A B].
  { subst s. apply range_starts; auto. }
  rewrite A, B, read_base_10.
  assert (X : forall s acc any, dfold 10 acc s = Some n -> digits 10 acc any (s ++ r) = (n, any || negb (String.eqb s ""), r)).
  { clear -NR. induction s as [|c s IH]; intros acc any X.
    - injection X as ->. cbn [append]. destruct r as [|c t]; cbn [digits].
      + rewrite orb_false_r. reflexivity.
      + rewrite (NR c t eq_refl). rewrite orb_false_r. reflexivity.
    - cbn [dfold] in X. cbn [append digits]. destruct (digit_val 10 c); [|discriminate].
      rewrite (IH _ true X). cbn. destruct any; reflexivity. }
  rewrite (X s 0%N false F). apply seqb_false in NE. rewrite NE. reflexivity.
Qed.

(* What parse_size answers on every string. *)
Lemma parse_size_ok s n : parse_size s = SizeOk n <-> size_text s n /\ (n < 2 ^ 64)%N.
Proof.
  split.
  - unfold parse_size. destruct s as [|c0 s0]; [discriminate|].
    destruct ((N_of_ascii c0 <? 48) || (57 <? N_of_ascii c0))%N eqn:R; [discriminate|].
    assert (RG : (48 <= N_of_ascii c0 <= 57)%N) by lia. clear R.
    unfold strtoul. remember (String c0 s0) as s. unfold read_int.
    destruct (skip_starts s) as [A B]; [subst s; apply range_starts; auto|].
    rewrite A, B, read_base_10.
    destruct (digits_split 10 s 0 false) as (d & r & E & F & G & N). rewrite G.
    remember (fst (fst (digits 10 0 false s))) as v. clear Heqv G.
    assert (ND : d <> "").
    { intros ->. cbn in E. subst r. rewrite Heqs in N. specialize (N c0 s0 eq_refl).
      rewrite digit10_of_range in N by auto. discriminate. }
    rewrite (proj2 (seqb_false d "") ND). cbn [orb negb].
    assert (DV : digits_val 10 d v) by (apply digits_val_dfold; auto).
    destruct (2 ^ 64 - 1 <? v)%N eqn:L; [discriminate|].
    assert (V : (v < 2 ^ 64)%N) by (change (2 ^ 64)%N with 18446744073709551616%N in *; lia).
    destruct r as [|c r].
    + intros H. injection H as <-. rewrite E, sapp_nil_r. split; [constructor; auto|auto].
    + destruct r; [|discriminate]. intros H.
      assert (K : exists k, get k "KMGTPE" = Some c).
      { destruct (Ascii.eqb c "K") eqn:E1; [apply aeqb_true in E1; subst; exists 0%nat; reflexivity|].
        destruct (Ascii.eqb c "M") eqn:E2; [apply aeqb_true in E2; subst; exists 1%nat; reflexivity|].
        destruct (Ascii.eqb c "G") eqn:E3; [apply aeqb_true in E3; subst; exists 2%nat; reflexivity|].
        destruct (Ascii.eqb c "T") eqn:E4; [apply aeqb_true in E4; subst; exists 3%nat; reflexivity|].
        destruct (Ascii.eqb c "P") eqn:E5; [apply aeqb_true in E5; subst; exists 4%nat; reflexivity|].
        destruct (Ascii.eqb c "E") eqn:E6; [apply aeqb_true in E6; subst; exists 5%nat; reflexivity|].
        cbn [scale_by] in H. rewrite E1, E2, E3, E4, E5, E6 in H. discriminate. }
      destruct K as [k K]. rewrite (scale_by_spec c v k V K) in H.
      destruct (v * 1024 ^ N.of_nat (S k) <? 2 ^ 64)%N eqn:X; [|discriminate].
      assert (n = v * 1024 ^ N.of_nat (S k))%N as -> by congruence.
      apply N.ltb_lt in X. rewrite E. split; [eapply size_suffix; eauto|auto].
  - intros [H L]. destruct H as [s n H|s n c k H K].
    + pose proof (digits_val_app_read s n "" H ltac:(discriminate)) as R. rewrite sapp_nil_r in R.
      destruct (digits_val_first _ _ H) as (c & t & -> & RG).
      unfold parse_size. replace ((N_of_ascii c <? 48) || (57 <? N_of_ascii c))%N with false by lia.
      unfold strtoul. rewrite R.
      replace (2 ^ 64 - 1 <? n)%N with false by (change (2 ^ 64)%N with 18446744073709551616%N in *; lia). reflexivity.
    + assert (C : digit_val 10 c = None).
      { do 6 (destruct k as [|k]; [injection K as <-; reflexivity|]). destruct k; discriminate. }
      pose proof (digits_val_app_read s n (String c "") H) as R.
      destruct (digits_val_first _ _ H) as (c0 & t & -> & RG).
      assert (R' : read_int 10 (String c0 t ++ String c "") = Some (false, n, String c "")).
      { apply R. intros c' t' X. injection X as <- <-. auto. }
      unfold parse_size. cbn [append] in *. replace ((N_of_ascii c0 <? 48) || (57 <? N_of_ascii c0))%N with false by lia.
      unfold strtoul. rewrite R'.
      assert (n < 2 ^ 64)%N.
      { assert (1 <= 1024 ^ N.of_nat (S k))%N by (assert (1024 ^ N.of_nat (S k) <> 0)%N by (apply N.pow_nonzero; lia); lia).
        apply N.le_lt_trans with (n * 1024 ^ N.of_nat (S k))%N; auto.
        rewrite <- (N.mul_1_r n) at 1. apply N.mul_le_mono_l; auto. }
      replace (2 ^ 64 - 1 <? n)%N with false by (change (2 ^ 64)%N with 18446744073709551616%N in *; lia).
      rewrite (scale_by_spec c n k) by auto. rewrite (proj2 (N.ltb_lt _ _) L). reflexivity.
Qed.

(* ---- path_is_parent ---- *)
Lemma get_app_l a b n : (n < String.length a)%nat -> get n (a ++ b) = get n a.
Proof. revert n. induction a as [|c a IH]; intros [|n] H; cbn in *; try lia; auto. apply IH. lia. Qed.
Lemma get_app_r a c t : get (String.length a) (a ++ String c t) = Some c.
Proof. induction a; cbn; auto. Qed.
Lemma path_parent_spec p c : p <> "" ->
  (path_is_parent p c = BVal true <->
   exists r, c = p ++ r /\ r <> "" /\ ((exists q, p = q ++ "/") \/ exists q, r = "/" ++ q)).
Proof.
  intros NP. unfold path_is_parent, has_prefix.
  destruct (String.prefix p c) eqn:PF.
  2:{ split; [discriminate|]. intros (r & -> & _). rewrite prefix_app in PF. discriminate. }
  apply prefix_spec in PF. destruct PF as [r ->].
  assert (LP : exists n, String.length p = S n) by (destruct p; [congruence|eexists; reflexivity]).
  destruct LP as [n LP]. rewrite slen_app.
  destruct r as [|x r].
  - replace (Nat.ltb _ _) with false by (cbn [String.length]; lia). split; [discriminate|].
    intros (r & E & N & _). apply sapp_inj_l in E. congruence.
  - replace (Nat.ltb _ _) with true by (cbn [String.length]; lia). rewrite LP at 1.
    rewrite get_app_r.
    destruct (snoc_cases p) as [->|(u & y & ->)]; [congruence|].
    rewrite slen_app in LP. cbn [String.length] in LP. assert (n = String.length u) as -> by lia.
    rewrite get_app_r. split.
    + intros H. assert (Y : (Ascii.eqb y "/" || Ascii.eqb x "/") = true) by congruence.
      exists (String x r). split; auto. split; [discriminate|].
      apply orb_true_iff in Y. destruct Y as [Y|Y]; apply aeqb_true in Y; subst; [left; exists u; reflexivity|right; exists r; reflexivity].
    + intros (r' & E & N & H). apply sapp_inj_l in E. subst r'. f_equal. apply orb_true_iff.
      destruct H as [[q H]|[q H]].
      * left. apply sapp_snoc_inj in H. destruct H as [_ ->]. reflexivity.
      * right. injection H as -> _. reflexivity.
Qed.

Lemma slashed_app a b : slashed (a ++ b) = slashed a ++ slashed b.
Proof. induction a as [|c a IH]; cbn [slashed app]; auto. rewrite IH. rewrite <- !sapp_assoc. reflexivity. Qed.
Lemma slashed_head b : slashed b = "" \/ exists t, slashed b = "/" ++ t.
Proof. destruct b; cbn [slashed]; eauto. Qed.
Lemma comp_cut c c' r r' : all_chars (fun x => x <> "/"%char) c -> all_chars (fun x => x <> "/"%char) c' ->
  (r = "" \/ exists t, r = "/" ++ t) -> (r' = "" \/ exists t, r' = "/" ++ t) ->
  c ++ r = c' ++ r' -> c = c' /\ r = r'.
Proof.
  revert c'. induction c as [|x c IH]; intros c' A A' R R' E.
  - destruct c' as [|y c']; [auto|]. cbn in E. destruct R as [->|[t ->]]; [discriminate|].
    injection E as <- _. apply all_chars_cons in A'. destruct A'; congruence.
  - destruct c' as [|y c'].
    + cbn in E. destruct R' as [->|[t ->]]; [discriminate|]. injection E as -> _.
      apply all_chars_cons in A. destruct A; congruence.
    + cbn in E. injection E as <- E. apply all_chars_cons in A, A'. destruct A, A'.
      destruct (IH c') as [-> ->]; auto.
Qed.
Lemma slashed_last a : a <> [] -> Forall component a -> forall q, slashed a <> q ++ "/".
Proof.
  induction a as [|c a IH]; [congruence|]. intros _ F q E. inversion F as [|? ? [NC AC] F']; subst.
  cbn [slashed] in E. destruct a as [|c' a].
  - cbn [slashed] in E. rewrite sapp_nil_r in E. destruct (snoc_cases c) as [->|(u & y & ->)]; [congruence|].
    change ("/" ++ (u ++ String y "")) with (String "/" (u ++ String y "")) in E.
    rewrite (sapp_cons "/"), <- sapp_assoc in E. apply sapp_snoc_inj in E. destruct E as [_ ->].
    apply all_chars_app in AC. destruct AC as [_ AC]. apply all_chars_cons in AC. destruct AC; congruence.
  - assert (H : exists u y, slashed (c' :: a) = u ++ String y "") by (destruct (snoc_cases (slashed (c' :: a))) as [X|X]; [discriminate|auto]).
    destruct H as (u & y & H). rewrite H in E.
    rewrite <- !sapp_assoc in E. apply sapp_snoc_inj in E. destruct E as [_ ->].
    apply (IH ltac:(discriminate) F' u). exact H.
Qed.
Lemma slashed_prefix a b r : Forall component a -> Forall component b ->
  (r = "" \/ exists t, r = "/" ++ t) -> slashed b = slashed a ++ r ->
  exists t, b = (a ++ t)%list /\ r = slashed t.
Proof.
  revert b. induction a as [|c a IH]; intros b FA FB R E.
  - exists b. cbn in E. auto.
  - destruct b as [|d b]; [discriminate|]. cbn [slashed] in E. inversion FA as [|? ? [? AC] ?]; inversion FB as [|? ? [? AD] ?]; subst.
    rewrite !sapp_assoc in E. apply sapp_inj_l in E.
    apply comp_cut in E; auto using slashed_head.
    + destruct E as [-> E]. destruct (IH b) as (t & -> & ->); auto. exists t. auto.
    + destruct (slashed_head a) as [->|[t ->]]; cbn [append]; eauto.
Qed.
Lemma path_parent_components a b : Forall component a -> Forall component b ->
  (path_is_parent (abs_path a) (abs_path b) = BVal true <-> exists c t, b = (a ++ c :: t)%list).
Proof.
  intros FA FB.
  rewrite path_parent_spec by (destruct a; discriminate).
  destruct a as [|a0 a].
  - cbn [abs_path app]. destruct b as [|b0 b].
    + split.
      * intros (r & E & N & _). cbn in E. injection E as E. congruence.
      * intros (c & t & E). discriminate.
    + split; [eauto|]. intros _. exists (b0 ++ slashed b). cbn [abs_path slashed].
      split; auto. split; [|left; exists ""; reflexivity].
      inversion FB as [|? ? [? ?] ?]; subst. intros E. apply sapp_eq_nil in E. destruct E; congruence.
  - assert (AP : abs_path (a0 :: a) = slashed (a0 :: a)) by reflexivity. rewrite AP.
    split.
    + intros (r & E & N & H). destruct H as [[q H]|[q H]].
      * exfalso. eapply slashed_last; [| |exact H]; auto; discriminate.
      * destruct b as [|b0 b].
        { exfalso. cbn [abs_path slashed] in E. inversion FA as [|? ? [? ?] ?]; subst.
          cbn in E. injection E as E. symmetry in E. apply sapp_eq_nil in E. destruct E as [E _]. apply sapp_eq_nil in E. destruct E; congruence. }
        assert (BP : abs_path (b0 :: b) = slashed (b0 :: b)) by reflexivity. rewrite BP in E.
        destruct (slashed_prefix (a0 :: a) (b0 :: b) r) as (t & X & Y); auto; [right; eauto|].
        destruct t as [|c t]; [cbn in Y; congruence|]. exists c, t. auto.
    + intros (c & t & ->). exists (slashed (c :: t)).
      assert (BP : abs_path ((a0 :: a) ++ c :: t) = slashed ((a0 :: a) ++ c :: t)) by reflexivity.
      rewrite BP, slashed_app. split; auto. split; [discriminate|]. right. exists (c ++ slashed t). reflexivity.
Qed.

(* ---- environments ---- *)
Definition env_step (e : env) (o : env_op) : env :=
  match o with
  | SetVar n v ow => snd (minijail_setenv e n v ow)
  | UnsetVar n => snd (minijail_unsetenv e n)
  end.

Lemma env_match_spec n x : env_match n x = true <-> for_name n x.
Proof.
  unfold env_match, has_prefix, for_name. rewrite andb_true_iff, prefix_spec. split.
  - intros [[r ->] H]. destruct r as [|c r].
    + exfalso. rewrite sapp_nil_r in H.
      assert (X : get (String.length n) n = None) by (clear H; induction n; cbn; auto).
      rewrite X in H. discriminate.
    + rewrite get_app_r in H. apply aeqb_true in H. subst. exists r. reflexivity.
  - intros [v ->]. split; [eauto|]. change ("=" ++ v) with (String "=" v). rewrite get_app_r. reflexivity.
Qed.
Lemma env_match_false n x : env_match n x = false <-> ~ for_name n x.
Proof. rewrite <- env_match_spec. destruct (env_match n x); split; congruence. Qed.
Lemma cut_eq n m r s : all_chars (fun x => x <> "="%char) n -> all_chars (fun x => x <> "="%char) m ->
  n ++ String "=" r = m ++ String "=" s -> n = m /\ r = s.
Proof.
  revert m. induction n as [|c n IH]; intros [|d m] A B E; cbn in E.
  - injection E; auto.
  - injection E as <- _. apply all_chars_cons in B. destruct B; congruence.
  - injection E as -> _. apply all_chars_cons in A. destruct A; congruence.
  - injection E as <- E. apply all_chars_cons in A, B. destruct A, B. destruct (IH m) as [-> ->]; auto.
Qed.
Lemma for_name_inj n m x : var_name n -> var_name m -> for_name n x -> for_name m x -> n = m.
Proof. intros [_ A] [_ B] [v ->] [w E]. apply cut_eq in E; tauto. Qed.
Lemma index_some e n i : getenv_index e n = Some i ->
  exists a x b, e = (a ++ x :: b)%list /\ i = length a /\ for_name n x /\ Forall (fun y => ~ for_name n y) a.
Proof.
  revert i. induction e as [|y e IH]; intros i H; [discriminate|]. cbn [getenv_index] in H.
  destruct (env_match n y) eqn:M.
  - injection H as <-. exists [], y, e. repeat split; auto. apply env_match_spec; auto.
  - destruct (getenv_index e n) as [j|]; [|discriminate]. injection H as <-.
    destruct (IH j eq_refl) as (a & x & b & -> & -> & F & NF). exists (y :: a), x, b.
    repeat split; auto. constructor; auto. apply env_match_false; auto.
Qed.
Lemma index_none e n : getenv_index e n = None <-> Forall (fun y => ~ for_name n y) e.
Proof.
  induction e as [|y e IH]; cbn [getenv_index]; [split; auto|].
  destruct (env_match n y) eqn:M.
  - split; [discriminate|]. intros F. inversion F; subst. apply env_match_spec in M. tauto.
  - destruct (getenv_index e n) as [j|]; split; try discriminate.
    + intros F. inversion F; subst. apply IH in H2. discriminate.
    + intros _. constructor; [apply env_match_false; auto|apply IH; auto].
    + auto.
Qed.
Lemma set_nth_app {A} (a : list A) x b v : set_nth (length a) v (a ++ x :: b) = (a ++ v :: b)%list.
Proof. induction a; cbn; congruence. Qed.
Lemma unset_app (a : list string) x b :
  Permutation (removelast (set_nth (length a) (last (a ++ x :: b) "") (a ++ x :: b))) (a ++ b).
Proof.
  rewrite set_nth_app. destruct b as [|y b] using rev_ind.
  - rewrite removelast_last, app_nil_r. auto.
  - clear IHb.
    replace (last (a ++ x :: b ++ [y]) "") with y.
    2:{ rewrite app_comm_cons, app_assoc, last_last. reflexivity. }
    rewrite app_comm_cons, app_assoc, removelast_last. 
    apply Permutation_app_head. apply Permutation_cons_append.
Qed.

Definition hits (n : string) (e : env) : nat := length (filter (env_match n) e).
Lemma hits_app n a b : hits n (a ++ b)%list = (hits n a + hits n b)%nat.
Proof. unfold hits. rewrite filter_app, app_length. reflexivity. Qed.
Lemma hits_cons n x b : hits n (x :: b) = ((if env_match n x then 1 else 0) + hits n b)%nat.
Proof. unfold hits. cbn [filter]. destruct (env_match n x); reflexivity. Qed.
Lemma hits_perm n e e' : Permutation e e' -> hits n e = hits n e'.
Proof.
  intros P. induction P; auto; rewrite ?hits_cons; try lia. 
Qed.
Lemma hits_zero n e : hits n e = 0%nat <-> Forall (fun y => ~ for_name n y) e.
Proof.
  induction e as [|x e IH]; [split; auto|]. rewrite hits_cons.
  destruct (env_match n x) eqn:M.
  - split; [lia|]. intros F. inversion F; subst. apply env_match_spec in M. tauto.
  - rewrite Nat.add_0_l, IH. apply env_match_false in M. split; [constructor; auto|intros F; inversion F; auto].
Qed.
Lemma hits_one_in n e : (1 <= hits n e)%nat -> exists a x b, e = (a ++ x :: b)%list /\ for_name n x.
Proof.
  intros H. destruct (getenv_index e n) eqn:E.
  - apply index_some in E. destruct E as (a & x & b & -> & _ & F & _). eauto.
  - apply index_none in E. apply hits_zero in E. lia.
Qed.
Lemma distinct_hits e : distinct e <-> forall n, var_name n -> (hits n e <= 1)%nat.
Proof.
  split.
  - intros D n V. destruct (Nat.leb_spec (hits n e) 1); auto. exfalso.
    destruct (hits_one_in n e ltac:(lia)) as (a & x & b & -> & F).
    assert (X : (1 <= hits n a)%nat \/ (1 <= hits n b)%nat).
    { rewrite hits_app, hits_cons in H. destruct (env_match n x); lia. }
    destruct X as [X|X]; apply hits_one_in in X; destruct X as (a' & y & b' & -> & F').
    + apply (D n V a' y b' x b); auto. rewrite <- app_assoc. reflexivity.
    + apply (D n V a x a' y b'); auto.
  - intros H n V a x b y c -> [F1 F2]. specialize (H n V).
    apply env_match_spec in F1, F2. rewrite hits_app, hits_cons, hits_app, hits_cons, F1, F2 in H. lia.
Qed.

Lemma sdrop_S n x : sdrop (String.length n + 1) (n ++ String "=" x) = x.
Proof. induction n; cbn; auto. Qed.
Lemma getenv_spec e n v : distinct e -> var_name n ->
  (minijail_getenv e n = Some v <-> has_value e n v).
Proof.
  intros D V. unfold minijail_getenv, has_value. destruct (getenv_index e n) as [i|] eqn:E.
  - apply index_some in E. destruct E as (a & x & b & -> & -> & [w F] & NF).
    rewrite nth_error_app2, Nat.sub_diag by lia. cbn [nth_error]. rewrite F.
    change ("=" ++ w) with (String "=" w). rewrite sdrop_S. split.
    + intros X. injection X as <-. apply in_or_app. right. left. reflexivity.
    + intros I. apply in_app_or in I. destruct I as [I|[I|I]].
      * rewrite Forall_forall in NF. exfalso. apply (NF _ I). exists v. reflexivity.
      * apply sapp_inj_l in I. injection I as ->. reflexivity.
      * exfalso. apply in_split in I. destruct I as (b1 & b2 & ->).
        apply (D n V a x b1 (n ++ "=" ++ v) b2); auto. split; [exists w; auto|exists v; auto].
  - apply index_none in E. rewrite Forall_forall in E. split; [discriminate|].
    intros I. exfalso. apply (E _ I). exists v. reflexivity.
Qed.

(* One operation: entries of other names stay, the name gets its new value. *)
Lemma set_shape e n v ow : var_name n ->
  (minijail_setenv e n v ow = (0%N, e) /\ ow = false /\ (exists w, minijail_getenv e n = Some w)) \/
  (exists a x b, e = (a ++ x :: b)%list /\ for_name n x /\ ow = true /\
     minijail_setenv e n v ow = (0%N, a ++ (n ++ "=" ++ v)%string :: b)%list) \/
  (Forall (fun y => ~ for_name n y) e /\ minijail_setenv e n v ow = (0%N, e ++ [(n ++ "=" ++ v)%string])%list).
Proof.
  intros [NE _]. unfold minijail_setenv. rewrite (proj2 (seqb_false n "") NE).
  destruct (getenv_index e n) as [i|] eqn:E.
  - pose proof E as E'. apply index_some in E. destruct E as (a & x & b & -> & -> & F & NF). destruct ow.
    + right. left. exists a, x, b. rewrite set_nth_app. auto.
    + left. repeat split; auto. unfold minijail_getenv. rewrite E'.
      rewrite nth_error_app2, Nat.sub_diag by lia. cbn. eauto.
  - apply index_none in E. right. right. auto.
Qed.
Lemma unset_shape e n :
  (exists a x b, e = (a ++ x :: b)%list /\ for_name n x /\ exists e', minijail_unsetenv e n = (true, e') /\ Permutation e' (a ++ b)) \/
  (Forall (fun y => ~ for_name n y) e /\ minijail_unsetenv e n = (false, e)).
Proof.
  unfold minijail_unsetenv. destruct (getenv_index e n) as [i|] eqn:E.
  - apply index_some in E. destruct E as (a & x & b & -> & -> & F & NF). left.
    exists a, x, b. repeat split; auto. eexists. split; [reflexivity|apply unset_app].
  - apply index_none in E. right. auto.
Qed.
Lemma match_other n m v : var_name n -> var_name m -> n <> m -> env_match m (n ++ "=" ++ v) = false.
Proof.
  intros V W N. apply env_match_false. intros F. apply N. eapply for_name_inj; eauto. exists v. reflexivity.
Qed.
Lemma match_same n v : env_match n (n ++ "=" ++ v) = true.
Proof. apply env_match_spec. exists v. reflexivity. Qed.

Lemma env_step_distinct e o : distinct e -> op_ok o -> distinct (env_step e o).
Proof.
  rewrite !distinct_hits. intros D OK m W. destruct o as [n v ow|n]; cbn [env_step op_ok] in *.
  - destruct (set_shape e n v ow OK) as [(-> & _)|[(a & x & b & -> & F & _ & ->)|(NF & ->)]]; cbn [snd]; auto.
    + specialize (D m W). rewrite hits_app, hits_cons in *.
      destruct (String.eqb_spec n m) as [<-|N].
      * apply env_match_spec in F. rewrite F in D. rewrite match_same. auto.
      * rewrite match_other by auto. destruct (env_match m x); lia.
    + specialize (D m W). rewrite hits_app, hits_cons. cbn [hits filter length].
      destruct (String.eqb_spec n m) as [<-|N].
      * apply hits_zero in NF. rewrite match_same. change (hits n []) with 0%nat. lia.
      * rewrite match_other by auto. change (hits m []) with 0%nat. lia.
  - destruct (unset_shape e n) as [(a & x & b & -> & F & e' & -> & P)|(NF & ->)]; cbn [snd]; auto.
    specialize (D m W). rewrite (hits_perm m _ _ P). rewrite hits_app, hits_cons in *. lia.
Qed.
Lemma value_ext e e' n : distinct e -> distinct e' -> var_name n ->
  (forall v, has_value e n v <-> has_value e' n v) -> minijail_getenv e n = minijail_getenv e' n.
Proof.
  intros D D' V H.
  destruct (minijail_getenv e n) as [v|] eqn:E.
  - apply getenv_spec in E; auto. apply H in E. apply getenv_spec in E; auto.
  - destruct (minijail_getenv e' n) as [v|] eqn:E'; auto.
    apply getenv_spec in E'; auto. apply H in E'. apply getenv_spec in E'; auto. congruence.
Qed.
Lemma none_value e n : Forall (fun y => ~ for_name n y) e -> minijail_getenv e n = None.
Proof. intros F. apply index_none in F. unfold minijail_getenv. rewrite F. reflexivity. Qed.
Lemma in_other n m v x (l : list string) : var_name n -> var_name m -> n <> m -> for_name n x ->
  (m ++ "=" ++ v) <> x.
Proof. intros V W N F <-. apply N. eapply for_name_inj; eauto. exists v. reflexivity. Qed.
Lemma env_step_value e o m : distinct e -> op_ok o -> var_name m ->
  minijail_getenv (env_step e o) m = store_step (minijail_getenv e) o m.
Proof.
  intros D OK W. pose proof (env_step_distinct e o D OK) as D'.
  destruct o as [n v ow|n]; cbn [env_step op_ok store_step] in *.
  - destruct (String.eqb_spec m n) as [->|N].
    + destruct (set_shape e n v ow OK) as [(H & -> & w & G)|[(a & x & b & E & F & -> & H)|(NF & H)]]; rewrite H in *; cbn [snd] in *.
      * rewrite G. reflexivity.
      * assert (X : exists w, minijail_getenv e n = Some w).
        { destruct F as [w F]. exists w. apply getenv_spec; auto. rewrite E. apply in_or_app. right. left. auto. }
        destruct X as [w ->]. apply getenv_spec; auto. apply in_or_app. right. left. auto.
      * rewrite (none_value e n NF). apply getenv_spec; auto. apply in_or_app. right. left. auto.
    + apply value_ext; auto. intros u.
      destruct (set_shape e n v ow OK) as [(-> & _)|[(a & x & b & -> & F & _ & ->)|(NF & ->)]]; cbn [snd]; [tauto| |];
        unfold has_value; rewrite !in_app_iff; cbn [In].
      * assert (x <> m ++ "=" ++ u) by (intros X; symmetry in X; revert X; apply (in_other n m u x []); auto).
        assert (n ++ "=" ++ v <> m ++ "=" ++ u) by (intros X; symmetry in X; revert X; apply (in_other n m u _ []); auto; exists v; auto).
        intuition congruence.
      * assert (n ++ "=" ++ v <> m ++ "=" ++ u) by (intros X; symmetry in X; revert X; apply (in_other n m u _ []); auto; exists v; auto).
        intuition congruence.
  - destruct (String.eqb_spec m n) as [->|N].
    + apply none_value. apply hits_zero.
      destruct (unset_shape e n) as [(a & x & b & -> & F & e' & -> & P)|(NF & ->)]; cbn [snd].
      * rewrite (hits_perm n _ _ P). rewrite distinct_hits in D. specialize (D n OK).
        apply env_match_spec in F. rewrite hits_app, hits_cons, F in D. rewrite hits_app. lia.
      * apply hits_zero; auto.
    + apply value_ext; auto. intros u.
      destruct (unset_shape e n) as [(a & x & b & -> & F & e' & H & P)|(NF & ->)]; cbn [snd]; [|tauto].
      rewrite H in *. cbn [snd] in *. unfold has_value.
      assert (I : In (m ++ "=" ++ u) e' <-> In (m ++ "=" ++ u) (a ++ b)%list) by (split; apply Permutation_in; auto; apply Permutation_sym; auto).
      rewrite I, !in_app_iff. cbn [In].
      assert (x <> m ++ "=" ++ u) by (intros X; symmetry in X; revert X; apply (in_other n m u x []); auto).
      intuition congruence.
Qed.
Lemma store_step_ext m m' o x : op_ok o -> var_name x -> (forall y, var_name y -> m y = m' y) ->
  store_step m o x = store_step m' o x.
Proof.
  intros OK V H. destruct o as [n v ow|n]; cbn in *.
  - destruct (String.eqb x n); auto. rewrite H; auto.
  - destruct (String.eqb x n); auto.
Qed.
Lemma env_history ops : forall e, distinct e -> Forall op_ok ops ->
  distinct (fold_left env_step ops e) /\
  forall n, var_name n -> minijail_getenv (fold_left env_step ops e) n = fold_left store_step ops (minijail_getenv e) n.
Proof.
  assert (EXT : forall ops m m', Forall op_ok ops -> (forall y, var_name y -> m y = m' y) ->
    forall n, var_name n -> fold_left store_step ops m n = fold_left store_step ops m' n).
  { induction ops0 as [|o ops0 IH]; intros m m' F H n V; cbn [fold_left]; auto. inversion F; subst.
    apply IH; auto. intros y Y. apply store_step_ext; auto. }
  induction ops as [|o ops IH]; intros e D F; [auto|]. inversion F; subst. cbn [fold_left].
  destruct (IH (env_step e o)) as [A B]; auto using env_step_distinct. split; auto.
  intros n V. rewrite B by auto. apply EXT; auto. intros y Y. apply env_step_value; auto.
Qed.
Lemma env_others e o n x : op_ok o -> (o = UnsetVar n \/ exists v ow, o = SetVar n v ow) ->
  ~ for_name n x -> count_occ string_dec (env_step e o) x = count_occ string_dec e x.
Proof.
  intros OK [->|(v & ow & ->)] NF; cbn [env_step op_ok] in *.
  - destruct (unset_shape e n) as [(a & y & b & -> & F & e' & -> & P)|(_ & ->)]; cbn [snd]; auto.
    rewrite (proj1 (Permutation_count_occ string_dec _ _) P). rewrite !count_occ_app. cbn [count_occ].
    destruct (string_dec y x); [congruence|auto].
  - assert (n ++ "=" ++ v <> x) by (intros <-; apply NF; exists v; auto).
    destruct (set_shape e n v ow OK) as [(-> & _)|[(a & y & b & -> & F & _ & ->)|(_ & ->)]]; cbn [snd]; auto;
      rewrite !count_occ_app; cbn [count_occ]; destruct (string_dec (n ++ "=" ++ v) x); try congruence; auto.
    + destruct (string_dec y x); [congruence|auto].
Qed.
Lemma env_results e n v ow : var_name n ->
  fst (minijail_setenv e n v ow) = 0%N /\
  (fst (minijail_unsetenv e n) = true <-> exists x, In x e /\ for_name n x).
Proof.
  intros V. split.
  - destruct (set_shape e n v ow V) as [(-> & _)|[(a & y & b & -> & F & _ & ->)|(_ & ->)]]; auto.
  - destruct (unset_shape e n) as [(a & y & b & -> & F & e' & -> & P)|(NF & ->)]; cbn [fst]; split; auto; try discriminate.
    + intros _. exists y. split; auto. apply in_or_app. right. left. auto.
    + intros (x & I & F). rewrite Forall_forall in NF. exfalso. eapply NF; eauto.
Qed.
Lemma env_case :
  distinct ["PATH=/bin"; "HOME=/"; "junk"] /\ Forall op_ok [SetVar "HOME" "/root" true; UnsetVar "PATH"] /\
  fold_left env_step [SetVar "HOME" "/root" true; UnsetVar "PATH"] ["PATH=/bin"; "HOME=/"; "junk"] =
    ["junk"; "HOME=/root"].
Proof.
  split; [|split; [|reflexivity]].
  - apply distinct_hits. intros n V.
    assert (J : ~ for_name n "junk").
    { intros [v H]. assert (X : In "="%char (list_ascii_of_string "junk")).
      { rewrite H. clear. induction n; cbn; auto. }
      cbn in X. intuition discriminate. }
    rewrite !hits_cons. apply env_match_false in J. rewrite J. change (hits n []) with 0%nat.
    destruct (env_match n "PATH=/bin") eqn:A, (env_match n "HOME=/") eqn:B; cbn; auto.
    apply env_match_spec in A, B.
    assert (X : var_name "PATH" /\ var_name "HOME").
    { split; (split; [discriminate|]); intros i c H; do 4 (destruct i as [|i]; [injection H as <-; discriminate|]); destruct i; discriminate. }
    destruct X as [X Y].
    assert (n = "PATH") by (apply (for_name_inj n "PATH" "PATH=/bin"); auto; exists "/bin"; reflexivity).
    assert (n = "HOME") by (apply (for_name_inj n "HOME" "HOME=/"); auto; exists "/"; reflexivity). congruence.
  - repeat constructor; try discriminate; intros i c H; do 4 (destruct i as [|i]; [injection H as <-; discriminate|]); destruct i; discriminate.
Qed.

Lemma size_case : parse_size "3G" = SizeOk 3221225472 /\ size_text "3G" 3221225472 /\ parse_size "16E" = SizeRange /\ parse_size "18446744073709551616" = SizeRange /\ parse_size "1KK" = SizeInval /\ parse_size "-1" = SizeInval.
Proof.
  repeat split; try (vm_compute; reflexivity).
  change 3221225472%N with (3 * 1024 ^ N.of_nat 3)%N. apply (size_suffix "3" 3 "G" 2); [|reflexivity].
  apply (dv_one 10 "3" 3); [left; reflexivity|reflexivity].
Qed.
Lemma path_case : Forall component ["usr"; "lib"] /\ path_is_parent (abs_path ["usr"]) (abs_path ["usr"; "lib"]) = BVal true /\ path_is_parent (abs_path ["usr"]) "/usrlocal" = BVal false.
Proof.
  split; [|split; vm_compute; reflexivity].
  repeat constructor; try discriminate; intros i c H; do 4 (destruct i as [|i]; [first [discriminate H|injection H as <-; discriminate]|]); destruct i; discriminate.
Qed.
Lemma empty_parent_ub : path_is_parent "" "x" = BUb.
Proof. reflexivity. Qed.
