(* Numbers on minijail0's command line. *)
From Verif Require Export S_CliCalls P_Const P_ConstExpr P_Util P_CStr.
From Coq Require Import Lia.
Local Open Scope N_scope.

Lemma read_int_mag base (mag : string -> N -> Prop) :
  (forall s n, read_mag base s = Some n <-> mag s n) ->
  (forall s n, mag s n -> s <> ""%string /\ skip_space s = s /\ read_sign s = (false, s)) ->
  forall s z, signed mag s z <->
    exists neg v, read_int base s = Some (neg, v, ""%string) /\ z = if (neg : bool) then (- Z.of_N v)%Z else Z.of_N v.
Proof.
  intros HM HS s z. split.
  - intros H. destruct H as [sp s n Hsp H|sp s n Hsp H|sp s n Hsp H].
    + exists false, n. split; auto. apply read_int_full. exists s. rewrite skip_space_app by auto.
      destruct (HS _ _ H) as (_ & -> & ->). split; auto. apply HM; auto.
    + exists false, n. split; auto. apply read_int_full. exists s.
      rewrite skip_space_app by auto. split; auto. apply HM; auto.
    + exists true, n. split; auto. apply read_int_full. exists s.
      rewrite skip_space_app by auto. split; auto. apply HM; auto.
  - intros (neg & v & H & ->). apply read_int_full in H. destruct H as (s1 & H1 & H2).
    apply HM in H2. destruct (skip_space_decomp s) as (sp & Es & Hsp).
    rewrite Es. destruct (skip_space s) as [|c t] eqn:E.
    + simpl in H1. injection H1 as <- <-. apply HS in H2. destruct H2 as [X _]. congruence.
    + simpl in H1. destruct (Ascii.eqb c "-") eqn:E1.
      * apply aeqb_true in E1. subst. injection H1 as <- <-. apply (sg_minus mag); auto.
      * destruct (Ascii.eqb c "+") eqn:E2.
        { apply aeqb_true in E2. subst. injection H1 as <- <-. apply (sg_plus mag); auto. }
        injection H1 as <- <-. apply (sg_plain mag); auto.
Qed.
Lemma hex_facts c v : digit_val 16 c = Some v -> is_space c = false /\ Ascii.eqb c "-" = false /\ Ascii.eqb c "+" = false /\
  Ascii.eqb c "x" = false /\ Ascii.eqb c "X" = false.
Proof. destruct c as [[] [] [] [] [] [] [] []]; cbn; try discriminate; auto. Qed.
Lemma digits_val_ne b s n : digits_val b s n -> s <> ""%string.
Proof. intros H. apply digits_val_dfold in H. apply H. Qed.
Lemma dfold_first b s n : dfold b 0 s = Some n -> s <> ""%string -> exists c t v, s = String c t /\ digit_val b c = Some v.
Proof. destruct s as [|c t]; [congruence|]. cbn. destruct (digit_val b c) eqn:D; [|discriminate]. eauto. Qed.
Lemma read_mag_16 s n : read_mag 16 s = Some n <-> hex_magnitude s n.
Proof.
  unfold read_mag. split.
  - unfold read_base. cbn [N.eqb Pos.eqb].
    match goal with |- context [if ?b then (16, sdrop 2 s) else _] => destruct b eqn:X end.
    + destruct s as [|c0 s]; [discriminate|]. destruct (Ascii.eqb_spec c0 "0") as [->|NE];
        [|destruct c0 as [[] [] [] [] [] [] [] []]; try discriminate; congruence].
      destruct s as [|x [|d r]]; try discriminate.
      change (sdrop 2 (String "0" (String x (String d r)))) with (String d r).
      apply andb_true_iff in X. destruct X as [X D]. apply orb_true_iff in X. rewrite !Ascii.eqb_eq in X.
      destruct (digits 16 0 false (String d r)) as [[v any] rest] eqn:E. destruct any; [|discriminate]. destruct rest; [|discriminate].
      intros [= <-]. apply digits_nil in E. destruct E as [E _].
      assert (DV : digits_val 16 (String d r) v) by (apply digits_val_dfold; split; [discriminate|exact E]).
      destruct X as [-> | ->]; [apply (hex_0x _ _ DV)|apply (hex_0X _ _ DV)].
    + destruct (digits 16 0 false s) as [[v any] rest] eqn:E. destruct any; [|discriminate]. destruct rest; [|discriminate].
      intros [= <-]. apply digits_nil in E. destruct E as [E A]. apply hex_plain. apply digits_val_dfold. split; [|exact E]. intros ->. discriminate A.
  - intros H.
    assert (P : forall s n, digits_val 16 s n -> match digits 16 0 false s with (v, true, EmptyString) => Some v | _ => None end = Some n).
    { intros s0 n0 D. apply digits_val_dfold in D. destruct D as [NE D]. rewrite (digits_full _ _ _ _ _ D). destruct s0; [congruence|reflexivity]. }
    destruct H as [s n H|s n H|s n H]; unfold read_base; cbn [N.eqb Pos.eqb].
    + match goal with |- context [if ?b then (16, sdrop 2 s) else _] => replace b with false end; [apply P, H|].
      symmetry. destruct s as [|c0 [|x [|d r]]]; try reflexivity; destruct c0 as [[] [] [] [] [] [] [] []]; try reflexivity.
      apply digits_val_dfold in H. destruct H as [_ H]. cbn in H. destruct (digit_val 16 x) eqn:D; [|discriminate].
      apply hex_facts in D. destruct D as (_ & _ & _ & -> & ->). reflexivity.
    + cbn [append]. pose proof H as H'. apply digits_val_dfold in H'. destruct H' as [NE D]. destruct (dfold_first _ _ _ D NE) as (c & t & v & -> & DV).
      rewrite DV. cbn [Ascii.eqb eqb andb orb sdrop]. apply P, H.
    + cbn [append]. pose proof H as H'. apply digits_val_dfold in H'. destruct H' as [NE D]. destruct (dfold_first _ _ _ D NE) as (c & t & v & -> & DV).
      rewrite DV. cbn [Ascii.eqb eqb andb orb sdrop]. apply P, H.
Qed.
Lemma hex_starts s n : hex_magnitude s n -> s <> ""%string /\ skip_space s = s /\ read_sign s = (false, s).
Proof.
  intros [s' n' H|s' n' H|s' n' H]; [|split; [discriminate|split; reflexivity]..].
  apply digits_val_dfold in H. destruct H as [NE D]. split; [exact NE|]. destruct (dfold_first _ _ _ D NE) as (c & t & v & -> & DV).
  apply hex_facts in DV. destruct DV as (A & B & C & _). cbn [skip_space read_sign]. rewrite A, B, C. auto.
Qed.
Lemma hex_integer_read s z : hex_integer s z <->
  exists neg v, read_int 16 s = Some (neg, v, ""%string) /\ z = if (neg : bool) then (- Z.of_N v)%Z else Z.of_N v.
Proof. apply read_int_mag; [apply read_mag_16|apply hex_starts]. Qed.

(* What strtoul makes of a number that fits. *)
Lemma strtoul_word (W base : N) (I : string -> Z -> Prop) :
  (forall s z, I s z <-> exists neg v, read_int base s = Some (neg, v, ""%string) /\ z = if (neg : bool) then (- Z.of_N v)%Z else Z.of_N v) ->
  forall s v e, strtoul W base s = (v, ""%string, e) -> s <> ""%string -> exists z, I s z /\ (word W z -> v = Z.to_N z).
Proof.
  intros HI s v e E NE. unfold strtoul in E. destruct (read_int base s) as [[[neg m] rest]|] eqn:R; [|congruence].
  assert (rest = ""%string) as -> by (destruct (2 ^ W - 1 <? m); [congruence|]; destruct neg; congruence).
  exists (if neg then (- Z.of_N m)%Z else Z.of_N m). split; [apply HI; eauto|]. unfold word. intros H.
  assert (PW : (2 ^ Z.of_N W)%Z = Z.of_N (2 ^ W)) by (rewrite N2Z.inj_pow; reflexivity). rewrite PW in H.
  assert (PP : 0 < 2 ^ W) by (apply N.neq_0_lt_0, N.pow_nonzero; lia). set (P := 2 ^ W) in *.
  destruct (N.ltb_spec (P - 1) m).
  - destruct neg; lia.
  - destruct neg; injection E as <- _; [|lia]. assert (m = 0) as -> by lia. rewrite N.sub_0_r, N.mod_same by lia. reflexivity.
Qed.
Lemma strtoul_reads (W base : N) (I : string -> Z -> Prop) :
  (forall s z, I s z <-> exists neg v, read_int base s = Some (neg, v, ""%string) /\ z = if (neg : bool) then (- Z.of_N v)%Z else Z.of_N v) ->
  forall s z, I s z -> s <> ""%string /\ exists v e, strtoul W base s = (v, ""%string, e).
Proof.
  intros HI s z H. apply HI in H. destruct H as (neg & m & R & _). split.
  - intros ->. apply read_int_full in R. destruct R as (s1 & R1 & R2). cbn in R1. injection R1 as <- <-. unfold read_mag, read_base in R2.
    destruct (base =? 0); [discriminate|]. destruct (base =? 16); discriminate.
  - unfold strtoul. rewrite R. destruct (2 ^ W - 1 <? m); [eauto|]. destruct neg; eauto.
Qed.
Section Id.
Variable w : world.
Hypothesis L : 32 <= w_long w.
Lemma id_some a v : id_number w a = Some v -> exists z, decimal_integer a z /\ (word 32 z -> v = Z.to_N z).
Proof.
  unfold id_number. destruct (strtoul (w_long w) 10 a) as [[m rest] e] eqn:S. unfold streq.
  destruct (String.eqb_spec rest ""); [subst rest|discriminate]. destruct (String.eqb_spec a ""); [discriminate|]. intros [= <-].
  destruct (strtoul_word _ _ _ decimal_integer_read _ _ _ S n) as (z & D & V). exists z. split; [exact D|]. intros H.
  assert (X : word (w_long w) z). { unfold word in *. assert (2 ^ Z.of_N 32 <= 2 ^ Z.of_N (w_long w))%Z by (apply Z.pow_le_mono_r; lia). lia. }
  rewrite (V X). apply N.mod_small. unfold word in H. change (2 ^ Z.of_N 32)%Z with 4294967296%Z in H. change (2 ^ 32) with 4294967296. lia.
Qed.
Lemma id_none a : id_number w a = None -> forall z, ~ decimal_integer a z.
Proof.
  unfold id_number. intros H z D. destruct (strtoul_reads (w_long w) _ _ decimal_integer_read _ _ D) as (NE & v & e & S). rewrite S in H.
  unfold streq in H. rewrite String.eqb_refl in H. destruct (String.eqb_spec a ""); [congruence|discriminate].
Qed.
Lemma gid_of_number a v : id_number w a = Some v -> (forall z, decimal_integer a z -> word 32 z) -> gid_arg w a v.
Proof. intros E F. apply id_some in E. destruct E as (z & D & V). left. rewrite (V (F z D)). destruct (F z D). rewrite Z2N.id by lia. exact D. Qed.
Lemma gid_of_name a g : id_number w a = None -> w_group w a = Some g -> gid_arg w a g.
Proof. intros E G. right. split; [exact (id_none _ E)|exact G]. Qed.
End Id.
