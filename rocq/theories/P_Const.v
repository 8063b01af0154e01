(* The number and constant parsers compute the grammar of S_Const. *)
From Verif Require Export M_Const S_Const P_CStr.
Local Open Scope string_scope.

(* ---- digits ---- *)
Lemma digit_val_digit base c v : digit_val base c = Some v -> digit c v /\ (v < base)%N.
Proof.
  unfold digit_val, digit.
  destruct c as [b0 b1 b2 b3 b4 b5 b6 b7].
  destruct b0, b1, b2, b3, b4, b5, b6, b7; cbn -[N.ltb];
    try discriminate;
    (match goal with |- context [(?a <? ?b)%N] => destruct (a <? b)%N eqn:E end);
    try discriminate; apply N.ltb_lt in E; intros H; injection H as <-;
    (split; [cbn; auto|exact E]).
Qed.
Lemma digit_small c v : digit c v -> (N.to_nat v < 36)%nat.
Proof.
  intros H. destruct (Nat.ltb_spec (N.to_nat v) 36); auto. exfalso.
  assert (G : forall n k s, (n <= k)%nat -> String.length s = n -> get k s = None).
  { induction n; intros k s L E; destruct s; simpl in E; try discriminate.
    - reflexivity.
    - destruct k; [lia|]. simpl. apply IHn; lia. }
  destruct H as [H|H]; rewrite (G 36%nat) in H; auto; discriminate.
Qed.
Lemma digit_digit_val base c v : digit c v -> (v < base)%N -> digit_val base c = Some v.
Proof.
  intros H L. pose proof (digit_small _ _ H) as S.
  rewrite <- (N2Nat.id v) in L |- *. unfold digit in H.
  remember (N.to_nat v) as n eqn:En. clear En v.
  do 36 (destruct n as [|n];
    [ cbn in H; destruct H as [H|H]; injection H as <-;
      unfold digit_val; cbn -[N.ltb N.of_nat];
      apply N.ltb_lt in L; cbn in L |- *; rewrite L; reflexivity | ]).
  lia.
Qed.

(* All characters are digits: the value accumulated. *)
Fixpoint dfold (base acc : N) (s : string) : option N :=
  match s with
  | EmptyString => Some acc
  | String c s' => match digit_val base c with
                   | Some d => dfold base (acc * base + d)%N s'
                   | None => None
                   end
  end.
Lemma dfold_app base acc a b :
  dfold base acc (a ++ b) = match dfold base acc a with Some v => dfold base v b | None => None end.
Proof. revert acc. induction a; simpl; auto. intros. destruct (digit_val base a); auto. Qed.
Lemma digits_val_dfold base s n : digits_val base s n <-> s <> "" /\ dfold base 0 s = Some n.
Proof.
  split.
  - induction 1.
    + split; [discriminate|]. simpl. rewrite (digit_digit_val _ _ _ H H0). f_equal; lia.
    + destruct IHdigits_val as [Hs Hd]. split.
      { intros E. apply sapp_eq_nil in E. destruct E; discriminate. }
      rewrite dfold_app, Hd. simpl. rewrite (digit_digit_val _ _ _ H0 H1). reflexivity.
  - revert n. induction s as [|s c IH] using string_rev_ind; intros n [Hs H]; [congruence|].
    rewrite dfold_app in H. destruct (dfold base 0 s) as [m|] eqn:E; [|discriminate].
    simpl in H. destruct (digit_val base c) as [d|] eqn:D; [|discriminate].
    injection H as <-. apply digit_val_digit in D. destruct D as [D L].
    destruct s as [|x s].
    + simpl in E. injection E as <-. simpl.
      replace (0 * base + d)%N with d by lia. constructor; auto.
    + constructor; auto. apply IH. split; [discriminate|auto].
Qed.
Lemma digits_full base acc any s v :
  dfold base acc s = Some v ->
  digits base acc any s = (v, match s with EmptyString => any | _ => true end, "").
Proof.
  revert acc any. induction s as [|c s IH]; simpl; intros acc any H.
  - congruence.
  - destruct (digit_val base c); [|discriminate]. rewrite (IH _ true H). destruct s; reflexivity.
Qed.
Lemma digits_nil base acc any s v any' :
  digits base acc any s = (v, any', "") ->
  dfold base acc s = Some v /\ any' = match s with EmptyString => any | _ => true end.
Proof.
  revert acc any. induction s as [|c s IH]; simpl; intros acc any H.
  - injection H as <- <-. auto.
  - destruct (digit_val base c) eqn:D; [|discriminate].
    apply IH in H. destruct H as [H ->]. split; auto. destruct s; reflexivity.
Qed.

(* ---- read_base ---- *)
Lemma digit_val_mono b1 b2 c v : (b1 <= b2)%N -> digit_val b1 c = Some v -> digit_val b2 c = Some v.
Proof.
  intros L H. apply digit_val_digit in H. destruct H. apply digit_digit_val; auto. lia.
Qed.

Definition hexpfx (s : string) : bool :=
  match s with
  | String "0" (String x (String d _)) =>
      (Ascii.eqb x "x"%char || Ascii.eqb x "X"%char) &&
      match digit_val 16 d with Some _ => true | None => false end
  | _ => false
  end.
Lemma read_base_0 s : read_base 0 s =
  if hexpfx s then (16%N, sdrop 2 s)
  else match s with String "0" _ => (8%N, s) | _ => (10%N, s) end.
Proof. reflexivity. Qed.
Lemma read_base_10 s : read_base 10 s = (10%N, s).
Proof. reflexivity. Qed.

Definition ch0 : ascii := "0"%char.
Lemma match0 {A} s (f : string -> A) (g : A) :
  match s with String "0" t => f t | _ => g end =
  match s with
  | String c t => if Ascii.eqb c ch0 then f t else g
  | EmptyString => g
  end.
Proof.
  destruct s as [|c t]; auto. destruct c as [[] [] [] [] [] [] [] []]; reflexivity.
Qed.
Lemma hexpfx_false_x x s : x <> "x"%char -> x <> "X"%char -> hexpfx (String "0" (String x s)) = false.
Proof.
  intros H1 H2. simpl. apply aeqb_false in H1, H2. rewrite H1, H2. destruct s; reflexivity.
Qed.
Lemma hexpfx_true s : hexpfx s = true ->
  exists x d r v, s = String "0" (String x (String d r)) /\
    (x = "x"%char \/ x = "X"%char) /\ digit_val 16 d = Some v.
Proof.
  unfold hexpfx. rewrite match0. destruct s as [|c [|x [|d r]]]; try discriminate.
  - destruct (Ascii.eqb c ch0); discriminate.
  - destruct (Ascii.eqb c ch0); discriminate.
  - destruct (Ascii.eqb c ch0) eqn:E; [|discriminate]. apply aeqb_true in E. subst.
    rewrite andb_true_iff, orb_true_iff, !aeqb_true. intros [Hx Hd].
    destruct (digit_val 16 d) as [v|] eqn:D; [|discriminate].
    exists x, d, r, v. auto.
Qed.

Lemma magnitude_read s n : magnitude s n ->
  exists b r, read_base 0 s = (b, r) /\ r <> "" /\ dfold b 0 r = Some n.
Proof.
  intros H. rewrite read_base_0. destruct H as [s n H0 H|s n H|s n H|s n H];
    apply digits_val_dfold in H; destruct H as [Hs H].
  - assert (hexpfx s = false) as ->.
    { destruct (hexpfx s) eqn:E; auto. apply hexpfx_true in E.
      destruct E as (x & d & r & v & -> & _). exfalso; eapply H0; eauto. }
    rewrite match0. destruct s as [|c s]; [congruence|].
    destruct (Ascii.eqb c ch0) eqn:E.
    { apply aeqb_true in E. subst. exfalso; eapply H0; eauto. }
    exists 10%N, (String c s); auto.
  - assert (hexpfx (String "0" s) = false) as ->.
    { destruct (hexpfx (String "0" s)) eqn:E; auto. apply hexpfx_true in E.
      destruct E as (x & d & r & v & E & Hx & _). injection E as ->.
      simpl in H. destruct Hx as [-> | ->]; discriminate H. }
    exists 8%N, (String "0" s). auto.
  - destruct s as [|c s]; [congruence|].
    assert (hexpfx ("0x" ++ String c s) = true) as ->.
    { simpl in H |- *. destruct (digit_val 16 c); [reflexivity|discriminate]. }
    exists 16%N, (String c s). auto.
  - destruct s as [|c s]; [congruence|].
    assert (hexpfx ("0X" ++ String c s) = true) as ->.
    { simpl in H |- *. destruct (digit_val 16 c); [reflexivity|discriminate]. }
    exists 16%N, (String c s). auto.
Qed.
Lemma read_magnitude s n b r : read_base 0 s = (b, r) -> r <> "" -> dfold b 0 r = Some n ->
  magnitude s n.
Proof.
  rewrite read_base_0. destruct (hexpfx s) eqn:E.
  - apply hexpfx_true in E. destruct E as (x & d & r0 & v & -> & Hx & Hd).
    intros H. injection H as <- <-. simpl. intros Hr H.
    assert (D : digits_val 16 (String d r0) n) by (apply digits_val_dfold; auto).
    destruct Hx as [-> | ->]; [apply (mag_hex _ _ D)|apply (mag_Hex _ _ D)].
  - rewrite match0. destruct s as [|c s].
    { intros H. injection H as <- <-. congruence. }
    destruct (Ascii.eqb c ch0) eqn:Ec.
    + apply aeqb_true in Ec. subst. intros H. injection H as <- <-. intros _ H.
      apply mag_oct. apply digits_val_dfold. split; [discriminate|auto].
    + intros H. injection H as <- <-. intros _ H. apply mag_dec.
      * intros t X. injection X as -> ->. discriminate.
      * apply digits_val_dfold. split; [discriminate|auto].
Qed.

(* ---- white space and signs ---- *)
Lemma is_space_spec c : is_space c = true <-> space_char c.
Proof.
  unfold is_space, space_char. rewrite orb_true_iff, andb_true_iff, aeqb_true, !N.leb_le. tauto.
Qed.
Lemma skip_space_app sp s : all_chars space_char sp -> skip_space (sp ++ s) = skip_space s.
Proof.
  induction sp; simpl; auto. rewrite all_chars_cons. intros [H1 H2].
  apply is_space_spec in H1. rewrite H1. auto.
Qed.
Lemma skip_space_decomp s : exists sp, s = sp ++ skip_space s /\ all_chars space_char sp.
Proof.
  induction s as [|c s IH]; simpl.
  - exists ""; auto.
  - destruct (is_space c) eqn:E.
    + destruct IH as (sp & H & Hs). exists (String c sp). simpl. rewrite <- H.
      split; auto. apply all_chars_cons. split; auto. apply is_space_spec; auto.
    + exists ""; auto.
Qed.
(* A literal starts with a decimal digit, so neither with a space nor a sign. *)
Definition starts_digit (s : string) : Prop :=
  exists c t v, s = String c t /\ digit_val 10 c = Some v.
Lemma digit10_facts c v : digit_val 10 c = Some v ->
  is_space c = false /\ c <> "-"%char /\ c <> "+"%char /\ c <> "|"%char /\
  c <> "("%char /\ c <> ")"%char /\ c <> "~"%char.
Proof.
  destruct c as [[] [] [] [] [] [] [] []]; cbn; intros H; try discriminate;
    repeat split; intros X; discriminate.
Qed.
Lemma digits_val_starts base s n : (base <= 10)%N -> digits_val base s n -> starts_digit s.
Proof.
  intros L H. apply digits_val_dfold in H. destruct H as [Hs H].
  destruct s as [|c s]; [congruence|]. simpl in H.
  destruct (digit_val base c) eqn:D; [|discriminate].
  exists c, s, n0. split; auto. eapply digit_val_mono; eauto.
Qed.
Lemma magnitude_starts s n : magnitude s n -> starts_digit s.
Proof.
  destruct 1.
  - eapply (digits_val_starts 10); eauto. reflexivity.
  - eapply (digits_val_starts 8); eauto. intros X; discriminate X.
  - exists "0"%char, ("x" ++ s), 0%N. split; reflexivity.
  - exists "0"%char, ("X" ++ s), 0%N. split; reflexivity.
Qed.
Lemma skip_starts s : starts_digit s -> skip_space s = s /\ read_sign s = (false, s).
Proof.
  intros (c & t & v & -> & D). apply digit10_facts in D. destruct D as (D1 & D2 & D3 & _).
  simpl. rewrite D1. apply aeqb_false in D2, D3. rewrite D2, D3. auto.
Qed.

(* Reading a signed literal: generic in how the magnitude is read. *)
Definition read_mag (base : N) (s : string) : option N :=
  let (b, s2) := read_base base s in
  match digits b 0 false s2 with
  | (v, true, EmptyString) => Some v
  | _ => None
  end.
Lemma read_int_full base s neg v :
  read_int base s = Some (neg, v, "") <->
  exists s1, read_sign (skip_space s) = (neg, s1) /\ read_mag base s1 = Some v.
Proof.
  unfold read_int, read_mag. destruct (read_sign (skip_space s)) as [ng s1]. split.
  - intros H. exists s1. destruct (read_base base s1) as [b s2].
    destruct (digits b 0 false s2) as [[v' any] rest]. destruct any; [|discriminate].
    injection H as -> -> ->. auto.
  - intros (s1' & E & H). injection E as -> ->. destruct (read_base base s1') as [b s2].
    destruct (digits b 0 false s2) as [[v' any] rest].
    destruct any; [|discriminate]. destruct rest; [|discriminate]. injection H as ->. auto.
Qed.
Lemma read_mag_0 s n : read_mag 0 s = Some n <-> magnitude s n.
Proof.
  unfold read_mag. split.
  - destruct (read_base 0 s) as [b r] eqn:E. destruct (digits b 0 false r) as [[v any] rest] eqn:D.
    destruct any; [|discriminate]. destruct rest; [|discriminate].
    intros H. injection H as ->. apply digits_nil in D. destruct D as [D A].
    eapply read_magnitude; eauto. intros ->. discriminate.
  - intros H. apply magnitude_read in H. destruct H as (b & r & -> & Hr & D).
    rewrite (digits_full _ _ _ _ _ D). destruct r; [congruence|reflexivity].
Qed.
Lemma read_mag_10 s n : read_mag 10 s = Some n <-> digits_val 10 s n.
Proof.
  unfold read_mag. rewrite read_base_10, digits_val_dfold. split.
  - destruct (digits 10 0 false s) as [[v any] rest] eqn:D.
    destruct any; [|discriminate]. destruct rest; [|discriminate].
    intros H. injection H as ->. apply digits_nil in D. destruct D as [D A].
    split; auto. intros ->. discriminate.
  - intros [Hs D]. rewrite (digits_full _ _ _ _ _ D). destruct s; [congruence|reflexivity].
Qed.

Lemma read_int_signed base (mag : string -> N -> Prop) :
  (forall s n, read_mag base s = Some n <-> mag s n) ->
  (forall s n, mag s n -> starts_digit s) ->
  forall s z, signed mag s z <->
    exists neg v, read_int base s = Some (neg, v, "") /\
                  z = if (neg : bool) then (- Z.of_N v)%Z else Z.of_N v.
Proof.
  intros HM HS s z. split.
  - intros H. destruct H as [sp s n Hsp H|sp s n Hsp H|sp s n Hsp H].
    + exists false, n. split; auto. apply read_int_full. exists s.
      rewrite skip_space_app by auto.
      destruct (skip_starts s (HS _ _ H)) as [-> ->]. split; auto. apply HM; auto.
    + exists false, n. split; auto. apply read_int_full. exists s.
      rewrite skip_space_app by auto. split; auto. apply HM; auto.
    + exists true, n. split; auto. apply read_int_full. exists s.
      rewrite skip_space_app by auto. split; auto. apply HM; auto.
  - intros (neg & v & H & ->). apply read_int_full in H. destruct H as (s1 & H1 & H2).
    apply HM in H2. destruct (skip_space_decomp s) as (sp & Es & Hsp).
    rewrite Es. destruct (skip_space s) as [|c t] eqn:E.
    + simpl in H1. injection H1 as <- <-. apply HS in H2.
      destruct H2 as (c & t & v' & X & _). discriminate.
    + simpl in H1. destruct (Ascii.eqb c "-") eqn:E1.
      * apply aeqb_true in E1. subst. injection H1 as <- <-. apply (sg_minus mag); auto.
      * destruct (Ascii.eqb c "+") eqn:E2.
        { apply aeqb_true in E2. subst. injection H1 as <- <-. apply (sg_plus mag); auto. }
        injection H1 as <- <-. apply (sg_plain mag); auto.
Qed.
Lemma c_integer_read s z : c_integer s z <->
  exists neg v, read_int 0 s = Some (neg, v, "") /\
                z = if (neg : bool) then (- Z.of_N v)%Z else Z.of_N v.
Proof. apply read_int_signed. apply read_mag_0. apply magnitude_starts. Qed.
Lemma decimal_integer_read s z : decimal_integer s z <->
  exists neg v, read_int 10 s = Some (neg, v, "") /\
                z = if (neg : bool) then (- Z.of_N v)%Z else Z.of_N v.
Proof.
  apply read_int_signed. apply read_mag_10.
  intros s' n. apply digits_val_starts. reflexivity.
Qed.

(* ---- tables ---- *)
Lemma assoc_spec {A} (t : list (string * A)) n v : assoc n t = Some v <-> first_entry t n v.
Proof.
  split.
  - induction t as [|[m x] t IH]; simpl; [discriminate|].
    destruct (String.eqb m n) eqn:E.
    + apply seqb_true in E. intros H. injection H as ->. subst. constructor.
    + apply seqb_false in E. intros H. constructor; auto.
  - induction 1; simpl.
    + rewrite (proj2 (seqb_true n n) eq_refl). reflexivity.
    + apply seqb_false in H. rewrite H. auto.
Qed.
Lemma assoc_none {A} (t : list (string * A)) n : assoc n t = None <-> forall v, ~ first_entry t n v.
Proof.
  split.
  - intros H v F. apply assoc_spec in F. congruence.
  - intros H. destruct (assoc n t) eqn:E; auto. apply assoc_spec in E. exfalso; eapply H; eauto.
Qed.

(* ---- single constants ---- *)
Lemma pow2_split w : (0 < w)%N -> (2 ^ Z.of_N w = 2 * 2 ^ (Z.of_N w - 1))%Z.
Proof.
  intros H. rewrite <- Z.pow_succ_r by lia. f_equal. lia.
Qed.
Lemma pow2_pos w : (0 < 2 ^ (Z.of_N w - 1))%Z \/ w = 0%N.
Proof. destruct (N.eq_dec w 0); [right; auto|left]. apply Z.pow_pos_nonneg; lia. Qed.
Lemma N2Z_pow2 w : Z.of_N (2 ^ w) = (2 ^ Z.of_N w)%Z.
Proof. rewrite N2Z.inj_pow. reflexivity. Qed.

Lemma parse_single_spec w tbl s v : (0 < w)%N ->
  (parse_single_constant w tbl s = Some v <-> simple_const w tbl s v).
Proof.
  intros W. unfold parse_single_constant.
  pose proof (pow2_split w W) as P2.
  destruct (pow2_pos w) as [Pp|Pp]; [|lia].
  destruct (assoc s tbl) as [x|] eqn:A.
  - split.
    + intros H. injection H as <-. apply sc_name. apply assoc_spec; auto.
    + intros H. destruct H as [s v H|s z H _ _].
      * apply assoc_spec in H. congruence.
      * rewrite <- assoc_none in H. congruence.
  - assert (NA : forall v, ~ first_entry tbl s v) by (apply assoc_none; auto).
    assert (X : simple_const w tbl s v <->
      exists z, c_integer s z /\ (- 2 ^ (Z.of_N w - 1) <= z < 2 ^ Z.of_N w)%Z /\
                v = Z.to_N (z mod 2 ^ Z.of_N w)).
    { split.
      - intros H. destruct H as [s v H|s z H1 H2 H3]; [exfalso; eapply NA; eauto|eauto].
      - intros (z & H1 & H2 & ->). apply sc_int; auto. }
    rewrite X; clear X. unfold strtol, strtoul.
    destruct (read_int 0 s) as [[[neg m] rest]|] eqn:R.
    2:{ split.
        - destruct s as [|c s]; [cbn; discriminate|discriminate].
        - intros (z & H & _). apply c_integer_read in H.
          destruct H as (neg & m & H & _). congruence. }
    assert (Y : (exists z, c_integer s z /\ (- 2 ^ (Z.of_N w - 1) <= z < 2 ^ Z.of_N w)%Z /\
                v = Z.to_N (z mod 2 ^ Z.of_N w)) <->
      rest = "" /\ let z := if neg then (- Z.of_N m)%Z else Z.of_N m in
      (- 2 ^ (Z.of_N w - 1) <= z < 2 ^ Z.of_N w)%Z /\ v = Z.to_N (z mod 2 ^ Z.of_N w)).
    { split.
      - intros (z & H & Hz & ->). apply c_integer_read in H.
        destruct H as (ng & m' & H & ->). rewrite R in H. injection H as <- <- ->. auto.
      - intros (-> & Hz & ->). eexists. split; [|split; [exact Hz|reflexivity]].
        apply c_integer_read. eauto. }
    rewrite Y; clear Y.
    assert (S0 : rest = "" -> String.eqb s rest = false).
    { intros ->. destruct s; [cbn in R; discriminate|reflexivity]. }
    destruct neg; cbv zeta iota.
    + destruct (Z.ltb_spec (2 ^ (Z.of_N w - 1)) (Z.of_N m)) as [L|L].
      * replace (- 2 ^ (Z.of_N w - 1) =? 2 ^ (Z.of_N w - 1) - 1)%Z with false
          by (symmetry; apply Z.eqb_neq; lia).
        split; [discriminate|]. intros (_ & H & _). lia.
      * destruct rest; [|split; [discriminate|intros [H _]; discriminate]].
        rewrite S0 by auto. unfold to_word. split.
        { intros H. injection H as <-. split; auto. split; auto. lia. }
        intros (_ & _ & ->). reflexivity.
    + destruct (Z.ltb_spec (2 ^ (Z.of_N w - 1) - 1) (Z.of_N m)) as [L|L].
      * rewrite Z.eqb_refl.
        destruct (N.ltb_spec (2 ^ w - 1) m) as [L2|L2].
        { split; [discriminate|]. intros (_ & H & _). exfalso.
          assert (Z.of_N (2 ^ w - 1) < Z.of_N m)%Z by lia.
          assert (1 <= 2 ^ w)%N by (assert (2 ^ w <> 0)%N by (apply N.pow_nonzero; lia); lia).
          rewrite N2Z.inj_sub, N2Z_pow2 in H0 by auto. lia. }
        assert (1 <= 2 ^ w)%N by (assert (2 ^ w <> 0)%N by (apply N.pow_nonzero; lia); lia).
        assert (Hm : (Z.of_N m < 2 ^ Z.of_N w)%Z).
        { apply N2Z.inj_le in L2. rewrite N2Z.inj_sub, N2Z_pow2 in L2 by auto. lia. }
        rewrite Z.mod_small by lia. rewrite N2Z.id.
        destruct rest; [|split; [discriminate|intros [X _]; discriminate]].
        split.
        { intros X. injection X as <-. split; auto. split; auto. lia. }
        intros (_ & _ & ->). reflexivity.
      * destruct rest; [|split; [discriminate|intros [H _]; discriminate]].
        rewrite S0 by auto. unfold to_word. split.
        { intros H. injection H as <-. split; auto. split; auto. lia. }
        intros (_ & _ & ->). reflexivity.
Qed.
