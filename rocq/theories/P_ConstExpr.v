(* parse_constant computes const_expr. *)
From Verif Require Export P_Const.
Local Open Scope string_scope.

Scheme const_expr_mut := Minimality for const_expr Sort Prop
  with const_term_mut := Minimality for const_term Sort Prop.
Lemma const_mut (w : N) (tbl : consts) (P P0 P1 : string -> N -> Prop) :
  (forall s v, const_term w tbl s v -> P0 s v -> P s v) ->
  (forall s v, plain_term w tbl s v -> P1 s v -> P (s ++ "|") v) ->
  (forall s v r v', const_term w tbl s v -> P0 s v -> const_expr w tbl r v' -> P r v' ->
     P (s ++ "|" ++ r) (N.lor v v')) ->
  (forall s v, plain_term w tbl s v -> P1 s v -> P0 s v) ->
  (forall s v, const_expr w tbl s v -> P s v -> P0 ("(" ++ s ++ ")") v) ->
  (forall s v, const_expr w tbl s v -> P s v -> P0 ("~(" ++ s ++ ")") (complement w v)) ->
  (forall s v, simple_const w tbl s v -> P1 s v) ->
  (forall s v, simple_const w tbl s v -> P1 ("~" ++ s) (complement w v)) ->
  (forall s v, const_expr w tbl s v -> P s v) /\
  (forall s v, const_term w tbl s v -> P0 s v) /\
  (forall s v, plain_term w tbl s v -> P1 s v).
Proof.
  intros X1 X2 X3 X4 X5 X6 X7 X8.
  assert (Y : forall s v, plain_term w tbl s v -> P1 s v) by (destruct 1; auto).
  split; [|split; auto]; intros s v H'.
  - apply (const_expr_mut w tbl P P0); auto.
  - apply (const_term_mut w tbl P P0); auto.
Qed.

Definition plain_char (c : ascii) : Prop :=
  c <> "("%char /\ c <> ")"%char /\ c <> "|"%char /\ c <> "~"%char.

Lemma digit_plain base c v : digit_val base c = Some v -> plain_char c.
Proof.
  unfold plain_char. intros H. repeat split; intros ->; discriminate H.
Qed.
Lemma dfold_plain base acc s v : dfold base acc s = Some v -> all_chars plain_char s.
Proof.
  revert acc. induction s as [|c s IH]; simpl; intros acc H; auto.
  destruct (digit_val base c) eqn:D; [|discriminate].
  apply all_chars_cons. split; eauto using digit_plain.
Qed.
Lemma magnitude_plain s n : magnitude s n -> all_chars plain_char s.
Proof.
  assert (P : forall c, c = "0"%char \/ c = "x"%char \/ c = "X"%char -> plain_char c).
  { intros c [-> | [-> | ->]]; repeat split; discriminate. }
  destruct 1; match goal with H : digits_val _ _ _ |- _ => apply digits_val_dfold in H; destruct H end;
    repeat (apply all_chars_cons; split; [apply P; auto|]); eauto using dfold_plain.
  - apply dfold_plain in H0. apply all_chars_cons in H0. tauto.
Qed.
Lemma space_plain s : all_chars space_char s -> all_chars plain_char s.
Proof.
  apply all_chars_impl. intros c H. repeat split; intros ->;
    destruct H as [H|H]; try discriminate H; cbn in H; lia.
Qed.
Lemma c_integer_plain s z : c_integer s z -> s <> "" /\ all_chars plain_char s.
Proof.
  assert (P : forall c, c = "+"%char \/ c = "-"%char -> plain_char c).
  { intros c [-> | ->]; repeat split; discriminate. }
  assert (Q : forall a b s n, magnitude s n -> a ++ b ++ s <> "").
  { intros a b t n H E. apply sapp_eq_nil in E. destruct E as [_ E].
    apply sapp_eq_nil in E. destruct E as [_ ->].
    apply magnitude_starts in H. destruct H as (c & u & v & H & _). discriminate. }
  destruct 1.
  - split; [apply (Q sp "" s n); auto|]. apply all_chars_app. eauto using space_plain, magnitude_plain.
  - split; [apply (Q sp "+" s n); auto|]. apply all_chars_app. split; [auto using space_plain|].
    apply all_chars_cons. eauto using magnitude_plain.
  - split; [apply (Q sp "-" s n); auto|]. apply all_chars_app. split; [auto using space_plain|].
    apply all_chars_cons. eauto using magnitude_plain.
Qed.

Section Expr.
  Variable w : N.
  Variable tbl : consts.
  Hypothesis W : (0 < w)%N.
  Hypothesis NM : names_ok tbl.

  Lemma first_entry_name n v : first_entry tbl n v -> n <> "" /\ all_chars plain_char n.
  Proof.
    clear W. induction 1; inversion NM; subst; auto.
  Qed.
  Lemma simple_plain s v : simple_const w tbl s v -> s <> "" /\ all_chars plain_char s.
  Proof.
    destruct 1; eauto using first_entry_name, c_integer_plain.
  Qed.
  Lemma simple_bound s v : simple_const w tbl s v -> (v < 2 ^ w)%N.
  Proof.
    destruct 1.
    - apply N.mod_lt. apply N.pow_nonzero; lia.
    - assert (0 < 2 ^ Z.of_N w)%Z by (apply Z.pow_pos_nonneg; lia).
      pose proof (Z.mod_pos_bound z _ H2). apply N2Z.inj_lt.
      rewrite N2Z_pow2, Z2N.id; lia.
  Qed.
  Lemma lor_bound a b : (a < 2 ^ w)%N -> (b < 2 ^ w)%N -> (N.lor a b < 2 ^ w)%N.
  Proof.
    intros Ha Hb. destruct (N.eq_dec (N.lor a b) 0) as [->|N0].
    - apply N.neq_0_lt_0, N.pow_nonzero; lia.
    - apply N.log2_lt_pow2; [lia|]. rewrite N.log2_lor.
      destruct (N.eq_dec a 0) as [->|Na]; destruct (N.eq_dec b 0) as [->|Nb];
        cbn [N.log2]; rewrite ?N.max_0_l, ?N.max_0_r; auto;
        try (apply N.log2_lt_pow2; lia).
      apply N.max_lub_lt; apply N.log2_lt_pow2; lia.
  Qed.
  Lemma wnot_complement v : (v < 2 ^ w)%N -> wnot w v = complement w v.
  Proof.
    intros H. unfold wnot, complement. change (N.lxor v (N.ones w)) with (N.lnot v w).
    destruct (N.eq_dec v 0) as [->|Hv].
    - rewrite N.lnot_0_l, N.ones_equiv. lia.
    - rewrite N.lnot_sub_low by (apply N.log2_lt_pow2; lia).
      rewrite N.ones_equiv. lia.
  Qed.
  Lemma complement_bound v : (complement w v < 2 ^ w)%N.
  Proof.
    unfold complement. assert (2 ^ w <> 0)%N by (apply N.pow_nonzero; lia). lia.
  Qed.
  Lemma const_bound :
    (forall s v, const_expr w tbl s v -> (v < 2 ^ w)%N) /\
    (forall s v, const_term w tbl s v -> (v < 2 ^ w)%N) /\
    (forall s v, plain_term w tbl s v -> (v < 2 ^ w)%N).
  Proof.
    apply (const_mut w tbl (fun s v => (v < 2 ^ w)%N) (fun s v => (v < 2 ^ w)%N)
             (fun s v => (v < 2 ^ w)%N)); intros;
      eauto using lor_bound, complement_bound, simple_bound.
  Qed.

  (* ---- parentheses ---- *)
  (* Nesting depth after reading s, starting inside depth d. *)
  Fixpoint level (d : nat) (s : string) : option nat :=
    match s with
    | EmptyString => Some d
    | String c s' =>
        if Ascii.eqb c "("%char then level (S d) s'
        else if Ascii.eqb c ")"%char then
          match d with S (S d') => level (S d') s' | _ => None end
        else level d s'
    end.
  Lemma level_app d s t : level d (s ++ t) =
    match level d s with Some d' => level d' t | None => None end.
  Proof.
    revert d. induction s as [|c s IH]; simpl; auto. intros d.
    destruct (Ascii.eqb c "("); auto. destruct (Ascii.eqb c ")"); auto.
    destruct d as [|[|d]]; auto.
  Qed.
  Lemma level_plain d s : all_chars plain_char s -> level d s = Some d.
  Proof.
    induction s as [|c s IH]; auto. rewrite all_chars_cons. intros [(A & B & _) H]. simpl.
    apply aeqb_false in A, B. rewrite A, B. auto.
  Qed.
  Lemma paren_split_level d s t d' : level d s = Some d' ->
    paren_split d (s ++ t) =
      match paren_split d' t with Some (a, b) => Some (s ++ a, b) | None => None end.
  Proof.
    revert d. induction s as [|c s IH]; simpl; intros d H.
    - injection H as ->. destruct (paren_split d' t) as [[a b]|]; auto.
    - destruct (Ascii.eqb c "(").
      { rewrite (IH _ H). destruct (paren_split d' t) as [[a b]|]; auto. }
      destruct (Ascii.eqb c ")").
      { destruct d as [|[|d]]; try discriminate.
        rewrite (IH _ H). destruct (paren_split d' t) as [[a b]|]; auto. }
      rewrite (IH _ H). destruct (paren_split d' t) as [[a b]|]; auto.
  Qed.
  Lemma const_level :
    (forall s v, const_expr w tbl s v -> forall d, level (S d) s = Some (S d)) /\
    (forall s v, const_term w tbl s v -> forall d, level (S d) s = Some (S d)) /\
    (forall s v, plain_term w tbl s v -> forall d, level (S d) s = Some (S d)).
  Proof.
    apply (const_mut w tbl (fun s v => forall d, level (S d) s = Some (S d))
       (fun s v => forall d, level (S d) s = Some (S d))
       (fun s v => forall d, level (S d) s = Some (S d))); intros; auto.
    - rewrite level_app, H0. reflexivity.
    - rewrite level_app, H0. simpl. apply H2.
    - simpl. rewrite level_app, H0. reflexivity.
    - simpl. rewrite level_app, H0. reflexivity.
    - apply level_plain. eapply simple_plain; eauto.
    - simpl. apply level_plain. eapply simple_plain; eauto.
  Qed.
  Lemma paren_split_expr s v rest : const_expr w tbl s v ->
    paren_split 1 (s ++ ")" ++ rest) = Some (s, rest).
  Proof.
    intros H. rewrite (paren_split_level 1 s _ 1).
    - simpl. rewrite sapp_nil_r. reflexivity.
    - eapply (proj1 const_level); eauto.
  Qed.
  Lemma paren_split_sound d s a b : paren_split d s = Some (a, b) -> s = a ++ ")" ++ b.
  Proof.
    revert d a b. induction s as [|c s IH]; simpl; intros d a b H; [discriminate|].
    destruct (Ascii.eqb c "(").
    { destruct (paren_split (S d) s) as [[a' b']|] eqn:E; [|discriminate].
      injection H as <- <-. simpl. f_equal. exact (IH _ _ _ E). }
    destruct (Ascii.eqb c ")") eqn:E2.
    { apply aeqb_true in E2. subst. destruct d as [|[|d]].
      - injection H as <- <-. reflexivity.
      - injection H as <- <-. reflexivity.
      - destruct (paren_split (S d) s) as [[a' b']|] eqn:E; [|discriminate].
        injection H as <- <-. simpl. f_equal. exact (IH _ _ _ E). }
    destruct (paren_split d s) as [[a' b']|] eqn:E; [|discriminate].
    injection H as <- <-. simpl. f_equal. exact (IH _ _ _ E).
  Qed.

  (* ---- the loop, unfolded ---- *)
  Lemma loop_eq fuel acc first s :
    parse_constant_loop (S fuel) w tbl acc first s =
    match s with
    | EmptyString => if first then PErr else POk acc
    | String c0 s0 =>
        let negate := Ascii.eqb c0 "~"%char in
        let s1 := if negate then s0 else s in
        let add v := N.lor acc (if negate then wnot w v else v) in
        if has_prefix "(" s1 then
          match paren_split 1 (sdrop 1 s1) with
          | None => PErr
          | Some (group, rest) =>
              match parse_constant_loop fuel w tbl 0 true group with
              | POk v =>
                  if String.eqb rest "" then parse_constant_loop fuel w tbl (add v) false ""
                  else if negb (has_prefix "|" rest) then PErr
                  else if String.eqb (sdrop 1 rest) "" then PErr
                  else parse_constant_loop fuel w tbl (add v) false (sdrop 1 rest)
              | e => e
              end
          end
        else
          match tokenize "|" s1 with
          | (tok, rest) =>
              match parse_single_constant w tbl tok with
              | None => PErr
              | Some v =>
                  parse_constant_loop fuel w tbl (add v) false
                    (match rest with Some r => r | None => "" end)
              end
          end
    end.
  Proof. reflexivity. Qed.

  Lemma has_prefix_one c s : has_prefix (String c "") s = true <-> exists t, s = String c t.
  Proof. unfold has_prefix. rewrite prefix_spec. reflexivity. Qed.

  (* ---- fuel ---- *)
  Lemma loop_fuel fuel acc first s : (String.length s < fuel)%nat ->
    parse_constant_loop fuel w tbl acc first s <> PFuel.
  Proof.
    revert acc first s. induction fuel as [|fuel IH]; intros acc first s L; [lia|].
    rewrite loop_eq. destruct s as [|c0 s0].
    { destruct first; discriminate. }
    simpl in L. cbv zeta.
    set (s1 := if Ascii.eqb c0 "~" then s0 else String c0 s0).
    assert (L1 : (String.length s1 <= S (String.length s0))%nat).
    { unfold s1. destruct (Ascii.eqb c0 "~"); simpl; lia. }
    destruct (has_prefix "(" s1) eqn:E.
    - apply has_prefix_one in E. destruct E as [t E]. rewrite E in L1 |- *. simpl sdrop.
      simpl in L1.
      destruct (paren_split 1 t) as [[g r]|] eqn:P; [|discriminate].
      apply paren_split_sound in P. subst t. rewrite slen_app in L1. simpl in L1.
      destruct (parse_constant_loop fuel w tbl 0 true g) eqn:G; try discriminate.
      + destruct (String.eqb r ""); [apply IH; simpl; lia|].
        destruct (has_prefix "|" r) eqn:B; simpl negb; cbv iota; [|discriminate].
        apply has_prefix_one in B. destruct B as [r' ->]. simpl sdrop. simpl in L1.
        destruct (String.eqb r' ""); [discriminate|]. apply IH. lia.
      + exfalso. revert G. apply IH. lia.
    - unfold tokenize. destruct (cut_first "|" s1) as [[a b]|] eqn:C.
      + apply cut_first_some in C. destruct C as [C _]. rewrite C, !slen_app in L1. simpl in L1.
        destruct (parse_single_constant w tbl a); [|discriminate]. apply IH. lia.
      + destruct (parse_single_constant w tbl s1); [|discriminate]. apply IH. simpl. lia.
  Qed.

  (* ---- soundness ---- *)
  Lemma loop_sound fuel acc first s v :
    parse_constant_loop fuel w tbl acc first s = POk v ->
    (s = "" /\ first = false /\ v = acc) \/
    (exists v', const_expr w tbl s v' /\ v = N.lor acc v').
  Proof.
    revert acc first s v. induction fuel as [|fuel IH]; intros acc first s v; [discriminate|].
    rewrite loop_eq. destruct s as [|c0 s0].
    { destruct first; [discriminate|]. intros H. injection H as <-. auto. }
    cbv zeta. intros H. right.
    set (s1 := if Ascii.eqb c0 "~" then s0 else String c0 s0) in *.
    set (neg := Ascii.eqb c0 "~") in *.
    assert (Es : String c0 s0 = (if neg then "~" else "") ++ s1).
    { unfold s1. destruct neg eqn:E; auto. apply aeqb_true in E. subst. reflexivity. }
    rewrite Es. clearbody s1 neg. clear Es c0 s0.
    (* the term just read, with its sign *)
    assert (NT : forall t x, const_expr w tbl t x ->
              const_term w tbl ((if neg then "~" else "") ++ "(" ++ t ++ ")")
                         (if neg then wnot w x else x)).
    { intros t x Hx. destruct neg.
      - rewrite wnot_complement by (eapply (proj1 const_bound); eauto). apply term_not_paren; auto.
      - apply term_paren; auto. }
    assert (NP : forall t x, simple_const w tbl t x ->
              plain_term w tbl ((if neg then "~" else "") ++ t) (if neg then wnot w x else x)).
    { intros t x Hx. destruct neg.
      - rewrite wnot_complement by (eapply simple_bound; eauto). apply plain_not; auto.
      - apply plain_simple; auto. }
    destruct (has_prefix "(" s1) eqn:E.
    - apply has_prefix_one in E. destruct E as [t ->]. simpl sdrop in H.
      destruct (paren_split 1 t) as [[g r]|] eqn:P; [|discriminate].
      apply paren_split_sound in P. subst t.
      destruct (parse_constant_loop fuel w tbl 0 true g) as [x| |] eqn:G; try discriminate.
      apply IH in G. destruct G as [(_ & X & _)|(x' & G & ->)]; [discriminate|].
      rewrite N.lor_0_l in H.
      destruct (String.eqb r "") eqn:Er.
      + apply seqb_true in Er. subst r.
        apply IH in H. destruct H as [(_ & _ & ->)|(v' & H & _)].
        * eexists. split; [|reflexivity]. apply const_last.
          replace (String "(" (g ++ ")" ++ "")) with ("(" ++ g ++ ")") by reflexivity.
          apply NT; auto.
        * (* the empty string is not an expression *)
          exfalso. clear - H NM. remember "" as e eqn:Ee. destruct H.
          { destruct H; try discriminate. destruct H; try discriminate. subst.
            apply simple_plain in H. destruct H; auto. }
          { destruct s; discriminate. } { destruct s; discriminate. }
      + destruct (has_prefix "|" r) eqn:B; simpl negb in H; cbv iota in H; [|discriminate].
        apply has_prefix_one in B. destruct B as [r' ->]. simpl sdrop in H.
        destruct (String.eqb r' "") eqn:Er'; [discriminate|].
        apply IH in H. destruct H as [(-> & _)|(v' & H & ->)]; [discriminate|].
        exists (N.lor (if neg then wnot w x' else x') v'). split; [|symmetry; apply N.lor_assoc].
        replace ((if neg then "~" else "") ++ String "(" (g ++ ")" ++ String "|" r'))
          with (((if neg then "~" else "") ++ "(" ++ g ++ ")") ++ "|" ++ r').
        * apply const_or; auto.
        * rewrite !sapp_assoc. simpl. rewrite ?sapp_assoc. reflexivity.
    - unfold tokenize in H. destruct (cut_first "|" s1) as [[a b]|] eqn:C.
      + apply cut_first_some in C. destruct C as [-> _].
        destruct (parse_single_constant w tbl a) as [x|] eqn:S1; [|discriminate].
        apply parse_single_spec in S1; auto.
        apply IH in H. destruct H as [(-> & _ & ->)|(v' & H & ->)].
        * eexists. split; [|reflexivity].
          change ("|" ++ "") with "|". rewrite <- sapp_assoc. apply const_bar. auto.
        * exists (N.lor (if neg then wnot w x else x) v'). split; [|symmetry; apply N.lor_assoc].
          rewrite <- sapp_assoc. apply const_or; auto. apply term_plain; auto.
      + destruct (parse_single_constant w tbl s1) as [x|] eqn:S1; [|discriminate].
        apply parse_single_spec in S1; auto.
        apply IH in H. destruct H as [(_ & _ & ->)|(v' & H & _)].
        * eexists. split; [|reflexivity]. apply const_last, term_plain; auto.
        * exfalso. clear - H NM. remember "" as e eqn:Ee. destruct H.
          { destruct H; try discriminate. destruct H; try discriminate. subst.
            apply simple_plain in H. destruct H; auto. }
          { destruct s; discriminate. } { destruct s; discriminate. }
  Qed.

  (* ---- completeness ---- *)
  Lemma expr_nonempty s v : const_expr w tbl s v -> s <> "".
  Proof.
    intros H E. destruct H.
    - destruct H; try discriminate. destruct H; try discriminate. subst.
      apply simple_plain in H. destruct H; auto.
    - destruct s; discriminate.
    - destruct s; discriminate.
  Qed.
  Lemma no_bar s : all_chars plain_char s -> ~ contains "|" s.
  Proof.
    intros H (a & b & ->). apply all_chars_app in H. destruct H as [_ H].
    apply all_chars_cons in H. destruct H as [(_ & _ & X & _) _]. congruence.
  Qed.
  Lemma cut_bar s r : all_chars plain_char s -> cut_first "|" (s ++ "|" ++ r) = Some (s, r).
  Proof.
    intros H. apply cut_first_unique. intros a b E.
    destruct (Nat.le_gt_cases (String.length s) (String.length a)) as [L|L]; auto.
    exfalso. symmetry in E. apply sapp_le in E; [|lia]. destruct E as (e & -> & E).
    rewrite slen_app in L. destruct e as [|c e]; [simpl in L; lia|].
    simpl in E. injection E as <- _. apply all_chars_app in H. destruct H as [_ H].
    apply all_chars_cons in H. destruct H as [(_ & _ & X & _) _]. congruence.
  Qed.

  (* what follows a term *)
  Definition follow (acc : N) (fuel : nat) (r : string) : pres :=
    if String.eqb r "" then parse_constant_loop fuel w tbl acc false ""
    else parse_constant_loop fuel w tbl acc false (sdrop 1 r).

  Lemma simple_step neg s v : simple_const w tbl s v ->
    forall fuel acc first r, (r = "" \/ exists r', r = String "|" r') ->
    parse_constant_loop (S fuel) w tbl acc first ((if neg : bool then "~" else "") ++ s ++ r) =
    follow (N.lor acc (if neg then complement w v else v)) fuel r.
  Proof.
    intros H fuel acc first r Hr. pose proof (simple_plain _ _ H) as [Hs Hp].
    pose proof (simple_bound _ _ H) as Hb.
    destruct s as [|c s]; [congruence|].
    pose proof Hp as Hc. apply all_chars_cons in Hc. destruct Hc as [(C1 & C2 & C3 & C4) _].
    assert (P1 : has_prefix "(" (String c s ++ r) = false).
    { destruct (has_prefix "(" (String c s ++ r)) eqn:E; auto.
      apply has_prefix_one in E. destruct E as [t E]. injection E as -> _. congruence. }
    assert (T : tokenize "|" (String c s ++ r) = (String c s, if String.eqb r "" then None else Some (sdrop 1 r))).
    { unfold tokenize. destruct Hr as [->|[r' ->]].
      - rewrite sapp_nil_r. destruct (cut_first "|" (String c s)) as [[a b]|] eqn:C; auto.
        apply cut_first_some in C. destruct C as [E _]. exfalso.
        eapply no_bar; eauto. exists a, b; auto.
      - change (String "|" r') with ("|" ++ r'). rewrite cut_bar by auto. reflexivity. }
    apply parse_single_spec in H; auto. unfold follow.
    destruct neg.
    - change ("~" ++ String c s ++ r) with (String "~" (String c s ++ r)).
      rewrite loop_eq. cbv zeta iota beta. rewrite aeqb_refl. cbv iota. rewrite P1, T, H.
      rewrite wnot_complement by auto. destruct (String.eqb r ""); reflexivity.
    - change ("" ++ String c s ++ r) with (String c (s ++ r)).
      apply aeqb_false in C4. rewrite loop_eq. cbv zeta iota beta. rewrite C4. cbv iota.
      change (String c (s ++ r)) with (String c s ++ r). rewrite P1, T, H.
      destruct (String.eqb r ""); reflexivity.
  Qed.

  Definition Cexpr (s : string) (v : N) : Prop :=
    forall fuel acc first, (String.length s < fuel)%nat ->
      parse_constant_loop fuel w tbl acc first s = POk (N.lor acc v).
  Definition Cterm (s : string) (v : N) : Prop :=
    forall fuel acc first r, (String.length s <= fuel)%nat ->
      (r = "" \/ exists c r', r = String "|" (String c r')) ->
      parse_constant_loop (S fuel) w tbl acc first (s ++ r) = follow (N.lor acc v) fuel r.
  Definition Cplain (s : string) (v : N) : Prop :=
    forall fuel acc first r, (r = "" \/ exists r', r = String "|" r') ->
      parse_constant_loop (S fuel) w tbl acc first (s ++ r) = follow (N.lor acc v) fuel r.

  Lemma paren_step neg s v : const_expr w tbl s v -> Cexpr s v ->
    Cterm ((if neg : bool then "~(" else "(") ++ s ++ ")") (if neg then complement w v else v).
  Proof.
    intros H IH fuel acc first r L Hr.
    assert (L' : (String.length s < fuel)%nat).
    { rewrite !slen_app in L. simpl in L. destruct neg; simpl in L; lia. }
    pose proof (proj1 const_bound _ _ H) as Hb.
    assert (R : forall a, (if String.eqb r "" then parse_constant_loop fuel w tbl a false ""
             else if negb (has_prefix "|" r) then PErr
             else if String.eqb (sdrop 1 r) "" then PErr
             else parse_constant_loop fuel w tbl a false (sdrop 1 r)) = follow a fuel r).
    { intros a. unfold follow. destruct Hr as [->|(c & r' & ->)]; [reflexivity|].
      replace (has_prefix "|" (String "|" (String c r'))) with true by (symmetry; apply has_prefix_one; eauto). reflexivity. }
    destruct neg.
    - change (("~(" ++ s ++ ")") ++ r)
        with (String "~" (String "(" ((s ++ ")") ++ r))).
      rewrite loop_eq. cbv zeta iota beta. rewrite aeqb_refl. cbv iota. replace (has_prefix "(" (String "(" ((s ++ ")") ++ r))) with true by (symmetry; apply has_prefix_one; eauto).
      cbv iota. simpl sdrop. rewrite sapp_assoc, (paren_split_expr _ v) by auto.
      rewrite IH by auto. rewrite N.lor_0_l. rewrite wnot_complement by auto. apply R.
    - change (("(" ++ s ++ ")") ++ r) with (String "(" ((s ++ ")") ++ r)).
      rewrite loop_eq. cbv zeta iota beta. change (Ascii.eqb "(" "~") with false. cbv iota.
      replace (has_prefix "(" (String "(" ((s ++ ")") ++ r))) with true by (symmetry; apply has_prefix_one; eauto).
      cbv iota. simpl sdrop. rewrite sapp_assoc, (paren_split_expr _ v) by auto.
      rewrite IH by auto. rewrite N.lor_0_l. apply R.
  Qed.

  Lemma loop_complete :
    (forall s v, const_expr w tbl s v -> Cexpr s v) /\
    (forall s v, const_term w tbl s v -> Cterm s v) /\
    (forall s v, plain_term w tbl s v -> Cplain s v).
  Proof.
    assert (F1 : forall a fuel, (0 < fuel)%nat -> follow a fuel "" = POk a).
    { intros a fuel L. destruct fuel; [lia|]. reflexivity. }
    apply (const_mut w tbl Cexpr Cterm Cplain).
    - intros s v H IH fuel acc first L. destruct fuel; [lia|].
      pose proof (expr_nonempty _ _ (const_last _ _ _ _ H)) as Hs.
      rewrite <- (sapp_nil_r s). rewrite IH by (auto; lia).
      apply F1. destruct s; [congruence|simpl in L; lia].
    - intros s v H IH fuel acc first L. destruct fuel; [lia|].
      rewrite slen_app in L. simpl in L. rewrite IH by eauto.
      unfold follow. simpl. destruct fuel; [lia|]. reflexivity.
    - intros s v r v' H IH Hr IHr fuel acc first L. destruct fuel; [lia|].
      rewrite !slen_app in L. simpl in L.
      pose proof (expr_nonempty _ _ Hr) as Hne. destruct r as [|c r]; [congruence|].
      change ("|" ++ String c r) with (String "|" (String c r)).
      rewrite IH by (eauto; lia). unfold follow.
      change (String.eqb (String "|" (String c r)) "") with false. cbv iota. simpl sdrop.
      rewrite IHr by lia. rewrite N.lor_assoc. reflexivity.
    - intros s v H IH fuel acc first r L Hr. apply IH.
      destruct Hr as [->|(c & r' & ->)]; eauto.
    - intros s v H IH. exact (paren_step false s v H IH).
    - intros s v H IH. exact (paren_step true s v H IH).
    - intros s v H fuel acc first r Hr. exact (simple_step false s v H fuel acc first r Hr).
    - intros s v H fuel acc first r Hr. exact (simple_step true s v H fuel acc first r Hr).
  Qed.

  Lemma parse_constant_spec s v : parse_constant w tbl s = POk v <-> const_expr w tbl s v.
  Proof.
    unfold parse_constant. split.
    - intros H. apply loop_sound in H. destruct H as [(_ & X & _)|(v' & H & ->)]; [discriminate|].
      rewrite N.lor_0_l. auto.
    - intros H. rewrite (proj1 loop_complete s v H) by lia. rewrite N.lor_0_l. reflexivity.
  Qed.
  Lemma parse_constant_fuel s : parse_constant w tbl s <> PFuel.
  Proof. apply loop_fuel. lia. Qed.
End Expr.

Lemma parse_constant_rejects w tbl : (0 < w)%N -> names_ok tbl ->
  forall s, (forall v, ~ const_expr w tbl s v) -> parse_constant w tbl s = PErr.
Proof.
  intros W NM s H. destruct (parse_constant w tbl s) eqn:E; auto.
  - exfalso. eapply H. apply parse_constant_spec; eauto.
  - exfalso. eapply parse_constant_fuel; eauto.
Qed.
Lemma const_in_range w tbl : (0 < w)%N -> names_ok tbl ->
  forall s v, const_expr w tbl s v -> (v < 2 ^ w)%N.
Proof. intros W NM s v H. exact (proj1 (const_bound w tbl W) s v H). Qed.

Lemma constants_case :
  names_ok [("O_RDWR", 2%N)] /\
  parse_constant 64 [("O_RDWR", 2%N)] "~(O_RDWR|0x10)|017" = POk 18446744073709551599.
Proof.
  split; [|vm_compute; reflexivity].
  constructor; [|constructor]. split; [discriminate|].
  intros i c H. do 6 (destruct i as [|i]; [injection H as <-; repeat split; discriminate|]).
  destruct i; discriminate.
Qed.
