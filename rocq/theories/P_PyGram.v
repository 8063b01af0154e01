(* Reading words by the grammar: the parser accepts exactly what the grammar
   generates, and returns what it means. *)
From Verif Require Import P_CStr P_Const S_Policy.
From Verif Require Import M_PyParse S_PyText P_PyLex.
Local Open Scope string_scope.

(* ---- Texts and lines ---- *)
Lemma text_lines_cut n : forall s cur, (String.length s <= n)%nat -> in_line cur -> text_cut (cur ++ s) (text_lines s cur).
Proof.
  induction n as [|n IH]; intros s cur L IC.
  - destruct s; [|cbn in L; lia]. rewrite sapp_nil_r. cbn. destruct cur; [constructor|]. apply tc_last; [discriminate|exact IC].
  - destruct s as [|c s]; [apply (IH "" cur); [cbn; lia|exact IC]|]. cbn in L.
    destruct (ascii_dec c newline) as [->|N1].
    { cbn. apply tc_newline; [exact IC|]. apply (IH s ""); [lia|apply all_chars_nil]. }
    destruct (ascii_dec c cr) as [->|N2].
    { cbn. destruct s as [|d s].
      - apply tc_cr; [exact IC|discriminate|]. apply (IH "" ""); [cbn; lia|apply all_chars_nil].
      - destruct (ascii_dec d newline) as [->|N3].
        + cbn. apply tc_crlf; [exact IC|]. apply (IH s ""); [cbn in L; lia|apply all_chars_nil].
        + replace (match d with "010"%char => s | _ => String d s end) with (String d s)
            by (by_cases_char d; try reflexivity; exfalso; apply N3; reflexivity).
          apply tc_cr; [exact IC|intros t E; injection E as E _; contradiction|].
          apply (IH (String d s) ""); [cbn in *; lia|apply all_chars_nil]. }
    replace (text_lines (String c s) cur) with (text_lines s (cur ++ String c "")).
    + replace (cur ++ String c s) with ((cur ++ String c "") ++ s) by (rewrite sapp_assoc; reflexivity).
      apply IH; [lia|]. apply all_chars_app. split; [exact IC|]. apply all_chars_cons. split; [auto|apply all_chars_nil].
    + symmetry. by_cases_char c; try reflexivity; exfalso; first [apply N1; reflexivity|apply N2; reflexivity].
Qed.
Lemma text_cut_lines t ls : text_cut t ls -> text_lines t "" = ls.
Proof.
  assert (forall l cur r, in_line l -> (forall c, text_lines r c = text_lines r c) -> text_lines (l ++ r) cur = text_lines r (cur ++ l)) as G.
  { clear. induction l as [|c l IH]; intros cur r IL _; [cbn; rewrite sapp_nil_r; reflexivity|].
    apply all_chars_cons in IL as [[N1 N2] IL]. cbn [append].
    replace (text_lines (String c (l ++ r)) cur) with (text_lines (l ++ r) (cur ++ String c ""))
      by (by_cases_char c; try reflexivity; exfalso; first [apply N1; reflexivity|apply N2; reflexivity]).
    rewrite IH by auto. rewrite sapp_assoc. reflexivity. }
  intros H. induction H as [|s N IL|l r ls IL H IH|l r ls IL H IH|l r ls IL N H IH].
  - reflexivity.
  - rewrite <- (sapp_nil_r s) at 1. rewrite G by auto. cbn. destruct s; [congruence|reflexivity].
  - rewrite G by auto. cbn. f_equal. exact IH.
  - rewrite G by auto. cbn. f_equal. exact IH.
  - rewrite G by auto. cbn. f_equal. destruct r as [|d r]; [exact IH|].
    replace (match d with "010"%char => r | _ => String d r end) with (String d r); [exact IH|].
    by_cases_char d; try reflexivity; exfalso; eapply N; reflexivity.
Qed.
Lemma text_lines_spec t ls : text_lines t "" = ls <-> text_cut t ls.
Proof.
  split; [intros <-; apply (text_lines_cut (String.length t) t ""); [lia|apply all_chars_nil]|apply text_cut_lines].
Qed.
Lemma text_cut_in_line t ls : text_cut t ls -> Forall in_line ls.
Proof. intros H. induction H; repeat apply Forall_cons; try apply Forall_nil; assumption. Qed.
Lemma ends_with_spec l : ends_with "\" l = true <-> unfinished l.
Proof.
  assert (forall l c, ends_with "\" (l ++ String c "") = Ascii.eqb c "\") as G.
  { clear. induction l as [|d l IH]; intros c; [reflexivity|]. cbn. destruct (l ++ String c "") eqn:E; [destruct l; discriminate|].
    rewrite <- E. apply IH. }
  destruct l as [|l c _] using string_rev_ind.
  - split; [discriminate|]. intros (t & E). destruct t; discriminate.
  - rewrite G, Ascii.eqb_eq. split; [intros ->; exists l; reflexivity|].
    intros (t & E). change "\" with (String "\" "") in E. apply (f_equal (last_of None)) in E. rewrite !last_of_snoc in E. congruence.
Qed.
Lemma words_app a b : words (a ++ b) = (words a ++ words b)%list.
Proof. apply filter_app. Qed.
Lemma tokenize_sound : forall ls tokens out, Forall in_line ls -> tokenize ls tokens = Some out ->
  forall pre tss, Forall unfinished pre -> Forall2 cut pre tss -> tokens = words (concat tss) -> logical (pre ++ ls) out.
Proof.
  induction ls as [|l ls IH]; intros tokens out IL H pre tss U C W; cbn [tokenize] in H.
  - injection H as <-. rewrite app_nil_r. eapply lo_lost; eassumption.
  - apply Forall_cons_iff in IL as [I IL]. destruct (lex None l 0) as [ts|] eqn:X; [|discriminate]. apply lex_cut in X; [|exact I].
    change (filter kept ts) with (words ts) in H. destruct (ends_with "\" l) eqn:E.
    + apply ends_with_spec in E. replace (pre ++ l :: ls)%list with ((pre ++ [l]) ++ ls)%list by (rewrite <- app_assoc; reflexivity).
      eapply (IH _ _ IL H (pre ++ [l])%list (tss ++ [ts])%list).
      * apply Forall_app. split; [exact U|]. constructor; [exact E|constructor].
      * apply Forall2_app; [exact C|]. constructor; [exact X|constructor].
      * rewrite W, concat_app, words_app. cbn. rewrite app_nil_r. reflexivity.
    + destruct (tokenize ls []) as [out'|] eqn:T; [|discriminate]. injection H as <-.
      assert (~ unfinished l) as NU by (intros Y; apply ends_with_spec in Y; congruence).
      replace (match (tokens ++ words ts)%list with [] => out' | _ :: _ => (tokens ++ words ts)%list :: out' end)
        with (with_line (words (concat tss ++ ts)) out') by (rewrite W, words_app; reflexivity).
      eapply lo_line; try eassumption. apply (IH [] out' IL T [] []); [constructor|constructor|reflexivity].
Qed.
Lemma tokenize_complete ls out : logical ls out -> Forall in_line ls -> tokenize ls [] = Some out.
Proof.
  assert (forall pre tss, Forall unfinished pre -> Forall2 cut pre tss -> Forall in_line pre ->
    forall r tokens, tokenize (pre ++ r) tokens = tokenize r (tokens ++ words (concat tss))) as G.
  { clear. intros pre tss U C. revert U. induction C as [|l ts pre tss C _ IH]; intros U IL r tokens.
    - cbn. rewrite app_nil_r. reflexivity.
    - apply Forall_cons_iff in IL as [I IL]. apply Forall_cons_iff in U as [U0 U]. cbn [app tokenize].
      apply lex_cut in C; [|exact I]. rewrite C. apply ends_with_spec in U0. rewrite U0.
      rewrite IH by assumption. change (filter kept ts) with (words ts). cbn [concat]. rewrite words_app, app_assoc. reflexivity. }
  intros H. induction H as [ls tss U C|ls tss l ts r out U C NU CL H IH]; intros IL.
  - rewrite <- (app_nil_r ls), (G _ _ U C IL). reflexivity.
  - apply Forall_app in IL as [ILs IL]. apply Forall_cons_iff in IL as [I IL].
    rewrite (G _ _ U C ILs). cbn [tokenize app]. apply lex_cut in CL; [|exact I]. rewrite CL.
    destruct (ends_with "\" l) eqn:E; [exfalso; apply NU, ends_with_spec, E|]. rewrite (IH IL).
    change (filter kept ts) with (words ts). rewrite <- words_app. reflexivity.
Qed.
Lemma lines_read t out : tokenize (text_lines t "") [] = Some out <-> exists ls, text_cut t ls /\ logical ls out.
Proof.
  split.
  - intros H. exists (text_lines t ""). assert (text_cut t (text_lines t "")) as C by (apply text_lines_spec; reflexivity).
    split; [exact C|]. apply (tokenize_sound _ _ _ (text_cut_in_line _ _ C) H [] []); [constructor|constructor|reflexivity].
  - intros (ls & C & H). pose proof (text_cut_in_line _ _ C) as IL. apply text_lines_spec in C. rewrite C. apply tokenize_complete; assumption.
Qed.
Definition wf (ts : list token) : Prop := Forall (fun t => spelled (t_type t) (t_value t)) ts.
Lemma words_wf ts : wf ts -> wf (words ts).
Proof. intros H. unfold wf, words in *. rewrite Forall_forall in *. intros t I. apply filter_In in I as [I _]. auto. Qed.
Lemma logical_wf ls out : logical ls out -> Forall wf out.
Proof.
  intros H. induction H as [|ls tss l ts r out U C NU CL H IH]; [constructor|].
  assert (wf (words (concat tss ++ ts))) as W.
  { apply words_wf. apply Forall_app. split; [|eapply cut_spelled; exact CL].
    clear -C. induction C as [|l ts ls tss C _ IH]; cbn; [constructor|]. apply Forall_app. split; [eapply cut_spelled; exact C|exact IH]. }
  unfold with_line. destruct (words (concat tss ++ ts)); [exact IH|]. constructor; assumption.
Qed.

(* ---- Numbers ---- *)
Lemma lookup_spec {A} (t : list (string * A)) n v : lookup n t = Some v <-> first_entry t n v.
Proof.
  split.
  - induction t as [|[m x] t IH]; [discriminate|]. cbn. destruct (String.eqb_spec m n) as [->|N].
    + intros H. injection H as ->. constructor.
    + intros H. constructor; [exact N|apply IH, H].
  - intros H. induction H as [n v t|m x n v t N H IH]; cbn; [rewrite String.eqb_refl; reflexivity|].
    destruct (String.eqb_spec m n); [congruence|exact IH].
Qed.
Lemma digit_value_spec c v : digit c v -> (v < 16)%N -> digit_value c = v.
Proof.
  intros [E|E] L; (assert (exists n, v = N.of_nat n /\ (n < 16)%nat) as (n & -> & L') by (exists (N.to_nat v); lia));
  rewrite Nnat.Nat2N.id in E; do 16 (destruct n as [|n]; [injection E as <-; reflexivity|]); lia.
Qed.
Lemma digits_value_app base a b : forall acc, digits_value base acc (a ++ b) = digits_value base (digits_value base acc a) b.
Proof. induction a as [|c a IH]; intros acc; [reflexivity|]. cbn. apply IH. Qed.
Lemma digits_value_spec base s n : (base <= 16)%N -> digits_val base s n -> digits_value base 0 s = n.
Proof.
  intros B H. induction H as [c v D L|s n c v H IH D L].
  - cbn. rewrite (digit_value_spec c v D) by lia. lia.
  - rewrite digits_value_app, IH. cbn. rewrite (digit_value_spec c v D) by lia. lia.
Qed.
Lemma re_test_spec r s : re_test r s = true <-> exists u rest, s = u ++ rest /\ den r None u rest.
Proof.
  unfold re_test. split.
  - destruct (re_match r None s) eqn:M; [|discriminate]. intros _. destruct (re_match_sound _ _ _ _ M) as (u & -> & D). eauto.
  - intros (u & rest & -> & D). apply re_match_complete in D. destruct (re_match r None (u ++ rest)); [reflexivity|congruence].
Qed.
Lemma re_test_false r s : (forall u rest, s = u ++ rest -> ~ den r None u rest) -> re_test r s = false.
Proof. intros H. apply not_true_iff_false. rewrite re_test_spec. intros (u & rest & E & D). eapply H; eassumption. Qed.
Lemma starts_text m c t s u rest : minus m -> c <> "-"%char -> s = m ++ String c t -> s = u ++ rest ->
  (hex_text u -> c = "0"%char /\ exists x h, t = String x h /\ (x = "x" \/ x = "X")%char) /\
  (oct_text u -> c = "0"%char /\ exists x h, t = String x h /\ oct_digit x).
Proof.
  intros M N E E'. rewrite E in E'. split.
  - intros (m' & x & h & M' & X & -> & D).
    destruct (same_sign m m' c _ t "0" (String x h) "" rest M M' N ltac:(discriminate) eq_refl) as (_ & C & T).
    { rewrite sapp_nil_r. exact E'. }
    rewrite sapp_nil_r in T. split; [exact C|]. exists x, (h ++ rest). split; [exact T|exact X].
  - intros (m' & h & M' & -> & D). destruct h as [|x h]; [destruct D; congruence|].
    destruct (same_sign m m' c _ t "0" (String x h) "" rest M M' N ltac:(discriminate) eq_refl) as (_ & C & T).
    { rewrite sapp_nil_r. exact E'. }
    rewrite sapp_nil_r in T. split; [exact C|]. exists x, (h ++ rest). split; [exact T|]. destruct D as [_ D]. apply all_chars_cons in D as [D _]. exact D.
Qed.
Lemma dec_test m h : minus m -> one_of dec_digit h -> re_test DECIMAL_REGEX (m ++ h) = true.
Proof. intros M D. apply re_test_spec. exists (m ++ h), "". rewrite sapp_nil_r. split; [reflexivity|]. apply dec_den. exists m, h. auto. Qed.
Lemma py_int_sign base m s : base <> 16%N -> minus m -> (forall t, s <> String "-" t) ->
  py_int base (m ++ s) = (if String.eqb m "" then Z.of_N (digits_value base 0 s) else - Z.of_N (digits_value base 0 s))%Z.
Proof.
  intros B M N. apply N.eqb_neq in B. destruct M as [->| ->]; unfold py_int.
  - cbn [append String.eqb]. replace (match s with String "-"%char t => (true, t) | _ => (false, s) end) with (false, s).
    + rewrite B. reflexivity.
    + destruct s as [|c s]; [reflexivity|]. by_cases_char c; try reflexivity. exfalso. eapply N. reflexivity.
  - cbn [append String.eqb]. rewrite B. reflexivity.
Qed.
Lemma py_int_hex m x h : minus m -> py_int 16 (m ++ String "0" (String x h)) =
  (if String.eqb m "" then Z.of_N (digits_value 16 0 h) else - Z.of_N (digits_value 16 0 h))%Z.
Proof. intros [->| ->]; reflexivity. Qed.
Lemma number_signed m s n : minus m -> magnitude s n -> number_value (m ++ s) = Some (if String.eqb m "" then Z.of_N n else - Z.of_N n)%Z.
Proof.
  intros M H. unfold number_value. destruct H as [s n Z0 D|s n D|s n D|s n D].
  - pose proof (digits_one_of _ _ _ D) as O. destruct s as [|c s]; [destruct O; congruence|].
    assert (c <> "-"%char) as NM. { apply not_minus_dec. destruct O as [_ O]. apply all_chars_cons in O as [O _]. exact O. }
    assert (c <> "0"%char) as NZ by (intros ->; eapply Z0; reflexivity).
    rewrite (re_test_false HEX_REGEX), (re_test_false OCTAL_REGEX).
    + rewrite dec_test by assumption. rewrite py_int_sign; [|lia|exact M|intros t E; injection E as E _; contradiction].
      rewrite (digits_value_spec 10 _ n) by (assumption || lia). reflexivity.
    + intros u rest E DD. apply oct_den in DD. destruct (starts_text m c s _ u rest M NM eq_refl E) as [_ G]. apply G in DD as [-> _]. congruence.
    + intros u rest E DD. apply hex_den in DD. destruct (starts_text m c s _ u rest M NM eq_refl E) as [G _]. apply G in DD as [-> _]. congruence.
  - pose proof (digits_one_of _ _ _ D) as O.
    rewrite (re_test_false HEX_REGEX).
    2: { intros u rest E DD. apply hex_den in DD. destruct (starts_text m "0" s _ u rest M ltac:(discriminate) eq_refl E) as [G _].
         apply G in DD as [_ (x & h & -> & X)]. destruct O as [_ O]. apply all_chars_cons in O as [_ O]. apply all_chars_cons in O as [O _].
         eapply not_x_dec; [exact X|apply oct_dec; exact O]. }
    destruct s as [|x s].
    + rewrite (re_test_false OCTAL_REGEX).
      2: { intros u rest E DD. apply oct_den in DD. destruct (starts_text m "0" "" _ u rest M ltac:(discriminate) eq_refl E) as [_ G].
           apply G in DD as [_ (x & h & E2 & X)]. discriminate E2. }
      assert (n = 0%N) as ->. { apply (digits_value_spec 8) in D; [|lia]. cbn in D. congruence. }
      rewrite dec_test; [destruct M as [->| ->]; reflexivity|exact M|].
      split; [discriminate|]. apply all_chars_cons. split; [apply is_digit_spec; reflexivity|apply all_chars_nil].
    + destruct (re_test OCTAL_REGEX (m ++ String "0" (String x s))) eqn:T.
      * rewrite py_int_sign; [|lia|exact M|intros t E; discriminate E]. rewrite (digits_value_spec 8 _ n) by (assumption || lia). reflexivity.
      * exfalso. apply not_true_iff_false in T. apply T. apply re_test_spec. exists (m ++ String "0" (String x s)), "". rewrite sapp_nil_r.
        split; [reflexivity|]. apply oct_den. exists m, (String x s). split; [exact M|]. split; [reflexivity|].
        split; [discriminate|]. destruct O as [_ O]. apply all_chars_cons in O as [_ O]. exact O.
  - change ("0x" ++ s) with (String "0" (String "x" s)).
    assert (re_test HEX_REGEX (m ++ String "0" (String "x" s)) = true) as ->.
    { apply re_test_spec. exists (m ++ String "0" (String "x" s)), "". rewrite sapp_nil_r. split; [reflexivity|]. apply hex_den.
      exists m, "x"%char, s. split; [exact M|]. split; [auto|]. split; [reflexivity|]. eapply digits_one_of, D. }
    rewrite py_int_hex by exact M. rewrite (digits_value_spec 16 _ n) by (assumption || lia). reflexivity.
  - change ("0X" ++ s) with (String "0" (String "X" s)).
    assert (re_test HEX_REGEX (m ++ String "0" (String "X" s)) = true) as ->.
    { apply re_test_spec. exists (m ++ String "0" (String "X" s)), "". rewrite sapp_nil_r. split; [reflexivity|]. apply hex_den.
      exists m, "X"%char, s. split; [exact M|]. split; [auto|]. split; [reflexivity|]. eapply digits_one_of, D. }
    rewrite py_int_hex by exact M. rewrite (digits_value_spec 16 _ n) by (assumption || lia). reflexivity.
Qed.
Lemma number_odd m c s n : minus m -> c = "8"%char \/ c = "9"%char -> digits_val 10 (String "0" (String c s)) n ->
  number_value (m ++ String "0" (String c s)) = Some (if String.eqb m "" then Z.of_N n else - Z.of_N n)%Z.
Proof.
  intros M C D. unfold number_value. pose proof (digits_one_of _ _ _ D) as O.
  rewrite (re_test_false HEX_REGEX), (re_test_false OCTAL_REGEX).
  - rewrite dec_test by assumption. rewrite py_int_sign; [|lia|exact M|intros t E; discriminate E].
    rewrite (digits_value_spec 10 _ n) by (assumption || lia). reflexivity.
  - intros u rest E DD. apply oct_den in DD. destruct (starts_text m "0" _ _ u rest M ltac:(discriminate) eq_refl E) as [_ G].
    apply G in DD as [_ (x & h & E2 & X)]. injection E2 as <- _. eapply odd_not_oct; eassumption.
  - intros u rest E DD. apply hex_den in DD. destruct (starts_text m "0" _ _ u rest M ltac:(discriminate) eq_refl E) as [G _].
    apply G in DD as [_ (x & h & E2 & X)]. injection E2 as <- _. eapply not_x_dec; [exact X|apply odd_dec; exact C].
Qed.
Lemma number_value_complete s z : number s z -> number_value s = Some z.
Proof.
  intros H. destruct H as [s n H|s n H|c s n C D|c s n C D].
  - apply (number_signed "" s n); [left; reflexivity|exact H].
  - apply (number_signed "-" s n); [right; reflexivity|exact H].
  - apply (number_odd "" c s n); [left; reflexivity|assumption..].
  - apply (number_odd "-" c s n); [right; reflexivity|assumption..].
Qed.
Lemma number_value_spec s z : spelled NUMERIC_CONSTANT s -> number_value s = Some z <-> number s z.
Proof.
  intros (z' & N). split; [|apply number_value_complete]. rewrite (number_value_complete _ _ N). intros H. injection H as <-. exact N.
Qed.

(* ---- Values ---- *)
Lemma wf_app a b : wf (a ++ b) <-> wf a /\ wf b.
Proof. apply Forall_app. Qed.
Lemma wf_cons t b : wf (t :: b) <-> spelled (t_type t) (t_value t) /\ wf b.
Proof. apply Forall_cons_iff. Qed.
Lemma is_type_spec x y : is_type x y = true <-> x = y.
Proof. destruct x, y; cbn; split; congruence. Qed.
Lemma next_is_spec ty ts : next_is ty ts = true <-> exists v r, ts = Tok ty v :: r.
Proof.
  destruct ts as [|[t v] r]; cbn; [split; [discriminate|intros (? & ? & ?); discriminate]|]. rewrite is_type_spec.
  split; [intros ->; eauto|intros (? & ? & E); injection E; congruence].
Qed.
Section grammar.
Variable a : parch.
Let bits : N := arch_bits (pa_arch a).

Lemma single_constant_spec t v : spelled (t_type t) (t_value t) -> single_constant a t = Some v <-> constant_word a t v.
Proof.
  intros S. unfold single_constant.
  assert (0 < 2 ^ Z.of_N bits)%Z as P by (apply Z.pow_pos_nonneg; lia).
  assert (forall z w, (if (max_unsigned a <? z)%Z || (z <? min_signed a)%Z then None
              else if (z <? 0)%Z then Some (truncate_word a z) else Some (Z.to_N z)) = Some w <->
           (- 2 ^ (Z.of_N bits - 1) <= z < 2 ^ Z.of_N bits)%Z /\ w = Z.to_N (z mod 2 ^ Z.of_N bits)) as G.
  { intros z w. unfold max_unsigned, min_signed, truncate_word. fold bits.
    destruct (Z.ltb_spec (2 ^ Z.of_N bits - 1) z); cbn [orb]; [split; [discriminate|intros [? _]; lia]|].
    destruct (Z.ltb_spec z (- 2 ^ (Z.of_N bits - 1))); [split; [discriminate|intros [? _]; lia]|].
    destruct (Z.ltb_spec z 0).
    - split; [intros E; injection E as <-; split; [lia|reflexivity]|intros [_ ->]; reflexivity].
    - rewrite Z.mod_small by lia. split; [intros E; injection E as <-; split; [lia|reflexivity]|intros [_ ->]; reflexivity]. }
  destruct t as [ty s]. cbn [t_type t_value] in *.
  assert (ty = IDENTIFIER \/ ty = NUMERIC_CONSTANT \/ (ty <> IDENTIFIER /\ ty <> NUMERIC_CONSTANT)) as [->|[->|[N1 N2]]]
    by (destruct ty; auto; right; right; split; discriminate).
  - destruct (lookup s (pa_constants a)) as [z|] eqn:L.
    + rewrite G. apply lookup_spec in L. split.
      * intros [B ->]. constructor; assumption.
      * intros H. inversion H as [s' z' F B|]; subst. apply lookup_spec in F, L. assert (z = z') by congruence. subst. auto.
    + split; [discriminate|]. intros H. inversion H as [s' z' F B|]; subst. apply lookup_spec in F. congruence.
  - destruct (number_value s) as [z|] eqn:L.
    + rewrite G. apply number_value_spec in L; [|exact S]. split.
      * intros [B ->]. constructor; assumption.
      * intros H. inversion H as [|s' z' F B]; subst. apply number_value_complete in F, L. assert (z = z') by congruence. subst. auto.
    + split; [discriminate|]. intros H. inversion H as [|s' z' F B]; subst. apply number_value_complete in F. congruence.
  - split; [destruct ty; try discriminate; congruence|]. intros H. inversion H; subst; congruence.
Qed.
Lemma constant_word_bound t v : constant_word a t v -> (v < 2 ^ bits)%N.
Proof.
  assert (0 < 2 ^ Z.of_N bits)%Z as P by (apply Z.pow_pos_nonneg; lia).
  assert (forall z, (Z.to_N (z mod 2 ^ Z.of_N bits) < 2 ^ bits)%N) as G.
  { intros z. pose proof (Z.mod_pos_bound z _ P) as B. apply N2Z.inj_lt. rewrite Z2N.id by lia. rewrite N2Z.inj_pow. exact (proj2 B). }
  intros H. destruct H; apply G.
Qed.
Scheme value_ind' := Induction for g_value Sort Prop
  with constant_ind' := Induction for g_constant Sort Prop
  with term_ind' := Induction for g_term Sort Prop.
Combined Scheme gram_ind from value_ind', constant_ind', term_ind'.
Lemma lor_bound x y k : (x < 2 ^ k)%N -> (y < 2 ^ k)%N -> (N.lor x y < 2 ^ k)%N.
Proof.
  intros X Y. destruct (N.eq_dec (N.lor x y) 0) as [->|N]; [apply N.neq_0_lt_0, N.pow_nonzero; lia|].
  apply N.log2_lt_pow2; [lia|]. rewrite N.log2_lor.
  destruct (N.eq_dec x 0) as [->|NX]; destruct (N.eq_dec y 0) as [->|NY]; [rewrite N.lor_0_l in N; congruence|..].
  - apply N.log2_lt_pow2 in Y; [|lia]. apply N.max_lub_lt; [|exact Y]. cbn. lia.
  - apply N.log2_lt_pow2 in X; [|lia]. apply N.max_lub_lt; [exact X|]. cbn. lia.
  - apply N.log2_lt_pow2 in X; [|lia]. apply N.log2_lt_pow2 in Y; [|lia]. apply N.max_lub_lt; assumption.
Qed.
Lemma value_bound : (forall ts v, g_value a ts v -> (v < 2 ^ bits)%N) /\ (forall ts v, g_constant a ts v -> (v < 2 ^ bits)%N) /\
  (forall ts v, g_term a ts v -> (v < 2 ^ bits)%N).
Proof.
  apply gram_ind; intros; try assumption.
  - apply lor_bound; assumption.
  - unfold inverse. fold bits. assert (2 ^ bits <> 0)%N by (apply N.pow_nonzero; lia). lia.
  - eapply constant_word_bound. eassumption.
Qed.
Lemma negate_spec v : (v < 2 ^ bits)%N -> truncate_word a (Z.lnot (Z.of_N v)) = inverse a v.
Proof.
  intros L. unfold truncate_word, inverse, Z.lnot. fold bits. apply N2Z.inj.
  assert (0 < 2 ^ Z.of_N bits)%Z as P by (apply Z.pow_pos_nonneg; lia).
  assert (Z.of_N (2 ^ bits) = 2 ^ Z.of_N bits)%Z as E by apply N2Z.inj_pow.
  rewrite Z2N.id by (apply Z.mod_pos_bound, P).
  replace (Z.pred (- Z.of_N v)) with ((2 ^ Z.of_N bits - 1 - Z.of_N v) + (-1) * 2 ^ Z.of_N bits)%Z by lia.
  rewrite Z.mod_add by lia. rewrite Z.mod_small by lia. lia.
Qed.
(* one constant of parse_value *)
Definition constant_part (fuel : nat) (ts : list token) : option (bool * N * list token) :=
  let '(negate, ts) := match ts with
                       | Tok BITWISE_COMPLEMENT _ :: r => (true, r)
                       | _ => (false, ts)
                       end in
  match ts with
  | [] => None
  | Tok LPAREN _ :: r =>
      match parse_value a fuel r with
      | Some (v, Tok RPAREN _ :: r) => Some (negate, v, r)
      | _ => None
      end
  | t :: r => match single_constant a t with Some v => Some (negate, v, r) | None => None end
  end.
Lemma parse_value_step fuel ts : parse_value a (S fuel) ts =
  match constant_part fuel ts with
  | None => None
  | Some (negate, v, ts) =>
      let v := if negate then truncate_word a (Z.lnot (Z.of_N v)) else v in
      match ts with
      | Tok BITWISE_OR _ :: r =>
          match parse_value a fuel r with
          | Some (w, r) => Some (N.lor v w, r)
          | None => None
          end
      | _ => Some (v, ts)
      end
  end.
Proof. reflexivity. Qed.
Definition term_part (fuel : nat) (ts : list token) : option (N * list token) :=
  match ts with
  | [] => None
  | Tok LPAREN _ :: r =>
      match parse_value a fuel r with
      | Some (v, Tok RPAREN _ :: r) => Some (v, r)
      | _ => None
      end
  | t :: r => match single_constant a t with Some v => Some (v, r) | None => None end
  end.
Lemma constant_part_term fuel ts : constant_part fuel ts =
  match ts with
  | Tok BITWISE_COMPLEMENT _ :: r => match term_part fuel r with Some (v, r) => Some (true, v, r) | None => None end
  | _ => match term_part fuel ts with Some (v, r) => Some (false, v, r) | None => None end
  end.
Proof.
  assert (forall (b : bool) ts, match ts with
  | [] => None
  | Tok LPAREN _ :: r =>
      match parse_value a fuel r with
      | Some (v, Tok RPAREN _ :: r) => Some (b, v, r)
      | _ => None
      end
  | t :: r => match single_constant a t with Some v => Some (b, v, r) | None => None end
  end = match term_part fuel ts with Some (v, r) => Some (b, v, r) | None => None end) as G.
  { clear ts. intros b ts. unfold term_part. destruct ts as [|[ty v] r]; [reflexivity|].
    destruct ty; try (match goal with |- context [single_constant a ?t] => destruct (single_constant a t) end; reflexivity).
    destruct (parse_value a fuel r) as [[w [|[ty' v'] r']]|]; try reflexivity. destruct ty'; reflexivity. }
  unfold constant_part. destruct ts as [|[ty v] r]; [reflexivity|].
  destruct ty; first [exact (G true r)|match goal with |- context [term_part fuel (Tok ?ty v :: r)] => exact (G false (Tok ty v :: r)) end].
Qed.
Lemma value_sound : forall fuel ts v rest, wf ts -> parse_value a fuel ts = Some (v, rest) ->
  exists pre, ts = (pre ++ rest)%list /\ g_value a pre v.
Proof.
  induction fuel as [|fuel IH]; intros ts v rest W H; [discriminate|]. rewrite parse_value_step in H.
  assert (forall ts v r, wf ts -> term_part fuel ts = Some (v, r) -> exists pre, ts = (pre ++ r)%list /\ g_term a pre v) as T.
  { clear ts v rest W H. intros ts v r W H. destruct ts as [|[ty s] ts]; [discriminate|]. apply wf_cons in W as [S W].
    assert (ty = LPAREN \/ ty <> LPAREN) as [->|N] by (destruct ty; auto; right; discriminate).
    - cbn in H. destruct (parse_value a fuel ts) as [[w [|[ty' e] r']]|] eqn:P; try discriminate.
      destruct (IH _ _ _ W P) as (pre & -> & G). destruct ty'; try discriminate. injection H as <- <-.
      exists (Tok LPAREN s :: pre ++ [Tok RPAREN e])%list. split; [cbn; rewrite <- app_assoc; reflexivity|]. constructor. exact G.
    - assert (match single_constant a (Tok ty s) with Some v => Some (v, ts) | None => None end = Some (v, r)) as H'
        by (destruct ty; try exact H; congruence).
      destruct (single_constant a (Tok ty s)) eqn:C; [|discriminate]. injection H' as <- <-. apply single_constant_spec in C; [|exact S].
      exists [Tok ty s]. split; [reflexivity|]. constructor. exact C. }
  assert (forall n w r, constant_part fuel ts = Some (n, w, r) -> exists pre, ts = (pre ++ r)%list /\
    g_constant a pre (if n then truncate_word a (Z.lnot (Z.of_N w)) else w)) as C.
  { intros n w r C. rewrite constant_part_term in C.
    assert ((exists s ts', ts = Tok BITWISE_COMPLEMENT s :: ts') \/
      (match term_part fuel ts with Some (v, r) => Some (false, v, r) | None => None end = Some (n, w, r))) as [(s & ts' & ->)|C'].
    { destruct ts as [|[ty s] ts']; [right; exact C|]. destruct ty; try (right; exact C). left. eauto. }
    - apply wf_cons in W as [_ W]. destruct (term_part fuel ts') as [[x r']|] eqn:TP; [|discriminate]. injection C as <- <- <-.
      destruct (T _ _ _ W TP) as (pre & -> & G). exists (Tok BITWISE_COMPLEMENT s :: pre). split; [reflexivity|].
      rewrite negate_spec by (exact (proj2 (proj2 value_bound) _ _ G)). apply gc_not. exact G.
    - destruct (term_part fuel ts) as [[x r']|] eqn:TP; [|discriminate]. injection C' as <- <- <-.
      destruct (T _ _ _ W TP) as (pre & -> & G). exists pre. split; [reflexivity|]. constructor. exact G. }
  destruct (constant_part fuel ts) as [[[n w] r]|] eqn:CP; [|discriminate]. destruct (C _ _ _ eq_refl) as (pre & -> & G). cbv zeta in H.
  apply wf_app in W as [_ W].
  assert ((exists s r', r = Tok BITWISE_OR s :: r') \/ Some (if n then truncate_word a (Z.lnot (Z.of_N w)) else w, r) = Some (v, rest)) as [(s & r' & ->)|H'].
  { destruct r as [|[ty s] r']; [right; exact H|]. destruct ty; try (right; exact H). left. eauto. }
  - apply wf_cons in W as [_ W]. destruct (parse_value a fuel r') as [[x r]|] eqn:P; [|discriminate]. injection H as <- <-.
    destruct (IH _ _ _ W P) as (pre' & -> & G'). exists (pre ++ Tok BITWISE_OR s :: pre')%list. split; [rewrite <- app_assoc; reflexivity|].
    constructor; assumption.
  - injection H' as <- <-. exists pre. split; [reflexivity|]. constructor. exact G.
Qed.
Lemma term_nonempty : (forall ts v, g_value a ts v -> ts <> []) /\ (forall ts v, g_constant a ts v -> ts <> []) /\
  (forall ts v, g_term a ts v -> ts <> []).
Proof.
  apply gram_ind; intros; try assumption; try discriminate. destruct ts; [congruence|discriminate].
Qed.
Lemma value_complete : forall fuel ts v rest, wf ts -> g_value a ts v -> (length ts <= fuel)%nat -> next_is BITWISE_OR rest = false ->
  parse_value a fuel (ts ++ rest) = Some (v, rest).
Proof.
  induction fuel as [|fuel IH]; intros ts v rest W G L F.
  { exfalso. apply (proj1 term_nonempty) in G. destruct ts; [congruence|cbn in L; lia]. }
  assert (forall ts v rest, wf ts -> g_term a ts v -> (length ts <= S fuel)%nat -> term_part fuel (ts ++ rest) = Some (v, rest)) as T.
  { clear ts v rest W G L F. intros ts v rest W G L. destruct G as [t v C|b ts v e G].
    - apply wf_cons in W as [S _]. pose proof (proj2 (single_constant_spec t v S) C) as E. destruct C; cbn [app term_part]; rewrite E; reflexivity.
    - cbn [app]. apply wf_cons in W as [_ W]. apply wf_app in W as [W _]. unfold term_part. rewrite <- app_assoc.
      cbn in L. rewrite app_length in L. cbn in L. rewrite (IH ts v _ W G); [reflexivity|lia|reflexivity]. }
  assert (forall ts v rest, wf ts -> g_constant a ts v -> (length ts <= S fuel)%nat ->
    exists n w, constant_part fuel (ts ++ rest) = Some (n, w, rest) /\ v = if n then truncate_word a (Z.lnot (Z.of_N w)) else w) as C.
  { clear ts v rest W G L F. intros ts v rest W G L. rewrite constant_part_term. destruct G as [ts v G|b ts v G].
    - exists false, v. split; [|reflexivity].
      assert (match ts ++ rest with Tok BITWISE_COMPLEMENT _ :: r => match term_part fuel r with Some (v, r) => Some (true, v, r) | None => None end
        | _ => match term_part fuel (ts ++ rest) with Some (v, r) => Some (false, v, r) | None => None end end =
        match term_part fuel (ts ++ rest) with Some (v, r) => Some (false, v, r) | None => None end)%list as ->.
      { destruct G as [t v C|b ts v e G]; [destruct C; reflexivity|reflexivity]. }
      rewrite (T ts v rest W G L). reflexivity.
    - apply wf_cons in W as [_ W]. cbn in L. exists true, v. cbn [app]. rewrite (T ts v rest W G) by lia. split; [reflexivity|].
      symmetry. apply negate_spec. exact (proj2 (proj2 value_bound) _ _ G). }
  rewrite parse_value_step. destruct G as [ts v G|ts v b r w G G'].
  - destruct (C ts v rest W G L) as (n & x & -> & ->). cbv zeta. destruct rest as [|[ty s] r]; [reflexivity|]. destruct ty; try reflexivity. discriminate F.
  - apply wf_app in W as [W W']. apply wf_cons in W' as [_ W']. rewrite app_length in L. cbn in L.
    rewrite <- app_assoc. cbn [app]. destruct (C ts v (Tok BITWISE_OR b :: r ++ rest)%list W G ltac:(lia)) as (n & x & -> & ->). cbv zeta.
    assert (ts <> []) as NE by (eapply (proj1 (proj2 term_nonempty)); exact G). destruct ts; [congruence|]. cbn in L.
    rewrite (IH r w rest W' G') by (assumption || lia). reflexivity.
Qed.
End grammar.
