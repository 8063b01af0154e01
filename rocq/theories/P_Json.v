(* Proofs for C84: tables of clang in generate_constants_json.py. *)
From Verif Require Import P_CStr P_Const S_Policy S_PyPolicy P_PyFile.
From Verif Require Import M_PyParse S_PyText P_PyLex P_PyGram S_Common P_CommonPy P_GenText P_GenRead.
From Verif Require Import M_Json S_Json.
From Coq Require Import Lia.
Local Open Scope string_scope.

(* ---- Characters ---- *)
Lemma without_not bad s : without bad s -> all_chars (fun c => c <> "010"%char /\ forall a b, bad <> a ++ String c b) s.
Proof. exact (fun H => H). Qed.
Lemma without_every bad p s : (forall c, c <> "010"%char -> (forall a b, bad <> a ++ String c b) -> p c = true) -> without bad s -> every p s = true.
Proof. intros H W. apply every_all. revert W. apply all_chars_impl. intros c [A B]. apply H; assumption. Qed.
Lemma without_app bad a b : without bad (a ++ b) <-> without bad a /\ without bad b.
Proof. apply all_chars_app. Qed.
Definition but (x c : ascii) : bool := negb (is_c x c).
Lemma but_true x c : but x c = true <-> c <> x.
Proof. unfold but, is_c. rewrite negb_true_iff, Ascii.eqb_neq. split; congruence. Qed.
Lemma without_but bad x s : (exists a b, bad = a ++ String x b) -> without bad s -> every (but x) s = true.
Proof. intros (a & b & E). apply without_every. intros c _ N. apply but_true. intros ->. exact (N a b E). Qed.
Lemma without_any bad s : without bad s -> every any s = true.
Proof. apply without_every. intros c N _. apply but_true. exact N. Qed.
Lemma every_app p a b : every p (a ++ b) = every p a && every p b.
Proof. induction a as [|c a IH]; [reflexivity|]. cbn. rewrite IH, andb_assoc. reflexivity. Qed.
Lemma every_impl (p q : ascii -> bool) s : (forall c, p c = true -> q c = true) -> every p s = true -> every q s = true.
Proof. intros H. rewrite !every_all. apply all_chars_impl. exact H. Qed.
Lemma sym_char_spec c : sym_char c = true <-> letter c \/ dec_digit c \/ c = "."%char.
Proof.
  unfold sym_char. rewrite !orb_true_iff, is_letter_spec, is_digit_spec. unfold is_c. rewrite Ascii.eqb_eq.
  split; [intros [[A|A]|A]|intros [A|[A|A]]]; auto.
Qed.
Lemma sym_but x c : sym_char x = false -> sym_char c = true -> but x c = true.
Proof. intros N C. apply but_true. intros ->. congruence. Qed.
Lemma symbol_parts s : symbol s -> exists t, s = String "@" t /\ t <> "" /\ every sym_char t = true.
Proof.
  intros (t & -> & N & C). exists t. split; [reflexivity|]. split; [exact N|]. apply every_all. revert C. apply all_chars_impl. intros c C. apply sym_char_spec, C.
Qed.
Lemma symbol_but x s : symbol s -> sym_char x = false -> x <> "@"%char -> every (but x) s = true.
Proof.
  intros S X N. destruct (symbol_parts s S) as (t & -> & _ & E). cbn [every]. assert (but x "@" = true) as -> by (apply but_true; congruence).
  cbn. revert E. apply every_impl. intros c. apply sym_but, X.
Qed.
Lemma digits_every s n : digits_val 10 s n -> s <> "" /\ every is_digit s = true.
Proof.
  induction 1 as [c v D L|s n c v _ [IN IE] D L].
  - split; [discriminate|]. cbn. assert (is_digit c = true) as -> by (apply is_digit_spec; exists v; auto). reflexivity.
  - split; [destruct s; discriminate|]. rewrite every_app, IE. cbn. assert (is_digit c = true) as -> by (apply is_digit_spec; exists v; auto). reflexivity.
Qed.
Lemma digit_but x c : is_digit x = false -> is_digit c = true -> but x c = true.
Proof. intros N C. apply but_true. intros ->. congruence. Qed.
Lemma decimal_parts s v : decimal s v -> exists m t, s = m ++ t /\ minus m /\ t <> "" /\ every is_digit t = true /\ py_int 10 s = v.
Proof.
  intros (n & [[D ->]|(t & -> & D & ->)]).
  - destruct (digits_every _ _ D) as [N E]. exists "", s. repeat split; try assumption; [left; reflexivity|].
    change s with ("" ++ s) at 1. rewrite py_int_sign; [|discriminate|left; reflexivity|].
    + cbn. rewrite (digits_value_spec 10 s n); [reflexivity|discriminate|exact D].
    + intros t ->. cbn in E. discriminate.
  - destruct (digits_every _ _ D) as [N E]. exists "-", t. repeat split; try assumption; [right; reflexivity|].
    rewrite py_int_sign; [|discriminate|right; reflexivity|].
    + cbn. rewrite (digits_value_spec 10 t n); [reflexivity|discriminate|exact D].
    + intros u ->. cbn in E. discriminate.
Qed.
Lemma decimal_but x s v : decimal s v -> is_digit x = false -> x <> "-"%char -> every (but x) s = true.
Proof.
  intros D X N. destruct (decimal_parts s v D) as (m & t & -> & M & _ & E & _). rewrite every_app. apply andb_true_iff. split.
  - destruct M as [->| ->]; [reflexivity|]. cbn [every]. rewrite andb_true_r. apply but_true. congruence.
  - revert E. apply every_impl. intros c. apply digit_but, X.
Qed.

(* ---- Greedy and lazy choice ---- *)
Lemma many_none {T} p (k : option ascii -> string -> option T) : forall s prev, (forall prev w s', s = w ++ s' -> k prev s' = None) -> many p prev s k = None.
Proof.
  induction s as [|c s IH]; intros prev H; cbn; [apply (H _ "" _ eq_refl)|]. pose proof (H prev "" _ eq_refl) as K.
  destruct (p c); [|exact K]. rewrite IH; [exact K|]. intros q w s' ->. apply (H q (String c w)). reflexivity.
Qed.
Lemma many_pick {T} p (k : option ascii -> string -> option T) x v : (forall prev, k prev v = Some x) ->
  (forall prev w v', v = w ++ v' -> w <> "" -> k prev v' = None) -> forall u prev, every p u = true -> many p prev (u ++ v) k = Some x.
Proof.
  intros K L. induction u as [|c u IH]; intros prev E.
  - cbn [append]. destruct v as [|c v]; cbn; [apply K|]. destruct (p c); [|apply K]. rewrite many_none; [apply K|].
    intros q w s' ->. apply (L q (String c w)); [reflexivity|discriminate].
  - cbn in E. apply andb_true_iff in E as [P E]. cbn [append many]. rewrite P, IH by exact E. reflexivity.
Qed.
Lemma lazily_sound {T} p (k : option ascii -> string -> option T) x : forall s prev, lazily p prev s k = Some x ->
  exists prev' w s', s = w ++ s' /\ k prev' s' = Some x.
Proof.
  induction s as [|c s IH]; intros prev H; cbn in H.
  - exists prev, "", "". destruct (k prev ""); [split; [reflexivity|exact H]|discriminate].
  - destruct (k prev (String c s)) eqn:K; [exists prev, "", (String c s); split; [reflexivity|congruence]|].
    destruct (p c); [|discriminate]. destruct (IH _ H) as (q & w & s' & -> & E). exists q, (String c w), s'. split; [reflexivity|exact E].
Qed.
Lemma lazily_complete {T} p (k : option ascii -> string -> option T) v : (forall prev, k prev v <> None) -> forall u prev, every p u = true ->
  lazily p prev (u ++ v) k <> None.
Proof.
  intros K. induction u as [|c u IH]; intros prev E.
  - cbn [append]. pose proof (K prev) as N. destruct v; cbn; destruct (k prev _); congruence.
  - cbn in E. apply andb_true_iff in E as [P E]. cbn [append lazily]. destruct (k prev _); [discriminate|]. rewrite P. apply IH, E.
Qed.
Lemma lazily_first {T} p (k : option ascii -> string -> option T) x v : (forall prev, k prev v = Some x) -> forall u prev, every p u = true ->
  (forall prev a c b, u = a ++ String c b -> k prev (String c b ++ v) = None) -> lazily p prev (u ++ v) k = Some x.
Proof.
  intros K. induction u as [|c u IH]; intros prev E H.
  - cbn [append]. pose proof (K prev) as N. destruct v; cbn; rewrite N; reflexivity.
  - cbn in E. apply andb_true_iff in E as [P E]. cbn [append lazily]. pose proof (H prev "" c u eq_refl) as N. cbn [append] in N. rewrite N, P.
    apply IH; [exact E|]. intros q a d b ->. apply (H q (String c a)). reflexivity.
Qed.
Lemma symbol_first {T} sym (k : option ascii -> string -> option T) x mid prev : symbol sym -> stops sym_char mid -> (forall p, k p mid = Some x) ->
  matching SYMBOL prev (sym ++ mid) k = Some x.
Proof.
  intros S ST K. destruct (symbol_parts sym S) as (t & -> & N & E). unfold SYMBOL. change (String "@" t ++ mid) with (String "@" (t ++ mid)).
  change (matching (some1 sym_char) (Some "@"%char) (t ++ mid) k = Some x). apply some_first; auto.
Qed.
Lemma upto_app a b : upto (a ++ b) b = a.
Proof. apply cut_l. Qed.

(* ---- Lines with strings ---- *)
Fixpoint quotes (s : string) : nat :=
  match s with EmptyString => 0 | String c t => (if is_c """" c then 1 else 0) + quotes t end.
Lemma quotes_app a b : quotes (a ++ b) = (quotes a + quotes b)%nat.
Proof. induction a as [|c a IH]; [reflexivity|]. cbn. rewrite IH. lia. Qed.
Lemma quotes_none s : every (but """") s = true -> quotes s = 0%nat.
Proof.
  induction s as [|c s IH]; [reflexivity|]. cbn [every quotes]. intros H. apply andb_true_iff in H as [A B]. unfold but in A. apply negb_true_iff in A.
  rewrite A, IH by exact B. reflexivity.
Qed.
Lemma quotes_contains s : ~ contains """" s -> quotes s = 0%nat.
Proof.
  induction s as [|c s IH]; intros H; [reflexivity|]. cbn [quotes]. rewrite IH.
  - destruct (is_c """" c) eqn:E; [|reflexivity]. apply is_c_spec in E as ->. exfalso. apply H. exists "", s. reflexivity.
  - intros (a & b & ->). apply H. exists (String c a), b. reflexivity.
Qed.
Lemma string_two_quotes l r : string_constant l = Some r -> (2 <= quotes l)%nat.
Proof.
  unfold string_constant. intros H.
  apply matching_sound in H as (u1 & s1 & -> & _ & H). apply matching_sound in H as (u2 & s2 & -> & _ & H).
  apply matching_sound in H as (u3 & s3 & -> & _ & H). apply matching_sound in H as (u4 & s4 & -> & D4 & H).
  apply matching_sound in H as (u5 & s5 & -> & _ & H). apply matching_sound in H as (u6 & s6 & -> & D6 & _).
  apply den_lit in D4 as ->. apply den_lit in D6 as ->. rewrite !quotes_app. cbn. lia.
Qed.
Lemma not_string l : (quotes l < 2)%nat -> string_constant l = None.
Proof. intros Q. destruct (string_constant l) eqn:E; [|reflexivity]. apply string_two_quotes in E. lia. Qed.
Lemma is_string l sym name : string_line l sym name -> string_constant l = Some (sym, name).
Proof.
  intros [sym' mid name' rest S M N Q R]. clear l sym name. rename sym' into sym, name' into name. unfold string_constant.
  apply symbol_first; [exact S|apply stops_cons; reflexivity|]. intros p1. rewrite upto_app. rewrite lit_first. cbn [matching].
  apply many_pick; [| |apply (without_any _ _ M)].
  - intros p2. rewrite lit_first. apply some_first; [apply stops_cons; reflexivity|exact N| |].
    + revert Q. apply without_every. intros c _ B. unfold in_quotes. apply negb_true_iff, orb_false_iff. split.
      * destruct (is_c """" c) eqn:E; [|reflexivity]. apply is_c_spec in E as ->. exfalso. exact (B "" "\" eq_refl).
      * destruct (is_c "\" c) eqn:E; [|reflexivity]. apply is_c_spec in E as ->. exfalso. exact (B """" "" eq_refl).
    + rewrite lit_first. rewrite upto_app. reflexivity.
  - intros p2 w v' E NW. match goal with |- ?m = None => destruct m as [r|] eqn:K; [exfalso|reflexivity] end.
    apply matching_sound in K as (u4 & s4 & -> & D4 & K). apply matching_sound in K as (u5 & s5 & -> & _ & K).
    apply matching_sound in K as (u6 & s6 & -> & D6 & _). apply den_lit in D4 as ->. apply den_lit in D6 as ->.
    pose proof (f_equal quotes E) as QE. rewrite !quotes_app in QE. cbn in QE.
    rewrite (quotes_none name) in QE by (apply (without_but _ """" _) in Q; [exact Q|exists "", "\"; reflexivity]).
    rewrite (quotes_none rest) in QE by (apply (without_but _ """" _) in R; [exact R|exists "", ""; reflexivity]).
    destruct w as [|c1 [|c2 w]]; [congruence| |].
    + cbn in E. injection E as _ E2. discriminate E2.
    + cbn in E. injection E as E1 E2 E3. subst c1 c2. cbn in QE. lia.
Qed.

(* ---- The entries of a table ---- *)
Lemma contents_entry e sym v : entry_text e sym v -> contents (e ++ " ") = Some (sym, v).
Proof.
  intros [ty sym' mid num v' T NN W S M ST D]. clear e sym v. rename sym' into sym, v' into v. unfold contents. rewrite !sapp_assoc.
  apply lazily_first; [| apply (without_any _ _ T) |].
  - intros p1. cbn [matching]. destruct (symbol_parts sym S) as (t & SE & _). match goal with |- match ?m with _ => _ end = _ => assert (m = None) as -> end.
    { rewrite SE. reflexivity. }
    apply symbol_first; [exact S| |].
    { destruct mid as [|c mid]; [apply stops_cons; reflexivity|]. apply stops_cons. apply not_true_iff_false. rewrite sym_char_spec. exact (ST c mid eq_refl). }
    intros p2. rewrite upto_app. apply many_pick; [| |apply (without_any _ _ M)].
    + intros p3. rewrite (lit_first " "). destruct (decimal_parts num v D) as (m & ds & -> & MM & N & E & V). rewrite sapp_assoc. unfold DECIMAL_REGEX.
      assert (forall p, matching (some1 is_digit) p (ds ++ " ") (fun _ s5 => Some (sym, py_int 10 (upto (m ++ ds ++ " ") s5))) = Some (sym, v)) as K.
      { intros p. apply some_first; [apply stops_cons; reflexivity|exact N|exact E|]. rewrite <- sapp_assoc, upto_app, V. reflexivity. }
      change (matching (maybe (Chr (is_c "-"))) (last_of p3 " ") (m ++ ds ++ " ") (fun p s => matching (some1 is_digit) p s (fun _ s5 => Some (sym, py_int 10 (upto (m ++ ds ++ " ") s5)))) = Some (sym, v)).
      destruct MM as [->| ->].
      * cbn [append maybe matching]. cbn [append] in K. destruct ds as [|d ds]; [congruence|]. cbn [append].
        cbn in E. apply andb_true_iff in E as [DE _]. assert (is_c "-" d = false) as -> by (destruct (is_c "-" d) eqn:X; [apply is_c_spec in X as ->; discriminate DE|reflexivity]).
        apply K.
      * cbn [append] in K |- *. cbn [maybe matching]. change (is_c "-" "-") with true. cbv iota. rewrite K. reflexivity.
    + intros p3 w v' E NW. match goal with |- ?m = None => destruct m as [r|] eqn:K; [exfalso|reflexivity] end.
      apply matching_sound in K as (u & s & -> & D1 & K). apply den_lit in D1 as ->.
      apply matching_sound in K as (u' & s' & -> & D2 & _). unfold DECIMAL_REGEX in D2. apply den_cat in D2 as (a & b & -> & _ & D2).
      apply den_some1 in D2 as [NB _]. destruct w as [|c w]; [congruence|]. cbn in E. injection E as _ E.
      pose proof (decimal_but " " num v D eq_refl ltac:(discriminate)) as NS. clear - E NS NB.
      revert w E. induction num as [|d num IH]; intros w E.
      * destruct w as [|d w]; cbn in E; [injection E as E; destruct a; [|discriminate]; destruct b; [congruence|discriminate]|].
        destruct w; discriminate.
      * cbn in NS. apply andb_true_iff in NS as [N1 NS]. destruct w as [|d' w]; cbn in E.
        { injection E as -> E. discriminate N1. }
        injection E as <- E. exact (IH NS w E).
  - intros p1 a c b E. match goal with |- ?m = None => destruct m as [r|] eqn:K; [exfalso|reflexivity] end.
    apply matching_sound in K as (u & s & E' & D1 & _). destruct D1 as [D1|D1].
    + apply (den_lit "null") in D1 as ->. apply NN. destruct (symbol_parts sym S) as (t & SE & _). rewrite SE in E'.
      exists a. revert E'. rewrite E. intros E'. 
      destruct b as [|c1 [|c2 [|c3 b]]]; cbn in E'; [injection E' as _ E'; discriminate|injection E' as _ _ E'; discriminate|injection E' as _ _ _ E'; discriminate|].
      exists b. injection E' as -> -> -> -> _. reflexivity.
    + unfold SYMBOL in D1. apply den_cons in D1 as (x & t & -> & P & _). apply is_c_spec in P as ->. cbn in E'. injection E' as -> _.
      apply (without_but _ "@"%char) in T; [|exists "", "}"; reflexivity]. rewrite E, every_app in T. cbn in T. rewrite andb_false_r in T. discriminate.
Qed.
Lemma contents_end ty num v : without "@}" ty -> decimal num v -> exists v', contents ((ty ++ "null, i32 " ++ num) ++ " ") = Some ("null", v').
Proof.
  intros T D. rewrite !sapp_assoc. unfold contents.
  match goal with |- exists _, lazily _ _ _ ?k = _ => set (K := k) end.
  assert (forall p, K p ("null" ++ ", i32 " ++ num ++ " ") <> None) as LAST.
  { intros p. unfold K. cbn [matching]. match goal with |- match ?m with _ => _ end <> _ => enough (m <> None) by (destruct m; [discriminate|congruence]) end.
    rewrite (lit_first "null"). apply (matching_complete (Many any) _ ", i32" (" " ++ num ++ " ")); [reflexivity|]. cbv beta. rewrite (lit_first " ").
    destruct (decimal_parts num v D) as (m & t & -> & M & N & E & _). apply matching_complete; [|discriminate].
    exists m, t. split; [reflexivity|]. split.
    - destruct M as [->| ->]; [right; reflexivity|left; exists "-"%char; split; reflexivity].
    - apply den_some1. split; [exact N|]. apply every_all. exact E. }
  assert (forall p s r, (forall t, s <> String "@" t) -> K p s = Some r -> fst r = "null") as NULL.
  { intros p s r NS H. unfold K in H. apply matching_sound in H as (u & s2 & -> & D1 & H). destruct D1 as [D1|D1].
    - apply (den_lit "null") in D1 as ->. rewrite upto_app in H.
      apply matching_sound in H as (u3 & s3 & -> & _ & H). apply matching_sound in H as (u4 & s4 & -> & _ & H).
      apply matching_sound in H as (u5 & s5 & -> & _ & H). injection H as <-. reflexivity.
    - unfold SYMBOL in D1. apply den_cons in D1 as (x & t & -> & P & _). apply is_c_spec in P as ->. exfalso. exact (NS _ eq_refl). }
  pose proof (without_any _ _ T) as A. apply (without_but _ "@"%char) in T; [|exists "", "}"; reflexivity].
  clearbody K. generalize (@None ascii) as p. revert A T. induction ty as [|c ty IH]; intros A T p.
  - cbn [append]. destruct (K p ("null" ++ ", i32 " ++ num ++ " ")) as [[n z]|] eqn:E; [|exfalso; exact (LAST p E)].
    exists z. cbn [append] in E. cbn [append lazily]. rewrite E. assert (fst (n, z) = "null") as F by (eapply NULL; [|exact E]; intros t X; discriminate X). cbn in F. rewrite F. reflexivity.
  - cbn in A, T. apply andb_true_iff in A as [A1 A2]. apply andb_true_iff in T as [T1 T2]. cbn [append lazily].
    destruct (K p _) as [[n z]|] eqn:E.
    + exists z. assert (fst (n, z) = "null") as F; [|cbn in F; rewrite F; reflexivity]. eapply NULL; [|exact E].
      intros t H. injection H as -> _. discriminate T1.
    + rewrite A1. apply IH; assumption.
Qed.
(* Is there a space with a digit or a minus after it? *)
Definition num_head (s : string) : bool := match s with String c _ => is_digit c || is_c "-" c | EmptyString => false end.
Fixpoint num_after_space (s : string) : bool :=
  match s with EmptyString => false | String c t => is_c " " c && num_head t || num_after_space t end.
Lemma num_skip u v : every (but " ") u = true -> num_after_space (u ++ v) = num_after_space v.
Proof.
  induction u as [|c u IH]; intros E; [reflexivity|]. cbn [every append num_after_space] in *. apply andb_true_iff in E as [A B]. unfold but in A. apply negb_true_iff in A.
  rewrite A, IH by exact B. reflexivity.
Qed.
Lemma num_later u v : num_after_space v = true -> num_after_space (u ++ v) = true.
Proof. induction u as [|c u IH]; intros H; [exact H|]. cbn [append num_after_space]. rewrite IH by exact H. apply orb_true_r. Qed.
Lemma contents_number e r : contents e = Some r -> num_after_space e = true.
Proof.
  unfold contents. intros H. apply lazily_sound in H as (p & w & s & -> & H). apply num_later.
  apply matching_sound in H as (u & s2 & -> & _ & H). apply num_later. apply matching_sound in H as (u3 & s3 & -> & _ & H). apply num_later.
  apply matching_sound in H as (u4 & s4 & -> & D4 & H). apply den_lit in D4 as ->. apply matching_sound in H as (u5 & s5 & -> & D5 & _).
  assert (num_head (u5 ++ s5) = true) as N; [|cbn [append num_after_space]; rewrite N; reflexivity].
  unfold DECIMAL_REGEX in D5. apply den_cat in D5 as (a & b & -> & DA & DB). apply den_minus in DA. apply den_some1 in DB as [NB DB].
  destruct b as [|d b]; [congruence|]. apply all_chars_cons in DB as [DD _].
  destruct DA as [->| ->]; [|reflexivity]. cbn [append num_head]. rewrite DD. reflexivity.
Qed.
Lemma digits_but_space w : one_of dec_digit w -> every (but " ") w = true.
Proof. intros [_ W]. apply every_all. revert W. apply all_chars_impl. intros c C. apply is_digit_spec in C. revert C. apply digit_but. reflexivity. Qed.
Lemma num_word u r : num_head u = false -> u <> "" -> every (but " ") u = true -> num_after_space (" " ++ u ++ r) = num_after_space r.
Proof.
  intros H N E. destruct u as [|c u]; [congruence|].
  change (is_c " " " " && num_head (String c u ++ r) || num_after_space (String c u ++ r) = num_after_space r).
  change (num_head (String c u ++ r)) with (num_head (String c u)). rewrite H, andb_false_r. apply num_skip, E.
Qed.
Lemma num_sym sym r : symbol sym -> num_after_space (" " ++ sym ++ r) = num_after_space r.
Proof.
  intros S. pose proof (symbol_but " " sym S eq_refl ltac:(discriminate)) as E. destruct (symbol_parts sym S) as (t & -> & _). apply num_word; [reflexivity|discriminate|exact E].
Qed.
Lemma pointer_ignored e : pointer_text e -> contents (e ++ " ") = None /\ ignored (e ++ " ") = true.
Proof.
  intros [sym sym' w w' S S' W W']. rewrite !sapp_assoc. split.
  - match goal with |- ?m = None => destruct m eqn:E; [exfalso|reflexivity] end. apply contents_number in E. revert E.
    change ("ptr " ++ ?x) with ("ptr" ++ " " ++ x). rewrite (num_skip "ptr") by reflexivity. rewrite num_sym by exact S.
    change (", i" ++ ?x) with ("," ++ " " ++ "i" ++ x). rewrite (num_skip ",") by reflexivity. rewrite (num_word "i") by (reflexivity || discriminate).
    rewrite (num_skip w) by (apply digits_but_space, W).
    change (" ptrtoint (ptr " ++ ?x) with (" " ++ "ptrtoint" ++ " " ++ "(ptr" ++ " " ++ x).
    rewrite (num_word "ptrtoint") by (reflexivity || discriminate). rewrite (num_word "(ptr") by (reflexivity || discriminate). rewrite num_sym by exact S'.
    change (" to i" ++ ?x) with (" " ++ "to" ++ " " ++ "i" ++ x). rewrite (num_word "to") by (reflexivity || discriminate). rewrite (num_word "i") by (reflexivity || discriminate).
    rewrite (num_skip w') by (apply digits_but_space, W'). vm_compute. discriminate.
  - unfold ignored. match goal with |- match ?m with _ => _ end = _ => enough (m <> None) by (destruct m; [reflexivity|congruence]) end.
    replace ("ptr " ++ sym ++ ", i" ++ w ++ " ptrtoint (ptr " ++ sym' ++ " to i" ++ w' ++ ")" ++ " ")
      with (("ptr " ++ sym ++ ", i" ++ w) ++ (" ptrtoint (ptr " ++ sym' ++ " to i" ++ w' ++ ")") ++ " ") by (rewrite !sapp_assoc; reflexivity).
    assert (forall s, symbol s -> every any s = true) as SA by (intros s X; apply symbol_but; [exact X|reflexivity|discriminate]).
    assert (forall s, one_of dec_digit s -> every any s = true) as DA.
    { intros s [_ X]. apply every_all. revert X. apply all_chars_impl. intros c C. apply is_digit_spec in C. revert C. apply digit_but. reflexivity. }
    apply lazily_complete.
    + intros p. apply matching_complete; [|discriminate].
      exists " ptrto", ("int (ptr " ++ sym' ++ " to i" ++ w' ++ ")"). split; [reflexivity|]. split; [apply den_lit; reflexivity|].
      exists "int", (" (ptr " ++ sym' ++ " to i" ++ w' ++ ")"). split; [reflexivity|]. split; [reflexivity|].
      exists " (", ("ptr " ++ sym' ++ " to i" ++ w' ++ ")"). split; [reflexivity|]. split; [apply den_lit; reflexivity|].
      exists ("ptr " ++ sym' ++ " to i" ++ w'), ")". split; [rewrite !sapp_assoc; reflexivity|]. split; [|apply den_lit; reflexivity].
      change (every any ("ptr " ++ sym' ++ " to i" ++ w') = true). rewrite !every_app, (SA sym' S'), (DA w' W'). reflexivity.
    + rewrite !every_app, (SA sym S), (DA w W). reflexivity.
Qed.

(* ---- Finding the entries ---- *)
Definition a_kind (k : string) : Prop := k = "constant" \/ k = "syscall".
Lemma findall_skip u v : findall (String.length u) (u ++ v) = findall 0 v.
Proof. induction u as [|c u IH]; [reflexivity|]. exact IH. Qed.
Lemma no_entry c s : c <> "%"%char -> table_entry (String c s) = None.
Proof.
  intros N. unfold table_entry, TABLE_ENTRY_HEAD. cbn [matching lit]. destruct (is_c "%" c) eqn:E; [apply is_c_spec in E; congruence|reflexivity].
Qed.
Lemma findall_quiet u v : every (but "%") u = true -> findall 0 (u ++ v) = findall 0 v.
Proof.
  induction u as [|c u IH]; intros E; [reflexivity|]. cbn [every] in E. apply andb_true_iff in E as [A B]. apply but_true in A.
  cbn [append findall]. rewrite no_entry by exact A. apply IH, B.
Qed.
Lemma entry_found kind body rest : a_kind kind -> (forall c t, body = String c t -> ~ white c) -> body <> "" -> every (but "}") body = true ->
  table_entry (braced kind body ++ rest) = Some (body ++ " ", rest).
Proof.
  intros KD W N E. unfold table_entry, braced. rewrite !sapp_assoc.
  assert (forall p, matching (some1 (fun c => negb (is_c "}" c))) p (body ++ " }" ++ rest) (fun p s2 =>
    matching (Cat (Many is_space) (lit "}")) p s2 (fun _ s3 => Some (upto (body ++ " }" ++ rest) s2, s3))) = Some (body ++ " ", rest)) as K.
  { intros p. replace (body ++ " }" ++ rest) with ((body ++ " ") ++ "}" ++ rest) by (rewrite sapp_assoc; reflexivity).
    apply some_first; [apply stops_cons; reflexivity|destruct body; discriminate|rewrite every_app; change (every (but "}") body && true = true); rewrite E; reflexivity|].
    rewrite upto_app. cbn [matching]. apply (many_first is_space _ _ ("}" ++ rest)) with (u := ""); [apply stops_cons; reflexivity|reflexivity|].
    change ("}" ++ rest) with ("}" ++ rest). rewrite lit_first. reflexivity. }
  assert (forall p, many is_space p (" " ++ body ++ " }" ++ rest) (fun p s1 => matching (some1 (fun c => negb (is_c "}" c))) p s1 (fun p s2 =>
    matching (Cat (Many is_space) (lit "}")) p s2 (fun _ s3 => Some (upto s1 s2, s3)))) = Some (body ++ " ", rest)) as L.
  { intros p. apply many_first; [|reflexivity|apply K]. destruct body as [|c b]; [congruence|]. apply stops_cons. apply not_true_iff_false. rewrite is_space_spec.
    exact (W c b eq_refl). }
  assert (forall p, matching (Cat (lit "_entry") (Cat (Many is_space) (Cat (lit "{") (Many is_space)))) p ("_entry { " ++ body ++ " }" ++ rest) (fun p s1 =>
    matching (some1 (fun c => negb (is_c "}" c))) p s1 (fun p s2 =>
    matching (Cat (Many is_space) (lit "}")) p s2 (fun _ s3 => Some (upto s1 s2, s3)))) = Some (body ++ " ", rest)) as H.
  { intros p. change ("_entry { " ++ body ++ " }" ++ rest) with ("_entry" ++ " " ++ "{" ++ " " ++ body ++ " }" ++ rest).
    cbn [matching]. rewrite (lit_first "_entry"). apply (many_first is_space _ _ ("{" ++ " " ++ body ++ " }" ++ rest)) with (u := " "); [apply stops_cons; reflexivity|reflexivity|].
    rewrite (lit_first "{"). apply L. }
  change ("%struct." ++ ?x) with ("%struct" ++ String "." x). unfold TABLE_ENTRY_HEAD.
  remember (Cat (lit "_entry") (Cat (Many is_space) (Cat (lit "{") (Many is_space)))) as tail eqn:TE. 
  change (matching (lit "%struct") None ("%struct" ++ String "." (kind ++ "_entry { " ++ body ++ " }" ++ rest)) (fun p s => matching (Chr any) p s (fun p s =>
    matching (Alt (lit "constant") (lit "syscall")) p s (fun p s => matching tail p s (fun p s1 => matching (some1 (fun c => negb (is_c "}" c))) p s1 (fun p s2 =>
    matching (Cat (Many is_space) (lit "}")) p s2 (fun _ s3 => Some (upto s1 s2, s3))))))) = Some (body ++ " ", rest)).
  rewrite (lit_first "%struct").
  change (matching (Alt (lit "constant") (lit "syscall")) (Some "."%char) (kind ++ "_entry { " ++ body ++ " }" ++ rest) (fun p s => matching tail p s (fun p s1 => matching (some1 (fun c => negb (is_c "}" c))) p s1 (fun p s2 =>
    matching (Cat (Many is_space) (lit "}")) p s2 (fun _ s3 => Some (upto s1 s2, s3))))) = Some (body ++ " ", rest)).
  destruct KD as [->| ->]; cbn [matching].
  - rewrite (lit_first "constant"), H. reflexivity.
  - match goal with |- match ?m with _ => _ end = _ => assert (m = None) as -> by reflexivity end. rewrite (lit_first "syscall"). apply H.
Qed.
Lemma findall_entry kind body rest : a_kind kind -> (forall c t, body = String c t -> ~ white c) -> body <> "" -> every (but "}") body = true ->
  findall 0 (braced kind body ++ rest) = (body ++ " ") :: findall 0 rest.
Proof.
  intros KD W N E. pose proof (entry_found kind body rest KD W N E) as F. unfold braced in *.
  change (("%struct." ++ kind ++ "_entry { " ++ body ++ " }") ++ rest) with (String "%" (("struct." ++ kind ++ "_entry { " ++ body ++ " }") ++ rest)) in *.
  remember ("struct." ++ kind ++ "_entry { " ++ body ++ " }") as b eqn:B. cbn [findall]. rewrite F. f_equal.
  rewrite slen_app. replace (String.length b + String.length rest - String.length rest)%nat with (String.length b) by lia. apply findall_skip.
Qed.
Lemma entry_nonwhite ty r : (forall c t, ty = String c t -> ~ white c) -> (forall c t, r = String c t -> ~ white c) -> forall c t, ty ++ r = String c t -> ~ white c.
Proof. intros A B c t E. destruct ty as [|d ty]; [exact (B c t E)|]. cbn in E. injection E as <- _. exact (A d ty eq_refl). Qed.
Lemma not_white c : is_space c = false -> ~ white c.
Proof. intros H W. apply is_space_spec in W. congruence. Qed.
Definition set_all (table d : list (string * Z)) : list (string * Z) := fold_left (fun d e => dict_set (fst e) (snd e) d) table d.
Lemma lookup_in {A} (l : list (string * A)) n v : NoDup (map fst l) -> In (n, v) l -> lookup n l = Some v.
Proof.
  induction l as [|[m x] l IH]; intros ND H; [destruct H|]. cbn in *. apply NoDup_cons_iff in ND as [NI ND]. destruct H as [H|H].
  - injection H as -> ->. rewrite String.eqb_refl. reflexivity.
  - destruct (String.eqb m n) eqn:E; [|exact (IH ND H)]. apply String.eqb_eq in E as ->. exfalso. apply NI. apply (in_map fst) in H. exact H.
Qed.
Lemma symbol_not_null sym : symbol sym -> String.eqb sym "null" = false.
Proof. intros S. destruct (symbol_parts sym S) as (t & -> & _). reflexivity. Qed.
Lemma entry_body_ok body sym v : entry_text body sym v -> (forall c t, body = String c t -> ~ white c) /\ body <> "" /\ every (but "}") body = true /\ symbol sym.
Proof.
  intros [ty sym' mid num v' T _ W S M _ D]. repeat split; [| | |exact S].
  - apply entry_nonwhite; [exact W|]. destruct (symbol_parts _ S) as (t & -> & _). intros c u E. cbn in E. injection E as <- _. apply not_white. reflexivity.
  - destruct (symbol_parts _ S) as (t & -> & _). destruct ty; discriminate.
  - rewrite !every_app. rewrite (without_but "@}" "}"%char ty (ex_intro _ "@" (ex_intro _ "" eq_refl)) T), (symbol_but "}" sym' S eq_refl ltac:(discriminate)).
    rewrite (without_but "}" "}"%char mid (ex_intro _ "" (ex_intro _ "" eq_refl)) M), (decimal_but "}" num v' D eq_refl ltac:(discriminate)). reflexivity.
Qed.
Lemma pointer_body_ok body : pointer_text body -> (forall c t, body = String c t -> ~ white c) /\ body <> "" /\ every (but "}") body = true.
Proof.
  intros [sym sym' w w' S S' W W']. repeat split; [|discriminate|].
  - intros c t E. cbn in E. injection E as <- _. apply not_white. reflexivity.
  - assert (forall s, one_of dec_digit s -> every (but "}") s = true) as DA.
    { intros s [_ X]. apply every_all. revert X. apply all_chars_impl. intros c C. apply is_digit_spec in C. revert C. apply digit_but. reflexivity. }
    rewrite !every_app, (symbol_but "}" sym S), (symbol_but "}" sym' S'), (DA w W), (DA w' W') by (reflexivity || discriminate). reflexivity.
Qed.
Lemma entries_read kind strings text table : a_kind kind -> NoDup (map fst strings) -> entries_text kind strings text table ->
  forall d, read_entries strings (findall 0 text) d = Some (set_all table d).
Proof.
  intros KD ND. induction 1 as [ty num v rest T W D R|rest R|body sym name v more table E I M IH|body more table P M IH]; intros d.
  - destruct (contents_end ty num v T D) as (v' & C). rewrite findall_entry; [| exact KD | | |].
    + cbn [read_entries]. rewrite C. reflexivity.
    + apply entry_nonwhite; [exact W|]. intros c t X. cbn in X. injection X as <- _. apply not_white. reflexivity.
    + destruct ty; discriminate.
    + rewrite !every_app. rewrite (without_but "@}" "}"%char ty (ex_intro _ "@" (ex_intro _ "" eq_refl)) T), (decimal_but "}" num v D eq_refl ltac:(discriminate)). reflexivity.
  - assert (findall 0 ("%struct." ++ kind ++ "_entry zeroinitializer" ++ rest) = []) as ->; [|reflexivity].
    replace ("%struct." ++ kind ++ "_entry zeroinitializer" ++ rest) with (String "%" (("struct." ++ kind ++ "_entry zeroinitializer") ++ rest ++ "")) by
      (rewrite sapp_nil_r, !sapp_assoc; reflexivity).
    cbn [findall]. assert (table_entry (String "%" (("struct." ++ kind ++ "_entry zeroinitializer") ++ rest ++ "")) = None) as -> by (destruct KD as [->| ->]; reflexivity).
    rewrite findall_quiet by (destruct KD as [->| ->]; reflexivity). rewrite findall_quiet; [reflexivity|]. apply (without_but "%" _ rest); [exists "", ""; reflexivity|exact R].
  - pose proof (contents_entry _ _ _ E) as C. destruct (entry_body_ok _ _ _ E) as (W & N & B & S). rewrite findall_entry by assumption.
    cbn [read_entries]. rewrite C, (symbol_not_null sym S), (lookup_in strings sym name ND I), (findall_quiet ", ") by reflexivity. apply IH.
  - destruct (pointer_ignored _ P) as [C G]. destruct (pointer_body_ok _ P) as (W & N & B). rewrite findall_entry by assumption.
    cbn [read_entries]. rewrite C, G, (findall_quiet ", ") by reflexivity. apply IH.
Qed.
