(* Common policies, read by the Python parser. *)
From Verif Require Import P_CStr P_Const S_Policy S_PyPolicy P_PyFile.
From Verif Require Import M_PyParse S_PyText P_PyLex P_PyGram P_PyStmt P_PyText P_PyMean S_Common.
Local Open Scope string_scope.

(* ---- First characters ---- *)
Definition starts (ty : ttype) (c : ascii) : bool :=
  match ty with
  | COMMENT => is_c "#" c | WHITESPACE => is_space c | CONTINUATION => is_c "\" c
  | DEFAULT | INCLUDE | FREQUENCY | DENYLIST => is_c "@" c
  | PATH => is_c "/" c || is_c "." c
  | NUMERIC_CONSTANT => is_digit c || is_c "-" c
  | COLON => is_c ":" c | SEMICOLON => is_c ";" c | COMMA => is_c "," c | BITWISE_COMPLEMENT => is_c "~" c
  | LPAREN => is_c "(" c | RPAREN => is_c ")" c | LBRACE => is_c "{" c | RBRACE => is_c "}" c
  | RBRACKET => is_c "]" c | LBRACKET => is_c "[" c | OR => is_c "|" c | AND => is_c "&" c | BITWISE_OR => is_c "|" c
  | OP => is_c "&" c || is_c "i" c || is_c "=" c || is_c "!" c || is_c "<" c || is_c ">" c
  | EQUAL => is_c "=" c | ARGUMENT => is_c "a" c | RETURN => is_c "r" c
  | ACTION => is_c "a" c || is_c "k" c || is_c "t" c || is_c "l" c || is_c "u" c
  | IDENTIFIER => is_letter c || is_c "_" c
  end.
Lemma word_of_hex c : hex_digit c -> word_char c.
Proof. intros H. apply is_hex_spec in H. apply is_word_spec. destruct c as [[] [] [] [] [] [] [] []]; vm_compute in H |- *; congruence. Qed.
Lemma word_of_dec c : dec_digit c -> word_char c.
Proof. intros H. right. left. exact H. Qed.
Lemma word_of_oct c : oct_digit c -> word_char c.
Proof. intros H. apply word_of_dec, oct_dec, H. Qed.
Lemma word_lit c : is_word c = true -> word_char c.
Proof. apply is_word_spec. Qed.
(* A number is a minus or nothing, a digit and word characters. *)
Lemma number_shape u z : number u z -> exists m c t, minus m /\ u = m ++ String c t /\ dec_digit c /\ all_chars word_char t.
Proof.
  intros H. apply number_text in H as [(m & x & h & M & X & -> & H)|[(m & h & M & -> & H)|[(m & M & ->)|[(m & c & h & M & _ & -> & H)|(m & c & h & M & C & -> & H)]]]].
  - exists m, "0"%char, (String x h). split; [exact M|]. split; [reflexivity|]. split; [apply is_digit_spec; reflexivity|].
    apply all_chars_cons. split; [apply word_lit; destruct X as [->| ->]; reflexivity|]. eapply all_chars_impl; [|exact (proj2 H)]. apply word_of_hex.
  - exists m, "0"%char, h. split; [exact M|]. split; [reflexivity|]. split; [apply is_digit_spec; reflexivity|].
    eapply all_chars_impl; [|exact (proj2 H)]. apply word_of_oct.
  - exists m, "0"%char, "". split; [exact M|]. split; [reflexivity|]. split; [apply is_digit_spec; reflexivity|apply all_chars_nil].
  - destruct H as [_ H]. apply all_chars_cons in H as [D H]. exists m, c, h. split; [exact M|]. split; [reflexivity|]. split; [exact D|].
    eapply all_chars_impl; [|exact H]. apply word_of_dec.
  - exists m, "0"%char, (String c h). split; [exact M|]. split; [reflexivity|]. split; [apply is_digit_spec; reflexivity|].
    apply all_chars_cons. split; [apply word_of_dec, odd_dec, C|]. eapply all_chars_impl; [|exact H]. apply word_of_dec.
Qed.
Lemma number_starts u z : number u z -> exists c t, u = String c t /\ is_digit c || is_c "-" c = true.
Proof.
  intros H. apply number_shape in H as (m & c & t & [->| ->] & -> & D & _); cbn.
  - exists c, t. apply is_digit_spec in D. rewrite D. auto.
  - exists "-"%char, (String c t). auto.
Qed.
Lemma spelled_starts ty c t : spelled ty (String c t) -> starts ty c = true.
Proof.
  destruct ty; cbn [spelled starts]; intros H; try (injection H as -> _; reflexivity).
  - destruct H as (u & E). injection E as -> _. reflexivity.
  - destruct H as [_ H]. apply all_chars_cons in H as [H _]. apply is_space_spec. exact H.
  - destruct H as (u & _ & [E|E]); injection E as -> _; reflexivity.
  - destruct H as (z & H). apply number_starts in H as (c' & t' & E & D). injection E as <- <-. exact D.
  - destruct H as ([] & E); cbn in E; injection E as -> _; reflexivity.
  - destruct H as (ds & E & _). injection E as -> _. reflexivity.
  - unfold actions_named in H. cbn [In] in H. repeat (destruct H as [H|H]; [injection H as <- _; reflexivity|]). destruct H.
  - destruct H as (c' & t' & E & [L| ->] & _); injection E as -> ->; [apply is_letter_spec in L; rewrite L; reflexivity|reflexivity].
Qed.
Fixpoint upto (y : ttype) (l : list ttype) : list ttype :=
  match l with [] => [] | x :: t => if is_type x y then [] else x :: upto y t end.
Lemma is_type_eq x y : is_type x y = true <-> x = y.
Proof. split; [destruct x, y; cbn; congruence|intros ->; destruct y; reflexivity]. Qed.
Lemma upto_in l : forall x m y r, NoDup (l ++ x :: m ++ y :: r) -> In x (upto y (l ++ x :: m ++ y :: r)).
Proof.
  induction l as [|k l IH]; intros x m y r ND; cbn [app] in ND |- *; cbn [upto].
  - destruct (is_type x y) eqn:E; [|left; reflexivity]. apply is_type_eq in E. subst. exfalso. inversion ND as [|? ? N _]. apply N. apply in_or_app. right. left. reflexivity.
  - inversion ND as [|? ? N ND']. destruct (is_type k y) eqn:E; [|right; apply IH; exact ND'].
    apply is_type_eq in E. subst. exfalso. apply N. apply in_or_app. right. right. apply in_or_app. right. left. reflexivity.
Qed.
Lemma earlier_upto x y : earlier x y -> In x (upto y kinds).
Proof. intros (l & m & r & E). pose proof kinds_nodup as ND. rewrite E in *. apply upto_in. exact ND. Qed.
Definition rivals (ty : ttype) (c : ascii) : list ttype := filter (fun k => starts k c) (upto ty kinds).
Lemma next_word_by ty before c t u rest :
  fits ty before (String c t) u rest ->
  (forall u' rest', fits ty before (String c t) u' rest' -> (String.length u' <= String.length u)%nat) ->
  (forall k, In k (rivals ty c) -> forall u' rest', ~ fits k before (String c t) u' rest') ->
  next_word ty before (String c t) u rest.
Proof.
  intros F L R. split; [exact F|]. split; [exact L|]. intros k u' rest' E H. apply (R k) with u' rest'; [|exact H].
  apply filter_In. split; [apply earlier_upto; exact E|]. destruct H as (EQ & SP & _). destruct u' as [|c' t'].
  - apply spelled_nonempty in SP. congruence.
  - injection EQ as <- _. eapply spelled_starts. exact SP.
Qed.

(* ---- Pieces of a line ---- *)
(* Words end where neither a word character nor - or @ follows. *)
Definition ends (rest : string) : Prop := forall c t, rest = String c t -> ~ word_char c /\ c <> "-"%char /\ c <> "@"%char.
Definition begins (s : string) : Prop := exists c t, s = String c t /\ (word_char c \/ c = "-"%char \/ c = "~"%char).
Definition finishes (s : string) : Prop := exists t c, s = t ++ String c "" /\ word_char c.
(* [u] is read as [ts] between other characters than those of words. *)
Definition chunk (u : string) (ts : list token) : Prop :=
  begins u /\ finishes u /\ forall before rest ts', ~ word_before before -> ends rest -> cut_after (before ++ u) rest ts' ->
  cut_after before (u ++ rest) (ts ++ ts').
(* [v] is read as [ts] before a word. *)
Definition separator (v : string) (ts : list token) : Prop :=
  ends v /\ v <> "" /\ ~ word_before v /\
  forall before rest ts', begins rest -> cut_after (before ++ v) rest ts' -> cut_after before (v ++ rest) (ts ++ ts').
Lemma begins_app u v : begins u -> begins (u ++ v).
Proof. intros (c & t & -> & H). exists c, (t ++ v). auto. Qed.
Lemma finishes_app u v : finishes v -> finishes (u ++ v).
Proof. intros (t & c & -> & H). exists (u ++ t), c. rewrite sapp_assoc. auto. Qed.
Lemma ends_app v w : ends v -> v <> "" -> ends (v ++ w).
Proof. intros E N c t X. destruct v as [|x v]; [congruence|]. injection X as -> _. eapply E. reflexivity. Qed.
Lemma word_before_app u v : v <> "" -> word_before (u ++ v) -> word_before v.
Proof.
  intros N (t & c & E & W). destruct (snoc_cases v) as [->|(v' & c' & ->)]; [congruence|]. rewrite <- sapp_assoc in E. apply sapp_snoc_inj in E as [_ ->].
  exists v', c. auto.
Qed.
Lemma chunk_sep u ts v ts1 w ts2 : chunk u ts -> separator v ts1 -> chunk w ts2 -> chunk (u ++ v ++ w) (ts ++ ts1 ++ ts2).
Proof.
  intros (BU & FU & HU) (EV & NV & WV & HV) (BW & FW & HW). split; [apply begins_app; exact BU|]. split; [apply finishes_app, finishes_app; exact FW|].
  intros before rest ts' NB ER C. rewrite <- !app_assoc, !sapp_assoc. apply HU; [exact NB|apply ends_app; assumption|].
  apply HV; [apply begins_app; exact BW|]. apply HW; [|exact ER|rewrite !sapp_assoc; exact C].
  intros X. apply word_before_app in X; [exact (WV X)|exact NV].
Qed.
(* One word *)
Lemma one_chunk u ty : begins u -> finishes u ->
  (forall before rest, ~ word_before before -> ends rest -> next_word ty before (u ++ rest) u rest) -> chunk u [Tok ty u].
Proof. intros B F H. split; [exact B|]. split; [exact F|]. intros before rest ts' NB ER C. cbn. econstructor; [apply H; assumption|exact C]. Qed.
Lemma split_two (u r w s : string) : u ++ r = w ++ s ->
  (exists x, u = w ++ x /\ s = x ++ r) \/ (exists x, w = u ++ x /\ r = x ++ s /\ x <> "").
Proof.
  revert w. induction u as [|c u IH]; intros w E; cbn in E.
  - destruct w as [|k w]; [left; exists ""; auto|right]. exists (String k w). split; [reflexivity|]. split; [exact E|discriminate].
  - destruct w as [|k w]; cbn in E; [left; exists (String c u); auto|]. injection E as <- E. destruct (IH w E) as [(x & -> & X)|(x & -> & X)].
    + left. exists x. auto.
    + right. exists x. auto.
Qed.
(* Keywords are whole words. *)
Lemma whole_word w rest u' rest' : all_chars word_char w -> ends rest -> w ++ rest = u' ++ rest' ->
  all_chars (fun c => word_char c \/ c = "-"%char) u' -> ~ word_after rest' -> u' = w.
Proof.
  intros W ER E A NW. destruct (split_two _ _ _ _ E) as [(x & -> & X)|(x & -> & X & NX)].
  - destruct x as [|c x]; [rewrite sapp_nil_r; reflexivity|]. exfalso. apply NW. exists c, (x ++ rest). split; [exact X|].
    apply all_chars_app in W as [_ W]. apply all_chars_cons in W as [W _]. exact W.
  - destruct x as [|c x]; [congruence|]. exfalso. apply all_chars_app in A as [_ A]. apply all_chars_cons in A as [A _].
    destruct (ER c (x ++ rest') X) as (N1 & N2 & _). tauto.
Qed.
Lemma no_rivals (ty : ttype) c before s : rivals ty c = [] -> forall k, In k (rivals ty c) -> forall u' rest', ~ fits k before s u' rest'.
Proof. intros -> k []. Qed.
Lemma number_rivals c : is_digit c || is_c "-" c = true -> rivals NUMERIC_CONSTANT c = [].
Proof. destruct c as [[] [] [] [] [] [] [] []]; vm_compute; congruence. Qed.
Lemma name_rivals c : is_letter c || is_c "_" c = true -> incl (rivals IDENTIFIER c) [OP; ARGUMENT; RETURN; ACTION].
Proof. intros H k. destruct c as [[] [] [] [] [] [] [] []]; vm_compute in H |- *; try discriminate; tauto. Qed.
Lemma plain_word s : plain_name s -> all_chars word_char s.
Proof. intros (c & t & -> & H & A). apply all_chars_cons. split; [|exact A]. destruct H as [H| ->]; [left; exact H|right; right; reflexivity]. Qed.
Lemma all_word_finishes s : s <> "" -> all_chars word_char s -> finishes s.
Proof.
  intros N A. destruct (snoc_cases s) as [->|(t & c & ->)]; [congruence|]. exists t, c. split; [reflexivity|].
  apply all_chars_app in A as [_ A]. apply all_chars_cons in A as [A _]. exact A.
Qed.
Lemma number_chunk s z : number s z -> chunk s [Tok NUMERIC_CONSTANT s].
Proof.
  intros H. pose proof (number_shape _ _ H) as (m & c & t & M & E & D & A).
  assert (begins s) as B.
  { destruct M as [->| ->]; cbn in E; subst s; [exists c, t|exists "-"%char, (String c t)]; (split; [reflexivity|]); [left; apply word_of_dec; exact D|right; left; reflexivity]. }
  apply one_chunk; [exact B| |].
  - subst s. apply finishes_app. apply all_word_finishes; [discriminate|]. apply all_chars_cons. split; [apply word_of_dec; exact D|exact A].
  - intros before rest _ ER. destruct (number_starts _ _ H) as (c0 & t0 & E0 & S0). subst s. rewrite E0. cbn [append]. apply next_word_by.
    + split; [reflexivity|]. split; [|exact Logic.I]. rewrite <- E0. exists z. exact H.
    + intros u' rest' (EQ & (z' & SP) & _). apply (longest_run (fun x => word_char x \/ x = "-"%char) _ rest _ rest'); [exact EQ| |].
      * intros x y X. destruct (ER x y X) as (N1 & N2 & _). tauto.
      * apply number_shape in SP as (m' & c' & t' & M' & -> & D' & A'). apply all_chars_app. split.
        -- destruct M' as [->| ->]; [apply all_chars_nil|]. apply all_chars_cons. split; [right; reflexivity|apply all_chars_nil].
        -- apply all_chars_cons. split; [left; apply word_of_dec; exact D'|]. eapply all_chars_impl; [|exact A']. auto.
    + apply no_rivals. apply number_rivals. exact S0.
Qed.
Lemma action_chars s : In s actions_named -> all_chars (fun c => word_char c \/ c = "-"%char) s.
Proof.
  intros H. assert (forall x, In x actions_named -> every (fun c => is_word c || is_c "-" c) x = true) as X.
  { apply Forall_forall. repeat constructor. }
  apply X in H. eapply every_all in H. revert H. apply all_chars_impl. intros c C. apply orb_true_iff in C as [C|C]; [left; apply is_word_spec; exact C|right; apply is_c_spec; exact C].
Qed.
Lemma word_or s : all_chars word_char s -> all_chars (fun c => word_char c \/ c = "-"%char) s.
Proof. apply all_chars_impl. auto. Qed.
Lemma dec_chars ds : all_chars dec_digit ds -> all_chars word_char ds.
Proof. apply all_chars_impl, word_of_dec. Qed.
Lemma lit_chars s : every is_word s = true -> all_chars word_char s.
Proof. intros H. apply every_all in H. revert H. apply all_chars_impl, word_lit. Qed.
Lemma name_chunk s : plain_name s -> ~ reserved s -> chunk s [Tok IDENTIFIER s].
Proof.
  intros P NR. pose proof (plain_word _ P) as W. pose proof P as (c & t & E & H & A). apply one_chunk.
  - exists c, t. split; [exact E|]. left. destruct H as [H| ->]; [left; exact H|right; right; reflexivity].
  - apply all_word_finishes; [subst; discriminate|exact W].
  - intros before rest _ ER. rewrite E at 1. cbn [append]. apply next_word_by.
    + split; [rewrite E; reflexivity|]. split; [|exact Logic.I]. exists c, t. split; [exact E|]. split; [exact H|]. revert A. apply all_chars_impl. auto.
    + intros u' rest' (EQ & (c' & t' & E' & H' & A') & _). apply (longest_run (fun x => word_char x \/ x = "-"%char \/ x = "@"%char) _ rest _ rest').
      * rewrite <- EQ, E. reflexivity.
      * intros x y X. destruct (ER x y X) as (N1 & N2 & N3). tauto.
      * subst u'. apply all_chars_cons. split; [|exact A']. left. destruct H' as [H'| ->]; [left; exact H'|right; right; reflexivity].
    + assert (is_letter c || is_c "_" c = true) as L.
      { destruct H as [H| ->]; [apply is_letter_spec in H; rewrite H|]; reflexivity. }
      assert (forall u' rest', String c (t ++ rest) = u' ++ rest' -> all_chars (fun c => word_char c \/ c = "-"%char) u' -> ~ word_after rest' -> u' = s) as WW.
      { intros u' rest' EQ A' N. apply (whole_word s rest u' rest'); [exact W|exact ER|rewrite E; exact EQ|exact A'|exact N]. }
      intros k K u' rest' (EQ & SP & D). apply (name_rivals c L) in K. cbn in K. destruct K as [<-|[<-|[<-|[<-|[]]]]]; cbn in SP, D.
      * destruct SP as (o & SP). destruct o; cbn in SP; subst u'; injection EQ as -> EQ; try discriminate L.
        apply NR. left. symmetry. apply (WW "in" rest'); [cbn; rewrite EQ; reflexivity|apply word_or, lit_chars; reflexivity|apply D; reflexivity].
      * destruct SP as (ds & -> & [N DS]). apply NR. right. right. right. exists ds. split; [|split; assumption]. symmetry. apply (WW _ rest'); [exact EQ| |apply D].
        apply word_or. apply (all_chars_app _ "arg" ds). split; [apply lit_chars; reflexivity|apply dec_chars; exact DS].
      * subst u'. apply NR. right. left. symmetry. apply (WW _ rest'); [exact EQ|apply word_or, lit_chars; reflexivity|apply D].
      * apply NR. right. right. left. rewrite <- (WW u' rest'); [exact SP|exact EQ|apply action_chars; exact SP|apply D].
Qed.
Lemma keyword_chunk ty w : (forall c t, w = String c t -> rivals ty c = []) -> w <> "" -> all_chars word_char w -> spelled ty w ->
  (ty = ARGUMENT \/ ty = RETURN \/ ty = ACTION) -> chunk w [Tok ty w].
Proof.
  intros R N W SP TY. destruct w as [|c t] eqn:E; [congruence|]. rewrite <- E in *. apply one_chunk.
  - exists c, t. split; [exact E|]. left. rewrite E in W. apply all_chars_cons in W as [W _]. exact W.
  - apply all_word_finishes; assumption.
  - intros before rest NB ER.
    assert (~ word_after rest) as NA. { intros (x & y & X & WX). destruct (ER x y X). contradiction. }
    assert (forall b u r, delimited ty b u r -> ~ word_after r) as DD by (intros b u r; destruct TY as [->|[->| ->]]; cbn; tauto).
    rewrite E at 1. cbn [append]. apply next_word_by.
    + split; [rewrite E; reflexivity|]. split; [exact SP|]. destruct TY as [->|[->| ->]]; cbn; auto.
    + intros u' rest' (EQ & SP' & D). apply DD in D. rewrite (whole_word w rest u' rest' W ER); [lia|rewrite E; exact EQ| |exact D].
      destruct TY as [->|[->| ->]]; cbn in SP'.
      * destruct SP' as (ds & -> & [_ DS]). apply word_or. apply (all_chars_app _ "arg" ds). split; [apply lit_chars; reflexivity|apply dec_chars; exact DS].
      * subst u'. apply word_or, lit_chars. reflexivity.
      * apply action_chars. exact SP'.
    + apply no_rivals. eapply R. exact E.
Qed.
Lemma return_chunk : chunk "return" [Tok RETURN "return"].
Proof.
  apply keyword_chunk; [|discriminate|apply lit_chars; reflexivity|reflexivity|auto]. intros c t [= <- <-]. reflexivity.
Qed.
Lemma kill_chunk : chunk "kill" [Tok ACTION "kill"].
Proof.
  apply keyword_chunk; [|discriminate|apply lit_chars; reflexivity|cbn; auto|auto]. intros c t [= <- <-]. reflexivity.
Qed.
Lemma digit_of_dec i : (i < 6)%N -> exists c, digit_of i = String c "" /\ dec_digit c /\ digits_val 10 (digit_of i) i.
Proof.
  intros L. assert (i = 0 \/ i = 1 \/ i = 2 \/ i = 3 \/ i = 4 \/ i = 5)%N as H by lia. exists (ascii_of_N (48 + i)). split; [reflexivity|].
  assert (digit (ascii_of_N (48 + i)) i) as D by (left; repeat destruct H as [->|H]; [..|subst i]; reflexivity).
  split; [exists i; split; [exact D|lia]|constructor; [exact D|lia]].
Qed.
Lemma arg_chunk i : (i < 6)%N -> chunk ("arg" ++ digit_of i) [Tok ARGUMENT ("arg" ++ digit_of i)].
Proof.
  intros L. destruct (digit_of_dec i L) as (c & E & D & _). rewrite E. apply keyword_chunk; [|discriminate| | |auto].
  - intros x y X. injection X as <- _. reflexivity.
  - apply all_chars_app. split; [apply lit_chars; reflexivity|]. apply all_chars_cons. split; [apply word_of_dec; exact D|apply all_chars_nil].
  - exists (String c ""). split; [reflexivity|]. split; [discriminate|]. apply all_chars_cons. split; [exact D|apply all_chars_nil].
Qed.

(* ---- Separators ---- *)
Lemma word_not_space c : word_char c \/ c = "-"%char \/ c = "~"%char -> is_space c = false.
Proof. intros [H|[->| ->]]; [|reflexivity..]. apply is_word_spec in H. destruct c as [[] [] [] [] [] [] [] []]; vm_compute in H |- *; congruence. Qed.
Lemma space_word before s : (forall c t, s = String c t -> is_space c = false) -> next_word WHITESPACE before (" " ++ s) " " s.
Proof.
  intros H. apply next_word_by.
  - split; [reflexivity|]. split; [|exact Logic.I]. split; [discriminate|]. apply all_chars_cons. split; [apply is_space_spec; reflexivity|apply all_chars_nil].
  - intros u' rest' (EQ & [_ SP] & _). apply (longest_run white _ s _ rest'); [exact EQ| |exact SP]. intros c t E W. apply is_space_spec in W. rewrite (H c t E) in W. discriminate.
  - apply no_rivals. reflexivity.
Qed.
Lemma begins_no_space s : begins s -> forall c t, s = String c t -> is_space c = false.
Proof. intros (c & t & -> & H) c' t' [= <- <-]. apply word_not_space. exact H. Qed.
Lemma begins_not s c t : begins s -> is_word c || is_c "-" c || is_c "~" c = false -> s <> String c t.
Proof.
  intros (c' & t' & -> & H) N [= -> ->]. destruct H as [H|[->| ->]]; [apply is_word_spec in H; rewrite H in N|..]; discriminate.
Qed.
Lemma lit_not_before s : every (fun c => negb (is_word c)) s = true -> ~ word_before s.
Proof.
  intros H (t & c & -> & W). apply every_all in H. apply all_chars_app in H as [_ H]. apply all_chars_cons in H as [H _].
  apply is_word_spec in W. rewrite W in H. discriminate.
Qed.
Lemma space_ends s : ends (String " " s).
Proof. intros c t [= <- <-]. split; [intros W; apply is_word_spec in W; discriminate|split; discriminate]. Qed.
Lemma lit_ends c s : is_word c || is_c "-" c || is_c "@" c = false -> ends (String c s).
Proof.
  intros H c' t [= <- <-]. apply orb_false_iff in H as [H H3]. apply orb_false_iff in H as [H1 H2]. split; [intros W; apply is_word_spec in W; congruence|].
  split; intros ->; discriminate.
Qed.
Lemma fixed_word ty u before c t rest : String c t = u ++ rest -> (forall v, spelled ty v <-> v = u) ->
  (forall b r, delimited ty b u r) -> rivals ty c = [] -> next_word ty before (String c t) u rest.
Proof.
  intros E S D R. apply next_word_by; [split; [exact E|split; [apply S; reflexivity|apply D]]| |apply no_rivals; exact R].
  intros u' rest' (_ & SP & _). apply S in SP. subst. lia.
Qed.
Lemma colon_sep : separator ": " [Tok COLON ":"; Tok WHITESPACE " "].
Proof.
  split; [apply lit_ends; reflexivity|]. split; [discriminate|]. split; [apply lit_not_before; reflexivity|]. intros before rest ts' B C. cbn [append app].
  econstructor; [apply (fixed_word COLON ":" before ":" (String " " rest)); [reflexivity|reflexivity|exact (fun _ _ => Logic.I)|reflexivity]|].
  econstructor; [apply space_word; apply begins_no_space; exact B|]. rewrite sapp_assoc. exact C.
Qed.
Lemma space_sep : separator " " [Tok WHITESPACE " "].
Proof.
  split; [apply lit_ends; reflexivity|]. split; [discriminate|]. split; [apply lit_not_before; reflexivity|]. intros before rest ts' B C.
  econstructor; [apply space_word; apply begins_no_space; exact B|]. exact C.
Qed.
Lemma spaced_sep ty u c t : u = String c t -> is_space c = false ->
  (forall before s, next_word ty (before ++ " ") (u ++ " " ++ s) u (" " ++ s)) ->
  separator (" " ++ u ++ " ") [Tok WHITESPACE " "; Tok ty u; Tok WHITESPACE " "].
Proof.
  intros E SC H. split; [apply space_ends|]. split; [discriminate|]. split.
  - intros W. change (" " ++ u ++ " ") with ((" " ++ u) ++ " ") in W. apply word_before_app in W; [|discriminate]. revert W. apply lit_not_before. reflexivity.
  - intros before rest ts' B C. rewrite !sapp_assoc. cbn [app]. econstructor; [apply space_word|].
    + subst u. intros c' t' [= <- _]. exact SC.
    + econstructor; [apply H|]. econstructor; [apply space_word, begins_no_space; exact B|]. rewrite !sapp_assoc. exact C.
Qed.
Lemma or_sep : separator " || " [Tok WHITESPACE " "; Tok OR "||"; Tok WHITESPACE " "].
Proof. apply (spaced_sep OR "||" "|" "|"); [reflexivity|reflexivity|]. intros before s. apply fixed_word; [reflexivity|reflexivity|exact (fun _ _ => Logic.I)|reflexivity]. Qed.
Lemma and_sep : separator " && " [Tok WHITESPACE " "; Tok AND "&&"; Tok WHITESPACE " "].
Proof. apply (spaced_sep AND "&&" "&" "&"); [reflexivity|reflexivity|]. intros before s. apply fixed_word; [reflexivity|reflexivity|exact (fun _ _ => Logic.I)|reflexivity]. Qed.
Lemma bar_sep : separator "|" [Tok BITWISE_OR "|"].
Proof.
  split; [apply lit_ends; reflexivity|]. split; [discriminate|]. split; [apply lit_not_before; reflexivity|]. intros before rest ts' B C.
  econstructor; [|exact C]. apply next_word_by.
  - split; [reflexivity|]. split; [reflexivity|exact Logic.I].
  - intros u' rest' (_ & SP & _). cbn in SP. subst. lia.
  - intros k [<-|[]] u' rest' (EQ & SP & _). cbn in SP. subst u'. injection EQ as EQ. revert EQ. apply begins_not; [exact B|reflexivity].
Qed.
Lemma op_sep o : separator (" " ++ op_word o ++ " ") [Tok WHITESPACE " "; Tok OP (op_word o); Tok WHITESPACE " "].
Proof.
  assert (exists c t, op_word o = String c t /\ is_space c = false /\ (rivals OP c = [] \/ rivals OP c = [AND])) as (c & t & E & SC & R).
  { assert (forall c t, is_space c = false -> (rivals OP c = [] \/ rivals OP c = [AND]) -> exists c' t', String c t = String c' t' /\ is_space c' = false /\ (rivals OP c' = [] \/ rivals OP c' = [AND])) as X by eauto 10.
    destruct o; cbn [op_word]; apply X; try reflexivity; (left; reflexivity) || (right; reflexivity). }
  apply (spaced_sep OP (op_word o) c t); [exact E|exact SC|]. intros before s. rewrite E at 1. cbn [append]. apply next_word_by.
  - split; [rewrite E; reflexivity|]. split; [exists o; destruct o; reflexivity|]. intros _. split.
    + intros W. apply word_before_app in W; [|discriminate]. revert W. apply lit_not_before. reflexivity.
    + intros (x & y & X & W). injection X as <- _. apply is_word_spec in W. discriminate.
  - intros u' rest' (EQ & (o' & SP) & _). change (String c (t ++ String " " s)) with (String c t ++ String " " s) in EQ. rewrite <- E in EQ.
    destruct o, o'; cbn in SP; subst u'; cbn; try lia; discriminate EQ.
  - destruct R as [R|R]; rewrite R; [intros k []|]. intros k [<-|[]] u' rest' (EQ & SP & _). cbn in SP. subst u'.
    change (String c (t ++ String " " s)) with (String c t ++ String " " s) in EQ. rewrite <- E in EQ. destruct o; discriminate EQ.
Qed.

(* ---- The grammar ---- *)
Lemma words_app l r : words (l ++ r) = (words l ++ words r)%list.
Proof. apply filter_app. Qed.
Section reading.
Variable a : parch.
Lemma not_chunk u ts : chunk u ts -> chunk ("~" ++ u) (Tok BITWISE_COMPLEMENT "~" :: ts).
Proof.
  intros (B & F & H). split; [exists "~"%char, u; auto|]. split; [apply finishes_app; exact F|]. intros before rest ts' NB ER C.
  cbn [append app]. econstructor; [apply (fixed_word BITWISE_COMPLEMENT "~" before "~" (u ++ rest)); [reflexivity|reflexivity|exact (fun _ _ => Logic.I)|reflexivity]|].
  apply H; [|exact ER|rewrite sapp_assoc; exact C]. intros W. apply word_before_app in W; [|discriminate]. revert W. apply lit_not_before. reflexivity.
Qed.
Lemma const_chunk x : const_ok a x -> exists t, chunk (pt_word x) [t] /\ constant_word a t (pt_value x) /\ words [t] = [t].
Proof.
  intros (z & RG & V & [(P & NR & FE)|NU]).
  - exists (Tok IDENTIFIER (pt_word x)). split; [apply name_chunk; assumption|]. split; [|reflexivity]. rewrite V. apply cw_name; assumption.
  - assert (number (pt_word x) z) as NM by (destruct NU; constructor; assumption). exists (Tok NUMERIC_CONSTANT (pt_word x)). split; [eapply number_chunk; exact NM|].
    split; [|reflexivity]. rewrite V. apply cw_number; assumption.
Qed.
Lemma part_chunk x : part_ok a x -> exists ts, chunk (pt_word x) ts /\ g_constant a ts (pt_value x) /\ words ts = ts.
Proof.
  intros [H|(y & H & -> & ->)]; apply const_chunk in H as (t & C & W & K).
  - exists [t]. split; [exact C|]. split; [constructor; constructor; exact W|exact K].
  - exists (Tok BITWISE_COMPLEMENT "~" :: [t]). split; [apply not_chunk; exact C|]. split; [apply gc_not; constructor; exact W|].
    cbn [words filter counts t_type]. unfold words in K. cbn [filter] in K. rewrite K. reflexivity.
Qed.
Lemma concat_two sep x y l : String.concat sep (x :: y :: l) = x ++ sep ++ String.concat sep (y :: l).
Proof. reflexivity. Qed.
Lemma separated_chunk {A B} (g : list token -> B -> Prop) (str : A -> string) (f : A -> B) (ok : A -> Prop) (sep : string) st ty v (l : list A) :
  separator sep st -> words st = [Tok ty v] ->
  (forall x, ok x -> exists ts, chunk (str x) ts /\ g (words ts) (f x)) -> l <> [] -> Forall ok l ->
  exists ts, chunk (String.concat sep (map str l)) ts /\ separated_by ty g (words ts) (map f l).
Proof.
  intros SP WS H N F. induction l as [|x l IH]; [congruence|]. apply Forall_cons_iff in F as [OX F]. destruct (H x OX) as (ts & C & G).
  destruct l as [|y l]; [exists ts; split; [exact C|constructor; exact G]|]. destruct IH as (ts2 & C2 & G2); [discriminate|exact F|].
  exists (ts ++ st ++ ts2)%list. split; [cbn [map]; rewrite concat_two; apply chunk_sep; [exact C|exact SP|exact C2]|].
  rewrite !words_app, WS. cbn [app]. apply (sb_more ty g (words ts) (f x) v (words ts2)); [exact G|exact G2].
Qed.
Lemma parts_chunk l : l <> [] -> Forall (part_ok a) l -> exists ts, chunk (parts_text l) ts /\ g_value a (words ts) (parts_value l).
Proof.
  intros N F. induction l as [|x l IH]; [congruence|]. apply Forall_cons_iff in F as [OX F]. destruct (part_chunk x OX) as (t & C & W & K).
  destruct l as [|y l].
  - exists t. split; [exact C|]. rewrite K. cbn. rewrite N.lor_0_r. constructor. exact W.
  - destruct IH as (ts2 & C2 & G2); [discriminate|exact F|]. exists (t ++ [Tok BITWISE_OR "|"] ++ ts2)%list. split.
    + apply (chunk_sep _ t "|" _ (parts_text (y :: l))); [exact C|apply bar_sep|exact C2].
    + rewrite !words_app, K. cbn [words filter counts t_type app]. apply (gv_or a t); [exact W|exact G2].
Qed.
Definition patom_of (x : catom) : patom := PAtom (ca_arg x) (ca_op x) (parts_value (ca_parts x)).
Lemma atom_chunk x : catom_ok a x -> exists ts, chunk (atom_text x) ts /\ g_atom a (words ts) (patom_of x).
Proof.
  intros (L & N & F). destruct (parts_chunk _ N F) as (ts & C & G).
  exists ([Tok ARGUMENT ("arg" ++ digit_of (ca_arg x))] ++ [Tok WHITESPACE " "; Tok OP (op_word (ca_op x)); Tok WHITESPACE " "] ++ ts)%list. split.
  - replace (atom_text x) with (("arg" ++ digit_of (ca_arg x)) ++ (" " ++ op_word (ca_op x) ++ " ") ++ parts_text (ca_parts x))
      by (unfold atom_text; rewrite !sapp_assoc; reflexivity).
    apply chunk_sep; [apply arg_chunk; exact L|apply op_sep|exact C].
  - rewrite !words_app. cbn [words filter counts t_type app]. destruct (digit_of_dec _ L) as (c & _ & _ & D).
    apply ga; [exact D|lia|destruct (ca_op x); reflexivity|exact G].
Qed.
Lemma expression_chunk alts : alts <> [] -> Forall (fun l => l <> [] /\ Forall (catom_ok a) l) alts ->
  exists ts, chunk (String.concat " || " (map alt_text alts)) ts /\ g_expression a (words ts) (map (map patom_of) alts).
Proof.
  intros N F. unfold g_expression. eapply separated_chunk; [apply or_sep|reflexivity| |exact N|exact F]. intros l [NL FL].
  eapply separated_chunk; [apply and_sep|reflexivity|apply atom_chunk|exact NL|exact FL].
Qed.
Definition pfilt_of (r : crule) : pfilt :=
  match r with
  | CAllow => PFilt None (New ALLOW)
  | CReturn x => PFilt None (New (ERRNO (pt_value x)))
  | CCond alts => PFilt (Some (map (map patom_of) alts)) (New ALLOW)
  end.
Hypothesis B32 : (arch_bits (pa_arch a) = 32 \/ arch_bits (pa_arch a) = 64)%N.
Lemma one_part : constant_word a (Tok NUMERIC_CONSTANT "1") 1.
Proof.
  assert (number "1" 1) as NM. { apply (num_c "1" 1). apply mag_dec; [discriminate|]. constructor; [left; reflexivity|lia]. }
  assert (1 = Z.to_N (1 mod 2 ^ Z.of_N (arch_bits (pa_arch a))))%N as E by (destruct B32 as [-> | ->]; reflexivity). rewrite E. apply cw_number; [exact NM|].
  destruct B32 as [-> | ->]; split; vm_compute; congruence.
Qed.
Lemma rule_chunk r : crule_ok a r -> exists ts, chunk (rule_text r) ts /\ g_single a false false (words ts) (pfilt_of r).
Proof.
  destruct r as [|x|alts]; cbn [crule_ok rule_text pfilt_of].
  - intros _. exists [Tok NUMERIC_CONSTANT "1"]. split.
    + apply (number_chunk "1" 1). apply (num_c "1" 1). apply mag_dec; [discriminate|]. constructor; [left; reflexivity|lia].
    + constructor. apply gx_one; [reflexivity|apply one_part].
  - intros [P _]. destruct (const_chunk x P) as (t & C & W & K). exists ([Tok RETURN "return"] ++ [Tok WHITESPACE " "] ++ [t])%list. split.
    + apply (chunk_sep "return" _ " " _ (pt_word x)); [apply return_chunk|apply space_sep|exact C].
    + rewrite !words_app, K. cbn [words filter counts t_type app]. constructor. apply gx_return; [reflexivity|exact W].
  - intros [N F]. destruct (expression_chunk alts N F) as (ts & C & G). exists ts. split; [exact C|]. apply gs_expr. exact G.
Qed.
Lemma word_no_at s : all_chars word_char s -> no_at s.
Proof. apply all_chars_impl. intros c W ->. apply is_word_spec in W. discriminate. Qed.
Lemma call_chunk s nr : plain_name s -> (reserved s -> s = "kill") -> first_entry (pa_syscalls a) s nr ->
  exists t, chunk s [t] /\ words [t] = [t] /\ g_descriptor a [t] [(s, nr)].
Proof.
  intros P R FE. assert (names_calls a s [(s, nr)]) as NC by (constructor; [apply word_no_at, plain_word, P|exact FE]).
  destruct (string_dec s "kill") as [->|NK].
  - exists (Tok ACTION "kill"). split; [apply kill_chunk|]. split; [reflexivity|]. apply gd_plain; [right; reflexivity|exact NC].
  - exists (Tok IDENTIFIER s). split; [apply name_chunk; [exact P|tauto]|]. split; [reflexivity|]. apply gd_plain; [left; reflexivity|exact NC].
Qed.
Definition pstatement_of (name : string) (nr : N) (r : crule) : pstatement := PStatement [(name, nr)] [pfilt_of r].
Lemma rule_line name nr r : cline_ok a (CRule name nr r) ->
  exists ts, chunk (line_text (CRule name nr r)) ts /\ g_statement a false false (words ts) (pstatement_of name nr r).
Proof.
  intros (P & R & FE & OK). destruct (call_chunk name nr P R FE) as (t & C & K & D). destruct (rule_chunk r OK) as (ts & C2 & G2).
  exists ([t] ++ [Tok COLON ":"; Tok WHITESPACE " "] ++ ts)%list. split; [apply (chunk_sep name _ ": "); [exact C|apply colon_sep|exact C2]|].
  rewrite !words_app, K. cbn [words filter counts t_type app]. apply (gst a false false [t] [[(name, nr)]]); constructor; assumption.
Qed.

(* ---- Characters ---- *)
Definition rule_char (c : ascii) : bool := is_word c || is_c "-" c || is_c "~" c || is_c " " c || is_c "|" c || is_c "&" c || is_c "=" c || is_c "!" c || is_c "<" c || is_c ">" c.
Definition rule_chars (s : string) : Prop := all_chars (fun c => rule_char c = true) s.
Lemma every_rule s : every rule_char s = true -> rule_chars s.
Proof. apply every_all. Qed.
Lemma word_rule s : all_chars word_char s -> rule_chars s.
Proof. apply all_chars_impl. intros c W. apply is_word_spec in W. unfold rule_char. rewrite W. reflexivity. Qed.
Lemma const_chars x : const_ok a x -> all_chars (fun c => is_word c || is_c "-" c = true) (pt_word x).
Proof.
  assert (forall s, all_chars word_char s -> all_chars (fun c => is_word c || is_c "-" c = true) s) as X.
  { intros s. apply all_chars_impl. intros c W. apply is_word_spec in W. rewrite W. reflexivity. }
  intros (z & _ & _ & [(P & _)|NU]); [apply X, plain_word, P|].
  assert (number (pt_word x) z) as NM by (destruct NU; constructor; assumption). apply number_shape in NM as (m & c & t & M & -> & D & A).
  apply all_chars_app. split; [destruct M as [->| ->]; [apply all_chars_nil|apply all_chars_cons; split; [reflexivity|apply all_chars_nil]]|].
  apply X. apply all_chars_cons. split; [apply word_of_dec; exact D|exact A].
Qed.
Lemma part_chars x : part_ok a x -> all_chars (fun c => is_word c || is_c "-" c || is_c "~" c = true) (pt_word x).
Proof.
  assert (forall y, const_ok a y -> all_chars (fun c => is_word c || is_c "-" c || is_c "~" c = true) (pt_word y)) as X.
  { intros y H. apply const_chars in H. revert H. apply all_chars_impl. intros c C. rewrite C. reflexivity. }
  intros [H|(y & H & -> & _)]; [apply X; exact H|]. apply all_chars_cons. split; [reflexivity|apply X; exact H].
Qed.
Lemma concat_chars (P : ascii -> Prop) sep l : all_chars P sep -> Forall (all_chars P) l -> all_chars P (String.concat sep l).
Proof.
  intros S F. induction F as [|x l H F IH]; [apply all_chars_nil|]. destruct l as [|y l]; [exact H|]. rewrite concat_two. apply all_chars_app. split; [exact H|].
  apply all_chars_app. split; [exact S|exact IH].
Qed.
Lemma Forall_map' {A B} (f : A -> B) (P : A -> Prop) (Q : B -> Prop) l : (forall x, P x -> Q (f x)) -> Forall P l -> Forall Q (map f l).
Proof. intros H F. induction F; constructor; auto. Qed.
Lemma parts_chars l : Forall (part_ok a) l -> rule_chars (parts_text l).
Proof.
  intros F. apply concat_chars; [apply every_rule; reflexivity|]. revert F. apply Forall_map'. intros x H. apply part_chars in H. revert H. apply all_chars_impl.
  intros c C. unfold rule_char. rewrite C. reflexivity.
Qed.
Lemma atom_chars x : catom_ok a x -> rule_chars (atom_text x).
Proof.
  intros (L & _ & F). unfold atom_text. destruct (digit_of_dec _ L) as (c & -> & D & _).
  apply (all_chars_app _ "arg"). split; [apply every_rule; reflexivity|]. apply (all_chars_app _ (String c "")). split; [apply word_rule; apply all_chars_cons; split; [apply word_of_dec; exact D|apply all_chars_nil]|].
  apply (all_chars_app _ " "). split; [apply every_rule; reflexivity|]. apply all_chars_app. split; [apply every_rule; destruct (ca_op x); reflexivity|].
  apply (all_chars_app _ " "). split; [apply every_rule; reflexivity|]. apply parts_chars. exact F.
Qed.
Lemma alt_chars l : Forall (catom_ok a) l -> rule_chars (alt_text l).
Proof. intros F. apply concat_chars; [apply every_rule; reflexivity|]. revert F. apply Forall_map'. exact atom_chars. Qed.
Lemma rule_text_chars r : crule_ok a r -> rule_chars (rule_text r).
Proof.
  destruct r as [|x|alts]; cbn [crule_ok rule_text].
  - intros _. apply every_rule. reflexivity.
  - intros [P _]. apply (all_chars_app _ "return "). split; [apply every_rule; reflexivity|]. apply const_chars in P. revert P. apply all_chars_impl. intros c C. unfold rule_char. rewrite C. reflexivity.
  - intros [_ F]. apply concat_chars; [apply every_rule; reflexivity|]. revert F. apply Forall_map'. intros l [_ F]. apply alt_chars. exact F.
Qed.
Lemma line_chars name nr r : cline_ok a (CRule name nr r) -> all_chars (fun c => rule_char c || is_c ":" c = true) (line_text (CRule name nr r)).
Proof.
  assert (forall s, rule_chars s -> all_chars (fun c => rule_char c || is_c ":" c = true) s) as X.
  { intros s. apply all_chars_impl. intros c C. rewrite C. reflexivity. }
  intros (P & _ & _ & OK). cbn [line_text]. apply all_chars_app. split; [apply X, word_rule, plain_word, P|]. apply (all_chars_app _ ": "). split; [|apply X, rule_text_chars, OK].
  apply all_chars_cons. split; [reflexivity|]. apply all_chars_cons. split; [reflexivity|apply all_chars_nil].
Qed.

(* ---- Lines and files ---- *)
Lemma line_in_line l : cline_ok a l -> in_line (line_text l).
Proof.
  destruct l as [|t|name nr r]; intros OK.
  - apply all_chars_nil.
  - apply all_chars_cons. split; [split; discriminate|]. destruct OK as [A _]. revert A. apply all_chars_impl. unfold newline, cr. tauto.
  - apply line_chars in OK. revert OK. apply all_chars_impl. intros c C. split; intros ->; discriminate.
Qed.
Lemma line_finished l : cline_ok a l -> ~ unfinished (line_text l).
Proof.
  intros OK (t & E). destruct l as [|u|name nr r].
  - destruct t; discriminate.
  - cbn [line_text] in E. destruct t as [|c t]; [discriminate E|]. injection E as _ E. destruct OK as [_ N]. exact (N t E).
  - apply line_chars in OK. rewrite E in OK. apply all_chars_app in OK as [_ OK]. apply all_chars_cons in OK as [OK _]. discriminate OK.
Qed.
Lemma not_word_nil : ~ word_before "".
Proof. intros (t & c & E & _). destruct t; discriminate. Qed.
Lemma ends_nil : ends "".
Proof. intros c t [=]. Qed.
Lemma chunk_cut u ts : chunk u ts -> cut u ts.
Proof.
  intros (_ & _ & H). specialize (H "" "" [] not_word_nil ends_nil (ct_end _)). rewrite sapp_nil_r, app_nil_r in H. exact H.
Qed.
Lemma comment_cut t : cut ("#" ++ t) [Tok COMMENT ("#" ++ t)].
Proof.
  econstructor; [|apply ct_end]. apply next_word_by.
  - split; [rewrite sapp_nil_r; reflexivity|]. split; [exists t; reflexivity|reflexivity].
  - intros u' rest' (E & _ & D). cbn in D. subst rest'. rewrite sapp_nil_r in E. subst u'. cbn. lia.
  - apply no_rivals. reflexivity.
Qed.
Definition statement_of (l : cline) : list pstatement := match l with CRule name nr r => [pstatement_of name nr r] | _ => [] end.
Definition contents_of (p : list cline) : contents := Contents (flat_map statement_of p) [] None.
Variables (resolve : string -> string -> string) (text : string -> option string) (junk : list token -> Prop).
Lemma lines_read (incl : string -> contents -> Prop) file p : Forall (cline_ok a) p ->
  exists tss, text_cut (policy_text p) (map line_text p) /\ logical (map line_text p) tss /\
  lines_say a false false resolve text junk incl file tss (contents_of p) false.
Proof.
  intros F. induction F as [|l p OK F (tss & TC & LO & LS)].
  - exists []. split; [constructor|]. split; [apply (lo_lost [] []); constructor|constructor].
  - assert (exists ts, cut (line_text l) ts /\
      ((words ts = [] /\ statement_of l = []) \/ exists s, statement_of l = [s] /\ ps_calls s <> [] /\ g_statement a false false (words ts) s)) as (ts & C & H).
    { destruct l as [|t|name nr r].
      - exists []. split; [constructor|]. left. auto.
      - exists [Tok COMMENT ("#" ++ t)]. split; [apply comment_cut|]. left. auto.
      - destruct (rule_line name nr r OK) as (ts & C & G). exists ts. split; [apply chunk_cut; exact C|]. right. exists (pstatement_of name nr r).
        split; [reflexivity|]. split; [discriminate|exact G]. }
    assert (logical (map line_text (l :: p)) (with_line (words ts) tss)) as LO'.
    { cbn [map]. change (logical ([] ++ line_text l :: map line_text p) (with_line (words (concat [] ++ ts)) tss)). constructor; try constructor; [apply line_finished; exact OK|exact C|exact LO]. }
    exists (with_line (words ts) tss). split; [cbn [policy_text map]; apply tc_newline; [apply line_in_line; exact OK|exact TC]|]. split; [exact LO'|].
    unfold contents_of. cbn [flat_map]. destruct H as [[W S]|(s & S & NE & G)]; rewrite S.
    + rewrite W. exact LS.
    + assert (words ts <> []) as NW. { intros W. rewrite W in G. inversion G as [ts0 ? ? ? ? ? ? E]. destruct ts0; discriminate. }
      replace (with_line (words ts) tss) with (words ts :: tss) by (destruct (words ts); [congruence|reflexivity]).
      exact (lss_cons a false false resolve text junk incl file _ (Contents [s] [] None) false _ _ false (ls_statement a false false resolve text junk incl file _ s G NE) LS).
Qed.
Lemma file_read n file p : Forall (cline_ok a) p -> text file = Some (policy_text p) ->
  file_says a false false resolve text junk n file (contents_of p).
Proof.
  intros F T. destruct n as [|n]; [destruct (lines_read (fun _ _ => False) file p F) as (tss & TC & LO & LS)|
    destruct (lines_read (file_says a false false resolve text junk n) file p F) as (tss & TC & LO & LS)];
  exists (policy_text p), (map line_text p), tss, false; (split; [exact T|]); (split; [exact TC|]); (split; [exact LO|]); (split; [exact LS|discriminate]).
Qed.
End reading.
