(* Files: the reader of policy files accepts exactly what the grammar
   generates. *)
From Verif Require Import P_CStr P_Const S_Policy.
From Verif Require Import M_PyParse S_PyText P_PyLex P_PyGram P_PyStmt.
Local Open Scope string_scope.

(* ---- Frequencies ---- *)
Definition unsigned (s : string) : string := match s with String "-"%char t => t | _ => s end.
Lemma unsigned_spec m c t : minus m -> c <> "-"%char -> unsigned (m ++ String c t) = String c t.
Proof.
  intros [->| ->] N; cbn [append]; [|reflexivity]. unfold unsigned. by_cases_char c; try reflexivity. exfalso. apply N. reflexivity.
Qed.
Lemma frequency_value_eq s : frequency_value s =
  if re_test HEX_REGEX s then (if (py_int 16 s <? 0)%Z then None else Some (Z.to_N (py_int 16 s)))
  else if match unsigned s with String c _ => Ascii.eqb c "0" | EmptyString => false end
       then (if (digits_value 10 0 (unsigned s) =? 0)%N then Some 0%N else None)
       else (if (py_int 10 s <? 0)%Z then None else Some (Z.to_N (py_int 10 s))).
Proof.
  unfold frequency_value. destruct (re_test HEX_REGEX s); [reflexivity|]. fold (unsigned s). destruct (unsigned s) as [|c t]; [reflexivity|].
  by_cases_char c; reflexivity.
Qed.
Lemma digits_value_lower base s : forall acc, (1 <= base)%N -> (acc <= digits_value base acc s)%N.
Proof.
  induction s as [|c s IH]; intros acc B; cbn; [lia|]. specialize (IH (base * acc + digit_value c)%N B). nia.
Qed.
Lemma zero_digits s : all_chars dec_digit s -> digits_value 10 0 s = 0%N <-> all_chars (fun c => c = "0"%char) s.
Proof.
  induction s as [|c s IH]; intros A; [split; [intros _; apply all_chars_nil|reflexivity]|]. apply all_chars_cons in A as [(v & D & L) A].
  pose proof (digit_value_spec c v D) as E. assert (digit_value c = v) as Ev by (apply E; lia). rewrite all_chars_cons, <- (IH A). cbn [digits_value].
  rewrite Ev. split.
  - intros H. assert (v = 0%N) as ->. { pose proof (digits_value_lower 10 s (10 * 0 + v)%N). lia. }
    split; [|exact H]. pose proof (digit_char c 0%N D L) as X. by_cases_char c; try discriminate X. reflexivity.
  - intros [-> H]. assert (v = 0%N) as ->; [|exact H]. rewrite <- Ev. reflexivity.
Qed.
Lemma freq_zero m t : minus m -> all_chars dec_digit t ->
  forall n, frequency_value (m ++ String "0" t) = Some n -> freq_number (m ++ String "0" t) n.
Proof.
  intros M A n. rewrite frequency_value_eq, unsigned_spec by (assumption || discriminate). cbn [Ascii.eqb].
  rewrite (re_test_false HEX_REGEX).
  2: { intros u rest E DD. apply hex_den in DD. destruct (starts_text m "0" t _ u rest M ltac:(discriminate) eq_refl E) as [G _].
       apply G in DD as [_ (x & h & -> & X)]. apply all_chars_cons in A as [A _]. eapply not_x_dec; eassumption. }
  change (if Ascii.eqb "0" "0" then ?x else ?y) with x.
  destruct (N.eqb_spec (digits_value 10 0 (String "0" t)) 0) as [Z|]; [|discriminate]. intros H. injection H as <-.
  apply zero_digits in Z; [|apply all_chars_cons; split; [apply is_digit_spec; reflexivity|exact A]].
  assert (freq_magnitude (String "0" t) 0) as G by (apply fm_zero; split; [discriminate|exact Z]).
  destruct M as [->| ->]; [apply fn_plain|apply fn_minus]; exact G.
Qed.
Lemma frequency_sound s n : spelled NUMERIC_CONSTANT s -> frequency_value s = Some n -> freq_number s n.
Proof.
  intros (z & N). apply number_text in N as [N|[N|[N|[N|N]]]].
  - destruct N as (m & x & h & M & X & -> & D). rewrite frequency_value_eq.
    assert (re_test HEX_REGEX (m ++ String "0" (String x h)) = true) as ->.
    { apply re_test_spec. exists (m ++ String "0" (String x h)), "". rewrite sapp_nil_r. split; [reflexivity|]. apply hex_den.
      exists m, x, h. auto. }
    rewrite py_int_hex by exact M. destruct (digits_exist 16 h (proj1 D) (proj2 D)) as (k & K).
    rewrite (digits_value_spec 16 h k) by (assumption || lia).
    assert (freq_magnitude (String "0" (String x h)) k) as G by (destruct X as [->| ->]; [apply (fm_hex h)|apply (fm_Hex h)]; exact K).
    destruct M as [->| ->]; cbn [String.eqb append].
    + destruct (Z.ltb_spec (Z.of_N k) 0); [discriminate|]. intros H'. injection H' as <-. rewrite N2Z.id. apply fn_plain. exact G.
    + destruct (Z.ltb_spec (- Z.of_N k) 0); [discriminate|]. assert (k = 0%N) as -> by lia. intros H'. injection H' as <-. apply (fn_minus (String "0" (String x h))). exact G.
  - destruct N as (m & h & M & -> & D). apply freq_zero; [exact M|]. eapply all_chars_impl; [|exact (proj2 D)]. intros c C. apply oct_dec. exact C.
  - destruct N as (m & M & ->). apply freq_zero; [exact M|apply all_chars_nil].
  - destruct N as (m & c & h & M & NZ & -> & D).
    assert (c <> "-"%char) as NM. { apply not_minus_dec. destruct D as [_ D]. apply all_chars_cons in D as [D _]. exact D. }
    rewrite frequency_value_eq, unsigned_spec by assumption. rewrite (re_test_false HEX_REGEX).
    2: { intros u rest E DD. apply hex_den in DD. destruct (starts_text m c h _ u rest M NM eq_refl E) as [G _]. apply G in DD as [-> _]. congruence. }
    destruct (Ascii.eqb_spec c "0"); [contradiction|]. rewrite py_int_sign; [|lia|exact M|intros t E; injection E as E _; contradiction].
    destruct (digits_exist 10 _ (proj1 D) (proj2 D)) as (k & K). rewrite (digits_value_spec 10 _ k) by (assumption || lia).
    assert (freq_magnitude (String c h) k) as G by (apply fm_dec; [intros t E; injection E; congruence|exact K]).
    destruct M as [->| ->]; cbn [String.eqb append].
    + destruct (Z.ltb_spec (Z.of_N k) 0); [discriminate|]. intros H'. injection H' as <-. rewrite N2Z.id. apply fn_plain. exact G.
    + destruct (Z.ltb_spec (- Z.of_N k) 0); [discriminate|]. assert (k = 0%N) as -> by lia. intros H'. injection H' as <-. apply (fn_minus (String c h)). exact G.
  - destruct N as (m & c & h & M & C & -> & D). apply freq_zero; [exact M|]. apply all_chars_cons. split; [apply odd_dec; exact C|exact D].
Qed.
Lemma freq_complete_signed m s n : minus m -> (m = "-" -> n = 0%N) -> freq_magnitude s n -> frequency_value (m ++ s) = Some n.
Proof.
  intros M MN G.
  assert (forall k : N, (m = "-" -> k = 0%N) -> (if ((if String.eqb m "" then Z.of_N k else - Z.of_N k) <? 0)%Z then None
    else Some (Z.to_N (if String.eqb m "" then Z.of_N k else - Z.of_N k)%Z)) = Some k) as F.
  { intros k K. destruct M as [->| ->]; cbn [String.eqb].
    - destruct (Z.ltb_spec (Z.of_N k) 0); [lia|]. rewrite N2Z.id. reflexivity.
    - rewrite (K eq_refl). reflexivity. }
  assert (forall x h k, (x = "x" \/ x = "X")%char -> digits_val 16 h k -> (m = "-" -> k = 0%N) ->
    frequency_value (m ++ String "0" (String x h)) = Some k) as HX.
  { intros x h k X K Kn. rewrite frequency_value_eq. assert (re_test HEX_REGEX (m ++ String "0" (String x h)) = true) as ->.
    { apply re_test_spec. exists (m ++ String "0" (String x h)), "". rewrite sapp_nil_r. split; [reflexivity|]. apply hex_den.
      exists m, x, h. split; [exact M|]. split; [exact X|]. split; [reflexivity|]. eapply digits_one_of, K. }
    rewrite py_int_hex by exact M. rewrite (digits_value_spec 16 h k) by (assumption || lia). apply F. exact Kn. }
  destruct G as [s n NZ D|s Z|s n D|s n D].
  - pose proof (digits_one_of _ _ _ D) as O. destruct s as [|c h]; [destruct O; congruence|].
    assert (c <> "-"%char) as NM. { apply not_minus_dec. destruct O as [_ O]. apply all_chars_cons in O as [O _]. exact O. }
    assert (c <> "0"%char) as NC by (intros ->; eapply NZ; reflexivity).
    rewrite frequency_value_eq, unsigned_spec by assumption. rewrite (re_test_false HEX_REGEX).
    2: { intros u rest E DD. apply hex_den in DD. destruct (starts_text m c h _ u rest M NM eq_refl E) as [G _]. apply G in DD as [-> _]. congruence. }
    destruct (Ascii.eqb_spec c "0"); [contradiction|]. rewrite py_int_sign; [|lia|exact M|intros t E; injection E as E _; contradiction].
    rewrite (digits_value_spec 10 _ n) by (assumption || lia). apply F. exact MN.
  - destruct Z as [NE Z]. destruct s as [|c t]; [congruence|]. pose proof Z as Z0. apply all_chars_cons in Z as [-> Z].
    assert (all_chars dec_digit t) as A. { eapply all_chars_impl; [|exact Z]. intros y ->. apply is_digit_spec. reflexivity. }
    rewrite frequency_value_eq, unsigned_spec by (assumption || discriminate). rewrite (re_test_false HEX_REGEX).
    2: { intros u rest E DD. apply hex_den in DD. destruct (starts_text m "0" t _ u rest M ltac:(discriminate) eq_refl E) as [G _].
         apply G in DD as [_ (x & h & -> & X)]. apply all_chars_cons in A as [A _]. eapply not_x_dec; eassumption. }
    change (if Ascii.eqb "0" "0" then ?x else ?y) with x.
    apply zero_digits in Z0; [|apply all_chars_cons; split; [apply is_digit_spec; reflexivity|exact A]]. rewrite Z0. reflexivity.
  - apply (HX "x"%char); auto.
  - apply (HX "X"%char); auto.
Qed.
Lemma frequency_complete s n : freq_number s n -> frequency_value s = Some n.
Proof.
  intros H. destruct H as [s n H|s H].
  - apply (freq_complete_signed "" s n); [left; reflexivity|discriminate|exact H].
  - apply (freq_complete_signed "-" s 0%N); [right; reflexivity|reflexivity|exact H].
Qed.

Section files.
Variables (a : parch) (denylist ret_log : bool) (resolve : string -> string -> string) (text : string -> option string).
Lemma frequency_lines_sound ls f : Forall wf ls -> frequency_lines a ls = Some f -> exists fs, Forall2 (freq_line a) ls fs /\ f = concat fs.
Proof.
  intros W. revert f. induction W as [|ts ls W WL IH]; intros f H; cbn [frequency_lines] in H; [injection H as <-; exists []; auto|].
  destruct (parse_syscall_descriptor a ts) as [[cs [|[ty v] r]]|] eqn:P; try discriminate.
  destruct (descriptor_sound a _ _ _ W P) as (pre & -> & G). apply wf_app in W as [_ W]. apply wf_cons in W as [_ W].
  destruct ty; try discriminate. destruct r as [|[ty n] r]; [discriminate|]. destruct ty; try discriminate.
  apply wf_cons in W as [S _]. destruct (frequency_value n) as [k|] eqn:F; [|discriminate]. apply frequency_sound in F; [|exact S].
  destruct (frequency_lines a ls) as [l|]; [|discriminate]. injection H as <-. destruct (IH _ eq_refl) as (fs & FF & ->).
  eexists (_ :: fs). split; [constructor; [constructor; eassumption|exact FF]|reflexivity].
Qed.
Lemma frequency_lines_complete ls fs : Forall wf ls -> Forall2 (freq_line a) ls fs -> frequency_lines a ls = Some (concat fs).
Proof.
  intros W H. induction H as [|ts f ls fs G H IH]; [reflexivity|]. apply Forall_cons_iff in W as [W WL].
  destruct G as [ts cs v s n rest G N]. apply wf_app in W as [W _]. cbn [frequency_lines].
  rewrite (descriptor_complete a ts cs (Tok COLON v :: Tok NUMERIC_CONSTANT s :: rest) W G eq_refl), (frequency_complete _ _ N), (IH WL). reflexivity.
Qed.
Definition named_defaults : list (string * paction) :=
  [("kill-process", New KILL_PROCESS); ("kill-thread", New KILL_THREAD); ("kill", Kill); ("trap", New TRAP);
   ("user-notify", New 0x7fc00000)]%N.
Section junk.
Variable junk : list token -> Prop.
(* Lines after which only [junk] is ignored, in this and the included files *)
Definition clean_line (ts : list token) : Prop := forall rest, parse_filter_statement a denylist ret_log ts = Some (None, rest) -> junk rest.
Fixpoint clean (n : nat) (file : string) : Prop :=
  forall t tss, text file = Some t -> tokenize (text_lines t "") [] = Some tss ->
  Forall (fun ts => clean_line ts /\
    forall v p, ts = [Tok INCLUDE v; Tok PATH p] -> match n with O => True | S m => clean m (resolve file p) end) tss.
Lemma line_sound inc (incl : string -> contents -> Prop) file ts c b :
  (forall v p c, ts = [Tok INCLUDE v; Tok PATH p] -> inc (resolve file p) = Some c -> incl (resolve file p) c) -> wf ts -> clean_line ts ->
  policy_line a denylist ret_log resolve text inc file ts = Some (c, b) ->
  line_says a denylist ret_log resolve text junk incl file ts c b.
Proof.
  intros HI W CL H.
  assert (forall ts, wf ts -> clean_line ts -> match parse_filter_statement a denylist ret_log ts with
      | Some (None, _) => Some (contents0, false)
      | Some (Some s, []) => Some (Contents [s] [] None, false)
      | _ => None
      end = Some (c, b) -> line_says a denylist ret_log resolve text junk incl file ts c b) as G.
  { clear ts HI W CL H. intros ts W CL H. destruct (parse_filter_statement a denylist ret_log ts) as [[o rest]|] eqn:P; [|discriminate].
    destruct (statement_sound a denylist ret_log _ _ _ W P) as (pre & s & -> & GS & ->). unfold read_as in H.
    destruct (ps_calls s) eqn:C.
    - injection H as <- <-. apply (ls_other _ _ _ _ _ _ _ _ pre s rest); [exact GS|exact C|]. apply CL.
      unfold read_as in P. rewrite C in P. exact P.
    - destruct rest; [|discriminate]. injection H as <- <-. rewrite app_nil_r. apply ls_statement; [exact GS|]. rewrite C. discriminate. }
  destruct ts as [|[ty v] ts]; [apply G; assumption|].
  destruct ty; try (apply G; assumption).
  - (* DEFAULT *)
    cbn [policy_line] in H. destruct ts as [|[ty s] r]; [discriminate|]. destruct ty; try discriminate. cbn [parse_default_action] in H.
    change [("kill-process", _); _; _; _; _]%N with named_defaults in H. destruct (lookup s named_defaults) eqn:L; [|discriminate].
    destruct r; [|discriminate]. injection H as <- <-. apply lookup_spec in L. apply ls_default. exact L.
  - (* INCLUDE *)
    cbn [policy_line] in H. destruct ts as [|[ty s] r]; [discriminate|]. destruct ty; try discriminate. destruct r; [|discriminate].
    destruct (inc (resolve file s)) eqn:I; [|discriminate]. injection H as <- <-. apply ls_include. apply (HI v s); [reflexivity|exact I].
  - (* FREQUENCY *)
    cbn [policy_line] in H. destruct ts as [|[ty s] r]; [discriminate|]. destruct ty; try discriminate. destruct r; [|discriminate].
    destruct (text (resolve file s)) as [t|] eqn:T; [|discriminate]. destruct (tokenize (text_lines t "") []) as [ls|] eqn:TK; [|discriminate].
    destruct (frequency_lines a ls) as [f|] eqn:F; [|discriminate]. injection H as <- <-. apply lines_read in TK as (lines & C & L).
    destruct (frequency_lines_sound ls f (logical_wf _ _ L) F) as (fs & FF & ->). apply ls_frequency. econstructor; eassumption.
  - (* DENYLIST *)
    cbn [policy_line] in H. destruct denylist eqn:D; [|discriminate]. destruct ts as [|t ts].
    + cbn in H. injection H as <- <-. apply ls_denylist. reflexivity.
    + cbn in H. destruct ts; discriminate H.
Qed.
Lemma line_complete inc (incl : string -> contents -> Prop) file ts c b :
  (forall f c, incl f c -> inc f = Some c) -> wf ts ->
  line_says a denylist ret_log resolve text nothing incl file ts c b ->
  policy_line a denylist ret_log resolve text inc file ts = Some (c, b).
Proof.
  intros HI W H.
  assert (forall ts s, wf ts -> g_statement a denylist ret_log ts s -> policy_line a denylist ret_log resolve text inc file ts =
    match read_as s with None => Some (contents0, false) | Some s => Some (Contents [s] [] None, false) end) as G.
  { clear ts W H. intros ts s W GS.
    assert (after_filter []) as AF by (repeat split; reflexivity).
    pose proof (statement_complete a denylist ret_log ts s [] W GS AF) as P. rewrite app_nil_r in P.
    assert (policy_line a denylist ret_log resolve text inc file ts = match parse_filter_statement a denylist ret_log ts with
      | Some (None, _) => Some (contents0, false)
      | Some (Some s, []) => Some (Contents [s] [] None, false)
      | _ => None
      end) as E.
    { destruct (statement_starts a denylist ret_log ts s [] W GS) as (ty & v & r & E & T). rewrite app_nil_r in E. subst ts.
      destruct T as [->|[->| ->]]; reflexivity. }
    rewrite E, P. destruct (read_as s); reflexivity. }
  destruct H as [ts s GS NE|ts s rest GS E J|v p c I|v p f F|v s x L|v D].
  - rewrite (G ts s W GS). unfold read_as. destruct (ps_calls s); [congruence|reflexivity].
  - unfold nothing in J. subst rest. rewrite app_nil_r in *. rewrite (G ts s W GS). unfold read_as. rewrite E. reflexivity.
  - cbn [policy_line]. rewrite (HI _ _ I). reflexivity.
  - inversion F as [file0 t ls tss fs T C L F0]; subst file0 f; rename F0 into F1. cbn [policy_line]. rewrite T.
    assert (tokenize (text_lines t "") [] = Some tss) as -> by (apply lines_read; eauto).
    rewrite (frequency_lines_complete tss fs (logical_wf _ _ L) F1). reflexivity.
  - cbn [policy_line parse_default_action]. apply lookup_spec in L. change [("kill-process", _); _; _; _; _]%N with named_defaults.
    change (lookup s named_defaults = Some x) in L. rewrite L. reflexivity.
  - cbn [policy_line]. rewrite D. reflexivity.
Qed.
Lemma lines_sound inc (incl : string -> contents -> Prop) file :
  forall tss c b, Forall wf tss ->
  Forall (fun ts => clean_line ts /\
    forall v p, ts = [Tok INCLUDE v; Tok PATH p] -> forall c, inc (resolve file p) = Some c -> incl (resolve file p) c) tss ->
  policy_lines a denylist ret_log resolve text inc file tss = Some (c, b) ->
  lines_say a denylist ret_log resolve text junk incl file tss c b.
Proof.
  induction tss as [|ts tss IH]; intros c b W CL H; cbn [policy_lines] in H; [injection H as <- <-; constructor|].
  apply Forall_cons_iff in W as [W WL]. apply Forall_cons_iff in CL as [[CL HI] CLL].
  destruct (policy_line a denylist ret_log resolve text inc file ts) as [[c1 b1]|] eqn:P; [|discriminate].
  destruct (policy_lines a denylist ret_log resolve text inc file tss) as [[c2 b2]|]; [|discriminate]. injection H as <- <-.
  apply lss_cons; [eapply line_sound; [|eassumption..]; intros v p c0 E; apply (HI v p E)|]. apply IH; [exact WL|exact CLL|reflexivity].
Qed.
Lemma file_sound_clean : forall n file c, clean n file -> parse_policy_file a denylist ret_log resolve text n file = Some c ->
  file_says a denylist ret_log resolve text junk n file c.
Proof.
  assert (forall inc (incl : string -> contents -> Prop) file c, (forall t tss, text file = Some t -> tokenize (text_lines t "") [] = Some tss ->
      Forall (fun ts => clean_line ts /\
        forall v p, ts = [Tok INCLUDE v; Tok PATH p] -> forall c, inc (resolve file p) = Some c -> incl (resolve file p) c) tss) ->
    match text file with
    | None => None
    | Some t => match tokenize (text_lines t "") [] with
                | None => None
                | Some ls => match policy_lines a denylist ret_log resolve text inc file ls with
                             | None => None
                             | Some (c, b) => if denylist && negb b then None else Some c
                             end
                end
    end = Some c -> exists t ls tss b, text file = Some t /\ text_cut t ls /\ logical ls tss /\
    lines_say a denylist ret_log resolve text junk incl file tss c b /\ (denylist = true -> b = true)) as G.
  { intros inc incl file c CL H. destruct (text file) as [t|]; [|discriminate].
    destruct (tokenize (text_lines t "") []) as [tss|] eqn:TK; [|discriminate]. specialize (CL _ _ eq_refl TK). apply lines_read in TK as (ls & C & L).
    destruct (policy_lines a denylist ret_log resolve text inc file tss) as [[c' b]|] eqn:P; [|discriminate].
    destruct (denylist && negb b) eqn:D; [discriminate|]. injection H as <-.
    exists t, ls, tss, b. split; [reflexivity|]. split; [exact C|]. split; [exact L|]. split.
    - eapply lines_sound; [eapply logical_wf; exact L|exact CL|exact P].
    - intros ->. destruct b; [reflexivity|discriminate D]. }
  induction n as [|n IH]; intros file c CL H; cbn [parse_policy_file] in H.
  - apply (G _ (fun _ _ => False) file c) in H; [exact H|]. intros t tss T K. eapply Forall_impl; [|exact (CL t tss T K)].
    intros ts [C _]. split; [exact C|]. discriminate.
  - apply (G _ (file_says a denylist ret_log resolve text junk n) file c) in H; [exact H|]. intros t tss T K. eapply Forall_impl; [|exact (CL t tss T K)].
    intros ts [C I]. split; [exact C|]. intros v p E c0. apply IH. exact (I v p E).
Qed.
End junk.
Lemma clean_anything : forall n file, clean anything n file.
Proof.
  induction n as [|n IH]; intros file t tss _ _; apply Forall_forall; intros ts _; (split; [intros rest _; exact Logic.I|]); intros v p _; [exact Logic.I|apply IH].
Qed.
Lemma file_sound n file c : parse_policy_file a denylist ret_log resolve text n file = Some c ->
  file_says a denylist ret_log resolve text anything n file c.
Proof. apply file_sound_clean. apply clean_anything. Qed.
Lemma lines_complete inc (incl : string -> contents -> Prop) file : (forall f c, incl f c -> inc f = Some c) ->
  forall tss c b, Forall wf tss -> lines_say a denylist ret_log resolve text nothing incl file tss c b ->
  policy_lines a denylist ret_log resolve text inc file tss = Some (c, b).
Proof.
  intros HI tss c b W H. induction H as [|ts c b r c' b' H1 H IH]; [reflexivity|]. apply Forall_cons_iff in W as [W WL].
  cbn [policy_lines]. rewrite (line_complete inc incl file ts c b HI W H1), (IH WL). reflexivity.
Qed.
Lemma file_complete : forall n file c, file_says a denylist ret_log resolve text nothing n file c ->
  parse_policy_file a denylist ret_log resolve text n file = Some c.
Proof.
  assert (forall inc (incl : string -> contents -> Prop) file c, (forall f c, incl f c -> inc f = Some c) ->
    (exists t ls tss b, text file = Some t /\ text_cut t ls /\ logical ls tss /\
    lines_say a denylist ret_log resolve text nothing incl file tss c b /\ (denylist = true -> b = true)) ->
    match text file with
    | None => None
    | Some t => match tokenize (text_lines t "") [] with
                | None => None
                | Some ls => match policy_lines a denylist ret_log resolve text inc file ls with
                             | None => None
                             | Some (c, b) => if denylist && negb b then None else Some c
                             end
                end
    end = Some c) as G.
  { intros inc incl file c HI (t & ls & tss & b & -> & C & L & S & D).
    assert (tokenize (text_lines t "") [] = Some tss) as -> by (apply lines_read; eauto).
    rewrite (lines_complete inc incl file HI tss c b (logical_wf _ _ L) S).
    destruct denylist; [|reflexivity]. rewrite (D eq_refl). reflexivity. }
  induction n as [|n IH]; intros file c H; cbn [parse_policy_file].
  - exact (G _ (fun _ _ => False) file c ltac:(intros f c' []) H).
  - exact (G _ (file_says a denylist ret_log resolve text nothing n) file c IH H).
Qed.

(* ---- A text has one reading ---- *)
Lemma calls_unique ts s rest ts' s' rest' : wf (ts ++ rest) -> (ts ++ rest = ts' ++ rest')%list ->
  g_statement a denylist ret_log ts s -> g_statement a denylist ret_log ts' s' -> ps_calls s = ps_calls s'.
Proof.
  assert (forall ts s rest, wf (ts ++ rest) -> g_statement a denylist ret_log ts s ->
    exists css r, braced (parse_syscall_descriptor a) (ts ++ rest) = Some (css, r) /\ concat css = ps_calls s) as G.
  { clear. intros ts s rest W GS. destruct GS as [ts css v r fs G _]. rewrite <- app_assoc in *. cbn [app] in *. apply wf_app in W as [W _].
    exists css. eexists. split; [|reflexivity]. apply (descriptors_complete a); [exact W|exact G|reflexivity]. }
  intros W E GS GS'. destruct (G _ _ rest W GS) as (css & r & P & <-). rewrite E in W, P.
  destruct (G _ _ rest' W GS') as (css' & r' & P' & <-). rewrite P in P'. injection P' as -> _. reflexivity.
Qed.
Definition statement_line (ts : list token) (c : contents) : Prop :=
  exists s, (g_statement a denylist ret_log ts s /\ ps_calls s <> [] /\ c = Contents [s] [] None) \/
  (exists pre rest, ts = (pre ++ rest)%list /\ g_statement a denylist ret_log pre s /\ ps_calls s = [] /\ c = Contents [] [] None).
Lemma statement_line_unique ts c c' : wf ts -> statement_line ts c -> statement_line ts c' -> c = c'.
Proof.
  intros W (s & [(G & N & ->)|(p & r & -> & G & N & ->)]) (s' & [(G' & N' & ->)|(p' & r' & E & G' & N' & ->)]).
  - assert (after_filter []) as AF by (repeat split; reflexivity).
    pose proof (statement_complete a denylist ret_log ts s [] W G AF) as P. rewrite (statement_complete a denylist ret_log ts s' [] W G' AF) in P.
    unfold read_as in P. destruct (ps_calls s); [congruence|]. destruct (ps_calls s'); [congruence|]. injection P as ->. reflexivity.
  - exfalso. apply N. rewrite <- N'. rewrite <- (app_nil_r ts) in E, W. eapply calls_unique; [exact W|exact E|exact G|exact G'].
  - exfalso. apply N'. rewrite <- N. symmetry. eapply (calls_unique p s r (p ++ r) s' []); [exact W|rewrite app_nil_r; reflexivity|exact G|exact G'].
  - reflexivity.
Qed.
Inductive other_line (incl : string -> contents -> Prop) (file : string) : list token -> contents -> bool -> Prop :=
| ol_include v p c : incl (resolve file p) c -> other_line incl file [Tok INCLUDE v; Tok PATH p] c false
| ol_frequency v p f : freq_file a text (resolve file p) f -> other_line incl file [Tok FREQUENCY v; Tok PATH p] (Contents [] f None) false
| ol_default v s x : lookup s named_defaults = Some x -> other_line incl file [Tok DEFAULT v; Tok ACTION s] (Contents [] [] (Some x)) false
| ol_denylist v : other_line incl file [Tok DENYLIST v] (Contents [] [] None) true.
Lemma line_cases junk incl file ts c b : line_says a denylist ret_log resolve text junk incl file ts c b ->
  (statement_line ts c /\ b = false) \/ other_line incl file ts c b.
Proof.
  intros [ts' s GS NE|ts' s rest GS E J|v p c' I|v p f F|v s x L|v D].
  - left. split; [|reflexivity]. exists s. left. auto.
  - left. split; [|reflexivity]. exists s. right. exists ts', rest. auto.
  - right. constructor. exact I.
  - right. constructor. exact F.
  - right. constructor. apply lookup_spec. exact L.
  - right. constructor.
Qed.
Lemma freq_unique file f f' : freq_file a text file f -> freq_file a text file f' -> f = f'.
Proof.
  intros [file' t ls tss fs T C L F] H. inversion H as [file0 t' ls' tss' fs' T' C' L' F']; subst. rewrite T in T'. injection T' as <-.
  assert (tokenize (text_lines t "") [] = Some tss) as E by (apply lines_read; eauto).
  assert (tokenize (text_lines t "") [] = Some tss') as E' by (apply lines_read; eauto).
  rewrite E in E'. injection E' as <-. pose proof (frequency_lines_complete tss fs (logical_wf _ _ L) F) as X.
  rewrite (frequency_lines_complete tss fs' (logical_wf _ _ L) F') in X. injection X as X. auto.
Qed.
Section two.
Variables (junk junk' : list token -> Prop) (incl incl' : string -> contents -> Prop).
Hypothesis HI : forall f c c', incl f c -> incl' f c' -> c = c'.
Lemma line_unique file ts c b c' b' : wf ts ->
  line_says a denylist ret_log resolve text junk incl file ts c b -> line_says a denylist ret_log resolve text junk' incl' file ts c' b' ->
  c = c' /\ b = b'.
Proof.
  intros W H H'. apply line_cases in H, H'.
  assert (forall incl ts c c' b, wf ts -> statement_line ts c -> other_line incl file ts c' b -> False) as X.
  { clear. intros incl ts c c' b W (s & S) O. assert (exists ty v r, ts = Tok ty v :: r /\ (ty = IDENTIFIER \/ ty = ACTION \/ ty = LBRACE)) as (ty & v & r & E & T).
    { destruct S as [(G & _)|(p & r & -> & G & _)].
      - rewrite <- (app_nil_r ts). eapply statement_starts; [exact W|exact G].
      - apply wf_app in W as [W _]. eapply statement_starts; [exact W|exact G]. }
    destruct O; injection E as <- _ _; destruct T as [T|[T|T]]; discriminate T. }
  destruct H as [[S ->]|O], H' as [[S' ->]|O'].
  - split; [|reflexivity]. eapply statement_line_unique; eassumption.
  - destruct (X _ _ _ _ _ W S O').
  - destruct (X _ _ _ _ _ W S' O).
  - destruct O as [v p c I|v p f F|v s x L|v]; inversion O' as [v' p' c2 I'|v' p' f' F'|v' s' x' L'|v']; subst; (split; [|reflexivity]).
    + eapply HI; eassumption.
    + rewrite (freq_unique _ _ _ F F'). reflexivity.
    + rewrite L in L'. injection L' as <-. reflexivity.
    + reflexivity.
Qed.
Lemma lines_unique file tss c b c' b' : Forall wf tss ->
  lines_say a denylist ret_log resolve text junk incl file tss c b -> lines_say a denylist ret_log resolve text junk' incl' file tss c' b' ->
  c = c' /\ b = b'.
Proof.
  intros W H. revert c' b' W. induction H as [|ts c b r c1 b1 H1 H IH]; intros c' b' W H'; inversion H'; subst; [auto|].
  apply Forall_cons_iff in W as [W WL].
  match goal with K : line_says _ _ _ _ _ junk' _ _ _ _ _, L : lines_say _ _ _ _ _ junk' _ _ _ _ _ |- _ =>
    destruct (line_unique _ _ _ _ _ _ W H1 K) as [-> ->]; destruct (IH _ _ WL L) as [-> ->] end. auto.
Qed.
End two.
Lemma file_unique junk junk' : forall n file c c', file_says a denylist ret_log resolve text junk n file c ->
  file_says a denylist ret_log resolve text junk' n file c' -> c = c'.
Proof.
  induction n as [|n IH]; intros file c c' (t & ls & tss & b & T & C & L & S & _) (t' & ls' & tss' & b' & T' & C' & L' & S' & _);
  rewrite T in T'; injection T' as <-;
  (assert (tokenize (text_lines t "") [] = Some tss) as E by (apply lines_read; eauto));
  (assert (tokenize (text_lines t "") [] = Some tss') as E' by (apply lines_read; eauto)); rewrite E in E'; injection E' as <-.
  - eapply (lines_unique junk junk' _ _) in S as [X _]; [exact X| |eapply logical_wf; exact L|exact S']. intros f x y [].
  - eapply (lines_unique junk junk' _ _) in S as [X _]; [exact X|exact IH|eapply logical_wf; exact L|exact S'].
Qed.
End files.
