(* Proofs for C85: the tables from the macros of the headers. *)
From Verif Require Import P_CStr P_Const S_Policy S_PyPolicy P_PyFile.
From Verif Require Import M_PyParse S_PyText P_PyLex P_PyGram S_Common P_CommonPy P_GenText P_GenRead.
From Verif Require Import M_Json S_Json P_Json P_JsonFile M_Table S_Table.
From Coq Require Import Lia.
Local Open Scope string_scope.

Lemma is_lower_spec c : is_lower c = true <-> lower c.
Proof. unfold is_lower, lower. rewrite in_range_spec. reflexivity. Qed.
Lemma is_upper_spec c : is_upper c = true <-> upper c.
Proof. unfold is_upper, upper. rewrite in_range_spec. reflexivity. Qed.
Lemma sys_char_spec c : sys_char c = true <-> lower c \/ dec_digit c \/ c = "_"%char.
Proof. unfold sys_char. rewrite !orb_true_iff, is_lower_spec, is_digit_spec, is_c_spec. split; [intros [[A|A]|A]|intros [A|[A|A]]]; auto. Qed.
Lemma up_char_spec c : up_char c = true <-> upper c \/ dec_digit c \/ c = "_"%char.
Proof. unfold up_char. rewrite !orb_true_iff, is_upper_spec, is_digit_spec, is_c_spec. split; [intros [[A|A]|A]|intros [A|[A|A]]]; auto. Qed.
Lemma c_space_spec c : c_space c = true <-> (9 <= N_of_ascii c <= 13)%N \/ c = " "%char.
Proof. unfold c_space. rewrite orb_true_iff, in_range_spec, is_c_spec. reflexivity. Qed.
Lemma sys_word c : sys_char c = true -> is_word c = true.
Proof. rewrite sys_char_spec, is_word_spec. unfold lower, word_char, letter. intros [A|[A|A]]; auto. Qed.
Lemma up_word c : up_char c = true -> is_word c = true.
Proof. rewrite up_char_spec, is_word_spec. unfold upper, word_char, letter. intros [A|[A|A]]; auto. Qed.
Lemma upper_up c : is_upper c = true -> up_char c = true.
Proof. unfold up_char. intros ->. reflexivity. Qed.
Lemma space_not_word c : c_space c = true -> is_word c = false.
Proof. destruct c as [[] [] [] [] [] [] [] []]; vm_compute; congruence. Qed.
Lemma identifier_every n : identifier n -> every is_word n = true.
Proof. intros [_ H]. apply word_every, H. Qed.
(* Words end where something else begins. *)
Lemma same_word a b c d : every is_word a = true -> every is_word c = true -> stops is_word b -> stops is_word d -> a ++ b = c ++ d -> a = c /\ b = d.
Proof.
  revert c. induction a as [|x a IH]; intros [|y c] A C B D E; cbn in E.
  - auto.
  - subst b. cbn in C. apply andb_true_iff in C as [C _]. rewrite (B y _ eq_refl) in C. discriminate.
  - subst d. cbn in A. apply andb_true_iff in A as [A _]. rewrite (D x _ eq_refl) in A. discriminate.
  - injection E as -> E. cbn in A, C. apply andb_true_iff in A as [_ A]. apply andb_true_iff in C as [_ C]. destruct (IH c A C B D E) as [-> ->]. auto.
Qed.
Lemma in_rest w s x r : every (but "#") s = true -> s ++ r = w ++ String "#" x -> exists w', r = w' ++ String "#" x.
Proof.
  revert w. induction s as [|c s IH]; intros w E H; [exists w; exact H|]. cbn in E. apply andb_true_iff in E as [N E]. destruct w as [|d w]; cbn in H.
  - injection H as -> _. discriminate N.
  - injection H as _ H. exact (IH w E H).
Qed.
Lemma word_hash n : every is_word n = true -> every (but "#") n = true.
Proof. apply every_impl. intros c C. apply but_true. intros ->. discriminate C. Qed.
(* In a line, "#define " is at the start only. *)
Lemma define_first d w r : directive_ok d -> line_of d = w ++ "#define " ++ r -> w = "" /\ exists n rest, identifier n /\ r = n ++ rest /\
  ((exists t, d = Define n t /\ rest = " " ++ t) \/ (exists t, d = Define_fun n t /\ rest = "(" ++ t)).
Proof.
  intros OK E. assert (forall t w', text_ok t -> t = w' ++ "#define " ++ r -> False) as NT by (intros t w' [_ N] ->; apply N; exists w', r; reflexivity).
  destruct d as [n t|n t|n|l]; cbn [line_of directive_ok] in *.
  - destruct OK as [I T]. destruct w as [|c w].
    + split; [reflexivity|]. exists n, (" " ++ t). cbn in E. injection E as <-. eauto 8.
    + exfalso. change ("#define " ++ n ++ " " ++ t) with (String "#" ("define " ++ n ++ " " ++ t)) in E. cbn [append] in E. injection E as _ E.
      change (String "#" (String "d" (String "e" (String "f" (String "i" (String "n" (String "e" (String " " r)))))))) with (String "#" ("define " ++ r)) in E.
      pose proof (word_hash n (identifier_every n I)) as H.
      assert (("define " ++ n ++ " ") ++ t = w ++ String "#" ("define " ++ r)) as E2 by (rewrite !sapp_assoc; exact E).
      apply in_rest in E2 as (w' & E2); [|rewrite !every_app, H; reflexivity]. exact (NT t w' T E2).
  - destruct OK as [I T]. destruct w as [|c w].
    + split; [reflexivity|]. exists n, ("(" ++ t). cbn in E. injection E as <-. eauto 8.
    + exfalso. change ("#define " ++ n ++ "(" ++ t) with (String "#" ("define " ++ n ++ "(" ++ t)) in E. cbn [append] in E. injection E as _ E.
      change (String "#" (String "d" (String "e" (String "f" (String "i" (String "n" (String "e" (String " " r)))))))) with (String "#" ("define " ++ r)) in E.
      pose proof (word_hash n (identifier_every n I)) as H.
      assert (("define " ++ n ++ "(") ++ t = w ++ String "#" ("define " ++ r)) as E2 by (rewrite !sapp_assoc; exact E).
      apply in_rest in E2 as (w' & E2); [|rewrite !every_app, H; reflexivity]. exact (NT t w' T E2).
  - exfalso. destruct w as [|c w]; [cbn in E; discriminate E|]. change ("#undef " ++ n) with (String "#" ("undef " ++ n)) in E. cbn [append] in E. injection E as _ E.
    change (String "#" (String "d" (String "e" (String "f" (String "i" (String "n" (String "e" (String " " r)))))))) with (String "#" ("define " ++ r)) in E.
    rewrite <- (sapp_nil_r n) in E. change (String "u" (String "n" (String "d" (String "e" (String "f" (String " " (n ++ ""))))))) with ("undef " ++ n ++ "") in E.
    assert (("undef " ++ n) ++ "" = w ++ String "#" ("define " ++ r)) as E2 by (rewrite !sapp_assoc; exact E).
    apply in_rest in E2 as (w' & E2); [|rewrite every_app, (word_hash n (identifier_every n OK)); reflexivity]. destruct w'; discriminate.
  - exfalso. exact (NT l w OK E).
Qed.

(* ---- System calls ---- *)
Lemma sys_sound l a arm x : sys_match l = Some (a, arm, x) ->
  exists rest, l = a ++ "#define " ++ "__" ++ arm ++ "NR_" ++ x ++ " " ++ rest /\ (arm = "" \/ arm = "ARM_") /\ every sys_char x = true.
Proof.
  unfold sys_match. intros H. apply lazily_sound in H as (p & w & s & -> & H). apply matching_sound in H as (u1 & s1 & -> & D1 & H).
  apply matching_sound in H as (u2 & s2 & -> & D2 & H). apply matching_sound in H as (u3 & s3 & -> & D3 & H). apply matching_sound in H as (u4 & s4 & -> & D4 & H).
  apply matching_sound in H as (u5 & s5 & -> & D5 & H). rewrite !upto_app in H. apply den_lit in D1 as ->. apply den_lit in D3 as ->. apply den_lit in D5 as ->.
  apply (f_equal (fun o => match o with Some y => y | None => ("", "", "") end)) in H. pose proof (f_equal (fun y => fst (fst y)) H) as Ha. pose proof (f_equal (fun y => snd (fst y)) H) as Hb. pose proof (f_equal snd H) as Hc.
  cbn in Ha, Hb, Hc. subst a arm x. exists s5. split; [reflexivity|]. split; [|exact D4]. apply den_maybe in D2 as [D2|D2]; [right; apply den_lit in D2; exact D2|left; exact D2].
Qed.
Lemma sys_complete arm x rest : arm = "" \/ arm = "ARM_" -> every sys_char x = true -> sys_match ("#define " ++ "__" ++ arm ++ "NR_" ++ x ++ " " ++ rest) = Some ("", arm, x).
Proof.
  intros A X. unfold sys_match. apply (lazily_first any _ _ ("#define " ++ "__" ++ arm ++ "NR_" ++ x ++ " " ++ rest)) with (u := ""); [|reflexivity|intros ? a ? ? E; destruct a; discriminate E].
  intros p. change ("#define " ++ "__" ++ ?y) with ("#define __" ++ y). rewrite lit_first.
  assert (forall q, matching (lit "NR_") q ("NR_" ++ x ++ " " ++ rest) (fun p0 s3 => matching (Many sys_char) p0 s3 (fun p1 s4 => matching (lit " ") p1 s4 (fun _ _ =>
     Some (upto ("#define __" ++ arm ++ "NR_" ++ x ++ " " ++ rest) ("#define __" ++ arm ++ "NR_" ++ x ++ " " ++ rest), upto (arm ++ "NR_" ++ x ++ " " ++ rest) ("NR_" ++ x ++ " " ++ rest), upto s3 s4)))) = Some ("", arm, x)) as K.
  { intros q. rewrite lit_first. cbn [matching]. apply many_first; [apply stops_cons; reflexivity|exact X|]. rewrite lit_first, !upto_app.
    change (upto ("#define __" ++ arm ++ "NR_" ++ x ++ " " ++ rest) ("#define __" ++ arm ++ "NR_" ++ x ++ " " ++ rest)) with (upto ("" ++ ("#define __" ++ arm ++ "NR_" ++ x ++ " " ++ rest)) ("#define __" ++ arm ++ "NR_" ++ x ++ " " ++ rest)).
    rewrite upto_app. reflexivity. }
  destruct A as [->| ->]; unfold maybe; cbn [matching].
  - match goal with |- match ?m with _ => _ end = _ => assert (m = None) as -> by reflexivity end. apply K.
  - rewrite (lit_first "ARM_"), K. reflexivity.
Qed.
Lemma call_macro_parts m n : call_macro m n <-> exists arm x, (arm = "" \/ arm = "ARM_") /\ every sys_char x = true /\ m = "__" ++ arm ++ "NR_" ++ x /\ n = arm ++ x.
Proof.
  assert (forall x, every sys_char x = true <-> all_chars (fun c => lower c \/ dec_digit c \/ c = "_"%char) x) as S.
  { intros x. rewrite every_all. split; apply all_chars_impl; intros c; apply sys_char_spec. }
  split.
  - intros (x & X & [[-> ->]|[-> ->]]); [exists "", x|exists "ARM_", x]; (split; [auto|]; split; [apply S, X|]; split; reflexivity).
  - intros (arm & x & A & X & -> & ->). exists x. split; [apply S, X|]. destruct A as [->| ->]; [left|right]; split; reflexivity.
Qed.
Lemma call_macro_word arm x : arm = "" \/ arm = "ARM_" -> every sys_char x = true -> every is_word ("__" ++ arm ++ "NR_" ++ x) = true.
Proof. intros A X. rewrite !every_app. assert (every is_word x = true) as -> by (revert X; apply every_impl; apply sys_word). destruct A as [->| ->]; reflexivity. Qed.
Lemma sys_line d : directive_ok d ->
  (exists m t arm x, d = Define m t /\ (arm = "" \/ arm = "ARM_") /\ every sys_char x = true /\ m = "__" ++ arm ++ "NR_" ++ x /\ sys_match (line_of d) = Some ("", arm, x)) \/
  (sys_match (line_of d) = None /\ forall m n t, d = Define m t -> ~ call_macro m n).
Proof.
  intros OK. destruct (sys_match (line_of d)) as [[[a arm] x]|] eqn:M.
  - left. destruct (sys_sound _ _ _ _ M) as (rest & E & A & X). destruct (define_first d a _ OK E) as (-> & n & r & I & E2 & H).
    pose proof (call_macro_word arm x A X) as W. pose proof (identifier_every n I) as W2.
    assert (("__" ++ arm ++ "NR_" ++ x) ++ " " ++ rest = n ++ r) as E3 by (rewrite !sapp_assoc; exact E2).
    assert (stops is_word r) as SR by (destruct H as [(t & _ & ->)|(t & _ & ->)]; apply stops_cons; reflexivity).
    destruct (same_word _ _ _ _ W W2 (stops_cons is_word " "%char rest eq_refl) SR E3) as [EN ER].
    destruct H as [(t & -> & _)|(t & _ & X2)]; [|rewrite X2 in ER; discriminate ER].
    exists n, t, arm, x. rewrite <- EN. auto.
  - right. split; [reflexivity|]. intros m n t -> C. apply call_macro_parts in C as (arm & x & A & X & -> & ->). cbn [line_of] in M.
    rewrite !sapp_assoc in M. rewrite (sys_complete arm x t A X) in M. discriminate.
Qed.
Lemma sys_entries_spec ds : Forall directive_ok ds -> exists es, sys_entries (map line_of ds) = Some es /\
  forall m n, In (m, n) es <-> call_macro m n /\ exists t, In (Define m t) ds.
Proof.
  induction 1 as [|d ds OK _ (es & E & S)]; [exists []; split; [reflexivity|]; intros m n; split; [intros []|intros (_ & t & [])]|].
  cbn [map sys_entries]. destruct (sys_line d OK) as [(m0 & t0 & arm & x & -> & A & X & EM & M)|[M N]]; rewrite M.
  - cbn [String.eqb]. rewrite E. eexists. split; [reflexivity|]. intros m n. split.
    + intros [H|H].
      * injection H as <- <-. split; [apply call_macro_parts; exists arm, x; auto|]. exists t0. left. rewrite EM. reflexivity.
      * apply S in H as (C & t & I). split; [exact C|]. exists t. right. exact I.
    + intros (C & t & [H|H]); [|right; apply S; eauto]. left. injection H as -> ->. apply call_macro_parts in C as (arm' & x' & A' & X' & EM' & ->). rewrite EM in EM'.
      destruct A as [->| ->], A' as [->| ->]; cbn in EM'; try discriminate EM'; injection EM' as ->; rewrite EM; reflexivity.
  - exists es. split; [exact E|]. intros m n. rewrite S. split; intros (C & t & I); (split; [exact C|]); exists t; [right; exact I|]. destruct I as [->|I]; [|exact I].
    exfalso. exact (N m n t eq_refl C).
Qed.
Lemma built_in value es n v : In (n, v) (built value es) <-> exists m, In (m, n) es /\ value m = Some v.
Proof.
  unfold built. rewrite in_flat_map. split.
  - intros ([m n'] & I & H). cbn [fst snd] in H. destruct (value m) as [z|] eqn:V; [|destruct H]. destruct H as [H|[]]. injection H as -> ->. eauto.
  - intros (m & I & V). exists (m, n). split; [exact I|]. cbn [fst snd]. rewrite V. left. reflexivity.
Qed.
Lemma defined_in ds m : defined ds m -> exists t, In (Define m t) ds.
Proof. intros (a & t & b & -> & _). exists t. apply in_app_iff. right. left. reflexivity. Qed.
Lemma sys_table ds value : Forall directive_ok ds -> sees ds value -> exists es, sys_entries (map line_of ds) = Some es /\
  forall n v, In (n, v) (built value es) <-> exists m, call_macro m n /\ defined ds m /\ value m = Some v.
Proof.
  intros OK SEE. destruct (sys_entries_spec ds OK) as (es & E & S). exists es. split; [exact E|]. intros n v. rewrite built_in. split.
  - intros (m & I & V). exists m. apply S in I as [C _]. split; [exact C|]. split; [|exact V]. apply SEE. congruence.
  - intros (m & C & D & V). exists m. split; [|exact V]. apply S. split; [exact C|apply defined_in, D].
Qed.
(* A name has one number. *)
Lemma sys_table_value ds value es n v v' : Forall directive_ok ds -> sees ds value -> sys_entries (map line_of ds) = Some es ->
  In (n, v) (built value es) -> In (n, v') (built value es) -> v = v'.
Proof.
  intros OK SEE E. destruct (sys_table ds value OK SEE) as (es' & E' & S). assert (es' = es) as -> by congruence. rewrite !S.
  intros (m & C & _ & V) (m' & C' & _ & V'). apply call_macro_parts in C as (a & x & A & X & -> & ->). apply call_macro_parts in C' as (a' & x' & A' & X' & -> & EN).
  assert (a = a' /\ x = x') as [-> ->]; [|congruence].
  destruct A as [->| ->], A' as [->| ->]; cbn in EN.
  - auto.
  - subst x. discriminate X.
  - subst x'. discriminate X'.
  - injection EN as ->. auto.
Qed.

(* ---- Constants ---- *)
Lemma const_macro_parts m : constant_macro m <-> exists c t, m = String c t /\ is_upper c = true /\ every up_char t = true.
Proof.
  split; intros (c & t & E & U & T); exists c, t; (split; [exact E|]); (split; [apply is_upper_spec; exact U|]).
  - apply every_all. revert T. apply all_chars_impl. intros x. apply up_char_spec.
  - apply every_all in T. revert T. apply all_chars_impl. intros x. apply up_char_spec.
Qed.
Lemma define_sound l : re_test DEFINE_RE l = true -> exists c t sp x r, l = "" ++ "#define " ++ String c t ++ sp ++ String x r /\
  is_upper c = true /\ every up_char t = true /\ sp <> "" /\ every c_space sp = true /\ is_word x = true.
Proof.
  rewrite re_test_spec. intros (u & rest & -> & D). unfold DEFINE_RE in D.
  apply den_cat in D as (u1 & v1 & -> & D1 & D). apply den_lit in D1 as ->. apply den_cat in D as (u2 & v2 & -> & D2 & D). apply den_chr in D2 as (c & -> & C).
  apply den_cat in D as (u3 & v3 & -> & D3 & D). apply den_cat in D as (u4 & v4 & -> & D4 & D). apply den_some1 in D4 as [N4 D4]. apply den_chr in D as (x & -> & X).
  exists c, u3, u4, x, rest. split; [cbn [append]; rewrite !sapp_assoc; reflexivity|]. repeat split; try assumption. apply every_all. exact D4.
Qed.
Lemma define_complete c t sp x r : is_upper c = true -> every up_char t = true -> sp <> "" -> every c_space sp = true -> is_word x = true ->
  re_test DEFINE_RE ("#define " ++ String c t ++ sp ++ String x r) = true.
Proof.
  intros C T N S X. apply re_test_spec. exists ("#define " ++ String c "" ++ t ++ sp ++ String x ""), r. split; [rewrite !sapp_assoc; reflexivity|].
  exists "#define ", (String c "" ++ t ++ sp ++ String x ""). split; [reflexivity|]. split; [apply den_lit; reflexivity|].
  exists (String c ""), (t ++ sp ++ String x ""). split; [reflexivity|]. split; [exists c; auto|].
  exists t, (sp ++ String x ""). split; [reflexivity|]. split; [exact T|].
  exists sp, (String x ""). split; [reflexivity|]. split; [apply den_some1; split; [exact N|apply every_all; exact S]|exists x; auto].
Qed.
Lemma up_every c t : is_upper c = true -> every up_char t = true -> every is_word (String c t) = true.
Proof.
  intros C T. cbn [every]. rewrite (up_word c (upper_up c C)). cbn [andb]. revert T. apply every_impl, up_word.
Qed.
Lemma sp_stops sp r : sp <> "" -> every c_space sp = true -> stops is_word (sp ++ r).
Proof. intros N E. destruct sp as [|c sp]; [congruence|]. cbn in E. apply andb_true_iff in E as [E _]. apply stops_cons, space_not_word, E. Qed.
Lemma const_name_line c t r : is_upper c = true -> every up_char t = true -> stops up_char r -> const_name ("#define " ++ String c t ++ r) = String c t.
Proof.
  intros C T R. unfold const_name. rewrite (lit_first "#define ").
  match goal with |- match ?m with _ => _ end = _ => assert (m = Some (String c t)) as ->; [|reflexivity] end.
  cbn [append matching]. rewrite C. apply many_first; [exact R|exact T|]. change (String c (t ++ r)) with (String c t ++ r). rewrite upto_app. reflexivity.
Qed.
Lemma not_shown_spec l : not_shown l = false <-> forall w, In w ["SIGRTMAX"; "SIGRTMIN"; "SIG_"; "NULL"] -> ~ contains w l.
Proof.
  unfold not_shown. rewrite !orb_false_iff, <- !not_true_iff_false, !py_in_spec. split.
  - intros (((A & B) & C) & D) w [<-|[<-|[<-|[<-|[]]]]]; assumption.
  - intros H. repeat split; apply H; cbn; auto 6.
Qed.
Lemma const_line d : directive_ok d -> (re_test DEFINE_RE (line_of d) && negb (not_shown (line_of d)) = true <->
  exists m t, d = Define m t /\ constant_macro m /\ plain_text m t) /\
  (re_test DEFINE_RE (line_of d) = true -> forall m t, d = Define m t -> const_name (line_of d) = m).
Proof.
  intros OK. assert (re_test DEFINE_RE (line_of d) = true -> exists m t c u sp x r, d = Define m t /\ m = String c u /\ is_upper c = true /\ every up_char u = true /\
    " " ++ t = sp ++ String x r /\ sp <> "" /\ every c_space sp = true /\ is_word x = true) as SOUND.
  { intros H. destruct (define_sound _ H) as (c & u & sp & x & r & E & C & U & N & S & X). destruct (define_first d "" _ OK E) as (_ & n & rest & I & E2 & D).
    assert (stops is_word rest) as SR by (destruct D as [(t & _ & ->)|(t & _ & ->)]; apply stops_cons; reflexivity).
    destruct (same_word _ _ _ _ (up_every c u C U) (identifier_every n I) (sp_stops sp (String x r) N S) SR E2) as [EN ER].
    destruct D as [(t & -> & ET)|(t & _ & ET)].
    - exists n, t, c, u, sp, x, r. rewrite <- ET. repeat split; auto.
    - exfalso. rewrite ET in ER. destruct sp as [|y sp]; [congruence|]. cbn in ER. injection ER as -> _. discriminate S. }
  split.
  - rewrite andb_true_iff, negb_true_iff, not_shown_spec. split.
    + intros [H W]. destruct (SOUND H) as (m & t & c & u & sp & x & r & -> & EM & C & U & ET & N & S & X). exists m, t. split; [reflexivity|].
      split; [apply const_macro_parts; exists c, u; auto|]. split; [|exact W].
      destruct sp as [|y sp]; [congruence|]. cbn in ET. injection ET as EY ->. cbn in S. apply andb_true_iff in S as [_ S]. exists sp, x, r. split; [reflexivity|].
      split; [|apply is_word_spec, X]. apply every_all in S. revert S. apply all_chars_impl. intros z. apply c_space_spec.
    + intros (m & t & -> & C & (sp & x & r & -> & S & X) & W). split; [|exact W]. apply const_macro_parts in C as (c & u & -> & C & U). cbn [line_of].
      change (" " ++ sp ++ String x r) with (String " " sp ++ String x r). apply define_complete; try assumption; [discriminate| |apply is_word_spec, X].
      cbn [every]. change (c_space " ") with true. cbn [andb]. apply every_all. revert S. apply all_chars_impl. intros z. apply c_space_spec.
  - intros H m t ->. destruct (SOUND H) as (m' & t' & c & u & sp & x & r & E & EM & C & U & _). injection E as -> ->. cbn [line_of]. rewrite EM.
    apply const_name_line; [exact C|exact U|apply stops_cons; reflexivity].
Qed.
Lemma const_entries_spec ds : Forall directive_ok ds -> forall m n, In (m, n) (const_entries (map line_of ds)) <-> m = n /\ constant_macro m /\ exists t, In (Define m t) ds /\ plain_text m t.
Proof.
  intros OK m n. unfold const_entries. rewrite in_map_iff. rewrite Forall_forall in OK. split.
  - intros (l & E & I). apply nodup_In, filter_In in I as [I F]. apply in_map_iff in I as (d & <- & I). destruct (const_line d (OK d I)) as [S NM].
    pose proof F as F0. apply S in F as (m' & t & -> & C & P). apply andb_true_iff in F0 as [F0 _]. rewrite (NM F0 m' t eq_refl) in E. injection E as <- <-. eauto 6.
  - intros (<- & C & t & I & P). exists (line_of (Define m t)). destruct (const_line _ (OK _ I)) as [S NM].
    assert (re_test DEFINE_RE (line_of (Define m t)) && negb (not_shown (line_of (Define m t))) = true) as F by (apply S; eauto).
    pose proof F as F0. apply andb_true_iff in F0 as [F0 _]. rewrite (NM F0 m t eq_refl). split; [reflexivity|]. apply nodup_In, filter_In. split; [apply in_map; exact I|exact F].
Qed.
Lemma const_table ds value : Forall directive_ok ds -> sees ds value -> forall n v, In (n, v) (built value (const_entries (map line_of ds))) <->
  constant_macro n /\ defined ds n /\ (exists t, In (Define n t) ds /\ plain_text n t) /\ value n = Some v.
Proof.
  intros OK SEE n v. rewrite built_in. split.
  - intros (m & I & V). apply (const_entries_spec ds OK) in I as (-> & C & H). split; [exact C|]. split; [apply SEE; congruence|]. auto.
  - intros (C & D & H & V). exists n. split; [|exact V]. apply (const_entries_spec ds OK). auto.
Qed.
