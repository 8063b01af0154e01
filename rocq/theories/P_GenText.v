(* Lines of traces, read by generate_seccomp_policy.py. *)
From Verif Require Import P_CStr P_Const S_Policy S_PyPolicy P_PyFile.
From Verif Require Import M_PyParse S_PyText P_PyLex P_PyGram S_Common P_CommonPy.
From Verif Require M_Gen.
From Verif Require Import S_Gen.
Local Open Scope string_scope.

(* ---- Regular expressions ---- *)
Definition stops (p : ascii -> bool) (s : string) : Prop := forall c t, s = String c t -> p c = false.
Lemma stops_nil p : stops p "".
Proof. intros c t [=]. Qed.
Lemma stops_cons p c t : p c = false -> stops p (String c t).
Proof. intros H c' t' [= <- <-]. exact H. Qed.
Lemma many_first {T} p (k : option ascii -> string -> option T) x mid : stops p mid -> forall u prev, every p u = true ->
  k (last_of prev u) mid = Some x -> many p prev (u ++ mid) k = Some x.
Proof.
  intros ST. induction u as [|c u IH]; intros prev E K.
  - cbn in *. destruct mid as [|c t]; [exact K|]. cbn. rewrite (ST c t eq_refl). exact K.
  - cbn in E. apply andb_true_iff in E as [P E]. cbn [append many]. rewrite P, (IH (Some c) E K). reflexivity.
Qed.
Lemma some_first {T} p (k : option ascii -> string -> option T) x mid u prev : stops p mid -> u <> "" -> every p u = true ->
  k (last_of prev u) mid = Some x -> matching (some1 p) prev (u ++ mid) k = Some x.
Proof.
  intros ST N E K. destruct u as [|c u]; [congruence|]. cbn in E. apply andb_true_iff in E as [P E]. cbn [append some1 matching]. rewrite P.
  apply many_first; assumption.
Qed.
Lemma lit_first {T} w (k : option ascii -> string -> option T) mid : forall prev, matching (lit w) prev (w ++ mid) k = k (last_of prev w) mid.
Proof. induction w as [|c w IH]; intros prev; [reflexivity|]. cbn [lit matching append]. unfold is_c. rewrite Ascii.eqb_refl. apply IH. Qed.
Lemma white_every s : all_chars white s -> every is_space s = true.
Proof. intros H. apply every_all. revert H. apply all_chars_impl. intros c C. apply is_space_spec. exact C. Qed.
Lemma word_every s : all_chars word_char s -> every is_word s = true.
Proof. intros H. apply every_all. revert H. apply all_chars_impl. intros c C. apply is_word_spec. exact C. Qed.
Lemma name_no_space n r : plain_name n -> stops is_space (n ++ r).
Proof.
  intros (c & t & -> & H & _). apply stops_cons. apply word_not_space. left. destruct H as [H| ->]; [left; exact H|right; right; reflexivity].
Qed.
Lemma letter_not_digit c : letter c \/ c = "_"%char -> is_digit c = false /\ is_c "[" c = false.
Proof.
  intros [H| ->]; [|split; reflexivity]. apply is_letter_spec in H. destruct c as [[] [] [] [] [] [] [] []]; vm_compute in H |- *; try discriminate; split; reflexivity.
Qed.
Lemma tag_first {T} t n r (k : option ascii -> string -> option T) x : tag_ok t -> plain_name n ->
  (forall prev, k prev (n ++ r) = Some x) -> matching M_Gen.LINE_TAG None (t ++ n ++ r) k = Some x.
Proof.
  intros TG P K. pose proof (name_no_space n r P) as NS. unfold M_Gen.LINE_TAG. cbn [matching].
  destruct TG as [W|(a & m & b & -> & WA & WB & H)].
  - apply many_first; [exact NS|apply white_every; exact W|]. cbn [maybe matching some1 lit].
    pose proof P as (c & u & E & H & _). pose proof (letter_not_digit c H) as [D B]. rewrite E in *. cbn [append]. rewrite B, D.
    apply (many_first is_space k x (String c (u ++ r)) NS ""); [reflexivity|]. apply K.
  - rewrite !sapp_assoc. destruct H as [[[NM DM] NB]|(y & -> & Y)].
    + destruct m as [|d m]; [congruence|]. pose proof (all_chars_cons (fun c => dec_digit c) d m) as X. apply X in DM as [DD DM]. clear X. apply is_digit_spec in DD.
      apply many_first; [apply stops_cons; destruct d as [[] [] [] [] [] [] [] []]; vm_compute in DD |- *; congruence|apply white_every; exact WA|].
      cbn [maybe matching lit append]. assert (is_c "[" d = false) as B by (destruct d as [[] [] [] [] [] [] [] []]; vm_compute in DD |- *; congruence). rewrite B.
      match goal with |- match ?m with _ => _ end = _ => assert (m = Some x) as ->; [|reflexivity] end.
      change (String d (m ++ b ++ n ++ r)) with (String d m ++ (b ++ n ++ r)). apply some_first.
      * destruct b as [|e b]; [congruence|]. apply stops_cons. apply all_chars_cons in WB as [WE _]. apply is_space_spec in WE.
        destruct e as [[] [] [] [] [] [] [] []]; vm_compute in WE |- *; congruence.
      * discriminate.
      * cbn. rewrite DD. apply every_all. revert DM. apply all_chars_impl. intros c C. apply is_digit_spec. exact C.
      * apply many_first; [exact NS|apply white_every; exact WB|apply K].
    + apply many_first; [apply stops_cons; reflexivity|apply white_every; exact WA|].
      cbn [maybe matching append]. rewrite !sapp_assoc. change (String "[" (y ++ "]" ++ b ++ n ++ r)) with ("[" ++ (y ++ "]" ++ b ++ n ++ r)).
      match goal with |- match (match ?m with _ => _ end) with _ => _ end = _ => assert (m = Some x) as ->; [|reflexivity] end. rewrite lit_first.
      apply many_first; [apply stops_cons; reflexivity| |].
      * apply every_all. revert Y. apply all_chars_impl. intros c C. apply negb_true_iff. unfold is_c. apply Ascii.eqb_neq. congruence.
      * rewrite lit_first. apply many_first; [exact NS|apply white_every; exact WB|apply K].
Qed.
Lemma cut_l u r : substring 0 (String.length (u ++ r) - String.length r) (u ++ r) = u.
Proof. rewrite slen_app. replace (String.length u + String.length r - String.length r)%nat with (String.length u) by lia. apply substring_app_l. Qed.
Lemma call_line t n args r : tag_ok t -> plain_name n -> every M_Gen.in_args args = true -> stops M_Gen.in_args r ->
  M_Gen.line_re (t ++ n ++ "(" ++ args ++ r) = Some (n, args).
Proof.
  intros TG P A R. unfold M_Gen.line_re. apply tag_first; [exact TG|exact P|]. intros prev.
  apply some_first; [apply stops_cons; reflexivity|destruct P as (c & u & -> & _); discriminate|apply word_every, plain_word, P|].
  rewrite lit_first. cbn [matching]. apply many_first; [exact R|exact A|]. rewrite !cut_l. reflexivity.
Qed.

(* ---- Lines without a call ---- *)
Lemma line_re_inv s x : M_Gen.line_re s = Some x -> exists u v w, s = u ++ v ++ "(" ++ w /\ den M_Gen.LINE_TAG None u (v ++ "(" ++ w) /\ v <> "" /\ every is_word v = true.
Proof.
  unfold M_Gen.line_re. intros H. apply matching_sound in H as (u & mid & -> & D & H). apply matching_sound in H as (v & mid2 & -> & D2 & H).
  apply matching_sound in H as (q & mid3 & -> & D3 & _). apply den_lit in D3. subst q. exists u, v, mid3. split; [reflexivity|]. split; [exact D|].
  apply den_cat in D2 as (y & z & -> & (c & -> & C) & Z). cbn in Z. split; [discriminate|]. cbn. rewrite C. exact Z.
Qed.
Lemma no_paren s : all_chars (fun c => c <> "("%char) s -> M_Gen.line_re s = None.
Proof.
  intros H. destruct (M_Gen.line_re s) eqn:E; [|reflexivity]. apply line_re_inv in E as (u & v & w & -> & _).
  apply all_chars_app in H as [_ H]. apply all_chars_app in H as [_ H]. apply all_chars_cons in H as [H _]. congruence.
Qed.
Lemma span_eq (p : ascii -> bool) a : forall a' y y', a ++ y = a' ++ y' -> every p a = true -> every p a' = true -> stops p y -> stops p y' -> a = a' /\ y = y'.
Proof.
  induction a as [|c a IH]; intros [|c' a'] y y' E A A' S S'; cbn in E.
  - auto.
  - exfalso. cbn in A'. apply andb_true_iff in A' as [A' _]. rewrite (S c' (a' ++ y') E) in A'. discriminate.
  - exfalso. cbn in A. apply andb_true_iff in A as [A _]. rewrite (S' c (a ++ y) (eq_sym E)) in A. discriminate.
  - injection E as <- E. cbn in A, A'. apply andb_true_iff in A as [P A]. apply andb_true_iff in A' as [_ A']. destruct (IH _ _ _ E A A' S S') as [-> ->]. auto.
Qed.
Definition sign (x : string) : Prop := x = "-" \/ x = "+" \/ x = "<".
Lemma sign_not_word x r v w : sign x -> v <> "" -> every is_word v = true -> x ++ r <> v ++ w.
Proof. intros S N V E. destruct v as [|c v]; [congruence|]. cbn in V. apply andb_true_iff in V as [V _]. destruct S as [->|[->| ->]]; injection E as <- _; discriminate V. Qed.
Lemma word_stops_space v w : v <> "" -> every is_word v = true -> stops is_space (v ++ w).
Proof.
  intros N V. destruct v as [|c v]; [congruence|]. cbn in V. apply andb_true_iff in V as [V _]. apply stops_cons. apply word_not_space. left. apply is_word_spec. exact V.
Qed.
(* What the tag is *)
Lemma tag_den u mid : den M_Gen.LINE_TAG None u mid -> exists a m b, u = a ++ m ++ b /\ every is_space a = true /\ every is_space b = true /\
  (m = "" \/ (m <> "" /\ every is_digit m = true) \/ exists y, m = "[" ++ y ++ "]" /\ every (fun c => negb (is_c "]" c)) y = true).
Proof.
  unfold M_Gen.LINE_TAG. intros (a & v & -> & A & (m & b & -> & M & B)). cbn in A, B. exists a, m, b. split; [reflexivity|]. split; [exact A|]. split; [exact B|].
  unfold maybe in M. destruct M as [[M|M]|M].
  - right. right. apply den_cat in M as (q & z & -> & Q & Z). apply den_lit in Q. subst q. apply den_cat in Z as (y & q & -> & Y & Q). apply den_lit in Q. subst q. exists y. auto.
  - right. left. apply den_cat in M as (y & z & -> & (c & -> & C) & Z). cbn in Z. split; [discriminate|]. cbn. rewrite C. exact Z.
  - left. exact M.
Qed.
Lemma sign_stops x r (p : ascii -> bool) : sign x -> p "-"%char = false -> p "+"%char = false -> p "<"%char = false -> stops p (x ++ r).
Proof. intros S A B C. destruct S as [->|[->| ->]]; apply stops_cons; assumption. Qed.
Lemma digit_props d : is_digit d = true -> is_space d = false /\ is_word d = true /\ is_c "[" d = false.
Proof. destruct d as [[] [] [] [] [] [] [] []]; vm_compute; intros; try discriminate; repeat split. Qed.
Lemma space_props d : is_space d = true -> is_digit d = false /\ is_word d = false /\ is_c "(" d = false.
Proof. destruct d as [[] [] [] [] [] [] [] []]; vm_compute; intros; try discriminate; repeat split. Qed.
(* A word that begins like digits followed by white space is no call. *)
Lemma digits_then_white m b z v w : m <> "" -> b <> "" -> every is_digit m = true -> every is_space b = true -> every is_word v = true -> m ++ b ++ z <> v ++ "(" ++ w.
Proof.
  intros NM NB M B V E. destruct b as [|e b]; [congruence|]. cbn in B. apply andb_true_iff in B as [BE B]. apply space_props in BE as (_ & W & P).
  assert (every is_word m = true) as MW. { apply every_all. apply every_all in M. revert M. apply all_chars_impl. intros c C. apply digit_props in C. tauto. }
  destruct (span_eq is_word m v _ _ E MW V) as [_ X]; [apply stops_cons; exact W|apply stops_cons; reflexivity|]. injection X as -> _. discriminate P.
Qed.
Lemma white_then_sign a a' x r v w : sign x -> every is_space a = true -> every is_space a' = true -> v <> "" -> every is_word v = true -> a ++ x ++ r = a' ++ v ++ w -> False.
Proof.
  intros S A A' NV V E. apply span_eq with (p := is_space) in E as [_ E]; [|exact A|exact A'|apply sign_stops; try exact S; reflexivity|apply word_stops_space; assumption].
  revert E. apply sign_not_word; assumption.
Qed.
Lemma every_app p u v : every p (u ++ v) = every p u && every p v.
Proof. induction u as [|c u IH]; cbn; [reflexivity|]. rewrite IH. apply andb_assoc. Qed.
Lemma digits_words m : every is_digit m = true -> every is_word m = true.
Proof. intros M. apply every_all. apply every_all in M. revert M. apply all_chars_impl. intros c C. apply digit_props in C. tauto. Qed.
Lemma digits_no_space m r : m <> "" -> every is_digit m = true -> stops is_space (m ++ r).
Proof. intros N M. apply word_stops_space; [exact N|apply digits_words; exact M]. Qed.
Lemma digits_no_bracket m r q : m <> "" -> every is_digit m = true -> m ++ r <> "[" ++ q.
Proof. intros N M E. destruct m as [|c m]; [congruence|]. injection E as -> _. cbn in M. discriminate M. Qed.
Lemma word_no_bracket m r q : m <> "" -> every is_word m = true -> m ++ r <> "[" ++ q.
Proof. intros N M E. destruct m as [|c m]; [congruence|]. injection E as -> _. cbn in M. discriminate M. Qed.
Lemma after_tag t x r : tag_ok t -> sign x -> M_Gen.line_re (t ++ x ++ r) = None.
Proof.
  intros TG S. destruct (M_Gen.line_re (t ++ x ++ r)) eqn:E; [exfalso|reflexivity]. apply line_re_inv in E as (u & v & w & E & D & NV & V).
  apply tag_den in D as (a & m & b & -> & A & B & M). rewrite !sapp_assoc in E.
  assert (every is_space (a ++ b) = true) as AB by (rewrite every_app, A, B; reflexivity).
  destruct TG as [W|(a' & m' & b' & -> & WA & WB & H)].
  - apply white_every in W. destruct M as [->|[[NM M]|(y & -> & Y)]].
    + cbn [append] in E. rewrite <- (sapp_assoc a b) in E. apply (white_then_sign _ _ _ _ _ _ S W AB NV V E).
    + apply (white_then_sign _ _ _ _ _ _ S W A NM (digits_words _ M) E).
    + apply span_eq with (p := is_space) in E as [_ E]; [|exact W|exact A|apply sign_stops; try exact S; reflexivity|apply stops_cons; reflexivity].
      destruct S as [->|[->| ->]]; discriminate E.
  - apply white_every in WA, WB. rewrite !sapp_assoc in E. destruct H as [[[NM' M'] NB']|(y' & -> & Y')].
    + assert (every is_digit m' = true) as D'. { apply every_all. revert M'. apply all_chars_impl. intros c C. apply is_digit_spec. exact C. }
      destruct M as [->|[[NM M]|(y & -> & Y)]].
      * cbn [append] in E. rewrite <- (sapp_assoc a b) in E. apply span_eq with (p := is_space) in E as [_ E]; [|exact WA|exact AB|apply digits_no_space; assumption|apply word_stops_space; assumption].
        revert E. apply digits_then_white; assumption.
      * apply span_eq with (p := is_space) in E as [_ E]; [|exact WA|exact A|apply digits_no_space; assumption|apply digits_no_space; assumption].
        destruct b as [|e b].
        { cbn [append] in E. rewrite <- (sapp_assoc m v) in E. revert E. apply digits_then_white; try assumption. rewrite every_app, V, (digits_words _ M). reflexivity. }
        apply span_eq with (p := is_digit) in E as [_ E]; [|exact D'|exact M| |].
        { apply (white_then_sign _ _ _ _ _ _ S WB B NV V E). }
        { destruct b' as [|e' b']; [congruence|]. apply stops_cons. cbn in WB. apply andb_true_iff in WB as [WB _]. apply space_props in WB. tauto. }
        { apply stops_cons. cbn in B. apply andb_true_iff in B as [B _]. apply space_props in B. tauto. }
      * apply span_eq with (p := is_space) in E as [_ E]; [|exact WA|exact A|apply digits_no_space; assumption|apply stops_cons; reflexivity].
        rewrite !sapp_assoc in E. revert E. apply digits_no_bracket; assumption.
    + rewrite !sapp_assoc in E. destruct M as [->|[[NM M]|(y & -> & Y)]].
      * cbn [append] in E. rewrite <- (sapp_assoc a b) in E. apply span_eq with (p := is_space) in E as [_ E]; [|exact WA|exact AB|apply stops_cons; reflexivity|apply word_stops_space; assumption].
        symmetry in E. change (String "[" (y' ++ String "]" (b' ++ x ++ r))) with ("[" ++ (y' ++ String "]" (b' ++ x ++ r))) in E. revert E. apply word_no_bracket; assumption.
      * apply span_eq with (p := is_space) in E as [_ E]; [|exact WA|exact A|apply stops_cons; reflexivity|apply digits_no_space; assumption].
        symmetry in E. revert E. apply digits_no_bracket; assumption.
      * rewrite !sapp_assoc in E. apply span_eq with (p := is_space) in E as [_ E]; [|exact WA|exact A|apply stops_cons; reflexivity|apply stops_cons; reflexivity].
        injection E as E. apply span_eq with (p := fun c => negb (is_c "]" c)) in E as [_ E];
          [|apply every_all; revert Y'; apply all_chars_impl; intros c C; apply negb_true_iff; unfold is_c; apply Ascii.eqb_neq; congruence|exact Y|apply stops_cons; reflexivity|apply stops_cons; reflexivity].
        injection E as E. apply (white_then_sign _ _ _ _ _ _ S WB B NV V E).
Qed.
Lemma other_line s : other_ok s -> M_Gen.line_re s = None.
Proof. intros [_ [H|(t & x & r & -> & T & S)]]; [apply no_paren; exact H|apply after_tag; assumption]. Qed.

(* ---- Stripping and splitting ---- *)
Lemma rstrip_white s : all_chars white s -> M_Gen.rstrip s = "".
Proof. induction s as [|c s IH]; intros H; [reflexivity|]. apply all_chars_cons in H as [C H]. cbn. rewrite (IH H). apply is_space_spec in C. rewrite C. reflexivity. Qed.
Lemma rstrip_app s w : all_chars white w -> M_Gen.rstrip (s ++ w) = M_Gen.rstrip s.
Proof. intros W. induction s as [|c s IH]; [apply rstrip_white; exact W|]. cbn. rewrite IH. reflexivity. Qed.
Lemma rstrip_end t c : is_space c = false -> M_Gen.rstrip (t ++ String c "") = t ++ String c "".
Proof. intros C. induction t as [|e t IH]; cbn; [rewrite C; reflexivity|]. rewrite IH. destruct t; reflexivity. Qed.
Lemma lstrip_app w s : all_chars white w -> M_Gen.lstrip (w ++ s) = M_Gen.lstrip s.
Proof. induction w as [|c w IH]; intros H; [reflexivity|]. apply all_chars_cons in H as [C H]. apply is_space_spec in C. cbn. rewrite C. apply IH. exact H. Qed.
(* begins and ends with no white space *)
Definition trim (s : string) : Prop := stops is_space s /\ exists t c, s = t ++ String c "" /\ is_space c = false.
Lemma strip_trim w s w' : all_chars white w -> all_chars white w' -> trim s -> M_Gen.py_strip (w ++ s ++ w') = s.
Proof.
  intros W W' [S (t & c & E & C)]. unfold M_Gen.py_strip. rewrite (lstrip_app w _ W).
  assert (M_Gen.lstrip (s ++ w') = s ++ w') as ->.
  { destruct s as [|e s]; [destruct t; discriminate E|]. cbn. rewrite (S e s eq_refl). reflexivity. }
  rewrite (rstrip_app s w' W'), E. apply rstrip_end. exact C.
Qed.
Lemma split_last x u : all_chars (fun c => c <> x) u -> forall cur, M_Gen.py_split x u cur = [cur ++ u].
Proof.
  induction u as [|c u IH]; intros H cur; [cbn; rewrite sapp_nil_r; reflexivity|]. apply all_chars_cons in H as [C H]. cbn [M_Gen.py_split]. unfold is_c.
  assert (Ascii.eqb x c = false) as -> by (apply Ascii.eqb_neq; congruence). rewrite (IH H), sapp_assoc. reflexivity.
Qed.
Lemma split_first x u r : all_chars (fun c => c <> x) u -> forall cur, M_Gen.py_split x (u ++ String x r) cur = (cur ++ u) :: M_Gen.py_split x r "".
Proof.
  induction u as [|c u IH]; intros H cur; cbn [append M_Gen.py_split]; unfold is_c.
  - rewrite Ascii.eqb_refl, sapp_nil_r. reflexivity.
  - apply all_chars_cons in H as [C H]. assert (Ascii.eqb x c = false) as -> by (apply Ascii.eqb_neq; congruence). rewrite (IH H), sapp_assoc. reflexivity.
Qed.
Lemma split_words x l : l <> [] -> Forall (all_chars (fun c => c <> x)) l -> M_Gen.py_split x (String.concat (String x "") l) "" = l.
Proof.
  induction l as [|u l IH]; intros N H; [congruence|]. inversion H as [|? ? U H']; subst. destruct l as [|v l].
  - cbn [String.concat]. apply split_last. exact U.
  - rewrite concat_two. change (u ++ String x "" ++ String.concat (String x "") (v :: l)) with (u ++ String x (String.concat (String x "") (v :: l))).
    rewrite (split_first _ _ _ U), IH; [reflexivity|discriminate|exact H'].
Qed.
(* The argument after some others *)
Definition next_piece (r : string) : Prop := r = "" \/ exists t, r = String "," t.
Lemma split_arg v r : all_chars (fun c => c <> ","%char) v -> next_piece r -> forall before cur, Forall plain_arg before -> all_chars white cur ->
  exists cur', all_chars white cur' /\ nth_error (M_Gen.py_split "," (String.concat "" (map (fun a => a ++ ", ") before) ++ v ++ r) cur) (length before) = Some (cur' ++ v).
Proof.
  intros V R. induction before as [|b before IH]; intros cur H C.
  - exists cur. split; [exact C|]. cbn [map String.concat append length]. destruct R as [->|(t & ->)].
    + rewrite sapp_nil_r, (split_last _ _ V). reflexivity.
    + rewrite (split_first _ _ _ V). reflexivity.
  - inversion H as [|? ? B H']; subst. assert (all_chars (fun c => c <> ","%char) b) as B' by (revert B; apply all_chars_impl; intros c X; tauto).
    destruct (IH " " H') as (cur' & C' & E). { apply all_chars_cons. split; [right; split; discriminate|apply all_chars_nil]. }
    exists cur'. split; [exact C'|]. cbn [map length]. rewrite concat_cons. rewrite !sapp_assoc. cbn [append]. rewrite (split_first _ _ _ B'). cbn [nth_error M_Gen.py_split]. exact E.
Qed.
