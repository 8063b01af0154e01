(* Common policies, read by the parser in C. *)
From Verif Require Import P_CStr P_Const S_Policy S_PyPolicy P_PyFile.
From Verif Require Import M_PyParse S_PyText P_PyLex P_PyMean S_Common P_CommonPy.
Local Open Scope string_scope.

(* ---- Cutting at && and || ---- *)
Fixpoint apart (k : ascii) (s : string) : bool :=
  match s with
  | String c r => match r with String c' _ => negb (Ascii.eqb c k && Ascii.eqb c' k) | EmptyString => true end && apart k r
  | EmptyString => true
  end.
Lemma apart_cons k c s : apart k (String c s) = true <-> (c <> k \/ forall t, s <> String k t) /\ apart k s = true.
Proof.
  cbn [apart]. rewrite andb_true_iff. apply and_iff_compat_r. destruct s as [|c' t]; [split; [right; discriminate|reflexivity]|].
  rewrite negb_true_iff, andb_false_iff, !aeqb_false. split.
  - intros [H|H]; [left; exact H|right; intros u [= E _]; contradiction].
  - intros [H|H]; [left; exact H|right; intros ->; exact (H t eq_refl)].
Qed.
Lemma apart_contains k s : apart k s = true -> ~ contains (String k (String k "")) s.
Proof.
  intros H (u & v & E). subst s. induction u as [|c u IH]; cbn [append] in H.
  - apply apart_cons in H as [[H|H] _]; [congruence|exact (H _ eq_refl)].
  - apply apart_cons in H as [_ H]. exact (IH H).
Qed.
Lemma apart_app k u v : apart k u = true -> apart k v = true ->
  (forall t, v <> String k t) \/ (forall t, u <> t ++ String k "") -> apart k (u ++ v) = true.
Proof.
  intros U V H. induction u as [|c u IH]; [exact V|]. cbn [append]. apply apart_cons in U as [U1 U2]. apply apart_cons. split.
  - destruct u as [|c' u]; cbn [append].
    + destruct H as [H|H]; [right; exact H|left]. intros ->. exact (H "" eq_refl).
    + destruct U1 as [U1|U1]; [left; exact U1|right]. intros t [= E _]. subst. exact (U1 u eq_refl).
  - apply IH; [exact U2|]. destruct H as [H|H]; [left; exact H|right]. intros t E. apply (H (String c t)). rewrite E. reflexivity.
Qed.
Lemma without_apart k s : all_chars (fun c => c <> k) s -> apart k s = true.
Proof. induction s as [|c s IH]; intros H; [reflexivity|]. apply all_chars_cons in H as [H1 H2]. apply apart_cons. auto. Qed.
Lemma without_last k s : all_chars (fun c => c <> k) s -> forall t, s <> t ++ String k "".
Proof. intros H t ->. apply all_chars_app in H as [_ H]. apply all_chars_cons in H as [H _]. congruence. Qed.
Lemma without_first k s : all_chars (fun c => c <> k) s -> forall t, s <> String k t.
Proof. intros H t ->. apply all_chars_cons in H as [H _]. congruence. Qed.
Lemma apart_around k u m v : apart k u = true -> all_chars (fun c => c <> k) m -> m <> "" -> apart k v = true -> apart k (u ++ m ++ v) = true.
Proof.
  intros U M N V. apply apart_app; [exact U| |].
  - apply apart_app; [apply without_apart; exact M|exact V|right; apply without_last; exact M].
  - left. intros t E. destruct m as [|c m]; [congruence|]. injection E as -> _. apply all_chars_cons in M as [M _]. congruence.
Qed.
Lemma apart_concat k sep l : all_chars (fun c => c <> k) sep -> sep <> "" -> Forall (fun x => apart k x = true) l -> apart k (String.concat sep l) = true.
Proof.
  intros S N F. induction F as [|x l H F IH]; [reflexivity|]. destruct l as [|y l]; [exact H|]. rewrite concat_two. apply apart_around; assumption.
Qed.
Definition padding (p : string) : Prop := p = "" \/ p = " ".
Definition padded (g x : string) : Prop := exists pre post, padding pre /\ padding post /\ g = pre ++ x ++ post.
Lemma padding_without k p : padding p -> k <> " "%char -> all_chars (fun c => c <> k) p.
Proof. intros [->| ->] N; [apply all_chars_nil|]. apply all_chars_cons. split; [congruence|apply all_chars_nil]. Qed.
Lemma apart_padded k pre x post : k <> " "%char -> padding pre -> padding post -> apart k x = true -> apart k (pre ++ x ++ post) = true.
Proof.
  intros N P Q A. apply apart_app; [apply without_apart, padding_without; assumption| |right; apply without_last, padding_without; assumption].
  apply apart_app; [exact A|apply without_apart, padding_without; assumption|left; apply without_first, padding_without; assumption].
Qed.
Lemma first_cut k y r : apart k (y ++ " ") = true -> k <> " "%char ->
  forall u v, (y ++ " ") ++ String k (String k "") ++ r = u ++ String k (String k "") ++ v -> (String.length (y ++ " ") <= String.length u)%nat.
Proof.
  intros A N u v E. destruct (split_two _ _ _ _ E) as [(x & X & Y)|(x & X & _)]; [|rewrite X, !slen_app; lia].
  destruct x as [|c x]; [rewrite sapp_nil_r in X; rewrite X; lia|]. exfalso. injection Y as <- Y. destruct x as [|c' x].
  - apply (f_equal String.length) in X as L. change (y ++ " ") with (y ++ String " " "") in X. apply sapp_snoc_inj in X as [_ X]. congruence.
  - injection Y as <- Y. apply (apart_contains _ _ A). rewrite X. exists u, x. reflexivity.
Qed.
Lemma splits_padded k l : k <> " "%char -> l <> [] -> Forall (fun x => apart k x = true) l -> forall pre post, padding pre -> padding post ->
  exists gs, S_Text.splits (String k (String k "")) (pre ++ String.concat (" " ++ String k (String k "") ++ " ") l ++ post) gs /\ Forall2 padded gs l.
Proof.
  intros N NE F. induction F as [|x l H F IH]; [congruence|]. intros pre post P Q. destruct l as [|y l].
  - exists [pre ++ x ++ post]. split; [apply splits_last, apart_contains, apart_padded; assumption|]. constructor; [exists pre, post; auto|constructor].
  - destruct (IH ltac:(discriminate) " " post (or_intror eq_refl) Q) as (gs & S & G). exists ((pre ++ x ++ " ") :: gs). split.
    + rewrite concat_two. replace (pre ++ (x ++ (" " ++ String k (String k "") ++ " ") ++ String.concat (" " ++ String k (String k "") ++ " ") (y :: l)) ++ post)
        with ((pre ++ x ++ " ") ++ String k (String k "") ++ (" " ++ String.concat (" " ++ String k (String k "") ++ " ") (y :: l) ++ post)) by (rewrite !sapp_assoc; reflexivity).
      constructor; [|exact S]. replace (pre ++ x ++ " ") with ((pre ++ x) ++ " ") by (rewrite sapp_assoc; reflexivity).
      intros u v E. eapply first_cut; [|exact N|exact E]. rewrite sapp_assoc. apply apart_padded; [exact N|exact P|right; reflexivity|exact H].
    + constructor; [|exact G]. exists pre, " ". split; [exact P|]. split; [right; reflexivity|reflexivity].
Qed.

Section reading.
Variables (b : build) (fo : fopts) (fs : string -> option stream) (a : parch).
Hypothesis ST : same_tables b a.
Hypothesis B32 : (arch_bits (pa_arch a) = 32 \/ arch_bits (pa_arch a) = 64)%N.
Let w : N := if M_Bpf.bits64 (M_Filter.b_plat b) then 64%N else 32%N.
Lemma w_bits : w = arch_bits (pa_arch a).
Proof. destruct ST as (_ & E & _). symmetry. exact E. Qed.
Lemma first_map z s : first_entry (pa_constants a) s z -> first_entry (M_Filter.b_consts b) s (word_of a z).
Proof.
  destruct ST as (_ & _ & _ & -> & _). intros H. induction H as [n v t|m x n v t NE H IH]; [apply fe_here|]. apply fe_later; [exact NE|exact IH].
Qed.
Lemma plain_not_number s z : plain_name s -> ~ number s z.
Proof.
  intros (c & t & -> & H & _) NM. apply number_starts in NM as (c' & t' & [= <- <-] & D). destruct H as [H| ->]; [|discriminate D].
  apply is_letter_spec in H. destruct c as [[] [] [] [] [] [] [] []]; vm_compute in H, D; congruence.
Qed.
Lemma const_names s v : first_entry (M_Filter.b_consts b) s v -> plain_name s.
Proof.
  intros H. destruct ST as (_ & _ & _ & E & F). apply first_entry_in in H. rewrite E in H. apply in_map_iff in H as ((n & z) & [= <- _] & I).
  rewrite Forall_forall in F. exact (F _ I).
Qed.
Lemma const_const x : const_ok a x -> simple_const w (M_Filter.b_consts b) (pt_word x) (pt_value x).
Proof.
  intros (z & RG & V & [(P & NR & FE)|NU]); rewrite V.
  - replace (word_of a z) with (word_of a z mod 2 ^ w)%N; [apply sc_name, first_map, FE|]. apply N.mod_small. rewrite w_bits. unfold word_of.
    pose proof (Z.mod_pos_bound z (2 ^ Z.of_N (arch_bits (pa_arch a))) ltac:(apply Z.pow_pos_nonneg; lia)). rewrite <- N2Z_pow2 in *. lia.
  - unfold word_of. rewrite <- w_bits. apply sc_int.
    + intros v H. apply const_names in H. assert (number (pt_word x) z) as NM by (destruct NU; constructor; assumption). exact (plain_not_number _ _ H NM).
    + destruct NU as [s n M|s n M]; [apply (sg_plain magnitude ""); [apply all_chars_nil|exact M]|apply (sg_minus magnitude ""); [apply all_chars_nil|exact M]].
    + rewrite w_bits. exact RG.
Qed.
Lemma part_const x : part_ok a x -> plain_term w (M_Filter.b_consts b) (pt_word x) (pt_value x).
Proof.
  intros [H|(y & H & -> & ->)]; apply const_const in H; [apply plain_simple; exact H|]. rewrite <- w_bits. apply (plain_not w). exact H.
Qed.
Lemma parts_const l : l <> [] -> Forall (part_ok a) l -> const_expr w (M_Filter.b_consts b) (parts_text l) (parts_value l).
Proof.
  intros N F. induction F as [|x l H F IH]; [congruence|]. apply part_const in H. destruct l as [|y l].
  - cbn. rewrite N.lor_0_r. apply const_last, term_plain, H.
  - apply (const_or w _ (pt_word x) (pt_value x) (parts_text (y :: l))); [apply term_plain, H|apply IH; discriminate].
Qed.
Definition atom_of (x : catom) : atom := Atom (Z.of_N (ca_arg x)) (ca_op x) (parts_value (ca_parts x)).
Lemma no_space_run s : every (fun c => negb (is_c " " c)) s = true -> all_chars (fun x => x <> " "%char) s.
Proof. intros H. apply every_all in H. revert H. apply all_chars_impl. intros c C ->. discriminate C. Qed.
Lemma parts_no_space l : Forall (part_ok a) l -> all_chars (fun x => x <> " "%char) (parts_text l).
Proof.
  intros F. apply concat_chars; [apply no_space_run; reflexivity|]. revert F. apply Forall_map'. intros x H. apply part_chars in H. revert H. apply all_chars_impl.
  intros c C ->. discriminate C.
Qed.
Lemma parts_nonempty l : l <> [] -> Forall (part_ok a) l -> parts_text l <> "".
Proof. intros N F E. destruct (parts_chunk a l N F) as (ts & ((c & t & X & _) & _) & _). rewrite E in X. discriminate. Qed.
Lemma padding_run p : padding p -> all_chars (fun x => x = " "%char) p.
Proof. intros [->| ->]; [apply all_chars_nil|]. apply all_chars_cons. split; [reflexivity|apply all_chars_nil]. Qed.
Lemma atom_reads x g : catom_ok a x -> padded g (atom_text x) -> reads_atom b g (atom_of x).
Proof.
  intros (L & N & F) (pre & post & P & Q & ->). unfold atom_of.
  assert (as_int (clip w (Z.of_N (ca_arg x))) = Z.of_N (ca_arg x)) as A.
  { assert (ca_arg x = 0 \/ ca_arg x = 1 \/ ca_arg x = 2 \/ ca_arg x = 3 \/ ca_arg x = 4 \/ ca_arg x = 5)%N as H by lia. rewrite w_bits.
    destruct B32 as [-> | ->]; repeat destruct H as [->|H]; try reflexivity; rewrite H; reflexivity. }
  rewrite <- A. destruct (digit_of_dec _ L) as (c & E & D & DV). apply (ra b _ (digit_of (ca_arg x)) (Z.of_N (ca_arg x)) (op_word (ca_op x)) (ca_op x) (parts_text (ca_parts x))).
  - unfold atom_text. replace (pre ++ ("arg" ++ digit_of (ca_arg x) ++ " " ++ op_word (ca_op x) ++ " " ++ parts_text (ca_parts x)) ++ post)
      with (pre ++ ("arg" ++ digit_of (ca_arg x)) ++ (" " ++ op_word (ca_op x) ++ (" " ++ parts_text (ca_parts x) ++ post))) by (rewrite !sapp_assoc; reflexivity).
    apply runs_cons; [apply padding_run; exact P|discriminate| |right; eexists; reflexivity|].
    { rewrite E. apply (all_chars_app _ "arg"). split; [apply no_space_run; reflexivity|]. apply all_chars_cons. split; [|apply all_chars_nil]. intros ->. apply is_digit_spec in D. discriminate. }
    apply runs_cons; [apply padding_run; right; reflexivity|destruct (ca_op x); discriminate|apply no_space_run; destruct (ca_op x); reflexivity|right; eexists; reflexivity|].
    apply runs_cons; [apply padding_run; right; reflexivity|apply parts_nonempty; assumption|apply parts_no_space; exact F|destruct Q as [->| ->]; [left; reflexivity|right; exists ""; reflexivity]|].
    apply runs_nil, padding_run, Q.
  - apply (sg_plain _ ""); [apply all_chars_nil|exact DV].
  - destruct (ca_op x); reflexivity.
  - apply parts_const; assumption.
Qed.
Lemma every_without k s : every (fun c => negb (is_c k c)) s = true -> all_chars (fun x => x <> k) s.
Proof. intros H. apply every_all in H. revert H. apply all_chars_impl. intros c C ->. unfold is_c in C. rewrite aeqb_refl in C. discriminate C. Qed.
Lemma const_without k s : is_word k || is_c "-" k = false -> all_chars (fun c => is_word c || is_c "-" c = true) s -> all_chars (fun x => x <> k) s.
Proof. intros K. apply all_chars_impl. intros c C ->. congruence. Qed.
Lemma word_without k s : is_word k || is_c "-" k || is_c "~" k = false -> all_chars (fun c => is_word c || is_c "-" c || is_c "~" c = true) s -> all_chars (fun x => x <> k) s.
Proof. intros K. apply all_chars_impl. intros c C ->. congruence. Qed.
Lemma parts_bar l : Forall (part_ok a) l -> apart "|" (parts_text l) = true.
Proof.
  intros F. induction F as [|x l H F IH]; [reflexivity|]. pose proof (part_chars a x H) as C. apply (word_without "|") in C; [|reflexivity].
  destruct l as [|y l]; [apply without_apart; exact C|]. cbn [parts_text map]. unfold parts_text. cbn [map]. rewrite concat_two. apply apart_app; [apply without_apart; exact C| |right; apply without_last; exact C].
  apply apart_cons. split; [|exact IH]. right. intros t E. destruct (parts_chunk a (y :: l) ltac:(discriminate) F) as (ts & (B & _) & _).
  revert E. apply begins_not; [exact B|reflexivity].
Qed.
Lemma parts_and l : Forall (part_ok a) l -> all_chars (fun x => x <> "&"%char) (parts_text l).
Proof.
  intros F. apply concat_chars; [apply every_without; reflexivity|]. revert F. apply Forall_map'. intros x H. apply part_chars in H. revert H. apply word_without. reflexivity.
Qed.
Lemma digit_word i : (i < 6)%N -> all_chars (fun c => is_word c || is_c "-" c = true) (digit_of i).
Proof. intros L. destruct (digit_of_dec i L) as (c & -> & D & _). apply all_chars_cons. split; [apply is_digit_spec in D; unfold is_word; rewrite D, orb_true_r; reflexivity|apply all_chars_nil]. Qed.
Lemma atom_bar x : catom_ok a x -> apart "|" (atom_text x) = true.
Proof.
  intros (L & _ & F). unfold atom_text. replace ("arg" ++ digit_of (ca_arg x) ++ " " ++ op_word (ca_op x) ++ " " ++ parts_text (ca_parts x))
    with ("" ++ ("arg" ++ digit_of (ca_arg x) ++ " " ++ op_word (ca_op x) ++ " ") ++ parts_text (ca_parts x)) by (rewrite !sapp_assoc; reflexivity).
  apply apart_around; [reflexivity| |discriminate|apply parts_bar; exact F].
  apply (all_chars_app _ "arg"). split; [apply every_without; reflexivity|]. apply all_chars_app. split; [eapply const_without; [|apply digit_word; exact L]; reflexivity|].
  apply every_without. destruct (ca_op x); reflexivity.
Qed.
Lemma atom_and x : catom_ok a x -> apart "&" (atom_text x) = true.
Proof.
  intros (L & _ & F). unfold atom_text. replace ("arg" ++ digit_of (ca_arg x) ++ " " ++ op_word (ca_op x) ++ " " ++ parts_text (ca_parts x))
    with ("" ++ ("arg" ++ digit_of (ca_arg x) ++ " ") ++ (op_word (ca_op x) ++ " " ++ parts_text (ca_parts x))) by (rewrite !sapp_assoc; reflexivity).
  apply apart_around; [reflexivity| |discriminate|].
  - apply (all_chars_app _ "arg"). split; [apply every_without; reflexivity|]. apply all_chars_app. split; [eapply const_without; [|apply digit_word; exact L]; reflexivity|apply every_without; reflexivity].
  - apply apart_around; [destruct (ca_op x); reflexivity|apply every_without; reflexivity|discriminate|apply without_apart, parts_and, F].
Qed.
Lemma atoms_read ass l : Forall (catom_ok a) l -> Forall2 padded ass (map atom_text l) -> Forall2 (reads_atom b) ass (map atom_of l).
Proof.
  revert ass. induction l as [|x l IH]; intros ass F P; inversion P as [|g t ass' r H P' E1 E2]; subst; [constructor|].
  apply Forall_cons_iff in F as [OK F]. constructor; [apply atom_reads; assumption|apply IH; assumption].
Qed.
Lemma alts_read gs alts : Forall (fun l => l <> [] /\ Forall (catom_ok a) l) alts -> Forall2 padded gs (map alt_text alts) ->
  exists ass, Forall2 (S_Text.splits "&&") gs ass /\ Forall2 (Forall2 (reads_atom b)) ass (map (map atom_of) alts).
Proof.
  revert gs. induction alts as [|l alts IH]; intros gs F P; inversion P as [|g t gs' r H P' E1 E2]; subst; [exists []; split; constructor|].
  apply Forall_cons_iff in F as [[NL FL] F]. destruct (IH gs' F P') as (ass & S & R). destruct H as (pre & post & HP & HQ & ->).
  destruct (splits_padded "&" (map atom_text l)) with pre post as (as1 & S1 & P1); [discriminate|destruct l; [congruence|discriminate]| |exact HP|exact HQ|].
  { revert FL. apply Forall_map'. exact atom_and. }
  exists (as1 :: ass). split; [constructor; [exact S1|exact S]|]. constructor; [apply atoms_read; assumption|exact R].
Qed.
Definition rule_of (r : crule) : rule :=
  match r with
  | CAllow => Allow
  | CReturn x => Return (ERRNO (pt_value x))
  | CCond alts => Cond (map (map atom_of) alts) (action_value (M_Filter.fo_action fo))
  end.
Lemma alts_begin alts : alts <> [] -> Forall (fun l => l <> [] /\ Forall (catom_ok a) l) alts -> exists t, String.concat " || " (map alt_text alts) = "arg" ++ t.
Proof.
  intros N F. destruct alts as [|l alts]; [congruence|]. apply Forall_cons_iff in F as [[NL FL] _]. destruct l as [|x l]; [congruence|].
  assert (forall sep y r, exists t, String.concat sep (y :: r) = y ++ t) as X.
  { intros sep y r. destruct r as [|z r]; [exists ""; cbn; rewrite sapp_nil_r; reflexivity|]. rewrite concat_two. eexists. reflexivity. }
  cbn [map]. destruct (X " || " (alt_text (x :: l)) (map alt_text alts)) as (t & ->). unfold alt_text. cbn [map].
  destruct (X " && " (atom_text x) (map atom_text l)) as (t' & ->). unfold atom_text. rewrite !sapp_assoc. eexists. reflexivity.
Qed.
Lemma body_reads r : crule_ok a r -> reads_body b fo (rule_text r) (rule_of r).
Proof.
  destruct r as [|x|alts]; intros OK; cbn [rule_text rule_of].
  - constructor.
  - destruct OK as [P V]. change ("return " ++ pt_word x) with ("return" ++ (" " ++ pt_word x)). constructor. change ("return" ++ " " ++ pt_word x) with (("return" ++ "") ++ " " ++ pt_word x).
    apply (rr_errno b fo _ "" (pt_word x) []); [| |exact V].
    + pose proof (const_chars a x P) as C. apply (const_without " ") in C; [|reflexivity]. destruct (const_chunk a x P) as (t & ((c & u & E & _) & _) & _).
      apply (runs_cons " " "" "return" (" " ++ pt_word x)); [apply all_chars_nil|discriminate|apply no_space_run; reflexivity|right; eexists; reflexivity|].
      rewrite <- (sapp_nil_r (pt_word x)) at 1. apply runs_cons; [apply padding_run; right; reflexivity|rewrite E; discriminate|exact C|left; reflexivity|apply runs_nil, all_chars_nil].
    + apply const_last, term_plain, plain_simple, const_const, P.
  - destruct OK as [N F]. destruct (alts_begin alts N F) as (t & E). pose proof (rule_text_chars a (CCond alts) (Logic.conj N F)) as C. cbn [rule_text] in C.
    destruct (splits_padded "|" (map alt_text alts)) with "" "" as (gs & S & G); [discriminate|destruct alts; [congruence|discriminate]| |left; reflexivity|left; reflexivity|].
    { revert F. apply Forall_map'. intros l [NL FL]. apply apart_concat; [apply every_without; reflexivity|discriminate|]. revert FL. apply Forall_map'. exact atom_bar. }
    rewrite sapp_nil_r in S. cbn [append] in S. destruct (alts_read gs alts F G) as (ass & S2 & R).
    apply (rb_cond b fo _ (String.concat " || " (map alt_text alts)) gs ass).
    + rewrite E. discriminate.
    + rewrite E. discriminate.
    + intros y. rewrite E. discriminate.
    + rewrite <- (sapp_nil_r (String.concat " || " (map alt_text alts))) at 1. apply (runs_cons ";" ""); [apply all_chars_nil|rewrite E; discriminate| |left; reflexivity|apply runs_nil, all_chars_nil].
      revert C. apply all_chars_impl. intros c C ->. discriminate C.
    + exact S.
    + exact S2.
    + exact R.
Qed.
Lemma word_not_blank c : word_char c \/ c = "-"%char \/ c = "~"%char -> ~ blank_char c /\ c <> newline.
Proof.
  intros H. apply word_not_space in H. split; [intros [->| ->]|intros ->]; discriminate.
Qed.
Lemma stripped_pre pre s : padding pre -> begins s -> finishes s -> stripped (pre ++ s) s.
Proof.
  intros P (c & t & B & WB) (u & e & E & WE). exists pre, "". split; [rewrite sapp_nil_r; reflexivity|]. split; [|split; [apply all_chars_nil|split]].
  - destruct P as [->| ->]; [apply all_chars_nil|]. apply all_chars_cons. split; [left; reflexivity|apply all_chars_nil].
  - intros x y X. rewrite B in X. injection X as <- <-. exact (proj1 (word_not_blank c WB)).
  - intros x y X. rewrite E in X. apply sapp_snoc_inj in X as [_ <-]. apply word_not_blank. left. exact WE.
Qed.
Lemma stripped_id s : begins s -> finishes s -> stripped s s.
Proof. apply (stripped_pre ""). left. reflexivity. Qed.
Definition entry_of (l : cline) : policy := match l with CRule name nr r => [S_Policy.Entry name nr (rule_of r)] | _ => [] end.
Lemma line_reads incl l : cline_ok a l -> reads_line b fo incl (line_text l) (entry_of l).
Proof.
  destruct l as [|t|name nr r]; intros OK.
  - apply rl_blank. exists "", "". split; [reflexivity|]. split; [apply all_chars_nil|]. split; [apply all_chars_nil|]. split; [intros c t [=]|].
    intros c t E. destruct t; discriminate.
  - pose proof (strip_stripped ("#" ++ t)) as S. assert (exists u, M_CStr.strip ("#" ++ t) = "#" ++ u) as (u & E).
    { destruct S as (pre & post & E & P & Q & F & L). destruct pre as [|c pre].
      - destruct (M_CStr.strip ("#" ++ t)) as [|c s]; [|injection E as <- _; exists s; reflexivity]. cbn [append] in E.
        rewrite <- E in Q. apply all_chars_cons in Q as [[[Q|Q]|Q] _]; discriminate Q.
      - injection E as <- _. apply all_chars_cons in P as [[P|P] _]; discriminate P. }
    rewrite E in S. apply (rl_comment b fo incl _ u). exact S.
  - pose proof OK as (P & R & FE & OKR). destruct (rule_line a B32 name nr r OK) as (ts & (B & F & _) & _).
    destruct (rule_chunk a B32 r OKR) as (ts2 & (B2 & F2 & _) & _). pose proof (plain_word _ P) as W. pose proof P as (c & t & E & H & A).
    apply (rl_rule b fo incl _ (line_text (CRule name nr r)) name name (" " ++ rule_text r) (rule_text r)).
    + apply stripped_id; assumption.
    + reflexivity.
    + revert W. apply all_chars_impl. intros x X ->. apply is_word_spec in X. discriminate.
    + cbn [line_text]. intros x y X. rewrite E in X. injection X as <- _. destruct H as [H| ->]; [|split; discriminate].
      apply is_letter_spec in H. split; intros ->; discriminate.
    + apply stripped_id; [exists c, t; split; [exact E|]; left; destruct H as [H| ->]; [left; exact H|right; right; reflexivity]|].
      apply all_word_finishes; [rewrite E; discriminate|exact W].
    + apply stripped_pre; [right; reflexivity|exact B2|exact F2].
    + destruct ST as (_ & _ & -> & _). exact FE.
    + apply body_reads. exact OKR.
Qed.
Lemma line_no_nul l : cline_ok a l -> all_chars (fun c => c <> newline /\ c <> "000"%char) (line_text l).
Proof.
  destruct l as [|t|name nr r]; intros OK.
  - apply all_chars_nil.
  - apply all_chars_cons. split; [split; discriminate|]. destruct OK as [A _]. revert A. apply all_chars_impl. tauto.
  - apply line_chars in OK. revert OK. apply all_chars_impl. intros c C. split; intros ->; discriminate.
Qed.
Lemma policy_lines p : Forall (cline_ok a) p -> file_lines (policy_text p) (map line_text p).
Proof.
  intros F. exists (map line_text p), (map line_text p). induction F as [|l p OK F (IH1 & IH2 & IH3)]; [repeat constructor|]. pose proof (line_no_nul l OK) as N. split; [|split].
  - cbn [map policy_text]. constructor; [|exact IH1]. revert N. apply all_chars_impl. tauto.
  - cbn [map]. constructor; [|exact IH2]. intros t E. apply (line_finished a l OK). exists t. exact E.
  - cbn [map]. constructor; [|exact IH3]. split; [|left; reflexivity]. revert N. apply all_chars_impl. tauto.
Qed.
Lemma policy_reads p : Forall (cline_ok a) p -> reads_policy b fo fs (M_Lines.Stream (policy_text p) false) (flat_map entry_of p).
Proof.
  intros F. split; [reflexivity|]. exists (map line_text p), (map entry_of p). split; [apply policy_lines; exact F|]. split.
  - induction F as [|l p OK F IH]; constructor; [apply line_reads; exact OK|exact IH].
  - rewrite flat_map_concat_map. reflexivity.
Qed.
Lemma tables_names : names_ok (M_Filter.b_consts b).
Proof.
  unfold names_ok. destruct ST as (_ & _ & _ & -> & F). revert F. apply Forall_map'. intros (n & z) P. cbn in *. pose proof (plain_word _ P) as W. destruct P as (c & t & -> & _).
  split; [discriminate|]. revert W. apply all_chars_impl. intros x X. apply is_word_spec in X. repeat split; intros ->; discriminate.
Qed.
End reading.
