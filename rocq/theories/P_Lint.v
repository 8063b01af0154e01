(* The policies that seccomp_policy_lint.py passes. *)
From Verif Require Import P_CStr P_Const S_Policy S_PyPolicy P_PyFile.
From Verif Require Import M_PyParse S_PyText P_PyLex P_PyGram S_Common P_CommonPy P_CommonC P_Common.
From Verif Require M_Gen P_Claims P_Policy P_Compile P_Verdict P_Gen.
From Verif Require Import M_Lint S_Lint P_GenText P_GenRead.
Local Open Scope N_scope.
Local Open Scope string_scope.

(* ---- Lines ---- *)
Lemma every_white s : every is_space s = true -> all_chars white s.
Proof. intros H. apply every_all in H. revert H. apply all_chars_impl. intros c C. apply is_space_spec. exact C. Qed.
Lemma every_word s : every is_word s = true -> all_chars word_char s.
Proof. intros H. apply every_all in H. revert H. apply all_chars_impl. intros c C. apply is_word_spec. exact C. Qed.
Lemma comment_spec s : comment_re s = true <-> comment_line s.
Proof.
  unfold comment_re, comment_line. split.
  - destruct (matching _ _ _ _) as [[]|] eqn:M; [|discriminate]. intros _. apply matching_sound in M as (u & mid & -> & D & _).
    apply den_cat in D as (v & w & -> & D & D2). apply den_lit in D2. subst w. exists v, mid. rewrite sapp_assoc. split; [reflexivity|]. apply every_white. exact D.
  - intros (p & t & -> & W). assert (matching (Cat (Many is_space) (lit "#")) None (p ++ "#" ++ t) (fun _ _ => Some tt) = Some tt) as ->; [|reflexivity].
    cbn [matching]. apply many_first; [apply stops_cons; reflexivity|apply white_every; exact W|]. rewrite lit_first. reflexivity.
Qed.
Lemma rule_found n body s : in_line s -> ruled n body s -> rule_re s = Some (n, body).
Proof.
  intros IL (p & q & z & E & P & Q & Z & N & B). unfold rule_re.
  assert (exists p' q', p ++ n ++ q ++ ":" ++ z ++ body = p' ++ n ++ q' ++ ":" ++ z ++ body /\ all_chars white p' /\ all_chars white q' /\ stops is_space (n ++ q' ++ ":" ++ z ++ body)) as (p' & q' & E' & P' & Q' & ST).
  { destruct n as [|c n].
    - exists (p ++ q), "". split; [cbn [append]; rewrite sapp_assoc; reflexivity|]. split; [apply all_chars_app; split; assumption|]. split; [apply all_chars_nil|]. apply stops_cons. reflexivity.
    - exists p, q. split; [reflexivity|]. split; [exact P|]. split; [exact Q|]. cbn [append]. apply stops_cons. apply all_chars_cons in N as [N _].
      apply not_true_iff_false. intros X. apply is_word_spec in N. apply space_props in X as (_ & X & _). congruence. }
  rewrite E' in E. clear p q P Q E'. rewrite E in *. cbn [matching]. apply many_first; [exact ST|apply white_every; exact P'|].
  apply many_first.
  - destruct q' as [|c q']; [apply stops_cons; reflexivity|]. cbn [append]. apply stops_cons. apply all_chars_cons in Q' as [Q' _]. apply is_space_spec in Q'. apply space_props in Q'. apply Q'.
  - apply word_every. exact N.
  - apply many_first; [apply stops_cons; reflexivity|apply white_every; exact Q'|]. rewrite lit_first. apply many_first.
    + intros c t X. apply not_true_iff_false. intros Y. apply is_space_spec in Y. exact (B c t X Y).
    + apply white_every. exact Z.
    + rewrite <- (sapp_nil_r body) at 1. apply many_first; [apply stops_nil| |].
      * apply every_all. unfold in_line in IL. rewrite !all_chars_app in IL. destruct IL as (_ & _ & _ & _ & _ & IL). revert IL. apply all_chars_impl.
        intros c [X _]. apply negb_true_iff. apply not_true_iff_false. intros Y. apply is_c_spec in Y. exact (X Y).
      * cbn [many]. rewrite cut_l. cbn [String.length]. rewrite Nat.sub_0_r, substring_all by lia. reflexivity.
Qed.

Lemma rule_spec n body s : in_line s -> rule_re s = Some (n, body) <-> ruled n body s.
Proof.
  intros IL. split; [|apply rule_found; exact IL]. intros H.
  assert (exists n' b', ruled n' b' s) as (n' & b' & R).
  { unfold rule_re in H. apply matching_sound in H as (p & m1 & -> & P & H). apply matching_sound in H as (m & m2 & -> & M & H).
    apply matching_sound in H as (u & m3 & -> & D & _). apply den_cat in D as (q & w & -> & Q & D). apply den_lit in D. subst w.
    destruct (longest is_space m3) as (z & b' & -> & Z & B). exists m, b', p, q, z. split; [rewrite !sapp_assoc; reflexivity|].
    split; [apply every_white; exact P|]. split; [apply every_white; exact Q|]. split; [apply every_white; exact Z|]. split; [apply every_word; exact M|].
    intros c t E W. apply is_space_spec in W. rewrite (B c t E) in W. discriminate W. }
  rewrite (rule_found n' b' s IL R) in H. injection H as -> ->. exact R.
Qed.
Lemma rule_no_comment n s : rule_line n s -> ~ comment_line s.
Proof.
  intros (body & p & q & z & -> & P & Q & Z & N & _) (p' & t & E & P').
  destruct (longest is_space (n ++ q ++ ":" ++ z ++ body)) as (w & r & E2 & W & ST). rewrite E2 in E. rewrite <- sapp_assoc in E.
  assert (every is_space (p ++ w) = true) as PW by (rewrite every_app, W, (white_every _ P); reflexivity).
  destruct (span_eq is_space (p ++ w) p' r ("#" ++ t) E PW (white_every _ P') ST ltac:(apply stops_cons; reflexivity)) as [_ ->].
  destruct n as [|c n].
  - cbn [append] in E2. destruct (span_eq is_space q w (":" ++ z ++ body) ("#" ++ t) E2 (white_every _ Q) W ltac:(apply stops_cons; reflexivity) ST) as [_ X]. discriminate X.
  - apply all_chars_cons in N as [N _]. apply is_word_spec in N. destruct w as [|d w]; cbn [append] in E2; injection E2 as -> _; [discriminate N|].
    cbn in W. apply andb_true_iff in W as [W _]. apply space_props in W as (_ & X & _). congruence.
Qed.
Lemma blank_no_rule n s : blank_re s = true -> ~ rule_line n s.
Proof.
  unfold blank_re. destruct (matching _ _ _ _) as [[]|] eqn:M; [|discriminate]. intros _ (body & p & q & z & -> & _).
  apply matching_sound in M as (u & mid & E & D & K). destruct mid; [|discriminate]. rewrite sapp_nil_r in E. subst u. cbn [den] in D. rewrite !every_app in D. cbn in D.
  rewrite !andb_false_r in D. discriminate D.
Qed.

(* ---- What is reported ---- *)
Lemma snoc_cut {T} (l : list T) s l1 r l2 : (l ++ [s])%list = (l1 ++ r :: l2)%list -> (l1 = l /\ r = s /\ l2 = []) \/ exists l3, l2 = (l3 ++ [s])%list /\ l = (l1 ++ r :: l3)%list.
Proof.
  intros E. destruct l2 as [|x l2] using rev_ind.
  - left. apply app_inj_tail in E as [-> ->]. auto.
  - right. change (l1 ++ r :: (l2 ++ [x]))%list with (l1 ++ (r :: l2) ++ [x])%list in E. rewrite app_assoc in E. apply app_inj_tail in E as [-> ->]. exists l2. auto.
Qed.
Lemma seen_snoc n l s : seen n (l ++ [s])%list <-> seen n l \/ rule_line n s.
Proof.
  unfold seen. split.
  - intros (x & I & R). apply in_app_iff in I as [I|[<-|[]]]; [left; exists x; auto|right; exact R].
  - intros [(x & I & R)|R]; [exists x|exists s]; (split; [apply in_app_iff|exact R]); [left; exact I|right; left; reflexivity].
Qed.
Lemma commented_snoc l s : commented (l ++ [s])%list <-> comment_line s \/ (commented l /\ forall n, ~ rule_line n s).
Proof.
  unfold commented. split.
  - intros (l1 & c & mid & E & C & F). apply snoc_cut in E as [(-> & -> & ->)|(l3 & -> & ->)]; [left; exact C|]. right. apply Forall_app in F as [F G].
    split; [exists l1, c, l3; auto|]. apply Forall_inv in G. exact G.
  - intros [C|((l1 & c & mid & -> & C & F) & N)].
    + exists l, s, []. auto.
    + exists l1, c, (mid ++ [s])%list. split; [rewrite <- app_assoc; reflexivity|]. split; [exact C|]. apply Forall_app. split; [exact F|]. apply Forall_cons; [exact N|constructor].
Qed.
Section lint.
Variable dangerous : list string.
Lemma reported_snoc l s e : reported dangerous (l ++ [s])%list e <-> reported dangerous l e \/
  exists body, er_line e = N.of_nat (length l) /\ ruled (er_call e) body s /\ wrong dangerous l (er_call e) body (er_problem e).
Proof.
  unfold reported. split.
  - intros (l1 & r & l2 & body & E & L & R & W). apply snoc_cut in E as [(-> & -> & ->)|(l3 & -> & ->)]; [right; exists body; auto|]. left. exists l1, r, l3, body. auto.
  - intros [(l1 & r & l2 & body & -> & L & R & W)|(body & L & R & W)].
    + exists l1, r, (l2 ++ [s])%list, body. rewrite <- app_assoc. auto.
    + exists l, s, [], body. auto.
Qed.
Lemma danger_snoc l s : names_dangerous dangerous (l ++ [s])%list <-> names_dangerous dangerous l \/ exists n, rule_line n s /\ In n dangerous.
Proof.
  unfold names_dangerous. split.
  - intros (n & S & I). apply seen_snoc in S as [S|S]; [left|right]; exists n; auto.
  - intros [(n & S & I)|(n & S & I)]; exists n; (split; [apply seen_snoc|exact I]); auto.
Qed.
Definition rules_of (n : string) : list string := match lookup n SYSCALL_SAFE_RULES with Some l => l | None => [] end.
Lemma rules_of_spec n l : usual_rules n l <-> rules_of n = l.
Proof.
  unfold rules_of. split.
  - intros H. destruct H as [|n H|n H]; [reflexivity| |].
    + destruct H as [<-|[<-|[<-|[]]]]; reflexivity.
    + cbn [lookup SYSCALL_SAFE_RULES]. repeat (match goal with |- context [String.eqb ?a ?b] => destruct (String.eqb_spec a b); [exfalso; apply H; subst; cbn; tauto|] end). reflexivity.
  - intros <-. cbn [lookup SYSCALL_SAFE_RULES].
    repeat (match goal with |- context [String.eqb ?a ?b] => destruct (String.eqb_spec a b); [subst; solve [apply ur_random|apply ur_map; cbn; tauto]|] end).
    apply ur_other. cbn. intuition.
Qed.
Lemma safe_spec n body : M_Gen.inb body GLOBAL_SAFE_RULES || M_Gen.inb body (rules_of n) = true <-> safe_text n body.
Proof.
  unfold safe_text. rewrite orb_true_iff, !inb_spec. split; (intros [H|H]; [left; exact H|right]).
  - exists (rules_of n). split; [apply rules_of_spec; reflexivity|exact H].
  - destruct H as (l & U & I). apply rules_of_spec in U. subst l. exact I.
Qed.
Record inv (ls : list string) (st : lint) : Prop := Inv {
  i_found n : In n (l_found st) <-> seen n ls;
  i_comment : l_comment st = true <-> commented ls;
  i_danger : l_dangerous st = true <-> names_dangerous dangerous ls;
  i_errors e : In e (l_errors st) <-> reported dangerous ls e }.
Lemma ruled_unique n body m body' s : in_line s -> ruled n body s -> ruled m body' s -> n = m /\ body = body'.
Proof. intros IL R R'. apply rule_spec in R; [|exact IL]. apply rule_spec in R'; [|exact IL]. rewrite R in R'. injection R' as -> ->. auto. Qed.
Lemma rule_step ls st s n body : in_line s -> ruled n body s -> inv ls st -> inv (ls ++ [s])%list (check_rule dangerous (N.of_nat (length ls)) n body st).
Proof.
  intros IL R [IF IC ID IE].
  assert (forall m, rule_line m s <-> m = n) as RL.
  { intros m. split; [intros (b' & R'); apply (ruled_unique m b' n body s IL R' R)|]. intros ->. exists body. exact R. }
  assert (~ commented (ls ++ [s])%list) as NC.
  { rewrite commented_snoc. intros [C|[_ N]]; [exact (rule_no_comment n s (ex_intro _ body R) C)|exact (N n (ex_intro _ body R))]. }
  assert (forall e, (exists b', er_line e = N.of_nat (length ls) /\ ruled (er_call e) b' s /\ wrong dangerous ls (er_call e) b' (er_problem e)) <->
    exists pb, e = Error (N.of_nat (length ls)) n pb /\ wrong dangerous ls n body pb) as NE.
  { intros [k m pb]. cbn [er_line er_call er_problem]. split.
    - intros (b' & -> & R' & W). destruct (ruled_unique _ _ _ _ _ IL R' R) as [-> ->]. exists pb. auto.
    - intros (pb' & [= -> -> ->] & W). exists body. auto. }
  unfold check_rule. fold (rules_of n). destruct (M_Gen.inb n (l_found st)) eqn:F.
  { apply inb_spec in F. pose proof (proj1 (IF n) F) as S. split; cbn [l_found l_comment l_dangerous l_errors].
    - intros m. rewrite seen_snoc, IF, RL. split; [auto|]. intros [X| ->]; assumption.
    - split; [discriminate|contradiction].
    - rewrite danger_snoc, ID. split; [auto|]. intros [X|(m & Y & Z)]; [exact X|]. apply RL in Y. subst m. exists n. auto.
    - intros e. rewrite in_app_iff, reported_snoc, NE, IE. cbn [In]. split; (intros [X|X]; [left; exact X|right]).
      + destruct X as [<-|[]]. exists Duplicate. split; [reflexivity|constructor; exact S].
      + destruct X as (pb & -> & W). destruct W; [left; reflexivity|contradiction|contradiction]. }
  apply inb_false in F. assert (~ seen n ls) as S by (rewrite <- IF; exact F).
  assert (forall m, In m (n :: l_found st) <-> seen m (ls ++ [s])) as IF'.
  { intros m. rewrite seen_snoc, RL. cbn [In]. rewrite IF. split; (intros [X|X]; [right|left]); auto. }
  destruct (M_Gen.inb n dangerous) eqn:D.
  - apply inb_spec in D. split; cbn [l_found l_comment l_dangerous l_errors]; [exact IF'|split; [discriminate|contradiction]| |].
    + split; [intros _|reflexivity]. exists n. split; [apply seen_snoc; right; apply RL; reflexivity|exact D].
    + intros e. rewrite reported_snoc, NE, <- IE. destruct (l_comment st) eqn:C.
      { pose proof (proj1 IC eq_refl) as CM. split; [auto|]. intros [X|(pb & _ & W)]; [exact X|]. destruct W; contradiction. }
      assert (~ commented ls) as CM by (rewrite <- IC; discriminate). destruct (M_Gen.inb body GLOBAL_SAFE_RULES || M_Gen.inb body (rules_of n)) eqn:SF.
      { apply safe_spec in SF. split; [auto|]. intros [X|(pb & _ & W)]; [exact X|]. destruct W; contradiction. }
      assert (~ safe_text n body) as SF' by (rewrite <- safe_spec, SF; discriminate). rewrite in_app_iff. cbn [In].
      pose proof (proj2 (rules_of_spec n _) eq_refl) as U.
      split; (intros [X|X]; [left; exact X|right]).
      * destruct X as [<-|[]]. eexists. split; [reflexivity|]. destruct (rules_of n) as [|x l] eqn:RO; [constructor; assumption|]. apply w_rules; [assumption..|discriminate].
      * left. destruct X as (pb & -> & W). destruct W as [W|_ _ _ _ W|l _ _ _ _ W NL]; [contradiction| |]; apply rules_of_spec in W; rewrite W; [reflexivity|]. destruct l; [congruence|reflexivity].
  - apply inb_false in D. split; cbn [l_found l_comment l_dangerous l_errors]; [exact IF'|split; [discriminate|contradiction]| |].
    + rewrite danger_snoc, ID. split; [auto|]. intros [X|(m & Y & Z)]; [exact X|]. apply RL in Y. subst m. contradiction.
    + intros e. rewrite reported_snoc, NE, IE. split; [auto|]. intros [X|(pb & _ & W)]; [exact X|]. destruct W; contradiction.
Qed.
Lemma other_step ls st s : (forall n, ~ rule_line n s) -> ~ comment_line s -> inv ls st -> inv (ls ++ [s])%list st.
Proof.
  intros N NC [IF IC ID IE]. split.
  - intros n. rewrite seen_snoc, IF. split; [auto|]. intros [X|X]; [exact X|]. destruct (N n X).
  - rewrite commented_snoc, IC. split; [auto|]. intros [X|X]; [contradiction|apply X].
  - rewrite danger_snoc, ID. split; [auto|]. intros [X|(n & X & _)]; [exact X|]. destruct (N n X).
  - intros e. rewrite reported_snoc, IE. split; [auto|]. intros [X|(b & _ & X & _)]; [exact X|]. destruct (N _ (ex_intro _ b X)).
Qed.
Lemma line_step ls st s : in_line s -> inv ls st -> inv (ls ++ [s])%list (check_line dangerous (N.of_nat (length ls)) s st).
Proof.
  intros IL I. unfold check_line. destruct (comment_re s) eqn:C.
  - apply comment_spec in C. destruct I as [IF IC ID IE]. assert (forall n, ~ rule_line n s) as N by (intros n R; exact (rule_no_comment n s R C)).
    split; cbn [l_found l_comment l_dangerous l_errors].
    + intros n. rewrite seen_snoc, IF. split; [auto|]. intros [X|X]; [exact X|]. destruct (N n X).
    + split; [intros _; apply commented_snoc; left; exact C|reflexivity].
    + rewrite danger_snoc, ID. split; [auto|]. intros [X|(n & X & _)]; [exact X|]. destruct (N n X).
    + intros e. rewrite reported_snoc, IE. split; [auto|]. intros [X|(b & _ & X & _)]; [exact X|]. destruct (N _ (ex_intro _ b X)).
  - assert (~ comment_line s) as NC by (rewrite <- comment_spec, C; discriminate). destruct (blank_re s) eqn:B.
    + apply other_step; [intros n; apply blank_no_rule; exact B|exact NC|exact I].
    + destruct (rule_re s) as [[n body]|] eqn:R; [apply rule_step; [exact IL|apply rule_spec; assumption|exact I]|].
      apply other_step; [|exact NC|exact I]. intros n (body & X). apply rule_spec in X; [|exact IL]. congruence.
Qed.
Lemma lines_steps ls : forall pre st, Forall in_line ls -> inv pre st -> inv (pre ++ ls)%list (check_lines dangerous (N.of_nat (length pre)) ls st).
Proof.
  induction ls as [|s ls IH]; intros pre st F I; [rewrite app_nil_r; exact I|]. inversion F as [|? ? IL F']; subst. cbn [check_lines].
  change (pre ++ s :: ls)%list with (pre ++ [s] ++ ls)%list. rewrite app_assoc. replace (N.of_nat (length pre) + 1) with (N.of_nat (length (pre ++ [s])%list)) by (rewrite app_length; cbn; lia).
  apply IH; [exact F'|]. apply line_step; assumption.
Qed.
Lemma checked t ls : text_cut t ls -> inv ls (check_seccomp_policy dangerous t).
Proof.
  intros C. unfold check_seccomp_policy. rewrite (proj2 (text_lines_spec t ls) C). apply (lines_steps ls []); [exact (text_cut_in_line _ _ C)|]. split.
  - intros n. split; [intros []|intros (s & [] & _)].
  - split; [discriminate|]. intros (l1 & c & mid & E & _). destruct l1; discriminate E.
  - split; [discriminate|]. intros (n & (s & [] & _) & _).
  - intros e. split; [intros []|]. intros (l1 & r & l2 & b & E & _). destruct l1; discriminate E.
Qed.
Lemma lint_reports t ls e : text_cut t ls -> In e (l_errors (check_seccomp_policy dangerous t)) <-> reported dangerous ls e.
Proof. intros C. apply (i_errors _ _ (checked t ls C)). Qed.
Lemma lint_danger t ls : text_cut t ls -> l_dangerous (check_seccomp_policy dangerous t) = true <-> names_dangerous dangerous ls.
Proof. intros C. apply (i_danger _ _ (checked t ls C)). Qed.
Lemma clean_spec ls : Forall in_line ls -> clean dangerous ls <-> forall e, ~ reported dangerous ls e.
Proof.
  intros F. split.
  - intros C e (l1 & r & l2 & body & -> & _ & R & W). destruct (C l1 r l2 _ _ eq_refl R) as [S D]. destruct W as [W|_ I N1 N2|l _ I N1 N2]; [contradiction| |]; destruct (D I); contradiction.
  - intros N l1 r l2 n body -> R.
    assert (forall pb, ~ wrong dangerous l1 n body pb) as NW by (intros pb W; apply (N (Error (N.of_nat (length l1)) n pb)); exists l1, r, l2, body; auto).
    assert (~ seen n l1) as S by (intros S; exact (NW _ (w_twice _ _ _ _ S))). split; [exact S|]. intros D.
    assert (forall st, inv l1 st -> commented l1 \/ ~ commented l1) as CD. { intros st I. rewrite <- (i_comment _ _ I). destruct (l_comment st); [left|right]; congruence. }
    apply Forall_app in F as [F1 _]. destruct (CD (check_lines dangerous 0 l1 (Lint [] [] false false))) as [C|C]; [|left; exact C|].
    { apply (lines_steps l1 []); [exact F1|]. split.
      - intros m. split; [intros []|intros (s & [] & _)].
      - split; [discriminate|]. intros (x1 & c & mid & E & _). destruct x1; discriminate E.
      - split; [discriminate|]. intros (m & (s & [] & _) & _).
      - intros e. split; [intros []|]. intros (x1 & y & x2 & b & E & _). destruct x1; discriminate E. }
    right. destruct (M_Gen.inb body GLOBAL_SAFE_RULES || M_Gen.inb body (rules_of n)) eqn:SF; [apply safe_spec; exact SF|]. exfalso.
    assert (~ safe_text n body) as SF' by (rewrite <- safe_spec, SF; discriminate). pose proof (proj2 (rules_of_spec n _) eq_refl) as U.
    destruct (rules_of n) as [|x l]; [exact (NW _ (w_comment _ _ _ _ S D C SF' U))|]. refine (NW _ (w_rules _ _ _ _ _ S D C SF' U _)). discriminate.
Qed.
Lemma lint_passes t ls : text_cut t ls -> exit_status dangerous t = 0 <-> clean dangerous ls.
Proof.
  intros C. rewrite (clean_spec ls (text_cut_in_line _ _ C)). unfold exit_status. pose proof (fun e => lint_reports t ls e C) as R. destruct (l_errors _) as [|e l].
  - split; [|reflexivity]. intros _ e X. apply R in X. exact X.
  - split; [discriminate|]. intros X. exfalso. apply (X e). apply R. left. reflexivity.
Qed.
End lint.

(* ---- What the C compiler makes of it ---- *)
Lemma white_tame c : white c -> c = "009"%char \/ 32 <= N_of_ascii c -> blank_char c.
Proof.
  intros W [-> |H]; [right; reflexivity|]. left. rewrite <- (ascii_N_embedding c). replace (N_of_ascii c) with 32; [reflexivity|]. unfold white in W. lia.
Qed.
Lemma blank_white c : blank_char c -> white c.
Proof. unfold white. intros [-> | ->]; cbn; lia. Qed.
Lemma tame_in_line s : tame_line s -> in_line s.
Proof. intros (H & _). revert H. apply all_chars_impl. intros c [-> |H]; [split; discriminate|]. split; intros ->; cbn in H; lia. Qed.
Lemma tame_cut t ls : lines_of t ls -> Forall tame_line ls -> text_cut t ls.
Proof.
  induction 1 as [|s N L|l r ls L R IH]; intros F; inversion F; subst; constructor; auto using tame_in_line.
Qed.
Lemma tame_joined ls : Forall tame_line ls -> joined ls ls.
Proof. induction 1 as [|s ls (_ & N & _) F IH]; constructor; assumption. Qed.
Lemma tame_file t ls : lines_of t ls -> Forall tame_line ls -> file_lines t ls.
Proof.
  intros L F. exists ls, ls. split; [exact L|]. split; [apply tame_joined; exact F|]. clear L. induction F as [|s ls (H & _) F IH]; constructor; [|exact IH].
  split; [|left; reflexivity]. revert H. apply all_chars_impl. intros c [-> |H]; [discriminate|]. intros ->. cbn in H. lia.
Qed.
Lemma kill_unread b fo s : In s ["kill"; "kill-process"; "kill-thread"] -> P_Compile.body_of b fo s = None.
Proof. intros [<-|[<-|[<-|[]]]]; reflexivity. Qed.
Section c.
Variables (a : parch) (b : build) (fo : fopts).
Let bits := arch_bits (pa_arch a).
Hypothesis B32 : bits = 32 \/ bits = 64.
Hypotheses (ST : same_tables b a) (LE : M_Bpf.little (M_Filter.b_plat b) = true).
Hypotheses (WT : word_table (pa_syscalls a)) (KC : kernel_constants a).
Lemma body_nonempty s r : reads_body b fo s r -> s <> "".
Proof. intros H. destruct H; congruence || discriminate. Qed.
Lemma blanks_white u : all_chars (fun c => blank_char c) u -> all_chars white u.
Proof. apply all_chars_impl. exact blank_white. Qed.
Lemma line_ruled incl raw p e : tame_line raw -> reads_line b fo incl raw p -> In e p ->
  exists bd tail, ruled (S_Policy.e_name e) (bd ++ tail) raw /\ first_entry (pa_syscalls a) (S_Policy.e_name e) (S_Policy.e_nr e) /\ reads_body b fo bd (S_Policy.e_rule e) /\
    stripped (bd ++ tail) bd.
Proof.
  intros (T & _ & NI) R I. destruct R as [raw S|raw t S|raw t S|raw f p S X Y|raw s name nm body bd nr r S E AC NC SN SB FE RB|raw s name nm body bd S]; try solve [destruct I].
  { exfalso. exact (NI (" " ++ f) S). }
  destruct I as [I|[]]. subst e. cbn [S_Policy.e_name S_Policy.e_nr S_Policy.e_rule].
  destruct S as (pre & post & -> & PR & PO & _). destruct SN as (p1 & q1 & -> & P1 & Q1 & HN & _). destruct SB as (z & z2 & -> & Z & Z2 & H1 & H2). subst s.
  destruct ST as (_ & _ & ES & _). rewrite ES in FE. pose proof (proj1 WT _ _ FE) as W.
  rewrite !all_chars_app in T. destruct T as (_ & ((_ & _ & Tq) & _ & _ & Tb & _) & _).
  exists bd, (z2 ++ post). split; [|split; [exact FE|split; [exact RB|]]].
  - exists (pre ++ p1), q1, z. split; [rewrite !sapp_assoc; reflexivity|]. split; [apply all_chars_app; split; apply blanks_white; assumption|].
    split; [|split; [apply blanks_white; exact Z|split; [exact W|]]].
    + intros i c G. destruct (Q1 i c G) as [X| ->]; [apply blank_white; exact X|]. destruct (Tq i _ G) as [X|X]; [discriminate X|cbn in X; lia].
    + pose proof (body_nonempty _ _ RB) as NE. intros c t E X. destruct bd as [|c' bd]; [congruence|]. cbn [append] in E. injection E as -> _.
      apply (H1 c bd eq_refl). apply white_tame; [exact X|]. exact (Tb 0%nat c eq_refl).
  - exists "", (z2 ++ post). split; [reflexivity|]. split; [apply all_chars_nil|]. split; [apply all_chars_app; split; assumption|]. split; assumption.
Qed.
(* the safe rules, as the C compiler reads them *)
Definition neg (w : string) (v : N) : part := Part ("~" ++ w) (2 ^ bits - 1 - v).
Definition safe_rule (n s : string) (r : crule) : Prop :=
  (s = "return 1" /\ r = CReturn (Part "1" 1)) \/
  (n = "getrandom" /\ s = "arg2 in ~GRND_RANDOM" /\ r = CCond [[CAtom 2 M_Bpf.IN [neg "GRND_RANDOM" 2]]]) \/
  (In n ["mmap"; "mmap2"; "mprotect"] /\
   ((s = "arg2 == PROT_READ || arg2 == PROT_NONE" /\ r = CCond [[CAtom 2 M_Bpf.EQ [Part "PROT_READ" 1]]; [CAtom 2 M_Bpf.EQ [Part "PROT_NONE" 0]]]) \/
    (s = "arg2 in ~PROT_EXEC" /\ r = CCond [[CAtom 2 M_Bpf.IN [neg "PROT_EXEC" 4]]]) \/
    (s = "arg2 in ~PROT_EXEC || arg2 in ~PROT_WRITE" /\ r = CCond [[CAtom 2 M_Bpf.IN [neg "PROT_EXEC" 4]]; [CAtom 2 M_Bpf.IN [neg "PROT_WRITE" 2]]]))).
Lemma safe_rules n s : safe_text n s -> In s ["kill"; "kill-process"; "kill-thread"] \/ exists r, safe_rule n s r.
Proof.
  unfold safe_rule. intros [H|(l & U & H)].
  - destruct H as [<-|[<-|[<-|[<-|[]]]]]; [left; cbn; tauto..|]. right. eexists. left. split; reflexivity.
  - right. destruct U as [|n N|n N]; [| |destruct H].
    + destruct H as [<-|[]]. eexists. right; left. split; [reflexivity|]. split; reflexivity.
    + destruct H as [<-|[<-|[<-|[]]]]; eexists; right; right; (split; [exact N|]); [left|right; left|right; right]; split; reflexivity.
Qed.
Lemma kc_part w v : In (Part w v) [Part "PROT_READ" 1; Part "PROT_WRITE" 2; Part "PROT_EXEC" 4; Part "PROT_NONE" 0; Part "GRND_RANDOM" 2] -> part_ok a (Part w v) /\ part_ok a (neg w v).
Proof.
  intros I. unfold kernel_constants in KC. rewrite Forall_forall in KC. apply KC in I. split; [left; exact I|]. right. exists (Part w v). split; [exact I|]. split; reflexivity.
Qed.
Lemma one_const : const_ok a (Part "1" 1).
Proof.
  exists 1%Z. split; [unfold in_word; fold bits; destruct B32 as [-> | ->]; cbn; lia|]. split.
  - unfold word_of. fold bits. destruct B32 as [-> | ->]; reflexivity.
  - right. change 1%Z with (Z.of_N 1). constructor. apply mag_dec; [intros t; discriminate|]. constructor; [left; reflexivity|lia].
Qed.
Lemma safe_ok n s r : safe_rule n s r -> s = rule_text r /\ crule_ok a r /\ strip s = s.
Proof.
  assert (forall w v, In (Part w v) [Part "PROT_READ" 1; Part "PROT_WRITE" 2; Part "PROT_EXEC" 4; Part "PROT_NONE" 0; Part "GRND_RANDOM" 2] -> catom_ok a (CAtom 2 M_Bpf.IN [neg w v]) /\ catom_ok a (CAtom 2 M_Bpf.EQ [Part w v])) as K.
  { intros w v I. destruct (kc_part w v I) as [X Y]. split; (split; [reflexivity|split; [discriminate|constructor; [assumption|constructor]]]). }
  assert (forall x, catom_ok a x -> [x] <> [] /\ Forall (catom_ok a) [x]) as K1 by (intros x H; split; [discriminate|constructor; [exact H|constructor]]).
  intros [(-> & ->)|[(_ & -> & ->)|(_ & [(-> & ->)|[(-> & ->)|(-> & ->)]])]]; (split; [reflexivity|split; [|reflexivity]]).
  - split; [exact one_const|]. cbn. discriminate.
  - split; [discriminate|]. constructor; [|constructor]. apply K1, (proj1 (K "GRND_RANDOM" 2 ltac:(cbn; tauto))).
  - split; [discriminate|]. constructor; [apply K1, (proj2 (K "PROT_READ" 1 ltac:(cbn; tauto)))|]. constructor; [apply K1, (proj2 (K "PROT_NONE" 0 ltac:(cbn; tauto)))|constructor].
  - split; [discriminate|]. constructor; [|constructor]. apply K1, (proj1 (K "PROT_EXEC" 4 ltac:(cbn; tauto))).
  - split; [discriminate|]. constructor; [apply K1, (proj1 (K "PROT_EXEC" 4 ltac:(cbn; tauto)))|]. constructor; [apply K1, (proj1 (K "PROT_WRITE" 2 ltac:(cbn; tauto)))|constructor].
Qed.
Lemma arg_small d i : sd_arg d i mod 2 ^ bits < 2 ^ bits.
Proof. apply N.mod_lt. apply N.pow_nonzero. discriminate. Qed.
Lemma in_neg d w v : v < 2 ^ 32 -> catom_holds bits d (CAtom 2 M_Bpf.IN [neg w v]) = true -> N.land (sd_arg d 2 mod 2 ^ bits) v = 0.
Proof.
  intros V H. unfold catom_holds in H. cbn [ca_op ca_arg ca_parts op_holds] in H. apply N.eqb_eq in H. unfold parts_value in H. cbn [fold_right pt_value neg] in H. rewrite N.lor_0_r in H.
  apply P_Gen.in_complement in H; [exact H| |apply arg_small|].
  - destruct B32 as [-> | ->]; lia.
  - destruct B32 as [-> | ->]; [exact V|]. eapply N.lt_trans; [exact V|reflexivity].
Qed.
Lemma is_eq d w v : catom_holds bits d (CAtom 2 M_Bpf.EQ [Part w v]) = true -> sd_arg d 2 mod 2 ^ bits = v.
Proof. intros H. unfold catom_holds in H. cbn [ca_op ca_arg ca_parts op_holds] in H. apply N.eqb_eq in H. unfold parts_value in H. cbn [fold_right pt_value] in H. rewrite N.lor_0_r in H. exact H. Qed.
Lemma safe_harmless n s r d v : safe_rule n s r -> v <> ALLOW -> v <> LOG -> (crule_value bits d v r = ALLOW \/ crule_value bits d v r = LOG) -> harmless bits n d.
Proof.
  intros SR NA NL H.
  assert (forall alts, crule_value bits d v (CCond alts) = ALLOW \/ crule_value bits d v (CCond alts) = LOG -> existsb (forallb (catom_holds bits d)) alts = true) as K.
  { intros alts X. cbn [crule_value] in X. destruct (existsb _ alts); [reflexivity|]. destruct X; contradiction. }
  unfold harmless. destruct SR as [(_ & ->)|[(-> & _ & ->)|(I & SR)]].
  - exfalso. destruct H as [H|H]; discriminate H.
  - right. split; [reflexivity|]. apply K in H. cbn [existsb forallb] in H. rewrite orb_false_r, andb_true_r in H. exact (in_neg d "GRND_RANDOM" 2 ltac:(reflexivity) H).
  - left. split; [destruct I as [<-|[<-|[<-|[]]]]; tauto|]. destruct SR as [(_ & ->)|[(_ & ->)|(_ & ->)]]; apply K in H; cbn [existsb forallb] in H; rewrite orb_false_r, !andb_true_r in H.
    + left. apply orb_true_iff in H as [H|H]; apply is_eq in H; rewrite H; reflexivity.
    + left. exact (in_neg d "PROT_EXEC" 4 ltac:(reflexivity) H).
    + apply orb_true_iff in H as [H|H]; [left; exact (in_neg d "PROT_EXEC" 4 ltac:(reflexivity) H)|right; exact (in_neg d "PROT_WRITE" 2 ltac:(reflexivity) H)].
Qed.
Lemma policy_lines fs t ls pol e : lines_of t ls -> Forall tame_line ls -> reads_policy b fo fs (M_Lines.Stream t false) pol -> In e pol ->
  exists l1 raw l2 bd tail, ls = (l1 ++ raw :: l2)%list /\ ruled (S_Policy.e_name e) (bd ++ tail) raw /\ first_entry (pa_syscalls a) (S_Policy.e_name e) (S_Policy.e_nr e) /\
    reads_body b fo bd (S_Policy.e_rule e) /\ stripped (bd ++ tail) bd.
Proof.
  intros L F (_ & ls' & ps & FL & R & ->) I. cbn [M_Lines.s_bytes] in FL. pose proof (tame_file t ls L F) as FL'. apply multilines_spec in FL, FL'. rewrite FL' in FL. subst ls'. clear FL' L.
  induction R as [|raw p ls ps R RS IH]; [destruct I|]. cbn [concat] in I. inversion F as [|? ? TL F']; subst. apply in_app_iff in I as [I|I].
  - destruct (line_ruled _ raw p e TL R I) as (bd & tail & X). exists [], raw, ls, bd, tail. split; [reflexivity|exact X].
  - destruct (IH F' I) as (l1 & raw' & l2 & bd & tail & -> & X). exists (raw :: l1), raw', l2, bd, tail. split; [reflexivity|exact X].
Qed.
Lemma lint_c dangerous fs t ls n prog d v : lines_of t ls -> Forall tame_line ls -> exit_status dangerous t = 0 ->
  M_Filter.compile_filter b fo fs (Some (M_Lines.Stream t false)) = M_Filter.COk prog -> M_Filter.fo_action fo <> M_Filter.ACT_LOG ->
  sd_ok d -> ~ allowed_by_option b fo (sd_nr d) -> In n dangerous -> first_entry (pa_syscalls a) n (sd_nr d) ->
  run true prog d = VRet v -> v = ALLOW \/ v = LOG -> justified ls n \/ harmless bits n d.
Proof.
  intros L F X C NL SD NO D FE RUN GO. pose proof (tame_cut t ls L F) as TC. apply (lint_passes dangerous t ls TC) in X.
  pose proof (tables_names b a ST) as NM. destruct (P_Claims.policy_decides b fo LE NM _ _ _ C) as (pol & R & V).
  assert (action_value (M_Filter.fo_action fo) <> ALLOW /\ action_value (M_Filter.fo_action fo) <> LOG) as [NA NLG].
  { destruct (M_Filter.fo_action fo); [split; discriminate..| |split; discriminate]. congruence. }
  destruct (find_rule (sd_nr d) pol) as [r|] eqn:FR.
  - destruct (P_Verdict.find_rule_in _ _ _ FR) as (e & I & ER & EN). destruct (policy_lines fs t ls pol e L F R I) as (l1 & raw & l2 & bd & tail & -> & RU & FE' & RB & SB).
    rewrite EN in FE'. rewrite (proj2 WT _ _ _ FE' FE) in RU. destruct (X l1 raw l2 n _ eq_refl RU) as [_ S]. destruct (S D) as [CM|SF].
    { left. exists l1, raw, l2. split; [reflexivity|]. split; [eexists; exact RU|exact CM]. }
    right. apply strip_spec in SB. rewrite ER in RB. apply P_Compile.body_of_spec in RB; [|exact NM]. apply safe_rules in SF as [K|(cr & SR)].
    { exfalso. assert (strip (bd ++ tail) = bd ++ tail) as E by (destruct K as [<-|[<-|[<-|[]]]]; reflexivity). rewrite E in SB. rewrite SB in K. rewrite (kill_unread b fo bd K) in RB. discriminate RB. }
    destruct (safe_ok _ _ _ SR) as (E & OK & E2). rewrite E2 in SB. rewrite SB in E, SR. subst bd.
    pose proof (body_reads b fo fs a ST B32 cr OK) as RB2. apply P_Compile.body_of_spec in RB2; [|exact NM]. rewrite RB2 in RB. injection RB as RB.
    destruct (V d SD) as (v' & RUN' & VD). { rewrite FR. intros r' [= <-]. rewrite <- RB. eapply rule_args; eassumption. }
    rewrite RUN in RUN'. injection RUN' as <-. apply (safe_harmless n _ cr d (action_value (M_Filter.fo_action fo)) SR NA NLG).
    destruct VD as [A|A O|r' A _ FR'|A _ FR'].
    + exfalso. destruct GO; discriminate.
    + contradiction.
    + rewrite FR in FR'. injection FR' as <-. rewrite <- RB in GO. rewrite (c_rule a B32 b fo ST LE d cr SD) in GO. exact GO.
    + congruence.
  - exfalso. destruct (V d SD) as (v' & RUN' & VD); [rewrite FR; discriminate|]. rewrite RUN in RUN'. injection RUN' as <-.
    destruct VD as [A|A O|r' A _ FR'|A _ FR']; [destruct GO; discriminate|contradiction|congruence|]. destruct GO; contradiction.
Qed.
(* A policy said not to contain dangerous calls allows none. *)
Lemma lint_none dangerous fs t ls n prog d v : lines_of t ls -> Forall tame_line ls -> l_dangerous (check_seccomp_policy dangerous t) = false ->
  M_Filter.compile_filter b fo fs (Some (M_Lines.Stream t false)) = M_Filter.COk prog -> M_Filter.fo_action fo <> M_Filter.ACT_LOG ->
  sd_ok d -> ~ allowed_by_option b fo (sd_nr d) -> In n dangerous -> first_entry (pa_syscalls a) n (sd_nr d) ->
  run true prog d = VRet v -> v <> ALLOW /\ v <> LOG.
Proof.
  intros L F X C NL SD NO D FE RUN. pose proof (tame_cut t ls L F) as TC. pose proof (lint_danger dangerous t ls TC) as LD. rewrite X in LD.
  pose proof (tables_names b a ST) as NM. destruct (P_Claims.policy_decides b fo LE NM _ _ _ C) as (pol & R & V).
  assert (action_value (M_Filter.fo_action fo) <> ALLOW /\ action_value (M_Filter.fo_action fo) <> LOG) as NA.
  { destruct (M_Filter.fo_action fo); [split; discriminate..| |split; discriminate]. congruence. }
  destruct (find_rule (sd_nr d) pol) as [r|] eqn:FR.
  - exfalso. destruct (P_Verdict.find_rule_in _ _ _ FR) as (e & I & ER & EN). destruct (policy_lines fs t ls pol e L F R I) as (l1 & raw & l2 & bd & tail & -> & RU & FE' & _).
    rewrite EN in FE'. rewrite (proj2 WT _ _ _ FE' FE) in RU. enough (false = true) by discriminate. apply LD. exists n. split; [|exact D]. exists raw. split; [apply in_app_iff; right; left; reflexivity|]. eexists. exact RU.
  - destruct (V d SD) as (v' & RUN' & VD); [rewrite FR; discriminate|]. rewrite RUN in RUN'. injection RUN' as <-.
    destruct VD as [A|A O|r' A _ FR'|A _ FR']; [split; discriminate|contradiction|congruence|exact NA].
Qed.
End c.

(* ---- What the Python compiler makes of it ---- *)
Section python.
Variables (a : parch) (p : list cline).
Let bits := arch_bits (pa_arch a).
Hypothesis OK : common_ok a p.
Hypothesis B32 : bits = 32 \/ bits = 64.
Hypotheses (KC : kernel_constants a) (PN : Forall (fun e => plain_name (fst e)) (pa_constants a)).
Definition as_build : build :=
  M_Filter.Build (M_Bpf.Plat (bits =? 64)%N true (arch_nr (pa_arch a))) (pa_syscalls a) (map (fun e => (fst e, word_of a (snd e))) (pa_constants a)) [] [].
Lemma as_build_same : same_tables as_build a.
Proof. repeat split; try exact PN. cbn. fold bits. destruct B32 as [-> | ->]; reflexivity. Qed.
Definition as_opts : fopts := M_Filter.FOpts M_Filter.ACT_KILL false false false false.
Definition value_with (v : N) (d : sdata) (r : rule) : N :=
  match r with Allow => ALLOW | Return x => x | Cond alts _ => if existsb (forallb (atom_holds (bits =? 64)%N d)) alts then ALLOW else v end.
Lemma value_with_spec v d r : sd_ok d -> crule_value bits d v r = value_with v d (rule_of as_opts r).
Proof.
  intros SD. destruct r as [|x|alts]; try reflexivity. cbn [rule_of value_with crule_value]. rewrite existsb_map.
  erewrite existsb_ext; [reflexivity|]. intros l. cbn beta. rewrite forallb_map. apply forallb_ext. intros x. symmetry.
  exact (c_atom a B32 as_build as_build_same eq_refl d x SD).
Qed.
Lemma same_value d r r' v : sd_ok d -> crule_ok a r -> crule_ok a r' -> rule_text r = rule_text r' -> crule_value bits d v r = crule_value bits d v r'.
Proof.
  intros SD R R' E. rewrite !value_with_spec by exact SD. pose proof (tables_names as_build a as_build_same) as NM.
  pose proof (body_reads as_build as_opts (fun _ => None) a as_build_same B32 r R) as X. pose proof (body_reads as_build as_opts (fun _ => None) a as_build_same B32 r' R') as Y.
  rewrite <- E in Y. apply P_Compile.body_of_spec in X, Y; try exact NM. rewrite X in Y. apply some_eq in Y. rewrite Y. reflexivity.
Qed.
Lemma no_kill r : crule_ok a r -> ~ In (rule_text r) ["kill"; "kill-process"; "kill-thread"].
Proof.
  intros R I. pose proof (body_reads as_build as_opts (fun _ => None) a as_build_same B32 r R) as X. apply P_Compile.body_of_spec in X; [|exact (tables_names as_build a as_build_same)].
  rewrite (kill_unread _ _ _ I) in X. discriminate X.
Qed.
Lemma decided v d : common_decision bits v p d = v \/ exists n nr r, In (CRule n nr r) p /\ nr = sd_nr d /\ common_decision bits v p d = crule_value bits d v r.
Proof.
  clear. induction p as [|l q IH]; [left; reflexivity|]. cbn [common_decision]. destruct l as [|t|n nr r].
  - destruct IH as [IH|(n & nr & r & I & E & IH)]; [left; exact IH|]. right. exists n, nr, r. split; [right; exact I|auto].
  - destruct IH as [IH|(n & nr & r & I & E & IH)]; [left; exact IH|]. right. exists n, nr, r. split; [right; exact I|auto].
  - destruct (nr =? sd_nr d)%N eqn:E.
    + right. exists n, nr, r. split; [left; reflexivity|]. split; [apply N.eqb_eq; exact E|reflexivity].
    + destruct IH as [IH|(n' & nr' & r' & I & E' & IH)]; [left; exact IH|]. right. exists n', nr', r'. split; [right; exact I|auto].
Qed.
Lemma rule_begins r : crule_ok a r -> forall c t, rule_text r = String c t -> ~ white c.
Proof.
  intros R c t E W. destruct r as [|x|alts].
  - injection E as <- _. unfold white in W. cbn in W. lia.
  - injection E as <- _. unfold white in W. cbn in W. lia.
  - destruct (alts_begin a alts (proj1 R) (proj2 R)) as (u & EU). cbn [rule_text] in E. rewrite EU in E. injection E as <- _. unfold white in W. cbn in W. lia.
Qed.
Lemma lint_python dangerous o resolve text file n prog d v : word_table (pa_syscalls a) -> tables_ok a -> options_ok o -> o_denylist o = false -> o_ret_log o = false ->
  text file = Some (policy_text p) -> compile_text a o resolve text file = Some prog -> py_default o <> ALLOW -> py_default o <> LOG ->
  exit_status dangerous (policy_text p) = 0%N -> sd_ok d -> sd_arch d = arch_nr (pa_arch a) -> In n dangerous -> first_entry (pa_syscalls a) n (sd_nr d) ->
  run true prog d = VRet v -> v = ALLOW \/ v = LOG -> justified (map line_text p) n \/ harmless bits n d.
Proof.
  intros WT TO OO DL RL TX C NA NL X SD A D FE RUN GO. rewrite (py_answers a p OK B32 o resolve text file TO OO DL RL TX prog d C SD A) in RUN. fold bits in RUN. injection RUN as RUN.
  destruct (P_CommonPy.lines_read a B32 resolve text (fun _ => True) (fun _ _ => True) file p (proj1 OK)) as (tss & TC & _). apply (lint_passes dangerous _ _ TC) in X.
  destruct (decided (py_default o) d) as [E|(m & nr & r & I & EN & E)].
  { exfalso. rewrite E in RUN. destruct GO; congruence. }
  destruct OK as [F _]. rewrite Forall_forall in F. pose proof (F _ I) as (NM & _ & FE' & RO). rewrite EN in FE'. pose proof (proj2 WT _ _ _ FE' FE) as EQ. subst m.
  destruct (in_split _ _ I) as (p1 & p2 & EP).
  assert (ruled n (rule_text r) (line_text (CRule n nr r))) as RU.
  { exists "", "", " ". cbn [line_text]. split; [reflexivity|]. split; [apply all_chars_nil|]. split; [apply all_chars_nil|]. split; [apply all_chars_cons; split; [right; cbn; lia|apply all_chars_nil]|].
    split; [exact (proj1 WT _ _ FE)|]. exact (rule_begins r RO). }
  assert (map line_text p = (map line_text p1 ++ line_text (CRule n nr r) :: map line_text p2)%list) as EM by (rewrite EP, map_app; reflexivity).
  destruct (X _ _ _ _ _ EM RU) as [_ S]. destruct (S D) as [CM|SF].
  - left. exists (map line_text p1), (line_text (CRule n nr r)), (map line_text p2). split; [exact EM|]. split; [eexists; exact RU|exact CM].
  - right. destruct (safe_rules a B32 n _ SF) as [K|(cr & SR)]; [destruct (no_kill r RO K)|].
    destruct (safe_ok a as_build B32 eq_refl KC _ _ _ SR) as (ET & OKR & _). rewrite <- RUN, E, (same_value d r cr (py_default o) SD RO OKR ET) in GO.
    exact (safe_harmless a as_build B32 eq_refl n _ cr d (py_default o) SR NA NL GO).
Qed.
End python.

(* ---- The command line ---- *)
Lemma asked_spec o l : asked o l -> dangerous_of o = l.
Proof. intros [|k N F]; [reflexivity|]. unfold dangerous_of. apply (split_words ","%char); assumption. Qed.
Lemma lint_tool o l t ls : asked o l -> text_cut t ls -> (lint_main o t = 0 <-> clean l ls) /\ (l_dangerous (check_seccomp_policy (dangerous_of o) t) = true <-> names_dangerous l ls).
Proof. intros A C. unfold lint_main. rewrite (asked_spec o l A). split; [apply lint_passes|apply lint_danger]; exact C. Qed.
