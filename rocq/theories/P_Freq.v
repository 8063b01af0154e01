(* The frequency file read back. *)
From Coq Require Import Permutation Decimal DecimalFacts DecimalN.
From Verif Require Import P_CliFin.
From Verif Require Import P_CStr P_Const S_Policy S_PyPolicy P_PyFile P_PyEx.
From Verif Require Import M_PyParse S_PyText P_PyLex P_PyGram P_PyStmt P_PyText P_PyMean P_PyTextEx S_Common P_CommonPy P_CommonC P_Common P_CommonEx S_Accept P_CommonFit.
From Verif Require M_Gen.
From Verif Require Import S_Gen P_GenText P_GenRead P_Gen.
From Verif Require Import M_Audit S_Audit P_Audit M_Freq S_Freq.
Local Open Scope N_scope.
Local Open Scope string_scope.

(* ---- Numbers ---- *)
Lemma uint_head n : 0 < n -> forall u, N.to_uint n <> D0 u.
Proof.
  intros P u E. pose proof (Unsigned.to_of (D0 u)) as H. rewrite <- E, Unsigned.of_to, E in H. unfold unorm in H. cbn [nzhead] in H.
  destruct (nzhead u) eqn:Z; try discriminate H.
  - injection H as ->. assert (N.of_uint (N.to_uint n) = 0) as X by (rewrite E; reflexivity). rewrite Unsigned.of_to in X. lia.
  - exact (nzhead_nonzero _ _ Z).
Qed.
Lemma dec_head n : 0 < n -> forall t, M_Filter.dec n <> String "0" t.
Proof.
  intros P t E. unfold M_Filter.dec in E. pose proof (uint_head n P) as H. destruct (N.to_uint n) as [|u|u|u|u|u|u|u|u|u|u]; try discriminate E. exact (H u eq_refl).
Qed.

(* ---- Counts ---- *)
Definition cnt (n : string) (d : list (string * N)) : N := match lookup n d with Some k => k | None => 0 end.
Lemma cnt_count n x d : cnt n (M_Gen.count x d) = cnt n d + (if String.eqb x n then 1 else 0).
Proof.
  unfold cnt. induction d as [|[y k] d IH]; cbn [M_Gen.count lookup].
  - destruct (String.eqb x n); reflexivity.
  - destruct (String.eqb_spec y x) as [->|E]; cbn [lookup].
    + destruct (String.eqb x n); lia.
    + destruct (String.eqb_spec y n) as [->|E2]; [|exact IH]. destruct (String.eqb_spec x n) as [->|]; [congruence|]. lia.
Qed.
Lemma times_cnt n ls k : times n ls k -> forall st,
  cnt n (M_Gen.t_counts (fold_left step (flat_map (fun x => event (fst x) (snd x)) ls) st)) = cnt n (M_Gen.t_counts st) + k.
Proof.
  induction 1 as [|f c r k P _ IH|f c r k P _ IH|f s r k _ IH]; intros st; cbn [flat_map fst snd event app fold_left].
  - lia.
  - rewrite IH. cbn [step M_Gen.t_counts fst]. rewrite cnt_count. apply policy_name_spec in P. rewrite <- P, String.eqb_refl. lia.
  - rewrite IH. cbn [step M_Gen.t_counts fst]. rewrite cnt_count. destruct (String.eqb_spec (M_Gen.policy_name (M_Gen.uses_socketcall f) (tc_name c)) n) as [E|E]; [|lia].
    exfalso. apply P. apply policy_name_spec. auto.
  - apply IH.
Qed.
Lemma times_exist n ls : exists k, times n ls k.
Proof.
  induction ls as [|[f [c|s]] r (k & IH)]; [exists 0; constructor| |exists k; constructor; exact IH].
  destruct (String.eqb_spec n (M_Gen.policy_name (M_Gen.uses_socketcall f) (tc_name c))) as [E|E].
  - exists (k + 1). apply tm_call; [apply policy_name_spec; exact E|exact IH].
  - exists k. apply tm_not; [rewrite policy_name_spec; exact E|exact IH].
Qed.
Lemma events_lines tr : events tr = flat_map (fun x => event (fst x) (snd x)) (all_lines tr).
Proof.
  unfold events, all_lines. induction tr as [|f tr IH]; [reflexivity|]. cbn [flat_map]. rewrite flat_map_app, IH. f_equal.
  induction (tf_lines f) as [|l ls IH']; [reflexivity|]. cbn [flat_map map fst snd]. rewrite IH'. reflexivity.
Qed.
Lemma final_times tr n k : times n (all_lines tr) k -> cnt n (M_Gen.t_counts (final tr)) = k.
Proof. intros H. unfold final. rewrite events_lines, (times_cnt _ _ _ H). reflexivity. Qed.
Lemma times_one n ls k k' : times n ls k -> times n ls k' -> k = k'.
Proof. intros H H'. pose proof (times_cnt _ _ _ H (M_Gen.Traced [] [])) as E. rewrite (times_cnt _ _ _ H') in E. lia. Qed.
Lemma times_traced tr n k : times n (all_lines tr) k -> (0 < k <-> exists c, traced tr n c).
Proof.
  unfold traced. intros H. transitivity (exists f c, In (f, Call c) (all_lines tr) /\ policy_name f (tc_name c) n).
  - induction H as [|f c r k P _ IH|f c r k P _ IH|f s r k _ IH].
    + split; [lia|intros (f & c & [] & _)].
    + split; [|lia]. intros _. exists f, c. split; [left; reflexivity|exact P].
    + rewrite IH. split; intros (f' & c' & I & P'); exists f', c'; (split; [|exact P']); [right; exact I|]. destruct I as [I|I]; [|exact I]. injection I as <- <-. contradiction.
    + rewrite IH. split; intros (f' & c' & I & P'); exists f', c'; (split; [|exact P']); [right; exact I|]. destruct I as [I|I]; [discriminate I|exact I].
  - unfold all_lines. split.
    + intros (f & c & I & P). apply in_flat_map in I as (g & G & I). apply in_map_iff in I as (l & E & I). injection E as <- ->. exists c, g. auto.
    + intros (c & g & G & I & P). exists (tf_name g), c. split; [|exact P]. apply in_flat_map. exists g. split; [exact G|]. apply in_map. exact I.
Qed.
Lemma lookup_app_new n x l : forall d : list (string * N), lookup n (d ++ [(x, l)])%list = match lookup n d with Some k => Some k | None => if String.eqb x n then Some l else None end.
Proof. induction d as [|[y k] d IH]; [reflexivity|]. cbn [app lookup]. destruct (String.eqb y n); [reflexivity|exact IH]. Qed.
Lemma lookup_key n (d : list (string * N)) : In n (map fst d) <-> exists k, lookup n d = Some k.
Proof.
  induction d as [|[y k] d IH]; cbn; [split; [intros []|intros (k & H); discriminate]|]. destruct (String.eqb_spec y n) as [->|E].
  - split; [exists k; reflexivity|auto].
  - rewrite <- IH. split; [intros [|H]; [contradiction|exact H]|auto].
Qed.
Lemma lookup_basic n l : forall d, lookup n (fold_left (fun d x => if M_Gen.inb x (map fst d) then d else (d ++ [(x, 1)])%list) l d) =
  match lookup n d with Some k => Some k | None => if M_Gen.inb n l then Some 1 else None end.
Proof.
  induction l as [|x l IH]; intros d; cbn [fold_left]; [destruct (lookup n d); reflexivity|]. rewrite IH. cbn [M_Gen.inb existsb]. rewrite (String.eqb_sym n x).
  destruct (M_Gen.inb x (map fst d)) eqn:I.
  - destruct (lookup n d) eqn:L; [reflexivity|]. destruct (String.eqb_spec x n) as [->|]; [|reflexivity]. apply inb_spec, lookup_key in I as (k & K). congruence.
  - rewrite lookup_app_new. destruct (lookup n d); [reflexivity|]. destruct (String.eqb x n); reflexivity.
Qed.
Lemma count_listed tr n : In n basic \/ (exists c, traced tr n c) -> exists k, lookup n (M_Gen.with_basic (M_Gen.t_counts (final tr))) = Some k /\ frequency_of tr n k /\ 0 < k.
Proof.
  intros H. destruct (times_exist n (all_lines tr)) as (m & T). pose proof (times_traced _ _ _ T) as TT. pose proof (final_times _ _ _ T) as C.
  unfold M_Gen.with_basic. rewrite lookup_basic. unfold cnt in C. change M_Gen.basic_set with basic.
  destruct (lookup n (M_Gen.t_counts (final tr))) as [k|] eqn:L.
  - subst m. exists k. split; [reflexivity|]. assert (0 < k) as P. { apply TT, final_names, lookup_key. exists k. exact L. } split; [|exact P]. exists k. auto.
  - assert (~ exists c, traced tr n c) as NT. { intros X. apply final_names, lookup_key in X as (k & X). congruence. }
    destruct H as [H|H]; [|contradiction]. exists 1. apply inb_spec in H as HB. rewrite HB. split; [reflexivity|]. split; [|lia]. exists m. split; [exact T|]. right. auto.
Qed.
Lemma frequency_listed tr n k : frequency_of tr n k -> In n basic \/ exists c, traced tr n c.
Proof. intros (m & T & [[P _]|(_ & B & _)]); [right; apply (times_traced _ _ _ T); exact P|left; exact B]. Qed.
Lemma frequency_one tr n k k' : frequency_of tr n k -> frequency_of tr n k' -> k = k'.
Proof. intros (m & T & H) (m' & T' & H'). pose proof (times_one _ _ _ _ T T'). lia. Qed.

(* ---- Lines ---- *)
Section reading.
Variable a : parch.
Hypothesis B : arch_bits (pa_arch a) = 32 \/ arch_bits (pa_arch a) = 64.
Definition count_text (x : string * N * N) : string := fst (fst x) ++ ": " ++ M_Filter.dec (snd x).
Definition count_ok (x : string * N * N) : Prop :=
  plain_name (fst (fst x)) /\ (reserved (fst (fst x)) -> fst (fst x) = "kill") /\ first_entry (pa_syscalls a) (fst (fst x)) (snd (fst x)) /\ 0 < snd x.
Lemma count_cut x : count_ok x -> exists ts, chunk (count_text x) ts /\ freq_line a (words ts) [x].
Proof.
  destruct x as [[n nr] k]. intros (P & R & FE & K). cbn [fst snd] in *. destruct (call_chunk a B n nr P R FE) as (t & C & W & D).
  pose proof (dec_value k) as V. pose proof (dec_head k K) as Z.
  exists ([t] ++ [Tok COLON ":"; Tok WHITESPACE " "] ++ [Tok NUMERIC_CONSTANT (M_Filter.dec k)])%list. split.
  - apply (chunk_sep n _ ": "); [exact C|apply colon_sep|]. apply (number_chunk _ (Z.of_N k)). apply num_c. apply mag_dec; assumption.
  - rewrite !words_app, W. cbn [words filter counts t_type app]. apply (fl a [t] [(n, nr)]); [exact D|]. apply fn_plain, fm_dec; assumption.
Qed.
Lemma count_chars x : count_ok x -> all_chars (fun c => rule_char c || is_c ":" c = true) (count_text x).
Proof.
  intros (P & _). unfold count_text. apply all_chars_app. split; [|apply all_chars_app; split].
  - generalize (plain_word _ P). apply all_chars_impl. intros c W. apply is_word_spec in W. unfold rule_char. rewrite W. reflexivity.
  - intros i c H. destruct i as [|[|i]]; cbn in H; [| |discriminate]; injection H as <-; reflexivity.
  - pose proof (dec_value (snd x)) as V. assert (all_chars dec_digit (M_Filter.dec (snd x))) as D.
    { clear P. revert V. generalize (M_Filter.dec (snd x)), (snd x). intros s0 m0 V. induction V as [c v D L|s m c v _ IH D L]; [|apply all_chars_app; split; [exact IH|]]; apply all_chars_cons; (split; [exists v; auto|apply all_chars_nil]). }
    revert D. apply all_chars_impl. intros c W. apply word_of_dec, is_word_spec in W. unfold rule_char. rewrite W. reflexivity.
Qed.
Fixpoint counts_text (l : list (string * N * N)) : string := match l with [] => "" | x :: t => count_text x ++ String newline (counts_text t) end.
Lemma counts_read l : Forall count_ok l -> exists tss fs, text_cut (counts_text l) (map count_text l) /\ logical (map count_text l) tss /\ Forall2 (freq_line a) tss fs /\ concat fs = l.
Proof.
  induction 1 as [|x l OK _ (tss & fs & TC & LO & FF & E)].
  - exists [], []. split; [constructor|]. split; [apply (lo_lost [] []); constructor|]. split; [constructor|reflexivity].
  - destruct (count_cut x OK) as (ts & C & G). pose proof (count_chars x OK) as CH.
    assert (words ts <> []) as NW. { intros W. rewrite W in G. inversion G as [ts0 ? ? ? ? ? ? ? X]. destruct ts0; discriminate X. }
    exists (words ts :: tss), ([x] :: fs). split; [|split; [|split]].
    + cbn [counts_text map]. apply tc_newline; [|exact TC]. revert CH. apply all_chars_impl. intros c K. split; intros ->; discriminate K.
    + cbn [map]. replace (words ts :: tss) with (with_line (words (concat [] ++ ts)) tss) by (cbn [concat app]; destruct (words ts); [congruence|reflexivity]).
      change (logical ([] ++ count_text x :: map count_text l) (with_line (words (concat [] ++ ts)) tss)). constructor; try constructor.
      * intros (t & Q). rewrite Q in CH. apply all_chars_app in CH as [_ CH]. apply all_chars_cons in CH as [CH _]. discriminate CH.
      * apply chunk_cut. exact C.
      * exact LO.
    + constructor; assumption.
    + cbn [concat]. rewrite E. reflexivity.
Qed.
Definition silent (l : cline) : Prop := match l with CRule _ _ _ => False | _ => True end.
Lemma silent_read p t ls tss : Forall (cline_ok a) p -> Forall silent p -> text_cut t ls -> logical ls tss ->
  text_cut (policy_text p ++ t) (map line_text p ++ ls)%list /\ logical (map line_text p ++ ls) tss.
Proof.
  intros F S TC LO. induction F as [|l p OK F IH]; [split; assumption|]. inversion S as [|? ? S1 S2]; subst. destruct (IH S2) as [A LB]. split.
  - cbn [policy_text map app]. rewrite sapp_assoc. cbn [append]. apply tc_newline; [apply (line_in_line a B); exact OK|exact A].
  - cbn [map app]. assert (exists ts, cut (line_text l) ts /\ words ts = []) as (ts & C & W).
    { destruct l as [|u|]; [exists []; split; [constructor|reflexivity]|exists [Tok COMMENT ("#" ++ u)]; split; [apply (comment_cut a B)|reflexivity]|destruct S1]. }
    replace tss with (with_line (words (concat [] ++ ts)) tss) by (cbn [concat app]; rewrite W; reflexivity).
    change (logical ([] ++ line_text l :: (map line_text p ++ ls)) (with_line (words (concat [] ++ ts)) tss)). constructor; try constructor; [apply (line_finished a); exact OK|exact C|exact LB].
Qed.

(* ---- The file ---- *)
Variables (comm : string) (tr fs : list tfile) (logs : list alog) (css : list (list acall)).
Hypotheses (T : trace_ok a (tr ++ fs)) (L : Forall2 (log_records comm) logs css) (S : Forall2 same_calls fs css) (HB : has_basic a).
Let all := (tr ++ fs)%list.
Let counts := M_Gen.with_basic (M_Gen.t_counts (final all)).
Lemma counts_exist ns : (forall n, In n ns -> In n basic \/ exists c, traced all n c) -> exists l, map (fun x => fst (fst x)) l = ns /\ Forall count_ok l /\
  String.concat "" (map (frequency_line counts) ns) = counts_text l /\ Forall (fun x => frequency_of all (fst (fst x)) (snd x)) l.
Proof.
  induction ns as [|n ns IH]; intros H; [exists []; repeat constructor|]. destruct IH as (l & M & F & E & Q). { intros m I. apply H. right. exact I. }
  specialize (H n (or_introl eq_refl)). destruct (count_listed all n H) as (k & K & FR & P).
  assert (plain_name n /\ (reserved n -> n = "kill") /\ exists nr, first_entry (pa_syscalls a) n nr) as (PN & R & nr & NR).
  { destruct H as [BN|(c & C)].
    - destruct (basic_name n BN) as (X & Y & _). split; [exact X|]. split; [tauto|]. unfold has_basic in HB. rewrite Forall_forall in HB. exact (HB n BN).
    - exact (traced_name a all T n c C). }
  exists ((n, nr, k) :: l). split; [cbn; rewrite M; reflexivity|]. split; [constructor; [|exact F]; repeat split; assumption|]. split; [|constructor; assumption].
  cbn [map counts_text]. rewrite concat_cons, E. unfold frequency_line, count_text. cbn [fst snd]. fold counts in K. rewrite K. unfold M_Gen.NL. rewrite !sapp_assoc. reflexivity.
Qed.
Lemma read_back year : all_chars dec_digit year -> exists t f, frequency_file comm year (on_disk tr) logs = Some t /\
  (forall text file, text file = Some t -> freq_file a text file f) /\ NoDup (map (fun x => fst (fst x)) f) /\
  forall n nr k, In (n, nr, k) f <-> first_entry (pa_syscalls a) n nr /\ frequency_of all n k.
Proof.
  intros Y. destruct (listed_calls_spec a all B true) as [ND LC]. destruct (counts_exist (listed_calls all true)) as (l & M & F & E & Q). { intros n I. apply LC. exact I. }
  destruct (counts_read l F) as (tss & ff & TC & LO & FF & CC).
  exists (policy_text (notice year) ++ counts_text l), l. split; [|split; [|split]].
  - unfold frequency_file. apply Forall_app in T as [T1 T2]. rewrite (traces_read a _ _ T1), (logs_read _ _ _ L _ S), <- fold_left_app. unfold events. rewrite <- flat_map_app.
    change (fold_left step _ (M_Gen.Traced [] [])) with (final all). cbv zeta. fold counts. change (M_Gen.sorted_syscalls true counts) with (listed_calls all true). rewrite E, notice_text, sapp_assoc. reflexivity.
  - intros text file H. destruct (silent_read (notice year) _ _ _ (notice_ok a year Y) ltac:(repeat constructor) TC LO) as [A LB]. rewrite <- CC. econstructor; eassumption.
  - rewrite M. exact ND.
  - rewrite Forall_forall in F, Q. intros n nr k. split.
    + intros I. split; [exact (proj1 (proj2 (proj2 (F _ I))))|exact (Q _ I)].
    + intros [FE FR]. assert (In n (map (fun x => fst (fst x)) l)) as I by (rewrite M; apply LC; exact (frequency_listed _ _ _ FR)).
      apply in_map_iff in I as ([[m nr'] k'] & EQ & I). cbn in EQ. subst m. pose proof (proj1 (proj2 (proj2 (F _ I)))) as FE'. cbn in FE'. rewrite (fe_same _ _ _ _ FE FE').
      pose proof (Q _ I) as FR'. cbn in FR'. rewrite (frequency_one _ _ _ _ FR FR'). exact I.
Qed.
End reading.
