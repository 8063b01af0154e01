(* What generate_seccomp_policy.py collects from the logs of the audit
   subsystem. *)
From Coq Require Import Permutation.
From Verif Require Import P_CStr P_Const S_Policy S_PyPolicy P_PyFile P_PyEx.
From Verif Require Import M_PyParse S_PyText P_PyLex P_PyGram P_PyStmt P_PyText P_PyMean P_PyTextEx S_Common P_CommonPy P_CommonC P_Common P_CommonEx S_Accept P_CommonFit.
From Verif Require M_Gen.
From Verif Require Import S_Gen P_GenText P_GenRead P_Gen.
From Verif Require Import M_Audit S_Audit.
Local Open Scope string_scope.

(* ---- Fields ---- *)
Lemma find_field_spec n f : forall r, find_field r n = Some f <-> first_field r n f.
Proof.
  induction r as [|g r IH]; cbn.
  - split; [discriminate|]. intros (u & v & E & _). destruct u; discriminate E.
  - destruct (String.eqb_spec (af_name g) n) as [E|E].
    + split.
      * intros H. injection H as <-. exists [], r. split; [reflexivity|]. split; [exact E|constructor].
      * intros (u & v & E1 & E2 & F). destruct u as [|h u]; cbn in E1; injection E1 as E1 E3; [congruence|]. inversion F; subst. contradiction.
    + rewrite IH. split.
      * intros (u & v & -> & E2 & F). exists (g :: u), v. split; [reflexivity|]. split; [exact E2|]. constructor; assumption.
      * intros (u & v & E1 & E2 & F). destruct u as [|h u]; cbn in E1; injection E1 as E1 E3; [congruence|]. inversion F; subst. exists u, v. auto.
Qed.
Lemma field_is_spec r n t : is_str (field_str r n) t = true <-> field_is r n t.
Proof.
  unfold field_is, field_str, is_str. destruct (find_field r n) as [f|] eqn:E; cbn.
  - rewrite String.eqb_eq. split; [intros H; exists f; split; [apply find_field_spec; exact E|exact H]|].
    intros (g & G & <-). apply find_field_spec in G. congruence.
  - split; [discriminate|]. intros (g & G & _). apply find_field_spec in G. congruence.
Qed.
Lemma field_false r n t : is_str (field_str r n) t = false <-> ~ field_is r n t.
Proof. rewrite <- field_is_spec. destruct (is_str _ _); split; congruence. Qed.
Lemma field_one r n t t' : field_is r n t -> field_is r n t' -> t = t'.
Proof. intros (f & F & <-) (g & G & <-). apply find_field_spec in F, G. congruence. Qed.
Lemma relevant_spec comm r : relevant comm r = true <-> (field_is r "type" "SECCOMP" \/ field_is r "type" "SYSCALL") /\ field_is r "comm" (quoted comm).
Proof. unfold relevant. rewrite andb_true_iff, orb_true_iff, !field_is_spec. reflexivity. Qed.
Lemma relevant_false comm r : relevant comm r = false <-> ~ ((field_is r "type" "SECCOMP" \/ field_is r "type" "SYSCALL") /\ field_is r "comm" (quoted comm)).
Proof. rewrite <- relevant_spec. destruct (relevant comm r); split; congruence. Qed.

(* ---- Names ---- *)
Lemma after_app p : forall s t, after p s = Some t -> s = p ++ t.
Proof.
  induction p as [|c p IH]; intros s t H; cbn in H; [injection H as <-; reflexivity|]. destruct s as [|d s]; [discriminate|].
  destruct (Ascii.eqb_spec c d) as [<-|]; [|discriminate]. cbn. f_equal. apply IH. exact H.
Qed.
Lemma plain_known n : plain_name n -> unknown_syscall n = None.
Proof.
  intros (c & t & -> & _ & W). unfold unknown_syscall. destruct (after _ _) as [u|] eqn:E; [|reflexivity]. exfalso. apply after_app in E. cbn in E.
  injection E as _ E. specialize (W 6%nat "-"%char). rewrite E in W. specialize (W eq_refl).
  apply is_word_spec in W. discriminate W.
Qed.
Lemma name_shown n s : shown_as n s -> syscall_name s = n.
Proof.
  intros [P|k H].
  - unfold syscall_name. rewrite (plain_known _ P). reflexivity.
  - cbn in H. destruct H as [H|[H|[H|[H|[H|[]]]]]]; injection H as <- <-; vm_compute; reflexivity.
Qed.

(* ---- Records ---- *)
Definition said (c : acall) : string * option string :=
  (ac_name c, match lookup (ac_name c) inspected with Some _ => Some (parts_text (ac_value c)) | None => None end).
Lemma not_inspected n : (forall i, ~ first_entry inspected n i) -> lookup n inspected = None.
Proof. intros H. destruct (lookup n inspected) as [i|] eqn:E; [|reflexivity]. exfalso. apply (H i). apply lookup_spec. exact E. Qed.
Lemma arg_digit n i : first_entry inspected n i -> String (ascii_of_nat (48 + i)) "" = digit_of (N.of_nat i).
Proof.
  intros I. apply lookup_spec in I. unfold inspected in I. cbn [lookup] in I.
  repeat match type of I with (if ?b then _ else _) = _ => destruct b; [injection I as <-; reflexivity|] end. discriminate.
Qed.
Lemma record_reads comm r cs st : records comm r cs -> parse_record comm st r = Some (fold_left step (map said cs) st).
Proof.
  unfold parse_record. change M_Gen.arg_inspection with inspected. intros [H|f n C F T S H|f n C F T S H NI|f n i g ps C F T S H I G TG SG].
  - assert (relevant comm r = false) as ->. { apply relevant_false. tauto. } reflexivity.
  - assert (relevant comm r = true) as ->. { apply relevant_spec. tauto. } cbn [negb]. apply find_field_spec in F. rewrite F. apply String.eqb_neq in T. rewrite T, (name_shown _ _ S).
    destruct H as [[H (i & I)]|[H NI]].
    + apply lookup_spec in I. rewrite I. apply field_is_spec in H. rewrite H. reflexivity.
    + rewrite (not_inspected _ NI). assert (is_str (field_str r "type") "SECCOMP" = false) as ->. { apply field_false. intros K. discriminate (field_one _ _ _ _ H K). } reflexivity.
  - assert (relevant comm r = true) as ->. { apply relevant_spec. tauto. } cbn [negb]. apply find_field_spec in F. rewrite F. apply String.eqb_neq in T. rewrite T, (name_shown _ _ S).
    rewrite (not_inspected _ NI). apply field_is_spec in H. rewrite H. cbn [map fold_left]. unfold step, said. cbn [ac_name fst]. rewrite (not_inspected _ NI). reflexivity.
  - assert (relevant comm r = true) as ->. { apply relevant_spec. tauto. } cbn [negb]. apply find_field_spec in F. rewrite F. apply String.eqb_neq in T. rewrite T, (name_shown _ _ S).
    pose proof (arg_digit n i I) as D. apply lookup_spec in I. rewrite I, D.
    assert (is_str (field_str r "type") "SECCOMP" = false) as ->. { apply field_false. intros K. discriminate (field_one _ _ _ _ H K). }
    apply find_field_spec in G. rewrite G. apply String.eqb_neq in TG. rewrite TG, SG. cbn [map fold_left]. unfold step, said. cbn [ac_name ac_value fst snd]. rewrite I. reflexivity.
Qed.
Lemma records_read comm rs css : Forall2 (records comm) rs css -> forall st, parse_records comm st rs = Some (fold_left step (map said (concat css)) st).
Proof.
  induction 1 as [|r cs rs css R _ IH]; intros st; [reflexivity|]. cbn [parse_records concat]. rewrite (record_reads _ _ _ st R), map_app, fold_left_app. apply IH.
Qed.
Lemma records_app comm r1 : forall st r2, parse_records comm st (r1 ++ r2)%list = match parse_records comm st r1 with Some st => parse_records comm st r2 | None => None end.
Proof. induction r1 as [|r r1 IH]; intros st r2; [reflexivity|]. cbn. destruct (parse_record comm st r); [apply IH|reflexivity]. Qed.
Lemma irrelevant comm e st : existsb (relevant comm) e = false -> parse_records comm st e = Some st.
Proof.
  revert st. induction e as [|r e IH]; intros st H; [reflexivity|]. cbn in H. apply orb_false_iff in H as [H1 H2]. cbn [parse_records]. unfold parse_record. rewrite H1. apply IH. exact H2.
Qed.
Lemma events_read comm es : forall st, parse_events comm st es = parse_records comm st (concat es).
Proof.
  induction es as [|e es IH]; intros st; [reflexivity|]. cbn [parse_events concat]. rewrite records_app. destruct (existsb (relevant comm) e) eqn:X.
  - destruct (parse_records comm st e); [apply IH|reflexivity].
  - rewrite (irrelevant _ _ _ X). apply IH.
Qed.
Lemma log_reads comm l cs st : log_records comm l cs -> parse_audit_log comm st l = Some (fold_left step (map said cs) st).
Proof. intros ((r & e & t & ->) & css & F & ->). cbn [parse_audit_log]. rewrite events_read. apply records_read. exact F. Qed.

(* ---- Traces ---- *)
Lemma same_events f cs : same_calls f cs -> flat_map (event (tf_name f)) (tf_lines f) = map said cs.
Proof.
  unfold same_calls. induction 1 as [|l c ls cs (t & -> & P & V) _ IH]; [reflexivity|]. cbn [flat_map map event]. rewrite IH. apply policy_name_spec in P. rewrite <- P. cbn [app]. f_equal.
  unfold said, value_of. f_equal. destruct (lookup (ac_name c) inspected) as [i|] eqn:E; [|reflexivity]. rewrite V; [reflexivity|]. exists i. apply lookup_spec. exact E.
Qed.
Lemma logs_read comm logs css : Forall2 (log_records comm) logs css -> forall fs, Forall2 same_calls fs css ->
  forall st, parse_logs comm st logs = Some (fold_left step (events fs) st).
Proof.
  induction 1 as [|l cs logs css L _ IH]; intros fs F st; inversion F as [|f ? fs' ? S F']; subst; [reflexivity|]. cbn [parse_logs events flat_map].
  rewrite (log_reads _ _ _ st L), fold_left_app, (same_events _ _ S). apply IH. exact F'.
Qed.
Lemma as_traced a comm order year frequency tr logs css fs :
  trace_ok a (tr ++ fs) -> Forall2 (log_records comm) logs css -> Forall2 same_calls fs css ->
  generate_all comm order year frequency (on_disk tr) logs = M_Gen.generate order year frequency (on_disk (tr ++ fs)%list).
Proof.
  intros T L S. unfold generate_all, M_Gen.generate. rewrite (traces_read a _ _ T). apply Forall_app in T as [T1 T2]. rewrite (traces_read a _ _ T1), (logs_read _ _ _ L _ S).
  rewrite <- fold_left_app. unfold events. rewrite <- flat_map_app. reflexivity.
Qed.

(* ---- A trace of the calls ---- *)
Definition bare (n : string) : string := if M_Gen.inb n (map snd private_calls) then substring 4 (String.length n) n else n.
Definition shown_call (c : acall) : tcall :=
  match lookup (ac_name c) inspected with
  | Some i => TCall "" (bare (ac_name c)) (repeat "0" i) (ac_value c) ")"
  | None => TCall "" (bare (ac_name c)) [] [] ")"
  end.
Definition trace_of (cs : list acall) : tfile := TFile "audit" (map (fun c => Call (shown_call c)) cs).
Lemma bare_private n : In n (map snd private_calls) -> In (bare n) arm_calls /\ n = "ARM_" ++ bare n /\ plain_name (bare n).
Proof.
  intros H. cbn in H. destruct H as [<-|[<-|[<-|[<-|[<-|[]]]]]]; (split; [vm_compute; tauto|]); (split; [reflexivity|apply plainb_name; reflexivity]).
Qed.
Lemma bare_name n : ~ In n arm_calls -> policy_name "audit" (bare n) n.
Proof.
  intros NA. destruct (M_Gen.inb n (map snd private_calls)) eqn:E.
  - apply inb_spec, bare_private in E as (A & E & _). rewrite E at 2. apply pn_arm. exact A.
  - unfold bare. rewrite E. apply pn_same; [|exact NA]. intros H. apply socketcall_spec in H. discriminate H.
Qed.
Lemma bare_plain n : plain_name n -> plain_name (bare n).
Proof.
  intros P. destruct (M_Gen.inb n (map snd private_calls)) eqn:E; [apply inb_spec, bare_private in E; apply E|]. unfold bare. rewrite E. exact P.
Qed.
Lemma trace_same cs : Forall (fun c => ~ In (ac_name c) arm_calls) cs -> same_calls (trace_of cs) cs.
Proof.
  unfold same_calls, trace_of. cbn [tf_name tf_lines]. induction 1 as [|c cs NA _ IH]; [constructor|]. cbn [map]. constructor; [|exact IH].
  exists (shown_call c). split; [reflexivity|]. unfold shown_call. split.
  - destruct (lookup (ac_name c) inspected); cbn; apply bare_name; exact NA.
  - intros (i & I). apply lookup_spec in I. rewrite I. reflexivity.
Qed.
Lemma plain_in_line n : plain_name n -> in_line n.
Proof.
  intros P. assert (all_chars (fun c => is_word c = true) n) as W.
  { destruct P as (c & t & -> & C & T). apply all_chars_cons. split.
    - apply is_word_spec. destruct C as [C|C]; [left; exact C|right; right; exact C].
    - revert T. apply all_chars_impl. intros d D. apply is_word_spec. exact D. }
  revert W. apply all_chars_impl. intros c C. split; intros ->; discriminate C.
Qed.
Lemma before_in_line i : in_line (String.concat "" (map (fun x => x ++ ", ") (repeat "0" i))).
Proof.
  apply concat_chars; [apply all_chars_nil|]. induction i as [|i IH]; cbn; [constructor|]. constructor; [|exact IH].
  intros k c H. destruct k as [|[|[|k]]]; cbn in H; try discriminate H; injection H as <-; split; discriminate.
Qed.
Section tables.
Variable a : parch.
Lemma shown_ok c : acall_ok a c -> call_ok a "audit" (shown_call c).
Proof.
  intros (P & R & NA & (nr & NR) & V). assert (tc_tag (shown_call c) = "" /\ tc_name (shown_call c) = bare (ac_name c)) as [ET EN].
  { unfold shown_call. destruct (lookup _ _); split; reflexivity. }
  split; [rewrite ET; left; apply all_chars_nil|]. split.
  - cbn [tline_text]. rewrite ET, EN. change ("" ++ ?x) with x. unfold shown_call, no_newline, in_line. apply all_chars_app. split; [apply plain_in_line, bare_plain; exact P|].
    apply all_chars_app. split; [intros k d H; destruct k as [|k]; cbn in H; [injection H as <-; split; discriminate|discriminate H]|].
    destruct (lookup (ac_name c) inspected) as [i|] eqn:E; cbn [tc_before tc_value tc_rest].
    + apply lookup_spec in E. destruct (V i E) as [_ F]. apply all_chars_app. split; [apply before_in_line|]. apply all_chars_app. split.
      * intros k d H. split; [exact (parts_without a newline _ eq_refl F k d H)|exact (parts_without a cr _ eq_refl F k d H)].
      * intros k d H; destruct k as [|k]; cbn in H; [injection H as <-; split; discriminate|discriminate H].
    + intros k d H. cbn in H. destruct k as [|k]; cbn in H; [injection H as <-; split; discriminate|discriminate H].
  - exists (ac_name c), nr. rewrite EN. split; [apply bare_name; exact NA|]. split; [apply bare_plain; exact P|]. split; [exact P|]. split; [exact R|]. split; [exact NR|].
    intros i I. destruct (V i I) as [V1 V2]. apply lookup_spec in I. unfold shown_call. rewrite I. cbn [tc_before tc_value tc_rest]. split; [apply repeat_length|]. split.
    { apply Forall_forall. intros x X. apply repeat_spec in X. subst x. intros k d H; destruct k as [|k]; cbn in H; [injection H as <-; repeat split; discriminate|discriminate H]. }
    split; [exact V1|]. split; [exact V2|]. exists "", ")". split; [reflexivity|]. split; [apply all_chars_nil|]. right. exists "". right. left. reflexivity.
Qed.
Lemma traces_exist css : Forall (Forall (acall_ok a)) css -> exists fs, Forall2 same_calls fs css /\ trace_ok a fs.
Proof.
  induction 1 as [|cs css H _ (fs & S & T)]; [exists []; split; constructor|]. exists (trace_of cs :: fs). split; constructor; try assumption.
  - apply trace_same. revert H. apply Forall_impl. intros c C. apply C.
  - cbn [trace_of tf_name tf_lines]. induction H as [|c cs C _ IH]; cbn [map]; [constructor|]. constructor; [|exact IH]. apply shown_ok. exact C.
Qed.
Lemma generated_all x w comm tr logs css : (arch_bits (pa_arch a) = 32 \/ arch_bits (pa_arch a) = 64)%N -> trace_ok a tr ->
  Forall2 (log_records comm) logs css -> Forall (Forall (acall_ok a)) css ->
  const_ok a (Part "PROT_EXEC" x) -> const_ok a (Part "PROT_WRITE" w) -> has_basic a ->
  forall order, (forall l, Permutation (order l) l) -> one_name_each a -> forall year frequency, all_chars dec_digit year ->
  exists fs p, Forall2 same_calls fs css /\ trace_ok a (tr ++ fs) /\
  generate_all comm order year frequency (on_disk tr) logs = Some (policy_text p) /\ common_ok a p /\
  forall v d, (permitted a x w (tr ++ fs) d -> common_decision (arch_bits (pa_arch a)) v p d = ALLOW) /\
              (~ permitted a x w (tr ++ fs) d -> common_decision (arch_bits (pa_arch a)) v p d = v).
Proof.
  intros B T L C X W HB order O ON year frequency Y. destruct (traces_exist css C) as (fs & S & TF).
  assert (trace_ok a (tr ++ fs)) as T' by (apply Forall_app; split; assumption).
  destruct (generated a x w (tr ++ fs)%list B T' X W HB order O ON year frequency Y) as (p & G & OK & D). exists fs, p. split; [exact S|]. split; [exact T'|].
  split; [|split; assumption]. rewrite <- G. apply (as_traced a _ _ _ _ _ _ css); assumption.
Qed.
End tables.

(* ---- Compiled ---- *)
Section compiled.
Variables (a : parch) (x w : N) (comm : string) (tr fs : list tfile) (logs : list alog) (css : list (list acall)).
Variables (order : list string -> list string) (year : string) (frequency : bool) (t : string).
Hypotheses (B : (arch_bits (pa_arch a) = 32 \/ arch_bits (pa_arch a) = 64)%N) (T : trace_ok a (tr ++ fs)).
Hypotheses (L : Forall2 (log_records comm) logs css) (S : Forall2 same_calls fs css).
Hypotheses (CX : const_ok a (Part "PROT_EXEC" x)) (CW : const_ok a (Part "PROT_WRITE" w)) (HB : has_basic a) (ON : one_name_each a).
Hypotheses (ORD : forall l, Permutation (order l) l) (Y : all_chars dec_digit year).
Hypothesis G : generate_all comm order year frequency (on_disk tr) logs = Some t.
Lemma audited_c b fo st prog d : same_tables b a -> M_Bpf.little (M_Filter.b_plat b) = true ->
  M_Filter.compile_filter b fo st (Some (M_Lines.Stream t false)) = M_Filter.COk prog ->
  sd_ok d -> sd_arch d = M_Bpf.arch_no (M_Filter.b_plat b) -> ~ allowed_by_option b fo (sd_nr d) ->
  (permitted a x w (tr ++ fs) d -> run true prog d = VRet ALLOW) /\
  (~ permitted a x w (tr ++ fs) d -> run true prog d = VRet (action_value (M_Filter.fo_action fo))).
Proof. rewrite (as_traced a _ _ _ _ _ _ _ _ T L S) in G. exact (generated_c a x w _ order year frequency t B T CX CW HB ON ORD Y G b fo st prog d). Qed.
Lemma audited_python o resolve text file prog d : tables_ok a -> options_ok o -> o_denylist o = false -> o_ret_log o = false ->
  text file = Some t -> compile_text a o resolve text file = Some prog -> sd_ok d -> sd_arch d = arch_nr (pa_arch a) ->
  (permitted a x w (tr ++ fs) d -> run true prog d = VRet ALLOW) /\ (~ permitted a x w (tr ++ fs) d -> run true prog d = VRet (py_default o)).
Proof. rewrite (as_traced a _ _ _ _ _ _ _ _ T L S) in G. exact (generated_python a x w _ order year frequency t B T CX CW HB ON ORD Y G o resolve text file prog d). Qed.
End compiled.

(* ---- Broken logs ---- *)
Lemma record_complete comm st r st' : parse_record comm st r = Some st' -> complete comm r.
Proof.
  intros H C T. unfold parse_record in H. assert (relevant comm r = true) as R by (apply relevant_spec; tauto). rewrite R in H. cbn [negb] in H.
  destruct (find_field r "syscall") as [f|] eqn:F; [|discriminate]. destruct (String.eqb_spec (af_text f) "") as [E0|N]; [discriminate H|].
  exists f. split; [apply find_field_spec; exact F|]. split; [exact N|]. intros n i S I TS. rewrite (name_shown _ _ S) in H. change M_Gen.arg_inspection with inspected in H.
  pose proof (arg_digit _ _ I) as D. apply lookup_spec in I. rewrite I, D in H.
  assert (is_str (field_str r "type") "SECCOMP" = false) as E. { apply field_false. intros K. discriminate (field_one _ _ _ _ TS K). } rewrite E in H.
  destruct (find_field r ("a" ++ digit_of (N.of_nat i))) as [g|] eqn:G; [|discriminate]. destruct (String.eqb_spec (af_text g) "") as [E1|NG]; [discriminate H|]. exists g. split; [apply find_field_spec; exact G|exact NG].
Qed.
Lemma records_complete comm rs : forall st st', parse_records comm st rs = Some st' -> Forall (complete comm) rs.
Proof.
  induction rs as [|r rs IH]; intros st st' H; [constructor|]. cbn in H. destruct (parse_record comm st r) as [s|] eqn:R; [|discriminate].
  constructor; [exact (record_complete _ _ _ _ R)|exact (IH _ _ H)].
Qed.
Lemma forall_concat {A} (P : A -> Prop) l : Forall P (concat l) -> Forall (Forall P) l.
Proof. induction l as [|x l IH]; intros H; [constructor|]. cbn [concat] in H. apply Forall_app in H as [H1 H2]. constructor; [exact H1|apply IH; exact H2]. Qed.
Lemma logs_complete comm logs : forall st st', parse_logs comm st logs = Some st' ->
  Forall (fun l => (exists r e t, l = (r :: e) :: t) /\ Forall (Forall (complete comm)) l) logs.
Proof.
  induction logs as [|l logs IH]; intros st st' H; [constructor|]. cbn in H. destruct (parse_audit_log comm st l) as [s|] eqn:L; [|discriminate].
  constructor; [|exact (IH _ _ H)]. unfold parse_audit_log in L. destruct l as [|[|r e] t]; [discriminate|discriminate|]. split; [exists r, e, t; reflexivity|].
  rewrite events_read in L. apply records_complete in L. apply forall_concat. exact L.
Qed.
Lemma nothing_missing comm order year frequency files logs t : generate_all comm order year frequency files logs = Some t ->
  Forall (fun l => (exists r e u, l = (r :: e) :: u) /\ Forall (Forall (complete comm)) l) logs.
Proof.
  unfold generate_all. destruct (M_Gen.parse_traces _ _) as [st|]; [|discriminate]. destruct (parse_logs comm st logs) as [st'|] eqn:L; [|discriminate]. intros _. exact (logs_complete _ _ _ _ L).
Qed.
