(* What generate_seccomp_policy.py collects from traces. *)
From Verif Require Import P_CStr P_Const S_Policy S_PyPolicy P_PyFile.
From Verif Require Import M_PyParse S_PyText P_PyLex P_PyGram S_Common P_CommonPy P_CommonC.
From Verif Require M_Gen.
From Verif Require Import S_Gen P_GenText.
Local Open Scope string_scope.

(* ---- Names ---- *)
Lemma inb_spec x l : M_Gen.inb x l = true <-> In x l.
Proof. unfold M_Gen.inb. rewrite existsb_exists. split; [intros (y & H & E); apply String.eqb_eq in E; subst; exact H|intros H; exists x; rewrite String.eqb_refl; auto]. Qed.
Lemma inb_false x l : M_Gen.inb x l = false <-> ~ In x l.
Proof. rewrite <- inb_spec. destruct (M_Gen.inb x l); split; congruence. Qed.
Lemma py_in_spec x s : M_Gen.py_in x s = true <-> contains x s.
Proof.
  unfold contains. induction s as [|c s IH]; cbn [M_Gen.py_in]; rewrite orb_true_iff, prefix_spec.
  - split; [intros [(t & ->)|[=]]; exists "", t; reflexivity|]. intros (u & v & E). left. destruct u; [exists v; exact E|discriminate].
  - rewrite IH. split.
    + intros [(t & ->)|(u & v & ->)]; [exists "", t; reflexivity|exists (String c u), v; reflexivity].
    + intros (u & v & E). destruct u as [|d u]; [left; exists v; exact E|right; injection E as -> E; exists u, v; exact E].
Qed.
Lemma socketcall_spec f : M_Gen.uses_socketcall f = true <-> i386_file f.
Proof.
  unfold M_Gen.uses_socketcall, i386_file. rewrite orb_true_iff, andb_true_iff, negb_true_iff, !py_in_spec. rewrite <- (py_in_spec "64"). destruct (M_Gen.py_in "64" f); intuition congruence.
Qed.
Lemma arm_spec n : In ("ARM_" ++ n) (map snd M_Gen.PRIVATE_ARM_SYSCALLS) <-> In n arm_calls.
Proof.
  change (map snd M_Gen.PRIVATE_ARM_SYSCALLS) with (map (append "ARM_") arm_calls). rewrite in_map_iff. split.
  - intros (x & E & H). apply sapp_inj_l in E. subst. exact H.
  - intros H. exists n. auto.
Qed.
Lemma policy_name_spec f n m : policy_name f n m <-> m = M_Gen.policy_name (M_Gen.uses_socketcall f) n.
Proof.
  unfold M_Gen.policy_name. change M_Gen.SOCKETCALLS with socket_calls.
  destruct (M_Gen.inb n socket_calls) eqn:I; [apply inb_spec in I|apply inb_false in I].
  - assert (~ In n arm_calls) as NA. { cbn in I. cbn. intros A. destruct A as [<-|[<-|[<-|[<-|[<-|[]]]]]]; repeat (destruct I as [I|I]; [discriminate|]); exact I. }
    rewrite andb_true_r. destruct (M_Gen.uses_socketcall f) eqn:U.
    + apply socketcall_spec in U. split; [|intros ->; apply pn_socket; assumption]. intros []; [reflexivity|contradiction|tauto].
    + assert (~ i386_file f) as NU by (rewrite <- socketcall_spec; congruence).
      assert (M_Gen.inb ("ARM_" ++ n) (map snd M_Gen.PRIVATE_ARM_SYSCALLS) = false) as -> by (apply inb_false; rewrite arm_spec; exact NA).
      split; [|intros ->; apply pn_same; tauto]. intros []; [tauto|contradiction|reflexivity].
  - rewrite andb_false_r. destruct (M_Gen.inb ("ARM_" ++ n) (map snd M_Gen.PRIVATE_ARM_SYSCALLS)) eqn:A; [apply inb_spec in A|apply inb_false in A]; rewrite arm_spec in A.
    + split; [|intros ->; apply pn_arm; exact A]. intros []; [contradiction|reflexivity|contradiction].
    + split; [|intros ->; apply pn_same; tauto]. intros []; [contradiction|contradiction|reflexivity].
Qed.

(* ---- Calls ---- *)
Definition value_of (n : string) (c : tcall) : option string := match lookup n inspected with Some _ => Some (parts_text (tc_value c)) | None => None end.
Definition event (f : string) (l : tline) : list (string * option string) :=
  match l with Call c => let n := M_Gen.policy_name (M_Gen.uses_socketcall f) (tc_name c) in [(n, value_of n c)] | Other _ => [] end.
Definition step (st : M_Gen.traced) (e : string * option string) : M_Gen.traced :=
  M_Gen.Traced (M_Gen.count (fst e) (M_Gen.t_counts st)) (match snd e with Some v => M_Gen.add_value (fst e) v (M_Gen.t_values st) | None => M_Gen.t_values st end).
Lemma longest p s : exists u v, s = u ++ v /\ every p u = true /\ stops p v.
Proof.
  induction s as [|c s (u & v & -> & U & V)]; [exists "", ""; repeat split; apply stops_nil|]. destruct (p c) eqn:P.
  - exists (String c u), v. cbn. rewrite P. auto.
  - exists "", (String c (u ++ v)). split; [reflexivity|]. split; [reflexivity|]. apply stops_cons. exact P.
Qed.
Section tables.
Variable a : parch.
Lemma part_trim x : part_ok a x -> begins (pt_word x) /\ finishes (pt_word x).
Proof. intros H. apply part_chunk in H as (ts & C & _). split; apply C. Qed.
Lemma trim_of s : begins s -> finishes s -> trim s.
Proof.
  intros B (t & c & -> & C). split; [intros e r E; apply (begins_no_space _ B _ _ E)|]. exists t, c. split; [reflexivity|]. apply word_not_space. auto.
Qed.
Lemma parts_trim l : l <> [] -> Forall (part_ok a) l -> trim (parts_text l).
Proof. intros N H. destruct (parts_chunk a l N H) as (ts & C & _). apply trim_of; apply C. Qed.
Lemma parts_without k l : is_word k || is_c "-" k || is_c "~" k || is_c "|" k = false -> Forall (part_ok a) l -> all_chars (fun x => x <> k) (parts_text l).
Proof.
  intros K F. assert (is_word k || is_c "-" k || is_c "~" k = false /\ is_c "|" k = false) as [K1 K2] by (apply orb_false_iff; exact K).
  apply concat_chars; [apply all_chars_cons; split; [intros <-; discriminate K2|apply all_chars_nil]|]. revert F. apply Forall_map'. intros x H.
  apply part_chars in H. revert H. apply word_without. exact K1.
Qed.
Lemma args_every s : all_chars (fun c => c <> ")"%char /\ c <> "<"%char) s -> every M_Gen.in_args s = true.
Proof.
  intros H. apply every_all. revert H. apply all_chars_impl. intros c [C D]. unfold M_Gen.in_args, is_c. apply negb_true_iff, orb_false_iff.
  split; apply Ascii.eqb_neq; congruence.
Qed.
Lemma before_args l : Forall plain_arg l -> every M_Gen.in_args (String.concat "" (map (fun x => x ++ ", ") l)) = true.
Proof.
  intros F. apply args_every. apply concat_chars; [apply all_chars_nil|]. revert F. apply Forall_map'. intros x H. apply all_chars_app. split.
  - revert H. apply all_chars_impl. intros c C. tauto.
  - apply all_chars_cons. split; [split; discriminate|]. apply all_chars_cons. split; [split; discriminate|]. apply all_chars_nil.
Qed.
Lemma white_args s : all_chars white s -> every M_Gen.in_args s = true /\ all_chars (fun c => c <> ","%char) s.
Proof.
  intros H. split.
  - apply args_every. revert H. apply all_chars_impl. intros c C. apply is_space_spec in C. split; intros ->; discriminate C.
  - revert H. apply all_chars_impl. intros c C ->. apply is_space_spec in C. discriminate C.
Qed.
(* The inspected argument *)
Lemma inspected_arg c i : length (tc_before c) = i -> Forall plain_arg (tc_before c) -> tc_value c <> [] -> Forall (part_ok a) (tc_value c) -> after_arg (tc_rest c) ->
  exists args r, String.concat "" (map (fun x => x ++ ", ") (tc_before c)) ++ parts_text (tc_value c) ++ tc_rest c = args ++ r /\
  every M_Gen.in_args args = true /\ stops M_Gen.in_args r /\
  nth_error (map M_Gen.py_strip (M_Gen.py_split "," args "")) i = Some (parts_text (tc_value c)).
Proof.
  intros L B N F (sp & r & E & W & R). destruct (longest M_Gen.in_args r) as (r1 & r2 & E2 & A & S).
  exists (String.concat "" (map (fun x => x ++ ", ") (tc_before c)) ++ (parts_text (tc_value c) ++ sp) ++ r1), r2.
  destruct (white_args _ W) as [W1 W2]. split; [rewrite E, E2, !sapp_assoc; reflexivity|]. split; [|split; [exact S|]].
  - rewrite !every_app, (before_args _ B), W1, A. rewrite !andb_true_r. apply args_every.
    pose proof (parts_without ")" _ eq_refl F) as H1. pose proof (parts_without "<" _ eq_refl F) as H2. intros j x J. split; [apply (H1 j); exact J|apply (H2 j); exact J].
  - rewrite nth_error_map, <- L. destruct (split_arg (parts_text (tc_value c) ++ sp) r1) with (before := tc_before c) (cur := "") as (cur' & C & ->).
    + apply all_chars_app. split; [apply parts_without; [reflexivity|exact F]|exact W2].
    + destruct R as [->|(t & [->|[->| ->]])].
      * symmetry in E2. apply sapp_eq_nil in E2 as [-> _]. left. reflexivity.
      * destruct r1 as [|e r1]; [left; reflexivity|]. injection E2 as <- _. right. eexists. reflexivity.
      * destruct r1 as [|e r1]; [left; reflexivity|]. injection E2 as <- _. cbn in A. discriminate A.
      * destruct r1 as [|e r1]; [left; reflexivity|]. injection E2 as <- _. cbn in A. discriminate A.
    + exact B.
    + apply all_chars_nil.
    + cbn [option_map]. rewrite (strip_trim _ _ _ C W (parts_trim _ N F)). reflexivity.
Qed.
Lemma call_reads f c st : call_ok a f c ->
  M_Gen.parse_line (M_Gen.uses_socketcall f) st (tline_text (Call c)) = Some (fold_left step (event f (Call c)) st).
Proof.
  intros (TG & NL & n & nr & PN & P & P' & RS & FE & I). apply policy_name_spec in PN. cbn [event fold_left]. unfold M_Gen.parse_line. cbn [tline_text].
  rewrite <- PN. change M_Gen.arg_inspection with inspected. unfold step, value_of. cbn [fst snd].
  destruct (lookup n inspected) as [i|] eqn:L.
  - apply lookup_spec in L. destruct (I i L) as (I1 & I2 & I3 & I4 & I5). destruct (inspected_arg c i I1 I2 I3 I4 I5) as (args & r & E & A & S & X).
    rewrite E, (call_line _ _ _ _ TG P A S). cbv zeta. rewrite <- PN. apply lookup_spec in L. rewrite L, X. reflexivity.
  - destruct (longest M_Gen.in_args (String.concat "" (map (fun x => x ++ ", ") (tc_before c)) ++ parts_text (tc_value c) ++ tc_rest c)) as (args & r & E & A & S).
    rewrite E, (call_line _ _ _ _ TG P A S). cbv zeta. rewrite <- PN, L. reflexivity.
Qed.
Lemma line_reads f l st : tline_ok a f l -> M_Gen.parse_line (M_Gen.uses_socketcall f) st (tline_text l) = Some (fold_left step (event f l) st).
Proof. destruct l as [c|s]; cbn [tline_ok]; intros H; [apply call_reads; exact H|]. unfold M_Gen.parse_line. cbn [tline_text]. rewrite (other_line s H). reflexivity. Qed.
Lemma lines_read f ls : forall st, Forall (tline_ok a f) ls ->
  M_Gen.parse_lines (M_Gen.uses_socketcall f) st (map tline_text ls) = Some (fold_left step (flat_map (event f) ls) st).
Proof.
  induction ls as [|l ls IH]; intros st H; [reflexivity|]. inversion H as [|? ? L H']; subst. cbn [map M_Gen.parse_lines flat_map]. rewrite (line_reads f l st L), fold_left_app. apply IH. exact H'.
Qed.
Lemma line_line f l : tline_ok a f l -> in_line (tline_text l).
Proof. destruct l as [c|s]; cbn [tline_ok]; intros H; apply H. Qed.
Lemma trace_cut f ls : Forall (tline_ok a f) ls -> text_cut (trace_text ls) (map tline_text ls).
Proof.
  intros H. induction H as [|l ls L H IH]; [constructor|]. cbn [trace_text map]. apply tc_newline; [apply (line_line f l L)|exact IH].
Qed.
Definition events (tr : list tfile) : list (string * option string) := flat_map (fun f => flat_map (event (tf_name f)) (tf_lines f)) tr.
Lemma traces_read tr : forall st, trace_ok a tr -> M_Gen.parse_traces st (on_disk tr) = Some (fold_left step (events tr) st).
Proof.
  induction tr as [|f tr IH]; intros st H; [reflexivity|]. inversion H as [|? ? F H']; subst. cbn [map on_disk M_Gen.parse_traces events flat_map].
  rewrite (text_cut_lines _ _ (trace_cut _ _ F)), (lines_read _ _ st F), fold_left_app. apply IH. exact H'.
Qed.
End tables.

(* ---- What is collected ---- *)
Definition values (n : string) (d : list (string * list string)) : list string := match lookup n d with Some l => l | None => [] end.
Lemma count_keys n x d : In n (map fst (M_Gen.count x d)) <-> n = x \/ In n (map fst d).
Proof.
  induction d as [|[y k] d IH]; cbn; [intuition congruence|]. destruct (String.eqb y x) eqn:E; cbn.
  - apply String.eqb_eq in E. subst. intuition congruence.
  - rewrite IH. intuition congruence.
Qed.
Lemma count_nodup x d : NoDup (map fst d) -> NoDup (map fst (M_Gen.count x d)).
Proof.
  induction d as [|[y k] d IH]; cbn; intros N; [repeat constructor; intros []|]. inversion N as [|? ? A N']; subst. destruct (String.eqb y x) eqn:E; cbn; [exact N|].
  apply String.eqb_neq in E. constructor; [|apply IH; exact N']. rewrite count_keys. intuition congruence.
Qed.
Lemma add_values n s x v d : In s (values n (M_Gen.add_value x v d)) <-> (n = x /\ s = v) \/ In s (values n d).
Proof.
  unfold values. induction d as [|[y l] d IH]; cbn [M_Gen.add_value lookup].
  - destruct (String.eqb x n) eqn:E; [apply String.eqb_eq in E; subst; cbn; intuition congruence|apply String.eqb_neq in E; cbn; intuition congruence].
  - destruct (String.eqb y x) eqn:E; cbn [lookup].
    + apply String.eqb_eq in E. subst. destruct (String.eqb x n) eqn:E2; [apply String.eqb_eq in E2; subst|apply String.eqb_neq in E2; intuition congruence].
      destruct (M_Gen.inb v l) eqn:I; [apply inb_spec in I; intuition congruence|]. rewrite in_app_iff. cbn. intuition congruence.
    + destruct (String.eqb y n) eqn:E2; [|exact IH]. apply String.eqb_eq in E2. apply String.eqb_neq in E. subst. intuition congruence.
Qed.
Lemma collected es : forall st, NoDup (map fst (M_Gen.t_counts st)) -> let st' := fold_left step es st in
  NoDup (map fst (M_Gen.t_counts st')) /\
  (forall n, In n (map fst (M_Gen.t_counts st')) <-> In n (map fst (M_Gen.t_counts st)) \/ exists v, In (n, v) es) /\
  (forall n s, In s (values n (M_Gen.t_values st')) <-> In s (values n (M_Gen.t_values st)) \/ In (n, Some s) es).
Proof.
  induction es as [|[x v] es IH]; intros st N; cbn [fold_left].
  - cbv zeta. split; [exact N|]. split; [intros n; firstorder|intros n s; cbn; tauto].
  - destruct (IH (step st (x, v))) as (A & B & C); [apply count_nodup; exact N|]. split; [exact A|]. split.
    + intros n. rewrite B. cbn [step M_Gen.t_counts fst]. rewrite count_keys. split.
      * intros [[->|H]|(w & H)]; [right; exists v; left; reflexivity|left; exact H|right; exists w; right; exact H].
      * intros [H|(w & [E|H])]; [auto|injection E as -> ->; auto|right; exists w; exact H].
    + intros n s. rewrite C. cbn [step M_Gen.t_values fst snd]. destruct v as [v|].
      * rewrite add_values. split; [intros [[[-> ->]|H]|H]; [right; left; reflexivity|auto|right; right; exact H]|intros [H|[E|H]]; [auto|injection E as -> ->; auto|auto]].
      * split; [intros [H|H]; [auto|right; right; exact H]|intros [H|[E|H]]; [auto|discriminate|auto]].
Qed.
Lemma events_traced tr n v : In (n, v) (events tr) <-> exists c, traced tr n c /\ v = value_of n c.
Proof.
  unfold events, traced. rewrite in_flat_map. split.
  - intros (f & F & H). apply in_flat_map in H as ([c|s] & L & H); [|destruct H]. cbn in H. destruct H as [H|[]]. injection H as H1 H2. exists c. rewrite H1 in H2. split; [|auto].
    exists f. split; [exact F|]. split; [exact L|]. apply policy_name_spec. auto.
  - intros (c & (f & F & L & P) & ->). exists f. split; [exact F|]. apply in_flat_map. exists (Call c). split; [exact L|]. apply policy_name_spec in P. cbn. rewrite <- P. left. reflexivity.
Qed.
Definition final (tr : list tfile) : M_Gen.traced := fold_left step (events tr) (M_Gen.Traced [] []).
Lemma final_names tr n : In n (map fst (M_Gen.t_counts (final tr))) <-> exists c, traced tr n c.
Proof.
  destruct (collected (events tr) (M_Gen.Traced [] [])) as (_ & B & _); [constructor|]. unfold final. rewrite B. split.
  - intros [[]|(v & H)]. apply events_traced in H as (c & H & _). exists c. exact H.
  - intros (c & H). right. exists (value_of n c). apply events_traced. exists c. auto.
Qed.
Lemma final_nodup tr : NoDup (map fst (M_Gen.t_counts (final tr))).
Proof. destruct (collected (events tr) (M_Gen.Traced [] [])) as (A & _ & _); [constructor|]. exact A. Qed.
Lemma final_values tr n s i : first_entry inspected n i -> In s (values n (M_Gen.t_values (final tr))) <-> exists c, traced tr n c /\ s = parts_text (tc_value c).
Proof.
  intros I. destruct (collected (events tr) (M_Gen.Traced [] [])) as (_ & _ & C); [constructor|]. unfold final. rewrite C. apply lookup_spec in I.
  assert (forall c, value_of n c = Some (parts_text (tc_value c))) as V by (intros c; unfold value_of; rewrite I; reflexivity). split.
  - intros [[]|H]. apply events_traced in H as (c & H & E). rewrite V in E. injection E as ->. exists c. auto.
  - intros (c & H & ->). right. apply events_traced. exists c. rewrite V. auto.
Qed.
