(* Which files generate_seccomp_policy.py takes for logs of the audit
   subsystem. *)
From Coq Require Import Permutation.
From Verif Require Import P_CStr P_Const S_Policy S_PyPolicy P_PyFile P_PyEx.
From Verif Require Import M_PyParse S_PyText P_PyLex P_PyGram P_PyStmt P_PyText P_PyMean P_PyTextEx S_Common P_CommonPy P_CommonC P_Common P_CommonEx S_Accept P_CommonFit.
From Verif Require M_Gen.
From Verif Require Import S_Gen P_GenText P_GenRead P_Gen P_GenEx.
From Verif Require Import M_Audit S_Audit P_Audit P_AuditEx M_Bucket S_Bucket.
Local Open Scope N_scope.
Local Open Scope string_scope.

Lemma search_spec r : forall s prev, search r prev s = true <-> exists u v w, s = u ++ v ++ w /\ den r (last_of prev u) v w.
Proof.
  assert (forall prev s, (exists x, re_match r prev s = Some x) <-> exists v w, s = v ++ w /\ den r prev v w) as M.
  { intros prev s. unfold re_match. split.
    - intros (x & H). apply matching_sound in H as (v & w & E & D & _). exists v, w. auto.
    - intros (v & w & -> & D). pose proof (matching_complete r prev v w (fun _ s => Some s) D) as H. destruct (matching r prev (v ++ w) _) as [x|]; [exists x; reflexivity|]. exfalso. apply H; [discriminate|reflexivity]. }
  induction s as [|c s IH]; intros prev; cbn [search]; destruct (re_match r prev _) as [x|] eqn:E.
  - split; [intros _|reflexivity]. destruct (proj1 (M prev "") (ex_intro _ x E)) as (v & w & E' & D). exists "", v, w. auto.
  - split; [discriminate|]. intros (u & v & w & E' & D). destruct u; [|discriminate E']. destruct (proj2 (M prev "")) as (x & X); [exists v, w; auto|congruence].
  - split; [intros _|reflexivity]. destruct (proj1 (M _ _) (ex_intro _ x E)) as (v & w & E' & D). exists "", v, w. auto.
  - rewrite IH. split.
    + intros (u & v & w & -> & D). exists (String c u), v, w. auto.
    + intros (u & v & w & E' & D). destruct u as [|d u].
      * destruct (proj2 (M prev (String c s))) as (x & X); [exists v, w; auto|congruence].
      * cbn in E'. injection E' as <- ->. exists u, v, w. auto.
Qed.
Lemma lower_spec c : is_lower c = true <-> lower c.
Proof. unfold is_lower, in_range, lower. rewrite andb_true_iff, !N.leb_le. reflexivity. Qed.
Lemma dot_spec c : dot c = true <-> c <> newline.
Proof. unfold dot. rewrite negb_true_iff. split; [intros H ->; discriminate H|]. intros H. destruct (is_c "010" c) eqn:E; [|reflexivity]. apply is_c_spec in E. subst. exfalso. apply H. reflexivity. Qed.
Lemma space_spec c : is_c " " c = true <-> c = " "%char.
Proof. rewrite is_c_spec. reflexivity. Qed.
Lemma call_spec l : search strace_line_re None l = true <-> call_line l.
Proof.
  rewrite search_spec. unfold call_line, strace_line_re. split.
  - intros (u & v & rest & -> & D). apply den_cat in D as (n & v1 & -> & D1 & D). apply den_cat in D as (ds & v2 & -> & D2 & D). apply den_cat in D as (p & v3 & -> & D3 & D).
    apply den_cat in D as (args & v4 & -> & D4 & D). apply den_cat in D as (q & v5 & -> & D5 & D). apply den_cat in D as (sp & e & -> & D6 & D7).
    apply den_lit in D3, D5, D7. subst p q e. apply (den_some1_of _ _ _ _ _ lower_spec) in D1. apply (den_some1_of _ _ _ _ _ dot_spec) in D4. apply (den_some1_of _ _ _ _ _ space_spec) in D6.
    exists u, n, ds, args, sp, rest. split; [rewrite !sapp_assoc; reflexivity|]. split; [exact D1|]. split; [|auto]. cbn in D2. apply every_all in D2. revert D2. apply all_chars_impl. intros c C. apply is_digit_spec. exact C.
  - intros (u & n & ds & args & sp & rest & -> & D1 & D2 & D4 & D6). exists u, (n ++ ds ++ "(" ++ args ++ ")" ++ sp ++ "= "), rest. split; [rewrite !sapp_assoc; reflexivity|].
    exists n, (ds ++ "(" ++ args ++ ")" ++ sp ++ "= "). split; [reflexivity|]. split; [apply (den_some1_of _ _ _ _ _ lower_spec); exact D1|].
    exists ds, ("(" ++ args ++ ")" ++ sp ++ "= "). split; [reflexivity|]. split; [apply every_all; revert D2; apply all_chars_impl; intros c C; apply is_digit_spec; exact C|].
    exists "(", (args ++ ")" ++ sp ++ "= "). split; [reflexivity|]. split; [apply den_lit; reflexivity|].
    exists args, (")" ++ sp ++ "= "). split; [reflexivity|]. split; [apply (den_some1_of _ _ _ _ _ dot_spec); exact D4|].
    exists ")", (sp ++ "= "). split; [reflexivity|]. split; [apply den_lit; reflexivity|].
    exists sp, "= ". split; [reflexivity|]. split; [apply (den_some1_of _ _ _ _ _ space_spec); exact D6|]. apply den_lit. reflexivity.
Qed.
Lemma audit_spec l : search audit_line_re None l = true <-> audit_line l.
Proof.
  rewrite search_spec. unfold audit_line, audit_line_re, contains. split.
  - intros (u & v & w & -> & D). apply den_cat in D as (p & e & -> & D1 & D2). apply den_lit in D1 as ->. destruct D2 as [D2|D2]; apply den_lit in D2 as ->; [left|right]; exists u, w; reflexivity.
  - intros [(u & w & ->)|(u & w & ->)]; [exists u, "type=SYSCALL", w|exists u, "type=SECCOMP", w]; (split; [reflexivity|]).
    + exists "type=", "SYSCALL". split; [reflexivity|]. split; [apply den_lit; reflexivity|left; apply den_lit; reflexivity].
    + exists "type=", "SECCOMP". split; [reflexivity|]. split; [apply den_lit; reflexivity|right; apply den_lit; reflexivity].
Qed.
Lemma is_audit_spec ls : is_audit ls = true <-> audit_text ls.
Proof.
  unfold audit_text. induction ls as [|x ls IH]; cbn [is_audit].
  - split; [discriminate|]. intros (u & l & r & E & _). destruct u; discriminate E.
  - destruct (search strace_line_re None x) eqn:C; [apply call_spec in C|assert (~ call_line x) as NC by (rewrite <- call_spec; congruence)].
    + split; [discriminate|]. intros (u & l & r & E & F & A & N). destruct u as [|y u]; cbn in E; injection E as <- _; [contradiction|]. inversion F as [|? ? [X _] _]; subst. contradiction.
    + destruct (search audit_line_re None x) eqn:A; [apply audit_spec in A|assert (~ audit_line x) as NA by (rewrite <- audit_spec; congruence)].
      * split; [intros _|reflexivity]. exists [], x, ls. auto.
      * rewrite IH. split.
        -- intros (u & l & r & -> & F & H). exists (x :: u), l, r. split; [reflexivity|]. split; [constructor; auto|exact H].
        -- intros (u & l & r & E & F & H). destruct u as [|y u]; cbn in E; injection E as <- E; [tauto|]. inversion F; subst. exists u, l, r. auto.
Qed.
Lemma parted_bucket files au tr : parted files au tr -> forall a0 t0, bucket (found files) a0 t0 = Some (a0 ++ au, t0 ++ tr)%list.
Proof.
  induction 1 as [|name t ls files au tr C A _ IH|name t ls files au tr C A _ IH]; intros a0 t0; cbn [found map bucket fst snd].
  - rewrite !app_nil_r. reflexivity.
  - rewrite (text_cut_lines _ _ C). apply is_audit_spec in A. rewrite A. fold (found files). rewrite IH, <- app_assoc. reflexivity.
  - rewrite (text_cut_lines _ _ C). destruct (is_audit ls) eqn:E; [apply is_audit_spec in E; contradiction|]. fold (found files). rewrite IH, <- app_assoc. reflexivity.
Qed.
Lemma missing_file name files : In (name, None) files -> forall a0 t0, bucket files a0 t0 = None.
Proof.
  induction files as [|[n [t|]] files IH]; intros I a0 t0; [destruct I| |reflexivity]. destruct I as [I|I]; [discriminate|]. cbn [bucket]. destruct (is_audit _); apply IH; exact I.
Qed.
Lemma tool_generates a auparse comm order year frequency files au tr css fs : parted files au (on_disk tr) ->
  trace_ok a (tr ++ fs) -> Forall2 (fun f => log_records comm (auparse (snd f))) au css -> Forall2 same_calls fs css ->
  generate_tool auparse comm order year frequency (found files) = M_Gen.generate order year frequency (on_disk (tr ++ fs)%list).
Proof.
  intros P T L S. unfold generate_tool. rewrite (parted_bucket _ _ _ P [] []). cbn [app]. apply (as_traced a _ _ _ _ _ _ css); [exact T| |exact S].
  clear -L. induction L; constructor; assumption.
Qed.
Lemma tool_missing auparse comm order year frequency files name : In (name, None) files -> generate_tool auparse comm order year frequency files = None.
Proof. intros I. unfold generate_tool. rewrite (missing_file name files I). reflexivity. Qed.
Lemma tool_policy : forall a x w auparse comm files au tr css, (arch_bits (pa_arch a) = 32 \/ arch_bits (pa_arch a) = 64) -> parted files au (on_disk tr) -> trace_ok a tr ->
  Forall2 (fun f => log_records comm (auparse (snd f))) au css -> Forall (Forall (acall_ok a)) css ->
  const_ok a (Part "PROT_EXEC" x) -> const_ok a (Part "PROT_WRITE" w) -> has_basic a ->
  forall order, (forall l, Permutation (order l) l) -> one_name_each a -> forall year frequency, all_chars dec_digit year ->
  exists fs p, Forall2 same_calls fs css /\ trace_ok a (tr ++ fs) /\
  generate_tool auparse comm order year frequency (found files) = Some (policy_text p) /\ common_ok a p /\
  forall v d, (permitted a x w (tr ++ fs) d -> common_decision (arch_bits (pa_arch a)) v p d = ALLOW) /\
              (~ permitted a x w (tr ++ fs) d -> common_decision (arch_bits (pa_arch a)) v p d = v).
Proof.
  intros a x w auparse comm files au tr css B P T L C X W HB order O ON year frequency Y.
  assert (Forall2 (log_records comm) (map (fun f => auparse (snd f)) au) css) as L'. { clear -L. induction L; constructor; assumption. }
  destruct (generated_all a x w comm tr _ css B T L' C X W HB order O ON year frequency Y) as (fs & p & S & T' & G & R). exists fs, p. split; [exact S|]. split; [exact T'|]. split; [|exact R].
  unfold generate_tool. rewrite (parted_bucket _ _ _ P [] []). exact G.
Qed.
