(* Cutting a file after whole lines; truncated last lines (C06) and includes
   (C12). *)
From Verif Require Export P_Claims P_Lines.
From Coq Require Import ZifyBool ZifyNat ZifyN.
Local Open Scope string_scope.

Lemma cut_line_dropped b o fs t l e : whole_lines t -> all_chars (fun c => c <> newline) l ->
  compile_filter b o fs (Some (Stream (t ++ l ++ "\") e)) = compile_filter b o fs (Some (Stream t e)).
Proof.
  intros W A. unfold compile_filter, compile_stream. cbn [s_bytes s_ioerr].
  rewrite multilines_app by auto. rewrite multilines_cut by auto. rewrite app_nil_r. reflexivity.
Qed.

(* ---- C12 ---- *)
Definition set_bad (x : bool) (st : cstate) : cstate :=
  CS (cs_head st) (cs_args st) (cs_labels st) (cs_seen st) (x || cs_bad st).
Definition cmap {A B} (f : A -> B) (x : cres A) : cres B := cbind x (fun a => COk (f a)).

Lemma rule_set_bad b o x st s : compile_rule b o (set_bad x st) s = cmap (set_bad x) (compile_rule b o st s).
Proof.
  unfold compile_rule. destruct (strsep ":"%char s) as [name [body|]]; [|reflexivity]. cbv zeta.
  destruct (String.eqb (strip body) ""); [reflexivity|].
  destruct (lookup_syscall (b_syscalls b) (strip name)) as [[nr ind]|].
  - cbn [cs_head cs_args cs_labels cs_seen cs_bad set_bad].
    destruct (String.eqb (strip body) "1").
    + unfold cmap, set_bad. cbn [cbind cs_head cs_args cs_labels cs_seen cs_bad]. rewrite orb_assoc. reflexivity.
    + destruct (bpf_label_id (cs_labels st) (strip name)) as [oid l1].
      destruct (compile_policy_line _ _ _ _ _ _) as [[blk l2]| | |]; try reflexivity.
      unfold cmap, set_bad. cbn [cbind cs_head cs_args cs_labels cs_seen cs_bad]. rewrite orb_assoc. reflexivity.
  - destruct (fo_allow_logging o); reflexivity.
Qed.
Lemma line_set_bad b o inc x st l :
  (forall f st, inc f (set_bad x st) = cmap (set_bad x) (inc f st)) ->
  compile_line b o inc (set_bad x st) l = cmap (set_bad x) (compile_line b o inc st l).
Proof.
  intros I. rewrite !compile_line_eq. cbv zeta.
  destruct (String.eqb (strip l) ""); [reflexivity|]. destruct (starts "#" (strip l)); [reflexivity|].
  destruct (starts "@" (strip l)).
  - destruct (has_prefix "@frequency" (strip l)); [reflexivity|].
    destruct (parse_include (strip l)); [apply I|reflexivity].
  - apply rule_set_bad.
Qed.
Lemma lines_set_bad b o inc x ls :
  (forall f st, inc f (set_bad x st) = cmap (set_bad x) (inc f st)) ->
  forall st, compile_lines b o inc (set_bad x st) ls = cmap (set_bad x) (compile_lines b o inc st ls).
Proof.
  intros I. induction ls as [|l ls IH]; intros st; cbn [compile_lines]; [reflexivity|].
  rewrite line_set_bad by auto. destruct (compile_line b o inc st l); try reflexivity.
  unfold cmap at 1. cbn [cbind]. apply IH.
Qed.

Definition not_include (raw : string) : Prop := forall f, ~ stripped raw ("@include " ++ f).
Lemma line_not_include b o inc inc' st l : not_include l ->
  compile_line b o inc st l = compile_line b o inc' st l.
Proof.
  intros N. rewrite !compile_line_eq. cbv zeta.
  destruct (String.eqb (strip l) ""); [reflexivity|]. destruct (starts "#" (strip l)); [reflexivity|].
  destruct (starts "@" (strip l)); [|reflexivity].
  destruct (has_prefix "@frequency" (strip l)); [reflexivity|].
  destruct (parse_include (strip l)) as [f|] eqn:P; [|reflexivity].
  apply parse_include_spec in P. destruct P as [P _]. exfalso. apply (N f). apply strip_spec. exact P.
Qed.
Lemma lines_not_include b o inc inc' ls : Forall not_include ls -> forall st,
  compile_lines b o inc st ls = compile_lines b o inc' st ls.
Proof.
  induction 1 as [|l ls N F IH]; intros st; cbn [compile_lines]; [reflexivity|].
  rewrite (line_not_include b o inc inc' st l N). destruct (compile_line b o inc' st l); cbn [cbind]; auto.
Qed.
Lemma lines_app b o inc l1 l2 : forall st,
  compile_lines b o inc st (l1 ++ l2) = cbind (compile_lines b o inc st l1) (fun st' => compile_lines b o inc st' l2).
Proof.
  induction l1 as [|l l1 IH]; intros st; cbn [app compile_lines cbind]; [reflexivity|].
  destruct (compile_line b o inc st l); cbn [cbind]; auto.
Qed.

(* Bad never goes back to good. *)
Lemma line_bad_mono b o inc st l st' :
  (forall f st st', inc f st = COk st' -> cs_bad st = true -> cs_bad st' = true) ->
  compile_line b o inc st l = COk st' -> cs_bad st = true -> cs_bad st' = true.
Proof.
  intros I. rewrite compile_line_eq. cbv zeta.
  destruct (String.eqb (strip l) ""); [intros H B; injection H as <-; auto|].
  destruct (starts "#" (strip l)); [intros H B; injection H as <-; auto|].
  destruct (starts "@" (strip l)).
  - destruct (has_prefix "@frequency" (strip l)); [intros H B; injection H as <-; auto|].
    destruct (parse_include (strip l)); [apply I|discriminate].
  - unfold compile_rule. destruct (strsep ":"%char (strip l)) as [name [body|]]; [|discriminate]. cbv zeta.
    destruct (String.eqb (strip body) ""); [discriminate|].
    destruct (lookup_syscall (b_syscalls b) (strip name)) as [[nr ind]|].
    + destruct (String.eqb (strip body) "1").
      * intros H B. injection H as <-. cbn [cs_bad]. rewrite B. reflexivity.
      * destruct (bpf_label_id (cs_labels st) (strip name)) as [oid l1]. intros H B.
        apply cbind_ok in H. destruct H as ([blk l2] & _ & H). injection H as <-. cbn [cs_bad]. rewrite B. reflexivity.
    + destruct (fo_allow_logging o); [|discriminate]. intros H B. injection H as <-. auto.
Qed.
Lemma lines_bad_mono b o inc ls :
  (forall f st st', inc f st = COk st' -> cs_bad st = true -> cs_bad st' = true) ->
  forall st st', compile_lines b o inc st ls = COk st' -> cs_bad st = true -> cs_bad st' = true.
Proof.
  intros I. induction ls as [|l ls IH]; cbn [compile_lines]; intros st st' H B.
  - injection H as <-. auto.
  - apply cbind_ok in H. destruct H as (s1 & H1 & H2). eapply IH; eauto. eapply line_bad_mono; eauto.
Qed.
Lemma include0_bad_mono b o fs f st st' : include0 b o fs f st = COk st' -> cs_bad st = true -> cs_bad st' = true.
Proof.
  unfold include0. destruct (fs f); [|discriminate]. intros H B. apply cbind_ok in H.
  destruct H as (s1 & _ & H). destruct (cs_bad s1); [discriminate|]. injection H as <-. exact B.
Qed.

(* The file after the include decides only on what the state is. *)
Definition finish (b : build) (o : fopts) (fs : files) (e : bool) (rest : list string) (st : cstate)
  : cres (list instr) :=
  cbind (cbind (compile_lines b o (include0 b o fs) st rest)
               (fun st' => if e then CFail else COk st'))
  (fun st =>
      if cs_bad st then CFail
      else
        do def <- (match fo_action o with
                   | ACT_LOG => if fo_allow_logging o then COk ret_log else CFail
                   | a => COk (action_instr a)
                   end);
        let final := (cs_head st ++ [def] ++ cs_args st)%list in
        if Nat.ltb BPF_MAXINSNS (List.length final) then CFail
        else match bpf_resolve_jumps (List.length (cs_labels st)) final with
             | ROk p => COk p
             | RErr => CFail
             | RUb => CUb
             end).
Lemma finish_bad b o fs e rest st p : finish b o fs e rest st = COk p -> cs_bad st = false.
Proof.
  unfold finish. intros H. apply cbind_ok in H. destruct H as (s1 & H1 & H2).
  apply cbind_ok in H1. destruct H1 as (s2 & H1 & H3). destruct e; [discriminate|]. injection H3 as ->.
  destruct (cs_bad s1) eqn:B1; [discriminate|]. destruct (cs_bad st) eqn:B; auto.
  eapply lines_bad_mono in H1; eauto; [congruence|apply include0_bad_mono].
Qed.
Lemma compile_split b o fs e l1 l2 t : multilines t = (l1 ++ l2)%list ->
  compile_filter b o fs (Some (Stream t e)) =
  cbind (compile_lines b o (include0 b o fs) (CS (prologue b o) [] [] [] false) l1)
        (finish b o fs e l2).
Proof.
  intros M. unfold compile_filter, compile_stream. cbn [s_bytes s_ioerr]. rewrite M, lines_app.
  destruct (compile_lines b o (include0 b o fs) _ l1); reflexivity.
Qed.

Lemma multilines_one l : all_chars (fun c => c <> newline /\ c <> "000"%char) l ->
  (forall v, l <> v ++ "\") -> multilines (l ++ String newline "") = [l].
Proof.
  intros A NB. unfold multilines, phys_lines.
  rewrite phys_aux_line by (refine (all_chars_impl _ _ _ _ A); tauto).
  cbn [append phys_lines_aux logical_lines]. apply chop_none in NB. rewrite NB. cbn [map]. f_equal.
  apply cstr_spec. split; [|auto]. refine (all_chars_impl _ _ _ _ A); tauto.
Qed.

Lemma include_textual b o fs pre line name inc post e prog :
  whole_lines pre -> whole_lines inc ->
  stripped line ("@include " ++ name) -> (exists t, name = "/" ++ t \/ name = "./" ++ t) ->
  all_chars (fun c => c <> newline /\ c <> "000"%char) line -> (forall v, line <> v ++ "\") ->
  fs name = Some (Stream inc false) ->
  (forall ls, file_lines inc ls -> Forall (fun l => forall f, ~ stripped l ("@include " ++ f)) ls) ->
  (compile_filter b o fs (Some (Stream (pre ++ line ++ String newline post) e)) = COk prog <->
   compile_filter b o fs (Some (Stream (pre ++ inc ++ post) e)) = COk prog).
Proof.
  intros W1 W2 ST PA AC NB FS NI.
  assert (NI' : Forall not_include (multilines inc)) by (apply NI; apply multilines_spec; reflexivity).
  rewrite (compile_split b o fs e (multilines pre) (line :: multilines post)).
  2:{ rewrite multilines_app by auto. f_equal.
      replace (line ++ String newline post) with ((line ++ String newline "") ++ post) by (rewrite sapp_assoc; reflexivity).
      rewrite multilines_app; [rewrite multilines_one by auto; reflexivity|].
      right. exists line. auto. }
  rewrite (compile_split b o fs e (multilines pre) (multilines inc ++ multilines post)).
  2:{ rewrite multilines_app by auto. f_equal. apply multilines_app; auto. }
  destruct (compile_lines b o (include0 b o fs) _ (multilines pre)) as [st| | |]; try tauto. cbn [cbind].
  assert (F1 : finish b o fs e (line :: multilines post) st =
     cbind (include0 b o fs name st) (finish b o fs e (multilines post))).
  { unfold finish. cbn [compile_lines]. rewrite compile_line_eq. cbv zeta. apply strip_spec in ST. rewrite ST.
    change (String.eqb ("@include " ++ name) "") with false.
    change (starts "#" ("@include " ++ name)) with false.
    change (starts "@" ("@include " ++ name)) with true.
    change (has_prefix "@frequency" ("@include " ++ name)) with false. cbv iota.
    assert (PI : parse_include ("@include " ++ name) = Some name) by (apply parse_include_spec; auto).
    rewrite PI. destruct (include0 b o fs name st); reflexivity. }
  assert (F2 : finish b o fs e (multilines inc ++ multilines post) st =
     cbind (compile_lines b o include1 st (multilines inc)) (finish b o fs e (multilines post))).
  { unfold finish. rewrite lines_app. rewrite (lines_not_include b o _ include1 _ NI').
    destruct (compile_lines b o include1 st (multilines inc)); reflexivity. }
  rewrite F1, F2. unfold include0. rewrite FS. unfold compile_stream. cbn [s_bytes s_ioerr].
  set (st0 := CS (cs_head st) (cs_args st) (cs_labels st) (cs_seen st) false).
  assert (E : st = set_bad (cs_bad st) st0).
  { unfold set_bad, st0. cbn. rewrite orb_false_r. destruct st; reflexivity. }
  assert (L : compile_lines b o include1 st (multilines inc) =
     cmap (set_bad (cs_bad st)) (compile_lines b o include1 st0 (multilines inc))).
  { rewrite E at 1. apply lines_set_bad. reflexivity. }
  rewrite L. destruct (compile_lines b o include1 st0 (multilines inc)) as [s1| | |]; try tauto.
  unfold cmap. cbn [cbind]. destruct (cs_bad s1) eqn:B1.
  - split; [discriminate|]. intros H. apply finish_bad in H. unfold set_bad in H. cbn in H. rewrite B1, orb_true_r in H. discriminate.
  - unfold set_bad. rewrite B1, orb_false_r. cbn [cbind]. reflexivity.
Qed.
