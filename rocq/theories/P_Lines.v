(* Logical lines of concatenated texts. *)
From Verif Require Export M_Lines P_CStr S_Text.
Local Open Scope string_scope.

Lemma phys_aux_app u s : forall cur any,
  phys_lines_aux cur any (u ++ String newline s) =
  (phys_lines_aux cur any (u ++ String newline "") ++ phys_lines_aux "" false s)%list.
Proof.
  induction u as [|c u IH]; intros cur any; cbn [append phys_lines_aux].
  - change (Ascii.eqb newline c_nl) with true. reflexivity.
  - destruct (Ascii.eqb c c_nl); rewrite IH; reflexivity.
Qed.
Lemma phys_app t s : whole_lines t -> phys_lines (t ++ s) = (phys_lines t ++ phys_lines s)%list.
Proof.
  intros [->|(u & -> & _)]; [reflexivity|]. unfold phys_lines. rewrite sapp_assoc. apply phys_aux_app.
Qed.
Lemma logical_app_aux u ms : forall cur any, (forall v, cur ++ u <> v ++ "\") ->
  logical_lines (phys_lines_aux cur any (u ++ String newline "") ++ ms)%list =
  (logical_lines (phys_lines_aux cur any (u ++ String newline "")) ++ logical_lines ms)%list /\
  logical_lines (phys_lines_aux cur any (u ++ String newline "")) <> [].
Proof.
  induction u as [|c u IH]; intros cur any NB; cbn [append phys_lines_aux].
  - change (Ascii.eqb newline c_nl) with true. cbv iota. cbn [app logical_lines].
    rewrite sapp_nil_r in NB. apply chop_none in NB. rewrite NB. split; [reflexivity|discriminate].
  - destruct (Ascii.eqb c c_nl) eqn:E.
    + apply aeqb_true in E. subst c.
      destruct (IH "" false) as [I1 I2].
      { intros v X. cbn [append] in X. subst u. apply (NB (cur ++ String c_nl v)). rewrite sapp_assoc. reflexivity. }
      cbn [app logical_lines]. rewrite I1. destruct (chop_backslash cur).
      * destruct (logical_lines (phys_lines_aux "" false (u ++ String newline ""))); [congruence|].
        split; [reflexivity|discriminate].
      * split; [reflexivity|discriminate].
    + apply IH. intros v X. apply (NB v). rewrite <- X, sapp_assoc. reflexivity.
Qed.
Lemma logical_app t ms : whole_lines t ->
  logical_lines (phys_lines t ++ ms)%list = (logical_lines (phys_lines t) ++ logical_lines ms)%list.
Proof.
  intros [->|(u & -> & NB)]; [reflexivity|]. apply (logical_app_aux u ms "" false). exact NB.
Qed.
Lemma multilines_app t s : whole_lines t -> multilines (t ++ s) = (multilines t ++ multilines s)%list.
Proof.
  intros W. unfold multilines. rewrite phys_app by auto. rewrite logical_app by auto. apply map_app.
Qed.

(* ---- C06: a last line cut off by a backslash ---- *)
Lemma multilines_cut l : all_chars (fun c => c <> newline) l -> multilines (l ++ "\") = [].
Proof.
  intros A. unfold multilines, phys_lines. rewrite phys_aux_last.
  - destruct (l ++ "\") as [|c t] eqn:E; [apply sapp_eq_nil in E; destruct E; discriminate|].
    rewrite <- E. cbn [append]. cbn [logical_lines].
    assert (X : chop_backslash (l ++ "\") = Some l) by (apply chop_some; reflexivity). rewrite X. reflexivity.
  - apply all_chars_app. split; auto. intros i c H. destruct i as [|i]; [|destruct i; discriminate].
    injection H as <-. discriminate.
Qed.
