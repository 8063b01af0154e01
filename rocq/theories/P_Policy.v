(* Whole policies: reading them and running the result (C02-C07, C10-C13). *)
From Verif Require Export P_Compile.
From Coq Require Import ZifyBool ZifyNat ZifyN.
Local Open Scope N_scope.

Lemma lookup_from_spec i t n nr ind : lookup_syscall_from i t n = Some (nr, ind) ->
  assoc n t = Some nr.
Proof.
  revert i. induction t as [|[m v] t IH]; simpl; intros i H; [discriminate|].
  destruct (String.eqb m n); [congruence|eauto].
Qed.
Lemma lookup_from_none i t n : lookup_syscall_from i t n = None <-> assoc n t = None.
Proof.
  revert i. induction t as [|[m v] t IH]; simpl; intros i; [tauto|].
  destruct (String.eqb m n); [split; discriminate|apply IH].
Qed.
Lemma lookup_some_index i t n nr ind : lookup_syscall_from i t n = Some (nr, ind) ->
  i <= ind /\ nth_error (map fst t) (N.to_nat (ind - i)) = Some n.
Proof.
  revert i. induction t as [|[m v] t IH]; simpl; intros i H; [discriminate|].
  destruct (String.eqb_spec m n).
  - injection H as <- <-. subst. rewrite N.sub_diag. simpl. split; [lia|reflexivity].
  - apply IH in H. destruct H as [H1 H2]. split; [lia|].
    replace (N.to_nat (ind - i)) with (S (N.to_nat (ind - (i + 1)))) by lia. exact H2.
Qed.
Lemma lookup_inj t n n' nr nr' ind : lookup_syscall t n = Some (nr, ind) ->
  lookup_syscall t n' = Some (nr', ind) -> n = n'.
Proof.
  unfold lookup_syscall. intros H1 H2. apply lookup_some_index in H1, H2.
  destruct H1 as [_ H1], H2 as [_ H2]. congruence.
Qed.

Section Build.
  Variable b : build.
  Variable o : fopts.
  Hypothesis LE : little (b_plat b) = true.
  Hypothesis NM : names_ok (b_consts b).

  (* ---- reading, as functions ---- *)
  Definition rule_of (s : string) : option policy :=
    match strsep ":"%char s with
    | (_, None) => None
    | (name, Some body) =>
        if String.eqb (strip body) "" then None
        else match assoc (strip name) (b_syscalls b) with
             | None => if fo_allow_logging o then Some [] else None
             | Some nr =>
                 match body_of b o (strip body) with
                 | Some r => Some [Entry (strip name) nr r]
                 | None => None
                 end
             end
    end.
  Definition starts (c : ascii) (s : string) : bool :=
    match s with String c' _ => Ascii.eqb c' c | EmptyString => false end.
  Definition line_of (incl : string -> option policy) (raw : string) : option policy :=
    let s := strip raw in
    if String.eqb s "" then Some []
    else if starts "#"%char s then Some []
    else if starts "@"%char s then
      if has_prefix "@frequency" s then Some []
      else match parse_include s with
           | None => None
           | Some f => incl f
           end
    else rule_of s.
  Fixpoint lines_policy (incl : string -> option policy) (ls : list string) : option policy :=
    match ls with
    | [] => Some []
    | l :: t => match line_of incl l, lines_policy incl t with
                | Some p, Some q => Some (p ++ q)%list
                | _, _ => None
                end
    end.
  Definition stream_policy (incl : string -> option policy) (f : stream) : option policy :=
    match lines_policy incl (multilines (s_bytes f)) with
    | Some p => if s_ioerr f then None else Some p
    | None => None
    end.
  Definition incl1 : string -> option policy := fun _ => None.
  Definition incl0 (fs : files) (name : string) : option policy :=
    match fs name with None => None | Some f => stream_policy incl1 f end.
  Definition policy_of (fs : files) (f : stream) : option policy := stream_policy (incl0 fs) f.

  Lemma starts_spec c s : starts c s = true <-> exists t, s = String c t.
  Proof.
    destruct s as [|c' s]; simpl.
    - split; [discriminate|]. intros [t H]. discriminate.
    - rewrite aeqb_true. split; [intros ->; eauto|]. intros [t H]. congruence.
  Qed.
  Lemma starts_false c s : starts c s = false <-> forall t, s <> String c t.
  Proof.
    rewrite <- not_true_iff_false, starts_spec. split.
    - intros H t E. apply H. eauto.
    - intros H [t E]. eapply H; eauto.
  Qed.

  Lemma parse_include_spec s f : parse_include s = Some f <->
    s = ("@include " ++ f)%string /\ exists t, f = ("/" ++ t)%string \/ f = ("./" ++ t)%string.
  Proof.
    unfold parse_include. split.
    - destruct (has_prefix "@include" s) eqn:P; [|discriminate]. cbn [negb].
      apply has_prefix_spec in P. destruct P as [r ->].
      change (sdrop 8 ("@include" ++ r)) with r.
      destruct (has_prefix " " r) eqn:P2; [|discriminate]. cbn [negb].
      apply has_prefix_one in P2. destruct P2 as [f' ->].
      assert (S : strsep c_sp ("@include" ++ String " " f') = ("@include"%string, Some f')).
      { reflexivity. }
      rewrite S. destruct (is_implicit_relative_path f') eqn:I; [discriminate|].
      intros H. injection H as <-. split; [reflexivity|].
      unfold is_implicit_relative_path in I. apply andb_false_iff in I.
      destruct I as [I|I]; apply negb_false_iff in I; apply has_prefix_spec in I; destruct I as [t ->]; eauto.
    - intros (-> & t & T).
      change ("@include " ++ f)%string with ("@include" ++ String " " f)%string.
      change (has_prefix "@include" ("@include" ++ String " " f)) with (String.prefix "@include" ("@include" ++ String " " f)).
      rewrite prefix_app. cbn [negb]. change (sdrop 8 ("@include" ++ String " " f)) with (String " " f).
      assert (P : has_prefix " " (String " " f) = true) by (apply has_prefix_one; eauto).
      rewrite P. cbn [negb].
      assert (S : strsep c_sp ("@include" ++ String " " f) = ("@include"%string, Some f)) by reflexivity.
      rewrite S. assert (I : is_implicit_relative_path f = false).
      { unfold is_implicit_relative_path. apply andb_false_iff.
        destruct T as [-> | ->]; [left|right]; apply negb_false_iff; apply prefix_app. }
      rewrite I. reflexivity.
  Qed.

  Lemma line_of_spec incl inclR raw p :
    (forall f q, incl f = Some q <-> inclR f q) ->
    (line_of incl raw = Some p <-> reads_line b o inclR raw p).
  Proof.
    intros IR. unfold line_of. split.
    - assert (ST : stripped raw (strip raw)) by (apply strip_spec; reflexivity).
      destruct (String.eqb_spec (strip raw) "") as [E|NE].
      { intros H. injection H as <-. apply rl_blank. rewrite <- E. exact ST. }
      destruct (starts "#"%char (strip raw)) eqn:C.
      { intros H. injection H as <-. apply starts_spec in C. destruct C as [t C].
        eapply (rl_comment _ _ _ raw t). change ("#" ++ t)%string with (String "#"%char t). rewrite <- C. exact ST. }
      destruct (starts "@"%char (strip raw)) eqn:A.
      { destruct (has_prefix "@frequency" (strip raw)) eqn:F.
        - intros H. injection H as <-. apply has_prefix_spec in F. destruct F as [t F].
          eapply (rl_frequency _ _ _ raw t). rewrite <- F. exact ST.
        - destruct (parse_include (strip raw)) as [f|] eqn:PI; [|discriminate].
          apply parse_include_spec in PI. destruct PI as [E T]. intros H.
          eapply rl_include; eauto; [rewrite <- E; exact ST|]. apply IR. exact H. }
      assert (NC : forall c t, strip raw = String c t -> c <> "#"%char /\ c <> "@"%char).
      { intros c t E. split; intros ->; [eapply (proj1 (starts_false _ _) C)|eapply (proj1 (starts_false _ _) A)]; exact E. }
      unfold rule_of. destruct (strsep ":"%char (strip raw)) as [name [body|]] eqn:S; [|discriminate].
      apply strsep_some in S. destruct S as [S SC].
      destruct (String.eqb_spec (strip body) "") as [EB|NB]; [discriminate|].
      assert (STN : stripped name (strip name)) by (apply strip_spec; reflexivity).
      assert (STB : stripped body (strip body)) by (apply strip_spec; reflexivity).
      destruct (assoc (strip name) (b_syscalls b)) as [nr|] eqn:L.
      + destruct (body_of b o (strip body)) as [r|] eqn:B; [|discriminate].
        intros H. injection H as <-.
        eapply rl_rule; [exact ST|exact S|exact SC|exact NC|exact STN|exact STB| |].
        { apply assoc_spec; auto. } { apply body_of_spec; auto. }
      + destruct (fo_allow_logging o) eqn:AL; [|discriminate]. intros H. injection H as <-.
        eapply rl_unknown; [exact ST|exact S|exact SC|exact NC|exact STN|exact STB|exact NB| |exact AL].
        apply assoc_none. exact L.
    - intros H. inversion H as [raw' S|raw' t S|raw' t S|raw' f q S T I|raw' s name nm body bd nr r S E AC NC SN SB FE RB
        |raw' s name nm body bd S E AC NC SN SB NB NF AL]; subst; apply strip_spec in S; rewrite S.
      + reflexivity.
      + reflexivity.
      + unfold has_prefix. rewrite prefix_app. reflexivity.
      + change (String.eqb ("@include " ++ f) "") with false.
        change (starts "#" ("@include " ++ f)) with false.
        change (starts "@" ("@include " ++ f)) with true.
        change (has_prefix "@frequency" ("@include " ++ f)) with false. cbv iota.
        assert (PI : parse_include ("@include " ++ f) = Some f) by (apply parse_include_spec; auto).
        rewrite PI. apply IR. exact I.
      + assert (E0 : String.eqb (name ++ ":" ++ body) "" = false).
        { apply seqb_false. destruct name; discriminate. }
        assert (E1 : starts "#" (name ++ ":" ++ body) = false).
        { apply starts_false. intros t X. destruct (NC _ _ X) as [X1 _]. auto. }
        assert (E2 : starts "@" (name ++ ":" ++ body) = false).
        { apply starts_false. intros t X. destruct (NC _ _ X) as [_ X1]. auto. }
        rewrite E0, E1, E2. unfold rule_of.
        assert (SS : strsep ":" (name ++ ":" ++ body) = (name, Some body)) by (apply strsep_some; auto).
        rewrite SS. apply strip_spec in SN, SB. rewrite SN, SB.
        assert (NB : bd <> ""%string).
        { intros ->. apply body_of_spec in RB; auto. discriminate RB. }
        apply seqb_false in NB. rewrite NB. apply assoc_spec in FE. rewrite FE.
        apply body_of_spec in RB; auto. rewrite RB. reflexivity.
      + assert (E0 : String.eqb (name ++ ":" ++ body) "" = false).
        { apply seqb_false. destruct name; discriminate. }
        assert (E1 : starts "#" (name ++ ":" ++ body) = false).
        { apply starts_false. intros t X. destruct (NC _ _ X) as [X1 _]. auto. }
        assert (E2 : starts "@" (name ++ ":" ++ body) = false).
        { apply starts_false. intros t X. destruct (NC _ _ X) as [_ X1]. auto. }
        rewrite E0, E1, E2. unfold rule_of.
        assert (SS : strsep ":" (name ++ ":" ++ body) = (name, Some body)) by (apply strsep_some; auto).
        rewrite SS. apply strip_spec in SN, SB. rewrite SN, SB.
        apply seqb_false in NB. rewrite NB. apply assoc_none in NF. rewrite NF, AL. reflexivity.
  Qed.

  Lemma lines_policy_spec incl inclR ls p :
    (forall f q, incl f = Some q <-> inclR f q) ->
    (lines_policy incl ls = Some p <->
     exists ps, Forall2 (reads_line b o inclR) ls ps /\ p = concat ps).
  Proof.
    intros IR. revert p. induction ls as [|l ls IH]; intros p; simpl.
    - split.
      + intros H. injection H as <-. exists []. split; [constructor|reflexivity].
      + intros (ps & F & ->). inversion F. reflexivity.
    - split.
      + destruct (line_of incl l) as [p1|] eqn:L; [|discriminate].
        destruct (lines_policy incl ls) as [p2|] eqn:LS; [|discriminate].
        intros H. injection H as <-. destruct (proj1 (IH p2) eq_refl) as (ps & F & ->).
        exists (p1 :: ps). split; [constructor; auto|reflexivity].
        eapply line_of_spec; eauto.
      + intros (ps & F & ->). inversion F as [|x p1 xs ps' L LS]; subst.
        eapply line_of_spec in L; eauto. rewrite L.
        rewrite (proj2 (IH (concat ps')) (ex_intro _ ps' (conj LS eq_refl))). reflexivity.
  Qed.
  Lemma stream_policy_spec incl inclR f p :
    (forall f q, incl f = Some q <-> inclR f q) ->
    (stream_policy incl f = Some p <-> reads_file b o inclR f p).
  Proof.
    intros IR. unfold stream_policy, reads_file. split.
    - destruct (lines_policy incl (multilines (s_bytes f))) as [q|] eqn:L; [|discriminate].
      destruct (s_ioerr f); [discriminate|]. intros H. injection H as ->.
      split; auto. apply (lines_policy_spec incl inclR) in L; auto. destruct L as (ps & F & ->).
      exists (multilines (s_bytes f)), ps. repeat split; auto. apply multilines_spec. reflexivity.
    - intros (E & ls & ps & ML & F & ->). apply multilines_spec in ML. rewrite ML, E.
      assert (X : lines_policy incl ls = Some (concat ps)).
      { apply (lines_policy_spec incl inclR); eauto. }
      rewrite X. reflexivity.
  Qed.
  Lemma policy_of_spec fs f p : policy_of fs f = Some p <-> reads_policy b o fs f p.
  Proof.
    unfold policy_of, reads_policy. apply stream_policy_spec.
    intros name q. unfold incl0, reads_include. split.
    - destruct (fs name) as [g|]; [|discriminate]. intros H. exists g. split; auto.
      eapply stream_policy_spec; eauto. intros; split; [discriminate|contradiction].
    - intros (g & -> & H). eapply stream_policy_spec; eauto. intros; split; [discriminate|contradiction].
  Qed.
  Lemma reads_policy_unique fs f p q : reads_policy b o fs f p -> reads_policy b o fs f q -> p = q.
  Proof. rewrite <- !policy_of_spec. congruence. Qed.
End Build.
