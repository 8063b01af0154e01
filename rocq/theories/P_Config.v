From Coq Require Import ZifyBool ZifyNat ZifyN.
From Verif Require Export M_Config P_Lines S_Config.
Local Open Scope string_scope.

Lemma setting_parse s e : setting s e -> parse_config_line s = Some e.
Proof.
  unfold parse_config_line, tokenize. destruct 1 as [s k A ST N|a b k v A ST N ST' N'].
  - assert (C : cut_first "=" s = None).
    { destruct (cut_first "=" s) as [[x y]|] eqn:E; auto. exfalso. apply cut_first_some in E.
      destruct E as [E _]. subst s. apply all_chars_app in A. destruct A as [_ A]. apply all_chars_cons in A. destruct A; congruence. }
    rewrite C. apply strip_spec in ST. rewrite ST. rewrite (proj2 (seqb_false k "") N). reflexivity.
  - assert (C : cut_first "=" (a ++ "=" ++ b) = Some (a, b)).
    { apply cut_first_unique. intros x y E.
      destruct (Nat.le_gt_cases (String.length a) (String.length x)) as [L|L]; auto. exfalso.
      assert (H : exists z, a = x ++ String "=" z).
      { clear -E L. revert x E L. induction a as [|c a IH]; intros [|d x] E L; cbn in *; try lia.
        - injection E as -> _. exists a. reflexivity.
        - injection E as <- E. destruct (IH x E ltac:(lia)) as [z ->]. exists z. reflexivity. }
      destruct H as [z ->]. apply all_chars_app in A. destruct A as [_ A]. apply all_chars_cons in A. destruct A; congruence. }
    rewrite C. apply strip_spec in ST, ST'. rewrite ST, ST'.
    rewrite (proj2 (seqb_false k "") N), (proj2 (seqb_false v "") N'). reflexivity.
Qed.
Lemma no_eq_chars a d b : (forall x y, a ++ String "=" b = x ++ String "=" y -> (String.length a <= String.length x)%nat) ->
  d = "=" -> all_chars (fun c => c <> "="%char) a.
Proof.
  intros H _ i c G C. subst c.
  assert (X : exists x y, a = x ++ String "=" y).
  { clear H. revert i G. induction a as [|c a IH]; intros [|i] G; cbn in G; try discriminate.
    - injection G as ->. exists "", a. reflexivity.
    - destruct (IH i G) as (x & y & ->). exists (String c x), y. reflexivity. }
  destruct X as (x & y & ->). specialize (H x (y ++ String "=" b)).
  rewrite sapp_assoc in H. specialize (H eq_refl). rewrite slen_app in H. cbn in H. lia.
Qed.
Lemma parse_setting s e : parse_config_line s = Some e -> setting s e.
Proof.
  unfold parse_config_line, tokenize. destruct (cut_first "=" s) as [[a b]|] eqn:E.
  - apply cut_first_some in E. destruct E as [-> F].
    destruct (String.eqb (strip a) "") eqn:K; [discriminate|].
    destruct (String.eqb (strip b) "") eqn:V; [discriminate|]. cbn [orb].
    intros H. assert (e = (strip a, Some (strip b))) as -> by congruence.
    apply seqb_false in K, V. constructor; auto using strip_stripped.
    eapply no_eq_chars; [|reflexivity]. intros x y. apply (F x y).
  - apply cut_first_none in E.
    destruct (String.eqb (strip s) "") eqn:K; [discriminate|]. cbn [orb].
    intros H. assert (e = (strip s, None)) as -> by congruence.
    apply seqb_false in K. constructor; auto using strip_stripped.
    intros i c G C. subst c. apply E.
    clear -G. revert i G. induction s as [|c s IH]; intros [|i] G; cbn in G; try discriminate.
    + injection G as ->. exists "", s. reflexivity.
    + destruct (IH i G) as (x & y & ->). exists (String c x), y. reflexivity.
Qed.

Lemma config_lines_spec ls : forall acc cap, (0 < cap)%N -> (N.of_nat (length acc) <= cap)%N ->
  config_lines acc cap ls <> FUb /\
  (forall r, config_lines acc cap ls = FOk r <-> exists es, settings ls es /\ r = (acc ++ es)%list).
Proof.
  induction ls as [|l ls IH]; intros acc cap CP L; cbn [config_lines].
  - split; [discriminate|]. intros r. split.
    + intros H. injection H as <-. exists []. split; [constructor|rewrite app_nil_r; auto].
    + intros (es & S & ->). inversion S; subst. rewrite app_nil_r. auto.
  - destruct (strip l) as [|c s] eqn:E.
    + destruct (IH acc cap CP L) as [A B]. split; auto. intros r. rewrite B. apply strip_spec in E.
      split; intros (es & S & ->).
      * exists es. split; auto. econstructor; eauto.
      * exists es. split; auto. inversion S; subst; auto.
        apply strip_spec in E, H1. congruence.
    + destruct (Ascii.eqb c "#") eqn:C.
      * apply aeqb_true in C. subst c. destruct (IH acc cap CP L) as [A B]. split; auto. intros r. rewrite B. apply strip_spec in E.
        split; intros (es & S & ->).
        -- exists es. split; auto. eapply ss_skip; eauto. right. exists s. reflexivity.
        -- exists es. split; auto. inversion S; subst; auto.
           apply strip_spec in E, H1. exfalso. apply (H3 s). rewrite <- H1, E. reflexivity.
      * apply aeqb_false in C. cbv zeta.
        remember (if (cap <=? N.of_nat (length acc))%N then (cap * 2)%N else cap) as cap'.
        assert (CP' : (0 < cap')%N) by (destruct (cap <=? N.of_nat (length acc))%N; lia).
        assert (LT : (N.of_nat (length acc) < cap')%N).
        { destruct (N.leb_spec cap (N.of_nat (length acc))); subst cap'; lia. }
        replace (cap' <=? N.of_nat (length acc))%N with false by lia.
        apply strip_spec in E.
        assert (NS : forall es, settings (l :: ls) es -> exists e es', es = e :: es' /\ setting (String c s) e /\ settings ls es').
        { intros es S. inversion S as [|l0 s0 ls0 es0 S0 S1 S2|l0 s0 e0 ls0 es0 S0 S1 S2 S3 S4]; subst; apply strip_spec in S0; apply strip_spec in E;
            rewrite E in S0; subst s0.
          - destruct S1 as [S1|[t S1]]; [discriminate|]. injection S1 as S1 _. congruence.
          - eauto. }
        destruct (parse_config_line (String c s)) as [e|] eqn:P.
        -- destruct (IH (acc ++ [e])%list cap' CP') as [A B].
           { rewrite app_length. cbn [length]. lia. }
           split; auto. intros r. rewrite B. apply parse_setting in P. split; intros (es & S & ->).
           ++ exists (e :: es). rewrite <- app_assoc. split; auto. eapply ss_line; eauto; [discriminate|].
              intros t H. injection H as H _. congruence.
           ++ destruct (NS _ S) as (e' & es' & -> & S1 & S2). exists es'. split; auto.
              apply setting_parse in S1, P. assert (e' = e) by congruence. subst. rewrite <- app_assoc. reflexivity.
        -- split; [discriminate|]. intros r. split; [discriminate|]. intros (es & S & ->).
           destruct (NS _ S) as (e' & es' & -> & S1 & S2). apply setting_parse in S1. congruence.
Qed.
Lemma first_line_app l r : all_chars (fun c => c <> newline) l -> first_line (l ++ String newline r) = (l ++ String newline "", r).
Proof.
  induction l as [|c l IH]; intros A; cbn [append first_line].
  - reflexivity.
  - apply all_chars_cons in A. destruct A as [N A]. destruct (Ascii.eqb c c_nl) eqn:E; [apply aeqb_true in E; contradiction|].
    rewrite IH by auto. reflexivity.
Qed.
Lemma first_line_split s : fst (first_line s) ++ snd (first_line s) = s /\
  (forall a b, fst (first_line s) = a ++ String newline b -> b = "").
Proof.
  induction s as [|c s [IH1 IH2]]; cbn [first_line].
  - split; auto. intros [|] b H; discriminate.
  - destruct (Ascii.eqb c c_nl) eqn:E.
    + cbn [fst snd append]. split; auto. intros a b H. destruct a as [|x a]; cbn in H.
      * injection H as _ <-. auto.
      * injection H as _ H. destruct a; discriminate.
    + destruct (first_line s) as [u v]. cbn [fst snd append] in *. split; [congruence|].
      intros a b H. destruct a as [|x a]; cbn in H.
      * injection H as -> _. apply aeqb_false in E. exfalso. apply E. reflexivity.
      * injection H as -> H. eapply IH2; eauto.
Qed.
Lemma directive_chars : all_chars (fun c => c <> newline) "% minijail-config-file v0".
Proof. intros i c H. do 25 (destruct i as [|i]; [injection H as <-; discriminate|]). destruct i; discriminate. Qed.
Lemma directive_first b : cstr (fst (first_line b)) = directive ->
  b = "% minijail-config-file v0" ++ String newline (snd (first_line b)).
Proof.
  intros H. destruct (first_line_split b) as [A B].
  apply cstr_spec in H. destruct H as [_ [H|[r H]]].
  - rewrite <- A at 1. rewrite H. unfold directive. rewrite sapp_assoc. reflexivity.
  - exfalso. unfold directive, nl in H. rewrite sapp_assoc in H.
    specialize (B "% minijail-config-file v0" ("" ++ String "000" r)). 
    discriminate (B H).
Qed.

Lemma config_exact b e r : parse_config_file (Stream b e) = FOk r <-> config_text b r /\ e = false.
Proof.
  unfold parse_config_file. cbn [s_bytes s_ioerr]. destruct (first_line b) as [l rest] eqn:F.
  destruct (config_lines_spec (multilines rest) [] 100 ltac:(lia) ltac:(cbn; lia)) as [NU CL].
  split.
  - destruct (String.eqb (cstr l) directive) eqn:D; [|discriminate]. cbn [negb]. apply seqb_true in D.
    destruct (config_lines [] 100 (multilines rest)) as [es| |] eqn:C; try discriminate.
    destruct e; [discriminate|]. intros H. split; auto.
    assert (es = r) by congruence. subst es. apply CL in H. destruct H as (es & S & X). cbn in X. subst es.
    exists rest, (multilines rest). repeat split; auto; [|apply multilines_spec; auto].
    assert (X : cstr (fst (first_line b)) = directive) by (rewrite F; auto).
    apply directive_first in X. rewrite F in X. exact X.
  - intros [(rest' & ls & E & FL & S) ->]. rewrite E in F. rewrite first_line_app in F by apply directive_chars.
    assert (l = directive /\ rest' = rest) as [-> ->] by (split; [change directive with ("% minijail-config-file v0" ++ String newline ""); congruence|congruence]).
    replace (String.eqb (cstr directive) directive) with true by reflexivity. cbn [negb].
    apply multilines_spec in FL. subst ls. 
    assert (C : config_lines [] 100 (multilines rest) = FOk r) by (apply CL; exists r; auto).
    rewrite C. reflexivity.
Qed.
Lemma config_no_ub f : parse_config_file f <> FUb.
Proof.
  unfold parse_config_file. destruct (first_line (s_bytes f)) as [l rest].
  destruct (config_lines_spec (multilines rest) [] 100 ltac:(lia) ltac:(cbn; lia)) as [NU _].
  destruct (negb _); [discriminate|]. destruct (config_lines [] 100 (multilines rest)); try congruence.
  destruct (s_ioerr f); discriminate.
Qed.
Lemma settings_fun ls es es' : settings ls es -> settings ls es' -> es = es'.
Proof.
  intros A B. destruct (config_lines_spec ls [] 100 ltac:(lia) ltac:(cbn; lia)) as [_ CL].
  assert (X : config_lines [] 100 ls = FOk es) by (apply CL; eauto).
  assert (Y : config_lines [] 100 ls = FOk es') by (apply CL; eauto). congruence.
Qed.
Lemma config_text_fun b es es' : config_text b es -> config_text b es' -> es = es'.
Proof.
  intros A B. assert (X : parse_config_file (Stream b false) = FOk es) by (apply config_exact; auto).
  assert (Y : parse_config_file (Stream b false) = FOk es') by (apply config_exact; auto). congruence.
Qed.

(* A line that is lost. *)
Lemma config_lost : exists b ls, lines_of b ls /\ In "n \" ls /\
  parse_config_file (Stream b false) = FOk [("u", Some "nobody")].
Proof.
  exists ("% minijail-config-file v0" ++ nl ++ "u = nobody" ++ nl ++ "n \"),
    ["% minijail-config-file v0"; "u = nobody"; "n \"].
  split; [|split; [cbn; auto|vm_compute; reflexivity]].
  assert (X : phys_lines ("% minijail-config-file v0" ++ nl ++ "u = nobody" ++ nl ++ "n \") =
    ["% minijail-config-file v0"; "u = nobody"; "n \"]) by (vm_compute; reflexivity).
  rewrite <- X. apply phys_lines_of.
Qed.
Lemma config_case : config_text ("% minijail-config-file v0" ++ nl ++ "# comment" ++ nl ++ "u = nobody" ++ nl ++ " n" ++ nl)
  [("u", Some "nobody"); ("n", None)].
Proof. apply (config_exact _ false). vm_compute. reflexivity. Qed.

(* ---- C20: writing and reading back ---- *)
Definition name_char (c : ascii) : bool := is_alpha c || Ascii.eqb c "-"%char.
Fixpoint name_chars (s : string) : bool :=
  match s with EmptyString => true | String c s' => name_char c && name_chars s' end.
Lemma name_chars_all s : name_chars s = true <-> all_chars (fun c => name_char c = true) s.
Proof.
  induction s as [|c s IH]; cbn [name_chars].
  - split; auto using all_chars_nil.
  - rewrite andb_true_iff, all_chars_cons, IH. tauto.
Qed.
Lemma name_char_facts c : name_char c = true ->
  ~ blank_char c /\ c <> newline /\ c <> "000"%char /\ c <> "="%char /\ c <> "#"%char /\ c <> "\"%char.
Proof.
  intros H. repeat split; try (intros ->; discriminate H). intros [->| ->]; discriminate H.
Qed.
Definition plain_line (l : string) : Prop :=
  l <> "" /\ stripped l l /\ (forall t, l <> t ++ "\") /\ (forall t, l <> "#" ++ t) /\
  all_chars (fun c => c <> newline /\ c <> "000"%char) l.

Lemma multilines_one l : (forall t, l <> t ++ "\") -> all_chars (fun c => c <> newline /\ c <> "000"%char) l ->
  multilines (l ++ String newline "") = [l].
Proof.
  intros NB A. unfold multilines, phys_lines. rewrite phys_aux_line.
  2:{ eapply all_chars_impl; [|exact A]. cbn. tauto. }
  cbn [phys_lines_aux append logical_lines]. rewrite (proj2 (chop_none l) NB). cbn [map]. f_equal.
  apply cstr_spec. split; auto. eapply all_chars_impl; [|exact A]. cbn. tauto.
Qed.
Lemma multilines_many ls : Forall (fun l => (forall t, l <> t ++ "\") /\ all_chars (fun c => c <> newline /\ c <> "000"%char) l) ls ->
  multilines (String.concat "" (map (fun l => l ++ String newline "") ls)) = ls.
Proof.
  induction 1 as [|l ls [NB A] F IH]; [reflexivity|]. cbn [map].
  assert (X : String.concat "" ((l ++ String newline "") :: map (fun l => l ++ String newline "") ls) =
    (l ++ String newline "") ++ String.concat "" (map (fun l => l ++ String newline "") ls)).
  { cbn [String.concat]. destruct (map _ ls) eqn:M; [cbn [String.concat]; rewrite sapp_nil_r; auto|reflexivity]. }
  rewrite X. rewrite multilines_app by (right; exists l; auto). rewrite multilines_one by auto. rewrite IH. reflexivity.
Qed.

Definition entry_line (e : entry) : string :=
  match snd e with None => fst e | Some a => fst e ++ " = " ++ a end.
Definition good_entry (e : entry) : Prop :=
  fst e <> "" /\ name_chars (fst e) = true /\ match snd e with None => True | Some a => plain_arg a end.
Definition kept (e : entry) : bool := negb (String.eqb (fst e) "config" || String.eqb (fst e) "gen-config").

Lemma name_stripped n : name_chars n = true -> stripped n n.
Proof.
  intros H. apply name_chars_all in H. exists "", "". rewrite sapp_nil_r.
  repeat split; auto using all_chars_nil.
  - intros c t ->. apply all_chars_cons in H. destruct H as [H _]. apply name_char_facts in H. tauto.
  - subst n. apply all_chars_app in H. destruct H as [_ H]. apply all_chars_cons in H. destruct H as [H _]. apply name_char_facts in H. tauto.
  - subst n. apply all_chars_app in H. destruct H as [_ H]. apply all_chars_cons in H. destruct H as [H _]. apply name_char_facts in H. tauto.
Qed.
Lemma app_last a b t d : b <> "" -> (forall u, b <> u ++ String d "") -> a ++ b <> t ++ String d "".
Proof.
  intros NE H E. destruct (snoc_cases b) as [->|(u & c & ->)]; [congruence|].
  rewrite <- sapp_assoc in E. apply sapp_snoc_inj in E. destruct E as [_ ->]. apply (H u). reflexivity.
Qed.
Lemma entry_plain e : good_entry e -> plain_line (entry_line e) /\ setting (entry_line e) e.
Proof.
  destruct e as [n a]. unfold good_entry, entry_line. cbn [fst snd]. intros (NE & NC & AR).
  pose proof (name_stripped n NC) as SN. pose proof NC as NC'. apply name_chars_all in NC'.
  assert (NH : forall t x, n ++ x <> "#" ++ t).
  { intros t x H. destruct n as [|c n]; [congruence|]. injection H as -> _. apply all_chars_cons in NC'. destruct NC' as [X _]. discriminate X. }
  assert (NN : all_chars (fun c => c <> newline /\ c <> "000"%char) n).
  { eapply all_chars_impl; [|exact NC']. intros c X. apply name_char_facts in X. tauto. }
  assert (NQ : all_chars (fun c => c <> "="%char) n).
  { eapply all_chars_impl; [|exact NC']. intros c X. apply name_char_facts in X. tauto. }
  assert (NB : forall t, n <> t ++ "\").
  { intros t ->. apply all_chars_app in NC'. destruct NC' as [_ X]. apply all_chars_cons in X. destruct X as [X _]. discriminate X. }
  destruct a as [a|].
  - destruct AR as (AE & AS & AB & AC). split.
    + unfold plain_line. split; [destruct n; [congruence|discriminate]|]. split; [|split; [|split]].
      * exists "", "". rewrite sapp_nil_r. repeat split; auto using all_chars_nil.
        -- intros c t H. destruct n as [|x n]; [congruence|]. injection H as <- _. apply all_chars_cons in NC'. destruct NC' as [X _]. apply name_char_facts in X. tauto.
        -- assert (X : forall c t, a = t ++ String c "" -> ~ blank_char c /\ c <> newline).
           { destruct AS as (p & q & E & _ & _ & _ & L). exact L. }
           destruct (snoc_cases a) as [->|(u & d & ->)]; [congruence|].
           rewrite <- !sapp_assoc in H. apply sapp_snoc_inj in H. destruct H as [_ <-]. apply (X d u). reflexivity.
        -- assert (X : forall c t, a = t ++ String c "" -> ~ blank_char c /\ c <> newline).
           { destruct AS as (p & q & E & _ & _ & _ & L). exact L. }
           destruct (snoc_cases a) as [->|(u & d & ->)]; [congruence|].
           rewrite <- !sapp_assoc in H. apply sapp_snoc_inj in H. destruct H as [_ <-]. apply (X d u). reflexivity.
      * intros t. rewrite <- sapp_assoc. apply app_last; auto.
      * auto.
      * apply all_chars_app. split; auto. apply all_chars_app. split; auto.
        intros i c H. do 3 (destruct i as [|i]; [injection H as <-; split; discriminate|]). destruct i; discriminate.
    + replace (n ++ " = " ++ a) with ((n ++ " ") ++ "=" ++ (" " ++ a)) by (rewrite sapp_assoc; reflexivity).
      constructor; auto.
      * apply all_chars_app. split; auto. intros i c H. destruct i as [|i]; [injection H as <-; discriminate|]. destruct i; discriminate.
      * apply strip_spec. apply strip_spec in SN. apply stripped_strip. apply strip_spec in SN.
        destruct SN as (p & q & E & P & Q & F & L). exists p, (q ++ " "). rewrite E at 1. rewrite !sapp_assoc.
        split; [reflexivity|]. split; [exact P|]. split; [|split; [exact F|exact L]].
        apply all_chars_app. split; auto. intros i c H.
        destruct i as [|i]; [injection H as <-; left; left; reflexivity|]. destruct i; discriminate.
      * destruct AS as (p & q & E & P & Q & F & L). exists (" " ++ p), q. rewrite E at 1. rewrite !sapp_assoc.
        split; [reflexivity|]. split; [|split; [exact Q|split; [exact F|exact L]]].
        apply all_chars_cons. split; [left; reflexivity|]. auto.
  - split; [|constructor; auto]. unfold plain_line. split; auto. split; auto. split; auto. split; auto.
    intros t H. apply (NH t ""). rewrite sapp_nil_r. auto.
Qed.
Lemma write_entry_line e : write_entry e = if kept e then entry_line e ++ nl else "".
Proof.
  destruct e as [n a]. unfold write_entry, kept, entry_line. cbn [fst snd].
  destruct (String.eqb n "config" || String.eqb n "gen-config"); cbn [negb]; auto.
  destruct a; auto. rewrite !sapp_assoc. reflexivity.
Qed.
Lemma concat_kept es : String.concat "" (map write_entry es) =
  String.concat "" (map (fun l => l ++ String newline "") (map entry_line (filter kept es))).
Proof.
  assert (C : forall x l, String.concat "" (x :: l) = x ++ String.concat "" l).
  { intros x [|y l]; cbn [String.concat]; [rewrite sapp_nil_r; auto|reflexivity]. }
  induction es as [|e es IH]; [reflexivity|]. cbn [map filter]. rewrite C, write_entry_line, IH.
  destruct (kept e); cbn [map]; [rewrite C; reflexivity|reflexivity].
Qed.
Lemma write_read es : Forall good_entry es ->
  parse_config_file (Stream (write_config es) false) = FOk (filter kept es).
Proof.
  intros G. apply config_exact. split; auto.
  exists (nl ++ String.concat "" (map write_entry es)), (""%string :: map entry_line (filter kept es)).
  assert (GK : Forall good_entry (filter kept es)).
  { rewrite Forall_forall in *. intros x X. apply filter_In in X. apply G. tauto. }
  split; [reflexivity|]. split.
  - apply multilines_spec. rewrite concat_kept.
    assert (X : nl ++ String.concat "" (map (fun l => l ++ String newline "") (map entry_line (filter kept es))) =
      String.concat "" (map (fun l => l ++ String newline "") (""%string :: map entry_line (filter kept es)))).
    { cbn [map]. destruct (map (fun l : string => l ++ String newline "") (map entry_line (filter kept es))) eqn:M; reflexivity. }
    rewrite X. apply multilines_many. constructor.
    + split; [intros [|]; discriminate|apply all_chars_nil].
    + apply Forall_map. eapply Forall_impl; [|exact GK]. intros e H. apply entry_plain in H. destruct H as [(A & B & C & D & E) _]. auto.
  - eapply ss_skip; [apply strip_spec; reflexivity|left; reflexivity|].
    clear G. induction GK as [|e l H GK IH]; cbn [map]; [constructor|].
    apply entry_plain in H. destruct H as [(A & B & C & D & E) S]. eapply ss_line; eauto.
Qed.

Definition all_opts : list N :=
  map (fun x => snd (snd x)) long_options ++
  map N_of_ascii (filter (fun c => is_alpha c && has_char c optstring) (map ascii_of_nat (seq 0 256))).
Lemma valid_all o : valid_opt o -> In o all_opts.
Proof.
  intros [H|(c & -> & A & B)]; apply in_or_app; [auto|right]. apply in_map. apply filter_In. split.
  - apply in_map_iff. exists (nat_of_ascii c). split; [apply ascii_nat_embedding|]. apply in_seq.
    pose proof (nat_ascii_bounded c). lia.
  - rewrite A, B. reflexivity.
Qed.
Definition opt_check (o : N) : bool :=
  negb (String.eqb (recorded_name o) "") && name_chars (recorded_name o) &&
  (match opt_from_conf (recorded_name o, None) with Some (o', None) => (o' =? o)%N | _ => false end) &&
  Bool.eqb (kept (recorded_name o, None)) (negb ((o =? OPT_CONFIG)%N || (o =? OPT_GEN_CONFIG)%N)).
Lemma all_opts_check : forallb opt_check all_opts = true.
Proof. vm_compute. reflexivity. Qed.
Lemma opt_from_conf_arg k a : opt_from_conf (k, a) =
  match opt_from_conf (k, None) with Some (o, _) => Some (o, a) | None => None end.
Proof.
  unfold opt_from_conf. destruct (long_val k long_options); auto. destruct k as [|c [|]]; auto.
  destruct (is_alpha c && has_char c optstring); auto.
Qed.
Lemma gen_config_roundtrip opts :
  Forall (fun oa => valid_opt (fst oa) /\ match snd oa with None => True | Some a => plain_arg a end) opts ->
  exists es,
    parse_config_file (Stream (write_config (map (fun oa => (recorded_name (fst oa), snd oa)) opts)) false) = FOk es /\
    map opt_from_conf es =
      map Some (filter (fun oa => negb ((fst oa =? OPT_CONFIG)%N || (fst oa =? OPT_GEN_CONFIG)%N)) opts).
Proof.
  intros F. rewrite write_read.
  2:{ apply Forall_map. eapply Forall_impl; [|exact F]. intros [o a] [V A]. cbn [fst snd] in *.
      apply valid_all in V. pose proof all_opts_check as C. rewrite forallb_forall in C. specialize (C o V).
      unfold opt_check in C. rewrite !andb_true_iff in C. destruct C as [[[C1 C2] C3] C4].
      split; [|split]; cbn [fst snd]; auto. apply negb_true_iff in C1. apply seqb_false in C1. auto. }
  eexists. split; [reflexivity|].
  induction F as [|[o a] opts [V A] F IH]; [reflexivity|]. cbn [map filter fst snd] in *.
  apply valid_all in V. pose proof all_opts_check as C. rewrite forallb_forall in C. specialize (C o V).
  unfold opt_check in C. rewrite !andb_true_iff in C. destruct C as [[[C1 C2] C3] C4].
  apply eqb_prop in C4. unfold kept at 1. cbn [fst]. unfold kept in C4 at 1. cbn [fst] in C4. rewrite C4.
  destruct (negb ((o =? OPT_CONFIG)%N || (o =? OPT_GEN_CONFIG)%N)); [|exact IH]. cbn [map]. rewrite IH. f_equal.
  rewrite opt_from_conf_arg. destruct (opt_from_conf (recorded_name o, None)) as [[o' [|]]|]; try discriminate.
  apply N.eqb_eq in C3. subst. reflexivity.
Qed.
Lemma roundtrip_lost : exists es,
  parse_config_file (Stream (write_config [("b", Some "/a\"); ("n", None)]) false) = FOk es /\
  map opt_from_conf es <> map Some [(opt_char "b", Some "/a\"); (opt_char "n", None)].
Proof. eexists. split; [vm_compute; reflexivity|]. vm_compute. discriminate. Qed.
Lemma roundtrip_empty : parse_config_file (Stream (write_config [("T", Some "")]) false) = FFail.
Proof. vm_compute. reflexivity. Qed.
Lemma roundtrip_injected :
  parse_config_file (Stream (write_config [("u", Some ("nobody" ++ nl ++ "n"))]) false) =
  FOk [("u", Some "nobody"); ("n", None)].
Proof. vm_compute. reflexivity. Qed.
Lemma roundtrip_case :
  Forall (fun oa => valid_opt (fst oa) /\ match snd oa with None => True | Some a => plain_arg a end)
    [(opt_char "u", Some "nobody"); (OPT_PROFILE, Some "minimalistic-mountns"); (opt_char "n", None)].
Proof.
  assert (P1 : plain_arg "nobody").
  { split; [discriminate|]. split; [apply strip_spec; reflexivity|]. split; [intros t; apply chop_none; reflexivity|].
    intros i c H. do 6 (destruct i as [|i]; [injection H as <-; split; discriminate|]). destruct i; discriminate. }
  assert (P2 : plain_arg "minimalistic-mountns").
  { split; [discriminate|]. split; [apply strip_spec; reflexivity|]. split; [intros t; apply chop_none; reflexivity|].
    intros i c H. do 20 (destruct i as [|i]; [injection H as <-; split; discriminate|]). destruct i; discriminate. }
  constructor; [|constructor; [|constructor; [|constructor]]]; cbn [fst snd]; split; auto.
  - right. exists "u"%char. auto.
  - left. cbn. tauto.
  - right. exists "n"%char. auto.
Qed.
