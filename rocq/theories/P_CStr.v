(* Lemmas on the string functions of M_CStr and M_Lines: each computes the
   relation of S_Text of the same purpose. *)
From Verif Require Export M_CStr M_Lines S_Text.
Local Open Scope string_scope.

(* ---- append ---- *)
Lemma sapp_nil_r s : s ++ "" = s.
Proof. induction s; simpl; congruence. Qed.
Lemma sapp_assoc a b c : (a ++ b) ++ c = a ++ (b ++ c).
Proof. induction a; simpl; congruence. Qed.
Lemma sapp_cons c s : String c s = String c "" ++ s.
Proof. reflexivity. Qed.
Lemma slen_app a b : String.length (a ++ b) = (String.length a + String.length b)%nat.
Proof. induction a; simpl; auto. Qed.
Lemma sapp_inj_l a b c : a ++ b = a ++ c -> b = c.
Proof. induction a; simpl; intros H; auto. inversion H; auto. Qed.
Lemma sapp_inj_len a b c d :
  String.length a = String.length c -> a ++ b = c ++ d -> a = c /\ b = d.
Proof.
  revert c. induction a; destruct c; simpl; intros L H; try discriminate; auto.
  inversion H; subst. destruct (IHa c) as [-> ->]; auto.
Qed.
Lemma sapp_inj_r a b c : a ++ c = b ++ c -> a = b.
Proof.
  intros H. assert (String.length a = String.length b).
  { apply (f_equal String.length) in H. rewrite !slen_app in H. lia. }
  destruct (sapp_inj_len a c b c); auto.
Qed.
Lemma sapp_eq_nil a b : a ++ b = "" -> a = "" /\ b = "".
Proof. destruct a; simpl; [auto|discriminate]. Qed.
Lemma sapp_snoc_inj a b x y : a ++ String x "" = b ++ String y "" -> a = b /\ x = y.
Proof.
  intros H. assert (L : String.length a = String.length b).
  { apply (f_equal String.length) in H. rewrite !slen_app in H. simpl in H. lia. }
  destruct (sapp_inj_len _ _ _ _ L H) as [-> E]. inversion E; auto.
Qed.
(* comparing two decompositions *)
Lemma sapp_le a b c d :
  a ++ b = c ++ d -> (String.length a <= String.length c)%nat ->
  exists e, c = a ++ e /\ b = e ++ d.
Proof.
  revert c. induction a; simpl; intros c H L.
  - exists c; auto.
  - destruct c; simpl in *; [lia|]. inversion H; subst.
    destruct (IHa c) as (e & -> & ->); auto; [lia|]. exists e; auto.
Qed.

Lemma string_rev_ind (P : string -> Prop) :
  P "" -> (forall s c, P s -> P (s ++ String c "")) -> forall s, P s.
Proof.
  intros H0 HS s.
  assert (G : forall n s, String.length s = n -> P s).
  { induction n; intros t Ht; destruct t; simpl in Ht; try discriminate; auto.
    assert (E : exists u c, String a t = u ++ String c "").
    { clear. revert a. induction t as [|b t IH]; intros a.
      - exists "", a; reflexivity.
      - destruct (IH b) as (u & c & E). exists (String a u), c. simpl. congruence. }
    destruct E as (u & c & E). rewrite E. apply HS. apply IHn.
    apply (f_equal String.length) in E. rewrite slen_app in E. simpl in E. lia. }
  eauto.
Qed.

Lemma snoc_cases s : s = "" \/ exists u c, s = u ++ String c "".
Proof. induction s using string_rev_ind; [auto|right; eauto]. Qed.

(* ---- all_chars ---- *)
Lemma all_chars_nil P : all_chars P "".
Proof. intros i c H. destruct i; discriminate. Qed.
Lemma all_chars_cons P c s : all_chars P (String c s) <-> P c /\ all_chars P s.
Proof.
  split.
  - intros H. split. apply (H O); reflexivity. intros i x Hx. apply (H (S i)); exact Hx.
  - intros [Hc Hs] i x Hx. destruct i; simpl in Hx; [inversion Hx; subst; auto|eauto].
Qed.
Lemma all_chars_app P a b : all_chars P (a ++ b) <-> all_chars P a /\ all_chars P b.
Proof.
  induction a; simpl.
  - split; [intros; split; auto using all_chars_nil|tauto].
  - rewrite !all_chars_cons, IHa. tauto.
Qed.
Lemma all_chars_impl (P Q : ascii -> Prop) s :
  (forall c, P c -> Q c) -> all_chars P s -> all_chars Q s.
Proof. intros H HP i c Hc. eauto. Qed.
Global Hint Resolve all_chars_nil : core.

(* ---- characters ---- *)
Lemma is_blank_spec c : is_blank c = true <-> blank_char c.
Proof.
  unfold is_blank, blank_char, c_sp, c_tab. rewrite orb_true_iff, !Ascii.eqb_eq. tauto.
Qed.
Lemma is_blank_false c : is_blank c = false <-> ~ blank_char c.
Proof. rewrite <- is_blank_spec. destruct (is_blank c); split; intros; congruence. Qed.
Lemma aeqb_true a b : Ascii.eqb a b = true <-> a = b.
Proof. apply Ascii.eqb_eq. Qed.
Lemma aeqb_false a b : Ascii.eqb a b = false <-> a <> b.
Proof. apply Ascii.eqb_neq. Qed.
Lemma aeqb_refl a : Ascii.eqb a a = true.
Proof. apply Ascii.eqb_refl. Qed.
Lemma seqb_true a b : String.eqb a b = true <-> a = b.
Proof. apply String.eqb_eq. Qed.
Lemma seqb_false a b : String.eqb a b = false <-> a <> b.
Proof. apply String.eqb_neq. Qed.

(* ---- prefix ---- *)
Lemma prefix_spec p s : String.prefix p s = true <-> exists r, s = p ++ r.
Proof.
  revert s. induction p as [|c p IH]; intros s.
  - simpl. split; [intros _; exists s; reflexivity|]. destruct s; reflexivity.
  - destruct s as [|c' s]; simpl.
    + split; [discriminate|intros [r H]; discriminate].
    + destruct (ascii_dec c c') as [->|N].
      * rewrite IH. split; intros [r H]; exists r; [congruence|inversion H; auto].
      * split; [discriminate|intros [r H]; inversion H; congruence].
Qed.
Lemma prefix_app p r : String.prefix p (p ++ r) = true.
Proof. apply prefix_spec; eauto. Qed.
Lemma prefix_false p s : String.prefix p s = false <-> forall r, s <> p ++ r.
Proof.
  split.
  - intros H r ->. rewrite prefix_app in H. discriminate.
  - intros H. destruct (String.prefix p s) eqn:E; auto.
    apply prefix_spec in E. destruct E as [r ->]. exfalso; eapply H; eauto.
Qed.
Lemma substring_all n s : (String.length s <= n)%nat -> substring 0 n s = s.
Proof.
  revert n. induction s; destruct n; simpl; intros; auto; try lia.
  f_equal. apply IHs. lia.
Qed.
Lemma substring_app_drop p r n :
  (String.length r <= n)%nat -> substring (String.length p) n (p ++ r) = r.
Proof. induction p; simpl; intros; auto. apply substring_all; auto. Qed.
Lemma sdrop_app p r : sdrop (String.length p) (p ++ r) = r.
Proof. induction p; simpl; auto. Qed.

(* ---- cut_first / tokenize / tokens ---- *)
Lemma cut_first_eq d s :
  cut_first d s =
  if String.prefix d s
  then Some ("", substring (String.length d) (String.length s) s)
  else match s with
       | EmptyString => None
       | String c s' => match cut_first d s' with
                        | Some (a, b) => Some (String c a, b)
                        | None => None
                        end
       end.
Proof. destruct s; reflexivity. Qed.

Lemma cut_first_some d s a b :
  cut_first d s = Some (a, b) ->
  s = a ++ d ++ b /\
  (forall a' b', s = a' ++ d ++ b' -> (String.length a <= String.length a')%nat).
Proof.
  revert a b. induction s as [|c s IH]; intros a b; rewrite cut_first_eq.
  - destruct (String.prefix d "") eqn:E; [|discriminate].
    intros H. injection H as <- <-.
    apply prefix_spec in E. destruct E as [r E]. symmetry in E.
    apply sapp_eq_nil in E. destruct E as [-> ->]. simpl. split; auto. intros; lia.
  - destruct (String.prefix d (String c s)) eqn:E.
    + apply prefix_spec in E. destruct E as [r E].
      replace (substring (String.length d) (String.length (String c s)) (String c s)) with r
        by (rewrite E; symmetry; apply substring_app_drop; rewrite slen_app; lia).
      intros H. injection H as <- <-. rewrite E.
      split; [reflexivity|simpl; intros; lia].
    + destruct (cut_first d s) as [[a0 b0]|] eqn:C; [|discriminate].
      intros H. injection H as <- <-. destruct (IH _ _ eq_refl) as [-> M].
      split; [reflexivity|]. intros a' b' E'.
      destruct a' as [|x a']; simpl in E'.
      * rewrite E' in E. rewrite prefix_app in E. discriminate.
      * inversion E'; subst. apply M in H1. simpl. lia.
Qed.

Lemma cut_first_none d s : cut_first d s = None -> ~ contains d s.
Proof.
  induction s as [|c s IH]; rewrite cut_first_eq.
  - destruct (String.prefix d "") eqn:E; [discriminate|].
    rewrite prefix_false in E. intros _ (a & b & H).
    symmetry in H. apply sapp_eq_nil in H. destruct H as [-> H].
    eapply E; symmetry; eauto.
  - destruct (String.prefix d (String c s)) eqn:E; [discriminate|].
    rewrite prefix_false in E.
    destruct (cut_first d s) as [[a b]|] eqn:C; [discriminate|].
    intros _ (a & b & H). destruct a; simpl in H.
    { eapply E; eauto. }
    inversion H; subst. apply IH; auto. exists a0, b. reflexivity.
Qed.

Lemma cut_first_unique d p r :
  (forall a b, p ++ d ++ r = a ++ d ++ b -> (String.length p <= String.length a)%nat) ->
  cut_first d (p ++ d ++ r) = Some (p, r).
Proof.
  intros M. destruct (cut_first d (p ++ d ++ r)) as [[a b]|] eqn:C.
  - apply cut_first_some in C. destruct C as [E Ma].
    assert (L : String.length p = String.length a).
    { apply Nat.le_antisymm; [eapply M; eauto | eapply Ma; eauto]. }
    destruct (sapp_inj_len _ _ _ _ L E) as [-> E2]. apply sapp_inj_l in E2. congruence.
  - apply cut_first_none in C. exfalso. apply C. exists p, r. reflexivity.
Qed.

Lemma tokens_fuel_splits n d s :
  d <> "" -> (String.length s < n)%nat -> splits d s (tokens_fuel n d s).
Proof.
  intros Hd. revert s. induction n; intros s L; [lia|]. simpl. unfold tokenize.
  destruct (cut_first d s) as [[a b]|] eqn:C.
  - apply cut_first_some in C. destruct C as [-> M]. apply splits_cons; auto.
    apply IHn. rewrite !slen_app in L. destruct d; [congruence|simpl in L; lia].
  - apply splits_last. apply cut_first_none; auto.
Qed.
Lemma splits_tokens_fuel n d s ps :
  d <> "" -> (String.length s < n)%nat -> splits d s ps -> tokens_fuel n d s = ps.
Proof.
  intros Hd L H. revert n L. induction H; intros n L; destruct n; try lia; simpl; unfold tokenize.
  - destruct (cut_first d s) as [[a b]|] eqn:C; auto.
    apply cut_first_some in C. destruct C as [-> _]. exfalso. apply H. exists a, b. reflexivity.
  - rewrite cut_first_unique by auto. f_equal. apply IHsplits.
    rewrite !slen_app in L. destruct d; [congruence|simpl in L; lia].
Qed.
Lemma tokens_spec d s ps : d <> "" -> (tokens d s = ps <-> splits d s ps).
Proof.
  intros Hd. split.
  - intros <-. apply tokens_fuel_splits; auto.
  - apply splits_tokens_fuel; auto.
Qed.
(* The defining equation of the C loop: the fuel never matters. *)
Lemma tokens_fuel_irrel n m d s : d <> "" -> (String.length s < n)%nat -> (String.length s < m)%nat ->
  tokens_fuel n d s = tokens_fuel m d s.
Proof.
  intros. eapply splits_tokens_fuel; eauto. apply tokens_fuel_splits; auto.
Qed.
Lemma tokens_eq d s : d <> "" ->
  tokens d s = match tokenize d s with
               | (t, None) => [t]
               | (t, Some r) => t :: tokens d r
               end.
Proof.
  intros Hd. unfold tokens at 1. simpl. unfold tokenize.
  destruct (cut_first d s) as [[a b]|] eqn:C; auto.
  apply cut_first_some in C. destruct C as [-> _]. f_equal.
  apply tokens_fuel_irrel; auto. rewrite !slen_app. destruct d; [congruence|simpl; lia].
Qed.
Lemma splits_ne d s ps : splits d s ps -> ps <> [].
Proof. destruct 1; discriminate. Qed.

(* ---- words ---- *)
Lemma words_aux_app c cur s : all_chars (fun x => x <> c) s ->
  forall r, (r = "" \/ exists r', r = String c r') ->
  words_aux c cur (s ++ r) =
    match cur ++ s with
    | EmptyString => words_aux c "" r
    | w => w :: words_aux c "" r
    end.
Proof.
  revert cur. induction s as [|x s IH]; intros cur Hs r Hr; simpl.
  - rewrite sapp_nil_r. destruct Hr as [->|[r' ->]]; simpl.
    + destruct cur; reflexivity.
    + rewrite aeqb_refl. destruct cur; reflexivity.
  - apply all_chars_cons in Hs. destruct Hs as [Hx Hs].
    replace (Ascii.eqb x c) with false by (symmetry; apply aeqb_false; auto).
    rewrite IH by auto. rewrite sapp_assoc. simpl. reflexivity.
Qed.
Lemma words_aux_skip c pre s : all_chars (fun x => x = c) pre ->
  words_aux c "" (pre ++ s) = words_aux c "" s.
Proof.
  induction pre; simpl; auto. rewrite all_chars_cons. intros [-> H].
  rewrite aeqb_refl. auto.
Qed.
Lemma runs_words c s ws : runs c s ws -> words c s = ws.
Proof.
  unfold words. induction 1.
  - rewrite <- (sapp_nil_r s). rewrite words_aux_skip; auto.
  - rewrite words_aux_skip by auto. rewrite words_aux_app by auto. simpl.
    destruct w; [congruence|]. congruence.
Qed.
(* cutting a string at its first character satisfying a test *)
Lemma span_ex (f : ascii -> bool) s :
  exists a b, s = a ++ b /\ all_chars (fun c => f c = true) a /\
              (b = "" \/ exists c r, b = String c r /\ f c = false).
Proof.
  induction s as [|c s IH].
  - exists "", "". auto.
  - destruct (f c) eqn:E.
    + destruct IH as (a & b & -> & Ha & Hb). exists (String c a), b.
      rewrite all_chars_cons. auto.
    + exists "", (String c s). split; [reflexivity|]. split; [auto|]. right; eauto.
Qed.
Lemma words_runs c s : runs c s (words c s).
Proof.
  assert (G : forall n s, (String.length s <= n)%nat -> exists ws, runs c s ws).
  { induction n; intros t L.
    - destruct t; [|simpl in L; lia]. exists []. constructor. auto.
    - destruct (span_ex (fun x => Ascii.eqb x c) t) as (pre & r & -> & Hp & Hr).
      assert (Hp' : all_chars (fun x => x = c) pre).
      { refine (all_chars_impl _ _ _ _ Hp). intros x; apply aeqb_true. }
      destruct Hr as [->|(x & r0 & -> & Hx)].
      + exists []. constructor. rewrite sapp_nil_r. auto.
      + destruct (span_ex (fun x => negb (Ascii.eqb x c)) (String x r0)) as (w & r & E & Hw & Hr).
        assert (w <> "").
        { intros ->. simpl in E. destruct Hr as [->|(y & r1 & -> & Hy)]; [discriminate|].
          inversion E; subst. rewrite Hx in Hy. discriminate. }
        destruct (IHn r) as [ws Hws].
        { rewrite E, !slen_app in L. destruct w; [congruence|simpl in L; lia]. }
        exists (w :: ws). rewrite E. constructor; auto.
        * refine (all_chars_impl _ _ _ _ Hw). intros y Hy.
          apply aeqb_false. apply negb_true_iff; auto.
        * destruct Hr as [->|(y & r1 & -> & Hy)]; auto. right. exists r1.
          apply negb_false_iff, aeqb_true in Hy. congruence. }
  destruct (G _ s (le_n _)) as [ws H]. rewrite (runs_words _ _ _ H). auto.
Qed.
Lemma words_spec c s ws : words c s = ws <-> runs c s ws.
Proof. split; [intros <-; apply words_runs | apply runs_words]. Qed.

(* ---- strip ---- *)
Definition strippable (c : ascii) : bool := is_blank c || Ascii.eqb c c_nl.
Lemma strippable_spec c : strippable c = true <-> blank_char c \/ c = newline.
Proof. unfold strippable. rewrite orb_true_iff, is_blank_spec, aeqb_true. reflexivity. Qed.

Lemma rstrip_cons c s : rstrip (String c s) =
  match rstrip s with
  | EmptyString => if strippable c then "" else String c ""
  | r => String c r
  end.
Proof. reflexivity. Qed.
Lemma rstrip_all s : all_chars (fun c => strippable c = true) s -> rstrip s = "".
Proof.
  induction s as [|c s IH]; auto. rewrite all_chars_cons, rstrip_cons. intros [Hc H].
  rewrite IH, Hc; auto.
Qed.
Lemma rstrip_snoc_keep s c : strippable c = false -> rstrip (s ++ String c "") = s ++ String c "".
Proof.
  intros H. induction s as [|x s IH].
  - simpl. fold (strippable c). rewrite H. reflexivity.
  - change (String x s ++ String c "") with (String x (s ++ String c "")).
    rewrite rstrip_cons, IH. destruct s; reflexivity.
Qed.
Lemma rstrip_snoc_drop s c : strippable c = true -> rstrip (s ++ String c "") = rstrip s.
Proof.
  intros H. induction s as [|x s IH].
  - simpl. fold (strippable c). rewrite H. reflexivity.
  - change (String x s ++ String c "") with (String x (s ++ String c "")).
    rewrite !rstrip_cons, IH. reflexivity.
Qed.
Lemma rstrip_decomp s : exists post,
  s = rstrip s ++ post /\ all_chars (fun c => strippable c = true) post.
Proof.
  induction s using string_rev_ind.
  - exists ""; auto.
  - destruct (strippable c) eqn:E.
    + rewrite rstrip_snoc_drop by auto. destruct IHs as (post & Hs & Hp).
      exists (post ++ String c ""). split.
      * rewrite Hs at 1. apply sapp_assoc.
      * rewrite all_chars_app, all_chars_cons. auto.
    + rewrite rstrip_snoc_keep by auto. exists "". rewrite sapp_nil_r. auto.
Qed.
Lemma rstrip_last s c t : rstrip s = t ++ String c "" -> strippable c = false.
Proof.
  revert c t. induction s as [|x s IH]; intros c t.
  - simpl. intros H. symmetry in H. apply sapp_eq_nil in H. destruct H; discriminate.
  - rewrite rstrip_cons. destruct (rstrip s) as [|y r] eqn:E.
    + destruct (strippable x) eqn:Ex; intros H.
      * symmetry in H. apply sapp_eq_nil in H. destruct H; discriminate.
      * change (String x "") with ("" ++ String x "") in H.
        apply sapp_snoc_inj in H. destruct H as [_ <-]. auto.
    + intros H. destruct t as [|z t]; simpl in H; inversion H; subst.
      eapply (IH c t). auto.
Qed.
Lemma rstrip_head s c t : rstrip s = String c t -> exists u, s = String c u.
Proof.
  destruct s as [|x s]; [discriminate|]. rewrite rstrip_cons.
  destruct (rstrip s); [destruct (strippable x)|]; intros H; inversion H; subst; eauto.
Qed.
Lemma lstrip_decomp s : exists pre,
  s = pre ++ lstrip s /\ all_chars (fun c => is_blank c = true) pre.
Proof.
  induction s as [|c s IH]; simpl.
  - exists ""; auto.
  - destruct (is_blank c) eqn:E.
    + destruct IH as (pre & Hs & Hp). exists (String c pre). simpl. rewrite <- Hs.
      rewrite all_chars_cons; auto.
    + exists ""; auto.
Qed.
Lemma lstrip_head s c t : lstrip s = String c t -> is_blank c = false.
Proof.
  induction s as [|x s IH]; simpl; [discriminate|].
  destruct (is_blank x) eqn:E; auto. intros H; inversion H; subst; auto.
Qed.
Lemma lstrip_app pre s : all_chars (fun c => is_blank c = true) pre -> lstrip (pre ++ s) = lstrip s.
Proof.
  induction pre; simpl; auto. rewrite all_chars_cons. intros [-> H]; auto.
Qed.
Lemma lstrip_id s : (forall c t, s = String c t -> is_blank c = false) -> lstrip s = s.
Proof. destruct s; simpl; auto. intros H. rewrite (H _ _ eq_refl). reflexivity. Qed.

Lemma strip_stripped raw : stripped raw (strip raw).
Proof.
  unfold strip. destruct (lstrip_decomp raw) as (pre & Hr & Hp).
  destruct (rstrip_decomp (lstrip raw)) as (post & Hl & Hq).
  exists pre, post. rewrite <- Hl. split; [auto|]. split.
  { refine (all_chars_impl _ _ _ _ Hp). intros c. apply is_blank_spec. }
  split. { refine (all_chars_impl _ _ _ _ Hq). intros c. apply strippable_spec. }
  split.
  - intros c t E. apply rstrip_head in E. destruct E as [u E].
    apply lstrip_head in E. apply is_blank_false; auto.
  - intros c t E. apply rstrip_last in E.
    split; intros X; assert (strippable c = true) by (apply strippable_spec; auto); congruence.
Qed.
Lemma rstrip_app_drop s post : all_chars (fun c => strippable c = true) post ->
  rstrip (s ++ post) = rstrip s.
Proof.
  induction post as [|post c IH] using string_rev_ind.
  - rewrite sapp_nil_r; auto.
  - rewrite all_chars_app, all_chars_cons. intros (H & Hc & _).
    rewrite <- sapp_assoc, rstrip_snoc_drop; auto.
Qed.
Lemma rstrip_id s : (forall c t, s = t ++ String c "" -> strippable c = false) -> rstrip s = s.
Proof.
  intros H. destruct (snoc_cases s) as [->|(u & c & ->)]; auto.
  apply rstrip_snoc_keep. eauto.
Qed.
Lemma stripped_strip raw s : stripped raw s -> strip raw = s.
Proof.
  intros (pre & post & -> & Hpre & Hpost & Hh & Ht). unfold strip.
  assert (Hpre' : all_chars (fun c => is_blank c = true) pre).
  { refine (all_chars_impl _ _ _ _ Hpre). intros c. apply is_blank_spec. }
  assert (Hpost' : all_chars (fun c => strippable c = true) post).
  { refine (all_chars_impl _ _ _ _ Hpost). intros c. apply strippable_spec. }
  rewrite lstrip_app by auto.
  assert (Hs : rstrip s = s).
  { apply rstrip_id. intros c t E. destruct (strippable c) eqn:X; auto.
    apply strippable_spec in X. destruct (Ht _ _ E). tauto. }
  destruct s as [|c s].
  - simpl. destruct (lstrip_decomp post) as (p & E & _).
    apply rstrip_all. rewrite E in Hpost'. apply all_chars_app in Hpost'. tauto.
  - rewrite lstrip_id.
    + rewrite rstrip_app_drop; auto.
    + intros x t E. simpl in E. inversion E; subst. apply is_blank_false. eauto.
Qed.
Lemma strip_spec raw s : strip raw = s <-> stripped raw s.
Proof. split; [intros <-; apply strip_stripped | apply stripped_strip]. Qed.

(* ---- strsep ---- *)
Lemma strsep_some d s a b :
  strsep d s = (a, Some b) <-> s = a ++ String d b /\ all_chars (fun c => c <> d) a.
Proof.
  revert a b. induction s as [|c s IH]; intros a b; simpl.
  - split; [discriminate|]. intros [H _]. symmetry in H. apply sapp_eq_nil in H. destruct H; discriminate.
  - destruct (Ascii.eqb c d) eqn:E.
    + apply aeqb_true in E. subst. split.
      * intros H; inversion H; subst. auto.
      * intros [H Ha]. destruct a as [|x a]; simpl in H; inversion H; subst; auto.
        apply all_chars_cons in Ha. destruct Ha; congruence.
    + apply aeqb_false in E. destruct (strsep d s) as [a0 b0]. split.
      * intros H; inversion H; subst. destruct (IH a0 b) as [F _].
        destruct F as [-> Ha]; auto. split; auto. apply all_chars_cons; auto.
      * intros [H Ha]. destruct a as [|x a]; simpl in H; inversion H; subst; [congruence|].
        apply all_chars_cons in Ha. destruct Ha as [_ Ha].
        destruct (IH a b) as [_ F]. assert (X : (a0, b0) = (a, Some b)) by auto.
        inversion X; subst; auto.
Qed.
Lemma strsep_none d s a : strsep d s = (a, None) -> a = s /\ all_chars (fun c => c <> d) s.
Proof.
  revert a. induction s as [|c s IH]; intros a; simpl.
  - intros H; inversion H; auto.
  - destruct (Ascii.eqb c d) eqn:E; [discriminate|]. apply aeqb_false in E.
    destruct (strsep d s) as [a0 b0]. intros H; inversion H; subst.
    destruct (IH a0) as [-> Ha]; auto. rewrite all_chars_cons. auto.
Qed.
Lemma strsep_none' d s : all_chars (fun c => c <> d) s -> strsep d s = (s, None).
Proof.
  induction s as [|c s IH]; simpl; auto. rewrite all_chars_cons. intros [Hc H].
  apply aeqb_false in Hc. rewrite Hc, IH; auto.
Qed.

(* ---- cstr ---- *)
Lemma cstr_spec b s : cstr b = s <-> c_string b s.
Proof.
  revert s. induction b as [|c b IH]; intros s; simpl.
  - split.
    + intros <-. split; auto.
    + intros [_ [->|[r H]]]; auto. symmetry in H. apply sapp_eq_nil in H. destruct H; discriminate.
  - destruct (Ascii.eqb c c_nul) eqn:E.
    + apply aeqb_true in E. subst. split.
      * intros <-. split; auto. right. exists b. reflexivity.
      * intros [Ha H]. destruct s as [|x s]; auto. apply all_chars_cons in Ha.
        destruct Ha as [Hx _]. destruct H as [H|[r H]]; inversion H; subst; exfalso; apply Hx; reflexivity.
    + apply aeqb_false in E. split.
      * intros <-. destruct (IH (cstr b)) as [F _]. destruct F as [Ha H]; auto. split.
        { apply all_chars_cons; auto. }
        destruct H as [H|[r H]]; [left; congruence|right; exists r; simpl; congruence].
      * intros [Ha H]. destruct s as [|x s].
        { destruct H as [H|[r H]]; inversion H; subst; try discriminate. exfalso; apply E; reflexivity. }
        apply all_chars_cons in Ha. destruct Ha as [Hx Ha].
        assert (x = c) by (destruct H as [H|[r H]]; inversion H; auto). subst x.
        f_equal. apply IH. split; auto.
        destruct H as [H|[r H]]; inversion H; subst; eauto.
Qed.

(* ---- lines ---- *)
Lemma phys_aux_line cur any l r :
  all_chars (fun x => x <> newline) l ->
  phys_lines_aux cur any (l ++ String newline r) = (cur ++ l) :: phys_lines_aux "" false r.
Proof.
  revert cur any. induction l as [|c l IH]; intros cur any H; simpl.
  - rewrite sapp_nil_r. reflexivity.
  - apply all_chars_cons in H. destruct H as [Hc H].
    replace (Ascii.eqb c c_nl) with false by (symmetry; apply aeqb_false; exact Hc).
    rewrite IH by auto. rewrite sapp_assoc. reflexivity.
Qed.
Lemma phys_aux_last cur any l :
  all_chars (fun x => x <> newline) l ->
  phys_lines_aux cur any l = match l with EmptyString => if any then [cur] else [] | _ => [cur ++ l] end.
Proof.
  revert cur any. induction l as [|c l IH]; intros cur any H; simpl; auto.
  apply all_chars_cons in H. destruct H as [Hc H].
  replace (Ascii.eqb c c_nl) with false by (symmetry; apply aeqb_false; exact Hc).
  rewrite IH by auto. destruct l; auto. rewrite sapp_assoc. reflexivity.
Qed.
Lemma lines_of_phys s ls : lines_of s ls -> phys_lines s = ls.
Proof.
  unfold phys_lines. induction 1; auto.
  - rewrite phys_aux_last by auto. destruct s; [congruence|reflexivity].
  - rewrite phys_aux_line by auto. simpl. congruence.
Qed.
Lemma phys_lines_of s : lines_of s (phys_lines s).
Proof.
  assert (G : forall n s, (String.length s <= n)%nat -> exists ls, lines_of s ls).
  { induction n; intros t L.
    - destruct t; [|simpl in L; lia]. exists []. constructor.
    - destruct (span_ex (fun x => negb (Ascii.eqb x newline)) t) as (l & r & -> & Hl & Hr).
      assert (Hl' : all_chars (fun x => x <> newline) l).
      { refine (all_chars_impl _ _ _ _ Hl). intros c Hc. apply aeqb_false, negb_true_iff; auto. }
      destruct Hr as [->|(c & r0 & -> & Hc)].
      + rewrite sapp_nil_r. destruct l as [|c l]; [exists []; constructor|].
        exists [String c l]. apply lines_last; [discriminate|auto].
      + apply negb_false_iff, aeqb_true in Hc. subst c.
        destruct (IHn r0) as [ls Hls]. { rewrite slen_app in L. simpl in L. lia. }
        exists (l :: ls). constructor; auto. }
  destruct (G _ s (le_n _)) as [ls H]. rewrite (lines_of_phys _ _ H). auto.
Qed.
Lemma chop_some s t : chop_backslash s = Some t <-> s = t ++ "\".
Proof.
  revert t. induction s as [|c s IH]; intros t.
  - simpl. split; [discriminate|]. intros H. symmetry in H. apply sapp_eq_nil in H. destruct H; discriminate.
  - destruct s as [|c' s'].
    + simpl. destruct (Ascii.eqb c c_bsl) eqn:E.
      * apply aeqb_true in E. subst. split; [intros H; inversion H; reflexivity|].
        intros H. destruct t as [|x t]; auto. simpl in H. inversion H. symmetry in H2.
        apply sapp_eq_nil in H2. destruct H2; discriminate.
      * apply aeqb_false in E. split; [discriminate|]. intros H. destruct t as [|x t]; simpl in H.
        { inversion H. subst. exfalso; apply E; reflexivity. }
        inversion H. symmetry in H2. apply sapp_eq_nil in H2. destruct H2; discriminate.
    + change (chop_backslash (String c (String c' s'))) with
        (match chop_backslash (String c' s') with Some r => Some (String c r) | None => None end).
      destruct (chop_backslash (String c' s')) as [r|].
      * split.
        { intros H; inversion H; subst. destruct (IH r) as [F _]. simpl. rewrite <- F; auto. }
        intros H. destruct t as [|x t]; simpl in H; inversion H; subst.
        destruct (IH t) as [_ F]. specialize (F H2). inversion F; subst; auto.
      * split; [discriminate|]. intros H. destruct t as [|x t]; simpl in H; inversion H; subst.
        destruct (IH t) as [_ F]. specialize (F H2). discriminate.
Qed.
Lemma chop_none s : chop_backslash s = None <-> forall t, s <> t ++ "\".
Proof.
  split.
  - intros H t E. apply chop_some in E. congruence.
  - intros H. destruct (chop_backslash s) eqn:E; auto. apply chop_some in E. exfalso; eapply H; eauto.
Qed.
Lemma joined_logical ls js : joined ls js -> logical_lines ls = js.
Proof.
  induction 1; simpl; auto.
  - apply chop_none in H. rewrite H. congruence.
  - replace (chop_backslash (l ++ "\")) with (Some l) by (symmetry; apply chop_some; auto).
    rewrite IHjoined. reflexivity.
  - replace (chop_backslash (l ++ "\")) with (Some l) by (symmetry; apply chop_some; auto).
    rewrite IHjoined. reflexivity.
Qed.
Lemma logical_joined ls : joined ls (logical_lines ls).
Proof.
  induction ls as [|l ls IH]; simpl; [constructor|].
  destruct (chop_backslash l) as [l'|] eqn:E.
  - apply chop_some in E. subst. destruct (logical_lines ls) eqn:F.
    + constructor; auto.
    + constructor. auto.
  - constructor; auto. apply chop_none; auto.
Qed.
Lemma multilines_spec s ls : multilines s = ls <-> file_lines s ls.
Proof.
  unfold multilines, file_lines. split.
  - intros <-. exists (phys_lines s), (logical_lines (phys_lines s)).
    split; [apply phys_lines_of|]. split; [apply logical_joined|].
    induction (logical_lines (phys_lines s)); simpl; constructor; auto.
    apply cstr_spec; auto.
  - intros (l1 & l2 & H1 & H2 & H3). apply lines_of_phys in H1. apply joined_logical in H2.
    subst. induction H3; simpl; auto. f_equal; auto. apply cstr_spec; auto.
Qed.

Lemma splits_lossless d s ps : d <> "" -> splits d s ps ->
  String.concat d ps = s /\ Forall (fun p => ~ contains d p) ps.
Proof.
  intros Hd. induction 1 as [s H|p r ps M H [IH1 IH2]].
  - simpl. auto.
  - split.
    + destruct ps as [|p1 ps]; [inversion H|].
      change (String.concat d (p :: p1 :: ps)) with (p ++ d ++ String.concat d (p1 :: ps)).
      rewrite IH1. reflexivity.
    + constructor; auto. intros (a & b & E).
      specialize (M a (b ++ d ++ r)). rewrite E in M at 1.
      rewrite !sapp_assoc in M. specialize (M eq_refl).
      rewrite E in M. rewrite !slen_app in M.
      destruct d; [auto|simpl in M; lia].
Qed.
Lemma tokens_lossless d s : d <> "" ->
  String.concat d (tokens d s) = s /\ Forall (fun p => ~ contains d p) (tokens d s).
Proof. intros H. eapply splits_lossless; auto. apply tokens_spec; auto. Qed.
