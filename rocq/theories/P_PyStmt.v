(* Statements and files: the reader of policy files accepts exactly what the
   grammar generates. *)
From Verif Require Import P_CStr P_Const S_Policy.
From Verif Require Import M_PyParse S_PyText P_PyLex P_PyGram.
Local Open Scope string_scope.

(* A parser [p] reads what [g] generates, if what follows is as in [F]. *)
Definition sound {A} (p : parser A) (g : list token -> A -> Prop) : Prop :=
  forall ts x rest, wf ts -> p ts = Some (x, rest) -> exists pre, ts = (pre ++ rest)%list /\ g pre x.
Definition complete {A} (p : parser A) (g : list token -> A -> Prop) (F : list token -> Prop) : Prop :=
  forall ts x rest, wf ts -> g ts x -> F rest -> p (ts ++ rest)%list = Some (x, rest).
Lemma separated_sound {A} (p : parser A) g sep : sound p g -> forall fuel, sound (separated fuel p sep) (separated_by sep g).
Proof.
  intros S. induction fuel as [|fuel IH]; intros ts l rest W H; [discriminate|]. cbn [separated] in H.
  destruct (p ts) as [[x r]|] eqn:P; [|discriminate]. destruct (S _ _ _ W P) as (pre & -> & G).
  destruct (next_is sep r) eqn:N.
  - apply next_is_spec in N as (v & r' & ->). cbn [tl] in H. apply wf_app in W as [_ W]. apply wf_cons in W as [_ W].
    destruct (separated fuel p sep r') as [[l' r]|] eqn:Q; [|discriminate]. injection H as <- <-.
    destruct (IH _ _ _ W Q) as (pre' & -> & G'). exists (pre ++ Tok sep v :: pre')%list. split; [rewrite <- app_assoc; reflexivity|].
    constructor; assumption.
  - injection H as <- <-. exists pre. split; [reflexivity|]. constructor. exact G.
Qed.
Lemma separated_complete {A} (p : parser A) g sep F : complete p g F -> (forall v r, F (Tok sep v :: r)) ->
  forall fuel ts l rest, wf ts -> separated_by sep g ts l -> F rest -> next_is sep rest = false -> (length l <= fuel)%nat ->
  separated fuel p sep (ts ++ rest) = Some (l, rest).
Proof.
  intros C FS. induction fuel as [|fuel IH]; intros ts l rest W G FR N L; [destruct G; cbn in L; lia|]. cbn [separated].
  destruct G as [ts x G|ts x v r l G G'].
  - rewrite (C _ _ _ W G FR), N. reflexivity.
  - apply wf_app in W as [W W']. apply wf_cons in W' as [_ W']. rewrite <- app_assoc. cbn [app]. rewrite (C _ _ _ W G (FS v _)).
    assert (next_is sep (Tok sep v :: r ++ rest) = true) as -> by (apply next_is_spec; eauto). cbn [tl].
    cbn in L. rewrite (IH r l rest W' G' FR N) by lia. reflexivity.
Qed.
Lemma separated_length {A} sep (g : list token -> A -> Prop) ts l : separated_by sep g ts l -> (length l <= S (length ts))%nat.
Proof.
  intros H. induction H as [|ts x v r l G H IH]; cbn; [lia|]. rewrite app_length. cbn. lia.
Qed.
Lemma separated_complete' {A} (p : parser A) g sep F : complete p g F -> (forall v r, F (Tok sep v :: r)) ->
  complete (fun ts => separated (S (length ts)) p sep ts) (separated_by sep g) (fun rest => F rest /\ next_is sep rest = false).
Proof.
  intros C FS ts l rest W G [FR N]. apply (separated_complete p g sep F C FS); try assumption.
  apply separated_length in G. rewrite app_length. lia.
Qed.

Section grammar.
Variable a : parch.
(* ---- Expressions ---- *)
Definition after_value (rest : list token) : Prop := next_is BITWISE_OR rest = false.
Lemma op_of_spec s o : op_of s = Some o <-> op_name s o.
Proof.
  unfold op_of. rewrite lookup_spec. split.
  - intros H. repeat (inversion H as [|? ? ? ? ? _ H']; subst; clear H; [reflexivity|rename H' into H]). inversion H.
  - intros H. apply lookup_spec. destruct o; cbn in H; subst s; reflexivity.
Qed.
Lemma arg_digits ds : substring 3 (String.length ("arg" ++ ds) - 3) ("arg" ++ ds) = ds.
Proof.
  replace (String.length ("arg" ++ ds) - 3)%nat with (String.length ds) by (cbn [append String.length]; lia).
  cbn [append substring]. rewrite <- (sapp_nil_r ds) at 2. apply substring_app_l.
Qed.
Lemma atom_sound : sound (parse_atom a) (g_atom a).
Proof.
  intros ts x rest W H. destruct ts as [|[ty arg] ts]; [discriminate|]. destruct ty; try discriminate.
  destruct ts as [|[ty o] ts]; [discriminate|]. destruct ty; try discriminate. cbn [parse_atom] in H.
  apply wf_cons in W as [S1 W]. apply wf_cons in W as [_ W]. cbn [spelled t_type t_value] in S1. destruct S1 as (ds & -> & DS).
  destruct (parse_value a (S (length ts)) ts) as [[v r]|] eqn:P; [|discriminate].
  destruct (op_of o) as [o'|] eqn:O; [|discriminate]. apply op_of_spec in O.
  rewrite arg_digits in H. destruct (digits_exist 10 ds (proj1 DS) (proj2 DS)) as (i & I).
  rewrite (digits_value_spec 10 ds i) in H by (assumption || lia).
  destruct (N.ltb_spec i MAX_SYSCALL_ARGUMENTS) as [L|L]; [|discriminate]. injection H as <- <-.
  destruct (value_sound a _ _ _ _ W P) as (pre & -> & G).
  exists (Tok ARGUMENT ("arg" ++ ds) :: Tok OP o :: pre). split; [reflexivity|]. constructor; assumption.
Qed.
Lemma atom_complete : complete (parse_atom a) (g_atom a) after_value.
Proof.
  intros ts x rest W G F. destruct G as [ds i os o ts v D L O G]. apply wf_cons in W as [_ W]. apply wf_cons in W as [_ W].
  cbn [app parse_atom]. rewrite (value_complete a _ ts v rest W G); [|rewrite app_length; lia|exact F].
  apply op_of_spec in O. rewrite O.
  rewrite arg_digits, (digits_value_spec 10 ds i) by (assumption || lia).
  destruct (N.ltb_spec i MAX_SYSCALL_ARGUMENTS) as [L'|L']; [reflexivity|]. unfold MAX_SYSCALL_ARGUMENTS in L'. lia.
Qed.
Definition after_expression (rest : list token) : Prop :=
  (after_value rest /\ next_is AND rest = false) /\ next_is OR rest = false.
Lemma expression_sound : sound (parse_argument_expression a) (g_expression a).
Proof. intros ts x rest W H. eapply separated_sound; [|exact W|exact H]. intros ts' x' rest' W' H'. eapply separated_sound; [|exact W'|exact H']. apply atom_sound. Qed.
Lemma expression_complete : complete (parse_argument_expression a) (g_expression a) after_expression.
Proof.
  apply separated_complete'.
  - apply separated_complete'; [apply atom_complete|reflexivity].
  - intros v r. split; reflexivity.
Qed.
Lemma expression_starts ts e : g_expression a ts e -> exists v r, ts = Tok ARGUMENT v :: r.
Proof.
  assert (forall ts l, separated_by AND (g_atom a) ts l -> exists v r, ts = Tok ARGUMENT v :: r) as G.
  { intros t l H. destruct H as [t x H|t x v r l H _]; destruct H; cbn; eauto. }
  intros H. destruct H as [t x H|t x v r l H _]; apply G in H as (w & q & ->); cbn; eauto.
Qed.

Variables (denylist ret_log : bool).
(* ---- Actions and filters ---- *)
Lemma const_named s x l : lookup s l = Some x <-> @first_entry paction l s x.
Proof. apply lookup_spec. Qed.
Lemma errno_spec v : N.lor RET_ERRNO (N.land v 0xffff) = ERRNO v.
Proof.
  unfold ERRNO, RET_ERRNO. change 0xffff%N with (N.ones 16). rewrite N.land_ones. change (2 ^ 16)%N with 65536%N.
  assert (v mod 65536 < 2 ^ 16)%N as L by (apply N.mod_lt; lia). revert L. generalize (v mod 65536)%N. intros w L.
  assert (N.land 0x50000 w = 0)%N as Z; [|rewrite N.add_nocarry_lxor, N.lxor_lor by exact Z; reflexivity].
  apply N.bits_inj_0. intros n. rewrite N.land_spec. destruct (N.lt_ge_cases n 16) as [Ln|Ln].
  - assert (N.testbit 327680 n = false) as ->; [|reflexivity].
    change 327680%N with (N.shiftl 5 16). apply N.shiftl_spec_low. exact Ln.
  - rewrite andb_comm. assert (N.testbit w n = false) as ->; [|reflexivity].
    destruct (N.eq_dec w 0) as [->|NW]; [apply N.bits_0|]. apply N.bits_above_log2. apply N.log2_lt_pow2 in L; lia.
Qed.
Definition named_actions : list (string * paction) :=
  [("allow", New ALLOW); ("kill", Kill); ("kill-process", New KILL_PROCESS); ("kill-thread", New KILL_THREAD);
   ("trap", New TRAP); ("trace", New 0x7ff00000); ("user-notify", New 0x7fc00000); ("log", New LOG)]%N.
Lemma type_cases ty : ty = ACTION \/ ty = NUMERIC_CONSTANT \/ ty = RETURN \/ (ty <> ACTION /\ ty <> NUMERIC_CONSTANT /\ ty <> RETURN).
Proof. destruct ty; auto; right; right; right; repeat split; discriminate. Qed.
Lemma action_sound : sound (parse_action a denylist ret_log) (g_action a denylist ret_log).
Proof.
  intros ts x rest W H. destruct ts as [|[ty s] ts]; [discriminate|]. apply wf_cons in W as [S1 W]. unfold parse_action in H.
  destruct (denylist && negb (is_type (t_type (Tok ty s)) RETURN)) eqn:DN; [discriminate|]. cbn [t_type t_value] in *.
  assert (ty = RETURN \/ denylist = false) as D.
  { apply andb_false_iff in DN as [D|D]; [right; exact D|left]. apply negb_false_iff, is_type_spec in D. exact D. }
  destruct (type_cases ty) as [->|[->|[->|(N1 & N2 & N3)]]].
  - destruct D as [D|D]; [discriminate D|]. change [("allow", _); _; _; _; _; _; _; _]%N with named_actions in H.
    destruct (lookup s named_actions) eqn:L; [|discriminate]. injection H as <- <-. apply lookup_spec in L.
    exists [Tok ACTION s]. split; [reflexivity|]. apply gx_named; assumption.
  - destruct D as [D|D]; [discriminate D|]. destruct (single_constant a (Tok NUMERIC_CONSTANT s)) as [v|] eqn:C; [|discriminate].
    destruct (N.eqb_spec v 1) as [->|]; [|discriminate]. injection H as <- <-. apply single_constant_spec in C; [|exact S1].
    exists [Tok NUMERIC_CONSTANT s]. split; [reflexivity|]. apply gx_one; assumption.
  - destruct ts as [|t ts]; [discriminate|]. apply wf_cons in W as [S2 W]. destruct ret_log eqn:RL.
    + injection H as <- <-. exists [Tok RETURN s; t]. split; [reflexivity|]. apply gx_return_log. reflexivity.
    + destruct (single_constant a t) as [v|] eqn:C; [|discriminate]. apply some_eq, pair_eq in H as [<- <-]. apply single_constant_spec in C; [|exact S2].
      exists [Tok RETURN s; t]. split; [reflexivity|]. rewrite errno_spec. apply gx_return; [reflexivity|exact C].
  - destruct ty; try discriminate; congruence.
Qed.
Lemma action_complete : complete (parse_action a denylist ret_log) (g_action a denylist ret_log) (fun _ => True).
Proof.
  intros ts x rest W G _. destruct G as [s x D F|s D C|s t v R C|s t R]; apply wf_cons in W as [S1 W]; cbn [app]; unfold parse_action;
    cbn [t_type t_value is_type].
  - rewrite D. cbn [andb]. change [("allow", _); _; _; _; _; _; _; _]%N with named_actions. apply lookup_spec in F.
    change (lookup s named_actions = Some x) in F. rewrite F. reflexivity.
  - rewrite D. cbn [andb]. apply single_constant_spec in C; [|exact S1]. rewrite C. reflexivity.
  - rewrite andb_false_r, R. apply wf_cons in W as [S2 W]. apply single_constant_spec in C; [|exact S2]. rewrite C, errno_spec. reflexivity.
  - rewrite andb_false_r, R. reflexivity.
Qed.
Lemma single_sound : sound (parse_single_filter a denylist ret_log) (g_single a denylist ret_log).
Proof.
  intros ts x rest W H. unfold parse_single_filter in H. destruct (next_is ARGUMENT ts).
  - destruct (parse_argument_expression a ts) as [[e r]|] eqn:P; [|discriminate]. destruct (expression_sound _ _ _ W P) as (pre & -> & G).
    destruct (next_is SEMICOLON r) eqn:N.
    + apply next_is_spec in N as (v & r' & ->). cbn [tl] in H. apply wf_app in W as [_ W]. apply wf_cons in W as [_ W].
      destruct (parse_action a denylist ret_log r') as [[y r]|] eqn:Q; [|discriminate]. injection H as <- <-.
      destruct (action_sound _ _ _ W Q) as (pre' & -> & G'). exists (pre ++ Tok SEMICOLON v :: pre')%list.
      split; [rewrite <- app_assoc; reflexivity|]. apply gs_expr_action; assumption.
    + injection H as <- <-. exists pre. split; [reflexivity|]. apply gs_expr. exact G.
  - destruct (parse_action a denylist ret_log ts) as [[y r]|] eqn:Q; [|discriminate]. injection H as <- <-.
    destruct (action_sound _ _ _ W Q) as (pre' & -> & G'). exists pre'. split; [reflexivity|]. apply gs_action. exact G'.
Qed.
Definition after_filter (rest : list token) : Prop := after_expression rest /\ next_is SEMICOLON rest = false.
Lemma single_complete : complete (parse_single_filter a denylist ret_log) (g_single a denylist ret_log) after_filter.
Proof.
  intros ts x rest W G [F N]. unfold parse_single_filter. destruct G as [ts x G|ts e G|ts e s r x G G'].
  - assert (next_is ARGUMENT (ts ++ rest) = false) as -> by (destruct G; reflexivity).
    rewrite (action_complete _ _ rest W G Logic.I). reflexivity.
  - destruct (expression_starts _ _ G) as (v & r & E). assert (next_is ARGUMENT (ts ++ rest) = true) as -> by (rewrite E; reflexivity).
    rewrite (expression_complete _ _ rest W G F), N. reflexivity.
  - apply wf_app in W as [W W']. apply wf_cons in W' as [_ W'].
    destruct (expression_starts _ _ G) as (v & q & E). rewrite <- app_assoc. cbn [app].
    assert (next_is ARGUMENT (ts ++ Tok SEMICOLON s :: r ++ rest) = true) as -> by (rewrite E; reflexivity).
    rewrite (expression_complete _ _ (Tok SEMICOLON s :: r ++ rest) W G); [|repeat split; reflexivity]. cbn [next_is t_type is_type tl].
    rewrite (action_complete _ _ rest W' G' Logic.I). reflexivity.
Qed.
Lemma single_starts ts x : g_single a denylist ret_log ts x -> next_is LBRACE ts = false.
Proof.
  intros H. destruct H as [ts x H|ts e H|ts e s r x H _]; [destruct H; reflexivity|..]; apply expression_starts in H as (v & q & ->); reflexivity.
Qed.

(* ---- Braces ---- *)
Lemma braced_sound {A} (p : parser A) g : sound p g -> sound (braced p) (in_braces g).
Proof.
  intros S ts l rest W H. unfold braced in H. destruct (next_is LBRACE ts) eqn:N.
  - apply next_is_spec in N as (b & r & ->). cbn [tl] in H. apply wf_cons in W as [_ W].
    destruct (separated _ p COMMA r) as [[l' r']|] eqn:P; [|discriminate]. destruct (next_is RBRACE r') eqn:N; [|discriminate].
    apply next_is_spec in N as (e & q & ->). injection H as <- <-. destruct (separated_sound p g COMMA S _ _ _ _ W P) as (pre & -> & G).
    exists (Tok LBRACE b :: pre ++ [Tok RBRACE e])%list. split; [cbn; rewrite <- app_assoc; reflexivity|]. constructor. exact G.
  - destruct (p ts) as [[x r]|] eqn:P; [|discriminate]. injection H as <- <-. destruct (S _ _ _ W P) as (pre & -> & G).
    exists pre. split; [reflexivity|]. constructor. exact G.
Qed.
Lemma braced_complete {A} (p : parser A) g F : complete p g F -> (forall v r, F (Tok COMMA v :: r)) -> (forall v r, F (Tok RBRACE v :: r)) ->
  (forall ts x rest, wf ts -> g ts x -> next_is LBRACE (ts ++ rest) = false) -> complete (braced p) (in_braces g) F.
Proof.
  intros C FC FB NB ts l rest W G FR. unfold braced. destruct G as [ts x G|b ts l e G].
  - rewrite (NB _ _ _ W G), (C _ _ _ W G FR). reflexivity.
  - apply wf_cons in W as [_ W]. apply wf_app in W as [W _]. cbn [app next_is t_type is_type tl]. rewrite <- app_assoc. cbn [app].
    rewrite (separated_complete p g COMMA F C FC _ ts l (Tok RBRACE e :: rest) W G (FB _ _)); [reflexivity|reflexivity|].
    apply separated_length in G. cbn. rewrite app_length. lia.
Qed.
Lemma filter_sound : sound (parse_filter a denylist ret_log) (in_braces (g_single a denylist ret_log)).
Proof. apply braced_sound, single_sound. Qed.
Lemma filter_complete : complete (parse_filter a denylist ret_log) (in_braces (g_single a denylist ret_log)) after_filter.
Proof.
  apply braced_complete; [apply single_complete|repeat split; reflexivity|repeat split; reflexivity|].
  intros ts x rest _ G. destruct ts as [|t ts]; [|exact (single_starts _ _ G)].
  exfalso. inversion G as [? ? G' E|? ? G' E|? ? ? ? ? G' G'' E]; subst.
  - inversion G'.
  - apply expression_starts in G' as (? & ? & ?). discriminate.
  - destruct ts; discriminate E.
Qed.

(* ---- Descriptors ---- *)
Lemma identifier_sound : sound parse_identifier (fun ts s => ts = [Tok IDENTIFIER s]).
Proof.
  intros ts s rest _ H. destruct ts as [|[ty v] ts]; [discriminate|]. destruct ty; try discriminate. injection H as <- <-.
  exists [Tok IDENTIFIER v]. split; reflexivity.
Qed.
Lemma identifier_complete : complete parse_identifier (fun ts s => ts = [Tok IDENTIFIER s]) (fun _ => True).
Proof. intros ts s rest _ -> _. reflexivity. Qed.
Lemma pair_sound : sound parse_key_value_pair g_pair.
Proof.
  intros ts x rest W H. destruct ts as [|[ty key] ts]; [discriminate|]. destruct ty; try discriminate.
  destruct ts as [|[ty e] ts]; [discriminate|]. destruct ty; try discriminate. cbn [parse_key_value_pair] in H.
  apply wf_cons in W as [_ W]. apply wf_cons in W as [_ W].
  destruct (separated _ parse_identifier COMMA ts) as [[l r]|] eqn:P; [|discriminate]. injection H as <- <-.
  destruct (separated_sound _ _ _ identifier_sound _ _ _ _ W P) as (pre & -> & G).
  exists (Tok IDENTIFIER key :: Tok EQUAL e :: pre). split; [reflexivity|]. constructor. exact G.
Qed.
Lemma pair_complete : complete parse_key_value_pair g_pair (fun rest => next_is COMMA rest = false).
Proof.
  intros ts x rest W G N. destruct G as [key e ts l G]. cbn [app parse_key_value_pair].
  apply wf_cons in W as [_ W]. apply wf_cons in W as [_ W].
  rewrite (separated_complete' _ _ COMMA _ identifier_complete (fun _ _ => Logic.I) ts l rest W G (Logic.conj Logic.I N)). reflexivity.
Qed.
Lemma no_duplicate_spec l : no_duplicate l = true <-> NoDup (map fst l).
Proof.
  induction l as [|[k v] l IH]; cbn; [split; [constructor|reflexivity]|]. rewrite andb_true_iff. fold (no_duplicate l). rewrite IH.
  assert (negb (existsb (fun q => String.eqb (fst q) k) l) = true <-> ~ In k (map fst l)) as ->.
  { rewrite negb_true_iff, <- not_true_iff_false, existsb_exists. split; intros H X; apply H.
    - apply in_map_iff in X as (q & E & I). exists q. split; [exact I|]. rewrite E. apply String.eqb_refl.
    - destruct X as (q & I & E). apply String.eqb_eq in E. apply in_map_iff. eauto. }
  split; [intros [A B]; constructor; assumption|]. intros H. inversion H; auto.
Qed.
Lemma metadata_sound : sound parse_metadata g_metadata.
Proof.
  intros ts x rest W H. unfold parse_metadata in H. destruct (next_is LBRACKET ts) eqn:N; [|discriminate].
  apply next_is_spec in N as (b & r & ->). cbn [tl] in H. apply wf_cons in W as [_ W].
  destruct (separated _ parse_key_value_pair SEMICOLON r) as [[l r']|] eqn:P; [|discriminate].
  destruct (no_duplicate l) eqn:ND; [|discriminate]. apply no_duplicate_spec in ND.
  destruct (next_is RBRACKET r') eqn:N; [|discriminate]. apply next_is_spec in N as (e & q & ->). injection H as <- <-.
  destruct (separated_sound _ _ _ pair_sound _ _ _ _ W P) as (pre & -> & G).
  exists (Tok LBRACKET b :: pre ++ [Tok RBRACKET e])%list. split; [cbn; rewrite <- app_assoc; reflexivity|]. constructor; assumption.
Qed.
Lemma metadata_complete : complete parse_metadata g_metadata (fun _ => True).
Proof.
  intros ts x rest W G _. destruct G as [b ts l e G ND]. apply wf_cons in W as [_ W]. apply wf_app in W as [W _].
  unfold parse_metadata. cbn [app next_is t_type is_type tl]. rewrite <- app_assoc. cbn [app].
  rewrite (separated_complete _ _ SEMICOLON _ pair_complete (fun _ _ => eq_refl) _ ts l (Tok RBRACKET e :: rest) W G eq_refl eq_refl).
  - apply no_duplicate_spec in ND. rewrite ND. reflexivity.
  - apply separated_length in G. cbn. rewrite app_length. lia.
Qed.
Lemma metadata_starts ts m : g_metadata ts m -> next_is LBRACKET ts = true.
Proof. intros H. destruct H. reflexivity. Qed.
(* names *)
Lemma split_at_none x s : forall cur, all_chars (fun c => c <> x) s -> split_at x s cur = [cur ++ s].
Proof.
  induction s as [|c s IH]; intros cur A; cbn; [rewrite sapp_nil_r; reflexivity|]. apply all_chars_cons in A as [N A].
  destruct (Ascii.eqb_spec c x); [contradiction|]. rewrite IH by exact A. rewrite sapp_assoc. reflexivity.
Qed.
Lemma split_at_one x s t : forall cur, all_chars (fun c => c <> x) s -> split_at x (s ++ String x t) cur = (cur ++ s) :: split_at x t "".
Proof.
  induction s as [|c s IH]; intros cur A; cbn.
  - rewrite Ascii.eqb_refl, sapp_nil_r. reflexivity.
  - apply all_chars_cons in A as [N A]. destruct (Ascii.eqb_spec c x); [contradiction|]. rewrite IH by exact A. rewrite sapp_assoc. reflexivity.
Qed.
Lemma split_at_cases x s : all_chars (fun c => c <> x) s \/ exists l r, s = l ++ String x r /\ all_chars (fun c => c <> x) l.
Proof.
  induction s as [|c s IH]; [left; apply all_chars_nil|]. destruct (ascii_dec c x) as [->|N].
  - right. exists "", s. split; [reflexivity|apply all_chars_nil].
  - destruct IH as [A|(l & r & -> & A)].
    + left. apply all_chars_cons. auto.
    + right. exists (String c l), r. split; [reflexivity|]. apply all_chars_cons. auto.
Qed.
Lemma existsb_at s : existsb (Ascii.eqb "@") (list_ascii_of_string s) = false <-> no_at s.
Proof.
  unfold no_at. induction s as [|c s IH]; cbn [list_ascii_of_string existsb]; [split; [intros _; apply all_chars_nil|reflexivity]|].
  rewrite all_chars_cons, orb_false_iff, IH. destruct (Ascii.eqb_spec "@" c) as [<-|N]; split; intros [A B]; try discriminate; auto.
  congruence.
Qed.
Lemma all_numbers_spec names cs : all_numbers a names = Some cs <->
  Forall2 (fun s c => fst c = s /\ first_entry (pa_syscalls a) s (snd c)) names cs.
Proof.
  split.
  - revert cs. induction names as [|n names IH]; intros cs H; cbn in H; [injection H as <-; constructor|].
    destruct (lookup n (pa_syscalls a)) as [v|] eqn:L; [|discriminate]. destruct (all_numbers a names) as [r|]; [|discriminate].
    injection H as <-. constructor; [|apply IH; reflexivity]. split; [reflexivity|]. apply lookup_spec. exact L.
  - intros H. induction H as [|n [m v] names cs [E F] H IH]; [reflexivity|]. cbn in E, F. subst m. apply lookup_spec in F. cbn. rewrite F, IH. reflexivity.
Qed.
Lemma calls_of_spec s cs : calls_of a s = Some cs <-> names_calls a s cs.
Proof.
  unfold calls_of. split.
  - destruct (existsb (Ascii.eqb "@") (list_ascii_of_string s)) eqn:X.
    + destruct (split_at_cases "@" s) as [A|(g & n & -> & A)]; [apply existsb_at in A; congruence|].
      rewrite split_at_one by exact A. cbn [append]. destruct (split_at_cases "@" n) as [B|(g' & n' & -> & B)].
      * rewrite split_at_none by exact B. cbn [append]. destruct (lookup n (pa_groups a)) as [gs|] eqn:L; [|discriminate].
        destruct (lookup g gs) as [names|] eqn:L'; [|discriminate]. intros H. apply lookup_spec in L, L'. apply all_numbers_spec in H.
        eapply nc_group; eassumption.
      * rewrite split_at_one by exact B. destruct (split_at "@" n' "") eqn:E; [|discriminate].
        destruct (split_at_cases "@" n') as [D|(g'' & n'' & -> & D)]; [rewrite split_at_none in E by exact D|rewrite split_at_one in E by exact D]; discriminate E.
    + destruct (lookup s (pa_syscalls a)) as [v|] eqn:L; [|discriminate]. intros H. injection H as <-. apply lookup_spec in L.
      constructor; [apply existsb_at; exact X|exact L].
  - intros H. destruct H as [s nr A F|g n gs names cs A B F F' G].
    + apply existsb_at in A. rewrite A. apply lookup_spec in F. rewrite F. reflexivity.
    + assert (existsb (Ascii.eqb "@") (list_ascii_of_string (g ++ "@" ++ n)) = true) as ->.
      { apply not_false_iff_true. rewrite existsb_at. intros X. apply all_chars_app in X as [_ X]. apply all_chars_cons in X as [X _]. congruence. }
      change (g ++ "@" ++ n) with (g ++ String "@" n). rewrite split_at_one, split_at_none by assumption. cbn [append].
      apply lookup_spec in F, F'. rewrite F, F'. apply all_numbers_spec. exact G.
Qed.
Lemma for_us_spec meta : NoDup (map fst meta) ->
  match lookup "arch" meta with Some names => existsb (String.eqb (pa_name a)) names | None => true end = true <-> for_us a meta.
Proof.
  intros ND. unfold for_us. destruct (lookup "arch" meta) as [names|] eqn:L.
  - apply lookup_spec in L. assert (In ("arch", names) meta) as I.
    { clear -L. induction L; [left; reflexivity|right; assumption]. }
    rewrite existsb_exists. split.
    + intros (x & J & E) l K. apply String.eqb_eq in E. subst x. assert (l = names) as ->; [|exact J].
      clear -ND I K. induction meta as [|[k v] meta IH]; [destruct I|]. cbn in ND. apply NoDup_cons_iff in ND as [N ND].
      destruct I as [I|I]; destruct K as [K|K].
      * congruence.
      * injection I as -> ->. exfalso. apply N. apply in_map_iff. exists ("arch", l). auto.
      * injection K as -> ->. exfalso. apply N. apply in_map_iff. exists ("arch", names). auto.
      * exact (IH ND I K).
    + intros H. exists (pa_name a). split; [apply H; exact I|apply String.eqb_refl].
  - split; [|reflexivity]. intros _ l I. exfalso.
    induction meta as [|[k v] meta IH]; [destruct I|]. cbn in L. destruct (String.eqb_spec k "arch") as [->|N]; [discriminate|].
    destruct I as [I|I]; [congruence|]. cbn in ND. apply NoDup_cons_iff in ND as [_ ND]. exact (IH ND L I).
Qed.
Lemma call_word_spec t : is_type (t_type t) IDENTIFIER || String.eqb (t_value t) "kill" = true <-> call_word t.
Proof. unfold call_word. rewrite orb_true_iff, is_type_spec, String.eqb_eq. reflexivity. Qed.
Lemma descriptor_sound : sound (parse_syscall_descriptor a) (g_descriptor a).
Proof.
  intros ts x rest W H. destruct ts as [|t r]; [discriminate|]. apply wf_cons in W as [_ W]. unfold parse_syscall_descriptor in H.
  destruct (is_type (t_type t) IDENTIFIER || String.eqb (t_value t) "kill") eqn:CW; [|discriminate]. apply call_word_spec in CW.
  destruct (next_is LBRACKET r).
  - destruct (parse_metadata r) as [[meta r']|] eqn:P; [|discriminate]. destruct (metadata_sound _ _ _ W P) as (pre & -> & G).
    assert (NoDup (map fst meta)) as ND by (destruct G; assumption). pose proof (for_us_spec meta ND) as FU.
    destruct (lookup "arch" meta) as [names|].
    + destruct (existsb (String.eqb (pa_name a)) names).
      * destruct (calls_of a (t_value t)) as [l|] eqn:C; [|discriminate]. injection H as <- <-. apply calls_of_spec in C.
        exists (t :: pre). split; [reflexivity|]. eapply gd_meta; try eassumption. apply FU. reflexivity.
      * injection H as <- <-. exists (t :: pre). split; [reflexivity|]. eapply gd_other; try eassumption. rewrite <- FU. discriminate.
    + destruct (calls_of a (t_value t)) as [l|] eqn:C; [|discriminate]. injection H as <- <-. apply calls_of_spec in C.
      exists (t :: pre). split; [reflexivity|]. eapply gd_meta; try eassumption. apply FU. reflexivity.
  - cbn [lookup] in H. destruct (calls_of a (t_value t)) as [l|] eqn:C; [|discriminate]. injection H as <- <-. apply calls_of_spec in C.
    exists [t]. split; [reflexivity|]. apply gd_plain; assumption.
Qed.
Definition after_descriptor (rest : list token) : Prop := next_is LBRACKET rest = false.
Lemma descriptor_complete : complete (parse_syscall_descriptor a) (g_descriptor a) after_descriptor.
Proof.
  intros ts x rest W G F. unfold parse_syscall_descriptor. destruct G as [t cs CW NC|t ts meta cs CW G FU NC|t ts meta CW G FU];
    apply wf_cons in W as [_ W]; cbn [app]; apply call_word_spec in CW; rewrite CW.
  - unfold after_descriptor in F. rewrite F. cbn [lookup]. apply calls_of_spec in NC. rewrite NC. reflexivity.
  - assert (next_is LBRACKET (ts ++ rest) = true) as -> by (destruct G; reflexivity). rewrite (metadata_complete _ _ rest W G Logic.I).
    assert (NoDup (map fst meta)) as ND by (destruct G; assumption). pose proof (for_us_spec meta ND) as E.
    apply calls_of_spec in NC. rewrite NC. apply E in FU. destruct (lookup "arch" meta); [rewrite FU|]; reflexivity.
  - assert (next_is LBRACKET (ts ++ rest) = true) as -> by (destruct G; reflexivity). rewrite (metadata_complete _ _ rest W G Logic.I).
    assert (NoDup (map fst meta)) as ND by (destruct G; assumption). pose proof (for_us_spec meta ND) as E.
    destruct (lookup "arch" meta) as [names|]; [|exfalso; apply FU, E; reflexivity].
    destruct (existsb (String.eqb (pa_name a)) names); [exfalso; apply FU, E; reflexivity|reflexivity].
Qed.
Lemma kill_type ty : spelled ty "kill" -> ty = ACTION \/ ty = IDENTIFIER.
Proof.
  assert (forall c t, all_chars white (String c t) -> is_space c = true) as G1.
  { intros c t A. apply all_chars_cons in A as [A _]. apply is_space_spec. exact A. }
  destruct ty; cbn; auto; try discriminate.
  - intros (t & E). discriminate E.
  - intros [_ A]. apply G1 in A. discriminate A.
  - intros (t & _ & [E|E]); discriminate E.
  - intros (z & H). apply number_value_complete in H. discriminate H.
  - intros (o & O). destruct o; discriminate O.
  - intros (ds & E & _). discriminate E.
Qed.
Lemma descriptor_starts ts x rest : wf ts -> g_descriptor a ts x ->
  exists ty v r, (ts ++ rest)%list = Tok ty v :: r /\ (ty = IDENTIFIER \/ ty = ACTION).
Proof.
  intros W G.
  assert (forall t ts, wf (t :: ts) -> call_word t -> exists ty v r, ((t :: ts) ++ rest)%list = Tok ty v :: r /\ (ty = IDENTIFIER \/ ty = ACTION)) as K.
  { clear. intros [ty v] ts W [E|E]; cbn in E; subst; cbn; do 3 eexists; (split; [reflexivity|auto]).
    apply wf_cons in W as [S _]. apply kill_type in S. cbn in S. tauto. }
  destruct G; apply K; assumption.
Qed.
Lemma descriptors_sound : sound (braced (parse_syscall_descriptor a)) (in_braces (g_descriptor a)).
Proof. apply braced_sound, descriptor_sound. Qed.
Lemma descriptors_complete : complete (braced (parse_syscall_descriptor a)) (in_braces (g_descriptor a)) after_descriptor.
Proof.
  apply braced_complete; [apply descriptor_complete|reflexivity|reflexivity|].
  intros ts x rest W G. destruct (descriptor_starts ts x rest W G) as (ty & v & r & -> & [->| ->]); reflexivity.
Qed.

(* ---- Statements ---- *)
Definition read_as (s : pstatement) : option pstatement := match ps_calls s with [] => None | _ => Some s end.
Lemma statement_sound ts o rest : wf ts -> parse_filter_statement a denylist ret_log ts = Some (o, rest) ->
  exists pre s, ts = (pre ++ rest)%list /\ g_statement a denylist ret_log pre s /\ o = read_as s.
Proof.
  intros W H. unfold parse_filter_statement in H.
  destruct (braced (parse_syscall_descriptor a) ts) as [[cs [|[ty v] r]]|] eqn:P; try discriminate.
  destruct (descriptors_sound _ _ _ W P) as (pre & -> & G). apply wf_app in W as [_ W]. apply wf_cons in W as [_ W].
  destruct ty; try discriminate. destruct (parse_filter a denylist ret_log r) as [[fs r']|] eqn:Q; [|discriminate].
  destruct (filter_sound _ _ _ W Q) as (pre' & -> & G').
  exists (pre ++ Tok COLON v :: pre')%list, (PStatement (concat cs) fs).
  assert (rest = r' /\ o = read_as (PStatement (concat cs) fs)) as [-> ->].
  { unfold read_as. cbn [ps_calls]. destruct (concat cs); injection H as <- <-; auto. }
  split; [rewrite <- app_assoc; reflexivity|]. split; [constructor; assumption|reflexivity].
Qed.
Lemma statement_complete ts s rest : wf ts -> g_statement a denylist ret_log ts s -> after_filter rest ->
  parse_filter_statement a denylist ret_log (ts ++ rest) = Some (read_as s, rest).
Proof.
  intros W G F. destruct G as [ts css v r fs G G']. apply wf_app in W as [W W']. apply wf_cons in W' as [_ W'].
  unfold parse_filter_statement. rewrite <- app_assoc. cbn [app].
  rewrite (descriptors_complete ts css (Tok COLON v :: r ++ rest) W G eq_refl), (filter_complete r fs rest W' G' F).
  unfold read_as. cbn [ps_calls]. destruct (concat css); reflexivity.
Qed.
Lemma statement_starts ts s rest : wf ts -> g_statement a denylist ret_log ts s ->
  exists ty v r, (ts ++ rest)%list = Tok ty v :: r /\ (ty = IDENTIFIER \/ ty = ACTION \/ ty = LBRACE).
Proof.
  intros W G. destruct G as [ts css v r fs G _]. rewrite <- app_assoc. apply wf_app in W as [W _].
  destruct G as [ts x G|b ts l e G].
  - destruct (descriptor_starts ts x ((Tok COLON v :: r) ++ rest)%list W G) as (ty & w & q & -> & [->| ->]); eauto 8.
  - cbn. eauto 8.
Qed.
End grammar.
