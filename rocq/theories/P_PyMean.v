(* What compiled texts mean. *)
From Verif Require Import P_CStr P_Const S_Policy S_PyPolicy P_PyFile.
From Verif Require Import M_PyParse S_PyText P_PyLex P_PyGram P_PyStmt P_PyText.
Local Open Scope N_scope.

(* ---- The numbers in a text are in range ---- *)
Definition action_fits (x : paction) : Prop := match x with Kill => True | New v => v < 2 ^ 32 end.
Section bounds.
Variables (a : parch) (denylist ret_log : bool) (resolve : string -> string -> string) (text : string -> option string).
Variable junk : list token -> Prop.
Hypothesis TOK : tables_ok a.
Let bits := arch_bits (pa_arch a).
Definition pfilt_fits (f : pfilt) : Prop :=
  action_fits (pf_act f) /\ match pf_expr f with None => True | Some e => Forall (Forall (fun x => p_val x < 2 ^ bits)) e end.
Definition pstatement_fits (s : pstatement) : Prop :=
  Forall (fun c => snd c < 2 ^ 32 - 1) (ps_calls s) /\ Forall pfilt_fits (ps_filters s).
Definition contents_fit (c : contents) : Prop :=
  Forall pstatement_fits (ct_statements c) /\ forall x, ct_default c = Some x -> action_fits x.
Lemma first_entry_in {A} (l : list (string * A)) s x : first_entry l s x -> In (s, x) l.
Proof. induction 1; [left; reflexivity|right; assumption]. Qed.
Lemma separated_all {A} sep (g : list token -> A -> Prop) (P : A -> Prop) ts l :
  (forall ts x, g ts x -> P x) -> separated_by sep g ts l -> Forall P l.
Proof. intros H S. induction S; constructor; eauto. Qed.
Lemma braces_all {A} (g : list token -> A -> Prop) (P : A -> Prop) ts l :
  (forall ts x, g ts x -> P x) -> in_braces g ts l -> Forall P l.
Proof. intros H [? ? G|? ? ? ? S]; [constructor; eauto|eapply separated_all; eauto]. Qed.
Lemma g_atom_fits ts x : g_atom a ts x -> p_val x < 2 ^ bits.
Proof. intros []. cbn. eapply (proj1 (value_bound a)); eassumption. Qed.
Lemma in_table_fits (l : list (string * paction)) : Forall (fun e => action_fits (snd e)) l ->
  forall s x, first_entry l s x -> action_fits x.
Proof. intros F s x E. apply first_entry_in in E. rewrite Forall_forall in F. exact (F _ E). Qed.
Lemma g_action_fits ts x : g_action a denylist ret_log ts x -> action_fits x.
Proof.
  intros [s x' D E|s D C|s t v R C|s t R]; try reflexivity.
  - eapply in_table_fits; [|exact E]. repeat constructor.
  - unfold action_fits, ERRNO. pose proof (N.mod_lt v 65536 ltac:(discriminate)). change (2 ^ 32) with 4294967296. lia.
Qed.
Lemma g_single_fits ts f : g_single a denylist ret_log ts f -> pfilt_fits f.
Proof.
  assert (forall ts e, g_expression a ts e -> Forall (Forall (fun x => p_val x < 2 ^ bits)) e) as E.
  { intros ts' e. apply separated_all. intros ts0 c. apply separated_all. apply g_atom_fits. }
  intros [ts' x X|ts' e X|ts' e s r x X Y]; (split; cbn; [|eauto]).
  - eapply g_action_fits; exact X.
  - reflexivity.
  - eapply g_action_fits; exact Y.
Qed.
Lemma names_fit s cs : names_calls a s cs -> Forall (fun c => snd c < 2 ^ 32 - 1) cs.
Proof.
  destruct TOK as (_ & _ & T). intros [s' nr _ E|g n gs names cs' _ _ _ _ F].
  - repeat constructor. apply first_entry_in in E. exact (T _ _ E).
  - induction F as [|x c names cs' [_ E] _ IH]; constructor; [|exact IH]. apply first_entry_in in E. exact (T _ _ E).
Qed.
Lemma g_descriptor_fits ts cs : g_descriptor a ts cs -> Forall (fun c => snd c < 2 ^ 32 - 1) cs.
Proof. intros [t c _ C|t r m c _ _ _ C|]; [eapply names_fit; exact C|eapply names_fit; exact C|constructor]. Qed.
Lemma Forall_concat {A} (P : A -> Prop) l : Forall (Forall P) l -> Forall P (concat l).
Proof. induction 1; cbn; [constructor|apply Forall_app; auto]. Qed.
Lemma g_statement_fits ts s : g_statement a denylist ret_log ts s -> pstatement_fits s.
Proof.
  intros [ts' css v r fs D F]. split; cbn.
  - apply Forall_concat. eapply braces_all; [|exact D]. apply g_descriptor_fits.
  - eapply braces_all; [|exact F]. apply g_single_fits.
Qed.
Lemma line_fits (incl : string -> contents -> Prop) file ts c b : (forall f c, incl f c -> contents_fit c) ->
  line_says a denylist ret_log resolve text junk incl file ts c b -> contents_fit c.
Proof.
  intros HI H.
  assert (forall f, contents_fit (Contents [] f None)) as Z by (intros f; split; [constructor|intros ? [=]]).
  destruct H as [ts s GS NE|ts s rest GS E J|v p c I|v p f F|v s x L|v D]; try apply Z.
  - split; [|intros ? [=]]. constructor; [exact (g_statement_fits _ _ GS)|constructor].
  - eapply HI; exact I.
  - split; [constructor|]. cbn. intros y [= <-]. eapply in_table_fits; [|exact L]. repeat constructor.
Qed.
Lemma lines_fit (incl : string -> contents -> Prop) file tss c b : (forall f c, incl f c -> contents_fit c) ->
  lines_say a denylist ret_log resolve text junk incl file tss c b -> contents_fit c.
Proof.
  intros HI H. induction H as [|ts c b r c' b' H1 H [IH1 IH2]]; [split; [constructor|intros ? [=]]|].
  apply line_fits in H1 as [H1 H2]; [|exact HI]. split; cbn; [apply Forall_app; auto|].
  intros x. destruct (ct_default c'); auto.
Qed.
Lemma file_fits n : forall file c, file_says a denylist ret_log resolve text junk n file c -> contents_fit c.
Proof.
  induction n as [|n IH]; intros file c (t & ls & tss & b & _ & _ & _ & L & _); (eapply lines_fit; [|exact L]).
  - intros f c' [].
  - exact IH.
Qed.
End bounds.

(* ---- Numbering the objects ---- *)
Lemma filters_of_same kill l : forall n, Forall2 (same_filter kill) l (M_PyParse.filters_of kill n l).
Proof.
  induction l as [|[e x] l IH]; intros n; [constructor|]. cbn [M_PyParse.filters_of]. constructor; [|apply IH].
  cbn. constructor. destruct x; reflexivity.
Qed.
Lemma statements_of_same kill l : forall n, Forall2 (same_statement kill) l (statements_of kill n l).
Proof.
  induction l as [|[cs fs] l IH]; intros n; [constructor|]. cbn [statements_of]. constructor; [|apply IH].
  cbn. constructor. apply filters_of_same.
Qed.
Lemma default_of_value o c : a_val (default_of o c) = default_value o c.
Proof.
  unfold default_of, default_value. destruct (o_override o); [reflexivity|]. destruct (ct_default c) as [[]|]; try reflexivity.
  destruct (o_denylist o); reflexivity.
Qed.
(* An object has the number 0 and the value of kill, or its own number. *)
Definition numbered (kill lo hi : N) (l : list act) : Prop :=
  (forall x, In x l -> x = Act 0 kill \/ lo <= a_id x < hi) /\
  forall x y, In x l -> In y l -> a_id x = a_id y -> x = y.
Lemma numbered_nil kill lo : numbered kill lo lo [].
Proof. split; [intros x []|intros x y []]. Qed.
Lemma numbered_app kill lo mid hi l r : 0 < lo -> lo <= mid -> mid <= hi -> numbered kill lo mid l -> numbered kill mid hi r ->
  numbered kill lo hi (l ++ r).
Proof.
  intros P0 LE LE' [A1 A2] [B1 B2].
  assert (forall x y, In x l -> In y r -> a_id x = a_id y -> x = y) as X.
  { intros x y X Y E. destruct (A1 x X) as [->|AX]; destruct (B1 y Y) as [->|BY]; try reflexivity; cbn in *; lia. }
  split.
  - intros x I. apply in_app_or in I as [I|I]; [destruct (A1 x I)|destruct (B1 x I)]; auto; right; lia.
  - intros x y I J E. apply in_app_or in I as [I|I]; apply in_app_or in J as [J|J]; auto. symmetry. apply X; auto.
Qed.
Lemma act_of_numbered kill n x : 0 < n -> numbered kill n (n + 1) [act_of kill n x].
Proof.
  intros P0. split.
  - intros y [<-|[]]. destruct x; [left; reflexivity|right; cbn; lia].
  - intros y z [<-|[]] [<-|[]]. auto.
Qed.
Lemma filters_numbered kill l : forall n, 0 < n -> numbered kill n (n + N.of_nat (length l)) (map f_act (M_PyParse.filters_of kill n l)).
Proof.
  induction l as [|f l IH]; intros n P0; cbn [M_PyParse.filters_of map length]; [rewrite N.add_0_r; apply numbered_nil|].
  apply (numbered_app kill n (n + 1) _ [act_of kill n (pf_act f)] _); try lia; [apply act_of_numbered; lia|].
  replace (n + N.of_nat (S (length l))) with (n + 1 + N.of_nat (length l)) by lia. apply IH. lia.
Qed.
Lemma statements_numbered kill l : forall n, 0 < n ->
  exists hi, n <= hi /\ numbered kill n hi (flat_map (fun s => map f_act (st_filters s)) (statements_of kill n l)).
Proof.
  induction l as [|s l IH]; intros n P0; cbn [statements_of flat_map]; [exists n; split; [lia|apply numbered_nil]|].
  destruct (IH (n + N.of_nat (length (ps_filters s)))) as (hi & LE & H); [lia|]. exists hi. split; [lia|].
  apply (numbered_app kill n (n + N.of_nat (length (ps_filters s)))); try lia; [|exact H]. cbn. apply filters_numbered. exact P0.
Qed.
Lemma default_numbered o c : numbered (o_kill o) 1 2 [default_of o c].
Proof.
  split; [|intros y z [<-|[]] [<-|[]]; auto]. intros y [<-|[]]. unfold default_of.
  destruct (o_override o); [right; cbn; lia|]. destruct (ct_default c) as [[]|]; [left; reflexivity|right; cbn; lia|].
  destruct (o_denylist o); [right; cbn; lia|left; reflexivity].
Qed.
Lemma same_in {A B} (R : A -> B -> Prop) l r y : Forall2 R l r -> In y r -> exists x, In x l /\ R x y.
Proof. induction 1 as [|x z l r H F IH]; intros []; [subst; exists x; split; [left; reflexivity|exact H]|]. destruct IH as (w & I & W); auto. exists w. split; [right|]; auto. Qed.
Lemma same_calls kill l r : Forall2 (same_statement kill) l r -> calls r = flat_map ps_calls l.
Proof. induction 1 as [|x y l r [] F IH]; [reflexivity|]. cbn. unfold calls in IH. rewrite IH. reflexivity. Qed.
Lemma text_ok a o c : tables_ok a -> options_ok o -> contents_fit a c ->
  six_arguments (statements_of (o_kill o) 2 (ct_statements c)) ->
  policy_ok (pa_arch a) (default_of o c) (statements_of (o_kill o) 2 (ct_statements c)).
Proof.
  intros (TB & TA & TT) (KO & OO) (FS & FD) SA. split; [exact TB|]. split; [exact TA|].
  pose proof (statements_of_same (o_kill o) (ct_statements c) 2) as SS. split.
  { rewrite default_of_value. unfold default_value. destruct (o_override o); [apply OO; reflexivity|].
    destruct (ct_default c) as [[]|]; [exact KO|apply (FD _ eq_refl)|]. destruct (o_denylist o); [reflexivity|exact KO]. }
  split.
  { intros s f S F. destruct (same_in _ _ _ _ SS S) as (ps & PS & SM). rewrite Forall_forall in FS. destruct (FS ps PS) as [_ PF].
    destruct SM as [cs fs gs SM]. cbn in F, PF. destruct (same_in _ _ _ _ SM F) as (pf & PFI & SF). rewrite Forall_forall in PF. destruct (PF pf PFI) as [PA PE].
    destruct SF as [e x y V]. cbn in PA, PE. split; cbn.
    - rewrite V. destruct x; [exact KO|exact PA].
    - destruct e as [e|]; [|exact Logic.I]. rewrite !Forall_forall in *. intros k K. specialize (PE k K). rewrite Forall_forall in *.
      intros z Z. split; [|apply PE; exact Z]. eapply SA; [exact S|exact F|reflexivity|exact K|exact Z]. }
  split.
  { destruct (statements_numbered (o_kill o) (ct_statements c) 2 ltac:(lia)) as (hi & LE & NB).
    exact (proj2 (numbered_app (o_kill o) 1 2 hi [_] _ ltac:(lia) ltac:(lia) LE (default_numbered o c) NB)). }
  intros k K. rewrite (same_calls _ _ _ SS) in K. apply in_flat_map in K as (s & S & K). rewrite Forall_forall in FS. destruct (FS s S) as [FC _].
  rewrite Forall_forall in FC. apply FC. exact K.
Qed.

(* ---- Policies with the same values ---- *)
Definition alike_f (f g : filt) : Prop := f_expr f = f_expr g /\ a_val (f_act f) = a_val (f_act g).
Definition alike (s t : statement) : Prop := st_calls s = st_calls t /\ Forall2 alike_f (st_filters s) (st_filters t).
Lemma same_alike_f kill l : forall r r', Forall2 (same_filter kill) l r -> Forall2 (same_filter kill) l r' -> Forall2 alike_f r r'.
Proof.
  induction l as [|x l IH]; intros r r' H H'; inversion H as [|x0 y l0 r0 S F]; inversion H' as [|x1 y' l1 r1 S' F']; subst; constructor; [|eauto].
  destruct S as [e k y V]. inversion S' as [e' k' z V' E1 E2]. subst. split; [reflexivity|]. cbn. congruence.
Qed.
Lemma same_alike kill l : forall r r', Forall2 (same_statement kill) l r -> Forall2 (same_statement kill) l r' -> Forall2 alike r r'.
Proof.
  induction l as [|x l IH]; intros r r' H H'; inversion H as [|x0 y l0 r0 S F]; inversion H' as [|x1 y' l1 r1 S' F']; subst; constructor; [|eauto].
  destruct S as [cs fs gs V]. inversion S' as [cs' fs' gs' V' E1 E2]. subst. split; [reflexivity|]. cbn. eapply same_alike_f; eassumption.
Qed.
Lemma Forall2_app' {A B} (R : A -> B -> Prop) l r l' r' : Forall2 R l r -> Forall2 R l' r' -> Forall2 R (l ++ l') (r ++ r').
Proof. induction 1; cbn; auto. Qed.
Lemma alike_filters nr r r' : Forall2 alike r r' -> Forall2 alike_f (filters_for nr r) (filters_for nr r').
Proof.
  induction 1 as [|s t r r' [C F] H IH]; [constructor|]. cbn. apply Forall2_app'; [|exact IH]. rewrite C. clear C.
  induction (st_calls t) as [|c l IHl]; [constructor|]. cbn. apply Forall2_app'; [|exact IHl]. destruct (snd c =? nr); [exact F|constructor].
Qed.
Lemma alike_calls r r' : Forall2 alike r r' -> calls r = calls r'.
Proof. induction 1 as [|s t r r' [C F] H IH]; [reflexivity|]. cbn. unfold calls in IH. rewrite C, IH. reflexivity. Qed.
Lemma alike_first bits d v l r : Forall2 alike_f l r -> first_match bits d v l = first_match bits d v r.
Proof. induction 1 as [|f g l r [E V] H IH]; [reflexivity|]. cbn. unfold applies. rewrite E, V, IH. reflexivity. Qed.
Lemma alike_last v l r : Forall2 alike_f l r -> last_resort v l = last_resort v r.
Proof.
  unfold last_resort. induction 1 as [|f g l r [E V] H IH]; [reflexivity|]. cbn. rewrite E. destruct (f_expr g); [exact IH|exact V].
Qed.
Lemma alike_decision bits denylist v r r' d : Forall2 alike r r' -> decision bits denylist v r d = decision bits denylist v r' d.
Proof.
  intros H. unfold decision, S_PyPolicy.listed. rewrite (alike_calls _ _ H), (alike_first _ _ _ _ _ (alike_filters (sd_nr d) _ _ H)). reflexivity.
Qed.
Lemma alike_allow l r : Forall2 alike_f l r -> Forall (fun f => a_val (f_act f) = ALLOW) l -> Forall (fun f => a_val (f_act f) = ALLOW) r.
Proof. induction 1 as [|f g l r [E V] H IH]; intros F; [constructor|]. apply Forall_cons_iff in F as [F FF]. constructor; [congruence|auto]. Qed.
Lemma alike_sym r r' : Forall2 alike r r' -> Forall2 alike r' r.
Proof.
  induction 1 as [|s t r r' [C F] H IH]; constructor; [|exact IH]. split; [auto|]. clear - F. induction F as [|f g l r [E V] H IH]; constructor; [|exact IH].
  split; auto.
Qed.
Lemma in_alike {A B} (R : A -> B -> Prop) l r x : Forall2 R l r -> In x l -> exists y, In y r /\ R x y.
Proof. induction 1 as [|z y l r H F IH]; intros []; [subst; exists y; split; [left; reflexivity|exact H]|]. destruct IH as (w & I & W); auto. exists w. split; [right|]; auto. Qed.
Lemma alike_six r r' : Forall2 alike r r' -> six_arguments r -> six_arguments r'.
Proof.
  intros H SA s f e c x S F E C X. apply alike_sym in H. destruct (in_alike _ _ _ _ H S) as (t & T & _ & FF).
  destruct (in_alike _ _ _ _ FF F) as (g & G & GE & _). eapply SA; [exact T|exact G|rewrite <- GE; exact E|exact C|exact X].
Qed.
Lemma alike_one r r' : Forall2 alike r r' -> one_name r -> one_name r'.
Proof. intros H ON. unfold one_name. rewrite <- (alike_calls _ _ H). exact ON. Qed.
Lemma alike_settled r r' : Forall2 alike r r' -> settled r -> settled r'.
Proof.
  intros H ST nr l f q E N. pose proof (alike_filters nr _ _ H) as F. rewrite E in F.
  apply Forall2_app_inv_r in F as (l1 & l2 & F1 & F2 & E'). inversion F2 as [|g f' q1 q' [GE _] Q]; subst.
  assert (q1 = []) as -> by (eapply (ST nr); [exact E'|congruence]). inversion Q. reflexivity.
Qed.

(* ---- When collecting the filters succeeds ---- *)
Definition last_only (fs : list filt) : Prop := forall l f r, fs = (l ++ f :: r)%list -> f_expr f = None -> r = [].
Lemma suffix_last fs : (length (unconditional_suffix fs) <= 1)%nat <-> last_only fs.
Proof.
  unfold last_only. induction fs as [|f fs IH]; [cbn; split; [intros _ [|] ? ? E; discriminate E|lia]|]. cbn [unconditional_suffix].
  destruct (f_expr f) as [ex|] eqn:E.
  - rewrite IH. split.
    + intros H [|g l] h r EQ N; cbn in EQ; injection EQ as <- EQ; [congruence|eauto].
    + intros H l h r EQ N. apply (H (f :: l) h r); [rewrite EQ; reflexivity|exact N].
  - split.
    + intros H [|g l] h r EQ N; cbn in EQ; injection EQ as <- EQ; [subst; destruct r; [reflexivity|cbn in H; lia]|].
      subst fs. cbn in H. rewrite app_length in H. cbn in H. lia.
    + intros H. rewrite (H [] f fs eq_refl E). cbn. lia.
Qed.
Lemma finish_settled default l : (exists l', finish default l = Some l') <-> forall s, In s l -> last_only (s_filters s).
Proof.
  induction l as [|s l IH]; cbn [finish]; [split; [intros _ s []|eauto]|]. split.
  - intros (l' & H). intros t [<-|I].
    + apply suffix_last. destruct (unconditional_suffix (s_filters s)) as [|x [|y q]]; cbn; try lia. discriminate H.
    + apply IH; [|exact I]. destruct (unconditional_suffix (s_filters s)) as [|x [|y q]]; destruct (finish default l); try discriminate; eauto.
  - intros H. destruct IH as [_ IH]. destruct IH as (l' & E); [intros t T; apply H; right; exact T|].
    pose proof (H s (or_introl eq_refl)) as X. apply suffix_last in X. rewrite E.
    destruct (unconditional_suffix (s_filters s)) as [|x [|y q]]; cbn in X; [eauto|eauto|lia].
Qed.
Lemma parses freq default ss : one_name ss -> (exists p, parse_file freq default ss = Some p) <-> settled ss.
Proof.
  intros ON. unfold parse_file.
  assert (forall nr, P_PyFile.sound (calls ss) (collect freq ss []) /\ P_PyFile.filters_of nr (collect freq ss []) = result nr None (S_PyPolicy.listed nr ss) (filters_for nr ss)) as CS.
  { intros nr. apply (collect_spec freq (calls ss)); [exact ON|auto|split; [constructor|intros s []]]. }
  assert ((exists p, match finish default (collect freq ss []) with Some l => Some (Parsed default l) | None => None end = Some p) <->
          exists l, finish default (collect freq ss []) = Some l) as ->.
  { destruct (finish default (collect freq ss [])); split; intros (x & E); try discriminate; eauto. }
  rewrite finish_settled. split.
  - intros H nr l f r E N. destruct (CS nr) as [_ FO]. destruct (S_PyPolicy.listed nr ss) eqn:LI.
    + cbn in FO. apply find_nr_in in FO as (s & S & _ & FE). apply (H s S l f r); [rewrite FE; exact E|exact N].
    + exfalso. assert (filters_for nr ss = []) as Z; [|rewrite Z in E; destruct l; discriminate].
      clear - LI. unfold S_PyPolicy.listed, calls in LI. unfold filters_for. induction ss as [|s r IH]; [reflexivity|]. cbn in *. rewrite existsb_app in LI.
      apply orb_false_iff in LI as [L1 L2]. rewrite (IH L2), app_nil_r. clear - L1. induction (st_calls s) as [|c q IHq]; [reflexivity|].
      cbn in *. apply orb_false_iff in L1 as [L1 L2]. rewrite L1. apply IHq. exact L2.
  - intros H s S. destruct (CS (s_nr s)) as [[ND IN] FO]. rewrite (in_find_nr _ _ ND S) in FO. unfold result in FO.
    destruct (S_PyPolicy.listed (s_nr s) ss); [|discriminate]. injection FO as ->. intros l f r E N. exact (H (s_nr s) l f r E N).
Qed.

(* ---- The text and the program ---- *)
Section meaning.
Variables (a : parch) (o : popts) (resolve : string -> string -> string) (text : string -> option string) (file : string).
Hypotheses (TO : tables_ok a) (OO : options_ok o).
Let parse := parse_policy_file a (o_denylist o) (o_ret_log o) resolve text (o_levels o) file.
Definition made (c : contents) : list statement := statements_of (o_kill o) 2 (ct_statements c).
Lemma compile_text_eq : compile_text a o resolve text file =
  match parse with
  | None => None
  | Some c => match parse_file (freq_of (ct_freq c)) (default_of o c) (made c) with
              | Some p => compile_file (pa_arch a) (o_kill o) (o_denylist o) (o_strategy o) p
              | None => None
              end
  end.
Proof. unfold compile_text, parse_text, parse, made. destruct (parse_policy_file _ _ _ _ _ _ _); [|reflexivity]. destruct (parse_file _ _ _); reflexivity. Qed.
Lemma parse_fits c : parse = Some c -> contents_fit a c.
Proof. intros H. eapply file_fits; [exact TO|]. apply file_sound. exact H. Qed.
Lemma made_says c : parse = Some c -> says a o resolve text anything file (default_of o c) (made c).
Proof.
  intros H. exists c. split; [apply file_sound; exact H|]. split; [apply default_of_value|]. apply statements_of_same.
Qed.
Lemma says_made default ss : says a o resolve text nothing file default ss ->
  exists c, parse = Some c /\ a_val default = a_val (default_of o c) /\ Forall2 alike ss (made c).
Proof.
  intros (c & F & D & SS). exists c. split; [apply file_complete; exact F|]. split; [rewrite default_of_value; exact D|].
  eapply same_alike; [exact SS|apply statements_of_same].
Qed.
Definition kept (default : act) (ss : list statement) (d : sdata) : Prop :=
  o_denylist o = true \/ last_resort (a_val default) (filters_for (sd_nr d) ss) <> ALLOW \/
  Forall (fun f => a_val (f_act f) = ALLOW) (filters_for (sd_nr d) ss).
Lemma kept_alike default default' ss ss' d : a_val default = a_val default' -> Forall2 alike ss ss' -> kept default ss d -> kept default' ss' d.
Proof.
  intros D AL [K|[K|K]]; [left; exact K|right; left|right; right].
  - rewrite <- D, <- (alike_last _ _ _ (alike_filters (sd_nr d) _ _ AL)). exact K.
  - eapply alike_allow; [apply alike_filters; exact AL|exact K].
Qed.
Lemma made_means c prog : parse = Some c -> compile_text a o resolve text file = Some prog ->
  one_name (made c) -> six_arguments (made c) -> forall d, sd_ok d ->
  (sd_arch d = arch_nr (pa_arch a) -> kept (default_of o c) (made c) d ->
   run true prog d = VRet (decision (arch_bits (pa_arch a)) (o_denylist o) (a_val (default_of o c)) (made c) d)) /\
  (sd_arch d <> arch_nr (pa_arch a) -> run true prog d = VRet (o_kill o)).
Proof.
  intros P C ON SA d SD. rewrite compile_text_eq, P in C. destruct (parse_file _ _ _) as [p|] eqn:PF; [|discriminate].
  pose proof (text_ok a o c TO OO (parse_fits c P) SA) as OK. destruct OO as [KO _]. split; intros A.
  - intros K. eapply preserved; eassumption.
  - eapply foreign; eassumption.
Qed.
Lemma text_means default ss prog : says a o resolve text anything file default ss -> compile_text a o resolve text file = Some prog ->
  one_name ss -> six_arguments ss -> forall d, sd_ok d ->
  (sd_arch d = arch_nr (pa_arch a) -> kept default ss d ->
   run true prog d = VRet (decision (arch_bits (pa_arch a)) (o_denylist o) (a_val default) ss d)) /\
  (sd_arch d <> arch_nr (pa_arch a) -> run true prog d = VRet (o_kill o)).
Proof.
  intros (c & F & D & SS) C ON SA d SD. pose proof C as C'. rewrite compile_text_eq in C'. destruct parse as [c'|] eqn:P; [clear C'|discriminate].
  pose proof (file_sound _ _ _ _ _ _ _ _ P) as F'. pose proof (file_unique _ _ _ _ _ _ _ _ _ _ _ F F') as E. subst c'. rewrite <- default_of_value in D.
  assert (Forall2 alike ss (made c)) as AL by (eapply same_alike; [exact SS|apply statements_of_same]).
  destruct (made_means c prog P C (alike_one _ _ AL ON) (alike_six _ _ AL SA) d SD) as [M1 M2]. split; [|exact M2].
  intros A K. rewrite D, (alike_decision _ _ _ _ _ d AL). apply M1; [exact A|]. eapply kept_alike; eassumption.
Qed.
Lemma text_accepted prog : compile_text a o resolve text file = Some prog ->
  exists default ss, says a o resolve text anything file default ss /\ (one_name ss -> settled ss) /\
  (one_name ss -> six_arguments ss -> forall d, sd_ok d ->
  (sd_arch d = arch_nr (pa_arch a) -> kept default ss d ->
   run true prog d = VRet (decision (arch_bits (pa_arch a)) (o_denylist o) (a_val default) ss d)) /\
  (sd_arch d <> arch_nr (pa_arch a) -> run true prog d = VRet (o_kill o))).
Proof.
  intros C. pose proof C as C'. rewrite compile_text_eq in C'. destruct parse as [c|] eqn:P; [|discriminate].
  exists (default_of o c), (made c). split; [apply made_says; exact P|]. split.
  - intros ON. destruct (parse_file _ _ _) as [p|] eqn:PF; [|discriminate]. eapply parses; [exact ON|]. exists p. exact PF.
  - intros ON SA. apply made_means; assumption.
Qed.
Lemma text_says prog : compile_text a o resolve text file = Some prog ->
  exists default ss, says a o resolve text anything file default ss /\ (one_name ss -> settled ss).
Proof. intros C. destruct (text_accepted prog C) as (d & ss & S & T & _). eauto. Qed.
Lemma text_compiles default ss : says a o resolve text nothing file default ss -> one_name ss -> six_arguments ss ->
  settled ss <-> exists prog, compile_text a o resolve text file = Some prog /\ ((length prog <= 4096)%nat -> kernel_accepts prog).
Proof.
  intros S ON SA. destruct (says_made _ _ S) as (c & P & D & AL).
  pose proof (alike_one _ _ AL ON) as ON'. pose proof (alike_six _ _ AL SA) as SA'.
  pose proof (text_ok a o c TO OO (parse_fits c P) SA') as OK. destruct OO as [KO _]. split.
  - intros ST. apply (alike_settled _ _ AL) in ST. apply (parses (freq_of (ct_freq c)) (default_of o c) _ ON') in ST as (p & PF).
    destruct (compiles _ _ _ _ _ _ (o_denylist o) (o_strategy o) OK ON' KO PF) as (prog & C & K). exists prog. split; [|exact K].
    rewrite compile_text_eq, P, PF. exact C.
  - intros (prog & C & _). apply (alike_settled (made c)); [apply alike_sym; exact AL|]. rewrite compile_text_eq, P in C.
    destruct (parse_file _ _ _) as [p|] eqn:PF; [|discriminate]. eapply parses; [exact ON'|eauto].
Qed.
End meaning.
