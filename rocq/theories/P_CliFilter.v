(* The system call filter that minijail0's options stand for. *)
From Verif Require Export P_CliRun P_Resolve P_Secc P_Claims.
From Coq Require Import Lia.
Local Open Scope N_scope.

Lemma compiled_some b o fs st prog : compile_filter b o fs (Some st) = COk prog -> prog <> [].
Proof.
  unfold compile_filter. destruct (compile_stream _ _ _ _ _) as [c| | |]; try discriminate. cbn [M_Filter.cbind].
  destruct (cs_bad c); [discriminate|]. destruct (match fo_action o with ACT_LOG => _ | _ => _ end) as [d| | |]; try discriminate. cbn [M_Filter.cbind].
  destruct (Nat.ltb _ _); [discriminate|]. unfold bpf_resolve_jumps. destruct (Nat.ltb _ _); [discriminate|].
  destruct (resolve_from _ _ _) as [[p l]| |] eqn:R; try discriminate. intros [= <-] ->. apply resolve_length in R.
  rewrite !app_length in R. cbn in R. lia.
Qed.

Lemma history_cut e : forall h1 h2 j0 j2, history e j0 (h1 ++ h2) j2 -> exists j1, history e j0 h1 j1 /\ history e j1 h2 j2.
Proof.
  induction h1 as [|[a rc] h1 IH]; intros h2 j0 j2 H; [exists j0; split; [constructor|exact H]|]. cbn [app] in H. inversion H as [|? ? ? j1 ? ? S R]; subst.
  destruct (IH _ _ _ R) as (j' & A & B). exists j'. split; [econstructor; eassumption|exact B].
Qed.
Lemma filter_stays e : forall h j j', history e j h j' -> (forall a, In a (map fst h) -> filter_of a = None) -> j_filter_prog j' = j_filter_prog j.
Proof.
  induction 1 as [|j a rc j1 t j2 S _ IH]; intros N0; [reflexivity|]. rewrite IH; [|intros b I; apply N0; right; exact I].
  exact (filter_frame _ _ _ _ _ (N0 a (or_introl eq_refl)) S).
Qed.
Lemma parsed e j s rc j' st : k_softfail e = false -> api_step e j (A_parse_seccomp_filters s) = ARet rc j' -> ps_stream s = Some st ->
  exists prog, compile_filter (ps_build s) (filter_options e j) (ps_files s) (Some st) = COk prog /\ j_filter_prog j' = Own prog.
Proof.
  intros S H ST. cbn [api_step] in H. unfold minijail_parse_seccomp_filters in H. destruct (should_use_hard e j S) as (j1 & E & D). rewrite E in H. cbn [negb] in H. rewrite ST in H.
  assert (X : filter_options e j1 = filter_options e j) by (destruct D as [->| ->]; [reflexivity|]; unfold filter_options, logging_allowed; rewrite !hasf_setf; reflexivity). rewrite X in H.
  destruct (compile_filter _ _ _ _) as [p| | |] eqn:CF in H; try discriminate. apply ARet_inj in H. destruct H as [_ <-]. exists p. split; [exact CF|reflexivity].
Qed.
Lemma parsed_stream e j s rc j' : k_softfail e = false -> api_step e j (A_parse_seccomp_filters s) = ARet rc j' -> exists st, ps_stream s = Some st.
Proof.
  intros S H. cbn [api_step] in H. unfold minijail_parse_seccomp_filters in H. destruct (should_use_hard e j S) as (j1 & E & _). rewrite E in H. cbn [negb] in H.
  destruct (ps_stream s) as [st|]; [eauto|discriminate].
Qed.
(* which options ask for tsync, for logging *)
Lemma tsyncs w n a cs : asks w n a cs -> (In A_set_seccomp_filter_tsync cs <-> n = short "Y").
Proof.
  intros H. each_ask H; cbn [In profile_calls app]; split; intros X;
  solve [ exfalso; repeat (destruct X as [X|X]; [discriminate X|]); destruct X | exfalso; discriminate X | reflexivity | some_call ].
Qed.
Lemma logs w n a cs : asks w n a cs -> (In A_log_seccomp_filter_failures cs <-> n = short "L").
Proof.
  intros H. each_ask H; cbn [In profile_calls app]; split; intros X;
  solve [ exfalso; repeat (destruct X as [X|X]; [discriminate X|]); destruct X | exfalso; discriminate X | reflexivity | some_call ].
Qed.
Definition option_flag (a : api) : option unit := match a with A_set_seccomp_filter_tsync | A_log_seccomp_filter_failures => Some tt | _ => None end.
Lemma end_flag : none_at_end option_flag. Proof. none_tac. Qed.
Lemma given_in {A} (f : api -> option A) l a x : In a l -> f a = Some x -> In x (given f l).
Proof. intros I E. unfold given. apply in_flat_map. exists a. split; [exact I|]. rewrite E. left. reflexivity. Qed.
Lemma app_beyond {A} (x : A) : forall a b c d, (a ++ b = c ++ x :: d)%list -> ~ In x a -> exists l, c = (a ++ l)%list.
Proof.
  induction a as [|y a IH]; intros b c d E N1; [exists c; reflexivity|]. destruct c as [|z c].
  - cbn in E. injection E as <- _. destruct N1. left. reflexivity.
  - cbn in E. injection E as <- E. destruct (IH _ _ _ E) as [l ->]; [intros I; apply N1; right; exact I|]. exists l. reflexivity.
Qed.

Section Filter.
Variable w : world.
Variables (pre : string) (opts : list (N * option string)) (args : list string) (s : start).
Let L := all_options w opts.
Let h := c_calls (st_cli s).
Let j := c_jail (st_cli s).
Hypothesis E : minijail0 w pre opts args = Go s.
Hypothesis W : well_formed w L.
Hypothesis KS : k_softfail (w_env w) = false.

Lemma parts_here : exists each fin tail, Forall2 (fun o cs => asks w (fst o) (snd o) cs) L each /\ closes w L fin /\
  map fst h = (concat each ++ fin ++ tail)%list /\ (tail = [] \/ exists p, tail = [A_set_preload_path p]).
Proof.
  destruct W as (W1 & W2 & W3 & W4 & W5). destruct (parts w W1 W2 pre opts args s E W3 W4 W5) as (each & fin & A & C & M).
  eexists each, fin, _. split; [exact A|]. split; [exact C|]. split; [exact M|]. destruct (st_preload s); eauto.
Qed.
Lemma each_called x n0 : (forall n a cs, asks w n a cs -> (In x cs <-> n = n0)) -> forall each, Forall2 (fun o cs => asks w (fst o) (snd o) cs) L each ->
  (In x (concat each) <-> has L n0).
Proof.
  intros K each A. clear - K A. rewrite in_concat. induction A as [|[n a] cs L0 each0 X _ IH].
  - split; [intros (l & [] & _)|intros [a []]].
  - cbn [fst snd] in X. split.
    + intros (l & [<-|J] & I); [apply (K _ _ _ X) in I; subst n; exists a; left; reflexivity|].
      destruct IH as [IH _]. destruct (IH (ex_intro _ l (conj J I))) as [b Y]. exists b. right. exact Y.
    + intros [b [Y|Y]].
      * injection Y as -> ->. exists cs. split; [left; reflexivity|]. apply (K _ _ _ X). reflexivity.
      * destruct IH as [_ IH]. destruct (IH (ex_intro _ b Y)) as (l & J & I). exists l. split; [right; exact J|exact I].
Qed.
Lemma no_filter_each each : Forall2 (fun o cs => asks w (fst o) (snd o) cs) L each -> given filter_of (concat each) = [].
Proof.
  intros A. rewrite (given_each _ filter_of (fun _ _ => []) _ _ (no_filter w) A). clear. clearbody L. induction L; auto.
Qed.
(* the only call that sets a filter *)
Lemma only_filter x a : filter_of a = Some x -> (forall fl, filters w L fl -> given filter_of fl = [x] /\ forall b, In b fl -> filter_of b <> None -> b = a) ->
  exists h1 rc h2 l each, h = (h1 ++ (a, rc) :: h2)%list /\ (forall b, In b (map fst h2) -> filter_of b = None) /\
    map fst h1 = (concat each ++ l)%list /\ (forall b, In b l -> option_flag b = None) /\ Forall2 (fun o cs => asks w (fst o) (snd o) cs) L each.
Proof.
  intros FA U. destruct parts_here as (each & fin & tail & A & C & M & T). destruct (end_filter _ _ _ C) as (fl & FL & GF & IN). destruct (U _ FL) as [U1 U2].
  assert (G : given filter_of (map fst h) = [x]).
  { rewrite M, !given_app, (no_filter_each _ A), GF, U1. destruct T as [->|[p ->]]; reflexivity. }
  assert (AI : In a fl).
  { assert (X : In x (given filter_of fl)) by (rewrite U1; left; reflexivity). apply in_given in X. destruct X as (b & I & F). rewrite <- (U2 b I); [exact I|]. rewrite F. discriminate. }
  assert (I : In a (map fst h)) by (rewrite M; apply in_or_app; right; apply in_or_app; left; apply IN; exact AI).
  apply in_map_iff in I. destruct I as ([a' rc] & X & I). cbn in X. subst a'. apply in_split in I. destruct I as (h1 & h2 & HE).
  exists h1, rc, h2. rewrite HE, map_app, given_app in G. cbn [map fst] in G. unfold given in G. cbn [flat_map] in G. rewrite FA in G. fold (given filter_of (map fst h1)) (given filter_of (map fst h2)) in G.
  assert (Z : given filter_of (map fst h1) = [] /\ given filter_of (map fst h2) = []).
  { destruct (given filter_of (map fst h1)) as [|y l]; [split; [reflexivity|]; injection G as G; exact G|]. cbn [app] in G. injection G as _ G. destruct l; discriminate G. }
  destruct Z as [Z1 Z2].
  rewrite HE, map_app in M. cbn [map fst] in M. destruct (app_beyond a (concat each) (fin ++ tail) (map fst h1) (map fst h2)) as [l ML]; [symmetry; exact M| |].
  { intros X. apply (given_in filter_of _ _ _ X) in FA. rewrite (no_filter_each _ A) in FA. destruct FA. }
  exists l, each. split; [exact HE|]. split.
  { intros b J. destruct (filter_of b) as [y|] eqn:Y; [|reflexivity]. apply (given_in filter_of _ _ _ J) in Y. rewrite Z2 in Y. destruct Y. }
  split; [exact ML|]. split; [|exact A].
  intros b J. destruct (option_flag b) as [y|] eqn:Y; [|reflexivity]. exfalso.
  rewrite ML, <- app_assoc in M. apply app_inv_head in M.
  assert (K : In b (fin ++ tail)%list) by (rewrite <- M; apply in_or_app; left; exact J). apply in_app_or in K. destruct K as [K|K].
  - apply (given_in option_flag _ _ _ K) in Y. rewrite (end_flag _ _ _ C) in Y. destruct Y.
  - destruct T as [->|[p ->]]; [destruct K|]. destruct K as [<-|[]]. discriminate Y.
Qed.
Lemma one_filter : ~ (has L (short "S") /\ has L OPT_SECCOMP_BPF_BINARY).
Proof.
  destruct W as (W1 & W2 & W3 & W4 & W5). intros [A B]. exact (no_conflict w pre opts args s E (policy_and_binary _ A B)).
Qed.
Lemma cli_parsed p : last_arg L (short "S") = Some (Some p) -> exists st prog logging tsync,
  ps_stream (w_policy w p) = Some st /\
  compile_filter (ps_build (w_policy w p)) (expected_options (w_env w) logging tsync) (ps_files (w_policy w p)) (Some st) = COk prog /\
  j_filter_prog j = Own prog /\
  (logging = true <-> k_debug_logging (w_env w) = true /\ (k_default_ret_log (w_env w) = true \/ has L (short "L"))) /\
  (tsync = true <-> has L (short "Y")).
Proof.
  intros LA.
  destruct (only_filter (Some (inl (w_policy w p))) (A_parse_seccomp_filters (w_policy w p)) eq_refl) as (h1 & rc & h2 & l & each & HE & N2 & ML & NL & A).
  { intros fl FL. destruct FL as [p' A'|p' prog' A' _|[N1 _] _|[N1 _] _ _|prog' [N1 _] _ _ _]; try (destruct N1; exact (some_has _ _ _ LA)).
    - rewrite LA in A'. injection A' as <-. split; [reflexivity|]. intros b [<-|[]] _. reflexivity.
    - destruct one_filter. split; [exact (some_has _ _ _ LA)|exact (some_has _ _ _ A')]. }
  pose proof (jail_built _ _ _ _ _ E) as H. fold h in H. fold j in H. rewrite HE in H. apply history_cut in H. destruct H as (j1 & H1 & H2).
  inversion H2 as [|? ? ? j2 ? ? S R]; subst. destruct (parsed_stream _ _ _ _ _ KS S) as [st ST]. destruct (parsed _ _ _ _ _ _ KS S ST) as (prog & CF & JP).
  rewrite (filter_options_eq (w_env w) j1) in CF. exists st, prog, (k_debug_logging (w_env w) && logging_allowed (w_env w) j1), (hasf F_seccomp_filter_tsync j1).
  split; [exact ST|]. split; [exact CF|]. split; [rewrite (filter_stays _ _ _ _ R N2); exact JP|].
  pose proof (requested_run _ _ _ _ H1) as [R1 R2]. pose proof (kept_run _ _ _ _ H1 KS) as [K1 K2].
  assert (CL : forall x n0, option_flag x = Some tt -> (forall n a cs, asks w n a cs -> (In x cs <-> n = n0)) -> (S_Jail.called x h1 <-> has L n0)).
  { intros x n0 OF K. rewrite <- (each_called x n0 K each A). split.
    - intros [r I]. apply (in_map fst) in I. cbn [fst] in I. rewrite ML in I. apply in_app_or in I. destruct I as [I|I]; [exact I|]. rewrite (NL x I) in OF. discriminate OF.
    - intros I. assert (J : In x (map fst h1)) by (rewrite ML; apply in_or_app; left; exact I). apply in_map_iff in J. destruct J as ([x' r] & X & J). cbn in X. subst x'. exists r. exact J. }
  split.
  - rewrite andb_true_iff. unfold logging_allowed. rewrite orb_true_iff. split.
    + intros [D [X|X]]; (split; [exact D|]); [left; exact X|]. right. destruct (R2 X) as [Y|Y]; [discriminate Y|]. exact (proj1 (CL A_log_seccomp_filter_failures _ eq_refl (logs w)) Y).
    + intros [D [X|X]]; (split; [exact D|]); [left; exact X|]. right. apply K2. right. split; [exact (proj2 (CL A_log_seccomp_filter_failures _ eq_refl (logs w)) X)|exact D].
  - split.
    + intros X. destruct (R1 X) as [Y|Y]; [discriminate Y|]. exact (proj1 (CL A_set_seccomp_filter_tsync _ eq_refl (tsyncs w)) Y).
    + intros X. apply K1. right. exact (proj2 (CL A_set_seccomp_filter_tsync _ eq_refl (tsyncs w)) X).
Qed.
(* a filter from a file *)
Lemma cli_binary p : last_arg L OPT_SECCOMP_BPF_BINARY = Some (Some p) \/
    no_policy L /\ ~ has L OPT_NO_DEFAULT_RUNTIME /\ w_exists w "/etc/security/minijail/v0.bin" = true /\ p = "/etc/security/minijail/v0.bin"%string ->
  exists prog, filter_file w p prog /\ j_filter_prog j = Own prog /\ turned_on F_seccomp_filter h.
Proof.
  destruct W as (W1 & W2 & W3 & W4 & W5). intros X.
  assert (FL : forall fl, filters w L fl -> exists prog, filter_file w p prog /\ given filter_of fl = [Some (inr prog)] /\
     (In A_use_seccomp_filter fl \/ has L OPT_SECCOMP_BPF_BINARY)).
  { intros fl FL. destruct X as [LA|(NP & ND & EX & ->)].
    - destruct FL as [p' A'|p' prog' A' FF|[_ N1] _|[_ N1] _ _|prog' [_ N1] _ _ _]; try (destruct N1; exact (some_has _ _ _ LA)).
      + destruct one_filter. split; [exact (some_has _ _ _ A')|exact (some_has _ _ _ LA)].
      + rewrite LA in A'. injection A' as <-. exists prog'. split; [exact FF|]. split; [reflexivity|]. right. exact (some_has _ _ _ LA).
    - destruct NP as [N1 N2]. destruct FL as [p' A'|p' prog' A' FF|_ N3|_ N3 N4|prog' _ _ _ FF].
      + destruct N1. exact (some_has _ _ _ A').
      + destruct N2. exact (some_has _ _ _ A').
      + destruct (ND N3).
      + congruence.
      + exists prog'. split; [exact FF|]. split; [reflexivity|]. left. left. reflexivity. }
  destruct parts_here as (each & fin & tail & A & C & M & T). destruct (end_filter _ _ _ C) as (fl & FL' & GF & IN). destruct (FL _ FL') as (prog & FF & G & ON).
  assert (LF : last_of filter_of h None = Some (inr prog)).
  { rewrite last_given, M, !given_app, (no_filter_each _ A), GF, G. destruct T as [->|[q ->]]; reflexivity. }
  pose proof (filter_last _ _ _ KS (jail_built _ _ _ _ _ E)) as HF. fold h in HF. rewrite LF in HF. fold j in HF.
  exists prog. split; [exact FF|]. split; [exact HF|]. destruct ON as [ON|ON].
  - apply (on_asked s F_seccomp_filter A_use_seccomp_filter); [|left; reflexivity]. apply (taken w W1 pre opts args s E); [|reflexivity].
    fold h. rewrite M. apply in_or_app. right. apply in_or_app. left. apply IN. exact ON.
  - apply (provides w W1 W2 pre opts args s E W3 W4 W5 OPT_SECCOMP_BPF_BINARY); [exact ON|]. cbn. tauto.
Qed.
Lemma policy_on p : last_arg L (short "S") = Some (Some p) -> turned_on F_seccomp_filter h.
Proof. destruct W as (W1 & W2 & W3 & W4 & W5). intros LA. apply (provides w W1 W2 pre opts args s E W3 W4 W5 (short "S")); [exact (some_has _ _ _ LA)|]. cbn. tauto. Qed.

Variable g : cfg.
Hypothesis GE : g_env g = w_env w.
Hypothesis GA : g_asan g = false.
Section Preload.
Variables (ec ep : kenv) (t1 t2 : list event) (envp envp' : env).
Hypothesis LN : launched g ec ep h j t1 t2 envp envp'.
Lemma cli_policy p : last_arg L (short "S") = Some (Some p) -> policy_enforced w L (w_policy w p) t2.
Proof.
  intros LA. destruct (cli_parsed p LA) as (st & prog & logging & tsync & ST & CF & JP & LG & TS). intros LE NM.
  destruct (policy_decides _ _ LE NM _ _ _ CF) as (pol & RP & DC). exists st, prog, logging, tsync, pol. cbn zeta. split; [exact ST|]. split; [exact LG|]. split; [exact TS|].
  split; [exact RP|]. split; [|exact DC].
  assert (KG : k_softfail (g_env g) = false) by (rewrite GE; exact KS).
  pose proof (filter_at g ec ep h j t1 t2 envp envp' LN (policy_on p LA) KG GA) as X. rewrite JP in X. apply X. intros Y. injection Y as ->. exact (compiled_some _ _ _ _ _ CF eq_refl).
Qed.
Lemma cli_file p : last_arg L OPT_SECCOMP_BPF_BINARY = Some (Some p) \/
    no_policy L /\ ~ has L OPT_NO_DEFAULT_RUNTIME /\ w_exists w "/etc/security/minijail/v0.bin" = true /\ p = "/etc/security/minijail/v0.bin"%string ->
  exists prog, filter_file w p prog /\ (prog <> [] -> installed prog t2).
Proof.
  intros X. destruct (cli_binary p X) as (prog & FF & JP & ON). exists prog. split; [exact FF|]. intros NE.
  assert (KG : k_softfail (g_env g) = false) by (rewrite GE; exact KS).
  pose proof (filter_at g ec ep h j t1 t2 envp envp' LN ON KG GA) as Y. rewrite JP in Y. apply Y. intros Z. injection Z as ->. exact (NE eq_refl).
Qed.
End Preload.
Section Static.
Variables (ec : kenv) (exec : bool) (t : list event).
Hypothesis LN : launched_plain g ec exec h j t.
Lemma plain_cli_policy p : last_arg L (short "S") = Some (Some p) -> policy_enforced w L (w_policy w p) t.
Proof.
  intros LA. destruct (cli_parsed p LA) as (st & prog & logging & tsync & ST & CF & JP & LG & TS). intros LE NM.
  destruct (policy_decides _ _ LE NM _ _ _ CF) as (pol & RP & DC). exists st, prog, logging, tsync, pol. cbn zeta. split; [exact ST|]. split; [exact LG|]. split; [exact TS|].
  split; [exact RP|]. split; [|exact DC].
  assert (KG : k_softfail (g_env g) = false) by (rewrite GE; exact KS).
  pose proof (plain_filter_at g ec exec h j t LN (policy_on p LA) KG GA) as X. rewrite JP in X. exact X.
Qed.
Lemma plain_cli_file p : last_arg L OPT_SECCOMP_BPF_BINARY = Some (Some p) \/
    no_policy L /\ ~ has L OPT_NO_DEFAULT_RUNTIME /\ w_exists w "/etc/security/minijail/v0.bin" = true /\ p = "/etc/security/minijail/v0.bin"%string ->
  exists prog, filter_file w p prog /\ installed prog t.
Proof.
  intros X. destruct (cli_binary p X) as (prog & FF & JP & ON). exists prog. split; [exact FF|].
  assert (KG : k_softfail (g_env g) = false) by (rewrite GE; exact KS).
  pose proof (plain_filter_at g ec exec h j t LN ON KG GA) as Y. rewrite JP in Y. exact Y.
Qed.
End Static.
End Filter.
