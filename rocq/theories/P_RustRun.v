(* Proofs: waiting for and starting programs from Rust, and copies of jails. *)
From Coq Require Import ZifyBool ZifyNat ZifyN Lia.
From Verif Require Export P_Rust P_Wait P_RunClaims.
From Verif Require Import P_Copy P_FdsClaims.
From Verif Require P_CliFilter M_Sync.
Local Open Scope N_scope.

(* ---- C76 ---- *)
Definition RTMAX : Z := 64.
Lemma translate_code c : c < 256 -> ~ (126 <= c <= 127 \/ 129 <= c <= 192) ->
  translate_wait_error 64 (Z.of_N c) = match c with 0 => T_ok | _ => T_err (E_ReturnCode c) end.
Proof.
  intros L R. unfold translate_wait_error. cbv zeta. destruct c as [|p]; [reflexivity|].
  destruct (Z.eqb_spec (Z.of_N (N.pos p)) 0); [lia|]. destruct (Z.ltb_spec (Z.of_N (N.pos p)) 0); [lia|].
  destruct (Z.eqb_spec (Z.of_N (N.pos p)) 127); [lia|]. destruct (Z.eqb_spec (Z.of_N (N.pos p)) 126); [lia|].
  destruct (Z.ltb_spec 128 (Z.of_N (N.pos p))); destruct (Z.leb_spec (Z.of_N (N.pos p)) (64 + 128)); cbn [andb]; try lia;
  (destruct (Z.ltb_spec 0 (Z.of_N (N.pos p))); [|lia]; destruct (Z.leb_spec (Z.of_N (N.pos p)) 255); [|lia]; cbn [andb];
   rewrite Z.mod_small by lia; rewrite N2Z.id; reflexivity).
Qed.
Lemma translate_signal s : 1 <= s <= 64 -> translate_wait_error 64 (128 + Z.of_N s) = T_err (E_Killed s).
Proof.
  intros L. unfold translate_wait_error. cbv zeta.
  destruct (Z.eqb_spec (128 + Z.of_N s) 0); [lia|]. destruct (Z.ltb_spec (128 + Z.of_N s) 0); [lia|].
  destruct (Z.eqb_spec (128 + Z.of_N s) 127); [lia|]. destruct (Z.eqb_spec (128 + Z.of_N s) 126); [lia|].
  destruct (Z.ltb_spec 128 (128 + Z.of_N s)); [|lia]. destruct (Z.leb_spec (128 + Z.of_N s) (64 + 128)); [|lia]. cbn [andb].
  replace (128 + Z.of_N s - 128)%Z with (Z.of_N s) by lia. rewrite Z.mod_small by lia. rewrite N2Z.id. reflexivity.
Qed.
Lemma wait_says sigsys pid n e rest : (0 < pid)%Z -> possible e -> ~ reserved e ->
  (forall s c, e = S_Wait.Killed s c -> s <> sigsys) ->
  rust_wait 64 sigsys pid (repeat (inl M_Wait.EINTR) n ++ inr (status_of e) :: rest) = Some (documented sigsys e).
Proof.
  intros P E R S. unfold rust_wait. rewrite wait_ended by assumption. cbn [after_wait]. f_equal.
  destruct e as [c|s c]; cbn [reported_as documented reserved possible] in *.
  - rewrite translate_code by assumption. reflexivity.
  - specialize (S s c eq_refl). destruct (N.eqb_spec s sigsys); [contradiction|]. apply translate_signal. exact E.
Qed.
Lemma wait_conventional sigsys pid n c rest : (0 < pid)%Z ->
  (c = 127 -> rust_wait 64 sigsys pid (repeat (inl M_Wait.EINTR) n ++ inr (status_of (Exited c)) :: rest) = Some (T_err E_NoCommand)) /\
  (c = 126 -> rust_wait 64 sigsys pid (repeat (inl M_Wait.EINTR) n ++ inr (status_of (Exited c)) :: rest) = Some (T_err E_NoAccess)).
Proof.
  intros P. split; intros ->; unfold rust_wait; rewrite wait_ended by (solve [assumption|reflexivity]); reflexivity.
Qed.
Lemma wait_code_as_signal sigsys pid n c rest : (0 < pid)%Z -> 129 <= c <= 192 ->
  rust_wait 64 sigsys pid (repeat (inl M_Wait.EINTR) n ++ inr (status_of (Exited c)) :: rest) = Some (T_err (E_Killed (c - 128))).
Proof.
  intros P C. unfold rust_wait. rewrite wait_ended by (solve [assumption|cbn; lia]). cbn [after_wait reported_as]. f_equal.
  rewrite <- translate_signal by lia. f_equal. lia.
Qed.
Lemma wait_violation sigsys pid n core rest : (0 < pid)%Z -> 1 <= sigsys <= 64 ->
  rust_wait 64 sigsys pid (repeat (inl M_Wait.EINTR) n ++ inr (status_of (S_Wait.Killed sigsys core)) :: rest) = Some (T_err (E_ReturnCode 253)).
Proof.
  intros P C. unfold rust_wait. rewrite wait_ended by (solve [assumption|cbn; lia]). cbn [after_wait reported_as].
  rewrite N.eqb_refl. reflexivity.
Qed.
Lemma never_violation rtmax ret rc : translate_wait_error rtmax ret <> T_err (E_SeccompViolation rc).
Proof.
  unfold translate_wait_error. cbv zeta. repeat match goal with |- context [if ?b then _ else _] => destruct b end; discriminate.
Qed.
Lemma small_no_panic rtmax v : (v <= 255)%Z -> translate_wait_error rtmax v <> T_panic.
Proof.
  intros L. unfold translate_wait_error. cbv zeta.
  destruct (Z.eqb_spec v 0); [discriminate|]. destruct (Z.ltb_spec v 0); [discriminate|].
  destruct (v =? 127)%Z; [discriminate|]. destruct (v =? 126)%Z; [discriminate|].
  destruct ((128 <? v)%Z && (v <=? rtmax + 128)%Z); [discriminate|].
  destruct (Z.ltb_spec 0 v); [|lia]. destruct (Z.leb_spec v 255); [discriminate|lia].
Qed.
Lemma reported_small sigsys e : possible e -> (0 <= reported_as sigsys e <= 255)%Z.
Proof. destruct e as [c|s c]; cbn [possible reported_as]; [lia|]. destruct (N.eqb s sigsys); lia. Qed.
Lemma answer_of_wait sigsys pid answers v : (0 < pid)%Z -> endings answers -> minijail_wait sigsys pid answers = Returns v ->
  (exists e, In (inr (status_of e)) answers /\ possible e /\ v = reported_as sigsys e) \/ (exists n, In (inl n) answers /\ n <> M_Wait.EINTR /\ v = (- Z.of_N n)%Z).
Proof. intros P E. apply wait_result; assumption. Qed.
Lemma wait_no_panic rtmax sigsys pid answers : endings answers -> rust_wait rtmax sigsys pid answers <> Some T_panic.
Proof.
  intros E. unfold rust_wait. destruct (minijail_wait sigsys pid answers) as [v|] eqn:W; [|discriminate]. cbn [after_wait].
  assert (V : (v <= 255)%Z).
  { destruct (Z.leb_spec pid 0) as [P|P].
    - rewrite wait_no_child in W by exact P. injection W as <-. lia.
    - destruct (answer_of_wait _ _ _ _ P E W) as [(x & _ & Q & ->)|(n & _ & _ & ->)]; [apply reported_small, Q|lia]. }
  intros X. injection X as X. exact (small_no_panic rtmax v V X).
Qed.
Lemma kill_no_panic rtmax sigsys pid k answers : endings answers -> rust_kill rtmax sigsys pid k answers <> Some T_panic.
Proof.
  intros E. unfold rust_kill, minijail_kill. destruct (pid <=? 0)%Z; [discriminate|].
  destruct k as [n|u]; [cbn [after_wait]; intros X; injection X as X; revert X; apply small_no_panic; lia|].
  exact (wait_no_panic rtmax sigsys pid answers E).
Qed.
Lemma translate_ok rtmax v : translate_wait_error rtmax v = T_ok -> v = 0%Z.
Proof.
  unfold translate_wait_error. cbv zeta. destruct (Z.eqb_spec v 0); [trivial|].
  repeat match goal with |- context [if ?b then _ else _] => destruct b end; discriminate.
Qed.
Lemma wait_ok_means rtmax sigsys pid answers : endings answers ->
  Forall (fun a => match a with inl n => n <> 0 | inr _ => True end) answers ->
  rust_wait rtmax sigsys pid answers = Some T_ok -> In (inr (status_of (Exited 0))) answers.
Proof.
  intros E NZ. unfold rust_wait. destruct (minijail_wait sigsys pid answers) as [v|] eqn:W; [|discriminate]. cbn [after_wait].
  intros X. injection X as X. apply translate_ok in X. subst v. destruct (Z.leb_spec pid 0) as [P|P].
  { rewrite wait_no_child in W by exact P. discriminate W. }
  destruct (answer_of_wait _ _ _ _ P E W) as [(x & I0 & Q & V)|(n & I0 & _ & V)].
  - destruct x as [c|s c]; cbn [reported_as] in V; [replace c with 0 in I0 by lia; exact I0|].
    destruct (N.eqb s sigsys); lia.
  - rewrite Forall_forall in NZ. specialize (NZ _ I0). cbn in NZ. lia.
Qed.
(* a program killed by a signal in a pid namespace with the provided init *)
Lemma wait_under_init sigsys pid root s core l err rest code : (0 < pid)%Z -> possible (S_Wait.Killed s core) -> ended root (S_Wait.Killed s core) l ->
  init root (reaped l ++ WaitFails err :: rest) = M_Wait.Exits code ->
  rust_wait 64 sigsys pid [inr (status_of (Exited code))] = Some (T_err (E_ReturnCode 254)).
Proof.
  intros P Q E I0. unfold rust_wait. rewrite (through_wait sigsys pid root (S_Wait.Killed s core) l err rest code P Q E I0). reflexivity.
Qed.

(* ---- C77 ---- *)
Definition calls_of (l : list (Z * Z)) : list (api * Z) := map (fun p => (A_preserve_fd (fst p) (snd p), 0%Z)) l.
Lemma accepted_calls l : accepted fd_added (calls_of l) = l.
Proof. induction l as [|[a b] l IH]; [reflexivity|]. unfold accepted in *. cbn. f_equal. exact IH. Qed.
Lemma accepted_app {A} (f : api -> Z -> list A) a b : accepted f (a ++ b) = (accepted f a ++ accepted f b)%list.
Proof. unfold accepted. apply flat_map_app. Qed.
Lemma history_app e j h j1 h2 j2 : history e j h j1 -> history e j1 h2 j2 -> history e j (h ++ h2) j2.
Proof. induction 1 as [j|j a rc ja h jb E R IH]; intros H2; [exact H2|]. cbn [app]. econstructor; [exact E|apply IH, H2]. Qed.
Lemma preserve_made e : forall l j, match preserve_all e l j with
  | RsOk _ j' => history e j (calls_of l) j'
  | RsErr _ j' => exists l1 p l2, l = (l1 ++ p :: l2)%list /\ history e j (calls_of l1) j' /\ exists rc, rc <> 0%Z /\ api_step e j' (A_preserve_fd (fst p) (snd p)) = ARet rc j'
  | _ => False
  end.
Proof.
  induction l as [|[s d] l IH]; intros j; cbn [preserve_all]; [constructor|].
  destruct (api_step e j (A_preserve_fd s d)) as [rc j1| |] eqn:X.
  2,3: exfalso; cbn [api_step] in X; unfold minijail_preserve_fd in X; destruct (_ || _); [discriminate X|]; destruct (_ <=? _); discriminate X.
  destruct (Z.eq_dec rc 0) as [->|N].
  - cbn [checking]. change (0 <? 0)%Z with false. cbv iota. specialize (IH j1). destruct (preserve_all e l j1) as [u j2|x j2| | |]; try exact IH.
    + cbn [calls_of map fst snd]. econstructor; [exact X|exact IH].
    + destruct IH as (l1 & p & l2 & -> & H & R). exists ((s, d) :: l1), p, l2. split; [reflexivity|]. split; [|exact R].
      cbn [calls_of map fst snd]. econstructor; [exact X|exact H].
  - destruct (refusal e j _ rc j1 X N) as [L ->]. cbn [checking]. apply Z.ltb_lt in L. rewrite L.
    exists [], (s, d), l. split; [reflexivity|]. split; [constructor|]. exists rc. split; [exact N|exact X].
Qed.
Definition nulls (l : list (Z * Z)) (d : Z) : list (Z * Z) :=
  map (fun i => (d, i)) (filter (fun i => negb (existsb (fun p => (snd p =? i)%Z) l)) [0; 1; 2]%Z).
Lemma prepare_made e l d j j' : prepare_fds e l (Some d) j = RsOk tt j' ->
  history e j (calls_of (l ++ nulls l d) ++ [(A_close_open_fds, 0%Z)]) j'.
Proof.
  unfold prepare_fds. pose proof (preserve_made e l j) as M. destruct (preserve_all e l j) as [u j1|x j1| | |]; cbn [M_Rust.then_]; try discriminate.
  cbv zeta. fold (nulls l d). pose proof (preserve_made e (nulls l d) j1) as M2.
  destruct (preserve_all e (nulls l d) j1) as [u2 j2|x j2| | |]; cbn [M_Rust.then_]; try discriminate.
  cbn [api_step on ok ignoring]. intros E. unfold calls_of. rewrite map_app, <- app_assoc. fold (calls_of l). fold (calls_of (nulls l d)).
  eapply history_app; [exact M|]. eapply history_app; [exact M2|]. econstructor; [reflexivity|]. injection E as <-. constructor.
Qed.
Lemma null_wanted l d i : In i (map snd (nulls l d)) <-> std i /\ ~ In i (map snd l).
Proof.
  unfold nulls. rewrite map_map, map_id, filter_In.
  assert (X : negb (existsb (fun p => (snd p =? i)%Z) l) = true <-> ~ In i (map snd l)).
  { rewrite negb_true_iff. split.
    - intros N H. apply in_map_iff in H. destruct H as (p & <- & H).
      assert (Y : existsb (fun q => (snd q =? snd p)%Z) l = true) by (apply existsb_exists; exists p; split; [exact H|apply Z.eqb_refl]).
      rewrite N in Y. discriminate Y.
    - intros N. destruct (existsb (fun p => (snd p =? i)%Z) l) eqn:Y; [|reflexivity]. apply existsb_exists in Y.
      destruct Y as (p & H & Y). apply Z.eqb_eq in Y. elim N. rewrite <- Y. apply in_map, H. }
  rewrite X. unfold std. cbn [In]. intuition lia.
Qed.
Lemma null_in l d p c : In (p, c) (nulls l d) -> p = d /\ std c /\ ~ In c (map snd l).
Proof.
  intros H. assert (Q : In c (map snd (nulls l d))) by (apply in_map_iff; exists (p, c); split; [reflexivity|exact H]).
  apply null_wanted in Q. split; [|exact Q]. unfold nulls in H. apply in_map_iff in H. destruct H as (i & E & _). injection E as <- _. reflexivity.
Qed.
Lemma null_there l d i : std i -> ~ In i (map snd l) -> In (d, i) (nulls l d).
Proof.
  intros S N. assert (Q : In i (map snd (nulls l d))) by (apply null_wanted; split; assumption).
  apply in_map_iff in Q. destruct Q as ([p c] & E & Q). cbn in E. subst c. destruct (null_in _ _ _ _ Q) as (-> & _). exact Q.
Qed.
Lemma null_nodup l d : NoDup (map snd l) -> NoDup (map snd (l ++ nulls l d)).
Proof.
  intros N. rewrite map_app. assert (ND : NoDup (map snd (nulls l d))).
  { unfold nulls. rewrite map_map, map_id. apply NoDup_filter. repeat constructor; cbn; intuition discriminate. }
  assert (DJ : forall x, In x (map snd l) -> ~ In x (map snd (nulls l d))) by (intros x A B; apply null_wanted in B; tauto).
  revert N DJ. generalize (map snd l) as a. induction a as [|x a IH]; intros N DJ; [exact ND|]. cbn [app]. inversion N as [|? ? NI N']; subst. constructor.
  - intros X. apply in_app_or in X. destruct X as [X|X]; [exact (NI X)|]. exact (DJ x (or_introl eq_refl) X).
  - apply IH; [exact N'|]. intros y Y. apply DJ. right. exact Y.
Qed.

Section Run.
Variables (o : outside) (e : kenv) (ms : list method) (r : list (option rerr)) (j : jail).
Hypothesis R : rust_run o e minijail_new ms = Some (r, j).
Lemma rust_history : exists h, history e minijail_new h j /\ S_Rust.made o ms r h.
Proof. exact (rust_made o e ms minijail_new r j R). Qed.
Lemma made_no_fds h : S_Rust.made o ms r h -> accepted fd_added h = [].
Proof.
  intros M. unfold accepted. destruct (flat_map (fun p => fd_added (fst p) (snd p)) h) as [|x t] eqn:E; [reflexivity|].
  assert (I0 : In x (flat_map (fun p => fd_added (fst p) (snd p)) h)) by (rewrite E; left; reflexivity).
  apply in_flat_map in I0. destruct I0 as ([a rc] & I0 & F). destruct (made_calls _ _ _ _ _ _ M I0) as (m & _ & S).
  apply not_in_rust in S. cbn [fst snd] in F. destruct a; try contradiction; destruct F.
Qed.
Lemma made_no_rules h h2 : S_Rust.made o ms r h -> (forall a rc, In (a, rc) h2 -> rule_added (k_landlock_abi e) a = [] /\ a <> A_add_minimalistic_mountns_fs_rules) ->
  rules_added (k_landlock_abi e) (h ++ h2) = [] /\ ~ called A_add_minimalistic_mountns_fs_rules (h ++ h2).
Proof.
  intros M H2.
  assert (G : forall a rc, In (a, rc) (h ++ h2) -> rule_added (k_landlock_abi e) a = [] /\ a <> A_add_minimalistic_mountns_fs_rules).
  { intros a rc I0. apply in_app_or in I0. destruct I0 as [I0|I0]; [|exact (H2 _ _ I0)].
    destruct (made_calls _ _ _ _ _ _ M I0) as (m & _ & S). apply not_in_rust in S.
    destruct a; try contradiction; split; solve [reflexivity|discriminate]. }
  split.
  - unfold rules_added. destruct (flat_map (fun p => rule_added (k_landlock_abi e) (fst p)) (h ++ h2)) as [|x t] eqn:E; [reflexivity|].
    assert (I0 : In x (flat_map (fun p => rule_added (k_landlock_abi e) (fst p)) (h ++ h2))) by (rewrite E; left; reflexivity).
    apply in_flat_map in I0. destruct I0 as ([a rc] & I0 & F). destruct (G _ _ I0) as [N _]. cbn [fst] in F. rewrite N in F. destruct F.
  - intros (rc & I0). destruct (G _ _ I0) as [_ N]. apply N. reflexivity.
Qed.
Lemma made_no_enter h h2 f : S_Rust.made o ms r h -> f = F_enter_vfs \/ f = F_enter_net ->
  (forall a rc, In (a, rc) h2 -> ~ In f (on_by a rc)) -> ~ asked f (h ++ h2).
Proof.
  intros M Ff H2 (a & rc & I0 & F). apply in_app_or in I0. destruct I0 as [I0|I0]; [|exact (H2 _ _ I0 F)].
  destruct (made_calls _ _ _ _ _ _ M I0) as (m & _ & S). apply not_in_rust in S. unfold on_by in F.
  destruct (rc =? 0)%Z; cbn [negb] in F; [|destruct F].
  destruct Ff as [-> | ->]; destruct a; try contradiction; cbn in F;
    try (repeat destruct F as [F|F]; solve [discriminate F|contradiction]);
    destruct r0; cbn in F; repeat destruct F as [F|F]; solve [discriminate F|contradiction].
Qed.
(* the jail once the descriptors of a first run were prepared *)
Lemma prepared l d j' : prepare_fds e l (Some d) j = RsOk tt j' ->
  exists h, history e minijail_new h j' /\ fds_in_use j' = (l ++ nulls l d)%list /\ j_fs_rules j' = [] /\
    closes j' = true /\ hasf F_enter_vfs j' = false /\ hasf F_enter_net j' = false.
Proof.
  intros P. apply prepare_made in P. destruct rust_history as (h & H & M).
  set (h2 := (calls_of (l ++ nulls l d) ++ [(A_close_open_fds, 0%Z)])%list) in *.
  pose proof (history_app _ _ _ _ _ _ H P) as HH. exists (h ++ h2)%list. split; [exact HH|].
  assert (I2 : forall a rc, In (a, rc) h2 -> (exists p, a = A_preserve_fd (fst p) (snd p)) \/ a = A_close_open_fds).
  { intros a rc I0. subst h2. apply in_app_or in I0. destruct I0 as [I0|[I0|[]]]; [|right; injection I0 as <- _; reflexivity].
    apply in_map_iff in I0. destruct I0 as (p & X & _). injection X as <- _. left. exists p. reflexivity. }
  split.
  { destruct (limits _ _ _ HH) as (_ & _ & _ & F & _). rewrite F, accepted_app, (made_no_fds h M). cbn [app]. subst h2.
    rewrite accepted_app, accepted_calls. apply app_nil_r. }
  split.
  { destruct (made_no_rules h h2 M) as [N C].
    { intros a rc I0. destruct (I2 _ _ I0) as [(p & ->)| ->]; split; solve [reflexivity|discriminate]. }
    rewrite (rules_history _ _ _ HH C). exact N. }
  split.
  { apply (flag_asked _ _ _ F_close_open_fds HH eq_refl). exists A_close_open_fds, 0%Z. split; [|left; reflexivity].
    apply in_or_app. right. subst h2. apply in_or_app. right. left. reflexivity. }
  split.
  - destruct (hasf F_enter_vfs j') eqn:F; [|reflexivity]. exfalso. apply (flag_asked _ _ _ F_enter_vfs HH eq_refl) in F. revert F.
    apply made_no_enter; [exact M|left; reflexivity|]. intros a rc I0. unfold on_by. destruct (rc =? 0)%Z; cbn [negb]; [|intros []].
    destruct (I2 _ _ I0) as [(p & ->)| ->]; cbn; intuition discriminate.
  - destruct (hasf F_enter_net j') eqn:F; [|reflexivity]. exfalso. apply (flag_asked _ _ _ F_enter_net HH eq_refl) in F. revert F.
    apply made_no_enter; [exact M|right; reflexivity|]. intros a rc I0. unfold on_by. destruct (rc =? 0)%Z; cbn [negb]; [|intros []].
    destruct (I2 _ _ I0) as [(p & ->)| ->]; cbn; intuition discriminate.
Qed.
Lemma passed_is ec l d j' : prepare_fds e l (Some d) j = RsOk tt j' -> passed ec j' = (l ++ nulls l d)%list.
Proof.
  intros P. destruct (prepared l d j' P) as (h & _ & F & NR & C & V & N). unfold passed, entry_pairs. fold (closes j'). rewrite C, V, N.
  unfold with_ruleset. rewrite NR. exact F.
Qed.
End Run.

Lemma lowest_closed lim t d : lowest_free lim t = Some d -> t d = None.
Proof.
  unfold lowest_free. intros F. apply List.find_some in F. destruct F as [_ F]. unfold is_open in F. destruct (t d); [discriminate F|reflexivity].
Qed.
Lemma lowest_range lim t d : lowest_free lim t = Some d -> (0 <= d < lim)%Z.
Proof.
  unfold lowest_free. intros F. apply List.find_some in F. destruct F as [F _]. apply in_map_iff in F. destruct F as (n & <- & F).
  apply in_seq in F. lia.
Qed.
Lemma rust_descriptors o e ec ms r j l lim nf t0 d t1 j' sync base elf st t :
  rust_run o e minijail_new ms = Some (r, j) ->
  open_null lim nf t0 = Some (d, t1) -> prepare_fds e l (Some d) j = RsOk tt j' ->
  started lim true false false false sync base (passed ec j') elf t1 st t ->
  NoDup (map snd l) -> (forall c, In c (map snd l) -> (c < lim)%Z) ->
  (forall p, In p (map fst l) -> t0 p <> None) -> (elf = -1 \/ t0 elf <> None)%Z ->
  exists st' elf' t', child_setup lim (closes j') (passed ec j') elf sync st t = Some (st', elf', t') /\
  (forall p c f, In (p, c) l -> holds t0 p f -> at_start st' t' c = Some (f, false)) /\
  (forall i, std i -> ~ In i (map snd l) -> at_start st' t' i = Some (nf, false)) /\
  (forall x f, holds (at_start st' t') x f ->
     (exists p, In (p, x) l /\ holds t0 p f) \/ (std x /\ ~ In x (map snd l) /\ f = nf) \/
     (x = elf' /\ elf <> -1 /\ holds t0 elf f)%Z \/ (x = fst (rs_pipe st') /\ f = base)).
Proof.
  intros R ON P S ND CL SO EO. rewrite (passed_is o e ms r j R ec l d j' P) in *.
  destruct (prepared o e ms r j R l d j' P) as (h & H & F & _ & C & _).
  unfold open_null in ON. destruct (lowest_free lim t0) as [d'|] eqn:LF; [|discriminate ON]. injection ON as -> <-.
  pose proof (lowest_closed _ _ _ LF) as DN.
  assert (OLD : forall x f, x <> d -> holds (upd t0 d (Some (nf, true))) x f -> holds t0 x f).
  { intros x f NE (b & B). unfold upd in B. destruct (Z.eqb_spec x d); [contradiction|]. exists b. exact B. }
  assert (NEW : forall x f, holds t0 x f -> holds (upd t0 d (Some (nf, true))) x f).
  { intros x f (b & B). exists b. unfold upd. destruct (Z.eqb_spec x d) as [->|]; [rewrite DN in B; discriminate B|exact B]. }
  assert (NP : forall c, ~ piped false false false c).
  { intros c [[_ X]|[[_ X]|[_ X]]]; discriminate X. }
  assert (VC : valid_children lim (l ++ nulls l d)).
  { intros c I0. unfold wanted in I0. rewrite map_app in I0. destruct S as (L1024 & _). split.
    - destruct (limits _ _ _ H) as ((_ & _ & _ & _ & FA & _) & _). rewrite F, Forall_forall in FA.
      rewrite <- map_app in I0. apply in_map_iff in I0. destruct I0 as (q & <- & I0). exact (proj2 (FA q I0)).
    - apply in_app_or in I0. destruct I0 as [I0|I0]; [exact (CL _ I0)|]. apply null_wanted in I0. destruct I0 as [SD _]. unfold std in SD. lia. }
  destruct (fds_arrive lim true false false false sync base (l ++ nulls l d) elf _ st t (closes j') S (null_nodup l d ND) VC)
    as (st' & elf' & t' & CS & AR).
  exists st', elf', t'. split; [exact CS|]. split; [|split].
  - intros p c f I0 Hp. apply (AR p c f); [apply in_or_app; left; exact I0|apply NEW, Hp|apply NP].
  - intros i SI NI. apply (AR d i nf); [apply in_or_app; right; apply null_there; assumption| |apply NP].
    exists true. unfold upd. rewrite Z.eqb_refl. reflexivity.
  - intros x f HX. destruct (fds_only lim true false false false sync base (l ++ nulls l d) elf _ st t (closes j') st' elf' t' x f S CS HX)
      as [(p & I0 & Hp)|[(Q & _)|[(-> & EN & He)|[(_ & -> & ->)|(CA & _)]]]].
    + apply in_app_or in I0. destruct I0 as [I0|I0].
      * left. exists p. split; [exact I0|]. apply OLD; [|exact Hp]. intros ->. apply (SO d); [|exact DN].
        apply in_map_iff. exists (d, x). split; [reflexivity|exact I0].
      * right. left. apply null_in in I0. destruct I0 as (-> & A & B). split; [exact A|]. split; [exact B|].
        destruct Hp as (b & Hp). unfold upd in Hp. rewrite Z.eqb_refl in Hp. injection Hp as <- _. reflexivity.
    + elim (NP x Q).
    + right. right. left. split; [reflexivity|]. split; [exact EN|]. apply OLD; [|exact He]. intros ->.
      destruct EO as [EO|EO]; [exact (EN EO)|exact (EO DN)].
    + right. right. right. split; reflexivity.
    + rewrite C in CA. discriminate CA.
Qed.
(* the launching process has the descriptors it had *)
Lemma rust_launcher o e ec ms r j l lim nf t0 d t1 j' sync base elf st t :
  rust_run o e minijail_new ms = Some (r, j) ->
  open_null lim nf t0 = Some (d, t1) -> prepare_fds e l (Some d) j = RsOk tt j' ->
  started lim true false false false sync base (passed ec j') elf t1 st t ->
  forall x, close (launcher_after j' (snd (parent_result false false false st t))) d x = t0 x.
Proof.
  intros R ON P S x. destruct (prepared o e ms r j R l d j' P) as (h & _ & _ & _ & _ & V & N).
  unfold open_null in ON. destruct (lowest_free lim t0) as [d'|] eqn:LF; [|discriminate ON]. injection ON as -> <-.
  pose proof (lowest_closed _ _ _ LF) as DN. unfold launcher_after, close_entered. rewrite V, N.
  pose proof (parent_ok lim true false false false sync base (passed ec j') elf _ st t S) as PO.
  destruct (parent_result false false false st t) as [[[i1 o1] e1] u]. destruct PO as (_ & _ & _ & PO). cbn [snd].
  unfold close, M_Fds.close. unfold upd at 1. destruct (Z.eqb_spec x d) as [->|NE]; [symmetry; exact DN|].
  destruct (PO x) as [->|[[X _]|[[X _]|[X _]]]]; try discriminate X. unfold upd. destruct (Z.eqb_spec x d); [contradiction|reflexivity].
Qed.

(* a jail that already ran a program *)
Lemma passed_twice o e ec ms r j l d j' ep f pid l2 d2 j3 :
  rust_run o e minijail_new ms = Some (r, j) -> prepare_fds e l (Some d) j = RsOk tt j' ->
  prepare_fds e l2 (Some d2) (parent_jail ep f pid j') = RsOk tt j3 ->
  passed ec j3 = ((l ++ nulls l d) ++ (l2 ++ nulls l2 d2))%list.
Proof.
  intros R P P2. destruct (prepared o e ms r j R l d j' P) as (h & H & F & NR & C & V & N).
  assert (PJ : parent_jail ep f pid j' = set_initpid pid (match f with None => j' | Some s => set_filename (Own s) j' end)).
  { unfold parent_jail, with_ruleset. destruct f; cbn [j_fs_rules set_filename]; [change (j_fs_rules (set_filename (Own s) j')) with (j_fs_rules j')|]; rewrite NR; reflexivity. }
  rewrite PJ in P2. set (j2 := set_initpid pid _) in *. apply prepare_made in P2.
  assert (G : good j2) by (destruct f; exact (good_run _ _ _ _ good_new H)).
  destruct (contents_run _ _ _ _ P2 G) as (_ & _ & F2 & _). rewrite accepted_app, accepted_calls in F2. cbn in F2. rewrite app_nil_r in F2.
  assert (FR : j_fs_rules j3 = j_fs_rules j2 /\ hasf F_enter_vfs j3 = hasf F_enter_vfs j2 /\ hasf F_enter_net j3 = hasf F_enter_net j2).
  { clearbody j2. clear - P2. revert P2. generalize (l2 ++ nulls l2 d2)%list. intros m. revert j2. induction m as [|p m IH]; intros j2 P2.
    - inversion P2 as [|? ? ? ? ? ? S T]; subst. inversion T; subst. cbn [api_step on ok] in S; apply ARet_inj in S; destruct S as [_ <-]. split; [reflexivity|]. split; rewrite hasf_flags_on; apply orb_false_r.
    - inversion P2 as [|? ? ? j4 ? ? S T]; subst. specialize (IH _ T). destruct IH as (-> & -> & ->).
      cbn [api_step] in S. unfold minijail_preserve_fd in S. destruct (_ || _); [discriminate S|]. destruct (_ <=? _); [discriminate S|]. injection S as <-. split; [reflexivity|split; reflexivity]. }
  destruct FR as (R1 & R2 & R3).
  assert (NR3 : j_fs_rules j3 = []) by (rewrite R1; destruct f; exact NR).
  unfold passed, entry_pairs. rewrite R2, R3. replace (hasf F_enter_vfs j2) with false by (destruct f; symmetry; exact V).
  replace (hasf F_enter_net j2) with false by (destruct f; symmetry; exact N).
  unfold with_ruleset. rewrite NR3. change (to_pass j3) with (fds_in_use j3). rewrite F2. replace (fds_in_use j2) with (fds_in_use j') by (destruct f; reflexivity).
  rewrite F. destruct (hasf F_close_open_fds j3); reflexivity.
Qed.
Lemma covers_std l d i : std i -> In i (map snd (l ++ nulls l d)).
Proof.
  intros S. rewrite map_app. apply in_or_app. destruct (in_dec Z.eq_dec i (map snd l)) as [Y|N]; [left; exact Y|]. right. apply null_wanted. split; assumption.
Qed.
Lemma nodup_app_not {A} (a b : list A) x : NoDup (a ++ b) -> In x a -> ~ In x b.
Proof.
  induction a as [|y a IH]; intros N I0; [destruct I0|]. cbn [app] in N. inversion N as [|? ? NI N']; subst. destruct I0 as [-> |I0].
  - intros X. apply NI. apply in_or_app. right. exact X.
  - apply IH; assumption.
Qed.
Lemma again o e ec ms r j l d j' ep f pid l2 d2 j3 lim ca elf sync st t :
  rust_run o e minijail_new ms = Some (r, j) -> prepare_fds e l (Some d) j = RsOk tt j' ->
  prepare_fds e l2 (Some d2) (parent_jail ep f pid j') = RsOk tt j3 ->
  child_setup lim ca (passed ec j3) elf sync st t = None.
Proof.
  intros R P P2. apply no_duplicates. rewrite (passed_twice o e ec ms r j l d j' ep f pid l2 d2 j3 R P P2). unfold wanted. rewrite map_app.
  intros N. apply (nodup_app_not _ _ 0%Z N); apply covers_std; unfold std; lia.
Qed.
Lemma threads e l null j disabled tasks : fork_prepare e disabled tasks l null j =
  if disabled then prepare_fds e l null j
  else match tasks with
       | None => RsErr E_CheckingMultiThreaded j
       | Some ts => if (length (filter negb ts) =? 1)%nat then prepare_fds e l null j else RsErr E_ForkingWhileMultiThreaded j
       end.
Proof.
  unfold fork_prepare, check_threads, num_threads. destruct disabled; [reflexivity|]. destruct tasks as [ts|]; [|reflexivity].
  destruct (Nat.eqb_spec (length (filter negb ts)) 1) as [E|E]; [rewrite E; reflexivity|].
  destruct (N.eqb_spec (N.of_nat (length (filter negb ts))) 1); [lia|reflexivity].
Qed.
Lemma to_execve l : match to_execve_cstring_array l with
  | inr t => t = l /\ Forall no_nul l
  | inl s => exists l1 l2, l = (l1 ++ s :: l2)%list /\ Forall no_nul l1 /\ ~ no_nul s
  end.
Proof.
  induction l as [|s l IH]; cbn [to_execve_cstring_array]; [split; [reflexivity|constructor]|].
  destruct (has_nul s) eqn:H.
  - exists [], l. split; [reflexivity|]. split; [constructor|]. intros N. apply has_nul_no in N. rewrite H in N. discriminate N.
  - apply has_nul_no in H. destruct (to_execve_cstring_array l) as [b|t].
    + destruct IH as (l1 & l2 & -> & F & N). exists (s :: l1), l2. split; [reflexivity|]. split; [constructor; assumption|exact N].
    + destruct IH as [-> F]. split; [reflexivity|constructor; assumption].
Qed.

(* ---- C75: the user of the program ---- *)
Lemma run_as_launcher o g ec ep ms r j l d j' h t1 t2 envp envp' groups_of s s2 :
  rust_run o (g_env g) minijail_new ms = Some (r, j) -> prepare_fds (g_env g) l (Some d) j = RsOk tt j' ->
  launched g ec ep h j' t1 t2 envp envp' -> (forall m, In m ms -> gives_no_user o m) ->
  same_ids (after groups_of (fun _ c => c) s t1) s2 -> uids (after groups_of (fun _ c => c) s2 t2) = uids s.
Proof.
  intros R P L G S. destruct (rust_history o (g_env g) ms r j R) as (h0 & H0 & M). pose proof (prepare_made _ _ _ _ _ P) as P'.
  pose proof (history_app _ _ _ _ _ _ H0 P') as HH. destruct (no_user_asked o ms r h0 M G) as [U W].
  assert (X : forall f, f = F_uid \/ f = F_userns -> ~ asked f h0 -> ~ asked f h).
  { intros f Ff N A. apply N. apply (flag_asked _ _ _ f (proj1 L)) in A; [|destruct Ff; subst f; reflexivity].
    apply (flag_asked _ _ _ f HH) in A; [|destruct Ff; subst f; reflexivity]. destruct A as (a & rc & I0 & F). apply in_app_or in I0.
    destruct I0 as [I0|I0]; [exists a, rc; split; assumption|]. exfalso. apply in_app_or in I0. destruct I0 as [I0|[I0|[]]].
    - apply in_map_iff in I0. destruct I0 as (q & E & _). injection E as <- <-. destruct Ff; subst f; cbn in F; destruct F.
    - injection I0 as <- <-. destruct Ff; subst f; cbn in F; destruct F as [F|F]; solve [discriminate F|contradiction]. }
  destruct (identity_run g ec ep h j' t1 t2 envp envp' L groups_of s s2 S) as (_ & _ & _ & Q & _).
  destruct (Q (X F_uid (or_introl eq_refl) U)) as [Y|[Y _]]; [exact Y|]. elim (X F_userns (or_intror eq_refl) W Y).
Qed.

(* ---- C78 ---- *)
Lemma copied_step e j a rc j' : api_step e j a = ARet rc j' -> copied a ->
  (j_pid_file_path j', j_uidmap j', j_gidmap j', j_preload_path j', j_filename j', j_remounts j', j_hooks j') =
  (j_pid_file_path j, j_uidmap j, j_gidmap j, j_preload_path j, j_filename j, j_remounts j, j_hooks j).
Proof. intros H C. destruct a; try contradiction C; frame_step H. Qed.
Lemma copied_run e h j : history e minijail_new h j -> (forall a rc, In (a, rc) h -> copied a) ->
  (j_pid_file_path j, j_uidmap j, j_gidmap j, j_preload_path j, j_filename j, j_remounts j, j_hooks j) = (Null, Null, Null, Null, Null, [], []).
Proof.
  intros H. change (Null, Null, Null, Null, Null, [], []) with
    (j_pid_file_path minijail_new, j_uidmap minijail_new, j_gidmap minijail_new, j_preload_path minijail_new, j_filename minijail_new, j_remounts minijail_new, j_hooks minijail_new).
  generalize dependent minijail_new. intros j0 H. induction H as [j0|j0 a rc j1 h j2 E R IH]; intros C; [reflexivity|].
  rewrite IH by (intros b c I0; apply (C b c); right; exact I0). apply (copied_step e j0 a rc j1 E). apply (C a rc). left. reflexivity.
Qed.
Lemma clone_same addr e e' h j : history e minijail_new h j -> c_typed j -> nonnull addr -> k_landlock_abi e' = k_landlock_abi e ->
  j_suppl_gid_count j <= 65536 -> Forall (fun r => fr_flags r <> 0) (j_fs_rules j) -> j_fs_rules_fd j <> 0%Z ->
  k_softfail e = false -> (forall a rc, In (a, rc) h -> copied a) -> filter_ready h ->
  try_clone addr e' j = Clone j.
Proof.
  intros H TY NN KE GC NZ FD SF CP FR. destruct (transfer addr e e' h j minijail_new H TY NN KE GC NZ FD) as (_ & _ & _ & _ & _ & CJ).
  unfold try_clone. rewrite CJ. f_equal. pose proof (copied_run e h j H CP) as C. pose proof (filter_last e h j SF H) as F.
  assert (X : (if hasf F_seccomp_filter j then match j_filter_prog j with Own [] => Null | p => p end else Null) = j_filter_prog j).
  { destruct FR as [N|[A N]].
    - rewrite N in F. cbn in F. rewrite F. destruct (hasf F_seccomp_filter j); reflexivity.
    - apply (flag_asked _ _ _ F_seccomp_filter H) in A; [|rewrite SF; reflexivity]. rewrite A.
      destruct (last_of filter_of h None) as [[src|p]|]; cbn [holds_filter] in F.
      + destruct F as (opts & st & p & _ & K & ->). pose proof (P_CliFilter.compiled_some _ _ _ _ _ K) as NE. destruct p; [contradiction|reflexivity].
      + rewrite F. destruct p; [contradiction|reflexivity].
      + rewrite F. reflexivity. }
  unfold received. rewrite X. injection C as C1 C2 C3 C4 C5 C6 C7. destruct j; cbn in C1, C2, C3, C4, C5, C6, C7; subst. reflexivity.
Qed.
Lemma received_lacks j : exists c, received j = c /\ (forall f, hasf f c = hasf f j) /\ j_uidmap c = Null /\ j_gidmap c = Null /\ j_pid_file_path c = Null /\
  j_remounts c = [] /\ j_hooks c = [] /\ j_preload_path c = Null /\ (hasf F_seccomp_filter j = false -> j_filter_prog c = Null).
Proof.
  exists (received j). split; [reflexivity|]. split; [reflexivity|]. do 6 (split; [reflexivity|]).
  unfold received. generalize (hasf F_seccomp_filter j) as b. intros b ->. reflexivity.
Qed.
Lemma lacking_setup c : j_uidmap c = Null -> j_gidmap c = Null -> M_Sync.child_after c = [M_Sync.Goes_on] /\
  forall pid base text ok, ~ In (M_Sync.WriteProc pid base text, ok) (M_Sync.parent_setup pid c).
Proof.
  intros U G. split.
  { unfold M_Sync.child_after, M_Sync.enter_user_namespace. rewrite U, G. destruct (hasf F_userns c); reflexivity. }
  intros pid base text ok I0. unfold M_Sync.parent_setup in I0.
  repeat (apply in_app_or in I0; destruct I0 as [I0|I0]).
  - destruct (hasf F_forward_signals c); [destruct I0 as [I0|[]]; discriminate I0|destruct I0].
  - destruct (hasf F_pid_file c); [destruct I0 as [I0|[]]; discriminate I0|destruct I0].
  - destruct (hasf F_cgroups c); [|destruct I0]. unfold M_Sync.add_to_cgroups_or_die in I0. apply in_map_iff in I0. destruct I0 as (x & E & _). discriminate E.
  - destruct (negb _); [|destruct I0]. unfold M_Sync.set_rlimits_or_die in I0. apply in_map_iff in I0. destruct I0 as (x & E & _). discriminate E.
  - destruct (hasf F_userns c); [|destruct I0]. unfold M_Sync.write_ugid_maps_or_die in I0. rewrite U, G in I0. exact I0.
Qed.
Lemma clone_lacks addr e e' h j : history e minijail_new h j -> c_typed j -> nonnull addr -> k_landlock_abi e' = k_landlock_abi e ->
  j_suppl_gid_count j <= 65536 -> Forall (fun r => fr_flags r <> 0) (j_fs_rules j) -> j_fs_rules_fd j <> 0%Z -> k_softfail e = false ->
  exists c, try_clone addr e' j = Clone c /\ (forall f, hasf f c = hasf f j) /\
    (forall pid base text ok, ~ In (M_Sync.WriteProc pid base text, ok) (M_Sync.parent_setup pid c)) /\
    M_Sync.child_after c = [M_Sync.Goes_on] /\
    (forall pid, asked F_pid_file h -> In (M_Sync.WritePid Null pid) (map fst (M_Sync.parent_setup pid c))) /\
    j_remounts c = [] /\ j_hooks c = [] /\ j_preload_path c = Null /\
    (~ asked F_seccomp_filter h -> j_filter_prog c = Null).
Proof.
  intros H TY NN KE GC NZ FD SF. destruct (transfer addr e e' h j minijail_new H TY NN KE GC NZ FD) as (_ & _ & _ & _ & _ & CJ).
  destruct (received_lacks j) as (c & RC & FL & U & G & PF & RM & HK & PP & FP). rewrite RC in CJ. exists c.
  destruct (lacking_setup c U G) as [CA NW].
  split; [unfold try_clone; rewrite CJ; reflexivity|]. split; [exact FL|]. split; [exact NW|]. split; [exact CA|].
  split; [|split; [exact RM|split; [exact HK|split; [exact PP|]]]].
  - intros pid A. apply (flag_asked _ _ _ F_pid_file H eq_refl) in A. unfold M_Sync.parent_setup. rewrite !map_app. apply in_or_app. right. apply in_or_app. left.
    rewrite FL, A. unfold M_Sync.write_pid_file_or_die. rewrite PF. left. reflexivity.
  - intros A. apply FP. destruct (hasf F_seccomp_filter j) eqn:Q; [|reflexivity]. elim A. apply (flag_asked _ _ _ F_seccomp_filter H); [rewrite SF; reflexivity|exact Q].
Qed.
Lemma rust_kill_waits rtmax sigsys pid answers : (0 < pid)%Z -> rust_kill rtmax sigsys pid (inr tt) answers = rust_wait rtmax sigsys pid answers.
Proof. intros P. unfold rust_kill, rust_wait. rewrite kill_waits by exact P. reflexivity. Qed.
