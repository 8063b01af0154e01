(* Proofs about the functions that start programs: the launching process. *)
From Coq Require Import Lia.
From Verif Require Export P_Pipe P_Reuse.
From Verif Require Export P_FdsClaims S_Launch.
Local Open Scope Z_scope.

(* ---- the pipes ---- *)
Lemma new_pipe_made b w i t p t' : new_pipe_if b w i t = Some (p, t') -> made b (w_base w + 2 * N.of_nat i)%N p t t'.
Proof.
  unfold new_pipe_if, new_pipe. destruct b; [|intros H; injection H as <- <-; split; reflexivity].
  destruct (w_pipe w i); [|discriminate]. intros H. apply (pipe_if_spec true (w_lim w)). exact H.
Qed.
Lemma new_pipe_if_eq b w i t p t' : new_pipe_if b w i t = Some (p, t') -> pipe_if b (w_lim w) t (w_base w + 2 * N.of_nat i)%N = Some (p, t').
Proof.
  unfold new_pipe_if, new_pipe, pipe_if. destruct b; [|intros H; exact H]. destruct (w_pipe w i); [intros H; exact H|discriminate].
Qed.

(* the pairs [l] are all that was opened *)
Definition opened (l : list (Z * Z)) (t0 t : table) : Prop :=
  (forall e, In e (ends l) -> e = -1 \/ (0 <= e /\ t0 e = None)) /\ (forall x, t x = t0 x \/ In x (ends l) /\ 0 <= x).
Lemma opened_nil t : opened [] t t.
Proof. split; [intros e []|intro x; left; reflexivity]. Qed.
Lemma opened_step l t0 t b w i p t' : opened l t0 t -> new_pipe_if b w i t = Some (p, t') -> opened (p :: l) t0 t'.
Proof.
  intros [A B] H. apply new_pipe_made in H. split.
  - cbn [ends flat_map app]. intros e I.
    assert (N : t e = None -> t0 e = None).
    { intros N. destruct (B e) as [E|[I' _]]; [congruence|]. destruct (A e I') as [->|[_ X]]; [|exact X]. destruct (B (-1)) as [X|[_ X]]; [congruence|lia]. }
    destruct I as [<-|[<-|I]]; [| |exact (A e I)]; unfold made in H; destruct b.
    1, 3: right; split; tauto.
    all: left; destruct H as [-> _]; reflexivity.
  - intro x. destruct (made_same _ _ _ _ _ x H) as [E|[[E Q]|[E Q]]].
    + rewrite E. destruct (B x) as [X|[X Y]]; [left; exact X|right; split; [right; right; exact X|exact Y]].
    + right. split; [left; symmetry; exact E|exact Q].
    + right. split; [right; left; symmetry; exact E|exact Q].
Qed.
Lemma opened_eq l l' t0 t : (forall e, e <> -1 -> (In e (ends l) <-> In e (ends l'))) -> opened l t0 t -> opened l' t0 t.
Proof.
  intros P [A B]. split.
  - intros e I. destruct (Z.eq_dec e (-1)); [left; exact e0|]. apply A, P; assumption.
  - intro x. destruct (B x) as [E|[I Q]]; [left; exact E|right; split; [apply P; [lia|exact I]|exact Q]].
Qed.
Lemma free_spec st t x : free_run_state st t x = if shut (ends (pipes_of st)) x then None else t x.
Proof.
  unfold free_run_state, pipes_of. cbn [fold_left ends flat_map app]. rewrite !close_pair_spec, !shut_cons. replace (shut [] x) with false by reflexivity.
  repeat match goal with |- context [if ?a =? -1 then false else ?b] => destruct (if a =? -1 then false else b) end; reflexivity.
Qed.
Lemma opened_freed st t0 t : opened (pipes_of st) t0 t -> forall x, free_run_state st t x = t0 x.
Proof.
  intros [A B] x. rewrite free_spec. destruct (shut _ x) eqn:S.
  - apply shut_in in S. destruct S as [I N]. destruct (A x I) as [E|[_ E]]; [contradiction|symmetry; exact E].
  - destruct (B x) as [E|[I Q]]; [exact E|]. apply shut_out in S. destruct S as [S|S]; [contradiction|lia].
Qed.

(* ---- until the fork ---- *)
Definition called_in (c : config) (j : jail) : jail := named (c_filename c) j.
Lemma streams_result w c j v p t t0 : opened [p] t0 t ->
  match prepare_streams w c j v p t with
  | P_dies => False
  | P_fails r st t1 j1 => (r = 14 \/ r = -14) /\ j1 = j /\ opened (pipes_of st) t0 t1
  | P_ready st t1 j1 v1 => j1 = j /\ v1 = v /\ rs_pipe st = p /\ opened (pipes_of st) t0 t1 /\
      exists i o e s ti to te,
        st = RunState p s i o e /\
        pipe_if (given (c_in c)) (w_lim w) t (w_base w + 2)%N = Some (i, ti) /\ pipe_if (given (c_out c)) (w_lim w) ti (w_base w + 4)%N = Some (o, to) /\
        pipe_if (given (c_err c)) (w_lim w) to (w_base w + 6)%N = Some (e, te) /\ pipe_if (M_Sync.sync_child j) (w_lim w) te (w_base w + 8)%N = Some (s, t1)
  end.
Proof.
  intros O. unfold prepare_streams.
  destruct (new_pipe_if (given (c_in c)) w 1 t) as [[i ti]|] eqn:Ei.
  2:{ split; [left; reflexivity|]. split; [reflexivity|]. apply (opened_eq [p]); [|exact O]. intros x N. cbn. intuition congruence. }
  pose proof (opened_step _ _ _ _ _ _ _ _ O Ei) as O1.
  destruct (new_pipe_if (given (c_out c)) w 2 ti) as [[o to]|] eqn:Eo.
  2:{ split; [left; reflexivity|]. split; [reflexivity|]. apply (opened_eq [i; p]); [|exact O1]. intros x N. cbn. intuition congruence. }
  pose proof (opened_step _ _ _ _ _ _ _ _ O1 Eo) as O2.
  destruct (new_pipe_if (given (c_err c)) w 3 to) as [[e te]|] eqn:Ee.
  2:{ split; [left; reflexivity|]. split; [reflexivity|]. apply (opened_eq [o; i; p]); [|exact O2]. intros x N. cbn. intuition congruence. }
  pose proof (opened_step _ _ _ _ _ _ _ _ O2 Ee) as O3.
  destruct (new_pipe_if (M_Sync.sync_child j) w 4 te) as [[s ts]|] eqn:Es.
  2:{ split; [right; reflexivity|]. split; [reflexivity|]. apply (opened_eq [e; o; i; p]); [|exact O3]. intros x N. cbn. intuition congruence. }
  pose proof (opened_step _ _ _ _ _ _ _ _ O3 Es) as O4.
  split; [reflexivity|]. split; [reflexivity|]. split; [reflexivity|].
  split; [apply (opened_eq [s; e; o; i; p]); [|exact O4]; intros x N; cbn; intuition congruence|].
  exists i, o, e, s, ti, to, te. split; [reflexivity|].
  split; [exact (new_pipe_if_eq _ _ _ _ _ _ Ei)|]. split; [exact (new_pipe_if_eq _ _ _ _ _ _ Eo)|].
  split; [exact (new_pipe_if_eq _ _ _ _ _ _ Ee)|exact (new_pipe_if_eq _ _ _ _ _ _ Es)].
Qed.

(* what the environment of the program is *)
Definition base_env (w : world) (c : config) : env := match c_envp c with Some v => v | None => w_environ w end.
Lemma prepare_result w c j t :
  match prepare w c j t with
  | P_dies => True
  | P_fails r st t1 j1 => (r = 14 \/ r = -14 \/ (r = 12 /\ w_copied w = false /\ (c_preload c = true \/ labelled j = true))) /\
      j1 = called_in c j /\ opened (pipes_of st) t t1
  | P_ready st t1 j1 v => j1 = called_in c j /\ opened (pipes_of st) t t1 /\
      open_pipes (w_lim w) (c_preload c) (given (c_in c)) (given (c_out c)) (given (c_err c)) (M_Sync.sync_child j1) (w_base w) t = Some (st, t1) /\
      (c_preload c = true -> j_hooks j = [] /\ c_exec c = true) /\
      (c_preload c = false -> hasf F_use_caps j && negb (j_caps j =? 0)%N && negb (hasf F_set_ambient_caps j) = false) /\
      (given (c_filename c) && negb (c_elf c =? -1)) = false /\
      (match v with
       | Some v => child_env (c_preload c) (w_default w) (Z.to_N (fst (rs_pipe st))) (called_in c j) (base_env w c) = Some v
       | None => c_preload c = false /\ labelled j = false
       end)
  end.
Proof.
  unfold prepare. destruct (given (c_filename c) && negb (c_elf c =? -1)) eqn:G; [exact Logic.I|].
  set (j1 := match c_filename c with None => j | Some f => set_filename (Own f) j end).
  assert (J1 : j1 = called_in c j) by (unfold j1, called_in, named; destruct (c_filename c); reflexivity).
  assert (L1 : labelled j1 = labelled j) by (unfold j1; destruct (c_filename c), j; reflexivity).
  assert (H1 : j_hooks j1 = j_hooks j) by (unfold j1; destruct (c_filename c), j; reflexivity).
  assert (C1 : hasf F_use_caps j1 && negb (j_caps j1 =? 0)%N && negb (hasf F_set_ambient_caps j1) = hasf F_use_caps j && negb (j_caps j =? 0)%N && negb (hasf F_set_ambient_caps j))
    by (unfold j1; destruct (c_filename c), j; reflexivity).
  clearbody j1. fold (base_env w c).
  assert (E0 : opened (pipes_of (RunState none none none none none)) t t)
    by (apply (opened_eq []); [intros x N; cbn; intuition congruence|apply opened_nil]).
  destruct ((c_preload c || labelled j1) && negb (w_copied w)) eqn:CP.
  { split; [|split; [exact J1|exact E0]]. right. right. split; [reflexivity|]. apply andb_true_iff in CP. destruct CP as [CP W].
    split; [destruct (w_copied w); [discriminate|reflexivity]|]. rewrite <- L1. apply orb_true_iff. exact CP. }
  destruct (if labelled j1 then setup_seccomp_policy_path j1 (base_env w c) else (0%N, base_env w c)) as [r0 v0] eqn:V0.
  destruct (N.eqb_spec r0 0); cbn [negb]; [|split; [right; left; reflexivity|split; [exact J1|exact E0]]]. subst r0.
  assert (CE : forall fd v, (if c_preload c then match setup_preload (w_default w) j1 v0 with
                  | (0%N, e) => match setup_pipe fd e with (0%N, e) => Some e | _ => None end | _ => None end else Some v0) = Some v ->
               child_env (c_preload c) (w_default w) fd j1 (base_env w c) = Some v).
  { intros fd v H. unfold child_env. unfold labelled in V0. destruct (j_seccomp_policy_path j1); (injection V0 as <- || rewrite V0); exact H. }
  destruct (c_preload c) eqn:PL.
  - rewrite H1. destruct (j_hooks j) eqn:HK; [|exact Logic.I]. destruct (c_exec c) eqn:EX; [|exact Logic.I]. cbn [negb].
    destruct (setup_preload (w_default w) j1 v0) as [r1 v1] eqn:V1.
    destruct (N.eqb_spec r1 0); cbn [negb]; [|split; [right; left; reflexivity|split; [exact J1|exact E0]]]. subst r1.
    destruct (new_pipe w 0 t) as [[p tp]|] eqn:NP; [|split; [right; left; reflexivity|split; [exact J1|exact E0]]].
    assert (OP : opened [p] t tp) by (apply (opened_step [] t t true w 0%nat); [apply opened_nil|exact NP]).
    destruct (setup_pipe (Z.to_N (fst p)) v1) as [r2 v2] eqn:V2.
    destruct (N.eqb_spec r2 0); cbn [negb].
    2:{ split; [right; left; reflexivity|]. split; [exact J1|]. apply (opened_eq [p]); [|exact OP]. intros x N. cbn. intuition congruence. }
    subst r2. pose proof (streams_result w c j1 (Some v2) p tp t OP) as S.
    destruct (prepare_streams w c j1 (Some v2) p tp) as [|r st t1 j2|st t1 j2 v]; [destruct S| |].
    + destruct S as (R & -> & O). split; [destruct R; auto|]. split; [exact J1|exact O].
    + destruct S as (-> & -> & RP & O & i & o & e & s & ti & to & te & S1 & S2 & S3 & S4 & S5).
      split; [exact J1|]. split; [exact O|]. split.
      { unfold open_pipes. pose proof (new_pipe_if_eq true w 0 t p tp NP) as NP'. cbn [N.of_nat] in NP'. rewrite N.mul_0_r, N.add_0_r in NP'.
        rewrite NP', S2, S3, S4, S5, S1. reflexivity. }
      split; [intros _; split; reflexivity|]. split; [discriminate|]. split; [reflexivity|].
      rewrite <- J1, RP. apply CE. cbv beta. rewrite V2. reflexivity.
  - rewrite C1. destruct (hasf F_use_caps j && negb (j_caps j =? 0)%N && negb (hasf F_set_ambient_caps j)) eqn:CC; [exact Logic.I|].
    assert (OP : opened [none] t t) by (apply (opened_eq []); [intros x N; cbn; intuition congruence|apply opened_nil]).
    cbn [orb]. pose proof (streams_result w c j1 (if labelled j1 then Some v0 else None) none t t OP) as S.
    destruct (prepare_streams w c j1 _ none t) as [|r st t1 j2|st t1 j2 v]; [destruct S| |].
    + destruct S as (R & -> & O). split; [destruct R; auto|]. split; [exact J1|exact O].
    + destruct S as (-> & -> & RP & O & i & o & e & s & ti & to & te & S1 & S2 & S3 & S4 & S5).
      split; [exact J1|]. split; [exact O|]. split; [unfold open_pipes; cbn [pipe_if]; fold none; rewrite S2, S3, S4, S5, S1; reflexivity|].
      split; [discriminate|]. split; [reflexivity|]. split; [reflexivity|].
      destruct (labelled j1) eqn:LB; [|split; [reflexivity|congruence]]. rewrite <- J1. apply CE. reflexivity.
Qed.

(* ---- the arguments ---- *)
Lemma config_file f : c_filename (config_of f) = file_of f. Proof. destruct f; reflexivity. Qed.
Lemma config_elf f : c_elf (config_of f) = match fd_of f with Some fd => fd | None => -1 end. Proof. destruct f; reflexivity. Qed.
Lemma config_exec f : c_exec (config_of f) = negb (is_fork f). Proof. destruct f; reflexivity. Qed.
Lemma config_preload f : c_preload (config_of f) = preloaded f. Proof. destruct f; reflexivity. Qed.
Lemma config_argv f : c_argv (config_of f) = argv_of f. Proof. destruct f; reflexivity. Qed.
Lemma config_env w f : base_env w (config_of f) = env_of f (w_environ w).
Proof. destruct f as [| | | | |p a v ? ? ? ?|p a v ? ? ? ?| | |p a v ? ? ? ?|]; try destruct v; reflexivity. Qed.
Lemma config_pid f : c_pid (config_of f) = pid_var f. Proof. destruct f; reflexivity. Qed.
Lemma config_in f : c_in (config_of f) = in_var f. Proof. destruct f; reflexivity. Qed.
Lemma config_out f : c_out (config_of f) = out_var f. Proof. destruct f; reflexivity. Qed.
Lemma config_err f : c_err (config_of f) = err_var f. Proof. destruct f; reflexivity. Qed.

(* ---- a call that started nothing ---- *)
Lemma parent_forks w c pid st m t j r acts : run_parent w c pid st m t j = (r, acts) -> forall p, ~ In (Forked p) acts.
Proof.
  assert (SU : forall l ok a p, set_up w l = (ok, a) -> ~ In (Forked p) a).
  { induction l as [|[s tol] l IH]; intros ok a p; cbn [set_up]; [intros H; injection H as <- <-; intros []|].
    destruct ((w_setup w s =? 0)%N || tol (w_setup w s)).
    - destruct (set_up w l) as [b a'] eqn:E. intros H. injection H as <- <-. intros [X|X]; [discriminate|]. exact (IH b a' p eq_refl X).
    - intros H. injection H as <- <-. intros [X|[]]. discriminate. }
  unfold run_parent. set (j1 := set_initpid pid _). clearbody j1. destruct (set_up w (M_Sync.parent_setup (Z.to_N pid) j1)) as [ok a] eqn:E.
  pose proof (fun p => SU _ _ _ p E) as NF. destruct ok; cbn [negb].
  2:{ intros H. injection H as <- <-. intros p I. apply in_app_iff in I. destruct I as [I|[I|[]]]; [exact (NF p I)|discriminate]. }
  destruct (if M_Sync.sync_child j1 then _ else _) as [st' t']. destruct (c_preload c); cbn [negb]; [|intros H; injection H as <- <-; exact NF].
  destruct (minijail_to_fd _ _ _ _) as [[r0 bytes i|bytes]|]; intros H; injection H as <- <-; intros p I; try exact (NF p I);
    apply in_app_iff in I; (destruct I as [I|[I|I]]; [exact (NF p I)|discriminate|]).
  - destruct (r0 =? 0); [destruct I|]. destruct I as [I|[]]. discriminate.
  - destruct I.
Qed.
Lemma call_failed w f m t j rc m' t' j' acts : call_run w f m t j = (L_returns rc m' t' j', acts) -> in_launcher w -> nothing_started acts ->
  (forall x, t' x = t x) /\ m' = m /\ j' = named (file_of f) j /\
  (rc = 14 \/ rc = -14 \/ (rc = 12 /\ w_copied w = false /\ (preloaded f = true \/ labelled j = true))).
Proof.
  unfold call_run. pose proof (prepare_result w (config_of f) j t) as P. intros H L NS.
  destruct (prepare w (config_of f) j t) as [|r st t1 j1|st t1 j1 v]; [discriminate| |].
  - injection H as <- <- <- <- <-. destruct P as (R & -> & O). unfold called_in. rewrite config_file.
    split; [exact (opened_freed _ _ _ O)|]. split; [reflexivity|]. split; [reflexivity|]. rewrite config_preload in R. exact R.
  - exfalso. destruct (negb (hasf F_pids j1) && hasf F_userns j1); [discriminate|]. destruct (w_fork w <? 0) eqn:F; [discriminate|].
    destruct (Z.eqb_spec (w_fork w) 0); [exact (L e)|]. destruct (run_parent _ _ _ _ _ _ _) as [r a]. injection H as -> <-.
    apply (NS (w_fork w)). left. reflexivity.
Qed.

(* ---- a call that started a process ---- *)
Lemma end_differs b id id' t0 t e x : is_end b id t0 t e -> is_end true id' t0 t x -> id <> id' -> e = x -> False.
Proof.
  unfold is_end. intros A (X & _ & Y) N E. destruct b; [|lia]. destruct A as (_ & _ & A). subst e. rewrite A in Y. congruence.
Qed.
(* the descriptors the launcher closes in the end *)
Definition closing (c : config) (st : run_state) : list Z :=
  let take (b : bool) (fd : Z) := if b then -1 else fd in
  ends [rs_pipe st; rs_sync st; (fst (rs_in st), take (given (c_in c)) (snd (rs_in st)));
        (take (given (c_out c)) (fst (rs_out st)), snd (rs_out st)); (take (given (c_err c)) (fst (rs_err st)), snd (rs_err st))].
Lemma ten st t0 t preload sin sout serr sync base : open_pipes (fst t0) preload sin sout serr sync base (snd t0) = Some (st, t) ->
  let t0 := snd t0 in
  (is_end preload base t0 t (fst (rs_pipe st)) /\ is_end preload (base + 1) t0 t (snd (rs_pipe st))) /\
  (is_end sync (base + 8) t0 t (fst (rs_sync st)) /\ is_end sync (base + 9) t0 t (snd (rs_sync st))) /\
  (is_end sin (base + 2) t0 t (fst (rs_in st)) /\ is_end sin (base + 3) t0 t (snd (rs_in st))) /\
  (is_end sout (base + 4) t0 t (fst (rs_out st)) /\ is_end sout (base + 5) t0 t (snd (rs_out st))) /\
  (is_end serr (base + 6) t0 t (fst (rs_err st)) /\ is_end serr (base + 7) t0 t (snd (rs_err st))).
Proof.
  intros H. apply open_spec in H. destruct H as (_ & H & _). unfold flags_ids in H. cbn [pipes_of ends flat_map app] in H.
  repeat match goal with H : Forall2 _ (_ :: _) (_ :: _) |- _ => inversion H; clear H; subst end. cbn [fst snd] in *. cbv zeta. idtac. repeat (split; [split; assumption|]). split; assumption.
Qed.
Lemma not_closing c st lim t0 t preload sync base :
  open_pipes lim preload (given (c_in c)) (given (c_out c)) (given (c_err c)) sync base t0 = Some (st, t) ->
  (given (c_in c) = true -> shut (closing c st) (snd (rs_in st)) = false) /\
  (given (c_out c) = true -> shut (closing c st) (fst (rs_out st)) = false) /\
  (given (c_err c) = true -> shut (closing c st) (fst (rs_err st)) = false).
Proof.
  intros H. apply (ten st (lim, t0)) in H. cbn [snd] in H. destruct H as ((A1 & A2) & (B1 & B2) & (C1 & C2) & (D1 & D2) & (E1 & E2)).
  split; [|split]; intros G; apply shut_out; left; unfold closing; cbn [ends flat_map app fst snd In]; rewrite G in *.
  - intros I. repeat (destruct I as [I|I]); [..|exact I]; try (revert I; eapply end_differs; [eassumption|exact C2|lia]);
    try (destruct C2 as (C2 & _); lia).
    + destruct (given (c_out c)); [destruct C2; lia|]. revert I. eapply end_differs; [exact D1|exact C2|lia].
    + destruct (given (c_err c)); [destruct C2; lia|]. revert I. eapply end_differs; [exact E1|exact C2|lia].
  - intros I. repeat (destruct I as [I|I]); [..|exact I]; try (revert I; eapply end_differs; [eassumption|exact D1|lia]);
    try (destruct D1 as (D1 & _); lia).
    + destruct (given (c_in c)); [destruct D1; lia|]. revert I. eapply end_differs; [exact C2|exact D1|lia].
    + destruct (given (c_err c)); [destruct D1; lia|]. revert I. eapply end_differs; [exact E1|exact D1|lia].
  - intros I. repeat (destruct I as [I|I]); [..|exact I]; try (revert I; eapply end_differs; [eassumption|exact E1|lia]);
    try (destruct E1 as (E1 & _); lia).
    + destruct (given (c_in c)); [destruct E1; lia|]. revert I. eapply end_differs; [exact C2|exact E1|lia].
    + destruct (given (c_out c)); [destruct E1; lia|]. revert I. eapply end_differs; [exact D1|exact E1|lia].
Qed.
Lemma shut_same l l' x : (forall y, y <> -1 -> (In y l <-> In y l')) -> shut l x = shut l' x.
Proof.
  intros E. destruct (shut l x) eqn:A, (shut l' x) eqn:B; try reflexivity; exfalso.
  - apply shut_in in A. apply shut_out in B. destruct A as [A N], B as [B|B]; [|contradiction]. apply B, E; assumption.
  - apply shut_in in B. apply shut_out in A. destruct B as [B N], A as [A|A]; [|contradiction]. apply A, E; assumption.
Qed.
Lemma two_shut l l' (t : table) x : (if shut l x then None else if shut l' x then None else t x) = if shut (l ++ l') x then None else t x.
Proof. rewrite shut_app. destruct (shut l x), (shut l' x); reflexivity. Qed.
Definition left_open (w : world) (pid : Z) (t : table) (j : jail) : table :=
  let j' := set_initpid pid (with_ruleset (w_parent w) j) in
  close_entered (hasf F_enter_vfs j') (j_mountns_fd j') (hasf F_enter_net j') (j_netns_fd j')
    (with_ruleset_fd (w_parent w) (w_ruleset w) j t).
Definition stored (c : config) (pid : Z) (st : run_state) (m : memory) : memory :=
  store (c_err c) (fst (rs_err st)) (store (c_out c) (fst (rs_out st)) (store (c_in c) (snd (rs_in st)) (store (c_pid c) pid m))).
(* what was sent, and whether the child was killed for it *)
Definition sending (w : world) (c : config) (pid : Z) (j' : jail) (acts : list act) : Prop :=
  if c_preload c then exists r bytes n, minijail_to_fd (w_addr w) j' (w_fuel w) (w_write w) = Some (Wrote r bytes n) /\
      In (Sent bytes) acts /\ (r <> 0 <-> killed acts pid)
  else ~ killed acts pid.
Lemma set_up_acts w : forall l ok a, set_up w l = (ok, a) -> Forall (fun x => exists c e, x = Set_up c e) a.
Proof.
  induction l as [|[s tol] l IH]; intros ok a; cbn [set_up]; [intros H; injection H as <- <-; constructor|].
  destruct ((w_setup w s =? 0)%N || tol (w_setup w s)).
  - destruct (set_up w l) as [b a'] eqn:E. intros H. injection H as <- <-. constructor; [eauto|]. exact (IH b a' eq_refl).
  - intros H. injection H as <- <-. constructor; [eauto|constructor].
Qed.
Lemma parent_returns w c pid st m t j rc m' t' j' acts : run_parent w c pid st m t j = (L_returns rc m' t' j', acts) ->
  rs_sync st = none \/ M_Sync.sync_child (set_initpid pid (with_ruleset (w_parent w) j)) = true ->
  rs_pipe st = none \/ c_preload c = true ->
  rc = (if c_exec c then 0 else pid) /\ m' = stored c pid st m /\ j' = set_initpid pid (with_ruleset (w_parent w) j) /\
  (forall x, t' x = if shut (closing c st) x then None else left_open w pid t j x) /\ sending w c pid j' acts.
Proof.
  unfold run_parent, left_open, sending. cbv zeta. set (j1 := set_initpid pid (with_ruleset (w_parent w) j)). clearbody j1.
  set (tr := with_ruleset_fd _ _ _ _). clearbody tr.
  destruct (set_up w (M_Sync.parent_setup (Z.to_N pid) j1)) as [ok a] eqn:E. apply set_up_acts in E.
  destruct ok; [|discriminate]. cbn [negb]. set (te := close_entered _ _ _ _ _). clearbody te. intros H SY PI.
  assert (NK : forall p, ~ killed a p).
  { intros p K. unfold killed in K. rewrite Forall_forall in E. destruct (E _ K) as (? & ? & X). discriminate. }
  destruct (M_Sync.sync_child j1) eqn:SC; destruct (c_preload c) eqn:PL; cbn [negb] in H;
    try (destruct (minijail_to_fd (w_addr w) j1 (w_fuel w) (w_write w)) as [[r0 bytes n|]|] eqn:TF; [|discriminate|discriminate]);
    unfold finish_call, parent_result in H; cbn [rs_in rs_out rs_err rs_pipe rs_sync] in H; injection H as <- <- <- <- <-;
    (split; [reflexivity|]); (split; [reflexivity|]); (split; [reflexivity|]); split.
  1, 3, 5, 7: intro x; rewrite free_spec, ?close_pair_spec; cbn [pipes_of rs_in rs_out rs_err rs_pipe rs_sync];
    rewrite ?two_shut; match goal with |- (if shut ?l ?y then _ else _) = (if shut ?k ?y then _ else _) => rewrite (shut_same l k y); [reflexivity|] end;
    unfold closing; cbn [ends flat_map app fst snd];
    destruct SY as [SY|SY]; destruct PI as [PI|PI]; try discriminate; rewrite ?SY, ?PI; cbn; intros y N; intuition congruence.
  all: try exact (NK pid); exists r0, bytes, n; (split; [exact TF|]); split;
    try (apply in_app_iff; right; left; reflexivity); destruct (Z.eqb_spec r0 0) as [R|R].
  all: split; [intros X; try contradiction; apply in_app_iff; right; right; left; reflexivity|].
  all: intros X; first [exact R|apply in_app_iff in X; exfalso; destruct X as [X|[X|[]]]; [exact (NK _ X)|discriminate]].
Qed.

(* what making the ruleset leaves alone *)
Definition alike (j j' : jail) : Prop :=
  j_flags j' = j_flags j /\ j_rlimit_count j' = j_rlimit_count j /\ j_mountns_fd j' = j_mountns_fd j /\ j_netns_fd j' = j_netns_fd j.
Lemma alike_refl j : alike j j. Proof. repeat split. Qed.
Lemma alike_trans a b c : alike a b -> alike b c -> alike a c.
Proof. intros (A & B & C & D) (A' & B' & C' & D'). repeat split; congruence. Qed.
Lemma alike_hasf j j' f : alike j j' -> hasf f j' = hasf f j.
Proof. intros (A & _). unfold hasf. rewrite A. reflexivity. Qed.
Lemma alike_sync j j' : alike j j' -> M_Sync.sync_child j' = M_Sync.sync_child j.
Proof. intros A. unfold M_Sync.sync_child. rewrite !(alike_hasf j j' _ A). destruct A as (_ & -> & _). reflexivity. Qed.
Lemma alike_preserve fd j : match minijail_preserve_fd fd fd j with ARet _ j' => alike j j' | _ => True end.
Proof.
  unfold minijail_preserve_fd.
  repeat match goal with |- context [if ?b then _ else _] => destruct b end; repeat split.
Qed.
Lemma alike_note e j : alike j (note_abi e j).
Proof. unfold note_abi. repeat match goal with |- context [if ?b then _ else _] => destruct b end; repeat split. Qed.
Lemma alike_ruleset k j : alike j (with_ruleset k j).
Proof.
  unfold with_ruleset. destruct (j_fs_rules j); [apply alike_refl|]. set (j1 := snd (setup_fs_rules_fd k j)).
  assert (A : alike j j1).
  { unfold j1, setup_fs_rules_fd. cbn [snd]. apply (alike_trans _ (note_abi k j)); [apply alike_note|repeat split]. }
  clearbody j1. pose proof (alike_preserve (j_fs_rules_fd j1) j1) as P.
  destruct (minijail_preserve_fd _ _ _); [exact (alike_trans _ _ _ A P)|exact A|exact A].
Qed.
Lemma alike_named n j : alike j (named n j). Proof. destruct n; repeat split. Qed.
Lemma alike_pid p j : alike j (set_initpid p j). Proof. repeat split. Qed.
Lemma named_rules n j : j_fs_rules (named n j) = j_fs_rules j. Proof. destruct n; reflexivity. Qed.

Lemma stored_other c pid st m a : (forall b, In b [c_pid c; c_in c; c_out c; c_err c] -> b <> Some a) -> stored c pid st m a = m a.
Proof.
  intros N. unfold stored, store. destruct (c_err c) as [e|] eqn:E, (c_out c) as [o|] eqn:O, (c_in c) as [i|] eqn:I, (c_pid c) as [p|] eqn:P;
    repeat match goal with |- context [(a =? ?x)%N] => destruct (N.eqb_spec a x); [exfalso; subst x; apply (N (Some a)); [cbn; tauto|reflexivity]|] end; reflexivity.
Qed.
Lemma ready_call w f m t j : forall r acts, call_run w f m t j = (r, acts) -> in_launcher w -> (exists pid, started_by acts pid) ->
  exists st t1 j1 v acts', prepare w (config_of f) j t = P_ready st t1 j1 v /\ (negb (hasf F_pids j1) && hasf F_userns j1) = false /\ 0 < w_fork w /\
    run_parent w (config_of f) (w_fork w) st m t1 j1 = (r, acts') /\ acts = Forked (w_fork w) :: acts'.
Proof.
  intros r acts H L [p S]. unfold call_run in H. destruct (prepare w (config_of f) j t) as [|rr st t1 j1|st t1 j1 v].
  1, 2: injection H as <- <-; destruct S.
  exists st, t1, j1, v. destruct (negb (hasf F_pids j1) && hasf F_userns j1); [injection H as <- <-; destruct S|].
  destruct (Z.ltb_spec (w_fork w) 0); [injection H as <- <-; destruct S|]. destruct (Z.eqb_spec (w_fork w) 0); [contradiction|].
  destruct (run_parent _ _ _ _ _ _ _) as [r' a]. injection H as <- <-. exists a. repeat split. lia.
Qed.
Lemma only_forked w f m t j r acts pid : call_run w f m t j = (r, acts) -> in_launcher w -> started_by acts pid -> pid = w_fork w /\ 0 < pid.
Proof.
  intros H L S. destruct (ready_call w f m t j r acts H L (ex_intro _ pid S)) as (st & t1 & j1 & v & a & _ & _ & P & R & ->).
  destruct S as [S|S]; [injection S as <-; auto|]. exfalso. exact (parent_forks _ _ _ _ _ _ _ _ _ R pid S).
Qed.
Definition given_vars (f : run_call) : list (option var) := [pid_var f; in_var f; out_var f; err_var f].
Lemma in_vars f a : In a (vars f) <-> In (Some a) (given_vars f).
Proof.
  unfold vars, given_vars. rewrite in_flat_map. split.
  - intros ([b|] & I & X); [destruct X as [<-|[]]; exact I|destruct X].
  - intros I. exists (Some a). split; [exact I|left; reflexivity].
Qed.
Lemma in_config f b : In b [c_pid (config_of f); c_in (config_of f); c_out (config_of f); c_err (config_of f)] <-> In b (given_vars f).
Proof. rewrite config_pid, config_in, config_out, config_err. reflexivity. Qed.

Section started.
Variables (w : world) (f : run_call) (m : memory) (t : table) (j : jail) (rc : Z) (m' : memory) (t' : table) (j' : jail) (acts : list act) (pid : Z).
Hypothesis CALL : call_run w f m t j = (L_returns rc m' t' j', acts).
Hypothesis HERE : in_launcher w.
Hypothesis STARTED : started_by acts pid.
Lemma started_facts : exists st t1 v, prepare w (config_of f) j t = P_ready st t1 (named (file_of f) j) v /\ pid = w_fork w /\ 0 < pid /\
  open_pipes (w_lim w) (preloaded f) (given (in_var f)) (given (out_var f)) (given (err_var f)) (M_Sync.sync_child j) (w_base w) t = Some (st, t1) /\
  rc = (if is_fork f then pid else 0) /\ m' = stored (config_of f) pid st m /\ j' = parent_jail (w_parent w) (file_of f) pid j /\
  (forall x, t' x = if shut (closing (config_of f) st) x then None else left_open w pid t1 (named (file_of f) j) x) /\
  sending w (config_of f) pid j' acts /\ run_refuses (RunConfig (preloaded f) (negb (is_fork f))) j = false.
Proof.
  destruct (ready_call w f m t j _ _ CALL HERE (ex_intro _ pid STARTED)) as (st & t1 & j1 & v & a & PR & NS & P0 & R & EA).
  destruct (only_forked w f m t j _ _ _ CALL HERE STARTED) as [PID PP]. subst acts.
  pose proof (prepare_result w (config_of f) j t) as P. rewrite PR in P. destruct P as (J1 & O & OP & HK & CP & NB & _).
  unfold called_in in J1. rewrite config_file in J1. subst j1. exists st, t1, v.
  rewrite config_preload, config_in, config_out, config_err, (alike_sync _ _ (alike_named _ _)) in OP.
  split; [exact PR|]. split; [exact PID|]. split; [exact PP|]. split; [exact OP|].
  assert (SY : rs_sync st = none \/ M_Sync.sync_child j = true).
  { destruct (M_Sync.sync_child j); [right; reflexivity|left]. apply (ten st (w_lim w, t)) in OP. cbn [snd is_end] in OP.
    destruct OP as (_ & (A & B) & _). unfold none. destruct (rs_sync st). cbn [fst snd] in *. subst. reflexivity. }
  assert (PI : rs_pipe st = none \/ preloaded f = true).
  { destruct (preloaded f); [right; reflexivity|left]. apply (ten st (w_lim w, t)) in OP. cbn [snd is_end] in OP.
    destruct OP as ((A & B) & _). unfold none. destruct (rs_pipe st). cbn [fst snd] in *. subst. reflexivity. }
  rewrite <- config_preload in PI. rewrite <- PID in R.
  assert (AL : alike j (set_initpid pid (with_ruleset (w_parent w) (named (file_of f) j)))).
  { apply (alike_trans _ (named (file_of f) j)); [apply alike_named|]. apply (alike_trans _ (with_ruleset (w_parent w) (named (file_of f) j))); [apply alike_ruleset|apply alike_pid]. }
  rewrite <- (alike_sync _ _ AL) in SY.
  destruct (parent_returns _ _ _ _ _ _ _ _ _ _ _ _ R SY PI) as (A & B & C & D & E).
  rewrite config_exec in A. split; [rewrite A; destruct (is_fork f); reflexivity|]. split; [exact B|].
  split; [rewrite C; unfold parent_jail, named; destruct (file_of f); reflexivity|]. split; [exact D|]. split.
  - unfold sending in *. destruct (c_preload (config_of f)).
    + destruct E as (r & bytes & n & E1 & E2 & E3). exists r, bytes, n. split; [exact E1|]. split; [right; exact E2|]. rewrite E3. unfold killed. cbn [In]. split; [auto|intros [X|X]; [discriminate|exact X]].
    + unfold killed in *. intros [X|X]; [discriminate|exact (E X)].
  - unfold run_refuses. cbn [rc_use_preload rc_exec_in_child]. rewrite config_preload, config_exec in HK. rewrite config_preload in CP.
    assert (N1 : hasf F_pids (named (file_of f) j) = hasf F_pids j) by (apply alike_hasf, alike_named).
    assert (N2 : hasf F_userns (named (file_of f) j) = hasf F_userns j) by (apply alike_hasf, alike_named).
    rewrite N1, N2 in NS. destruct (preloaded f).
    + destruct (HK eq_refl) as [-> ->]. cbn [negb orb]. exact NS.
    + rewrite (CP eq_refl). exact NS.
Qed.
(* the results *)
Lemma started_results : NoDup (vars f) -> (forall a, pid_var f = Some a -> m' a = pid) /\ (forall a, ~ In a (vars f) -> m' a = m a).
Proof.
  intros ND. destruct started_facts as (st & t1 & v & _ & _ & _ & _ & _ & M & _). split.
  - intros a A. rewrite M. unfold stored. rewrite config_pid, config_in, config_out, config_err. unfold vars in ND. rewrite A in *. unfold store.
    cbn [flat_map app] in ND. inversion ND as [|? ? NI _]; subst. clear ND. rewrite app_nil_r in NI.
    destruct (err_var f) as [e|], (out_var f) as [o|], (in_var f) as [i|]; cbn in NI; rewrite ?N.eqb_refl;
      repeat match goal with |- context [(a =? ?x)%N] => destruct (N.eqb_spec a x); [exfalso; subst; tauto|] end; reflexivity.
  - intros a N. rewrite M. apply stored_other. intros b I E. subst b. apply N, in_vars, in_config, I.
Qed.
Lemma started_streams : NoDup (vars f) -> plausible w t -> new_ruleset w f j t -> (forall x, entered j x -> t x <> None) ->
  (forall a, in_var f = Some a -> t (m' a) = None /\ t' (m' a) = Some (w_base w + 3, false)%N) /\
  (forall a, out_var f = Some a -> t (m' a) = None /\ t' (m' a) = Some (w_base w + 4, false)%N) /\
  (forall a, err_var f = Some a -> t (m' a) = None /\ t' (m' a) = Some (w_base w + 6, false)%N) /\
  (forall x, entered j x -> t' x = None) /\
  (j_fs_rules j <> [] -> 0 <= k_landlock_fd (w_parent w) -> t' (k_landlock_fd (w_parent w)) = Some (w_ruleset w, true)) /\
  (forall x, t' x = t x \/ (exists a, In (Some a) [in_var f; out_var f; err_var f] /\ m' a = x) \/ entered j x \/
             (j_fs_rules j <> [] /\ x = k_landlock_fd (w_parent w))).
Proof.
  intros ND (_ & _ & NG) NR EN. destruct started_facts as (st & t1 & v & PR & _ & _ & OP & _ & M & _ & T & _).
  pose proof (NR _ _ _ _ PR) as FR. pose proof OP as OP'. apply open_spec in OP'. destruct OP' as (GR & _ & SAME).
  pose proof (ten st (w_lim w, t) _ _ _ _ _ _ _ OP) as TEN. cbn [snd] in TEN. destruct TEN as ((A1 & A2) & (B1 & B2) & (C1 & C2) & (D1 & D2) & (E1 & E2)).
  assert (NC := not_closing (config_of f) st (w_lim w) t t1 (preloaded f) (M_Sync.sync_child j) (w_base w)).
  rewrite config_in, config_out, config_err in NC. specialize (NC OP). destruct NC as (NC1 & NC2 & NC3).
  assert (LO : forall x, left_open w pid t1 (named (file_of f) j) x =
    if (hasf F_enter_net j && (x =? j_netns_fd j)) || (hasf F_enter_vfs j && (x =? j_mountns_fd j)) then None
    else with_ruleset_fd (w_parent w) (w_ruleset w) j t1 x).
  { intro x. unfold left_open. cbv zeta.
    assert (AL : alike j (set_initpid pid (with_ruleset (w_parent w) (named (file_of f) j)))).
    { apply (alike_trans _ (named (file_of f) j)); [apply alike_named|]. apply (alike_trans _ (with_ruleset (w_parent w) (named (file_of f) j))); [apply alike_ruleset|apply alike_pid]. }
    rewrite !(alike_hasf _ _ _ AL). destruct AL as (_ & _ & -> & ->). unfold with_ruleset_fd. rewrite named_rules.
    unfold close_entered, close. destruct (hasf F_enter_vfs j), (hasf F_enter_net j); cbn [andb orb]; unfold upd at 1; try (unfold upd at 1);
      try (destruct (x =? j_netns_fd j)); try (destruct (x =? j_mountns_fd j)); reflexivity. }
  assert (LO1 : forall x, t x = None -> t1 x <> None -> left_open w pid t1 (named (file_of f) j) x = t1 x).
  { intros x X Y. rewrite LO. destruct (_ || _) eqn:B.
    - exfalso. apply (EN x); [|exact X]. apply orb_true_iff in B. unfold entered. rewrite !andb_true_iff, !Z.eqb_eq in B. tauto.
    - unfold with_ruleset_fd. destruct (j_fs_rules j); [reflexivity|]. destruct (0 <=? _); [|reflexivity]. apply upd_other. intros ->. contradiction. }
  assert (ENV : forall x, entered j x -> left_open w pid t1 (named (file_of f) j) x = None).
  { intros x [[Fl ->]|[Fl ->]]; rewrite LO, Fl, Z.eqb_refl; cbn [andb]; rewrite ?orb_true_r; reflexivity. }
  assert (MI : forall a, in_var f = Some a -> m' a = snd (rs_in st)).
  { intros a A. rewrite M. unfold stored. rewrite config_pid, config_in, config_out, config_err. unfold vars in ND. rewrite A in *. unfold store.
    destruct (err_var f) as [e|], (out_var f) as [o|], (pid_var f) as [p|]; cbn in ND;
      repeat match goal with H : NoDup (_ :: _) |- _ => inversion H; clear H; subst end; cbn in *; rewrite ?N.eqb_refl;
      repeat match goal with |- context [(a =? ?x)%N] => destruct (N.eqb_spec a x); [exfalso; subst; tauto|] end; reflexivity. }
  assert (MO : forall a, out_var f = Some a -> m' a = fst (rs_out st)).
  { intros a A. rewrite M. unfold stored. rewrite config_pid, config_in, config_out, config_err. unfold vars in ND. rewrite A in *. unfold store.
    destruct (err_var f) as [e|], (in_var f) as [o|], (pid_var f) as [p|]; cbn in ND;
      repeat match goal with H : NoDup (_ :: _) |- _ => inversion H; clear H; subst end; cbn in *; rewrite ?N.eqb_refl;
      repeat match goal with |- context [(a =? ?x)%N] => destruct (N.eqb_spec a x); [exfalso; subst; tauto|] end; reflexivity. }
  assert (ME : forall a, err_var f = Some a -> m' a = fst (rs_err st)).
  { intros a A. rewrite M. unfold stored. rewrite config_pid, config_in, config_out, config_err. unfold vars in ND. rewrite A in *. unfold store.
    rewrite N.eqb_refl. reflexivity. }
  split; [|split; [|split; [|split; [|split]]]].
  - intros a A. rewrite (MI a A). rewrite A in *. cbn [given] in *. destruct C2 as (Q & C2 & C2'). split; [exact C2|].
    rewrite T, (NC1 eq_refl), LO1; [exact C2'|exact C2|congruence].
  - intros a A. rewrite (MO a A). rewrite A in *. cbn [given] in *. destruct D1 as (Q & D1 & D1'). split; [exact D1|].
    rewrite T, (NC2 eq_refl), LO1; [exact D1'|exact D1|congruence].
  - intros a A. rewrite (ME a A). rewrite A in *. cbn [given] in *. destruct E1 as (Q & E1 & E1'). split; [exact E1|].
    rewrite T, (NC3 eq_refl), LO1; [exact E1'|exact E1|congruence].
  - intros x X. rewrite T, (ENV x X). destruct (shut _ x); reflexivity.
  - intros R K. rewrite T. set (x := k_landlock_fd (w_parent w)) in *.
    assert (S : shut (closing (config_of f) st) x = false).
    { apply shut_out. left. unfold closing. rewrite config_in, config_out, config_err. cbn [ends flat_map app fst snd In].
      assert (ALL : forall b id e, is_end b id t t1 e -> e <> x).
      { intros b id e IE ->. unfold is_end in IE. destruct b; [destruct IE as (_ & _ & IE); congruence|lia]. }
      intros I. repeat (destruct I as [I|I]); [..|exact I]; try (revert I; eapply ALL; eassumption).
      - destruct (given (in_var f)); [lia|revert I; eapply ALL; eassumption].
      - destruct (given (out_var f)); [lia|revert I; eapply ALL; eassumption].
      - destruct (given (err_var f)); [lia|revert I; eapply ALL; eassumption]. }
    rewrite S, LO. assert (TN : t x = None) by (destruct (t x) eqn:X; [apply GR in X; congruence|reflexivity]).
    destruct (_ || _) eqn:B.
    + exfalso. apply (EN x); [|exact TN]. apply orb_true_iff in B. unfold entered. rewrite !andb_true_iff, !Z.eqb_eq in B. tauto.
    + unfold with_ruleset_fd. destruct (j_fs_rules j); [contradiction|]. fold x. destruct (Z.leb_spec 0 x); [apply upd_same|lia].
  - intro x. rewrite T, LO. destruct (shut (closing (config_of f) st) x) eqn:S.
    { left. apply shut_in in S. destruct S as [I N]. unfold closing in I. rewrite config_in, config_out, config_err in I. cbn [ends flat_map app fst snd In] in I.
      assert (ALL : forall b id e, is_end b id t t1 e -> e <> -1 -> t e = None).
      { intros b id e IE NE. unfold is_end in IE. destruct b; [exact (proj1 (proj2 IE))|contradiction]. }
      symmetry. repeat (destruct I as [I|I]); [..|destruct I]; try (subst x; eapply ALL; eassumption).
      - destruct (given (in_var f)); [congruence|subst x; eapply ALL; eassumption].
      - destruct (given (out_var f)); [congruence|subst x; eapply ALL; eassumption].
      - destruct (given (err_var f)); [congruence|subst x; eapply ALL; eassumption]. }
    destruct (_ || _) eqn:B.
    { right. right. left. apply orb_true_iff in B. unfold entered. rewrite !andb_true_iff, !Z.eqb_eq in B. tauto. }
    assert (X1 : t1 x = t x \/ exists a, In (Some a) [in_var f; out_var f; err_var f] /\ m' a = x).
    { destruct (SAME x) as [E|[I Q]]; [left; exact E|right]. apply shut_out in S. destruct S as [S|S]; [|lia].
      unfold closing in S. rewrite config_in, config_out, config_err in S. cbn [ends flat_map app fst snd In pipes_of] in S, I.
      repeat (destruct I as [I|I]); [..|destruct I]; try (exfalso; apply S; tauto).
      - destruct (in_var f) as [a|]; cbn [given] in *; [|exfalso; apply S; tauto]. exists a. split; [left; reflexivity|]. rewrite (MI a eq_refl). exact I.
      - destruct (out_var f) as [a|]; cbn [given] in *; [|exfalso; apply S; tauto]. exists a. split; [right; left; reflexivity|]. rewrite (MO a eq_refl). exact I.
      - destruct (err_var f) as [a|]; cbn [given] in *; [|exfalso; apply S; tauto]. exists a. split; [right; right; left; reflexivity|]. rewrite (ME a eq_refl). exact I. }
    unfold with_ruleset_fd. destruct (j_fs_rules j) eqn:RU; [tauto|].
    assert (X2 : upd t1 (k_landlock_fd (w_parent w)) (Some (w_ruleset w, true)) x = t1 x \/ x = k_landlock_fd (w_parent w)).
    { destruct (Z.eq_dec x (k_landlock_fd (w_parent w))); [right; assumption|left; apply upd_other; assumption]. }
    destruct (0 <=? _); [|tauto]. destruct X2 as [-> | ->]; [tauto|]. right. right. right. split; [discriminate|reflexivity].
Qed.
End started.

(* ---- the results of the functions ---- *)
Lemma call_codes w f m t j rc m' t' j' acts : call_run w f m t j = (L_returns rc m' t' j', acts) -> in_launcher w -> is_fork f = false ->
  (rc = 0 <-> exists pid, started_by acts pid).
Proof.
  intros H L NF. split.
  - intros ->. destruct (existsb (fun a => match a with Forked _ => true | _ => false end) acts) eqn:E.
    + apply existsb_exists in E. destruct E as ([p| | | |] & I & X); try discriminate. exists p. exact I.
    + exfalso. assert (NS : nothing_started acts).
      { intros p I. rewrite <- Bool.not_true_iff_false in E. apply E. apply existsb_exists. exists (Forked p). split; [exact I|reflexivity]. }
      destruct (call_failed _ _ _ _ _ _ _ _ _ _ H L NS) as (_ & _ & _ & [X|[X|[X _]]]); discriminate.
  - intros [p S]. destruct (started_facts _ _ _ _ _ _ _ _ _ _ _ H L S) as (_ & _ & _ & _ & _ & _ & _ & R & _). rewrite NF in R. exact R.
Qed.
Lemma fork_codes w m t j rc m' t' j' acts : call_run w Fork m t j = (L_returns rc m' t' j', acts) -> in_launcher w -> w_copied w = true \/ labelled j = false ->
  (0 < rc /\ started_by acts rc) \/ (rc < 0 /\ nothing_started acts).
Proof.
  intros H L C. destruct (existsb (fun a => match a with Forked _ => true | _ => false end) acts) eqn:E.
  - left. apply existsb_exists in E. destruct E as ([p| | | |] & I & X); try discriminate.
    destruct (started_facts _ _ _ _ _ _ _ _ _ _ _ H L I) as (_ & _ & _ & _ & _ & P & _ & R & _). cbn [is_fork] in R. subst p. split; [exact P|exact I].
  - right. assert (NS : nothing_started acts).
    { intros p I. rewrite <- Bool.not_true_iff_false in E. apply E. apply existsb_exists. exists (Forked p). split; [exact I|reflexivity]. }
    split; [|exact NS]. unfold call_run in H. destruct (prepare w (config_of Fork) j t) as [|r st t1 j1|st t1 j1 v] eqn:P; [discriminate| |].
    + injection H as <- _ _ _ _. unfold prepare in P. cbn [config_of c_filename given andb c_preload orb c_envp c_in c_out c_err] in P.
      destruct (labelled j && negb (w_copied w)) eqn:LC; [exfalso; destruct C as [C|C]; rewrite C in LC; cbn in LC; try rewrite andb_false_r in LC; discriminate|].
      destruct (if labelled j then _ else _) as [r0 v0]. destruct (negb (r0 =? 0)%N); [injection P as <- _ _ _; reflexivity|].
      destruct (_ && _ && _); [discriminate|]. unfold prepare_streams, new_pipe_if in P. cbn [config_of given c_in c_out c_err] in P.
      destruct (M_Sync.sync_child j); [|discriminate]. destruct (new_pipe w 4 t) as [[? ?]|]; [discriminate|]. injection P as <- _ _ _. reflexivity.
    + exfalso. destruct (_ && _); [discriminate|]. destruct (w_fork w <? 0); [discriminate|]. destruct (Z.eqb_spec (w_fork w) 0) as [W|W]; [exact (L W)|].
      destruct (run_parent _ _ _ _ _ _ _) as [r a]. injection H as _ <-. apply (NS (w_fork w)). left. reflexivity.
Qed.
Lemma call_died w f m t j acts pid : call_run w f m t j = (L_dies, acts) -> in_launcher w -> started_by acts pid -> killed acts pid.
Proof.
  intros H L S. destruct (only_forked _ _ _ _ _ _ _ _ H L S) as [-> _].
  destruct (ready_call _ _ _ _ _ _ _ H L (ex_intro _ _ S)) as (st & t1 & j1 & v & a & _ & _ & _ & R & ->).
  right. unfold run_parent in R. destruct (set_up _ _) as [ok a']. destruct ok; cbn [negb] in R.
  - exfalso. destruct (if M_Sync.sync_child _ then _ else _) as [st' t'']. destruct (c_preload (config_of f)); cbn [negb] in R.
    + destruct (minijail_to_fd _ _ _ _) as [[? ? ?|]|]; [unfold finish_call in R; destruct (parent_result _ _ _ _ _) as [[[? ?] ?] ?]| |]; discriminate.
    + unfold finish_call in R. destruct (parent_result _ _ _ _ _) as [[[? ?] ?] ?]. discriminate.
  - injection R as <-. apply in_app_iff. right. left. reflexivity.
Qed.
Lemma wrote_all addr j fuel w bytes n : real_errors w -> minijail_to_fd addr j fuel w = Some (Wrote 0 bytes n) ->
  exists size buf, minijail_size addr j = Some size /\ minijail_marshal addr j size = Some (0, buf) /\ bytes = (num 8 size ++ buf)%string.
Proof.
  intros RE. unfold minijail_to_fd. destruct (minijail_size addr j) as [sz|]; [|discriminate]. destruct (sz =? 0)%N; [discriminate|].
  destruct (minijail_marshal addr j sz) as [[err buf]|] eqn:MM; [|discriminate]. destruct (Z.eqb_spec err 0); cbn [negb]; [|intros H; injection H as E _ _; contradiction].
  subst err. pose proof (write_result w RE fuel 0 (num 8 sz) EmptyString) as W1. destruct (write_exactly fuel w 0 (num 8 sz) EmptyString) as [r1 s1 i1|s1]; [|discriminate].
  destruct W1 as (_ & took & rest & E1 & E2 & E3 & _). intros H.
  assert (R1 : r1 = 0) by (destruct r1; [reflexivity|discriminate H|discriminate H]). subst r1.
  assert (rest = EmptyString) by (apply E3; reflexivity). subst rest.
  pose proof (write_result w RE fuel i1 buf s1) as W2. injection H as H. rewrite H in W2. destruct W2 as (_ & took2 & rest2 & F1 & F2 & F3 & _).
  assert (rest2 = EmptyString) by (apply F3; reflexivity). subst rest2.
  assert (AN : forall s, (s ++ "")%string = s) by (induction s as [|c s IH]; [reflexivity|cbn; rewrite IH; reflexivity]).
  exists sz, buf. split; [reflexivity|]. split; [exact MM|]. rewrite AN in E1, F1. subst. cbn. reflexivity.
Qed.
Lemma call_sent w f m t j rc m' t' j' acts pid : call_run w f m t j = (L_returns rc m' t' j', acts) -> in_launcher w -> started_by acts pid -> real_errors (w_write w) ->
  if preloaded f
  then exists bytes, In (Sent bytes) acts /\
    (~ killed acts pid -> exists size buf, minijail_size (w_addr w) j' = Some size /\ minijail_marshal (w_addr w) j' size = Some (0, buf) /\
       bytes = (num 8 size ++ buf)%string)
  else ~ killed acts pid.
Proof.
  intros H L S RE. destruct (started_facts _ _ _ _ _ _ _ _ _ _ _ H L S) as (_ & _ & _ & _ & _ & _ & _ & _ & _ & _ & _ & SE & _).
  unfold sending in SE. rewrite config_preload in SE. destruct (preloaded f); [|exact SE]. destruct SE as (r & bytes & n & T & I & K).
  exists bytes. split; [exact I|]. intros NK. assert (r = 0) by (destruct (Z.eq_dec r 0); [assumption|exfalso; tauto]). subst r.
  exact (wrote_all _ _ _ _ _ _ RE T).
Qed.
