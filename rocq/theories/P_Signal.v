(* Proofs about signals. *)
From Verif Require Export S_Signal P_Settings.
From Coq Require Import Lia.
Local Open Scope N_scope.

Lemma in_range n a b : In n (range a b) <-> a <= n <= b.
Proof.
  unfold range. rewrite in_map_iff. split.
  - intros (k & <- & I). apply in_seq in I. lia.
  - intros H. exists (N.to_nat n). split; [apply N2Nat.id|]. apply in_seq. lia.
Qed.

Section Kernel.
Variable refuses : N -> option N.
Variables SIGRTMIN SIGRTMAX : N.
Notation set_action := (set_action refuses).
Lemma set_here n d s m : sig_action (set_action n d s) m = if (m =? n) && match refuses n with None => true | _ => false end then d else sig_action s m.
Proof. unfold M_Signal.set_action, upd. destruct (refuses n); cbn [sig_action]; [rewrite andb_false_r; reflexivity|rewrite andb_true_r; reflexivity]. Qed.
Lemma set_mask n d s : blocked (set_action n d s) = blocked s.
Proof. unfold M_Signal.set_action. destruct (refuses n); reflexivity. Qed.
Lemma set_pid n d s : forward_pid (set_action n d s) = forward_pid s.
Proof. unfold M_Signal.set_action. destruct (refuses n); reflexivity. Qed.
Lemma set_refused n d s m : refuses m <> None -> sig_action (set_action n d s) m = sig_action s m.
Proof. intros R. rewrite set_here. destruct (m =? n) eqn:E; [|reflexivity]. apply N.eqb_eq in E. subst m. destruct (refuses n); [reflexivity|destruct R; reflexivity]. Qed.

Lemma set_all d l : forall s m, let s' := fold_left (fun s n => set_action n d s) l s in
  sig_action s' m = (if existsb (N.eqb m) l && match refuses m with None => true | _ => false end then d else sig_action s m) /\ blocked s' = blocked s /\ forward_pid s' = forward_pid s.
Proof.
  induction l as [|n l IH]; intros s m; [split; [|split]; reflexivity|]. cbn [fold_left existsb]. destruct (IH (set_action n d s) m) as (A & B & C).
  cbv zeta in *. split; [|split; [rewrite B; apply set_mask|rewrite C; apply set_pid]]. rewrite A, set_here.
  destruct (m =? n) eqn:E; [apply N.eqb_eq in E; subst m|]; cbn [orb andb]; destruct (refuses _); destruct (existsb _ l); cbn [andb]; reflexivity.
Qed.
Lemma listed_in m l : existsb (N.eqb m) l = true <-> In m l.
Proof. rewrite existsb_exists. split; [intros (x & I & E); apply N.eqb_eq in E; subst; exact I|intros I; exists m; split; [exact I|apply N.eqb_refl]]. Qed.

(* the launcher with its handlers installed *)
Lemma installed s : SIGCHLD < SIGRTMIN -> let s' := install_signal_handlers refuses SIGRTMIN SIGRTMAX s in
  (forall n, forwardable refuses n -> sig_action s' n = Handled Forward) /\
  (refuses SIGCHLD = None -> sig_action s' SIGCHLD = Default) /\ blocked s' = blocked s /\ forward_pid s' = forward_pid s.
Proof.
  intros RT. cbv zeta. unfold install_signal_handlers. set (s1 := fold_left _ (range 1 (NSIG - 1)) s). set (s2 := set_action SIGCHLD Default s1).
  assert (S1 : forall m, sig_action s1 m = (if existsb (N.eqb m) (range 1 (NSIG - 1)) && match refuses m with None => true | _ => false end then Handled Forward else sig_action s m) /\ blocked s1 = blocked s /\ forward_pid s1 = forward_pid s) by (intros m; apply set_all).
  split; [|split; [|split]].
  - intros n (R & OK & NC). destruct (set_all (Handled Forward) (range SIGRTMIN SIGRTMAX) s2 n) as (A & _ & _). cbv zeta in A. rewrite A. unfold s2. rewrite set_here.
    destruct (N.eqb_spec n SIGCHLD) as [EC|_]; [destruct NC; exact EC|]. cbn [andb]. destruct (S1 n) as (B & _ & _). rewrite B, OK, !andb_true_r.
    assert (I : existsb (N.eqb n) (range 1 (NSIG - 1)) = true) by (apply listed_in, in_range; unfold NSIG in *; lia). rewrite I. destruct (existsb _ _); reflexivity.
  - intros OK. destruct (set_all (Handled Forward) (range SIGRTMIN SIGRTMAX) s2 SIGCHLD) as (A & _ & _). cbv zeta in A. rewrite A. unfold s2. rewrite set_here, OK, N.eqb_refl. cbn [andb].
    destruct (existsb (N.eqb SIGCHLD) (range SIGRTMIN SIGRTMAX)) eqn:I; [|reflexivity]. apply listed_in, in_range in I. lia.
  - destruct (set_all (Handled Forward) (range SIGRTMIN SIGRTMAX) s2 0) as (_ & B & _). cbv zeta in B. rewrite B. unfold s2. rewrite set_mask. apply (S1 0).
  - destruct (set_all (Handled Forward) (range SIGRTMIN SIGRTMAX) s2 0) as (_ & _ & B). cbv zeta in B. rewrite B. unfold s2. rewrite set_pid. apply (S1 0).
Qed.

(* ---- the launcher's run ---- *)
Notation lstep := (lstep refuses SIGRTMIN SIGRTMAX).
Notation lrun := (lrun refuses SIGRTMIN SIGRTMAX).
Definition forwarding (pid : N) (s : signals) : Prop :=
  (forall n, forwardable refuses n -> sig_action s n = Handled Forward) /\ (refuses SIGCHLD = None -> sig_action s SIGCHLD = Default) /\ forward_pid s = Some pid.
Lemma quiet_step l e : undisturbed e -> l_signals (fst (lstep l e)) = l_signals l.
Proof. destruct e; cbn; intros Q; try reflexivity; [|destruct Q]. unfold forward_to. rewrite Q. reflexivity. Qed.
Lemma quiet_run es : forall l, Forall undisturbed es -> l_signals (fst (lrun l es)) = l_signals l.
Proof.
  induction es as [|e es IH]; intros l Q; [reflexivity|]. inversion Q as [|? ? Q1 Q2]; subst. cbn [M_Signal.lrun]. pose proof (quiet_step l e Q1) as S.
  destruct (lstep l e) as [l1 o]. cbn [fst] in S. pose proof (IH l1 Q2) as T. destruct (lrun l1 es) as [l2 o']. cbn [fst] in *. rewrite T. exact S.
Qed.
Lemma handled pid s n : forwarding pid s -> (forwardable refuses n -> handle s n = [(pid, n)]) /\ (n = SIGCHLD -> refuses n = None -> handle s n = []).
Proof.
  intros (F & C & P). unfold handle. split.
  - intros FN. rewrite (F n FN), P. reflexivity.
  - intros -> R. rewrite (C R). reflexivity.
Qed.
Lemma run_forwards pid es : forall l, Forall undisturbed es -> forwarding pid (l_signals l) ->
  (forall n, In n (arrived es) -> forwardable refuses n \/ n = SIGCHLD /\ refuses n = None) ->
  map fst (snd (lrun l es)) = map (fun n => (pid, n)) (filter (fun n => negb (n =? SIGCHLD)) (arrived es)).
Proof.
  induction es as [|e es IH]; intros l Q F A; [reflexivity|]. inversion Q as [|? ? Q1 Q2]; subst. cbn [M_Signal.lrun].
  pose proof (quiet_step l e Q1) as S. destruct (lstep l e) as [l1 o] eqn:E. cbn [fst] in S. rewrite <- S in F.
  assert (A2 : forall n, In n (arrived es) -> forwardable refuses n \/ n = SIGCHLD /\ refuses n = None).
  { intros n I. apply A. unfold arrived. cbn [flat_map]. apply in_or_app. right. exact I. }
  pose proof (IH l1 Q2 F A2) as T. destruct (lrun l1 es) as [l2 o']. cbn [snd] in *. rewrite map_app, T. clear IH T.
  destruct e; cbn in E; injection E as <- <-; cbn [map app arrived flat_map]; try reflexivity.
  rewrite map_map. cbn [fst]. rewrite map_id. cbn [filter]. destruct (handled pid _ sig F) as [H1 H2]. cbn [l_signals] in H1, H2.
  destruct (A sig (or_introl eq_refl)) as [FN|[EC R]].
  - rewrite (H1 FN). destruct FN as (_ & _ & NC). apply N.eqb_neq in NC. rewrite NC. reflexivity.
  - rewrite (H2 EC R), EC. reflexivity.
Qed.
Lemma launch_forwards e h j pid who l : SIGCHLD < SIGRTMIN -> history e minijail_new h j -> asked F_forward_signals h ->
  forwarding pid (l_signals (fst (lstep l (Launch j pid who)))).
Proof.
  intros RT H A. cbn. unfold forward_to. rewrite (proj2 (flag_asked e h j F_forward_signals H eq_refl) A).
  destruct (installed (Signals (sig_action (l_signals l)) (blocked (l_signals l)) (Some pid)) RT) as (B & C & _ & D). split; [exact B|]. split; [exact C|exact D].
Qed.
Lemma forwards e h j pid who l es : SIGCHLD < SIGRTMIN -> history e minijail_new h j -> asked F_forward_signals h -> Forall undisturbed es ->
  (forall n, In n (arrived es) -> forwardable refuses n \/ n = SIGCHLD /\ refuses n = None) ->
  map fst (snd (lrun l (Launch j pid who :: es))) = map (fun n => (pid, n)) (filter (fun n => negb (n =? SIGCHLD)) (arrived es)).
Proof.
  intros RT H A Q R. pose proof (launch_forwards e h j pid who l RT H A) as F. cbn [M_Signal.lrun]. destruct (lstep l (Launch j pid who)) as [l1 o] eqn:E. cbn [fst] in F.
  assert (O : o = []) by (cbn in E; injection E as _ <-; reflexivity). subst o. pose proof (run_forwards pid es l1 Q F R) as T. destruct (lrun l1 es) as [l2 o']. exact T.
Qed.
(* without forwarding nothing changes *)
Lemma not_forwarding e h j pid who l : history e minijail_new h j -> ~ asked F_forward_signals h ->
  l_signals (fst (lstep l (Launch j pid who))) = l_signals l.
Proof.
  intros H A. cbn. unfold forward_to. destruct (hasf F_forward_signals j) eqn:E; [|reflexivity]. destruct A. apply (flag_asked e h j F_forward_signals H eq_refl). exact E.
Qed.

(* ---- the program's signals ---- *)
Lemma reset_all l : forall s s', reset_handlers refuses l s = Some s' -> forall m,
  sig_action s' m = (if existsb (N.eqb m) l && match refuses m with None => true | _ => false end then Default else sig_action s m) /\ blocked s' = blocked s.
Proof.
  induction l as [|n l IH]; intros s s' R m; cbn [reset_handlers] in R; [injection R as <-; split; reflexivity|]. cbn [existsb].
  destruct (refuses n) as [e|] eqn:E.
  - destruct (e =? 22); [|discriminate R]. destruct (IH _ _ R m) as [A B]. split; [|exact B]. rewrite A. destruct (N.eqb_spec m n) as [->|_]; [|reflexivity]. rewrite E, !andb_false_r. reflexivity.
  - destruct (IH _ _ R m) as [A B]. rewrite set_mask in B. split; [|exact B]. rewrite A, set_here, E, andb_true_r.
    destruct (m =? n) eqn:Q; [apply N.eqb_eq in Q; subst m; rewrite E|]; cbn [orb andb]; destruct (existsb _ l); cbn [andb]; try reflexivity; destruct (refuses m); reflexivity.
Qed.
Lemma entered_mask t : forall s m, (m <> SIGSYS -> blocked (entered refuses t s) m = blocked s m) /\ (blocked (entered refuses t s) m = true -> blocked s m = true).
Proof.
  unfold entered. induction t as [|[c a] t IH]; intros s m; [split; auto|]. cbn [fold_left].
  match goal with |- context [fold_left _ t ?x] => set (s' := x) end. destruct (IH s' m) as [A B].
  assert (K : (m <> SIGSYS -> blocked s' m = blocked s m) /\ (blocked s' m = true -> blocked s m = true)).
  { unfold s'. destruct c; try (split; intros; [reflexivity|assumption]); destruct a; try (split; intros; [reflexivity|assumption]); cbn [blocked]; rewrite set_mask; [|split; auto].
    unfold upd. destruct (N.eqb_spec m SIGSYS) as [->|NE]; split; intros X; [destruct X; reflexivity|discriminate X|reflexivity|exact X]. }
  destruct K as [K1 K2]. split; [intros N1; rewrite (A N1); exact (K1 N1)|intros X; exact (K2 (B X))].
Qed.
Lemma entered_action t : forall s m, m <> SIGSYS \/ ~ about_sigsys t -> sig_action (entered refuses t s) m = sig_action s m.
Proof.
  unfold entered. induction t as [|[c a] t IH]; intros s m A; [reflexivity|]. cbn [fold_left]. rewrite IH.
  2: { destruct A as [A|A]; [left; exact A|right]. intros (c' & a' & I & Q). apply A. exists c', a'. split; [right; exact I|exact Q]. }
  assert (K : m <> SIGSYS \/ (c <> C_sigsys_handler /\ c <> C_sigsys_default)).
  { destruct A as [A|A]; [left; exact A|right]. split; intros ->; apply A; [exists C_sigsys_handler, a|exists C_sigsys_default, a]; (split; [left; reflexivity|auto]). }
  destruct c; try reflexivity; destruct a; try reflexivity; (destruct K as [K|[K1 K2]]; [|congruence]); cbn [sig_action]; rewrite set_here;
    (destruct (N.eqb_spec m SIGSYS) as [->|_]; [destruct K; reflexivity|reflexivity]).
Qed.
Lemma entered_refused t : forall s m, refuses m <> None -> sig_action (entered refuses t s) m = sig_action s m.
Proof.
  unfold entered. induction t as [|[c a] t IH]; intros s m A; [reflexivity|]. cbn [fold_left]. rewrite IH by exact A.
  destruct c; try reflexivity; destruct a; try reflexivity; cbn [sig_action]; apply set_refused; exact A.
Qed.
(* no handler but ours, for SIGSYS *)
Lemma entered_handlers t : forall s m hd, (forall n hd, sig_action s n = Handled hd -> n = SIGSYS /\ hd = Log_sigsys) ->
  sig_action (entered refuses t s) m = Handled hd -> m = SIGSYS /\ hd = Log_sigsys.
Proof.
  unfold entered. induction t as [|[c a] t IH]; intros s m hd A H; [exact (A m hd H)|]. cbn [fold_left] in H. revert H. apply IH. clear m hd.
  destruct c; try exact A; destruct a; try exact A; intros n hd H; cbn [sig_action] in H; rewrite set_here in H; (destruct (_ && _) eqn:E in H; [|exact (A n hd H)]).
  - injection H as <-. apply andb_prop in E. destruct E as [E _]. apply N.eqb_eq in E. split; [exact E|reflexivity].
  - discriminate H.
Qed.

Section Program.
Variables (e : kenv) (h : list (api * Z)) (j : jail) (s0 s1 : signals).
Hypothesis H : history e minijail_new h j.
Hypothesis C : child_signals refuses SIGRTMAX j s0 = Some s1.
Lemma child_mask : (asked F_reset_signal_mask h -> forall n, blocked s1 n = false) /\ (~ asked F_reset_signal_mask h -> blocked s1 = blocked s0).
Proof.
  pose proof (flag_asked e h j F_reset_signal_mask H eq_refl) as FA. unfold child_signals in C.
  assert (K : blocked s1 = if hasf F_reset_signal_mask j then fun _ => false else blocked s0).
  { destruct (hasf F_reset_signal_handlers j); [destruct (reset_all _ _ _ C 0) as [_ ->]|injection C as <-]; destruct (hasf F_reset_signal_mask j); reflexivity. }
  rewrite K. split; intros A; [apply FA in A; rewrite A; reflexivity|]. destruct (hasf F_reset_signal_mask j); [destruct A; apply FA; reflexivity|reflexivity].
Qed.
Lemma child_action n : (asked F_reset_signal_handlers h -> n <= SIGRTMAX -> refuses n = None -> sig_action s1 n = Default) /\
  (~ asked F_reset_signal_handlers h \/ refuses n <> None -> sig_action s1 n = sig_action s0 n).
Proof.
  pose proof (flag_asked e h j F_reset_signal_handlers H eq_refl) as FA. unfold child_signals in C. split.
  - intros A L R. apply FA in A. rewrite A in C. destruct (reset_all _ _ _ C n) as [-> _]. rewrite R.
    assert (I : existsb (N.eqb n) (range 0 SIGRTMAX) = true) by (apply listed_in, in_range; lia). rewrite I. reflexivity.
  - intros A. destruct (hasf F_reset_signal_handlers j) eqn:F.
    + destruct A as [A|A]; [destruct A; apply FA; reflexivity|]. destruct (reset_all _ _ _ C n) as [-> _]. destruct (refuses n); [|destruct A; reflexivity].
      rewrite andb_false_r. destruct (hasf F_reset_signal_mask j); reflexivity.
    + injection C as <-. destruct (hasf F_reset_signal_mask j); reflexivity.
Qed.
Let program (t1 t2 : list event) : signals := entered refuses t2 (exec_signals (entered refuses t1 s1)).
Lemma program_mask t1 t2 : mask_due h s0 (program t1 t2).
Proof.
  destruct child_mask as [A B]. unfold program.
  assert (K : forall n, (n <> SIGSYS -> blocked (program t1 t2) n = blocked s1 n) /\ (blocked (program t1 t2) n = true -> blocked s1 n = true)).
  { intros n. destruct (entered_mask t1 s1 n) as [K1 K2]. destruct (entered_mask t2 (exec_signals (entered refuses t1 s1)) n) as [K3 K4]. cbn [exec_signals blocked] in K3, K4.
    split; [intros NE; unfold program; rewrite (K3 NE); exact (K1 NE)|intros X; exact (K2 (K4 X))]. }
  split.
  - intros X n. destruct (blocked (program t1 t2) n) eqn:E; [|exact E]. apply (K n) in E. rewrite (A X) in E. discriminate E.
  - intros X n. rewrite <- (B X). exact (K n).
Qed.
Lemma program_action t1 t2 n : n <> SIGSYS \/ (~ about_sigsys t1 /\ ~ about_sigsys t2) -> action_due refuses SIGRTMAX h s0 (program t1 t2) n.
Proof.
  intros A. destruct (child_action n) as [B1 B2].
  assert (K : sig_action (program t1 t2) n = match sig_action s1 n with Ignored => Ignored | _ => Default end).
  { unfold program. rewrite entered_action by tauto. cbn [exec_signals sig_action]. rewrite entered_action by tauto. reflexivity. }
  unfold action_due. rewrite K. split; [intros X L R; rewrite (B1 X L R); reflexivity|intros X; rewrite (B2 X); reflexivity].
Qed.
Lemma program_handlers t1 t2 n hd : sig_action (program t1 t2) n = Handled hd -> n = SIGSYS /\ hd = Log_sigsys.
Proof. unfold program. apply entered_handlers. intros m hd0 X. cbn [exec_signals sig_action] in X. destruct (sig_action _ m); discriminate X. Qed.

(* ---- forwarded signals and the init of a pid namespace ---- *)
Lemma init_reacts t1 n : (forall m hd, sig_action s0 m <> Handled hd) -> n <> SIGSYS \/ ~ about_sigsys t1 ->
  refuses n = None -> refuses SIGKILL <> None -> refuses SIGSTOP <> None ->
  react_init (init_signals refuses (entered refuses t1 s1)) n = if n =? SIGTERM then Runs Init_term else Nothing.
Proof.
  intros NH NS R K S. unfold react_init, react, init_signals. rewrite set_here. destruct (N.eqb_spec n SIGTERM) as [->|NE]; [rewrite R; reflexivity|]. cbn [andb].
  rewrite entered_action by exact NS. assert (A : forall hd, sig_action s1 n <> Handled hd).
  { intros hd X. destruct (child_action n) as [B1 B2]. unfold child_signals in C. destruct (hasf F_reset_signal_handlers j).
    - destruct (reset_all _ _ _ C n) as [Y _]. rewrite Y in X. destruct (_ && _); [discriminate X|]. apply (NH n hd). destruct (hasf F_reset_signal_mask j); exact X.
    - injection C as <-. apply (NH n hd). destruct (hasf F_reset_signal_mask j); exact X. }
  destruct (sig_action s1 n) as [| |hd]; [|reflexivity|destruct (A hd eq_refl)].
  destruct (N.eqb_spec n SIGKILL) as [->|_]; [destruct K; exact R|]. destruct (N.eqb_spec n SIGSTOP) as [->|_]; [destruct S; exact R|reflexivity].
Qed.
End Program.
End Kernel.

(* ---- sending the jail ---- *)
(* before the mask is restored SIGPIPE is blocked, and its writes' SIGPIPEs are
   taken before that *)
Definition quiet_state (m0 : N -> bool) (s : sending) : Prop :=
  ~ In true (s_delivered s) /\
  match s_phase s with
  | Blocking => s_mask s = m0 /\ pend_own s = false
  | Writing _ | Accepting => s_mask s = upd m0 SIGPIPE true /\ s_saved s = m0
  | Restoring => s_mask s = upd m0 SIGPIPE true /\ s_saved s = m0 /\ pend_own s = false
  | Sent => s_mask s = m0 /\ pend_own s = false
  end.
Lemma masked m0 : upd m0 SIGPIPE true SIGPIPE = true. Proof. reflexivity. Qed.
Lemma quiet_sstep answers k m0 s s' : sstep answers k s s' -> quiet_state m0 s -> quiet_state m0 s'.
Proof.
  intros S [D Q]. destruct S; cbn [s_phase s_mask s_saved pend_own pend_other s_delivered] in *.
  - unfold deliver. cbn [s_mask s_phase s_saved pend_own pend_other s_delivered]. destruct (m SIGPIPE) eqn:M; [split; [exact D|exact Q]|].
    assert (O : o = false).
    { destruct ph; [apply Q| | |apply Q|apply Q]; destruct Q as [-> _]; discriminate M. }
    subst o. split; [cbn [s_delivered app]; intros I; apply in_app_or in I; destruct I as [I|[I|[]]]; [exact (D I)|discriminate I]|exact Q].
  - split; [exact D|]. destruct Q as [-> _]. split; reflexivity.
  - destruct Q as [-> ->]. unfold deliver. cbn [s_mask]. rewrite masked. split; [exact D|]. split; reflexivity.
  - split; [exact D|exact Q].
  - split; [exact D|exact Q].
  - split; [exact D|exact Q].
  - split; [exact D|]. destruct Q as [A B]. split; [exact A|]. split; [exact B|reflexivity].
  - destruct Q as (_ & -> & ->). unfold deliver. cbn [s_mask s_phase s_saved pend_own pend_other s_delivered].
    destruct (m0 SIGPIPE); (split; [|split; reflexivity]); [exact D|]. cbn [s_delivered app]. intros I. apply in_app_or in I. destruct I as [I|I]; [exact (D I)|].
    destruct p; [destruct I as [I|[]]; discriminate I|destruct I].
Qed.
Definition begins (m0 : N -> bool) (other : bool) : sending := Sending Blocking m0 m0 false other [].
Lemma sends_quietly answers k m0 other s : ssteps answers k (begins m0 other) s ->
  ~ In true (s_delivered s) /\ (s_phase s = Sent -> s_mask s = m0 /\ pend_own s = false).
Proof.
  intros R. assert (Q : quiet_state m0 s).
  { remember (begins m0 other) as b eqn:B. induction R as [s0|n m s0 s1 s2 R IH S]; [subst; split; [intros []|split; reflexivity]|exact (quiet_sstep _ _ _ _ _ S (IH B))]. }
  destruct Q as [D Q]. split; [exact D|]. intros E. rewrite E in Q. exact Q.
Qed.
(* the SIGPIPEs delivered or left pending are at most those from elsewhere *)
Definition nbit (b : bool) : nat := if b then 1%nat else 0%nat.
Lemma count_sstep answers k s s' m0 : sstep answers k s s' -> quiet_state m0 s ->
  (length (s_delivered s') + nbit (pend_other s') <= length (s_delivered s) + nbit (pend_other s) + k)%nat.
Proof.
  intros S Q. pose proof (quiet_sstep _ _ _ _ _ S Q) as Q'. destruct Q as [_ Q]. destruct S; cbn [s_phase s_mask s_saved pend_own pend_other s_delivered] in *; try lia.
  - unfold deliver in *. cbn [s_mask s_phase s_saved pend_own pend_other s_delivered] in *. destruct (m SIGPIPE) eqn:M; cbn [pend_other s_delivered]; [destruct p; cbn [nbit]; lia|].
    assert (O : o = false) by (destruct ph; [apply Q| | |apply Q|apply Q]; destruct Q as [-> _]; discriminate M). subst o. rewrite app_length. destruct p; cbn [app length nbit]; lia.
  - destruct Q as [-> ->]. unfold deliver. cbn [s_mask]. rewrite masked. cbn [s_delivered pend_other]. lia.
  - destruct p; cbn [nbit]; lia.
  - destruct Q as (_ & -> & ->). unfold deliver. cbn [s_mask]. destruct (m0 SIGPIPE); cbn [s_delivered pend_other pend_own]; [lia|]. rewrite app_length. destruct p; cbn [app length nbit]; lia.
Qed.
Lemma sends_count answers k m0 other s : ssteps answers k (begins m0 other) s -> (length (s_delivered s) + nbit (pend_other s) <= k + nbit other)%nat.
Proof.
  intros R. assert (K : quiet_state m0 s /\ (length (s_delivered s) + nbit (pend_other s) <= k + nbit other)%nat); [|apply K].
  remember (begins m0 other) as b eqn:B. induction R as [s0|n m s0 s1 s2 R IH S].
  - subst. split; [split; [intros []|split; reflexivity]|cbn; lia].
  - destruct (IH B) as [Q L]. split; [exact (quiet_sstep _ _ _ _ _ S Q)|]. pose proof (count_sstep _ _ _ _ _ S Q). lia.
Qed.
