(* Proofs for C73 and C74. *)
From Coq Require Import Lia.
From Verif Require Export P_FdsEx S_Holders.
Local Open Scope Z_scope.

Lemma before_sub st t x v : before_exec st t x = Some v -> t x = Some v.
Proof.
  unfold before_exec, free_run_state. cbn [fold_left rs_pipe rs_in rs_out rs_err rs_sync]. rewrite !close_pair_spec.
  repeat match goal with |- context [shut ?l x] => destruct (shut l x); [discriminate|] end. auto.
Qed.
Lemma init_eq st t x : init_table st t x = if shut [fst (rs_pipe st)] x then None else before_exec st t x.
Proof.
  unfold init_table, before_exec, free_run_state. cbn [fold_left rs_pipe rs_in rs_out rs_err rs_sync fst snd]. rewrite !close_pair_spec.
  cbn [fst snd]. rewrite !shut_cons. replace (shut [] x) with false by reflexivity. change (-1 =? -1) with true. cbv iota.
  repeat match goal with |- context [if ?a =? -1 then false else ?b] => destruct (if a =? -1 then false else b) end; reflexivity.
Qed.
Lemma redirects_middle lim ca pairs elf st t : child_redirects lim ca pairs elf st t = middle lim ca pairs elf st t.
Proof.
  unfold child_redirects, middle. cbv zeta. destruct (prepare_preserved_fds _ _ _ _) as [[l t1]|]; [|reflexivity].
  destruct (avoid_pipe_conflicts _ _ _ _) as [[st2 t2]|]; [|reflexivity].
  replace (if elf =? -1 then Some (elf, t2) else ensure_no_fd_conflict lim l t2 (-1) elf (length l)) with (move_end lim l elf t2)
    by (unfold move_end; destruct (Z.eqb_spec elf (-1)) as [->|]; reflexivity).
  reflexivity.
Qed.
Lemma at_before st t x f b : at_start st t x = Some (f, b) -> before_exec st t x = Some (f, b).
Proof. unfold at_start, after_exec. destruct (before_exec st t x) as [[g []]|]; [discriminate|auto|discriminate]. Qed.

Section run.
Variables (lim : Z) (preload sin sout serr sync : bool) (base : N) (pairs : list (Z * Z)) (elf : Z).
Variables (t0 : table) (st : run_state) (t : table).
Hypothesis S0 : started lim preload sin sout serr sync base pairs elf t0 st t.
Lemma old x f : holds t0 x f -> (f < base)%N.
Proof. destruct S0 as (_ & _ & O & _). apply O. Qed.

(* the parent *)
Lemma launcher_ends : let '((i, o, e), u) := parent_result sin sout serr st t in
  only_at u (base + 3) i /\ only_at u (base + 4) o /\ only_at u (base + 6) e /\
  lacks u base /\ lacks u (base + 1) /\ lacks u (base + 2) /\ lacks u (base + 5) /\ lacks u (base + 7) /\ lacks u (base + 8) /\ lacks u (base + 9).
Proof.
  pose proof (parent_ok _ _ _ _ _ _ _ _ _ _ _ _ S0) as P. destruct (parent_result sin sout serr st t) as [[[i o] e] u]. destruct P as (P1 & P2 & P3 & P4).
  assert (K : forall x k, holds u x (base + k)%N -> (k = 3%N /\ x = i) \/ (k = 4%N /\ x = o) \/ (k = 6%N /\ x = e)).
  { intros x k (b & H). destruct (P4 x) as [E|[[B ->]|[[B ->]|[B ->]]]].
    - rewrite E in H. assert (L : (base + k < base)%N) by (apply (old x); exists b; exact H). lia.
    - rewrite P1 in H by exact B. injection H as E _. left. split; [lia|reflexivity].
    - rewrite P2 in H by exact B. injection H as E _. right. left. split; [lia|reflexivity].
    - rewrite P3 in H by exact B. injection H as E _. right. right. split; [lia|reflexivity]. }
  assert (L : forall k, (k <> 3 -> k <> 4 -> k <> 6 -> lacks u (base + k))%N).
  { intros k A B C x H. apply K in H. lia. }
  split; [intros y H; apply K in H; lia|]. split; [intros y H; apply K in H; lia|]. split; [intros y H; apply K in H; lia|].
  split; [rewrite <- (N.add_0_r base); apply L; lia|]. repeat (split; [apply L; lia|]). apply L; lia.
Qed.

Section child.
Variables (ca : bool) (st' : run_state) (elf' : Z) (t' : table).
Hypothesis H0 : child_setup lim ca pairs elf sync st t = Some (st', elf', t').
Hypothesis VC : valid_children lim pairs.
Hypothesis SO : std_open t0.

(* a process of the child's side, with at most what is left before execve *)
Lemma child_files u : (forall x v, u x = Some v -> before_exec st' t' x = Some v) ->
  only_at u (base + 2) 0 /\ only_at u (base + 5) 1 /\ only_at u (base + 7) 2 /\ only_at u base (fst (rs_pipe st')) /\
  lacks u (base + 1) /\ lacks u (base + 3) /\ lacks u (base + 4) /\ lacks u (base + 6) /\ lacks u (base + 8) /\ lacks u (base + 9).
Proof.
  intros U. destruct (fds_streams _ _ _ _ _ _ _ _ _ _ _ _ _ _ _ _ S0 H0 VC SO) as (R0 & R1 & R2).
  assert (K : forall x k, holds u x (base + k)%N ->
    (k = 2%N /\ x = 0) \/ (k = 5%N /\ x = 1) \/ (k = 7%N /\ x = 2) \/ (k = 0%N /\ x = fst (rs_pipe st'))).
  { intros x k (b & H). apply U in H.
    assert (HB : holds (before_exec st' t') x (base + k)) by (exists b; exact H).
    destruct (only_before _ _ _ _ _ _ _ _ _ _ _ _ S0 _ _ _ _ H0 _ _ HB) as [(p & _ & B)|[(B & _)|[(_ & _ & B)|[(_ & E & B)|(_ & B)]]]].
    - apply old in B. lia.
    - destruct B as [[-> B]|[[-> B]|[-> B]]].
      + apply R0, at_before in B. rewrite B in H. injection H as E _. left. split; [lia|reflexivity].
      + apply R1, at_before in B. rewrite B in H. injection H as E _. right. left. split; [lia|reflexivity].
      + apply R2, at_before in B. rewrite B in H. injection H as E _. right. right. left. split; [lia|reflexivity].
    - apply old in B. lia.
    - right. right. right. split; [lia|exact E].
    - apply old in B. lia. }
  assert (L : forall k, (k <> 2 -> k <> 5 -> k <> 7 -> k <> 0 -> lacks u (base + k))%N).
  { intros k A B C D x H. apply K in H. lia. }
  do 3 (split; [intros y H; apply K in H; lia|]).
  split; [intros y H; rewrite <- (N.add_0_r base) in H; apply K in H; lia|].
  repeat (split; [apply L; lia|]). apply L; lia.
Qed.
Lemma init_ends :
  (sin = true -> init_table st' t' 0 = Some ((base + 2)%N, false)) /\
  (sout = true -> init_table st' t' 1 = Some ((base + 5)%N, false)) /\
  (serr = true -> init_table st' t' 2 = Some ((base + 7)%N, false)).
Proof.
  destruct (fds_streams _ _ _ _ _ _ _ _ _ _ _ _ _ _ _ _ S0 H0 VC SO) as (R0 & R1 & R2).
  assert (K : forall x f, x = 0 \/ x = 1 \/ x = 2 -> at_start st' t' x = Some (f, false) -> init_table st' t' x = Some (f, false)).
  { intros x f X A. rewrite init_eq. apply at_before in A. rewrite A. replace (shut [fst (rs_pipe st')] x) with false; [reflexivity|]. symmetry. apply shut_out.
    left. intros [E|[]].
    destruct (middle_of _ _ _ _ _ _ _ _ _ _ H0) as (st2 & t3 & M & F). destruct (finish_spec _ _ _ _ _ _ F) as (t5 & _ & EP & _).
    pose proof (high_ends _ _ _ _ _ _ _ _ _ _ _ _ S0 _ _ _ _ 0%nat VC SO M ltac:(lia)) as Q. cbn [nth ends pipes_of flat_map app] in Q. rewrite EP in E. lia. }
  split; [|split]; intros B.
  - apply K; [auto|exact (R0 B)].
  - apply K; [auto|exact (R1 B)].
  - apply K; [auto|exact (R2 B)].
Qed.
Lemma init_sub x v : init_table st' t' x = Some v -> before_exec st' t' x = Some v.
Proof. rewrite init_eq. destruct (shut _ x); [discriminate|auto]. Qed.
Lemma init_no_config : lacks (init_table st' t') base.
Proof.
  intros x H. pose proof (child_files _ init_sub) as (_ & _ & _ & O & _). pose proof (O _ H) as ->. destruct H as (b & H). rewrite init_eq in H.
  destruct (shut [fst (rs_pipe st')] (fst (rs_pipe st'))) eqn:SH; [discriminate|]. apply shut_out in SH. destruct SH as [SH|SH]; [apply SH; left; reflexivity|].
  destruct (only_before _ _ _ _ _ _ _ _ _ _ _ _ S0 _ _ _ _ H0 _ _ (ex_intro _ b H)) as [(p & _ & B)|[(B & _)|[(_ & _ & B)|[(PL & _ & _)|(_ & B)]]]].
  - apply old in B. lia.
  - rewrite SH in B. unfold piped in B. lia.
  - apply old in B. lia.
  - destruct (config_ok _ _ _ _ _ _ _ _ _ _ _ _ S0 _ _ _ _ H0 VC SO PL) as [C _].
    destruct (middle_of _ _ _ _ _ _ _ _ _ _ H0) as (st2 & t3 & M & F). destruct (finish_spec _ _ _ _ _ _ F) as (t5 & _ & EP & _).
    pose proof (the_end _ _ _ _ _ _ _ _ _ _ _ _ S0 _ _ _ _ 0%nat M ltac:(lia)) as Q. cbn [nth ends pipes_of flat_map app flags_ids fst snd] in Q. rewrite <- EP, PL in Q. cbn in Q. lia.
  - apply old in B. lia.
Qed.
End child.

(* while the child waits *)
Lemma no_own_end ca st2 elf' t3 : child_redirects lim ca pairs elf st t = Some (st2, elf', t3) -> lacks (waiting st2 t3) (base + 9).
Proof.
  rewrite redirects_middle. intros M x (b & H). unfold waiting in H. rewrite car_spec in H.
  pose proof (core_mid _ _ _ _ _ _ _ _ _ M (started_ready _ _ _ _ _ _ _ _ _ _ _ _ S0)) as (ND & AR & K & OT).
  destruct (if snd (rs_sync st2) =? -1 then false else x =? snd (rs_sync st2)) eqn:G; [discriminate|].
  pose proof S0 as (_ & O & FR & NG & PA & EL & _). pose proof (open_spec _ _ _ _ _ _ _ _ _ _ O) as (GR & _ & OS).
  destruct (in_dec Z.eq_dec x (wanted pairs)) as [W|W].
  - unfold wanted in W. apply in_map_iff in W. destruct W as ([p c] & E & I). cbn in E. subst c.
    assert (Ip : In p (map fst pairs)) by (change p with (fst (p, x)); apply in_map; exact I).
    specialize (PA _ Ip). destruct (t0 p) as [[g c]|] eqn:V; [|contradiction].
    assert (Hp : holds t0 p g) by (exists c; exact V). pose proof (AR _ _ _ I (holds_started _ _ _ _ _ _ _ _ _ _ _ _ O Hp)) as A.
    apply old in Hp. rewrite H in A. injection A as A _. lia.
  - destruct (OT x _ W (ex_intro _ b H)) as [(e & J & T)|(CA & J & T)].
    + destruct J as [J|J].
      * injection J as <- <-. pose proof (no_negative _ _ _ _ _ _ _ _ _ _ _ _ S0 _ _ T) as NN. destruct EL as [EL|[_ EL]]; [lia|].
        destruct (t0 elf) as [[g c]|] eqn:V; [|contradiction]. pose proof (GR _ _ V) as V'. destruct T as (d & T).
        assert (Hp : holds t0 elf g) by (exists c; exact V). apply old in Hp. rewrite V' in T. injection T as T _. lia.
      * (* a pipe: it is the end for writing *)
        assert (Q : exists n, (n < 10)%nat /\ e = nth n (ends (pipes_of st)) 0 /\ x = nth n (ends (pipes_of st2)) 0).
        { apply (In_nth _ _ (0, 0)) in J. destruct J as (n & L & J). rewrite combine_length in L. cbn [length] in L.
          assert (L10 : (n < 10)%nat) by (change 10%nat with (length (ends (pipes_of st))); lia).
          rewrite combine_nth in J by reflexivity. injection J as J1 J2. exists n. auto. }
        destruct Q as (n & L & -> & ->). pose proof (the_pipe _ _ _ _ _ _ _ _ _ _ _ _ S0 n L) as P. unfold is_end in P.
        pose proof (no_negative _ _ _ _ _ _ _ _ _ _ _ _ S0 _ _ T) as NN.
        destruct (fst (nth n (flags_ids preload sin sout serr sync base) (false, 0%N))); [|lia]. destruct P as (_ & _ & P).
        destruct T as (d & T). rewrite P in T. injection T as T _.
        assert (N3 : n = 3%nat) by (clear - L T; do 10 (destruct n as [|n]; [cbn in T; lia|]); lia). subst n.
        cbn [nth ends pipes_of flat_map app] in G, H, P, NN. destruct (Z.eqb_spec (snd (rs_sync st2)) (-1)) as [E|E]; [|rewrite Z.eqb_refl in G; discriminate].
        pose proof (Forall2_nth' _ 0 0 _ _ K 4%nat ltac:(cbn; lia)) as Q. cbn [nth ends pipes_of flat_map app] in Q.
        destruct Q as [[Q _]|(_ & [Q|[Q _]] & _)]; lia.
    + assert (B : holds t0 x (base + 9)) by (apply (before _ _ _ _ _ _ _ _ _ _ _ _ S0); [exact T|]; intro I; apply J; right; exact I). apply old in B. lia.
Qed.
End run.

(* ---- namespaces to enter ---- *)
Lemma mid_stays lim pairs elf st t st2 elf' t3 x v : middle lim false pairs elf st t = Some (st2, elf', t3) -> ready pairs elf st t ->
  ~ In x (wanted pairs) -> ~ In x (map fst pairs) -> t x = Some v -> t3 x = Some v.
Proof.
  unfold middle. intros H [RP RE] NW NP T.
  destruct (prepare_preserved_fds lim t [] pairs) as [[l t1]|] eqn:EP; [|discriminate].
  destruct (avoid_pipe_conflicts lim l st t1) as [[st3 t2]|] eqn:EA; [|discriminate].
  destruct (move_end lim l elf t2) as [[elf2 t2']|] eqn:EE; [|discriminate].
  destruct (redirect_fds lim l t2') as [t3'|] eqn:ER; [|discriminate]. injection H as -> -> ->.
  destruct (prepare_ok _ _ _ _ _ EP) as (G1 & SF & ND & ST & X1). clear EP.
  pose proof (stands_wanted _ _ _ _ _ ST) as W.
  assert (EA' : move_pipes lim l (pipes_of st) t1 = Some (pipes_of st2, t2)).
  { unfold avoid_pipe_conflicts in EA. destruct (move_pipes lim l (pipes_of st) t1) as [[ql tq]|]; [|discriminate].
    destruct ql as [|q1 [|q2 [|q3 [|q4 [|q5 [|? ?]]]]]]; try discriminate. injection EA as <- <-. reflexivity. }
  assert (K3 : forall e, In e (elf :: ends (pipes_of st)) -> t1 e <> None \/ e = -1).
  { intros e I. destruct (RE _ I) as [[_ Q]|Q]; [left|right; exact Q]. destruct (t e) as [w|] eqn:V; [|contradiction]. apply G1 in V. congruence. }
  destruct (move_pipes_spec _ _ _ _ _ _ EA' (fun a I => K3 a (or_intror I))) as (G2 & _ & _ & _).
  destruct (move_end_spec _ _ _ _ _ _ EE) as (G3 & _ & _).
  destruct (redirect_spec _ _ _ _ ER ND SF) as [_ RB]. rewrite W in RB. destruct (RB x NW) as [[E _]|[_ E]].
  - rewrite E. apply G3, G2, G1. exact T.
  - exfalso. apply in_map_iff in E. destruct E as ([q c] & E & I). cbn in E. subst q.
    destruct (stands_in' _ _ _ _ _ _ _ ST I) as (p & Ip & _ & S2 & _). cbn [fst snd] in *.
    destruct S2 as [->|[S2 _]]; [|congruence]. apply NP. change p with (fst (p, c)). apply in_map. exact Ip.
Qed.

Section run2.
Variables (lim : Z) (preload sin sout serr sync : bool) (base : N) (pairs : list (Z * Z)) (elf : Z).
Variables (t0 : table) (st : run_state) (t : table).
Hypothesis S0 : started lim preload sin sout serr sync base pairs elf t0 st t.
Variables (st' : run_state) (elf' : Z) (t' : table).

Lemma stays x f : child_setup lim false pairs elf sync st t = Some (st', elf', t') -> holds t0 x f ->
  ~ In x (wanted pairs) -> ~ In x (map fst pairs) -> ~ piped sin sout serr x -> holds (init_table st' t') x f.
Proof.
  intros H0 T NW NP PD. destruct (middle_of _ _ _ _ _ _ _ _ _ _ H0) as (st2 & t3 & M & F).
  assert (FB : (f < base)%N) by (apply (old _ _ _ _ _ _ _ _ _ _ _ _ S0 x); exact T).
  assert (T1 : holds t x f) by (destruct S0 as (_ & O & _); eapply holds_started; eassumption). destruct T1 as (b & T1).
  pose proof (mid_stays _ _ _ _ _ _ _ _ _ _ M (started_ready _ _ _ _ _ _ _ _ _ _ _ _ S0) NW NP T1) as T3.
  destruct (finish_spec _ _ _ _ _ _ F) as (t5 & C & EP & BE). change (fun y => if sync && shut [snd (rs_sync st2); fst (rs_sync st2)] y then None else t3 y) with (quiet sync st2 t3) in C.
  assert (X0 : 0 <= x) by (apply (no_negative _ _ _ _ _ _ _ _ _ _ _ _ S0 x f); exists b; exact T1).
  assert (NE : forall n, (n < 10)%nat -> x <> nth n (ends (pipes_of st2)) 0).
  { intros n L E. pose proof (the_end _ _ _ _ _ _ _ _ _ _ _ _ S0 _ _ _ _ n M L) as EN. rewrite <- E in EN. unfold has_end in EN.
    destruct (fst (nth n (flags_ids preload sin sout serr sync base) (false, 0%N))); [|lia]. destruct EN as (_ & EN & _).
    assert (Q : (base <= snd (nth n (flags_ids preload sin sout serr sync base) (false, 0%N)))%N).
    { clear - L. do 10 (destruct n as [|n]; [cbn; lia|]). lia. }
    assert (EF : f = snd (nth n (flags_ids preload sin sout serr sync base) (false, 0%N))) by congruence. clear - EF Q FB. lia. }
  assert (NI : forall l, incl l (ends (pipes_of st2)) -> shut l x = false).
  { intros l L. apply shut_out. left. intro I. apply L in I. apply (In_nth _ _ 0) in I. destruct I as (n & I1 & I2). apply (NE n I1). symmetry. exact I2. }
  pose proof (the_end _ _ _ _ _ _ _ _ _ _ _ _ S0 _ _ _ _ 4%nat M ltac:(lia)) as E4. pose proof (the_end _ _ _ _ _ _ _ _ _ _ _ _ S0 _ _ _ _ 7%nat M ltac:(lia)) as E7.
  pose proof (the_end _ _ _ _ _ _ _ _ _ _ _ _ S0 _ _ _ _ 9%nat M ltac:(lia)) as E9.
  cbn [nth flags_ids fst snd ends pipes_of flat_map app] in E4, E7, E9.
  exists b. rewrite init_eq, EP, NI by (intros y [<-|[]]; left; reflexivity). rewrite BE, NI by (intros y Y; destruct sync; cbn in *; tauto).
  rewrite (connect_other _ _ _ _ _ C).
  - eapply not_sync; [exact S0|exact H0|exact M|exact T3|lia|lia].
  - intros from I. left. unfold has_end in E4, E7, E9. unfold piped in PD. destruct I as [I|[I|[I|[]]]]; injection I as <- <-.
    + destruct sin; [exfalso; apply PD; auto|exact E4].
    + destruct sout; [exfalso; apply PD; auto|exact E7].
    + destruct serr; [exfalso; apply PD; auto|exact E9].
Qed.
Lemma comes ca x f : child_setup lim ca pairs elf sync st t = Some (st', elf', t') -> holds t0 x f ->
  In (x, x) pairs -> ~ piped sin sout serr x -> holds t' x f.
Proof.
  intros H0 T I PD. pose proof (arrive _ _ _ _ _ _ _ _ _ _ _ _ S0 _ _ _ _ H0 _ _ _ I T PD) as A. apply at_before, before_sub in A. exists false. exact A.
Qed.
End run2.

Lemma entry_in ca ev m en n pairs p : In p (entry_pairs ca ev m en n pairs) ->
  In p pairs \/ (ca = true /\ ((ev = true /\ p = (m, m)) \/ (en = true /\ p = (n, n)))).
Proof.
  assert (P : forall l fd, In p (preserve l fd) -> In p l \/ p = (fd, fd)).
  { intros l fd. unfold preserve. destruct (_ || _); [auto|]. intros I. apply in_app_or in I. destruct I as [I|[I|[]]]; auto. }
  unfold entry_pairs. destruct ca; [|auto]. destruct ev, en; intros I; repeat (apply P in I; destruct I as [I|I]); auto 6.
Qed.
Lemma entry_both ca ev m en n pairs : ca = true -> (length pairs + 2 <= 128)%nat -> 0 <= m -> 0 <= n ->
  (ev = true -> In (m, m) (entry_pairs ca ev m en n pairs)) /\ (en = true -> In (n, n) (entry_pairs ca ev m en n pairs)).
Proof.
  intros -> L M N. unfold entry_pairs.
  assert (P : forall l fd, 0 <= fd -> (length l < 128)%nat -> preserve l fd = l ++ [(fd, fd)]).
  { intros l fd F G. unfold preserve. destruct (Z.ltb_spec fd 0); [lia|]. destruct (Z.leb_spec 128 (Z.of_nat (length l))); [lia|reflexivity]. }
  destruct ev, en.
  - rewrite (P pairs m M) by lia. rewrite P by (try rewrite app_length; cbn; lia). split; intros _; [|apply in_or_app; right; left; reflexivity].
    apply in_or_app. left. apply in_or_app. right. left. reflexivity.
  - rewrite P by (try assumption; lia). split; [intros _; apply in_or_app; right; left; reflexivity|discriminate].
  - rewrite P by (try assumption; lia). split; [discriminate|intros _; apply in_or_app; right; left; reflexivity].
  - split; discriminate.
Qed.

Lemma before_ext st t u x : t x = u x -> before_exec st t x = before_exec st u x.
Proof.
  intros E. unfold before_exec, free_run_state. cbn [fold_left rs_pipe rs_in rs_out rs_err rs_sync]. rewrite !close_pair_spec, E. reflexivity.
Qed.
Lemma entered_cases ev m en n t x : close_entered ev m en n t x = (if ((ev && (x =? m)) || (en && (x =? n)))%bool then None else t x).
Proof.
  unfold close_entered, close, upd. destruct ev, en; cbn [andb orb]; destruct (x =? m), (x =? n); reflexivity.
Qed.
Lemma before_closed st t x : t x = None -> before_exec st t x = None.
Proof.
  intros E. unfold before_exec, free_run_state. cbn [fold_left rs_pipe rs_in rs_out rs_err rs_sync]. rewrite !close_pair_spec, E.
  repeat match goal with |- context [shut ?l x] => destruct (shut l x); [reflexivity|] end. reflexivity.
Qed.
Lemma program_table ev m en n st t x : in_program ev m en n st t x =
  (if ((ev && (x =? m)) || (en && (x =? n)))%bool then None else at_start st t x).
Proof.
  unfold in_program, at_start, after_exec. destruct ((ev && (x =? m)) || (en && (x =? n)))%bool eqn:E.
  - rewrite before_closed; [reflexivity|]. rewrite entered_cases, E. reflexivity.
  - rewrite (before_ext _ _ t); [reflexivity|]. rewrite entered_cases, E. reflexivity.
Qed.

(* ---- the claims ---- *)
Lemma who_holds : forall lim preload sin sout serr sync base pairs elf t0 st t close_all st' elf' t',
  started lim preload sin sout serr sync base pairs elf t0 st t ->
  child_setup lim close_all pairs elf sync st t = Some (st', elf', t') ->
  valid_children lim pairs -> std_open t0 ->
  let '((i, o, e), u) := parent_result sin sout serr st t in
  let g := at_start st' t' in
  (only_at u (base + 3) i /\ lacks g (base + 3)) /\ (lacks u (base + 2) /\ only_at g (base + 2) 0) /\
  (lacks u (base + 5) /\ only_at g (base + 5) 1) /\ (only_at u (base + 4) o /\ lacks g (base + 4)) /\
  (lacks u (base + 7) /\ only_at g (base + 7) 2) /\ (only_at u (base + 6) e /\ lacks g (base + 6)) /\
  (lacks u (base + 1) /\ lacks g (base + 1)) /\ (lacks u base /\ only_at g base (fst (rs_pipe st'))) /\
  (lacks u (base + 8) /\ lacks g (base + 8)) /\ (lacks u (base + 9) /\ lacks g (base + 9)).
Proof.
  intros until 4. pose proof (launcher_ends _ _ _ _ _ _ _ _ _ _ _ _ H) as L. destruct (parent_result sin sout serr st t) as [[[i o] e] u].
  assert (SB : forall x v, at_start st' t' x = Some v -> before_exec st' t' x = Some v) by (intros x [f b]; apply at_before).
  pose proof (child_files _ _ _ _ _ _ _ _ _ _ _ _ H _ _ _ _ H0 H1 H2 _ SB) as C. cbv zeta. tauto.
Qed.
Lemma init_holds : forall lim preload sin sout serr sync base pairs elf t0 st t close_all st' elf' t',
  started lim preload sin sout serr sync base pairs elf t0 st t ->
  child_setup lim close_all pairs elf sync st t = Some (st', elf', t') ->
  valid_children lim pairs -> std_open t0 ->
  let v := init_table st' t' in
  (lacks v base /\ lacks v (base + 1) /\ lacks v (base + 3) /\ lacks v (base + 4) /\ lacks v (base + 6) /\ lacks v (base + 8) /\ lacks v (base + 9)) /\
  (sin = true -> holds v 0 (base + 2)) /\ (sout = true -> holds v 1 (base + 5)) /\ (serr = true -> holds v 2 (base + 7)).
Proof.
  intros until 4. pose proof (init_ends _ _ _ _ _ _ _ _ _ _ _ _ H _ _ _ _ H0 H1 H2) as (I0 & I1 & I2).
  pose proof (child_files _ _ _ _ _ _ _ _ _ _ _ _ H _ _ _ _ H0 H1 H2 _ (init_sub st' t')) as C.
  pose proof (init_no_config _ _ _ _ _ _ _ _ _ _ _ _ H _ _ _ _ H0 H1 H2) as NC. cbv zeta. unfold holds. split; [tauto|]. split; [|split]; intros B; exists false; auto.
Qed.
Lemma closed_lacks t f x : only_at t f x -> lacks (close t x) f.
Proof.
  intros O y (b & H). unfold close, upd in H. destruct (Z.eqb_spec y x) as [E|E]; [discriminate|]. apply E, O. exists b. exact H.
Qed.
Lemma input_ends : forall lim preload sin sout serr sync base pairs elf t0 st t close_all st' elf' t',
  started lim preload sin sout serr sync base pairs elf t0 st t ->
  child_setup lim close_all pairs elf sync st t = Some (st', elf', t') ->
  valid_children lim pairs -> std_open t0 ->
  let '((i, o, e), u) := parent_result sin sout serr st t in
  released [close u i; init_table st' t'; at_start st' t'] (base + 3) /\
  released [close u o; init_table st' t'; at_start st' t'] (base + 4) /\
  released [close u e; init_table st' t'; at_start st' t'] (base + 6).
Proof.
  intros until 4. pose proof (who_holds _ _ _ _ _ _ _ _ _ _ _ _ _ _ _ _ H H0 H1 H2) as W. pose proof (init_holds _ _ _ _ _ _ _ _ _ _ _ _ _ _ _ _ H H0 H1 H2) as V.
  destruct (parent_result sin sout serr st t) as [[[i o] e] u]. cbv zeta in W, V.
  split; [|split]; intros q [<-|[<-|[<-|[]]]]; try (apply closed_lacks; tauto); tauto.
Qed.
Lemma output_ends : forall lim preload sin sout serr sync base pairs elf t0 st t close_all st' elf' t',
  started lim preload sin sout serr sync base pairs elf t0 st t ->
  child_setup lim close_all pairs elf sync st t = Some (st', elf', t') ->
  valid_children lim pairs -> std_open t0 ->
  let u := snd (parent_result sin sout serr st t) in let g := at_start st' t' in
  released [u; close g 1] (base + 5) /\ released [u; close g 2] (base + 7) /\ released [u; close g 0] (base + 2).
Proof.
  intros until 4. pose proof (who_holds _ _ _ _ _ _ _ _ _ _ _ _ _ _ _ _ H H0 H1 H2) as W.
  destruct (parent_result sin sout serr st t) as [[[i o] e] u]. cbn [snd]. cbv zeta in *.
  split; [|split]; intros q [<-|[<-|[]]]; try (apply closed_lacks; tauto); tauto.
Qed.
Lemma library_ends : forall lim preload sin sout serr sync base pairs elf t0 st t close_all st' elf' t',
  started lim preload sin sout serr sync base pairs elf t0 st t ->
  child_setup lim close_all pairs elf sync st t = Some (st', elf', t') ->
  valid_children lim pairs -> std_open t0 ->
  let u := snd (parent_result sin sout serr st t) in
  forall f, f = (base + 1)%N \/ f = (base + 8)%N \/ f = (base + 9)%N -> released [u; init_table st' t'; at_start st' t'] f.
Proof.
  intros until 4. pose proof (who_holds _ _ _ _ _ _ _ _ _ _ _ _ _ _ _ _ H H0 H1 H2) as W. pose proof (init_holds _ _ _ _ _ _ _ _ _ _ _ _ _ _ _ _ H H0 H1 H2) as V.
  destruct (parent_result sin sout serr st t) as [[[i o] e] u]. cbn [snd]. cbv zeta in *.
  intros f [->|[->| ->]] q [<-|[<-|[<-|[]]]]; tauto.
Qed.
Lemma init_no_end : forall lim preload sin sout serr sync base pairs elf t0 st t close_all st' elf' t',
  started lim preload sin sout serr sync base pairs elf t0 st t ->
  child_setup lim close_all pairs elf sync st t = Some (st', elf', t') ->
  valid_children lim pairs -> std_open t0 ->
  forall others, let ps := init_table st' t' :: others in
  (sout = true -> ~ released ps (base + 5)) /\ (serr = true -> ~ released ps (base + 7)) /\ (sin = true -> ~ released ps (base + 2)).
Proof.
  intros until 4. pose proof (init_holds _ _ _ _ _ _ _ _ _ _ _ _ _ _ _ _ H H0 H1 H2) as V. cbv zeta in *. intros others.
  destruct V as (_ & V0 & V1 & V2). split; [|split]; intros B R.
  - exact (R _ (or_introl eq_refl) _ (V1 B)).
  - exact (R _ (or_introl eq_refl) _ (V2 B)).
  - exact (R _ (or_introl eq_refl) _ (V0 B)).
Qed.
Lemma init_inherits : forall lim preload sin sout serr sync base pairs elf t0 st t st' elf' t' x f,
  started lim preload sin sout serr sync base pairs elf t0 st t ->
  child_setup lim false pairs elf sync st t = Some (st', elf', t') ->
  holds t0 x f -> ~ In x (wanted pairs) -> ~ In x (map fst pairs) -> ~ piped sin sout serr x -> holds (init_table st' t') x f.
Proof. intros. eapply stays; eassumption. Qed.
Lemma child_waits : forall lim preload sin sout serr sync base pairs elf t0 st t close_all st2 elf' t3,
  started lim preload sin sout serr sync base pairs elf t0 st t ->
  child_redirects lim close_all pairs elf st t = Some (st2, elf', t3) -> lacks (waiting st2 t3) (base + 9).
Proof. intros. eapply no_own_end; eassumption. Qed.

Lemma reaches_setns : forall lim preload sin sout serr sync base pairs elf t0 st t close_all st' elf' t' enter_vfs mountns enter_net netns,
  let passed := entry_pairs close_all enter_vfs mountns enter_net netns pairs in
  started lim preload sin sout serr sync base passed elf t0 st t ->
  child_setup lim close_all passed elf sync st t = Some (st', elf', t') ->
  (length pairs + 2 <= 128)%nat -> 0 <= mountns -> 0 <= netns ->
  forall x f, (enter_vfs = true /\ x = mountns) \/ (enter_net = true /\ x = netns) ->
  holds t0 x f -> ~ piped sin sout serr x ->
  close_all = true \/ (~ In x (map fst pairs) /\ ~ In x (wanted pairs)) -> holds t' x f.
Proof.
  intros until 5. intros x f X T NP C. destruct close_all.
  - destruct (entry_both true enter_vfs mountns enter_net netns pairs eq_refl H1 H2 H3) as [B1 B2].
    eapply comes; [exact H|exact H0|exact T| |exact NP]. unfold passed. destruct X as [[X ->]|[X ->]]; auto.
  - destruct C as [C|[C1 C2]]; [discriminate|]. destruct (init_inherits _ _ _ _ _ _ _ _ _ _ _ _ _ _ _ _ _ H H0 T C2 C1 NP) as (b & I).
    exists b. apply (before_sub st'), init_sub. exact I.
Qed.
Lemma not_left : forall lim preload sin sout serr sync base pairs elf t0 st t close_all st' elf' t' enter_vfs mountns enter_net netns,
  let passed := entry_pairs close_all enter_vfs mountns enter_net netns pairs in
  started lim preload sin sout serr sync base passed elf t0 st t ->
  child_setup lim close_all passed elf sync st t = Some (st', elf', t') ->
  forall x f, holds (in_program enter_vfs mountns enter_net netns st' t') x f ->
  ~ (enter_vfs = true /\ x = mountns) /\ ~ (enter_net = true /\ x = netns) /\
  ((exists p, In (p, x) pairs /\ holds t0 p f) \/
   (piped sin sout serr x /\ (f = base + 2 \/ f = base + 5 \/ f = base + 7)%N) \/
   (x = elf' /\ elf <> -1 /\ holds t0 elf f) \/
   (preload = true /\ x = fst (rs_pipe st') /\ f = base) \/
   (close_all = false /\ holds t0 x f)).
Proof.
  intros until 2. intros x f (b & A). rewrite program_table in A. destruct ((enter_vfs && (x =? mountns)) || (enter_net && (x =? netns)))%bool eqn:E; [discriminate|].
  apply orb_false_iff in E. destruct E as [E1 E2].
  assert (N1 : ~ (enter_vfs = true /\ x = mountns)) by (intros [-> ->]; rewrite Z.eqb_refl in E1; discriminate).
  assert (N2 : ~ (enter_net = true /\ x = netns)) by (intros [-> ->]; rewrite Z.eqb_refl in E2; discriminate).
  split; [exact N1|]. split; [exact N2|].
  destruct (fds_only _ _ _ _ _ _ _ _ _ _ _ _ _ _ _ _ _ _ H H0 (ex_intro _ b A)) as [(p & I & B)|B]; [|right; exact B].
  apply entry_in in I. destruct I as [I|(_ & [[I1 I2]|[I1 I2]])]; [left; exists p; auto|exfalso; apply N1; split; congruence|exfalso; apply N2; split; congruence].
Qed.
Lemma number_taken : forall lim pairs p elf sync st t mountns enter_net netns,
  In (p, mountns) pairs -> 0 <= mountns -> (length pairs < 128)%nat ->
  child_setup lim true (entry_pairs true true mountns enter_net netns pairs) elf sync st t = None.
Proof.
  intros until 3. apply no_duplicates. intros ND.
  assert (P : preserve pairs mountns = pairs ++ [(mountns, mountns)]).
  { unfold preserve. destruct (Z.ltb_spec mountns 0); [lia|]. destruct (Z.leb_spec 128 (Z.of_nat (length pairs))); [lia|reflexivity]. }
  assert (ND' : NoDup (wanted (preserve pairs mountns))).
  { unfold entry_pairs in ND. destruct enter_net; [|exact ND]. unfold preserve at 1 in ND. destruct (_ || _) in ND; [exact ND|].
    unfold wanted in ND. rewrite map_app in ND. cbn [map snd] in ND. apply NoDup_remove_1 in ND. rewrite List.app_nil_r in ND. exact ND. }
  rewrite P in ND'. unfold wanted in ND'. rewrite map_app in ND'. cbn [map snd] in ND'. apply NoDup_remove_2 in ND'. apply ND'. rewrite app_nil_r.
  change mountns with (snd (p, mountns)). apply in_map. exact H.
Qed.
