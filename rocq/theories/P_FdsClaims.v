(* The claims about descriptors. *)
From Coq Require Import Lia.
From Verif Require Export P_Fds3.
Local Open Scope Z_scope.

Section run.
Variables (lim : Z) (preload sin sout serr sync : bool) (base : N) (pairs : list (Z * Z)) (elf : Z).
Variables (t0 : table) (st : run_state) (t : table).
Hypothesis S0 : started lim preload sin sout serr sync base pairs elf t0 st t.

Lemma ends_files : Forall2 (fun e bi => is_end (fst bi) (snd bi) t0 t e) (ends (pipes_of st)) (flags_ids preload sin sout serr sync base).
Proof. destruct S0 as (_ & O & _). apply open_spec in O. tauto. Qed.
Lemma the_pipe n : (n < 10)%nat ->
  is_end (fst (nth n (flags_ids preload sin sout serr sync base) (false, 0%N))) (snd (nth n (flags_ids preload sin sout serr sync base) (false, 0%N)))
    t0 t (nth n (ends (pipes_of st)) 0).
Proof. intros L. pose proof ends_files as F. exact (Forall2_nth' _ 0 (false, 0%N) _ _ F n L). Qed.

Lemma no_negative x f : holds t x f -> 0 <= x.
Proof.
  intros (b & T). destruct S0 as (_ & O & _ & N & _). apply open_spec in O. destruct O as (_ & _ & X).
  destruct (X x) as [E|[_ E]]; [|exact E]. destruct (Z_lt_le_dec x 0) as [L|L]; [|exact L]. rewrite N in E by exact L. congruence.
Qed.
Lemma before x f : holds t x f -> ~ In x (ends (pipes_of st)) -> holds t0 x f.
Proof.
  intros (b & T) N. destruct S0 as (_ & O & _). apply open_spec in O. destruct O as (_ & _ & X).
  destruct (X x) as [E|[E _]]; [exists b; congruence|contradiction].
Qed.
Lemma parent_before p f : In p (map fst pairs) -> holds t p f -> holds t0 p f.
Proof.
  intros I (b & T). destruct S0 as (_ & O & _ & _ & P & _). apply open_spec in O. destruct O as (G & _ & _).
  specialize (P _ I). destruct (t0 p) as [v|] eqn:V; [|contradiction]. exists b. rewrite V. apply G in V. congruence.
Qed.

Section child.
Variables (ca : bool) (st' : run_state) (elf' : Z) (t' : table).
Hypothesis H0 : child_setup lim ca pairs elf sync st t = Some (st', elf', t').

Lemma arrive p c f : In (p, c) pairs -> holds t0 p f -> ~ piped sin sout serr c -> at_start st' t' c = Some (f, false).
Proof.
  intros I T NP. pose proof (the_pipe 4 ltac:(lia)) as P4. pose proof (the_pipe 7 ltac:(lia)) as P7. pose proof (the_pipe 9 ltac:(lia)) as P9.
  cbn in P4, P7, P9. unfold is_end, piped in *.
  eapply preserved_arrive; [exact H0|eapply started_ready; exact S0|exact I| | | |].
  - destruct S0 as (_ & O & _). eapply holds_started; eassumption.
  - intros ->. destruct sin; [exfalso; apply NP; auto|exact P4].
  - intros ->. destruct sout; [exfalso; apply NP; auto|exact P7].
  - intros ->. destruct serr; [exfalso; apply NP; auto|exact P9].
Qed.
Lemma middle_of : exists st2 t3, middle lim ca pairs elf st t = Some (st2, elf', t3) /\ finish lim sync st2 t3 = Some (st', t').
Proof.
  pose proof H0 as H. rewrite setup_split in H. destruct (middle lim ca pairs elf st t) as [[[s2 e2] t3]|]; [|discriminate].
  destruct (finish lim sync s2 t3) as [[a b]|] eqn:F; [|discriminate]. injection H as -> -> ->. exists s2, t3. auto.
Qed.

(* the files of connected streams *)
Lemma connect_files (P : N -> Prop) x : forall l u u', connect_std lim l u = Some u' ->
  (forall a b, In (a, b) l -> a = -1 \/ exists f, holds u a f /\ P f) ->
  (exists f, holds u x f /\ P f) \/ (exists a, In (a, x) l /\ a <> -1 /\ a <> x) -> exists f, holds u' x f /\ P f.
Proof.
  induction l as [|[a b] l IH]; intros u u' H A X; cbn [connect_std] in H.
  - injection H as <-. destruct X as [X|(a & [] & _)]. exact X.
  - destruct ((a =? -1) || (a =? b)) eqn:E.
    + eapply IH; [exact H|intros a1 b1 I1; apply (A a1 b1); right; assumption|]. destruct X as [X|(c & [I|I] & N1 & N2)]; [left; exact X| |right; exists c; auto].
      injection I as -> ->. exfalso. apply orb_true_iff in E. destruct E as [E|E]; apply Z.eqb_eq in E; contradiction.
    + destruct (dup2 lim u a b) as [u1|] eqn:D; [|discriminate]. destruct (A a b (or_introl eq_refl)) as [->|(f & Hf & Pf)]; [discriminate E|].
      apply dup2_spec in D. destruct D as (g & c & D1 & _ & D).
      assert (g = f) by (destruct Hf as (cc & Hf); congruence). subst g.
      assert (B1 : exists g, holds u1 b g /\ P g).
      { exists f. split; [|exact Pf]. destruct D as [[-> ->]|(_ & D & _)]; [exact Hf|exists false; exact D]. }
      assert (O1 : forall y, y <> b -> u1 y = u y) by (intros y Y; destruct D as [[_ ->]|(_ & _ & D)]; auto).
      assert (Q : forall y, (exists g, holds u y g /\ P g) -> exists g, holds u1 y g /\ P g).
      { intros y (g & G1 & G2). destruct (Z.eq_dec y b) as [->|Y]; [exact B1|]. exists g. unfold holds. rewrite O1 by exact Y. auto. }
      eapply IH; [exact H| |].
      * intros a' b' I. destruct (A a' b' (or_intror I)) as [A'|A']; [left; exact A'|right; apply Q; exact A'].
      * destruct X as [X|(a' & [I|I] & N1 & N2)]; [left; apply Q; exact X| |right; exists a'; auto]. injection I as -> ->. left. exact B1.
Qed.

(* the pipes when the child has waited *)
Lemma the_end st2 t3 n : middle lim ca pairs elf st t = Some (st2, elf', t3) -> (n < 10)%nat ->
  has_end (wanted pairs) (fst (nth n (flags_ids preload sin sout serr sync base) (false, 0%N))) (snd (nth n (flags_ids preload sin sout serr sync base) (false, 0%N)))
    t3 (nth n (ends (pipes_of st2)) 0).
Proof. intros M L. pose proof (mid_ends _ _ _ _ _ _ _ _ _ _ _ _ _ _ _ _ S0 M) as F. exact (Forall2_nth' _ 0 (false, 0%N) _ _ F n L). Qed.
Definition quiet (st2 : run_state) (t3 : table) : table :=
  fun x => if sync && shut [snd (rs_sync st2); fst (rs_sync st2)] x then None else t3 x.
Lemma not_sync st2 t3 x f b : middle lim ca pairs elf st t = Some (st2, elf', t3) ->
  t3 x = Some (f, b) -> f <> (base + 8)%N -> f <> (base + 9)%N -> quiet st2 t3 x = Some (f, b).
Proof.
  intros M T N8 N9. unfold quiet. assert (SY : sync = true \/ sync = false) by (destruct sync; auto). destruct SY as [SY|SY]; rewrite SY; [|exact T]. cbn [andb].
  pose proof (the_end _ _ 2 M ltac:(lia)) as E2. pose proof (the_end _ _ 3 M ltac:(lia)) as E3. cbn in E2, E3. rewrite SY in E2, E3. cbn in E2, E3.
  replace (shut [snd (rs_sync st2); fst (rs_sync st2)] x) with false; [exact T|]. symmetry. apply shut_out. left.
  intros [I|[I|[]]]; subst x; [destruct E3 as (_ & E & _)|destruct E2 as (_ & E & _)]; rewrite E in T; injection T; congruence.
Qed.

Lemma only_before x f : holds (before_exec st' t') x f ->
  (exists p, In (p, x) pairs /\ holds t0 p f) \/
  (piped sin sout serr x /\ (f = base + 2 \/ f = base + 5 \/ f = base + 7)%N) \/
  (x = elf' /\ elf <> -1 /\ holds t0 elf f) \/
  (preload = true /\ x = fst (rs_pipe st') /\ f = base) \/
  (ca = false /\ holds t0 x f).
Proof.
  intros (b & B). destruct middle_of as (st2 & t3 & M & F). pose proof (core_mid _ _ _ _ _ _ _ _ _ M (started_ready _ _ _ _ _ _ _ _ _ _ _ _ S0)) as (ND & AR & K & OT).
  destruct (finish_spec _ _ _ _ _ _ F) as (t5 & C & EP & BE). fold (quiet st2 t3) in C. rewrite BE in B. rewrite EP. clear BE F EP.
  destruct (shut _ x) eqn:SH in B; [discriminate|].
  pose proof (the_end _ _ 4 M ltac:(lia)) as E4. pose proof (the_end _ _ 7 M ltac:(lia)) as E7. pose proof (the_end _ _ 9 M ltac:(lia)) as E9.
  cbn [nth flags_ids fst snd ends pipes_of flat_map app] in E4, E7, E9.
  assert (PD : piped sin sout serr x \/ ~ piped sin sout serr x).
  { unfold piped. destruct (Z.eq_dec x 0), (Z.eq_dec x 1), (Z.eq_dec x 2), sin, sout, serr; try (left; intuition congruence); right; intuition (lia || congruence). }
  destruct PD as [PD|PD].
  - right. left. split; [exact PD|].
    destruct (connect_files (fun f => (f = base + 2 \/ f = base + 5 \/ f = base + 7)%N) x _ _ _ C) as (g & (c & G1) & G2); [| |assert (g = f) by congruence; subst; exact G2].
    + assert (Q : forall bb i y, has_end (wanted pairs) bb i t3 y -> (i = base + 2 \/ i = base + 5 \/ i = base + 7)%N -> y = -1 \/ exists f0, holds (quiet st2 t3) y f0 /\ (f0 = base + 2 \/ f0 = base + 5 \/ f0 = base + 7)%N).
      { intros bb i y Hy Hi. unfold has_end in Hy. destruct bb; [right|left; exact Hy]. destruct Hy as (_ & Hy & _). exists i. split; [|exact Hi].
        exists false. apply not_sync; [exact M|exact Hy|lia|lia]. }
      intros a b' [I|[I|[I|[]]]]; injection I as <- <-; eapply Q; try eassumption; auto.
    + right. assert (SH' : forall y, In y [fst (rs_in st2); snd (rs_out st2); snd (rs_err st2)] -> y <> -1 -> y <> x).
      { intros y I N ->. apply Bool.not_true_iff_false in SH. apply SH. apply shut_in. split; [|exact N]. right. apply in_or_app. left. cbn in I |- *. tauto. }
      unfold has_end in E4, E7, E9. destruct PD as [[PD1 PD2]|[[PD1 PD2]|[PD1 PD2]]].
      * rewrite PD2 in E4. exists (fst (rs_in st2)). subst x. split; [left; reflexivity|]. split; [lia|apply SH'; [left; reflexivity|lia]].
      * rewrite PD2 in E7. exists (snd (rs_out st2)). subst x. split; [right; left; reflexivity|]. split; [lia|apply SH'; [right; left; reflexivity|lia]].
      * rewrite PD2 in E9. exists (snd (rs_err st2)). subst x. split; [right; right; left; reflexivity|]. split; [lia|apply SH'; [right; right; left; reflexivity|lia]].
  - assert (T5 : t5 x = quiet st2 t3 x).
    { eapply connect_other; [exact C|]. intros from I. left. unfold has_end in E4, E7, E9. unfold piped in PD. destruct I as [I|[I|[I|[]]]]; injection I as <- <-.
      - destruct sin; [exfalso; apply PD; auto|exact E4].
      - destruct sout; [exfalso; apply PD; auto|exact E7].
      - destruct serr; [exfalso; apply PD; auto|exact E9]. }
    rewrite T5 in B. unfold quiet in B. destruct (sync && shut [snd (rs_sync st2); fst (rs_sync st2)] x) eqn:SS; [discriminate|].
    destruct (in_dec Z.eq_dec x (wanted pairs)) as [W|W].
    + left. unfold wanted in W. apply in_map_iff in W. destruct W as ([p c] & E & I). cbn in E. subst c. exists p. split; [exact I|].
      assert (Ip : In p (map fst pairs)) by (change p with (fst (p, x)); apply in_map; exact I).
      pose proof S0 as (_ & O & _ & _ & P & _). specialize (P _ Ip). destruct (t0 p) as [[g c]|] eqn:V; [|contradiction].
      assert (Hp : holds t0 p g) by (exists c; exact V). assert (g = f) by (pose proof (AR _ _ _ I (holds_started _ _ _ _ _ _ _ _ _ _ _ _ O Hp)); congruence). subst g. exact Hp.
    + right. right. destruct (OT x f W (ex_intro _ b B)) as [(e & J & T)|(CA & J & T)].
      * unfold sources in J. destruct J as [J|J].
        -- injection J as <- <-. left. split; [reflexivity|]. pose proof (no_negative _ _ T) as NE. split; [lia|].
           destruct S0 as (_ & O & _ & _ & _ & [EL|EL] & _); [lia|]. apply open_spec in O. destruct O as (G & _ & _). destruct (t0 elf) as [v|] eqn:V; [|tauto].
           destruct T as (c & T). exists c. rewrite V. apply G in V. congruence.
        -- (* a pipe *)
           destruct (Z.eq_dec x (-1)) as [X|X].
           { exfalso. pose proof (Forall2_combine _ _ _ e x (Forall2_tail _ _ _ _ _ K) J) as [[Q _]|(_ & [Q|[Q _]] & _)]; [|subst e|lia]; pose proof (no_negative _ _ T); lia. }
           assert (XN : forall y, In y (snd (rs_pipe st2) :: ends [rs_in st2; rs_out st2; rs_err st2] ++ (if sync then [] else ends [rs_sync st2])) -> x <> y).
           { intros y I ->. apply Bool.not_true_iff_false in SH. apply SH. apply shut_in. auto. }
           assert (XS : sync = true -> forall y, In y [snd (rs_sync st2); fst (rs_sync st2)] -> x <> y).
           { intros SY y I ->. rewrite SY in SS. cbn [andb] in SS. apply Bool.not_true_iff_false in SS. apply SS. apply shut_in. auto. }
           assert (XF : x = fst (rs_pipe st2)).
           { pose proof (in_combine_r _ _ _ _ J) as R. cbn [ends pipes_of flat_map app In] in R, XN.
             destruct R as [R|R]; [auto|]. exfalso.
             destruct R as [R|[R|[R|R]]].
             - apply (XN (snd (rs_pipe st2))); [left; reflexivity|auto].
             - destruct sync; [apply (XS eq_refl (fst (rs_sync st2))); [right; left; reflexivity|auto]|]. apply (XN (fst (rs_sync st2))); [cbn; auto 12|auto].
             - destruct sync; [apply (XS eq_refl (snd (rs_sync st2))); [left; reflexivity|auto]|]. apply (XN (snd (rs_sync st2))); [cbn; auto 12|auto].
             - destruct R as [R|[R|[R|[R|[R|[R|[]]]]]]]; (apply (XN x); [rewrite <- R; cbn; auto 12|reflexivity]). }
           right. left. pose proof (the_end _ _ 0 M ltac:(lia)) as E0. cbn [nth flags_ids fst snd ends pipes_of flat_map app] in E0. rewrite <- XF in E0. unfold has_end in E0.
           destruct preload; [|lia]. split; [reflexivity|]. split; [exact XF|]. destruct E0 as (_ & E0 & _). congruence.
      * right. right. split; [exact CA|]. apply before; [exact T|]. intro I. apply J. right. exact I.
Qed.
Lemma started_before x f : holds (at_start st' t') x f -> holds (before_exec st' t') x f.
Proof.
  intros (b & A). exists b. unfold at_start, after_exec in A. destruct (before_exec st' t' x) as [[g []]|]; [discriminate|exact A|discriminate].
Qed.
Lemma only_these x f : holds (at_start st' t') x f ->
  (exists p, In (p, x) pairs /\ holds t0 p f) \/
  (piped sin sout serr x /\ (f = base + 2 \/ f = base + 5 \/ f = base + 7)%N) \/
  (x = elf' /\ elf <> -1 /\ holds t0 elf f) \/
  (preload = true /\ x = fst (rs_pipe st') /\ f = base) \/
  (ca = false /\ holds t0 x f).
Proof. intros A. apply only_before, started_before, A. Qed.

(* streams, when 0, 1 and 2 were open in the parent *)
Lemma high_ends st2 t3 n : (forall c, In c (wanted pairs) -> 0 <= c < lim) -> std_open t0 -> middle lim ca pairs elf st t = Some (st2, elf', t3) -> (n < 10)%nat ->
  nth n (ends (pipes_of st2)) 0 = -1 \/ 3 <= nth n (ends (pipes_of st2)) 0.
Proof.
  intros CB (U0 & U1 & U2) M L.
  assert (D : nth n (ends (pipes_of st)) 0 = -1 \/ 3 <= nth n (ends (pipes_of st)) 0).
  { pose proof (the_pipe n L) as P. unfold is_end in P. destruct (fst _); [|left; exact P]. destruct P as (P1 & P2 & _). right.
    remember (nth n (ends (pipes_of st)) 0) as e eqn:Ee. clear - P1 P2 U0 U1 U2. destruct (Z.eq_dec e 0); [congruence|]. destruct (Z.eq_dec e 1); [congruence|]. destruct (Z.eq_dec e 2); [congruence|]. lia. }
  pose proof S0 as (LL & _ & _ & _ & _ & _ & RO).
  pose proof (core_mid _ _ _ _ _ _ _ _ _ M (started_ready _ _ _ _ _ _ _ _ _ _ _ _ S0)) as (ND & AR & K & OT).
  destruct (middle_ok lim ca pairs elf st t LL (started_ready _ _ _ _ _ _ _ _ _ _ _ _ S0) RO ND CB) as (s2 & e2 & u3 & M' & B & _).
  assert (E : s2 = st2) by congruence. subst s2. pose proof (Forall2_nth' _ 0 0 _ _ B n L) as Q. cbn beta in Q. lia.
Qed.
Lemma streams_ok : (forall c, In c (wanted pairs) -> 0 <= c < lim) -> std_open t0 ->
  (sin = true -> at_start st' t' 0 = Some (base + 2, false)%N) /\
  (sout = true -> at_start st' t' 1 = Some (base + 5, false)%N) /\
  (serr = true -> at_start st' t' 2 = Some (base + 7, false)%N).
Proof.
  intros CB SO. destruct middle_of as (st2 & t3 & M & F). destruct (finish_spec _ _ _ _ _ _ F) as (t5 & C & EP & BE). fold (quiet st2 t3) in C.
  pose proof (fun n => high_ends st2 t3 n CB SO M) as HE.
  pose proof (the_end _ _ 4 M ltac:(lia)) as E4. pose proof (the_end _ _ 7 M ltac:(lia)) as E7. pose proof (the_end _ _ 9 M ltac:(lia)) as E9.
  pose proof (HE 4%nat ltac:(lia)) as H4. pose proof (HE 7%nat ltac:(lia)) as H7. pose proof (HE 9%nat ltac:(lia)) as H9.
  cbn [nth flags_ids fst snd ends pipes_of flat_map app] in E4, E7, E9, H4, H7, H9.
  destruct (streams _ _ _ _ C H4 H7 H9) as (S1 & S2 & S3).
  assert (SH : forall x, x < 3 -> x <> -1 -> shut (snd (rs_pipe st2) :: ends [rs_in st2; rs_out st2; rs_err st2] ++ (if sync then [] else ends [rs_sync st2])) x = false).
  { intros x X X1. apply shut_out. left. intro I.
    assert (J : exists n, (n < 10)%nat /\ x = nth n (ends (pipes_of st2)) 0).
    { assert (J : In x (ends (pipes_of st2))) by (destruct sync; cbn in *; tauto). apply (In_nth _ _ 0) in J. destruct J as (n & J1 & J2). exists n. auto. }
    destruct J as (n & J1 & J2). specialize (HE n J1). lia. }
  assert (AT : forall x f, x = 0 \/ x = 1 \/ x = 2 -> t5 x = Some (f, false) -> at_start st' t' x = Some (f, false)).
  { intros x f X T. unfold at_start, after_exec. rewrite BE, SH by lia. rewrite T. reflexivity. }
  unfold has_end in E4, E7, E9. split; [|split].
  - intros B. rewrite B in E4. destruct E4 as (E4 & E4' & _). apply AT; [auto|]. apply S1; [lia|]. exists false. apply not_sync; [exact M|exact E4'|lia|lia].
  - intros B. rewrite B in E7. destruct E7 as (E7 & E7' & _). apply AT; [auto|]. apply S2; [lia|]. exists false. apply not_sync; [exact M|exact E7'|lia|lia].
  - intros B. rewrite B in E9. destruct E9 as (E9 & E9' & _). apply AT; [auto|]. apply S3; [lia|]. exists false. apply not_sync; [exact M|exact E9'|lia|lia].
Qed.
(* the configuration pipe *)
Lemma config_ok : (forall c, In c (wanted pairs) -> 0 <= c < lim) -> std_open t0 -> preload = true ->
  at_start st' t' (fst (rs_pipe st')) = Some (base, false) /\
  (~ In (fst (rs_pipe st)) (wanted pairs) -> fst (rs_pipe st') = fst (rs_pipe st)).
Proof.
  intros CB SO PL. destruct middle_of as (st2 & t3 & M & F). destruct (finish_spec _ _ _ _ _ _ F) as (t5 & C & EP & BE). fold (quiet st2 t3) in C.
  pose proof (the_end _ _ 0 M ltac:(lia)) as E0. pose proof (high_ends st2 t3 0 CB SO M ltac:(lia)) as H0'.
  cbn [nth flags_ids fst snd ends pipes_of flat_map app] in E0, H0'. rewrite EP. unfold has_end in E0. rewrite PL in E0. destruct E0 as (E1 & E2 & E3).
  split.
  - unfold at_start, after_exec. rewrite BE.
    assert (SH : shut (snd (rs_pipe st2) :: ends [rs_in st2; rs_out st2; rs_err st2] ++ (if sync then [] else ends [rs_sync st2])) (fst (rs_pipe st2)) = false).
    { apply shut_out. left. intro I.
      assert (J : exists n, (0 < n < 10)%nat /\ fst (rs_pipe st2) = nth n (ends (pipes_of st2)) 0).
      { assert (J : In (fst (rs_pipe st2)) (tl (ends (pipes_of st2)))) by (destruct sync; cbn in *; tauto). apply (In_nth _ _ 0) in J.
        destruct J as (n & J1 & J2). exists (S n). split; [cbn in J1; lia|]. symmetry. exact J2. }
      destruct J as (n & J1 & J2). pose proof (the_end _ _ n M ltac:(lia)) as EN. rewrite <- J2 in EN. unfold has_end in EN.
      destruct (fst (nth n (flags_ids preload sin sout serr sync base) (false, 0%N))); [|lia]. destruct EN as (_ & EN & _).
      assert (Q : snd (nth n (flags_ids preload sin sout serr sync base) (false, 0%N)) <> base).
      { destruct J1 as [J1 J1']. clear - J1 J1'. do 10 (destruct n as [|n]; [cbn; lia|]). lia. }
      congruence. }
    rewrite SH. rewrite (connect_other _ _ _ _ _ C).
    + rewrite (not_sync _ _ _ _ _ M E2); [reflexivity|lia|lia].
    + intros from [I|[I|[I|[]]]]; injection I as I1 I2; lia.
  - intros NI. pose proof (core_mid _ _ _ _ _ _ _ _ _ M (started_ready _ _ _ _ _ _ _ _ _ _ _ _ S0)) as (_ & _ & K & _).
    pose proof (Forall2_nth' _ 0 0 _ _ K 1%nat ltac:(cbn; lia)) as Q. cbn [nth ends pipes_of flat_map app] in Q.
    destruct Q as [[Q1 Q2]|(_ & [Q|[_ Q]] & _)]; [congruence|exact Q|contradiction].
Qed.
(* the program file *)
Lemma elf_ok f : (forall c, In c (wanted pairs) -> 0 <= c < lim) -> std_open t0 -> ~ In elf (map fst pairs) -> ~ In elf [0; 1; 2] ->
  holds t0 elf f -> holds (before_exec st' t') elf' f.
Proof.
  intros CB SO NP NL T. assert (T1 : holds t elf f) by (destruct S0 as (_ & O & _); eapply holds_started; eassumption).
  assert (FB : (f < base)%N) by (destruct S0 as (_ & _ & O & _); eapply O; exact T).
  destruct middle_of as (st2 & t3 & M & F). destruct (finish_spec _ _ _ _ _ _ F) as (t5 & C & EP & BE). fold (quiet st2 t3) in C.
  pose proof (core_mid _ _ _ _ _ _ _ _ _ M (started_ready _ _ _ _ _ _ _ _ _ _ _ _ S0)) as (ND & _ & K & _).
  pose proof (no_negative _ _ T1) as NN.
  assert (T3 : holds t3 elf' f /\ (elf' = elf \/ 3 <= elf')).
  { pose proof S0 as (LL & _ & _ & _ & _ & _ & RO).
    destruct (middle_ok lim ca pairs elf st t LL (started_ready _ _ _ _ _ _ _ _ _ _ _ _ S0) RO ND CB) as (s2 & e2 & u3 & M' & _ & Q3).
    assert (E : e2 = elf') by congruence. subst e2.
    inversion K as [|? ? ? ? K1 _]; subst. destruct K1 as [[K1 _]|(_ & K1 & K2 & K3)]; [lia|]. destruct T1 as (b & T1). destruct (K3 NP _ _ T1) as (b' & K4 & _).
    split; [exists b'; exact K4|exact Q3]. }
  destruct T3 as ((b & T3) & RG).
  assert (NE : forall n, (n < 10)%nat -> elf' <> nth n (ends (pipes_of st2)) 0).
  { intros n L E. pose proof (the_end _ _ n M L) as EN. rewrite <- E in EN. unfold has_end in EN.
    destruct (fst (nth n (flags_ids preload sin sout serr sync base) (false, 0%N))); [|lia]. destruct EN as (_ & EN & _).
    assert (Q : (base <= snd (nth n (flags_ids preload sin sout serr sync base) (false, 0%N)))%N).
    { clear - L. do 10 (destruct n as [|n]; [cbn; lia|]). lia. }
    assert (EF : f = snd (nth n (flags_ids preload sin sout serr sync base) (false, 0%N))) by congruence. clear - EF Q FB. lia. }
  assert (NI : forall l, incl l (ends (pipes_of st2)) -> shut l elf' = false).
  { intros l L. apply shut_out. left. intro I. apply L in I. apply (In_nth _ _ 0) in I. destruct I as (n & I1 & I2). apply (NE n I1). symmetry. exact I2. }
  exists b. rewrite BE, NI by (intros y Y; destruct sync; cbn in *; tauto).
  rewrite (connect_other _ _ _ _ _ C).
  - apply not_sync; [exact M|exact T3|lia|lia].
  - intros from I. exfalso. cbn in NL. destruct I as [I|[I|[I|[]]]]; injection I as I1 I2; subst elf'; (destruct RG as [RG|RG]; [apply NL; tauto|lia]).
Qed.
End child.

(* it works *)
Lemma setup_ok ca : NoDup (wanted pairs) -> (forall c, In c (wanted pairs) -> 0 <= c < lim) ->
  exists st' elf' t', child_setup lim ca pairs elf sync st t = Some (st', elf', t').
Proof.
  intros ND CB. pose proof S0 as (LL & _ & _ & _ & _ & _ & RO).
  destruct (middle_ok lim ca pairs elf st t LL (started_ready _ _ _ _ _ _ _ _ _ _ _ _ S0) RO ND CB) as (st2 & elf' & t3 & M & _).
  assert (L3 : 3 <= lim) by lia.
  destruct (finish_ok lim preload sin sout serr sync base (wanted pairs) st2 t3 L3 (mid_ends _ _ _ _ _ _ _ _ _ _ _ _ _ _ _ _ S0 M)) as (st' & t' & F).
  rewrite setup_split, M, F. do 3 eexists. reflexivity.
Qed.

(* the parent *)
Lemma parent_ok : let '((i, o, e), u) := parent_result sin sout serr st t in
  (sin = true -> u i = Some (base + 3, false)%N) /\ (sout = true -> u o = Some (base + 4, false)%N) /\ (serr = true -> u e = Some (base + 6, false)%N) /\
  (forall x, u x = t0 x \/ (sin = true /\ x = i) \/ (sout = true /\ x = o) \/ (serr = true /\ x = e)).
Proof.
  cbn [parent_result].
  pose proof (fun n => the_pipe n) as P.
  assert (FI : forall n m, (n < 10)%nat -> (m < 10)%nat -> n <> m -> 0 <= nth n (ends (pipes_of st)) 0 -> nth n (ends (pipes_of st)) 0 <> nth m (ends (pipes_of st)) 0).
  { intros n m Ln Lm NM NN E. pose proof (P n Ln) as Pn. pose proof (P m Lm) as Pm. rewrite <- E in Pm. unfold is_end in Pn, Pm.
    destruct (fst (nth n _ _)) in Pn; [|lia]. destruct (fst (nth m _ _)) in Pm; [|lia]. destruct Pn as (_ & _ & Pn), Pm as (_ & _ & Pm).
    assert (EF : snd (nth n (flags_ids preload sin sout serr sync base) (false, 0%N)) = snd (nth m (flags_ids preload sin sout serr sync base) (false, 0%N))) by congruence.
    clear - EF Ln Lm NM.
    do 10 (destruct n as [|n]; [do 10 (destruct m as [|m]; [cbn in EF; (lia || contradiction)|]); lia|]). lia. }
  assert (OE : forall n, (n < 10)%nat -> t0 (nth n (ends (pipes_of st)) 0) = None).
  { intros n L. pose proof (P n L) as Pn. unfold is_end in Pn. destruct (fst (nth n _ _)) in Pn; [tauto|]. rewrite Pn.
    pose proof S0 as (_ & _ & _ & NG & _). apply NG. lia. }
  set (take := fun (b : bool) (fd : Z) => if b then -1 else fd).
  set (shutl := ends [rs_pipe st; (fst (rs_in st), take sin (snd (rs_in st))); (take sout (fst (rs_out st)), snd (rs_out st));
                   (take serr (fst (rs_err st)), snd (rs_err st)); rs_sync st]).
  assert (U : forall x, free_run_state (RunState (rs_pipe st) (rs_sync st) (fst (rs_in st), take sin (snd (rs_in st))) (take sout (fst (rs_out st)), snd (rs_out st))
                     (take serr (fst (rs_err st)), snd (rs_err st))) t x = if shut shutl x then None else t x).
  { intro x. unfold free_run_state, shutl. cbn [rs_in rs_out rs_err rs_pipe rs_sync fold_left]. rewrite !close_pair_spec.
    cbn [ends flat_map app fst snd]. rewrite !shut_cons. replace (shut [] x) with false by reflexivity.
    repeat match goal with |- context [if ?a =? -1 then false else ?b] => destruct (if a =? -1 then false else b) end; reflexivity. }
  pose proof (P 5%nat ltac:(lia)) as P5. pose proof (P 6%nat ltac:(lia)) as P6. pose proof (P 8%nat ltac:(lia)) as P8.
  cbn [nth flags_ids fst snd ends pipes_of flat_map app] in P5, P6, P8.
  assert (KEEP : forall n b, (n = 5 /\ b = sin \/ n = 6 /\ b = sout \/ n = 8 /\ b = serr)%nat -> b = true -> 0 <= nth n (ends (pipes_of st)) 0 -> shut shutl (nth n (ends (pipes_of st)) 0) = false).
  { intros n b NB B NN. apply shut_out. left. intro I.
    assert (Ln : (n < 10)%nat) by lia.
    assert (J : exists m, (m < 10)%nat /\ m <> n /\ nth n (ends (pipes_of st)) 0 = nth m (ends (pipes_of st)) 0).
    { clear - NB B NN I. unfold shutl, take in I. cbn [ends flat_map app fst snd In] in I.
      assert (W : forall m, (m < 10)%nat -> m <> n -> nth m (ends (pipes_of st)) 0 = nth n (ends (pipes_of st)) 0 -> exists m, (m < 10)%nat /\ m <> n /\ nth n (ends (pipes_of st)) 0 = nth m (ends (pipes_of st)) 0).
      { intros m M1 M2 M3. exists m. auto. }
      destruct I as [I|[I|[I|[I|[I|[I|[I|[I|[I|[I|[]]]]]]]]]]].
      - apply (W 0%nat); [lia|lia|exact I].
      - apply (W 1%nat); [lia|lia|exact I].
      - apply (W 4%nat); [lia|lia|exact I].
      - destruct sin; [lia|]. apply (W 5%nat); [lia| |exact I]. destruct NB as [[-> NB]|[[-> _]|[-> _]]]; [congruence|lia|lia].
      - destruct sout; [lia|]. apply (W 6%nat); [lia| |exact I]. destruct NB as [[-> _]|[[-> NB]|[-> _]]]; [lia|congruence|lia].
      - apply (W 7%nat); [lia|lia|exact I].
      - destruct serr; [lia|]. apply (W 8%nat); [lia| |exact I]. destruct NB as [[-> _]|[[-> _]|[-> NB]]]; [lia|lia|congruence].
      - apply (W 9%nat); [lia|lia|exact I].
      - apply (W 2%nat); [lia|lia|exact I].
      - apply (W 3%nat); [lia|lia|exact I]. }
    destruct J as (m & J1 & J2 & J3). exact (FI n m Ln J1 (not_eq_sym J2) NN J3). }
  unfold is_end in P5, P6, P8.
  split; [|split; [|split]].
  - intros B. rewrite U. rewrite B in P5. destruct P5 as (P5 & _ & P5'). pose proof (KEEP 5%nat sin ltac:(auto) B P5) as Q. cbn [nth ends pipes_of flat_map app] in Q. rewrite Q. exact P5'.
  - intros B. rewrite U. rewrite B in P6. destruct P6 as (P6 & _ & P6'). pose proof (KEEP 6%nat sout ltac:(auto) B P6) as Q. cbn [nth ends pipes_of flat_map app] in Q. rewrite Q. exact P6'.
  - intros B. rewrite U. rewrite B in P8. destruct P8 as (P8 & _ & P8'). pose proof (KEEP 8%nat serr ltac:(auto) B P8) as Q. cbn [nth ends pipes_of flat_map app] in Q. rewrite Q. exact P8'.
  - intro x. rewrite U. pose proof S0 as (_ & O & _). apply open_spec in O. destruct O as (_ & _ & X).
    destruct (shut shutl x) eqn:SH.
    + left. apply shut_in in SH. destruct SH as [I N].
      assert (J : In x (ends (pipes_of st))).
      { clear - I N. unfold shutl, take in I. destruct sin, sout, serr; cbn in *; intuition congruence. }
      apply (In_nth _ _ 0) in J. destruct J as (n & J1 & <-). symmetry. apply OE. exact J1.
    + destruct (X x) as [E|[E NN]]; [left; exact E|]. right. apply shut_out in SH. destruct SH as [SH|SH]; [|lia].
      clear - E SH. unfold shutl, take in SH. destruct sin, sout, serr; cbn in *; intuition congruence.
Qed.
End run.

Lemma no_duplicates lim ca pairs elf sync st t : ~ NoDup (wanted pairs) -> child_setup lim ca pairs elf sync st t = None.
Proof.
  intros ND. rewrite setup_split. destruct (middle lim ca pairs elf st t) as [[[s2 e2] t3]|] eqn:M; [|reflexivity]. exfalso. apply ND.
  unfold middle in M. destruct (prepare_preserved_fds lim _ [] pairs) as [[l t1]|] eqn:E; [|discriminate].
  destruct (prepare_ok _ _ _ _ _ E) as (_ & _ & N & ST & _). rewrite <- (stands_wanted _ _ _ _ _ ST). exact N.
Qed.
Lemma array_fits st pairs elf : (length pairs <= 128)%nat -> (length (inheritable_fds st pairs elf) <= 11 + 128)%nat.
Proof.
  intros L. unfold inheritable_fds. rewrite !app_length, map_length.
  assert (F : forall l : list Z, (length (filter (fun fd => negb (fd =? -1)%Z) l) <= length l)%nat).
  { induction l as [|x l IH]; [reflexivity|]. cbn. destruct (negb (x =? -1)); cbn; lia. }
  specialize (F (flat_map (fun p => [fst p; snd p]) (pipes_of st))). cbn in F |- *. destruct (-1 <? elf); cbn [length]; lia.
Qed.

(* In the form of the theorems. *)
Lemma fds_arrive : forall lim preload sin sout serr sync base pairs elf t0 st t close_all,
  started lim preload sin sout serr sync base pairs elf t0 st t -> NoDup (wanted pairs) -> valid_children lim pairs ->
  exists st' elf' t', child_setup lim close_all pairs elf sync st t = Some (st', elf', t') /\
    forall p c f, In (p, c) pairs -> holds t0 p f -> ~ piped sin sout serr c -> at_start st' t' c = Some (f, false).
Proof.
  intros lim preload sin sout serr sync base pairs elf t0 st t ca S N V.
  destruct (setup_ok _ _ _ _ _ _ _ _ _ _ _ _ S ca N V) as (st' & elf' & t' & H). exists st', elf', t'. split; [exact H|].
  exact (arrive _ _ _ _ _ _ _ _ _ _ _ _ S ca st' elf' t' H).
Qed.
Lemma fds_config : forall lim preload sin sout serr sync base pairs elf t0 st t close_all st' elf' t',
  started lim preload sin sout serr sync base pairs elf t0 st t ->
  child_setup lim close_all pairs elf sync st t = Some (st', elf', t') ->
  valid_children lim pairs -> std_open t0 -> preload = true ->
  at_start st' t' (fst (rs_pipe st')) = Some (base, false) /\
  (~ In (fst (rs_pipe st)) (wanted pairs) -> fst (rs_pipe st') = fst (rs_pipe st)).
Proof. intros lim preload sin sout serr sync base pairs elf t0 st t ca st' elf' t' S H. exact (config_ok _ _ _ _ _ _ _ _ _ _ _ _ S ca st' elf' t' H). Qed.
Lemma fds_program : forall lim preload sin sout serr sync base pairs elf t0 st t close_all st' elf' t' f,
  started lim preload sin sout serr sync base pairs elf t0 st t ->
  child_setup lim close_all pairs elf sync st t = Some (st', elf', t') ->
  valid_children lim pairs -> std_open t0 -> ~ In elf (map fst pairs) -> ~ In elf [0; 1; 2] ->
  holds t0 elf f -> holds (before_exec st' t') elf' f.
Proof. intros lim preload sin sout serr sync base pairs elf t0 st t ca st' elf' t' f S H. exact (elf_ok _ _ _ _ _ _ _ _ _ _ _ _ S ca st' elf' t' H f). Qed.
Lemma fds_streams : forall lim preload sin sout serr sync base pairs elf t0 st t close_all st' elf' t',
  started lim preload sin sout serr sync base pairs elf t0 st t ->
  child_setup lim close_all pairs elf sync st t = Some (st', elf', t') ->
  valid_children lim pairs -> std_open t0 ->
  (sin = true -> at_start st' t' 0 = Some ((base + 2)%N, false)) /\
  (sout = true -> at_start st' t' 1 = Some ((base + 5)%N, false)) /\
  (serr = true -> at_start st' t' 2 = Some ((base + 7)%N, false)).
Proof. intros lim preload sin sout serr sync base pairs elf t0 st t ca st' elf' t' S H. exact (streams_ok _ _ _ _ _ _ _ _ _ _ _ _ S ca st' elf' t' H). Qed.
Lemma fds_only : forall lim preload sin sout serr sync base pairs elf t0 st t close_all st' elf' t' x f,
  started lim preload sin sout serr sync base pairs elf t0 st t ->
  child_setup lim close_all pairs elf sync st t = Some (st', elf', t') ->
  holds (at_start st' t') x f ->
  (exists p, In (p, x) pairs /\ holds t0 p f) \/
  (piped sin sout serr x /\ (f = base + 2 \/ f = base + 5 \/ f = base + 7)%N) \/
  (x = elf' /\ elf <> -1 /\ holds t0 elf f) \/
  (preload = true /\ x = fst (rs_pipe st') /\ f = base) \/
  (close_all = false /\ holds t0 x f).
Proof. intros lim preload sin sout serr sync base pairs elf t0 st t ca st' elf' t' x f S H. exact (only_these _ _ _ _ _ _ _ _ _ _ _ _ S ca st' elf' t' H x f). Qed.
