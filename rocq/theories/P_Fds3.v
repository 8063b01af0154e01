(* Proofs about descriptors: the pipes of a run, the streams, the parent. *)
From Coq Require Import Lia.
From Verif Require Export P_Fds2.
Local Open Scope Z_scope.

Lemma lowest_spec lim t a : lowest_free lim t = Some a -> 0 <= a < lim /\ t a = None.
Proof.
  unfold lowest_free. intros H. apply find_some in H. destruct H as [I O]. apply in_map_iff in I. destruct I as (n & <- & I). apply in_seq in I.
  split; [lia|]. unfold is_open in O. destruct (t (Z.of_nat n)); [discriminate|reflexivity].
Qed.
Lemma upd_same t a v : upd t a v a = v. Proof. unfold upd. now rewrite Z.eqb_refl. Qed.
Lemma upd_other t a v x : x <> a -> upd t a v x = t x.
Proof. intros N. unfold upd. destruct (Z.eqb_spec x a); [contradiction|reflexivity]. Qed.

(* one pipe *)
Definition made (b : bool) (id : N) (p : Z * Z) (t t' : table) : Prop :=
  if b then 0 <= fst p /\ 0 <= snd p /\ t (fst p) = None /\ t (snd p) = None /\
            t' (fst p) = Some (id, false) /\ t' (snd p) = Some ((id + 1)%N, false) /\
            forall x, x <> fst p -> x <> snd p -> t' x = t x
  else p = (-1, -1) /\ t' = t.
Lemma pipe_if_spec b lim t id p t' : pipe_if b lim t id = Some (p, t') -> made b id p t t'.
Proof.
  unfold pipe_if, made. destruct b; [|intros H; injection H as <- <-; auto]. unfold pipe.
  destruct (lowest_free lim t) as [a|] eqn:A; [|discriminate]. destruct (lowest_free lim (upd _ _ _)) as [b|] eqn:B; [|discriminate].
  intros H. injection H as <- <-. apply lowest_spec in A, B. destruct A as [A1 A2], B as [B1 B2].
  assert (N : b <> a) by (intros ->; rewrite upd_same in B2; discriminate). rewrite upd_other in B2 by exact N. cbn [fst snd].
  split; [lia|]. split; [lia|]. split; [exact A2|]. split; [exact B2|].
  split; [rewrite upd_other by congruence; apply upd_same|]. split; [apply upd_same|]. intros x X Y. rewrite !upd_other by assumption. reflexivity.
Qed.
Lemma made_grew b id p t t' : made b id p t t' -> grew t t'.
Proof.
  unfold made. destruct b; [|intros [_ ->]; apply grew_refl]. intros (_ & _ & A & B & _ & _ & C) x v H.
  rewrite C; [exact H| |]; intros ->; congruence.
Qed.

(* an end of a pipe is missing, or has the file [id] *)
Definition is_end (b : bool) (id : N) (t0 t : table) (e : Z) : Prop :=
  if b then 0 <= e /\ t0 e = None /\ t e = Some (id, false) else e = -1.
Definition flags_ids (preload sin sout serr sync : bool) (base : N) : list (bool * N) :=
  [(preload, base); (preload, base + 1); (sync, base + 8); (sync, base + 9); (sin, base + 2); (sin, base + 3);
   (sout, base + 4); (sout, base + 5); (serr, base + 6); (serr, base + 7)]%N.
Lemma made_ends b id p t0 t1 t2 t3 : made b id p t1 t2 -> grew t0 t1 -> grew t2 t3 ->
  is_end b id t0 t3 (fst p) /\ is_end b (id + 1)%N t0 t3 (snd p).
Proof.
  unfold made, is_end. destruct b; [|intros [-> _]; auto]. intros (A & B & C & D & E & F & _) G0 G3.
  assert (NB : forall x, t1 x = None -> t0 x = None) by (intros x X; destruct (t0 x) eqn:V; [apply G0 in V; congruence|reflexivity]).
  repeat split; auto.
Qed.
Lemma made_same b id p t t' x : made b id p t t' -> t' x = t x \/ (x = fst p /\ 0 <= x) \/ (x = snd p /\ 0 <= x).
Proof.
  unfold made. destruct b; [|intros [_ ->]; auto]. intros (A & B & _ & _ & _ & _ & E).
  destruct (Z.eq_dec x (fst p)); [subst; auto|]. destruct (Z.eq_dec x (snd p)); [subst; auto|]. left. auto.
Qed.
Lemma open_spec lim preload sin sout serr sync base t0 st t :
  open_pipes lim preload sin sout serr sync base t0 = Some (st, t) ->
  grew t0 t /\
  Forall2 (fun e bi => is_end (fst bi) (snd bi) t0 t e) (ends (pipes_of st)) (flags_ids preload sin sout serr sync base) /\
  forall x, t x = t0 x \/ In x (ends (pipes_of st)) /\ 0 <= x.
Proof.
  unfold open_pipes. intros H.
  destruct (pipe_if preload lim t0 base) as [[p t1]|] eqn:E1; [|discriminate]. destruct (pipe_if sin lim t1 (base + 2)%N) as [[i t2]|] eqn:E2; [|discriminate].
  destruct (pipe_if sout lim t2 (base + 4)%N) as [[o t3]|] eqn:E3; [|discriminate]. destruct (pipe_if serr lim t3 (base + 6)%N) as [[e t4]|] eqn:E4; [|discriminate].
  destruct (pipe_if sync lim t4 (base + 8)%N) as [[s t5]|] eqn:E5; [|discriminate]. injection H as <- <-.
  apply pipe_if_spec in E1, E2, E3, E4, E5.
  pose proof (made_grew _ _ _ _ _ E1) as G1. pose proof (made_grew _ _ _ _ _ E2) as G2. pose proof (made_grew _ _ _ _ _ E3) as G3.
  pose proof (made_grew _ _ _ _ _ E4) as G4. pose proof (made_grew _ _ _ _ _ E5) as G5.
  pose proof (grew_trans _ _ _ G1 G2) as H2. pose proof (grew_trans _ _ _ H2 G3) as H3. pose proof (grew_trans _ _ _ H3 G4) as H4.
  pose proof (grew_trans _ _ _ G4 G5) as K4. pose proof (grew_trans _ _ _ G3 K4) as K3. pose proof (grew_trans _ _ _ G2 K3) as K2.
  split; [exact (grew_trans _ _ _ H4 G5)|]. split.
  - pose proof (made_ends _ _ _ t0 _ _ _ E1 (grew_refl _) K2) as [F1 F1'].
    pose proof (made_ends _ _ _ t0 _ _ _ E2 G1 K3) as [F2 F2']. pose proof (made_ends _ _ _ t0 _ _ _ E3 H2 K4) as [F3 F3'].
    pose proof (made_ends _ _ _ t0 _ _ _ E4 H3 G5) as [F4 F4']. pose proof (made_ends _ _ _ t0 _ _ _ E5 H4 (grew_refl _)) as [F5 F5'].
    rewrite <- N.add_assoc in *. cbn in F2', F3', F4', F5'.
    cbn [ends flat_map pipes_of rs_pipe rs_sync rs_in rs_out rs_err app flags_ids].
    repeat (constructor; [assumption|]). constructor.
  - intro x. cbn [ends flat_map pipes_of rs_pipe rs_sync rs_in rs_out rs_err app In].
    destruct (made_same _ _ _ _ _ x E1) as [Q1|[[Q1 ?]|[Q1 ?]]]; [|right; split; [auto 15|assumption]..].
    destruct (made_same _ _ _ _ _ x E2) as [Q2|[[Q2 ?]|[Q2 ?]]]; [|right; split; [auto 15|assumption]..].
    destruct (made_same _ _ _ _ _ x E3) as [Q3|[[Q3 ?]|[Q3 ?]]]; [|right; split; [auto 15|assumption]..].
    destruct (made_same _ _ _ _ _ x E4) as [Q4|[[Q4 ?]|[Q4 ?]]]; [|right; split; [auto 15|assumption]..].
    destruct (made_same _ _ _ _ _ x E5) as [Q5|[[Q5 ?]|[Q5 ?]]]; [|right; split; [auto 15|assumption]..]. left. congruence.
Qed.

Lemma started_ready lim preload sin sout serr sync base pairs elf t0 st t :
  started lim preload sin sout serr sync base pairs elf t0 st t -> ready pairs elf st t.
Proof.
  intros (_ & O & _ & _ & P & E & _). apply open_spec in O. destruct O as (G & F & _).
  assert (NN : forall x, t0 x <> None -> t x <> None) by (intros x V; destruct (t0 x) eqn:T; [apply G in T; congruence|contradiction]).
  split; [intros p I; apply NN, P, I|]. intros e [<-|I]; [destruct E as [E|[E1 E2]]; [right; exact E|left; split; [exact E1|apply NN; exact E2]]|].
  destruct (Forall2_ex' _ _ _ _ F I) as ([b id] & _ & Q). unfold is_end in Q. cbn [fst snd] in Q. destruct b; [left|right; exact Q].
  destruct Q as (A & _ & B). split; [exact A|congruence].
Qed.
Lemma holds_started lim preload sin sout serr sync base t0 st t p f :
  open_pipes lim preload sin sout serr sync base t0 = Some (st, t) -> holds t0 p f -> holds t p f.
Proof. intros O (b & T). apply open_spec in O. destruct O as (G & _). exists b. apply G. exact T. Qed.

(* the pipes as the child has them when it waits for the parent *)
Definition has_end (w : list Z) (b : bool) (id : N) (t3 : table) (e : Z) : Prop :=
  if b then 0 <= e /\ t3 e = Some (id, false) /\ ~ In e w else e = -1.
Lemma Forall2_nth' {A B} (P : A -> B -> Prop) da db l l' : Forall2 P l l' -> forall n, (n < length l)%nat -> P (nth n l da) (nth n l' db).
Proof. induction 1; intros n L; [cbn in L; lia|]. destruct n; [assumption|]. apply IHForall2. cbn in L. lia. Qed.
Lemma Forall2_tail {A B} (P : A -> B -> Prop) a b l l' : Forall2 P (a :: l) (b :: l') -> Forall2 P l l'.
Proof. intros H. inversion H. assumption. Qed.
Lemma ends_kept w ps t0 t t3 : (forall e, t0 e = None -> ~ In e ps) -> forall l l', Forall2 (kept w ps t t3) l l' -> forall fi,
  Forall2 (fun e (bi : bool * N) => is_end (fst bi) (snd bi) t0 t e) l fi ->
  Forall2 (fun e bi => has_end w (fst bi) (snd bi) t3 e) l' fi.
Proof.
  intros P l l' K. induction K as [|e e' la lb Q _ IH]; intros fi F; inversion F; subst; constructor; [|auto].
  unfold is_end, has_end in *. destruct (fst y).
  - destruct H1 as (A & B & C). destruct Q as [[-> _]|(_ & Q1 & Q2 & Q3)]; [lia|]. split; [destruct Q1 as [->|[Q1 _]]; assumption|].
    split; [|exact Q2]. destruct (Q3 (P _ B) _ _ C) as (b' & Q4 & Q5). rewrite Q4, Q5 by reflexivity. reflexivity.
  - subst e. destruct Q as [[_ ->]|[Q _]]; [reflexivity|contradiction].
Qed.
Lemma mid_ends lim ca preload sin sout serr sync base pairs elf t0 st t st2 elf' t3 :
  started lim preload sin sout serr sync base pairs elf t0 st t ->
  middle lim ca pairs elf st t = Some (st2, elf', t3) ->
  Forall2 (fun e bi => has_end (wanted pairs) (fst bi) (snd bi) t3 e) (ends (pipes_of st2)) (flags_ids preload sin sout serr sync base).
Proof.
  intros S M. pose proof (core_mid _ _ _ _ _ _ _ _ _ M (started_ready _ _ _ _ _ _ _ _ _ _ _ _ S)) as (_ & _ & K & _).
  destruct S as (_ & O & _ & _ & P & _). apply open_spec in O. destruct O as (G & F & _).
  apply Forall2_tail in K. eapply ends_kept; [|exact K|exact F]. intros e E I. exact (P _ I E).
Qed.

(* ---- standard streams ---- *)
Lemma connect_ok lim : forall l t, (forall a b, In (a, b) l -> (a = -1 \/ t a <> None) /\ 0 <= b < lim) -> exists t', connect_std lim l t = Some t'.
Proof.
  induction l as [|[a b] l IH]; intros t H; [eexists; reflexivity|]. cbn [connect_std]. destruct (H a b (or_introl eq_refl)) as [A B].
  destruct ((a =? -1) || (a =? b)) eqn:E; [apply IH; intros; apply H; right; assumption|].
  apply orb_false_iff in E. destruct E as [E _]. destruct A as [->|A]; [discriminate E|].
  destruct (dup2_ok lim t a b A B) as (t1 & D & F). rewrite D. apply IH. intros a' b' I. destruct (H a' b' (or_intror I)) as [[A'|A'] B']; [auto|].
  split; [right|exact B']. destruct (Z.eq_dec a' b) as [->|N]; [|rewrite F by exact N; exact A'].
  apply dup2_spec in D. destruct D as (f & c & _ & _ & [[-> ->]|(_ & D & _)]); [exact A|congruence].
Qed.
Lemma file_inj t x f g : holds t x f -> holds t x g -> f = g.
Proof. intros (b & A) (c & B). congruence. Qed.
Lemma finish_ok lim preload sin sout serr sync base w st t :
  3 <= lim ->
  Forall2 (fun e bi => has_end w (fst bi) (snd bi) t e) (ends (pipes_of st)) (flags_ids preload sin sout serr sync base) ->
  exists st' t', finish lim sync st t = Some (st', t').
Proof.
  intros L F. destruct st as [[a1 a2] [b1 b2] [c1 c2] [d1 d2] [e1 e2]]. cbn in F.
  assert (E : has_end w sin (base + 2) t c1 /\ has_end w sout (base + 5) t d2 /\ has_end w serr (base + 7) t e2 /\
              has_end w sync (base + 8) t b1 /\ has_end w sync (base + 9) t b2).
  { pose proof (Forall2_nth' _ 0 (false, 0%N) _ _ F) as Q. cbn [length] in Q.
    split; [exact (Q 4%nat ltac:(lia))|]. split; [exact (Q 7%nat ltac:(lia))|]. split; [exact (Q 9%nat ltac:(lia))|].
    split; [exact (Q 2%nat ltac:(lia))|exact (Q 3%nat ltac:(lia))]. }
  clear F. destruct E as (C & D & E & B1 & B2).
  unfold finish. cbn [rs_pipe rs_sync rs_in rs_out rs_err fst snd].
  assert (Q : forall t', (forall x i, (i = base + 2 \/ i = base + 5 \/ i = base + 7)%N -> holds t x i -> holds t' x i) ->
          exists t5, connect_std lim [(c1, 0); (d2, 1); (e2, 2)] t' = Some t5).
  { intros t' H. apply connect_ok.
    assert (X : forall b i x, has_end w b i t x -> (i = base + 2 \/ i = base + 5 \/ i = base + 7)%N -> x = -1 \/ t' x <> None).
    { intros b i x Hx Hi. unfold has_end in Hx. destruct b; [right|left; exact Hx]. destruct Hx as (_ & Hx & _). destruct (H x i Hi) as (bb & V); [exists false; exact Hx|congruence]. }
    intros a b [I|[I|[I|[]]]]; injection I as <- <-; (split; [|lia]); eapply X; try eassumption; auto. }
  assert (Z : exists st' t', (if sync then setup_child_std_fds lim (RunState (a1, a2) (-1, -1) (c1, c2) (d1, d2) (e1, e2)) (close_and_reset (close_and_reset t b2) b1)
               else setup_child_std_fds lim (RunState (a1, a2) (b1, b2) (c1, c2) (d1, d2) (e1, e2)) t) = Some (st', t')).
  { destruct sync; unfold setup_child_std_fds; cbn [rs_pipe rs_sync rs_in rs_out rs_err fst snd].
    - destruct (Q (close_and_reset (close_and_reset t b2) b1)) as (t5 & T).
      + intros x i Hi Hx. unfold has_end in B1, B2. destruct B1 as (_ & B1 & _), B2 as (_ & B2 & _). unfold holds. rewrite !car_spec.
        assert (N1 : x <> b1) by (intros ->; destruct Hx as (bb & Hx); rewrite B1 in Hx; injection Hx; lia).
        assert (N2 : x <> b2) by (intros ->; destruct Hx as (bb & Hx); rewrite B2 in Hx; injection Hx; lia).
        destruct (Z.eqb_spec x b1); [contradiction|]. destruct (Z.eqb_spec x b2); [contradiction|].
        destruct (b1 =? -1), (b2 =? -1); exact Hx.
      + rewrite T. do 2 eexists. reflexivity.
    - destruct (Q t) as (t5 & T); [auto|]. rewrite T. do 2 eexists. reflexivity. }
  destruct sync; exact Z.
Qed.
(* the streams when no pipe has a low number *)
Lemma streams lim (st : run_state) t t5 :
  connect_std lim (std_list st) t = Some t5 ->
  (fst (rs_in st) = -1 \/ 3 <= fst (rs_in st)) -> (snd (rs_out st) = -1 \/ 3 <= snd (rs_out st)) -> (snd (rs_err st) = -1 \/ 3 <= snd (rs_err st)) ->
  (forall f, 3 <= fst (rs_in st) -> holds t (fst (rs_in st)) f -> t5 0 = Some (f, false)) /\
  (forall f, 3 <= snd (rs_out st) -> holds t (snd (rs_out st)) f -> t5 1 = Some (f, false)) /\
  (forall f, 3 <= snd (rs_err st) -> holds t (snd (rs_err st)) f -> t5 2 = Some (f, false)).
Proof.
  unfold std_list. generalize (fst (rs_in st)) (snd (rs_out st)) (snd (rs_err st)). intros i o e H A B C.
  assert (ST : forall a b l t t', connect_std lim ((a, b) :: l) t = Some t' -> a = -1 \/ 3 <= a -> 0 <= b < 3 ->
            exists t1, connect_std lim l t1 = Some t' /\ (forall x, x <> b -> t1 x = t x) /\ (forall f, 3 <= a -> holds t a f -> t1 b = Some (f, false))).
  { clear. intros a b l t t' H A B. cbn [connect_std] in H. destruct (Z.eqb_spec a (-1)) as [->|N].
    - cbn in H. exists t. split; [exact H|]. split; [reflexivity|]. intros; lia.
    - destruct (Z.eqb_spec a b) as [->|N']; [lia|]. cbn in H. destruct (dup2 lim t a b) as [t1|] eqn:D; [|discriminate]. exists t1. split; [exact H|].
      apply dup2_spec in D. destruct D as (f & c & D1 & _ & [[D2 _]|(_ & D2 & D3)]); [contradiction|]. split; [exact D3|].
      intros g _ (cc & G). rewrite D1 in G. injection G as <- _. exact D2. }
  destruct (ST _ _ _ _ _ H A) as (t1 & H1 & O1 & F1); [lia|]. destruct (ST _ _ _ _ _ H1 B) as (t2 & H2 & O2 & F2); [lia|].
  destruct (ST _ _ _ _ _ H2 C) as (t3 & H3 & O3 & F3); [lia|]. cbn in H3. injection H3 as <-.
  split; [|split].
  - intros f L T. rewrite O3, O2 by lia. apply F1; assumption.
  - intros f L T. rewrite O3 by lia. apply F2; [exact L|]. unfold holds. rewrite O1 by lia. exact T.
  - intros f L T. apply F3; [exact L|]. unfold holds. rewrite O2, O1 by lia. exact T.
Qed.
