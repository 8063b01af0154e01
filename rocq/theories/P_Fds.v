(* Proofs about descriptors. *)
From Coq Require Import Lia.
From Verif Require Export S_Fds.
Local Open Scope Z_scope.

(* The table only grew: what was open is as before. *)
Definition grew (t t' : table) : Prop := forall x v, t x = Some v -> t' x = Some v.
Lemma grew_refl t : grew t t. Proof. intros x v H. exact H. Qed.
Lemma grew_trans t1 t2 t3 : grew t1 t2 -> grew t2 t3 -> grew t1 t3.
Proof. intros A B x v H. apply B, A, H. Qed.

Lemma preserved_iff pairs fd max : is_preserved_child_fd pairs fd max = true <-> In fd (map snd (firstn max pairs)).
Proof.
  unfold is_preserved_child_fd. rewrite existsb_exists. split.
  - intros (p & I & E). apply Z.eqb_eq in E. subst. apply in_map. exact I.
  - intros I. apply in_map_iff in I. destruct I as (p & E & I). exists p. split; [exact I|]. apply Z.eqb_eq. exact E.
Qed.
Lemma not_preserved pairs fd max : is_preserved_child_fd pairs fd max = false <-> ~ In fd (map snd (firstn max pairs)).
Proof. rewrite <- preserved_iff. destruct (is_preserved_child_fd pairs fd max); split; congruence. Qed.
Lemma preserved_all pairs fd : is_preserved_child_fd pairs fd (length pairs) = true <-> In fd (wanted pairs).
Proof. rewrite preserved_iff, firstn_all. reflexivity. Qed.
Lemma not_preserved_all pairs fd : is_preserved_child_fd pairs fd (length pairs) = false <-> ~ In fd (wanted pairs).
Proof. rewrite not_preserved, firstn_all. reflexivity. Qed.

Lemma unused_spec pairs t : forall n fd, unused_fd pairs t n = Some fd ->
  t fd = None /\ ~ In fd (wanted pairs) /\ 0 <= fd < Z.of_nat n /\
  forall x, fd < x < Z.of_nat n -> t x <> None \/ In x (wanted pairs).
Proof.
  induction n as [|n IH]; intros fd H; [discriminate H|]. cbn [unused_fd] in H.
  destruct (is_preserved_child_fd pairs (Z.of_nat n) (length pairs) || is_open t (Z.of_nat n)) eqn:E.
  - destruct (IH _ H) as (A & B & C & D). split; [exact A|]. split; [exact B|]. split; [lia|].
    intros x Hx. destruct (Z.eq_dec x (Z.of_nat n)) as [->|]; [|apply D; lia].
    apply orb_true_iff in E. destruct E as [E|E]; [right; apply preserved_all; exact E|left].
    unfold is_open in E. destruct (t (Z.of_nat n)); [discriminate|discriminate E].
  - injection H as <-. apply orb_false_iff in E. destruct E as [E1 E2]. apply not_preserved_all in E1.
    unfold is_open in E2. split; [destruct (t (Z.of_nat n)); [discriminate|reflexivity]|]. split; [exact E1|]. split; [lia|]. intros; lia.
Qed.

Lemma dup2_spec lim t old new t' : dup2 lim t old new = Some t' ->
  exists f b, t old = Some (f, b) /\ 0 <= new < lim /\
  ((old = new /\ t' = t) \/ (old <> new /\ t' new = Some (f, false) /\ forall x, x <> new -> t' x = t x)).
Proof.
  unfold dup2. destruct (t old) as [[f b]|] eqn:E; [|discriminate].
  destruct ((0 <=? new) && (new <? lim)) eqn:R; [|discriminate]. intros H. injection H as <-.
  apply andb_true_iff in R. exists f, b. split; [reflexivity|]. split; [lia|].
  destruct (Z.eqb_spec old new); [left; auto|right]. split; [assumption|]. split.
  - unfold upd. now rewrite Z.eqb_refl.
  - intros x N. unfold upd. destruct (Z.eqb_spec x new); [contradiction|reflexivity].
Qed.

Lemma ensure_spec lim pairs t child parent max p' t' :
  ensure_no_fd_conflict lim pairs t child parent max = Some (p', t') ->
  (* not moved *)
  (p' = parent /\ t' = t /\ ~ In parent (map snd (firstn max pairs))) \/
  (* moved *)
  (In parent (map snd (firstn max pairs)) /\ t p' = None /\
   0 <= p' /\ (p' = child \/ ~ In p' (wanted pairs)) /\ (child = -1 -> ~ In p' (wanted pairs)) /\
   exists f b, t parent = Some (f, b) /\ t' p' = Some (f, false) /\ forall x, x <> p' -> t' x = t x).
Proof.
  unfold ensure_no_fd_conflict. destruct (is_preserved_child_fd pairs parent max) eqn:P; cbn [negb].
  2: { intros H. injection H as <- <-. left. apply not_preserved in P. auto. }
  apply preserved_iff in P. intros H. right.
  destruct ((child =? -1) || is_open t child) eqn:C.
  - destruct (unused_fd pairs t 1024) as [fd|] eqn:U; [|discriminate]. destruct (dup2 lim t parent fd) as [t1|] eqn:D; [|discriminate].
    injection H as <- <-. apply unused_spec in U. destruct U as (U1 & U2 & U3 & _). apply dup2_spec in D.
    destruct D as (f & b & D1 & _ & [[D2 _]|(D2 & D3 & D4)]); [subst; congruence|].
    split; [exact P|]. split; [exact U1|]. split; [lia|]. split; [right; exact U2|]. split; [auto|]. exists f, b. auto.
  - apply orb_false_iff in C. destruct C as [C1 C2]. destruct (dup2 lim t parent child) as [t1|] eqn:D; [|discriminate].
    injection H as <- <-. unfold is_open in C2. assert (TC : t child = None) by (destruct (t child); [discriminate|reflexivity]).
    apply dup2_spec in D. destruct D as (f & b & D1 & R & [[D2 _]|(D2 & D3 & D4)]); [subst; congruence|].
    split; [exact P|]. split; [exact TC|]. split; [lia|]. split; [left; reflexivity|]. split; [intros ->; discriminate C1|]. exists f, b. auto.
Qed.
Lemma ensure_grew lim pairs t child parent max p' t' :
  ensure_no_fd_conflict lim pairs t child parent max = Some (p', t') -> grew t t'.
Proof.
  intros H. apply ensure_spec in H. destruct H as [(_ & -> & _)|(_ & N & _ & _ & _ & f & b & _ & _ & F)]; [apply grew_refl|].
  intros x v E. destruct (Z.eq_dec x p') as [->|X]; [congruence|]. rewrite F; assumption.
Qed.

Lemma Forall2_impl {A B} (P Q : A -> B -> Prop) l l' : (forall a b, P a b -> Q a b) -> Forall2 P l l' -> Forall2 Q l l'.
Proof. intros H. induction 1; constructor; auto. Qed.

(* ---- preparing ---- *)
(* no later parent is an earlier child *)
Fixpoint safe (l : list (Z * Z)) : Prop :=
  match l with [] => True | (_, c) :: r => (forall q, In q r -> fst q <> c) /\ safe r end.
Lemma safe_snoc l p c : safe l -> ~ In p (map snd l) -> safe (l ++ [(p, c)]).
Proof.
  induction l as [|[a b] l IH]; cbn [app safe map snd]; intros S N; [cbn; auto|]. destruct S as [S1 S2]. split.
  - intros q I. apply in_app_or in I. destruct I as [I|[<-|[]]]; [apply S1; exact I|]. cbn. intros ->. apply N. left. reflexivity.
  - apply IH; [exact S2|]. intro I. apply N. right. exact I.
Qed.

(* [q] stands for [p]: same child, the new parent is open on the file of the old *)
Definition stands (w : list Z) (t t' : table) (p q : Z * Z) : Prop :=
  snd q = snd p /\ (fst q = fst p \/ (t (fst q) = None /\ In (fst p) w)) /\
  forall f b, t (fst p) = Some (f, b) -> exists b', t' (fst q) = Some (f, b').

Lemma prepare_spec lim w : forall todo t0 t done orig l t',
  prepare_preserved_fds lim t done todo = Some (l, t') ->
  grew t0 t -> safe done -> NoDup (map snd done) -> Forall2 (stands w t0 t) orig done -> incl (map snd (done ++ todo)) w ->
  (forall x, t x = t0 x \/ (t0 x = None /\ In x (map fst done))) ->
  grew t0 t' /\ safe l /\ NoDup (map snd l) /\ Forall2 (stands w t0 t') (orig ++ todo) l /\
  (forall x, t' x = t0 x \/ (t0 x = None /\ In x (map fst l))).
Proof.
  induction todo as [|[p c] todo IH]; intros t0 t done orig l t' H G S ND F W X.
  - injection H as <- <-. rewrite app_nil_r. auto.
  - cbn [prepare_preserved_fds] in H.
    assert (FN : firstn (length done) (done ++ (p, c) :: todo) = done) by (rewrite firstn_app, Nat.sub_diag, firstn_all; apply app_nil_r).
    destruct (is_preserved_child_fd _ c _) eqn:D; [discriminate|]. apply not_preserved in D. rewrite FN in D.
    destruct (ensure_no_fd_conflict _ _ _ _ _ _) as [[p' t1]|] eqn:E; [|discriminate].
    pose proof (ensure_grew _ _ _ _ _ _ _ _ E) as G1. apply ensure_spec in E. rewrite FN in E.
    assert (NP : ~ In p' (map snd done)).
    { destruct E as [(-> & _ & E)|(_ & _ & _ & [->|E] & _)]; [exact E|exact D|]. intro I. apply E. unfold wanted. rewrite map_app. apply in_or_app. left. exact I. }
    apply (IH t0 t1 (done ++ [(p', c)]) (orig ++ [(p, c)])) in H; [rewrite <- app_assoc in H; exact H| | | | | |].
    + eapply grew_trans; eassumption.
    + apply safe_snoc; assumption.
    + rewrite map_app. cbn [map snd]. clear - ND D. revert ND D.
      induction (map snd done) as [|y ys IH]; intros ND D; cbn; [constructor; [intros []|constructor]|].
      inversion ND; subst. constructor; [|apply IH; [assumption|intro; apply D; right; assumption]].
      intro I. apply in_app_or in I. destruct I as [I|[<-|[]]]; [contradiction|]. apply D. left. reflexivity.
    + apply Forall2_app.
      * eapply Forall2_impl; [|exact F]. intros a b (A1 & A2 & A3). split; [exact A1|]. split; [exact A2|].
        intros f b' Q. destruct (A3 _ _ Q) as (b'' & Q'). exists b''. apply G1. exact Q'.
      * constructor; [|constructor]. split; [reflexivity|]. cbn [fst snd].
        destruct E as [(-> & -> & _)|(P0 & N0 & _ & _ & _ & f & b & E1 & E2 & E3)].
        -- split; [left; reflexivity|]. intros f b Q. exists b. apply G. exact Q.
        -- split; [right; split; [destruct (X p') as [Z|[Z _]]; [rewrite <- Z; exact N0|exact Z]|apply W; rewrite map_app; apply in_or_app; left; exact P0]|].
           intros f' b' Q. apply G in Q. rewrite E1 in Q. injection Q as <- <-. exists false. exact E2.
    + intros y I. apply W. rewrite <- app_assoc in I. rewrite map_app in *. exact I.
    + intro x. destruct E as [(-> & -> & _)|(_ & N0 & _ & _ & _ & f & b & E1 & E2 & E3)].
      * destruct (X x) as [Y|[Y Y']]; [left; exact Y|right]. split; [exact Y|]. rewrite map_app. apply in_or_app. left. exact Y'.
      * destruct (Z.eq_dec x p') as [->|Nx].
        -- right. split; [destruct (X p') as [Z|[Z _]]; [rewrite <- Z; exact N0|exact Z]|]. rewrite map_app. apply in_or_app. right. left. reflexivity.
        -- rewrite E3 by assumption. destruct (X x) as [Y|[Y Y']]; [left; exact Y|right]. split; [exact Y|]. rewrite map_app. apply in_or_app. left. exact Y'.
Qed.

Lemma prepare_ok lim t pairs l t' : prepare_preserved_fds lim t [] pairs = Some (l, t') ->
  grew t t' /\ safe l /\ NoDup (wanted l) /\ Forall2 (stands (wanted pairs) t t') pairs l /\
  (forall x, t' x = t x \/ (t x = None /\ In x (map fst l))).
Proof.
  intros H. apply (prepare_spec lim (wanted pairs) pairs t t [] []) in H;
    [exact H|apply grew_refl|exact Logic.I|constructor|constructor|apply incl_refl|intro; left; reflexivity].
Qed.
Lemma stands_wanted w t t' l l' : Forall2 (stands w t t') l l' -> wanted l' = wanted l.
Proof. unfold wanted. induction 1 as [|a b l l' S _ IH]; [reflexivity|]. cbn [map]. destruct S as [-> _]. f_equal. exact IH. Qed.
Lemma stands_in w t t' l l' p c : Forall2 (stands w t t') l l' -> In (p, c) l ->
  exists p', In (p', c) l' /\ stands w t t' (p, c) (p', c).
Proof.
  induction 1 as [|a [b1 b2] l l' S _ IH]; [intros []|]. intros [->|I].
  - destruct S as (S1 & S2 & S3). cbn [snd] in S1. subst b2. exists b1. split; [left; reflexivity|]. split; [reflexivity|]. split; assumption.
  - destruct (IH I) as (p' & A & B). exists p'. split; [right; exact A|exact B].
Qed.
Lemma stands_in' w t t' l l' p' c : Forall2 (stands w t t') l l' -> In (p', c) l' ->
  exists p, In (p, c) l /\ stands w t t' (p, c) (p', c).
Proof.
  induction 1 as [|[a1 a2] b l l' S _ IH]; [intros []|]. intros [->|I].
  - destruct S as (S1 & S2 & S3). cbn [snd] in S1. subst a2. exists a1. split; [left; reflexivity|]. split; [reflexivity|]. split; assumption.
  - destruct (IH I) as (p & A & B). exists p. split; [right; exact A|exact B].
Qed.

(* ---- redirecting ---- *)
Lemma redirect_each_spec lim : forall l t t', redirect_each lim l t = Some t' -> NoDup (wanted l) -> safe l ->
  (forall p c f b, In (p, c) l -> t p = Some (f, b) -> t' c = Some (f, false)) /\
  (forall x, ~ In x (wanted l) -> t' x = t x).
Proof.
  induction l as [|[p c] l IH]; intros t t' H ND S; [injection H as <-; split; [intros ? ? ? ? []|reflexivity]|].
  cbn [redirect_each] in H. inversion ND as [|? ? N1 N2]; subst. destruct S as [S1 S2].
  assert (Q : exists t1, redirect_each lim l t1 = Some t' /\ (forall f b, t p = Some (f, b) -> t1 c = Some (f, false)) /\
                         forall x, x <> c -> t1 x = t x).
  { destruct (Z.eqb_spec p c) as [->|E].
    - eexists. split; [exact H|]. split.
      + intros f b E. rewrite E. destruct b; [|exact E]. unfold upd. now rewrite Z.eqb_refl.
      + intros x X. destruct (t c) as [[f []]|]; [|reflexivity|reflexivity]. unfold upd. destruct (Z.eqb_spec x c); [contradiction|reflexivity].
    - destruct (dup2 lim t p c) as [t1|] eqn:D; [|discriminate]. exists t1. split; [exact H|].
      apply dup2_spec in D. destruct D as (f & b & D1 & _ & [[D2 _]|(_ & D3 & D4)]); [contradiction|].
      split; [|exact D4]. intros f' b' E'. rewrite D1 in E'. injection E' as <- <-. exact D3. }
  destruct Q as (t1 & R & Q1 & Q2). destruct (IH _ _ R N2 S2) as [A B]. split.
  - intros p' c' f b [E|I] T.
    + injection E as -> ->. rewrite B; [eapply Q1; exact T|exact N1].
    + eapply A; [exact I|]. rewrite Q2; [exact T|]. apply (S1 _ I).
  - intros x X. rewrite B; [apply Q2|]; intro I; apply X; [left; cbn; congruence|right; exact I].
Qed.
Lemma close_parents_spec pairs : forall l t x,
  close_parents pairs l t x = if existsb (Z.eqb x) (map fst l) && negb (is_preserved_child_fd pairs x (length pairs)) then None else t x.
Proof.
  induction l as [|[p c] l IH]; intros t x; [reflexivity|]. cbn [close_parents map fst existsb]. rewrite IH.
  destruct (Z.eqb_spec x p) as [->|N]; cbn [orb].
  - destruct (is_preserved_child_fd pairs p (length pairs)) eqn:P; cbn [negb andb].
    + rewrite !andb_false_r. reflexivity.
    + rewrite andb_true_r. unfold close, upd. rewrite Z.eqb_refl. destruct (existsb _ _); reflexivity.
  - destruct (is_preserved_child_fd pairs p (length pairs)); [reflexivity|]. unfold close, upd.
    destruct (Z.eqb_spec x p); [contradiction|]. reflexivity.
Qed.
Lemma redirect_spec lim l t t' : redirect_fds lim l t = Some t' -> NoDup (wanted l) -> safe l ->
  (forall p c f b, In (p, c) l -> t p = Some (f, b) -> t' c = Some (f, false)) /\
  (forall x, ~ In x (wanted l) -> t' x = t x /\ ~ In x (map fst l) \/ t' x = None /\ In x (map fst l)).
Proof.
  unfold redirect_fds. intros H ND S. destruct (redirect_each lim l t) as [t1|] eqn:R; [|discriminate]. injection H as <-.
  destruct (redirect_each_spec _ _ _ _ R ND S) as [A B]. split.
  - intros p c f b I T. rewrite close_parents_spec.
    assert (P : is_preserved_child_fd l c (length l) = true) by (apply preserved_all; unfold wanted; change c with (snd (p, c)); apply in_map; exact I).
    rewrite P, andb_false_r. eapply A; eassumption.
  - intros x X. rewrite close_parents_spec. pose proof (proj2 (not_preserved_all l x) X) as P. rewrite P. cbn [negb]. rewrite andb_true_r.
    destruct (existsb (Z.eqb x) (map fst l)) eqn:E.
    + right. split; [reflexivity|]. apply existsb_exists in E. destruct E as (y & I & E). apply Z.eqb_eq in E. subst. exact I.
    + left. split; [apply B; exact X|]. intro I. apply Bool.not_true_iff_false in E. apply E. apply existsb_exists. exists x. split; [exact I|apply Z.eqb_refl].
Qed.

(* ---- moving the pipes ---- *)
Definition ends (l : list (Z * Z)) : list Z := flat_map (fun p => [fst p; snd p]) l.
(* [b] replaces the descriptor [a] *)
Definition moved (w : list Z) (t t' : table) (a b : Z) : Prop :=
  (b = a /\ (a = -1 \/ ~ In a w)) \/
  (a <> -1 /\ 0 <= b /\ In a w /\ t b = None /\ ~ In b w /\ exists f x, t a = Some (f, x) /\ t' b = Some (f, false)).
Lemma move_end_spec lim pairs a b t t' : move_end lim pairs a t = Some (b, t') ->
  grew t t' /\ moved (wanted pairs) t t' a b /\ forall x, t' x = t x \/ (x = b /\ t x = None /\ b <> a).
Proof.
  unfold move_end. destruct (Z.eqb_spec a (-1)) as [->|A].
  - intros H. injection H as <- <-. split; [apply grew_refl|]. split; [left; auto|left; reflexivity].
  - intros H. pose proof (ensure_grew _ _ _ _ _ _ _ _ H) as G. split; [exact G|]. apply ensure_spec in H. rewrite firstn_all in H.
    destruct H as [(-> & -> & N)|(I & N & R & _ & W & f & x & E1 & E2 & E3)].
    + split; [left; split; [reflexivity|right; exact N]|left; reflexivity].
    + assert (b <> a) by congruence. split.
      * right. split; [exact A|]. split; [exact R|]. split; [exact I|]. split; [exact N|]. split; [apply W; reflexivity|]. exists f, x. auto.
      * intro y. destruct (Z.eq_dec y b) as [->|Y]; [right; auto|left; apply E3; exact Y].
Qed.
Lemma moved_grew w t0 t1 t2 a b : grew t1 t2 -> moved w t0 t1 a b -> moved w t0 t2 a b.
Proof. intros G [M|(A & A' & B & C & D & f & x & E & F)]; [left; exact M|right]. do 5 (split; [assumption|]). exists f, x. split; [exact E|apply G; exact F]. Qed.
(* [a] holds in [t0] what it holds in the larger [t1]: enough to be open in [t0] or -1 *)
Lemma moved_back w t0 t1 t2 a b : grew t0 t1 -> (t0 a <> None \/ a = -1) -> moved w t1 t2 a b -> moved w t0 t2 a b.
Proof.
  intros G O [M|(A & A' & B & C & D & f & x & E & F)]; [left; exact M|right]. do 3 (split; [assumption|]).
  destruct O as [O|O]; [|contradiction]. destruct (t0 a) as [v|] eqn:V; [|contradiction].
  split; [destruct (t0 b) eqn:W; [apply G in W; congruence|reflexivity]|]. split; [exact D|]. exists f, x. split; [|exact F]. rewrite <- E. apply G in V. congruence.
Qed.
Lemma moved_all_back w t0 t1 t2 la lb : grew t0 t1 -> (forall a, In a la -> t0 a <> None \/ a = -1) ->
  Forall2 (moved w t1 t2) la lb -> Forall2 (moved w t0 t2) la lb.
Proof.
  intros G O M. revert O. induction M as [|a b la lb M _ IHM]; intros O'; constructor.
  - eapply moved_back; [exact G| |exact M]. apply O'. left. reflexivity.
  - apply IHM. intros a' I. apply O'. right. exact I.
Qed.
Lemma move_pipes_spec lim pairs : forall l t t' l', move_pipes lim pairs l t = Some (l', t') ->
  (forall a, In a (ends l) -> t a <> None \/ a = -1) ->
  grew t t' /\ Forall2 (moved (wanted pairs) t t') (ends l) (ends l') /\
  (forall x, t' x = t x \/ (t x = None /\ exists a, In (a, x) (combine (ends l) (ends l')) /\ a <> x)) /\ length l' = length l.
Proof.
  induction l as [|[a1 a2] l IH]; intros t t' l' H O.
  - injection H as <- <-. split; [apply grew_refl|]. split; [constructor|]. split; [left; reflexivity|reflexivity].
  - cbn [move_pipes] in H. unfold move_pipe in H. cbn [fst snd] in H.
    destruct (move_end lim pairs a1 t) as [[b1 t1]|] eqn:E1; [|discriminate].
    destruct (move_end lim pairs a2 t1) as [[b2 t2]|] eqn:E2; [|discriminate].
    destruct (move_pipes lim pairs l t2) as [[qs t3]|] eqn:E3; [|discriminate]. injection H as <- <-.
    apply move_end_spec in E1, E2. destruct E1 as (G1 & M1 & X1), E2 as (G2 & M2 & X2).
    assert (NN : forall t t' x, grew t t' -> t x <> None -> t' x <> None).
    { intros ta tb x G V. destruct (ta x) eqn:T; [|contradiction]. apply G in T. congruence. }
    destruct (IH _ _ _ E3) as (G3 & M3 & X3 & L3).
    { intros a I. destruct (O a) as [Oa|Oa]; [cbn; right; right; exact I| |right; exact Oa]. left. eapply NN; [exact G2|]. eapply NN; [exact G1|exact Oa]. }
    pose proof (grew_trans _ _ _ G1 G2) as G12.
    split; [exact (grew_trans _ _ _ G12 G3)|]. split; [|split; [|cbn; congruence]].
    + cbn [ends flat_map fst snd app]. constructor; [|constructor].
      * eapply moved_grew; [exact (grew_trans _ _ _ G2 G3)|exact M1].
      * eapply moved_grew; [exact G3|]. eapply moved_back; [exact G1| |exact M2]. apply O. cbn. right; left. reflexivity.
      * assert (O' : forall a, In a (flat_map (fun p => [fst p; snd p]) l) -> t a <> None \/ a = -1) by (intros a I; apply O; cbn; right; right; exact I).
        eapply moved_all_back; [exact G12|exact O'|exact M3].
    + intro x. cbn [ends flat_map fst snd app combine In].
      destruct (X1 x) as [Y1|(-> & Y1 & N1)].
      * destruct (X2 x) as [Y2|(-> & Y2 & N2)].
        -- destruct (X3 x) as [Y3|(Y3 & a & I3 & W3)]; [left; congruence|right]. split; [congruence|]. exists a. split; [right; right; exact I3|exact W3].
        -- right. split; [congruence|]. exists a2. split; [right; left; reflexivity|congruence].
      * right. split; [exact Y1|]. exists a1. split; [left; reflexivity|congruence].
Qed.

(* ---- the whole ---- *)
Definition finish (lim : Z) (sync : bool) (st : run_state) (t : table) : option (run_state * table) :=
  let '(st, t) :=
    if sync then (RunState (rs_pipe st) (-1, -1) (rs_in st) (rs_out st) (rs_err st),
                  close_and_reset (close_and_reset t (snd (rs_sync st))) (fst (rs_sync st)))
    else (st, t) in
  setup_child_std_fds lim st t.

(* everything before the synchronization *)
Definition middle (lim : Z) (ca : bool) (pairs : list (Z * Z)) (elf : Z) (st : run_state) (t : table) : option (run_state * Z * table) :=
  let t := if ca then close_open_fds (inheritable_fds st pairs elf) t else t in
  match prepare_preserved_fds lim t [] pairs with
  | None => None
  | Some (pairs, t) =>
      match avoid_pipe_conflicts lim pairs st t with
      | None => None
      | Some (st, t) =>
          match move_end lim pairs elf t with
          | None => None
          | Some (elf, t) => match redirect_fds lim pairs t with None => None | Some t => Some (st, elf, t) end
          end
      end
  end.
Lemma setup_split lim ca pairs elf sync st t :
  child_setup lim ca pairs elf sync st t =
  match middle lim ca pairs elf st t with
  | None => None
  | Some (st2, elf', t3) => match finish lim sync st2 t3 with None => None | Some (st', t') => Some (st', elf', t') end
  end.
Proof.
  unfold child_setup, child_redirects, middle. cbv zeta. destruct (prepare_preserved_fds _ _ _ _) as [[l t1]|]; [|reflexivity].
  destruct (avoid_pipe_conflicts _ _ _ _) as [[st2 t2]|]; [|reflexivity].
  replace (if elf =? -1 then Some (elf, t2) else ensure_no_fd_conflict lim l t2 (-1) elf (length l)) with (move_end lim l elf t2)
    by (unfold move_end; destruct (Z.eqb_spec elf (-1)) as [->|]; reflexivity).
  destruct (move_end _ _ _ _) as [[e t3]|]; [|reflexivity]. destruct (redirect_fds _ _ _) as [t4|]; [|reflexivity].
  unfold finish. destruct sync; reflexivity.
Qed.

(* what must be open before *)
Definition ready (pairs : list (Z * Z)) (elf : Z) (st : run_state) (t : table) : Prop :=
  (forall p, In p (map fst pairs) -> t p <> None) /\
  (forall e, In e (elf :: ends (pipes_of st)) -> (0 <= e /\ t e <> None) \/ e = -1).

Definition kept (w parents : list Z) (t t3 : table) (e e' : Z) : Prop :=
  (e = -1 /\ e' = -1) \/
  (e <> -1 /\ (e' = e \/ 0 <= e' /\ In e w) /\ ~ In e' w /\ (~ In e parents -> forall f b, t e = Some (f, b) -> exists b', t3 e' = Some (f, b') /\ (b = false -> b' = false))).

Definition sources (elf : Z) (st : run_state) (elf' : Z) (st' : run_state) : list (Z * Z) :=
  combine (elf :: ends (pipes_of st)) (elf' :: ends (pipes_of st')).

Lemma Forall2_combine {A B} (P : A -> B -> Prop) l l' a b : Forall2 P l l' -> In (a, b) (combine l l') -> P a b.
Proof. induction 1; [intros []|]. intros [E|I]; [injection E as <- <-; assumption|auto]. Qed.
Lemma Forall2_ex {A B} (P : A -> B -> Prop) l l' b : Forall2 P l l' -> In b l' -> exists a, In (a, b) (combine l l') /\ P a b.
Proof.
  induction 1; [intros []|]. intros [<-|I]; [exists x; split; [left; reflexivity|assumption]|].
  destruct (IHForall2 I) as (a & A1 & A2). exists a. split; [right; exact A1|exact A2].
Qed.
Lemma Forall2_ex' {A B} (P : A -> B -> Prop) l l' a : Forall2 P l l' -> In a l -> exists b, In (a, b) (combine l l') /\ P a b.
Proof.
  induction 1; [intros []|]. intros [<-|I]; [exists y; split; [left; reflexivity|assumption]|].
  destruct (IHForall2 I) as (b & A1 & A2). exists b. split; [right; exact A1|exact A2].
Qed.

Lemma Forall2_impl_in {A B} (P Q : A -> B -> Prop) l l' : (forall a b, In a l -> P a b -> Q a b) -> Forall2 P l l' -> Forall2 Q l l'.
Proof. intros H F. induction F; constructor; [apply H; [left; reflexivity|assumption]|apply IHF; intros; apply H; [right; assumption|assumption]]. Qed.
Lemma core_mid lim ca pairs elf st t st2 elf' t3 :
  middle lim ca pairs elf st t = Some (st2, elf', t3) -> ready pairs elf st t ->
    NoDup (wanted pairs) /\
    (forall p c f, In (p, c) pairs -> holds t p f -> t3 c = Some (f, false)) /\
    Forall2 (kept (wanted pairs) (map fst pairs) t t3) (elf :: ends (pipes_of st)) (elf' :: ends (pipes_of st2)) /\
    (forall x f, ~ In x (wanted pairs) -> holds t3 x f ->
       (exists e, In (e, x) (sources elf st elf' st2) /\ holds t e f) \/
       (ca = false /\ ~ In x (elf :: ends (pipes_of st)) /\ holds t x f)).
Proof.
  unfold middle. intros H [RP RE].
  set (t0 := if ca then close_open_fds (inheritable_fds st pairs elf) t else t) in H.
  assert (K0 : forall x v, t0 x = Some v -> t x = Some v /\ (ca = false \/ In x (inheritable_fds st pairs elf))).
  { intros x v. unfold t0. destruct ca; [|auto]. unfold close_open_fds. destruct (existsb _ _) eqn:E; [|discriminate].
    intros V. split; [exact V|right]. apply existsb_exists in E. destruct E as (y & I & E). apply Z.eqb_eq in E. subst. exact I. }
  assert (K1 : forall x, In x (map fst pairs) \/ In x (elf :: ends (pipes_of st)) /\ x <> -1 -> t0 x = t x).
  { intros x I. unfold t0. destruct ca; [|reflexivity]. unfold close_open_fds.
    assert (J : In x (inheritable_fds st pairs elf)).
    { unfold inheritable_fds. apply in_or_app. destruct I as [I|(I & N)]; [right; apply in_or_app; left; exact I|].
      destruct (RE _ I) as [[P _]|P]; [|contradiction].
      destruct I as [<-|I]; [right|left].
      - apply in_or_app. right. destruct (Z.ltb_spec (-1) elf); [left; reflexivity|lia].
      - apply filter_In. split; [exact I|]. destruct (Z.eqb_spec x (-1)); [contradiction|reflexivity]. }
    destruct (existsb (Z.eqb x) (inheritable_fds st pairs elf)) eqn:E; [reflexivity|].
    exfalso. apply Bool.not_true_iff_false in E. apply E. apply existsb_exists. exists x. split; [exact J|apply Z.eqb_refl]. }
  assert (K2 : forall e, In e (elf :: ends (pipes_of st)) -> t0 e <> None \/ e = -1).
  { intros e I. destruct (RE _ I) as [[P Q]|P]; [left|right; exact P]. rewrite K1; [exact Q|right; split; [exact I|lia]]. }
  clearbody t0.
  destruct (prepare_preserved_fds lim t0 [] pairs) as [[l t1]|] eqn:EP; [|discriminate].
  destruct (avoid_pipe_conflicts lim l st t1) as [[st3 t2]|] eqn:EA; [|discriminate].
  destruct (move_end lim l elf t2) as [[elf2 t2']|] eqn:EE; [|discriminate].
  destruct (redirect_fds lim l t2') as [t3'|] eqn:ER; [|discriminate]. injection H as -> -> ->.
  destruct (prepare_ok _ _ _ _ _ EP) as (G1 & SF & ND & ST & X1). clear EP.
  pose proof (stands_wanted _ _ _ _ _ ST) as W. rewrite W in ND. split; [exact ND|].
  assert (EA' : move_pipes lim l (pipes_of st) t1 = Some (pipes_of st2, t2)).
  { unfold avoid_pipe_conflicts in EA. destruct (move_pipes lim l (pipes_of st) t1) as [[ql tq]|]; [|discriminate].
    destruct ql as [|q1 [|q2 [|q3 [|q4 [|q5 [|? ?]]]]]]; try discriminate. injection EA as <- <-. reflexivity. }
  clear EA.
  assert (K3 : forall e, In e (elf :: ends (pipes_of st)) -> t1 e <> None \/ e = -1).
  { intros e I. destruct (K2 _ I) as [Q|Q]; [left|right; exact Q]. destruct (t0 e) as [v|] eqn:V; [|contradiction]. apply G1 in V. congruence. }
  destruct (move_pipes_spec _ _ _ _ _ _ EA' (fun a I => K3 a (or_intror I))) as (G2 & M2 & X2 & _). clear EA'.
  destruct (move_end_spec _ _ _ _ _ _ EE) as (G3 & M3 & X3). clear EE.
  rewrite W in M2, M3.
  assert (MM : Forall2 (moved (wanted pairs) t1 t2') (elf :: ends (pipes_of st)) (elf' :: ends (pipes_of st2))).
  { constructor.
    - eapply moved_back; [exact G2| |exact M3]. apply K3. left. reflexivity.
    - eapply Forall2_impl; [|exact M2]. intros a b. apply moved_grew. exact G3. }
  pose proof (grew_trans _ _ _ G2 G3) as G23.
  assert (ND' : NoDup (wanted l)) by (rewrite W; exact ND).
  destruct (redirect_spec _ _ _ _ ER ND' SF) as [RA RB]. rewrite W in RB.
  (* the new parents are open before the pipes move *)
  assert (LP : forall p', In p' (map fst l) -> t1 p' <> None /\ (In p' (map fst pairs) \/ t0 p' = None)).
  { intros p' I. apply in_map_iff in I. destruct I as ([q c] & <- & I). cbn [fst].
    destruct (stands_in' _ _ _ _ _ _ _ ST I) as (p & Ip & S1 & S2 & S3). cbn [fst snd] in *.
    assert (Ip' : In p (map fst pairs)) by (change p with (fst (p, c)); apply in_map; exact Ip).
    assert (V : t0 p <> None) by (rewrite K1; [apply RP; exact Ip'|left; exact Ip']).
    destruct (t0 p) as [[f b]|] eqn:T; [|contradiction]. split.
    - destruct (S3 _ _ eq_refl) as (b' & S4). congruence.
    - destruct S2 as [->|[S2 _]]; [left; exact Ip'|right; exact S2]. }
  assert (HO : forall ta f x, holds ta x f <-> exists b, ta x = Some (f, b)) by (intros; reflexivity).
  split; [|split].
  - intros p c f I (b & T).
    assert (Ip' : In p (map fst pairs)) by (change p with (fst (p, c)); apply in_map; exact I).
    rewrite <- (K1 p (or_introl Ip')) in T. destruct (stands_in _ _ _ _ _ _ _ ST I) as (p' & I' & _ & _ & S3). cbn [fst] in S3.
    destruct (S3 _ _ T) as (b' & S4). eapply RA; [exact I'|]. apply G23. exact S4.
  - eapply Forall2_impl_in; [|exact MM]. intros a b Ia M. unfold kept. destruct (Z.eq_dec a (-1)) as [->|NA].
    + left. split; [reflexivity|]. destruct M as [[-> _]|[C _]]; [reflexivity|congruence].
    + right. split; [exact NA|].
      assert (NB : ~ In b (wanted pairs)) by (destruct M as [[-> [M|M]]|(_ & _ & _ & _ & M & _)]; [contradiction|exact M|exact M]).
      split; [destruct M as [[-> _]|(_ & M & M' & _)]; [left; reflexivity|right; auto]|]. split; [exact NB|].
      intros NP f x T. rewrite <- (K1 a (or_intror (conj Ia NA))) in T. pose proof (G1 _ _ T) as T1.
      destruct (RB b NB) as [[E _]|[_ E]].
      * destruct M as [[-> _]|(_ & _ & _ & _ & _ & f' & x' & M1 & M4)].
        -- exists x. split; [rewrite E; apply G23; exact T1|auto].
        -- exists false. split; [|reflexivity]. rewrite E, M4. rewrite T1 in M1. injection M1 as <- <-. reflexivity.
      * exfalso. destruct (LP _ E) as [L1 L2]. destruct M as [[-> _]|(_ & _ & _ & M & _)].
        -- destruct L2 as [L2|L2]; [contradiction|congruence].
        -- contradiction.
  - intros x f NX (b & T3). destruct (RB x NX) as [[E NL]|[E _]]; [|congruence]. rewrite E in T3.
    assert (P : t1 x = Some (f, b) \/ (t1 x = None /\ exists e, In (e, x) (sources elf st elf' st2) /\ e <> x)).
    { destruct (X3 x) as [Y3|(-> & Y3 & Y4)].
      - rewrite Y3 in T3. destruct (X2 x) as [Y2|(Y2 & e & I2 & N2)]; [left; congruence|right]. split; [exact Y2|]. exists e. split; [right; exact I2|exact N2].
      - destruct (t1 elf') eqn:TT; [|right; split; [reflexivity|exists elf; split; [left; reflexivity|congruence]]]. apply G2 in TT. congruence. }
    destruct P as [T1|(T1 & I)].
    + destruct (X1 x) as [Y1|[_ Y1]]; [|contradiction]. rewrite Y1 in T1. destruct (K0 _ _ T1) as [T IH].
      destruct (in_dec Z.eq_dec x (elf :: ends (pipes_of st))) as [J|J].
      * left. destruct (Forall2_ex' _ _ _ _ MM J) as (y & J' & M). exists x. split; [|exists b; exact T].
        destruct M as [[-> _]|(_ & _ & M & _)]; [exact J'|contradiction].
      * right. destruct IH as [IH|IH]; [split; [exact IH|]; split; [exact J|exists b; exact T]|].
        exfalso. unfold inheritable_fds in IH. apply in_app_or in IH. destruct IH as [IH|IH].
        -- apply filter_In in IH. destruct IH as [IH _]. apply J. right. exact IH.
        -- apply in_app_or in IH. destruct IH as [IH|IH].
           ++ apply in_map_iff in IH. destruct IH as ([p c] & <- & IH). cbn [fst] in *.
              destruct (stands_in _ _ _ _ _ _ _ ST IH) as (p' & I' & _ & [S2|[_ S2]] & _); cbn [fst] in S2; [|contradiction].
              subst p'. apply NL. change p with (fst (p, c)). apply in_map. exact I'.
           ++ destruct (-1 <? elf); [|destruct IH]. destruct IH as [<-|[]]. apply J. left. reflexivity.
    + destruct I as (e & J & NE). left. exists e. split; [exact J|]. pose proof (Forall2_combine _ _ _ _ _ MM J) as M.
      destruct M as [[-> _]|(NA & _ & _ & _ & _ & f' & b' & M1 & M4)]; [contradiction|].
      rewrite M4 in T3. injection T3 as -> _. pose proof (in_combine_l _ _ _ _ J) as Je.
      destruct (K2 _ Je) as [Q|Q]; [|contradiction]. destruct (t0 e) as [v|] eqn:V; [|contradiction].
      exists b'. rewrite <- (K1 e (or_intror (conj Je NA))), V, <- M1. symmetry. apply G1. exact V.
Qed.

Lemma core lim ca pairs elf sync st t st' elf' t' :
  child_setup lim ca pairs elf sync st t = Some (st', elf', t') -> ready pairs elf st t ->
  exists st2 t3,
    finish lim sync st2 t3 = Some (st', t') /\ NoDup (wanted pairs) /\
    (forall p c f, In (p, c) pairs -> holds t p f -> t3 c = Some (f, false)) /\
    Forall2 (kept (wanted pairs) (map fst pairs) t t3) (elf :: ends (pipes_of st)) (elf' :: ends (pipes_of st2)) /\
    (forall x f, ~ In x (wanted pairs) -> holds t3 x f ->
       (exists e, In (e, x) (sources elf st elf' st2) /\ holds t e f) \/
       (ca = false /\ ~ In x (elf :: ends (pipes_of st)) /\ holds t x f)).
Proof.
  rewrite setup_split. intros H R. destruct (middle lim ca pairs elf st t) as [[[st2 e2] t3]|] eqn:M; [|discriminate].
  destruct (finish lim sync st2 t3) as [[s' u']|] eqn:F; [|discriminate]. injection H as -> -> ->. exists st2, t3. split; [exact F|].
  exact (core_mid _ _ _ _ _ _ _ _ _ M R).
Qed.

(* ---- from there to the new program ---- *)
Definition shut (l : list Z) (x : Z) : bool := existsb (Z.eqb x) (filter (fun e => negb (e =? -1)) l).
Lemma shut_in l x : shut l x = true <-> In x l /\ x <> -1.
Proof.
  unfold shut. rewrite existsb_exists. split.
  - intros (y & I & E). apply Z.eqb_eq in E. subst y. apply filter_In in I. destruct I as [I N]. split; [exact I|]. intros ->. discriminate N.
  - intros [I N]. exists x. split; [|apply Z.eqb_refl]. apply filter_In. split; [exact I|]. destruct (Z.eqb_spec x (-1)); [contradiction|reflexivity].
Qed.
Lemma shut_out l x : shut l x = false <-> ~ In x l \/ x = -1.
Proof.
  rewrite <- Bool.not_true_iff_false, shut_in. destruct (in_dec Z.eq_dec x l), (Z.eq_dec x (-1)); tauto.
Qed.
Lemma shut_cons a l x : shut (a :: l) x = (if a =? -1 then false else x =? a) || shut l x.
Proof. unfold shut. cbn [filter]. destruct (a =? -1); reflexivity. Qed.
Lemma car_spec t fd x : close_and_reset t fd x = if (if fd =? -1 then false else x =? fd) then None else t x.
Proof. unfold close_and_reset. destruct (fd =? -1); [reflexivity|]. unfold close, upd. reflexivity. Qed.
Lemma close_pair_spec p t x : close_pair p t x = if shut [fst p; snd p] x then None else t x.
Proof.
  unfold close_pair. rewrite !car_spec, !shut_cons. cbn [shut filter existsb].
  destruct (if fst p =? -1 then false else x =? fst p), (if snd p =? -1 then false else x =? snd p); reflexivity.
Qed.
Lemma shut_app l l' x : shut (l ++ l') x = shut l x || shut l' x.
Proof. unfold shut. rewrite filter_app, existsb_app. reflexivity. Qed.

Definition std_list (st : run_state) : list (Z * Z) := [(fst (rs_in st), 0); (snd (rs_out st), 1); (snd (rs_err st), 2)].
(* only the values of the table matter *)
Lemma connect_ext lim : forall l t u t', (forall x, t x = u x) -> connect_std lim l t = Some t' ->
  exists u', connect_std lim l u = Some u' /\ forall x, t' x = u' x.
Proof.
  induction l as [|[a b] l IH]; intros t u t' E H; cbn [connect_std] in *.
  - injection H as <-. exists u. auto.
  - destruct ((a =? -1) || (a =? b)) eqn:G; [eapply IH; eassumption|].
    destruct (dup2 lim t a b) as [t1|] eqn:D; [|discriminate].
    assert (D' : exists u1, dup2 lim u a b = Some u1 /\ forall x, t1 x = u1 x).
    { unfold dup2 in *. rewrite <- E. destruct (t a) as [[f c]|]; [|discriminate]. destruct ((0 <=? b) && (b <? lim)); [|discriminate].
      injection D as <-. eexists. split; [reflexivity|]. intro x. destruct (a =? b); [apply E|]. unfold upd. destruct (x =? b); [reflexivity|apply E]. }
    destruct D' as (u1 & D1 & D2). rewrite D1. eapply IH; eassumption.
Qed.
Lemma finish_spec lim sync st t st' t' : finish lim sync st t = Some (st', t') -> exists t5,
  connect_std lim (std_list st) (fun x => if sync && shut [snd (rs_sync st); fst (rs_sync st)] x then None else t x) = Some t5 /\
  rs_pipe st' = rs_pipe st /\
  forall x, before_exec st' t' x =
    if shut (snd (rs_pipe st) :: ends [rs_in st; rs_out st; rs_err st] ++ (if sync then [] else ends [rs_sync st])) x then None else t5 x.
Proof.
  intros H. unfold finish in H.
  assert (Q : exists sy ty, setup_child_std_fds lim (RunState (rs_pipe st) sy (rs_in st) (rs_out st) (rs_err st)) ty = Some (st', t') /\
              sy = (if sync then (-1, -1) else rs_sync st) /\
              forall x, ty x = if sync && shut [snd (rs_sync st); fst (rs_sync st)] x then None else t x).
  { destruct sync.
    - do 2 eexists. split; [exact H|]. split; [reflexivity|]. intro x. rewrite !car_spec, !shut_cons. cbn [shut filter existsb andb].
      destruct (if fst (rs_sync st) =? -1 then false else x =? fst (rs_sync st)), (if snd (rs_sync st) =? -1 then false else x =? snd (rs_sync st)); reflexivity.
    - destruct st as [a b c d e]. exists b, t. split; [exact H|]. split; [reflexivity|]. reflexivity. }
  destruct Q as (sy & ty & Q & Sy & Ty). clear H.
  unfold setup_child_std_fds in Q. cbn [rs_in rs_out rs_err rs_pipe rs_sync] in Q. change [(fst (rs_in st), 0); (snd (rs_out st), 1); (snd (rs_err st), 2)] with (std_list st) in Q.
  destruct (connect_std lim (std_list st) ty) as [t5|] eqn:C; [|discriminate].
  destruct (connect_ext _ _ _ _ _ Ty C) as (u & C' & U). injection Q as <- <-. exists u. split; [exact C'|]. split; [reflexivity|].
  intro x. unfold before_exec, free_run_state. cbn [rs_in rs_out rs_err rs_pipe rs_sync fold_left fst snd].
  rewrite !close_pair_spec. cbn [fst snd]. rewrite (U x). subst sy.
  destruct sync; cbn [ends flat_map app fst snd]; rewrite !shut_cons; replace (shut [] x) with false by reflexivity; change (-1 =? -1) with true; cbv iota;
    repeat match goal with |- context [if ?a =? -1 then false else ?b] => destruct (if a =? -1 then false else b) end; reflexivity.
Qed.
Lemma connect_other lim : forall l t t' x, connect_std lim l t = Some t' ->
  (forall from, In (from, x) l -> from = -1 \/ from = x) -> t' x = t x.
Proof.
  induction l as [|[a b] l IH]; intros t t' x H N; cbn [connect_std] in H; [injection H as <-; reflexivity|].
  destruct ((a =? -1) || (a =? b)) eqn:G; [eapply IH; [exact H|]; intros; apply N; right; assumption|].
  destruct (dup2 lim t a b) as [t1|] eqn:D; [|discriminate]. rewrite (IH _ _ _ H) by (intros; apply N; right; assumption).
  apply dup2_spec in D. destruct D as (f & c & _ & _ & [[_ ->]|(_ & _ & D)]); [reflexivity|]. apply D. intros ->.
  apply orb_false_iff in G. destruct (N a (or_introl eq_refl)); subst; [discriminate (proj1 G)|]. destruct G as [_ G]. now rewrite Z.eqb_refl in G.
Qed.
