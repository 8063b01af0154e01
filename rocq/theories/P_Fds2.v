(* Proofs about descriptors: nothing dies when there is room. *)
From Coq Require Import Lia.
From Verif Require Export P_Fds.
Local Open Scope Z_scope.

Lemma kept_none w ps t t3 e e' : kept w ps t t3 e e' -> e = -1 -> e' = -1.
Proof. intros [[_ H]|[H _]] E; [exact H|contradiction]. Qed.
Lemma kept_ends w ps t t3 elf elf' st st2 :
  Forall2 (kept w ps t t3) (elf :: ends (pipes_of st)) (elf' :: ends (pipes_of st2)) ->
  kept w ps t t3 (fst (rs_in st)) (fst (rs_in st2)) /\ kept w ps t t3 (snd (rs_out st)) (snd (rs_out st2)) /\
  kept w ps t t3 (snd (rs_err st)) (snd (rs_err st2)).
Proof.
  intros K. assert (Q : forall n d, (n < 11)%nat -> kept w ps t t3 (nth n (elf :: ends (pipes_of st)) d) (nth n (elf' :: ends (pipes_of st2)) d)).
  { clear - K. remember (elf :: ends (pipes_of st)) as a eqn:E. assert (L : length a = 11%nat) by (subst; reflexivity). clear E. rewrite <- L. clear L.
    induction K; intros n d N; [cbn in N; lia|]. destruct n; [exact H|]. apply IHK. cbn in N. lia. }
  split; [exact (Q 5%nat 0 ltac:(lia))|]. split; [exact (Q 8%nat 0 ltac:(lia))|exact (Q 10%nat 0 ltac:(lia))].
Qed.
Lemma preserved_arrive lim ca pairs elf sync st t st' elf' t' p c f :
  child_setup lim ca pairs elf sync st t = Some (st', elf', t') -> ready pairs elf st t ->
  In (p, c) pairs -> holds t p f ->
  (c = 0 -> fst (rs_in st) = -1) -> (c = 1 -> snd (rs_out st) = -1) -> (c = 2 -> snd (rs_err st) = -1) -> at_start st' t' c = Some (f, false).
Proof.
  intros H R I T NP0 NP1 NP2. destruct (core _ _ _ _ _ _ _ _ _ _ H R) as (st2 & t3 & F & ND & A & K & _).
  specialize (A _ _ _ I T). destruct (finish_spec _ _ _ _ _ _ F) as (t5 & C & _ & B).
  assert (W : In c (wanted pairs)) by (unfold wanted; change c with (snd (p, c)); apply in_map; exact I).
  assert (KW : forall e', In e' (ends (pipes_of st2)) -> e' = -1 \/ e' <> c).
  { intros e' J. destruct (Forall2_ex _ _ _ _ K (or_intror J)) as (e & _ & [[_ E]|(_ & _ & E & _)]); [left; exact E|right; intros ->; contradiction]. }
  assert (SH : forall l, incl l (ends (pipes_of st2)) -> shut l c = false).
  { intros l L. apply shut_out. destruct (Z.eq_dec c (-1)) as [E|E]; [right; exact E|left]. intro J. destruct (KW _ (L _ J)); congruence. }
  assert (B' : before_exec st' t' c = Some (f, false)).
  { rewrite B, SH.
    - rewrite (connect_other _ _ _ _ c C).
      + rewrite SH by (intros y Y; cbn in *; tauto). rewrite andb_false_r. exact A.
      + intros from J. left. pose proof (kept_ends _ _ _ _ _ _ _ _ K) as (K1 & K2 & K3).
        destruct J as [J|[J|[J|[]]]]; injection J as <- <-.
        * apply (kept_none _ _ _ _ _ _ K1). apply NP0. reflexivity.
        * apply (kept_none _ _ _ _ _ _ K2). apply NP1. reflexivity.
        * apply (kept_none _ _ _ _ _ _ K3). apply NP2. reflexivity.
    - intros y Y. destruct sync; cbn in *; tauto. }
  unfold at_start, after_exec. rewrite B'. reflexivity.
Qed.

(* ---- room ---- *)
Lemma room_wanted n p q t : wanted p = wanted q -> room n p t -> room n q t.
Proof. intros E (l & A & B & C). exists l. split; [exact A|]. split; [exact B|]. rewrite <- E. exact C. Qed.
Lemma room_step n pairs t t' y : room (S n) pairs t -> (forall x, x <> y -> t' x = t x) -> room n pairs t'.
Proof.
  intros (l & ND & L & R) E. exists (remove Z.eq_dec y l). split; [|split].
  - clear - ND. induction ND as [|x l N ND IH]; cbn; [constructor|]. destruct (Z.eq_dec y x); [exact IH|]. constructor; [|exact IH].
    intro I. apply N. apply in_remove in I. tauto.
  - clear - ND L. assert (Q : (length l <= S (length (remove Z.eq_dec y l)))%nat); [|lia]. clear L.
    induction ND as [|x l N ND IH]; cbn; [lia|]. destruct (Z.eq_dec y x) as [->|]; cbn; [|lia]. rewrite notin_remove by exact N. lia.
  - intros x I. apply in_remove in I. destruct I as [I N]. destruct (R x I) as (A & B & C). split; [exact A|]. split; [rewrite E; [exact B|exact N]|exact C].
Qed.
Lemma room_less n m pairs t : (n <= m)%nat -> room m pairs t -> room n pairs t.
Proof. intros L (l & A & B & C). exists l. split; [exact A|]. split; [lia|exact C]. Qed.
Lemma unused_room pairs t : room 1 pairs t -> exists fd, unused_fd pairs t 1024 = Some fd /\ 3 <= fd < 1024.
Proof.
  intros (l & _ & L & R). destruct l as [|x l]; [cbn in L; lia|]. destruct (R x (or_introl eq_refl)) as (A & B & C).
  assert (Q : forall n, x < Z.of_nat n -> exists fd, unused_fd pairs t n = Some fd).
  { induction n as [|n IH]; [lia|]. intros X. cbn [unused_fd]. destruct (_ || _) eqn:E; [|eexists; reflexivity]. apply IH.
    destruct (Z.eq_dec x (Z.of_nat n)) as [->|]; [|lia]. exfalso. apply orb_true_iff in E. destruct E as [E|E]; [apply preserved_all in E; contradiction|].
    unfold is_open in E. rewrite B in E. discriminate. }
  destruct (Q 1024%nat) as (fd & U); [lia|]. exists fd. split; [exact U|]. destruct (unused_spec _ _ _ _ U) as (_ & _ & U1 & U2).
  split; [|lia]. destruct (Z_lt_le_dec fd 3) as [S|S]; [|exact S]. exfalso. destruct (U2 x); [lia|congruence|contradiction].
Qed.
Lemma dup2_ok lim t old new : t old <> None -> 0 <= new < lim -> exists t', dup2 lim t old new = Some t' /\ forall x, x <> new -> t' x = t x.
Proof.
  intros T R. unfold dup2. destruct (t old) as [[f b]|]; [|contradiction].
  replace ((0 <=? new) && (new <? lim)) with true by lia. eexists. split; [reflexivity|]. intros x N.
  destruct (old =? new); [reflexivity|]. unfold upd. destruct (Z.eqb_spec x new); [contradiction|reflexivity].
Qed.
Lemma ensure_room lim pairs t child parent max n : 1024 <= lim -> t parent <> None -> child = -1 \/ 0 <= child < lim ->
  room (S n) pairs t ->
  exists p' t', ensure_no_fd_conflict lim pairs t child parent max = Some (p', t') /\ room n pairs t' /\
                (child = -1 -> p' = parent \/ 3 <= p' < 1024).
Proof.
  intros L T C R. unfold ensure_no_fd_conflict. destruct (negb _).
  - exists parent, t. split; [reflexivity|]. split; [eapply room_less; [|exact R]; lia|auto].
  - destruct ((child =? -1) || is_open t child) eqn:E.
    + destruct (unused_room pairs t) as (fd & U & B); [eapply room_less; [|exact R]; lia|]. rewrite U.
      destruct (dup2_ok lim t parent fd T) as (t' & D & F); [lia|]. rewrite D. exists fd, t'. split; [reflexivity|].
      split; [eapply room_step; [exact R|exact F]|auto].
    + apply orb_false_iff in E. destruct E as [E _]. destruct C as [->|C]; [discriminate E|].
      destruct (dup2_ok lim t parent child T C) as (t' & D & F). rewrite D. exists child, t'. split; [reflexivity|].
      split; [eapply room_step; [exact R|exact F]|intros ->; discriminate E].
Qed.
Lemma prepare_room lim n : 1024 <= lim -> forall todo done t,
  NoDup (map snd (done ++ todo)) -> (forall c, In c (map snd todo) -> 0 <= c < lim) -> (forall p, In p (map fst todo) -> t p <> None) ->
  room (length todo + n) (done ++ todo) t ->
  exists l t', prepare_preserved_fds lim t done todo = Some (l, t') /\ room n l t'.
Proof.
  intros L. induction todo as [|[p c] todo IH]; intros done t ND C P R.
  - rewrite app_nil_r in R. exists done, t. split; [reflexivity|exact R].
  - cbn [prepare_preserved_fds]. assert (FN : firstn (length done) (done ++ (p, c) :: todo) = done) by (rewrite firstn_app, Nat.sub_diag, firstn_all; apply app_nil_r).
    destruct (is_preserved_child_fd _ c _) eqn:E.
    + exfalso. apply preserved_iff in E. rewrite FN in E. rewrite map_app in ND. cbn [map snd] in ND. apply NoDup_remove_2 in ND. apply ND. apply in_or_app. left. exact E.
    + destruct (ensure_room lim (done ++ (p, c) :: todo) t c p (length done) (length todo + n) L) as (p' & t' & EN & R' & _).
      * apply P. left. reflexivity.
      * right. apply C. left. reflexivity.
      * exact R.
      * rewrite EN. apply IH.
        -- rewrite <- app_assoc. cbn [app]. rewrite map_app in *. exact ND.
        -- intros; apply C; right; assumption.
        -- intros q Q. pose proof (ensure_grew _ _ _ _ _ _ _ _ EN) as G. specialize (P q (or_intror Q)). destruct (t q) eqn:V; [|contradiction]. apply G in V. congruence.
        -- rewrite <- app_assoc. cbn [app]. eapply room_wanted; [|exact R']. unfold wanted. rewrite !map_app. reflexivity.
Qed.
Lemma move_end_room lim pairs a t n : 1024 <= lim -> t a <> None \/ a = -1 -> room (S n) pairs t ->
  exists b t', move_end lim pairs a t = Some (b, t') /\ room n pairs t' /\ (b = a \/ 3 <= b).
Proof.
  intros L A R. unfold move_end. destruct (Z.eqb_spec a (-1)) as [->|N].
  - exists (-1), t. split; [reflexivity|]. split; [eapply room_less; [|exact R]; lia|auto].
  - destruct A as [A|A]; [|contradiction]. destruct (ensure_room lim pairs t (-1) a (length pairs) n L A (or_introl eq_refl) R) as (b & t' & E & R' & B).
    exists b, t'. split; [exact E|]. split; [exact R'|]. specialize (B eq_refl). lia.
Qed.
Lemma move_pipes_room lim pairs n : 1024 <= lim -> forall l t, (forall a, In a (ends l) -> t a <> None \/ a = -1) ->
  room (2 * length l + n) pairs t ->
  exists l' t', move_pipes lim pairs l t = Some (l', t') /\ room n pairs t' /\ Forall2 (fun a b => b = a \/ 3 <= b) (ends l) (ends l').
Proof.
  intros L. induction l as [|[a1 a2] l IH]; intros t O R.
  - exists [], t. split; [reflexivity|]. split; [exact R|constructor].
  - assert (NN : forall t t' x, grew t t' -> t x <> None \/ x = -1 -> t' x <> None \/ x = -1).
    { intros ta tb x G [V|V]; [left|right; exact V]. destruct (ta x) eqn:T; [|contradiction]. apply G in T. congruence. }
    cbn [move_pipes]. unfold move_pipe. cbn [fst snd].
    destruct (move_end_room lim pairs a1 t (S (2 * length l + n)) L) as (b1 & t1 & E1 & R1 & B1).
    { apply O. left. reflexivity. } { eapply room_less; [|exact R]. cbn. lia. }
    pose proof (move_end_spec _ _ _ _ _ _ E1) as (G1 & _ & _).
    destruct (move_end_room lim pairs a2 t1 (2 * length l + n) L) as (b2 & t2 & E2 & R2 & B2).
    { eapply NN; [exact G1|]. apply O. right. left. reflexivity. } { exact R1. }
    pose proof (move_end_spec _ _ _ _ _ _ E2) as (G2 & _ & _).
    destruct (IH t2) as (l' & t3 & E3 & R3 & B3).
    { intros a I. eapply NN; [exact G2|]. eapply NN; [exact G1|]. apply O. right. right. exact I. } { exact R2. }
    rewrite E1, E2, E3. exists ((b1, b2) :: l'), t3. split; [reflexivity|]. split; [exact R3|]. cbn. constructor; [exact B1|]. constructor; [exact B2|exact B3].
Qed.
Lemma redirect_ok lim : forall l t, safe l -> (forall c, In c (wanted l) -> 0 <= c < lim) -> (forall p, In p (map fst l) -> t p <> None) ->
  exists t', redirect_each lim l t = Some t'.
Proof.
  induction l as [|[p c] l IH]; intros t S C P; [eexists; reflexivity|]. cbn [redirect_each]. destruct S as [S1 S2].
  assert (Q : forall t1, (forall x, x <> c -> t1 x = t x) -> exists t', redirect_each lim l t1 = Some t').
  { intros t1 E. apply IH; [exact S2|intros; apply C; right; assumption|]. intros q I. rewrite E; [apply P; right; exact I|].
    apply in_map_iff in I. destruct I as (qq & <- & I). apply S1. exact I. }
  destruct (p =? c).
  - apply Q. intros x N. destruct (t c) as [[f []]|]; [|reflexivity|reflexivity]. unfold upd. destruct (Z.eqb_spec x c); [contradiction|reflexivity].
  - destruct (dup2_ok lim t p c) as (t1 & D & F); [apply P; left; reflexivity|apply C; left; reflexivity|]. rewrite D. apply Q. exact F.
Qed.

(* everything up to the synchronization succeeds *)
Lemma middle_ok lim ca pairs elf st t :
  1024 <= lim -> ready pairs elf st t -> room (length pairs + 11) pairs t ->
  NoDup (wanted pairs) -> (forall c, In c (wanted pairs) -> 0 <= c < lim) ->
  exists st2 elf' t3, middle lim ca pairs elf st t = Some (st2, elf', t3) /\
    Forall2 (fun a b => b = a \/ 3 <= b) (ends (pipes_of st)) (ends (pipes_of st2)) /\ (elf' = elf \/ 3 <= elf').
Proof.
  intros L [RP RE] R ND C. unfold middle. set (t0 := if ca then close_open_fds (inheritable_fds st pairs elf) t else t).
  assert (P0 : forall p, In p (map fst pairs) -> t0 p <> None).
  { intros p I. unfold t0. destruct ca; [|apply RP; exact I]. unfold close_open_fds.
    replace (existsb (Z.eqb p) (inheritable_fds st pairs elf)) with true; [apply RP; exact I|]. symmetry. apply existsb_exists. exists p.
    split; [|apply Z.eqb_refl]. unfold inheritable_fds. apply in_or_app. right. apply in_or_app. left. exact I. }
  assert (E0 : forall e, In e (elf :: ends (pipes_of st)) -> t0 e <> None \/ e = -1).
  { intros e I. destruct (RE _ I) as [[N V]|N]; [left|right; exact N]. unfold t0. destruct ca; [|exact V]. unfold close_open_fds.
    replace (existsb (Z.eqb e) (inheritable_fds st pairs elf)) with true; [exact V|]. symmetry. apply existsb_exists. exists e.
    split; [|apply Z.eqb_refl]. unfold inheritable_fds. apply in_or_app. destruct I as [<-|I]; [right|left].
    - apply in_or_app. right. destruct (Z.ltb_spec (-1) elf); [left; reflexivity|lia].
    - apply filter_In. split; [exact I|]. destruct (Z.eqb_spec e (-1)); [lia|reflexivity]. }
  assert (R0 : room (length pairs + 11) pairs t0).
  { destruct R as (l & A & B & D). exists l. split; [exact A|]. split; [exact B|]. intros x I. destruct (D x I) as (D1 & D2 & D3).
    split; [exact D1|]. split; [|exact D3]. unfold t0. destruct ca; [|exact D2]. unfold close_open_fds. destruct (existsb _ _); [exact D2|reflexivity]. }
  clearbody t0. clear RP RE R.
  destruct (prepare_room lim 11 L pairs [] t0 ND C P0 R0) as (l & t1 & E1 & R1). rewrite E1.
  destruct (prepare_ok _ _ _ _ _ E1) as (G1 & SF & ND' & ST & X1). pose proof (stands_wanted _ _ _ _ _ ST) as W.
  assert (NN : forall t t' x, grew t t' -> t x <> None \/ x = -1 -> t' x <> None \/ x = -1).
  { intros ta tb x G [V|V]; [left|right; exact V]. destruct (ta x) eqn:T; [|contradiction]. apply G in T. congruence. }
  destruct (move_pipes_room lim l 1 L (pipes_of st) t1) as (q & t2 & E2 & R2 & B2).
  { intros a I. eapply NN; [exact G1|]. apply E0. right. exact I. } { exact R1. }
  assert (O1 : forall a, In a (ends (pipes_of st)) -> t1 a <> None \/ a = -1) by (intros a I; eapply NN; [exact G1|]; apply E0; right; exact I).
  destruct (move_pipes_spec _ _ _ _ _ _ E2 O1) as (G2 & _ & _ & LQ).
  destruct q as [|q1 [|q2 [|q3 [|q4 [|q5 [|? ?]]]]]]; try discriminate LQ.
  unfold avoid_pipe_conflicts. rewrite E2.
  destruct (move_end_room lim l elf t2 0 L) as (elf' & t3 & E3 & _ & BE).
  { eapply NN; [exact G2|]. eapply NN; [exact G1|]. apply E0. left. reflexivity. } { exact R2. }
  rewrite E3. destruct (move_end_spec _ _ _ _ _ _ E3) as (G3 & _ & _). unfold redirect_fds.
  destruct (redirect_ok lim l t3) as (t4 & E4).
  - exact SF.
  - rewrite W. exact C.
  - intros p' I. apply in_map_iff in I. destruct I as ([a c] & <- & I). cbn [fst].
    destruct (stands_in' _ _ _ _ _ _ _ ST I) as (p & Ip & _ & _ & S3). cbn [fst] in S3.
    assert (Ip' : In p (map fst pairs)) by (change p with (fst (p, c)); apply in_map; exact Ip).
    specialize (P0 _ Ip'). destruct (t0 p) as [[f b]|] eqn:T; [|contradiction]. destruct (S3 _ _ eq_refl) as (b' & S4).
    apply G2, G3 in S4. congruence.
  - rewrite E4. do 3 eexists. split; [reflexivity|]. split; [exact B2|exact BE].
Qed.
