(* Creating directories and mount destinations. *)
From Verif Require Import P_Io M_Enter S_Dirs.
Local Open Scope N_scope.

(* ---- Paths ---- *)
Lemma names_slash t : forall s cur, names cur (s ++ String "/" t) = (names cur s ++ names "" t)%list.
Proof.
  induction s as [|c s IH]; intros cur.
  - cbn [append names]. change (Ascii.eqb "/" "/") with true. cbv iota. destruct (cur =? "")%string; reflexivity.
  - cbn [append names]. destruct (Ascii.eqb c "/"); [|apply IH]. destruct (cur =? "")%string; rewrite IH; reflexivity.
Qed.
Lemma at_path_slash cwd s t : s <> ""%string -> at_path cwd (s ++ String "/" t) = (at_path cwd s ++ names "" t)%list.
Proof.
  intros S. unfold at_path. rewrite names_slash, app_assoc. destruct s; [congruence|reflexivity].
Qed.
Lemma sapp_assoc a b c : ((a ++ b) ++ c = a ++ (b ++ c))%string.
Proof. induction a; cbn; congruence. Qed.
Lemma dir_prefixes_spec r : forall seen s, In s (dir_prefixes seen r) -> seen <> ""%string ->
  s <> ""%string /\ exists t, (seen ++ r)%string = (s ++ String "/" t)%string.
Proof.
  induction r as [|c r IH]; intros seen s H NE; [destruct H|]. cbn [dir_prefixes] in H.
  assert (Q : (seen ++ String c r = (seen ++ String c "") ++ r)%string) by (rewrite sapp_assoc; reflexivity).
  assert (NE' : (seen ++ String c "")%string <> ""%string) by (destruct seen; discriminate).
  destruct (Ascii.eqb_spec c "/") as [->|].
  - destruct H as [<-|H]; [split; [exact NE|exists r; reflexivity]|]. rewrite Q. apply (IH _ _ H NE').
  - rewrite Q. apply (IH _ _ H NE').
Qed.
Lemma dir_prefixes_all r : forall seen s t, (exists s', s = seen ++ s')%string -> (seen ++ r = s ++ String "/" t)%string -> In s (dir_prefixes seen r).
Proof.
  assert (INJ : forall a b c : string, (a ++ b = a ++ c)%string -> b = c). { induction a; cbn; intros; [auto|]. apply IHa. congruence. }
  induction r as [|c r IH]; intros seen s t [s' ->] E.
  { exfalso. rewrite sapp_assoc in E. apply INJ in E. destruct s'; discriminate. }
  cbn [dir_prefixes]. rewrite sapp_assoc in E. apply INJ in E. destruct s' as [|c' s'].
  - cbn [append] in E. injection E as -> ->. change (Ascii.eqb "/" "/") with true. cbv iota. left.
    clear. induction seen; cbn; congruence.
  - cbn [append] in E. injection E as <- E.
    assert (X : In (seen ++ String c s')%string (dir_prefixes (seen ++ String c "") r)).
    { apply (IH _ _ t); [exists s'; rewrite sapp_assoc; reflexivity|]. rewrite E, !sapp_assoc. reflexivity. }
    destruct (Ascii.eqb c "/"); [right|]; exact X.
Qed.

(* ---- Trees ---- *)
Lemma happens_app cwd t1 t2 : forall F F', happens cwd F (t1 ++ t2) F' -> exists F1, happens cwd F t1 F1 /\ happens cwd F1 t2 F'.
Proof.
  induction t1 as [|e t1 IH]; intros F F' H; cbn [app] in H.
  - exists F. split; [constructor; intros q; reflexivity|exact H].
  - inversion H; subst. destruct (IH _ _ H5) as (F2 & A & B). exists F2. split; [econstructor; eassumption|exact B].
Qed.
Lemma dir_of_is mode F p : dir_of mode F p -> is_dir F p.
Proof. intros (m & E & M & _). exists m. auto. Qed.
Lemma is_dir_there F p : is_dir F p -> there F p.
Proof. intros (m & E & _) Z. congruence. Qed.

(* Grown: only new places, within [target], all directories but [target] itself
   unless [dirs]. *)
Definition grown (dirs : bool) (mode : N) (target : place) (F F' : tree) : Prop :=
  (forall q, there F q -> F' q = F q) /\
  forall q, ~ there F q -> there F' q -> within q target /\ (dir_of mode F' q \/ (dirs = false /\ q = target /\ ~ is_dir F' q)).
Lemma there_dec (F : tree) q : there F q \/ ~ there F q.
Proof. unfold there. destruct (F q); [left|right]; congruence. Qed.
Lemma grown_refl b mode target F F' : same F F' -> grown b mode target F F'.
Proof.
  intros S. split; [intros q _; apply S|]. intros q N1 N2. exfalso. apply N1. unfold there in *. rewrite <- S. exact N2.
Qed.
Lemma grown_trans b mode target F F1 F2 : grown b mode target F F1 -> grown b mode target F1 F2 -> grown b mode target F F2.
Proof.
  intros [A1 A2] [B1 B2]. split.
  - intros q T. rewrite B1; [apply A1, T|]. unfold there. rewrite A1; exact T.
  - intros q N T. destruct (there_dec F1 q) as [X|X].
    + destruct (A2 q N X) as [W D]. split; [exact W|]. destruct D as [(m & E & M)|(D1 & D2 & D3)]; [left|right].
      * exists m. rewrite B1 by exact X. auto.
      * split; [exact D1|]. split; [exact D2|]. intros (m & E & M). apply D3. exists m. rewrite <- B1 by exact X. auto.
    + apply (B2 q X T).
Qed.
Lemma grown_weaken mode target F F' : grown true mode target F F' -> grown false mode target F F'.
Proof. intros [A B]. split; [exact A|]. intros q N T. destruct (B q N T) as [W [D|[D _]]]; [auto|discriminate]. Qed.
Lemma grown_there b mode target F F' q : grown b mode target F F' -> there F q -> there F' q.
Proof. intros [A _] T. unfold there. rewrite A; exact T. Qed.
Lemma put_grown b mode target F p m F' : ~ there F p -> put F p m F' -> within p target -> (dir_mode m /\ perms_within m mode) \/ (b = false /\ p = target /\ ~ dir_mode m) -> grown b mode target F F'.
Proof.
  intros N [P1 P2] W D. split.
  - intros q T. apply P2. intros ->. contradiction.
  - intros q N1 T1. destruct (list_eq_dec string_dec q p) as [->|NE]; [|exfalso; apply N1; unfold there in *; rewrite <- P2; assumption].
    split; [exact W|]. destruct D as [D|(D1 & D2 & D3)]; [left; exists m; auto|right].
    split; [exact D1|]. split; [exact D2|]. intros (m' & E & M). rewrite P1 in E. injection E as <-. contradiction.
Qed.
Lemma put_rooted F p m F' : rooted F -> ~ there F p -> parent_is_dir F p -> put F p m F' -> rooted F'.
Proof.
  intros [R1 R2] N (q0 & c0 & -> & D0) [P1 P2].
  assert (K : forall q, is_dir F q -> is_dir F' q).
  { intros q (mm & E & M). exists mm. split; [|exact M]. rewrite P2; [exact E|]. intros ->. apply N. unfold there. rewrite E. discriminate. }
  split; [apply K, R1|]. intros q c T. apply K. destruct (list_eq_dec string_dec (q ++ [c]) (q0 ++ [c0])) as [E|NE].
  - apply app_inj_tail in E as [-> _]. exact D0.
  - apply (R2 q c). unfold there in *. rewrite <- P2; assumption.
Qed.
Lemma same_rooted F F' : same F F' -> rooted F -> rooted F'.
Proof.
  intros S [(m & E & M) R]. split; [exists m; rewrite S; auto|]. intros q c T. destruct (R q c) as (m' & E' & M').
  - unfold there in *. rewrite <- S. exact T.
  - exists m'. rewrite S. auto.
Qed.

(* ---- mkdir_p ---- *)
Lemma andthen_ret p q t r : does (andthen p q) t (Returned r) ->
  (exists t1 t2, t = (t1 ++ t2)%list /\ does p t1 (Returned 0%Z) /\ does q t2 (Returned r)) \/ (r <> 0%Z /\ does p t (Returned r)).
Proof.
  unfold andthen. intros H. apply exec_bind_ret in H as (t1 & t2 & a & -> & H1 & H2).
  destruct (Z.eqb_spec a 0) as [->|N]; [left; eauto|]. destruct H2 as [-> E]. injection E as ->. right. rewrite app_nil_r. auto.
Qed.
Definition failed_mkdir (mode : N) (t : list event) (r : Z) : Prop := exists p e, In (C_mkdir p mode, No e) t /\ r = Z.neg e /\ e <> 17%positive.
Lemma mkdir_or_exists_ret cwd target s mode t r F F' : does (mkdir_or_exists s mode) t (Returned r) -> happens cwd F t F' -> rooted F ->
  within (at_path cwd s) target ->
  rooted F' /\ grown true mode target F F' /\ (r = 0%Z -> there F' (at_path cwd s)) /\ (r <> 0%Z -> failed_mkdir mode t r).
Proof.
  intros H HP R W. destruct H as (x & t' & -> & H). inversion HP as [|? ? F1 ? ? ST HQ]; subst. destruct x as [v sv|e]; cbn [step] in ST.
  - destruct H as [-> E]. injection E as <-. inversion HQ as [? ? SM|]; subst. destruct ST as (N & PD & m & M & P).
    assert (G : grown true mode target F F1) by (eapply put_grown; eauto).
    split; [eapply same_rooted; [exact SM|]; eapply put_rooted; eauto|]. split; [eapply grown_trans; [exact G|apply grown_refl, SM]|].
    split; [intros _; unfold there; rewrite SM; destruct P as [P _]; rewrite P; discriminate|congruence].
  - destruct ST as [SM EX].
    change (does (if is_err e EEXIST then Pure 0%Z else Pure (Z.neg e)) t' (Returned r)) in H. unfold is_err in H. destruct (Z.eqb_spec (Z.pos e) EEXIST) as [E17|NE].
    + destruct H as [-> E]. injection E as <-. inversion HQ as [? ? SM2|]; subst.
      split; [eapply same_rooted; [exact SM2|]; eapply same_rooted; eauto|].
      split; [eapply grown_trans; apply grown_refl; eassumption|]. split; [|congruence]. intros _. unfold there. rewrite SM2, SM. apply EX.
      unfold EEXIST in E17. congruence.
    + destruct H as [-> E]. injection E as ->. inversion HQ as [? ? SM2|]; subst.
      split; [eapply same_rooted; [exact SM2|]; eapply same_rooted; eauto|].
      split; [eapply grown_trans; apply grown_refl; eassumption|]. split; [intros Z; discriminate|]. intros _. exists s, e. split; [left; reflexivity|].
      split; [reflexivity|]. intros ->. apply NE. reflexivity.
Qed.
Lemma failed_app mode t1 t2 r : failed_mkdir mode t2 r -> failed_mkdir mode (t1 ++ t2) r.
Proof. intros (p & e & I & X). exists p, e. split; [apply in_or_app; auto|exact X]. Qed.
Lemma mkdirs_ret cwd target mode l : forall t r F F', does (mkdirs l mode) t (Returned r) -> happens cwd F t F' -> rooted F ->
  (forall s, In s l -> within (at_path cwd s) target) ->
  rooted F' /\ grown true mode target F F' /\ (r = 0%Z -> forall s, In s l -> there F' (at_path cwd s)) /\ (r <> 0%Z -> failed_mkdir mode t r).
Proof.
  induction l as [|s l IH]; intros t r F F' H HP R W; cbn [mkdirs] in H.
  { destruct H as [-> E]. injection E as <-. inversion HP as [? ? SM|]; subst. split; [eapply same_rooted; eauto|]. split; [apply grown_refl, SM|].
    split; [intros _ s []|congruence]. }
  apply andthen_ret in H as [(t1 & t2 & -> & H1 & H2)|[N H1]].
  - apply happens_app in HP as (F1 & HP1 & HP2).
    destruct (mkdir_or_exists_ret cwd target s mode t1 0%Z F F1 H1 HP1 R (W s (or_introl eq_refl))) as (R1 & G1 & T1 & _).
    destruct (IH t2 r F1 F' H2 HP2 R1 (fun x X => W x (or_intror X))) as (R2 & G2 & T2 & X2).
    split; [exact R2|]. split; [eapply grown_trans; eauto|]. split; [|intros N; apply failed_app, X2, N].
    intros Z x [<-|I]; [|apply T2; auto]. eapply grown_there; [exact G2|]. apply T1. reflexivity.
  - destruct (mkdir_or_exists_ret cwd target s mode t r F F' H1 HP R (W s (or_introl eq_refl))) as (R1 & G1 & _ & X1).
    split; [exact R1|]. split; [exact G1|]. split; [congruence|exact X1].
Qed.
Lemma mkdir_p_ret cwd path mode isdir t r F F' : does (mkdir_p path mode isdir) t (Returned r) -> happens cwd F t F' -> rooted F ->
  rooted F' /\ grown true mode (at_path cwd path) F F' /\
  (r = 0%Z -> (isdir = true -> there F' (at_path cwd path)) /\
              forall s u, s <> ""%string -> path = (s ++ String "/" u)%string -> there F' (at_path cwd s)) /\
  (r <> 0%Z -> failed_mkdir mode t r).
Proof.
  intros H HP R. destruct path as [|c path]. { destruct H as [_ E]. discriminate. }
  cbn [mkdir_p] in H. set (full := String c path) in *.
  assert (W : forall s, In s (dir_prefixes (String c "") path) -> within (at_path cwd s) (at_path cwd full)).
  { intros s I. destruct (dir_prefixes_spec _ _ _ I) as (NE & u & E); [discriminate|]. exists (names "" u).
    rewrite <- at_path_slash by exact NE. rewrite <- E. reflexivity. }
  assert (AL : forall s u, s <> ""%string -> full = (s ++ String "/" u)%string -> In s (dir_prefixes (String c "") path)).
  { intros s u NE E. apply (dir_prefixes_all path (String c "") s u); [|exact E]. destruct s as [|c' s']; [congruence|].
    unfold full in E. cbn in E. injection E as <- _. exists s'. reflexivity. }
  apply andthen_ret in H as [(t1 & t2 & -> & H1 & H2)|[N H1]].
  - apply happens_app in HP as (F1 & HP1 & HP2).
    destruct (mkdirs_ret cwd (at_path cwd full) mode _ t1 0%Z F F1 H1 HP1 R W) as (R1 & G1 & T1 & _). specialize (T1 eq_refl).
    destruct isdir.
    + destruct (mkdir_or_exists_ret cwd (at_path cwd full) full mode t2 r F1 F' H2 HP2 R1) as (R2 & G2 & T2 & X2).
      { exists []. rewrite app_nil_r. reflexivity. }
      split; [exact R2|]. split; [eapply grown_trans; eauto|]. split; [|intros N; apply failed_app, X2, N]. intros Z. split; [auto|].
      intros s u NE E. eapply grown_there; [exact G2|]. apply T1. eapply AL; eauto.
    + destruct H2 as [-> E]. injection E as <-. inversion HP2 as [? ? SM|]; subst. split; [eapply same_rooted; eauto|].
      split; [eapply grown_trans; [exact G1|apply grown_refl, SM]|]. split; [|congruence]. intros _. split; [discriminate|].
      intros s u NE E. unfold there. rewrite SM. apply T1. eapply AL; eauto.
  - destruct (mkdirs_ret cwd (at_path cwd full) mode _ t r F F' H1 HP R W) as (R1 & G1 & _ & X1).
    split; [exact R1|]. split; [exact G1|]. split; [congruence|exact X1].
Qed.

(* ---- setup_mount_destination ---- *)
Lemma happens_same cwd F F' : happens cwd F [] F' -> same F F'.
Proof. intros H. inversion H. assumption. Qed.
(* What is created there is a directory, or else a file. *)
Lemma make_destination_ret cwd dest uid gid domkdir t r F F' : does (make_destination dest uid gid domkdir) t (Returned r) ->
  happens cwd F t F' -> rooted F ->
  rooted F' /\ grown domkdir 493 (at_path cwd dest) F F' /\
  (r = 0%Z -> there F' (at_path cwd dest) /\
     (~ there F (at_path cwd dest) ->
      (domkdir = true -> is_dir F' (at_path cwd dest)) /\ (domkdir = false -> ~ is_dir F' (at_path cwd dest)))).
Proof.
  intros H HP R. unfold make_destination in H. set (q := at_path cwd dest).
  apply andthen_ret in H as [(t1 & t2 & -> & H1 & H2)|[N H1]].
  2:{ destruct (mkdir_p_ret _ _ _ _ _ _ _ _ H1 HP R) as (R1 & G1 & _). split; [exact R1|]. split; [destruct domkdir; [exact G1|apply grown_weaken, G1]|congruence]. }
  apply happens_app in HP as (F1 & HP1 & HP2). destruct (mkdir_p_ret _ _ _ _ _ _ _ _ H1 HP1 R) as (R1 & G1 & T1 & _). specialize (T1 eq_refl).
  assert (CH : forall u rr Fa Fb, does (neg_errno (C_chown dest uid gid)) u (Returned rr) -> happens cwd Fa u Fb -> same Fa Fb).
  { intros u rr Fa Fb (x & u' & -> & K) HA. inversion HA as [|? ? Fc ? ? ST HB]; subst.
    assert (u' = []) by (destruct x; destruct K; assumption). subst. apply happens_same in HB.
    assert (S1 : same Fa Fc) by (destruct x; cbn [step] in ST; [destruct ST as [ST _]|]; exact ST). intros p. rewrite HB. apply S1. }
  destruct domkdir.
  - apply andthen_ret in H2 as [(t3 & t4 & -> & H3 & H4)|[N H3]]; [|destruct H3 as [_ E]; congruence].
    destruct H3 as [-> _]. cbn [app] in HP2. pose proof (CH _ _ _ _ H4 HP2) as SM.
    assert (G : grown true 493 q F F') by (eapply grown_trans; [exact G1|apply grown_refl, SM]).
    split; [eapply same_rooted; eauto|]. split; [exact G|]. intros _.
    assert (T : there F' q) by (unfold there; rewrite SM; apply T1; reflexivity). split; [exact T|]. intros NT. split; [|discriminate]. intros _.
    destruct G as [_ G]. destruct (G q NT T) as [_ [D|[D _]]]; [exact (dir_of_is _ _ _ D)|discriminate].
  - apply grown_weaken in G1. fold q in G1.
    assert (OP : forall u rr Fa Fb, rooted Fa ->
      does (bind (ask (C_open dest Create)) (fun x => match x with No e => Pure (Z.neg e) | Yes fd _ => bind (try (C_close (Z.of_N fd))) (fun _ => Pure 0%Z) end)) u (Returned rr) ->
      happens cwd Fa u Fb -> rooted Fb /\ grown false 493 q Fa Fb /\ (rr = 0%Z -> there Fb q /\ ~ is_dir Fb q)).
    { intros u rr Fa Fb RA (x & u' & -> & K) HA. inversion HA as [|? ? Fc ? ? ST HB]; subst. destruct x as [v sv|e].
      - destruct K as (y & u2 & -> & K). destruct K as [-> E]. injection E as <-.
        inversion HB as [|? ? Fd ? ? ST2 HC]; subst. apply happens_same in HC. cbn [step] in ST2.
        assert (S2 : same Fc Fb) by (intros p; rewrite HC; apply ST2).
        cbn [step] in ST. fold q in ST. destruct ST as [(SM & m & E & M)|(NT & PD & m & M & P)].
        + assert (S3 : same Fa Fb) by (intros p; rewrite S2; apply SM). split; [eapply same_rooted; eauto|]. split; [apply grown_refl, S3|].
          intros _. split; [unfold there; rewrite S3, E; discriminate|]. intros (m' & E' & M'). rewrite S3, E in E'. injection E' as <-. contradiction.
        + split; [eapply same_rooted; [exact S2|]; eapply put_rooted; eauto|]. split.
          * eapply grown_trans; [|apply grown_refl, S2]. eapply put_grown; eauto. exists []. rewrite app_nil_r. reflexivity.
          * intros _. destruct P as [P _]. split; [unfold there; rewrite S2, P; discriminate|]. intros (m' & E' & M'). rewrite S2, P in E'.
            injection E' as <-. contradiction.
      - destruct K as [-> E]. injection E as ->. apply happens_same in HB. cbn [step] in ST.
        assert (S3 : same Fa Fb) by (intros p; rewrite HB; apply ST). split; [eapply same_rooted; eauto|]. split; [apply grown_refl, S3|]. discriminate. }
    apply andthen_ret in H2 as [(t3 & t4 & -> & H3 & H4)|[N H3]].
    + apply happens_app in HP2 as (F2 & HP3 & HP4). destruct (OP _ _ _ _ R1 H3 HP3) as (R2 & G2 & T2). destruct (T2 eq_refl) as [T ND].
      pose proof (CH _ _ _ _ H4 HP4) as SM. split; [eapply same_rooted; eauto|].
      split; [eapply grown_trans; [exact G1|]; eapply grown_trans; [exact G2|apply grown_refl, SM]|]. intros _.
      split; [unfold there; rewrite SM; exact T|]. intros _. split; [discriminate|]. intros _ (m & E & M). apply ND. exists m. rewrite <- SM. auto.
    + destruct (OP _ _ _ _ R1 H3 HP2) as (R2 & G2 & _). split; [exact R2|]. split; [eapply grown_trans; eauto|]. congruence.
Qed.

Lemma make_destination_owner dest uid gid domkdir t : does (make_destination dest uid gid domkdir) t (Returned 0%Z) ->
  exists v s, In (C_chown dest uid gid, Yes v s) t.
Proof.
  unfold make_destination. intros H. apply andthen_ret in H as [(t1 & t2 & -> & _ & H)|[N _]]; [|congruence].
  apply andthen_ret in H as [(t3 & t4 & -> & _ & H)|[N _]]; [|congruence].
  destruct H as (x & u & -> & K). destruct x as [v s|e]; [|destruct K as [_ K]; discriminate].
  exists v, s. apply in_or_app. right. apply in_or_app. right. left. reflexivity.
Qed.
Lemma destination_owner kernel past cwd source dest uid gid bind t F F' :
  M_Io.run kernel past (setup_mount_destination source dest uid gid bind) = (Returned 0%Z, t) -> happens cwd F t F' ->
  ~ there F (at_path cwd dest) -> exists v s, In (C_chown dest uid gid, Yes v s) t.
Proof.
  intros H HP NT. apply run_exec' in H. unfold setup_mount_destination in H. destruct H as (x & t' & -> & H).
  destruct x as [v s|e].
  { inversion HP as [|? ? F1 ? ? ST HQ]; subst. cbn [step] in ST. destruct ST as [_ E]. exfalso. apply NT. unfold there. rewrite E. discriminate. }
  destruct (starts_slash source).
  - destruct H as (y & t2 & -> & H). destruct y as [m s|e2]; [|destruct H as [_ E]; discriminate].
    destruct (make_destination_owner _ _ _ _ _ H) as (v & s' & I). exists v, s'. right. right. exact I.
  - destruct bind; [destruct H as [_ E]; discriminate|].
    destruct (make_destination_owner _ _ _ _ _ H) as (v & s' & I). exists v, s'. right. exact I.
Qed.

Lemma starts_slash_absolute s : starts_slash s = absolute s.
Proof.
  destruct s as [|c s]; [reflexivity|]. unfold starts_slash, has_prefix, absolute. cbn [String.prefix].
  destruct (ascii_dec "/" c) as [<-|N]; [destruct s; reflexivity|]. symmetry. apply Ascii.eqb_neq. congruence.
Qed.
Lemma s_is m k : (N.land m S_IFMT =? k) = true <-> N.land m 0xf000 = k.
Proof. apply N.eqb_eq. Qed.


Theorem mkdir_p_spec kernel past cwd path mode isdir r t F F' :
  M_Io.run kernel past (mkdir_p path mode isdir) = (Returned r, t) -> happens cwd F t F' -> rooted F ->
  (forall q, there F q -> F' q = F q) /\
  (forall q, ~ there F q -> there F' q -> within q (at_path cwd path) /\ dir_of mode F' q) /\
  (r = 0%Z -> (isdir = true -> there F' (at_path cwd path)) /\
              forall s u, s <> ""%string -> path = (s ++ String "/" u)%string -> there F' (at_path cwd s)) /\
  (r <> 0%Z -> exists p e, In (C_mkdir p mode, No e) t /\ r = Z.neg e).
Proof.
  intros H HP R. apply run_exec' in H. destruct (mkdir_p_ret _ _ _ _ _ _ _ _ H HP R) as (_ & [G1 G2] & T & X).
  split; [exact G1|]. split; [|split; [exact T|]].
  - intros q N Q. destruct (G2 q N Q) as [W [D|[D _]]]; [auto|discriminate].
  - intros N. destruct (X N) as (p & e & I & E & _). eauto.
Qed.
Theorem destination_spec kernel past cwd source dest uid gid bind r t F F' :
  M_Io.run kernel past (setup_mount_destination source dest uid gid bind) = (Returned r, t) -> happens cwd F t F' -> rooted F ->
  (forall q, there F q -> F' q = F q) /\
  (forall q, ~ there F q -> there F' q -> within q (at_path cwd dest) /\ (q <> at_path cwd dest \/ is_dir F' q -> dir_of 0x1ed F' q)) /\
  (r = 0%Z -> there F' (at_path cwd dest)) /\
  (r = 0%Z -> ~ there F (at_path cwd dest) -> (is_dir F' (at_path cwd dest) <-> wants_dir cwd F source bind)).
Proof.
  intros H HP R. apply run_exec' in H. unfold setup_mount_destination in H. rewrite starts_slash_absolute in H.
  destruct H as (x & t' & -> & H). inversion HP as [|? ? F1 ? ? ST HQ]; subst. clear HP.
  set (d := at_path cwd dest).
  assert (NOP : forall Fa Fb, same Fa Fb -> (forall q, there Fa q -> Fb q = Fa q) /\
     (forall q, ~ there Fa q -> there Fb q -> within q d /\ (q <> d \/ is_dir Fb q -> dir_of 0x1ed Fb q))).
  { intros Fa Fb S. split; [intros q _; apply S|]. intros q N T. exfalso. apply N. unfold there in *. rewrite <- S. exact T. }
  destruct x as [v sv|e].
  { destruct H as [-> E]. injection E as <-. apply happens_same in HQ. cbn [step] in ST. destruct ST as [SM EX].
    assert (S : same F F') by (intros q; rewrite HQ; apply SM). destruct (NOP F F' S) as [A B]. split; [exact A|]. split; [exact B|].
    split; [intros _; unfold there; fold d; rewrite S; fold d in EX; rewrite EX; discriminate|]. intros _ N. exfalso. apply N. unfold there. fold d in EX. rewrite EX. discriminate. }
  cbn [step] in ST.
  assert (MK : forall domkdir u Fa, same F Fa -> happens cwd Fa u F' -> does (make_destination dest uid gid domkdir) u (Returned r) ->
     (domkdir = true <-> wants_dir cwd F source bind) ->
     (forall q, there F q -> F' q = F q) /\
     (forall q, ~ there F q -> there F' q -> within q d /\ (q <> d \/ is_dir F' q -> dir_of 0x1ed F' q)) /\
     (r = 0%Z -> there F' d) /\ (r = 0%Z -> ~ there F d -> (is_dir F' d <-> wants_dir cwd F source bind))).
  { intros domkdir u Fa SA HA K WD. pose proof (same_rooted _ _ SA R) as RA.
    destruct (make_destination_ret _ _ _ _ _ _ _ _ _ K HA RA) as (_ & [G1 G2] & T). fold d in G2, T.
    assert (TS : forall q, there Fa q <-> there F q) by (intros q; unfold there; rewrite SA; tauto).
    split; [intros q Q; rewrite G1 by (apply TS, Q); apply SA|]. split; [|split].
    - intros q N Q. destruct (G2 q) as [W D]; [rewrite TS; exact N|exact Q|]. split; [exact W|]. intros NE. destruct D as [D|(_ & D & D')]; [exact D|]. destruct NE; contradiction.
    - intros Z. apply T, Z.
    - intros Z N. destruct (T Z) as [_ K2]. destruct K2 as [K2 K3]; [rewrite TS; exact N|]. rewrite <- WD. destruct domkdir.
      + split; auto.
      + split; [intros D; exfalso; apply (K3 eq_refl D)|discriminate]. }
  destruct (absolute source) eqn:AB.
  - destruct H as (x & t2 & -> & H). inversion HQ as [|? ? F2 ? ? ST2 HR]; subst. destruct x as [mode sv|e2].
    + cbn [step] in ST2. destruct ST2 as [S2 EX]. eapply (MK _ t2 F2); [intros q; rewrite S2; apply ST|exact HR|exact H|].
      unfold wants_dir. rewrite AB. rewrite ST in EX. unfold s_isdir, s_isblk, s_ischr.
      rewrite orb_true_iff, andb_true_iff, orb_true_iff, negb_true_iff, !s_is. split.
      * intros K. right. exists mode. split; [exact EX|]. exact K.
      * intros [K|(m & E & K)]; [discriminate|]. rewrite EX in E. injection E as <-. exact K.
    + destruct H as [-> E]. injection E as ->. apply happens_same in HR. cbn [step] in ST2.
      assert (S : same F F') by (intros q; rewrite HR, ST2; apply ST). destruct (NOP F F' S) as [A B]. split; [exact A|]. split; [exact B|]. split; discriminate.
  - destruct bind.
    + destruct H as [-> E]. injection E as ->. apply happens_same in HQ.
      assert (S : same F F') by (intros q; rewrite HQ; apply ST). destruct (NOP F F' S) as [A B]. split; [exact A|]. split; [exact B|]. split; discriminate.
    + eapply (MK true t' F1); [exact ST|exact HQ|exact H|]. split; [intros _; left; exact AB|reflexivity].
Qed.

(* An existing file in place of a directory is taken for success. *)
Definition with_file (p : place) : tree := fun q =>
  if list_eq_dec string_dec q [] then Some 0x41ed else if list_eq_dec string_dec q p then Some 0x81a4 else None.
Lemma with_file_rooted n : rooted (with_file [n]).
Proof.
  split; [exists 0x41ed; split; reflexivity|]. intros p c T. unfold there, with_file in T.
  destruct (list_eq_dec string_dec (p ++ [c]) []) as [E|_]; [destruct p; discriminate|].
  destruct (list_eq_dec string_dec (p ++ [c]) [n]) as [E|]; [|congruence].
  change [n] with ([] ++ [n])%list in E. apply app_inj_tail in E as [-> _]. exists 0x41ed. split; reflexivity.
Qed.
Lemma file_taken : exists kernel path t F F',
  M_Io.run kernel [] (mkdir_p path 493 true) = (Returned 0%Z, t) /\ happens [] F t F' /\ rooted F /\ ~ is_dir F' (at_path [] path).
Proof.
  exists (fun _ _ => No 17), "/file"%string, [(C_mkdir "/file" 493, No 17)], (with_file ["file"%string]), (with_file ["file"%string]).
  split; [reflexivity|]. split.
  { econstructor; [|constructor; intros q; reflexivity]. split; [intros q; reflexivity|]. intros _. unfold there, with_file. cbn. discriminate. }
  split; [apply with_file_rooted|]. intros (m & E & M). unfold with_file in E. cbn in E. injection E as <-. discriminate.
Qed.
(* A file is bound on a destination two levels down. *)
Lemma bind_case : exists kernel t F F', M_Io.run kernel [] (setup_mount_destination "/file" "/a/b" 0 0 true) = (Returned 0%Z, t) /\
  happens [] F t F' /\ rooted F /\ ~ there F ["a"; "b"]%string /\ is_dir F' ["a"%string] /\ there F' ["a"; "b"]%string /\ ~ is_dir F' ["a"; "b"]%string.
Proof.
  pose (kernel := fun (_ : list event) (c : call) => match c with C_stat s => if (s =? "/file")%string then Yes 0x81a4 "" else No 2 | _ => Yes 3 "" end).
  pose (F := with_file ["file"%string]).
  pose (F1 := fun q => if list_eq_dec string_dec q ["a"%string] then Some 0x41ed else F q).
  pose (F2 := fun q => if list_eq_dec string_dec q ["a"; "b"]%string then Some 0x81c0 else F1 q).
  exists kernel. eexists. exists F, F2. split; [vm_compute; reflexivity|]. split.
  { apply h_cons with F; [intros q; reflexivity|]. apply h_cons with F; [split; [intros q; reflexivity|reflexivity]|].
    apply h_cons with F1.
    { split; [vm_compute; intros Z; apply Z; reflexivity|]. split; [exists [], "a"%string; split; [reflexivity|apply with_file_rooted]|].
      exists 0x41ed. split; [split; reflexivity|]. split; [reflexivity|]. intros q N. change (at_path [] "/a") with ["a"%string] in N. unfold F1.
      destruct (list_eq_dec string_dec q ["a"%string]); [contradiction|reflexivity]. }
    apply h_cons with F2.
    { right. split; [vm_compute; intros Z; apply Z; reflexivity|]. split; [exists ["a"%string], "b"%string; split; [reflexivity|exists 0x41ed; split; reflexivity]|].
      exists 0x81c0. split; [vm_compute; discriminate|]. split; [reflexivity|]. intros q N. change (at_path [] "/a/b") with ["a"; "b"]%string in N. unfold F2.
      destruct (list_eq_dec string_dec q ["a"; "b"]%string); [contradiction|reflexivity]. }
    apply h_cons with F2; [intros q; reflexivity|].
    apply h_cons with F2; [split; [intros q; reflexivity|vm_compute; discriminate]|]. constructor. intros q. reflexivity. }
  split; [apply with_file_rooted|]. split; [vm_compute; intros Z; apply Z; reflexivity|]. split; [exists 0x41ed; split; reflexivity|].
  split; [vm_compute; discriminate|]. intros (m & E & M). vm_compute in E. injection E as <-. vm_compute in M. discriminate.
Qed.
