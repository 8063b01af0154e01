(* Reasoning about programs that talk to the kernel. *)
From Verif Require Export S_Trace.
Local Open Scope io_scope.

(* A trace and an outcome a program can have, against some kernel. *)
Fixpoint does {A} (p : io A) (t : list event) (o : outcome A) : Prop :=
  match p with
  | Pure a => t = [] /\ o = Returned a
  | Abort => t = [] /\ o = Died
  | Undef => t = [] /\ o = Undefined
  | Ask c k => exists x t', t = (c, x) :: t' /\ does (k x) t' o
  end.

Lemma run_exec {A} kernel (p : io A) : forall past,
  does p (snd (run kernel past p)) (fst (run kernel past p)).
Proof.
  induction p as [a| | |c k IH]; intro past; cbn; auto.
  specialize (IH (kernel past c) (past ++ [(c, kernel past c)])).
  destruct (run kernel _ (k (kernel past c))) as [o t]; cbn in *.
  exists (kernel past c), t; auto.
Qed.
Lemma run_exec' {A} kernel past (p : io A) o t : run kernel past p = (o, t) -> does p t o.
Proof. intro H. pose proof (run_exec kernel p past) as E. rewrite H in E. exact E. Qed.

Lemma exec_bind {A B} (p : io A) (f : A -> io B) : forall t o, does (bind p f) t o ->
  (exists t1 t2 a, t = t1 ++ t2 /\ does p t1 (Returned a) /\ does (f a) t2 o) \/
  (o = Died /\ does p t Died) \/ (o = Undefined /\ does p t Undefined).
Proof.
  induction p as [a| | |c k IH]; intros t o H; cbn in *.
  - left. exists [], t, a. auto.
  - right; left. destruct H; subst; auto.
  - right; right. destruct H; subst; auto.
  - destruct H as (x & t' & -> & H). destruct (IH x _ _ H) as [(t1 & t2 & a & -> & H1 & H2)|[[-> H1]|[-> H1]]].
    + left. exists ((c, x) :: t1), t2, a. cbn. split; auto. split; auto. exists x, t1; auto.
    + right; left. split; auto. exists x, t'; auto.
    + right; right. split; auto. exists x, t'; auto.
Qed.
Lemma exec_bind_ret {A B} (p : io A) (f : A -> io B) t b : does (bind p f) t (Returned b) ->
  exists t1 t2 a, t = t1 ++ t2 /\ does p t1 (Returned a) /\ does (f a) t2 (Returned b).
Proof.
  intro H. destruct (exec_bind _ _ _ _ H) as [E|[[E _]|[E _]]]; [exact E| |]; discriminate E.
Qed.

Lemma must_ret c t u : does (must c) t (Returned u) -> exists v s, t = [(c, Yes v s)].
Proof.
  cbn. intros (x & t' & -> & H). destruct x as [v s|e]; cbn in H; destruct H as [-> H].
  - eauto.
  - discriminate H.
Qed.
Lemma try_ret c t u : does (try c) t (Returned u) -> exists x, t = [(c, x)].
Proof. cbn. intros (x & t' & -> & -> & H). eauto. Qed.
Lemma pure_ret {A} (a b : A) t : does (Pure a) t (Returned b) -> t = [] /\ b = a.
Proof. cbn. intros [-> H]. injection H as <-. auto. Qed.

(* ---- Which calls a program can make ---- *)
Fixpoint calls_in {A} (S : call -> bool) (p : io A) : Prop :=
  match p with Ask c k => S c = true /\ forall x, calls_in S (k x) | _ => True end.
Lemma ci_bind {A B} S (p : io A) (f : A -> io B) :
  calls_in S p -> (forall a, calls_in S (f a)) -> calls_in S (bind p f).
Proof. induction p; cbn; auto. intros [H1 H2] Hf. split; auto. Qed.
Lemma ci_exec {A} S (p : io A) : calls_in S p -> forall t o, does p t o -> forall ev, In ev t -> S (fst ev) = true.
Proof.
  induction p as [a| | |c k IH]; cbn; intros H t o E ev I; try (destruct E; subst; destruct I).
  destruct E as (x & t' & -> & E). destruct H as [H1 H2]. cbn in I. destruct I as [<-|I]; eauto.
Qed.
Lemma ci_weaken {A} (S S' : call -> bool) (p : io A) :
  (forall c, S c = true -> S' c = true) -> calls_in S p -> calls_in S' p.
Proof. induction p; cbn; auto. intros W [H1 H2]. split; auto. Qed.
Lemma ci_must S c : S c = true -> calls_in S (must c).
Proof. intro H. cbn. split; auto. intros [v s|e]; exact Logic.I. Qed.
Lemma ci_try S c : S c = true -> calls_in S (try c).
Proof. intro H. cbn. split; auto. Qed.
Lemma ci_rc S c : S c = true -> calls_in S (rc c).
Proof. intro H. cbn. split; auto. intros [v s|e]; exact Logic.I. Qed.
Lemma ci_neg S c : S c = true -> calls_in S (neg_errno c).
Proof. intro H. cbn. split; auto. intros [v s|e]; exact Logic.I. Qed.
Lemma ci_ask S c : S c = true -> calls_in S (ask c).
Proof. intro H. cbn. split; auto. Qed.
Lemma ci_when S b p : calls_in S p -> calls_in S (when b p).
Proof. destruct b; cbn; auto. Qed.
Lemma ci_when' S b p : (b = true -> calls_in S p) -> calls_in S (when b p).
Proof. destruct b; cbn; auto. Qed.
Lemma ci_andthen S p q : calls_in S p -> calls_in S q -> calls_in S (andthen p q).
Proof. intros H1 H2. apply ci_bind; auto. intro r. destruct (r =? 0)%Z; auto. exact Logic.I. Qed.
Lemma ci_zero S p : calls_in S p -> calls_in S (zero_or_die p).
Proof. intros H1. apply ci_bind; auto. intro r. destruct (r =? 0)%Z; exact Logic.I. Qed.
Lemma ci_deref {A B} S (c : cell A) (f : option A -> io B) : (forall o, calls_in S (f o)) -> calls_in S (deref c f).
Proof. destruct c; cbn; auto. Qed.

(* ---- Order ---- *)
Lemma na_app P Q t1 t2 : never_after P Q t1 -> never_after P Q t2 ->
  ((forall ev, In ev t1 -> Q (fst ev) = false) \/ (forall ev, In ev t2 -> P (fst ev) = false)) ->
  never_after P Q (t1 ++ t2).
Proof.
  intros H1 H2 H u c x v E Hq ev Hv.
  destruct (List.app_eq_app _ _ _ _ E) as (w & [[E1 E2]|[E1 E2]]).
  - destruct w as [|y w].
    + cbn in E2. rewrite List.app_nil_r in E1. subst.
      exact (H2 [] c x v eq_refl Hq ev Hv).
    + cbn in E2. injection E2 as <- ->.
      apply List.in_app_or in Hv. destruct Hv as [Hv|Hv].
      * exact (H1 u c x w E1 Hq ev Hv).
      * destruct H as [H|H]; [|exact (H ev Hv)].
        assert (X : Q c = false) by (apply (H (c, x)); rewrite E1; apply in_or_app; right; left; auto).
        rewrite X in Hq. discriminate Hq.
  - exact (H2 w c x v E2 Hq ev Hv).
Qed.
Definition na {A} P Q (p : io A) : Prop := forall t o, does p t o -> never_after P Q t.
Lemma na_left {A} P Q (p : io A) : calls_in (fun c => negb (Q c)) p -> na P Q p.
Proof.
  intros H t o E t1 c x t2 -> Hq. exfalso.
  pose proof (ci_exec _ _ H _ _ E (c, x) ltac:(apply in_or_app; right; left; auto)) as X. cbn in X.
  rewrite Hq in X. discriminate X.
Qed.
Lemma na_right {A} P Q (p : io A) : calls_in (fun c => negb (P c)) p -> na P Q p.
Proof.
  intros H t o E t1 c x t2 -> Hq ev Hv.
  pose proof (ci_exec _ _ H _ _ E ev ltac:(apply in_or_app; right; right; auto)) as X. cbn in X.
  now apply Bool.negb_true_iff in X.
Qed.
Lemma na_bind {A B} P Q (p : io A) (f : A -> io B) : na P Q p -> (forall a, na P Q (f a)) ->
  (calls_in (fun c => negb (Q c)) p \/ forall a, calls_in (fun c => negb (P c)) (f a)) -> na P Q (bind p f).
Proof.
  intros H1 H2 H t o E. destruct (exec_bind _ _ _ _ E) as [(t1 & t2 & a & -> & E1 & E2)|[[-> E1]|[-> E1]]].
  - apply na_app; [apply (H1 _ _ E1)|apply (H2 _ _ _ E2)|].
    destruct H as [H|H]; [left|right]; intros ev Hv; apply Bool.negb_true_iff.
    + exact (ci_exec _ _ H _ _ E1 ev Hv).
    + exact (ci_exec _ _ (H a) _ _ E2 ev Hv).
  - exact (H1 _ _ E1).
  - exact (H1 _ _ E1).
Qed.
