(* Proofs about minijail_get_original_path (C36). *)
From Verif Require Import S_Paths P_CStr P_Jail.
Local Open Scope string_scope.

Lemma pieces_nonempty s : pieces s <> [].
Proof. induction s as [|c r IH]; cbn; [discriminate|]. destruct (pieces r); [congruence|]. destruct (Ascii.eqb c "/"); discriminate. Qed.
(* The pieces of a concatenation: the last piece of the first and the first
   piece of the second are joined. *)
Lemma pieces_app a b : exists i l h t,
  pieces a = (i ++ [l])%list /\ pieces b = h :: t /\ pieces (a ++ b) = (i ++ (l ++ h)%string :: t)%list.
Proof.
  induction a as [|c a IH].
  - destruct (pieces b) as [|h t] eqn:E; [apply pieces_nonempty in E; contradiction|].
    exists [], "", h, t. cbn [append]. rewrite E. auto.
  - destruct IH as (i & l & h & t & A & B & C).
    change (String c a ++ b) with (String c (a ++ b)). cbn [pieces]. rewrite A, C, B.
    destruct (Ascii.eqb c "/") eqn:S.
    + destruct i as [|x i]; cbn [app].
      * exists [""], l, h, t. auto.
      * exists ("" :: x :: i), l, h, t. auto.
    + destruct i as [|x i]; cbn [app].
      * exists [], (String c l), h, t. auto.
      * exists (String c x :: i), l, h, t. auto.
Qed.
Lemma components_slash a b : components (a ++ "/" ++ b) = (components a ++ components b)%list.
Proof.
  unfold components. destruct (pieces_app a ("/" ++ b)) as (i & l & h & t & A & B & C). rewrite C, A.
  change ("/" ++ b) with (String "/" b) in B. cbn [pieces] in B.
  destruct (pieces b) as [|h' t'] eqn:E; [apply pieces_nonempty in E; contradiction|].
  change (Ascii.eqb "/" "/") with true in B. cbn iota in B. injection B as <- <-.
  assert (X : forall l : string, l ++ "" = l) by (induction l0; cbn; congruence). rewrite X, !filter_app, <- app_assoc. f_equal.
  cbn. destruct (String.eqb l ""); reflexivity.
Qed.
Lemma below_list_some d p r : below_list d p = Some r -> p = (d ++ r)%list.
Proof.
  revert p. induction d as [|x d IH]; intros p; [intros [= ->]; reflexivity|].
  destruct p as [|y p]; [discriminate|]. cbn [below_list]. destruct (String.eqb x y) eqn:E; [|discriminate].
  apply String.eqb_eq in E. subst y. intros H. apply IH in H. subst. reflexivity.
Qed.
Lemma below_list_app d r : below_list d (d ++ r) = Some r.
Proof. induction d; cbn; [reflexivity|]. rewrite String.eqb_refl. auto. Qed.
Lemma append_self a b : a = a ++ b -> b = "".
Proof. induction a; cbn; intros H; [auto|]. injection H; auto. Qed.
Lemma append_empty a b : a ++ b = "" -> a = "".
Proof. destruct a; [auto|discriminate]. Qed.

(* Text prefix at a component boundary. *)
Lemma below_text d x r : below d (d ++ x) = Some r -> components (d ++ x) = (components d ++ components x)%list /\ r = components x.
Proof.
  unfold below. intros H.
  assert (E : components (d ++ x) = (components d ++ components x)%list).
  { apply below_list_some in H. unfold components in *.
    destruct (pieces_app d x) as (i & l & h & t & A & B & C). rewrite C, A, B in *.
    rewrite !filter_app in *. rewrite <- !app_assoc in *. f_equal. apply app_inv_head in H. cbn [filter app] in *.
    destruct (String.eqb l "") eqn:L.
    - apply String.eqb_eq in L. subst l. reflexivity.
    - cbn [negb app filter] in *.
      destruct (String.eqb (l ++ h) "") eqn:LH.
      + apply String.eqb_eq in LH. apply append_empty in LH. subst l. discriminate.
      + cbn [negb] in *. injection H as H1 H2. symmetry in H1. apply append_self in H1. subst h.
        rewrite sapp_nil_r. reflexivity. }
  split; [exact E|]. rewrite E, below_list_app in H. congruence.
Qed.


Lemma covering_none ms p : original_in_mounts ms p = None ->
  (forall m, In m ms -> has_prefix (m_dest m) p = inside (m_dest m) p) -> covering ms p = None.
Proof.
  induction ms as [|m t IH]; [reflexivity|]. cbn [original_in_mounts covering]. intros H A.
  destruct (String.eqb (m_dest m) p); [discriminate|]. destruct (has_prefix (m_dest m) p) eqn:P; [discriminate|].
  rewrite IH; [|auto|intros; apply A; right; auto]. rewrite <- A by (left; auto). rewrite P. reflexivity.
Qed.
Lemma below_refl p : below p p = Some [].
Proof. unfold below. rewrite <- (app_nil_r (components p)) at 2. apply below_list_app. Qed.
Lemma in_mounts ms p r : original_in_mounts ms p = Some r ->
  (forall m, In m ms -> has_prefix (m_dest m) p = inside (m_dest m) p) ->
  exists m q, In m ms /\ inside (m_dest m) p = true /\ below (m_dest m) p = Some q /\ components r = (components (m_src m) ++ q)%list.
Proof.
  induction ms as [|m t IH]; [discriminate|]. cbn [original_in_mounts]. intros H A.
  destruct (String.eqb (m_dest m) p) eqn:E.
  - apply String.eqb_eq in E. injection H as <-. exists m, []. unfold inside. rewrite E, below_refl, app_nil_r. repeat split; auto. left; auto.
  - destruct (has_prefix (m_dest m) p) eqn:P.
    + injection H as <-. pose proof P as I0. rewrite (A m) in I0 by (left; auto). exists m.
      unfold inside in I0. destruct (below (m_dest m) p) as [q|] eqn:B; [|discriminate]. exists q.
      apply prefix_spec in P. destruct P as [x ->]. rewrite sdrop_app. unfold path_join. rewrite components_slash.
      apply below_text in B as B'. destruct B' as [_ ->]. repeat split; auto; [left; auto|]. unfold inside. rewrite B. reflexivity.
    + destruct IH as (m' & q & I1 & R); auto. { intros; apply A; right; auto. } exists m', q. split; [right; auto|auto].
Qed.
Lemma covering_unique ms p m : In m ms -> inside (m_dest m) p = true ->
  (forall a b, In a ms -> In b ms -> inside (m_dest a) p = true -> inside (m_dest b) p = true -> a = b) ->
  covering ms p = Some m.
Proof.
  assert (K : forall ms m', covering ms p = Some m' -> In m' ms /\ inside (m_dest m') p = true).
  { clear. induction ms as [|a t IH]; [discriminate|]. cbn [covering]. intros m' H. destruct (covering t p) as [x|].
    - injection H as <-. destruct (IH x eq_refl). split; [right; auto|auto].
    - destruct (inside (m_dest a) p) eqn:E; [|discriminate]. injection H as <-. split; [left|]; auto. }
  intros I1 I2 U. destruct (covering ms p) as [m'|] eqn:C.
  - destruct (K _ _ C). f_equal. apply U; auto.
  - exfalso. revert C I1. clear - I2. induction ms as [|a t IH]; [intros _ []|]. cbn [covering]. intros H [->|I1].
    + destruct (covering t p); [discriminate|]. rewrite I2 in H. discriminate.
    + apply IH; auto. destruct (covering t p); [discriminate|reflexivity].
Qed.
Lemma original_exact j p :
  (forall m, In m (j_mounts j) -> has_prefix (m_dest m) p = inside (m_dest m) p) ->
  (forall a b, In a (j_mounts j) -> In b (j_mounts j) -> inside (m_dest a) p = true -> inside (m_dest b) p = true -> a = b) ->
  (forall m, In m (j_mounts j) -> N.testbit (m_flags m) 12 = true) ->
  original (j_mounts j) (content (j_chrootdir j)) p = Some (components (minijail_get_original_path j p)).
Proof.
  intros A U B. unfold original, minijail_get_original_path. destruct (original_in_mounts (j_mounts j) p) as [r|] eqn:O.
  - destruct (in_mounts _ _ _ O A) as (m & q & I1 & I2 & E & ->). rewrite (covering_unique _ _ m I1 I2 U), B, E by auto. reflexivity.
  - rewrite (covering_none _ _ O A). destruct (j_chrootdir j); cbn [content]; try reflexivity.
    unfold path_join. rewrite components_slash. reflexivity.
Qed.

(* Witnesses. *)
Definition ex_env : kenv := KEnv true false true true false false true false "" 14 14 true 3 5.
Definition binds (l : list (string * string)) : list api := map (fun p => A_bind (fst p) (snd p) false None) l.
Lemma boundary_wrong :
  exists j, api_run ex_env minijail_new (binds [("/a", "/data")]) = Some j /\
    minijail_get_original_path j "/database/x" = "/a/base/x" /\
    original (j_mounts j) (content (j_chrootdir j)) "/database/x" = Some ["database"; "x"].
Proof. eexists. split; [reflexivity|]. vm_compute. auto. Qed.
Lemma nesting_wrong :
  exists j, api_run ex_env minijail_new (binds [("/outer", "/data"); ("/inner", "/data/sub")]) = Some j /\
    minijail_get_original_path j "/data/sub/x" = "/outer//sub/x" /\
    original (j_mounts j) (content (j_chrootdir j)) "/data/sub/x" = Some ["inner"; "x"].
Proof. eexists. split; [reflexivity|]. vm_compute. auto. Qed.
Lemma original_case :
  exists j, api_run ex_env minijail_new (A_enter_chroot "/var/empty" :: binds [("/usr/lib", "/lib"); ("/srv/", "/data/")]) = Some j /\
    minijail_get_original_path j "/lib/x/y.so" = "/usr/lib//x/y.so" /\
    minijail_get_original_path j "/data/f" = "/srv//f" /\
    minijail_get_original_path j "/etc/f" = "/var/empty//etc/f" /\
    (forall p, In p ["/lib/x/y.so"; "/data/f"; "/etc/f"] ->
     (forall m, In m (j_mounts j) -> has_prefix (m_dest m) p = inside (m_dest m) p) /\
     (forall a b, In a (j_mounts j) -> In b (j_mounts j) -> inside (m_dest a) p = true -> inside (m_dest b) p = true -> a = b) /\
     (forall m, In m (j_mounts j) -> N.testbit (m_flags m) 12 = true)).
Proof.
  eexists. split; [reflexivity|]. split; [reflexivity|]. split; [reflexivity|]. split; [reflexivity|].
  intros p P. cbn [In] in P. repeat (destruct P as [<-|P]); try contradiction;
   (split; [|split]); cbn; intros; repeat match goal with H : _ \/ _ |- _ => destruct H as [<-|H] end; try contradiction; try reflexivity; try discriminate.
Qed.
