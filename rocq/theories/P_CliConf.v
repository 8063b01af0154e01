(* Conflicting options stop minijail0 (C50). *)
From Verif Require Export P_Cli P_Jail.
Local Open Scope N_scope.

(* an option of the list satisfies p *)
Definition some (p : opt -> bool) (l : list (N * option string)) : bool := existsb (fun x => p (opt_of opt_codes (fst x))) l.
Lemma some_app p a b : some p (a ++ b) = some p a || some p b.
Proof. apply existsb_app. Qed.
Lemma some_one p n a : some p [(n, a)] = p (opt_of opt_codes n).
Proof. cbn. apply orb_false_r. Qed.
Section Loop.
Variable w : world.
Lemma turn_parts n a c c' : turn w n a c = Go c' ->
  exists es, option_step w (opt_of opt_codes n) a (put_entries es c) = Go c'.
Proof. intros E. unfold turn in E. apply then_go in E. destruct E as (c1 & E1 & E2). injection E1 as <-. eauto. Qed.

(* a field that is set by the options of [p] only *)
Lemma flag_loop {A} (f : cli -> A) (v : A) (p : opt -> bool) :
  (forall o arg, if p o then sets f v (option_step w o arg) else keeps f (option_step w o arg)) ->
  (forall c b, f (put_conf_open b c) = f c) -> (forall c es, f (put_entries es c) = f c) ->
  forall opts c c', cli_options w opts c = Go c' -> f c' = if some p (all_options w opts) then v else f c.
Proof.
  intros S HO HE opts c c' E.
  apply (cli_loop w (fun L c' => f c' = if some p L then v else f c)) with (L := []) (c := c) (opts := opts) (c' := c'); auto.
  - intros L c1 b H. rewrite HO. exact H.
  - intros L n a c1 c2 H T. apply turn_parts in T. destruct T as [es T]. rewrite some_app, some_one.
    specialize (S (opt_of opt_codes n) a). destruct (p (opt_of opt_codes n)).
    + rewrite orb_true_r. exact (S _ _ T).
    + rewrite orb_false_r, (S _ _ T), HE. exact H.
Qed.
(* options that may not be given together *)
Lemma excl_loop (f g : cli -> bool) (p q : opt -> bool) :
  (forall o arg, rel (fun c c' => f c = true -> f c' = true) (option_step w o arg)) ->
  (forall o arg, rel (fun c c' => g c = true -> g c' = true) (option_step w o arg)) ->
  (forall o arg, p o = true -> rel (fun c c' => f c' = true /\ g c = false) (option_step w o arg)) ->
  (forall o arg, q o = true -> rel (fun c c' => g c' = true /\ f c = false) (option_step w o arg)) ->
  (forall o, p o = true -> q o = false) ->
  (forall c b, f (put_conf_open b c) = f c /\ g (put_conf_open b c) = g c) ->
  (forall c es, f (put_entries es c) = f c /\ g (put_entries es c) = g c) ->
  forall opts c c', cli_options w opts c = Go c' -> some p (all_options w opts) && some q (all_options w opts) = false.
Proof.
  intros MF MG P Q PQ HO HE opts c c' E.
  enough (X : (some p (all_options w opts) && some q (all_options w opts) = false) /\
    (some p (all_options w opts) = true -> f c' = true) /\ (some q (all_options w opts) = true -> g c' = true)) by apply X.
  apply (cli_loop w (fun L c' => some p L && some q L = false /\ (some p L = true -> f c' = true) /\ (some q L = true -> g c' = true)))
    with (L := []) (c := c) (opts := opts) (c' := c'); auto.
  - intros L c1 b H. destruct (HO c1 b) as [-> ->]. exact H.
  - intros L n a c1 c2 (H & F & G) T. apply turn_parts in T. destruct T as [es T]. rewrite !some_app, !some_one.
    destruct (HE c1 es) as [Xf Xg]. set (o := opt_of opt_codes n) in *.
    specialize (MF o a _ _ T). specialize (MG o a _ _ T). cbv beta in MF, MG. rewrite Xf in MF. rewrite Xg in MG.
    destruct (p o) eqn:Po, (q o) eqn:Qo; [rewrite (PQ o Po) in Qo; discriminate| | |].
    + destruct (P o a Po _ _ T) as [A B]. rewrite Xg in B. rewrite orb_true_r, orb_false_r.
      destruct (some q L); [rewrite (G eq_refl) in B; discriminate|]. auto.
    + destruct (Q o a Qo _ _ T) as [A B]. rewrite Xf in B. rewrite orb_true_r, orb_false_r.
      destruct (some p L); [rewrite (F eq_refl) in B; discriminate|]. auto.
    + rewrite !orb_false_r. auto.
  - cbn. split; [reflexivity|split; discriminate].
Qed.
(* options that may be given once only *)
Lemma once_loop (f : cli -> bool) (p : opt -> bool) :
  (forall o arg, rel (fun c c' => f c = true -> f c' = true) (option_step w o arg)) ->
  (forall o arg, p o = true -> rel (fun c c' => f c = false /\ f c' = true) (option_step w o arg)) ->
  (forall c b, f (put_conf_open b c) = f c) -> (forall c es, f (put_entries es c) = f c) ->
  forall opts c c', cli_options w opts c = Go c' ->
  ~ twice (all_options w opts) (fun n => p (opt_of opt_codes n) = true).
Proof.
  intros MF P HO HE opts c c' E.
  enough (X : ~ twice (all_options w opts) (fun n => p (opt_of opt_codes n) = true) /\ (some p (all_options w opts) = true -> f c' = true)) by apply X.
  apply (cli_loop w (fun L c' => ~ twice L (fun n => p (opt_of opt_codes n) = true) /\ (some p L = true -> f c' = true)))
    with (L := []) (c := c) (opts := opts) (c' := c'); auto.
  - intros L c1 b. rewrite HO. auto.
  - intros L n a c1 c2 (H & F) T. apply turn_parts in T. destruct T as [es T]. rewrite some_app, some_one.
    set (o := opt_of opt_codes n) in *. split.
    + intros (l1 & l2 & l3 & m & b & k & d & EQ & Pm & Pk).
      destruct (@exists_last _ (l2 ++ (k, d) :: l3)%list) as (l' & z & EZ); [destruct l2; discriminate|].
      destruct l3 as [|y l3].
      * assert (EQ' : (L ++ [(n, a)] = (l1 ++ (m, b) :: l2) ++ [(k, d)])%list) by (rewrite EQ, <- app_assoc; reflexivity).
        apply app_inj_tail in EQ'. destruct EQ' as [-> [= -> ->]].
        assert (S : some p (l1 ++ (m, b) :: l2) = true).
        { unfold some. apply existsb_exists. exists (m, b). split; [apply in_or_app; right; left; reflexivity|exact Pm]. }
        destruct (P _ _ Pk _ _ T) as [A B]. rewrite HE, (F S) in A. discriminate.
      * destruct (@exists_last _ (y :: l3)) as (l4 & z' & E4); [discriminate|].
        assert (EQ' : (L ++ [(n, a)] = (l1 ++ (m, b) :: l2 ++ (k, d) :: l4) ++ [z'])%list).
        { rewrite EQ, E4. rewrite <- app_assoc. cbn. rewrite <- app_assoc. reflexivity. }
        apply app_inj_tail in EQ'. destruct EQ' as [-> _]. apply H. exists l1, l2, l4, m, b, k, d. auto.
    + intros S. apply orb_true_iff in S. destruct S as [S|S]; [apply (MF o a _ _ T); rewrite HE; auto|apply (P o a S _ _ T)].
  - split; [|discriminate]. intros (l1 & l2 & l3 & m & b & k & d & EQ & _). destruct l1; discriminate.
Qed.
End Loop.

(* Setting a field in the other forms of an action. *)
Lemma sets_look {A B} (f : cli -> A) v (get : cli -> B) g : (forall x, sets f v (g x)) -> sets f v (look get g).
Proof. intros S c c' E. exact (S _ _ _ E). Qed.
Lemma sets_need {A} (f : cli -> A) v arg g : (forall s, sets f v (g s)) -> sets f v (need arg g).
Proof. intros S. destruct arg; cbn; [apply S|discriminate]. Qed.
Lemma sets_quit {A} (f : cli -> A) v n : sets f v (quit n). Proof. discriminate. Qed.
Ltac sets_tac2 :=
  lazymatch goal with
  | |- sets _ _ (then_ _ _) => first [apply sets_right; sets_tac2 | apply sets_left; [sets_tac2|keeps_tac]]
  | |- sets _ _ (put _) => apply sets_put; intros; reflexivity
  | |- sets _ _ (need _ _) => apply sets_need; intros; sets_tac2
  | |- sets _ _ (look _ _) => apply sets_look; intros; sets_tac2
  | |- sets _ _ (quit _) => apply sets_quit
  | |- sets _ _ (if ?b then _ else _) => destruct b; sets_tac2
  | |- sets _ _ (use_profile _ _) => unfold use_profile; cbv zeta; sets_tac2
  | |- sets _ _ (use_pivot_root _ _) => unfold use_pivot_root; sets_tac2
  | |- sets _ _ (use_chroot _ _) => unfold use_chroot; sets_tac2
  end.

Section Flags.
Variable w : world.
Definition is_b o := match o with O_b => true | _ => false end.
Definition is_c o := match o with O_c => true | _ => false end.
Definition is_K o := match o with O_K => true | _ => false end.
Definition is_v o := match o with O_v => true | _ => false end.
Definition is_C o := match o with O_C_ => true | _ => false end.
Definition is_P o := match o with O_P | O_profile => true | _ => false end.
Definition is_root o := match o with O_C_ | O_P | O_profile => true | _ => false end.
Definition is_ambient o := match o with O_ambient => true | _ => false end.
Definition is_fs o := match o with O_fs_default | O_fs_rx | O_fs_ro | O_fs_rw | O_fs_adv => true | _ => false end.
Definition is_no_fs o := match o with O_no_fs => true | _ => false end.
Definition is_u o := match o with O_u => true | _ => false end.
Definition is_g o := match o with O_g => true | _ => false end.
Definition is_y o := match o with O_y => true | _ => false end.
Definition is_G o := match o with O_G_ => true | _ => false end.
Definition is_s o := match o with O_s => true | _ => false end.
Definition is_S o := match o with O_S_ => true | _ => false end.
Definition is_L o := match o with O_L => true | _ => false end.
Definition is_bpf o := match o with O_bpf => true | _ => false end.
Ltac flag_tac o := destruct o; cbv beta iota zeta delta [option_step is_b is_c is_K is_v is_C is_P is_ambient is_fs is_no_fs]; first [sets_tac2 | keeps_tac].
Lemma flags_end opts c c' : cli_options w opts c = Go c' ->
  let S p := some p (all_options w opts) in
  c_have_bind_mounts c' = (if S is_b then true else c_have_bind_mounts c) /\
  c_caps c' = (if S is_c then true else c_caps c) /\
  c_change_remount c' = (if S is_K then true else c_change_remount c) /\
  c_use_mount_ns c' = (if S is_v then true else c_use_mount_ns c) /\
  c_chroot c' = (if S is_C then true else c_chroot c) /\
  c_pivot_root c' = (if S is_P then true else c_pivot_root c) /\
  c_use_ambient_caps c' = (if S is_ambient then true else c_use_ambient_caps c) /\
  c_fs_path_flag_used c' = (if S is_fs then true else c_fs_path_flag_used c) /\
  c_fs_path_rules_enabled c' = (if S is_no_fs then false else c_fs_path_rules_enabled c).
Proof.
  intros E S. repeat split.
  all: (eapply (flag_loop w); [intros o arg; flag_tac o | reflexivity | reflexivity | exact E]).
Qed.
End Flags.

Lemma refuse_go b c c' : refuse_if b c = Go c' -> b = false /\ c' = c.
Proof. destruct b; cbn; [discriminate|intros [= <-]; auto]. Qed.
Lemma look_go {A} (get : cli -> A) f c c' : look get f c = Go c' -> f (get c) c = Go c'. Proof. auto. Qed.
Lemma put_go f c c' : put f c = Go c' -> c' = f c. Proof. now intros [= <-]. Qed.
(* a monotone flag *)
Definition grows (f : cli -> bool) : act -> Prop := rel (fun c c' => f c = true -> f c' = true).
Lemma grows_ordered f : ordered (fun c c' => f c = true -> f c' = true). Proof. split; auto. Qed.
Ltac grows_tac := match goal with |- grows ?f _ => unfold grows; act_walk (grows_ordered f); intros; first [assumption | reflexivity] end.
Lemma keeps_grows f a : keeps f a -> grows f a. Proof. intros K c c' E. rewrite (K _ _ E). auto. Qed.
(* [look get refuse_if >> a] *)
Lemma guard_go (get : cli -> bool) a c c' : (look get refuse_if >> a) c = Go c' -> get c = false /\ a c = Go c'.
Proof. intros E. apply then_go in E. destruct E as (c1 & E1 & E). apply refuse_go in E1. destruct E1 as [G ->]. auto. Qed.
Lemma guard_go2 {A} (get : cli -> A) (b : A -> bool) a c c' : (look get (fun x => refuse_if (b x)) >> a) c = Go c' -> b (get c) = false /\ a c = Go c'.
Proof. intros E. apply then_go in E. destruct E as (c1 & E1 & E). apply refuse_go in E1. destruct E1 as [G ->]. auto. Qed.
Lemma sets_go {A} (f : cli -> A) v a c c' : sets f v a -> a c = Go c' -> f c' = v. Proof. intros S E. exact (S _ _ E). Qed.
Lemma keeps_go {A} (f : cli -> A) a c c' : keeps f a -> a c = Go c' -> f c' = f c. Proof. intros S E. exact (S _ _ E). Qed.

Section Exclusive.
Variable w : world.
Lemma one_user opts c c' : cli_options w opts c = Go c' -> ~ twice (all_options w opts) (fun n => is_u (opt_of opt_codes n) = true).
Proof.
  apply (once_loop w c_use_uid is_u); try reflexivity.
  - intros o arg. change (grows c_use_uid (option_step w o arg)). destruct o; cbv beta iota zeta delta [option_step]; grows_tac.
  - intros o arg P c1 c2 E. destruct o; try discriminate P. unfold option_step in E. cbv zeta in E. apply guard_go in E. destruct E as [G E].
    split; [exact G|]. revert E. apply sets_go. apply sets_left; [apply sets_put; reflexivity|keeps_tac].
Qed.
Lemma one_group opts c c' : cli_options w opts c = Go c' -> ~ twice (all_options w opts) (fun n => is_g (opt_of opt_codes n) = true).
Proof.
  apply (once_loop w c_use_gid is_g); try reflexivity.
  - intros o arg. change (grows c_use_gid (option_step w o arg)). destruct o; cbv beta iota zeta delta [option_step]; grows_tac.
  - intros o arg P c1 c2 E. destruct o; try discriminate P. unfold option_step in E. cbv zeta in E. apply guard_go in E. destruct E as [G E].
    split; [exact G|]. revert E. apply sets_go. apply sets_left; [apply sets_put; reflexivity|keeps_tac].
Qed.
Lemma not_y_G opts c c' : cli_options w opts c = Go c' -> some is_y (all_options w opts) && some is_G (all_options w opts) = false.
Proof.
  apply (excl_loop w c_keep_suppl_gids c_inherit_suppl_gids is_y is_G); try (intros; split; reflexivity).
  - intros o arg. change (grows c_keep_suppl_gids (option_step w o arg)). destruct o; cbv beta iota zeta delta [option_step]; grows_tac.
  - intros o arg. change (grows c_inherit_suppl_gids (option_step w o arg)). destruct o; cbv beta iota zeta delta [option_step]; grows_tac.
  - intros o arg P c1 c2 E. destruct o; try discriminate P. unfold option_step in E. cbv zeta in E. apply guard_go in E. destruct E as [G E].
    split; [|exact G]. revert E. apply sets_go. sets_tac2.
  - intros o arg P c1 c2 E. destruct o; try discriminate P. unfold option_step in E. cbv zeta in E. apply guard_go in E. destruct E as [G E].
    split; [|exact G]. revert E. apply sets_go. sets_tac2.
  - intros []; cbn; congruence.
Qed.
(* the kind of filter, once chosen, stays *)
Definition stays (c c' : cli) : Prop := c_seccomp c = ST_None \/ c_seccomp c' = c_seccomp c.
Definition kind_of o := match o with O_s => ST_Strict | O_S_ => ST_Filter | O_bpf => ST_BpfBinaryFilter | _ => ST_None end.
Lemma kind_step o arg c c' : option_step w o arg c = Go c' ->
  match kind_of o with
  | ST_None => c_seccomp c' = c_seccomp c
  | k => c_seccomp c' = k /\ (c_seccomp c = ST_None \/ c_seccomp c = k)
  end.
Proof.
  intros E. destruct o; cbn [kind_of]; unfold option_step in E; cbv beta iota zeta in E;
    try (revert E; apply (keeps_go c_seccomp); keeps_tac).
  - apply then_go in E. destruct E as (c1 & E1 & E). apply guard_go2 in E1. destruct E1 as [G E1]. apply put_go in E1.
    assert (K : c_seccomp c' = c_seccomp c1) by (revert E; apply (keeps_go c_seccomp); keeps_tac).
    rewrite K, E1. split; [reflexivity|]. destruct (c_seccomp c); auto; discriminate.
  - apply then_go in E. destruct E as (c1 & E1 & E). apply guard_go2 in E1. destruct E1 as [G E1]. apply put_go in E1.
    assert (K : c_seccomp c' = c_seccomp c1) by (revert E; apply (keeps_go c_seccomp); keeps_tac).
    rewrite K, E1. split; [reflexivity|]. destruct (c_seccomp c); auto; discriminate.
  - apply guard_go2 in E. destruct E as [G E]. split; [revert E; apply sets_go; sets_tac2|].
    destruct (c_seccomp c); auto; discriminate.
Qed.
Lemma kind_excl (p q : opt -> bool) k1 k2 : k1 <> ST_None -> k2 <> ST_None -> k1 <> k2 ->
  (forall o, p o = true <-> kind_of o = k1) -> (forall o, q o = true <-> kind_of o = k2) ->
  forall opts c c', cli_options w opts c = Go c' -> some p (all_options w opts) && some q (all_options w opts) = false.
Proof.
  intros K1 K2 K12 P Q. assert (ST : forall a b, same_type a b = true <-> a = b) by (intros [] []; cbn; split; congruence).
  assert (M : forall k, k <> ST_None -> forall o arg, rel (fun c c' => same_type (c_seccomp c) k = true -> same_type (c_seccomp c') k = true) (option_step w o arg)).
  { intros k Nk o arg c c' E. apply kind_step in E. rewrite !ST. intros X. rewrite X in E. destruct (kind_of o); [congruence| | |]; destruct E as [E [Y|Y]]; congruence. }
  apply (excl_loop w (fun c => same_type (c_seccomp c) k1) (fun c => same_type (c_seccomp c) k2) p q); try (intros; split; reflexivity); auto.
  - intros o arg H c c' E. apply kind_step in E. apply P in H. rewrite H in E.
    assert (X : c_seccomp c' = k1 /\ (c_seccomp c = ST_None \/ c_seccomp c = k1)) by (destruct k1; [congruence|exact E|exact E|exact E]).
    destruct X as [X Y]. split; [now apply ST|]. destruct (same_type (c_seccomp c) k2) eqn:Z; [|reflexivity]. apply ST in Z. destruct Y; congruence.
  - intros o arg H c c' E. apply kind_step in E. apply Q in H. rewrite H in E.
    assert (X : c_seccomp c' = k2 /\ (c_seccomp c = ST_None \/ c_seccomp c = k2)) by (destruct k2; [congruence|exact E|exact E|exact E]).
    destruct X as [X Y]. split; [now apply ST|]. destruct (same_type (c_seccomp c) k1) eqn:Z; [|reflexivity]. apply ST in Z. destruct Y; congruence.
  - intros o H. destruct (q o) eqn:Z; [|reflexivity]. apply P in H. apply Q in Z. congruence.
Qed.
Lemma not_s_S opts c c' : cli_options w opts c = Go c' -> some is_s (all_options w opts) && some is_S (all_options w opts) = false.
Proof. apply (kind_excl is_s is_S ST_Strict ST_Filter); try discriminate; intros []; cbn; split; congruence. Qed.
Lemma not_s_bpf opts c c' : cli_options w opts c = Go c' -> some is_s (all_options w opts) && some is_bpf (all_options w opts) = false.
Proof. apply (kind_excl is_s is_bpf ST_Strict ST_BpfBinaryFilter); try discriminate; intros []; cbn; split; congruence. Qed.
Lemma not_S_bpf opts c c' : cli_options w opts c = Go c' -> some is_S (all_options w opts) && some is_bpf (all_options w opts) = false.
Proof. apply (kind_excl is_S is_bpf ST_Filter ST_BpfBinaryFilter); try discriminate; intros []; cbn; split; congruence. Qed.
Lemma not_L_bpf opts c c' : cli_options w opts c = Go c' -> some is_L (all_options w opts) && some is_bpf (all_options w opts) = false.
Proof.
  assert (ST : forall a b, same_type a b = true <-> a = b) by (intros [] []; cbn; split; congruence).
  apply (excl_loop w c_use_seccomp_log (fun c => same_type (c_seccomp c) ST_BpfBinaryFilter) is_L is_bpf); try (intros; split; reflexivity).
  - intros o arg. change (grows c_use_seccomp_log (option_step w o arg)). destruct o; cbv beta iota zeta delta [option_step]; grows_tac.
  - intros o arg c1 c2 E. apply kind_step in E. rewrite !ST. intros X. rewrite X in E. destruct (kind_of o); [congruence| | |]; destruct E as [E [Y|Y]]; congruence.
  - intros o arg P c1 c2 E. destruct o; try discriminate P. unfold option_step in E. cbv zeta in E. apply guard_go2 in E. destruct E as [G E].
    split; [|exact G]. revert E. apply sets_go. sets_tac2.
  - intros o arg P c1 c2 E. destruct o; try discriminate P. split.
    + apply kind_step in E. cbn in E. destruct E as [E _]. rewrite E. reflexivity.
    + unfold option_step in E. cbv zeta in E. apply guard_go2 in E. destruct E as [_ E]. apply guard_go in E. apply E.
  - intros []; cbn; congruence.
Qed.
(* the root *)
Definition rooted (c : cli) : bool := negb (is_null (j_chrootdir (c_jail c))).
Lemma root_grows o arg : grows rooted (option_step w o arg).
Proof.
  destruct o; cbv beta iota zeta delta [option_step]; unfold grows; act_walk (grows_ordered rooted); intros; first [assumption | reflexivity | idtac].
  all: unfold rooted in *; cbn [c_jail put_calls put_jail] in *.
  all: match goal with H : api_step _ _ _ = ARet _ _, X : negb (is_null _) = true |- _ =>
         destruct (once_step _ _ _ _ _ H) as (K & _ & _); rewrite K; [exact X|now apply negb_true_iff] end.
Qed.
Lemma rooted_call a c c' : (exists d, a = A_enter_chroot d \/ a = A_enter_pivot_root d) -> lib0 w a c = Go c' -> rooted c = false /\ rooted c' = true.
Proof.
  intros [d D] E. unfold lib0, lib_then in E. destruct (api_step (w_env w) (c_jail c) a) as [rc j| |] eqn:X; try discriminate.
  apply refuse_go in E. destruct E as [Z ->]. unfold rooted. cbn [c_jail put_calls put_jail].
  destruct D as [-> | ->]; cbn [api_step] in X; unfold minijail_enter_chroot, minijail_enter_pivot_root, ok in X;
    destruct (is_null (j_chrootdir (c_jail c))); cbn [negb] in X; injection X as <- <-; cbn in *; try discriminate; auto.
Qed.
Lemma rooted_need f arg c c' : (forall d, exists d', f d = A_enter_chroot d' \/ f d = A_enter_pivot_root d') ->
  need_dir arg (fun p => lib0 w (f p)) c = Go c' -> rooted c = false /\ rooted c' = true.
Proof.
  intros F E. unfold need_dir in E. destruct arg as [d|]; [exact (rooted_call _ _ _ (F d) E)|].
  apply look_go in E. destruct (is_null _); discriminate.
Qed.
Lemma rooted_pivot arg c c' : use_pivot_root w arg c = Go c' -> rooted c = false /\ rooted c' = true.
Proof.
  intros E. unfold use_pivot_root in E. apply guard_go in E. destruct E as [_ E]. apply then_go in E. destruct E as (c1 & E1 & E).
  apply (rooted_need A_enter_pivot_root) in E1; [|eauto]. destruct E1 as [A B]. split; [exact A|].
  apply then_go in E. destruct E as (c2 & E2 & E). apply put_go in E. subst c'. change (rooted c2 = true).
  unfold lib, lib_then in E2. destruct (api_step _ _ _) as [rc j| |] eqn:X; try discriminate. injection E2 as <-.
  unfold rooted in *. cbn [c_jail put_calls put_jail]. destruct (once_step _ _ _ _ _ X) as (K & _ & _). rewrite K; [exact B|now apply negb_true_iff].
Qed.
Lemma one_root opts c c' : cli_options w opts c = Go c' -> ~ twice (all_options w opts) (fun n => is_root (opt_of opt_codes n) = true).
Proof.
  apply (once_loop w rooted is_root); try reflexivity.
  - intros o arg. apply root_grows.
  - intros o arg P c1 c2 E. pose proof (root_grows o arg) as G. destruct o; try discriminate P; unfold option_step in E; cbv zeta in E.
    + unfold use_chroot in E. apply guard_go in E. destruct E as [_ E]. apply then_go in E. destruct E as (c3 & E1 & E).
      apply (rooted_need A_enter_chroot) in E1; [|eauto]. apply put_go in E. subst c2. exact E1.
    + exact (rooted_pivot _ _ _ E).
    + unfold need in E. destruct arg as [pr|]; [|discriminate]. unfold use_profile in E. cbv zeta in E.
      destruct (_ || _); [|discriminate].
      repeat (lazymatch type of E with then_ _ _ _ = _ => idtac end; apply then_go in E; let c3 := fresh "c" in let E1 := fresh "E" in destruct E as (c3 & E1 & E)).
      match goal with E : use_pivot_root _ _ ?x = Go _ |- _ => pose proof (rooted_pivot _ _ _ E) as [A B] end.
      split; [|exact B]. clear E B.
      destruct (rooted c1) eqn:R; [exfalso|reflexivity].
      repeat match goal with E : ?a ?x = Go ?y, R : rooted ?x = true |- _ =>
        assert (rooted y = true); [revert R; refine (_ x y E); change (grows rooted a);
           unfold grows; act_walk (grows_ordered rooted); intros; first [assumption | reflexivity |
             unfold rooted in *; cbn [c_jail put_calls put_jail] in *;
             match goal with H : api_step _ _ _ = ARet _ _, X : negb (is_null _) = true |- _ =>
               destruct (once_step _ _ _ _ _ H) as (K & _ & _); rewrite K; [exact X|now apply negb_true_iff] end] | clear E R] end.
      congruence.
Qed.
End Exclusive.

(* The checks after the loop. *)
Section Finish.
Variable w : world.
Definition flags (c : cli) := ((c_fs_path_flag_used c, c_fs_path_rules_enabled c), (c_use_ambient_caps c, c_caps c),
  (c_have_bind_mounts c, c_chroot c, c_pivot_root c, c_use_mount_ns c, c_change_remount c)).
Lemma finish_checks args c c' : finish w args c = Go c' ->
  c_fs_path_flag_used c && negb (c_fs_path_rules_enabled c) = false /\
  c_use_ambient_caps c && negb (c_caps c) = false /\
  c_have_bind_mounts c && negb (c_chroot c || c_pivot_root c || c_use_mount_ns c) = false /\
  c_change_remount c && negb (c_use_mount_ns c) = false /\
  (c_caps c && match c_elftype c' with ELFSTATIC => true | _ => false end && negb (c_use_ambient_caps c) = false) /\
  flags c' = flags c.
Proof.
  assert (FL : forall a b, flags a = flags b ->
    c_fs_path_flag_used a = c_fs_path_flag_used b /\ c_fs_path_rules_enabled a = c_fs_path_rules_enabled b /\
    c_use_ambient_caps a = c_use_ambient_caps b /\ c_caps a = c_caps b /\ c_have_bind_mounts a = c_have_bind_mounts b /\
    c_chroot a = c_chroot b /\ c_pivot_root a = c_pivot_root b /\ c_use_mount_ns a = c_use_mount_ns b /\ c_change_remount a = c_change_remount b).
  { unfold flags. intros a b H. injection H. auto 10. }
  unfold finish. intros E.
  apply then_go in E. destruct E as (c1 & E1 & E). apply (keeps_go flags) in E1; [|keeps_tac].
  apply guard_go2 in E. destruct E as [B1 E].
  apply then_go in E. destruct E as (c3 & E3 & E). apply (keeps_go flags) in E3; [|keeps_tac].
  apply then_go in E. destruct E as (c4 & E4 & E). apply (keeps_go flags) in E4; [|keeps_tac].
  apply guard_go2 in E. destruct E as [B2 E].
  apply then_go in E. destruct E as (c5 & E5 & E). apply (keeps_go flags) in E5; [|keeps_tac].
  apply guard_go2 in E. destruct E as [B3 E]. apply guard_go2 in E. destruct E as [B4 E].
  do 7 (apply then_go in E; let x := fresh "d" in let H := fresh "D" in destruct E as (x & H & E); apply (keeps_go flags) in H; [|keeps_tac]).
  apply look_go, refuse_go in E. destruct E as [B5 ->].
  assert (X1 : flags c3 = flags c) by congruence. assert (X4 : flags c4 = flags c) by congruence. assert (X5 : flags c5 = flags c) by congruence.
  assert (X6 : flags d5 = flags c) by congruence.
  split; [|split; [|split; [|split; [|split]]]].
  - apply FL in E1. destruct E1 as (? & ? & _). congruence.
  - apply FL in X4. destruct X4 as (? & ? & ? & ? & _). congruence.
  - apply FL in X5. destruct X5 as (? & ? & ? & ? & ? & ? & ? & ? & _). congruence.
  - apply FL in X5. destruct X5 as (? & ? & ? & ? & ? & ? & ? & ? & ?). congruence.
  - apply FL in X6. destruct X6 as (? & ? & ? & ? & _). congruence.
  - exact X6.
Qed.
End Finish.
Lemma some_has p (P : N -> Prop) l : (forall n, p (opt_of opt_codes n) = true <-> P n) -> some p l = true <-> exists n, P n /\ has l n.
Proof.
  intros H. unfold some. rewrite existsb_exists. split.
  - intros [[n a] [I E]]. exists n. split; [apply H, E|exists a; exact I].
  - intros (n & Pn & a & I). exists (n, a). split; [exact I|apply H, Pn].
Qed.
Ltac code_now := let X := fresh "X" in intros n; split;
  [ destruct (opt_of opt_codes n) eqn:X; try discriminate; intros _; (apply opt_of_in in X; [|discriminate]); unfold opt_codes in X;
    repeat (destruct X as [X|X]; [try discriminate X; injection X as <-; unfold root_option, path_option; auto 10|]); destruct X
  | intros X; unfold root_option, path_option in *; repeat (destruct X as [X|X]); subst n; reflexivity ].
Lemma code_u n : is_u (opt_of opt_codes n) = true <-> short "u" = n. Proof. revert n. code_now. Qed.
Lemma code_g n : is_g (opt_of opt_codes n) = true <-> short "g" = n. Proof. revert n. code_now. Qed.
Lemma code_root n : is_root (opt_of opt_codes n) = true <-> root_option n. Proof. revert n. code_now. Qed.
Lemma code_y n : is_y (opt_of opt_codes n) = true <-> short "y" = n. Proof. revert n. code_now. Qed.
Lemma code_G n : is_G (opt_of opt_codes n) = true <-> short "G" = n. Proof. revert n. code_now. Qed.
Lemma code_s n : is_s (opt_of opt_codes n) = true <-> short "s" = n. Proof. revert n. code_now. Qed.
Lemma code_S n : is_S (opt_of opt_codes n) = true <-> short "S" = n. Proof. revert n. code_now. Qed.
Lemma code_L n : is_L (opt_of opt_codes n) = true <-> short "L" = n. Proof. revert n. code_now. Qed.
Lemma code_bpf n : is_bpf (opt_of opt_codes n) = true <-> OPT_SECCOMP_BPF_BINARY = n. Proof. revert n. code_now. Qed.
Lemma code_b n : is_b (opt_of opt_codes n) = true <-> short "b" = n. Proof. revert n. code_now. Qed.
Lemma code_c n : is_c (opt_of opt_codes n) = true <-> short "c" = n. Proof. revert n. code_now. Qed.
Lemma code_K n : is_K (opt_of opt_codes n) = true <-> short "K" = n. Proof. revert n. code_now. Qed.
Lemma code_v n : is_v (opt_of opt_codes n) = true <-> short "v" = n. Proof. revert n. code_now. Qed.
Lemma code_ambient n : is_ambient (opt_of opt_codes n) = true <-> OPT_AMBIENT = n. Proof. revert n. code_now. Qed.
Lemma code_fs n : is_fs (opt_of opt_codes n) = true <-> path_option n. Proof. revert n. code_now. Qed.
Lemma code_no_fs n : is_no_fs (opt_of opt_codes n) = true <-> OPT_NO_FS_RESTRICTIONS = n. Proof. revert n. code_now. Qed.
Lemma some_one_code p m l : (forall n, p (opt_of opt_codes n) = true <-> m = n) -> has l m <-> some p l = true.
Proof. intros H. rewrite (some_has p _ l H). split; [eauto|]. intros (n & <- & X). exact X. Qed.
Lemma twice_iff l (P Q : N -> Prop) : (forall n, P n <-> Q n) -> twice l P -> twice l Q.
Proof. intros H (a & b & c & n & x & m & y & E & A & B). exists a, b, c, n, x, m, y. rewrite <- !H. auto. Qed.

Section Conflicts.
Variable w : world.
Lemma parse_go pre opts args c : parse_args w pre opts args = Go c ->
  exists c1, cli_options w opts (cli_start pre) = Go c1 /\ finish w args c1 = Go c.
Proof. intros E. apply then_go in E. exact E. Qed.
Lemma minijail0_go pre opts args s : minijail0 w pre opts args = Go s ->
  exists c, parse_args w pre opts args = Go c /\
  (c_elftype c = ELFSTATIC /\ s = Start c false None \/
   c_elftype c = ELFDYNAMIC /\ exists p, c_preload c = Some p /\ w_dlopen w p = true /\
     exists c', lib w (A_set_preload_path p) c = Go c' /\ s = Start c' true (c_envp c')).
Proof.
  intros E. unfold minijail0 in E. destruct (parse_args w pre opts args) as [c| | |] eqn:P; cbn [go_on] in E; try discriminate.
  exists c. split; [reflexivity|]. destruct (negb (w_setpgid w)); [discriminate|]. destruct (c_elftype c); [discriminate| |].
  - left. injection E as <-. auto.
  - right. split; [reflexivity|]. destruct (c_preload c) as [p|]; [|discriminate]. exists p. destruct (w_dlopen w p); [|discriminate].
    cbn [negb] in E. destruct (lib w (A_set_preload_path p) c) as [c'| | |]; cbn [go_on] in E; try discriminate. injection E as <-. eauto 10.
Qed.
Lemma conflict_stops pre opts args c : parse_args w pre opts args = Go c -> ~ conflict (all_options w opts).
Proof.
  intros E X. apply parse_go in E. destruct E as (c1 & E & F).
  destruct (flags_end w _ _ _ E) as (G1 & G2 & G3 & G4 & G5 & G6 & G7 & G8 & G9). destruct (finish_checks w _ _ _ F) as (F1 & F2 & F3 & F4 & _ & _).
  set (l := all_options w opts) in *.
  pose proof (fun p m H => proj1 (some_one_code p m l H)) as S1.
  destruct X as [T|T|T|A B|A B|A B|A B|A B|A B C|A B|A B|n A P B].
  - eapply one_root; [exact E|]. eapply twice_iff; [|exact T]. intros n. symmetry. apply code_root.
  - eapply one_user; [exact E|]. eapply twice_iff; [|exact T]. intros n. symmetry. apply code_u.
  - eapply one_group; [exact E|]. eapply twice_iff; [|exact T]. intros n. symmetry. apply code_g.
  - apply (S1 _ _ code_y) in A. apply (S1 _ _ code_G) in B. pose proof (not_y_G w _ _ _ E) as Z. fold l in Z. rewrite A, B in Z. discriminate.
  - apply (S1 _ _ code_s) in A. apply (S1 _ _ code_S) in B. pose proof (not_s_S w _ _ _ E) as Z. fold l in Z. rewrite A, B in Z. discriminate.
  - apply (S1 _ _ code_s) in A. apply (S1 _ _ code_bpf) in B. pose proof (not_s_bpf w _ _ _ E) as Z. fold l in Z. rewrite A, B in Z. discriminate.
  - apply (S1 _ _ code_S) in A. apply (S1 _ _ code_bpf) in B. pose proof (not_S_bpf w _ _ _ E) as Z. fold l in Z. rewrite A, B in Z. discriminate.
  - apply (S1 _ _ code_L) in A. apply (S1 _ _ code_bpf) in B. pose proof (not_L_bpf w _ _ _ E) as Z. fold l in Z. rewrite A, B in Z. discriminate.
  - apply (S1 _ _ code_b) in A. rewrite A in G1. rewrite (some_one_code _ _ l code_v) in B. apply not_true_iff_false in B. rewrite B in G4.
    assert (R : some is_root l = false).
    { apply not_true_iff_false. rewrite (some_has _ _ l code_root). intros (n & Rn & Hn). exact (C n Rn Hn). }
    assert (R1 : some is_C l = false /\ some is_P l = false).
    { clear -R. unfold some in *. induction l as [|x t IH]; cbn [existsb] in *; [auto|]. apply orb_false_iff in R. destruct R as [R1 R2].
      destruct (IH R2) as [-> ->]. rewrite !orb_false_r. destruct (opt_of opt_codes (fst x)); cbn in *; auto; discriminate. }
    destruct R1 as [R1 R2]. rewrite R1 in G5. rewrite R2 in G6. rewrite G1, G4, G5, G6 in F3. discriminate.
  - apply (S1 _ _ code_ambient) in A. rewrite A in G7. rewrite (some_one_code _ _ l code_c) in B. apply not_true_iff_false in B. rewrite B in G2.
    rewrite G7, G2 in F2. discriminate.
  - apply (S1 _ _ code_K) in A. rewrite A in G3. rewrite (some_one_code _ _ l code_v) in B. apply not_true_iff_false in B. rewrite B in G4.
    rewrite G3, G4 in F4. discriminate.
  - assert (A' : some is_fs l = true) by (apply (some_has _ _ l code_fs); eauto). apply (S1 _ _ code_no_fs) in B.
    rewrite A' in G8. rewrite B in G9. rewrite G8, G9 in F1. discriminate.
Qed.
Lemma static_caps pre opts args s : minijail0 w pre opts args = Go s -> st_preload s = false ->
  has (all_options w opts) (short "c") -> has (all_options w opts) OPT_AMBIENT.
Proof.
  intros E P H. apply minijail0_go in E. destruct E as (c & E & [[L ->]|(_ & p & _ & _ & c' & _ & ->)]); [|discriminate]. clear P.
  apply parse_go in E. destruct E as (c1 & E & F).
  destruct (flags_end w _ _ _ E) as (_ & G2 & _ & _ & _ & _ & G7 & _). destruct (finish_checks w _ _ _ F) as (_ & _ & _ & _ & F5 & _).
  set (l := all_options w opts) in *. apply (some_one_code _ _ l code_c) in H. rewrite H in G2. rewrite L, G2 in F5. cbn in F5.
  apply (some_one_code _ _ l code_ambient). destruct (some is_ambient l); [reflexivity|]. rewrite G7 in F5. discriminate.
Qed.
End Conflicts.
