(* From minijail0's options to the program it runs. *)
From Verif Require Export P_CliTab.
From Coq Require Import Lia.
Local Open Scope N_scope.

(* what the calls after the options set *)
Ltac parts_nil := repeat match goal with |- context [given _ (_ ++ _)] => rewrite given_app end.
Definition none_at_end {A} (f : api -> option A) : Prop := forall w L fin, closes w L fin -> given f fin = [].
Ltac none_tac := intros w L fin [um gm rm gr fl n U G R GR FL T]; rewrite !given_app;
  repeat match goal with |- (?a ++ ?b)%list = [] => let X := fresh in assert (X : a = []); [|rewrite X; clear X; cbn [app]] end;
  first [ destruct (to_stderr w L); reflexivity | destruct U; reflexivity
        | destruct G; unfold gid_map_calls; [reflexivity|destruct (w_cap_setgid w); reflexivity..]
        | destruct (last_arg L (short "z")); reflexivity | destruct R; reflexivity | destruct GR; reflexivity | destruct FL; reflexivity
        | destruct (n =? 0); reflexivity | reflexivity ].
Lemma end_root : none_at_end root_of. Proof. none_tac. Qed.
Lemma end_host : none_at_end hostname_of. Proof. none_tac. Qed.
Lemma end_net : none_at_end netns_of. Proof. none_tac. Qed.
Lemma end_mountns : none_at_end mountns_of. Proof. none_tac. Qed.
Lemma end_alt : none_at_end alt_of. Proof. none_tac. Qed.
Lemma end_caps : none_at_end caps_of. Proof. none_tac. Qed.
Lemma end_skip : none_at_end skip_of. Proof. none_tac. Qed.
Definition mount_of (a : api) : option mountpoint := hd_error (mount_added a 0).
Lemma end_mount : none_at_end mount_of. Proof. none_tac. Qed.
Lemma end_user : none_at_end user_of. Proof. none_tac. Qed.

Lemma end_modes w L fin : closes w L fin -> exists rm, remounts L rm /\ given remount_mode_of fin = given remount_mode_of rm.
Proof.
  intros [um gm rm gr fl n U G R GR FL T]. exists rm. split; [exact R|]. rewrite !given_app.
  assert (A : given remount_mode_of (if to_stderr w L then [A_preserve_fd 2 2] else []) = []) by (destruct (to_stderr w L); reflexivity).
  assert (B : given remount_mode_of um = []) by (destruct U; reflexivity).
  assert (C : given remount_mode_of gm = []) by (destruct G; [reflexivity|unfold gid_map_calls; destruct (w_cap_setgid w); reflexivity..]).
  assert (D : given remount_mode_of (match last_arg L (short "z") with None => [A_forward_signals] | Some _ => [] end) = []) by (destruct (last_arg L (short "z")); reflexivity).
  assert (X : given remount_mode_of gr = []) by (destruct GR; reflexivity).
  assert (Y : given remount_mode_of fl = []) by (destruct FL; reflexivity).
  assert (Z : given remount_mode_of (if n =? 0 then [] else [A_mount_tmp_size n]) = []) by (destruct (n =? 0); reflexivity).
  rewrite A, B, C, D, X, Y, Z. cbn [app]. apply app_nil_r.
Qed.
Lemma end_tmp w L fin : closes w L fin -> exists n, tmp_size L n /\ given tmp_size_of fin = (if n =? 0 then [] else [n]) /\
  (n <> 0 -> In (A_mount_tmp_size n) fin).
Proof.
  intros [um gm rm gr fl n U G R GR FL T]. exists n. split; [exact T|]. split.
  - rewrite !given_app.
    assert (A : given tmp_size_of (if to_stderr w L then [A_preserve_fd 2 2] else []) = []) by (destruct (to_stderr w L); reflexivity).
    assert (B : given tmp_size_of um = []) by (destruct U; reflexivity).
    assert (C : given tmp_size_of gm = []) by (destruct G; [reflexivity|unfold gid_map_calls; destruct (w_cap_setgid w); reflexivity..]).
    assert (D : given tmp_size_of (match last_arg L (short "z") with None => [A_forward_signals] | Some _ => [] end) = []) by (destruct (last_arg L (short "z")); reflexivity).
    assert (X : given tmp_size_of gr = []) by (destruct GR; reflexivity).
    assert (Y : given tmp_size_of fl = []) by (destruct FL; reflexivity).
    assert (Z : given tmp_size_of rm = []) by (destruct R; reflexivity).
    rewrite A, B, C, D, X, Y, Z. cbn [app]. destruct (n =? 0); reflexivity.
  - intros NZ. do 7 (apply in_or_app; right). apply in_or_app. left. apply N.eqb_neq in NZ. rewrite NZ. left. reflexivity.
Qed.
Lemma end_filter w L fin : closes w L fin -> exists fl, filters w L fl /\ given filter_of fin = given filter_of fl /\ incl fl fin.
Proof.
  intros [um gm rm gr fl n U G R GR FL T]. exists fl. split; [exact FL|]. split.
  - rewrite !given_app.
    assert (A : given filter_of (if to_stderr w L then [A_preserve_fd 2 2] else []) = []) by (destruct (to_stderr w L); reflexivity).
    assert (B : given filter_of um = []) by (destruct U; reflexivity).
    assert (C : given filter_of gm = []) by (destruct G; [reflexivity|unfold gid_map_calls; destruct (w_cap_setgid w); reflexivity..]).
    assert (D : given filter_of (match last_arg L (short "z") with None => [A_forward_signals] | Some _ => [] end) = []) by (destruct (last_arg L (short "z")); reflexivity).
    assert (X : given filter_of gr = []) by (destruct GR; reflexivity).
    assert (Y : given filter_of rm = []) by (destruct R; reflexivity).
    assert (Z : given filter_of (if n =? 0 then [] else [A_mount_tmp_size n]) = []) by (destruct (n =? 0); reflexivity).
    rewrite A, B, C, D, X, Y, Z. cbn [app]. apply app_nil_r.
  - intros x I. do 6 (apply in_or_app; right). apply in_or_app. left. exact I.
Qed.
Lemma net_none w n a cs : asks w n a cs -> n = short "e" -> a = None -> cs = [A_namespace_net].
Proof. intros H X Y. each_ask H; try discriminate X; try discriminate Y; reflexivity. Qed.
Lemma net_some w n a cs t : asks w n a cs -> n = short "e" -> a = Some t -> cs = [A_namespace_enter_net (w_open w t)].
Proof. intros H X Y. each_ask H; try discriminate X; try discriminate Y; injection Y as ->; reflexivity. Qed.
Lemma append_empty t : (t ++ "")%string = t.
Proof. induction t as [|c t IH]; [reflexivity|]. cbn. rewrite IH. reflexivity. Qed.
Lemma size_fun s n m : size_text s n -> size_text s m -> n = m.
Proof.
  assert (K : forall n, size_text s n -> exists v r, read_int 10 s = Some (false, v, r) /\ (r = ""%string /\ n = v \/ exists k c, r = String c "" /\ get k "KMGTPE" = Some c /\ n = v * 1024 ^ N.of_nat (S k))).
  { intros x [t v D|t v c k D G].
    - exists v, ""%string. split; [|left; split; reflexivity]. rewrite <- (append_empty t). apply digits_val_app_read; [exact D|discriminate].
    - exists v, (String c ""). split; [|right; exists k, c; auto]. apply digits_val_app_read; [exact D|]. intros c0 t0 [= <- <-].
      do 6 (destruct k as [|k]; [injection G as <-; reflexivity|]). destruct k; discriminate. }
  intros A B. apply K in A, B. destruct A as (v & r & A & P), B as (v' & r' & B & Q). rewrite A in B. injection B as <- <-.
  destruct P as [[-> ->]|(k & c & -> & G & ->)], Q as [[X ->]|(k' & c' & X & G' & ->)]; try discriminate X; [reflexivity|].
  injection X as <-. assert (k = k') as ->; [|reflexivity]. clear - G G'.
  do 6 (destruct k as [|k]; [injection G as <-; do 6 (destruct k' as [|k']; [try reflexivity; discriminate G'|]); destruct k'; discriminate G'|]). destruct k; discriminate G.
Qed.
Lemma tmp_fun L : forall n m, tmp_size L n -> tmp_size L m -> n = m.
Proof.
  assert (SN : forall l (o : N * option string) l' o', (l ++ [o] = l' ++ [o'])%list -> l = l' /\ o = o') by (intros; apply app_inj_tail; assumption).
  intros n m H. revert m. induction H as [|l a n S|l o n O H IH|l o n N1 N2 H IH]; intros m K; inversion K as [EQ|l' a' n' S' EQ|l' o' n' O' H' EQ|l' o' n' N1' N2' H' EQ];
    try (destruct l; discriminate); try (destruct l'; discriminate); try reflexivity; apply SN in EQ; destruct EQ as [-> EQ].
  - injection EQ as ->. exact (size_fun _ _ _ S S').
  - subst. destruct O' as [O'|O']; [discriminate O'|discriminate O'].
  - subst. destruct N1'. reflexivity.
  - subst. destruct O as [O|O]; [discriminate O|discriminate O].
  - subst. rewrite (IH _ H'). reflexivity.
  - subst. destruct O as [->|O]; [destruct N1'; reflexivity|destruct N2'; exact O].
  - subst. destruct N1. reflexivity.
  - subst. destruct O' as [->|O']; [destruct N1; reflexivity|destruct N2; exact O'].
  - exact (IH _ H').
Qed.

Lemma in_given {A} (f : api -> option A) l x : In x (given f l) -> exists a, In a l /\ f a = Some x.
Proof. unfold given. rewrite in_flat_map. intros (a & I & J). exists a. split; [exact I|]. destruct (f a); [|destruct J]. destruct J as [<-|[]]. reflexivity. Qed.
Lemma last_in {A} (l : list A) d : last l d = d \/ In (last l d) l.
Proof. induction l as [|x l IH]; [left; reflexivity|]. destruct l as [|y l]; [right; left; reflexivity|]. change (last (x :: y :: l) d) with (last (y :: l) d). destruct IH as [IH|IH]; [left; exact IH|right; right; exact IH]. Qed.
Lemma users w n a cs x : asks w n a cs -> In x (given user_of cs) -> exists t u g, n = short "u" /\ a = Some t /\ w_user w t = Some (u, g) /\ x = (Own t, g).
Proof. intros H I. each_ask H; cbn in I; try (destruct I; fail). destruct I as [<-|[]]. eauto 9. Qed.
Lemma caps_each w n a cs x : asks w n a cs -> In x (given caps_of cs) -> exists t, n = short "c" /\ a = Some t /\ caps_arg w t x.
Proof.
  intros H I. each_ask H; cbn in I; try (destruct I; fail).
  all: destruct I as [<-|[]]; eexists; split; [reflexivity|split; [reflexivity|]]; unfold caps_arg; eauto.
Qed.

Lemma caps_one w n a cs : asks w n a cs -> if n =? short "c" then exists t x, a = Some t /\ given caps_of cs = [x] /\ caps_arg w t x else given caps_of cs = [].
Proof. intros H. each_ask H; try reflexivity; cbn [N.eqb short]; change (short "c" =? short "c") with true; eexists _, _; (split; [reflexivity|split; [reflexivity|]]); unfold caps_arg; eauto. Qed.
Lemma caps_last w L : forall each a, Forall2 (fun o cs => asks w (fst o) (snd o) cs) L each -> last_arg L (short "c") = Some (Some a) ->
  caps_arg w a (last (given caps_of (concat each)) 0).
Proof.
  induction L as [|[n b] L IH] using rev_ind; intros each a A1 LA; [discriminate|]. apply Forall2_app_inv_l in A1. destruct A1 as (e1 & e2 & A1 & A2 & ->).
  inversion A2 as [|o cs l1 l2 K A3 X Y]; subst; inversion A3; subst.
  cbn [fst snd] in K. apply caps_one in K. rewrite concat_app, given_app. cbn [concat]. rewrite app_nil_r. rewrite last_snoc in LA. destruct (n =? short "c").
  - injection LA as ->. destruct K as (t & x & X & -> & K). injection X as ->. rewrite last_last. exact K.
  - rewrite K, app_nil_r. exact (IH _ _ A1 LA).
Qed.

Lemma skips w n a cs m : asks w n a cs -> In (A_skip_setting_securebits m) cs -> n = short "B".
Proof. intros H I. each_ask H; cbn in I; try reflexivity; repeat (destruct I as [I|I]; [discriminate I|]); destruct I. Qed.

Lemma given_mounts l : given mount_of l = flat_map (fun a => mount_added a 0) l.
Proof. unfold given. induction l as [|a l IH]; [reflexivity|]. cbn [flat_map]. rewrite IH. f_equal. destruct a; reflexivity. Qed.
Lemma due_mounts w L each : Forall2 (fun o cs => asks w (fst o) (snd o) cs) L each -> mounts_due w L (given mount_of (concat each)).
Proof. induction 1 as [|o cs L each X _ IH]; [constructor|]. cbn [concat]. rewrite given_app, given_mounts at 1. constructor; assumption. Qed.
Lemma devs w n a cs : asks w n a cs -> (In A_mount_dev cs <-> n = short "d" \/ n = OPT_PROFILE /\ a = Some "minimalistic-mountns"%string).
Proof.
  intros H. each_ask H; cbn [In profile_calls app]; split; intros X;
  solve [ exfalso; repeat (destruct X as [X|X]; [discriminate X|]); destruct X
        | exfalso; destruct X as [X|[X _]]; discriminate X
        | exfalso; destruct X as [X|[_ X]]; discriminate X
        | left; reflexivity | right; split; reflexivity | some_call ].
Qed.
Lemma end_dev : none_at_end (fun a => match a with A_mount_dev => Some tt | _ => None end). Proof. none_tac. Qed.
Lemma end_devs w L fin : closes w L fin -> ~ In A_mount_dev fin.
Proof.
  intros C I. assert (X : In tt (given (fun a => match a with A_mount_dev => Some tt | _ => None end) fin)) by (unfold given; apply in_flat_map; exists A_mount_dev; split; [exact I|left; reflexivity]).
  rewrite (end_dev _ _ _ C) in X. destruct X.
Qed.

Section Run.
Variable w : world.
Hypothesis L32 : 32 <= w_long w.
Hypothesis names : names_ok (w_consts w).
Variables (pre : string) (opts : list (N * option string)) (args : list string) (s : start).
Let L := all_options w opts.
Let h := c_calls (st_cli s).
Hypothesis E : minijail0 w pre opts args = Go s.
Hypothesis F : Forall (fits w) L.
Hypothesis SM : small_ids w L.
Hypothesis FI : files_ok w.

Lemma parts : exists each fin, Forall2 (fun o cs => asks w (fst o) (snd o) cs) L each /\ closes w L fin /\
  map fst h = (concat each ++ fin ++ (if st_preload s then [A_set_preload_path (match last_arg L OPT_PRELOAD_LIBRARY with Some (Some p) => p | _ => pre end)] else []))%list.
Proof. exact (options_stand w L32 names pre opts args s E F SM FI). Qed.

(* a call that an option stands for was made, and taken *)
Lemma codes e j0 hh j1 : history e j0 hh j1 -> forall a rc, In (a, rc) hh -> exists j j', api_step e j a = ARet rc j'.
Proof. induction 1 as [|j a rc j1 t j2 S _ IH]; intros b r I; [destruct I|]. destruct I as [I|I]; [injection I as -> ->; eauto|exact (IH _ _ I)]. Qed.
Lemma code_sign e j a rc j' : api_step e j a = ARet rc j' -> may_fail a = false -> (rc <= 0)%Z.
Proof.
  intros S M. destruct a; try discriminate M; try (match type of M with may_fail (_ _ ?u) = _ => destruct u; try discriminate M end); cbn [api_step] in S; api_unfold S;
  repeat match type of S with
    | context [match ?x with _ => _ end] =>
        lazymatch x with context [match _ with _ => _ end] => fail | _ => destruct x end
    end; try discriminate S; apply ARet_inj in S; destruct S as [<- _]; vm_compute; intros X; discriminate X.
Qed.
Lemma taken_all a rc : In (a, rc) h -> may_fail a = false -> rc = 0%Z.
Proof.
  intros I M. destruct (codes _ _ _ _ (jail_built _ _ _ _ _ E) _ _ I) as (j & j' & S). pose proof (code_sign _ _ _ _ _ S M) as P.
  destruct (Z.eq_dec rc 0) as [|NE]; [assumption|]. exfalso. assert (NG : (rc < 0)%Z) by lia.
  destruct (refusals_claim w _ _ _ _ _ _ E I NG) as [(n & ->)|(p & c & ->)]; discriminate M.
Qed.
Lemma taken a : In a (map fst h) -> may_fail a = false -> In (a, 0%Z) h.
Proof. intros I M. apply in_map_iff in I. destruct I as ([b rc] & X & I). cbn in X. subst b. rewrite <- (taken_all _ _ I M). exact I. Qed.
Lemma option_calls n a : In (n, a) L -> exists cs, asks w n a cs /\ incl cs (map fst h).
Proof.
  intros I. destruct parts as (each & fin & A & _ & ->).
  assert (X : exists cs, In cs each /\ asks w n a cs).
  { clear - A I. induction A as [|o cs L0 each0 X _ IH]; [destruct I|]. destruct I as [->|I]; [exists cs; split; [left; reflexivity|exact X]|].
    destruct (IH I) as (c & J & Y). exists c. split; [right; exact J|exact Y]. }
  destruct X as (cs & J & X). exists cs. split; [exact X|]. intros x K. apply in_or_app. left. apply in_concat. eauto.
Qed.
Lemma on_asked f a : In (a, 0%Z) h -> In f (on_by a 0) -> turned_on f h.
Proof. intros I O. exists a, 0%Z. split; assumption. Qed.
Lemma asked_source f : turned_on f h -> (exists n a, In (n, a) L /\ source n a f) \/ end_source w L f.
Proof.
  intros (x & rc & I & O). apply (in_map fst) in I. cbn [fst] in I. destruct parts as (each & fin & A & C & M). rewrite M in I.
  apply in_app_or in I. destruct I as [I|I]; [|apply in_app_or in I; destruct I as [I|I]].
  - left. apply in_concat in I. destruct I as (cs & J & I). clear - A I O J. induction A as [|o cs0 L0 each0 X _ IH]; [destruct J|].
    destruct J as [->|J]; [exists (fst o), (snd o); split; [left; destruct o; reflexivity|exact (asks_source _ _ _ _ _ _ _ X I O)]|].
    destruct (IH J) as (n & a & K & Y). exists n, a. split; [right; exact K|exact Y].
  - right. exact (end_asks _ _ _ _ _ _ C I O).
  - destruct (st_preload s); [|destruct I]. destruct I as [<-|[]]. unfold on_by in O. destruct (negb _); destruct O.
Qed.

(* ids *)
Lemma ids_here : let calls := map fst h in
  Forall2 (fun a u => exists t, a = Some t /\ uid_arg w t u) (args_of L (short "u")) (given uid_of calls) /\
  Forall2 (fun a g => exists t, a = Some t /\ gid_arg w t g) (args_of L (short "g")) (given gid_of calls) /\
  exists gids, Forall2 (fun a g => exists t, a = Some t /\ gid_arg w t g) (args_of L OPT_ADD_SUPPL_GROUP) gids /\
    given suppl_of calls = match gids with [] => [] | _ => [gids] end.
Proof. exact (ids_selected w L32 pre opts args s E (Forall_impl _ (fits_id w) F)). Qed.
Lemma no_conflict : ~ conflict L.
Proof. destruct (minijail0_go _ _ _ _ _ E) as (c & P & _). exact (conflict_stops _ _ _ _ _ P). Qed.
Lemma once n a b : (forall P, twice L (eq n) -> P) -> In (n, a) L -> In (n, b) L -> args_of L n = [a].
Proof.
  intros T I _. assert (X : exists l1 l2, L = (l1 ++ (n, a) :: l2)%list) by (apply in_split; exact I). destruct X as (l1 & l2 & X).
  assert (N1 : forall m, ~ In (n, m) l1).
  { intros m J. apply in_split in J. destruct J as (k1 & k2 & J). apply (T False). exists k1, k2, l2, n, m, n, a. rewrite X, J, <- app_assoc. auto. }
  assert (N2 : forall m, ~ In (n, m) l2).
  { intros m J. apply in_split in J. destruct J as (k1 & k2 & J). apply (T False). exists l1, k1, k2, n, a, n, m. rewrite X, J. auto. }
  assert (Z : forall l, (forall m, ~ In (n, m) l) -> args_of l n = []).
  { clear. induction l as [|[k b] l IH]; intros H; [reflexivity|]. unfold args_of. cbn [filter fst]. destruct (N.eqb_spec k n) as [->|]; [destruct (H b); left; reflexivity|].
    apply IH. intros m J. apply (H m). right. exact J. }
  rewrite X, args_app, (Z _ N1). unfold args_of. cbn [filter fst]. rewrite N.eqb_refl. cbn [map snd app]. f_equal. exact (Z _ N2).
Qed.
Lemma one_user a : In (short "u", a) L -> args_of L (short "u") = [a].
Proof. intros I. apply once with (b := a); auto. intros P T. destruct (no_conflict (two_users _ T)). Qed.
Lemma one_group a : In (short "g", a) L -> args_of L (short "g") = [a].
Proof. intros I. apply once with (b := a); auto. intros P T. destruct (no_conflict (two_groups _ T)). Qed.

Lemma set_by {A} (f : api -> option A) G : (forall n a cs, asks w n a cs -> given f cs = G n a) -> none_at_end f -> (forall p, f (A_set_preload_path p) = None) ->
  given f (map fst h) = flat_map (fun o => G (fst o) (snd o)) L.
Proof.
  intros GG Z P. destruct parts as (each & fin & A1 & C & ->). rewrite !given_app, (Z _ _ _ C), (given_each _ _ _ _ _ GG A1).
  destruct (st_preload s); [unfold given; cbn [flat_map]; rewrite P|]; cbn [app]; rewrite app_nil_r; reflexivity.
Qed.
Lemma provides n f : has L n -> In n (providers f) -> turned_on f h.
Proof.
  intros [a I] P. destruct (option_calls _ _ I) as (cs & K & IC). destruct (provided _ _ _ _ _ K P) as (x & J & M & O).
  exact (on_asked f x (taken x (IC _ J) M) O).
Qed.
Lemma end_on n x f : (forall fin, closes w L fin -> has L n -> In x fin) -> may_fail x = false -> In f (on_by x 0) -> has L n -> turned_on f h.
Proof.
  intros K M O H. destruct parts as (each & fin & _ & C & MP). apply (on_asked f x); [|exact O]. apply taken; [|exact M]. rewrite MP. apply in_or_app. right. apply in_or_app. left. exact (K _ C H).
Qed.
Lemma end_pids n : In n [short "m"; short "M"] -> has L n -> turned_on F_vfs h /\ turned_on F_remount_proc_ro h /\ turned_on F_userns h.
Proof.
  intros I H.
  assert (K : forall fin, closes w L fin -> has L n -> In A_namespace_pids fin /\ In A_namespace_user fin).
  { intros fin [um gm rm gr fl k U G R GR FL T] HN. apply last_has in HN. destruct HN as [b HN].
    destruct I as [<-|[<-|[]]].
    - split; apply in_or_app; right; apply in_or_app; left; (destruct U; [congruence|..]; cbn; tauto).
    - split; do 2 (apply in_or_app; right); apply in_or_app; left; (destruct G; [congruence|..]; cbn; tauto). }
  split; [|split]; [apply (end_on n A_namespace_pids)|apply (end_on n A_namespace_pids)|apply (end_on n A_namespace_user)]; try exact H; try reflexivity;
    try (cbn; tauto); intros fin C HN; apply (K fin C HN).
Qed.
Lemma mounts_asked n : has L n -> In n own_mounts -> turned_on F_vfs h.
Proof.
  intros H I. destruct (in_dec N.eq_dec n (providers F_vfs)) as [J|J]; [exact (provides n _ H J)|].
  apply (end_pids n); [|exact H]. unfold own_mounts in I. cbn in I, J. cbn. intuition congruence.
Qed.
Lemma proc_asked n : has L n -> In n proc_ro -> turned_on F_remount_proc_ro h.
Proof.
  intros H I. destruct (in_dec N.eq_dec n (providers F_remount_proc_ro)) as [J|J]; [exact (provides n _ H J)|].
  apply (end_pids n); [|exact H]. unfold proc_ro in I. cbn in I, J. cbn. intuition congruence.
Qed.
Lemma not_init : ~ has L (short "I") -> ~ is_own_init h.
Proof.
  intros NI [P [X|X]].
  - apply X. destruct P as (a & rc & I & O). exists a, rc. split; [exact I|]. unfold on_by in *. destruct (negb _); [destruct O|].
    destruct a; cbn in O; try (repeat (destruct O as [O|O]; [discriminate O|]); destruct O); try (destruct r; cbn in O; repeat (destruct O as [O|O]; [discriminate O|]); destruct O); cbn; tauto.
  - destruct (asked_source _ X) as [(n & a & I & S)|S]; [|exact S]. cbn in S. subst n. apply NI. exists a. exact I.
Qed.
(* the root directory *)
Lemma twice_in n a m b : In (n, a) L -> In (m, b) L -> (n, a) <> (m, b) -> root_option n -> root_option m -> twice L root_option.
Proof.
  intros I J NE RN RM. apply in_split in I. destruct I as (l1 & l2 & X). rewrite X in J. apply in_app_or in J. destruct J as [J|[J|J]]; [|congruence|].
  - apply in_split in J. destruct J as (k1 & k2 & J). exists k1, k2, l2, m, b, n, a. rewrite X, J, <- app_assoc. auto.
  - apply in_split in J. destruct J as (k1 & k2 & J). exists l1, k1, k2, n, a, m, b. rewrite X, J. auto.
Qed.
Lemma root_is n a d : In (n, a) L -> root_option n -> root_by w n a = [d] -> first_of root_of h = Some d.
Proof.
  intros I R RB. rewrite first_given, (set_by root_of (root_by w) (roots w) end_root) by reflexivity.
  apply in_split in I. destruct I as (l1 & l2 & X). rewrite X. rewrite flat_map_app.
  assert (Z : forall l, (forall m b, In (m, b) l -> ~ root_option m) -> flat_map (fun o => root_by w (fst o) (snd o)) l = []).
  { clear. induction l as [|[m b] l IH]; intros H; [reflexivity|]. cbn [flat_map fst snd]. rewrite IH; [|intros m' b' J; apply (H m' b'); right; exact J]. rewrite app_nil_r.
    specialize (H m b (or_introl eq_refl)). unfold root_by, root_option in *. destruct (N.eqb_spec m (short "C")); [destruct H; auto|]. destruct (N.eqb_spec m (short "P")); [destruct H; auto|].
    destruct (N.eqb_spec m OPT_PROFILE); [destruct H; auto|]. reflexivity. }
  rewrite (Z l1); [cbn [flat_map fst snd app]; rewrite RB; reflexivity|].
  intros m b J RM. apply in_split in J. destruct J as (k1 & k2 & J). apply no_conflict. apply two_roots. exists k1, k2, l2, m, b, n, a.
  rewrite X, J, <- app_assoc. auto.
Qed.
Lemma last_flat {A} (G : N -> option string -> list A) n0 g : (forall n a, G n a = if n =? n0 then g a else []) ->
  forall l, flat_map (fun o => G (fst o) (snd o)) l = flat_map g (args_of l n0).
Proof.
  intros H. induction l as [|[n a] l IH]; [reflexivity|]. cbn [flat_map fst snd]. rewrite H, IH. unfold args_of. cbn [filter fst]. destruct (n =? n0); reflexivity.
Qed.
Lemma last_arg_snoc l n a : last_arg l n = Some a -> exists k, args_of l n = (k ++ [a])%list.
Proof.
  unfold last_arg. intros H. destruct (rev (args_of l n)) as [|x t] eqn:R; [discriminate|]. injection H as ->. exists (rev t).
  rewrite <- (rev_involutive (args_of l n)), R. reflexivity.
Qed.
Lemma filter_args l n a : In (n, a) l <-> In a (args_of l n).
Proof.
  unfold args_of. rewrite in_map_iff. split.
  - intros I. exists (n, a). split; [reflexivity|]. apply filter_In. split; [exact I|apply N.eqb_refl].
  - intros ((m & b) & X & I). apply filter_In in I. destruct I as [I Y]. cbn in X, Y. apply N.eqb_eq in Y. subst. exact I.
Qed.
Lemma mode_of : exists rm, remounts L rm /\ root_mode h = last (flat_map (fun o => mode_by (fst o) (snd o)) L ++ given remount_mode_of rm) 262144.
Proof.
  destruct parts as (each & fin & A1 & C & M). destruct (end_modes _ _ _ C) as (rm & R & Z). exists rm. split; [exact R|].
  unfold root_mode. rewrite last_given, M, !given_app, Z, (given_each _ _ _ _ _ (modes w) A1).
  destruct (st_preload s); cbn; rewrite app_nil_r; reflexivity.
Qed.
Lemma slaves l : has l (short "v") -> exists k, flat_map (fun o => mode_by (fst o) (snd o)) l = (k ++ [524288])%list.
Proof.
  assert (K : forall l, l <> [] -> Forall (eq 524288) l -> exists k, l = (k ++ [524288])%list).
  { clear. intros l NE H. destruct (exists_last NE) as (k & x & ->). apply Forall_app in H. destruct H as [_ H]. inversion H; subst. eauto. }
  intros [a I]. apply K.
  - intros X. assert (J : In 524288 (flat_map (fun o => mode_by (fst o) (snd o)) l)) by (apply in_flat_map; exists (short "v", a); split; [exact I|left; reflexivity]). rewrite X in J. destruct J.
  - apply Forall_forall. intros x J. apply in_flat_map in J. destruct J as ([n b] & _ & J). unfold mode_by in J. cbn [fst snd] in J. destruct (n =? short "v"); [|destruct J]. destruct J as [J|[]]. exact J.
Qed.
Variable g : cfg.
Hypothesis GE : g_env g = w_env w.
Lemma insists_wants c : insists w g L c -> wants g h c /\ ~ (is_own_init h /\ on_proc c).
Proof.
  assert (NP : forall c, ~ on_proc c -> wants g h c -> wants g h c /\ ~ (is_own_init h /\ on_proc c)) by (intros d N W; split; [exact W|intros [_ X]; exact (N X)]).
  assert (PR : forall n f, has L n -> existsb (N.eqb n) (providers f) = true -> turned_on f h).
  { intros n f H X. apply existsb_exists in X. destruct X as (m & I & X). apply N.eqb_eq in X. subst m. exact (provides _ _ H I). }
  Ltac not_proc := let X := fresh in intros [X|X]; discriminate X.
  intros [n H I|H NK|a m K I|H|H|l1 a l2 EQ N1|I NI|a A|a A|H|H|d c0 I J|d c0 I J|n T NZ|n H I NI|n H I NI NU|H KS|NPOL ND KS|H KS|t A].
  - apply NP; [not_proc|]. apply w_mountns. left. exact (mounts_asked n H I).
  - apply NP; [not_proc|]. assert (RM : root_mode h = 524288).
    { destruct mode_of as (rm & R & ->). destruct R as [K|K|b m K _]; try (destruct NK; apply (some_has _ _ _ K)). destruct (slaves L H) as [k ->]. cbn [given flat_map]. rewrite app_nil_r. apply last_last. }
    rewrite <- RM. apply w_propagation; [left; apply (PR (short "v")); [exact H|reflexivity]|rewrite RM; discriminate].
  - assert (RM : root_mode h = m).
    { destruct mode_of as (rm & R & ->). destruct R as [K'|K'|b m' K' I']; try congruence. rewrite K in K'. injection K' as <-.
      assert (m' = m) as <-. { clear - I I'. unfold propagation in I, I'. cbn [In] in I, I'. repeat (destruct I as [I|I]; [injection I as <- <-; repeat (destruct I' as [I'|I']; [now (injection I' as <- || discriminate I')|]); destruct I'|]). destruct I. }
      unfold given. cbn [flat_map remount_mode_of app]. apply last_last. }
    assert (HV : has L (short "v")).
    { destruct (last_arg L (short "v")) as [b|] eqn:V; [exact (some_has _ _ _ V)|]. apply last_none in V. destruct no_conflict. apply remount_alone; [exact (some_has _ _ _ K)|exact V]. }
    apply NP; [not_proc|]. rewrite <- RM. apply w_propagation; [left; apply (PR (short "v")); [exact HV|reflexivity]|].
    rewrite RM. clear - I. unfold propagation in I. cbn [In] in I. repeat (destruct I as [I|I]; [injection I as <- <-; discriminate|]). destruct I.
  - apply NP; [not_proc|]. apply w_ipc. apply (PR (short "l")); [exact H|reflexivity].
  - apply NP; [not_proc|]. apply w_uts. apply (PR OPT_UTS); [exact H|reflexivity].
  - apply NP; [not_proc|]. apply w_hostname; [apply (PR OPT_UTS); [exists (Some a); rewrite EQ; apply in_or_app; right; left; reflexivity|reflexivity]|].
    rewrite first_given, (set_by hostname_of host_by (hosts w) end_host) by reflexivity. rewrite (last_flat host_by OPT_UTS (fun a => match a with Some d => [d] | None => [] end)) by reflexivity.
    rewrite EQ, args_app, flat_map_app.
    assert (Z : flat_map (fun a => match a with Some d => [d] | None => [] end) (args_of l1 OPT_UTS) = @nil string).
    { assert (Q : forall b, ~ In (Some b) (args_of l1 OPT_UTS)) by (intros b X; apply filter_args in X; exact (N1 _ X)). revert Q. generalize (args_of l1 OPT_UTS). clear. induction l as [|[b|] l IH]; intros Q; [reflexivity|destruct (Q b); left; reflexivity|]. apply IH. intros b X. apply (Q b). right. exact X. }
    rewrite Z. reflexivity.
  - apply NP; [not_proc|]. destruct (option_calls _ _ I) as (cs & K & IC). apply (net_none _ _ _ _ K) in I as X || pose proof (net_none _ _ _ _ K eq_refl eq_refl) as X. subst cs.
    apply w_net.
    + apply (on_asked F_net A_namespace_net); [apply taken; [apply IC; left; reflexivity|reflexivity]|left; reflexivity].
    + intros X. destruct (asked_source _ X) as [(m & a & J & S)|S]; cbn in S; [|exact S]. destruct S as [-> [t ->]]. exact (NI _ J).
  - apply NP; [not_proc|]. assert (I : In (short "e", Some a) L) by (apply filter_args; rewrite A; left; reflexivity).
    destruct (option_calls _ _ I) as (cs & K & IC). pose proof (net_some _ _ _ _ a K eq_refl eq_refl) as X. subst cs.
    assert (NW : last_of netns_of h 0%Z = w_open w a).
    { rewrite last_given, (set_by netns_of (net_by w) (nets w) end_net) by reflexivity.
      rewrite (last_flat (net_by w) (short "e") (fun a => match a with Some d => [w_open w d] | None => [] end)) by reflexivity. rewrite A. reflexivity. }
    rewrite <- NW. apply w_enter_net. apply (on_asked F_enter_net (A_namespace_enter_net (w_open w a))); [apply taken; [apply IC; left; reflexivity|reflexivity]|left; reflexivity].
  - apply NP; [not_proc|]. assert (I : In (short "V", Some a) L) by (apply filter_args; rewrite A; left; reflexivity).
    assert (NW : last_of mountns_of h 0%Z = w_open w a).
    { rewrite last_given, (set_by mountns_of (mountns_by w) (mountnss w) end_mountns) by reflexivity.
      rewrite (last_flat (mountns_by w) (short "V") (fun a => [opened w a])) by reflexivity. rewrite A. reflexivity. }
    rewrite <- NW. apply w_enter_mountns. apply (PR (short "V")); [exists (Some a); exact I|reflexivity].
  - apply NP; [not_proc|]. apply w_cgroup. apply (PR (short "N")); [exact H|reflexivity].
  - apply NP; [not_proc|]. apply w_keyring. apply (PR (short "w")); [exact H|reflexivity].
  - assert (AK : turned_on F_chroot h) by (apply (PR (short "C")); [exists (Some d); exact I|reflexivity]).
    assert (RT : first_of root_of h = Some d) by (apply (root_is _ _ _ I); [left; reflexivity|reflexivity]).
    destruct J as [<-|[<-|[]]]; (apply NP; [not_proc|]).
    + exact (w_chroot g h d AK RT).
    + apply w_cd. left. exact AK.
  - assert (X : turned_on F_pivot_root h /\ first_of root_of h = Some d).
    { destruct I as [I|[[a I] ->]].
      - split; [apply (PR (short "P")); [exists (Some d); exact I|reflexivity]|apply (root_is _ _ _ I); [right; left; reflexivity|reflexivity]].
      - split; [apply (PR OPT_PROFILE); [exists a; exact I|reflexivity]|apply (root_is _ _ _ I); [right; right; reflexivity|reflexivity]]. }
    destruct X as [AK RT].
    destruct J as [<-|[<-|[<-|[<-|[<-|[<-|[]]]]]]]; (apply NP; [not_proc|]); [exact (w_pivot_bind g h d AK RT)|exact (w_pivot_cd g h d AK RT)|exact (w_pivot g h AK)|exact (w_pivot_detach g h AK)|exact (w_pivot_chroot g h AK)|apply w_cd; right; exact AK].
  - apply NP; [not_proc|]. destruct parts as (each & fin & A1 & C & M). destruct (end_tmp _ _ _ C) as (n' & T' & GV & IN). rewrite (tmp_fun _ _ _ T' T) in *. clear T'.
    assert (NW : last_of tmp_size_of h 0 = n).
    { rewrite last_given, M, !given_app, GV, (given_each _ tmp_size_of (fun _ _ => []) _ _ (no_tmp w) A1). apply N.eqb_neq in NZ. rewrite NZ.
      assert (Z : flat_map (fun _ : N * option string => @nil N) L = []) by (clear; induction L; auto). rewrite Z. destruct (st_preload s); reflexivity. }
    rewrite <- NW. apply w_tmp. apply (on_asked F_mount_tmp (A_mount_tmp_size n)); [apply taken; [rewrite M; apply in_or_app; right; apply in_or_app; left; exact (IN NZ)|reflexivity]|left; reflexivity].
  - split; [apply w_proc; exact (proc_asked n H I)|]. intros [X _]. exact (not_init NI X).
  - split; [apply w_proc_detach; [exact (proc_asked n H I)|]|intros [X _]; exact (not_init NI X)].
    intros X. destruct (asked_source _ X) as [(m & a & J & S)|S]; cbn in S; [subst m; apply (NU (short "U")); [left; reflexivity|exists a; exact J]|].
    destruct S as [S|S]; [apply (NU (short "m")); [right; left; reflexivity|exact S]|apply (NU (short "M")); [right; right; left; reflexivity|exact S]].
  - apply NP; [not_proc|]. apply w_nnp; [apply (PR (short "n")); [exact H|reflexivity]|rewrite GE; exact KS].
  - apply NP; [not_proc|]. apply w_nnp; [|rewrite GE; exact KS].
    destruct parts as (each & fin & A1 & C & M). destruct (end_filter _ _ _ C) as (fl & FL & _ & IC). destruct NPOL as [NS NB].
    apply (on_asked F_no_new_privs A_no_new_privs); [|left; reflexivity]. apply taken; [|reflexivity]. rewrite M. apply in_or_app. right. apply in_or_app. left. apply IC.
    destruct FL as [p A|p prog A _|_ X|_ _ _|prog _ _ _ _]; [destruct NS; exact (some_has _ _ _ A)|destruct NB; exact (some_has _ _ _ A)|destruct (ND X)|left; reflexivity|right; right; left; reflexivity].
  - apply NP; [not_proc|]. apply w_strict; [apply (PR (short "s")); [exact H|reflexivity]|rewrite GE; exact KS].
  - apply NP; [not_proc|]. apply w_alt; [apply (PR (short "a")); [apply (some_has _ _ _ A)|reflexivity]|].
    rewrite last_given, (set_by alt_of alt_by (alts w) end_alt) by reflexivity. rewrite (last_flat alt_by (short "a") (fun a => match a with Some t => [Own t] | None => [] end)) by reflexivity.
    apply last_arg_snoc in A. destruct A as [k ->]. rewrite flat_map_app. cbn [flat_map app]. apply last_last.
Qed.

Lemma ids_are groups_of old new :
  groups_due groups_of h (S_Creds.groups old) (S_Creds.groups new) ->
  (turned_on F_uid h -> last_of uid_of h 0 <> NO_ID -> uids new = (last_of uid_of h 0, last_of uid_of h 0, last_of uid_of h 0)) ->
  (turned_on F_gid h -> last_of gid_of h 0 <> NO_ID -> gids new = (last_of gid_of h 0, last_of gid_of h 0, last_of gid_of h 0)) ->
  ids_due w groups_of L old new.
Proof.
  intros (GI & GS & GK & GN) UU GG. destruct ids_here as (U & G & gl & SL & SG).
  assert (PR : forall n f a, In (n, a) L -> In n (providers f) -> turned_on f h) by (intros n f a I J; apply (provides n f); [exists a; exact I|exact J]).
  split; [|split; [|split; [|split; [|split]]]].
  - intros a I. rewrite (one_user a I) in U. fold h in U. destruct (given uid_of (map fst h)) as [|n l2] eqn:EG; [inversion U|]. inversion U as [|x0 y0 l0 l1 (t & AT & A) U2 X0 Y0]; subst x0 y0 l0 l1 a; clear U.
    destruct l2; [|inversion U2]. exists t, n. split; [reflexivity|]. split; [exact A|].
    assert (Z : last_of uid_of h 0 = n) by (rewrite last_given, EG; reflexivity).
    intros NI. rewrite <- Z. apply UU; [apply (PR (short "u") _ (Some t) I); left; reflexivity|rewrite Z; exact NI].
  - intros a I. rewrite (one_group a I) in G. fold h in G. destruct (given gid_of (map fst h)) as [|n l2] eqn:EG; [inversion G|]. inversion G as [|x0 y0 l0 l1 (t & AT & A) G2 X0 Y0]; subst x0 y0 l0 l1 a; clear G.
    destruct l2; [|inversion G2]. exists t, n. split; [reflexivity|]. split; [exact A|].
    assert (Z : last_of gid_of h 0 = n) by (rewrite last_given, EG; reflexivity).
    intros NI. rewrite <- Z. apply GG; [apply (PR (short "g") _ (Some t) I); left; reflexivity|rewrite Z; exact NI].
  - intros [a I]. exists gl. split; [exact SL|]. apply filter_args in I. fold h in SG. rewrite GS.
    + rewrite last_given, SG. destruct gl; [inversion SL as [X|]; rewrite <- X in I; destruct I|reflexivity].
    + assert (NE : gl <> []) by (intros ->; inversion SL as [X|]; rewrite <- X in I; destruct I).
      assert (J : In gl (given suppl_of (map fst h))) by (rewrite SG; destruct gl; [destruct NE|left]; reflexivity).
      apply in_given in J. destruct J as (x & J & SX). destruct x; try discriminate SX. injection SX as ->.
      apply (on_asked F_set_suppl_gids (A_set_supplementary_gids gl)); [apply taken; [exact J|reflexivity]|left; reflexivity].
  - intros [a I]. destruct (GI (PR (short "G") F_inherit_suppl_gids a I (or_introl eq_refl))) as (u & m & LU & NW). rewrite last_given in LU.
    destruct (last_in (given user_of (map fst h)) (Null, 0)) as [X|X]; [rewrite X in LU; discriminate LU|]. rewrite LU in X.
    assert (Y : exists n b, In (n, b) L /\ exists cs, asks w n b cs /\ In (Own u, m) (given user_of cs)).
    { clear - X w L32 names E F SM FI. destruct parts as (each & fin & A1 & C & M). rewrite M in X. rewrite !given_app, (end_user _ _ _ C) in X. cbn [app] in X.
      assert (Z : In (Own u, m) (given user_of (concat each))) by (destruct (st_preload s); cbn in X; rewrite app_nil_r in X; exact X). clear - A1 Z.
      induction A1 as [|o cs L0 each0 K _ IH]; [destruct Z|]. cbn [concat] in Z. rewrite given_app in Z. apply in_app_or in Z. destruct Z as [Z|Z].
      - exists (fst o), (snd o). split; [left; destruct o; reflexivity|]. eauto.
      - destruct (IH Z) as (n & b & I & cs' & P). exists n, b. split; [right; exact I|]. eauto. }
    destruct Y as (n & b & J & cs & K & Z). destruct (users _ _ _ _ _ K Z) as (t & u' & g' & -> & -> & W & X'). injection X' as -> ->.
    exists t, u', g'. split; [exact J|]. split; [exact W|exact NW].
  - intros [a I]. apply GK. exact (PR (short "y") F_keep_suppl_gids a I (or_introl eq_refl)).
  - intros N1 N2 N3 UG ND.
    assert (S1 : ~ turned_on F_set_suppl_gids h) by (intros X; destruct (asked_source _ X) as [(n & a & I & S)|S]; [exact S|exact (N1 S)]).
    assert (S2 : ~ turned_on F_inherit_suppl_gids h) by (intros X; destruct (asked_source _ X) as [(n & a & I & S)|S]; [cbn in S; subst n; apply N2; exists a; exact I|exact S]).
    assert (S3 : ~ turned_on F_keep_suppl_gids h) by (intros X; destruct (asked_source _ X) as [(n & a & I & S)|S]; [cbn in S; subst n; apply N3; exists a; exact I|exact S]).
    assert (S4 : ~ turned_on F_disable_setgroups h) by (intros X; destruct (asked_source _ X) as [(n & a & I & S)|S]; [exact S|exact (ND S)]).
    apply (GN S2 S1 S3). split; [|exact S4]. destruct UG as [[a I]|[a I]]; [left; exact (PR _ F_uid a I (or_introl eq_refl))|right; exact (PR _ F_gid a I (or_introl eq_refl))].
Qed.
Lemma caps_are a : last_arg L (short "c") = Some (Some a) -> turned_on F_use_caps h /\ caps_arg w a (last_of caps_of h 0).
Proof.
  intros LA. split; [apply (provides (short "c")); [exact (some_has _ _ _ LA)|left; reflexivity]|].
  destruct parts as (each & fin & A1 & C & M). rewrite last_given, M, !given_app, (end_caps _ _ _ C). cbn [app].
  assert (Z : given caps_of (if st_preload s then [A_set_preload_path (match last_arg L OPT_PRELOAD_LIBRARY with Some (Some p) => p | _ => pre end)] else []) = []) by (destruct (st_preload s); reflexivity).
  rewrite Z, app_nil_r. exact (caps_last w L each a A1 LA).
Qed.
Lemma mount_calls : mounts_due w L (accepted mount_added h).
Proof.
  assert (X : accepted mount_added h = given mount_of (map fst h)).
  { rewrite given_mounts. assert (K : forall a rc, In (a, rc) h -> mount_added a rc = mount_added a 0).
    { intros a rc I. destruct (may_fail a) eqn:M; [destruct a; try discriminate M; unfold mount_added; destruct (negb (rc =? 0)%Z); reflexivity|]. rewrite (taken_all _ _ I M). reflexivity. }
    clearbody h. clear - K. unfold accepted. induction h as [|[a rc] t IH]; [reflexivity|]. cbn [flat_map map fst snd]. rewrite (K a rc (or_introl eq_refl)), IH; [reflexivity|].
    intros b r I. apply K. right. exact I. }
  rewrite X. destruct parts as (each & fin & A1 & C & ->). rewrite !given_app, (end_mount _ _ _ C). cbn [app].
  replace (given mount_of (if st_preload s then _ else _)) with (@nil mountpoint) by (destruct (st_preload s); reflexivity). rewrite app_nil_r. exact (due_mounts _ _ _ A1).
Qed.
Lemma root_here d : root_dir w L d -> new_root h = d.
Proof.
  unfold new_root. intros [d0 I|d0 I|[a I]|NR].
  - rewrite (root_is _ _ _ I (or_introl eq_refl) eq_refl). reflexivity.
  - rewrite (root_is _ _ d0 I); [reflexivity|right; left; reflexivity|reflexivity].
  - rewrite (root_is _ _ (w_pivot_dir w) I); [reflexivity|right; right; reflexivity|reflexivity].
  - rewrite first_given, (set_by root_of (root_by w) (roots w) end_root) by reflexivity.
    assert (Z : flat_map (fun o => root_by w (fst o) (snd o)) L = []); [|rewrite Z; reflexivity].
    clear - NR. clearbody L. induction L as [|[m b] l IH]; [reflexivity|]. cbn [flat_map fst snd]. rewrite IH; [|intros n R [x H]; apply (NR n R); exists x; right; exact H]. rewrite app_nil_r.
    assert (NM : ~ root_option m) by (intros R; apply (NR m R); exists b; left; reflexivity). unfold root_by, root_option in *.
    destruct (N.eqb_spec m (short "C")); [destruct NM; auto|]. destruct (N.eqb_spec m (short "P")); [destruct NM; auto|].
    destruct (N.eqb_spec m OPT_PROFILE); [destruct NM; auto|]. reflexivity.
Qed.
Lemma dev_here : turned_on F_mount_dev h <-> own_dev L.
Proof.
  split.
  - intros (x & rc & I & O). assert (X : x = A_mount_dev).
    { unfold on_by in O. destruct (negb _); [destruct O|]. destruct x; cbn in O; try (repeat (destruct O as [O|O]; [discriminate O|]); destruct O); try (destruct r; cbn in O; repeat (destruct O as [O|O]; [discriminate O|]); destruct O); try reflexivity. }
    subst x. apply (in_map fst) in I. cbn [fst] in I. destruct parts as (each & fin & A1 & C & M). rewrite M in I.
    apply in_app_or in I. destruct I as [I|I]; [|apply in_app_or in I; destruct I as [I|I]; [destruct (end_devs _ _ _ C I)|destruct (st_preload s); [destruct I as [I|[]]; discriminate I|destruct I]]].
    apply in_concat in I. destruct I as (cs & J & I). clear - A1 I J. induction A1 as [|[n a] cs0 L0 each0 X _ IH]; [destruct J|].
    destruct J as [->|J].
    + apply (devs _ _ _ _ X) in I. cbn [fst snd] in I. destruct I as [->|[-> ->]]; [left; exists a; left; reflexivity|right; left; reflexivity].
    + destruct (IH J) as [[b K]|K]; [left; exists b; right; exact K|right; right; exact K].
  - intros D. assert (X : exists n a, In (n, a) L /\ (n = short "d" \/ n = OPT_PROFILE /\ a = Some "minimalistic-mountns"%string)).
    { destruct D as [[b K]|K]; [exists (short "d"), b; auto|eexists _, _; split; [exact K|right; split; reflexivity]]. }
    destruct X as (n & a & I & X). destruct (option_calls _ _ I) as (cs & K & IC). apply (on_asked F_mount_dev A_mount_dev); [|left; reflexivity].
    apply taken; [apply IC; apply (devs _ _ _ _ K); exact X|reflexivity].
Qed.
Lemma no_skip : ~ has L (short "B") -> last_of skip_of h 0 = 0.
Proof.
  intros NB. rewrite last_given. destruct (last_in (given skip_of (map fst h)) 0) as [X|X]; [exact X|]. exfalso.
  apply in_given in X. destruct X as (x & I & SX). destruct x; try discriminate SX. clear SX.
  destruct parts as (each & fin & A1 & C & M). rewrite M in I. apply in_app_or in I. destruct I as [I|I]; [|apply in_app_or in I; destruct I as [I|I]].
  - clear - A1 I NB. apply in_concat in I. destruct I as (cs & J & I). induction A1 as [|o c0 L0 each0 K _ IH]; [destruct J|]. destruct J as [->|J].
    + apply NB. apply (skips _ _ _ _ _ K) in I. destruct o as [n a]. cbn in I. subst n. exists a. left. reflexivity.
    + apply IH; [|exact J]. intros [a H]. apply NB. exists a. right. exact H.
  - assert (Z : In mask (given skip_of fin)) by (unfold given; apply in_flat_map; eexists; split; [exact I|left; reflexivity]). rewrite (end_skip _ _ _ C) in Z. destruct Z.
  - destruct (st_preload s); [destruct I as [I|[]]; discriminate I|destruct I].
Qed.
End Run.

Section Claims.
Variables (w : world) (pre : string) (opts : list (N * option string)) (args : list string) (s : start) (g : cfg).
Let L := all_options w opts.
Let h := c_calls (st_cli s).
Let j := c_jail (st_cli s).
Hypothesis E : minijail0 w pre opts args = Go s.
Hypothesis W : well_formed w L.
Hypothesis GE : g_env g = w_env w.
Section Preload.
Variables (ec ep : kenv) (t1 t2 : list event) (envp envp' : env).
Hypothesis LN : launched g ec ep h j t1 t2 envp envp'.
Lemma cli_applied c : insists w g L c -> worked c (t1 ++ t2).
Proof.
  destruct W as (W1 & W2 & W3 & W4 & W5). intros I. destruct (insists_wants w W1 W2 pre opts args s E W3 W4 W5 g GE c I) as [A B].
  exact (applied g ec ep h j t1 t2 envp envp' LN c A B).
Qed.
Lemma cli_identity groups_of s0 s2 : let after := after groups_of (fun _ c => c) in
  same_ids (after s0 t1) s2 -> ids_due w groups_of L s0 (after s2 t2).
Proof.
  destruct W as (W1 & W2 & W3 & W4 & W5). intros after SI. destruct (P_RunClaims.identity_run g ec ep h j t1 t2 envp envp' LN groups_of s0 s2 SI) as (_ & GD & U & _ & G & _).
  exact (ids_are w W1 W2 pre opts args s E W3 W4 W5 groups_of s0 (after s2 t2) GD U G).
Qed.
Lemma cli_caps groups_of s0 a : last_arg L (short "c") = Some (Some a) ->
  let s' := after groups_of (fun _ c => c) s0 t2 in exists last x m, In (C_last_cap, Yes last x) t2 /\ caps_arg w a m /\
  (forall i, N.testbit (effective s') i = supported last i && N.testbit m i) /\
  permitted s' = effective s' /\ inheritable s' = effective s' /\ (has L OPT_AMBIENT -> ambient s' = effective s') /\
  (forall i, N.testbit (ambient s') i = true -> supported last i && N.testbit m i = true) /\
  (~ has L (short "B") -> forall i, N.testbit (bounding s') i = N.testbit (bounding s0) i && (N.testbit m i || negb (supported last i))).
Proof.
  destruct W as (W1 & W2 & W3 & W4 & W5). intros LA. destruct (caps_are w W1 W2 pre opts args s E W3 W4 W5 a LA) as [A CA].
  destruct (P_RunClaims.caps_run g ec ep h j t1 t2 envp envp' LN groups_of s0 A) as (last & x & I & _ & C1 & C2 & C3 & C4 & C5 & C6).
  intros s'. exists last, x, (last_of caps_of h 0). split; [exact I|]. split; [exact CA|]. split; [exact C1|]. split; [exact C2|]. split; [exact C3|].
  split; [intros HA; apply C4, (provides w W1 W2 pre opts args s E W3 W4 W5 OPT_AMBIENT); [exact HA|left; reflexivity]|]. split; [exact C5|].
  intros NB. pose proof (no_skip w W1 W2 pre opts args s E W3 W4 W5 NB) as Z. fold h in Z. rewrite Z in C6. exact (C6 eq_refl).
Qed.
Lemma cli_mounts d : root_dir w L d -> exists ms dev done rest, mounts_due w L ms /\ ms = (done ++ rest)%list /\ dev_due L t2 dev /\
  mounted d dev done t2 /\ (rest = [] \/ exists m tl, rest = m :: tl /\ unchecked (w_env w) m t2).
Proof.
  destruct W as (W1 & W2 & W3 & W4 & W5). intros RD. destruct (P_RunClaims.mounts_run g ec ep h j t1 t2 envp envp' LN) as (dev & done & rest & DV & AC & MT & UN).
  rewrite GE in UN. pose proof (root_here w W1 W2 pre opts args s E W3 W4 W5 d RD) as RH. fold h in RH. rewrite RH in MT.
  exists (accepted mount_added h), dev, done, rest. split; [exact (mount_calls w W1 W2 pre opts args s E W3 W4 W5)|]. split; [exact AC|]. split; [|split; [exact MT|exact UN]].
  pose proof (dev_here w W1 W2 pre opts args s E W3 W4 W5) as [D1 D2]. destruct DV as [[A B]|[A B]]; [left; split; [exact (D1 A)|exact B]|right; split; [intros O; exact (A (D2 O))|exact B]].
Qed.
End Preload.
Section Static.
Variables (ec : kenv) (exec : bool) (t : list event).
Hypothesis LN : launched_plain g ec exec h j t.
Lemma plain_cli_applied c : insists w g L c -> worked c t.
Proof.
  destruct W as (W1 & W2 & W3 & W4 & W5). intros I. destruct (insists_wants w W1 W2 pre opts args s E W3 W4 W5 g GE c I) as [A B].
  exact (plain_applied g ec exec h j t LN c A B).
Qed.
Lemma plain_cli_identity groups_of s0 : ids_due w groups_of L s0 (after groups_of (fun _ c => c) s0 t).
Proof.
  destruct W as (W1 & W2 & W3 & W4 & W5). destruct (P_RunClaims.plain_identity g ec exec h j t LN groups_of s0) as (_ & GD & U & _ & G & _).
  exact (ids_are w W1 W2 pre opts args s E W3 W4 W5 groups_of s0 _ GD U G).
Qed.
Lemma plain_cli_caps groups_of s0 a : last_arg L (short "c") = Some (Some a) ->
  let s' := after groups_of (fun _ c => c) s0 t in exists last x m, In (C_last_cap, Yes last x) t /\ caps_arg w a m /\
  (forall i, N.testbit (effective s') i = supported last i && N.testbit m i) /\
  permitted s' = effective s' /\ inheritable s' = effective s' /\ (has L OPT_AMBIENT -> ambient s' = effective s') /\
  (forall i, N.testbit (ambient s') i = true -> supported last i && N.testbit m i = true) /\
  (~ has L (short "B") -> forall i, N.testbit (bounding s') i = N.testbit (bounding s0) i && (N.testbit m i || negb (supported last i))).
Proof.
  destruct W as (W1 & W2 & W3 & W4 & W5). intros LA. destruct (caps_are w W1 W2 pre opts args s E W3 W4 W5 a LA) as [A CA].
  destruct (P_RunClaims.plain_caps g ec exec h j t LN groups_of s0 A) as (last & x & I & _ & C1 & C2 & C3 & C4 & C5 & C6).
  intros s'. exists last, x, (last_of caps_of h 0). split; [exact I|]. split; [exact CA|]. split; [exact C1|]. split; [exact C2|]. split; [exact C3|].
  split; [intros HA; apply C4, (provides w W1 W2 pre opts args s E W3 W4 W5 OPT_AMBIENT); [exact HA|left; reflexivity]|]. split; [exact C5|].
  intros NB. pose proof (no_skip w W1 W2 pre opts args s E W3 W4 W5 NB) as Z. fold h in Z. rewrite Z in C6. exact (C6 eq_refl).
Qed.
Lemma plain_cli_mounts d : root_dir w L d -> exists ms dev done rest, mounts_due w L ms /\ ms = (done ++ rest)%list /\ dev_due L t dev /\
  mounted d dev done t /\ (rest = [] \/ exists m tl, rest = m :: tl /\ unchecked (w_env w) m t).
Proof.
  destruct W as (W1 & W2 & W3 & W4 & W5). intros RD. destruct (P_RunClaims.plain_mounts g ec exec h j t LN) as (dev & done & rest & DV & AC & MT & UN).
  rewrite GE in UN. pose proof (root_here w W1 W2 pre opts args s E W3 W4 W5 d RD) as RH. fold h in RH. rewrite RH in MT.
  exists (accepted mount_added h), dev, done, rest. split; [exact (mount_calls w W1 W2 pre opts args s E W3 W4 W5)|]. split; [exact AC|]. split; [|split; [exact MT|exact UN]].
  pose proof (dev_here w W1 W2 pre opts args s E W3 W4 W5) as [D1 D2]. destruct DV as [[A B]|[A B]]; [left; split; [exact (D1 A)|exact B]|right; split; [intros O; exact (A (D2 O))|exact B]].
Qed.
End Static.
End Claims.
