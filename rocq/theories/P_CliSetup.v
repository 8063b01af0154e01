(* From minijail0's options to what it sets up for the program. *)
From Verif Require M_Sync S_Sync P_Sync.
From Verif Require Export S_CliSetup P_CliRun.
From Coq Require Import Lia.
Local Open Scope N_scope.

Definition limit_of (a : api) : option rlimit := match a with A_rlimit t c m => Some (Rlimit t c m) | _ => None end.
Definition cgroup_of (a : api) : option (cell string) := match a with A_add_to_cgroup p => Some (Own p) | _ => None end.
Lemma end_limit : none_at_end limit_of. Proof. none_tac. Qed.
Lemma end_cgroup : none_at_end cgroup_of. Proof. none_tac. Qed.
Lemma end_pidfile : none_at_end S_Sync.pid_file_of. Proof. none_tac. Qed.
Definition pidfile_by (n : N) (a : option string) : list (cell string) := if n =? short "f" then match a with Some t => [Own t] | None => [] end else [].
Lemma pidfiles w n a cs : asks w n a cs -> given S_Sync.pid_file_of cs = pidfile_by n a. Proof. given_tac. Qed.
Lemma pidfile_arg w n a cs : asks w n a cs -> n = short "f" -> exists p, a = Some p.
Proof. intros H E. each_ask H; try discriminate E; eauto. Qed.
Lemma no_cgroup w n a cs : asks w n a cs -> given cgroup_of cs = []. Proof. given_tac. Qed.
Lemma no_uid_map w n a cs : asks w n a cs -> given S_Sync.uid_map_of cs = []. Proof. given_tac. Qed.
Lemma no_gid_map w n a cs : asks w n a cs -> given S_Sync.gid_map_of cs = []. Proof. given_tac. Qed.
Lemma limits_by w n a cs : asks w n a cs -> n <> short "R" /\ given limit_of cs = [] \/ n = short "R" /\ exists l, given limit_of cs = [l] /\ limit_arg w a l.
Proof.
  intros H. each_ask H; try (left; split; [discriminate|reflexivity]).
  right. split; [reflexivity|]. eexists. split; [reflexivity|]. do 7 eexists. repeat (split; [first [reflexivity|eassumption]|]). reflexivity.
Qed.
Lemma end_maps w L fin : closes w L fin -> exists um gm, uid_map w L um /\ gid_map w L gm /\
  given S_Sync.uid_map_of fin = given S_Sync.uid_map_of um /\ given S_Sync.gid_map_of fin = given S_Sync.gid_map_of gm /\ incl gm fin.
Proof.
  intros [um gm rm gr fl n U G R GR FL T]. exists um, gm. split; [exact U|]. split; [exact G|].
  rewrite !given_app.
  Ltac nil_map := match goal with
    | |- given _ (if to_stderr ?w ?L then _ else _) = [] => destruct (to_stderr w L); reflexivity
    | U : uid_map _ _ ?u |- given _ ?u = [] => destruct U; reflexivity
    | G : gid_map ?w _ ?u |- given _ ?u = [] => destruct G; [reflexivity|unfold gid_map_calls; destruct (w_cap_setgid w); reflexivity..]
    | |- given _ (match ?x with None => _ | Some _ => _ end) = [] => destruct x; reflexivity
    | R : remounts _ ?u |- given _ ?u = [] => destruct R; reflexivity
    | R : groups _ _ ?u |- given _ ?u = [] => destruct R; reflexivity
    | R : filters _ _ ?u |- given _ ?u = [] => destruct R; reflexivity
    | |- given _ (if ?n =? 0 then _ else _) = [] => destruct (n =? 0); reflexivity
    end.
  assert (K : forall A (f : api -> option A), f A_add_minimalistic_mountns_fs_rules = None -> given f [A_add_minimalistic_mountns_fs_rules] = []) by (intros A f E; unfold given; cbn [flat_map]; rewrite E; reflexivity).
  split; [|split].
  - repeat match goal with |- context [given S_Sync.uid_map_of ?x] => lazymatch x with um => fail | _ => let X := fresh in assert (X : given S_Sync.uid_map_of x = []) by nil_map; rewrite X; clear X end end.
    rewrite (K _ S_Sync.uid_map_of eq_refl). cbn [app]. rewrite ?app_nil_r. reflexivity.
  - repeat match goal with |- context [given S_Sync.gid_map_of ?x] => lazymatch x with gm => fail | _ => let X := fresh in assert (X : given S_Sync.gid_map_of x = []) by nil_map; rewrite X; clear X end end.
    rewrite (K _ S_Sync.gid_map_of eq_refl). cbn [app]. rewrite ?app_nil_r. reflexivity.
  - intros x I. do 2 (apply in_or_app; right). apply in_or_app. left. exact I.
Qed.
Lemma last_args L n : last_arg L n = hd_error (rev (args_of L n)). Proof. reflexivity. Qed.

Section Setup.
Variables (w : world) (pre : string) (opts : list (N * option string)) (args : list string) (s : start).
Let L := all_options w opts.
Let h := c_calls (st_cli s).
Let j := c_jail (st_cli s).
Hypothesis E : minijail0 w pre opts args = Go s.
Hypothesis W : well_formed w L.
Let L32 := proj1 W.
Let names := proj1 (proj2 W).
Let F := proj1 (proj2 (proj2 W)).
Let SM := proj1 (proj2 (proj2 (proj2 W))).
Let FI := proj2 (proj2 (proj2 (proj2 W))).

Lemma here_parts : exists each fin, Forall2 (fun o cs => asks w (fst o) (snd o) cs) L each /\ closes w L fin /\
  map fst h = (concat each ++ fin ++ (if st_preload s then [A_set_preload_path (match last_arg L OPT_PRELOAD_LIBRARY with Some (Some p) => p | _ => pre end)] else []))%list.
Proof. exact (parts w L32 names pre opts args s E F SM FI). Qed.
Lemma one_call {A} (f : api -> option A) p : given f [A_set_preload_path p] = match f (A_set_preload_path p) with Some x => [x] | None => [] end.
Proof. unfold given. cbn [flat_map]. apply app_nil_r. Qed.
Lemma set_here {A} (f : api -> option A) G : (forall n a cs, asks w n a cs -> given f cs = G n a) -> none_at_end f -> (forall p, f (A_set_preload_path p) = None) ->
  given f (map fst h) = flat_map (fun o => G (fst o) (snd o)) L.
Proof. exact (set_by w L32 names pre opts args s E F SM FI f G). Qed.
Lemma limits_here : Forall2 (limit_arg w) (args_of L (short "R")) (accepted rlimit_added h).
Proof.
  assert (X : accepted rlimit_added h = given limit_of (map fst h)).
  { assert (K : forall a rc, In (a, rc) h -> rlimit_added a rc = match limit_of a with Some x => [x] | None => [] end).
    { intros a rc I. destruct a; try reflexivity. rewrite (taken_all w L32 pre opts args s E _ _ I eq_refl). reflexivity. }
    clearbody h. clear - K. unfold accepted, given. induction h as [|[a rc] t IH]; [reflexivity|]. cbn [flat_map map fst snd]. rewrite (K a rc (or_introl eq_refl)), IH; [reflexivity|].
    intros b r I. apply K. right. exact I. }
  rewrite X. destruct here_parts as (each & fin & A1 & C & ->). rewrite !given_app, (end_limit _ _ _ C). cbn [app].
  replace (given limit_of (if st_preload s then _ else _)) with (@nil rlimit) by (destruct (st_preload s); reflexivity). rewrite app_nil_r.
  clearbody L. clear - A1. induction A1 as [|[n a] cs l each K _ IH]; [constructor|]. cbn [concat fst snd] in *. rewrite given_app. unfold args_of. cbn [filter fst].
  destruct (limits_by _ _ _ _ K) as [[N1 ->]|[-> (r & -> & LA)]].
  - apply N.eqb_neq in N1. rewrite N1. exact IH.
  - rewrite N.eqb_refl. cbn [map snd app]. constructor; [exact LA|exact IH].
Qed.
Lemma no_cgroups_here : accepted cgroup_added h = [].
Proof.
  assert (Z : given cgroup_of (map fst h) = []).
  { rewrite (set_here cgroup_of (fun _ _ => []) (no_cgroup w) end_cgroup) by reflexivity. clear. induction L as [|o l IH]; [reflexivity|exact IH]. }
  clearbody h. clear - Z. unfold accepted. induction h as [|[a rc] t IH]; [reflexivity|]. cbn [flat_map map fst snd]. unfold given in Z. cbn [map flat_map fst] in Z. apply app_eq_nil in Z. destruct Z as [Z1 Z2].
  rewrite (IH Z2), app_nil_r. destruct a; try reflexivity. discriminate Z1.
Qed.
Lemma pidfile_asked : turned_on F_pid_file h <-> has L (short "f").
Proof.
  split.
  - intros (x & rc & I & O). assert (X : exists p, x = A_write_pid_file p).
    { unfold on_by in O. destruct (negb _); [destruct O|]. destruct x; cbn in O; try (repeat (destruct O as [O|O]; [discriminate O|]); destruct O); try (destruct r; cbn in O; repeat (destruct O as [O|O]; [discriminate O|]); destruct O); eauto. }
    destruct X as (p & ->). apply (in_map fst) in I. cbn [fst] in I.
    assert (J : In (Own p) (given S_Sync.pid_file_of (map fst h))) by (unfold given; apply in_flat_map; eexists; split; [exact I|left; reflexivity]).
    rewrite (set_here S_Sync.pid_file_of pidfile_by (pidfiles w) end_pidfile) in J by reflexivity.
    apply in_flat_map in J. destruct J as ([n a] & J & K). unfold pidfile_by in K. cbn [fst snd] in K. destruct (N.eqb_spec n (short "f")) as [->|]; [|destruct K]. exists a. exact J.
  - intros [a I]. destruct (option_calls w L32 names pre opts args s E F SM FI _ _ I) as (cs & K & IC). destruct (pidfile_arg _ _ _ _ K eq_refl) as (p & ->).
    assert (J : In (Own p) (given S_Sync.pid_file_of cs)) by (rewrite (pidfiles _ _ _ _ K); left; reflexivity).
    apply in_given in J. destruct J as (x & J & V). destruct x; try discriminate V.
    apply (on_asked s F_pid_file (A_write_pid_file path)); [|left; reflexivity]. apply (taken w L32 pre opts args s E); [exact (IC _ J)|reflexivity].
Qed.
Lemma pidfile_value a : last_arg L (short "f") = Some a -> exists p, a = Some p /\ last_of S_Sync.pid_file_of h Null = Own p.
Proof.
  intros LA. assert (I : In (short "f", a) L).
  { apply filter_args. rewrite last_args in LA. apply in_rev. destruct (rev (args_of L (short "f"))); [discriminate LA|]. injection LA as ->. left. reflexivity. }
  destruct (option_calls w L32 names pre opts args s E F SM FI _ _ I) as (cs & K & _). destruct (pidfile_arg _ _ _ _ K eq_refl) as (p & ->).
  exists p. split; [reflexivity|].
  rewrite last_given. rewrite (set_here S_Sync.pid_file_of pidfile_by (pidfiles w) end_pidfile) by reflexivity. fold L.
  clearbody L. clear - LA. revert LA. induction L as [|[m b] l IH] using rev_ind; [discriminate|]. rewrite last_args. unfold args_of. rewrite filter_app, map_app, rev_app_distr, flat_map_app. cbn [filter fst].
  cbn [flat_map fst snd]. rewrite app_nil_r. unfold pidfile_by at 2. destruct (m =? short "f") eqn:Em.
  - cbn [map rev app snd hd_error]. intros [= ->]. rewrite last_last. reflexivity.
  - cbn [map rev app]. rewrite app_nil_r. exact IH.
Qed.
Lemma maps_here : exists um gm, map_due L (short "m") (last_uid w L) (w_getuid w) um /\ map_due L (short "M") (last_gid w L) (w_getgid w) gm /\
  last_of S_Sync.uid_map_of h None = um /\ last_of S_Sync.gid_map_of h None = gm.
Proof.
  destruct here_parts as (each & fin & A1 & C & MP). destruct (end_maps _ _ _ C) as (um & gm & U & G & UE & GE & _).
  assert (NU : given S_Sync.uid_map_of (concat each) = []) by (rewrite (given_each w S_Sync.uid_map_of (fun _ _ => []) L each (no_uid_map w) A1); clear; induction L as [|o l IH]; [reflexivity|exact IH]).
  assert (NG : given S_Sync.gid_map_of (concat each) = []) by (rewrite (given_each w S_Sync.gid_map_of (fun _ _ => []) L each (no_gid_map w) A1); clear; induction L as [|o l IH]; [reflexivity|exact IH]).
  exists (last_of S_Sync.uid_map_of h None), (last_of S_Sync.gid_map_of h None). rewrite !last_given, MP, !given_app, NU, NG, UE, GE. cbn [app].
  replace (given S_Sync.uid_map_of (if st_preload s then _ else _)) with (@nil (option string)) by (destruct (st_preload s); reflexivity).
  replace (given S_Sync.gid_map_of (if st_preload s then _ else _)) with (@nil (option string)) by (destruct (st_preload s); reflexivity). rewrite !app_nil_r.
  split; [|split; [|split; reflexivity]]; unfold map_due.
  - destruct U as [H|t H|n t H LU T]; rewrite H; [reflexivity|reflexivity|]. exists n, t. split; [exact LU|]. split; [exact T|reflexivity].
  - assert (Z : forall t, last (given S_Sync.gid_map_of (gid_map_calls w t)) None = Some t) by (intros t; unfold gid_map_calls; destruct (w_cap_setgid w); reflexivity).
    destruct G as [H|t H|n t H LU T]; rewrite H; [reflexivity|apply Z|]. exists n, t. split; [exact LU|]. split; [exact T|apply Z].
Qed.
Lemma map_none n (P : N -> Prop) k m : map_due L n P k m -> m <> None -> has L n.
Proof. unfold map_due. intros D N1. apply last_has. destruct (last_arg L n) as [a|]; [eauto|destruct (N1 D)]. Qed.
Lemma map_some n (P : N -> Prop) k m : map_due L n P k m -> has L n -> m <> None.
Proof. unfold map_due. intros D N1. apply last_has in N1. destruct N1 as [a N1]. rewrite N1 in D. destruct a as [t|]; [rewrite D; discriminate|]. destruct D as (i & t & _ & _ & ->). discriminate. Qed.
Lemma deny_here : w_cap_setgid w = false -> has L (short "M") -> turned_on F_disable_setgroups h.
Proof.
  intros C H. apply (end_on w L32 names pre opts args s E F SM FI (short "M") A_namespace_user_disable_setgroups); [|reflexivity|left; reflexivity|exact H].
  intros fin CL H2. destruct (end_maps _ _ _ CL) as (um & gm & U & G & _ & _ & IC). apply IC. apply last_has in H2. destruct H2 as [b H2].
  assert (X : exists t, gm = gid_map_calls w t) by (destruct G as [Q|t Q|n t Q ? ?]; [rewrite Q in H2; discriminate H2|eauto|eauto]).
  destruct X as [t ->]. unfold gid_map_calls. rewrite C. right. right. left. reflexivity.
Qed.
Definition forward_of (a : api) : option unit := match a with A_forward_signals => Some tt | _ => None end.
Lemma no_forward n a cs : asks w n a cs -> given forward_of cs = []. Proof. given_tac. Qed.
Lemma end_forward fin : closes w L fin -> (In A_forward_signals fin <-> last_arg L (short "z") = None).
Proof.
  intros [um gm rm gr fl n U G R GR FL T].
  assert (K : forall x, given forward_of x = [] -> ~ In A_forward_signals x).
  { intros x X I. assert (Y : In tt (given forward_of x)) by (unfold given; apply in_flat_map; exists A_forward_signals; split; [exact I|left; reflexivity]). rewrite X in Y. destruct Y. }
  assert (A1 : ~ In A_forward_signals (if to_stderr w L then [A_preserve_fd 2 2] else [])) by (apply K; destruct (to_stderr w L); reflexivity).
  assert (A2 : ~ In A_forward_signals um) by (apply K; destruct U; reflexivity).
  assert (A3 : ~ In A_forward_signals gm) by (apply K; destruct G; [reflexivity|unfold gid_map_calls; destruct (w_cap_setgid w); reflexivity..]).
  assert (A4 : ~ In A_forward_signals rm) by (apply K; destruct R; reflexivity).
  assert (A5 : ~ In A_forward_signals gr) by (apply K; destruct GR; reflexivity).
  assert (A6 : ~ In A_forward_signals fl) by (apply K; destruct FL; reflexivity).
  assert (A7 : ~ In A_forward_signals (if n =? 0 then [] else [A_mount_tmp_size n])) by (apply K; destruct (n =? 0); reflexivity).
  split.
  - intros I. repeat (apply in_app_or in I; destruct I as [I|I]); try contradiction; [destruct (last_arg L (short "z")); [destruct I|reflexivity]|destruct I as [I|[]]; discriminate I].
  - intros X. do 3 (apply in_or_app; right). apply in_or_app. left. rewrite X. left. reflexivity.
Qed.
Lemma forward_asked : turned_on F_forward_signals h <-> last_arg L (short "z") = None.
Proof.
  destruct here_parts as (each & fin & A1 & C & MP). rewrite <- (end_forward fin C). split.
  - intros (x & rc & I & O). assert (X : x = A_forward_signals).
    { unfold on_by in O. destruct (negb _); [destruct O|]. destruct x; cbn in O; try (repeat (destruct O as [O|O]; [discriminate O|]); destruct O); try (destruct r; cbn in O; repeat (destruct O as [O|O]; [discriminate O|]); destruct O); try reflexivity. }
    subst x. apply (in_map fst) in I. cbn [fst] in I. rewrite MP in I. apply in_app_or in I. destruct I as [I|I].
    + exfalso. assert (Y : In tt (given forward_of (concat each))) by (unfold given; apply in_flat_map; exists A_forward_signals; split; [exact I|left; reflexivity]).
      rewrite (given_each w forward_of (fun _ _ => []) L each no_forward A1) in Y. apply in_flat_map in Y. destruct Y as (? & _ & []).
    + apply in_app_or in I. destruct I as [I|I]; [exact I|]. exfalso. destruct (st_preload s); [destruct I as [I|[]]; discriminate I|destruct I].
  - intros I. apply (on_asked s F_forward_signals A_forward_signals); [|left; reflexivity]. apply (taken w L32 pre opts args s E); [|reflexivity].
    fold h. rewrite MP. apply in_or_app. right. apply in_or_app. left. exact I.
Qed.
Lemma set_up_here pid l : S_Sync.set_up h pid l -> set_up_due w L pid l.
Proof.
  intros (fwd & file & maps & deny & -> & [W1 W2] & [F1 F2] & [M1 M2] & [D1 D2]).
  destruct maps_here as (um & gm & U & G & EU & EG). rewrite EU, EG in *.
  rewrite no_cgroups_here. cbn [map app].
  assert (FW : fwd = match last_arg L (short "z") with None => [M_Sync.ForwardTo pid] | Some _ => [] end).
  { destruct (last_arg L (short "z")) eqn:LZ; [apply W2|apply W1]; rewrite forward_asked, LZ; [discriminate|reflexivity]. }
  rewrite FW. clear FW W1 W2.
  assert (DN : deny = (if negb (w_cap_setgid w) then match gm with Some _ => [M_Sync.WriteProc pid "setgroups" "deny"] | None => [] end else [])).
  { destruct (w_cap_setgid w) eqn:CS; cbn [negb].
    - apply D2. intros [X _]. destruct (asked_source w L32 names pre opts args s E F SM FI _ X) as [(n & a & I & S)|[_ S]]; [exact S|]. rewrite CS in S. discriminate S.
    - destruct gm as [m|]; [|apply D2; intros [_ X]; exact (X eq_refl)]. apply D1. split; [|discriminate]. apply deny_here; [exact CS|]. apply (map_none _ _ _ _ G). discriminate. }
  assert (MM : maps = (S_Sync.map_file pid "uid_map" um ++ deny ++ S_Sync.map_file pid "gid_map" gm)%list).
  { assert (Z : um <> None \/ gm <> None -> turned_on F_userns h).
    { intros [X|X]; [apply (map_none _ _ _ _ U) in X|apply (map_none _ _ _ _ G) in X];
        [apply (end_pids w L32 names pre opts args s E F SM FI (short "m"))|apply (end_pids w L32 names pre opts args s E F SM FI (short "M"))]; try exact X; [left; reflexivity|right; left; reflexivity]. }
    destruct um as [um|]; [apply M1, Z; left; discriminate|]. destruct gm as [gm|]; [apply M1, Z; right; discriminate|].
    assert (DE : deny = []) by (rewrite DN; destruct (w_cap_setgid w); reflexivity). rewrite DE in *. cbn [S_Sync.map_file app] in *.
    destruct (hasf F_userns j) eqn:HU.
    - apply M1. apply (P_Settings.flag_asked (w_env w) h j F_userns (jail_built _ _ _ _ _ E)); [reflexivity|exact HU].
    - apply M2. intros X. apply (P_Settings.flag_asked (w_env w) h j F_userns (jail_built _ _ _ _ _ E)) in X; [|reflexivity]. rewrite HU in X. discriminate X. }
  destruct (last_arg L (short "f")) as [a|] eqn:LF.
  - destruct (pidfile_value a LF) as (p & -> & V). exists [p], (accepted rlimit_added h), um, gm. rewrite LF. split; [exists p; split; reflexivity|]. split; [exact limits_here|]. split; [exact U|]. split; [exact G|].
    rewrite MM, DN, F1 by (apply pidfile_asked; apply last_has; eauto). rewrite V. reflexivity.
  - exists [], (accepted rlimit_added h), um, gm. rewrite LF. split; [reflexivity|]. split; [exact limits_here|]. split; [exact U|]. split; [exact G|].
    rewrite MM, DN, F2; [reflexivity|]. intros X. apply pidfile_asked in X. apply last_has in X. destruct X as [a X]. rewrite LF in X. discriminate X.
Qed.
Lemma cli_setup pid st : M_Sync.reaches (M_Sync.child_after j) (M_Sync.start pid j) st -> ~ In M_Sync.Parent_killed (M_Sync.s_trace st) ->
  forall t1 c err t2, M_Sync.s_trace st = (t1 ++ M_Sync.Child c err :: t2)%list ->
  set_up_due w L pid (map fst (S_Sync.by_parent t1)) /\ Forall S_Sync.fine (S_Sync.by_parent t1) /\ S_Sync.by_parent t2 = [].
Proof.
  intros R NK t1 c err t2 T. destruct (P_Sync.setup_first _ _ _ _ _ (jail_built _ _ _ _ _ E) R NK _ _ _ _ T) as (A & B & C).
  split; [exact (set_up_here _ _ A)|]. split; [exact B|exact C].
Qed.
Lemma no_option n l : ~ has l n -> args_of l n = [].
Proof. intros N1. destruct (args_of l n) as [|a t] eqn:X; [reflexivity|]. exfalso. apply N1. exists a. apply filter_args. rewrite X. left. reflexivity. Qed.
Lemma chosen_ids : chosen L (short "g") (gid_arg w) (last_of gid_of h 0) /\ chosen L (short "u") (uid_arg w) (last_of uid_of h 0).
Proof.
  destruct (ids_here w L32 pre opts args s E F) as (U & G & _). fold L in U, G. fold h in U, G. rewrite !last_given. unfold chosen. split.
  - destruct (args_of L (short "g")) as [|a t] eqn:X; [inversion G; left; split; reflexivity|].
    assert (I : In (short "g", a) L) by (apply filter_args; rewrite X; left; reflexivity).
    pose proof (one_group w pre opts args s E a I) as O. fold L in O. rewrite X in O. rewrite O in *. right. inversion G as [|x y l1 l2 (q & AQ & Q) G2 X1 X2]; subst. inversion G2; subst.
    exists q. split; [reflexivity|]. exact Q.
  - destruct (args_of L (short "u")) as [|a t] eqn:X; [inversion U; left; split; reflexivity|].
    assert (I : In (short "u", a) L) by (apply filter_args; rewrite X; left; reflexivity).
    pose proof (one_user w pre opts args s E a I) as O. fold L in O. rewrite X in O. rewrite O in *. right. inversion U as [|x y l1 l2 (q & AQ & Q) G2 X1 X2]; subst. inversion G2; subst.
    exists q. split; [reflexivity|]. exact Q.
Qed.
Lemma userns_maps n : In n [short "m"; short "M"] -> has L n -> turned_on F_userns h.
Proof. intros I H. apply (end_pids w L32 names pre opts args s E F SM FI n I H). Qed.
Lemma cli_ids pid st : M_Sync.reaches (M_Sync.child_after j) (M_Sync.start pid j) st -> In (M_Sync.Child M_Sync.Goes_on 0) (M_Sync.s_trace st) ->
  ids_taken w L (map fst (S_Sync.by_child (M_Sync.s_trace st))) /\ Forall (fun r => snd r = 0) (S_Sync.by_child (M_Sync.s_trace st)).
Proof.
  intros R G. destruct (P_Sync.child_goes_on _ _ _ _ _ (jail_built _ _ _ _ _ E) R G) as [(g & u & EL & [G1 G2] & [U1 U2]) B]. split; [|exact B].
  destruct maps_here as (um & gm & U & GM & EU & EG). fold h in G1, G2, U1, U2. rewrite EU in U1, U2. rewrite EG in G1, G2. destruct chosen_ids as [CG CU].
  exists g, u, (last_of gid_of h 0), (last_of uid_of h 0). split; [exact EL|]. split; [exact CG|]. split; [exact CU|]. split; split; intros X.
  - apply G1. split; [apply (userns_maps (short "M")); [right; left; reflexivity|exact X]|exact (map_some _ _ _ _ GM X)].
  - apply G2. intros [_ Y]. apply X. exact (map_none _ _ _ _ GM Y).
  - apply U1. split; [apply (userns_maps (short "m")); [left; reflexivity|exact X]|exact (map_some _ _ _ _ U X)].
  - apply U2. intros [_ Y]. apply X. exact (map_none _ _ _ _ U Y).
Qed.
End Setup.
