(* Sessions of minijail0's programs, and concrete cases. *)
From Verif Require Export P_Session P_FdsEx P_CliSetup P_CliRunEx.
Local Open Scope N_scope.

Lemma end_sessions : none_at_end sessions_of. Proof. none_tac. Qed.
Definition sessions_by (n : N) (a : option string) : list bool := if n =? OPT_NO_NEW_SESSIONS then [false] else [].
Lemma sessions_opt w n a cs : asks w n a cs -> given sessions_of cs = sessions_by n a. Proof. given_tac. Qed.
Lemma flat_map_nil_all {A B} (f : A -> list B) l : (forall x, In x l -> f x = []) -> flat_map f l = [].
Proof. induction l as [|a l IH]; intros Z; [reflexivity|]. cbn [flat_map]. rewrite (Z a (or_introl eq_refl)), IH; [reflexivity|]. intros x I. apply Z. right. exact I. Qed.
Lemma last_false l : l <> [] -> (forall b, In b l -> b = false) -> last l true = false.
Proof.
  induction l as [|b l IH]; intros NE A; [destruct NE; reflexivity|]. destruct l as [|c l]; [exact (A b (or_introl eq_refl))|].
  change (last (c :: l) true = false). apply IH; [discriminate|]. intros x I. apply A. right. exact I.
Qed.
Section Cli.
Variables (w : world) (pre : string) (opts : list (N * option string)) (args : list string) (s : start).
Let L := all_options w opts.
Let h := c_calls (st_cli s).
Let j := c_jail (st_cli s).
Hypothesis E : minijail0 w pre opts args = Go s.
Hypothesis W : well_formed w L.
Lemma cli_sessions : (has L OPT_NO_NEW_SESSIONS -> new_sessions h = false) /\ (~ has L OPT_NO_NEW_SESSIONS -> new_sessions h = true).
Proof.
  assert (G : given sessions_of (map fst h) = flat_map (fun o => sessions_by (fst o) (snd o)) L) by exact (set_here w pre opts args s E W sessions_of sessions_by (sessions_opt w) end_sessions (fun _ => eq_refl)).
  unfold new_sessions. rewrite last_given, G. split.
  - intros [a I]. apply last_false.
    + intros Z. assert (X : In false (flat_map (fun o => sessions_by (fst o) (snd o)) L)).
      { apply in_flat_map. exists (OPT_NO_NEW_SESSIONS, a). split; [exact I|left; reflexivity]. }
      rewrite Z in X. destruct X.
    + intros b B. apply in_flat_map in B. destruct B as ([n x] & _ & B). unfold sessions_by in B. cbn [fst] in B.
      destruct (n =? OPT_NO_NEW_SESSIONS); [destruct B as [<-|[]]; reflexivity|destruct B].
  - intros NH. assert (Z : flat_map (fun o => sessions_by (fst o) (snd o)) L = []).
    { apply flat_map_nil_all. intros [n x] I. unfold sessions_by. cbn [fst]. destruct (n =? OPT_NO_NEW_SESSIONS) eqn:EN; [|reflexivity].
      destruct NH. apply N.eqb_eq in EN. subst n. exists x. exact I. }
    rewrite Z. reflexivity.
Qed.
Lemma pids_on n : In n (map short ["p"; "I"; "U"; "m"; "M"]%char) -> has L n -> turned_on F_pids h.
Proof.
  pose proof (proj1 W) as L32. pose proof (proj1 (proj2 W)) as names. pose proof (proj1 (proj2 (proj2 W))) as F.
  pose proof (proj1 (proj2 (proj2 (proj2 W)))) as SM. pose proof (proj2 (proj2 (proj2 (proj2 W)))) as FI.
  intros I H. assert (J : In n (map short ["p"; "I"; "U"]%char) \/ In n [short "m"; short "M"]) by (cbn [map In] in *; tauto). destruct J as [J|J].
  - apply (provides w L32 names pre opts args s E F SM FI n F_pids H). exact J.
  - apply (end_on w L32 names pre opts args s E F SM FI n A_namespace_pids F_pids); [|reflexivity|vm_compute; tauto|exact H].
    clear - J. intros fin [um gm rm gr fl k U G R GR FL T] HN. apply last_has in HN. destruct HN as [b HN].
    destruct J as [<-|[<-|[]]].
    + apply in_or_app; right; apply in_or_app; left; destruct U; [congruence|..]; cbn; tauto.
    + do 2 (apply in_or_app; right); apply in_or_app; left; destruct G; [congruence|..]; cbn; tauto.
Qed.
Lemma cli_session st u tty_of controls allowed s0 s1 : new_session tty_of controls allowed j u s0 = Some s1 ->
  (~ has L OPT_NO_NEW_SESSIONS -> on_terminal tty_of (at_start st u) ->
   own_session s1 = true /\ forall x, terminal s0 = Some x -> controls x = true -> terminal s1 <> Some x) /\
  (has L OPT_NO_NEW_SESSIONS -> s1 = s0 /\ forall n, In n (map short ["p"; "I"; "U"; "m"; "M"]%char) -> ~ has L n).
Proof.
  intros R. pose proof (jail_built _ _ _ _ _ E) as B. destruct cli_sessions as [C1 C2]. split.
  - intros N1 T. destruct (session_apart tty_of controls allowed _ _ _ B st u s0 s1 R (C2 N1) (or_intror T)) as (A1 & _ & A2). split; [exact A1|exact A2].
  - intros N1. split; [exact (session_kept tty_of controls allowed _ _ _ B u s0 s1 R (or_introl (C1 N1)))|].
    pose proof (session_pids tty_of controls allowed _ _ _ B u s0 s1 R (C1 N1)) as NP.
    intros n I H. apply NP. exact (pids_on n I H).
Qed.
End Cli.

(* A launcher whose terminal is 7, on a terminal, and with files for its
   standard streams. *)
Definition at_tty : list (Z * (N * bool)) := [(0, (10%N, false)); (1, (11%N, false)); (2, (10%N, false))]%Z.
Definition at_files : list (Z * (N * bool)) := [(0, (12%N, false)); (1, (11%N, false)); (2, (13%N, false))]%Z.
Definition ex_tty (f : N) : option N := if f =? 10 then Some 7 else None.
Definition ex_controls (x : N) : bool := x =? 7.
Definition no_pipes : run_state := RunState (-1, -1)%Z (-1, -1)%Z (-1, -1)%Z (-1, -1)%Z (-1, -1)%Z.
Definition plain_table (l : list (Z * (N * bool))) : run_state * table :=
  match open_pipes 1024 false false false false false 100 (table_of l) with Some r => r | None => (no_pipes, table_of l) end.
Definition plain_child (l : list (Z * (N * bool))) : run_state * table :=
  match child_setup 1024 false [] (-1) false (fst (plain_table l)) (snd (plain_table l)) with Some (st, _, t) => (st, t) | None => (no_pipes, table_of l) end.
Lemma plain_started l : startedb 1024 false false false false false 100 [] (-1) l = true ->
  started 1024 false false false false false 100 [] (-1) (table_of l) (fst (plain_table l)) (snd (plain_table l)).
Proof. intros B. apply startedb_ok in B. destruct B as (st & t & S & O). unfold plain_table. rewrite O. exact S. Qed.
Lemma plain_set_up l : match child_setup 1024 false [] (-1) false (fst (plain_table l)) (snd (plain_table l)) with Some (_, e, _) => (e =? -1)%Z | None => false end = true ->
  child_setup 1024 false [] (-1) false (fst (plain_table l)) (snd (plain_table l)) = Some (fst (plain_child l), (-1)%Z, snd (plain_child l)).
Proof. unfold plain_child. destruct (child_setup _ _ _ _ _ _ _) as [[[st e] t]|]; [|discriminate]. intros X. apply Z.eqb_eq in X. subst e. reflexivity. Qed.
Lemma plain_tty : started 1024 false false false false false 100 [] (-1) (table_of at_tty) (fst (plain_table at_tty)) (snd (plain_table at_tty)) /\
  child_setup 1024 false [] (-1) false (fst (plain_table at_tty)) (snd (plain_table at_tty)) = Some (fst (plain_child at_tty), (-1)%Z, snd (plain_child at_tty)) /\
  on_terminal ex_tty (at_start (fst (plain_child at_tty)) (snd (plain_child at_tty))).
Proof.
  split; [apply plain_started; vm_compute; reflexivity|]. split; [apply plain_set_up; vm_compute; reflexivity|].
  exists 2%Z, 10, 7. split; [right; right; left; reflexivity|]. split; [exists false; vm_compute; reflexivity|reflexivity].
Qed.
Lemma plain_files : started 1024 false false false false false 100 [] (-1) (table_of at_files) (fst (plain_table at_files)) (snd (plain_table at_files)) /\
  child_setup 1024 false [] (-1) false (fst (plain_table at_files)) (snd (plain_table at_files)) = Some (fst (plain_child at_files), (-1)%Z, snd (plain_child at_files)).
Proof. split; [apply plain_started; vm_compute; reflexivity|apply plain_set_up; vm_compute; reflexivity]. Qed.

(* minijail0 with and without --no-new-sessions *)
Definition tty_opts : list (N * option string) := [(short "l", None); (short "u", Some "5")]%string.
Definition keep_opts : list (N * option string) := [(short "l", None); (OPT_NO_NEW_SESSIONS, None)].
Lemma tty_goes : minijail0 ex_world "/lib/p.so" tty_opts ["/bin/app"%string] = Go (start_of tty_opts "/bin/app").
Proof. vm_compute. reflexivity. Qed.
Lemma keep_goes : minijail0 ex_world "/lib/p.so" keep_opts ["/bin/app"%string] = Go (start_of keep_opts "/bin/app").
Proof. vm_compute. reflexivity. Qed.
Lemma tty_formed : well_formed ex_world (all_options ex_world tty_opts).
Proof.
  split; [discriminate|]. split; [exact world_names|]. change (all_options ex_world tty_opts) with tty_opts. split.
  - repeat apply Forall_cons; try apply Forall_nil; intros a EA; try discriminate EA; injection EA as <-; (split; [|split; [|split]]);
      intros H; try (exfalso; revert H; clear; vm_compute; intuition discriminate);
      first [number | split; [discriminate|number] | exact limits_case].
  - split; [|exact world_files]. split; intros [a H]; exfalso; revert H; vm_compute; intuition discriminate.
Qed.
Lemma keep_formed : well_formed ex_world (all_options ex_world keep_opts).
Proof.
  split; [discriminate|]. split; [exact world_names|]. change (all_options ex_world keep_opts) with keep_opts. split.
  - repeat apply Forall_cons; try apply Forall_nil; intros a EA; discriminate EA.
  - split; [|exact world_files]. split; intros [a H]; exfalso; revert H; vm_compute; intuition discriminate.
Qed.
