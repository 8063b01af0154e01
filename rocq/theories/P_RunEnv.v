(* Proofs: the environment around the preload library (C41). *)
From Coq Require Import DecimalString DecimalN.
From Verif Require Export M_Run S_Util P_Util P_Io.
Local Open Scope string_scope.
Local Notation digits := M_Run.digits.
Local Notation atoi := M_Run.atoi.

(* ---- the descriptor number survives ---- *)
Lemma digits_acc : forall u p, digits (NilEmpty.string_of_uint u) (Zpos p) = Zpos (Pos.of_uint_acc u p).
Proof.
  induction u; intros p; cbn [NilEmpty.string_of_uint Pos.of_uint_acc]; [reflexivity|..]; rewrite <- IHu; cbn [M_Run.digits];
    match goal with |- (if ?b then _ else _) = _ => change b with true end; cbv iota; f_equal;
    match goal with |- (_ + ?k)%Z = _ => let v := eval vm_compute in k in change k with v end; lia.
Qed.
Lemma digits_uint : forall u, digits (NilEmpty.string_of_uint u) 0 = Z.of_N (N.of_uint u).
Proof.
  unfold N.of_uint. induction u; cbn [NilEmpty.string_of_uint]; [reflexivity|..]; cbn [digits];
    match goal with |- context [if ?b then _ else _] => change b with true end; cbv iota; cbn [Pos.of_uint]; [exact IHu|..];
    cbn [Z.of_N]; rewrite <- digits_acc; reflexivity.
Qed.
Lemma atoi_dec n : atoi (dec n) = Z.of_N n.
Proof.
  unfold dec. transitivity (digits (NilEmpty.string_of_uint (N.to_uint n)) 0).
  - destruct (N.to_uint n); reflexivity.
  - rewrite digits_uint. f_equal. apply DecimalN.Unsigned.of_to.
Qed.

(* ---- the last word of a value ---- *)
Definition no_space (s : string) : Prop := all_chars (fun c => c <> " "%char) s.
Lemma cut_none : forall s, no_space s -> cut_last_space s = None.
Proof.
  induction s as [|c s IH]; intros H; [reflexivity|]. apply all_chars_cons in H. destruct H as [A B]. cbn [cut_last_space]. rewrite (IH B).
  destruct (Ascii.eqb c " ") eqn:E; [|reflexivity]. apply aeqb_true in E. destruct (A E).
Qed.
Lemma cut_last a p : no_space p -> cut_last_space (a ++ " " ++ p) = Some a.
Proof.
  intros NS. induction a as [|c a IH].
  - cbn [append cut_last_space]. rewrite (cut_none p NS). reflexivity.
  - change ((String c a) ++ " " ++ p) with (String c (a ++ " " ++ p)). cbn [cut_last_space]. rewrite IH. reflexivity.
Qed.


Lemma is_name n : (if String.eqb n "" then false else forallb (fun c => negb (Ascii.eqb c "="%char)) (list_ascii_of_string n)) = true -> var_name n.
Proof.
  destruct (String.eqb n "") eqn:E; [discriminate|]. apply String.eqb_neq in E. intros H. split; [exact E|]. clear E.
  induction n as [|c n IH]; [intros i c X; destruct i; discriminate X|]. cbn [list_ascii_of_string forallb] in H. apply andb_true_iff in H. destruct H as [H1 H2].
  apply all_chars_cons. split; [|exact (IH H2)]. intros ->. discriminate H1.
Qed.
Lemma fd_name : var_name kFdEnvVar. Proof. apply is_name. reflexivity. Qed.
Lemma ld_name : var_name kLdPreloadEnvVar. Proof. apply is_name. reflexivity. Qed.
Lemma sp_name : var_name kSeccompPolicyPathEnvVar. Proof. apply is_name. reflexivity. Qed.

Definition absent (e : env) (n : string) : Prop := Forall (fun y => ~ for_name n y) e.
Lemma index_at n : forall a x b, absent a n -> for_name n x -> getenv_index (a ++ x :: b)%list n = Some (length a).
Proof.
  induction a as [|y a IH]; intros x b A F; cbn [app getenv_index length].
  - apply env_match_spec in F. rewrite F. reflexivity.
  - inversion A; subst. apply env_match_false in H1. rewrite H1, (IH x b H2 F). reflexivity.
Qed.
Lemma named n v : for_name n (n ++ "=" ++ v). Proof. exists v. reflexivity. Qed.
Lemma other n m v : var_name n -> var_name m -> n <> m -> ~ for_name m (n ++ "=" ++ v).
Proof. intros A B D X. apply D. exact (for_name_inj n m _ A B (named n v) X). Qed.
(* a variable put last is taken away again *)
Lemma unset_last e n v : absent e n -> snd (minijail_unsetenv (e ++ [(n ++ "=" ++ v)%string])%list n) = e.
Proof.
  intros A. unfold minijail_unsetenv. rewrite (index_at n e (n ++ "=" ++ v) [] A (named n v)). cbn [snd].
  rewrite set_nth_app, removelast_last. reflexivity.
Qed.
Lemma set_new e n v ow : var_name n -> absent e n -> minijail_setenv e n v ow = (0%N, (e ++ [(n ++ "=" ++ v)%string])%list).
Proof.
  intros [NE _] A. unfold minijail_setenv. apply String.eqb_neq in NE. rewrite NE. apply index_none in A. rewrite A. reflexivity.
Qed.
Lemma sdrop_name n v : sdrop (String.length n + 1) (n ++ "=" ++ v) = v.
Proof.
  assert (String.length n + 1 = String.length (n ++ "="))%nat as ->.
  { rewrite slen_app. reflexivity. }
  rewrite <- sapp_assoc. apply sdrop_app.
Qed.
Lemma stake_name n v : stake (String.length n + 1) (n ++ "=" ++ v) = n ++ "=".
Proof.
  assert (String.length n + 1 = String.length (n ++ "="))%nat as ->.
  { rewrite slen_app. reflexivity. }
  rewrite <- sapp_assoc. generalize (n ++ "=") as m. induction m as [|c m IH]; cbn; [destruct v; reflexivity|]. rewrite IH. reflexivity.
Qed.

Section Preload.
Variables (j : jail) (default : string) (fd : N).
Let path := match j_preload_path j with Own p => p | _ => default end.
Hypothesis NS : no_space path.

Lemma around e : absent e kFdEnvVar -> ~ In (kLdPreloadEnvVar ++ "=") e ->
  exists e1, setup_preload default j e = (0%N, e1) /\ absent e1 kFdEnvVar /\
    truncate_preload_env e1 kLdPreloadEnvVar = e.
Proof.
  intros AF NE. unfold setup_preload. fold path. unfold minijail_getenv. destruct (getenv_index e kLdPreloadEnvVar) as [i|] eqn:E.
  - destruct (index_some _ _ _ E) as (a & x & b & -> & -> & (v & ->) & A). rewrite nth_error_app2 by apply Nat.le_refl. rewrite Nat.sub_diag. cbn [nth_error].
    rewrite sdrop_name. destruct (String.eqb v "") eqn:V.
    { apply String.eqb_eq in V. subst v. destruct NE. apply in_or_app. right. left. rewrite sapp_nil_r. reflexivity. }
    unfold minijail_setenv. change (String.eqb kLdPreloadEnvVar "") with false. cbv iota. rewrite E, set_nth_app.
    eexists. split; [reflexivity|]. split.
    { unfold absent in *. apply Forall_app in AF. destruct AF as [AF1 AF2]. inversion AF2; subst. apply Forall_app. split; [exact AF1|]. constructor; [|assumption].
      apply other; [exact ld_name|exact fd_name|discriminate]. }
    unfold truncate_preload_env. rewrite (index_at _ a _ b A (named _ _)). rewrite app_nth2 by apply Nat.le_refl. rewrite Nat.sub_diag. cbn [nth].
    rewrite sdrop_name, stake_name, (cut_last v path NS), set_nth_app, sapp_assoc. reflexivity.
  - apply index_none in E. cbn [append]. change (String.eqb "" "") with true. cbv iota. cbn [append]. rewrite (set_new e _ path true ld_name E).
    eexists. split; [reflexivity|]. split.
    { apply Forall_app. split; [exact AF|]. constructor; [|constructor]. apply other; [exact ld_name|exact fd_name|discriminate]. }
    unfold truncate_preload_env. rewrite (index_at _ e _ [] E (named _ _)). rewrite app_nth2 by apply Nat.le_refl. rewrite Nat.sub_diag. cbn [nth].
    rewrite sdrop_name, (cut_none path NS). apply unset_last. exact E.
Qed.

(* what the program's environment should be *)
Definition given (e : env) : env :=
  match j_seccomp_policy_path j with Own p => snd (minijail_setenv e "SECCOMP_POLICY_PATH" p true) | _ => e end.
Lemma round e : absent e kFdEnvVar -> ~ In (kLdPreloadEnvVar ++ "=") e ->
  exists e1, child_env true default fd j e = Some e1 /\ minijail_getenv e1 kFdEnvVar = Some (dec fd) /\
    truncate_preload_env (snd (minijail_unsetenv e1 kFdEnvVar)) kLdPreloadEnvVar = given e.
Proof.
  intros AF NE.
  assert (P : exists e0, match j_seccomp_policy_path j with Own _ => setup_seccomp_policy_path j e | _ => (0%N, e) end = (0%N, e0) /\ e0 = given e /\
     absent e0 kFdEnvVar /\ ~ In (kLdPreloadEnvVar ++ "=") e0).
  { unfold given, setup_seccomp_policy_path. destruct (j_seccomp_policy_path j) as [|p| |]; try (exists e; repeat split; assumption).
    change "SECCOMP_POLICY_PATH" with kSeccompPolicyPathEnvVar. unfold minijail_setenv. change (String.eqb kSeccompPolicyPathEnvVar "") with false. cbv iota.
    assert (F0 : ~ for_name kFdEnvVar (kSeccompPolicyPathEnvVar ++ "=" ++ p)) by (apply other; [exact sp_name|exact fd_name|discriminate]).
    destruct (getenv_index e kSeccompPolicyPathEnvVar) as [i|] eqn:E; (eexists; split; [reflexivity|]; split; [reflexivity|]).
    - destruct (index_some _ _ _ E) as (a & x & b & -> & -> & _ & _). rewrite set_nth_app. split.
      + unfold absent in *. apply Forall_app in AF. destruct AF as [AF1 AF2]. inversion AF2; subst. apply Forall_app. split; [exact AF1|]. constructor; assumption.
      + intros X. apply NE. rewrite in_app_iff in X |- *. destruct X as [X|[X|X]]; [left; exact X|discriminate X|right; right; exact X].
    - split; [apply Forall_app; split; [exact AF|constructor; [exact F0|constructor]]|].
      intros X. apply in_app_or in X. destruct X as [X|[X|[]]]; [exact (NE X)|discriminate X]. }
  destruct P as (e0 & P1 & -> & A0 & N0). unfold child_env. rewrite P1. cbv iota.
  destruct (around (given e) A0 N0) as (e1 & S1 & A1 & T1). rewrite S1. cbv iota. unfold setup_pipe. rewrite (set_new e1 kFdEnvVar (dec fd) true fd_name A1).
  eexists. split; [reflexivity|]. split.
  - unfold minijail_getenv. rewrite (index_at _ e1 _ [] A1 (named _ _)). rewrite nth_error_app2 by apply Nat.le_refl. rewrite Nat.sub_diag. cbn [nth_error].
    rewrite sdrop_name. reflexivity.
  - rewrite (unset_last e1 _ _ A1). exact T1.
Qed.
End Preload.

Lemma env_claim g j default fd e :
  no_space (match j_preload_path j with Own p => p | _ => default end) ->
  ~ (exists x, In x e /\ for_name "__MINIJAIL_FD" x) -> ~ In "LD_PRELOAD=" e ->
  exists e1, child_env true default fd j e = Some e1 /\
    forall from kernel t e', M_Io.run kernel [] (fake_main g true from e1) = (Returned (Some e'), t) ->
      (exists j', from (Z.of_N fd) = FOk j') /\
      e' = match j_seccomp_policy_path j with Own p => snd (minijail_setenv e "SECCOMP_POLICY_PATH" p true) | _ => e end.
Proof.
  intros NS A N0.
  assert (A' : absent e kFdEnvVar).
  { unfold absent. apply Forall_forall. intros x I0 F. apply A. exists x. split; [exact I0|exact F]. }
  destruct (round j default fd NS e A' N0) as (e1 & E1 & G & T). exists e1. split; [exact E1|].
  intros from kernel t e' R. apply run_exec' in R. unfold fake_main in R. cbn [negb] in R. rewrite G, atoi_dec in R.
  destruct (Z.of_N fd <? 0)%Z; [destruct R as [_ X]; discriminate X|]. destruct (from (Z.of_N fd)) as [? ?|j'|] eqn:F; try (destruct R as [_ X]; discriminate X).
  split; [exists j'; reflexivity|].
  apply exec_bind_ret in R. destruct R as (? & ? & [] & _ & _ & R). apply exec_bind_ret in R. destruct R as (? & ? & [] & _ & _ & R).
  destruct R as [_ R]. injection R as R. rewrite R. exact T.
Qed.

(* without the library only the policy path is added *)
Lemma env_plain default fd j e :
  child_env false default fd j e =
  Some match j_seccomp_policy_path j with Own p => snd (minijail_setenv e "SECCOMP_POLICY_PATH" p true) | _ => e end.
Proof.
  unfold child_env, setup_seccomp_policy_path. destruct (j_seccomp_policy_path j) as [|p| |]; try reflexivity.
  change "SECCOMP_POLICY_PATH" with kSeccompPolicyPathEnvVar. unfold minijail_setenv. change (String.eqb kSeccompPolicyPathEnvVar "") with false. cbv iota.
  destruct (getenv_index e kSeccompPolicyPathEnvVar); reflexivity.
Qed.

(* ---- cases and counterexamples ---- *)
Definition yes_kernel (past : list M_Io.event) (c : M_Io.call) : M_Io.answer := M_Io.Yes 0 "".
Definition lib : string := "/lib/libminijailpreload.so".
Definition main_env (j : jail) (default : string) (e : env) : option env :=
  match child_env true default 7 j e with
  | Some e1 => match fst (M_Io.run yes_kernel [] (fake_main (Cfg (KEnv true false true true false false true false "" 14 14 true 3 5) false true 85)
                            true (fun fd => if Z.eqb fd 7 then FOk minijail_new else FUb) e1)) with
               | Returned r => r
               | _ => None
               end
  | None => None
  end.
Lemma env_case_kept : main_env minijail_new lib ["A=1"; "LD_PRELOAD=/a.so /b.so"; "B=2"; "LD_PRELOAD=/c.so"] =
  Some ["A=1"; "LD_PRELOAD=/a.so /b.so"; "B=2"; "LD_PRELOAD=/c.so"] /\
  child_env true lib 7 minijail_new ["A=1"; "LD_PRELOAD=/a.so"] =
  Some ["A=1"; "LD_PRELOAD=/a.so /lib/libminijailpreload.so"; "__MINIJAIL_FD=7"] /\ main_env minijail_new lib ["A=1"] = Some ["A=1"].
Proof. split; [vm_compute; reflexivity|]. split; vm_compute; reflexivity. Qed.
Lemma env_lost : main_env minijail_new lib ["LD_PRELOAD="; "A=1"; "B=2"] = Some ["B=2"; "A=1"] /\
  main_env minijail_new lib ["__MINIJAIL_FD=x"; "A=1"; "B=2"] = Some ["B=2"; "A=1"] /\
  main_env minijail_new "/my lib/preload.so" ["A=1"] = Some ["A=1"; "LD_PRELOAD=/my"].
Proof. split; [vm_compute; reflexivity|]. split; vm_compute; reflexivity. Qed.
Definition env_cfg : cfg := Cfg (KEnv true false true true false false true false "" 14 14 true 3 5) false true 85.
Lemma empty_lost : exists g j default fd e e1 from kernel t e',
  child_env true default fd j e = Some e1 /\ M_Io.run kernel [] (fake_main g true from e1) = (Returned (Some e'), t) /\
  In "LD_PRELOAD=" e /\ ~ (exists x, In x e' /\ for_name "LD_PRELOAD" x).
Proof.
  exists env_cfg, minijail_new, lib, 7%N, ["LD_PRELOAD="; "A=1"; "B=2"]. eexists. exists (fun _ => FOk minijail_new), yes_kernel. eexists. eexists.
  split; [vm_compute; reflexivity|]. split; [vm_compute; reflexivity|]. split; [left; reflexivity|].
  intros (x & [<-|[<-|[]]] & v & F); discriminate F.
Qed.
Lemma space_left : exists g j default fd e e1 from kernel t e',
  child_env true default fd j e = Some e1 /\ M_Io.run kernel [] (fake_main g true from e1) = (Returned (Some e'), t) /\
  ~ (exists x, In x e /\ for_name "LD_PRELOAD" x) /\ In "LD_PRELOAD=/my" e'.
Proof.
  exists env_cfg, minijail_new, "/my lib/preload.so", 7%N, ["A=1"]. eexists. exists (fun _ => FOk minijail_new), yes_kernel. eexists. eexists.
  split; [vm_compute; reflexivity|]. split; [vm_compute; reflexivity|]. split; [|right; left; reflexivity].
  intros (x & [<-|[]] & v & F). discriminate F.
Qed.
