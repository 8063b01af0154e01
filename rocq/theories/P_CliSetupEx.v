(* A command line with limits, a pid file and id maps. *)
From Verif Require M_Sync S_Sync P_Sync P_SyncEx.
From Verif Require Export P_CliSetup P_CliRunEx.
From Coq Require Import Lia.
Local Open Scope N_scope.

Definition map_opts : list (N * option string) :=
  [(short "f", Some "/run/old.pid"); (short "R", Some "RLIMIT_NOFILE,64,unlimited"); (short "m", None); (short "f", Some "/run/x.pid");
   (short "M", Some "100 1000 1,0 1001 1"); (short "u", Some "5"); (short "R", Some "4,0,0x10"); (short "g", Some "100")]%string.
Definition map_start : start := start_of map_opts "/bin/app".
Lemma map_goes : minijail0 ex_world "/lib/p.so" map_opts ["/bin/app"%string] = Go map_start.
Proof. vm_compute. reflexivity. Qed.
Lemma limits_case2 : forall type cur max, splits "," "4,0,0x10" [type; cur; max] ->
  (forall t, simple_const (w_long ex_world) (w_consts ex_world) type t -> t < 2 ^ 31) /\
  (forall z, c_integer cur z \/ c_integer max z -> word (w_long ex_world) z).
Proof.
  intros type cur max H. apply tokens_spec in H; [|discriminate]. vm_compute in H. injection H as <- <- <-. split.
  - intros t H. apply parse_single_spec in H; [|reflexivity]. vm_compute in H. injection H as <-. reflexivity.
  - intros z [H|H]; apply c_integer_read in H; destruct H as (neg & v & H & ->); vm_compute in H; injection H as <- <-; unfold word; cbn; lia.
Qed.
Lemma last_gid_snoc w l o n : last_gid w (l ++ [o]) n -> fst o = short "g" -> exists a, snd o = Some a /\ gid_arg w a n.
Proof.
  intros H E. remember (l ++ [o])%list as k eqn:K. destruct H as [|l0 a n G|l0 a u g N1 U|l0 a z n D H|l0 o0 n N1 N2 H];
    [destruct l; discriminate K|apply app_inj_tail in K; destruct K as [_ <-]..].
  - exists a. split; [reflexivity|exact G].
  - discriminate E.
  - discriminate E.
  - destruct (N1 E).
Qed.
Lemma map_formed : well_formed ex_world (all_options ex_world map_opts).
Proof.
  split; [discriminate|]. split; [exact world_names|]. change (all_options ex_world map_opts) with map_opts. split.
  - repeat apply Forall_cons; try apply Forall_nil; intros a EA; try discriminate EA; injection EA as <-; (split; [|split; [|split]]);
      intros H; try (exfalso; revert H; clear; vm_compute; intuition discriminate);
      first [number | split; [discriminate|number] | exact limits_case | exact limits_case2].
  - split; [|exact world_files].
    split; intros _; (split; [reflexivity|]); intros n H.
    + change (uid_arg ex_world "5" n) in H. destruct H as [H|[H _]].
      * apply decimal_integer_read in H. destruct H as (neg & v & H & Q). vm_compute in H. injection H as <- <-. assert (n = 5) by lia. subst n. reflexivity.
      * exfalso. apply (H 5%Z). decimal.
    + change map_opts with (removelast map_opts ++ [(short "g", Some "100"%string)])%list in H. destruct (last_gid_snoc _ _ _ _ H eq_refl) as (a & EA & H2). injection EA as <-. destruct H2 as [H2|[H2 _]].
      * apply decimal_integer_read in H2. destruct H2 as (neg & v & H2 & Q). vm_compute in H2. injection H2 as <- <-. assert (n = 100) by lia. subst n. reflexivity.
      * exfalso. apply (H2 100%Z). decimal.
Qed.
Lemma map_case : let j := c_jail (st_cli map_start) in
  M_Sync.reaches (M_Sync.child_after j) (M_Sync.start 4242 j)
  (M_Sync.Sys M_Sync.Done (M_Sync.Going [])
    [M_Sync.Parent (M_Sync.ForwardTo 4242) 0; M_Sync.Parent (M_Sync.WritePid (Own "/run/x.pid"%string) 4242) 0; M_Sync.Parent (M_Sync.Prlimit 4242 (Rlimit 7 64 (2 ^ 64 - 1))) 0;
     M_Sync.Parent (M_Sync.Prlimit 4242 (Rlimit 4 0 16)) 0; M_Sync.Parent (M_Sync.WriteProc 4242 "uid_map" "5 1000 1") 0;
     M_Sync.Parent (M_Sync.WriteProc 4242 "setgroups" "deny") 0; M_Sync.Parent (M_Sync.WriteProc 4242 "gid_map" ("100 1000 1" ++ String c_nl "0 1001 1")) 0;
     M_Sync.Child (M_Sync.Setresgid 100) 0; M_Sync.Child (M_Sync.Setresuid 5) 0; M_Sync.Child M_Sync.Goes_on 0]).
Proof. intros j. pose proof (P_SyncEx.can_finish 4242 j) as R. vm_compute in R |- *. exact R. Qed.
