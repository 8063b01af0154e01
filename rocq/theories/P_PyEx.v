(* Policies for the examples of T_PyComp. *)
From Verif Require Import P_Bpf S_PyPolicy M_PyComp P_PyFile.
Local Open Scope N_scope.

Definition KILLP : N := 0x80000000.
Definition x86_64 : arch := Arch 0xc000003e 64.
Definition kill_act : act := Act 0 KILLP.
Definition allow_act : act := Act 1 RET_ALLOW.
Definition errno1 : act := Act 2 0x50001.
Definition event (arch nr arg0 : N) : sdata := SD nr arch 0 [arg0; 0; 0; 0; 0; 0].
Definition eq0 (v : N) : patom := PAtom 0 EQ v.
(* read, close, exit, brk, mmap, dup: allow; write: arg0 == 1 or 2: allow, bit 32: EPERM *)
Definition sample : list statement :=
  [Statement [("read", 0); ("close", 3)]%string [Filt None allow_act];
   Statement [("write", 1)]%string [Filt (Some [[eq0 1]; [eq0 2]]) allow_act; Filt (Some [[PAtom 0 SET 0x100000000; PAtom 0 SET 1]]) errno1];
   Statement [("exit", 60); ("brk", 12); ("mmap", 9); ("dup", 32)]%string [Filt None allow_act]].
Definition ex_freq (c : string * N) : N := if snd c =? 60 then 3 else 2.
Lemma event_ok a nr x : nr < 2 ^ 32 -> a < 2 ^ 32 -> x < 2 ^ 64 -> sd_ok (event a nr x).
Proof. intros. split; [auto|]. split; [auto|]. split; [reflexivity|]. split; [reflexivity|]. repeat constructor; auto. Qed.

(* deciding the hypotheses *)
Definition atom_fitsb (bits : N) (a : patom) : bool := (p_arg a <? 6) && (p_val a <? 2 ^ bits).
Definition filt_fitsb (bits : N) (f : filt) : bool :=
  (a_val (f_act f) <? 2 ^ 32) && match f_expr f with None => true | Some e => forallb (forallb (atom_fitsb bits)) e end.
Definition act_eqb (x y : act) : bool := (a_id x =? a_id y) && (a_val x =? a_val y).
Definition policy_okb (a : arch) (default : act) (ss : list statement) : bool :=
  ((arch_bits a =? 32) || (arch_bits a =? 64)) && (arch_nr a <? 2 ^ 32) && (a_val default <? 2 ^ 32) &&
  forallb (fun s => forallb (filt_fitsb (arch_bits a)) (st_filters s)) ss &&
  forallb (fun x => forallb (fun y => negb (a_id x =? a_id y) || act_eqb x y) (actions default ss)) (actions default ss) &&
  forallb (fun c => snd c <? 2 ^ 32 - 1) (calls ss).
Lemma policy_okb_ok a default ss : policy_okb a default ss = true -> policy_ok a default ss.
Proof.
  unfold policy_okb. intros H. repeat (apply andb_true_iff in H as [H ?]).
  rewrite orb_true_iff, !N.eqb_eq in H. split; [exact H|]. split; [apply N.ltb_lt; assumption|]. split; [apply N.ltb_lt; assumption|]. split; [|split].
  - intros s f S F. rewrite forallb_forall in *.
    match goal with X : forall x, In x ss -> forallb (filt_fitsb _) _ = true |- _ => specialize (X s S); rewrite forallb_forall in X; specialize (X f F);
      unfold filt_fitsb in X; apply andb_true_iff in X as [X1 X2] end.
    split; [apply N.ltb_lt; exact X1|]. destruct (f_expr f) as [e|]; [|exact Logic.I].
    rewrite Forall_forall. intros c C. rewrite forallb_forall in X2. specialize (X2 c C). rewrite Forall_forall. intros x X.
    rewrite forallb_forall in X2. specialize (X2 x X). unfold atom_fitsb in X2. apply andb_true_iff in X2 as [X3 X4]. split; apply N.ltb_lt; assumption.
  - intros x y X Y E.
    match goal with K : forallb (fun x => forallb _ (actions default ss)) _ = true |- _ => rewrite forallb_forall in K; specialize (K x X);
      cbv beta in K; rewrite forallb_forall in K; specialize (K y Y); cbv beta in K; rewrite E, N.eqb_refl in K; cbn [negb orb] in K; unfold act_eqb in K;
      apply andb_true_iff in K as [K1 K2]; apply N.eqb_eq in K1, K2 end.
    destruct x as [i v], y as [i' v']. simpl in K1, K2. subst. reflexivity.
  - intros c C. match goal with K : forallb _ (calls ss) = true |- _ => rewrite forallb_forall in K; specialize (K c C); apply N.ltb_lt; exact K end.
Qed.
Definition one_nameb (ss : list statement) : bool :=
  forallb (fun c => forallb (fun c' => negb (snd c =? snd c') || (fst c =? fst c')%string) (calls ss)) (calls ss).
Lemma one_nameb_ok ss : one_nameb ss = true -> one_name ss.
Proof.
  unfold one_nameb, one_name. intros H c c' C C' E. rewrite forallb_forall in H. specialize (H c C). cbv beta in H.
  rewrite forallb_forall in H. specialize (H c' C'). cbv beta in H. rewrite E, N.eqb_refl in H. cbn [negb orb] in H.
  apply String.eqb_eq in H. destruct c, c'. cbn [fst snd] in *. congruence.
Qed.
Ltac okay := first [apply policy_okb_ok; vm_compute; reflexivity | apply one_nameb_ok; vm_compute; reflexivity | apply event_ok; vm_compute; reflexivity].

Lemma sample_case : policy_ok x86_64 kill_act sample /\ one_name sample /\
  exists p lin bst, parse_file ex_freq kill_act sample = Some p /\
  compile_file x86_64 KILLP false LINEAR p = Some lin /\ compile_file x86_64 KILLP false BST p = Some bst /\
  lin <> bst /\ (length bst <= 4096)%nat /\
  last_resort KILLP (filters_for 1 sample) <> ALLOW /\ Forall (fun f => a_val (f_act f) = ALLOW) (filters_for 0 sample) /\
  run true bst (event 0xc000003e 0 0) = VRet ALLOW /\ run true bst (event 0xc000003e 1 1) = VRet ALLOW /\
  run true bst (event 0xc000003e 1 0x100000001) = VRet 0x50001 /\ run true bst (event 0xc000003e 1 9) = VRet KILLP /\
  run true bst (event 0xc000003e 2 1) = VRet KILLP /\ run true bst (event 0xc000003e 60 5) = VRet ALLOW /\
  run true bst (event 0x40000003 0 0) = VRet KILLP.
Proof.
  split; [okay|]. split; [okay|]. eexists _, _, _. split; [vm_compute; reflexivity|]. split; [vm_compute; reflexivity|].
  split; [vm_compute; reflexivity|]. split; [discriminate|]. split; [apply Nat.leb_le; reflexivity|].
  split; [vm_compute; discriminate|]. split; [repeat constructor|]. repeat split; vm_compute; reflexivity.
Qed.

Lemma arg6_case : exists a default ss p prog,
  parse_file (fun _ => 1) default ss = Some p /\ compile_file a KILLP false BST p = Some prog /\ ~ kernel_accepts prog.
Proof.
  exists x86_64, kill_act, [Statement [("write", 1)]%string [Filt (Some [[PAtom 6 EQ 1]]) allow_act]]. eexists _, _.
  split; [vm_compute; reflexivity|]. split; [vm_compute; reflexivity|]. intros [K _]. vm_compute in K. discriminate.
Qed.

Definition aliases : list statement :=
  [Statement [("sync_file_range2", 341)]%string [Filt (Some [[eq0 1]]) allow_act];
   Statement [("arm_sync_file_range", 341)]%string [Filt (Some [[eq0 2]]) allow_act]].
Lemma alias_case : exists ss, policy_ok x86_64 kill_act ss /\
  (exists p, parse_file (fun _ => 1) kill_act ss = Some p /\ compile_file x86_64 KILLP false BST p = None) /\
  exists freq p p' prog prog' d, parse_file (fun _ => 1) kill_act ss = Some p /\ parse_file freq kill_act ss = Some p' /\
  compile_file x86_64 KILLP false LINEAR p = Some prog /\ compile_file x86_64 KILLP false LINEAR p' = Some prog' /\
  sd_ok d /\ run true prog d = VRet ALLOW /\ run true prog' d = VRet KILLP.
Proof.
  exists aliases. split; [okay|]. split.
  { eexists. split; [vm_compute; reflexivity|]. vm_compute. reflexivity. }
  exists (fun c => if (fst c =? "sync_file_range2")%string then 2 else 1). eexists _, _, _, _, (event 0xc000003e 341 2).
  split; [vm_compute; reflexivity|]. split; [vm_compute; reflexivity|]. split; [vm_compute; reflexivity|]. split; [vm_compute; reflexivity|].
  split; [okay|]. split; vm_compute; reflexivity.
Qed.

Lemma big_endian_case : exists ss p prog d, policy_ok x86_64 kill_act ss /\ one_name ss /\
  parse_file (fun _ => 1) kill_act ss = Some p /\ compile_file x86_64 KILLP false BST p = Some prog /\ sd_ok d /\
  sd_arch d = arch_nr x86_64 /\ last_resort KILLP (filters_for (sd_nr d) ss) <> ALLOW /\
  run false prog d <> VRet (decision 64 false KILLP ss d).
Proof.
  exists [Statement [("write", 1)]%string [Filt (Some [[eq0 1]]) allow_act]]. eexists _, _, (event 0xc000003e 1 1).
  split; [okay|]. split; [okay|]. split; [vm_compute; reflexivity|]. split; [vm_compute; reflexivity|]. split; [okay|].
  split; [reflexivity|]. split; vm_compute; discriminate.
Qed.

Definition denial : list statement := [Statement [("write", 1)]%string [Filt (Some [[eq0 2]]) errno1; Filt None allow_act]].
Lemma denial_case : exists ss p prog d, policy_ok x86_64 kill_act ss /\ one_name ss /\
  parse_file (fun _ => 1) kill_act ss = Some p /\ compile_file x86_64 KILLP false BST p = Some prog /\ sd_ok d /\
  sd_arch d = arch_nr x86_64 /\ decision 64 false KILLP ss d = 0x50001 /\ run true prog d = VRet ALLOW.
Proof.
  exists denial. eexists _, _, (event 0xc000003e 1 2). split; [okay|]. split; [okay|]. split; [vm_compute; reflexivity|].
  split; [vm_compute; reflexivity|]. split; [okay|]. split; [reflexivity|]. split; vm_compute; reflexivity.
Qed.
Lemma denylist_honoured freq a default ss p kill strat prog d :
  policy_ok a default ss -> one_name ss -> kill < 2 ^ 32 ->
  parse_file freq default ss = Some p -> compile_file a kill true strat p = Some prog -> sd_ok d ->
  sd_arch d = arch_nr a -> listed (sd_nr d) ss = true ->
  run true prog d = VRet (first_match (arch_bits a) d (a_val default) (filters_for (sd_nr d) ss)).
Proof.
  intros OK ON HK P C D A LI. rewrite (preserved freq a default ss p kill true strat prog d); auto. unfold decision. rewrite LI. reflexivity.
Qed.
Lemma denylist_case : exists p prog d, parse_file (fun _ => 1) allow_act denial = Some p /\
  policy_ok x86_64 allow_act denial /\ one_name denial /\
  compile_file x86_64 0x50001 true BST p = Some prog /\ sd_ok d /\ listed (sd_nr d) denial = true /\
  sd_arch d = arch_nr x86_64 /\ run true prog d = VRet 0x50001.
Proof.
  eexists _, _, (event 0xc000003e 1 2). split; [vm_compute; reflexivity|]. split; [okay|]. split; [okay|]. split; [vm_compute; reflexivity|].
  split; [okay|]. split; [reflexivity|]. split; [reflexivity|]. vm_compute. reflexivity.
Qed.
