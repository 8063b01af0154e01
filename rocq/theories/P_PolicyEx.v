(* Concrete cases and counterexamples for the policy properties, and the
   part of C07 that holds. *)
From Verif Require Export P_Labels.
From Coq Require Import ZifyBool ZifyNat ZifyN.
Local Open Scope N_scope.

(* A 64-bit little-endian build with a few table entries. *)
Definition ex_build : build :=
  Build (Plat true true 0xC000003E)
        [("read", 0); ("write", 1); ("open", 2); ("ioctl", 16)]%string
        [("O_RDONLY", 0); ("PROT_EXEC", 4)]%string
        ["write"; "send"]%string ["open"]%string.
Definition ex_opts : fopts := FOpts ACT_KILL false false false false.
Definition no_files : files := fun _ => None.
Definition nl : string := String newline "".

Lemma ex_little : little (b_plat ex_build) = true. Proof. reflexivity. Qed.
Lemma ex_names : names_ok (b_consts ex_build).
Proof.
  unfold names_ok, ex_build. cbn [b_consts].
  constructor; [split; [discriminate|]|constructor; [split; [discriminate|]|constructor]];
    intros i c H; do 12 (destruct i as [|i]; [first [discriminate H|injection H as <-; repeat split; discriminate]|]); destruct i; discriminate.
Qed.
Lemma ex_arch : arch_no (b_plat ex_build) < 2 ^ 32. Proof. reflexivity. Qed.
Lemma ex_nrs : Forall (fun e => snd e < 2 ^ 32) (b_syscalls ex_build).
Proof. repeat constructor. Qed.

Definition ex_policy : stream :=
  Stream ("# comment" ++ nl ++ "read: 1" ++ nl ++ "ioctl: arg1 == PROT_EXEC && arg2 & 0x3 || arg0 in 7; return 13" ++ nl)%string false.
Definition ex_d (nr a0 a1 a2 : N) : sdata := SD nr 0xC000003E 0 [a0; a1; a2; 0; 0; 0].
Lemma ex_d_ok nr a0 a1 a2 : nr < 2 ^ 32 -> a0 < 2 ^ 64 -> a1 < 2 ^ 64 -> a2 < 2 ^ 64 -> sd_ok (ex_d nr a0 a1 a2).
Proof.
  intros. unfold sd_ok, ex_d. cbn [sd_nr sd_arch sd_ip sd_args length].
  repeat split; auto; repeat (constructor; auto); reflexivity.
Qed.

Definition ex_rules : policy :=
  [Entry "read" 0 Allow;
   Entry "ioctl" 16 (Cond [[Atom 1 EQ 4; Atom 2 SET 3]; [Atom 0 IN 7]] (ERRNO 13))]%string.
Lemma ex_reads : reads_policy ex_build ex_opts no_files ex_policy ex_rules.
Proof. apply policy_of_spec; [apply ex_names|]. vm_compute. reflexivity. Qed.
Lemma ex_compiles : exists prog, compile_filter ex_build ex_opts no_files (Some ex_policy) = COk prog.
Proof.
  set (q := compile_filter ex_build ex_opts no_files (Some ex_policy)). vm_compute in q.
  match eval unfold q in q with COk ?pr => exists pr end. reflexivity.
Qed.
Lemma ex_args : args_in_range ex_rules.
Proof.
  intros e H. cbn in H. destruct H as [<-|[<-|[]]]; cbn; auto.
  repeat constructor; cbn; lia.
Qed.
Lemma ex_values :
  (exists prog, compile_filter ex_build ex_opts no_files (Some ex_policy) = COk prog) /\
  reads_policy ex_build ex_opts no_files ex_policy ex_rules /\ args_in_range ex_rules /\
  sd_ok (ex_d 16 8 4 2) /\
  verdict ex_build ex_opts ex_rules (ex_d 16 8 4 2) ALLOW /\
  verdict ex_build ex_opts ex_rules (ex_d 16 8 4 4) 0x5000d.
Proof.
  assert (NO : forall nr, ~ allowed_by_option ex_build ex_opts nr).
  { intros nr [[H _]|[H _]]; discriminate. }
  split; [apply ex_compiles|]. split; [apply ex_reads|]. split; [apply ex_args|].
  split; [apply ex_d_ok; reflexivity|]. split.
  - apply (v_rule ex_build ex_opts ex_rules (ex_d 16 8 4 2)
      (Cond [[Atom 1 EQ 4; Atom 2 SET 3]; [Atom 0 IN 7]] (ERRNO 13)) eq_refl (NO _) eq_refl).
  - apply (v_rule ex_build ex_opts ex_rules (ex_d 16 8 4 4)
      (Cond [[Atom 1 EQ 4; Atom 2 SET 3]; [Atom 0 IN 7]] (ERRNO 13)) eq_refl (NO _) eq_refl).
Qed.
Lemma ex_kernel : arch_no (b_plat ex_build) < 2 ^ 32 /\ Forall (fun e => snd e < 2 ^ 32) (b_syscalls ex_build) /\
  little (b_plat ex_build) = true /\ names_ok (b_consts ex_build).
Proof. auto using ex_arch, ex_nrs, ex_little, ex_names. Qed.

(* ---- C06 ---- *)
Lemma trailing_backslash_lost :
  exists f prog ls l, compile_filter ex_build ex_opts no_files (Some f) = COk prog /\
    lines_of (s_bytes f) ls /\ In l ls /\ l = "read: return 13 \"%string /\
    run true prog (ex_d 0 0 0 0) = VRet (action_value (fo_action ex_opts)).
Proof.
  exists (Stream ("write: 1" ++ nl ++ "read: return 13 \") false)%string.
  set (q := compile_filter ex_build ex_opts no_files _). vm_compute in q.
  match eval unfold q in q with COk ?pr => exists pr end.
  eexists _, _. split; [reflexivity|]. split; [apply phys_lines_of|].
  split; [right; left; reflexivity|]. split; reflexivity.
Qed.
Lemma bad_line_case :
  file_lines (s_bytes (Stream ("read: 1" ++ nl ++ "nosuch: 1" ++ nl) false)) ["read: 1"; "nosuch: 1"]%string /\
  forall p, ~ reads_line ex_build ex_opts (reads_include ex_build ex_opts no_files) "nosuch: 1" p.
Proof.
  split; [apply multilines_spec; vm_compute; reflexivity|]. intros p H.
  eapply (line_of_spec ex_build ex_opts ex_names (incl0 ex_build ex_opts no_files)) in H.
  - vm_compute in H. discriminate.
  - intros f q. split.
    + intros X. discriminate X.
    + intros (g & X & _). discriminate X.
Qed.

(* ---- C07 ---- *)
Definition cells : list N := map N.of_nat (seq 0 16).
Lemma cells_all p : forallb (fun c => cell_ok c p false (fun _ => true)) cells = true ->
  forall c, c < 16 -> cell_ok c p false (fun _ => true) = true.
Proof.
  intros H c C. rewrite forallb_forall in H. apply H. unfold cells.
  apply in_map_iff. exists (N.to_nat c). split; [lia|]. apply in_seq. lia.
Qed.
Lemma maxinsns_leb n : (n <=? 4000)%nat = true -> (n <=? BPF_MAXINSNS)%nat = true.
Proof. intros H. apply Nat.leb_le in H. apply Nat.leb_le. unfold BPF_MAXINSNS. lia. Qed.

Lemma ip_inspected :
  exists text prog d1 d2,
    text = ("read: arg-1 == 5" ++ nl)%string /\
    compile_filter ex_build ex_opts no_files (Some (Stream text false)) = COk prog /\
    kernel_accepts prog /\ sd_ok d1 /\ sd_ok d2 /\
    sd_nr d1 = sd_nr d2 /\ sd_arch d1 = sd_arch d2 /\ sd_args d1 = sd_args d2 /\
    run true prog d1 <> run true prog d2.
Proof.
  eexists.
  set (q := compile_filter ex_build ex_opts no_files (Some (Stream ("read: arg-1 == 5" ++ nl)%string false))).
  vm_compute in q.
  match eval unfold q in q with COk ?pr => exists pr end.
  exists (SD 0 0xC000003E 5 [0; 0; 0; 0; 0; 0]), (SD 0 0xC000003E 6 [0; 0; 0; 0; 0; 0]).
  split; [reflexivity|]. split; [reflexivity|]. split.
  { split; [|apply cells_all; vm_compute; reflexivity].
    rewrite !andb_true_iff. repeat split; try (vm_compute; reflexivity). }
  split. { unfold sd_ok; cbn; repeat split; try lia; repeat (constructor; [lia|]); constructor. }
  split. { unfold sd_ok; cbn; repeat split; try lia; repeat (constructor; [lia|]); constructor. }
  repeat split. vm_compute. discriminate.
Qed.
Lemma arg6_accepted :
  exists text prog,
    text = ("read: arg6 == 5" ++ nl)%string /\
    compile_filter ex_build ex_opts no_files (Some (Stream text false)) = COk prog /\
    ~ kernel_accepts prog.
Proof.
  eexists.
  set (q := compile_filter ex_build ex_opts no_files (Some (Stream ("read: arg6 == 5" ++ nl)%string false))).
  vm_compute in q.
  match eval unfold q in q with COk ?pr => exists pr end.
  split; [reflexivity|]. split; [reflexivity|].
  intros [H _]. rewrite !andb_true_iff in H. destruct H as [[[_ H] _] _]. vm_compute in H. discriminate.
Qed.

(* What holds: a filter the kernel accepts reads seccomp_data only, so every
   index used is, modulo 2^29, one of -2..5. *)
Lemma resolve_keeps count p : forall off p' locs i, resolve_from count off p = ROk (p', locs) ->
  In i p -> is_jump i = false -> is_label i = false -> In i p'.
Proof.
  induction p as [|x p IH]; intros off p' locs i H I J L; cbn [resolve_from] in H; [contradiction|].
  destruct (resolve_from count (off + 1) p) as [[r' l']| |] eqn:R; try discriminate.
  destruct I as [->|I].
  - rewrite J, L in H. injection H as <- <-. left. reflexivity.
  - assert (X : In i r') by (eapply IH; eauto).
    destruct (is_jump x).
    { destruct (_ <=? _); [discriminate|]. destruct (loc_find _ _); [|discriminate]. injection H as <- <-. right. auto. }
    destruct (is_label x).
    { destruct (_ <=? _); [discriminate|]. destruct (loc_find _ _); [discriminate|]. injection H as <- <-. right. auto. }
    injection H as <- <-. right. auto.
Qed.
Lemma insns_ok_in p i : insns_ok p = true -> In i p -> exists n, insn_ok i n = true.
Proof.
  induction p as [|x p IH]; intros H I; [contradiction|]. cbn [insns_ok] in H. apply andb_true_iff in H.
  destruct H as [H1 H2]. destruct I as [->|I]; eauto.
Qed.
Lemma load_in_code b eid a : In (stmt op_ld_abs (lo_arg (at_arg a))) (atom_code b eid a).
Proof.
  unfold atom_code, bpf_arg_comp, bpf_load_arg. destruct (b_plat b) as [b64 le an]. apply in_or_app. left.
  destruct b64; left; reflexivity.
Qed.
Lemma rule_code_load b r body alts v g a : rule_code b r body -> r = Cond alts v -> In g alts -> In a g ->
  In (stmt op_ld_abs (lo_arg (at_arg a))) body.
Proof.
  intros C E G A. destruct C as [w|sid egs w]; [discriminate|]. injection E as <- <-.
  apply in_map_iff in G. destruct G as ([eid ats] & E & G). cbn [snd] in E. subst ats.
  apply in_or_app. left. apply in_flat_map. exists (eid, g). split; auto.
  unfold group_code. cbn [fst snd]. apply in_or_app. left. apply in_flat_map. exists a. split; auto.
  apply load_in_code.
Qed.
Lemma accepted_args b o fs f prog pol e alts v g a : names_ok (b_consts b) ->
  compile_filter b o fs (Some f) = COk prog -> reads_policy b o fs f pol -> kernel_accepts prog ->
  In e pol -> e_rule e = Cond alts v -> In g alts -> In a g ->
  ((16 + 8 * at_arg a) mod 2 ^ 32 < 64)%Z.
Proof.
  intros NM H R K IE ER IG IA.
  destruct (compile_filter_ok b o _ _ _ H) as (f' & pol' & items & def & labels & E & P & MP & IO & -> & AL & DUP & LEN & RS & ND).
  injection E as <-. apply policy_of_spec in R; auto. assert (pol' = pol) as -> by congruence.
  rewrite <- MP in IE. apply in_map_iff in IE. destruct IE as (it & <- & II).
  rewrite Forall_forall in IO. destruct (IO _ II) as [C _].
  assert (X : In (stmt op_ld_abs (lo_arg (at_arg a))) (arg_of it)).
  { unfold arg_of. destruct (snd it) as [[id body]|]; [|congruence]. right. eapply rule_code_load; eauto. }
  cbv zeta in RS. unfold bpf_resolve_jumps in RS. destruct (Nat.ltb _ _); [discriminate|].
  destruct (resolve_from _ _ _) as [[p' locs]| |] eqn:RF; try discriminate. injection RS as ->.
  assert (Y : In (stmt op_ld_abs (lo_arg (at_arg a))) prog).
  { eapply resolve_keeps; [exact RF| |reflexivity|reflexivity].
    apply in_or_app. right. apply in_or_app. right. right. apply in_flat_map. eauto. }
  destruct K as [K _]. rewrite !andb_true_iff in K. destruct K as [[[_ K] _] _].
  destruct (insns_ok_in _ _ K Y) as [n N]. unfold insn_ok in N.
  change (code (stmt op_ld_abs (lo_arg (at_arg a)))) with op_ld_abs in N.
  change (op_ld_abs =? op_ret) with false in N. change (op_ld_abs =? op_ja) with false in N.
  change (op_ld_abs =? op_ld_abs) with true in N. cbv iota in N. apply andb_true_iff in N. destruct N as [_ N].
  apply N.ltb_lt in N. cbn [k stmt] in N. unfold lo_arg, to_word in N.
  change (2 ^ Z.of_N 32)%Z with 4294967296%Z in N. change (2 ^ 32)%Z with 4294967296%Z.
  assert (0 <= (16 + 8 * at_arg a) mod 4294967296)%Z by (apply Z.mod_pos_bound; lia). lia.
Qed.

(* ---- C08 ---- *)
Fixpoint repeat_str (n : nat) (s : string) : string :=
  match n with O => "" | S n' => s ++ repeat_str n' s end.
Definition big_build : build :=
  Build (Plat true true 0xC000003E)
        (map (fun i => ("s" ++ dec (N.of_nat i), N.of_nat i)%string) (seq 0 212)) [] [] [].
Definition big_policy : string :=
  "s0: arg0 == 0" ++ repeat_str 299 " || arg0 == 0" ++ nl ++
  String.concat "" (map (fun i => "s" ++ dec (N.of_nat i) ++ ": return 1" ++ nl)%string (seq 1 211)).
Lemma label_overflow : compile_filter big_build ex_opts no_files (Some (Stream big_policy false)) = CUb.
Proof. vm_compute. reflexivity. Qed.

(* ---- C10 ---- *)
Lemma errno_65536 : exists prog,
  compile_filter ex_build ex_opts no_files (Some (Stream ("read: return 65536" ++ nl)%string false)) = COk prog /\
  run true prog (ex_d 0 0 0 0) = VRet (0x50000 + 0).
Proof.
  set (q := compile_filter ex_build ex_opts no_files _). vm_compute in q.
  match eval unfold q in q with COk ?pr => exists pr end. split; reflexivity.
Qed.
Lemma errno_exact b o fs f prog pol d s x y e more v : little (b_plat b) = true -> names_ok (b_consts b) ->
  compile_filter b o fs (Some f) = COk prog -> reads_policy b o fs f pol -> sd_ok d ->
  sd_arch d = arch_no (b_plat b) -> ~ allowed_by_option b o (sd_nr d) ->
  (forall r, find_rule (sd_nr d) pol = Some r -> reads_body b o s r) ->
  find_rule (sd_nr d) pol <> None ->
  s = ("return" ++ x)%string -> runs " " s (("return" ++ y)%string :: e :: more) ->
  const_expr (if bits64 (b_plat b) then 64 else 32) (b_consts b) e v -> v < 65536 ->
  run true prog d = VRet (0x50000 + v).
Proof.
  intros LE NM H R D A NO RB NN -> RU CE V.
  destruct (find_rule (sd_nr d) pol) as [r|] eqn:F; [|congruence].
  specialize (RB r eq_refl).
  assert (NM1 : v mod 2 ^ 32 <> 2 ^ 32 - 1).
  { change (2 ^ 32) with 4294967296. rewrite N.mod_small by lia. lia. }
  assert (RR : reads_body b o ("return" ++ x) (Return (ERRNO v))).
  { constructor. eapply rr_errno; eauto. }
  assert (r = Return (ERRNO v)) as ->.
  { apply body_of_spec in RB; auto. apply body_of_spec in RR; auto. congruence. }
  destruct (compile_filter_verdict b o LE NM _ _ _ _ d H R D) as (u & RUN & U).
  { rewrite F. intros r E. injection E as <-. exact Logic.I. }
  rewrite RUN. f_equal. eapply verdict_fun; [exact U|].
  replace (0x50000 + v) with (rule_value (bits64 (b_plat b)) d (Return (ERRNO v))).
  - apply v_rule; auto.
  - cbn [rule_value]. unfold ERRNO. rewrite N.mod_small by lia. reflexivity.
Qed.

(* ---- C11, C12, C13 ---- *)
Lemma dup_case : exists prog,
  compile_filter ex_build (FOpts ACT_KILL false false true false) no_files
    (Some (Stream ("read: 1" ++ nl ++ "read: return 13" ++ nl)%string false)) = COk prog /\
  compile_filter ex_build ex_opts no_files
    (Some (Stream ("read: 1" ++ nl ++ "read: return 13" ++ nl)%string false)) = CFail /\
  run true prog (ex_d 0 0 0 0) = VRet ALLOW.
Proof.
  set (q := compile_filter ex_build (FOpts ACT_KILL false false true false) no_files _). vm_compute in q.
  match eval unfold q in q with COk ?pr => exists pr end. repeat split; reflexivity.
Qed.
Lemma include_case :
  let inc := ("write: 1" ++ nl)%string in
  let fs := fun n => if String.eqb n "./x" then Some (Stream inc false) else None in
  let line := "@include ./x"%string in
  let pre := ("read: 1" ++ nl)%string in
  whole_lines pre /\ whole_lines inc /\ stripped line ("@include " ++ "./x") /\
  all_chars (fun c => c <> newline /\ c <> "000"%char) line /\ (forall v, line <> (v ++ "\")%string) /\
  (forall ls, file_lines inc ls -> Forall (fun l => forall f, ~ stripped l ("@include " ++ f)) ls) /\
  exists prog, compile_filter ex_build ex_opts fs (Some (Stream (pre ++ line ++ String newline "") false)) = COk prog /\
    run true prog (ex_d 1 0 0 0) = VRet ALLOW.
Proof.
  cbv zeta. repeat split.
  - right. exists "read: 1"%string. split; [reflexivity|]. intros v. apply chop_none. reflexivity.
  - right. exists "write: 1"%string. split; [reflexivity|]. intros v. apply chop_none. reflexivity.
  - apply strip_spec. reflexivity.
  - do 12 (destruct i as [|i]; [injection H as <-; discriminate|]). destruct i; discriminate.
  - do 12 (destruct i as [|i]; [injection H as <-; discriminate|]). destruct i; discriminate.
  - intros v. apply chop_none. reflexivity.
  - intros ls H. apply multilines_spec in H. vm_compute in H. subst ls. constructor; [|constructor].
    intros f S. apply strip_spec in S. vm_compute in S. discriminate.
  - set (q := compile_filter _ _ _ _). vm_compute in q.
    match eval unfold q in q with COk ?pr => exists pr end. split; reflexivity.
Qed.
Lemma missing_log_name : exists prog,
  compile_filter ex_build (FOpts ACT_KILL false true false false) no_files
    (Some (Stream ("read: 1" ++ nl)%string false)) = COk prog /\
  (forall nr, ~ In ("send"%string, nr) (b_syscalls ex_build)) /\
  run true prog (ex_d 0xffffffff 0 0 0) = VRet ALLOW.
Proof.
  set (q := compile_filter _ _ _ _). vm_compute in q.
  match eval unfold q in q with COk ?pr => exists pr end. split; [reflexivity|]. split; [|reflexivity].
  intros nr H. cbn in H. repeat destruct H as [H|H]; try discriminate; contradiction.
Qed.
Lemma include_refused b o fs f ls l t prog : names_ok (b_consts b) ->
  file_lines (s_bytes f) ls -> In l ls -> stripped l ("@include" ++ t) ->
  (forall name, t = (" " ++ name)%string ->
     fs name = None \/ (forall u, name <> ("/" ++ u)%string /\ name <> ("./" ++ u)%string)) ->
  compile_filter b o fs (Some f) <> COk prog.
Proof.
  intros NM FL I ST BAD. eapply bad_line_rejected; eauto. intros p X. apply strip_spec in ST.
  inversion X as [raw' S|raw' t' S|raw' t' S|raw' nm q S T INC|raw' s name' nm body bd nr r S E AC NC SN SB FE RB
        |raw' s name' nm body bd S E AC NC SN SB NB NF AL]; subst; apply strip_spec in S; rewrite ST in S; try discriminate.
  - assert (t = (" " ++ nm)%string) as E by (injection S; auto).
    destruct (BAD _ E) as [B|B].
    + destruct INC as (g & FS & _). congruence.
    + destruct T as [u [T|T]]; destruct (B u); congruence.
  - symmetry in S. destruct (NC _ _ S) as [_ K]. congruence.
  - symmetry in S. destruct (NC _ _ S) as [_ K]. congruence.
Qed.
Lemma nested_include_refused b o fs f ls l name g ls' l' t prog : names_ok (b_consts b) ->
  file_lines (s_bytes f) ls -> In l ls -> stripped l ("@include " ++ name) ->
  fs name = Some g -> file_lines (s_bytes g) ls' -> In l' ls' -> stripped l' ("@include" ++ t) ->
  compile_filter b o fs (Some f) <> COk prog.
Proof.
  intros NM FL I ST FS FL' I' ST'. eapply bad_line_in_include; eauto.
  intros p X. apply strip_spec in ST'.
  inversion X as [raw' S|raw' t' S|raw' t' S|raw' nm q S T INC|raw' s name' nm body bd nr r S E AC NC SN SB FE RB
        |raw' s name' nm body bd S E AC NC SN SB NB NF AL]; subst; apply strip_spec in S; rewrite ST' in S; try discriminate.
  - contradiction.
  - symmetry in S. destruct (NC _ _ S) as [_ K]. congruence.
  - symmetry in S. destruct (NC _ _ S) as [_ K]. congruence.
Qed.
Lemma refused_case :
  file_lines (s_bytes (Stream ("@include x" ++ nl) false)) ["@include x"]%string /\
  stripped "@include x" ("@include" ++ " x").
Proof. split; [apply multilines_spec; vm_compute; reflexivity|apply strip_spec; reflexivity]. Qed.
Lemma nested_case :
  let fs := fun n => if String.eqb n "./x" then Some (Stream ("@include ./y" ++ nl) false) else None in
  file_lines (s_bytes (Stream ("@include ./x" ++ nl) false)) ["@include ./x"]%string /\
  stripped "@include ./x" ("@include " ++ "./x") /\
  fs "./x"%string = Some (Stream ("@include ./y" ++ nl) false) /\
  file_lines ("@include ./y" ++ nl) ["@include ./y"]%string /\ stripped "@include ./y" ("@include" ++ " ./y").
Proof.
  cbv zeta. repeat split; try (apply multilines_spec; vm_compute; reflexivity); try (apply strip_spec; reflexivity).
Qed.
Lemma cut_case : whole_lines ("read: 1" ++ nl) /\ all_chars (fun c => c <> newline) "write: 1 "%string.
Proof.
  split.
  - right. exists "read: 1"%string. split; [reflexivity|]. intros v. apply chop_none. reflexivity.
  - intros i c H. do 9 (destruct i as [|i]; [injection H as <-; discriminate|]). destruct i; discriminate.
Qed.
Lemma few_labels_ok b o fs f pol : names_ok (b_consts b) -> reads_policy b o fs f pol ->
  (policy_labels pol <= 512)%nat -> compile_filter b o fs (Some f) <> CUb.
Proof.
  intros NM R L H. apply compile_ub_labels in H. destruct H as (pol' & P & X).
  apply policy_of_spec in R; auto. assert (pol' = pol) as -> by congruence. lia.
Qed.
Lemma few_labels_case : names_ok (b_consts ex_build) /\
  reads_policy ex_build ex_opts no_files ex_policy ex_rules /\ (policy_labels ex_rules = 4)%nat.
Proof. split; [apply ex_names|]. split; [apply ex_reads|reflexivity]. Qed.
Lemma errno_case :
  reads_policy ex_build ex_opts no_files (Stream ("read: return 13" ++ nl) false) [Entry "read" 0 (Return (ERRNO 13))] /\
  reads_body ex_build ex_opts ("return" ++ " 13") (Return (ERRNO 13)) /\
  runs " " ("return" ++ " 13") ["return" ++ ""; "13"]%string /\
  const_expr 64 (b_consts ex_build) "13" 13.
Proof.
  split; [apply policy_of_spec; [apply ex_names|vm_compute; reflexivity]|].
  split; [apply body_of_spec; [apply ex_names|vm_compute; reflexivity]|].
  split; [apply words_spec; reflexivity|].
  apply (parse_constant_spec 64 (b_consts ex_build)); [reflexivity|apply ex_names|vm_compute; reflexivity].
Qed.
Lemma option_case :
  allowed_by_option ex_build (FOpts ACT_KILL false true false false) 1 /\
  ~ allowed_by_option ex_build ex_opts 1.
Proof.
  split.
  - left. split; [reflexivity|]. exists "write"%string. split; [left; reflexivity|]. left. apply assoc_spec. reflexivity.
  - intros [[X _]|[X _]]; discriminate.
Qed.
