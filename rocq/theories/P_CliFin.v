(* The calls that follow the options, and the whole of them (C59). *)
From Coq Require Import DecimalString DecimalN.
From Verif Require Export P_CliLast.
From Coq Require Import Lia.
Local Open Scope N_scope.

(* ---- decimal text ---- *)
Lemma dfold_acc : forall u p, dfold 10 (Npos p) (NilEmpty.string_of_uint u) = Some (Npos (Pos.of_uint_acc u p)).
Proof.
  induction u; intros p; cbn [NilEmpty.string_of_uint Pos.of_uint_acc dfold]; [reflexivity|..];
    match goal with |- context [digit_val 10 ?c] => let v := eval vm_compute in (digit_val 10 c) in change (digit_val 10 c) with v end; cbv iota;
    rewrite <- IHu; f_equal; lia.
Qed.
Lemma dfold_uint : forall u, dfold 10 0 (NilEmpty.string_of_uint u) = Some (N.of_uint u).
Proof.
  unfold N.of_uint. induction u; cbn [NilEmpty.string_of_uint dfold]; [reflexivity|..];
    match goal with |- context [digit_val 10 ?c] => let v := eval vm_compute in (digit_val 10 c) in change (digit_val 10 c) with v end; cbv iota;
    cbn [Pos.of_uint]; first [exact IHu | rewrite <- dfold_acc; reflexivity].
Qed.
Lemma dec_ne n : dec n <> ""%string.
Proof.
  unfold dec. destruct n as [|p]; [discriminate|]. intros X.
  assert (Y : N.of_uint (N.to_uint (Npos p)) = Npos p) by apply DecimalN.Unsigned.of_to.
  destruct (N.to_uint (N.pos p)); discriminate.
Qed.
Lemma dec_value n : digits_val 10 (dec n) n.
Proof. apply digits_val_dfold. split; [apply dec_ne|]. unfold dec. rewrite dfold_uint. f_equal. apply DecimalN.Unsigned.of_to. Qed.
Lemma int_text_value n : n < 2 ^ 31 -> digits_val 10 (int_text n) n.
Proof.
  intros H. change (2 ^ 31) with 2147483648 in H. unfold int_text, to_signed. change (2 ^ Z.of_N 32)%Z with 4294967296%Z.
  change (2 ^ (Z.of_N 32 - 1))%Z with 2147483648%Z. rewrite Z.mod_small by lia. destruct (Z.ltb_spec (Z.of_N n) 2147483648); [|lia].
  destruct (Z.ltb_spec (Z.of_N n) 0); [lia|]. rewrite N2Z.id. apply dec_value.
Qed.
Lemma idmap_text a b : a < 2 ^ 31 -> b < 2 ^ 31 -> map_text a b (build_idmap a b).
Proof. intros A B. exists (int_text a), (int_text b). split; [reflexivity|]. split; apply int_text_value; assumption. Qed.

(* ---- binary filters ---- *)
Section Bytes.
Variable w : world.
Lemma byte_0 x t : x < 256 -> byte (le_value (x :: t)) 0 = x.
Proof. intros H. unfold byte. cbn [le_value]. change (2 ^ (8 * 0)) with 1. rewrite N.div_1_r. symmetry. apply N.mod_unique with (le_value t); lia. Qed.
Lemma byte_S x t i : x < 256 -> byte (le_value (x :: t)) (i + 1) = byte (le_value t) i.
Proof.
  intros H. unfold byte. cbn [le_value]. replace (8 * (i + 1)) with (8 + 8 * i) by lia. rewrite N.pow_add_r. rewrite <- N.div_div by (try apply N.pow_nonzero; lia).
  change (2 ^ 8) with 256. replace ((x + 256 * le_value t) / 256) with (le_value t); [reflexivity|]. apply N.div_unique with x; lia.
Qed.
Lemma bytes_value : forall l, Forall (fun x => x < 256) l -> map (byte (le_value l)) (map N.of_nat (seq 0 (length l))) = l.
Proof.
  assert (S : forall n k, map N.of_nat (seq (S k) n) = map (fun i => i + 1) (map N.of_nat (seq k n))).
  { induction n as [|n IH]; intros k; cbn [seq map]; [reflexivity|]. rewrite (IH (S k)). f_equal. lia. }
  induction 1 as [|x t Hx Ht IH]; [reflexivity|]. cbn [length seq map]. f_equal; [apply byte_0, Hx|].
  rewrite S, map_map. rewrite <- IH at 2. apply map_ext. intros i. apply byte_S, Hx.
Qed.
Lemma bytes_load l : Forall (fun x => x < 256) l -> bytes_of w (N.of_nat (length l)) (load (h_little (w_host w)) l) = l.
Proof.
  intros F. unfold bytes_of, load. rewrite Nat2N.id. destruct (h_little (w_host w)); [apply bytes_value, F|].
  rewrite <- (rev_length l), bytes_value by (apply Forall_rev, F). apply rev_involutive.
Qed.
Lemma instr_roundtrip b0 b1 b2 b3 b4 b5 b6 b7 : Forall (fun x => x < 256) [b0; b1; b2; b3; b4; b5; b6; b7] ->
  instr_bytes w (I (load (h_little (w_host w)) [b0; b1]) b2 b3 (load (h_little (w_host w)) [b4; b5; b6; b7])) = [b0; b1; b2; b3; b4; b5; b6; b7].
Proof.
  intros F. rewrite !Forall_cons_iff in F. destruct F as (F0 & F1 & F2 & F3 & F4 & F5 & F6 & F7 & _).
  unfold instr_bytes. cbn [code jt jf k].
  pose proof (bytes_load [b0; b1] ltac:(repeat constructor; assumption)) as A. pose proof (bytes_load [b4; b5; b6; b7] ltac:(repeat constructor; assumption)) as B.
  change (N.of_nat (length [b0; b1])) with 2 in A. change (N.of_nat (length [b4; b5; b6; b7])) with 4 in B. rewrite A, B. reflexivity.
Qed.
Lemma filter_roundtrip : forall n b, length b = (8 * n)%nat -> Forall (fun x => x < 256) b ->
  concat (map (instr_bytes w) (filter_of_bytes (h_little (w_host w)) n b)) = b.
Proof.
  induction n as [|n IH]; intros b Lb F.
  - destruct b; [reflexivity|discriminate].
  - do 8 (destruct b as [|? b]; [cbn in Lb; lia|]). cbn [length] in Lb.
    cbn [filter_of_bytes firstn skipn nth map concat].
    assert (F8 := F). do 8 (apply Forall_inv_tail in F).
    rewrite instr_roundtrip.
    + rewrite IH; [reflexivity|lia|exact F].
    + repeat (apply Forall_cons; [now apply Forall_inv in F8|apply Forall_inv_tail in F8]). constructor.
Qed.
Lemma value_bound : forall l, Forall (fun x => x < 256) l -> le_value l < 256 ^ N.of_nat (length l).
Proof.
  induction 1 as [|x t Hx Ht IH]; [reflexivity|]. cbn [le_value length]. rewrite Nat2N.inj_succ, N.pow_succ_r by apply N.le_0_l. lia.
Qed.
Lemma load_bound l : Forall (fun x => x < 256) l -> load (h_little (w_host w)) l < 256 ^ N.of_nat (length l).
Proof.
  intros F. unfold load. destruct (h_little (w_host w)); [apply value_bound, F|]. rewrite <- (rev_length l). apply value_bound, Forall_rev, F.
Qed.
Lemma filter_ranges : forall n b, length b = (8 * n)%nat -> Forall (fun x => x < 256) b -> Forall sock_filter (filter_of_bytes (h_little (w_host w)) n b).
Proof.
  induction n as [|n IH]; intros b Lb F; [constructor|].
  do 8 (destruct b as [|? b]; [cbn in Lb; lia|]). cbn [length] in Lb. cbn [filter_of_bytes firstn skipn nth].
  assert (F8 := F). do 8 (apply Forall_inv_tail in F). constructor; [|apply IH; [lia|exact F]].
  rewrite !Forall_cons_iff in F8. destruct F8 as (F0 & F1 & F2 & F3 & F4 & F5 & F6 & F7 & _). unfold sock_filter. cbn [code jt jf k].
  split; [|split; [exact F2|split; [exact F3|]]].
  - apply (load_bound [_; _]). repeat constructor; assumption.
  - apply (load_bound [_; _; _; _]). repeat constructor; assumption.
Qed.
Lemma bytes_len n v : length (bytes_of w n v) = N.to_nat n.
Proof. unfold bytes_of. destruct (h_little (w_host w)); rewrite ?rev_length, !map_length, seq_length; reflexivity. Qed.
Lemma bytes_inj2 a b : a < 2 ^ 16 -> b < 2 ^ 16 -> bytes_of w 2 a = bytes_of w 2 b -> a = b.
Proof.
  intros A B E. assert (Q : map (byte a) [0; 1] = map (byte b) [0; 1]).
  { unfold bytes_of in E. change (map N.of_nat (seq 0 (N.to_nat 2))) with [0; 1] in E. destruct (h_little (w_host w)); [exact E|]. apply (f_equal (@rev N)) in E. rewrite !rev_involutive in E. exact E. }
  cbn [map] in Q. injection Q as Q0 Q1. unfold byte in Q0, Q1. change (2 ^ (8 * 0)) with 1 in *. change (2 ^ (8 * 1)) with 256 in *. change (2 ^ 16) with 65536 in *. rewrite !N.div_1_r in Q0.
  pose proof (N.div_mod a 256 ltac:(discriminate)). pose proof (N.div_mod b 256 ltac:(discriminate)).
  assert (a / 256 < 256) by (apply N.div_lt_upper_bound; lia). assert (b / 256 < 256) by (apply N.div_lt_upper_bound; lia).
  rewrite !(N.mod_small (_ / 256)) in Q1 by assumption. lia.
Qed.
Lemma bytes_inj4 a b : a < 2 ^ 32 -> b < 2 ^ 32 -> bytes_of w 4 a = bytes_of w 4 b -> a = b.
Proof.
  intros A B E. assert (Q : map (byte a) [0; 1; 2; 3] = map (byte b) [0; 1; 2; 3]).
  { unfold bytes_of in E. change (map N.of_nat (seq 0 (N.to_nat 4))) with [0; 1; 2; 3] in E. destruct (h_little (w_host w)); [exact E|]. apply (f_equal (@rev N)) in E. rewrite !rev_involutive in E. exact E. }
  cbn [map] in Q. injection Q as Q0 Q1 Q2 Q3. unfold byte in Q0, Q1, Q2, Q3.
  assert (D : forall x, x < 2 ^ 32 -> x = (x / 2 ^ (8 * 0)) mod 256 + 256 * ((x / 2 ^ (8 * 1)) mod 256 + 256 * ((x / 2 ^ (8 * 2)) mod 256 + 256 * ((x / 2 ^ (8 * 3)) mod 256)))).
  { intros x X. change (2 ^ (8 * 0)) with 1. change (2 ^ (8 * 1)) with 256. change (2 ^ (8 * 2)) with (256 * 256). change (2 ^ (8 * 3)) with (256 * 256 * 256). change (2 ^ 32) with 4294967296 in X.
    rewrite <- !N.div_div by discriminate. rewrite N.div_1_r.
    pose proof (N.div_mod x 256 ltac:(discriminate)). pose proof (N.div_mod (x / 256) 256 ltac:(discriminate)). pose proof (N.div_mod (x / 256 / 256) 256 ltac:(discriminate)).
    assert (x / 256 / 256 / 256 < 256) by (do 3 (apply N.div_lt_upper_bound; [discriminate|]); exact X).
    rewrite (N.mod_small (x / 256 / 256 / 256)) by assumption. revert H H0 H1. clear.
    generalize (x mod 256) ((x / 256) mod 256) ((x / 256 / 256) mod 256) (x / 256 / 256 / 256). generalize (x / 256 / 256). generalize (x / 256). intros. lia. }
  rewrite (D a A), (D b B), Q0, Q1, Q2, Q3. reflexivity.
Qed.
Lemma app_same {A} (a b c d : list A) : length a = length c -> (a ++ b = c ++ d)%list -> a = c /\ b = d.
Proof. revert c. induction a as [|x a IH]; intros [|y c] E H; try discriminate; [split; [reflexivity|exact H]|]. cbn [app] in H. injection H as -> H. destruct (IH c (eq_add_S _ _ E) H) as [-> ->]. split; reflexivity. Qed.
Lemma instr_bytes_len i : length (instr_bytes w i) = 8%nat.
Proof. unfold instr_bytes. rewrite !app_length, !bytes_len. reflexivity. Qed.
Lemma instr_bytes_inj i i' : sock_filter i -> sock_filter i' -> instr_bytes w i = instr_bytes w i' -> i = i'.
Proof.
  intros (A & _ & _ & B) (A' & _ & _ & B') E. unfold instr_bytes in E. apply app_same in E; [|rewrite !bytes_len; reflexivity]. destruct E as [E1 E]. cbn [app] in E. injection E as E2 E3 E4.
  apply bytes_inj2 in E1; [|assumption..]. apply bytes_inj4 in E4; [|assumption..]. destruct i as [c1 j1 f1 k1], i' as [c2 j2 f2 k2]. cbn [code jt jf k] in *. subst. reflexivity.
Qed.
Lemma filter_bytes_inj : forall p p', Forall sock_filter p -> Forall sock_filter p' -> concat (map (instr_bytes w) p) = concat (map (instr_bytes w) p') -> p = p'.
Proof.
  induction p as [|i p IH]; intros [|i' p'] F F' E; [reflexivity| | |].
  - apply (f_equal (@length N)) in E. cbn [map concat] in E. rewrite app_length, instr_bytes_len in E. discriminate.
  - apply (f_equal (@length N)) in E. cbn [map concat] in E. rewrite app_length, instr_bytes_len in E. discriminate.
  - cbn [map concat] in E. apply app_same in E; [|rewrite !instr_bytes_len; reflexivity]. destruct E as [E1 E2].
    f_equal; [exact (instr_bytes_inj _ _ (Forall_inv F) (Forall_inv F') E1)|exact (IH _ (Forall_inv_tail F) (Forall_inv_tail F') E2)].
Qed.
Lemma filter_file_one p prog prog' : filter_file w p prog -> filter_file w p prog' -> prog = prog'.
Proof. intros [A F] [A' F']. rewrite A in A'. injection A' as A'. exact (filter_bytes_inj _ _ F F' A'). Qed.
Lemma read_filter p prog : files_ok w -> read_seccomp_filter w p = Go prog -> filter_file w p prog.
Proof.
  intros F E. unfold read_seccomp_filter in E. unfold filter_file. destruct (w_bytes w p) as [b|] eqn:B; [|discriminate]. destruct (F _ _ B) as [L Fb].
  destruct (N.eqb_spec (N.of_nat (length b) mod 8) 0) as [M|]; [|discriminate]. cbn [negb] in E. injection E as <-.
  assert (D : N.of_nat (length b) = 8 * (N.of_nat (length b) / 8)) by (rewrite (N.div_mod (N.of_nat (length b)) 8) at 1 by lia; lia).
  rewrite N.mod_small by lia. rewrite filter_roundtrip; [|lia|exact Fb]. split; [reflexivity|]. apply filter_ranges; [lia|exact Fb].
Qed.
End Bytes.

(* ---- the end of parse_args ---- *)
Section Finish.
Variable w : world.
Definition core (c : cli) := ((c_forward_signals c, c_set_uidmap c, c_uidmap c, c_set_gidmap c, c_gidmap c, c_change_remount c, c_remount_mode c),
  (c_suppl_gids c, c_use_seccomp_filter c, c_use_seccomp_filter_binary c, c_filter_path c, c_tmp_size c, c_uid c, c_gid c, c_preload c)).
Lemma finish_parse args c c' : finish w args c = Go c' -> c_parse_mode c = false.
Proof.
  unfold finish. intros E. apply then_go in E. destruct E as (c1 & E1 & E). apply (keeps_go c_parse_mode) in E1; [|keeps_tac].
  apply guard_go2 in E. destruct E as [_ E]. apply then_go in E. destruct E as (c2 & E2 & _). apply look_go in E2. rewrite E1 in E2.
  destruct (c_parse_mode c); [|reflexivity]. cbn [only_if] in E2. unfold gen_config in E2. apply look_go in E2.
  destruct (c_config_path c1); [|discriminate]. destruct (_ || _); discriminate.
Qed.
Lemma called_nil c c' : c_calls c' = c_calls c -> called [] c c'.
Proof. intros E. unfold called. rewrite E, app_nil_r. reflexivity. Qed.
Lemma called_app l1 l2 a b c : called l1 a b -> called l2 b c -> called (l1 ++ l2) a c.
Proof. unfold called. intros A B. rewrite B, A, app_assoc. reflexivity. Qed.
(* the calls after the loop, from the state at its end *)
Definition path_text (c : cli) : string := match c_filter_path c with Some p => p | None => ""%string end.
Inductive end_calls (c : cli) : list api -> Prop :=
  | end_with rm fl :
      (c_change_remount c = false /\ rm = [] \/
       c_change_remount c = true /\ (c_remount_mode c = None /\ rm = [A_skip_remount_private] \/
         exists m f, c_remount_mode c = Some m /\ remount_flag m = Some f /\ rm = [A_remount_mode f])) ->
      (c_use_seccomp_filter c = true /\ fl = [A_parse_seccomp_filters (w_policy w (path_text c))] \/
       c_use_seccomp_filter c = false /\ c_use_seccomp_filter_binary c = true /\
         (exists prog, read_seccomp_filter w (path_text c) = Go prog /\ fl = [A_set_seccomp_filters prog]) \/
       c_use_seccomp_filter c = false /\ c_use_seccomp_filter_binary c = false /\ runtime c = false /\ fl = [] \/
       c_use_seccomp_filter c = false /\ c_use_seccomp_filter_binary c = false /\ runtime c = true /\
         (w_exists w default_policy_path = false /\ fl = [A_no_new_privs] \/
          w_exists w default_policy_path = true /\ exists prog, read_seccomp_filter w default_policy_path = Go prog /\
            fl = [A_use_seccomp_filter; A_set_seccomp_filters prog; A_no_new_privs])) ->
      end_calls c (
        (if (if (c_log_to_stderr c =? -1)%Z then w_tty w else negb (c_log_to_stderr c =? 0)%Z) then [A_preserve_fd 2 2] else []) ++
        (if c_set_uidmap c then [A_namespace_user; A_namespace_pids; A_uidmap (match c_uidmap c with Some m => m | None => build_idmap (c_uid c) (w_getuid w) end)] else []) ++
        (if c_set_gidmap c then gid_map_calls w (match c_gidmap c with Some m => m | None => build_idmap (c_gid c) (w_getgid w) end) else []) ++
        (if c_forward_signals c then [A_forward_signals] else []) ++ rm ++
        (match c_suppl_gids c with [] => [] | l => [A_set_supplementary_gids l] end) ++ fl ++
        (if c_tmp_size c =? 0 then [] else [A_mount_tmp_size (c_tmp_size c)]) ++ [A_add_minimalistic_mountns_fs_rules])%list.
Lemma core_path a b : core a = core b -> path_text a = path_text b.
Proof. unfold core, path_text. intros H. injection H. intros _ _ _ _ -> _ _ _ _ _ _ _ _ _ _. reflexivity. Qed.
Lemma core_preload a b : core a = core b -> c_preload a = c_preload b.
Proof. unfold core. intros H. injection H. intros -> _ _ _ _ _ _ _ _ _ _ _ _ _ _. reflexivity. Qed.
Lemma filter_calls path c c' : cli_set_seccomp_filters w path c = Go c' -> exists prog, read_seccomp_filter w path = Go prog /\ called [A_set_seccomp_filters prog] c c'.
Proof.
  unfold cli_set_seccomp_filters. destruct (read_seccomp_filter w path) as [prog| | |]; cbn [go_on]; try discriminate. intros E.
  exists prog. split; [reflexivity|]. exact (calls_lib w _ _ _ E).
Qed.
Lemma maps_calls c c' : only_if (c_set_uidmap c || c_set_gidmap c) (set_ugid_mapping w) c = Go c' ->
  called ((if c_set_uidmap c then [A_namespace_user; A_namespace_pids; A_uidmap (match c_uidmap c with Some m => m | None => build_idmap (c_uid c) (w_getuid w) end)] else []) ++
        (if c_set_gidmap c then gid_map_calls w (match c_gidmap c with Some m => m | None => build_idmap (c_gid c) (w_getgid w) end) else []))%list c c'.
Proof.
  intros E. assert (E' : set_ugid_mapping w c = Go c' \/ c_set_uidmap c = false /\ c_set_gidmap c = false /\ c' = c).
  { destruct (c_set_uidmap c), (c_set_gidmap c); cbn [orb only_if] in E; auto. injection E as <-. auto. }
  clear E. destruct E' as [E|(-> & -> & ->)]; [|now apply called_nil].
  unfold set_ugid_mapping in E. apply look_go in E. cbv beta in E. apply then_go in E. destruct E as (d & E1 & E2). apply called_app with d.
  - destruct (c_set_uidmap c); cbn [only_if] in E1; [|injection E1 as <-; now apply called_nil].
    apply then_go in E1. destruct E1 as (d1 & E1 & E3). apply then_go in E3. destruct E3 as (d2 & E3 & E4).
    exact (called_app [_] [_; _] _ _ _ (calls_lib w _ _ _ E1) (called_app [_] [_] _ _ _ (calls_lib w _ _ _ E3) (calls_lib0 w _ _ _ E4))).
  - destruct (c_set_gidmap c); cbn [only_if] in E2; [|injection E2 as <-; now apply called_nil]. unfold gid_map_calls.
    apply then_go in E2. destruct E2 as (d1 & E2 & E3). apply then_go in E3. destruct E3 as (d2 & E3 & E4). apply then_go in E4. destruct E4 as (d3 & E4 & E5).
    apply (called_app [_; _] _ _ d2); [exact (called_app [_] [_] _ _ _ (calls_lib w _ _ _ E2) (calls_lib w _ _ _ E3))|].
    apply (called_app _ [_] _ d3); [|exact (calls_lib0 w _ _ _ E5)].
    destruct (w_cap_setgid w); cbn [negb only_if] in E4; [exact (calls_nothing _ _ E4)|exact (calls_lib w _ _ _ E4)].
Qed.
Ltac runtime_keeps := match goal with |- keeps ?f _ => unfold keeps; act_walk (keeps_ordered f); intros; first [reflexivity |
  unfold runtime; cbn [c_jail put_calls put_jail]; match goal with H : api_step _ _ _ = ARet _ _ |- _ => exact (runtime_step _ _ _ _ _ H) end] end.
Ltac cored K H := let X := fresh "X" in pose proof K as X; unfold core in X; injection X;
  do 15 (let Y := fresh "Y" in intros Y; rewrite ?Y in H; clear Y); clear X.
Ltac next E c1 E1 := apply then_go in E; destruct E as (c1 & E1 & E).
Ltac core_of E1 K := match type of E1 with _ ?x = Go ?y => assert (K : core y = core x) by (revert E1; apply (keeps_go core); keeps_tac) end.
Ltac run_of E1 R := match type of E1 with _ ?x = Go ?y => assert (R : runtime y = runtime x) by (revert E1; apply (keeps_go runtime); runtime_keeps) end.
Lemma finish_calls args c c' : finish w args c = Go c' -> exists fin, end_calls c fin /\ called fin c c' /\ c_preload c' = c_preload c.
Proof.
  intros E. pose proof (finish_parse _ _ _ E) as PM. unfold finish in E.
  next E c1 E1. core_of E1 K1. run_of E1 R1.
  assert (P1 : c_parse_mode c1 = c_parse_mode c) by (revert E1; apply (keeps_go c_parse_mode); keeps_tac).
  assert (C1 : called (if (if (c_log_to_stderr c =? -1)%Z then w_tty w else negb (c_log_to_stderr c =? 0)%Z) then [A_preserve_fd 2 2] else []) c c1).
  { apply look_go in E1. destruct (if (_ =? _)%Z then _ else _) in E1 |- *; cbn [only_if] in E1; [exact (calls_lib0 w _ _ _ E1)|exact (calls_nothing _ _ E1)]. }
  apply guard_go2 in E. destruct E as [_ E].
  next E c2 E2. apply look_go in E2. rewrite P1, PM in E2. cbn [only_if] in E2. injection E2 as <-.
  next E c3 E3. core_of E3 K3. run_of E3 R3.
  assert (C3 : called ((if c_set_uidmap c1 then [A_namespace_user; A_namespace_pids; A_uidmap (match c_uidmap c1 with Some m => m | None => build_idmap (c_uid c1) (w_getuid w) end)] else []) ++
        (if c_set_gidmap c1 then gid_map_calls w (match c_gidmap c1 with Some m => m | None => build_idmap (c_gid c1) (w_getgid w) end) else []))%list c1 c3).
  { apply look_go in E3. exact (maps_calls _ _ E3). }
  apply guard_go2 in E. destruct E as [_ E].
  next E c4 E4. core_of E4 K4. run_of E4 R4.
  assert (C4 : called (if c_forward_signals c3 then [A_forward_signals] else []) c3 c4).
  { apply look_go in E4. destruct (c_forward_signals c3); cbn [only_if] in E4; [exact (calls_lib w _ _ _ E4)|exact (calls_nothing _ _ E4)]. }
  apply guard_go2 in E. destruct E as [_ E]. apply guard_go2 in E. destruct E as [_ E].
  next E c5 E5. core_of E5 K5. run_of E5 R5.
  assert (C5 : exists rm, (c_change_remount c4 = false /\ rm = [] \/
       c_change_remount c4 = true /\ (c_remount_mode c4 = None /\ rm = [A_skip_remount_private] \/
         exists m f, c_remount_mode c4 = Some m /\ remount_flag m = Some f /\ rm = [A_remount_mode f])) /\ called rm c4 c5).
  { apply look_go in E5. destruct (c_change_remount c4); cbn [only_if] in E5.
    - destruct (c_remount_mode c4) as [m|].
      + unfold cli_remount_mode in E5. destruct (remount_flag m) as [f|] eqn:RF; [|discriminate]. exists [A_remount_mode f].
        split; [right; split; [reflexivity|right; eauto]|exact (calls_lib w _ _ _ E5)].
      + exists [A_skip_remount_private]. split; [right; split; [reflexivity|left; auto]|exact (calls_lib w _ _ _ E5)].
    - exists []. split; [left; auto|exact (calls_nothing _ _ E5)]. }
  destruct C5 as (rm & RM & C5).
  next E c6 E6. core_of E6 K6. run_of E6 R6.
  assert (C6 : called (match c_suppl_gids c5 with [] => [] | l => [A_set_supplementary_gids l] end) c5 c6).
  { apply look_go in E6. destruct (c_suppl_gids c5); [exact (calls_nothing _ _ E6)|exact (calls_lib w _ _ _ E6)]. }
  next E c7 E7. core_of E7 K7.
  assert (C7 : exists fl, 
      (c_use_seccomp_filter c6 = true /\ fl = [A_parse_seccomp_filters (w_policy w (path_text c6))] \/
       c_use_seccomp_filter c6 = false /\ c_use_seccomp_filter_binary c6 = true /\
         (exists prog, read_seccomp_filter w (path_text c6) = Go prog /\ fl = [A_set_seccomp_filters prog]) \/
       c_use_seccomp_filter c6 = false /\ c_use_seccomp_filter_binary c6 = false /\ runtime c6 = false /\ fl = [] \/
       c_use_seccomp_filter c6 = false /\ c_use_seccomp_filter_binary c6 = false /\ runtime c6 = true /\
         (w_exists w default_policy_path = false /\ fl = [A_no_new_privs] \/
          w_exists w default_policy_path = true /\ exists prog, read_seccomp_filter w default_policy_path = Go prog /\
            fl = [A_use_seccomp_filter; A_set_seccomp_filters prog; A_no_new_privs])) /\ called fl c6 c7).
  { apply look_go in E7. cbv zeta in E7. fold (path_text c6) in E7. destruct (c_use_seccomp_filter c6).
    - eexists. split; [left; split; reflexivity|exact (calls_lib w _ _ _ E7)].
    - destruct (c_use_seccomp_filter_binary c6).
      + apply filter_calls in E7. destruct E7 as (prog & RP & CP). eexists. split; [right; left; eauto 6|exact CP].
      + fold (runtime c6) in E7. destruct (runtime c6); cbn [only_if] in E7.
        * apply then_go in E7. destruct E7 as (d & E7 & E8). destruct (w_exists w default_policy_path); cbn [only_if] in E7.
          -- apply then_go in E7. destruct E7 as (d1 & E7 & E9). apply filter_calls in E9. destruct E9 as (prog & RP & CP).
             eexists. split; [right; right; right; repeat split; right; split; [reflexivity|exists prog; split; [exact RP|reflexivity]]|].
             apply (called_app [_] [_; _] _ _ _ (calls_lib w _ _ _ E7)). exact (called_app [_] [_] _ _ _ CP (calls_lib w _ _ _ E8)).
          -- injection E7 as <-. eexists. split; [right; right; right; repeat split; left; split; reflexivity|exact (calls_lib w _ _ _ E8)].
        * injection E7 as <-. exists []. split; [right; right; left; auto|now apply called_nil]. }
  destruct C7 as (fl & FL & C7).
  next E c8 E8. core_of E8 K8.
  assert (C8 : called (if c_tmp_size c7 =? 0 then [] else [A_mount_tmp_size (c_tmp_size c7)]) c7 c8).
  { apply look_go in E8. destruct (c_tmp_size c7 =? 0); cbn [negb only_if] in E8; [exact (calls_nothing _ _ E8)|exact (calls_lib w _ _ _ E8)]. }
  next E c9 E9. core_of E9 K9. pose proof (calls_lib w _ _ _ E9) as C9.
  match type of E with ?a _ = _ => assert (C10 : calls [] a) by (apply calls_keeps; keeps_tac); assert (K10 : keeps c_preload a) by keeps_tac end.
  specialize (C10 _ _ E). specialize (K10 _ _ E). cbv beta in K10.
  assert (KA : core c1 = core c) by exact K1. assert (KB : core c3 = core c) by congruence. assert (KC : core c4 = core c) by congruence.
  assert (KD : core c5 = core c) by congruence. assert (KE : core c6 = core c) by congruence. assert (KF : core c7 = core c) by congruence.
  assert (KG : core c9 = core c) by congruence. assert (RR : runtime c6 = runtime c) by congruence.
  clear K1 K3 K4 K5 K6 K7 K8 K9 R1 R3 R4 R5 R6 E1 E3 E4 E5 E6 E7 E8 E9 E.
  exists ((if (if (c_log_to_stderr c =? -1)%Z then w_tty w else negb (c_log_to_stderr c =? 0)%Z) then [A_preserve_fd 2 2] else []) ++
        (if c_set_uidmap c then [A_namespace_user; A_namespace_pids; A_uidmap (match c_uidmap c with Some m => m | None => build_idmap (c_uid c) (w_getuid w) end)] else []) ++
        (if c_set_gidmap c then gid_map_calls w (match c_gidmap c with Some m => m | None => build_idmap (c_gid c) (w_getgid w) end) else []) ++
        (if c_forward_signals c then [A_forward_signals] else []) ++ rm ++
        (match c_suppl_gids c with [] => [] | l => [A_set_supplementary_gids l] end) ++ fl ++
        (if c_tmp_size c =? 0 then [] else [A_mount_tmp_size (c_tmp_size c)]) ++ [A_add_minimalistic_mountns_fs_rules])%list.
  cored KA C3. cored KB C4. cored KC RM. cored KD C6. cored KE FL. rewrite RR in FL. cored KF C8.
  rewrite (core_path _ _ KE) in FL.
  split; [apply end_with; [exact RM|exact FL]|split].
  - apply (called_app _ _ _ _ _ C1). rewrite app_assoc. apply (called_app _ _ _ _ _ C3). apply (called_app _ _ _ _ _ C4). apply (called_app _ _ _ _ _ C5).
    apply (called_app _ _ _ _ _ C6). apply (called_app _ _ _ _ _ C7). apply (called_app _ _ _ _ _ C8).
    pose proof (called_app _ _ _ _ _ C9 C10) as X. exact X.
  - rewrite K10. exact (core_preload _ _ KG).
Qed.
End Finish.

Section Whole.
Variable w : world.
Hypothesis L32 : 32 <= w_long w.
Hypothesis names : names_ok (w_consts w).
Lemma remount_in m f : remount_flag m = Some f -> In (m, f) propagation.
Proof.
  unfold remount_flag, streq. destruct (String.eqb_spec m "shared"); [intros [= <-]; subst; left; reflexivity|].
  destruct (String.eqb_spec m "private"); [intros [= <-]; subst; right; left; reflexivity|].
  destruct (String.eqb_spec m "slave"); [intros [= <-]; subst; right; right; left; reflexivity|].
  destruct (String.eqb_spec m "unbindable"); [intros [= <-]; subst; right; right; right; left; reflexivity|discriminate].
Qed.
Lemma closes_end pre opts c fin : let L := all_options w opts in
  cli_options w opts (cli_start pre) = Go c -> c_parse_mode c = false -> ~ conflict L -> Forall (fits w) L -> small_ids w L -> files_ok w ->
  end_calls w c fin -> closes w L fin.
Proof.
  intros L E P NC F [SU SG] FO H.
  destruct (fields_end w _ _ _ E) as (Ffs & Fsu & Fu & Fsg & Fg & Fcr & Frm & Fsf & Fsb & Fpre).
  pose proof (log_end w _ _ _ E eq_refl) as Flog. pose proof (runtime_end w _ _ _ E) as Frun. change (runtime (cli_start pre)) with true in Frun.
  destruct (path_end w _ _ _ E P) as [PS PB]. pose proof (groups_end w L32 _ _ _ E P eq_refl (Forall_impl _ (fits_id w) F)) as GR.
  pose proof (tmp_end w _ _ _ E P eq_refl) as TS. destruct (ids_end w L32 _ _ _ E P eq_refl eq_refl (Forall_impl _ (fits_id w) F)) as [UE GE].
  fold L in Ffs, Fsu, Fu, Fsg, Fg, Fcr, Frm, Fsf, Fsb, Fpre, Flog, Frun, PS, PB, GR, TS, UE, GE.
  change (code_of O_z) with (short "z") in *. change (code_of O_m) with (short "m") in *. change (code_of O_M_) with (short "M") in *.
  change (code_of O_K) with (short "K") in *. change (code_of O_S_) with (short "S") in *. change (code_of O_bpf) with OPT_SECCOMP_BPF_BINARY in *.
  cbn [cli_start c_forward_signals c_set_uidmap c_uidmap c_set_gidmap c_gidmap c_change_remount c_remount_mode c_use_seccomp_filter c_use_seccomp_filter_binary] in Ffs, Fsu, Fu, Fsg, Fg, Fcr, Frm, Fsf, Fsb.
  destruct H as [rm fl RM FL]. rewrite Flog.
  replace (if c_forward_signals c then [A_forward_signals] else []) with (match last_arg L (short "z") with None => [A_forward_signals] | Some _ => [] end)
    by (rewrite Ffs; destruct (last_arg L (short "z")); reflexivity).
  apply closes_with.
  - rewrite Fsu, Fu. destruct (last_arg L (short "m")) as [[t|]|] eqn:LM.
    + now apply um_given.
    + assert (HM : has L (short "m")) by (apply last_has; eauto). destruct (SU HM) as [S1 S2].
      apply um_own with (c_uid c); auto. apply idmap_text; auto.
    + now apply um_none.
  - rewrite Fsg, Fg. destruct (last_arg L (short "M")) as [[t|]|] eqn:LM.
    + now apply gm_given.
    + assert (HM : has L (short "M")) by (apply last_has; eauto). destruct (SG HM) as [S1 S2].
      apply gm_own with (c_gid c); auto. apply idmap_text; auto.
    + now apply gm_none.
  - rewrite Fcr, Frm in RM. destruct (last_arg L (short "K")) as [[t|]|] eqn:LK.
    + destruct RM as [[X _]|[_ [[X _]|(m & f & [= <-] & RF & ->)]]]; [discriminate..|]. apply rm_mode with t; auto using remount_in.
    + destruct RM as [[X _]|[_ [[_ ->]|(m & f & X & _)]]]; [discriminate| |discriminate]. now apply rm_skip.
    + destruct RM as [[_ ->]|[X _]]; [|discriminate]. now apply rm_none.
  - destruct (c_suppl_gids c) as [|g gs].
    + apply gr_none. inversion GR. reflexivity.
    + apply gr_some; [discriminate|exact GR].
  - assert (NN : c_use_seccomp_filter c = false -> ~ has L (short "S")).
    { intros X. apply last_none. rewrite Fsf in X. destruct (last_arg L (short "S")); [discriminate|reflexivity]. }
    assert (NB : c_use_seccomp_filter_binary c = false -> ~ has L OPT_SECCOMP_BPF_BINARY).
    { intros X. apply last_none. rewrite Fsb in X. destruct (last_arg L OPT_SECCOMP_BPF_BINARY); [discriminate|reflexivity]. }
    assert (NR : runtime c = false -> has L OPT_NO_DEFAULT_RUNTIME).
    { intros X. apply last_has. rewrite Frun in X. destruct (last_arg L OPT_NO_DEFAULT_RUNTIME); [eauto|discriminate]. }
    assert (NR' : runtime c = true -> ~ has L OPT_NO_DEFAULT_RUNTIME).
    { intros X. apply last_none. rewrite Frun in X. destruct (last_arg L OPT_NO_DEFAULT_RUNTIME); [discriminate|reflexivity]. }
    destruct FL as [[X ->]|[(X & Y & prog & RP & ->)|[(X & Y & R & ->)|(X & Y & R & [[Z ->]|(Z & prog & RP & ->)])]]].
    + rewrite Fsf in X. destruct (last_arg L (short "S")) as [a|] eqn:LS; [|discriminate].
      assert (HS : has L (short "S")) by (apply last_has; eauto). destruct (PS (fun B => NC (policy_and_binary _ HS B)) a eq_refl) as [NA FP].
      destruct a as [p|]; [|now destruct NA]. unfold path_text. rewrite FP. apply fl_policy. exact LS.
    + rewrite Fsb in Y. destruct (last_arg L OPT_SECCOMP_BPF_BINARY) as [a|] eqn:LS; [|discriminate].
      destruct (PB (NN X) a eq_refl) as [NA FP]. destruct a as [p|]; [|now destruct NA]. unfold path_text in RP. rewrite FP in RP.
      apply fl_binary with p; [exact LS|]. exact (read_filter w _ _ FO RP).
    + apply fl_no_default; [split|]; auto.
    + apply fl_default; [split| |]; auto.
    + apply fl_default_policy; [split| | |]; auto. exact (read_filter w _ _ FO RP).
  - exact TS.
Qed.
Lemma options_stand pre opts args s : let L := all_options w opts in
  minijail0 w pre opts args = Go s -> Forall (fits w) L -> small_ids w L -> files_ok w ->
  stands_for w L (st_preload s) (match last_arg L OPT_PRELOAD_LIBRARY with Some (Some p) => p | _ => pre end) (map fst (c_calls (st_cli s))).
Proof.
  intros L E F SI FO. apply minijail0_go in E. destruct E as (c & E & D).
  pose proof (conflict_stops w _ _ _ _ E) as NC. apply parse_go in E. destruct E as (c1 & E & FN).
  pose proof (finish_parse w _ _ _ FN) as P. destruct (finish_calls w _ _ _ FN) as (fin & EC & CF & PL).
  destruct (calls_loop w L32 names _ _ _ E P eq_refl F) as (each & A & B). pose proof (closes_end _ _ _ _ E P NC F SI FO EC) as CL.
  exists each, fin. split; [exact A|]. split; [exact CL|]. unfold called in CF. rewrite B in CF.
  destruct D as [[_ ->]|(_ & p & PP & _ & c' & E' & ->)]; cbn [st_cli st_preload].
  - rewrite CF, app_nil_r. reflexivity.
  - pose proof (calls_lib w _ _ _ E') as C'. unfold called in C'. rewrite C', CF, <- app_assoc. do 3 f_equal.
    destruct (fields_end w _ _ _ E) as (_ & _ & _ & _ & _ & _ & _ & _ & _ & Fpre). rewrite PL in PP. rewrite PP in Fpre. fold L in Fpre.
    change (code_of O_preload) with OPT_PRELOAD_LIBRARY in Fpre. destruct (last_arg L OPT_PRELOAD_LIBRARY) as [[q|]|]; [congruence|discriminate|].
    cbn in Fpre. congruence.
Qed.
End Whole.
