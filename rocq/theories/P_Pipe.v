From Coq Require Import ZifyBool ZifyNat ZifyN Lia.
From Verif Require Export M_Pipe S_Pipe P_Copy.
Local Open Scope N_scope.

Lemma stake_sub n s : (n <= String.length s)%nat -> String.length (stake n s) = n.
Proof. apply stake_length. Qed.
Lemma write_result w : real_errors w -> forall fuel i p sent,
  match write_exactly fuel w i p sent with
  | Wrote rc out i' => (i <= i')%nat /\ exists took rest, p = (took ++ rest)%string /\ out = (sent ++ took)%string /\
      (rc = 0%Z <-> rest = EmptyString) /\
      (rc <> 0%Z -> exists k, i' = S k /\ w k = Fail (- rc) /\ (- rc)%Z <> EINTR)
  | More out => exists took rest, p = (took ++ rest)%string /\ out = (sent ++ took)%string /\ rest <> EmptyString
  end.
Proof.
  intros RE. induction fuel as [|fuel IH]; intros i p sent.
  - destruct p as [|c p]; cbn [write_exactly].
    + split; [lia|]. exists EmptyString, EmptyString. split; [reflexivity|]. split; [symmetry; apply sapp_nil_r|]. split; [tauto|]. intros X; destruct (X eq_refl).
    + exists EmptyString, (String c p). rewrite sapp_nil_r. repeat split; auto. discriminate.
  - destruct p as [|c p]; cbn [write_exactly].
    { split; [lia|]. exists EmptyString, EmptyString. split; [reflexivity|]. split; [symmetry; apply sapp_nil_r|]. split; [tauto|]. intros X; destruct (X eq_refl). }
    set (q := String c p). destruct (w i) as [n|en] eqn:W.
    + set (k := N.to_nat (N.min n (sizeof q))). specialize (IH (S i) (sdrop k q) (sent ++ stake k q)%string).
      destruct (write_exactly fuel w (S i) (sdrop k q) (sent ++ stake k q)) as [rc out i'|out].
      * destruct IH as (L & took & rest & E & O & Z & X). split; [lia|]. exists (stake k q ++ took)%string, rest.
        rewrite sapp_assoc, <- E, stake_sdrop. rewrite O, sapp_assoc. auto.
      * destruct IH as (took & rest & E & O & Z). exists (stake k q ++ took)%string, rest.
        rewrite sapp_assoc, <- E, stake_sdrop. rewrite O, sapp_assoc. auto.
    + destruct (Z.eqb_spec en EINTR) as [->|NE].
      * specialize (IH (S i) q sent). destruct (write_exactly fuel w (S i) q sent) as [rc out i'|out]; [|exact IH].
        destruct IH as (L & IH). split; [lia|exact IH].
      * split; [lia|]. exists EmptyString, q. rewrite sapp_nil_r. specialize (RE i en W). split; [reflexivity|]. split; [reflexivity|]. split; [split; [intros; lia|discriminate]|].
        intros _. exists i. rewrite Z.opp_involutive. auto.
Qed.
(* It ends when the kernel keeps making progress. *)
Lemma sdrop_zero s : sdrop 0 s = s. Proof. destruct s; reflexivity. Qed.
Lemma more_fuel w : forall fuel extra i p sent rc out i', write_exactly fuel w i p sent = Wrote rc out i' ->
  write_exactly (fuel + extra) w i p sent = Wrote rc out i'.
Proof.
  induction fuel as [|fuel IH]; intros extra i p sent rc out i' H.
  - destruct p; [|discriminate]. destruct extra; exact H.
  - destruct p as [|c p]; [exact H|]. cbn [Nat.add write_exactly] in *. destruct (w i); [apply IH, H|].
    destruct (_ =? _)%Z; [apply IH, H|exact H].
Qed.
Lemma write_ends w : (forall m, exists k, (m <= k)%nat /\ progress (w k)) ->
  forall p i sent, exists fuel rc out i', write_exactly fuel w i p sent = Wrote rc out i'.
Proof.
  intros FAIR. assert (G : forall len p, (String.length p <= len)%nat -> forall i sent, exists fuel rc out i', write_exactly fuel w i p sent = Wrote rc out i').
  2: { intros p. apply (G (String.length p)). auto. }
  induction len as [|len IH]; intros p LP i sent.
  - destruct p; [|cbn in LP; lia]. exists O, 0%Z, sent, i. reflexivity.
  - destruct p as [|c p]; [exists O, 0%Z, sent, i; reflexivity|].
    destruct (FAIR i) as (k & LK & PK). remember (k - i)%nat as d eqn:D.
    revert i LK D sent. induction d as [d IHd] using lt_wf_ind. intros i LK D sent.
    set (q := String c p) in *. destruct (w i) as [n|en] eqn:W.
    + set (m := N.to_nat (N.min n (sizeof q))). destruct m as [|m'] eqn:EM.
      * (* nothing written *)
        assert (i <> k) as NK. { intros ->. rewrite W in PK. cbn in PK. subst m. unfold sizeof in EM. subst q. cbn [String.length] in EM. lia. }
        destruct (IHd (d - 1)%nat ltac:(lia) (S i) ltac:(lia) ltac:(lia) sent) as (fuel & rc & out & i' & H).
        exists (S fuel), rc, out, i'. subst q. cbn [write_exactly]. rewrite W. fold m. rewrite EM. cbn [sdrop stake]. rewrite sapp_nil_r. exact H.
      * destruct (IH (sdrop m q)) with (i := S i) (sent := (sent ++ stake m q)%string) as (fuel & rc & out & i' & H).
        { rewrite sdrop_length. lia. }
        exists (S fuel), rc, out, i'. subst q. cbn [write_exactly]. rewrite W. exact H.
    + destruct (Z.eqb_spec en EINTR) as [E|NE].
      * assert (i <> k) as NK. { intros ->. rewrite W in PK. cbn in PK. contradiction. }
        destruct (IHd (d - 1)%nat ltac:(lia) (S i) ltac:(lia) ltac:(lia) sent) as (fuel & rc & out & i' & H).
        exists (S fuel), rc, out, i'. subst q. cbn [write_exactly]. rewrite W, E. exact H.
      * exists 1%nat, (- en)%Z, sent, (S i). subst q. cbn [write_exactly]. rewrite W. destruct (Z.eqb_spec en EINTR); [contradiction|reflexivity].
Qed.

(* sending *)
Lemma sent_bytes addr e j fuel w out i : sound e j -> real_errors w ->
  minijail_to_fd addr j fuel w = Some (Wrote 0 out i) ->
  out = (num 8 (sizeof (image addr j ++ body j)) ++ (image addr j ++ body j))%string.
Proof.
  intros H RE. pose proof H as SD. unfold minijail_to_fd.
  rewrite (size_sound addr e j SD), (marshal_sound addr e j _ SD), N.ltb_irrefl.
  rewrite stake_all by (unfold sizeof; lia). set (all := (image addr j ++ body j)%string).
  destruct (sizeof all =? 0); [intros X; injection X; discriminate|]. cbn [negb Z.eqb].
  pose proof (write_result w RE fuel 0 (num 8 (sizeof all)) EmptyString) as W1.
  destruct (write_exactly fuel w 0 (num 8 (sizeof all)) EmptyString) as [[|?|?] s1 i1|s1]; intros X; try discriminate X.
  destruct W1 as (_ & took & rest & E1 & O1 & Z1 & _). assert (rest = EmptyString) as -> by (apply Z1; reflexivity).
  pose proof (write_result w RE fuel i1 all s1) as W2. injection X as X. rewrite X in W2.
  destruct W2 as (_ & took2 & rest2 & E2 & O2 & Z2 & _). assert (rest2 = EmptyString) as -> by (apply Z2; reflexivity).
  rewrite sapp_nil_r in E1, E2. subst took took2. rewrite O2, O1. reflexivity.
Qed.
(* A reader gets a prefix of what was sent. *)
Lemma stake_prefix n s : exists r, s = (stake n s ++ r)%string.
Proof. exists (sdrop n s). symmetry. apply stake_sdrop. Qed.
Lemma slen_num n : String.length (num 8 n) = 8%nat. Proof. apply num_len. Qed.
Lemma prefix_take (p l w a : string) n : String.length (stake n p) = String.length w -> (p ++ l = w ++ a)%string ->
  stake n p = w /\ (sdrop n p ++ l = a)%string.
Proof.
  intros L E. rewrite <- (stake_sdrop n p) in E. rewrite sapp_assoc in E. apply sapp_len_inv in E; auto.
Qed.
Lemma body_gids addr j : gids_ok j -> j_suppl_gid_list j <> Null -> j_suppl_gid_count j * 4 <= sizeof (image addr j ++ body j).
Proof.
  intros G NN. unfold gids_ok in G. unfold sizeof. rewrite slen_app. unfold body. rewrite !slen_app. unfold gid_text.
  destruct (j_suppl_gid_list j) as [|l| |]; try contradiction.
  assert (LN : String.length (images (num 4) l) = (length l * 4)%nat) by (apply images_len; intros; apply num_len). rewrite G, LN. lia.
Qed.
Lemma received_pipe addr e e' j j0 piped lost r : sound e j -> c_typed j -> nonnull addr ->
  k_landlock_abi e' = k_landlock_abi e -> sizeof (image addr j ++ body j) < 2 ^ 64 ->
  let all := (num 8 (sizeof (image addr j ++ body j)) ++ (image addr j ++ body j))%string in
  all = (piped ++ lost)%string ->
  minijail_from_fd e' j0 r piped = FOk (received j) \/ exists rc j', minijail_from_fd e' j0 r piped = FErr rc j' /\ (rc < 0)%Z.
Proof.
  intros H TY NN KE FIT. cbv zeta. pose proof H as SD. set (b := (image addr j ++ body j)%string).
  intros E. unfold minijail_from_fd.
  destruct (r O) as [m|en]; cbn [read_once]; [|right; eexists; eexists; split; [reflexivity|reflexivity]].
  set (n := N.to_nat (N.min m 8)). destruct (N.eqb_spec (sizeof (stake n piped)) 8) as [L8|L8]; cbn [negb];
    [|right; eexists; eexists; split; [reflexivity|reflexivity]].
  unfold sizeof in L8. destruct (prefix_take piped lost (num 8 (sizeof b)) b n) as [E1 E2]; [rewrite num_len; lia|auto|].
  rewrite E1.
  destruct (N.ltb_spec USHRT_MAX (val (num 8 (sizeof b)))) as [BIG|SMALL]; [right; eexists; eexists; split; [reflexivity|reflexivity]|].
  rewrite val_num_id in * by exact FIT. set (sz := sizeof b) in *.
  destruct (r 1%nat) as [m2|en]; cbn [read_once]; [|right; eexists; eexists; split; [reflexivity|reflexivity]].
  set (n2 := N.to_nat (N.min m2 sz)).
  destruct (N.eqb_spec (sizeof (stake n2 (sdrop n piped))) sz) as [L9|L9]; cbn [negb];
    [|right; eexists; eexists; split; [reflexivity|reflexivity]].
  unfold sizeof in L9. destruct (prefix_take (sdrop n piped) lost b EmptyString n2) as [E3 _].
  { subst sz. unfold sizeof in *. lia. }
  { rewrite sapp_nil_r. exact E2. }
  rewrite E3.
  assert (GC : j_suppl_gid_count j <= 65536).
  { pose proof SD as (_ & _ & G & _). destruct (j_suppl_gid_list j) eqn:GL.
    - unfold gids_ok in G. rewrite GL in G. lia.
    - pose proof (body_gids addr j G ltac:(congruence)). fold b in H0. fold sz in H0. unfold USHRT_MAX in SMALL. lia.
    - unfold gids_ok in G. rewrite GL in G. contradiction.
    - unfold gids_ok in G. rewrite GL in G. contradiction. }
  destruct (unmarshal_any addr e e' j0 j NN SD TY KE GC) as [(_ & _ & U)|(_ & j' & U)]; fold b in U; rewrite U; auto.
  right. eexists. eexists. split; [reflexivity|reflexivity].
Qed.
Lemma whole_reads addr e e' j j0 r : sound e j -> c_typed j -> nonnull addr ->
  k_landlock_abi e' = k_landlock_abi e -> sizeof (image addr j ++ body j) <= 65535 ->
  Forall (fun r => fr_flags r <> 0) (j_fs_rules j) -> j_fs_rules_fd j <> 0%Z ->
  (exists n, r O = Bytes n /\ 8 <= n) -> (exists n, r 1%nat = Bytes n /\ sizeof (image addr j ++ body j) <= n) ->
  minijail_from_fd e' j0 r (num 8 (sizeof (image addr j ++ body j)) ++ (image addr j ++ body j))%string = FOk (received j).
Proof.
  intros H TY NN KE SM NZ FD (n0 & R0 & L0) (n1 & R1 & L1). pose proof H as SD.
  set (b := (image addr j ++ body j)%string) in *. unfold minijail_from_fd. rewrite R0. cbn [read_once].
  replace (N.to_nat (N.min n0 8)) with 8%nat by lia.
  assert (S1 : stake 8 (num 8 (sizeof b) ++ b)%string = num 8 (sizeof b)).
  { rewrite <- (slen_num (sizeof b)) at 1. apply stake_app. }
  assert (S2 : sdrop 8 (num 8 (sizeof b) ++ b)%string = b).
  { rewrite <- (slen_num (sizeof b)) at 1. apply sdrop_app. }
  rewrite S1, S2. replace (sizeof (num 8 (sizeof b))) with 8 by (unfold sizeof; rewrite num_len; reflexivity). cbn [N.eqb Pos.eqb negb].
  rewrite val_num_id by (change (256 ^ N.of_nat 8) with (2 ^ 64); change (2 ^ 64) with 18446744073709551616; lia).
  destruct (N.ltb_spec USHRT_MAX (sizeof b)) as [X|_]; [unfold USHRT_MAX in X; lia|].
  rewrite R1. cbn [read_once]. replace (N.to_nat (N.min n1 (sizeof b))) with (String.length b) by (unfold sizeof in *; lia).
  rewrite stake_all by lia. rewrite N.eqb_refl. cbn [negb].
  assert (GC : j_suppl_gid_count j <= 65536).
  { pose proof SD as (_ & _ & G & _). destruct (j_suppl_gid_list j) eqn:GL.
    - unfold gids_ok in G. rewrite GL in G. lia.
    - pose proof (body_gids addr j G ltac:(congruence)). fold b in H0. lia.
    - unfold gids_ok in G. rewrite GL in G. contradiction.
    - unfold gids_ok in G. rewrite GL in G. contradiction. }
  unfold b. rewrite (unmarshal_image addr e e' j0 j); auto.
Qed.

Lemma Some_eq {A} (x y : A) : Some x = Some y -> x = y.
Proof. congruence. Qed.
Lemma delivered_prefix addr e j fuel w res : sound e j -> real_errors w ->
  minijail_to_fd addr j fuel w = Some res ->
  exists lost, (num 8 (sizeof (image addr j ++ body j)) ++ (image addr j ++ body j))%string = (delivered res ++ lost)%string.
Proof.
  intros H RE. pose proof H as SD. unfold minijail_to_fd.
  rewrite (size_sound addr e j SD), (marshal_sound addr e j _ SD), N.ltb_irrefl.
  rewrite stake_all by (unfold sizeof; lia). set (all := (image addr j ++ body j)%string).
  destruct (sizeof all =? 0); [intros X; apply Some_eq in X; subst res; cbn; eauto|]. cbn [negb Z.eqb].
  pose proof (write_result w RE fuel 0 (num 8 (sizeof all)) EmptyString) as W1.
  destruct (write_exactly fuel w 0 (num 8 (sizeof all)) EmptyString) as [rc s1 i1|s1].
  - destruct W1 as (_ & took & rest & E1 & O1 & Z1 & _). cbn [append] in O1. subst s1. destruct rc as [|p|p].
    + assert (rest = EmptyString) as -> by (apply Z1; reflexivity). rewrite sapp_nil_r in E1. subst took.
      pose proof (write_result w RE fuel i1 all (num 8 (sizeof all))) as W2. intros X; apply Some_eq in X; subst res.
      destruct (write_exactly fuel w i1 all _) as [rc2 s2 i2|s2]; cbn [delivered].
      * destruct W2 as (_ & took2 & rest2 & E2 & -> & _). exists rest2. rewrite sapp_assoc, <- E2. reflexivity.
      * destruct W2 as (took2 & rest2 & E2 & -> & _). exists rest2. rewrite sapp_assoc, <- E2. reflexivity.
    + intros X; apply Some_eq in X; subst res. cbn [delivered]. exists (rest ++ all)%string. rewrite E1, sapp_assoc. reflexivity.
    + intros X; apply Some_eq in X; subst res. cbn [delivered]. exists (rest ++ all)%string. rewrite E1, sapp_assoc. reflexivity.
  - destruct W1 as (took & rest & E1 & O1 & _). cbn [append] in O1. subst s1. intros X; apply Some_eq in X; subst res. cbn [delivered].
    exists (rest ++ all)%string. rewrite E1, sapp_assoc. reflexivity.
Qed.
Lemma sound_truncated addr e e' j j0 fuel w res size piped lost r : sound e j -> c_typed j -> nonnull addr ->
  k_landlock_abi e' = k_landlock_abi e -> real_errors w ->
  minijail_size addr j = Some size -> size < 2 ^ 64 ->
  minijail_to_fd addr j fuel w = Some res -> delivered res = (piped ++ lost)%string ->
  minijail_from_fd e' j0 r piped = FOk (received j) \/ exists rc j', minijail_from_fd e' j0 r piped = FErr rc j' /\ (rc < 0)%Z.
Proof.
  intros H TY NN KE RE SZ FIT T D. pose proof H as SD.
  rewrite (size_sound addr e j SD) in SZ. injection SZ as <-.
  destruct (delivered_prefix _ _ _ _ _ _ H RE T) as [l2 E]. rewrite D, sapp_assoc in E.
  apply (received_pipe addr e e' j j0 piped (lost ++ l2)%string r); auto.
Qed.
Lemma sound_transfer addr e e' j j0 fuel w out i size r : sound e j -> c_typed j -> nonnull addr ->
  k_landlock_abi e' = k_landlock_abi e -> real_errors w ->
  minijail_size addr j = Some size -> size <= 65535 ->
  Forall (fun r => fr_flags r <> 0) (j_fs_rules j) -> j_fs_rules_fd j <> 0%Z ->
  minijail_to_fd addr j fuel w = Some (Wrote 0 out i) ->
  (exists n, r O = Bytes n /\ 8 <= n) -> (exists n, r 1%nat = Bytes n /\ size <= n) ->
  minijail_from_fd e' j0 r out = FOk (received j).
Proof.
  intros H TY NN KE RE SZ SM NZ FD T R0 R1. pose proof H as SD.
  rewrite (size_sound addr e j SD) in SZ. injection SZ as <-.
  rewrite (sent_bytes _ _ _ _ _ _ _ H RE T). apply (whole_reads addr e e'); auto.
Qed.

Lemma never_truncated addr e e' h j j0 fuel w res size piped lost r : history e minijail_new h j -> c_typed j -> nonnull addr ->
  k_landlock_abi e' = k_landlock_abi e -> real_errors w ->
  minijail_size addr j = Some size -> size < 2 ^ 64 ->
  minijail_to_fd addr j fuel w = Some res -> delivered res = (piped ++ lost)%string ->
  minijail_from_fd e' j0 r piped = FOk (received j) \/ exists rc j', minijail_from_fd e' j0 r piped = FErr rc j' /\ (rc < 0)%Z.
Proof. intros H. apply reachable_sound in H. revert H. apply sound_truncated. Qed.
Lemma whole_transfer addr e e' h j j0 fuel w out i size r : history e minijail_new h j -> c_typed j -> nonnull addr ->
  k_landlock_abi e' = k_landlock_abi e -> real_errors w ->
  minijail_size addr j = Some size -> size <= 65535 ->
  Forall (fun r => fr_flags r <> 0) (j_fs_rules j) -> j_fs_rules_fd j <> 0%Z ->
  minijail_to_fd addr j fuel w = Some (Wrote 0 out i) ->
  (exists n, r O = Bytes n /\ 8 <= n) -> (exists n, r 1%nat = Bytes n /\ size <= n) ->
  minijail_from_fd e' j0 r out = FOk (received j).
Proof. intros H. apply reachable_sound in H. revert H. apply sound_transfer. Qed.

(* Witnesses: single bytes and interruptions when writing. *)
Definition slow : script := fun i => if Nat.even i then Fail EINTR else Bytes 3.
Definition whole : script := fun _ => Bytes 100000.
Definition short : script := fun i => match i with O => Bytes 8 | _ => Bytes 100 end.
Lemma pipe_case : exists h j, history full_env minijail_new h j /\ map fst h = full_calls /\ real_errors slow /\
  minijail_size any_addr j = Some 2399 /\
  exists out i, minijail_to_fd any_addr j 1700 slow = Some (Wrote 0 out i) /\ i = 1606%nat /\
    minijail_from_fd full_env minijail_new whole out = FOk (received j) /\
    minijail_from_fd full_env minijail_new short out = FErr (-22) minijail_new.
Proof.
  destruct full_case as (h & j & A & B & _). exists h, j. split; [exact A|]. split; [exact B|].
  split. { intros i n. unfold slow. destruct (Nat.even i); intros X; [injection X as <-; reflexivity|discriminate]. }
  assert (E : api_run full_env minijail_new full_calls = Some j).
  { rewrite <- B. clear B. induction A; [reflexivity|]. cbn [map fst api_run]. rewrite H. exact IHA. }
  vm_compute in E. injection E as <-. clear A B.
  split; [vm_compute; reflexivity|].
  eexists. eexists. split; [vm_compute; reflexivity|]. split; [reflexivity|]. split; vm_compute; reflexivity.
Qed.
Lemma slow_case : exists out, write_exactly 20 slow 0 "hello, pipe"%string EmptyString = Wrote 0 out 8 /\ out = "hello, pipe"%string.
Proof. eexists. split; reflexivity. Qed.
Lemma slow_fair : forall m, exists k, (m <= k)%nat /\ progress (slow k).
Proof.
  intros m. exists (2 * m + 1)%nat. split; [lia|]. unfold slow. replace (Nat.even (2 * m + 1)) with false; [cbn; lia|].
  symmetry. rewrite Nat.add_comm, Nat.even_add_mul_2. reflexivity.
Qed.
