(* Proofs about the configuration methods of the Rust bindings. *)
From Coq Require Import ZifyBool ZifyNat ZifyN Lia.
From Verif Require Export S_Rust P_Round P_Settings P_RulesApi.
Local Open Scope N_scope.

Lemma has_nul_no s : has_nul s = false <-> no_nul s.
Proof.
  induction s as [|c s IH]; cbn [has_nul no_nul]; [tauto|]. rewrite orb_false_iff, IH, Ascii.eqb_neq. tauto.
Qed.

(* ---- the bytes of a filter ---- *)
Lemma split8 b : (8 <= String.length b)%nat ->
  instr_image (load_instr (stake 8 b)) = stake 8 b /\ b = (stake 8 b ++ sdrop 8 b)%string /\
  String.length (sdrop 8 b) = (String.length b - 8)%nat.
Proof.
  intros L. do 8 (destruct b as [|? b]; [cbn in L; lia|]).
  split; [|split; [reflexivity|cbn; lia]].
  cbn [stake]. unfold load_instr, instr_image, word. cbn [stake sdrop code jt jf k].
  repeat match goal with |- context [num ?w (val ?s)] => change (num w (val s)) with (num (String.length s) (val s)); rewrite num_val end.
  reflexivity.
Qed.
Lemma load_typed b : u16 (code (load_instr b)) /\ u8 (jt (load_instr b)) /\ u8 (jf (load_instr b)) /\ u32 (k (load_instr b)).
Proof.
  assert (W : forall off w, word off w b < 256 ^ N.of_nat w).
  { intros off w. unfold word. eapply N.lt_le_trans; [apply val_lt|]. apply N.pow_le_mono_r; [lia|].
    unfold sizeof. assert (SL : forall n s, (String.length (stake n s) <= n)%nat).
    { induction n as [|n IH]; intros s; [destruct s; cbn; lia|]. destruct s as [|c s]; cbn; [lia|]. specialize (IH s). lia. }
    specialize (SL w (sdrop off b)). lia. }
  cbn [load_instr code jt jf k]. unfold u16, u8, u32.
  split; [apply (W 0%nat 2%nat)|]. split; [apply (W 2%nat 1%nat)|]. split; [apply (W 3%nat 1%nat)|apply (W 4%nat 4%nat)].
Qed.
Lemma blocks_back n : forall b, String.length b = (n * 8)%nat -> images instr_image (map load_instr (blocks n 8 b)) = b.
Proof.
  induction n as [|n IH]; intros b L; [destruct b; [reflexivity|discriminate L]|].
  destruct (split8 b) as (A & B & C); [lia|]. cbn [blocks map images]. rewrite A, IH by lia. symmetry. exact B.
Qed.
Lemma blocks_length n w : forall b, length (blocks n w b) = n.
Proof. induction n as [|n IH]; intros b; cbn; auto. Qed.
Lemma filter_back prog b : bytes_of prog b ->
  N.of_nat (String.length b) mod 8 = 0 /\ N.of_nat (String.length b) / 8 = N.of_nat (length prog) /\
  map load_instr (blocks (N.to_nat (N.of_nat (String.length b) / 8)) 8 b) = prog.
Proof.
  intros ((L & T) & ->).
  assert (LN : String.length (images instr_image prog) = (length prog * 8)%nat) by (apply images_len; reflexivity).
  rewrite LN. replace (N.of_nat (length prog * 8)) with (N.of_nat (length prog) * 8) by lia.
  rewrite N.mod_mul, N.div_mul by lia. split; [reflexivity|]. split; [reflexivity|]. rewrite Nat2N.id.
  rewrite <- (sapp_nil_r (images instr_image prog)), (blocks_images instr_image 8) by reflexivity.
  rewrite map_map. rewrite <- (map_id prog) at 2. apply map_ext_in. intros x X. rewrite Forall_forall in T.
  destruct (T x X) as (A & B & C & D). apply load_instr_image; auto.
Qed.
Lemma filter_there b : N.of_nat (String.length b) mod 8 = 0 -> N.of_nat (String.length b) / 8 <= 65535 ->
  bytes_of (map load_instr (blocks (N.to_nat (N.of_nat (String.length b) / 8)) 8 b)) b.
Proof.
  intros M L. set (n := N.to_nat (N.of_nat (String.length b) / 8)).
  assert (LB : String.length b = (n * 8)%nat).
  { subst n. pose proof (N.div_mod (N.of_nat (String.length b)) 8 ltac:(lia)). lia. }
  split; [split|].
  - rewrite map_length, blocks_length. subst n. lia.
  - apply Forall_forall. intros x X. apply in_map_iff in X. destruct X as (y & <- & _). apply load_typed.
  - symmetry. apply blocks_back. exact LB.
Qed.
(* what parse_seccomp_bytes does, in terms of the filter *)
Lemma parse_bytes e b addr j :
  (exists prog, bytes_of prog b /\ addr mod 4 = 0 /\ parse_seccomp_bytes e b addr j = ignoring (minijail_set_seccomp_filters e prog j)) \/
  (~ program b addr /\ exists x, parse_seccomp_bytes e b addr j = RsErr x j).
Proof.
  unfold parse_seccomp_bytes. cbv zeta.
  destruct (N.eqb_spec (N.of_nat (String.length b) mod 8) 0) as [M|M]; cbn [negb].
  2:{ right. split; [|eexists; reflexivity]. intros ((prog & B) & _). apply M. apply (filter_back prog b B). }
  destruct (N.ltb_spec 65535 (N.of_nat (String.length b) / 8)) as [L|L].
  { right. split; [|eexists; reflexivity]. intros ((prog & B) & _). destruct (filter_back prog b B) as (_ & E & _).
    destruct B as ((B & _) & _). lia. }
  destruct (N.eqb_spec (addr mod 4) 0) as [A|A]; cbn [negb].
  - left. eexists. split; [apply filter_there; assumption|]. split; [exact A|]. reflexivity.
  - right. split; [|eexists; reflexivity]. intros (_ & X). exact (A X).
Qed.

(* ---- a method makes at most one call ---- *)
Lemma void_zero e j a rc j' : api_step e j a = ARet rc j' ->
  match a with
  | A_change_user _ _ | A_change_group _ _ | A_rlimit _ _ _ | A_enter_chroot _ | A_enter_pivot_root _ | A_mount_with_data _ _ _ _ _ | A_mount _ _ _ _
  | A_bind _ _ _ _ | A_preserve_fd _ _ | A_namespace_set_hostname _ | A_add_to_cgroup _ | A_write_pid_file _
  | A_fs_rx _ | A_fs_ro _ | A_fs_rw _ | A_fs_advanced_rw _ | A_fs_edit _ | A_fs_access_rights _ _
  | A_add_remount _ _ | A_add_hook _ _ _ | A_set_preload_path _ => True
  | _ => rc = 0%Z
  end.
Proof. intros H. destruct a; try exact Logic.I; api_cases H; reflexivity. Qed.
(* refusals: the code is negative and nothing changes *)
Lemma refusal e j a rc j' : api_step e j a = ARet rc j' -> rc <> 0%Z ->
  match a with
  | A_rlimit _ _ _ | A_enter_chroot _ | A_enter_pivot_root _ | A_mount_with_data _ _ _ _ _ | A_bind _ _ _ _ | A_use_alt_syscall _ | A_preserve_fd _ _ => (rc < 0)%Z /\ j' = j
  | A_change_user _ _ | A_change_group _ _ => j' = j
  | _ => True
  end.
Proof.
  intros H N. destruct a; try exact Logic.I; api_cases H; try (exfalso; apply N; reflexivity); try (split; [reflexivity|reflexivity]); reflexivity.
Qed.

Section One.
Variables (o : outside) (e : kenv) (j : jail).
(* the three things a method can come to *)
Definition outcome (m : method) : Prop :=
  (exists x, rust_step o e j m = RsErr x j /\ ~ acceptable o m) \/
  (acceptable o m /\ exists a, stands_for o m a /\
     match api_step e j a with
     | ARet rc j' => (rust_step o e j m = RsOk tt j' /\ (tells m -> rc = 0%Z)) \/
                     (exists x, rust_step o e j m = RsErr x j' /\ rc <> 0%Z /\ tells m /\ j' = j)
     | ADie => rust_step o e j m = RsDie
     | AUb => rust_step o e j m = RsUb
     end).
Lemma out_ignoring m a : acceptable o m -> stands_for o m a -> rust_step o e j m = ignoring (api_step e j a) ->
  (tells m -> match a with
  | A_change_user _ _ | A_change_group _ _ | A_rlimit _ _ _ | A_enter_chroot _ | A_enter_pivot_root _ | A_mount_with_data _ _ _ _ _ | A_mount _ _ _ _
  | A_bind _ _ _ _ | A_preserve_fd _ _ | A_namespace_set_hostname _ | A_add_to_cgroup _ | A_write_pid_file _
  | A_fs_rx _ | A_fs_ro _ | A_fs_rw _ | A_fs_advanced_rw _ | A_fs_edit _ | A_fs_access_rights _ _
  | A_add_remount _ _ | A_add_hook _ _ _ | A_set_preload_path _ => False | _ => True end) -> outcome m.
Proof.
  intros A S E V. right. split; [exact A|]. exists a. split; [exact S|]. rewrite E.
  destruct (api_step e j a) as [rc j'| |] eqn:X; cbn [ignoring]; [|reflexivity|reflexivity].
  left. split; [reflexivity|]. intros T. specialize (V T). pose proof (void_zero e j a rc j' X) as Z. destruct a; solve [exact Z|contradiction].
Qed.
Lemma out_checking m a err : acceptable o m -> stands_for o m a -> tells m -> rust_step o e j m = checking (api_step e j a) err ->
  match a with A_enter_chroot _ | A_enter_pivot_root _ | A_mount_with_data _ _ _ _ _ | A_bind _ _ _ _ | A_use_alt_syscall _ => True | _ => False end ->
  outcome m.
Proof.
  intros A S T E V. right. split; [exact A|]. exists a. split; [exact S|]. rewrite E.
  destruct (api_step e j a) as [rc j'| |] eqn:X; cbn [checking]; [|reflexivity|reflexivity].
  destruct (Z.eq_dec rc 0) as [->|N]; [left; split; [reflexivity|reflexivity]|].
  pose proof (refusal e j a rc j' X N) as R.
  assert (Q : (rc < 0)%Z /\ j' = j) by (destruct a; try contradiction; exact R). destruct Q as [Q ->].
  right. apply Z.ltb_lt in Q. rewrite Q. eexists. split; [reflexivity|]. split; [exact N|]. split; [exact T|reflexivity].
Qed.
Lemma cstr {A} s err (kk : string -> rust_res A) : to_cstring s err j kk = (if has_nul s then RsErr err j else kk s).
Proof. reflexivity. Qed.
Lemma nul_case s : has_nul s = true -> ~ no_nul s.
Proof. intros H N. apply has_nul_no in N. rewrite N in H. discriminate H. Qed.
Lemma nul_free s : has_nul s = false -> no_nul s.
Proof. apply has_nul_no. Qed.
Lemma utf_case p : o_utf8 o p = false -> ~ path o p.
Proof. intros H [U _]. rewrite U in H. discriminate H. Qed.
Lemma path_ok p : o_utf8 o p = true -> has_nul p = false -> path o p.
Proof. intros U N. split; [exact U|apply nul_free, N]. Qed.
Lemma path_nul p : has_nul p = true -> ~ path o p.
Proof. intros N [_ H]. exact (nul_case _ N H). Qed.

Ltac bad := left; eexists; split; [reflexivity|].
Lemma outcomes m : outcome m.
Proof.
  destruct m;
    try (eapply out_ignoring; [exact Logic.I|reflexivity|reflexivity|exact (fun _ => Logic.I)]).
  - (* change_user *) unfold outcome. cbn [rust_step acceptable]. rewrite cstr. destruct (has_nul user) eqn:N; [bad; apply nul_case, N|].
    pose proof (out_ignoring (R_change_user user) (A_change_user user (o_user o user))) as Q. unfold outcome in Q.
    cbn [rust_step acceptable] in Q. rewrite cstr, N in Q. apply Q; [apply nul_free, N|reflexivity|reflexivity|intros []].
  - unfold outcome. cbn [rust_step acceptable]. rewrite cstr. destruct (has_nul group) eqn:N; [bad; apply nul_case, N|].
    pose proof (out_ignoring (R_change_group group) (A_change_group group (o_group o group))) as Q. unfold outcome in Q.
    cbn [rust_step acceptable] in Q. rewrite cstr, N in Q. apply Q; [apply nul_free, N|reflexivity|reflexivity|intros []].
  - (* set_rlimit *) right. split; [exact Logic.I|]. exists (A_rlimit kind cur max). split; [reflexivity|].
    cbn [rust_step]. destruct (api_step e j (A_rlimit kind cur max)) as [rc j'| |] eqn:X; [|reflexivity|reflexivity].
    destruct (Z.eqb_spec rc 0) as [->|N]; [left; split; reflexivity|].
    destruct (refusal e j _ rc j' X N) as [_ ->]. right. eexists. split; [reflexivity|]. split; [exact N|]. split; [exact Logic.I|reflexivity].
  - (* program *) unfold outcome. cbn [rust_step acceptable stands_for].
    destruct (o_is_file o file) eqn:F; cbn [negb].
    2:{ bad. intros [? _]. discriminate. }
    destruct (o_read o file) as [b|] eqn:B.
    2:{ bad. intros (_ & b & X & _). discriminate X. }
    destruct (parse_bytes e b addr j) as [(prog & P & Al & ->)|(NP & x & ->)].
    + right. split.
      { split; [reflexivity|]. exists b. split; [reflexivity|]. split; [exists prog; exact P|exact Al]. }
      exists (A_set_seccomp_filters prog). split; [exists b, prog; auto|].
      cbn [api_step]. destruct (minijail_set_seccomp_filters e prog j) as [rc j'| |] eqn:X; cbn [ignoring]; [|reflexivity|reflexivity].
      left. split; [reflexivity|]. intros _. exact (void_zero e j (A_set_seccomp_filters prog) rc j' X).
    + left. exists x. split; [reflexivity|]. intros (_ & b' & X & Q). injection X as <-. exact (NP Q).
  - (* bytes *) unfold outcome. cbn [rust_step acceptable stands_for].
    destruct (parse_bytes e buffer addr j) as [(prog & P & Al & ->)|(NP & x & ->)].
    + right. split; [split; [exists prog; exact P|exact Al]|].
      exists (A_set_seccomp_filters prog). split; [exists prog; auto|].
      cbn [api_step]. destruct (minijail_set_seccomp_filters e prog j) as [rc j'| |] eqn:X; cbn [ignoring]; [|reflexivity|reflexivity].
      left. split; [reflexivity|]. intros _. exact (void_zero e j (A_set_seccomp_filters prog) rc j' X).
    + left. exists x. split; [reflexivity|exact NP].
  - (* filters *) unfold outcome. cbn [rust_step acceptable]. destruct (o_is_file o file) eqn:F; cbn [negb].
    2:{ bad. intros [? _]. discriminate. }
    unfold to_str. destruct (o_utf8 o file) eqn:U; [|bad; intros [_ Q]; exact (utf_case _ U Q)].
    rewrite cstr. destruct (has_nul file) eqn:N; [bad; intros [_ Q]; exact (path_nul _ N Q)|].
    pose proof (out_ignoring (R_parse_seccomp_filters file) (A_parse_seccomp_filters (o_policy o file))) as Q. unfold outcome in Q.
    cbn [rust_step acceptable] in Q. unfold to_str in Q. rewrite F, U, cstr, N in Q. cbn [negb] in Q.
    apply Q; [split; [reflexivity|apply path_ok; assumption]|reflexivity|reflexivity|exact (fun _ => Logic.I)].
  - unfold outcome. cbn [rust_step acceptable]. rewrite cstr. destruct (has_nul map) eqn:N; [bad; apply nul_case, N|].
    pose proof (out_ignoring (R_uidmap map) (A_uidmap map)) as Q. unfold outcome in Q.
    cbn [rust_step acceptable] in Q. rewrite cstr, N in Q. apply Q; [apply nul_free, N|reflexivity|reflexivity|exact (fun _ => Logic.I)].
  - unfold outcome. cbn [rust_step acceptable]. rewrite cstr. destruct (has_nul map) eqn:N; [bad; apply nul_case, N|].
    pose proof (out_ignoring (R_gidmap map) (A_gidmap map)) as Q. unfold outcome in Q.
    cbn [rust_step acceptable] in Q. rewrite cstr, N in Q. apply Q; [apply nul_free, N|reflexivity|reflexivity|exact (fun _ => Logic.I)].
  - unfold outcome. cbn [rust_step acceptable]. rewrite cstr. destruct (has_nul table) eqn:N; [bad; apply nul_case, N|].
    pose proof (out_checking (R_use_alt_syscall table) (A_use_alt_syscall table) (fun rc => E_SetAltSyscallTable rc table)) as Q. unfold outcome in Q.
    cbn [rust_step acceptable] in Q. rewrite cstr, N in Q. apply Q; [apply nul_free, N|reflexivity|exact Logic.I|reflexivity|exact Logic.I].
  - unfold outcome. cbn [rust_step acceptable]. unfold to_str. destruct (o_utf8 o dir) eqn:U; [|bad; exact (utf_case _ U)].
    rewrite cstr. destruct (has_nul dir) eqn:N; [bad; exact (path_nul _ N)|].
    pose proof (out_checking (R_enter_chroot dir) (A_enter_chroot dir) (fun rc => E_SettingChrootDirectory rc dir)) as Q. unfold outcome in Q.
    cbn [rust_step acceptable] in Q. unfold to_str in Q. rewrite U, cstr, N in Q.
    apply Q; [apply path_ok; assumption|reflexivity|exact Logic.I|reflexivity|exact Logic.I].
  - unfold outcome. cbn [rust_step acceptable]. unfold to_str. destruct (o_utf8 o dir) eqn:U; [|bad; exact (utf_case _ U)].
    rewrite cstr. destruct (has_nul dir) eqn:N; [bad; exact (path_nul _ N)|].
    pose proof (out_checking (R_enter_pivot_root dir) (A_enter_pivot_root dir) (fun rc => E_SettingPivotRootDirectory rc dir)) as Q. unfold outcome in Q.
    cbn [rust_step acceptable] in Q. unfold to_str in Q. rewrite U, cstr, N in Q.
    apply Q; [apply path_ok; assumption|reflexivity|exact Logic.I|reflexivity|exact Logic.I].
  - (* mount *) unfold outcome. cbn [rust_step acceptable]. unfold mount_with_data, to_str.
    destruct (o_utf8 o src) eqn:U1; [|bad; intros (Q & _); exact (utf_case _ U1 Q)].
    rewrite !cstr. destruct (has_nul src) eqn:N1; [bad; intros (Q & _); exact (path_nul _ N1 Q)|].
    destruct (o_utf8 o dest) eqn:U2; [|bad; intros (_ & Q & _); exact (utf_case _ U2 Q)].
    destruct (has_nul dest) eqn:N2; [bad; intros (_ & Q & _); exact (path_nul _ N2 Q)|].
    destruct (has_nul fstype) eqn:N3; [bad; intros (_ & _ & Q); exact (nul_case _ N3 Q)|]. cbn [has_nul].
    pose proof (out_checking (R_mount src dest fstype flags) (A_mount_with_data src dest fstype flags (Some ""%string)) (fun rc => E_Mount rc src dest fstype flags "")) as Q.
    unfold outcome in Q. cbn [rust_step acceptable] in Q. unfold mount_with_data, to_str in Q. rewrite U1, !cstr, N1, U2, N2, N3 in Q. cbn [has_nul] in Q.
    apply Q; [split; [apply path_ok; assumption|split; [apply path_ok; assumption|apply nul_free, N3]]|reflexivity|exact Logic.I|reflexivity|exact Logic.I].
  - unfold outcome. cbn [rust_step acceptable]. unfold mount_with_data, to_str.
    destruct (o_utf8 o src) eqn:U1; [|bad; intros (Q & _); exact (utf_case _ U1 Q)].
    rewrite !cstr. destruct (has_nul src) eqn:N1; [bad; intros (Q & _); exact (path_nul _ N1 Q)|].
    destruct (o_utf8 o dest) eqn:U2; [|bad; intros (_ & Q & _); exact (utf_case _ U2 Q)].
    destruct (has_nul dest) eqn:N2; [bad; intros (_ & Q & _); exact (path_nul _ N2 Q)|].
    destruct (has_nul fstype) eqn:N3; [bad; intros (_ & _ & Q & _); exact (nul_case _ N3 Q)|].
    destruct (has_nul data) eqn:N4; [bad; intros (_ & _ & _ & Q); exact (nul_case _ N4 Q)|].
    pose proof (out_checking (R_mount_with_data src dest fstype flags data) (A_mount_with_data src dest fstype flags (Some data)) (fun rc => E_Mount rc src dest fstype flags data)) as Q.
    unfold outcome in Q. cbn [rust_step acceptable] in Q. unfold mount_with_data, to_str in Q. rewrite U1, !cstr, N1, U2, N2, N3, N4 in Q.
    apply Q; [split; [apply path_ok; assumption|split; [apply path_ok; assumption|split; apply nul_free; assumption]]|reflexivity|exact Logic.I|reflexivity|exact Logic.I].
  - (* bind *) unfold outcome. cbn [rust_step acceptable]. unfold to_str.
    destruct (o_utf8 o src) eqn:U1; [|bad; intros (Q & _); exact (utf_case _ U1 Q)].
    rewrite !cstr. destruct (has_nul src) eqn:N1; [bad; intros (Q & _); exact (path_nul _ N1 Q)|].
    destruct (o_utf8 o dest) eqn:U2; [|bad; intros (_ & Q); exact (utf_case _ U2 Q)].
    destruct (has_nul dest) eqn:N2; [bad; intros (_ & Q); exact (path_nul _ N2 Q)|].
    pose proof (out_checking (R_mount_bind src dest writable) (A_bind src dest writable (o_realpath o src)) (fun rc => E_BindMount rc src dest)) as Q.
    unfold outcome in Q. cbn [rust_step acceptable] in Q. unfold to_str in Q. rewrite U1, !cstr, N1, U2, N2 in Q.
    apply Q; [split; apply path_ok; assumption|reflexivity|exact Logic.I|reflexivity|exact Logic.I].
Qed.
End One.

Lemma method_ok o e j m j' : rust_step o e j m = RsOk tt j' ->
  acceptable o m /\ exists a rc, stands_for o m a /\ api_step e j a = ARet rc j' /\ (tells m -> rc = 0%Z).
Proof.
  intros H. destruct (outcomes o e j m) as [(x & E & _)|(A & a & S & R)]; [rewrite H in E; discriminate E|].
  split; [exact A|]. destruct (api_step e j a) as [rc j1| |] eqn:X; [|rewrite H in R; discriminate R|rewrite H in R; discriminate R].
  destruct R as [(R & T)|(x & R & _)]; [|rewrite H in R; discriminate R]. rewrite H in R. injection R as <-.
  exists a, rc. split; [exact S|]. split; [exact X|exact T].
Qed.
Lemma method_err o e j m x j' : rust_step o e j m = RsErr x j' ->
  j' = j /\ (~ acceptable o m \/ exists a rc, stands_for o m a /\ api_step e j a = ARet rc j /\ rc <> 0%Z /\ tells m).
Proof.
  intros H. destruct (outcomes o e j m) as [(y & E & N)|(A & a & S & R)].
  - rewrite H in E. injection E as _ <-. split; [reflexivity|left; exact N].
  - destruct (api_step e j a) as [rc j1| |] eqn:X; [|rewrite H in R; discriminate R|rewrite H in R; discriminate R].
    destruct R as [(R & T)|(y & R & N & T & J)]; [rewrite H in R; discriminate R|].
    rewrite H in R. injection R as _ <-. split; [exact J|]. right. exists a, rc. subst j'. split; [exact S|]. split; [exact X|]. split; [exact N|exact T].
Qed.
Lemma stands_once o m a b : stands_for o m a -> stands_for o m b -> a = b.
Proof.
  destruct m; cbn [stands_for]; try (intros -> ->; reflexivity).
  - intros (b1 & p & R1 & P & ->) (b2 & q & R2 & Q & ->). rewrite R1 in R2. injection R2 as <-.
    apply filter_back in P. apply filter_back in Q. destruct P as (_ & _ & <-), Q as (_ & _ & <-). reflexivity.
  - intros (p & P & ->) (q & Q & ->). apply filter_back in P. apply filter_back in Q. destruct P as (_ & _ & <-), Q as (_ & _ & <-). reflexivity.
Qed.
(* nothing is dropped: a good request reaches the library, and what the library
   says is what the caller gets *)
Lemma method_reaches o e j m : acceptable o m -> exists a, stands_for o m a /\
  match api_step e j a with
  | ARet rc j' => if (rc =? 0)%Z then rust_step o e j m = RsOk tt j'
                  else tells m -> exists x, rust_step o e j m = RsErr x j
  | ADie => rust_step o e j m = RsDie
  | AUb => rust_step o e j m = RsUb
  end.
Proof.
  intros A. destruct (outcomes o e j m) as [(x & _ & N)|(_ & a & S & R)]; [contradiction|]. exists a. split; [exact S|].
  destruct (api_step e j a) as [rc j'| |] eqn:X; [|exact R|exact R].
  destruct R as [(R & T)|(x & R & N & T & J)].
  - destruct (Z.eqb_spec rc 0) as [E|E]; [exact R|]. intros Te. elim (E (T Te)).
  - destruct (Z.eqb_spec rc 0) as [E|E]; [contradiction|]. intros _. exists x. subst j'. exact R.
Qed.

Lemma rust_made o e : forall l j r j', rust_run o e j l = Some (r, j') -> exists h, history e j h j' /\ made o l r h.
Proof.
  induction l as [|m l IH]; intros j r j'; cbn [rust_run]; intros H.
  - injection H as <- <-. exists []. split; constructor.
  - destruct (rust_step o e j m) as [[] j1|x j1| | |] eqn:S; try discriminate H.
    + destruct (rust_run o e j1 l) as [[r1 j2]|] eqn:R; [|discriminate H]. injection H as <- <-.
      destruct (IH _ _ _ R) as (h & Hh & M). destruct (method_ok _ _ _ _ _ S) as (_ & a & rc & St & X & T).
      exists ((a, rc) :: h). split; [econstructor; eassumption|]. constructor; assumption.
    + destruct (rust_run o e j1 l) as [[r1 j2]|] eqn:R; [|discriminate H]. injection H as <- <-.
      destruct (IH _ _ _ R) as (h & Hh & M). destruct (method_err _ _ _ _ _ _ S) as (-> & [N|(a & rc & St & X & N & T)]).
      * exists h. split; [exact Hh|]. apply made_none; assumption.
      * exists ((a, rc) :: h). split; [econstructor; eassumption|]. eapply made_err; eassumption.
Qed.
(* which calls Rust programs make *)
Lemma made_calls o l r h a rc : made o l r h -> In (a, rc) h -> exists m, In m l /\ stands_for o m a.
Proof.
  induction 1 as [|m x l r h N M IH|m b c l r h S T M IH|m x b c l r h S T N M IH]; intros I.
  - destruct I.
  - destruct (IH I) as (m' & Im & Sm). exists m'. split; [right; exact Im|exact Sm].
  - destruct I as [E|I]; [injection E as <- <-; exists m; split; [left; reflexivity|exact S]|].
    destruct (IH I) as (m' & Im & Sm). exists m'. split; [right; exact Im|exact Sm].
  - destruct I as [E|I]; [injection E as <- <-; exists m; split; [left; reflexivity|exact S]|].
    destruct (IH I) as (m' & Im & Sm). exists m'. split; [right; exact Im|exact Sm].
Qed.
Lemma not_in_rust o m a : stands_for o m a ->
  match a with
  | A_set_seccomp_filter_allow_speculation | A_set_using_minimalistic_mountns | A_set_enable_new_sessions _ | A_set_enable_default_runtime _
  | A_disable_fs_restrictions | A_set_enable_profile_fs_restrictions | A_add_minimalistic_mountns_fs_rules | A_enable_default_fs_restrictions
  | A_reset_signal_handlers | A_namespace_enter_vfs _ | A_skip_setting_securebits _ | A_namespace_pids_rw_proc | A_namespace_uts
  | A_namespace_set_hostname _ | A_namespace_net_loopback _ | A_namespace_enter_net _ | A_close_open_fds
  | A_write_pid_file _ | A_add_to_cgroup _ | A_forward_signals | A_create_session
  | A_fs_rx _ | A_fs_ro _ | A_fs_rw _ | A_fs_advanced_rw _ | A_fs_edit _ | A_fs_access_rights _ _ | A_mount _ _ _ _
  | A_add_remount _ _ | A_add_hook _ _ _ | A_preserve_fd _ _ | A_set_preload_path _ => False
  | _ => True
  end.
Proof.
  destruct m; cbn [stands_for]; intros H; try (subst a; exact Logic.I).
  - destruct H as (b & p & _ & _ & ->). exact Logic.I.
  - destruct H as (p & _ & ->). exact Logic.I.
Qed.

(* ---- a user nobody knows ---- *)
Lemma unknown_user o e j u rc : no_nul u -> o_user o u = inl rc -> rust_step o e j (R_change_user u) = RsOk tt j.
Proof. intros N U. cbn [rust_step]. rewrite cstr. apply has_nul_no in N. rewrite N. cbn [api_step]. rewrite U. reflexivity. Qed.
Lemma unknown_group o e j u rc : no_nul u -> o_group o u = inl rc -> rust_step o e j (R_change_group u) = RsOk tt j.
Proof. intros N U. cbn [rust_step]. rewrite cstr. apply has_nul_no in N. rewrite N. cbn [api_step]. rewrite U. reflexivity. Qed.
Lemma on_by_uid a rc : In F_uid (on_by a rc) -> (exists u, a = A_change_uid u) \/ (exists n p, a = A_change_user n (inr p)).
Proof.
  unfold on_by. destruct (rc =? 0)%Z; cbn [negb]; [|intros []].
  destruct a; cbn; intros H; try (exfalso; repeat destruct H as [H|H]; solve [discriminate H|contradiction]).
  - left. eexists. reflexivity.
  - destruct r as [z|p]; [destruct H|]. right. exists name, p. reflexivity.
  - destruct r as [z|p]; cbn in H; [destruct H|]. destruct H as [H|[]]. discriminate H.
Qed.
Lemma on_by_userns a rc : In F_userns (on_by a rc) -> a = A_namespace_user.
Proof.
  unfold on_by. destruct (rc =? 0)%Z; cbn [negb]; [|intros []].
  destruct a; cbn; intros H; try (exfalso; repeat destruct H as [H|H]; solve [discriminate H|contradiction]).
  - destruct r as [z|p]; cbn in H; [destruct H|]. destruct H as [H|[]]. discriminate H.
  - destruct r as [z|p]; cbn in H; [destruct H|]. destruct H as [H|[]]. discriminate H.
  - reflexivity.
Qed.
Lemma no_user_asked o l r h : made o l r h -> (forall m, In m l -> gives_no_user o m) -> ~ asked F_uid h /\ ~ asked F_userns h.
Proof.
  intros M G. split; intros (a & rc & I & F); destruct (made_calls _ _ _ _ _ _ M I) as (m & Im & S); specialize (G m Im).
  - destruct (on_by_uid _ _ F) as [(u & ->)|(n & p & ->)]; destruct m; cbn [stands_for] in S; try discriminate S; try contradiction G.
    + destruct S as (b & q & _ & _ & S). discriminate S.
    + destruct S as (q & _ & S). discriminate S.
    + injection S as _ S. cbn in G. destruct G as (c & G). rewrite G in S. discriminate S.
    + destruct S as (b & q & _ & _ & S). discriminate S.
    + destruct S as (q & _ & S). discriminate S.
  - apply on_by_userns in F. subst a. destruct m; cbn [stands_for] in S; try discriminate S; try contradiction G.
    + destruct S as (b & q & _ & _ & S). discriminate S.
    + destruct S as (q & _ & S). discriminate S.
Qed.
