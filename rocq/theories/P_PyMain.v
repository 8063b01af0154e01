(* Proofs about compile_seccomp_policy.py's main (C83). *)
From Coq Require Import Lia.
From Verif Require Import P_Dump P_PyGram P_PyStmt P_PyText P_PyMean.
From Verif Require Export S_PyMain.
From Verif Require S_CliCalls.
Local Open Scope N_scope.

Lemma errno_code v : N.lor RET_ERRNO (Z.to_N (v mod 65536)) = ERRNO (Z.to_N (v mod 65536)).
Proof.
  rewrite <- errno_spec. f_equal. change 0xffff with (N.ones 16). rewrite N.land_ones, N.mod_small; [reflexivity|]. pose proof (Z.mod_pos_bound v 65536 ltac:(reflexivity)). change (2 ^ 16) with 65536. lia.
Qed.
Lemma ret_log_spec w c : ret_log w c = true <-> logs w c.
Proof. unfold ret_log, logs. apply orb_true_iff. Qed.
Lemma kill_spec w c a v : kill_value w c a = Some v <-> fails_with w c a v.
Proof.
  unfold kill_value. pose proof (ret_log_spec w c) as L. destruct (ret_log w c).
  - assert (G : logs w c) by (apply L; reflexivity). split; [intros [= <-]; exact (fw_log _ _ _ G)|intros [X|v' X|X|X]; [reflexivity|contradiction..]].
  - assert (G : ~ logs w c) by (intros X; apply L in X; discriminate). destruct (c_denylist c) eqn:D.
    + destruct (lookup "EPERM"%string (pa_constants a)) as [e|] eqn:E.
      * rewrite errno_code. split; [intros X; inversion X; apply fw_denylist; [exact G|exact D|apply lookup_spec; exact E]|].
        intros [X|v' _ _ F|_ X|_ X]; [contradiction| |rewrite D in X; discriminate X..]. apply lookup_spec in F. rewrite E in F. injection F as <-. reflexivity.
      * split; [discriminate|]. intros [X|v' _ _ F|_ X|_ X]; [contradiction| |rewrite D in X; discriminate X..]. apply lookup_spec in F. rewrite E in F. discriminate F.
    + destruct (c_kill_process c) eqn:K.
      * split; [intros [= <-]; exact (fw_process _ _ _ G D K)|]. intros [X|v' _ X|_ _ _|_ _ X]; [contradiction|rewrite D in X; discriminate X|reflexivity|rewrite K in X; discriminate X].
      * split; [intros [= <-]; exact (fw_thread _ _ _ G D K)|]. intros [X|v' _ X|_ _ X|_ _ _]; [contradiction|rewrite D in X; discriminate X|rewrite K in X; discriminate X|reflexivity].
Qed.
Lemma override_spec c a v : one_line c -> (override c a = Some v <-> default_asked c a v).
Proof.
  intros OL. unfold override. destruct (c_default c) as [s|] eqn:D.
  2: { split; [intros [= <-]; apply da_none; left; exact D|]. intros [X|s ts rest out x X]; [reflexivity|rewrite D in X; discriminate X]. }
  specialize (OL s D). destruct s as [|ch s].
  { split; [intros [= <-]; apply da_none; right; exact D|]. intros [X|s ts rest out x X N]; [reflexivity|]. rewrite D in X. injection X as <-. contradiction. }
  set (u := String ch s) in *. assert (IL : Forall in_line [u]) by (constructor; [exact OL|constructor]). split.
  - intros H. destruct (tokenize [u] []) as [[|ts out]|] eqn:T; try discriminate H. destruct (parse_action a false false ts) as [[x rest]|] eqn:P; [|discriminate H].
    pose proof (tokenize_sound _ _ _ IL T [] [] (Forall_nil _) (Forall2_nil _) eq_refl) as LO. cbn [app] in LO. pose proof (logical_wf _ _ LO) as W. inversion W as [|? ? W1 _]; subst.
    destruct (action_sound _ _ _ _ _ _ W1 P) as (pre & E & G). subst ts.
    replace v with (Some (value_of KILL_PROCESS x)) by (destruct x; injection H as <-; reflexivity).
    exact (da_some c a u pre rest out x D ltac:(discriminate) LO G).
  - intros [[X|X]|s' ts rest out x X N LO G]; [rewrite D in X; discriminate X|rewrite D in X; discriminate X|]. rewrite D in X. injection X as <-.
    rewrite (tokenize_complete _ _ LO IL). pose proof (logical_wf _ _ LO) as W. inversion W as [|? ? W1 _]; subst.
    rewrite (action_complete a false false ts x rest (proj1 (proj1 (Forall_app _ _ _) W1)) G Logic.I). destruct x; reflexivity.
Qed.
Lemma options_asked w c a o : one_line c -> options w c a = Some o -> asked w c a o.
Proof.
  intros OL. unfold options. destruct (kill_value w c a) as [k|] eqn:K; [|discriminate]. destruct (override c a) as [v|] eqn:V; [|discriminate]. intros [= <-].
  split; [apply kill_spec; exact K|]. split; [reflexivity|]. split; [apply ret_log_spec|]. split; [apply override_spec; [exact OL|exact V]|].
  split; [|reflexivity]. unfold levels. cbn [o_levels]. intros ->. reflexivity.
Qed.
Lemma asked_ok w c a o : asked w c a o -> options_ok o.
Proof.
  intros (F & _ & _ & D & _). split.
  - destruct F; try reflexivity. unfold ERRNO. pose proof (N.mod_lt (Z.to_N (v mod 65536)) 65536 ltac:(discriminate)). change (2 ^ 32) with 4294967296. lia.
  - intros v E. rewrite E in D. inversion D; subst. destruct x as [|v]; [reflexivity|]. exact (g_action_fits a false false (fun _ s => s) (fun _ => None) (fun _ => True) ts (New v) H3).
Qed.
Lemma packs_spec i : packs i = true <-> S_CliCalls.sock_filter i.
Proof. unfold packs, S_CliCalls.sock_filter. rewrite !andb_true_iff, !N.ltb_lt. change (2 ^ 8) with 256. tauto. Qed.
Definition program (w : py_world) (p : list instr) : list N := concat (map (M_Dump.dump_instr (y_little w)) p).
Lemma opcodes_spec w p l : opcodes w p = Some l -> Forall S_CliCalls.sock_filter p /\ l = program w p.
Proof.
  unfold opcodes. destruct (forallb packs p) eqn:F; [|discriminate]. intros [= <-]. split; [|reflexivity]. rewrite forallb_forall in F.
  apply Forall_forall. intros i Hi. apply packs_spec, F, Hi.
Qed.
Lemma write_done w path content p l : write w path content = Y_done p l -> p = path /\ content = Some l.
Proof. unfold write. destruct (negb _); [discriminate|]. destruct content as [m|]; [|discriminate]. destruct (Nat.leb _ _); [|discriminate]. intros [= <- <-]. split; reflexivity. Qed.
Lemma main_done w c path content : one_line c -> py_main w c = Y_done path content ->
  exists a o prog, y_arch w = Some a /\ asked w c a o /\ compile_text a o (y_resolve w) (y_text w) (policy_name c) = Some prog /\ Forall S_CliCalls.sock_filter prog /\
    (c_header c = false /\ path = c_output c /\ content = program w prog \/
     c_header c = true /\ path = (c_output c ++ ".h")%string /\ content = codes (header (c_output c) (program w prog))).
Proof.
  intros OL. unfold py_main. destruct (y_arch w) as [a|]; [|discriminate]. destruct (options w c a) as [o|] eqn:O; [|discriminate].
  destruct (compile_text a o (y_resolve w) (y_text w) (policy_name c)) as [prog|] eqn:C; [|discriminate]. intros H. exists a, o, prog.
  split; [reflexivity|]. split; [exact (options_asked _ _ _ _ OL O)|]. split; [exact C|]. destruct (c_header c).
  - apply write_done in H as [-> H]. destruct (opcodes w prog) as [l|] eqn:P; [|discriminate H]. injection H as <-. apply opcodes_spec in P as [F ->].
    split; [exact F|]. right. split; [reflexivity|]. split; reflexivity.
  - apply write_done in H as [-> H]. apply opcodes_spec in H as [F ->]. split; [exact F|]. left. split; [reflexivity|]. split; reflexivity.
Qed.
Lemma compiled_means w a o file prog : tables_ok a -> options_ok o -> compile_text a o (y_resolve w) (y_text w) file = Some prog -> means w a o file prog.
Proof.
  intros T O C. destruct (text_says _ _ _ _ _ T O _ C) as (default & ss & S & _). exists default, ss. split; [exact S|]. intros N6 S6 d D.
  exact (text_means _ _ _ _ _ T O default ss prog S C N6 S6 d D).
Qed.
Lemma compiled_some a o resolve text file prog : compile_text a o resolve text file = Some prog -> prog <> [].
Proof.
  unfold compile_text. destruct (parse_text a o resolve text file) as [[[d ss] p]|]; [|discriminate]. unfold compile_file.
  assert (V : forall next st q, validate_arch (pa_arch a) (o_kill o) next st = Some q -> q <> []).
  { intros next st q. unfold validate_arch. destruct (accept next st) as [s|]; [|discriminate]. destruct (distance s next); [|discriminate]. intros [= <-]. discriminate. }
  intros H. repeat match type of H with
  | validate_arch _ _ _ _ = Some _ => exact (V _ _ _ H)
  | context[match ?x with _ => _ end] => destruct x; try discriminate H
  end.
Qed.
Lemma main_fails w c a o : y_arch w = Some a -> options w c a = Some o -> compile_text a o (y_resolve w) (y_text w) (policy_name c) = None -> py_main w c = Y_failed None.
Proof. intros A O C. unfold py_main. rewrite A, O, C. reflexivity. Qed.
Lemma asked_options w c a o : one_line c -> asked w c a o -> exists n, options w c a = Some (POpts (o_kill o) (o_denylist o) (o_ret_log o) n (o_override o) (o_strategy o)) /\ (c_limit c = None -> n = o_levels o).
Proof.
  intros OL (F & D & R & V & L & S). apply kill_spec in F. apply override_spec in V; [|exact OL]. unfold options. rewrite F, V. exists (levels w c). split.
  - rewrite D, S. f_equal. f_equal. pose proof (ret_log_spec w c) as X. destruct (ret_log w c), (o_ret_log o); try reflexivity; [symmetry; apply R, X; reflexivity|apply X, R; reflexivity].
  - intros E. rewrite (L E). unfold levels. rewrite E. reflexivity.
Qed.
Lemma main_rejects w c a o : one_line c -> c_limit c = None -> y_arch w = Some a -> asked w c a o ->
  compile_text a o (y_resolve w) (y_text w) (policy_name c) = None -> py_main w c = Y_failed None.
Proof.
  intros OL L A AS C. destruct (asked_options _ _ _ _ OL AS) as (n & O & E). rewrite (E L) in O. destruct o. exact (main_fails _ _ _ _ A O C).
Qed.
Lemma main_accepts w c a o prog : one_line c -> c_limit c = None -> y_arch w = Some a -> asked w c a o ->
  compile_text a o (y_resolve w) (y_text w) (policy_name c) = Some prog -> Forall S_CliCalls.sock_filter prog ->
  (forall p, y_opens w p = true) -> (forall l, (length l <= y_arrives w l)%nat) -> exists path content, py_main w c = Y_done path content.
Proof.
  intros OL L A AS C F OP AR. destruct (asked_options _ _ _ _ OL AS) as (n & O & E). rewrite (E L) in O. assert (O' : options w c a = Some o) by (rewrite O; destruct o; reflexivity). unfold py_main. rewrite A, O', C.
  assert (P : opcodes w prog = Some (program w prog)).
  { unfold opcodes. assert (X : forallb packs prog = true); [|rewrite X; reflexivity]. apply forallb_forall. intros i Hi. apply packs_spec. rewrite Forall_forall in F. exact (F i Hi). }
  rewrite P. unfold write. cbn [option_map]. destruct (c_header c); rewrite OP; cbn [negb].
  - pose proof (AR (codes (header (c_output c) (program w prog)))) as X. apply Nat.leb_le in X. rewrite X. eexists. eexists. reflexivity.
  - pose proof (AR (program w prog)) as X. apply Nat.leb_le in X. rewrite X. eexists. eexists. reflexivity.
Qed.

(* the header *)
Lemma codes_inj : forall s t, codes s = codes t -> s = t.
Proof.
  unfold codes. induction s as [|x s IH]; intros [|y t] H; cbn in H; [reflexivity|discriminate H|discriminate H|]. injection H as A B. rewrite (IH t B). f_equal.
  rewrite <- (Ascii.ascii_N_embedding x), A. apply Ascii.ascii_N_embedding.
Qed.
Lemma prefix_inj : forall p x y : string, (p ++ x = p ++ y)%string -> x = y.
Proof. induction p as [|c p IH]; intros x y H; [exact H|]. injection H as H. exact (IH x y H). Qed.
Lemma free_app c : forall x y, free_of c (x ++ y) <-> free_of c x /\ free_of c y.
Proof. induction x as [|a x IH]; intros y; cbn; [tauto|]. rewrite IH. tauto. Qed.
Definition numbers (l : list N) : string := String.concat ", " (map dec l).
Lemma numbers_cons a b l : numbers (a :: b :: l) = (dec a ++ String "," (String " " (numbers (b :: l))))%string.
Proof. reflexivity. Qed.
Lemma numbers_free l : free_of newline (numbers l).
Proof.
  assert (D : forall n, free_of newline (dec n)) by (intros n; apply dec_free; reflexivity).
  induction l as [|a [|b l] IH]; [exact Logic.I|apply D|]. rewrite numbers_cons. apply free_app. split; [apply D|]. split; [discriminate|]. split; [discriminate|exact IH].
Qed.
Lemma numbers_inj : forall l m, numbers l = numbers m -> l = m.
Proof.
  assert (DF : forall n, free_of "," (dec n)) by (intros n; apply dec_free; reflexivity).
  assert (NE : forall n s, (dec n ++ s)%string <> ""%string) by (intros n s; pose proof (dec_nonempty n); destruct (dec n); [contradiction|discriminate]).
  assert (N0 : forall n, dec n <> ""%string) by (intros n; apply dec_nonempty).
  induction l as [|a [|b l] IH]; intros [|c [|d m]] H; try reflexivity.
  - destruct (N0 _ (eq_sym H)).
  - destruct (NE _ _ (eq_sym H)).
  - destruct (N0 _ H).
  - apply dec_inj in H. rewrite H. reflexivity.
  - rewrite numbers_cons in H. change (numbers [a]) with (dec a) in H. pose proof (DF a) as X. rewrite H in X. apply free_app in X as [_ [X _]]. destruct (X eq_refl).
  - destruct (NE _ _ H).
  - rewrite numbers_cons in H. change (numbers [c]) with (dec c) in H. pose proof (DF c) as X. rewrite <- H in X. apply free_app in X as [_ [X _]]. destruct (X eq_refl).
  - rewrite !numbers_cons in H. apply cut_at in H as [E H]; [|apply DF..]. apply dec_inj in E. injection H as H. rewrite E, (IH _ H). reflexivity.
Qed.
Lemma header_shape name : exists before after, forall bytes, header name bytes = (before ++ numbers bytes ++ String newline after)%string.
Proof.
  unfold header, lines, eol, numbers. set (f := fun s => (s ++ String (Ascii.ascii_of_N 10) "")%string).
  match goal with |- exists _ _, forall bytes, String.concat "" (map f [?a; ?b; ?c; ?d; ?e; ?g; _; ?h; ?i; ?j; ?k; ?l; ?m; ?n; ?o; ?p; ?q; ?r]) = _ =>
    exists (f a ++ f b ++ f c ++ f d ++ f e ++ f g ++ "    ")%string, (f h ++ f i ++ f j ++ f k ++ f l ++ f m ++ f n ++ f o ++ f p ++ f q ++ f r)%string end.
  intros bytes. unfold f. cbn [map String.concat]. rewrite !app_assoc_s. cbn [append]. rewrite ?app_assoc_s. reflexivity.
Qed.
Lemma header_inj name b b' : header name b = header name b' -> b = b'.
Proof.
  destruct (header_shape name) as (p & q & H). rewrite !H. intros E. apply prefix_inj in E. apply cut_at in E as [E _]; [|apply numbers_free..]. exact (numbers_inj _ _ E).
Qed.
Lemma main_written w c a path content : one_line c -> py_main w c = Y_done path content -> y_arch w = Some a -> tables_ok a ->
  exists o prog, asked w c a o /\ means w a o (policy_name c) prog /\
    let bytes := concat (map (M_Dump.dump_instr (y_little w)) prog) in
    (c_header c = false -> path = c_output c /\ content = bytes) /\
    (c_header c = true -> path = (c_output c ++ ".h")%string /\ content = codes (header (c_output c) bytes)).
Proof.
  intros OL D A TO. destruct (main_done _ _ _ _ OL D) as (a' & o & prog & A' & AS & C & F & R). rewrite A in A'. injection A' as <-. exists o, prog.
  split; [exact AS|]. split; [exact (compiled_means _ _ _ _ _ TO (asked_ok _ _ _ _ AS) C)|]. cbv zeta. fold (program w prog).
  destruct R as [(H & P & Q)|(H & P & Q)]; rewrite H; (split; [intros X|intros X]); try discriminate X; (split; [exact P|exact Q]).
Qed.
Lemma main_takes w c a o default ss : one_line c -> c_limit c = None -> y_arch w = Some a -> tables_ok a -> asked w c a o ->
  says a o (y_resolve w) (y_text w) nothing (policy_name c) default ss -> one_name ss -> six_arguments ss -> settled ss ->
  (forall prog, compile_text a o (y_resolve w) (y_text w) (policy_name c) = Some prog -> (length prog <= 4096)%nat) ->
  (forall p, y_opens w p = true) -> (forall l, (length l <= y_arrives w l)%nat) -> exists path content, py_main w c = Y_done path content.
Proof.
  intros OL L A TO AS S ON SA ST LE OP AR. destruct (proj1 (text_compiles _ _ _ _ _ TO (asked_ok _ _ _ _ AS) _ _ S ON SA) ST) as (prog & C & K).
  exact (main_accepts _ _ _ _ _ OL L A AS C (accepted_fits _ (K (LE _ C))) OP AR).
Qed.
