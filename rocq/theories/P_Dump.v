(* Proofs about parse_seccomp_policy (C82). *)
From Coq Require Import Lia Hexadecimal HexadecimalN HexadecimalString.
From Verif Require Export P_Accept S_Dump.
From Verif Require S_CliCalls M_Cli P_CliFin.
Local Open Scope N_scope.

(* ---- naming the file ---- *)
Lemma named_lines b o inc : forall lines st, compile_named_lines true b o inc st lines = compile_lines b o inc st lines.
Proof.
  induction lines as [|l lines IH]; intros st; [reflexivity|]. cbn [compile_named_lines compile_lines negb andb].
  destruct (compile_line b o inc st l); cbn; [apply IH|reflexivity..].
Qed.
Lemma named_same b o fs f : compile_filter_named true b o fs f = compile_filter b o fs (Some f).
Proof.
  unfold compile_filter_named. rewrite named_lines. destruct (compile_lines _ _ _ _ _) eqn:E; try reflexivity.
  unfold compile_filter, compile_stream. rewrite E. reflexivity.
Qed.
Lemma named_ok named b o fs f prog : compile_filter_named named b o fs f = COk prog -> compile_filter b o fs (Some f) = COk prog.
Proof. unfold compile_filter_named. destruct (compile_named_lines _ _ _ _ _ _); intros H; try exact H. discriminate. Qed.
Lemma line_kinds raw : {strip raw = ""%string} + {exists t, strip raw = String "#" t} + {exists t, strip raw = String "@" t} + {rule_line raw}.
Proof.
  unfold rule_line. destruct (strip raw) as [|c t]; [left; left; left; reflexivity|].
  destruct (Ascii.ascii_dec c "#"); [subst; left; left; right; exists t; reflexivity|].
  destruct (Ascii.ascii_dec c "@"); [subst; left; right; exists t; reflexivity|].
  right. split; [discriminate|]. split; intros u X; injection X as X _; contradiction.
Qed.
Lemma rule_compiles b o inc st raw : rule_line raw -> compile_line b o inc st raw = compile_rule b o st (strip raw).
Proof.
  intros (A & B & C). unfold compile_line. destruct (strip raw) as [|c t]; [contradiction|].
  destruct (Ascii.ascii_dec c "#"); [subst; destruct (B t eq_refl)|]. destruct (Ascii.ascii_dec c "@"); [subst; destruct (C t eq_refl)|].
  destruct c as [[] [] [] [] [] [] [] []]; try reflexivity; congruence.
Qed.
Lemma rule_copies b st raw : rule_line raw -> copies_name b st raw =
  match strsep ":"%char (strip raw) with
      | (_, None) => false
      | (name, Some body) =>
          negb (String.eqb (strip body) "") &&
          match lookup_syscall (b_syscalls b) (strip name) with
          | None => false
          | Some (_, ind) => negb (existsb (N.eqb ind) (cs_seen st))
          end
      end.
Proof.
  intros (A & B & C). unfold copies_name. destruct (strip raw) as [|c t]; [contradiction|].
  destruct (Ascii.ascii_dec c "#"); [subst; destruct (B t eq_refl)|]. destruct (Ascii.ascii_dec c "@"); [subst; destruct (C t eq_refl)|].
  destruct c as [[] [] [] [] [] [] [] []]; try reflexivity; congruence.
Qed.
Lemma unnamed_lines b o inc : fo_allow_logging o = false -> forall lines st st', cs_seen st = [] ->
  Forall (fun raw => forall t, strip raw <> String "@" t) lines -> Exists rule_line lines ->
  compile_lines b o inc st lines = COk st' -> compile_named_lines false b o inc st lines = CUb.
Proof.
  intros NL. induction lines as [|l lines IH]; intros st st' SE NS EX C; [inversion EX|].
  cbn [compile_named_lines compile_lines negb andb] in *. inversion NS as [|? ? NA NS']; subst.
  destruct (line_kinds l) as [[[E|[t E]]|[t E]]|R].
  - assert (CL : compile_line b o inc st l = COk st) by (unfold compile_line; rewrite E; reflexivity). rewrite CL in C |- *.
    assert (CN : copies_name b st l = false) by (unfold copies_name; rewrite E; reflexivity). rewrite CN. cbn in C |- *.
    inversion EX as [? ? X|? ? X]; subst; [destruct X as [X _]; contradiction|]. exact (IH _ _ SE NS' X C).
  - assert (CL : compile_line b o inc st l = COk st) by (unfold compile_line; rewrite E; reflexivity). rewrite CL in C |- *.
    assert (CN : copies_name b st l = false) by (unfold copies_name; rewrite E; reflexivity). rewrite CN. cbn in C |- *.
    inversion EX as [? ? X|? ? X]; subst; [destruct X as (_ & X & _); destruct (X _ E)|]. exact (IH _ _ SE NS' X C).
  - destruct (NA _ E).
  - rewrite (rule_compiles _ _ _ _ _ R) in C. rewrite (rule_copies _ _ _ R), SE. cbn [existsb negb]. unfold compile_rule in C. rewrite NL in C.
    destruct (strsep ":"%char (strip l)) as [name [body|]]; [|discriminate C]. destruct (String.eqb (strip body) ""); [discriminate C|].
    destruct (lookup_syscall (b_syscalls b) (strip name)) as [[nr ind]|]; [reflexivity|discriminate C].
Qed.
Lemma unnamed_crash b o fs f prog : fo_allow_logging o = false -> compile_filter b o fs (Some f) = COk prog -> no_statements f ->
  Exists rule_line (multilines (s_bytes f)) -> compile_filter_named false b o fs f = CUb.
Proof.
  intros NL C NS EX. unfold compile_filter_named. unfold compile_filter, compile_stream in C.
  destruct (compile_lines b o (include0 b o fs) (CS (prologue b o) [] [] [] false) (multilines (s_bytes f))) as [st'| | |] eqn:E; try discriminate C.
  rewrite (unnamed_lines b o _ NL _ (CS (prologue b o) [] [] [] false) st' eq_refl NS EX E). reflexivity.
Qed.

(* ---- options ---- *)
Lemma options_help l : forall d p, dump_options l d p = None <-> In O_help l.
Proof.
  induction l as [|[|a|] l IH]; intros d p; cbn [dump_options In].
  - split; [discriminate|intros []].
  - split; [intros _; left; reflexivity|reflexivity].
  - rewrite IH. split; [intros X; right; exact X|intros [X|X]; [discriminate X|exact X]].
  - rewrite IH. split; [intros X; right; exact X|intros [X|X]; [discriminate X|exact X]].
Qed.
Lemma options_dump l : forall d p d' p', dump_options l d p = Some (d', p') -> (d' = true <-> d = true \/ exists a, In (O_dump a) l).
Proof.
  induction l as [|[|a|] l IH]; intros d p d' p' H; cbn [dump_options In] in *.
  - injection H as <- _. split; [intros X; left; exact X|intros [X|(a & [])]; exact X].
  - discriminate.
  - rewrite (IH _ _ _ _ H). split; [intros _; right; exists a; left; reflexivity|intros _; left; reflexivity].
  - rewrite (IH _ _ _ _ H). split; (intros [X|(a & X)]; [left; exact X|right; exists a]); [right; exact X|destruct X as [X|X]; [discriminate X|exact X]].
Qed.
Lemma options_path l : forall d p d' p', dump_options l d p = Some (d', p') ->
  ((forall q, ~ In (O_dump (Some q)) l) /\ p' = p) \/ exists l1 l2, l = (l1 ++ O_dump (Some p') :: l2)%list /\ forall q, ~ In (O_dump (Some q)) l2.
Proof.
  induction l as [|[|a|] l IH]; intros d p d' p' H; cbn [dump_options] in *.
  - injection H as _ <-. left. split; [intros q []|reflexivity].
  - discriminate.
  - destruct (IH _ _ _ _ H) as [[N E]|(l1 & l2 & -> & N)].
    + destruct a as [a|].
      * right. exists [], l. subst p'. split; [reflexivity|exact N].
      * left. split; [intros q [X|X]; [discriminate X|exact (N q X)]|exact E].
    + right. exists (O_dump a :: l1)%list, l2. split; [reflexivity|exact N].
  - destruct (IH _ _ _ _ H) as [[N E]|(l1 & l2 & -> & N)].
    + left. split; [intros q [X|X]; [discriminate X|exact (N q X)]|exact E].
    + right. exists (O_unknown :: l1)%list, l2. split; [reflexivity|exact N].
Qed.
Lemma input_spec w c f : dump_input w (p_args c) = Some f <-> policy_input w c f.
Proof.
  unfold dump_input. split.
  - destruct (p_args c) as [|a r] eqn:E; [intros [= <-]; apply pi_stdin, E|]. destruct (String.eqb_spec a "-") as [->|N]; [intros [= <-]; exact (pi_dash w c r E)|].
    intros H. exact (pi_file w c a r f E N H).
  - intros [E|r E|p r f' E N H]; rewrite E; [reflexivity|reflexivity|]. destruct (String.eqb_spec p "-"); [contradiction|exact H].
Qed.

(* ---- the program ---- *)
Definition program_bytes (w : dump_world) (prog : list instr) : list N := concat (map (dump_instr (little (b_plat (d_build w)))) prog).
Lemma dump_exits w c n out : dump_main w c = (D_exits n, out) -> n = 0 /\
  ((asks_help c /\ out = Out_none) \/
   (~ asks_help c /\ exists f prog, policy_input w c f /\ compile_filter (d_build w) (plain_opts w) (d_files w) (Some f) = COk prog /\
     ((~ asks_dump c /\ out = Out_listing (show_prog prog)) \/
      (asks_dump c /\ exists path, out = Out_bytes path (firstn (d_kept w (program_bytes w prog)) (program_bytes w prog)) /\ dump_file c path)))).
Proof.
  unfold dump_main. intros H. destruct (dump_options (p_opts c) false "") as [[dump path]|] eqn:O.
  2: { injection H as <- <-. split; [reflexivity|]. left. split; [|reflexivity]. apply options_help in O. exact O. }
  assert (NH : ~ asks_help c). { intros X. apply (options_help _ false ""%string) in X. rewrite X in O. discriminate O. }
  destruct (dump_input w (p_args c)) as [f|] eqn:I0; [|discriminate]. apply input_spec in I0.
  destruct (compile_filter_named (has_argv1 c) (d_build w) (dump_fopts (d_dup w)) (d_files w) f) as [prog| | |] eqn:C; try discriminate.
  apply named_ok in C. change (dump_fopts (d_dup w)) with (plain_opts w) in C. pose proof (options_dump _ _ _ _ _ O) as OD. pose proof (options_path _ _ _ _ _ O) as OP.
  destruct dump.
  - unfold dump_write in H. cbv zeta in H. destruct (negb _); [discriminate|]. fold (program_bytes w prog) in H. destruct (d_wrote w (program_bytes w prog)); [|discriminate].
    injection H as <- <-. split; [reflexivity|]. right. split; [exact NH|]. exists f, prog. split; [exact I0|]. split; [exact C|]. right.
    split; [destruct (proj1 OD eq_refl) as [X|X]; [discriminate X|exact X]|]. eexists. split; [reflexivity|].
    destruct (String.eqb_spec path "") as [->|NE].
    + destruct OP as [[N _]|(l1 & l2 & E & N)]; [apply df_none, N|exact (df_empty c l1 l2 E N)].
    + destruct OP as [[_ E]|(l1 & l2 & E & N)]; [contradiction|]. exact (df_some c l1 path l2 E NE N).
  - injection H as <- <-. split; [reflexivity|]. right. split; [exact NH|]. exists f, prog. split; [exact I0|]. split; [exact C|]. left.
    split; [|reflexivity]. intros X. assert (false = true) by (apply OD; right; exact X). discriminate.
Qed.
Lemma dump_accepts w c f prog : ~ asks_help c -> has_argv1 c = true -> policy_input w c f ->
  compile_filter (d_build w) (plain_opts w) (d_files w) (Some f) = COk prog ->
  (forall p, d_opens w p = true) -> d_wrote w (program_bytes w prog) = true -> fst (dump_main w c) = D_exits 0.
Proof.
  intros NH A I0 C OP W. unfold dump_main. destruct (dump_options (p_opts c) false "") as [[dump path]|] eqn:O.
  2: { destruct NH. apply options_help in O. exact O. }
  apply input_spec in I0. rewrite I0, A, named_same. change (dump_fopts (d_dup w)) with (plain_opts w). rewrite C. destruct dump; [|reflexivity].
  unfold dump_write. cbv zeta. fold (program_bytes w prog). rewrite W. destruct (String.eqb path ""); [reflexivity|]. rewrite OP. reflexivity.
Qed.
Lemma dump_no_name w c prog : p_opts c = [] -> p_args c = [] -> p_dashes c = false ->
  compile_filter (d_build w) (plain_opts w) (d_files w) (Some (d_stdin w)) = COk prog -> no_statements (d_stdin w) ->
  Exists rule_line (multilines (s_bytes (d_stdin w))) -> dump_main w c = (D_undefined, Out_none).
Proof.
  intros O A D C NS EX. unfold dump_main, has_argv1. rewrite O, A, D. cbn [dump_options dump_input].
  rewrite (unnamed_crash _ (dump_fopts (d_dup w)) _ _ prog eq_refl C NS EX). reflexivity.
Qed.

(* ---- the bytes are the filter file of minijail0 ---- *)
Lemma le_byte : forall n v, le_bytes n v = map (S_CliCalls.byte v) (map N.of_nat (seq 0 n)).
Proof.
  assert (S : forall n k, map N.of_nat (seq (S k) n) = map (fun i => i + 1) (map N.of_nat (seq k n))).
  { induction n as [|n IH]; intros k; cbn [seq map]; [reflexivity|]. rewrite (IH (S k)). f_equal. lia. }
  induction n as [|n IH]; intros v; [reflexivity|]. cbn [le_bytes seq map]. f_equal.
  - unfold S_CliCalls.byte. change (2 ^ (8 * N.of_nat 0)) with 1. rewrite N.div_1_r. reflexivity.
  - rewrite IH, S, (map_map (fun i => i + 1)). apply map_ext. intros i. unfold S_CliCalls.byte. rewrite N.div_div by (try apply N.pow_nonzero; discriminate).
    replace (8 * (i + 1)) with (8 + 8 * i) by lia. rewrite N.pow_add_r. reflexivity.
Qed.
Lemma same_bytes w le i : M_Elf.h_little (M_Cli.w_host w) = le -> S_CliCalls.sock_filter i -> dump_instr le i = S_CliCalls.instr_bytes w i.
Proof.
  intros E (_ & J & F & _). unfold dump_instr, in_memory, S_CliCalls.instr_bytes, S_CliCalls.bytes_of. rewrite !le_byte, E.
  assert (J1 : map (S_CliCalls.byte (jt i)) (map N.of_nat (seq 0 1)) = [jt i]).
  { cbn [seq map]. unfold S_CliCalls.byte. change (2 ^ (8 * N.of_nat 0)) with 1. rewrite N.div_1_r, N.mod_small by exact J. reflexivity. }
  assert (F1 : map (S_CliCalls.byte (jf i)) (map N.of_nat (seq 0 1)) = [jf i]).
  { cbn [seq map]. unfold S_CliCalls.byte. change (2 ^ (8 * N.of_nat 0)) with 1. rewrite N.div_1_r, N.mod_small by exact F. reflexivity. }
  rewrite J1, F1. destruct le; reflexivity.
Qed.
Lemma accepted_fits prog : kernel_accepts prog -> Forall S_CliCalls.sock_filter prog.
Proof.
  intros [K _]. rewrite !andb_true_iff in K. destruct K as [_ K]. rewrite forallb_forall in K. apply Forall_forall. intros i Hi. specialize (K i Hi).
  unfold insn_fits in K. rewrite !andb_true_iff, !N.ltb_lt in K. destruct K as [[[A B] C] D]. repeat split; assumption.
Qed.
Lemma dump_is_file dw w p prog : M_Elf.h_little (M_Cli.w_host w) = little (b_plat (d_build dw)) -> Forall S_CliCalls.sock_filter prog ->
  M_Cli.w_bytes w p = Some (program_bytes dw prog) -> S_CliCalls.filter_file w p prog.
Proof.
  intros E F B. split; [|exact F]. rewrite B. unfold program_bytes. f_equal. f_equal. apply map_ext_in. intros i Hi. apply same_bytes; [exact E|].
  rewrite Forall_forall in F. exact (F i Hi).
Qed.

(* ---- the listing ---- *)
Fixpoint free_of (c : Ascii.ascii) (s : string) : Prop := match s with EmptyString => True | String x r => x <> c /\ free_of c r end.
Lemma cut_at (c : Ascii.ascii) : forall a a' b b', free_of c a -> free_of c a' ->
  (a ++ String c b = a' ++ String c b')%string -> a = a' /\ b = b'.
Proof.
  induction a as [|x a IH]; intros [|y a'] b b' F F' E; cbn in *.
  - injection E as E. split; [reflexivity|exact E].
  - injection E as E _. destruct F' as [X _]. destruct (X (eq_sym E)).
  - injection E as E _. destruct F as [X _]. destruct (X E).
  - injection E as <- E. destruct (IH a' b b' (proj2 F) (proj2 F') E) as [-> ->]. split; reflexivity.
Qed.
Lemma dec_free c : digit_char c = false -> forall n, free_of c (dec n).
Proof.
  intros D n. pose proof (dec_digits n) as H. induction (dec n) as [|x s IH]; [exact Logic.I|]. cbn [all_digits] in H. apply andb_true_iff in H as [A B].
  split; [intros ->; rewrite A in D; discriminate D|exact (IH B)].
Qed.
Lemma hexes_free c : In c ["," ; " "]%char -> forall u, free_of c (HexadecimalString.NilEmpty.string_of_uint u).
Proof. intros H u. induction u; cbn [HexadecimalString.NilEmpty.string_of_uint free_of]; [exact Logic.I|..]; (split; [|exact IHu]); intros <-; cbn in H; destruct H as [H|[H|[]]]; discriminate H. Qed.
Lemma hex_free c n : In c ["," ; " "]%char -> free_of c (hex n).
Proof.
  intros H. unfold hex. pose proof (hexes_free c H (N.to_hex_uint n)) as F. destruct (n =? 0); cbn [append free_of].
  - split; [|exact Logic.I]. destruct H as [<-|[<-|[]]]; discriminate.
  - repeat split; [destruct H as [<-|[<-|[]]]; discriminate..|exact F].
Qed.
Lemma hex_inj m n : hex m = hex n -> m = n.
Proof.
  unfold hex. destruct (N.eqb_spec m 0) as [->|A]; destruct (N.eqb_spec n 0) as [->|B]; intros H; [reflexivity|discriminate H|discriminate H|].
  cbn [append] in H. assert (HH : HexadecimalString.NilEmpty.string_of_uint (N.to_hex_uint m) = HexadecimalString.NilEmpty.string_of_uint (N.to_hex_uint n)) by (injection H; exact (fun e => e)). clear H. rename HH into H. assert (X : N.to_hex_uint m = N.to_hex_uint n).
  { pose proof (HexadecimalString.NilEmpty.usu (N.to_hex_uint m)) as P. pose proof (HexadecimalString.NilEmpty.usu (N.to_hex_uint n)) as Q. rewrite H in P. rewrite Q in P. injection P as P. exact (eq_sym P). }
  rewrite <- (HexadecimalN.Unsigned.of_to m), <- (HexadecimalN.Unsigned.of_to n), X. reflexivity.
Qed.
Lemma app_assoc_s : forall a b c : string, ((a ++ b) ++ c = a ++ (b ++ c))%string.
Proof. induction a as [|x a IH]; intros b c; cbn; [reflexivity|rewrite IH; reflexivity]. Qed.
Lemma instr_cut n i j s t : (show_instr n i ++ s = show_instr n j ++ t)%string -> i = j /\ s = t.
Proof.
  intros H. unfold show_instr, tab, eol in H. rewrite !app_assoc_s in H. cbn [append] in H.
  apply cut_at in H as [_ H]; [|apply dec_free; reflexivity..]. injection H as H.
  apply cut_at in H as [C H]; [|apply hex_free; left; reflexivity..]. injection H as H.
  apply cut_at in H as [J H]; [|apply dec_free; reflexivity..]. injection H as H.
  apply cut_at in H as [F H]; [|apply dec_free; reflexivity..]. injection H as H.
  apply cut_at in H as [K H]; [|apply hex_free; right; left; reflexivity..]. injection H as H.
  apply hex_inj in C, K. apply dec_inj in J, F. destruct i as [c1 j1 f1 k1], j as [c2 j2 f2 k2]. cbn in C, J, F, K. clear - C J F K H. split; [rewrite C, J, F, K; reflexivity|exact H].
Qed.
Lemma listing_from : forall p q n, show_from n p = show_from n q -> p = q.
Proof.
  assert (E : forall n i s, (show_instr n i ++ s)%string <> ""%string).
  { intros n i s. unfold show_instr. destruct (dec n); discriminate. }
  induction p as [|i p IH]; intros [|j q] n H; cbn [show_from] in H; [reflexivity|destruct (E _ _ _ (eq_sym H))|destruct (E _ _ _ H)|].
  apply instr_cut in H as [<- H]. f_equal. exact (IH q _ H).
Qed.
Lemma listing_inj p q : show_prog p = show_prog q -> p = q.
Proof.
  unfold show_prog, eol. cbn [append]. intros H. injection H as H. apply cut_at in H as [_ H]; [|apply dec_free; reflexivity..]. injection H as H.
  exact (listing_from _ _ _ H).
Qed.
Lemma dump_accepted w c n out : little (b_plat (d_build w)) = true -> names_ok (b_consts (d_build w)) ->
  dump_main w c = (D_exits n, out) -> ~ asks_help c ->
  n = 0 /\ exists f prog, policy_input w c f /\ decides w f prog /\ compile_filter (d_build w) (plain_opts w) (d_files w) (Some f) = COk prog /\
    (~ asks_dump c /\ out = Out_listing (show_prog prog) \/
     asks_dump c /\ exists path, dump_file c path /\
       out = Out_bytes path (let all := concat (map (dump_instr true) prog) in firstn (d_kept w all) all)).
Proof.
  intros LI NM H NH. destruct (dump_exits _ _ _ _ H) as (Z & [[X _]|(_ & f & prog & P & C & R)]); [destruct (NH X)|]. split; [exact Z|].
  exists f, prog. split; [exact P|]. split; [exact (policy_decides _ _ LI NM _ _ _ C)|]. split; [exact C|].
  destruct R as [R|(A & path & R & D)]; [left; exact R|right]. split; [exact A|]. exists path. split; [exact D|]. rewrite R. unfold program_bytes. rewrite LI. reflexivity.
Qed.
