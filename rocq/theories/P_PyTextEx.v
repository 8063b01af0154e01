(* Policy texts for the examples of T_PyText. *)
From Verif Require Import P_CStr P_Const S_Policy S_PyPolicy P_PyFile P_PyEx.
From Verif Require Import M_PyParse S_PyText P_PyLex P_PyGram P_PyStmt P_PyText P_PyMean.
Local Open Scope N_scope.
Local Open Scope string_scope.

Definition pc : parch := PArch x86_64 "x86_64"
  [("read", 0); ("write", 1); ("open", 2); ("close", 3); ("kill", 62)]%N
  [("O_RDONLY", 0); ("PROT_EXEC", 4); ("EPERM", 1); ("EBADF", 9); ("EACCES", 13)]%Z
  [("core", [("io", ["read"; "write"])])].
Definition strict : popts := POpts 0x80000000 false false 10 None BST.
Definition lenient : popts := POpts 0x50001 true false 10 None BST.
Definition same_dir (_ name : string) : string := name.
Definition nl : string := String newline "".
Definition alone (t : string) : string -> option string := fun f => if String.eqb f "p" then Some t else None.
Definition page : string :=
  "# a policy" ++ nl ++
  "@frequency ./f" ++ nl ++
  "@include ./i" ++ nl ++
  "read: 1" ++ nl ++
  "write: arg0 == 1 || arg0 == 2 && arg2 in ~(PROT_EXEC|0x1)" ++ nl ++
  "{open[arch=x86_64,arm], close[arch=arm]}: \" ++ nl ++ "  { arg1 & 0x3; return EACCES, arg1 == O_RDONLY }" ++ nl.
Definition files : string -> option string := fun f =>
  if String.eqb f "p" then Some page
  else if String.eqb f "./f" then Some ("read: 10" ++ nl ++ "write: 0x20" ++ nl)
  else if String.eqb f "./i" then Some ("kill: arg1 == 015" ++ nl)
  else None.
Definition page_statements : list statement :=
  [Statement [("kill", 62)]%N [Filt (Some [[PAtom 1 EQ 13]]) (Act 1 ALLOW)];
   Statement [("read", 0)]%N [Filt None (Act 2 ALLOW)];
   Statement [("write", 1)]%N [Filt (Some [[PAtom 0 EQ 1]; [PAtom 0 EQ 2; PAtom 2 IN (2 ^ 64 - 6)]]) (Act 3 ALLOW)];
   Statement [("open", 2)]%N [Filt (Some [[PAtom 1 SET 3]]) (Act 4 0x5000d); Filt (Some [[PAtom 1 EQ 0]]) (Act 5 ALLOW)]]%N.
Definition call3 (nr a0 a1 a2 : N) : sdata := SD nr 0xc000003e 0 [a0; a1; a2; 0; 0; 0]%N.
Lemma call3_ok nr a b c : (nr < 2 ^ 32 -> a < 2 ^ 64 -> b < 2 ^ 64 -> c < 2 ^ 64 -> sd_ok (call3 nr a b c))%N.
Proof. intros. split; [auto|]. split; [reflexivity|]. split; [reflexivity|]. split; [reflexivity|]. repeat constructor; auto. Qed.
Lemma pc_ok : tables_ok pc.
Proof.
  split; [right; reflexivity|]. split; [reflexivity|]. intros s nr I. repeat (destruct I as [[= <- <-]|I]); try reflexivity. destruct I.
Qed.
Lemma strict_ok : options_ok strict.
Proof. split; [reflexivity|discriminate]. Qed.
Lemma lenient_ok : options_ok lenient.
Proof. split; [reflexivity|discriminate]. Qed.

(* ---- Deciding the hypotheses ---- *)
Definition clean_lineb (a : parch) (deny log : bool) (ts : list token) : bool :=
  match parse_filter_statement a deny log ts with Some (None, _ :: _) => false | _ => true end.
Section decide.
Variables (a : parch) (deny log : bool) (resolve : string -> string -> string) (text : string -> option string).
Fixpoint cleanb (n : nat) (file : string) : bool :=
  match text file with
  | None => true
  | Some t =>
      match tokenize (text_lines t "") [] with
      | None => true
      | Some tss => forallb (fun ts => clean_lineb a deny log ts &&
          match ts with
          | [Tok INCLUDE _; Tok PATH p] => match n with O => true | S m => cleanb m (resolve file p) end
          | _ => true
          end) tss
      end
  end.
Lemma cleanb_ok : forall n file, cleanb n file = true -> clean a deny log resolve text nothing n file.
Proof.
  assert (forall ts, clean_lineb a deny log ts = true -> clean_line a deny log nothing ts) as G.
  { intros ts H rest P. unfold clean_lineb in H. rewrite P in H. destruct rest; [reflexivity|discriminate]. }
  induction n as [|n IH]; intros file H t tss T K; cbn [cleanb] in H; rewrite T, K in H; rewrite forallb_forall in H; apply Forall_forall;
  intros ts I; specialize (H ts I); cbv beta in H; apply andb_true_iff in H as [H1 H2]; (split; [exact (G _ H1)|]); intros v p ->; [exact Logic.I|].
  apply IH. exact H2.
Qed.
End decide.
Definition sixb (ss : list statement) : bool :=
  forallb (fun s => forallb (fun f => match f_expr f with None => true | Some e => forallb (forallb (fun x => (p_arg x <? 6)%N)) e end) (st_filters s)) ss.
Lemma sixb_ok ss : sixb ss = true -> six_arguments ss.
Proof.
  intros H s f e c x S F E C X. unfold sixb in H. rewrite forallb_forall in H. specialize (H s S). cbv beta in H. rewrite forallb_forall in H.
  specialize (H f F). cbv beta in H. rewrite E, forallb_forall in H. specialize (H c C). rewrite forallb_forall in H. specialize (H x X). apply N.ltb_lt. exact H.
Qed.
Lemma says_strictly a o resolve text file c default ss :
  cleanb a (o_denylist o) (o_ret_log o) resolve text (o_levels o) file = true ->
  parse_policy_file a (o_denylist o) (o_ret_log o) resolve text (o_levels o) file = Some c ->
  a_val default = default_value o c -> Forall2 (same_statement (o_kill o)) (ct_statements c) ss ->
  says a o resolve text nothing file default ss.
Proof. intros CL P D S. exists c. split; [|auto]. eapply file_sound_clean; [apply cleanb_ok; exact CL|exact P]. Qed.
Ltac same_values := repeat match goal with |- Forall2 _ _ _ => constructor | |- same_statement _ _ _ => constructor | |- same_filter _ _ _ => constructor end; try reflexivity.

Lemma page_says : says pc strict same_dir files nothing "p" kill_act page_statements.
Proof.
  eapply says_strictly; [vm_compute; reflexivity|vm_compute; reflexivity|reflexivity|]. cbn [ct_statements]. same_values.
Qed.
Lemma page_settled : settled page_statements.
Proof.
  intros nr l f r E N. assert (last_only (filters_for nr page_statements)) as L; [|exact (L l f r E N)]. apply suffix_last.
  unfold filters_for, page_statements. cbn [flat_map st_calls st_filters snd app].
  destruct (62 =? nr)%N eqn:E1; [apply N.eqb_eq in E1; subst nr; cbn; lia|]. destruct (0 =? nr)%N eqn:E2; [apply N.eqb_eq in E2; subst nr; cbn; lia|].
  destruct (1 =? nr)%N eqn:E3; [apply N.eqb_eq in E3; subst nr; cbn; lia|]. destruct (2 =? nr)%N; cbn; lia.
Qed.
Lemma page_case : tables_ok pc /\ options_ok strict /\ says pc strict same_dir files nothing "p" kill_act page_statements /\
  says pc strict same_dir files anything "p" kill_act page_statements /\
  one_name page_statements /\ six_arguments page_statements /\ settled page_statements /\
  exists prog, compile_text pc strict same_dir files "p" = Some prog /\
  sd_ok (call3 1 2 0 0x12) /\ kept strict kill_act page_statements (call3 1 2 0 0x12) /\ kept strict kill_act page_statements (call3 0 0 0 0) /\
  run true prog (call3 1 2 0 0x12) = VRet ALLOW /\ run true prog (call3 1 2 0 0x14) = VRet KILL_PROCESS /\
  run true prog (call3 2 0 1 0) = VRet (ERRNO 13) /\ run true prog (call3 2 0 0 0) = VRet ALLOW /\
  run true prog (call3 3 0 0 0) = VRet KILL_PROCESS /\ run true prog (call3 62 0 13 0) = VRet ALLOW.
Proof.
  split; [exact pc_ok|]. split; [exact strict_ok|]. split; [exact page_says|]. split.
  { destruct page_says as (c & F & D & S). exists c. split; [|auto]. apply file_sound. apply file_complete. exact F. }
  split; [okay|]. split; [apply sixb_ok; vm_compute; reflexivity|]. split; [exact page_settled|].
  eexists. split; [vm_compute; reflexivity|]. split; [apply call3_ok; reflexivity|].
  split; [right; left; vm_compute; discriminate|]. split; [right; right; repeat constructor|].
  repeat split; vm_compute; reflexivity.
Qed.

(* ---- C62 ---- *)
Lemma reading_unique t ls out ls' out' : text_cut t ls -> logical ls out -> text_cut t ls' -> logical ls' out' -> ls = ls' /\ out = out'.
Proof.
  intros C L C' L'. assert (tokenize (text_lines t "") [] = Some out) as E by (apply lines_read; eauto).
  assert (tokenize (text_lines t "") [] = Some out') as E' by (apply lines_read; eauto).
  apply text_lines_spec in C, C'. split; congruence.
Qed.
Lemma whole_line line ts : cut line ts ->
  String.concat "" (map t_value ts) = line /\ Forall (fun t => spelled (t_type t) (t_value t)) ts.
Proof. intros H. split; [symmetry; eapply cut_whole; exact H|eapply cut_spelled; exact H]. Qed.
Lemma lines_case : exists ls, text_cut page ls /\ length ls = 7%nat /\
  exists out, tokenize (text_lines page "") [] = Some out /\ logical ls out /\ length out = 5%nat /\ length (List.last out []) = 30%nat.
Proof.
  exists (text_lines page ""). assert (text_cut page (text_lines page "")) as C by (apply text_lines_spec; reflexivity).
  split; [exact C|]. split; [vm_compute; reflexivity|]. eexists. split; [vm_compute; reflexivity|].
  split; [|split; vm_compute; reflexivity].
  match goal with |- logical _ ?o => assert (exists ls, text_cut page ls /\ logical ls o) as (ls & C' & L) by (apply lines_read; vm_compute; reflexivity) end.
  apply text_lines_spec in C'. rewrite C'. exact L.
Qed.
Lemma last_line_case : exists t u prog prog' d, u = t ++ " \" /\
  compile_text pc lenient same_dir (alone t) "p" = Some prog /\ compile_text pc lenient same_dir (alone u) "p" = Some prog' /\ sd_ok d /\
  run true prog d = VRet (ERRNO 1) /\ run true prog' d = VRet ALLOW.
Proof.
  exists ("@denylist" ++ nl ++ "read: return EPERM"), ("@denylist" ++ nl ++ "read: return EPERM \"). eexists _, _, (call3 0 0 0 0).
  split; [reflexivity|]. split; [vm_compute; reflexivity|]. split; [vm_compute; reflexivity|]. split; [apply call3_ok; reflexivity|].
  split; vm_compute; reflexivity.
Qed.
Definition trailing : string := "write: 1" ++ nl ++ "read[arch=arm]: 1 ) || nonsense".
Lemma trailing_case : exists t prog, compile_text pc strict same_dir (alone t) "p" = Some prog /\
  forall default ss, ~ says pc strict same_dir (alone t) nothing "p" default ss.
Proof.
  exists trailing. eexists. split; [vm_compute; reflexivity|]. intros default ss (c & F & _).
  change (o_levels strict) with (S 9) in F. destruct F as (t & ls & tss & b & T & C & L & S & _).
  assert (t = trailing) as -> by (injection T as <-; reflexivity). clear T.
  assert (tokenize (text_lines trailing "") [] = Some tss) as E by (apply lines_read; eauto). vm_compute in E. injection E as <-.
  inversion S as [|ts0 c0 b0 r c1 b1 H1 H2]; subst. inversion H2 as [|ts3 c3 b3 r3 c4 b4 H3 H4]; subst. clear S H1 H2 H4.
  apply logical_wf in L. apply Forall_cons_iff in L as [_ L]. apply Forall_cons_iff in L as [W _].
  assert (forall s, ~ g_statement pc false false [Tok IDENTIFIER "read"; Tok LBRACKET "["; Tok IDENTIFIER "arch"; Tok EQUAL "="; Tok IDENTIFIER "arm"; Tok RBRACKET "]";
     Tok COLON ":"; Tok NUMERIC_CONSTANT "1"; Tok RPAREN ")"; Tok OR "||"; Tok IDENTIFIER "nonsense"] s) as N.
  { intros s G. assert (after_filter []) as AF by (repeat split; reflexivity). pose proof (statement_complete pc false false _ s [] W G AF) as P.
    vm_compute in P. discriminate P. }
  inversion H3 as [ts s G NE EQ|ts s rest G EM J EQ| | | |]; subst.
  - exact (N s G).
  - unfold nothing in J. subst rest. rewrite app_nil_r in EQ. rewrite EQ in G. exact (N s G).
Qed.

(* ---- C63 ---- *)
Lemma odd_number_case : exists t prog d, compile_text pc strict same_dir (alone t) "p" = Some prog /\
  t = "read: arg0 == 09" /\ sd_ok d /\ run true prog d = VRet ALLOW /\ forall z, ~ c_integer "09" z.
Proof.
  exists "read: arg0 == 09". eexists _, (call3 0 9 0 0). split; [vm_compute; reflexivity|]. split; [reflexivity|]. split; [apply call3_ok; reflexivity|].
  split; [vm_compute; reflexivity|]. intros z H.
  assert (forall n, ~ magnitude "09" n) as M.
  { intros n X. inversion X as [s k NZ DV E1 E2|s k DV E1 E2|s k DV E1 E2|s k DV E1 E2]; subst.
    - apply (NZ "9"). reflexivity.
    - pose proof (digits_one_of _ _ _ DV) as [_ A]. apply all_chars_cons in A as [_ A]. apply all_chars_cons in A as [(v & D & LT) _].
      assert (oct_digit "9") as O by (exists v; auto). apply is_octal_spec in O. discriminate O. }
  inversion H as [sp s n A MG E|sp s n A MG E|sp s n A MG E]; subst.
  - destruct sp as [|c sp]; [cbn in E; subst s; exact (M _ MG)|]. cbn in E. injection E as -> E. apply all_chars_cons in A as [[A|A] _]; [discriminate A|cbn in A; lia].
  - destruct sp as [|c sp]; [discriminate E|]. cbn in E. injection E as -> E. apply all_chars_cons in A as [[A|A] _]; [discriminate A|cbn in A; lia].
  - destruct sp as [|c sp]; [discriminate E|]. cbn in E. injection E as -> E. apply all_chars_cons in A as [[A|A] _]; [discriminate A|cbn in A; lia].
Qed.
Lemma big_errno_case : exists t prog d, t = "read: return 65536" /\ compile_text pc strict same_dir (alone t) "p" = Some prog /\
  sd_ok d /\ run true prog d = VRet (ERRNO 0).
Proof.
  eexists _, _, (call3 0 0 0 0). split; [reflexivity|]. split; [vm_compute; reflexivity|]. split; [apply call3_ok; reflexivity|]. vm_compute. reflexivity.
Qed.
Lemma arg6_text_case : exists t prog, t = "read: arg6 == 0" /\ compile_text pc strict same_dir (alone t) "p" = Some prog /\ ~ kernel_accepts prog.
Proof.
  eexists _, _. split; [reflexivity|]. split; [vm_compute; reflexivity|]. intros [K _]. vm_compute in K. discriminate.
Qed.
Lemma denial_text_case : exists t prog d ss, t = "read: { arg0 == 1; return EPERM, allow }" /\
  compile_text pc strict same_dir (alone t) "p" = Some prog /\ says pc strict same_dir (alone t) nothing "p" kill_act ss /\ one_name ss /\ six_arguments ss /\
  sd_ok d /\ decision 64 false KILL_PROCESS ss d = ERRNO 1 /\ run true prog d = VRet ALLOW.
Proof.
  eexists _, _, (call3 0 1 0 0), [Statement [("read", 0)]%N [Filt (Some [[PAtom 0 EQ 1]]) (Act 1 (ERRNO 1)); Filt None (Act 2 ALLOW)]]%N.
  split; [reflexivity|]. split; [vm_compute; reflexivity|].
  split. { eapply says_strictly; [vm_compute; reflexivity|vm_compute; reflexivity|reflexivity|]. cbn [ct_statements]. same_values. }
  split; [okay|]. split; [apply sixb_ok; vm_compute; reflexivity|]. split; [apply call3_ok; reflexivity|]. split; vm_compute; reflexivity.
Qed.
