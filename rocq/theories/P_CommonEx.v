(* Policies for the examples of T_Common. *)
From Verif Require Import P_CStr P_Const S_Policy S_PyPolicy P_PyFile P_PyEx.
From Verif Require Import M_PyParse S_PyText P_PyLex P_PyGram P_PyStmt P_PyText P_PyMean P_PyTextEx S_Common P_CommonPy P_CommonC P_Common.
Local Open Scope N_scope.
Local Open Scope string_scope.

(* The tables of [pc] for the C compiler. *)
Definition c_pc : build := M_Filter.Build (M_Bpf.Plat true true 0xC000003E) (pa_syscalls pc)
  [("O_RDONLY", 0); ("PROT_EXEC", 4); ("EPERM", 1); ("EBADF", 9); ("EACCES", 13)] [] [].
Definition c_opts : fopts := M_Filter.FOpts M_Filter.ACT_KILL_PROCESS false false false false.
Definition c_none : string -> option stream := fun _ => None.
Definition both : list cline :=
  [CComment " both compilers"; CBlank;
   CRule "read" 0 CAllow;
   CRule "write" 1 (CCond [[CAtom 0 M_Bpf.EQ [Part "1" 1]]; [CAtom 0 M_Bpf.EQ [Part "0x2" 2]; CAtom 2 M_Bpf.IN [Part "PROT_EXEC" 4; Part "010" 8]]]);
   CRule "open" 2 (CReturn (Part "EACCES" 13));
   CRule "kill" 62 (CCond [[CAtom 1 M_Bpf.NE [Part "-1" 0xffffffffffffffff]; CAtom 0 M_Bpf.IN [Part "~PROT_EXEC" 0xfffffffffffffffb]]])].
Lemma both_text : policy_text both =
  "# both compilers" ++ nl ++ nl ++ "read: 1" ++ nl ++
  "write: arg0 == 1 || arg0 == 0x2 && arg2 in PROT_EXEC|010" ++ nl ++ "open: return EACCES" ++ nl ++
  "kill: arg1 != -1 && arg0 in ~PROT_EXEC" ++ nl.
Proof. reflexivity. Qed.
Fixpoint wordb (s : string) : bool := match s with EmptyString => true | String c t => is_word c && wordb t end.
Lemma wordb_all s : wordb s = true -> all_chars word_char s.
Proof. induction s as [|c s IH]; cbn; intros H; [apply all_chars_nil|]. apply andb_true_iff in H as [H1 H2]. apply all_chars_cons. split; [apply is_word_spec; exact H1|auto]. Qed.
Definition plainb (s : string) : bool := match s with EmptyString => false | String c t => (is_letter c || is_c "_" c) && wordb t end.
Lemma plainb_name s : plainb s = true -> plain_name s.
Proof.
  destruct s as [|c t]; cbn; [discriminate|]. intros H. apply andb_true_iff in H as [H1 H2]. exists c, t. split; [reflexivity|]. split; [|apply wordb_all; exact H2].
  apply orb_true_iff in H1 as [H1|H1]; [left; apply is_letter_spec; exact H1|right; apply is_c_spec; exact H1].
Qed.
Lemma not_reserved s : existsb (String.eqb s) ("in" :: "return" :: actions_named) = false -> String.prefix "arg" s = false -> ~ reserved s.
Proof.
  intros H P R. assert (forall x, In x ("in" :: "return" :: actions_named) -> s <> x) as X.
  { intros x I ->. assert (existsb (String.eqb x) ("in" :: "return" :: actions_named) = true); [|congruence]. apply existsb_exists. exists x. split; [exact I|apply String.eqb_refl]. }
  destruct R as [->|[->|[R|(ds & -> & _)]]]; [apply (X "in"); [left|]; reflexivity|apply (X "return"); [right; left|]; reflexivity|apply (X s); [right; right; exact R|reflexivity]|].
  rewrite P_CStr.prefix_app in P. discriminate.
Qed.
Definition numberb (s : string) : option Z :=
  match s with String "-" t => option_map (fun n => (- Z.of_N n)%Z) (read_mag 0 t) | _ => option_map Z.of_N (read_mag 0 s) end.
Lemma numberb_c s z : numberb s = Some z -> c_number s z.
Proof.
  intros H. assert (forall t n, read_mag 0 t = Some n -> magnitude t n) as M by (intros t n; apply read_mag_0).
  assert (c_number s z \/ exists t n, s = "-" ++ t /\ read_mag 0 t = Some n /\ z = (- Z.of_N n)%Z) as [X|(t & n & -> & E & ->)]; [|exact X|apply cn_minus, M, E].
  unfold numberb in H. destruct s as [|c t]; [destruct (read_mag 0 "") eqn:E; [|discriminate]; injection H as <-; left; apply cn_plain, M, E|].
  destruct (Ascii.eqb c "-") eqn:EC.
  - apply Ascii.eqb_eq in EC. subst c. cbn iota in H. destruct (read_mag 0 t) as [n|] eqn:E; [|discriminate]. injection H as <-. right. exists t, n. auto.
  - assert (option_map Z.of_N (read_mag 0 (String c t)) = Some z) as H'. { destruct c as [[] [] [] [] [] [] [] []]; try exact H. discriminate EC. }
    destruct (read_mag 0 (String c t)) as [n|] eqn:E; [|discriminate]. injection H' as <-. left. apply cn_plain, M, E.
Qed.
Definition wordok (z : Z) : bool := ((- 2 ^ 63 <=? z) && (z <? 2 ^ 64))%Z.
Definition constb (x : part) : bool :=
  match (if plainb (pt_word x) && negb (existsb (String.eqb (pt_word x)) ("in" :: "return" :: actions_named)) && negb (String.prefix "arg" (pt_word x))
         then M_Const.assoc (pt_word x) (pa_constants pc) else numberb (pt_word x)) with
  | Some z => wordok z && (pt_value x =? word_of pc z)%N | None => false end.
Lemma constb_ok x : constb x = true -> const_ok pc x.
Proof.
  unfold constb. destruct (plainb (pt_word x) && _ && _) eqn:E.
  - destruct (M_Const.assoc (pt_word x) (pa_constants pc)) as [z|] eqn:A; [|discriminate]. intros H. apply andb_true_iff in H as [H1 H2]. apply andb_true_iff in E as [E E3]. apply andb_true_iff in E as [E1 E2].
    exists z. split; [unfold wordok in H1; unfold in_word; change (Z.of_N (arch_bits (pa_arch pc))) with 64%Z; lia|]. split; [apply N.eqb_eq; exact H2|]. left.
    split; [apply plainb_name; exact E1|]. split; [apply not_reserved; [apply negb_true_iff; exact E2|apply negb_true_iff; exact E3]|]. apply assoc_spec. exact A.
  - destruct (numberb (pt_word x)) as [z|] eqn:A; [|discriminate]. intros H. apply andb_true_iff in H as [H1 H2].
    exists z. split; [unfold wordok in H1; unfold in_word; change (Z.of_N (arch_bits (pa_arch pc))) with 64%Z; lia|]. split; [apply N.eqb_eq; exact H2|]. right. apply numberb_c. exact A.
Qed.
Definition partb (x : part) : bool :=
  constb x || match pt_word x with
              | String "~" w => (pt_value x <? 2 ^ 64)%N && constb (Part w (2 ^ 64 - 1 - pt_value x))
              | _ => false end.
Lemma partb_ok x : partb x = true -> part_ok pc x.
Proof.
  unfold partb. intros H. apply orb_true_iff in H as [H|H]; [left; apply constb_ok; exact H|]. right.
  destruct x as [[|c w] v]; [discriminate H|]. cbn [pt_word pt_value] in *. destruct (Ascii.eqb c "~") eqn:E.
  - apply Ascii.eqb_eq in E. subst c. cbn iota in H. apply andb_true_iff in H as [L H]. apply N.ltb_lt in L. eexists. split; [apply constb_ok; exact H|]. split; [reflexivity|].
    cbn [pt_value]. change (arch_bits (pa_arch pc)) with 64. lia.
  - exfalso. destruct c as [[] [] [] [] [] [] [] []]; try discriminate H. discriminate E.
Qed.
Definition atomb (x : catom) : bool := (ca_arg x <? 6)%N && negb (match ca_parts x with [] => true | _ => false end) && forallb partb (ca_parts x).
Lemma forallb_Forall {A} (f : A -> bool) (P : A -> Prop) l : (forall x, f x = true -> P x) -> forallb f l = true -> Forall P l.
Proof. intros H. induction l as [|x l IH]; cbn; intros E; [constructor|]. apply andb_true_iff in E as [E1 E2]. constructor; auto. Qed.
Lemma atomb_ok x : atomb x = true -> catom_ok pc x.
Proof.
  unfold atomb. intros H. apply andb_true_iff in H as [H H3]. apply andb_true_iff in H as [H1 H2]. split; [apply N.ltb_lt; exact H1|]. split; [destruct (ca_parts x); discriminate|].
  apply (forallb_Forall partb _ _ partb_ok H3).
Qed.
Definition ruleb (r : crule) : bool :=
  match r with
  | CAllow => true
  | CReturn x => constb x && negb (pt_value x mod 2 ^ 32 =? 2 ^ 32 - 1)%N
  | CCond alts => negb (match alts with [] => true | _ => false end) && forallb (fun l => negb (match l with [] => true | _ => false end) && forallb atomb l) alts
  end.
Lemma ruleb_ok r : ruleb r = true -> crule_ok pc r.
Proof.
  destruct r as [|x|alts]; cbn [ruleb crule_ok]; [auto| |]; intros H; apply andb_true_iff in H as [H1 H2].
  - split; [apply constb_ok; exact H1|]. apply N.eqb_neq, negb_true_iff. exact H2.
  - split; [destruct alts; discriminate|]. revert H2. apply forallb_Forall. intros l H. apply andb_true_iff in H as [L1 L2]. split; [destruct l; discriminate|].
    apply (forallb_Forall atomb _ _ atomb_ok L2).
Qed.
Definition lineb (l : cline) : bool :=
  match l with
  | CBlank => true
  | CComment t => every (fun c => negb (is_c "010" c) && negb (is_c "013" c) && negb (is_c "000" c)) t && negb (ends_with "\" t)
  | CRule n k r => plainb n && (String.eqb n "kill" || negb (existsb (String.eqb n) ("in" :: "return" :: actions_named)) && negb (String.prefix "arg" n)) &&
                   (match M_Const.assoc n (pa_syscalls pc) with Some x => (x =? k)%N | None => false end) && ruleb r
  end.
Lemma ends_with_snoc x s : ends_with x (s ++ String x "") = true.
Proof. induction s as [|c s IH]; [cbn; apply Ascii.eqb_refl|]. cbn [append ends_with]. destruct (s ++ String x "") eqn:E; [destruct s; discriminate|exact IH]. Qed.
Lemma lineb_ok l : lineb l = true -> cline_ok pc l.
Proof.
  destruct l as [|t|n k r]; cbn [lineb cline_ok]; [auto| |]; intros H.
  - apply andb_true_iff in H as [H1 H2]. split.
    + apply every_all in H1. revert H1. apply all_chars_impl. intros c C. split; [|split]; intros ->; discriminate C.
    + intros u ->. change (u ++ "\") with (u ++ String "\" "") in H2. rewrite ends_with_snoc in H2. discriminate.
  - apply andb_true_iff in H as [H H4]. apply andb_true_iff in H as [H H3]. apply andb_true_iff in H as [H1 H2]. split; [apply plainb_name; exact H1|]. split; [|split; [|apply ruleb_ok; exact H4]].
    + intros R. apply orb_true_iff in H2 as [H2|H2]; [apply String.eqb_eq; exact H2|]. exfalso. apply andb_true_iff in H2 as [X Y]. revert R. apply not_reserved; apply negb_true_iff; assumption.
    + destruct (M_Const.assoc n (pa_syscalls pc)) as [x|] eqn:E; [|discriminate]. apply N.eqb_eq in H3. subst x. apply assoc_spec. exact E.
Qed.
Lemma both_ok : common_ok pc both.
Proof.
  split.
  - apply (forallb_Forall lineb _ _ lineb_ok). vm_compute. reflexivity.
  - cbn. repeat (constructor; [cbn; intros X; repeat (destruct X as [X|X]; [discriminate X|]); destruct X|]). constructor.
Qed.
Lemma pc_tables : same_tables c_pc pc.
Proof.
  split; [reflexivity|]. split; [reflexivity|]. split; [reflexivity|]. split; [vm_compute; reflexivity|].
  repeat (constructor; [apply plainb_name; reflexivity|]). constructor.
Qed.
Lemma strict_ok : options_ok strict.
Proof. split; [reflexivity|discriminate]. Qed.
Definition c_run (t : string) (d : sdata) : option vres :=
  match M_Filter.compile_filter c_pc c_opts c_none (Some (M_Lines.Stream t false)) with M_Filter.COk prog => Some (run true prog d) | _ => None end.
Definition py_run (t : string) (d : sdata) : option vres :=
  match compile_text pc strict same_dir (alone t) "p" with Some prog => Some (run true prog d) | None => None end.
Lemma both_compiled : 
  (c_run (policy_text both) (call3 1 2 0 12), py_run (policy_text both) (call3 1 2 0 12)) = (Some (VRet ALLOW), Some (VRet ALLOW)) /\
  (c_run (policy_text both) (call3 1 2 0 16), py_run (policy_text both) (call3 1 2 0 16)) = (Some (VRet KILL_PROCESS), Some (VRet KILL_PROCESS)) /\
  (c_run (policy_text both) (call3 2 0 0 0), py_run (policy_text both) (call3 2 0 0 0)) = (Some (VRet (ERRNO 13)), Some (VRet (ERRNO 13))).
Proof. repeat split; vm_compute; reflexivity. Qed.
Lemma run_six t d1 d2 d3 v1 v2 v3 : (c_run t d1, py_run t d1) = (Some v1, Some v1) -> (c_run t d2, py_run t d2) = (Some v2, Some v2) -> (c_run t d3, py_run t d3) = (Some v3, Some v3) ->
  exists prog prog', M_Filter.compile_filter c_pc c_opts c_none (Some (M_Lines.Stream t false)) = M_Filter.COk prog /\
  compile_text pc strict same_dir (alone t) "p" = Some prog' /\
  run true prog d1 = v1 /\ run true prog' d1 = v1 /\ run true prog d2 = v2 /\ run true prog' d2 = v2 /\ run true prog d3 = v3 /\ run true prog' d3 = v3.
Proof.
  intros H1 H2 H3. apply pair_eq in H1 as [A1 A2], H2 as [B1 B2], H3 as [C1 C2]. unfold c_run in A1, B1, C1. unfold py_run in A2, B2, C2.
  destruct (M_Filter.compile_filter c_pc c_opts c_none (Some (M_Lines.Stream t false))) as [prog| | |]; try discriminate A1.
  destruct (compile_text pc strict same_dir (alone t) "p") as [prog'|]; [|discriminate A2].
  apply some_eq in A1, A2, B1, B2, C1, C2. exists prog, prog'. repeat (split; [first [assumption|reflexivity]|]). exact C2.
Qed.
Lemma both_case : tables_ok pc /\ same_tables c_pc pc /\ options_ok strict /\ py_default strict = action_value (M_Filter.fo_action c_opts) /\ common_ok pc both /\
  (forall nr, ~ allowed_by_option c_pc c_opts nr) /\
  exists prog prog', M_Filter.compile_filter c_pc c_opts c_none (Some (M_Lines.Stream (policy_text both) false)) = M_Filter.COk prog /\
  compile_text pc strict same_dir (alone (policy_text both)) "p" = Some prog' /\
  run true prog (call3 1 2 0 12) = VRet ALLOW /\ run true prog' (call3 1 2 0 12) = VRet ALLOW /\
  run true prog (call3 1 2 0 16) = VRet KILL_PROCESS /\ run true prog' (call3 1 2 0 16) = VRet KILL_PROCESS /\
  run true prog (call3 2 0 0 0) = VRet (ERRNO 13) /\ run true prog' (call3 2 0 0 0) = VRet (ERRNO 13).
Proof.
  split; [exact pc_ok|]. split; [exact pc_tables|]. split; [exact strict_ok|]. split; [reflexivity|]. split; [exact both_ok|].
  split; [intros nr [[X _]|[X _]]; discriminate X|].
  destruct both_compiled as (H1 & H2 & H3). exact (run_six _ _ _ _ _ _ _ H1 H2 H3).
Qed.
(* The texts the compilers understand differently. *)
Definition differ (t : string) (d : sdata) (v v' : N) : Prop :=
  exists prog prog', M_Filter.compile_filter c_pc c_opts c_none (Some (M_Lines.Stream t false)) = M_Filter.COk prog /\
  compile_text pc strict same_dir (alone t) "p" = Some prog' /\ run true prog d = VRet v /\ run true prog' d = VRet v'.
Lemma differ_runs t d v v' : c_run t d = Some (VRet v) -> py_run t d = Some (VRet v') -> differ t d v v'.
Proof.
  unfold c_run, py_run, differ. destruct (M_Filter.compile_filter c_pc c_opts c_none (Some (M_Lines.Stream t false))) as [prog| | |]; try discriminate.
  destruct (compile_text pc strict same_dir (alone t) "p") as [prog'|]; [|discriminate].
  intros A B. apply some_eq in A, B. exists prog, prog'. auto.
Qed.
Definition with_return : string := "read: arg0 == 0; return EBADF" ++ nl.
Definition long_comment : string := "# c \" ++ nl ++ "read: 1" ++ nl.
Lemma return_differs : differ with_return (call3 0 0 0 0) ALLOW (ERRNO 9) /\ differ with_return (call3 0 1 0 0) (ERRNO 9) KILL_PROCESS.
Proof. split; apply differ_runs; vm_compute; reflexivity. Qed.
Lemma comment_differs : differ long_comment (call3 0 0 0 0) KILL_PROCESS ALLOW.
Proof. apply differ_runs; vm_compute; reflexivity. Qed.
