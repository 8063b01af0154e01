(* Both compilers agree on common policies. *)
From Verif Require Import P_CStr P_Const S_Policy S_PyPolicy P_PyFile.
From Verif Require Import M_PyParse S_PyText P_PyLex P_PyMean S_Common P_CommonPy P_CommonC.
From Verif Require P_Claims P_Policy.
Local Open Scope N_scope.

Definition py_filt (r : crule) : filt :=
  match r with
  | CAllow => Filt None (Act 2 ALLOW)
  | CReturn x => Filt None (Act 2 (ERRNO (pt_value x)))
  | CCond alts => Filt (Some (map (map patom_of) alts)) (Act 2 ALLOW)
  end.
Definition py_statement (l : cline) : list statement := match l with CRule n k r => [Statement [(n, k)] [py_filt r]] | _ => [] end.
Lemma filters_none q nr : ~ In nr (rule_numbers q) -> filters_for nr (flat_map py_statement q) = [].
Proof.
  induction q as [|[|t|n k r] q IH]; cbn; intros N; try exact (IH N); [reflexivity|]. destruct (k =? nr) eqn:E; [apply N.eqb_eq in E; exfalso; apply N; left; exact E|].
  cbn. apply IH. tauto.
Qed.
Lemma errno_not_allow v : ERRNO v <> ALLOW.
Proof. unfold ERRNO, ALLOW. pose proof (N.mod_lt v 65536 ltac:(discriminate)). lia. Qed.

Section common.
Variables (a : parch) (p : list cline).
Hypothesis OK : common_ok a p.
Let bits := arch_bits (pa_arch a).
Hypothesis B32 : bits = 32 \/ bits = 64.
Lemma arg_mod d i : sd_ok d -> (sd_arg d i mod 2 ^ bits)%N = (if (bits =? 64)%N then sd_arg d i else sd_arg d i mod 2 ^ 32).
Proof.
  intros (_ & _ & _ & _ & H). destruct B32 as [-> | ->]; [reflexivity|]. cbn [N.eqb Pos.eqb]. apply N.mod_small. unfold sd_arg.
  destruct (nth_in_or_default i (sd_args d) 0) as [I| ->]; [|reflexivity]. rewrite Forall_forall in H. apply H. exact I.
Qed.

(* ---- The C compiler ---- *)
Section c.
Variables (b : build) (fo : fopts) (fs : string -> option stream) (prog : list S_Bpf.instr).
Hypotheses (ST : same_tables b a) (LE : M_Bpf.little (M_Filter.b_plat b) = true).
Hypothesis C : M_Filter.compile_filter b fo fs (Some (M_Lines.Stream (policy_text p) false)) = M_Filter.COk prog.
Lemma c_atom d x : sd_ok d -> atom_holds (M_Bpf.bits64 (M_Filter.b_plat b)) d (atom_of x) = catom_holds bits d x.
Proof.
  intros SD. unfold atom_holds, catom_holds, arg_value, atom_of. cbn [at_op at_arg at_val]. rewrite (arg_mod d _ SD).
  destruct ST as (_ & E & _). unfold bits. rewrite E. replace (Z.to_nat (Z.of_N (ca_arg x))) with (N.to_nat (ca_arg x)) by lia. destruct (M_Bpf.bits64 _); reflexivity.
Qed.
Lemma existsb_map {A B} (f : A -> B) g l : existsb g (map f l) = existsb (fun x => g (f x)) l.
Proof. induction l as [|x l IH]; [reflexivity|]. cbn. rewrite IH. reflexivity. Qed.
Lemma forallb_map {A B} (f : A -> B) g l : forallb g (map f l) = forallb (fun x => g (f x)) l.
Proof. induction l as [|x l IH]; [reflexivity|]. cbn. rewrite IH. reflexivity. Qed.
Lemma existsb_ext {A} (f g : A -> bool) l : (forall x, f x = g x) -> existsb f l = existsb g l.
Proof. intros H. induction l as [|x l IH]; [reflexivity|]. cbn. rewrite H, IH. reflexivity. Qed.
Lemma forallb_ext {A} (f g : A -> bool) l : (forall x, f x = g x) -> forallb f l = forallb g l.
Proof. intros H. induction l as [|x l IH]; [reflexivity|]. cbn. rewrite H, IH. reflexivity. Qed.
Lemma c_rule d r : sd_ok d -> rule_value (M_Bpf.bits64 (M_Filter.b_plat b)) d (rule_of fo r) = crule_value bits d (action_value (M_Filter.fo_action fo)) r.
Proof.
  intros SD. destruct r as [|x|alts]; try reflexivity. cbn [rule_of rule_value crule_value]. rewrite existsb_map.
  erewrite existsb_ext; [reflexivity|]. intros l. cbn beta. rewrite forallb_map. apply forallb_ext. intros x. apply c_atom. exact SD.
Qed.
Definition rule_for (nr : N) : option crule := fold_right (fun l t => match l with CRule _ n r => if n =? nr then Some r else t | _ => t end) None p.
Lemma decision_rule d v : common_decision bits v p d = match rule_for (sd_nr d) with Some r => crule_value bits d v r | None => v end.
Proof. unfold rule_for. clear. induction p as [|[|t|n k r] q IH]; cbn; try exact IH; [reflexivity|]. destruct (k =? sd_nr d); [reflexivity|exact IH]. Qed.
Lemma find_rule_for nr : find_rule nr (flat_map (entry_of fo) p) = match rule_for nr with Some r => Some (rule_of fo r) | None => None end.
Proof. unfold rule_for. clear. induction p as [|[|t|n k r] q IH]; cbn; try exact IH; [reflexivity|]. destruct (k =? nr); [reflexivity|exact IH]. Qed.
Lemma rule_for_ok nr r : rule_for nr = Some r -> crule_ok a r.
Proof.
  unfold rule_for. destruct OK as [F _]. clear - F. induction F as [|l q H F IH]; cbn; [discriminate|]. destruct l as [|t|n k r']; try exact IH.
  destruct (k =? nr); [|exact IH]. intros [= <-]. apply H.
Qed.
Lemma rule_args r : crule_ok a r -> rule_args_ok (rule_of fo r).
Proof.
  destruct r as [|x|alts]; try (intros _; exact Logic.I). intros [_ F]. cbn. revert F. apply Forall_map'. intros l [_ F]. revert F. apply Forall_map'.
  intros x (L & _). cbn. lia.
Qed.
Lemma c_answers d : sd_ok d -> sd_arch d = M_Bpf.arch_no (M_Filter.b_plat b) -> ~ allowed_by_option b fo (sd_nr d) ->
  run true prog d = VRet (common_decision bits (action_value (M_Filter.fo_action fo)) p d).
Proof.
  intros SD A NO. pose proof (tables_names b a ST) as NM. destruct (P_Claims.policy_decides b fo LE NM _ _ _ C) as (pol & R & V).
  pose proof (policy_reads b fo fs a ST B32 p (proj1 OK)) as R'. pose proof (P_Policy.reads_policy_unique b fo NM fs _ _ _ R R') as E. subst pol.
  destruct (V d SD) as (v & -> & H).
  - intros r FR. rewrite find_rule_for in FR. destruct (rule_for (sd_nr d)) as [cr|] eqn:RF; [|discriminate]. injection FR as <-. apply rule_args. eapply rule_for_ok. exact RF.
  - f_equal. rewrite decision_rule. destruct H as [N|_ X|r _ _ FR|_ _ FR]; [contradiction|contradiction| |]; rewrite find_rule_for in FR; destruct (rule_for (sd_nr d)) as [cr|]; try discriminate.
    + injection FR as <-. apply c_rule. exact SD.
    + reflexivity.
Qed.
End c.

(* ---- The Python compiler ---- *)
Section python.
Variables (o : popts) (resolve : string -> string -> string) (text : string -> option string) (file : string).
Hypotheses (TO : tables_ok a) (OO : options_ok o) (DL : o_denylist o = false) (RL : o_ret_log o = false).
Hypothesis TX : text file = Some (policy_text p).
Definition default_act : act := Act 1 (py_default o).
Definition py_statements : list statement := flat_map py_statement p.
Lemma py_says junk : says a o resolve text junk file default_act py_statements.
Proof.
  exists (contents_of p). split; [rewrite DL, RL; apply file_read; [exact B32|apply OK|exact TX]|]. split.
  - unfold default_value. cbn. unfold py_default. rewrite DL. destruct (o_override o); reflexivity.
  - cbn. unfold py_statements. clear. induction p as [|[|t|n k r] q IH]; cbn; try exact IH; [constructor|]. constructor; [|exact IH].
    constructor. constructor; [|constructor]. destruct r; apply sf; reflexivity.
Qed.
Lemma py_calls : map snd (calls py_statements) = rule_numbers p.
Proof. unfold py_statements, calls, rule_numbers. clear. induction p as [|[|t|n k r] q IH]; cbn; try exact IH; [reflexivity|]. rewrite IH. reflexivity. Qed.
Lemma nodup_snd {A B} (l : list (A * B)) c c' : NoDup (map snd l) -> In c l -> In c' l -> snd c = snd c' -> c = c'.
Proof.
  induction l as [|x l IH]; intros ND I J E; [destruct I|]. cbn in ND. inversion ND as [|? ? N ND']. subst. destruct I as [->|I]; destruct J as [->|J]; auto.
  - exfalso. apply N. rewrite E. apply in_map. exact J.
  - exfalso. apply N. rewrite <- E. apply in_map. exact I.
Qed.
Lemma py_one : one_name py_statements.
Proof. intros c c' I J E. apply (nodup_snd (calls py_statements)); auto. rewrite py_calls. apply OK. Qed.
Lemma py_six : six_arguments py_statements.
Proof.
  intros s f e c x S F E CI X. unfold py_statements in S. apply in_flat_map in S as (l & L & S). destruct OK as [FO _]. rewrite Forall_forall in FO. specialize (FO l L).
  destruct l as [|t|n k r]; [destruct S|destruct S|]. destruct S as [<-|[]]. destruct F as [<-|[]]. destruct r as [|y|alts]; try discriminate E. cbn in E. injection E as <-.
  apply in_map_iff in CI as (l & <- & LI). apply in_map_iff in X as (y & <- & Y). destruct FO as (_ & _ & _ & _ & FA). rewrite Forall_forall in FA. destruct (FA l LI) as [_ FL].
  rewrite Forall_forall in FL. apply (FL y Y).
Qed.
Lemma py_filters nr : filters_for nr py_statements = match rule_for nr with Some r => [py_filt r] | None => [] end.
Proof.
  unfold py_statements, rule_for. destruct OK as [_ ND]. clear - ND. induction p as [|[|t|n k r] q IH]; cbn in *; try exact (IH ND); [reflexivity|].
  inversion ND as [|? ? N ND']. subst. destruct (k =? nr) eqn:E; cbn.
  - apply N.eqb_eq in E. subst k. change (flat_map _ (flat_map py_statement q)) with (filters_for nr (flat_map py_statement q)). rewrite filters_none; [reflexivity|exact N].
  - apply IH. exact ND'.
Qed.
Lemma py_listed nr : S_PyPolicy.listed nr py_statements = match rule_for nr with Some _ => true | None => false end.
Proof.
  unfold S_PyPolicy.listed, calls, py_statements, rule_for. clear. induction p as [|[|t|n k r] q IH]; cbn; try exact IH; [reflexivity|]. rewrite IH. destruct (k =? nr); reflexivity.
Qed.
Lemma py_settled : settled py_statements.
Proof.
  intros nr l f r E _. rewrite py_filters in E. destruct (rule_for nr) as [cr|]; [|destruct l; discriminate]. destruct l as [|x l]; [injection E as _ <-; reflexivity|]. destruct l; discriminate.
Qed.
Lemma py_kept d : kept o default_act py_statements d.
Proof.
  right. rewrite py_filters. destruct (rule_for (sd_nr d)) as [r|] eqn:E; [|right; constructor]. destruct r as [|x|alts]; [right; repeat constructor| |right; repeat constructor].
  left. exact (errno_not_allow (pt_value x)).
Qed.
Lemma py_decision d : decision bits false (py_default o) py_statements d = common_decision bits (py_default o) p d.
Proof.
  unfold decision. rewrite py_listed, py_filters, decision_rule. destruct (rule_for (sd_nr d)) as [r|]; [|reflexivity]. destruct r as [|x|alts]; try reflexivity.
  cbn. unfold applies. cbn. rewrite existsb_map. erewrite existsb_ext; [reflexivity|]. intros l. cbn beta. rewrite forallb_map. apply forallb_ext. intros x. reflexivity.
Qed.
Lemma py_answers prog d : compile_text a o resolve text file = Some prog -> sd_ok d -> sd_arch d = arch_nr (pa_arch a) ->
  run true prog d = VRet (common_decision bits (py_default o) p d).
Proof.
  intros C SD A. destruct (text_means a o resolve text file TO OO default_act py_statements prog (py_says anything) C py_one py_six d SD) as [M _].
  rewrite (M A (py_kept d)), DL. f_equal. apply py_decision.
Qed.
Lemma py_compiles : exists prog, compile_text a o resolve text file = Some prog /\ ((length prog <= 4096)%nat -> kernel_accepts prog).
Proof. apply (text_compiles a o resolve text file TO OO default_act py_statements (py_says nothing) py_one py_six). apply py_settled. Qed.
End python.
End common.
Lemma compilers_agree a b fo o fs resolve text file p prog prog' d :
  tables_ok a -> same_tables b a -> M_Bpf.little (M_Filter.b_plat b) = true ->
  options_ok o -> o_denylist o = false -> o_ret_log o = false -> py_default o = action_value (M_Filter.fo_action fo) ->
  common_ok a p ->
  M_Filter.compile_filter b fo fs (Some (M_Lines.Stream (policy_text p) false)) = M_Filter.COk prog ->
  text file = Some (policy_text p) -> compile_text a o resolve text file = Some prog' ->
  sd_ok d -> sd_arch d = arch_nr (pa_arch a) -> ~ allowed_by_option b fo (sd_nr d) ->
  run true prog d = run true prog' d.
Proof.
  intros TO ST LE OO DL RL DE OK C T C' SD A NO. pose proof (proj1 TO) as B32.
  rewrite (c_answers a p OK B32 b fo fs prog ST LE C d SD); [|destruct ST as (-> & _); exact A|exact NO].
  rewrite (py_answers a p OK B32 o resolve text file TO OO DL RL T prog' d C' SD A). rewrite DE. reflexivity.
Qed.
