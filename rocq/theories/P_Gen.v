(* The policy that generate_seccomp_policy.py writes. *)
From Coq Require Import Permutation.
From Verif Require Import P_CStr P_Const S_Policy S_PyPolicy P_PyFile P_PyEx.
From Verif Require Import M_PyParse S_PyText P_PyLex P_PyGram P_PyStmt P_PyText P_PyMean P_PyTextEx S_Common P_CommonPy P_CommonC P_Common P_CommonEx S_Accept P_CommonFit.
From Verif Require M_Gen.
From Verif Require Import S_Gen P_GenText P_GenRead.
Local Open Scope N_scope.
Local Open Scope string_scope.

(* ---- Texts and values ---- *)
Lemma fe_same {A} (t : list (string * A)) n v v' : first_entry t n v -> first_entry t n v' -> v = v'.
Proof. intros H H'. apply lookup_spec in H, H'. congruence. Qed.
Section tables.
Variable a : parch.
Notation bits := (arch_bits (pa_arch a)).
Lemma const_same x y : const_ok a x -> const_ok a y -> pt_word x = pt_word y -> pt_value x = pt_value y.
Proof.
  intros (z & _ & V & H) (z' & _ & V' & H') E. rewrite V, V'. rewrite E in H.
  assert (forall u k, c_number u k -> number u k) as CN by (intros u k []; constructor; assumption).
  f_equal. destruct H as [(P & _ & F)|NU], H' as [(P' & _ & F')|NU'].
  - eapply fe_same; eassumption.
  - exfalso. exact (plain_not_number _ _ P (CN _ _ NU')).
  - exfalso. exact (plain_not_number _ _ P' (CN _ _ NU)).
  - apply CN, number_value_complete in NU, NU'. congruence.
Qed.
Lemma part_same x y : part_ok a x -> part_ok a y -> pt_word x = pt_word y -> pt_value x = pt_value y.
Proof.
  assert (forall z u, const_ok a z -> pt_word z = "~" ++ u -> False) as T.
  { intros z u H E. apply const_chars in H. rewrite E in H. apply all_chars_cons in H as [H _]. discriminate H. }
  intros [H|(x' & H & W & V)] [H'|(y' & H' & W' & V')] E.
  - apply const_same; assumption.
  - exfalso. rewrite W' in E. exact (T _ _ H E).
  - exfalso. rewrite W in E. symmetry in E. exact (T _ _ H' E).
  - rewrite V, V'. rewrite W, W' in E. apply sapp_inj_l in E. rewrite (const_same _ _ H H' E). reflexivity.
Qed.
Lemma parts_split l : l <> [] -> Forall (part_ok a) l -> M_Gen.py_split "|" (parts_text l) "" = map pt_word l.
Proof.
  intros N F. apply split_words; [destruct l; [congruence|discriminate]|]. revert F. apply Forall_map'. intros x H. apply part_chars in H. revert H. apply word_without. reflexivity.
Qed.
Lemma parts_words l : l <> [] -> Forall (part_ok a) l -> map M_Gen.py_strip (M_Gen.py_split "|" (parts_text l) "") = map pt_word l.
Proof.
  intros N F. rewrite (parts_split _ N F). clear N. induction F as [|x l H F IH]; [reflexivity|]. cbn [map]. rewrite IH. f_equal.
  pose proof (part_trim a x H) as [B E]. pose proof (strip_trim "" (pt_word x) "" (all_chars_nil _) (all_chars_nil _) (trim_of _ B E)) as S.
  cbn [append] in S. rewrite sapp_nil_r in S. exact S.
Qed.
Lemma parts_same l l' : l <> [] -> l' <> [] -> Forall (part_ok a) l -> Forall (part_ok a) l' -> parts_text l = parts_text l' -> parts_value l = parts_value l'.
Proof.
  intros N N' F F' E. assert (map pt_word l = map pt_word l') as W by (rewrite <- (parts_split _ N F), <- (parts_split _ N' F'), E; reflexivity). clear N N' E.
  revert l' F' W. induction F as [|x l H F IH]; intros [|y l'] F' W; try discriminate; [reflexivity|]. injection W as W1 W2. inversion F' as [|? ? H' F'']; subst.
  cbn [parts_value fold_right]. rewrite (part_same _ _ H H' W1). f_equal. apply IH; assumption.
Qed.
(* ---- Complements ---- *)
Lemma low v b : 0 < b -> v < 2 ^ b -> N.log2 v < b.
Proof. intros B L. destruct (N.eq_dec v 0) as [->|N]; [exact B|]. apply N.log2_lt_pow2; lia. Qed.
Lemma in_complement v x b : 0 < b -> v < 2 ^ b -> x < 2 ^ b -> N.land v (2 ^ b - 1 - x) = v <-> N.land v x = 0.
Proof.
  intros B LV LX. apply low in LV, LX; try exact B. replace (2 ^ b - 1 - x) with (N.lnot x b) by (rewrite N.lnot_sub_low by exact LX; rewrite N.ones_equiv, N.sub_1_r; reflexivity).
  rewrite <- N.ldiff_land_low by exact LV. split; intros H; apply N.bits_inj; intros i.
  - apply (f_equal (fun n => N.testbit n i)) in H. rewrite N.ldiff_spec in H. rewrite N.land_spec, N.bits_0. destruct (N.testbit v i), (N.testbit x i); cbn in *; congruence.
  - apply (f_equal (fun n => N.testbit n i)) in H. rewrite N.land_spec, N.bits_0 in H. rewrite N.ldiff_spec. destruct (N.testbit v i), (N.testbit x i); cbn in *; congruence.
Qed.

(* ---- The rule for one call ---- *)
Variables (x w : N) (tr : list tfile).
Hypotheses (B32 : bits = 32 \/ bits = 64) (TR : trace_ok a tr) (CX : const_ok a (Part "PROT_EXEC" x)) (CW : const_ok a (Part "PROT_WRITE" w)).
Hypotheses (HB : has_basic a).
Definition allowed (n : string) (d : sdata) : Prop :=
  forall i, first_entry inspected n i ->
    let v := (sd_arg d i mod 2 ^ bits)%N in
    (maps_memory n /\ ~ write_exec_seen tr n /\ (N.land v x = 0 \/ N.land v w = 0)%N) \/
    ((~ maps_memory n \/ write_exec_seen tr n) /\ exists c, traced tr n c /\ v = parts_value (tc_value c)).
Definition means (n : string) (r : crule) : Prop := forall v d,
  (allowed n d -> crule_value bits d v r = ALLOW) /\ (~ allowed n d -> crule_value bits d v r = v).
Lemma traced_ok n c : traced tr n c -> exists f, call_ok a f c /\ policy_name f (tc_name c) n.
Proof.
  intros (f & F & L & P). unfold trace_ok in TR. rewrite Forall_forall in TR. specialize (TR f F). rewrite Forall_forall in TR. specialize (TR _ L). exists (tf_name f). auto.
Qed.
Lemma traced_name n c : traced tr n c -> plain_name n /\ (reserved n -> n = "kill") /\ exists nr, first_entry (pa_syscalls a) n nr.
Proof.
  intros T. apply traced_ok in T as (f & (_ & _ & m & nr & PN & _ & P & R & F & _) & PN'). apply policy_name_spec in PN, PN'. subst. eauto.
Qed.
Lemma traced_parts n c i : traced tr n c -> first_entry inspected n i -> tc_value c <> [] /\ Forall (part_ok a) (tc_value c).
Proof.
  intros T I. apply traced_ok in T as (f & (_ & _ & m & nr & PN & _ & P & R & F & H) & PN'). apply policy_name_spec in PN, PN'. subst. destruct (H i I) as (_ & _ & A & B & _). auto.
Qed.
Lemma inspected_digit n i : first_entry inspected n i -> N.of_nat i < 6 /\ String (ascii_of_nat (48 + i)) "" = digit_of (N.of_nat i) /\
  (M_Gen.inb n ["mmap"; "mmap2"; "mprotect"] && Nat.eqb i 2 = true <-> maps_memory n) /\ (maps_memory n -> i = 2%nat).
Proof.
  intros I. apply lookup_spec in I. unfold inspected, maps_memory in *. cbn [lookup] in I.
  repeat match type of I with (if String.eqb ?m ?k then _ else _) = _ => destruct (String.eqb m k) eqn:?E; [apply String.eqb_eq in E; subst n; injection I as <-; cbn; (split; [lia|]); (split; [reflexivity|]); split; intuition congruence|clear E] end.
  discriminate.
Qed.
Variable order : list string -> list string.
Hypothesis ORD : forall l, Permutation (order l) l.
Notation vals := (M_Gen.t_values (final tr)).
Definition arg_filter (n : string) : string :=
  match lookup n M_Gen.arg_inspection with
  | Some i => M_Gen.get_seccomp_bpf_filter n i (order (match lookup n vals with Some l => l | None => [] end))
  | None => "1"
  end.
Lemma chosen n l : Forall (fun s => exists c, traced tr n c /\ s = parts_text (tc_value c)) l ->
  exists cs, l = map (fun c => parts_text (tc_value c)) cs /\ Forall (traced tr n) cs.
Proof.
  intros H. induction H as [|s l (c & T & ->) H (cs & -> & F)]; [exists []; auto|]. exists (c :: cs). split; [reflexivity|constructor; assumption].
Qed.
Lemma bits_pos : 0 < bits.
Proof. destruct B32 as [-> | ->]; reflexivity. Qed.
Lemma const_small y : const_ok a y -> pt_value y < 2 ^ bits.
Proof.
  intros (z & _ & -> & _). unfold word_of. pose proof (Z.mod_pos_bound z (2 ^ Z.of_N bits) ltac:(apply Z.pow_pos_nonneg; lia)). rewrite <- N2Z_pow2 in *. lia.
Qed.
Lemma rule_exists n : (forall i, first_entry inspected n i -> exists c, traced tr n c) ->
  exists r, crule_ok a r /\ rule_text r = arg_filter n /\ means n r.
Proof.
  intros IT. unfold arg_filter. change M_Gen.arg_inspection with inspected. destruct (lookup n inspected) as [i|] eqn:L.
  2:{ exists CAllow. split; [exact Logic.I|]. split; [reflexivity|]. intros v d. split; [reflexivity|]. intros NA. exfalso. apply NA. intros i I. apply lookup_spec in I. congruence. }
  apply lookup_spec in L. destruct (inspected_digit n i L) as (DL & DT & MM & M2).
  change (match lookup n vals with Some l => l | None => [] end) with (values n vals).
  assert (forall s, In s (order (values n vals)) <-> exists c, traced tr n c /\ s = parts_text (tc_value c)) as VS.
  { intros s. rewrite <- (final_values tr n s i L). split; apply Permutation_in; [|apply Permutation_sym]; apply ORD. }
  destruct (chosen n (order (values n vals))) as (cs & E & F). { apply Forall_forall. intros s S. apply VS. exact S. }
  rewrite E in VS |- *. clear E. rewrite Forall_forall in F.
  unfold M_Gen.get_seccomp_bpf_filter. cbv zeta.
  match goal with |- context [existsb ?g _] => set (we := g) end.
  assert (existsb we (map (fun c => parts_text (tc_value c)) cs) = true <-> write_exec_seen tr n) as WE.
  { rewrite existsb_exists. unfold we, write_exec_seen. split.
    - intros (s & S & H). apply VS in S as (c & T & ->). exists c. split; [exact T|]. destruct (traced_parts n c i T L) as [P1 P2]. rewrite (parts_words _ P1 P2) in H.
      apply andb_true_iff in H as [H1 H2]. apply inb_spec in H1, H2. auto.
    - intros (c & T & H1 & H2). exists (parts_text (tc_value c)). split; [apply VS; eauto|]. destruct (traced_parts n c i T L) as [P1 P2]. rewrite (parts_words _ P1 P2).
      apply andb_true_iff. split; apply inb_spec; assumption. }
  clearbody we.
  destruct (M_Gen.inb n ["mmap"; "mmap2"; "mprotect"] && Nat.eqb i 2) eqn:MB, (existsb we (map (fun c => parts_text (tc_value c)) cs)) eqn:WB; cbn [andb negb].
  2:{ (* mapping memory, never for both *)
    assert (maps_memory n) as MN by (apply MM; reflexivity). assert (i = 2%nat) as -> by (apply M2; exact MN).
    assert (~ write_exec_seen tr n) as NW by (rewrite <- WE; discriminate).
    exists (CCond [[CAtom 2 M_Bpf.IN [Part "~PROT_EXEC" (2 ^ bits - 1 - x)]]; [CAtom 2 M_Bpf.IN [Part "~PROT_WRITE" (2 ^ bits - 1 - w)]]]).
    split; [|split; [reflexivity|]].
    - assert (catom_ok a (CAtom 2 M_Bpf.IN [Part "~PROT_EXEC" (2 ^ bits - 1 - x)])) as A1.
      { split; [reflexivity|]. split; [discriminate|]. constructor; [|constructor]. right. exists (Part "PROT_EXEC" x). split; [exact CX|]. split; reflexivity. }
      assert (catom_ok a (CAtom 2 M_Bpf.IN [Part "~PROT_WRITE" (2 ^ bits - 1 - w)])) as A2.
      { split; [reflexivity|]. split; [discriminate|]. constructor; [|constructor]. right. exists (Part "PROT_WRITE" w). split; [exact CW|]. split; reflexivity. }
      split; [discriminate|]. repeat (constructor; [split; [discriminate|constructor; [assumption|constructor]]|]). constructor.
    - intros v d. set (u := (sd_arg d 2 mod 2 ^ bits)%N).
      assert (u < 2 ^ bits) as LU by (apply N.mod_lt; apply N.pow_nonzero; discriminate).
      pose proof (in_complement u x bits bits_pos LU (const_small _ CX)) as CX'. pose proof (in_complement u w bits bits_pos LU (const_small _ CW)) as CW'.
      assert (allowed n d <-> N.land u x = 0 \/ N.land u w = 0) as AL.
      { split.
        - intros A. destruct (A 2%nat L) as [(_ & _ & H)|([H|H] & _)]; [exact H|contradiction|contradiction].
        - intros H i I. rewrite (fe_same _ _ _ _ I L). left. auto. }
      cbn [crule_value existsb forallb]. unfold catom_holds. cbn [ca_op ca_arg ca_parts parts_value fold_right pt_value op_holds]. rewrite !N.lor_0_r. change (N.to_nat 2) with 2%nat. fold u.
      rewrite !andb_true_r, orb_false_r.
      destruct (N.land u (2 ^ bits - 1 - x) =? u)%N eqn:E1; [apply N.eqb_eq in E1|apply N.eqb_neq in E1]; (destruct (N.land u (2 ^ bits - 1 - w) =? u)%N eqn:E2; [apply N.eqb_eq in E2|apply N.eqb_neq in E2]);
        cbn [orb]; rewrite AL, <- CX', <- CW'; split; intros H; try reflexivity; exfalso; tauto. }
  (* the values of the trace *)
  all: assert (~ maps_memory n \/ write_exec_seen tr n) as NM by (rewrite <- MM, <- WE; destruct (existsb we _); try discriminate; auto).
  all: exists (CCond (map (fun c => [CAtom (N.of_nat i) M_Bpf.EQ (tc_value c)]) cs)); (split; [|split; [|]]).
  all: match goal with
  | |- crule_ok _ _ => split; [destruct (IT i L) as (c & T); assert (In (parts_text (tc_value c)) (map (fun c => parts_text (tc_value c)) cs)) as I by (apply VS; eauto); destruct cs; [destruct I|discriminate]|];
      apply Forall_forall; intros g G; apply in_map_iff in G as (c & <- & G); destruct (traced_parts n c i (F c G) L) as [P1 P2];
      (split; [discriminate|]); constructor; [|constructor]; split; [exact DL|split; assumption]
  | |- rule_text _ = _ => cbn [rule_text]; rewrite !map_map; f_equal; apply map_ext; intros c; cbn [alt_text map String.concat]; unfold atom_text; cbn [ca_arg ca_op ca_parts op_word]; rewrite DT; reflexivity
  | |- means _ _ => idtac
  end.
  all: intros v d; set (u := (sd_arg d i mod 2 ^ bits)%N).
  all: assert (allowed n d <-> exists c, traced tr n c /\ u = parts_value (tc_value c)) as AL by
    (split; [intros A; destruct (A i L) as [(Q & NQ & _)|(_ & H)]; [destruct NM; contradiction|exact H]|intros H j J; rewrite (fe_same _ _ _ _ J L); right; auto]).
  all: assert (existsb (forallb (catom_holds bits d)) (map (fun c => [CAtom (N.of_nat i) M_Bpf.EQ (tc_value c)]) cs) = true <-> allowed n d) as X.
  1,3,5: rewrite AL, existsb_exists; split;
    [intros (g & G & H); apply in_map_iff in G as (c & <- & G); exists c; split; [apply F; exact G|];
       cbn [forallb] in H; rewrite andb_true_r in H; unfold catom_holds in H; cbn [ca_op ca_arg ca_parts op_holds] in H; rewrite Nat2N.id in H; apply N.eqb_eq in H; exact H
    |intros (c & T & H); assert (In (parts_text (tc_value c)) (map (fun c => parts_text (tc_value c)) cs)) as I by (apply VS; eauto);
       apply in_map_iff in I as (c' & E & I); exists [CAtom (N.of_nat i) M_Bpf.EQ (tc_value c')]; split; [apply in_map_iff; eauto|];
       cbn [forallb]; rewrite andb_true_r; unfold catom_holds; cbn [ca_op ca_arg ca_parts op_holds]; rewrite Nat2N.id; apply N.eqb_eq; fold u; rewrite H;
       destruct (traced_parts n c i T L) as [P1 P2]; destruct (traced_parts n c' i (F c' I) L) as [P3 P4]; apply parts_same; try assumption; symmetry; exact E].
  all: cbn [crule_value]; destruct (existsb (forallb (catom_holds bits d)) (map (fun c => [CAtom (N.of_nat i) M_Bpf.EQ (tc_value c)]) cs)); split; intros H; try reflexivity; exfalso;
    [apply H, X; reflexivity|apply X in H; discriminate].
Qed.

(* ---- The list of calls ---- *)
Lemma insert_perm before y l : Permutation (M_Gen.insert before y l) (y :: l).
Proof.
  induction l as [|z l IH]; cbn; [apply Permutation_refl|]. destruct (before y z); [apply Permutation_refl|].
  apply (Permutation_trans (perm_skip z IH)). apply perm_swap.
Qed.
Lemma sorted_perm before l : Permutation (M_Gen.sorted before l) l.
Proof. induction l as [|y l IH]; cbn; [constructor|]. apply (Permutation_trans (insert_perm before y _)). apply perm_skip, IH. Qed.
Lemma basic_keys l : forall d, NoDup (map fst d) ->
  let d' := fold_left (fun d x => if M_Gen.inb x (map fst d) then d else (d ++ [(x, 1)])%list) l d in
  NoDup (map fst d') /\ forall n, In n (map fst d') <-> In n l \/ In n (map fst d).
Proof.
  induction l as [|y l IH]; intros d N; cbn [fold_left]; [cbv zeta; cbn; intuition auto|].
  destruct (M_Gen.inb y (map fst d)) eqn:I.
  - destruct (IH d N) as [A B]. split; [exact A|]. intros n. rewrite B. apply inb_spec in I. cbn. intuition congruence.
  - apply inb_false in I. destruct (IH (d ++ [(y, 1)])%list) as [A B].
    { rewrite map_app. cbn. apply NoDup_rev in N. rewrite <- (rev_involutive (map fst d ++ [y])). apply NoDup_rev. rewrite rev_app_distr. cbn. constructor; [rewrite <- in_rev; exact I|exact N]. }
    split; [exact A|]. intros n. rewrite B, map_app, in_app_iff. cbn. intuition congruence.
Qed.
Definition listed_calls (frequency : bool) : list string := M_Gen.sorted_syscalls frequency (M_Gen.with_basic (M_Gen.t_counts (final tr))).
Lemma listed_calls_spec frequency : NoDup (listed_calls frequency) /\ forall n, In n (listed_calls frequency) <-> In n basic \/ exists c, traced tr n c.
Proof.
  unfold listed_calls, M_Gen.sorted_syscalls, M_Gen.with_basic. destruct (basic_keys M_Gen.basic_set _ (final_nodup tr)) as [A B].
  set (d := fold_left _ _ _) in *. clearbody d.
  assert (Permutation (map fst (if frequency then M_Gen.sorted (fun x0 y => String.leb (fst x0) (fst y)) d else M_Gen.sorted (fun x0 y => (snd y <=? snd x0)%N) d)) (map fst d)) as P
    by (apply Permutation_map; destruct frequency; apply sorted_perm).
  split; [apply (Permutation_NoDup (Permutation_sym P)); exact A|]. intros n. rewrite <- final_names, <- B. split; apply Permutation_in; [exact P|apply Permutation_sym; exact P].
Qed.
Lemma basic_name n : In n basic -> plain_name n /\ ~ reserved n /\ forall i, ~ first_entry inspected n i.
Proof.
  intros H. cbn in H. repeat (destruct H as [<-|H]; [split; [apply plainb_name; reflexivity|split; [apply not_reserved; reflexivity|intros i I; apply lookup_spec in I; discriminate I]]|]). destruct H.
Qed.
Lemma listed_name frequency n : In n (listed_calls frequency) ->
  plain_name n /\ (reserved n -> n = "kill") /\ (exists nr, first_entry (pa_syscalls a) n nr) /\ (forall i, first_entry inspected n i -> exists c, traced tr n c).
Proof.
  intros H. apply listed_calls_spec in H as [H|(c & T)].
  - pose proof (basic_name n H) as (P & R & I). split; [exact P|]. split; [tauto|]. split; [|intros i E; exfalso; exact (I i E)].
    unfold has_basic in HB. rewrite Forall_forall in HB. exact (HB n H).
  - pose proof (traced_name n c T) as (P & R & NR). eauto 6.
Qed.

(* ---- The policy ---- *)
Definition gen_line (n : string) (l : cline) : Prop := exists nr r, l = CRule n nr r /\ cline_ok a l /\ line_text l = n ++ ": " ++ arg_filter n /\ means n r.
Lemma lines_exist ns : (forall n, In n ns -> plain_name n /\ (reserved n -> n = "kill") /\ (exists nr, first_entry (pa_syscalls a) n nr) /\ (forall i, first_entry inspected n i -> exists c, traced tr n c)) ->
  exists ls, Forall2 gen_line ns ls.
Proof.
  induction ns as [|n ns IH]; intros H; [exists []; constructor|]. destruct IH as (ls & F). { intros m M. apply H. right. exact M. }
  destruct (H n (or_introl eq_refl)) as (P & R & (nr & FE) & I). destruct (rule_exists n I) as (r & RO & RT & RM).
  exists (CRule n nr r :: ls). constructor; [|exact F]. exists nr, r. split; [reflexivity|]. split; [split; [exact P|split; [exact R|split; assumption]]|].
  split; [cbn [line_text]; rewrite RT; reflexivity|exact RM].
Qed.
Lemma lines_text ns ls : Forall2 gen_line ns ls -> String.concat "" (map (M_Gen.policy_line order vals) ns) = policy_text ls.
Proof.
  intros H. induction H as [|n l ns ls (nr & r & E & _ & T & _) H IH]; [reflexivity|]. cbn [map policy_text]. rewrite concat_cons, IH, T. unfold M_Gen.policy_line. cbv zeta. fold (arg_filter n). rewrite !sapp_assoc. reflexivity.
Qed.
Lemma lines_ok ns ls : Forall2 gen_line ns ls -> Forall (cline_ok a) ls.
Proof. intros H. induction H as [|n l ns ls (nr & r & _ & K & _) H IH]; constructor; assumption. Qed.
Lemma lines_numbers ns ls : Forall2 gen_line ns ls -> forall nr, In nr (rule_numbers ls) -> exists n, In n ns /\ first_entry (pa_syscalls a) n nr.
Proof.
  intros H. induction H as [|n l ns ls (nr & r & E & K & _) H IH]; intros k I; [destruct I|]. subst l. cbn in I. destruct I as [<-|I].
  - exists n. split; [left; reflexivity|apply K].
  - destruct (IH k I) as (m & M & FE). exists m. split; [right; exact M|exact FE].
Qed.
Hypothesis ON : one_name_each a.
Lemma lines_nodup ns ls : NoDup ns -> Forall2 gen_line ns ls -> NoDup (rule_numbers ls).
Proof.
  intros N H. induction H as [|n l ns ls (nr & r & E & K & _) H IH]; [constructor|]. inversion N as [|? ? A N']; subst. cbn. constructor; [|apply IH; exact N'].
  intros I. destruct (lines_numbers ns ls H nr I) as (m & M & FE). apply A. rewrite (ON n m nr); [exact M|apply K|exact FE].
Qed.
Lemma lines_decide ns ls v d : Forall2 gen_line ns ls ->
  (exists n r, In n ns /\ first_entry (pa_syscalls a) n (sd_nr d) /\ means n r /\ common_decision bits v ls d = crule_value bits d v r) \/
  ((forall n, In n ns -> ~ first_entry (pa_syscalls a) n (sd_nr d)) /\ common_decision bits v ls d = v).
Proof.
  intros H. induction H as [|n l ns ls (nr & r & E & K & _ & M) H IH]; [right; split; [intros n []|reflexivity]|]. subst l. cbn [common_decision].
  destruct (nr =? sd_nr d)%N eqn:Q.
  - apply N.eqb_eq in Q. left. exists n, r. split; [left; reflexivity|]. split; [rewrite <- Q; apply K|]. auto.
  - apply N.eqb_neq in Q. destruct IH as [(m & r' & I & FE & X)|(A & B)].
    + left. exists m, r'. split; [right; exact I|]. auto.
    + right. split; [|exact B]. intros m [<-|I] FE; [|exact (A m I FE)]. apply Q. destruct K as (_ & _ & FE' & _). exact (fe_same _ _ _ _ FE' FE).
Qed.
Definition notice (year : string) : list cline :=
  [CComment (" Copyright " ++ year ++ " The ChromiumOS Authors");
   CComment " Use of this source code is governed by a BSD-style license that can be"; CComment " found in the LICENSE file."; CBlank].
Lemma policy_app l l' : policy_text (l ++ l')%list = policy_text l ++ policy_text l'.
Proof. induction l as [|y l IH]; [reflexivity|]. cbn [app policy_text]. rewrite IH, sapp_assoc. reflexivity. Qed.
Lemma notice_ok year : all_chars dec_digit year -> Forall (cline_ok a) (notice year).
Proof.
  intros Y. assert (forall s, every (fun c => negb (is_c newline c || is_c cr c || is_c "000" c)) s = true -> all_chars (fun c => c <> newline /\ c <> cr /\ c <> "000"%char) s) as G.
  { intros s E. apply every_all in E. revert E. apply all_chars_impl. intros c C. repeat split; intros ->; discriminate C. }
  assert (forall s u z, s = u ++ z -> every (fun c => negb (is_c "\" c)) z = true -> z <> "" -> forall t, s <> t ++ "\") as E.
  { intros s u z -> Z N t Q. destruct (snoc_cases z) as [->|(z' & c & ->)]; [congruence|]. rewrite <- sapp_assoc in Q. apply sapp_snoc_inj in Q as [_ ->]. rewrite every_app in Z. apply andb_true_iff in Z as [_ Z]. discriminate Z. }
  apply Forall_cons; [split|apply Forall_cons; [split|apply Forall_cons; [split|apply Forall_cons; [exact Logic.I|constructor]]]].
  - apply all_chars_app. split; [apply G; reflexivity|]. apply all_chars_app. split; [|apply G; reflexivity]. revert Y. apply all_chars_impl. intros c C. apply is_digit_spec in C. repeat split; intros ->; discriminate C.
  - apply (E _ (" Copyright " ++ year) " The ChromiumOS Authors"); [rewrite sapp_assoc; reflexivity|reflexivity|discriminate].
  - apply G. reflexivity.
  - apply (E _ "" _ eq_refl); [reflexivity|discriminate].
  - apply G. reflexivity.
  - apply (E _ "" _ eq_refl); [reflexivity|discriminate].
Qed.
Lemma notice_text year : policy_text (notice year) = M_Gen.NOTICE year ++ M_Gen.NL.
Proof. cbn [policy_text notice line_text]. unfold M_Gen.NOTICE. rewrite !sapp_assoc. reflexivity. Qed.
Lemma generated year frequency : all_chars dec_digit year ->
  exists p, M_Gen.generate order year frequency (on_disk tr) = Some (policy_text p) /\ common_ok a p /\
  forall v d, (permitted a x w tr d -> common_decision bits v p d = ALLOW) /\ (~ permitted a x w tr d -> common_decision bits v p d = v).
Proof.
  intros Y. destruct (listed_calls_spec frequency) as [ND LC]. destruct (lines_exist (listed_calls frequency)) as (ls & F). { intros n. apply listed_name. }
  exists (notice year ++ ls)%list. split; [|split].
  - unfold M_Gen.generate. rewrite (traces_read a tr _ TR). f_equal. fold (final tr). fold (listed_calls frequency).
    rewrite (lines_text _ _ F), policy_app, notice_text, sapp_assoc. reflexivity.
  - split; [apply Forall_app; split; [apply notice_ok; exact Y|apply (lines_ok _ _ F)]|]. exact (lines_nodup _ _ ND F).
  - intros v d. replace (common_decision bits v (notice year ++ ls)%list d) with (common_decision bits v ls d) by reflexivity.
    destruct (lines_decide _ _ v d F) as [(n & r & I & FE & M & ->)|(A & ->)].
    + destruct (M v d) as [M1 M2]. split.
      * intros (m & FE' & _ & H). apply M1. rewrite (ON n m _ FE FE'). exact H.
      * intros NP. apply M2. intros AL. apply NP. exists n. split; [exact FE|]. split; [apply LC in I; exact I|exact AL].
    + split; [|reflexivity]. intros (m & FE' & H & _). exfalso. apply (A m); [apply LC; exact H|exact FE'].
Qed.
End tables.

(* ---- Traced calls ---- *)
Lemma write_exec_dec a tr n i : trace_ok a tr -> first_entry inspected n i -> write_exec_seen tr n \/ ~ write_exec_seen tr n.
Proof.
  intros TR L. set (we s := let ps := map M_Gen.py_strip (M_Gen.py_split "|" s "") in M_Gen.inb "PROT_EXEC" ps && M_Gen.inb "PROT_WRITE" ps).
  assert (existsb we (values n (M_Gen.t_values (final tr))) = true <-> write_exec_seen tr n) as WE.
  { rewrite existsb_exists. unfold we, write_exec_seen. split.
    - intros (s & S & H). apply (final_values tr n s i L) in S as (c & T & ->). exists c. split; [exact T|]. destruct (traced_parts a tr TR n c i T L) as [P1 P2]. cbv zeta in H.
      rewrite (parts_words a _ P1 P2) in H. apply andb_true_iff in H as [H1 H2]. apply inb_spec in H1, H2. auto.
    - intros (c & T & H1 & H2). exists (parts_text (tc_value c)). split; [apply (final_values tr n _ i L); eauto|]. destruct (traced_parts a tr TR n c i T L) as [P1 P2].
      cbv zeta. rewrite (parts_words a _ P1 P2). apply andb_true_iff. split; apply inb_spec; assumption. }
  rewrite <- WE. destruct (existsb we _); [left; reflexivity|right; discriminate].
Qed.
Lemma traced_permitted a x w tr n c d : trace_ok a tr -> traced tr n c -> (maps_memory n -> symbolic x w c) -> made a n c d -> permitted a x w tr d.
Proof.
  intros TR T SY [FE V]. exists n. split; [exact FE|]. split; [right; exists c; exact T|]. intros i I. cbv zeta. rewrite (V i I).
  assert (maps_memory n \/ ~ maps_memory n) as [MM|NM].
  { unfold maps_memory. destruct (string_dec n "mmap"), (string_dec n "mmap2"), (string_dec n "mprotect"); tauto. }
  - destruct (write_exec_dec a tr n i TR I) as [W|NW]; [right; split; [auto|eauto]|]. left. split; [exact MM|]. split; [exact NW|].
    destruct (N.eq_dec (N.land (parts_value (tc_value c)) x) 0) as [E|E]; [left; exact E|]. destruct (N.eq_dec (N.land (parts_value (tc_value c)) w) 0) as [E'|E']; [right; exact E'|].
    exfalso. apply NW. exists c. split; [exact T|]. exact (SY MM E E').
  - right. split; [auto|eauto].
Qed.

(* ---- Both compilers ---- *)
Section compiled.
Variables (a : parch) (x w : N) (tr : list tfile) (order : list string -> list string) (year : string) (frequency : bool) (t : string).
Hypotheses (B32 : arch_bits (pa_arch a) = 32 \/ arch_bits (pa_arch a) = 64) (TR : trace_ok a tr).
Hypotheses (CX : const_ok a (Part "PROT_EXEC" x)) (CW : const_ok a (Part "PROT_WRITE" w)) (HB : has_basic a) (ON : one_name_each a).
Hypotheses (ORD : forall l, Permutation (order l) l) (Y : all_chars dec_digit year).
Hypothesis G : M_Gen.generate order year frequency (on_disk tr) = Some t.
Lemma generated_c b fo fs prog d : same_tables b a -> M_Bpf.little (M_Filter.b_plat b) = true ->
  M_Filter.compile_filter b fo fs (Some (M_Lines.Stream t false)) = M_Filter.COk prog ->
  sd_ok d -> sd_arch d = M_Bpf.arch_no (M_Filter.b_plat b) -> ~ allowed_by_option b fo (sd_nr d) ->
  (permitted a x w tr d -> run true prog d = VRet ALLOW) /\ (~ permitted a x w tr d -> run true prog d = VRet (action_value (M_Filter.fo_action fo))).
Proof.
  intros ST LE C SD AR NO. destruct (generated a x w tr B32 TR CX CW HB order ORD ON year frequency Y) as (p & E & OK & D). rewrite G in E. apply some_eq in E. subst t.
  rewrite (c_answers a p OK B32 b fo fs prog ST LE C d SD AR NO). destruct (D (action_value (M_Filter.fo_action fo)) d) as [D1 D2]. split; intros H; [rewrite (D1 H)|rewrite (D2 H)]; reflexivity.
Qed.
Lemma generated_python o resolve text file prog d : tables_ok a -> options_ok o -> o_denylist o = false -> o_ret_log o = false ->
  text file = Some t -> compile_text a o resolve text file = Some prog -> sd_ok d -> sd_arch d = arch_nr (pa_arch a) ->
  (permitted a x w tr d -> run true prog d = VRet ALLOW) /\ (~ permitted a x w tr d -> run true prog d = VRet (py_default o)).
Proof.
  intros TO OO DL RL TX C SD AR. destruct (generated a x w tr B32 TR CX CW HB order ORD ON year frequency Y) as (p & E & OK & D). rewrite G in E. apply some_eq in E. subst t.
  rewrite (py_answers a p OK B32 o resolve text file TO OO DL RL TX prog d C SD AR). destruct (D (py_default o) d) as [D1 D2]. split; intros H; [rewrite (D1 H)|rewrite (D2 H)]; reflexivity.
Qed.
Lemma generated_compiles o resolve text file : tables_ok a -> options_ok o -> o_denylist o = false -> o_ret_log o = false -> text file = Some t ->
  exists prog, compile_text a o resolve text file = Some prog /\ ((length prog <= 4096)%nat -> kernel_accepts prog).
Proof.
  intros TO OO DL RL TX. destruct (generated a x w tr B32 TR CX CW HB order ORD ON year frequency Y) as (p & E & OK & D). rewrite G in E. apply some_eq in E. subst t.
  exact (py_compiles a p OK B32 o resolve text file TO OO DL RL TX).
Qed.
End compiled.
Lemma generated_c_compiles a x w tr order year frequency b fo fs :
  arch_bits (pa_arch a) = 32 \/ arch_bits (pa_arch a) = 64 -> trace_ok a tr -> const_ok a (Part "PROT_EXEC" x) -> const_ok a (Part "PROT_WRITE" w) ->
  has_basic a -> one_name_each a -> (forall l, Permutation (order l) l) -> all_chars dec_digit year ->
  same_tables b a -> syscall_table (pa_syscalls a) -> (M_Filter.fo_action fo = M_Filter.ACT_LOG -> M_Filter.fo_allow_logging fo = true) ->
  exists p, M_Gen.generate order year frequency (on_disk tr) = Some (policy_text p) /\
  (has_room (length (M_Filter.b_log b) + length (M_Filter.b_libc b)) p ->
   exists prog, M_Filter.compile_filter b fo fs (Some (M_Lines.Stream (policy_text p) false)) = M_Filter.COk prog).
Proof.
  intros B32 TR CX CW HB ON ORD Y ST TB LG. destruct (generated a x w tr B32 TR CX CW HB order ORD ON year frequency Y) as (p & E & OK & _).
  exists p. split; [exact E|]. intros R. exact (c_compiles a fo b fs p OK ST TB LG R).
Qed.
