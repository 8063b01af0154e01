(* Proofs for C84: whole files, and what the compiler then reads. *)
From Verif Require Import P_CStr P_Const S_Policy S_PyPolicy P_PyFile.
From Verif Require Import M_PyParse S_PyText P_PyLex P_PyGram S_Common P_CommonPy P_GenText P_GenRead.
From Verif Require Import M_Json S_Json P_Json.
From Coq Require Import Lia.
Local Open Scope string_scope.

(* ---- Dictionaries ---- *)
Lemma lookup_set {A} n v (d : list (string * A)) m : lookup m (dict_set n v d) = if String.eqb n m then Some v else lookup m d.
Proof.
  induction d as [|[k x] d IH]; cbn; [reflexivity|]. destruct (String.eqb k n) eqn:E; cbn.
  - apply String.eqb_eq in E as ->. destruct (String.eqb n m); reflexivity.
  - destruct (String.eqb k m) eqn:F; [|exact IH]. apply String.eqb_eq in F as ->. rewrite String.eqb_sym, E. reflexivity.
Qed.
Lemma keys_set {A} n v (d : list (string * A)) m : In m (map fst (dict_set n v d)) <-> m = n \/ In m (map fst d).
Proof.
  induction d as [|[k x] d IH]; cbn; [intuition congruence|]. destruct (String.eqb k n) eqn:E; cbn.
  - apply String.eqb_eq in E as ->. split; [intros [H|H]; auto|intros [H|[H|H]]; auto].
  - rewrite IH. split; [intros [H|[H|H]]; auto|intros [H|[H|H]]; auto].
Qed.
Lemma nodup_set {A} n v (d : list (string * A)) : NoDup (map fst d) -> NoDup (map fst (dict_set n v d)).
Proof.
  induction d as [|[k x] d IH]; cbn; intros H; [constructor; [intros []|constructor]|]. apply NoDup_cons_iff in H as [NI ND].
  destruct (String.eqb k n) eqn:E; cbn; constructor; auto. rewrite keys_set. intros [H|H]; [|exact (NI H)]. subst. rewrite String.eqb_refl in E. discriminate.
Qed.
Lemma in_lookup {A} (l : list (string * A)) n v : NoDup (map fst l) -> (In (n, v) l <-> lookup n l = Some v).
Proof.
  intros ND. split; [apply lookup_in, ND|]. clear ND. induction l as [|[m x] l IH]; cbn; [discriminate|]. destruct (String.eqb m n) eqn:E.
  - apply String.eqb_eq in E as ->. intros [= ->]. left. reflexivity.
  - intros H. right. exact (IH H).
Qed.
Lemma set_new {A} n v (d : list (string * A)) : ~ In n (map fst d) -> dict_set n v d = (d ++ [(n, v)])%list.
Proof.
  induction d as [|[k x] d IH]; cbn; intros H; [reflexivity|]. destruct (String.eqb k n) eqn:E.
  - apply String.eqb_eq in E as ->. exfalso. apply H. left. reflexivity.
  - rewrite IH; [reflexivity|]. intros I. apply H. right. exact I.
Qed.
Lemma set_all_holds table : holds (set_all table []) table.
Proof.
  induction table as [|[m x] table [ND IH]] using rev_ind.
  - split; [constructor|]. intros n v. split; [intros []|]. intros (a & b & E & _). destruct a; discriminate.
  - unfold set_all in *. rewrite fold_left_app. cbn [fold_left fst snd]. set (d := fold_left _ table []) in *. split; [apply nodup_set, ND|].
    intros n v. rewrite (in_lookup _ n v (nodup_set m x d ND)), lookup_set. destruct (String.eqb m n) eqn:E.
    + apply String.eqb_eq in E as ->. split.
      * intros [= ->]. exists table, []. split; [reflexivity|intros []].
      * intros (a & b & E & NI). destruct b as [|y b] using rev_ind.
        { apply app_inj_tail in E as [_ E]. congruence. }
        clear IHb. change (a ++ (n, v) :: b ++ [y])%list with (a ++ ((n, v) :: b) ++ [y])%list in E. rewrite app_assoc in E. apply app_inj_tail in E as [_ <-].
        exfalso. apply NI. rewrite map_app, in_app_iff. right. left. reflexivity.
    + apply String.eqb_neq in E. rewrite <- (in_lookup d n v ND), IH. split.
      * intros (a & b & -> & NI). exists a, (b ++ [(m, x)])%list. split; [rewrite <- app_assoc; reflexivity|]. rewrite map_app, in_app_iff. intros [H|[H|[]]]; [exact (NI H)|exact (E H)].
      * intros (a & b & E2 & NI). destruct b as [|y b] using rev_ind.
        { apply app_inj_tail in E2 as [_ E2]. congruence. }
        clear IHb. change (a ++ (n, v) :: b ++ [y])%list with (a ++ ((n, v) :: b) ++ [y])%list in E2. rewrite app_assoc in E2. apply app_inj_tail in E2 as [E2 _].
        exists a, b. split; [exact E2|]. intros H. apply NI. rewrite map_app, in_app_iff. left. exact H.
Qed.

(* ---- Lines ---- *)
Lemma py_in_false x s : ~ contains x s -> M_Gen.py_in x s = false.
Proof. intros H. apply not_true_iff_false. rewrite py_in_spec. exact H. Qed.
Lemma py_in_true x s : contains x s -> M_Gen.py_in x s = true.
Proof. apply py_in_spec. Qed.
Lemma read_other st l : other_line l -> read_line st l = Some st.
Proof.
  intros (Q & A & B). unfold read_line. rewrite not_string by (rewrite (quotes_contains _ Q); lia). rewrite (py_in_false _ _ A), (py_in_false _ _ B). reflexivity.
Qed.
Lemma read_before before strings : string_lines before strings -> forall st, NoDup (map fst (ir_strings st) ++ map fst strings)%list -> forall rest,
  read_lines st (before ++ rest)%list = read_lines (IrState (ir_strings st ++ strings)%list (ir_name st) (ir_entries st)) rest.
Proof.
  induction 1 as [|l ls strings O _ IH|l ls sym name strings S _ IH]; intros st ND rest.
  - cbn [app]. rewrite app_nil_r. destruct st. reflexivity.
  - cbn [app read_lines]. rewrite (read_other st l O). apply IH, ND.
  - cbn [app read_lines]. unfold read_line. rewrite (is_string _ _ _ S). cbn [map fst] in ND.
    rewrite set_new.
    + rewrite IH; cbn [ir_strings ir_name ir_entries]; [rewrite <- app_assoc; reflexivity|]. rewrite map_app, <- app_assoc. exact ND.
    + apply NoDup_remove_2 in ND. intros H. apply ND. apply in_app_iff. left. exact H.
Qed.
Lemma no_quote_text s : every (but """") s = true -> string_constant s = None.
Proof. intros E. apply not_string. rewrite (quotes_none s E). lia. Qed.
Lemma read_table kind strings line table st : a_kind kind -> NoDup (map fst strings) -> table_line kind strings line table -> ir_strings st = strings ->
  read_line st line = Some (IrState strings (kind ++ "s") (set_all table (ir_entries st))).
Proof.
  intros KD ND [mid text tb ln M E Q LE C] <-. clear line table. rename tb into table, ln into line. unfold read_line.
  subst line.
  rewrite no_quote_text.
  2:{ pose proof (without_but _ """"%char _ (ex_intro _ "%" (ex_intro _ "" eq_refl)) M) as M2. pose proof (without_but _ """"%char _ (ex_intro _ "" (ex_intro _ "" eq_refl)) Q) as Q2.
      rewrite !every_app, M2, Q2. destruct KD as [->| ->]; reflexivity. }
  assert (findall 0 ("@" ++ kind ++ "_table = " ++ mid ++ "%struct." ++ kind ++ "_entry] [" ++ text) = findall 0 text) as ->.
  { pose proof (without_but _ "%"%char _ (ex_intro _ "" (ex_intro _ """" eq_refl)) M) as M2.
    replace ("@" ++ kind ++ "_table = " ++ mid ++ "%struct." ++ kind ++ "_entry] [" ++ text) with (("@" ++ kind ++ "_table = " ++ mid) ++ String "%" (("struct." ++ kind ++ "_entry] [") ++ text))
      by (rewrite !sapp_assoc; reflexivity).
    rewrite findall_quiet by (rewrite !every_app, M2; destruct KD as [->| ->]; reflexivity). cbn [findall].
    assert (table_entry (String "%" (("struct." ++ kind ++ "_entry] [") ++ text)) = None) as -> by (destruct KD as [->| ->]; reflexivity).
    apply findall_quiet. destruct KD as [->| ->]; reflexivity. }
  rewrite (entries_read kind _ text table KD ND E).
  destruct KD as [->| ->].
  - assert (M_Gen.py_in "@syscall_table" ("@" ++ "constant" ++ "_table = " ++ mid ++ "%struct." ++ "constant" ++ "_entry] [" ++ text) = false) as ->.
    { apply py_in_false. exact (C eq_refl). }
    rewrite py_in_true; [reflexivity|]. exists "", (" = " ++ mid ++ "%struct." ++ "constant" ++ "_entry] [" ++ text). reflexivity.
  - rewrite py_in_true; [reflexivity|]. exists "", (" = " ++ mid ++ "%struct." ++ "syscall" ++ "_entry] [" ++ text). reflexivity.
Qed.
Lemma read_after kind after st : a_kind kind -> ir_name st = kind ++ "s" -> Forall (quiet_line kind) after -> read_lines st after = Some st.
Proof.
  intros KD N. induction 1 as [|l ls [O|(-> & rest & -> & W)] _ IH]; [reflexivity| |]; cbn [read_lines].
  - rewrite (read_other st l O). exact IH.
  - unfold read_line. rewrite no_quote_text.
    2:{ rewrite every_app, (without_but _ """"%char _ (ex_intro _ "%" (ex_intro _ "" eq_refl)) W). reflexivity. }
    rewrite (py_in_true "@syscall_table") by (exists "", ("_size" ++ rest); reflexivity). cbn [orb].
    rewrite <- (sapp_nil_r rest), findall_quiet by reflexivity.
    rewrite findall_quiet by (exact (without_but _ "%"%char _ (ex_intro _ "" (ex_intro _ """" eq_refl)) W)).
    cbn [findall read_entries]. change "syscalls" with ("syscall" ++ "s"). rewrite <- N. destruct st. exact IH.
Qed.
Lemma file_read kind table lines : a_kind kind -> ir_file kind table lines -> parse_llvm_ir lines = Some (kind ++ "s", set_all table []).
Proof.
  intros KD [before line after strings B ND T A]. unfold parse_llvm_ir. rewrite (read_before before strings B) by exact ND. cbn [ir_strings ir_name ir_entries app read_lines].
  rewrite (read_table kind strings line table _ KD ND T) by reflexivity. cbn [ir_entries].
  rewrite (read_after kind after _ KD) by (reflexivity || exact A). reflexivity.
Qed.
Lemma file_holds kind table lines : a_kind kind -> ir_file kind table lines -> exists d, parse_llvm_ir lines = Some (kind ++ "s", d) /\ holds d table.
Proof. intros KD F. exists (set_all table []). split; [apply file_read; assumption|apply set_all_holds]. Qed.

(* ---- constants.json ---- *)
Lemma machine_spec nr name : machine nr name <-> arch_name nr = Some name.
Proof.
  unfold machine, arch_name. split.
  - intros [H|[H|[H|[H|[H|[]]]]]]; injection H as <- <-; reflexivity.
  - repeat match goal with |- context [(nr =? ?z)%Z] => destruct (Z.eqb_spec nr z) as [->|] end; intros [= <-]; cbn; tauto.
Qed.
Lemma holds_lookup d table n v : holds d table -> (lookup n d = Some v <-> last_value table n v).
Proof. intros [ND H]. rewrite <- H. symmetry. apply in_lookup, ND. Qed.
Lemma both_tables fc fs cs ss files : ir_file "constant" cs fc -> ir_file "syscall" ss fs -> files = [fc; fs] \/ files = [fs; fc] ->
  exists d, tables files [] = Some d /\ lookup "constants" d = Some (set_all cs []) /\ lookup "syscalls" d = Some (set_all ss []).
Proof.
  intros C S F. pose proof (file_read _ _ _ (or_introl eq_refl) C) as RC. pose proof (file_read _ _ _ (or_intror eq_refl) S) as RS.
  destruct F as [->| ->]; cbn [tables]; rewrite RC, RS; eexists; repeat split.
Qed.
Lemma first_map ss n v (d : list (string * Z)) : holds d ss ->
  (first_entry (map (fun e => (fst e, Z.to_N (snd e))) d) n v <-> exists z, last_value ss n z /\ v = Z.to_N z).
Proof.
  intros H. transitivity (exists z, lookup n d = Some z /\ v = Z.to_N z).
  - clear H. induction d as [|[m x] d IH]; cbn.
    + split; [intros X; inversion X|intros (z & X & _); discriminate].
    + destruct (String.eqb_spec m n) as [->|N].
      * split; [intros X; inversion X; subst; [eauto|congruence]|]. intros (z & [= ->] & ->). constructor.
      * rewrite <- IH. split; [intros X; inversion X; subst; [congruence|assumption]|]. intros X. constructor; assumption.
  - split; intros (z & X & E); exists z; (split; [|exact E]); apply (holds_lookup d ss n z H); exact X.
Qed.
Lemma first_lookup {A} (l : list (string * A)) n v : first_entry l n v <-> lookup n l = Some v.
Proof.
  induction l as [|[m x] l IH]; cbn; [split; [intros X; inversion X|discriminate]|]. destruct (String.eqb_spec m n) as [->|N].
  - split; [intros X; inversion X; subst; congruence|]. intros [= ->]. constructor.
  - rewrite <- IH. split; [intros X; inversion X; subst; [congruence|assumption]|]. intros X. constructor; assumption.
Qed.
Lemma json_made fc fs cs ss files nr bits name : ir_file "constant" cs fc -> ir_file "syscall" ss fs -> files = [fc; fs] \/ files = [fs; fc] ->
  last_value cs "MINIJAIL_ARCH_NR" nr -> last_value cs "MINIJAIL_ARCH_BITS" bits -> machine nr name ->
  exists j a, generate files = Some j /\ load_from_json j = Some a /\
    pa_arch a = Arch (Z.to_N nr) (Z.to_N bits) /\ pa_name a = name /\ pa_groups a = [] /\
    (forall n v, first_entry (pa_constants a) n v <-> last_value cs n v) /\
    (forall n v, first_entry (pa_syscalls a) n v <-> exists z, last_value ss n z /\ v = Z.to_N z) /\
    ((bits = 32 \/ bits = 64)%Z -> (forall n z, In (n, z) ss -> (0 <= z < 2 ^ 32 - 1)%Z) -> tables_ok a).
Proof.
  intros C S F NR BITS M. pose proof M as M0. destruct (both_tables fc fs cs ss files C S F) as (d & T & LC & LS). pose proof (set_all_holds cs) as HC. pose proof (set_all_holds ss) as HS.
  apply (holds_lookup _ _ _ _ HC) in NR. apply (holds_lookup _ _ _ _ HC) in BITS. apply machine_spec in M. unfold generate. rewrite T, LC, NR, BITS, M.
  eexists _, _. split; [reflexivity|]. unfold load_from_json. cbn [j_tables j_arch_nr j_bits j_arch_name]. rewrite LS, LC. split; [reflexivity|].
  cbn [pa_arch pa_name pa_groups pa_constants pa_syscalls]. repeat (split; [reflexivity|]). split.
  - intros n v. rewrite first_lookup. apply holds_lookup, HC.
  - split; [intros n v; apply first_map, HS|]. intros B R. split; [destruct B as [->| ->]; [left|right]; reflexivity|]. split.
    + cbn [pa_arch arch_nr]. destruct M0 as [H|[H|[H|[H|[H|[]]]]]]; apply (f_equal fst) in H; cbn [fst] in H; subst nr; reflexivity.
    + intros n v I. cbn [pa_syscalls] in I. apply in_map_iff in I as ([m z] & E & I). cbn [fst snd] in E. injection E as -> <-. apply HS in I as (x & y & -> & _).
      specialize (R n z ltac:(apply in_app_iff; right; left; reflexivity)). change (2 ^ 32 - 1)%N with (Z.to_N (2 ^ 32 - 1)). apply Z2N.inj_lt; lia.
Qed.
Lemma json_refused fc fs cs ss files : ir_file "constant" cs fc -> ir_file "syscall" ss fs -> files = [fc; fs] \/ files = [fs; fc] ->
  generate files <> None -> exists nr bits name, last_value cs "MINIJAIL_ARCH_NR" nr /\ last_value cs "MINIJAIL_ARCH_BITS" bits /\ machine nr name.
Proof.
  intros C S F G. destruct (both_tables fc fs cs ss files C S F) as (d & T & LC & LS). pose proof (set_all_holds cs) as HC. unfold generate in G. rewrite T, LC in G.
  destruct (lookup "MINIJAIL_ARCH_NR" _) as [nr|] eqn:NR; [|congruence]. destruct (lookup "MINIJAIL_ARCH_BITS" _) as [bits|] eqn:B; [|congruence].
  destruct (arch_name nr) as [name|] eqn:N; [|congruence]. exists nr, bits, name. rewrite <- !(holds_lookup _ _ _ _ HC). split; [exact NR|]. split; [exact B|apply machine_spec, N].
Qed.

(* ---- The tables of the C compiler ---- *)
Lemma set_all_distinct table : forall d, NoDup (map fst (d ++ table)%list) -> set_all table d = (d ++ table)%list.
Proof.
  induction table as [|[n v] table IH]; intros d ND; cbn [set_all fold_left]; [rewrite app_nil_r; reflexivity|].
  change (fold_left _ table ?x) with (set_all table x). cbn [fst snd]. rewrite set_new.
  - rewrite IH; rewrite <- app_assoc; [reflexivity|exact ND].
  - rewrite map_app in ND. cbn [map fst] in ND. apply NoDup_remove_2 in ND. intros H. apply ND. apply in_app_iff. left. exact H.
Qed.
Lemma json_same fc fs cs ss files nr bits name b : ir_file "constant" cs fc -> ir_file "syscall" ss fs -> files = [fc; fs] \/ files = [fs; fc] ->
  last_value cs "MINIJAIL_ARCH_NR" nr -> last_value cs "MINIJAIL_ARCH_BITS" bits -> machine nr name ->
  NoDup (map fst cs) -> NoDup (map fst ss) -> Forall (fun e => plain_name (fst e)) cs ->
  M_Bpf.arch_no (M_Filter.b_plat b) = Z.to_N nr -> bits = (if M_Bpf.bits64 (M_Filter.b_plat b) then 64 else 32)%Z ->
  M_Filter.b_syscalls b = map (fun e => (fst e, Z.to_N (snd e))) ss ->
  M_Filter.b_consts b = map (fun e => (fst e, Z.to_N (snd e mod 2 ^ bits))) cs ->
  exists j a, generate files = Some j /\ load_from_json j = Some a /\ same_tables b a.
Proof.
  intros C S F NR BITS M NC NS PN AN AB BS BC. destruct (both_tables fc fs cs ss files C S F) as (d & T & LC & LS). pose proof (set_all_holds cs) as HC.
  rewrite set_all_distinct in LC, LS, HC by assumption. cbn [app] in *.
  apply (holds_lookup _ _ _ _ HC) in NR. apply (holds_lookup _ _ _ _ HC) in BITS. apply machine_spec in M. unfold generate. rewrite T, LC, NR, BITS, M.
  eexists _, _. split; [reflexivity|]. unfold load_from_json. cbn [j_tables j_arch_nr j_bits j_arch_name]. rewrite LS, LC. split; [reflexivity|].
  unfold same_tables. cbn [pa_arch pa_constants pa_syscalls arch_nr arch_bits]. split; [exact AN|]. split; [rewrite AB; destruct (M_Bpf.bits64 _); reflexivity|]. split; [exact BS|].
  split; [|exact PN]. rewrite BC. apply map_ext. intros [n v]. cbn [fst snd]. unfold word_of. cbn [pa_arch arch_bits]. rewrite AB. destruct (M_Bpf.bits64 _); reflexivity.
Qed.
