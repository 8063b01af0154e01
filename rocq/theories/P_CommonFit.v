(* Policies for both compilers that have room are compiled by both. *)
From Verif Require Import P_CStr P_Const S_Policy S_PyPolicy P_PyFile P_PyEx.
From Verif Require Import M_PyParse S_PyText P_PyLex P_PyGram P_PyStmt P_PyText P_PyMean P_PyTextEx S_Common P_CommonPy P_CommonC P_Common P_CommonEx.
From Verif Require Import S_Accept.
From Verif Require P_Accept P_AcceptEx.
Local Open Scope nat_scope.

Lemma NoDup_filter_map {A B} (f : A -> B) (g : A -> bool) l : NoDup (map f l) -> NoDup (map f (filter g l)).
Proof.
  induction l as [|x l IH]; cbn; intros H; [constructor|]. apply NoDup_cons_iff in H as [N H]. destruct (g x); [|exact (IH H)].
  cbn. constructor; [|exact (IH H)]. intros I. apply N. apply in_map_iff in I as (y & E & I). apply filter_In in I as [I _].
  apply in_map_iff. exists y. split; assumption.
Qed.
Section fit.
Variables (a : parch) (fo : fopts).
Lemma entry_numbers p : map S_Policy.e_nr (flat_map (entry_of fo) p) = rule_numbers p.
Proof. induction p as [|[|t|n k r] p IH]; cbn; try exact IH; [reflexivity|]. f_equal. exact IH. Qed.
Lemma entry_names p : Forall (cline_ok a) p -> Forall (fun e => first_entry (pa_syscalls a) (S_Policy.e_name e) (S_Policy.e_nr e)) (flat_map (entry_of fo) p).
Proof.
  induction 1 as [|[|t|n k r] p OK F IH]; cbn; try exact IH; [constructor|]. constructor; [|exact IH]. cbn. exact (proj1 (proj2 (proj2 OK))).
Qed.
Lemma names_once tbl l : Forall (fun e => first_entry tbl (S_Policy.e_name e) (S_Policy.e_nr e)) l -> NoDup (map S_Policy.e_nr l) -> NoDup (map S_Policy.e_name l).
Proof.
  induction 1 as [|e l E F IH]; cbn; intros H; [constructor|]. apply NoDup_cons_iff in H as [N H]. constructor; [|exact (IH H)].
  intros I. apply N. apply in_map_iff in I as (y & EQ & I). apply in_map_iff. exists y. split; [|exact I].
  rewrite Forall_forall in F. specialize (F y I). rewrite EQ in F. apply assoc_spec in F, E. rewrite F in E. apply some_eq in E. exact E.
Qed.
Lemma labels_eq p : policy_labels (flat_map (entry_of fo) p) = on_rules crule_labels p.
Proof.
  unfold on_rules, policy_labels. induction p as [|[|t|n k r] p IH]; cbn; try exact IH; [reflexivity|]. rewrite IH. f_equal.
  destruct r; cbn; [reflexivity..|]. rewrite map_length. reflexivity.
Qed.
Lemma atom_most b64 x : atom_size b64 x <= 9.
Proof. unfold atom_size. destruct b64; [|lia]. destruct (at_op x); try lia; destruct (_ <? _)%N; lia. Qed.
Lemma group_most b64 g : sum (map (atom_size b64) (map atom_of g)) <= 9 * length g.
Proof.
  induction g as [|x g IH]; [apply le_n|]. cbn [map sum fold_right length]. fold (sum (map (atom_size b64) (map atom_of g))). pose proof (atom_most b64 (atom_of x)). lia.
Qed.
Lemma rule_most b64 r : rule_size b64 (rule_of fo r) <= crule_most r.
Proof.
  destruct r as [|x|alts]; cbn [rule_size rule_of crule_most]; try lia.
  enough (sum (map (fun g => sum (map (atom_size b64) g) + 2) (map (map atom_of) alts)) <= list_sum (map (fun g => 2 + 9 * length g) alts)) by lia.
  induction alts as [|g alts IH]; [apply le_n|]. cbn [map sum fold_right list_sum]. pose proof (group_most b64 g). unfold sum, list_sum in *. lia.
Qed.
Lemma rules_most b64 p : sum (map (fun e => rule_size b64 (S_Policy.e_rule e)) (flat_map (entry_of fo) p)) <= on_rules crule_most p.
Proof.
  unfold on_rules. induction p as [|[|t|n k r] p IH]; cbn [flat_map entry_of app map sum fold_right list_sum]; try exact IH; [apply le_n|].
  pose proof (rule_most b64 r). cbn [S_Policy.e_rule]. unfold sum, list_sum in *. lia.
Qed.
Lemma c_compiles b fs p : common_ok a p -> same_tables b a -> syscall_table (pa_syscalls a) ->
  (M_Filter.fo_action fo = M_Filter.ACT_LOG -> M_Filter.fo_allow_logging fo = true) ->
  has_room (length (M_Filter.b_log b) + length (M_Filter.b_libc b)) p ->
  exists prog, M_Filter.compile_filter b fo fs (Some (M_Lines.Stream (policy_text p) false)) = M_Filter.COk prog.
Proof.
  intros [F ND] ST TB LOG [RL RS]. pose proof (entry_numbers p) as EN. pose proof (names_once _ _ (entry_names p F)) as NN. rewrite EN in NN. specialize (NN ND).
  destruct (P_Accept.accept_iff b fo fs (M_Lines.Stream (policy_text p) false) (tables_names b a ST)) as [_ X].
  { destruct ST as (_ & _ & -> & _). exact TB. }
  apply (X (flat_map (entry_of fo) p)); [eapply policy_reads; [exact ST| |exact F]; destruct ST as (_ & -> & _); destruct (M_Bpf.bits64 _); [right|left]; reflexivity|]. constructor.
  - exact LOG.
  - intros _. exact NN.
  - apply NoDup_filter_map. exact NN.
  - apply NoDup_filter_map. rewrite EN. exact ND.
  - rewrite labels_eq. exact RL.
  - unfold policy_size. pose proof (rules_most (M_Bpf.bits64 (M_Filter.b_plat b)) p). destruct (M_Filter.fo_allow_syscalls_for_logging fo), (M_Filter.fo_libc_compat fo); lia.
Qed.
End fit.
Lemma compiles_case : common_ok pc both /\ same_tables c_pc pc /\ syscall_table (pa_syscalls pc) /\ has_room (length (M_Filter.b_log c_pc) + length (M_Filter.b_libc c_pc)) both.
Proof.
  split; [exact both_ok|]. split; [exact pc_tables|]. split.
  - apply P_AcceptEx.table_of. unfold pc. cbn [pa_syscalls].
    repeat (constructor; [split; [apply Nat.leb_le; reflexivity|]; split; [reflexivity|]; cbn [fst]; intros c u H; injection H as <- _; vm_compute; intros [A B]; first [apply A; reflexivity|apply B; reflexivity]|]). constructor.
  - split; apply Nat.leb_le; vm_compute; reflexivity.
Qed.
