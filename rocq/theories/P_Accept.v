(* Which policies compile: exactly the acceptable ones. *)
From Verif Require Export P_Labels P_Claims S_Accept.
From Coq Require Import ZifyBool ZifyNat ZifyN DecimalString DecimalN DecimalFacts.
Local Open Scope N_scope.

(* ---- decimal numbers ---- *)
Lemma dec_inj m n : dec m = dec n -> m = n.
Proof.
  unfold dec. intros H. assert (X : N.to_uint m = N.to_uint n).
  { pose proof (NilEmpty.usu (N.to_uint m)) as A. pose proof (NilEmpty.usu (N.to_uint n)) as B. rewrite H in A. congruence. }
  rewrite <- (DecimalN.Unsigned.of_to m), <- (DecimalN.Unsigned.of_to n), X. reflexivity.
Qed.
Definition digit_char (c : ascii) : bool := (48 <=? N_of_ascii c) && (N_of_ascii c <=? 57).
Fixpoint all_digits (s : string) : bool := match s with EmptyString => true | String c r => digit_char c && all_digits r end.
Lemma dec_digits n : all_digits (dec n) = true.
Proof. unfold dec. induction (N.to_uint n); cbn [NilEmpty.string_of_uint all_digits]; auto. Qed.
Lemma acc_ge u : forall p, Npos p * 10 ^ N.of_nat (Decimal.nb_digits u) <= Npos (Pos.of_uint_acc u p).
Proof.
  induction u; intros p; cbn [Decimal.nb_digits Pos.of_uint_acc]; [change (10 ^ N.of_nat 0) with 1; lia|..];
    rewrite Nat2N.inj_succ, N.pow_succ_r'; (eapply N.le_trans; [|apply IHu]);
    rewrite N.mul_assoc; apply N.mul_le_mono_r; lia.
Qed.
Lemma dec_len_digits n : String.length (dec n) = Decimal.nb_digits (N.to_uint n).
Proof. unfold dec. induction (N.to_uint n); cbn; auto. Qed.
Lemma unorm_head d u : d = Decimal.unorm d -> d = Decimal.D0 u -> u = Decimal.Nil.
Proof.
  intros H ->. pose proof (nb_digits_unorm (Decimal.D0 u)) as X. unfold Decimal.unorm in H. cbn [Decimal.nzhead] in H.
  pose proof (nb_digits_nzhead u) as Y. destruct (Decimal.nzhead u) eqn:Z; try discriminate.
  - congruence.
  - exfalso. apply (nzhead_nonzero u u0). exact Z.
Qed.
Lemma dec_len n k : n < 10 ^ N.of_nat k -> (1 <= k)%nat -> (String.length (dec n) <= k)%nat.
Proof.
  intros L K. rewrite dec_len_digits. pose proof (DecimalN.Unsigned.of_to n) as V.
  pose proof (DecimalN.Unsigned.to_of (N.to_uint n)) as U. rewrite V in U.
  destruct (N.to_uint n) as [|u|u|u|u|u|u|u|u|u|u] eqn:E; [cbn; lia|apply (unorm_head _ u) in U; [subst; cbn; lia|reflexivity]|..];
    unfold N.of_uint in V; cbn [Pos.of_uint] in V; cbn [Decimal.nb_digits];
    match type of V with Npos (Pos.of_uint_acc u ?p) = _ => pose proof (acc_ge u p) as A end; rewrite V in A;
    assert (B : 10 ^ N.of_nat (Decimal.nb_digits u) < 10 ^ N.of_nat k) by (eapply N.le_lt_trans; [|exact L]; eapply N.le_trans; [|exact A]; nia);
    apply N.pow_lt_mono_r_iff in B; lia.
Qed.

(* ---- label names ---- *)
Lemma cut_underscore a : forall b x y, all_digits a = true -> all_digits b = true ->
  (a ++ String "_" x = b ++ String "_" y)%string -> a = b /\ x = y.
Proof.
  induction a as [|c a IH]; intros [|d b] x y A B H; cbn [append all_digits] in *.
  - injection H as ->. auto.
  - injection H as <- _. discriminate B.
  - injection H as -> _. discriminate A.
  - injection H as -> H. apply andb_true_iff in A as [_ A]. apply andb_true_iff in B as [_ B].
    destruct (IH b x y A B H) as [-> ->]. auto.
Qed.
Lemma slen_app a b : String.length (a ++ b) = (String.length a + String.length b)%nat.
Proof. induction a; cbn; auto. Qed.
Definition small (nr : N) : Prop := nr < 2 ^ 32.
Lemma group_full nr g : small nr -> g < 1000 -> group_end_str nr g = (dec nr ++ "_" ++ dec g ++ "_end")%string.
Proof.
  intros S G. apply stake_id. rewrite !slen_app. pose proof (dec_len nr 10) as A. pose proof (dec_len g 3) as B.
  change (10 ^ N.of_nat 10) with 10000000000 in A. change (10 ^ N.of_nat 3) with 1000 in B. unfold small in S.
  cbn [String.length]. lia.
Qed.
Lemma success_full nr : small nr -> success_str nr = (dec nr ++ "_success")%string.
Proof.
  intros S. apply stake_id. rewrite !slen_app. pose proof (dec_len nr 10) as A.
  change (10 ^ N.of_nat 10) with 10000000000 in A. unfold small in S. cbn [String.length]. lia.
Qed.
Lemma group_inj nr g nr' g' : small nr -> small nr' -> g < 1000 -> g' < 1000 ->
  group_end_str nr g = group_end_str nr' g' -> nr = nr' /\ g = g'.
Proof.
  intros S S' G G' H. rewrite !group_full in H by assumption. cbn [append] in H.
  apply cut_underscore in H as [H1 H2]; try apply dec_digits. apply (cut_underscore (dec g) (dec g')) in H2 as [H2 _]; try apply dec_digits.
  split; apply dec_inj; assumption.
Qed.
Lemma success_inj nr nr' : small nr -> small nr' -> success_str nr = success_str nr' -> nr = nr'.
Proof.
  intros S S' H. rewrite !success_full in H by assumption. apply cut_underscore in H as [H _]; try apply dec_digits. apply dec_inj, H.
Qed.
Lemma group_success nr g nr' : small nr -> small nr' -> g < 1000 -> group_end_str nr g <> success_str nr'.
Proof.
  intros S S' G H. rewrite group_full, success_full in H by assumption. cbn [append] in H.
  apply cut_underscore in H as [_ H]; try apply dec_digits. pose proof (dec_digits g) as D.
  destruct (dec g) as [|c r]; cbn [append] in H; [discriminate|]. injection H as -> _. discriminate D.
Qed.
Lemma dec_nonempty n : dec n <> ""%string.
Proof.
  unfold dec. destruct n as [|p]; [discriminate|]. cbn [N.to_uint]. pose proof (DecimalPos.Unsigned.to_uint_nonnil p) as X.
  destruct (Pos.to_uint p); [contradiction|..]; discriminate.
Qed.
Definition plain_start (n : string) : Prop := forall c t, n = String c t -> digit_char c = false.
Lemma digit_first nr x n : plain_start n -> n <> (dec nr ++ x)%string.
Proof.
  intros P H. pose proof (dec_digits nr) as D. pose proof (dec_nonempty nr) as NE.
  destruct (dec nr) as [|d r]; [contradiction|]. cbn [append] in H. specialize (P _ _ H). cbn [all_digits] in D. rewrite P in D. discriminate.
Qed.
Lemma name_group n nr g : plain_start n -> small nr -> g < 1000 -> n <> group_end_str nr g.
Proof. intros P S G. rewrite group_full by assumption. apply digit_first, P. Qed.
Lemma name_success n nr : plain_start n -> small nr -> n <> success_str nr.
Proof. intros P S. rewrite success_full by assumption. apply digit_first, P. Qed.

(* ---- the labels of a policy, in the order of the code ---- *)
Fixpoint group_strs (nr g : N) (n : nat) : list string :=
  match n with O => [] | S m => group_end_str nr g :: group_strs nr (g + 1) m end.
Definition entry_strs (e : entry) : list string :=
  match e_rule e with
  | Allow => []
  | Return _ => [e_name e]
  | Cond alts _ => e_name e :: group_strs (e_nr e) 0 (length alts) ++ [success_str (e_nr e)]
  end.
Definition policy_strs (p : policy) : list string := flat_map entry_strs p.
Lemma group_strs_in nr n : forall g x, In x (group_strs nr g n) -> exists i, x = group_end_str nr i /\ g <= i < g + N.of_nat n.
Proof.
  induction n as [|n IH]; intros g x H; [destruct H|]. cbn [group_strs] in H. destruct H as [<-|H]; [exists g; split; [reflexivity|lia]|].
  destruct (IH _ _ H) as (i & E & L). exists i. split; [exact E|lia].
Qed.
Lemma group_strs_nodup nr n : small nr -> forall g, g + N.of_nat n <= 1000 -> NoDup (group_strs nr g n).
Proof.
  intros S. induction n as [|n IH]; intros g L; cbn [group_strs]; constructor.
  - intros H. apply group_strs_in in H as (i & E & B). apply group_inj in E as [_ E]; [lia|assumption..|lia|lia].
  - apply IH. lia.
Qed.
Lemma group_strs_len nr n : forall g, length (group_strs nr g n) = n.
Proof. induction n; cbn; auto. Qed.
Lemma entry_strs_len e : length (entry_strs e) = rule_labels (e_rule e).
Proof.
  unfold entry_strs. destruct (e_rule e); cbn [rule_labels length]; try reflexivity. rewrite app_length, group_strs_len. cbn [length]. lia.
Qed.
Lemma policy_strs_len p : length (policy_strs p) = policy_labels p.
Proof.
  induction p as [|e p IH]; [reflexivity|]. unfold policy_strs, policy_labels in *. cbn [flat_map fold_right].
  rewrite app_length, entry_strs_len, IH. reflexivity.
Qed.
Definition entry_fine (e : entry) : Prop := plain_start (e_name e) /\ small (e_nr e) /\ (rule_labels (e_rule e) <= 512)%nat.
Lemma entry_strs_in e x : In x (entry_strs e) ->
  (x = e_name e /\ with_block e = true) \/
  (with_condition e = true /\ ((exists i, x = group_end_str (e_nr e) i /\ i < N.of_nat (rule_labels (e_rule e))) \/ x = success_str (e_nr e))).
Proof.
  unfold entry_strs, with_block, with_condition. destruct (e_rule e) as [|v|alts v]; [intros []| |].
  - intros [<-|[]]. left. auto.
  - intros [<-|H]; [left; auto|]. right. split; [reflexivity|]. apply in_app_or in H as [H|[<-|[]]]; [left|right; reflexivity].
    apply group_strs_in in H as (i & E & L). exists i. split; [exact E|]. cbn [rule_labels]. lia.
Qed.
Lemma NoDup_app_intro {A} (l m : list A) : NoDup l -> NoDup m -> (forall x, In x l -> In x m -> False) -> NoDup (l ++ m).
Proof.
  induction l as [|x l IH]; intros L M D; [exact M|]. inversion L; subst. cbn [app]. constructor.
  - intros H. apply in_app_or in H as [H|H]; [contradiction|]. eapply D; [left; reflexivity|exact H].
  - apply IH; auto. intros y Y Z. eapply D; [right; exact Y|exact Z].
Qed.
Lemma entry_strs_nodup e : entry_fine e -> NoDup (entry_strs e).
Proof.
  intros (P & S & L). unfold entry_strs. destruct (e_rule e) as [|v|alts v]; [constructor| |].
  - constructor; [intros []|constructor].
  - cbn [rule_labels] in L. constructor.
    + intros H. apply in_app_or in H as [H|[H|[]]].
      * apply group_strs_in in H as (i & E & B). apply (name_group _ (e_nr e) i P) in E; [exact E|assumption|lia].
      * apply (name_success _ (e_nr e) P S). symmetry. exact H.
    + apply NoDup_app_intro; [apply group_strs_nodup; [assumption|lia]|constructor; [intros []|constructor]|].
      intros x H [<-|[]]. apply group_strs_in in H as (i & E & B). symmetry in E. apply (group_success (e_nr e) i (e_nr e)) in E; [exact E|assumption..|lia].
Qed.
Lemma strs_clash e e' x : entry_fine e -> entry_fine e' -> In x (entry_strs e) -> In x (entry_strs e') ->
  (with_block e = true /\ with_block e' = true /\ e_name e = e_name e') \/
  (with_condition e = true /\ with_condition e' = true /\ e_nr e = e_nr e').
Proof.
  intros (P & S & L) (P' & S' & L') H H'. apply entry_strs_in in H, H'.
  destruct H as [[-> B]|[C H]], H' as [[E B']|[C' H']].
  - left. auto.
  - exfalso. destruct H' as [(i & E & I)|E]; [apply (name_group _ (e_nr e') i P) in E; [exact E|assumption|lia]|apply (name_success _ _ P S' E)].
  - exfalso. subst x. destruct H as [(i & E & I)|E]; [apply (name_group _ (e_nr e) i P') in E; [exact E|assumption|lia]|apply (name_success _ _ P' S E)].
  - right. split; [exact C|]. split; [exact C'|]. destruct H as [(i & -> & I)| ->], H' as [(j & E & J)|E].
    + apply group_inj in E as [E _]; [exact E|assumption..|lia|lia].
    + exfalso. apply group_success in E; [exact E|assumption..|lia].
    + exfalso. symmetry in E. apply group_success in E; [exact E|assumption..|lia].
    + apply success_inj in E; assumption.
Qed.
Lemma in_filter_map {A B} (f : A -> B) g (x : A) l : In x l -> g x = true -> In (f x) (map f (filter g l)).
Proof. intros H G. apply in_map. apply filter_In. auto. Qed.
Lemma policy_strs_nodup p : Forall entry_fine p -> NoDup (map e_name (filter with_block p)) ->
  NoDup (map e_nr (filter with_condition p)) -> NoDup (policy_strs p).
Proof.
  induction p as [|e p IH]; intros F B C; [constructor|]. inversion F as [|? ? F1 F2]; subst.
  cbn [filter] in B, C. unfold policy_strs. cbn [flat_map]. apply NoDup_app_intro; [apply entry_strs_nodup, F1| |].
  - apply IH; [exact F2| |].
    + destruct (with_block e); [inversion B; assumption|exact B].
    + destruct (with_condition e); [inversion C; assumption|exact C].
  - intros x H H'. apply in_flat_map in H' as (e' & I & H'). assert (F3 : entry_fine e') by (rewrite Forall_forall in F2; auto).
    destruct (strs_clash e e' x F1 F3 H H') as [(W & W' & E)|(W & W' & E)].
    + rewrite W in B. inversion B as [|? ? NI _]; subst. apply NI. rewrite E. apply in_filter_map; assumption.
    + rewrite W in C. inversion C as [|? ? NI _]; subst. apply NI. rewrite E. apply in_filter_map; assumption.
Qed.
Lemma name_in_strs e : with_block e = true -> In (e_name e) (entry_strs e).
Proof. unfold with_block, entry_strs. destruct (e_rule e); [discriminate|left; reflexivity|left; reflexivity]. Qed.
Lemma success_in_strs e : with_condition e = true -> In (success_str (e_nr e)) (entry_strs e).
Proof.
  unfold with_condition, entry_strs. destruct (e_rule e); [discriminate..|]. intros _. right. apply in_or_app. right. left. reflexivity.
Qed.
Lemma NoDup_app_parts {T} (l m : list T) : NoDup (l ++ m) -> NoDup m /\ forall x, In x l -> ~ In x m.
Proof.
  induction l as [|x l IH]; intros H; [split; [exact H|intros x []]|]. cbn [app] in H. inversion H as [|? ? NI ND]; subst.
  destruct (IH ND) as [A B]. split; [exact A|]. intros y [<-|Y] Z; [apply NI, in_or_app; auto|eapply B; eauto].
Qed.
Lemma strs_names p : NoDup (policy_strs p) -> NoDup (map e_name (filter with_block p)) /\ NoDup (map e_nr (filter with_condition p)).
Proof.
  induction p as [|e p IH]; intros H; [split; constructor|]. unfold policy_strs in H. cbn [flat_map] in H.
  apply NoDup_app_parts in H as [H D]. destruct (IH H) as [A B]. cbn [filter]. split.
  - destruct (with_block e) eqn:W; [|exact A]. cbn [map]. constructor; [|exact A]. intros I. apply in_map_iff in I as (e' & E & I).
    apply filter_In in I as [I W']. eapply D; [apply name_in_strs, W|]. rewrite <- E. apply in_flat_map. exists e'. split; [exact I|apply name_in_strs, W'].
  - destruct (with_condition e) eqn:W; [|exact B]. cbn [map]. constructor; [|exact B]. intros I. apply in_map_iff in I as (e' & E & I).
    apply filter_In in I as [I W']. eapply D; [apply success_in_strs, W|]. rewrite <- E. apply in_flat_map. exists e'. split; [exact I|apply success_in_strs, W'].
Qed.

(* ---- from labels to positions ---- *)
Definition found (l : list string) (id : N) (s : string) : Prop := find_index s l 0 = Some id.
Lemma found_ext l l' ids ss : extends l l' -> Forall2 (found l) ids ss -> Forall2 (found l') ids ss.
Proof. intros E H. induction H; constructor; auto. eapply find_index_ext; eauto. Qed.
Lemma find_index_inj l : forall i s t j, find_index s l i = Some j -> find_index t l i = Some j -> s = t.
Proof.
  induction l as [|x l IH]; intros i s t j H K; cbn [find_index] in *; [discriminate|].
  destruct (String.eqb_spec s x) as [->|]; destruct (String.eqb_spec t x) as [->|]; auto.
  - injection H as <-. exfalso. clear -K. assert (G : forall i j, find_index t l i = Some j -> i <= j).
    { clear. induction l as [|x l IH]; intros i j H; cbn [find_index] in H; [discriminate|]. destruct (String.eqb t x); [injection H as <-; lia|].
      apply IH in H. lia. }
    apply G in K. lia.
  - injection K as <-. exfalso. clear -H. assert (G : forall i j, find_index s l i = Some j -> i <= j).
    { clear. induction l as [|x l IH]; intros i j H; cbn [find_index] in H; [discriminate|]. destruct (String.eqb s x); [injection H as <-; lia|].
      apply IH in H. lia. }
    apply G in H. lia.
  - eapply IH; eauto.
Qed.
Lemma found_nodup l ids ss : Forall2 (found l) ids ss -> (NoDup ids <-> NoDup ss).
Proof.
  intros H. induction H as [|id s ids ss F H IH]; [split; constructor|].
  assert (IN : In id ids <-> In s ss).
  { clear IH. induction H as [|i t ids ss F' H IH]; [tauto|]. cbn [In]. rewrite IH. split; (intros [E|E]; [left|right; exact E]).
    - subst i. eapply find_index_inj; [exact F'|exact F].
    - subst t. unfold found in *. congruence. }
  split; intros N; inversion N; subst; constructor; tauto.
Qed.

Lemma groups_found b nr gs : forall labels grp c l', compile_groups b labels nr grp gs = COk (c, l') ->
  Forall2 (found l') (labels_of c) (group_strs nr grp (length gs)).
Proof.
  induction gs as [|g gs IH]; intros labels grp c l' H; cbn [compile_groups] in H.
  - assert (c = []) as -> by congruence. constructor.
  - apply cbind_ok in H. destruct H as ([c1 l1] & H1 & H).
    apply cbind_ok in H. destruct H as ([sid l2] & H2 & H).
    apply cbind_ok in H. destruct H as ([eid l3] & H3 & H).
    apply cbind_ok in H. destruct H as ([c2 l4] & H4 & H).
    assert (HH : (c1 ++ [jump_lbl sid; lbl eid] ++ c2)%list = c /\ l4 = l') by (injection H as <- <-; auto). clear H. destruct HH as [<- <-].
    apply compile_atoms_labels in H1. destruct H1 as (_ & _ & _ & LB & _).
    apply get_label_count in H3; [|apply group_end_len]. destruct H3 as (_ & _ & S3 & _).
    pose proof (compile_groups_labels _ _ _ _ _ _ _ H4) as (E4 & _).
    rewrite labels_of_app, LB. cbn [app length group_strs]. change (labels_of (jump_lbl sid :: lbl eid :: c2)) with (eid :: labels_of c2).
    constructor; [eapply find_index_ext; eauto|]. eapply IH; eauto.
Qed.
Lemma line_found b o labels nr entry s blk l' r e : s <> "1"%string ->
  compile_policy_line b labels nr entry (fo_action o) s = COk (blk, l') ->
  body_of b o s = Some r -> e_rule e = r -> e_nr e = nr ->
  Forall2 (found l') (labels_of (tl blk)) (tl (entry_strs e)) /\ entry_strs e = e_name e :: tl (entry_strs e).
Proof.
  intros N1. unfold compile_policy_line, body_of. apply seqb_false in N1. rewrite N1.
  destruct (String.eqb s ""); [discriminate|]. intros H B ER EN.
  destruct (has_prefix "return" s).
  - apply cbind_ok in H. destruct H as (i & H1 & H). rewrite compile_errno_eq in H1.
    destruct (return_of b o s) as [v|]; [|discriminate].
    assert ([lbl entry; i] = blk /\ labels = l') as [<- <-] by (split; congruence).
    assert (i = stmt op_ret v) as -> by congruence. assert (r = Return v) as -> by congruence.
    unfold entry_strs. rewrite ER. split; [constructor|reflexivity].
  - apply cbind_ok in H. destruct H as ([c1 l1] & H1 & H).
    apply cbind_ok in H. destruct H as (r0 & H2 & H).
    apply cbind_ok in H. destruct H as ([sid l2] & H3 & H).
    assert ((lbl entry :: c1 ++ [r0] ++ [lbl sid; ret_allow])%list = blk /\ l2 = l') as [<- <-] by (split; congruence). clear H.
    assert (RV : exists v, r0 = stmt op_ret v).
    { destruct (words ";"%char s) as [|flt [|rt more]].
      - injection H2 as <-. rewrite action_instr_value. eauto.
      - injection H2 as <-. rewrite action_instr_value. eauto.
      - rewrite compile_errno_eq in H2. destruct (return_of b o rt) as [v|]; [|discriminate]. injection H2 as <-. eauto. }
    destruct RV as [v0 ->].
    assert (NG : exists alts v, r = Cond alts v /\ length alts =
       length (match words ";"%char s with arg_filter :: _ => tokens "||" arg_filter | [] => [] end)).
    { destruct (words ";"%char s) as [|flt rest].
      - injection B as <-. eexists _, _. split; reflexivity.
      - destruct (mapM (group_of b) (tokens "||" flt)) as [alts|] eqn:M; [|discriminate].
        destruct (default_or_return b o rest) as [v|]; [|discriminate]. injection B as <-.
        eexists _, _. split; [reflexivity|]. apply mapM_spec in M. symmetry. clear -M. induction M; cbn [length]; congruence. }
    destruct NG as (alts & v & -> & NG). unfold entry_strs. rewrite ER, EN, NG. split; [|reflexivity]. cbn [tl].
    apply groups_found in H1. apply get_label_count in H3; [|apply success_len]. destruct H3 as (_ & E3 & S3 & _).
    rewrite labels_of_app. apply Forall2_app; [eapply found_ext; eauto|].
    change (labels_of ([stmt op_ret v0] ++ [lbl sid; ret_allow])) with [sid]. constructor; [exact S3|constructor].
Qed.

(* ---- room for labels ---- *)
Lemma get_label_room l s : (length l + fresh s l <= 512)%nat -> exists id l', get_label_id l s = COk (id, l').
Proof.
  unfold get_label_id, bpf_label_id, fresh. destruct (find_index s l 0); [eauto|]. intros L.
  destruct (Nat.eqb_spec (length l) BPF_LABELS_MAX) as [E|E]; [unfold BPF_LABELS_MAX in E; lia|eauto].
Qed.
Lemma atoms_room b nr grp ss ats : mapM (atom_of b) ss = Some ats -> forall labels,
  (length labels + fresh (group_end_str nr grp) labels <= 512)%nat -> exists c l', compile_atoms b labels nr grp ss = COk (c, l').
Proof.
  intros M. apply mapM_spec in M. induction M as [|s a ss ats A M IH]; intros labels L; cbn [compile_atoms]; [eauto|].
  rewrite compile_atom_eq, A. destruct (get_label_room _ _ L) as (id & l1 & G). unfold group_end_lbl. rewrite G. cbn [cbind].
  apply get_label_count in G; [|apply group_end_len]. destruct G as (G1 & _ & G3 & _).
  destruct (IH l1) as (c2 & l2 & ->); [unfold fresh at 1; rewrite G3; lia|]. cbn [cbind]. eauto.
Qed.
Lemma groups_room b nr gs alts : mapM (group_of b) gs = Some alts -> forall labels grp,
  (length labels + length gs + fresh (success_str nr) labels <= 512)%nat -> exists c l', compile_groups b labels nr grp gs = COk (c, l').
Proof.
  intros M. apply mapM_spec in M. induction M as [|g ats gs alts A M IH]; intros labels grp L; cbn [compile_groups]; [eauto|].
  cbn [length] in L. unfold group_of in A. pose proof (fresh_le1 (group_end_str nr grp) labels) as F1.
  destruct (atoms_room b nr grp _ _ A labels) as (c1 & l1 & H1); [lia|]. rewrite H1. cbn [cbind].
  apply compile_atoms_labels in H1. destruct H1 as (E1 & L1 & _ & _ & Z1). specialize (Z1 (tokens_ne g)).
  pose proof (fresh_ext (success_str nr) _ _ E1) as X1.
  destruct (get_label_room l1 (success_str nr)) as (sid & l2 & H2); [lia|]. unfold success_lbl. rewrite H2. cbn [cbind].
  apply get_label_count in H2; [|apply success_len]. destruct H2 as (L2 & E2 & S2 & _).
  pose proof (fresh_ext (group_end_str nr grp) _ _ E2) as X2.
  destruct (get_label_room l2 (group_end_str nr grp)) as (eid & l3 & H3); [lia|]. unfold group_end_lbl. rewrite H3. cbn [cbind].
  apply get_label_count in H3; [|apply group_end_len]. destruct H3 as (L3 & E3 & S3 & _).
  assert (Z2 : fresh (success_str nr) l2 = 0%nat) by (unfold fresh; rewrite S2; reflexivity).
  pose proof (fresh_ext (success_str nr) _ _ E3) as X3.
  destruct (IH l3 (grp + 1)) as (c2 & l4 & ->); [lia|]. cbn [cbind]. eauto.
Qed.
Lemma line_room b o labels nr entry s r : s <> "1"%string -> body_of b o s = Some r ->
  (length labels + rule_labels r <= 513)%nat -> exists blk l', compile_policy_line b labels nr entry (fo_action o) s = COk (blk, l').
Proof.
  intros N1. unfold compile_policy_line, body_of. apply seqb_false in N1. rewrite N1.
  destruct (String.eqb s ""); [discriminate|]. destruct (has_prefix "return" s).
  - rewrite compile_errno_eq. destruct (return_of b o s); [|discriminate]. intros _ _. cbn [cbind]. eauto.
  - destruct (words ";"%char s) as [|flt rest].
    + intros B L. injection B as <-. cbn [rule_labels length] in L. cbn [compile_groups cbind].
      destruct (get_label_room labels (success_str nr)) as (sid & l' & H); [pose proof (fresh_le1 (success_str nr) labels); lia|].
      unfold success_lbl. rewrite H. cbn [cbind]. eauto.
    + destruct (mapM (group_of b) (tokens "||" flt)) as [alts|] eqn:M; [|discriminate].
      destruct (default_or_return b o rest) as [v|] eqn:D; [|discriminate]. intros B L. injection B as <-. cbn [rule_labels] in L.
      assert (LL : length alts = length (tokens "||" flt)).
      { apply mapM_spec in M. symmetry. clear -M. induction M; cbn [length]; congruence. }
      pose proof (fresh_le1 (success_str nr) labels) as F.
      destruct (groups_room b nr _ _ M labels 0) as (c1 & l1 & H1); [lia|]. rewrite H1. cbn [cbind].
      assert (X : exists i, (match rest with ret_errno :: _ => compile_errno b (fo_action o) ret_errno | [] => COk (action_instr (fo_action o)) end) = COk i).
      { destruct rest as [|rt more]; [eauto|]. cbn [default_or_return] in D. rewrite compile_errno_eq, D. eauto. }
      destruct X as [i ->]. cbn [cbind].
      apply compile_groups_labels in H1. destruct H1 as (E1 & L1 & _ & _ & Z1). pose proof (fresh_ext (success_str nr) _ _ E1) as X1.
      destruct (get_label_room l1 (success_str nr)) as (sid & l' & H).
      { destruct (tokens "||" flt) as [|g gs]; [lia|]. specialize (Z1 ltac:(discriminate)). cbn [length] in *. lia. }
      unfold success_lbl. rewrite H. cbn [cbind]. eauto.
Qed.

(* ---- a whole file ---- *)
Definition idinv (st : cstate) (p : policy) : Prop := Forall2 (found (cs_labels st)) (labels_of (cs_args st)) (policy_strs p).
Definition istep (st st' : cstate) (p : policy) : Prop :=
  lstep st st' p /\ forall n pol, linv st n -> (n + policy_labels p <= 512)%nat -> idinv st pol -> idinv st' (pol ++ p).
Lemma istep_refl st : istep st st [].
Proof. split; [apply lstep_refl|]. intros n pol _ _ H. rewrite List.app_nil_r. exact H. Qed.
Lemma istep_trans a c d p q : istep a c p -> istep c d q -> istep a d (p ++ q).
Proof.
  intros [A1 A2] [B1 B2]. split; [eapply lstep_trans; eauto|]. intros n pol L B I. rewrite policy_labels_app in B. rewrite List.app_assoc.
  apply (B2 (n + policy_labels p)%nat); [apply A1, L|lia|]. apply (A2 n); [exact L|lia|exact I].
Qed.
Lemma policy_strs_app p q : policy_strs (p ++ q) = (policy_strs p ++ policy_strs q)%list.
Proof. apply flat_map_app. Qed.

Section Rules.
  Variable b : build.
  Variable o : fopts.
  Hypothesis NAMES : forall n nr, assoc n (b_syscalls b) = Some nr -> (String.length n <= 32)%nat.

  Lemma compile_rule_istep st s st' : compile_rule b o st s = COk st' -> exists p, rule_of b o s = Some p /\ istep st st' p.
  Proof.
    intros H0. destruct (compile_rule_labels b o _ _ _ H0) as (p & R & L). exists p. split; [exact R|]. split; [exact L|].
    intros n pol LI LN I. unfold compile_rule in H0. unfold rule_of in R. destruct (strsep ":"%char s) as [name [body|]]; [|discriminate].
    cbv zeta in H0. destruct (String.eqb (strip body) ""); [discriminate|].
    destruct (lookup_syscall (b_syscalls b) (strip name)) as [[nr ind]|] eqn:LK.
    2:{ apply lookup_from_none in LK. rewrite LK in R. destruct (fo_allow_logging o); [|discriminate]. injection H0 as <-. injection R as <-.
        rewrite List.app_nil_r. exact I. }
    assert (AS : assoc (strip name) (b_syscalls b) = Some nr) by (eapply lookup_from_spec; exact LK).
    rewrite AS in R. destruct (String.eqb_spec (strip body) "1") as [E|N1].
    - rewrite E in R. change (body_of b o "1") with (Some Allow) in R. cbv iota in R. injection R as <-. injection H0 as <-.
      unfold idinv in *. rewrite policy_strs_app. cbn [cs_labels cs_args]. change (policy_strs [S_Policy.Entry (strip name) nr Allow]) with (@nil string).
      rewrite List.app_nil_r. exact I.
    - destruct (body_of b o (strip body)) as [r|] eqn:B; [|discriminate]. injection R as <-.
      set (e := S_Policy.Entry (strip name) nr r) in *.
      assert (RM : (length (cs_labels st) < 512)%nat).
      { destruct LI as (K1 & _). unfold policy_labels in LN. cbn [fold_right] in LN.
        assert (1 <= rule_labels (e_rule e))%nat; [|lia]. cbn [e_rule e]. apply seqb_false in N1. unfold body_of in B. rewrite N1 in B.
        destruct (String.eqb (strip body) ""); [discriminate|]. destruct (has_prefix "return" (strip body)).
        - destruct (return_of b o (strip body)); [|discriminate]. injection B as <-. cbn. lia.
        - destruct (words ";"%char (strip body)); [injection B as <-; cbn; lia|].
          destruct (mapM _ _); [|discriminate]. destruct (default_or_return _ _ _); [|discriminate]. injection B as <-. cbn. lia. }
      destruct (get_label_room (cs_labels st) (strip name)) as (id & l1 & G); [pose proof (fresh_le1 (strip name) (cs_labels st)); lia|].
      unfold get_label_id in G. destruct (bpf_label_id (cs_labels st) (strip name)) as [[i|] l1'] eqn:BL; [|discriminate].
      assert (i = id /\ l1' = l1) as [-> ->] by (split; congruence).
      assert (GL : get_label_id (cs_labels st) (strip name) = COk (id, l1)) by (unfold get_label_id; rewrite BL; reflexivity). clear G.
      apply get_label_ok in GL; [|apply (NAMES _ _ AS)]. destruct GL as [E1 F1].
      apply cbind_ok in H0. destruct H0 as ([blk l2] & H1 & H). injection H as <-.
      destruct (line_found b o _ _ _ _ _ _ _ e N1 H1 B eq_refl eq_refl) as [FF TL].
      destruct (compile_line_labels b o _ _ _ _ _ _ _ N1 H1 B) as (E2 & _ & _ & _ & SH).
      unfold idinv in *. rewrite policy_strs_app. cbn [cs_labels cs_args]. rewrite labels_of_app.
      apply Forall2_app; [eapply found_ext; [|exact I]; eapply extends_trans; eauto|].
      unfold policy_strs. cbn [flat_map]. rewrite List.app_nil_r, TL, SH.
      change (labels_of (lbl id :: tl blk)) with (id :: labels_of (tl blk)). constructor; [|exact FF].
      eapply find_index_ext; eauto.
  Qed.

  Definition iinclude (include : string -> cstate -> cres cstate) (incl : string -> option policy) : Prop :=
    forall f st st', include f st = COk st' -> exists p, incl f = Some p /\ istep st st' p.
  Lemma compile_line_istep include incl st raw st' : iinclude include incl ->
    compile_line b o include st raw = COk st' -> exists p, line_of b o incl raw = Some p /\ istep st st' p.
  Proof.
    intros GI. rewrite compile_line_eq. unfold line_of. cbv zeta.
    destruct (String.eqb (strip raw) ""). { intros H. injection H as <-. exists []. split; auto. apply istep_refl. }
    destruct (starts "#"%char (strip raw)). { intros H. injection H as <-. exists []. split; auto. apply istep_refl. }
    destruct (starts "@"%char (strip raw)).
    - destruct (has_prefix "@frequency" (strip raw)). { intros H. injection H as <-. exists []. split; auto. apply istep_refl. }
      destruct (parse_include (strip raw)) as [f|]; [|discriminate]. apply GI.
    - apply compile_rule_istep.
  Qed.
  Lemma compile_lines_istep include incl ls : iinclude include incl -> forall st st',
    compile_lines b o include st ls = COk st' -> exists p, lines_policy b o incl ls = Some p /\ istep st st' p.
  Proof.
    intros GI. induction ls as [|l ls IH]; cbn [compile_lines lines_policy]; intros st st' H.
    - injection H as <-. exists []. split; auto. apply istep_refl.
    - apply cbind_ok in H. destruct H as (st1 & H1 & H2).
      eapply compile_line_istep in H1; eauto. destruct H1 as (p & -> & G1).
      apply IH in H2. destruct H2 as (q & -> & G2).
      exists (p ++ q)%list. split; auto. eapply istep_trans; eauto.
  Qed.
  Lemma compile_stream_istep include incl f : iinclude include incl -> forall st st',
    compile_stream b o include st f = COk st' -> exists p, stream_policy b o incl f = Some p /\ istep st st' p.
  Proof.
    intros GI st st'. unfold compile_stream, stream_policy. intros H. apply cbind_ok in H. destruct H as (st1 & H1 & H2).
    destruct (s_ioerr f); [discriminate|]. injection H2 as <-.
    eapply compile_lines_istep in H1; eauto. destruct H1 as (p & -> & G). eauto.
  Qed.
  Lemma iinclude0 fs : iinclude (include0 b o fs) (incl0 b o fs).
  Proof.
    intros name st st'. unfold include0, incl0. destruct (fs name) as [f|]; [|discriminate].
    intros H. apply cbind_ok in H. destruct H as (st1 & H1 & H2).
    eapply compile_stream_istep in H1; [|intros ? ? ? X; discriminate X]. destruct H1 as (p & -> & [G1 G2]).
    exists p. split; auto. destruct (cs_bad st1) eqn:BAD; [discriminate|]. injection H2 as <-.
    split; [intros n K; apply G1 in K; exact K|]. intros n pol K L I. apply (G2 n pol K L I).
  Qed.

  (* ---- nothing stops a policy with room ---- *)
  Definition dups_ok (p : policy) : Prop := fo_allow_dup o = false -> NoDup (map e_name p).
  Definition ready (st : cstate) (pol p : policy) (n : nat) : Prop :=
    linv st n /\ laid b o st pol /\ cs_bad st = false /\ (n + policy_labels p <= 512)%nat /\ dups_ok (pol ++ p).
  Definition goes (run : cstate -> cres cstate) (p : policy) : Prop :=
    forall st pol n, ready st pol p n -> exists st', run st = COk st' /\ cs_bad st' = false.
  Lemma rule_goes s p : rule_of b o s = Some p -> goes (fun st => compile_rule b o st s) p.
  Proof.
    intros R st pol n (LI & LA & BD & LN & DU). unfold rule_of in R. unfold compile_rule.
    destruct (strsep ":"%char s) as [name [body|]]; [|discriminate].
    destruct (String.eqb (strip body) ""); [discriminate|]. cbv zeta.
    destruct (lookup_syscall (b_syscalls b) (strip name)) as [[nr ind]|] eqn:LK.
    2:{ apply lookup_from_none in LK. rewrite LK in R. destruct (fo_allow_logging o); [|discriminate]. eauto. }
    assert (AS : assoc (strip name) (b_syscalls b) = Some nr) by (eapply lookup_from_spec; exact LK). rewrite AS in R.
    destruct (body_of b o (strip body)) as [r|] eqn:B; [|discriminate]. injection R as <-.
    assert (BADOK : cs_bad st || (existsb (N.eqb ind) (cs_seen st) && negb (fo_allow_dup o)) = false).
    { rewrite BD. cbn [orb]. destruct (fo_allow_dup o) eqn:AD; [rewrite andb_false_r; reflexivity|]. rewrite andb_true_r.
      apply not_true_iff_false. rewrite existsb_In. destruct LA as [_ SE]. rewrite (SE _ _ _ LK). specialize (DU AD).
      rewrite map_app in DU. cbn [map e_name] in DU. apply NoDup_remove_2 in DU. rewrite List.app_nil_r in DU. exact DU. }
    destruct (String.eqb_spec (strip body) "1") as [E|N1]; [eexists; split; [reflexivity|exact BADOK]|].
    unfold policy_labels in LN. cbn [fold_right e_rule] in LN. destruct LI as (K1 & _).
    assert (R1 : (1 <= rule_labels r)%nat).
    { apply seqb_false in N1. unfold body_of in B. rewrite N1 in B.
      destruct (String.eqb (strip body) ""); [discriminate|]. destruct (has_prefix "return" (strip body)).
      - destruct (return_of b o (strip body)); [|discriminate]. injection B as <-. cbn. lia.
      - destruct (words ";"%char (strip body)); [injection B as <-; cbn; lia|].
        destruct (mapM _ _); [|discriminate]. destruct (default_or_return _ _ _); [|discriminate]. injection B as <-. cbn. lia. }
    assert (L1 : (length (snd (bpf_label_id (cs_labels st) (strip name))) <= length (cs_labels st) + 1)%nat).
    { unfold bpf_label_id. destruct (find_index _ _ _); cbn [snd]; [lia|]. destruct (Nat.eqb _ _); cbn [snd]; [lia|]. rewrite app_length. cbn [length]. lia. }
    destruct (bpf_label_id (cs_labels st) (strip name)) as [oid l1]. cbn [snd] in L1.
    destruct (line_room b o l1 nr (match oid with Some i => i | None => 4294967295 end) _ _ N1 B) as (blk & l2 & ->); [lia|].
    cbn [cbind]. eexists. split; [reflexivity|exact BADOK].
  Qed.
  Lemma line_goes include incl raw p : (forall f q, incl f = Some q -> goes (include f) q) ->
    line_of b o incl raw = Some p -> goes (fun st => compile_line b o include st raw) p.
  Proof.
    intros GI R st pol n RD. rewrite compile_line_eq. unfold line_of in R. cbv zeta in *. pose proof RD as (_ & _ & BD & _).
    destruct (String.eqb (strip raw) ""); [eauto|]. destruct (starts "#"%char (strip raw)); [eauto|].
    destruct (starts "@"%char (strip raw)).
    - destruct (has_prefix "@frequency" (strip raw)); [eauto|].
      destruct (parse_include (strip raw)) as [f|]; [|discriminate]. eapply GI; eauto.
    - eapply rule_goes; eauto.
  Qed.
  Lemma lines_go include incl ls : good_include b o include incl -> iinclude include incl ->
    (forall f q, incl f = Some q -> goes (include f) q) -> forall p,
    lines_policy b o incl ls = Some p -> goes (fun st => compile_lines b o include st ls) p.
  Proof.
    intros G1 G2 GI. induction ls as [|l ls IH]; cbn [compile_lines lines_policy]; intros p R st pol n RD.
    - pose proof RD as (_ & _ & BD & _). eauto.
    - destruct (line_of b o incl l) as [p1|] eqn:L; [|discriminate]. destruct (lines_policy b o incl ls) as [p2|]; [|discriminate].
      assert (p = (p1 ++ p2)%list) as -> by congruence. destruct RD as (LI & LA & BD & LN & DU). rewrite policy_labels_app in LN.
      destruct (line_goes include incl l p1 GI L st pol n) as (st1 & H1 & B1).
      { split; [exact LI|]. split; [exact LA|]. split; [exact BD|]. split; [lia|]. intros AD. specialize (DU AD).
        rewrite List.app_assoc, map_app in DU. clear -DU. induction (map e_name (pol ++ p1)) as [|x l IH]; [constructor|].
        cbn [app] in DU. inversion DU; subst. constructor; [intros I; apply H1, in_or_app; auto|auto]. }
      rewrite H1. cbn [cbind]. destruct (compile_line_ok b o include incl _ _ _ G1 H1) as (q & Q & [GS _]).
      destruct (compile_line_istep include incl _ _ _ G2 H1) as (q' & Q' & [LS _]).
      assert (q = p1) as -> by congruence. assert (q' = p1) as -> by congruence.
      apply (IH p2 eq_refl st1 (pol ++ p1)%list (n + policy_labels p1)%nat).
      split; [apply LS, LI|]. split; [apply GS, LA|]. split; [exact B1|]. split; [lia|]. rewrite <- List.app_assoc. exact DU.
  Qed.
  Lemma stream_goes include incl f p : good_include b o include incl -> iinclude include incl ->
    (forall f q, incl f = Some q -> goes (include f) q) ->
    stream_policy b o incl f = Some p -> goes (fun st => compile_stream b o include st f) p.
  Proof.
    intros G1 G2 GI R st pol n RD. unfold stream_policy in R. unfold compile_stream.
    destruct (lines_policy b o incl (multilines (s_bytes f))) as [q|] eqn:L; [|discriminate]. destruct (s_ioerr f); [discriminate|].
    assert (q = p) as -> by congruence. destruct (lines_go include incl _ G1 G2 GI p L st pol n RD) as (st' & -> & B).
    cbn [cbind]. eauto.
  Qed.
  Lemma include_goes fs name p : incl0 b o fs name = Some p -> goes (include0 b o fs name) p.
  Proof.
    unfold incl0, include0. destruct (fs name) as [f|]; [|discriminate]. intros R st pol n (LI & LA & BD & LN & DU).
    destruct (stream_goes include1 incl1 f p (good_include1 b o) ltac:(intros ? ? ? X; discriminate X) ltac:(intros ? ? X; discriminate X) R
      (CS (cs_head st) (cs_args st) (cs_labels st) (cs_seen st) false) pol n) as (st' & -> & B).
    { split; [exact LI|]. split; [exact LA|]. split; [reflexivity|]. split; [exact LN|exact DU]. }
    cbn [cbind]. rewrite B. eexists. split; [reflexivity|exact BD].
  Qed.
End Rules.

(* ---- jumps ---- *)
(* Every jump goes to a label after it, or in [L]. *)
Fixpoint fwd (p : list instr) (L : list N) : Prop :=
  match p with
  | [] => True
  | i :: rest => (is_jump i = true -> In (k i) (labels_of rest ++ L)) /\ fwd rest L
  end.
Lemma fwd_app p q L : fwd p (labels_of q ++ L) -> fwd q L -> fwd (p ++ q) L.
Proof.
  induction p as [|i p IH]; intros A B; [exact B|]. destruct A as [A1 A2]. split; [|apply IH; assumption].
  intros J. rewrite labels_of_app, <- List.app_assoc. apply A1, J.
Qed.
Lemma fwd_plain p L : forallb plain p = true -> fwd p L.
Proof.
  induction p as [|i p IH]; [constructor|]. cbn [forallb]. intros H. apply andb_true_iff in H as [H1 H2]. split; [|apply IH, H2].
  intros J. unfold plain in H1. rewrite J in H1. discriminate.
Qed.
Lemma fwd_mono p L L' : incl L L' -> fwd p L -> fwd p L'.
Proof.
  intros H. induction p as [|i p IH]; [constructor|]. intros [A B]. split; [|apply IH, B]. intros J. apply A in J.
  apply in_app_or in J. apply in_or_app. destruct J; auto.
Qed.
Lemma loc_find_in id locs : In id (map fst locs) -> exists v, loc_find id locs = Some v.
Proof.
  induction locs as [|[j v] locs IH]; [intros []|]. cbn [map fst In loc_find]. destruct (N.eqb_spec j id); [eauto|]. intros [E|E]; [contradiction|auto].
Qed.
Lemma loc_find_out id locs : ~ In id (map fst locs) -> loc_find id locs = None.
Proof.
  induction locs as [|[j v] locs IH]; [reflexivity|]. cbn [map fst In loc_find]. intros H. destruct (N.eqb_spec j id) as [->|]; [exfalso; apply H; left; reflexivity|].
  apply IH. auto.
Qed.
Lemma resolve_goes count p : forall off, NoDup (labels_of p) -> (forall id, In id (labels_of p) -> id < N.of_nat count) -> fwd p [] ->
  exists r, resolve_from count off p = ROk r.
Proof.
  induction p as [|i p IH]; intros off ND LT FW; [eexists; reflexivity|]. cbn [resolve_from]. destruct FW as [F1 F2].
  assert (SUB : NoDup (labels_of p) /\ (forall id, In id (labels_of p) -> In id (labels_of (i :: p)))).
  { unfold labels_of in *. cbn [filter] in *. destruct (is_label i); [|auto]. cbn [map] in *. inversion ND; subst. split; [assumption|]. intros; right; assumption. }
  destruct SUB as [ND' SB]. destruct (IH (off + 1) ND' (fun id H => LT id (SB id H)) F2) as ([p' locs] & R). rewrite R.
  pose proof (resolve_locs _ _ _ _ _ R) as (RL & _).
  destruct (is_jump i) eqn:J.
  - specialize (F1 eq_refl). rewrite List.app_nil_r in F1.
    destruct (N.leb_spec (N.of_nat count) (k i)); [exfalso; apply SB, LT in F1; lia|].
    rewrite <- RL in F1. destruct (loc_find_in _ _ F1) as [v ->]. eauto.
  - destruct (is_label i) eqn:IL; [|eauto]. unfold labels_of in ND, LT. cbn [filter] in ND, LT. rewrite IL in ND, LT. cbn [map] in ND, LT.
    inversion ND as [|? ? NI _]; subst. destruct (N.leb_spec (N.of_nat count) (k i)); [exfalso; specialize (LT _ (or_introl eq_refl)); lia|].
    change (map k (filter is_label p)) with (labels_of p) in NI. rewrite <- RL in NI. rewrite (loc_find_out _ _ NI). eauto.
Qed.

Section Layout.
  Variable b : build.
  Variable o : fopts.
  Lemma fwd_atom eid a L : In eid L -> fwd (atom_code b eid a) L.
  Proof.
    intros I. unfold atom_code. destruct (arg_comp_shape (b_plat b) (at_op a) (at_arg a) (at_val a) eid) as (pre & -> & P).
    apply fwd_app; [apply fwd_plain, P|]. split; [intros _; exact I|constructor].
  Qed.
  Lemma fwd_group sid g L : In sid L -> fwd (group_code b sid g) L.
  Proof.
    intros I. unfold group_code. apply fwd_app.
    - change (labels_of [jump_lbl sid; lbl (fst g)]) with [fst g]. induction (snd g) as [|a ats IH]; [constructor|]. cbn [flat_map].
      apply fwd_app; [|exact IH]. rewrite labels_atoms. apply fwd_atom. left. reflexivity.
    - split; [intros _; right; exact I|]. split; [discriminate|constructor].
  Qed.
  Lemma fwd_rule r body L : rule_code b r body -> fwd body L.
  Proof.
    intros [v|sid egs v].
    - split; [discriminate|constructor].
    - apply fwd_app.
      + change (labels_of [stmt op_ret v; lbl sid; ret_allow]) with [sid]. induction egs as [|g egs IH]; [constructor|]. cbn [flat_map].
        apply fwd_app; [|exact IH]. apply fwd_group. apply in_or_app. right. left. reflexivity.
      + repeat (split; [discriminate|]). constructor.
  Qed.
  Lemma fwd_args items L : Forall (item_ok b) items -> fwd (flat_map arg_of items) L.
  Proof.
    induction items as [|i items IH]; intros F; [constructor|]. inversion F as [|? ? F1 F2]; subst. cbn [flat_map].
    apply fwd_app; [|apply IH, F2]. unfold arg_of. destruct F1 as [F1 _]. destruct (snd i) as [[id body]|]; [|constructor].
    split; [discriminate|]. eapply fwd_rule; eauto.
  Qed.
  Lemma fwd_heads all items L : (forall i, In i items -> In i all) -> (forall id, In id (labels_of (flat_map arg_of all)) -> In id L) ->
    fwd (flat_map head_of items) L.
  Proof.
    intros H HL. induction items as [|i items IH]; [constructor|]. cbn [flat_map]. apply fwd_app; [|apply IH; intros; apply H; right; assumption].
    rewrite labels_heads. unfold head_of. destruct (snd i) as [[id body]|] eqn:S.
    - split; [discriminate|]. split; [|constructor]. intros _. apply in_or_app. right. apply HL.
      assert (X : In id (labels_of (arg_of i))) by (unfold arg_of; rewrite S; left; reflexivity).
      specialize (H i (or_introl eq_refl)). clear -X H. induction all as [|j all IH]; [destruct H|]. cbn [flat_map]. rewrite labels_of_app.
      apply in_or_app. destruct H as [->|H]; auto.
    - apply fwd_plain. reflexivity.
  Qed.
  Lemma plain_selected names : forallb plain (allow_selected b names) = true.
  Proof. unfold allow_selected. induction names as [|n names IH]; [reflexivity|]. cbn [flat_map]. rewrite forallb_app, IH. reflexivity. Qed.
  Lemma plain_prologue : forallb plain (prologue b o) = true.
  Proof.
    unfold prologue. rewrite !forallb_app. destruct (fo_allow_syscalls_for_logging o), (fo_libc_compat o); rewrite ?plain_selected; reflexivity.
  Qed.

  (* ---- lengths ---- *)
  Lemma atom_len eid a : length (atom_code b eid a) = atom_size (bits64 (b_plat b)) a.
  Proof.
    unfold atom_code. rewrite arg_comp_len. unfold bpf_arg_comp_len, atom_size. destruct (bits64 (b_plat b)).
    - assert (X : (hi32 (at_val a) =? 0) = (at_val a <? 2 ^ 32)).
      { unfold hi32. apply Bool.eq_iff_eq_true. rewrite N.eqb_eq, N.ltb_lt. apply N.div_small_iff. discriminate. }
      destruct (at_op a); rewrite ?X; try reflexivity; destruct (at_val a <? 2 ^ 32); reflexivity.
    - destruct (at_op a); reflexivity.
  Qed.
  Lemma rule_len r body : rule_code b r body -> (length body + 3 = rule_size (bits64 (b_plat b)) r)%nat.
  Proof.
    intros [v|sid egs v]; [reflexivity|]. cbn [rule_size]. rewrite app_length. cbn [length].
    assert (X : length (flat_map (group_code b sid) egs) = sum (map (fun g => (sum (map (atom_size (bits64 (b_plat b))) g) + 2)%nat) (map snd egs))).
    { induction egs as [|[eid ats] egs IH]; [reflexivity|]. cbn [flat_map map snd sum fold_right] in *.
      rewrite app_length. fold (sum (map (fun g => (sum (map (atom_size (bits64 (b_plat b))) g) + 2)%nat) (map snd egs))). rewrite IH. f_equal.
      unfold group_code. cbn [fst snd]. rewrite app_length. cbn [length]. f_equal. clear IH.
      induction ats as [|a ats IH]; [reflexivity|]. cbn [flat_map map sum fold_right]. rewrite app_length, atom_len.
      fold (sum (map (atom_size (bits64 (b_plat b))) ats)). rewrite IH. reflexivity. }
    rewrite X. lia.
  Qed.
  Lemma items_len items : Forall (item_ok b) items ->
    (length (flat_map head_of items) + length (flat_map arg_of items) =
     sum (map (fun e => rule_size (bits64 (b_plat b)) (e_rule e)) (map fst items)))%nat.
  Proof.
    induction items as [|[e it] items IH]; intros F; [reflexivity|]. inversion F as [|? ? F1 F2]; subst.
    cbn [flat_map map fst sum fold_right]. rewrite !app_length.
    fold (sum (map (fun e => rule_size (bits64 (b_plat b)) (e_rule e)) (map fst items))).
    rewrite <- IH by exact F2.
    assert (E : (length (head_of (e, it)) + length (arg_of (e, it)) = rule_size (bits64 (b_plat b)) (e_rule e))%nat); [|lia].
    destruct F1 as [F1 _]. unfold head_of, arg_of in *. cbn [fst snd] in *. destruct it as [[id body]|].
    - cbn [length]. pose proof (rule_len _ _ F1). change (length (bpf_allow_syscall_args (e_nr e) id)) with 2%nat. lia.
    - rewrite F1. reflexivity.
  Qed.
  Lemma selected_len names : length (allow_selected b names) = (2 * length names)%nat.
  Proof. unfold allow_selected. induction names as [|n names IH]; [reflexivity|]. cbn [flat_map length]. rewrite app_length, IH. cbn [length bpf_allow_syscall]. lia. Qed.
  Lemma final_len items def : Forall (item_ok b) items ->
    length (prologue b o ++ flat_map head_of items ++ def :: flat_map arg_of items) = policy_size b o (map fst items).
  Proof.
    intros F. pose proof (items_len _ F) as X. unfold policy_size. rewrite <- X. rewrite !app_length. cbn [length]. unfold prologue.
    rewrite !app_length. cbn [length bpf_validate_arch].
    destruct (fo_allow_syscalls_for_logging o), (fo_libc_compat o); rewrite ?selected_len; cbn [length]; lia.
  Qed.
  Lemma items_labels items : Forall (item_ok b) items -> length (labels_of (flat_map arg_of items)) = policy_labels (map fst items).
  Proof.
    induction items as [|[e it] items IH]; intros F; [reflexivity|]. inversion F as [|? ? F1 F2]; subst.
    cbn [flat_map map fst]. unfold policy_labels in *. cbn [fold_right]. rewrite labels_of_app, app_length, IH by exact F2. f_equal.
    destruct F1 as [F1 _]. unfold arg_of. cbn [fst snd] in *. destruct it as [[id body]|]; [|rewrite F1; reflexivity].
    change (labels_of (lbl id :: body)) with (id :: labels_of body). cbn [length]. destruct F1 as [v|sid egs v]; [reflexivity|].
    rewrite labels_of_app, labels_groups. change (labels_of [stmt op_ret v; lbl sid; ret_allow]) with [sid].
    rewrite app_length, !map_length. cbn [length rule_labels]. rewrite map_length. lia.
  Qed.
End Layout.

Lemma below_count (l : list N) n : NoDup l -> (forall x, In x l -> x < N.of_nat n) -> (length l <= n)%nat.
Proof.
  intros ND H. rewrite <- (seq_length n 0), <- (map_length N.to_nat l). apply NoDup_incl_length.
  - clear H. induction ND as [|x l NI ND IH]; cbn [map]; constructor; [|exact IH]. intros I. apply in_map_iff in I as (y & E & Y).
    apply N2Nat.inj in E. subst. contradiction.
  - intros x I. apply in_map_iff in I as (y & <- & Y). apply in_seq. specialize (H _ Y). lia.
Qed.

Lemma accept_iff b o fs f : names_ok (b_consts b) -> syscall_table (b_syscalls b) ->
  (forall prog, compile_filter b o fs (Some f) = COk prog ->
     exists pol, reads_policy b o fs f pol /\ acceptable b o pol /\ length prog = policy_size b o pol) /\
  (forall pol, reads_policy b o fs f pol -> acceptable b o pol -> exists prog, compile_filter b o fs (Some f) = COk prog).
Proof.
  intros NM TB.
  assert (NAMES : forall n nr, assoc n (b_syscalls b) = Some nr -> (String.length n <= 32)%nat).
  { intros n nr A. apply assoc_spec in A. apply TB in A. tauto. }
  assert (I0 : linv (CS (prologue b o) [] [] [] false) 0).
  { unfold linv. cbn [cs_labels cs_args cs_head length]. repeat split; try lia; [apply labels_prologue|left; constructor]. }
  split.
  - intros prog H. pose proof H as H0. apply compile_filter_ok in H0.
    destruct H0 as (f' & pol & items & def & labels & E & P & MP & IO & -> & AL & DUP & LEN & R & ND).
    injection E as <-. exists pol. split; [apply policy_of_spec; auto|].
    pose proof (final_len b o items (stmt op_ret (action_value (fo_action o))) IO) as SZ.
    rewrite MP in SZ.
    unfold compile_filter in H. apply cbind_ok in H as (st & H1 & H). destruct (cs_bad st) eqn:BAD; [discriminate|].
    apply cbind_ok in H as (def & HD & H). cbv zeta in H. apply default_spec in HD as [-> _].
    destruct (Nat.ltb BPF_MAXINSNS _); [discriminate|].
    destruct (bpf_resolve_jumps (length (cs_labels st)) _) as [pr| |] eqn:R2; try discriminate. assert (pr = prog) as -> by congruence. clear H.
    destruct (resolve_run _ _ _ true (SD 0 0 0 []) R2) as (_ & ND2 & LT2 & LP).
    destruct (compile_stream_istep b o NAMES _ _ _ (iinclude0 b o NAMES fs) _ _ H1) as (pol' & P' & [LS IS]).
    assert (pol' = pol) as -> by (unfold policy_of in P; congruence).
    destruct (compile_stream_ok b o _ _ _ (good_include0 b o fs) _ _ H1) as (pol' & P'' & [GS _]).
    assert (pol' = pol) as -> by (unfold policy_of in P; congruence). clear P' P''.
    destruct (GS [] (laid0 b o)) as [(items' & J1 & J2 & J3 & J4) _]. cbn [app] in J3.
    destruct (LS 0%nat I0) as (_ & CNT & HL & _).
    rewrite !labels_of_app, HL in ND2, LT2. cbn [app] in ND2, LT2.
    change (labels_of [stmt op_ret (action_value (fo_action o))]) with (@nil N) in ND2, LT2. cbn [app] in ND2, LT2.
    assert (PL : (policy_labels pol <= 512)%nat).
    { rewrite <- J3, <- (items_labels b) by exact J4. rewrite <- J2. pose proof (below_count _ _ ND2 LT2). lia. }
    assert (ID : idinv st pol) by (apply (IS 0%nat [] I0); [lia|constructor]).
    apply (found_nodup _ _ _) in ID. apply ID in ND2. apply strs_names in ND2 as [NB NC].
    split; [constructor; auto; rewrite <- SZ; exact LEN|].
    rewrite LP, J1, J2, <- List.app_assoc. cbn [app]. rewrite <- J3. apply final_len. exact J4.
  - intros pol RP [AL DU NB NC LB SZ]. apply policy_of_spec in RP; auto. unfold policy_of in RP.
    assert (FINE : Forall entry_fine pol).
    { apply Forall_forall. intros e I.
      assert (X : assoc (e_name e) (b_syscalls b) = Some (e_nr e)).
      { destruct (stream_goes b o NAMES _ _ _ _ (good_include0 b o fs) (iinclude0 b o NAMES fs) (include_goes b o NAMES fs) RP
          (CS (prologue b o) [] [] [] false) [] 0%nat) as (st & H1 & _).
        { split; [exact I0|]. split; [apply laid0|]. split; [reflexivity|]. split; [lia|exact DU]. }
        destruct (compile_stream_ok b o _ _ _ (good_include0 b o fs) _ _ H1) as (pol' & P'' & [GS _]).
        assert (pol' = pol) as -> by congruence. destruct (GS [] (laid0 b o)) as [(items' & J1 & J2 & J3 & J4) _]. cbn [app] in J3.
        rewrite <- J3 in I. apply in_map_iff in I as (it & <- & I). rewrite Forall_forall in J4. apply J4 in I. apply I. }
      apply assoc_spec in X. apply TB in X as (X1 & X2 & X3). split; [|split; [exact X2|]].
      - intros c t E. specialize (X3 c t E). unfold digit_char. apply not_true_iff_false. rewrite andb_true_iff, !N.leb_le. exact X3.
      - clear -I LB. unfold policy_labels in LB. induction pol as [|e' pol IH]; [destruct I|]. cbn [fold_right] in LB. destruct I as [->|I]; [lia|apply IH; [lia|exact I]]. }
    destruct (stream_goes b o NAMES _ _ _ _ (good_include0 b o fs) (iinclude0 b o NAMES fs) (include_goes b o NAMES fs) RP
      (CS (prologue b o) [] [] [] false) [] 0%nat) as (st & H1 & BAD).
    { split; [exact I0|]. split; [apply laid0|]. split; [reflexivity|]. split; [lia|exact DU]. }
    destruct (compile_stream_istep b o NAMES _ _ _ (iinclude0 b o NAMES fs) _ _ H1) as (pol' & P' & [LS IS]).
    assert (pol' = pol) as -> by congruence.
    destruct (compile_stream_ok b o _ _ _ (good_include0 b o fs) _ _ H1) as (pol' & P'' & [GS _]).
    assert (pol' = pol) as -> by congruence. clear P' P''.
    destruct (GS [] (laid0 b o)) as [(items & J1 & J2 & J3 & J4) _]. cbn [app] in J3.
    destruct (LS 0%nat I0) as (_ & CNT & HL & KL).
    assert (ID : idinv st pol) by (apply (IS 0%nat [] I0); [lia|constructor]).
    assert (ND : NoDup (labels_of (cs_args st))) by (apply (found_nodup _ _ _ ID); apply policy_strs_nodup; assumption).
    unfold compile_filter. rewrite H1. cbn [cbind]. rewrite BAD.
    assert (HD : (match fo_action o with ACT_LOG => if fo_allow_logging o then COk ret_log else CFail | a => COk (action_instr a) end)
       = COk (stmt op_ret (action_value (fo_action o)))).
    { destruct (fo_action o); try reflexivity. rewrite AL by reflexivity. reflexivity. }
    rewrite HD. cbn [cbind]. cbv zeta. set (def := stmt op_ret (action_value (fo_action o))).
    pose proof (final_len b o items def J4) as SZ'. rewrite J3 in SZ'.
    assert (LEN : length (cs_head st ++ [def] ++ cs_args st) = policy_size b o pol).
    { rewrite J1, J2, <- List.app_assoc. exact SZ'. }
    assert (NLT : Nat.ltb BPF_MAXINSNS (length (cs_head st ++ [def] ++ cs_args st)) = false).
    { apply Nat.ltb_ge. rewrite LEN. exact SZ. }
    rewrite NLT. unfold bpf_resolve_jumps. rewrite NLT.
    destruct (resolve_goes (length (cs_labels st)) (cs_head st ++ [def] ++ cs_args st) 0) as ([pr locs] & ->); [| | |eauto].
    + rewrite !labels_of_app, HL. change (labels_of [def]) with (@nil N). exact ND.
    + rewrite !labels_of_app, HL. change (labels_of [def]) with (@nil N). cbn [app]. intros id I.
      clear -ID I. unfold idinv in ID. induction ID as [|i s ids ss F ID IH]; [destruct I|]. destruct I as [->|I]; [|apply IH, I].
      apply find_index_lt in F. lia.
    + apply fwd_app.
      * rewrite J1. apply fwd_app; [apply fwd_plain, plain_prologue|]. apply (fwd_heads items); [auto|]. intros id I.
        rewrite labels_of_app, J2. apply in_or_app. left. apply in_or_app. right. exact I.
      * apply fwd_app; [apply fwd_plain; reflexivity|]. rewrite J2. apply (fwd_args b). exact J4.
Qed.
