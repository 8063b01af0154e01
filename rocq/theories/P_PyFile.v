(* From the statements of a policy to the program (tools/parser.py parse_file,
   tools/compiler.py compile_file). *)
From Coq Require Import ZifyBool ZifyNat ZifyN Permutation.
From Verif Require Import P_Bpf M_PyComp S_PyPolicy M_PyComp P_PyBpf P_PyLow P_PyComp.
Local Open Scope N_scope.

(* ---- compile_file on the entries ---- *)
Definition entries_ok (es : list entry) : Prop :=
  NoDup (map e_nr es) /\ forall e, In e es -> e_nr e < 2 ^ 32 - 1 /\ forall f, e_filter e = Some f -> loads f.
Definition finish_file (a : arch) (kill : N) (acc rej : block) (strat : strategy) (es : list entry) : option (list instr) :=
  match es with
  | [] => match accept rej flat0 with None => None | Some st => validate_arch a kill rej st end
  | _ =>
      let ranges := convert_to_ranges es in
      let n := 2 + N.of_nat (length es) in
      match (match strat with
             | BST => generate_syscall_bst acc rej (length ranges) ranges 0 (2 ^ 64 - 1) n
             | LINEAR => Some (compile_ranges_linear ranges acc rej n)
             end) with
      | None => None
      | Some (_, next, _) =>
          match forward next flat0 with
          | None => None
          | Some st =>
              match accept rej st with
              | None => None
              | Some st => match accept acc st with None => None | Some st => validate_arch a kill next st end
              end
          end
      end
  end.
Section fin.
Variables (a : arch) (kill va vr : N).
Hypothesis HA : arch_nr a < 2 ^ 32.
Hypothesis HK : kill < 2 ^ 32.
Hypothesis HVA : va < 2 ^ 32.
Hypothesis HVR : vr < 2 ^ 32.
Let A := Basic 0 true (ret va).
Let R := Basic 1 true (ret vr).
Definition outcome (d : sdata) (es : list entry) (p : list instr) : Prop :=
  (sd_arch d <> arch_nr a -> ex true p d vm0 = VRet kill) /\
  (sd_arch d = arch_nr a ->
   (forall e, In e es -> e_nr e = sd_nr d -> forall v,
      match e_filter e with None => v = va | Some f => forall s, ex true f d s = VRet v end -> ex true p d vm0 = VRet v) /\
   ((forall e, In e es -> e_nr e <> sd_nr d) -> ex true p d vm0 = VRet vr)).

Definition U0 (l : list range) (x : block) : Prop :=
  x = A \/ x = R \/ exists r i f, In r l /\ r_filter r = Some (i, f) /\ x = Basic i false f.

Lemma bst_lt : forall x, x < 2 ^ 32 -> x <= 2 ^ 64 - 1.
Proof. intros x H. apply N.lt_le_incl. eapply N.lt_trans; [exact H|reflexivity]. Qed.

Lemma finish_file_d d strat es : entries_ok es -> sd_nr d < 2 ^ 32 ->
  exists p, finish_file a kill A R strat es = Some p /\ loads p /\ outcome d es p.
Proof.
  intros [ND EO] SD. destruct es as [|e0 es0] eqn:EE.
  { (* no entry *)
    set (U := fun x => x = R).
    assert (HU : heap U). { split; [intros x y -> -> _; reflexivity|intros x y -> []|intros x ->; apply loads_ret, HVR]. }
    cbn [finish_file].
    destruct (accept_spec true d U HU R eq_refl flat0 (good0 true d U)) as (st & E & G & _ & _ & l & L & Q).
    rewrite E. specialize (Q eq_refl). subst l.
    destruct (validate_arch_spec true d U HU a kill R st eq_refl G (or_intror L) HA HK) as (p & V & LD & F & S).
    exists p. split; [exact V|]. split; [exact LD|]. split; [exact F|]. intros SA. split; [intros e []|]. intros _.
    apply S; [exact SA|]. reflexivity. }
  rewrite <- EE in *. assert (NE : es <> []) by (rewrite EE; discriminate). clear EE e0 es0.
  set (l := convert_to_ranges es). set (n := 2 + N.of_nat (length es)).
  pose proof (sorted_perm e_nr es) as PM.
  destruct (group_spec (sorted e_nr es) 0 2 (strict_sorted e_nr es ND)) as (O & GNE & G1 & G2 & G3 & G4).
  change (group (sorted e_nr es) 2) with l in *.
  assert (LNE : l <> []).
  { apply GNE. intros Z. rewrite Z in PM. apply Permutation_sym, Permutation_nil in PM. congruence. }
  assert (INP : forall e, In e (sorted e_nr es) <-> In e es).
  { intros e. split; intros I; [apply (Permutation_in e (Permutation_sym PM) I)|apply (Permutation_in e PM I)]. }
  assert (LENP : length (sorted e_nr es) = length es) by (symmetry; apply Permutation_length, PM).
  assert (HIB : forall r, In r l -> r_lo r < r_hi r /\ r_hi r < 2 ^ 32).
  { intros r I. destruct (ordered_in _ _ _ O I) as [_ LT]. split; [exact LT|].
    destruct (G2 r (r_hi r - 1) I) as (e & E & Q); [unfold contains; lia|]. apply INP in E.
    destruct (EO e E) as [B _]. change (2 ^ 32) with 4294967296 in *. lia. }
  assert (HB : bhp (U0 l) n).
  { split; [split|].
    - intros x y [->|[->|(r & i & f & I & F & ->)]] [->|[->|(r' & i' & f' & I' & F' & ->)]]; cbn [bid A R]; intros E; auto; try discriminate.
      + destruct (G3 _ _ _ I' F') as [B _]. lia.
      + destruct (G3 _ _ _ I' F') as [B _]. lia.
      + destruct (G3 _ _ _ I F) as [B _]. lia.
      + destruct (G3 _ _ _ I F) as [B _]. lia.
      + subst i'. rewrite (G4 _ _ _ _ _ I I' F F'). reflexivity.
    - intros x y [->|[->|(r & i & f & I & F & ->)]] [].
    - intros x [->|[->|(r & i & f & I & F & ->)]]; [apply loads_ret, HVA|apply loads_ret, HVR|].
      destruct (G3 _ _ _ I F) as (_ & e & E & Q). cbn [op_of]. apply INP in E. apply (EO e E), Q.
    - intros x [->|[->|(r & i & f & I & F & ->)]]; cbn [bid A R]; unfold n; try lia.
      destruct (G3 _ _ _ I F) as [B _]. rewrite LENP in B. lia. }
  assert (LV : leaves A (U0 l) l).
  { intros r I. split; [|apply HIB, I]. unfold action_of. destruct (r_filter r) as [[i f]|] eqn:F; [|left; reflexivity].
    right. right. exists r, i, f. auto. }
  assert (UA : U0 l A) by (left; reflexivity). assert (UR : U0 l R) by (right; left; reflexivity).
  assert (TR : exists c next m, (match strat with
             | BST => generate_syscall_bst A R (length l) l 0 (2 ^ 64 - 1) n
             | LINEAR => Some (compile_ranges_linear l A R n)
             end) = Some (c, next, m) /\ exists U, heap U /\ U next /\ U A /\ U R /\ is_entry next /\
             forall s, acc s < 2 ^ 32 -> dec true d A next R l s).
  { destruct strat.
    - destruct (compile_ranges_linear l A R n) as [[c b] m] eqn:E.
      destruct (linear_ranges_spec true d A R 0 l O LNE (U0 l) n c b m HB UR LV E) as (U & H & B & X & EN & D).
      exists c, b, m. split; [reflexivity|]. exists U. split; [apply H|]. auto 8.
    - destruct (bst_spec true d A R (length l) l 0 (2 ^ 64 - 1) n (U0 l)) as ([[c b] m] & E & U & H & X & B & EN & D); auto.
      { intros r I. apply bst_lt, HIB, I. }
      exists c, b, m. split; [exact E|]. cbn [fst snd] in *. exists U. split; [apply H|]. split; [auto|]. split; [auto|]. split; [auto|].
      split.
      + destruct EN as [EN|(r & LR & _ & Z)]; [exact EN|]. exfalso. destruct (HIB r) as [_ B2]; [rewrite LR; left; reflexivity|].
        rewrite <- Z in B2. discriminate.
      + intros s S. apply D. split; [lia|]. eapply N.lt_trans; [exact S|reflexivity]. }
  destruct TR as (c & next & m & ET & U & HU & UN & UA' & UR' & EN & D).
  assert (FF : finish_file a kill A R strat es =
          match forward next flat0 with
          | None => None
          | Some st =>
              match accept R st with
              | None => None
              | Some st => match accept A st with None => None | Some st => validate_arch a kill next st end
              end
          end).
  { unfold finish_file. destruct es as [|e0 es0]; [congruence|]. fold l n. rewrite ET. reflexivity. }
  rewrite FF. clear FF ET.
  destruct (forward_spec true d U HU next UN flat0 (good0 true d U)) as (s1 & E1 & K1 & W1). rewrite E1.
  destruct (accept_spec true d U HU R UR' s1 K1) as (s2 & E2 & K2 & _ & W2 & _). rewrite E2.
  destruct (accept_spec true d U HU A UA' s2 K2) as (s3 & E3 & K3 & _ & W3 & _). rewrite E3.
  assert (NP : assoc (bid next) (fl_off s3) = None).
  { assert (SZ : (0 < size next)%nat) by (destruct next; try destruct EN; cbn; lia).
    apply (within_none U HU 0 next s2 s3); auto. apply (within_none U HU 0 next s1 s2); auto.
    apply (within_none U HU 0 next flat0 s1); auto. }
  destruct (validate_arch_spec true d U HU a kill next s3 UN K3 (or_introl NP) HA HK) as (p & V & LD & F & S).
  exists p. split; [exact V|]. split; [exact LD|]. split; [exact F|]. intros SA.
  specialize (S SA). destruct (D (VM (sd_nr d) (mem vm0)) SD) as [P Q]. cbn [acc] in P, Q. split.
  - intros e E EN2 v V2. apply INP in E. destruct (G1 e E) as (r & I & C & FE). rewrite EN2 in C.
    apply S. rewrite (P r I C). unfold action_of. destruct (r_filter r) as [[i f]|]; cbn [unnamed] in FE; rewrite <- FE in V2.
    + apply V2.
    + rewrite V2. reflexivity.
  - intros NO. apply S. rewrite Q; [reflexivity|]. intros r I C. destruct (G2 r _ I C) as (e & E & X). apply INP in E.
    apply (NO e E X).
Qed.
Lemma finish_file_spec strat es : entries_ok es ->
  exists p, finish_file a kill A R strat es = Some p /\ loads p /\ forall d, sd_ok d -> outcome d es p.
Proof.
  intros EO. destruct (finish_file_d (SD 0 0 0 []) strat es EO) as (p & E & L & _); [reflexivity|].
  exists p. split; [exact E|]. split; [exact L|]. intros d D.
  destruct (finish_file_d d strat es EO) as (p' & E' & _ & OC); [apply D|]. rewrite E in E'. injection E' as <-. exact OC.
Qed.
End fin.
Lemma compile_file_eq a kill denylist strat p : compile_file a kill denylist strat p =
  match compile_stmts a denylist (p_stmts p) with
  | None => None
  | Some es => finish_file a kill (Basic 0 true (ret (if denylist then kill else RET_ALLOW)))
                 (Basic 1 true (ret (if denylist then RET_ALLOW else a_val (p_default p)))) strat es
  end.
Proof. reflexivity. Qed.

(* ---- Collecting the statements ---- *)
Definition filters_of (nr : N) (l : list stmt) : option (list filt) :=
  match find (fun s => s_nr s =? nr) l with Some s => Some (s_filters s) | None => None end.
Definition more (o : option (list filt)) (fs : list filt) : list filt :=
  match o with Some x => (x ++ fs)%list | None => fs end.
Section collecting.
Variable freq : string * N -> N.
Variable CS : list (string * N).
Hypothesis ONE : forall c c', In c CS -> In c' CS -> snd c = snd c' -> c = c'.
Definition sound (l : list stmt) : Prop := NoDup (map s_nr l) /\ forall s, In s l -> In (s_name s, s_nr s) CS.

Lemma same_call_nr c s : In c CS -> In (s_name s, s_nr s) CS -> same_call c s = (snd c =? s_nr s).
Proof.
  intros C S. unfold same_call. destruct (N.eqb_spec (snd c) (s_nr s)) as [E|E]; [|apply andb_false_r].
  rewrite (ONE c _ C S E). cbn [fst]. rewrite String.eqb_refl. reflexivity.
Qed.
Lemma add_filters_nrs c fs l : In c CS -> (forall s, In s l -> In (s_name s, s_nr s) CS) ->
  map s_nr (add_filters freq c fs l) = if existsb (fun s => snd c =? s_nr s) l then map s_nr l else (map s_nr l ++ [snd c])%list.
Proof.
  intros C. induction l as [|s r IH]; intros H; [reflexivity|]. cbn [add_filters existsb map].
  rewrite same_call_nr by (auto; apply H; left; reflexivity).
  destruct (snd c =? s_nr s) eqn:E; cbn [orb map s_nr]; [reflexivity|].
  rewrite IH by (intros x X; apply H; right; exact X). destruct (existsb (fun s0 => snd c =? s_nr s0) r); reflexivity.
Qed.
Lemma add_filters_sound c fs l : In c CS -> sound l -> sound (add_filters freq c fs l).
Proof.
  intros C [ND H]. split.
  - rewrite add_filters_nrs by auto. destruct (existsb (fun s => snd c =? s_nr s) l) eqn:E; [exact ND|].
    apply NoDup_app_intro || idtac.
    rewrite <- (rev_involutive (map s_nr l ++ [snd c])). apply NoDup_rev. rewrite rev_app_distr. cbn [rev app].
    constructor; [|apply NoDup_rev, ND]. rewrite <- in_rev. intros I. apply in_map_iff in I as (s & E1 & I).
    assert (X : existsb (fun s => snd c =? s_nr s) l = true).
    { apply existsb_exists. exists s. split; [exact I|]. apply N.eqb_eq. auto. }
    congruence.
  - clear ND. revert H. induction l as [|s r IH]; intros H x; cbn [add_filters].
    { intros [<-|[]]. cbn [s_name s_nr]. destruct c; exact C. }
    destruct (same_call c s).
    + intros [<-|I]; [apply (H s); left; reflexivity|]. apply H. right. exact I.
    + intros [<-|I]; [apply H; left; reflexivity|]. apply IH; [|exact I]. intros y Y. apply H. right. exact Y.
Qed.
Lemma add_filters_of nr c fs l : In c CS -> (forall s, In s l -> In (s_name s, s_nr s) CS) ->
  filters_of nr (add_filters freq c fs l) = if snd c =? nr then Some (more (filters_of nr l) fs) else filters_of nr l.
Proof.
  intros C. unfold filters_of. induction l as [|s r IH]; intros H; cbn [add_filters find].
  { cbn [s_nr]. destruct (snd c =? nr); reflexivity. }
  rewrite same_call_nr by (auto; apply H; left; reflexivity).
  destruct (N.eqb_spec (snd c) (s_nr s)) as [E|E]; cbn [find s_nr s_filters].
  - rewrite E. destruct (s_nr s =? nr); reflexivity.
  - destruct (N.eqb_spec (s_nr s) nr) as [E2|E2].
    + replace (snd c =? nr) with false by lia. reflexivity.
    + apply IH. intros x X. apply H. right. exact X.
Qed.
Definition for_calls (nr : N) (fs : list filt) (cs : list (string * N)) : list filt :=
  flat_map (fun c => if snd c =? nr then fs else []) cs.
Definition result (nr : N) (o : option (list filt)) (here : bool) (fs : list filt) : option (list filt) :=
  match o with Some x => Some (x ++ fs)%list | None => if here then Some fs else None end.
Lemma add_calls_spec nr fs cs : forall l, (forall c, In c cs -> In c CS) -> sound l ->
  sound (add_calls freq cs fs l) /\
  filters_of nr (add_calls freq cs fs l) = result nr (filters_of nr l) (existsb (fun c => snd c =? nr) cs) (for_calls nr fs cs).
Proof.
  induction cs as [|c r IH]; intros l K S; cbn [add_calls existsb for_calls flat_map].
  { split; [exact S|]. destruct (filters_of nr l); cbn [result]; [rewrite app_nil_r|]; reflexivity. }
  assert (C : In c CS) by (apply K; left; reflexivity).
  destruct (IH (add_filters freq c fs l)) as [S1 E1]; [intros x X; apply K; right; exact X|apply add_filters_sound; auto|].
  split; [exact S1|]. rewrite E1, add_filters_of by (auto; apply S).
  destruct (snd c =? nr) eqn:N1; cbn [orb].
  - destruct (filters_of nr l); cbn [result more]; [rewrite <- app_assoc|]; reflexivity.
  - cbn [app]. reflexivity.
Qed.
Lemma collect_spec nr ss : forall l, (forall c, In c (calls ss) -> In c CS) -> sound l ->
  sound (collect freq ss l) /\
  filters_of nr (collect freq ss l) = result nr (filters_of nr l) (listed nr ss) (filters_for nr ss).
Proof.
  unfold calls, listed, filters_for. induction ss as [|s r IH]; intros l K S; cbn [collect flat_map existsb].
  { split; [exact S|]. destruct (filters_of nr l); cbn [result]; [rewrite app_nil_r|]; reflexivity. }
  destruct (add_calls_spec nr (st_filters s) (st_calls s) l) as [S1 E1]; [intros c C; apply K; cbn [flat_map]; apply in_or_app; auto|auto|].
  destruct (IH (add_calls freq (st_calls s) (st_filters s) l)) as [S2 E2]; [intros c C; apply K; cbn [flat_map]; apply in_or_app; auto|auto|].
  split; [exact S2|]. rewrite E2, E1. fold (for_calls nr (st_filters s) (st_calls s)).
  unfold calls. cbn [flat_map]. rewrite existsb_app.
  destruct (filters_of nr l) as [x|]; cbn [result]; [rewrite <- app_assoc; reflexivity|].
  destruct (existsb (fun c => snd c =? nr) (st_calls s)) eqn:N1; cbn [result orb]; [reflexivity|].
  assert (Z : for_calls nr (st_filters s) (st_calls s) = []).
  { clear - N1. unfold for_calls. induction (st_calls s) as [|c t IH]; [reflexivity|]. cbn [existsb flat_map] in *.
    apply orb_false_iff in N1 as [-> N2]. apply IH, N2. }
  rewrite Z. reflexivity.
Qed.
End collecting.

(* ---- One unconditional filter at the end ---- *)
Definition ends (fs : list filt) : Prop :=
  exists before last, fs = (before ++ [last])%list /\ f_expr last = None /\ Forall (fun f => f_expr f <> None) before.
Definition complete (default : act) (fs : list filt) : list filt :=
  match unconditional_suffix fs with [] => (fs ++ [Filt None default])%list | _ => fs end.
Lemma suffix_nil fs : unconditional_suffix fs = [] -> Forall (fun f => f_expr f <> None) fs.
Proof.
  induction fs as [|f r IH]; intros E; [constructor|]. cbn [unconditional_suffix] in E.
  destruct (f_expr f) eqn:X; [|discriminate]. constructor; [congruence|auto].
Qed.
Lemma suffix_one fs x : unconditional_suffix fs = [x] -> ends fs.
Proof.
  induction fs as [|f r IH]; intros E; [discriminate|]. cbn [unconditional_suffix] in E.
  destruct (f_expr f) eqn:X.
  - destruct (IH E) as (b & z & -> & L & B). exists (f :: b), z. split; [reflexivity|]. split; [exact L|]. constructor; [congruence|exact B].
  - injection E as <- ->. exists [], f. auto.
Qed.
Lemma finish_spec default l : forall l', finish default l = Some l' ->
  map s_nr l' = map s_nr l /\
  (forall s, In s l' -> ends (s_filters s)) /\
  forall nr, filters_of nr l' = match filters_of nr l with Some fs => Some (complete default fs) | None => None end.
Proof.
  induction l as [|s r IH]; intros l' E; cbn [finish] in E.
  { injection E as <-. split; [reflexivity|]. split; [intros s []|reflexivity]. }
  unfold filters_of in *.
  destruct (unconditional_suffix (s_filters s)) as [|x [|y t]] eqn:X; destruct (finish default r) as [r'|]; try discriminate; injection E as <-;
    destruct (IH r' eq_refl) as (M & EN & F); cbn [map find s_nr s_filters].
  - split; [rewrite M; reflexivity|]. split.
    + intros u [<-|I]; [|auto]. cbn [s_filters]. exists (s_filters s), (Filt None default). split; [reflexivity|].
      split; [reflexivity|]. apply suffix_nil, X.
    + intros nr. destruct (s_nr s =? nr); [|apply F]. cbn [s_filters]. unfold complete. rewrite X. reflexivity.
  - split; [rewrite M; reflexivity|]. split.
    + intros u [<-|I]; [|auto]. eapply suffix_one, X.
    + intros nr. destruct (s_nr s =? nr); [|apply F]. unfold complete. rewrite X. reflexivity.
Qed.

Lemma find_nr_in nr l fs : filters_of nr l = Some fs -> exists s, In s l /\ s_nr s = nr /\ s_filters s = fs.
Proof.
  unfold filters_of. destruct (find (fun s => s_nr s =? nr) l) as [s|] eqn:E; [|discriminate].
  intros [= <-]. apply find_some in E as [I E]. apply N.eqb_eq in E. eauto.
Qed.
Lemma in_find_nr l s : NoDup (map s_nr l) -> In s l -> filters_of (s_nr s) l = Some (s_filters s).
Proof.
  unfold filters_of. induction l as [|x r IH]; intros ND I; [destruct I|]. cbn [map] in ND. apply NoDup_cons_iff in ND as [N1 N2].
  cbn [find]. destruct I as [->|I]; [rewrite N.eqb_refl; reflexivity|].
  destruct (N.eqb_spec (s_nr x) (s_nr s)) as [E|]; [|auto]. exfalso. apply N1. rewrite E. apply in_map, I.
Qed.

(* ---- compile_stmts ---- *)
Lemma first_match_ends bits d fs v v' : ends fs -> first_match bits d v fs = first_match bits d v' fs.
Proof. intros (b & l & -> & L & _). rewrite !first_match_app. cbn [first_match]. unfold applies. rewrite L. reflexivity. Qed.
Lemma first_match_complete bits d default fs : (forall x y, unconditional_suffix fs <> x :: y :: [] \/ True) ->
  ends (complete default fs) -> first_match bits d 0 (complete default fs) = first_match bits d (a_val default) fs.
Proof.
  intros _ E. unfold complete in *. destruct (unconditional_suffix fs) eqn:X.
  - rewrite first_match_app. reflexivity.
  - apply first_match_ends, E.
Qed.
Definition last_value (fs : list filt) : N := a_val (f_act (List.last fs (Filt None (Act 0 0)))).
Lemma last_resort_complete default fs : ends (complete default fs) -> last_value (complete default fs) = last_resort (a_val default) fs.
Proof.
  intros E. unfold last_value, last_resort, complete in *. destruct (unconditional_suffix fs) eqn:X.
  - rewrite last_last. cbn [f_act]. apply suffix_nil in X. clear E. induction X as [|f r F _ IH]; [reflexivity|].
    cbn [find]. destruct (f_expr f); [exact IH|congruence].
  - destruct E as (b & x & -> & L & B). rewrite last_last. clear X. induction B as [|g r F _ IH]; cbn [find app].
    + rewrite L. reflexivity.
    + destruct (f_expr g); [exact IH|congruence].
Qed.

Lemma compile_stmts_spec a denylist l : arch_bits a = 32 \/ arch_bits a = 64 ->
  (forall s, In s l -> ends (s_filters s) /\ Forall (filt_fits (arch_bits a)) (s_filters s) /\
     forall x y, In x (s_filters s) -> In y (s_filters s) -> a_id (f_act x) = a_id (f_act y) -> f_act x = f_act y) ->
  exists es, compile_stmts a denylist l = Some es /\ map e_nr es = map s_nr l /\
  (forall e, In e es -> forall f, e_filter e = Some f -> loads f) /\
  forall s, In s l -> exists e, In e es /\ e_nr e = s_nr s /\
    (denylist = false -> last_value (s_filters s) = RET_ALLOW -> e_filter e = None) /\
    (denylist = true \/ last_value (s_filters s) <> RET_ALLOW -> exists f, e_filter e = Some f /\
       forall d st, sd_ok d -> ex true f d st = VRet (first_match (arch_bits a) d 0 (s_filters s))).
Proof.
  intros HB. induction l as [|s r IH]; intros H; cbn [compile_stmts].
  { exists []. split; [reflexivity|]. split; [reflexivity|]. split; [intros e []|intros s []]. }
  destruct (H s (or_introl eq_refl)) as ((b & x & FS & L & B) & FI & ID).
  destruct (IH ltac:(intros y Y; apply H; right; exact Y)) as (es & E & M & LD & K).
  destruct (compile_filter_statement_spec a denylist s b x HB FS L B FI ID) as [C1 C2].
  assert (LV : last_value (s_filters s) = a_val (f_act x)) by (unfold last_value; rewrite FS, last_last; reflexivity).
  destruct (bool_dec denylist true) as [DT|DF]; [|apply not_true_is_false in DF; destruct (N.eq_dec (a_val (f_act x)) RET_ALLOW) as [EA|NA]].
  - destruct (C2 (or_introl DT)) as (f & CF & LF & EX). rewrite CF, E. eexists. split; [reflexivity|].
    split; [cbn [map e_nr]; rewrite M; reflexivity|]. split.
    + intros e [<-|I]; [cbn [e_filter]; intros g [= <-]; exact LF|apply LD, I].
    + intros y [<-|Y].
      * eexists. split; [left; reflexivity|]. cbn [e_nr e_filter]. split; [reflexivity|]. split; [congruence|]. intros _. eauto.
      * destruct (K y Y) as (e & I & Q). exists e. split; [right; exact I|exact Q].
  - rewrite (C1 DF EA), E. eexists. split; [reflexivity|].
    split; [cbn [map e_nr]; rewrite M; reflexivity|]. split.
    + intros e [<-|I]; [discriminate|apply LD, I].
    + intros y [<-|Y].
      * eexists. split; [left; reflexivity|]. cbn [e_nr e_filter]. split; [reflexivity|]. split; [auto|].
        intros [D|D]; [congruence|]. rewrite LV in D. congruence.
      * destruct (K y Y) as (e & I & Q). exists e. split; [right; exact I|exact Q].
  - destruct (C2 (or_intror NA)) as (f & CF & LF & EX). rewrite CF, E. eexists. split; [reflexivity|].
    split; [cbn [map e_nr]; rewrite M; reflexivity|]. split.
    + intros e [<-|I]; [cbn [e_filter]; intros g [= <-]; exact LF|apply LD, I].
    + intros y [<-|Y].
      * eexists. split; [left; reflexivity|]. cbn [e_nr e_filter]. split; [reflexivity|]. split; [rewrite LV; congruence|]. intros _. eauto.
      * destruct (K y Y) as (e & I & Q). exists e. split; [right; exact I|exact Q].
Qed.

(* ---- The whole compiler ---- *)
Lemma filters_for_in nr ss f : In f (filters_for nr ss) -> exists s, In s ss /\ In f (st_filters s).
Proof.
  unfold filters_for. intros I. apply in_flat_map in I as (s & S & I). apply in_flat_map in I as (c & _ & I).
  destruct (snd c =? nr); [|destruct I]. eauto.
Qed.
Lemma complete_in default fs f : In f (complete default fs) -> In f fs \/ f = Filt None default.
Proof.
  unfold complete. destruct (unconditional_suffix fs); [|auto]. intros I. apply in_app_or in I as [I|[<-|[]]]; auto.
Qed.

Section whole.
Variables (freq : string * N -> N) (a : arch) (default : act) (ss : list statement) (p : parsed).
Hypothesis OK : policy_ok a default ss.
Hypothesis ONE : one_name ss.
Hypothesis PF : parse_file freq default ss = Some p.

Lemma parsed_default : p_default p = default.
Proof. revert PF. unfold parse_file. destruct (finish default (collect freq ss [])); [intros [= <-]; reflexivity|discriminate]. Qed.
Lemma parsed_sound : NoDup (map s_nr (p_stmts p)) /\ (forall nr, In nr (map s_nr (p_stmts p)) -> nr < 2 ^ 32 - 1) /\
  (forall s, In s (p_stmts p) -> ends (s_filters s)) /\
  forall nr, filters_of nr (p_stmts p) = if listed nr ss then Some (complete default (filters_for nr ss)) else None.
Proof.
  revert PF. unfold parse_file. destruct (finish default (collect freq ss [])) as [l|] eqn:F; [|discriminate]. intros [= <-].
  cbn [p_stmts]. destruct (finish_spec default _ _ F) as (M & E & FO). rewrite M.
  assert (S0 : sound (calls ss) []) by (split; [constructor|intros s []]).
  assert (CS : forall nr, sound (calls ss) (collect freq ss []) /\
     filters_of nr (collect freq ss []) = if listed nr ss then Some (filters_for nr ss) else None).
  { intros nr. apply (collect_spec freq (calls ss) ONE nr ss [] (fun c C => C) S0). }
  destruct (CS 0) as [[ND NM] _]. split; [exact ND|]. split.
  - intros nr I. apply in_map_iff in I as (s & <- & I). destruct OK as (_ & _ & _ & _ & _ & B). apply (B _ (NM s I)).
  - split; [exact E|]. intros nr. rewrite FO. destruct (CS nr) as [_ ->]. destruct (listed nr ss); reflexivity.
Qed.
Lemma parsed_stmt s : In s (p_stmts p) -> listed (s_nr s) ss = true /\ s_filters s = complete default (filters_for (s_nr s) ss).
Proof.
  intros I. destruct parsed_sound as (ND & _ & _ & F). pose proof (in_find_nr _ _ ND I) as Q. rewrite F in Q.
  destruct (listed (s_nr s) ss); [|discriminate]. injection Q as <-. auto.
Qed.
Lemma parsed_filters s : In s (p_stmts p) -> ends (s_filters s) /\ Forall (filt_fits (arch_bits a)) (s_filters s) /\
     forall x y, In x (s_filters s) -> In y (s_filters s) -> a_id (f_act x) = a_id (f_act y) -> f_act x = f_act y.
Proof.
  intros I. destruct parsed_sound as (_ & _ & E & _). split; [auto|]. destruct (parsed_stmt s I) as [_ ->].
  destruct OK as (_ & _ & DV & FF & ID & _).
  assert (X : forall f, In f (complete default (filters_for (s_nr s) ss)) -> filt_fits (arch_bits a) f /\ In (f_act f) (actions default ss)).
  { intros f J. apply complete_in in J as [J| -> ].
    - apply filters_for_in in J as (t & T & J). split; [eauto|]. right. apply in_flat_map. exists t. split; [exact T|]. apply in_map, J.
    - split; [split; [exact DV|exact Logic.I]|left; reflexivity]. }
  split; [apply Forall_forall; intros f J; apply X, J|]. intros x y J K. apply ID; apply X; assumption.
Qed.

Definition compiled_value (denylist : bool) (d : sdata) : N :=
  if listed (sd_nr d) ss && negb denylist && (last_resort (a_val default) (filters_for (sd_nr d) ss) =? ALLOW) then ALLOW
  else decision (arch_bits a) denylist (a_val default) ss d.
Lemma compile_file_spec kill denylist strat : kill < 2 ^ 32 ->
  exists prog, compile_file a kill denylist strat p = Some prog /\ loads prog /\ forall d, sd_ok d ->
    (sd_arch d <> arch_nr a -> run true prog d = VRet kill) /\
    (sd_arch d = arch_nr a -> run true prog d = VRet (compiled_value denylist d)).
Proof.
  intros HK. rewrite compile_file_eq, parsed_default.
  destruct OK as (HB & HA & DV & _).
  destruct (compile_stmts_spec a denylist (p_stmts p) HB parsed_filters) as (es & E & M & LO & K). rewrite E.
  destruct parsed_sound as (ND & BN & EN & FO).
  set (va := if denylist then kill else RET_ALLOW). set (vr := if denylist then RET_ALLOW else a_val default).
  assert (HVA : va < 2 ^ 32) by (unfold va; destruct denylist; [exact HK|reflexivity]).
  assert (HVR : vr < 2 ^ 32) by (unfold vr; destruct denylist; [reflexivity|exact DV]).
  assert (EO : entries_ok es).
  { split; [rewrite M; exact ND|]. intros e I. split; [|apply LO, I]. apply BN. rewrite <- M. apply in_map, I. }
  destruct (finish_file_spec a kill va vr HA HK HVA HVR strat es EO) as (prog & C & L & OC).
  exists prog. split; [exact C|]. split; [exact L|]. intros d D. destruct (OC d D) as [O1 O2]. split; [exact O1|].
  intros SA. destruct (O2 SA) as [P Q]. clear O1 O2 OC. change (run true prog d) with (ex true prog d vm0). unfold compiled_value, decision.
  pose proof (FO (sd_nr d)) as F. destruct (listed (sd_nr d) ss) eqn:LI; cbn [andb].
  - apply find_nr_in in F as (s & I & N1 & FS). destruct (K s I) as (e & IE & N2 & D1 & D2). rewrite N1 in N2.
    pose proof (EN s I) as ES. rewrite FS in *. rewrite last_resort_complete in D1, D2 by exact ES.
    assert (FM : first_match (arch_bits a) d 0 (complete default (filters_for (sd_nr d) ss)) =
                 first_match (arch_bits a) d (a_val default) (filters_for (sd_nr d) ss)) by (apply first_match_complete; auto).
    destruct denylist; cbn [negb andb].
    + destruct (D2 (or_introl eq_refl)) as (f & EF & X). apply (P e IE N2). rewrite EF. intros st. rewrite X by exact D. rewrite FM. reflexivity.
    + destruct (N.eqb_spec (last_resort (a_val default) (filters_for (sd_nr d) ss)) ALLOW) as [LA|LA].
      * apply (P e IE N2). rewrite (D1 eq_refl LA). reflexivity.
      * destruct (D2 (or_intror LA)) as (f & EF & X). apply (P e IE N2). rewrite EF. intros st. rewrite X by exact D. rewrite FM. reflexivity.
  - assert (NO : forall e, In e es -> e_nr e <> sd_nr d).
    { intros e I N1. assert (J : In (e_nr e) (map s_nr (p_stmts p))) by (rewrite <- M; apply in_map, I).
      apply in_map_iff in J as (s & N2 & J). destruct (parsed_stmt s J) as [LS _]. congruence. }
    rewrite (Q NO). unfold vr. destruct denylist; reflexivity.
Qed.
End whole.

(* ---- The properties ---- *)
Lemma one_value p p' freq freq' default ss a (OK : policy_ok a default ss) (ON : one_name ss) :
  parse_file freq default ss = Some p -> parse_file freq' default ss = Some p' ->
  forall kill denylist strat strat' prog prog', kill < 2 ^ 32 ->
  compile_file a kill denylist strat p = Some prog -> compile_file a kill denylist strat' p' = Some prog' ->
  forall d, sd_ok d -> run true prog d = run true prog' d.
Proof.
  intros P P' kill denylist strat strat' prog prog' HK C C' d D.
  destruct (compile_file_spec freq a default ss p OK ON P kill denylist strat HK) as (q & E & _ & F).
  destruct (compile_file_spec freq' a default ss p' OK ON P' kill denylist strat' HK) as (q' & E' & _ & F').
  rewrite C in E. rewrite C' in E'. injection E as <-. injection E' as <-.
  destruct (F d D) as [F1 F2]. destruct (F' d D) as [F1' F2']. destruct (N.eq_dec (sd_arch d) (arch_nr a)) as [A|A].
  - rewrite F2, F2' by exact A. reflexivity.
  - rewrite F1, F1' by exact A. reflexivity.
Qed.
Lemma compiles freq a default ss p kill denylist strat : policy_ok a default ss -> one_name ss -> kill < 2 ^ 32 ->
  parse_file freq default ss = Some p ->
  exists prog, compile_file a kill denylist strat p = Some prog /\ ((length prog <= 4096)%nat -> kernel_accepts prog).
Proof.
  intros OK ON HK P. destruct (compile_file_spec freq a default ss p OK ON P kill denylist strat HK) as (q & E & L & _).
  exists q. split; [exact E|]. apply loads_accepted, L.
Qed.
Lemma foreign freq a default ss p kill denylist strat prog d : policy_ok a default ss -> one_name ss -> kill < 2 ^ 32 ->
  parse_file freq default ss = Some p -> compile_file a kill denylist strat p = Some prog -> sd_ok d ->
  sd_arch d <> arch_nr a -> run true prog d = VRet kill.
Proof.
  intros OK ON HK P C D A. destruct (compile_file_spec freq a default ss p OK ON P kill denylist strat HK) as (q & E & _ & F).
  rewrite C in E. injection E as <-. apply F; auto.
Qed.
Lemma preserved freq a default ss p kill denylist strat prog d : policy_ok a default ss -> one_name ss -> kill < 2 ^ 32 ->
  parse_file freq default ss = Some p -> compile_file a kill denylist strat p = Some prog -> sd_ok d ->
  sd_arch d = arch_nr a ->
  denylist = true \/ last_resort (a_val default) (filters_for (sd_nr d) ss) <> ALLOW \/
    Forall (fun f => a_val (f_act f) = ALLOW) (filters_for (sd_nr d) ss) ->
  run true prog d = VRet (decision (arch_bits a) denylist (a_val default) ss d).
Proof.
  intros OK ON HK P C D A CS. destruct (compile_file_spec freq a default ss p OK ON P kill denylist strat HK) as (q & E & _ & F).
  rewrite C in E. injection E as <-. destruct (F d D) as [_ F2]. rewrite F2 by exact A. f_equal. unfold compiled_value.
  destruct (listed (sd_nr d) ss) eqn:LI; [|reflexivity]. cbn [andb]. destruct denylist; [reflexivity|]. cbn [negb andb].
  destruct (N.eqb_spec (last_resort (a_val default) (filters_for (sd_nr d) ss)) ALLOW) as [L|L]; [|reflexivity].
  destruct CS as [CS|[CS|CS]]; [discriminate|contradiction|]. unfold decision. rewrite LI.
  revert L CS. unfold last_resort. induction (filters_for (sd_nr d) ss) as [|f r IH]; cbn [find first_match]; [auto|].
  intros L CS. apply Forall_cons_iff in CS as [C1 C2]. destruct (applies (arch_bits a) d f) eqn:AP; [auto|].
  apply IH; [|exact C2]. unfold applies in AP. destruct (f_expr f); [exact L|discriminate].
Qed.
Lemma all_allowed freq a default ss p kill strat prog d : policy_ok a default ss -> one_name ss -> kill < 2 ^ 32 ->
  parse_file freq default ss = Some p -> compile_file a kill false strat p = Some prog -> sd_ok d ->
  sd_arch d = arch_nr a -> listed (sd_nr d) ss = true ->
  last_resort (a_val default) (filters_for (sd_nr d) ss) = ALLOW ->
  run true prog d = VRet ALLOW.
Proof.
  intros OK ON HK P C D A LI LR. destruct (compile_file_spec freq a default ss p OK ON P kill false strat HK) as (q & E & _ & F).
  rewrite C in E. injection E as <-. destruct (F d D) as [_ F2]. rewrite F2 by exact A. unfold compiled_value.
  rewrite LI, LR. reflexivity.
Qed.
Lemma jumps_reach le d op value t f rest s b : In op [BPF_JEQ; BPF_JGT; BPF_JGE; BPF_JSET] ->
  jump_test (N.lor 5 op) (acc s) value = Some b ->
  let p := (emit_jmp op value t f ++ rest)%list in
  let q := skipn (N.to_nat (if b then t else f)) rest in
  exec le (S (length p)) p d s = exec le (S (length q)) q d s.
Proof.
  intros O T. assert (O' : is_op op) by (unfold is_op; cbn [In] in O; clear - O; intuition auto).
  pose proof (emit_jmp_ex le d op value t f rest s O') as E. unfold ex in E. cbv zeta. rewrite E.
  assert (X : jump_test (N.lor 5 op) (acc s) value = Some (test op (acc s) value)).
  { clear - O'. revert O'. intros [->|[->|[->| ->]]]; reflexivity. }
  rewrite X in T. injection T as <-. reflexivity.
Qed.
Lemma jumps_fit op value t f : Forall (fun i => jt i < 256 /\ jf i < 256) (emit_jmp op value t f).
Proof.
  unfold emit_jmp. destruct ((t <? 256) && (f <? 256)) eqn:E1; [|destruct (t + 1 <? 256) eqn:E2; [|destruct (f + 1 <? 256) eqn:E3]];
    repeat constructor; cbn [jt jf]; lia.
Qed.
