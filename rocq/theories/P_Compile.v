(* The policy compiler: what a successful compilation has read and what the
   generated code answers. *)
From Verif Require Export P_Atom M_Filter S_Policy.
From Coq Require Import ZifyBool ZifyNat ZifyN.
Local Open Scope N_scope.

(* ---- the result monad ---- *)
Lemma cbind_ok {A B} (x : cres A) (f : A -> cres B) r :
  cbind x f = COk r <-> exists a, x = COk a /\ f a = COk r.
Proof.
  split.
  - destruct x; simpl; try discriminate. eauto.
  - intros (a & -> & H). exact H.
Qed.

(* ---- label table ---- *)
Lemma stake_id n s : (String.length s <= n)%nat -> stake n s = s.
Proof.
  revert s. induction n; destruct s; simpl; intros; auto; try lia. rewrite IHn by lia. auto.
Qed.
Lemma stake_len n s : (String.length (stake n s) <= n)%nat.
Proof. revert s. induction n; destruct s; simpl; try lia. specialize (IHn s). lia. Qed.

Lemma find_index_app s l ext i j : find_index s l i = Some j -> find_index s (l ++ ext) i = Some j.
Proof.
  revert i. induction l as [|x l IH]; simpl; intros i H; [discriminate|].
  destruct (String.eqb s x); auto.
Qed.
Lemma find_index_last s l i : find_index s l i = None ->
  find_index s (l ++ [s]) i = Some (i + N.of_nat (length l)).
Proof.
  revert i. induction l as [|x l IH]; simpl; intros i H.
  - rewrite String.eqb_refl. f_equal. lia.
  - destruct (String.eqb s x); [discriminate|]. rewrite IH by auto. f_equal. lia.
Qed.
Definition extends (l l' : list string) : Prop := exists e, l' = (l ++ e)%list.
Lemma extends_refl l : extends l l. Proof. exists []. symmetry. apply app_nil_r. Qed.
Lemma extends_trans a b c : extends a b -> extends b c -> extends a c.
Proof. intros [x ->] [y ->]. exists (x ++ y)%list. symmetry. apply app_assoc. Qed.
Lemma find_index_ext s l l' j : extends l l' -> find_index s l 0 = Some j -> find_index s l' 0 = Some j.
Proof. intros [e ->]. apply find_index_app. Qed.

Lemma get_label_ok l s id l' : (String.length s <= 32)%nat ->
  get_label_id l s = COk (id, l') -> extends l l' /\ find_index s l' 0 = Some id.
Proof.
  unfold get_label_id, bpf_label_id. intros L.
  destruct (find_index s l 0) eqn:E.
  - intros H. injection H as <- <-. split; auto using extends_refl.
  - destruct (Nat.eqb (length l) BPF_LABELS_MAX); [discriminate|].
    unfold MAX_BPF_LABEL_LEN. rewrite stake_id by auto. intros H. injection H as <- <-.
    split; [eexists; reflexivity|]. rewrite find_index_last by auto. reflexivity.
Qed.
Lemma group_end_len nr grp : (String.length (group_end_str nr grp) <= 32)%nat.
Proof. unfold group_end_str. pose proof (stake_len 31 (dec nr ++ "_" ++ dec grp ++ "_end")%string). lia. Qed.
Lemma success_len nr : (String.length (success_str nr) <= 32)%nat.
Proof. unfold success_str. pose proof (stake_len 31 (dec nr ++ "_success")%string). lia. Qed.

(* ---- small arithmetic ---- *)
Lemma to_int_as_int z : to_int z = as_int z.
Proof.
  unfold to_int, to_signed, to_word, as_int.
  change (2 ^ Z.of_N 32)%Z with 4294967296%Z. change (2 ^ 32)%Z with 4294967296%Z.
  change (2 ^ 31)%Z with 2147483648%Z. change (2 ^ (Z.of_N 32 - 1))%Z with 2147483648%Z.
  assert (0 <= z mod 4294967296 < 4294967296)%Z by (apply Z.mod_pos_bound; lia).
  rewrite Z2N.id by lia. rewrite Z.mod_mod by lia.
  pose proof (Z.div_mod z 4294967296 ltac:(lia)) as D.
  destruct (Z.ltb_spec (z mod 4294967296) 2147483648).
  - rewrite <- (Z.mod_unique (z + 2147483648) 4294967296 (z / 4294967296)
              (z mod 4294967296 + 2147483648)); lia.
  - rewrite <- (Z.mod_unique (z + 2147483648) 4294967296 (z / 4294967296 + 1)
              (z mod 4294967296 - 2147483648)); lia.
Qed.
Lemma to_int_minus1 v : (to_int (Z.of_N v) =? -1)%Z = (v mod 2 ^ 32 =? 2 ^ 32 - 1).
Proof.
  unfold to_int, to_signed, to_word.
  change (2 ^ Z.of_N 32)%Z with 4294967296%Z. change (2 ^ 32) with 4294967296.
  change (2 ^ (Z.of_N 32 - 1))%Z with 2147483648%Z.
  assert (E : (Z.of_N v mod 4294967296)%Z = Z.of_N (v mod 4294967296)).
  { rewrite N2Z.inj_mod. reflexivity. }
  assert (v mod 4294967296 < 4294967296) by (apply N.mod_lt; lia).
  rewrite E, N2Z.id. rewrite (Z.mod_small (Z.of_N _)) by lia.
  destruct (Z.ltb_spec (Z.of_N (v mod 4294967296)) 2147483648); lia.
Qed.
Lemma ret_errno_value e : ret_errno e = stmt op_ret (ERRNO e).
Proof.
  unfold ret_errno, ERRNO. f_equal. unfold RET_ERRNO, RET_DATA.
  change 65535 with (N.ones 16). rewrite N.land_ones. change (2 ^ 16) with 65536.
  set (r := e mod 65536).
  assert (D : N.land 327680 r = 0).
  { assert (Hr : r = N.land e (N.ones 16)) by (rewrite N.land_ones; reflexivity).
    rewrite Hr, (N.land_comm e), N.land_assoc.
    change (N.land 327680 (N.ones 16)) with 0. apply N.land_0_l. }
  change 0x50000 with 327680.
  rewrite <- N.lxor_lor by exact D. rewrite <- N.add_nocarry_lxor by exact D. reflexivity.
Qed.
Lemma action_instr_value a : action_instr a = stmt op_ret (action_value a).
Proof. destruct a; reflexivity. Qed.
Lemma str_to_op_spec s o : str_to_op s = Some o <-> op_name s o.
Proof.
  unfold str_to_op.
  repeat match goal with |- context [String.eqb s ?x] =>
    destruct (String.eqb_spec s x); [subst; split; [intros H; injection H as <-; reflexivity|
      destruct o; intros H; try discriminate H; reflexivity]|] end.
  split; [discriminate|]. destruct o; intros H; contradiction.
Qed.
Lemma strtol_clip w s z : 0 < w -> decimal_integer s z ->
  exists e, strtol w 10 s = (clip w z, ""%string, e).
Proof.
  intros W H. apply decimal_integer_read in H. unfold strtol, clip.
  pose proof (pow2_split w W) as P2. destruct (pow2_pos w) as [P|P]; [|lia].
  destruct H as (neg & v & -> & ->).
  set (lim := (2 ^ (Z.of_N w - 1))%Z) in *. destruct neg.
  - destruct (Z.ltb_spec lim (Z.of_N v)); eexists; f_equal; f_equal; lia.
  - destruct (Z.ltb_spec (lim - 1) (Z.of_N v)); eexists; f_equal; f_equal; lia.
Qed.
Lemma strtol_decimal w s z e : 0 < w -> strtol w 10 s = (z, ""%string, e) -> s <> ""%string ->
  exists z', decimal_integer s z' /\ z = clip w z'.
Proof.
  intros W H N. destruct (read_int 10 s) as [[[neg v] rest]|] eqn:R.
  - assert (rest = ""%string) as ->.
    { unfold strtol in H. rewrite R in H. destruct neg.
      - destruct (2 ^ (Z.of_N w - 1) <? Z.of_N v)%Z; congruence.
      - destruct (2 ^ (Z.of_N w - 1) - 1 <? Z.of_N v)%Z; congruence. }
    assert (D : decimal_integer s (if neg then (- Z.of_N v)%Z else Z.of_N v)).
    { apply decimal_integer_read. eauto. }
    destruct (strtol_clip w s _ W D) as [e' X]. rewrite X in H. injection H as <- <-. eauto.
  - unfold strtol in H. rewrite R in H. congruence.
Qed.

(* ---- one atom ---- *)
Section Build.
  Variable b : build.
  Hypothesis LE : little (b_plat b) = true.
  Hypothesis NM : names_ok (b_consts b).

  Let w := wordN (b_plat b).
  Lemma w_pos : 0 < w. Proof. unfold w, wordN. destruct (bits64 (b_plat b)); reflexivity. Qed.

  Definition atom_code (eid : N) (a : atom) : list instr :=
    bpf_arg_comp (b_plat b) (at_op a) (at_arg a) (at_val a) eid.

  (* The atom a text denotes: functional version of reads_atom. *)
  Definition atom_of (s : string) : option atom :=
    match words c_sp s with
    | [a; o; c] =>
        if has_prefix "arg" a then
          match read_int 10 (sdrop 3 a) with
          | Some (neg, v, rest) =>
              if String.eqb rest "" then
                match str_to_op o, parse_constant w (b_consts b) c with
                | Some o', POk v' =>
                    Some (Atom (as_int (clip w (if neg : bool then (- Z.of_N v)%Z else Z.of_N v))) o' v')
                | _, _ => None
                end
              else None
          | None => None
          end
        else None
    | _ => None
    end.

  Lemma has_prefix_spec p s : has_prefix p s = true <-> exists r, s = (p ++ r)%string.
  Proof. apply prefix_spec. Qed.

  Lemma atom_of_spec s a : atom_of s = Some a <-> reads_atom b s a.
  Proof.
    unfold atom_of. split.
    - destruct (words c_sp s) as [|x [|o [|c [|]]]] eqn:W; try discriminate.
      destruct (has_prefix "arg" x) eqn:P; [|discriminate].
      apply has_prefix_spec in P. destruct P as [ds ->].
      change (sdrop 3 ("arg" ++ ds)) with ds.
      destruct (read_int 10 ds) as [[[neg v] rest]|] eqn:R; [|discriminate].
      destruct (String.eqb_spec rest ""); [subst rest|discriminate].
      destruct (str_to_op o) eqn:O; [|discriminate].
      destruct (parse_constant w (b_consts b) c) eqn:C; try discriminate.
      intros H. injection H as <-. econstructor.
      + apply words_spec. exact W.
      + apply decimal_integer_read. eauto.
      + apply str_to_op_spec; auto.
      + apply (parse_constant_spec w (b_consts b) w_pos NM). exact C.
    - intros H. inversion H as [s' ds z ops op c v RU DI ON CE]. subst.
      apply words_spec in RU. change " "%char with c_sp in RU. rewrite RU.
      change (has_prefix "arg" ("arg" ++ ds)) with (String.prefix "arg" ("arg" ++ ds)).
      rewrite prefix_app. change (sdrop 3 ("arg" ++ ds)) with ds.
      apply decimal_integer_read in DI. destruct DI as (neg & n & -> & ->).
      rewrite String.eqb_refl. apply str_to_op_spec in ON. rewrite ON.
      apply (parse_constant_spec w (b_consts b) w_pos NM) in CE. fold w. rewrite CE. reflexivity.
  Qed.

  Lemma compile_atom_eq labels nr grp s :
    compile_atom b labels nr grp s =
    match atom_of s with
    | None => CFail
    | Some a => do (id, l) <- group_end_lbl labels nr grp; COk (atom_code id a, l)
    end.
  Proof.
    unfold compile_atom, atom_of, atom_code.
    destruct (words c_sp s) as [|x [|o [|c [|]]]]; auto.
    destruct (has_prefix "arg" x); simpl negb; cbv iota; [|reflexivity].
    fold w. destruct (strtol w 10 (sdrop 3 x)) as [[z rest] e] eqn:S.
    destruct (read_int 10 (sdrop 3 x)) as [[[neg v] rest']|] eqn:R.
    - assert (rest' = rest) as ->.
      { unfold strtol in S. rewrite R in S. destruct neg.
        - destruct (2 ^ (Z.of_N w - 1) <? Z.of_N v)%Z; congruence.
        - destruct (2 ^ (Z.of_N w - 1) - 1 <? Z.of_N v)%Z; congruence. }
      destruct (String.eqb_spec rest "") as [E0|E0]; cbn [negb].
      + subst rest. destruct (String.eqb_spec "" (sdrop 3 x)) as [E|E].
        { rewrite <- E in R. discriminate R. }
        cbn [orb]. destruct (str_to_op o); [|reflexivity].
        destruct (parse_constant w (b_consts b) c); try reflexivity.
        assert (D : decimal_integer (sdrop 3 x) (if neg then (- Z.of_N v)%Z else Z.of_N v)).
        { apply decimal_integer_read. eauto. }
        destruct (strtol_clip w _ _ w_pos D) as [e' X]. rewrite X in S. injection S as <- _.
        cbn [at_op at_arg at_val]. rewrite <- to_int_as_int. reflexivity.
      + rewrite orb_true_r. reflexivity.
    - unfold strtol in S. rewrite R in S. injection S as _ <- _. rewrite String.eqb_refl. reflexivity.
  Qed.

  Lemma reads_atom_val s a : reads_atom b s a -> at_val a < 2 ^ w.
  Proof.
    intros H. inversion H; subst. simpl.
    eapply (const_in_range w (b_consts b) w_pos NM). eassumption.
  Qed.

  (* ---- one conjunction ---- *)
  Fixpoint mapM {A B} (f : A -> option B) (l : list A) : option (list B) :=
    match l with
    | [] => Some []
    | x :: t => match f x, mapM f t with Some y, Some ys => Some (y :: ys) | _, _ => None end
    end.
  Lemma mapM_spec {A B} (f : A -> option B) l ys :
    mapM f l = Some ys <-> Forall2 (fun x y => f x = Some y) l ys.
  Proof.
    revert ys. induction l as [|x l IH]; simpl; intros ys.
    - split; intros H; [injection H as <-; constructor|inversion H; auto].
    - split.
      + destruct (f x) eqn:F; [|discriminate]. destruct (mapM f l) eqn:M; [|discriminate].
        intros H. injection H as <-. constructor; auto. apply IH; auto.
      + intros H. inversion H; subst. rewrite H2. rewrite (proj2 (IH _) H4). reflexivity.
  Qed.
  Lemma Forall2_iff {A B} (P Q : A -> B -> Prop) l m :
    (forall x y, P x y <-> Q x y) -> (Forall2 P l m <-> Forall2 Q l m).
  Proof. intros E. split; induction 1; constructor; auto; apply E; auto. Qed.

  Lemma compile_atoms_ok labels nr grp ss c l' :
    compile_atoms b labels nr grp ss = COk (c, l') ->
    exists ats, mapM atom_of ss = Some ats /\ extends labels l' /\
      (ss <> [] -> exists eid, find_index (group_end_str nr grp) l' 0 = Some eid) /\
      (forall eid, find_index (group_end_str nr grp) l' 0 = Some eid -> c = flat_map (atom_code eid) ats).
  Proof.
    revert labels c l'. induction ss as [|s ss IH]; simpl; intros labels c l' H.
    - injection H as <- <-. exists []. repeat split; auto using extends_refl. intros []; auto.
    - apply cbind_ok in H. destruct H as ([c1 l1] & H1 & H).
      apply cbind_ok in H. destruct H as ([c2 l2] & H2 & H). injection H as <- <-.
      rewrite compile_atom_eq in H1. destruct (atom_of s) as [a|]; [|discriminate].
      apply cbind_ok in H1. destruct H1 as ([id l] & G & H1). injection H1 as <- <-.
      apply get_label_ok in G; [|apply group_end_len]. destruct G as [E1 F1].
      destruct (IH _ _ _ H2) as (ats & M & E2 & _ & C). rewrite M.
      assert (F2 : find_index (group_end_str nr grp) l2 0 = Some id) by (eapply find_index_ext; eauto).
      exists (a :: ats). split; [reflexivity|]. split; [eapply extends_trans; eauto|].
      split; [eauto|]. intros eid F. assert (eid = id) as -> by congruence.
      simpl. f_equal. apply C; auto.
  Qed.

  (* ---- the disjunction ---- *)
  Definition group_of (g : string) : option (list atom) := mapM atom_of (tokens "&&" g).

  Definition group_code (sid : N) (g : N * list atom) : list instr :=
    (flat_map (atom_code (fst g)) (snd g) ++ [jump_lbl sid; lbl (fst g)])%list.

  Lemma compile_groups_ok labels nr grp gs c l' :
    compile_groups b labels nr grp gs = COk (c, l') ->
    exists egs, mapM group_of gs = Some (map snd egs) /\ extends labels l' /\
      (forall sid lf, extends l' lf -> find_index (success_str nr) lf 0 = Some sid ->
        c = flat_map (group_code sid) egs).
  Proof.
    revert labels grp c l'. induction gs as [|g gs IH]; simpl; intros labels grp c l' H.
    - injection H as <- <-. exists []. repeat split; auto using extends_refl.
    - apply cbind_ok in H. destruct H as ([c1 l1] & H1 & H).
      apply cbind_ok in H. destruct H as ([sid l2] & H2 & H).
      apply cbind_ok in H. destruct H as ([eid l3] & H3 & H).
      apply cbind_ok in H. destruct H as ([c2 l4] & H4 & H).
      assert (HH : (c1 ++ [jump_lbl sid; lbl eid] ++ c2)%list = c /\ l4 = l').
      { injection H as <- <-. auto. } clear H. destruct HH as [<- <-].
      apply compile_atoms_ok in H1. destruct H1 as (ats & M & E1 & NE & C1).
      apply get_label_ok in H2; [|apply success_len]. destruct H2 as [E2 F2].
      apply get_label_ok in H3; [|apply group_end_len]. destruct H3 as [E3 F3].
      destruct (IH _ _ _ _ H4) as (egs & MG & E4 & C2).
      assert (c1 = flat_map (atom_code eid) ats) as ->.
      { destruct NE as [e F1].
        { apply (splits_ne "&&" g). apply tokens_spec; [discriminate|reflexivity]. }
        assert (F1' : find_index (group_end_str nr grp) l3 0 = Some e).
        { eapply find_index_ext; [|exact F1]. eapply extends_trans; eauto. }
        apply C1. congruence. }
      exists ((eid, ats) :: egs). split.
      { simpl. unfold group_of at 1. rewrite M, MG. reflexivity. }
      split. { eauto using extends_trans. }
      intros sid' lf E5 F. assert (sid' = sid) as ->.
      { assert (find_index (success_str nr) lf 0 = Some sid).
        { eapply find_index_ext; [|exact F2]. eauto using extends_trans. }
        congruence. }
      simpl. unfold group_code at 1. simpl fst; simpl snd. rewrite <- app_assoc. simpl app.
      rewrite <- (C2 sid lf E5 F). reflexivity.
  Qed.

  (* ---- return statements ---- *)
  Definition return_of (o : fopts) (s : string) : option N :=
    match words c_sp s with
    | x :: more =>
        if has_prefix "return" x then
          match more with
          | e :: _ =>
              match parse_constant w (b_consts b) e with
              | POk v => if (v mod 2 ^ 32 =? 2 ^ 32 - 1) then None else Some (ERRNO v)
              | _ => None
              end
          | [] => match fo_action o with
                  | ACT_LOG => None
                  | a => Some (action_value a)
                  end
          end
        else None
    | [] => None
    end.
  Lemma return_of_spec o s v : return_of o s = Some v <-> reads_return b o s v.
  Proof.
    unfold return_of. split.
    - destruct (words c_sp s) as [|x more] eqn:W; [discriminate|].
      destruct (has_prefix "return" x) eqn:P; [|discriminate].
      apply has_prefix_spec in P. destruct P as [r ->]. apply words_spec in W.
      destruct more as [|e more].
      + intros H. assert (fo_action o <> ACT_LOG /\ v = action_value (fo_action o)) as [A ->].
        { destruct (fo_action o); split; try discriminate; congruence. }
        eapply rr_default; eauto.
      + destruct (parse_constant w (b_consts b) e) eqn:C; try discriminate.
        destruct (N.eqb_spec (v0 mod 2 ^ 32) (2 ^ 32 - 1)); [discriminate|].
        intros H. injection H as <-. eapply rr_errno; eauto.
        apply (parse_constant_spec w (b_consts b) w_pos NM). exact C.
    - intros H. inversion H as [s' x e more v0 R C N|s' x R N]; subst; apply words_spec in R;
        change " "%char with c_sp in R; rewrite R;
        match goal with |- context [has_prefix ?p (?p ++ ?r)] =>
          change (has_prefix p (p ++ r)) with (String.prefix p (p ++ r)) end;
        rewrite prefix_app.
      + apply (parse_constant_spec w (b_consts b) w_pos NM) in C. fold w. rewrite C.
        destruct (N.eqb_spec (v0 mod 2 ^ 32) (2 ^ 32 - 1)); [contradiction|reflexivity].
      + destruct (fo_action o); auto. contradiction.
  Qed.
  Lemma compile_errno_eq o s : compile_errno b (fo_action o) s =
    match return_of o s with Some v => COk (stmt op_ret v) | None => CFail end.
  Proof.
    unfold compile_errno, return_of. destruct (words c_sp s) as [|x more]; auto.
    destruct (has_prefix "return" x); cbn [negb]; auto. destruct more as [|e more].
    - destruct (fo_action o); auto.
    - fold w. destruct (parse_constant w (b_consts b) e); auto. rewrite to_int_minus1.
      destruct (v mod 2 ^ 32 =? 2 ^ 32 - 1); auto. rewrite ret_errno_value. reflexivity.
  Qed.

  (* ---- the text after the colon ---- *)
  Definition default_or_return (o : fopts) (l : list string) : option N :=
    match l with
    | [] => Some (action_value (fo_action o))
    | r :: _ => return_of o r
    end.
  Definition body_of (o : fopts) (s : string) : option rule :=
    if String.eqb s "1" then Some Allow
    else if String.eqb s "" then None
    else if has_prefix "return" s then
      match return_of o s with Some v => Some (Return v) | None => None end
    else match words ";"%char s with
         | [] => Some (Cond [] (action_value (fo_action o)))
         | flt :: rest =>
             match mapM group_of (tokens "||" flt), default_or_return o rest with
             | Some alts, Some v => Some (Cond alts v)
             | _, _ => None
             end
         end.

  Lemma groups_spec flt alts :
    mapM group_of (tokens "||" flt) = Some alts <->
    exists gs ass, splits "||" flt gs /\ Forall2 (splits "&&") gs ass /\
      Forall2 (Forall2 (reads_atom b)) ass alts.
  Proof.
    rewrite mapM_spec. split.
    - intros H. exists (tokens "||" flt), (map (tokens "&&") (tokens "||" flt)).
      split; [apply tokens_spec; [discriminate|reflexivity]|].
      induction H as [|g ats gs alts' Hg H IH]; simpl; [split; constructor|].
      destruct IH as [IH1 IH2]. split; constructor; auto.
      + apply tokens_spec; [discriminate|reflexivity].
      + unfold group_of in Hg. apply mapM_spec in Hg.
        eapply Forall2_iff; [|exact Hg]. intros x y. symmetry. apply atom_of_spec.
    - intros (gs & ass & S & F1 & F2). apply tokens_spec in S; [|discriminate]. rewrite S. clear S.
      revert alts F2. induction F1 as [|g ss gs ass Hg F1 IH]; intros alts F2; inversion F2; subst; constructor; auto.
      unfold group_of. apply tokens_spec in Hg; [|discriminate]. rewrite Hg. apply mapM_spec.
      eapply Forall2_iff; [|eassumption]. intros x z. apply atom_of_spec.
  Qed.

  Lemma body_of_spec o s r : body_of o s = Some r <-> reads_body b o s r.
  Proof.
    unfold body_of. split.
    - destruct (String.eqb_spec s "1") as [->|N1]; [intros H; injection H as <-; constructor|].
      destruct (String.eqb_spec s "") as [->|N0]; [discriminate|].
      destruct (has_prefix "return" s) eqn:P.
      + apply has_prefix_spec in P. destruct P as [x ->].
        destruct (return_of o _) eqn:R; [|discriminate]. intros H. injection H as <-.
        constructor. apply return_of_spec; auto.
      + assert (NP : forall x, s <> ("return" ++ x)%string) by (apply prefix_false; exact P).
        destruct (words ";"%char s) as [|flt rest] eqn:W; apply words_spec in W.
        * intros H. injection H as <-. apply rb_semicolons; auto.
        * destruct (mapM group_of (tokens "||" flt)) as [alts|] eqn:M; [|discriminate].
          apply groups_spec in M. destruct M as (gs & ass & M1 & M2 & M3).
          destruct rest as [|rt more]; cbn [default_or_return].
          { intros H. injection H as <-. eapply rb_cond; eauto. }
          destruct (return_of o rt) eqn:R; [|discriminate]. intros H. injection H as <-.
          eapply rb_cond_return; eauto. apply return_of_spec; auto.
    - intros H. destruct H as [|x v H|s flt gs ass alts N1 N0 NP W S F1 F2|s flt rt more gs ass alts v N1 N0 NP W S F1 F2 R|s N0 W].
      + reflexivity.
      + destruct (String.eqb_spec ("return" ++ x) "1"); [discriminate|].
        destruct (String.eqb_spec ("return" ++ x) ""); [discriminate|].
        change (has_prefix "return" ("return" ++ x)) with (String.prefix "return" ("return" ++ x)).
        rewrite prefix_app. apply return_of_spec in H. rewrite H. reflexivity.
      + apply seqb_false in N1, N0. rewrite N1, N0.
        apply prefix_false in NP. unfold has_prefix. rewrite NP.
        apply words_spec in W. rewrite W. assert (M : mapM group_of (tokens "||" flt) = Some alts).
        { apply groups_spec. eauto. }
        rewrite M. reflexivity.
      + apply seqb_false in N1, N0. rewrite N1, N0.
        apply prefix_false in NP. unfold has_prefix. rewrite NP.
        apply words_spec in W. rewrite W. assert (M : mapM group_of (tokens "||" flt) = Some alts).
        { apply groups_spec. eauto. }
        apply return_of_spec in R. rewrite M. cbn [default_or_return]. rewrite R. reflexivity.
      + assert (A : all_chars (fun x => x = ";"%char) s) by (inversion W; auto).
        apply words_spec in W.
        destruct (String.eqb_spec s "1") as [->|N1].
        { specialize (A 0%nat "1"%char eq_refl). discriminate. }
        destruct (String.eqb_spec s "") as [->|N00]; [contradiction|].
        destruct (has_prefix "return" s) eqn:P.
        { apply has_prefix_spec in P. destruct P as [x ->].
          specialize (A 0%nat "r"%char eq_refl). discriminate. }
        rewrite W. reflexivity.
  Qed.

  (* ---- the code of one rule ---- *)
  Inductive rule_code : rule -> list instr -> Prop :=
  | rc_return v : rule_code (Return v) [stmt op_ret v]
  | rc_cond sid egs v :
      rule_code (Cond (map snd egs) v)
                (flat_map (group_code sid) egs ++ [stmt op_ret v; lbl sid; ret_allow]).

  Lemma compile_policy_line_ok o labels nr entry s blk l' :
    s <> "1"%string ->
    compile_policy_line b labels nr entry (fo_action o) s = COk (blk, l') ->
    exists r body, body_of o s = Some r /\ blk = lbl entry :: body /\ rule_code r body /\ extends labels l'.
  Proof.
    intros N1. unfold compile_policy_line, body_of. apply seqb_false in N1. rewrite N1.
    destruct (String.eqb s ""); [discriminate|].
    destruct (has_prefix "return" s).
    - intros H. apply cbind_ok in H. destruct H as (i & H1 & H). rewrite compile_errno_eq in H1.
      destruct (return_of o s) as [v|]; [|discriminate].
      assert ([lbl entry; i] = blk /\ labels = l') as [<- <-] by (split; congruence).
      exists (Return v), [stmt op_ret v]. repeat split; auto using extends_refl; try constructor. congruence.
    - intros H. apply cbind_ok in H. destruct H as ([c1 l1] & H1 & H).
      apply cbind_ok in H. destruct H as (r & H2 & H).
      apply cbind_ok in H. destruct H as ([sid l2] & H3 & H).
      assert ((lbl entry :: c1 ++ [r] ++ [lbl sid; ret_allow])%list = blk /\ l2 = l') as [<- <-].
      { split; congruence. } clear H.
      apply compile_groups_ok in H1. destruct H1 as (egs & M & E1 & C).
      apply get_label_ok in H3; [|apply success_len]. destruct H3 as [E2 F].
      assert (exists v, r = stmt op_ret v /\
         match words ";"%char s with [] => v = action_value (fo_action o)
         | _ :: rest => default_or_return o rest = Some v end) as (v & -> & V).
      { destruct (words ";"%char s) as [|flt [|rt more]].
        - injection H2 as <-. rewrite action_instr_value. eauto.
        - injection H2 as <-. rewrite action_instr_value. simpl. eauto.
        - rewrite compile_errno_eq in H2. simpl. destruct (return_of o rt) as [v|]; [|discriminate].
          injection H2 as <-. eauto. }
      assert (c1 = flat_map (group_code sid) egs) as -> by eauto.
      exists (Cond (map snd egs) v), (flat_map (group_code sid) egs ++ [stmt op_ret v] ++ [lbl sid; ret_allow])%list.
      split.
      { destruct (words ";"%char s) as [|flt rest]; simpl in M.
        - injection M as M. destruct egs; [|discriminate]. subst. reflexivity.
        - rewrite M, V. reflexivity. }
      split; [reflexivity|]. split; [constructor|eauto using extends_trans].
  Qed.

  (* ---- what that code answers ---- *)
  Lemma labels_of_app p q : labels_of (p ++ q) = (labels_of p ++ labels_of q)%list.
  Proof. unfold labels_of. rewrite filter_app, map_app. reflexivity. Qed.
  Lemma labels_plain p : forallb plain p = true -> labels_of p = [].
  Proof.
    induction p as [|i p IH]; simpl; auto. intros H. apply andb_true_iff in H. destruct H as [H1 H2].
    unfold labels_of. simpl. unfold plain in H1. apply andb_true_iff in H1. destruct H1 as [_ H1].
    apply negb_true_iff in H1. rewrite H1. apply IH; auto.
  Qed.
  Lemma labels_atom eid a : labels_of (atom_code eid a) = [].
  Proof.
    unfold atom_code. destruct (arg_comp_shape (b_plat b) (at_op a) (at_arg a) (at_val a) eid) as (pre & -> & P).
    rewrite labels_of_app, labels_plain by auto. reflexivity.
  Qed.
  Lemma labels_atoms eid ats : labels_of (flat_map (atom_code eid) ats) = [].
  Proof. induction ats; simpl; auto. rewrite labels_of_app, labels_atom. auto. Qed.
  Lemma labels_group sid g : labels_of (group_code sid g) = [fst g].
  Proof. unfold group_code. rewrite labels_of_app, labels_atoms. reflexivity. Qed.
  Lemma labels_groups sid egs : labels_of (flat_map (group_code sid) egs) = map fst egs.
  Proof. induction egs; simpl; auto. rewrite labels_of_app, labels_group, IHegs. reflexivity. Qed.

  Lemma after_label_skip id pre post : ~ In id (labels_of pre) ->
    after_label id (pre ++ post) = after_label id post.
  Proof.
    induction pre as [|i pre IH]; simpl; auto. intros H. unfold labels_of in H. simpl in H.
    destruct (is_label i) eqn:L; simpl.
    - simpl in H. destruct (N.eqb_spec (k i) id); [exfalso; auto|]. apply IH. auto.
    - apply IH. auto.
  Qed.

  Definition atom_ok (a : atom) : Prop := (0 <= at_arg a <= 5)%Z /\ at_val a < 2 ^ w.
  Definition rule_ok (r : rule) : Prop :=
    match r with Cond alts _ => Forall (Forall atom_ok) alts | _ => True end.

  Section Run.
    Variable d : sdata.
    Hypothesis D : sd_ok d.
    Let b64 := bits64 (b_plat b).

    Lemma atoms_exec sid eid ats rest : Forall atom_ok ats -> forall s,
      exists s', exs true (flat_map (atom_code eid) ats ++ jump_lbl sid :: lbl eid :: rest) d s =
        exs true (if forallb (atom_holds b64 d) ats then jump_lbl sid :: lbl eid :: rest else rest) d s'.
    Proof.
      induction 1 as [|a ats [A1 A2] F IH]; intros s.
      - exists s. reflexivity.
      - cbn [flat_map forallb]. rewrite <- app_assoc. unfold atom_code at 1.
        destruct (arg_comp_exs d (b_plat b) (at_op a) (at_arg a) (at_val a) eid
          (flat_map (atom_code eid) ats ++ jump_lbl sid :: lbl eid :: rest) s LE A1 A2 D) as [s1 ->].
        change (op_holds (at_op a) (arg_value (bits64 (b_plat b)) d (at_arg a)) (at_val a))
          with (atom_holds b64 d a).
        destruct (atom_holds b64 d a); cbn [andb].
        + apply IH.
        + rewrite exs_jump, after_label_skip by (rewrite labels_atoms; auto).
          cbn [after_label]. change (is_label (jump_lbl sid)) with false. rewrite is_label_lbl. simpl.
          rewrite N.eqb_refl. eauto.
    Qed.

    Lemma groups_exec sid v egs post : 
      NoDup (map fst egs ++ [sid]) -> Forall (Forall atom_ok) (map snd egs) -> forall s,
      exs true (flat_map (group_code sid) egs ++ stmt op_ret v :: lbl sid :: ret_allow :: post) d s =
      VRet (if existsb (forallb (atom_holds b64 d)) (map snd egs) then ALLOW else v).
    Proof.
      induction egs as [|[eid ats] egs IH]; intros ND F s.
      - apply exs_ret.
      - cbn [flat_map map existsb]. cbn [map app] in ND. inversion ND as [|x l NI ND' E]; subst.
        cbn [map] in F. inversion F as [|x l F1 F2]; subst. cbn [snd fst] in *.
        unfold group_code at 1. cbn [fst snd]. rewrite <- !app_assoc. cbn [app].
        destruct (atoms_exec sid eid ats
          (flat_map (group_code sid) egs ++ stmt op_ret v :: lbl sid :: ret_allow :: post) F1 s) as [s1 ->].
        destruct (forallb (atom_holds b64 d) ats); cbn [orb].
        + rewrite exs_jump.
          change (lbl eid :: flat_map (group_code sid) egs ++ stmt op_ret v :: lbl sid :: ret_allow :: post)%list
            with ((lbl eid :: flat_map (group_code sid) egs) ++ stmt op_ret v :: lbl sid :: ret_allow :: post)%list.
          rewrite after_label_skip.
          * cbn [after_label]. change (is_label (stmt op_ret v)) with false. rewrite is_label_lbl.
            cbn [andb k]. change (k (lbl sid)) with sid. rewrite N.eqb_refl. apply exs_ret.
          * change (labels_of (lbl eid :: flat_map (group_code sid) egs))
              with (eid :: labels_of (flat_map (group_code sid) egs)).
            rewrite labels_groups. intros [X|X].
            { subst. apply NI. apply in_or_app. right. left. reflexivity. }
            apply NoDup_remove_2 in ND'. rewrite app_nil_r in ND'. auto.
        + apply IH; auto.
    Qed.

    Lemma rule_exec r body post s : rule_code r body -> rule_ok r -> NoDup (labels_of body) ->
      exs true (body ++ post) d s = VRet (rule_value b64 d r).
    Proof.
      intros C K ND. destruct C as [v|sid egs v].
      - apply exs_ret.
      - rewrite labels_of_app, labels_groups in ND. rewrite <- app_assoc. cbn [app].
        apply groups_exec; auto.
    Qed.
  End Run.
End Build.
