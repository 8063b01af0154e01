(* From a compiled policy to the answers of the filter. *)
From Verif Require Export P_Policy.
From Coq Require Import ZifyBool ZifyNat ZifyN.
Local Open Scope N_scope.

Section Build.
  Variable b : build.
  Variable o : fopts.
  Hypothesis LE : little (b_plat b) = true.
  Hypothesis NM : names_ok (b_consts b).

  (* ---- layout of the generated code ---- *)
  Definition item := (entry * option (N * list instr))%type.
  Definition head_of (i : item) : list instr :=
    match snd i with
    | None => bpf_allow_syscall (e_nr (fst i))
    | Some (id, _) => bpf_allow_syscall_args (e_nr (fst i)) id
    end.
  Definition arg_of (i : item) : list instr :=
    match snd i with
    | None => []
    | Some (id, body) => lbl id :: body
    end.
  Definition item_ok (i : item) : Prop :=
    (match snd i with
     | None => e_rule (fst i) = Allow
     | Some (id, body) => rule_code b (e_rule (fst i)) body
     end) /\ assoc (e_name (fst i)) (b_syscalls b) = Some (e_nr (fst i)).

  Definition seen_ok (seen : list N) (pol : policy) : Prop :=
    forall n nr ind, lookup_syscall (b_syscalls b) n = Some (nr, ind) ->
      (In ind seen <-> In n (map e_name pol)).
  Definition laid (st : cstate) (pol : policy) : Prop :=
    (exists items,
      cs_head st = (prologue b o ++ flat_map head_of items)%list /\
      cs_args st = flat_map arg_of items /\
      map fst items = pol /\ Forall item_ok items) /\
    seen_ok (cs_seen st) pol.

  Definition good_step (st st' : cstate) (p : policy) : Prop :=
    (forall pol, laid st pol -> laid st' (pol ++ p)) /\
    (fo_allow_dup o = false -> cs_bad st' = false -> cs_bad st = false /\
       forall pol, laid st pol -> NoDup (map e_name pol) -> NoDup (map e_name (pol ++ p))).

  Lemma good_refl st : good_step st st [].
  Proof.
    split; intros; [rewrite app_nil_r; auto|]. split; auto. intros. rewrite app_nil_r. auto.
  Qed.
  Lemma good_trans s1 s2 s3 p q : good_step s1 s2 p -> good_step s2 s3 q -> good_step s1 s3 (p ++ q).
  Proof.
    intros [A1 A2] [B1 B2]. split.
    - intros pol L. rewrite app_assoc. auto.
    - intros AD BAD. destruct (B2 AD BAD) as [X Y]. destruct (A2 AD X) as [X' Y'].
      split; auto. intros pol L ND. rewrite app_assoc. apply Y; auto.
  Qed.

  Lemma NoDup_snoc {A} (l : list A) x : NoDup l -> ~ In x l -> NoDup (l ++ [x]).
  Proof.
    intros ND NI. induction l as [|y l IH]; simpl; [constructor; auto; constructor|].
    inversion ND; subst. constructor.
    - rewrite in_app_iff. intros [X|[X|[]]]; [auto|]. subst. apply NI. left. reflexivity.
    - apply IH; auto. intros X. apply NI. right. exact X.
  Qed.

  Lemma existsb_In x l : existsb (N.eqb x) l = true <-> In x l.
  Proof.
    rewrite existsb_exists. split.
    - intros (y & H & E). apply N.eqb_eq in E. subst. auto.
    - intros H. exists x. split; auto. apply N.eqb_refl.
  Qed.

  (* Adding one item for a name. *)
  Lemma good_item st nm nr ind r it ls :
    lookup_syscall (b_syscalls b) nm = Some (nr, ind) ->
    item_ok (Entry nm nr r, it) ->
    good_step st
      (CS (cs_head st ++ head_of (Entry nm nr r, it)) (cs_args st ++ arg_of (Entry nm nr r, it)) ls
          (if existsb (N.eqb ind) (cs_seen st) then cs_seen st else ind :: cs_seen st)
          (cs_bad st || (existsb (N.eqb ind) (cs_seen st) && negb (fo_allow_dup o))))
      [Entry nm nr r].
  Proof.
    intros L OK. split.
    - intros pol [(items & H1 & H2 & H3 & H4) SE]. split.
      + exists (items ++ [(Entry nm nr r, it)])%list. cbn [cs_head cs_args].
        rewrite H1, H2, !flat_map_app, map_app. cbn [flat_map]. rewrite !app_nil_r, <- !app_assoc.
        split; [reflexivity|]. split; [reflexivity|]. split; [rewrite <- H3; reflexivity|].
        apply Forall_app. auto.
      + intros n nr' ind' L'. cbn [cs_seen]. rewrite map_app, in_app_iff. cbn [map In e_name].
        specialize (SE n nr' ind' L').
        destruct (existsb (N.eqb ind) (cs_seen st)) eqn:X.
        * apply existsb_In in X. split; [tauto|]. intros [Y|[Y|[]]]; [tauto|]. subst n.
          rewrite L in L'. injection L' as <- <-. exact X.
        * cbn [In]. split.
          { intros [Y|Y]; [|tauto]. subst ind'. right. left. eapply lookup_inj; eauto. }
          { intros [Y|[Y|[]]]; [tauto|]. subst n. rewrite L in L'. injection L' as <- <-. auto. }
    - intros AD. cbn [cs_bad]. rewrite AD. cbn [negb]. rewrite andb_true_r.
      intros BAD. apply orb_false_iff in BAD. destruct BAD as [B1 B2]. split; auto.
      intros pol [_ SE] ND. rewrite map_app. cbn [map e_name]. apply NoDup_snoc; auto.
      intros X. apply (SE _ _ _ L) in X. apply existsb_In in X. congruence.
  Qed.

  Lemma compile_rule_ok st s st' : compile_rule b o st s = COk st' ->
    exists p, rule_of b o s = Some p /\ good_step st st' p.
  Proof.
    unfold compile_rule, rule_of. destruct (strsep ":"%char s) as [name [body|]]; [|discriminate].
    cbv zeta. destruct (String.eqb (strip body) ""); [discriminate|].
    destruct (lookup_syscall (b_syscalls b) (strip name)) as [[nr ind]|] eqn:L.
    - assert (AS : assoc (strip name) (b_syscalls b) = Some nr) by (eapply lookup_from_spec; exact L).
      rewrite AS. destruct (String.eqb_spec (strip body) "1") as [E|N1].
      + intros H. injection H as <-. rewrite E. change (body_of b o "1") with (Some Allow).
        exists [Entry (strip name) nr Allow]. split; auto.
        pose proof (good_item st (strip name) nr ind Allow None (cs_labels st) L) as G.
        cbn [head_of arg_of snd fst e_nr] in G. rewrite app_nil_r in G. apply G.
        split; [reflexivity|exact AS].
      + destruct (bpf_label_id (cs_labels st) (strip name)) as [oid labels1].
        set (id := match oid with Some i => i | None => 4294967295 end). intros H.
        apply cbind_ok in H. destruct H as ([blk labels2] & H1 & H). 
        apply compile_policy_line_ok in H1; auto. destruct H1 as (r & bd & B & -> & RC & _).
        rewrite B. exists [Entry (strip name) nr r]. split; auto. injection H as <-.
        apply (good_item st (strip name) nr ind r (Some (id, bd)) labels2 L).
        split; [exact RC|exact AS].
    - apply lookup_from_none in L. rewrite L.
      destruct (fo_allow_logging o); [|discriminate]. intros H. injection H as <-.
      exists []. split; auto. apply good_refl.
  Qed.

  Lemma compile_line_eq include st raw : compile_line b o include st raw =
    let s := strip raw in
    if String.eqb s "" then COk st
    else if starts "#"%char s then COk st
    else if starts "@"%char s then
      if has_prefix "@frequency" s then COk st
      else match parse_include s with None => CFail | Some f => include f st end
    else compile_rule b o st s.
  Proof.
    unfold compile_line. cbv zeta. destruct (strip raw) as [|c t]; [reflexivity|].
    destruct c as [b0 b1 b2 b3 b4 b5 b6 b7].
    destruct b0, b1, b2, b3, b4, b5, b6, b7; reflexivity.
  Qed.

  Definition good_include (include : string -> cstate -> cres cstate) (incl : string -> option policy) : Prop :=
    forall f st st', include f st = COk st' -> exists p, incl f = Some p /\ good_step st st' p.

  Lemma compile_line_ok include incl st raw st' : good_include include incl ->
    compile_line b o include st raw = COk st' ->
    exists p, line_of b o incl raw = Some p /\ good_step st st' p.
  Proof.
    intros GI. rewrite compile_line_eq. unfold line_of. cbv zeta.
    destruct (String.eqb (strip raw) "").
    { intros H. injection H as <-. exists []. split; auto. apply good_refl. }
    destruct (starts "#"%char (strip raw)).
    { intros H. injection H as <-. exists []. split; auto. apply good_refl. }
    destruct (starts "@"%char (strip raw)).
    - destruct (has_prefix "@frequency" (strip raw)).
      { intros H. injection H as <-. exists []. split; auto. apply good_refl. }
      destruct (parse_include (strip raw)) as [f|]; [|discriminate]. apply GI.
    - apply compile_rule_ok.
  Qed.
  Lemma compile_lines_ok include incl ls : good_include include incl -> forall st st',
    compile_lines b o include st ls = COk st' ->
    exists p, lines_policy b o incl ls = Some p /\ good_step st st' p.
  Proof.
    intros GI. induction ls as [|l ls IH]; simpl; intros st st' H.
    - injection H as <-. exists []. split; auto. apply good_refl.
    - apply cbind_ok in H. destruct H as (st1 & H1 & H2).
      eapply compile_line_ok in H1; eauto. destruct H1 as (p & -> & G1).
      apply IH in H2. destruct H2 as (q & -> & G2).
      exists (p ++ q)%list. split; auto. eapply good_trans; eauto.
  Qed.
  Lemma compile_stream_ok include incl f : good_include include incl -> forall st st',
    compile_stream b o include st f = COk st' ->
    exists p, stream_policy b o incl f = Some p /\ good_step st st' p.
  Proof.
    intros GI st st'. unfold compile_stream, stream_policy. intros H.
    apply cbind_ok in H. destruct H as (st1 & H1 & H2).
    destruct (s_ioerr f); [discriminate|]. injection H2 as <-.
    eapply compile_lines_ok in H1; eauto. destruct H1 as (p & -> & G). eauto.
  Qed.
  Lemma good_include1 : good_include include1 incl1.
  Proof. intros f st st' H. discriminate. Qed.
  Lemma good_include0 fs : good_include (include0 b o fs) (incl0 b o fs).
  Proof.
    intros name st st'. unfold include0, incl0. destruct (fs name) as [f|]; [|discriminate].
    intros H. apply cbind_ok in H. destruct H as (st1 & H1 & H2).
    eapply compile_stream_ok in H1; [|apply good_include1]. destruct H1 as (p & -> & [G1 G2]).
    exists p. split; auto. destruct (cs_bad st1) eqn:BAD; [discriminate|]. injection H2 as <-.
    split.
    - intros pol L. apply G1 in L; auto. 
    - intros AD BD. cbn [cs_bad] in BD. split; auto.
      intros pol L ND. destruct (G2 AD eq_refl) as [_ Y]. apply Y; auto.
  Qed.

  (* ---- running the layout ---- *)
  Section Run.
    Variable d : sdata.
    Hypothesis D : sd_ok d.
    Let b64 := bits64 (b_plat b).

    Lemma allow_exec nr rest s : exs true (bpf_allow_syscall nr ++ rest) d s =
      if acc s =? nr then VRet ALLOW else exs true rest d s.
    Proof.
      unfold bpf_allow_syscall. cbn [app]. rewrite exs_jeq. destruct (acc s =? nr).
      - change (N.to_nat 0) with 0%nat. cbn [skipn]. apply exs_ret.
      - change (N.to_nat 1) with 1%nat. cbn [skipn]. reflexivity.
    Qed.
    Lemma args_exec nr id rest s : exs true (bpf_allow_syscall_args nr id ++ rest) d s =
      if acc s =? nr then
        match after_label id rest with Some r => exs true r d s | None => VFault end
      else exs true rest d s.
    Proof.
      unfold bpf_allow_syscall_args. cbn [app]. rewrite exs_jeq. destruct (acc s =? nr).
      - change (N.to_nat 0) with 0%nat. cbn [skipn]. apply exs_jump.
      - change (N.to_nat 1) with 1%nat. cbn [skipn]. reflexivity.
    Qed.

    Lemma labels_head i : labels_of (head_of i) = [].
    Proof. unfold head_of. destruct (snd i) as [[id body]|]; reflexivity. Qed.
    Lemma labels_heads l : labels_of (flat_map head_of l) = [].
    Proof. induction l; simpl; auto. rewrite labels_of_app, labels_head. auto. Qed.

    Lemma find_block all e id body post : In (e, Some (id, body)) all ->
      NoDup (labels_of (flat_map arg_of all)) ->
      exists r', after_label id (flat_map arg_of all ++ post) = Some (body ++ r')%list /\ NoDup (labels_of body).
    Proof.
      intros IN ND. apply in_split in IN. destruct IN as (l1 & l2 & ->).
      rewrite flat_map_app in *. cbn [flat_map] in *. unfold arg_of at 2 in ND. unfold arg_of at 2.
      cbn [snd] in *. rewrite !labels_of_app in ND.
      change (labels_of (lbl id :: body)) with (id :: labels_of body) in ND.
      rewrite <- !app_assoc. cbn [app].
      exists (flat_map arg_of l2 ++ post)%list. split.
      - rewrite after_label_first; auto. cbn [app] in ND. apply NoDup_remove_2 in ND.
        intros X. apply ND. apply in_or_app. auto.
      - cbn [app] in ND. apply NoDup_remove_1 in ND.
        assert (S : forall A (x y z : list A), NoDup (x ++ y ++ z) -> NoDup y).
        { intros A x y z. induction x as [|h x IHx]; simpl.
          - intros X. induction y as [|g y IHy]; [constructor|]. cbn [app] in X. inversion X; subst.
            constructor; auto. intros Y. apply H1. apply in_or_app; auto.
          - intros X. inversion X; auto. }
        exact (S _ _ _ _ ND).
    Qed.

    Lemma walk all items def s :
      (forall x, In x items -> In x all) -> Forall item_ok all -> NoDup (labels_of (flat_map arg_of all)) ->
      acc s = sd_nr d -> (forall r, find_rule (sd_nr d) (map fst items) = Some r -> rule_ok b r) ->
      exs true (flat_map head_of items ++ stmt op_ret def :: flat_map arg_of all) d s =
      VRet (match find_rule (sd_nr d) (map fst items) with
            | Some r => rule_value b64 d r
            | None => def
            end).
    Proof.
      intros SUB OK1 ND A OK2. induction items as [|[e it] items IH].
      - apply exs_ret.
      - cbn [flat_map map find_rule fst] in *.
        assert (IN : In (e, it) all) by (apply SUB; left; reflexivity).
        pose proof (proj1 (Forall_forall _ _) OK1 _ IN) as [K1 _]. cbn [fst snd] in K1.
        rewrite <- app_assoc. unfold head_of at 1. cbn [snd fst].
        destruct it as [[id body]|].
        + rewrite args_exec, A, N.eqb_sym. destruct (e_nr e =? sd_nr d); [|apply IH; [intros; apply SUB; right; auto|exact OK2]].
          change (flat_map head_of items ++ stmt op_ret def :: flat_map arg_of all)%list
            with (flat_map head_of items ++ [stmt op_ret def] ++ flat_map arg_of all)%list.
          rewrite app_assoc, after_label_skip.
          * destruct (find_block all e id body [] IN ND) as (r' & F & NB). rewrite app_nil_r in F.
            rewrite F. apply rule_exec; auto.
          * rewrite labels_of_app, labels_heads. auto.
        + rewrite allow_exec, A, N.eqb_sym. destruct (e_nr e =? sd_nr d); [|apply IH; [intros; apply SUB; right; auto|exact OK2]].
          rewrite K1. reflexivity.
    Qed.

    Definition nr_of_name (n : string) : N :=
      match assoc n (b_syscalls b) with Some nr => nr | None => 4294967295 end.
    Lemma allow_selected_exec names rest s : acc s = sd_nr d ->
      exs true (allow_selected b names ++ rest) d s =
      if existsb (fun n => nr_of_name n =? sd_nr d) names then VRet ALLOW else exs true rest d s.
    Proof.
      intros A. induction names as [|n names IH]; [reflexivity|].
      unfold allow_selected. cbn [flat_map existsb]. rewrite <- app_assoc.
      assert (E : match lookup_syscall (b_syscalls b) n with Some (nr, _) => nr | None => 4294967295 end = nr_of_name n).
      { unfold nr_of_name. destruct (lookup_syscall (b_syscalls b) n) as [[nr ind]|] eqn:L.
        - apply lookup_from_spec in L. rewrite L. reflexivity.
        - apply lookup_from_none in L. rewrite L. reflexivity. }
      rewrite E, allow_exec, A, (N.eqb_sym (sd_nr d)). destruct (nr_of_name n =? sd_nr d); [reflexivity|exact IH].
    Qed.

    Definition optioned : bool :=
      (fo_allow_syscalls_for_logging o && existsb (fun n => nr_of_name n =? sd_nr d) (b_log b)) ||
      (fo_libc_compat o && existsb (fun n => nr_of_name n =? sd_nr d) (b_libc b)).
    Lemma listed_spec names : existsb (fun n => nr_of_name n =? sd_nr d) names = true <->
      listed (b_syscalls b) names (sd_nr d).
    Proof.
      rewrite existsb_exists. unfold listed, number_of. split; intros (n & I & H); exists n; split; auto.
      - apply N.eqb_eq in H. unfold nr_of_name in H. destruct (assoc n (b_syscalls b)) as [nr|] eqn:E.
        + left. apply assoc_spec. congruence.
        + right. split; [apply assoc_none; auto|]. rewrite <- H. reflexivity.
      - apply N.eqb_eq. unfold nr_of_name. destruct H as [H|[H1 H2]].
        + apply assoc_spec in H. rewrite H. reflexivity.
        + apply assoc_none in H1. rewrite H1. symmetry. exact H2.
    Qed.
    Lemma optioned_spec : optioned = true <-> allowed_by_option b o (sd_nr d).
    Proof.
      unfold optioned, allowed_by_option. rewrite orb_true_iff, !andb_true_iff, !listed_spec. tauto.
    Qed.

    Lemma prologue_exec rest : exists s, acc s = sd_nr d /\
      exs true (prologue b o ++ rest) d vm0 =
      if negb (sd_arch d =? arch_no (b_plat b)) then VRet KILL_THREAD
      else if optioned then VRet ALLOW
      else exs true rest d s.
    Proof.
      exists (VM (sd_nr d) (fun _ => None)). split; auto.
      unfold prologue, bpf_validate_arch. cbn [app]. rewrite exs_ld.
      change (sd_word true d 4) with (Some (sd_arch d)). cbv iota. rewrite exs_jeq. cbn [acc].
      destruct (sd_arch d =? arch_no (b_plat b)); cbn [negb].
      - change (N.to_nat 1) with 1%nat. cbn [skipn]. unfold load_syscall_nr. rewrite exs_ld.
        change (sd_word true d 0) with (Some (sd_nr d)). cbv iota. cbn [mem vm0].
        rewrite <- !app_assoc. unfold optioned.
        destruct (fo_allow_syscalls_for_logging o); cbn [andb].
        + rewrite allow_selected_exec by reflexivity.
          destruct (existsb _ (b_log b)); [reflexivity|]. cbn [orb].
          destruct (fo_libc_compat o); cbn [andb]; [|reflexivity].
          rewrite allow_selected_exec by reflexivity. reflexivity.
        + cbn [app orb]. destruct (fo_libc_compat o); cbn [andb]; [|reflexivity].
          rewrite allow_selected_exec by reflexivity. reflexivity.
      - change (N.to_nat 0) with 0%nat. cbn [skipn]. apply exs_ret.
    Qed.
  End Run.

  (* ---- the whole compiler ---- *)
  Lemma laid0 : laid (CS (prologue b o) [] [] [] false) [].
  Proof.
    split.
    - exists []. cbn. rewrite app_nil_r. repeat split; constructor.
    - intros n nr ind L. cbn. tauto.
  Qed.

  Lemma labels_selected names : labels_of (allow_selected b names) = [].
  Proof.
    induction names as [|n names IH]; [reflexivity|]. unfold allow_selected. cbn [flat_map].
    rewrite labels_of_app. exact IH.
  Qed.
  Lemma labels_prologue : labels_of (prologue b o) = [].
  Proof.
    unfold prologue. rewrite !labels_of_app.
    destruct (fo_allow_syscalls_for_logging o), (fo_libc_compat o); rewrite ?labels_selected; reflexivity.
  Qed.

  Lemma body_values s r : body_of b o s = Some r ->
    match r with Cond alts _ => Forall (Forall (fun a => at_val a < 2 ^ wordN (b_plat b))) alts | _ => True end.
  Proof.
    unfold body_of. destruct (String.eqb s "1"); [intros H; injection H as <-; exact Logic.I|].
    destruct (String.eqb s ""); [discriminate|].
    destruct (has_prefix "return" s).
    { destruct (return_of b o s); [|discriminate]. intros H; injection H as <-; exact Logic.I. }
    destruct (words ";"%char s) as [|flt rest]; [intros H; injection H as <-; constructor|].
    destruct (mapM (group_of b) (tokens "||" flt)) as [alts|] eqn:M; [|discriminate].
    destruct (default_or_return b o rest); [|discriminate]. intros H; injection H as <-.
    apply groups_spec in M; auto. destruct M as (gs & ass & _ & _ & F).
    clear -NM F. induction F as [|ss ats ass alts F1 F IH]; constructor; auto.
    clear IH F. induction F1; constructor; auto. eapply reads_atom_val; eauto.
  Qed.

  Definition vals_ok (p : policy) : Prop :=
    forall e, In e p -> match e_rule e with
      | Cond alts _ => Forall (Forall (fun a => at_val a < 2 ^ wordN (b_plat b))) alts
      | _ => True end.
  Lemma line_vals incl raw p : (forall f q, incl f = Some q -> vals_ok q) ->
    line_of b o incl raw = Some p -> vals_ok p.
  Proof.
    intros IV. unfold line_of. cbv zeta.
    assert (V0 : vals_ok []) by (intros e []).
    destruct (String.eqb (strip raw) ""); [intros H; injection H as <-; auto|].
    destruct (starts "#"%char (strip raw)); [intros H; injection H as <-; auto|].
    destruct (starts "@"%char (strip raw)).
    { destruct (has_prefix "@frequency" (strip raw)); [intros H; injection H as <-; auto|].
      destruct (parse_include (strip raw)); [|discriminate]. apply IV. }
    unfold rule_of. destruct (strsep ":"%char (strip raw)) as [name [body|]]; [|discriminate].
    destruct (String.eqb (strip body) ""); [discriminate|].
    destruct (assoc (strip name) (b_syscalls b)).
    - destruct (body_of b o (strip body)) eqn:B; [|discriminate]. intros H; injection H as <-.
      intros e [<-|[]]. cbn [e_rule]. eapply body_values; eauto.
    - destruct (fo_allow_logging o); [|discriminate]. intros H; injection H as <-; auto.
  Qed.
  Lemma stream_vals incl f p : (forall f q, incl f = Some q -> vals_ok q) ->
    stream_policy b o incl f = Some p -> vals_ok p.
  Proof.
    intros IV. unfold stream_policy.
    destruct (lines_policy b o incl (multilines (s_bytes f))) as [q|] eqn:L; [|discriminate].
    destruct (s_ioerr f); [discriminate|]. intros H; injection H as ->.
    revert p L. induction (multilines (s_bytes f)) as [|l ls IH]; simpl; intros p L.
    - injection L as <-. intros e [].
    - destruct (line_of b o incl l) eqn:L1; [|discriminate].
      destruct (lines_policy b o incl ls) as [q|] eqn:L2; [|discriminate]. injection L as <-.
      intros e H. apply in_app_or in H. destruct H as [H|H].
      + eapply line_vals; eauto.
      + eapply IH; eauto.
  Qed.
  Lemma policy_vals fs f p : policy_of b o fs f = Some p -> vals_ok p.
  Proof.
    apply stream_vals. intros n q. unfold incl0. destruct (fs n); [|discriminate].
    apply stream_vals. intros ? ?; discriminate.
  Qed.

  Lemma default_spec def :
    (match fo_action o with
     | ACT_LOG => if fo_allow_logging o then COk ret_log else CFail
     | a => COk (action_instr a)
     end) = COk def ->
    def = stmt op_ret (action_value (fo_action o)) /\
    (fo_action o = ACT_LOG -> fo_allow_logging o = true).
  Proof.
    destruct (fo_action o); try (destruct (fo_allow_logging o)); intros H; try discriminate;
      injection H as <-; split; auto; discriminate.
  Qed.

  (* Everything known about a successful compilation. *)
  Lemma compile_filter_ok fs initial prog : compile_filter b o fs initial = COk prog ->
    exists f pol items def labels,
      initial = Some f /\ policy_of b o fs f = Some pol /\
      map fst items = pol /\ Forall item_ok items /\
      def = stmt op_ret (action_value (fo_action o)) /\
      (fo_action o = ACT_LOG -> fo_allow_logging o = true) /\
      (fo_allow_dup o = false -> NoDup (map e_name pol)) /\
      let final := (prologue b o ++ flat_map head_of items ++ def :: flat_map arg_of items)%list in
      (length final <= BPF_MAXINSNS)%nat /\
      bpf_resolve_jumps labels final = ROk prog /\
      NoDup (labels_of (flat_map arg_of items)).
  Proof.
    unfold compile_filter. destruct initial as [f|]; [|discriminate]. intros H.
    apply cbind_ok in H. destruct H as (st & H1 & H).
    destruct (cs_bad st) eqn:BAD; [discriminate|].
    apply cbind_ok in H. destruct H as (def & H2 & H).
    apply default_spec in H2. destruct H2 as [-> AL].
    eapply compile_stream_ok in H1; [|apply good_include0]. destruct H1 as (p & P & [G1 G2]).
    destruct (G1 [] laid0) as [(items & I1 & I2 & I3 & I4) _]. cbn [app] in I3.
    cbv zeta in H. rewrite I1, I2 in H. rewrite <- app_assoc in H. cbn [app] in H.
    destruct (Nat.ltb_spec BPF_MAXINSNS (length (prologue b o ++ flat_map head_of items
       ++ stmt op_ret (action_value (fo_action o)) :: flat_map arg_of items))); [discriminate|].
    destruct (bpf_resolve_jumps (length (cs_labels st)) _) as [pr| |] eqn:R; try discriminate.
    injection H as ->.
    exists f, p, items, (stmt op_ret (action_value (fo_action o))), (length (cs_labels st)).
    repeat split; auto.
    - intros AD. destruct (G2 AD BAD) as [_ X]. apply (X [] laid0). constructor.
    - destruct (resolve_run _ _ _ true (SD 0 0 0 []) R) as (_ & ND & _).
      rewrite !labels_of_app, labels_prologue, labels_heads in ND. exact ND.
  Qed.

  Lemma compile_filter_reads fs initial prog : compile_filter b o fs initial = COk prog ->
    exists f pol, initial = Some f /\ reads_policy b o fs f pol.
  Proof.
    intros H. apply compile_filter_ok in H. destruct H as (f & pol & items & def & labels & -> & P & _).
    exists f, pol. split; auto. apply policy_of_spec; auto.
  Qed.

  Lemma find_rule_in nr pol r : find_rule nr pol = Some r ->
    exists e, In e pol /\ e_rule e = r /\ e_nr e = nr.
  Proof.
    induction pol as [|e pol IH]; simpl; [discriminate|]. destruct (N.eqb_spec (e_nr e) nr).
    - intros H. injection H as <-. eauto.
    - intros H. destruct (IH H) as (x & I & E). eauto.
  Qed.

  Lemma compile_filter_verdict fs f prog pol d :
    compile_filter b o fs (Some f) = COk prog ->
    reads_policy b o fs f pol -> sd_ok d ->
    (forall r, find_rule (sd_nr d) pol = Some r -> rule_args_ok r) ->
    exists v, run true prog d = VRet v /\ verdict b o pol d v.
  Proof.
    intros H RP D AR. apply compile_filter_ok in H.
    destruct H as (f' & pol' & items & def & labels & E & P & MP & IO & -> & AL & DUP & LEN & R & ND).
    injection E as <-. apply policy_of_spec in RP; auto. assert (pol' = pol) as -> by congruence.
    destruct (resolve_run _ _ _ true d R) as (RUN & _ & _ & _). rewrite RUN.
    destruct (prologue_exec d (flat_map head_of items ++
       stmt op_ret (action_value (fo_action o)) :: flat_map arg_of items)) as (s & A & ->).
    destruct (N.eqb_spec (sd_arch d) (arch_no (b_plat b))) as [EA|NA]; cbn [negb];
      [|eexists; split; [reflexivity|]; apply v_foreign; auto].
    destruct (optioned d) eqn:OP; [eexists; split; [reflexivity|]; apply v_option; auto; apply optioned_spec; auto|].
    assert (NOP : ~ allowed_by_option b o (sd_nr d)).
    { rewrite <- optioned_spec. congruence. }
    assert (RK : forall r, find_rule (sd_nr d) (map fst items) = Some r -> rule_ok b r).
    { rewrite MP. intros r F. pose proof (AR _ F) as RA.
      destruct (find_rule_in _ _ _ F) as (e & IP & ER & _).
      pose proof (policy_vals _ _ _ P _ IP) as V. rewrite ER in V. unfold rule_ok.
      destruct r as [| |alts v]; auto. cbn [rule_args_ok] in RA.
      clear -V RA. induction alts as [|ats alts IH]; constructor; inversion V; inversion RA; subst; auto.
      apply Forall_forall. intros a I. rewrite Forall_forall in H1, H5. split; auto. }
    rewrite (walk d D items items _ s (fun x H => H) IO ND A RK).
    eexists. split; [reflexivity|]. rewrite MP.
    destruct (find_rule (sd_nr d) pol) as [r|] eqn:F.
    - apply v_rule; auto.
    - apply v_default; auto.
  Qed.
End Build.
