From Coq Require Import ZifyBool ZifyNat ZifyN.
From Verif Require Export M_Elf S_Elf.
From Verif Require Import M_CStr.
Local Open Scope N_scope.

Lemma le_value_number l : le_value l = le_number l.
Proof. induction l; cbn [le_value le_number]; congruence. Qed.
Lemma load_number b l : load b l = le_number (if b then l else rev l).
Proof. apply le_value_number. Qed.
Lemma firstn_skipn_firstn {A} (l : list A) a n m : (a + n <= m)%nat ->
  firstn n (skipn a (firstn m l)) = firstn n (skipn a l).
Proof.
  intros H. rewrite <- (firstn_skipn m l) at 2.
  rewrite skipn_firstn_comm, firstn_firstn. rewrite firstn_skipn.
  replace (Nat.min n (m - a)) with n by lia. reflexivity.
Qed.
Lemma slice_number b f p off n pos size : fread f pos size = Some p -> off + n <= size ->
  number b f (pos + off) n = Some (load b (slice p off n)).
Proof.
  unfold fread, number. destruct (pos + size <=? N.of_nat (length f)) eqn:E; [|discriminate].
  intros H L. replace (pos + off + n <=? N.of_nat (length f)) with true by lia. f_equal.
  rewrite load_number. injection H as <-. unfold slice.
  rewrite firstn_skipn_firstn by lia.
  assert (X : skipn (N.to_nat off) (skipn (N.to_nat pos) f) = skipn (N.to_nat (pos + off)) f).
  { rewrite N2Nat.inj_add. generalize (N.to_nat pos) (N.to_nat off). clear. intros a b. revert f.
    induction a; intros f; cbn [Nat.add]; [reflexivity|]. destruct f; [destruct b; reflexivity|]. apply IHa. }
  rewrite X. reflexivity.
Qed.
Lemma fread_some f pos size : pos + size <= N.of_nat (length f) -> exists p, fread f pos size = Some p.
Proof. intros H. unfold fread. replace (pos + size <=? N.of_nat (length f)) with true by lia. eauto. Qed.
Lemma fread_none f pos size : fread f pos size = None <-> N.of_nat (length f) < pos + size.
Proof. unfold fread. destruct (pos + size <=? N.of_nat (length f)) eqn:E; split; try discriminate; try lia; auto. Qed.

(* Position of the i-th header. *)
Definition typ (h : host) (f : list N) (pos : N) : option N := number (h_little h) f pos 4.
Lemma scan_spec h f size n : 4 <= size -> forall pos,
  match scan_phdrs h f size n pos with
  | ELFDYNAMIC => exists i, (i < n)%nat /\ pos + N.of_nat i * size + size <= N.of_nat (length f) /\
      typ h f (pos + N.of_nat i * size) = Some 3
  | ELFSTATIC => forall i, (i < n)%nat -> pos + N.of_nat i * size + size <= N.of_nat (length f) /\
      typ h f (pos + N.of_nat i * size) <> Some 3
  | ELFERROR => exists i, (i < n)%nat /\ N.of_nat (length f) < pos + N.of_nat i * size + size /\
      forall j, (j < i)%nat -> typ h f (pos + N.of_nat j * size) <> Some 3
  end.
Proof.
  intros SZ. induction n as [|n IH]; intros pos; cbn [scan_phdrs]; [intros; lia|].
  destruct (fread f pos size) as [p|] eqn:F.
  - pose proof (slice_number (h_little h) f p 0 4 pos size F ltac:(lia)) as T. rewrite N.add_0_r in T.
    assert (IN : pos + size <= N.of_nat (length f)).
    { unfold fread in F. destruct (pos + size <=? N.of_nat (length f)) eqn:E; [lia|discriminate]. }
    destruct (load (h_little h) (slice p 0 4) =? 3) eqn:E.
    + apply N.eqb_eq in E. rewrite E in T. exists 0%nat. split; [lia|].
      replace (pos + N.of_nat 0 * size) with pos by lia. split; auto.
    + apply N.eqb_neq in E. specialize (IH (pos + size)).
      assert (SH : forall i, pos + size + N.of_nat i * size = pos + N.of_nat (S i) * size) by (intros; lia).
      destruct (scan_phdrs h f size n (pos + size)).
      * destruct IH as (i & L & SS & B). exists (S i). rewrite SH in SS. split; [lia|]. split; auto.
        intros [|j] J.
        -- replace (pos + N.of_nat 0 * size) with pos by lia. unfold typ. rewrite T. congruence.
        -- rewrite <- SH. apply B. lia.
      * intros [|i] L.
        -- replace (pos + N.of_nat 0 * size) with pos by lia. unfold typ. rewrite T. split; [auto|congruence].
        -- rewrite <- SH. apply IH. lia.
      * destruct IH as (i & L & SS & B). exists (S i). rewrite SH in *. split; [lia|]. auto.
  - apply fread_none in F. exists 0%nat. split; [lia|]. split; [lia|]. intros; lia.
Qed.

Lemma magic_fread f p : fread f 0 HEADERSIZE = Some p -> (is_elf_magic p = true <-> elf_magic f).
Proof.
  intros F. unfold fread in F. destruct (0 + HEADERSIZE <=? N.of_nat (length f)) eqn:E; [|discriminate].
  injection F as <-. cbn [N.to_nat skipn]. unfold HEADERSIZE in *.
  destruct f as [|a [|b [|c [|d t]]]]; cbn [length] in E; try lia.
  change (N.to_nat 128) with 128%nat. change (N.to_nat 0) with 0%nat. cbn [skipn firstn is_elf_magic]. unfold elf_magic. split.
  - intros H. rewrite !andb_true_iff in H. destruct H as [[[A B] C] D]. apply N.eqb_eq in A, B, C, D. subst. eauto.
  - intros [t' H]. injection H as -> -> -> -> _. reflexivity.
Qed.

(* The answer for a well-formed header, in the byte order of the host. *)
Definition order_ok (h : host) (e : elf_header) : Prop := eh_little e = h_little h.
Definition off_ok (h : host) (e : elf_header) : Prop := eh_phoff e < 2 ^ (h_long h - 1).
Lemma to_signed_small w n : (0 < w) -> n < 2 ^ (w - 1) -> to_signed w n = Z.of_N n.
Proof.
  intros W H. unfold to_signed.
  assert (P : (2 ^ Z.of_N w = 2 * 2 ^ (Z.of_N w - 1))%Z).
  { replace (Z.of_N w) with (Z.succ (Z.of_N w - 1)) at 1 by lia. rewrite Z.pow_succ_r by lia. reflexivity. }
  assert (Q : (Z.of_N (2 ^ (w - 1)) = 2 ^ (Z.of_N w - 1))%Z).
  { rewrite N2Z.inj_pow. f_equal. lia. }
  assert (Z.of_N n < 2 ^ (Z.of_N w - 1))%Z by lia.
  rewrite Z.mod_small by lia. replace (Z.of_N n <? 2 ^ (Z.of_N w - 1))%Z with true by lia. reflexivity.
Qed.
Lemma linkage_elf h f e : is_elf f e -> HEADERSIZE <= N.of_nat (length f) ->
  get_elf_linkage h (Some f) =
  if negb (eh_phentsize e =? phdr_size e) then ELFERROR
  else if (to_signed (h_long h) (eh_phoff e) <? 0)%Z then ELFERROR
  else scan_phdrs h f (phdr_size e) (N.to_nat (eh_phnum e)) (Z.to_N (to_signed (h_long h) (eh_phoff e))).
Proof.
  intros (M & C & D & PO & PE & PN) L. unfold get_elf_linkage.
  destruct (fread_some f 0 HEADERSIZE ltac:(lia)) as [p F]. rewrite F.
  rewrite (proj2 (magic_fread f p F) M).
  assert (NS : forall b off n v, off + n <= HEADERSIZE -> number b f off n = Some v -> load b (slice p off n) = v).
  { intros b off n v B H. pose proof (slice_number b f p off n 0 HEADERSIZE F B) as X. rewrite N.add_0_l in X. congruence. }
  unfold HEADERSIZE in NS.
  rewrite (NS true 5 1 _ ltac:(lia) D), (NS true 4 1 _ ltac:(lia) C).
  unfold phdr_size. 
  assert (PO' : load (eh_little e) (if eh_64 e then slice p 32 8 else slice p 28 4) = eh_phoff e).
  { destruct (eh_64 e); apply NS; auto; lia. }
  assert (PE' : load (eh_little e) (if eh_64 e then slice p 54 2 else slice p 42 2) = eh_phentsize e).
  { destruct (eh_64 e); apply NS; auto; lia. }
  assert (PN' : load (eh_little e) (if eh_64 e then slice p 56 2 else slice p 44 2) = eh_phnum e).
  { destruct (eh_64 e); apply NS; auto; lia. }
  destruct (eh_little e) eqn:EL, (eh_64 e) eqn:E6; cbn [andb N.eqb Pos.eqb]; unfold parse_elf;
    cbv zeta; rewrite PO', PE', PN'; reflexivity.
Qed.
Lemma linkage_dynamic h f e : 0 < h_long h -> is_elf f e -> HEADERSIZE <= N.of_nat (length f) ->
  order_ok h e -> off_ok h e -> eh_phentsize e = phdr_size e -> table_complete f e ->
  (get_elf_linkage h (Some f) = ELFDYNAMIC <-> exists i, interp f e i) /\
  (get_elf_linkage h (Some f) = ELFSTATIC <-> forall i, ~ interp f e i).
Proof.
  intros W EL L OO OF SZ TC. rewrite (linkage_elf h f e EL L).
  rewrite to_signed_small by (auto; apply OF).
  rewrite SZ, N.eqb_refl. cbn [negb]. replace (Z.of_N (eh_phoff e) <? 0)%Z with false by lia. rewrite N2Z.id.
  assert (S4 : 4 <= phdr_size e) by (unfold phdr_size; destruct (eh_64 e); lia).
  pose proof (scan_spec h f (phdr_size e) (N.to_nat (eh_phnum e)) S4 (eh_phoff e)) as X.
  unfold interp, phdr_present, phdr_off, order_ok, typ in *. rewrite OO.
  destruct (scan_phdrs h f (phdr_size e) (N.to_nat (eh_phnum e)) (eh_phoff e)).
  - exfalso. destruct X as (i & LI & SS & _). specialize (TC (N.of_nat i) ltac:(lia)). unfold phdr_present, phdr_off in TC. lia.
  - split; split; try discriminate; auto.
    + intros (i & LI & P & T). destruct (X (N.to_nat i) ltac:(lia)) as [_ NN]. rewrite N2Nat.id in NN. congruence.
    + intros _ i (LI & P & T). destruct (X (N.to_nat i) ltac:(lia)) as [_ NN]. rewrite N2Nat.id in NN. congruence.
  - destruct X as (i & LI & P & T). split; split; auto; try discriminate.
    + intros _. exists (N.of_nat i). repeat split; auto. lia.
    + intros NI. exfalso. apply (NI (N.of_nat i)). repeat split; auto. lia.
Qed.
(* Static is reported only for complete tables without interpreter entries. *)
Lemma linkage_static h f : 0 < h_long h -> get_elf_linkage h (Some f) = ELFSTATIC ->
  exists e, is_elf f e /\ eh_phentsize e = phdr_size e /\
   (off_ok h e -> table_complete f e /\ (order_ok h e -> forall i, ~ interp f e i)).
Proof.
  intros W H. pose proof H as G. unfold get_elf_linkage in H.
  destruct (fread f 0 HEADERSIZE) as [p|] eqn:F; [|discriminate].
  destruct (is_elf_magic p) eqn:M; [|discriminate].
  apply (magic_fread f p F) in M.
  assert (L : HEADERSIZE <= N.of_nat (length f)).
  { unfold fread in F. destruct (0 + HEADERSIZE <=? N.of_nat (length f)) eqn:E; [lia|discriminate]. }
  assert (NS : forall b off n, off + n <= 128 -> number b f off n = Some (load b (slice p off n))).
  { intros b off n B. pose proof (slice_number b f p off n 0 HEADERSIZE F B) as X. rewrite N.add_0_l in X. exact X. }
  assert (EX : exists l6 ll, number true f 4 1 = Some (if l6 : bool then 2 else 1) /\ number true f 5 1 = Some (if ll : bool then 1 else 2)).
  { rewrite (NS true 4 1), (NS true 5 1) by lia.
    destruct ((load true (slice p 5 1) =? 1) && (load true (slice p 4 1) =? 2)) eqn:E1.
    { exists true, true. split; f_equal; lia. }
    destruct ((load true (slice p 5 1) =? 2) && (load true (slice p 4 1) =? 2)) eqn:E2.
    { exists true, false. split; f_equal; lia. }
    destruct ((load true (slice p 5 1) =? 1) && (load true (slice p 4 1) =? 1)) eqn:E3.
    { exists false, true. split; f_equal; lia. }
    destruct ((load true (slice p 5 1) =? 2) && (load true (slice p 4 1) =? 1)) eqn:E4.
    { exists false, false. split; f_equal; lia. }
    discriminate. }
  destruct EX as (l6 & ll & C & D).
  set (e := ElfHeader ll l6 (load ll (slice p (if l6 then 32 else 28) (if l6 then 8 else 4)))
      (load ll (slice p (if l6 then 54 else 42) 2)) (load ll (slice p (if l6 then 56 else 44) 2))).
  assert (EL : is_elf f e).
  { unfold is_elf, e. cbn [eh_64 eh_little eh_phoff eh_phentsize eh_phnum].
    repeat split; auto; destruct l6; apply NS; lia. }
  exists e. split; auto. rewrite (linkage_elf h f e EL L) in G.
  destruct (eh_phentsize e =? phdr_size e) eqn:SZ; [|discriminate]. apply N.eqb_eq in SZ. split; auto. cbn [negb] in G.
  intros OF. rewrite to_signed_small in G by (auto; apply OF).
  replace (Z.of_N (eh_phoff e) <? 0)%Z with false in G by lia. rewrite N2Z.id in G.
  assert (S4 : 4 <= phdr_size e) by (unfold phdr_size; destruct (eh_64 e); lia).
  pose proof (scan_spec h f (phdr_size e) (N.to_nat (eh_phnum e)) S4 (eh_phoff e)) as X. rewrite G in X.
  assert (TC : table_complete f e).
  { intros i LI. destruct (X (N.to_nat i) ltac:(lia)) as [P _]. unfold phdr_present, phdr_off. rewrite N2Nat.id in P. exact P. }
  split; auto. intros OO i (LI & P & T). destruct (X (N.to_nat i) ltac:(lia)) as [_ NN].
  unfold typ in NN. rewrite N2Nat.id, <- OO in NN. apply NN. exact T.
Qed.
Lemma linkage_truncated h f e : is_elf f e -> HEADERSIZE <= N.of_nat (length f) -> 0 < h_long h -> off_ok h e ->
  ~ table_complete f e -> get_elf_linkage h (Some f) <> ELFSTATIC.
Proof.
  intros EL L W OF NT G. apply NT. destruct (linkage_static h f W G) as (e' & EL' & _ & X).
  assert (e' = e).
  { destruct e as [l s po pe pn], e' as [l' s' po' pe' pn'].
    destruct EL as (_ & A & B & C & D & E), EL' as (_ & A' & B' & C' & D' & E').
    cbn [eh_64 eh_little eh_phoff eh_phentsize eh_phnum] in *.
    assert (s = s') by (destruct s, s'; congruence). assert (l = l') by (destruct l, l'; congruence). subst.
    f_equal; congruence. }
  subst e'. apply X; auto.
Qed.
Lemma linkage_short h f : N.of_nat (length f) < HEADERSIZE \/ ~ elf_magic f -> get_elf_linkage h (Some f) = ELFDYNAMIC.
Proof.
  intros H. unfold get_elf_linkage. destruct (fread f 0 HEADERSIZE) as [p|] eqn:F; auto.
  assert (L : HEADERSIZE <= N.of_nat (length f)).
  { unfold fread in F. destruct (0 + HEADERSIZE <=? N.of_nat (length f)) eqn:E; [lia|discriminate]. }
  destruct H as [H|H]; [lia|]. destruct (is_elf_magic p) eqn:M; auto. apply (magic_fread f p F) in M. tauto.
Qed.

(* A file with one PT_INTERP header, in each byte order. *)
Definition elf_sample (little : bool) (ptype : N) : list N :=
  let w (n : nat) (v : N) := let l := v mod 256 :: (v / 256) mod 256 :: repeat 0 (n - 2) in if little then l else rev l in
  [127; 69; 76; 70; 2; if little then 1 else 2; 1] ++ repeat 0 25 ++ w 8%nat 64 ++ repeat 0 14 ++ w 2%nat 56 ++ w 2%nat 1 ++ repeat 0 6
  ++ w 4%nat ptype ++ repeat 0 60.
Definition sample_header (little : bool) : elf_header := ElfHeader little true 64 56 1.
Lemma sample_elf l p : p = 3 \/ p = 1 -> is_elf (elf_sample l p) (sample_header l) /\
  HEADERSIZE <= N.of_nat (length (elf_sample l p)) /\ table_complete (elf_sample l p) (sample_header l).
Proof.
  intros H. split; [|split].
  - unfold is_elf, elf_magic. destruct H as [-> | ->], l; vm_compute; repeat split; eexists; reflexivity.
  - destruct H as [-> | ->], l; vm_compute; discriminate.
  - intros i I. unfold phdr_present, phdr_off, phdr_size, sample_header in *. cbn [eh_phnum eh_64 eh_phoff] in *.
    assert (i = 0) by lia. subst. destruct H as [-> | ->], l; vm_compute; discriminate.
Qed.
Lemma sample_interp l : interp (elf_sample l 3) (sample_header l) 0.
Proof.
  unfold interp, phdr_present. destruct l; vm_compute; repeat split; discriminate.
Qed.
Lemma sample_case : get_elf_linkage (Host true 64) (Some (elf_sample true 3)) = ELFDYNAMIC /\
  get_elf_linkage (Host true 64) (Some (elf_sample true 1)) = ELFSTATIC /\
  is_elf (elf_sample true 3) (sample_header true) /\
  table_complete (elf_sample true 3) (sample_header true) /\
  order_ok (Host true 64) (sample_header true) /\ off_ok (Host true 64) (sample_header true).
Proof.
  destruct (sample_elf true 3 (or_introl eq_refl)) as (A & B & C).
  repeat split; try (vm_compute; reflexivity); try apply A; auto.
Qed.
Lemma foreign_order : exists f e, is_elf f e /\ (exists i, interp f e i) /\ table_complete f e /\
  eh_little e = false /\ get_elf_linkage (Host true 64) (Some f) = ELFSTATIC.
Proof.
  exists (elf_sample false 3), (sample_header false).
  destruct (sample_elf false 3 (or_introl eq_refl)) as (A & B & C).
  repeat split; try apply A; auto. exists 0. apply sample_interp.
Qed.
