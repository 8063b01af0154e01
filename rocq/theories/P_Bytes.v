(* Bytes, numbers and pieces of byte strings. *)
From Coq Require Import ZifyBool ZifyNat ZifyN Lia.
From Verif Require Export P_CStr S_Marshal P_JailInv.
Local Open Scope N_scope.

Lemma num_len w : forall v, String.length (num w v) = w.
Proof. induction w as [|w IH]; intros v; cbn [num String.length]; auto. Qed.
Lemma bt_small n : n < 256 -> N_of_ascii (bt n) = n.
Proof. apply N_ascii_embedding. Qed.
Lemma pow256 w : 256 ^ N.of_nat (S w) = 256 * 256 ^ N.of_nat w.
Proof. rewrite Nat2N.inj_succ, N.pow_succ_r'. reflexivity. Qed.
Lemma val_num w : forall v, val (num w v) = v mod 256 ^ N.of_nat w.
Proof.
  induction w as [|w IH]; intros v.
  - cbn. rewrite N.mod_1_r. reflexivity.
  - cbn [num val]. rewrite IH, bt_small by (apply N.mod_lt; discriminate). rewrite pow256.
    rewrite N.mod_mul_r by (try discriminate; apply N.pow_nonzero; discriminate). reflexivity.
Qed.
Lemma val_lt s : val s < 256 ^ sizeof s.
Proof.
  induction s as [|c s IH]; [reflexivity|]. unfold sizeof in *. cbn [val String.length]. rewrite pow256.
  pose proof (N_ascii_bounded c). lia.
Qed.
Lemma num_val s : num (String.length s) (val s) = s.
Proof.
  induction s as [|c s IH]; [reflexivity|]. cbn [val String.length num]. pose proof (N_ascii_bounded c).
  f_equal.
  - unfold bt. rewrite (N.mul_comm 256), N.mod_add by discriminate. rewrite N.mod_small by auto. apply ascii_N_embedding.
  - rewrite (N.mul_comm 256), N.div_add by discriminate. rewrite N.div_small by auto. rewrite N.add_0_l. apply IH.
Qed.
Lemma stake_app p r : stake (String.length p) (p ++ r)%string = p.
Proof. induction p as [|c p IH]; [destruct r; reflexivity|]. cbn. f_equal. exact IH. Qed.
Lemma stake_sdrop n : forall s, (stake n s ++ sdrop n s)%string = s.
Proof. induction n as [|n IH]; intros [|c s]; cbn; auto. f_equal. apply IH. Qed.
Lemma stake_length n : forall s, (n <= String.length s)%nat -> String.length (stake n s) = n.
Proof. induction n as [|n IH]; intros [|c s] H; cbn in *; auto; try lia. f_equal. apply IH. lia. Qed.
Lemma sdrop_length n : forall s, String.length (sdrop n s) = (String.length s - n)%nat.
Proof. induction n as [|n IH]; intros [|c s]; cbn; auto. Qed.
Lemma sdrop_add a b s : sdrop (a + b) s = sdrop b (sdrop a s).
Proof. revert s. induction a as [|a IH]; intros [|c s]; cbn; auto. destruct b; reflexivity. Qed.
Lemma sdrop_more p r n : sdrop (String.length p + n) (p ++ r)%string = sdrop n r.
Proof. rewrite sdrop_add, sdrop_app. reflexivity. Qed.
Lemma sapp_len_inv a b a' b' : String.length a = String.length a' -> (a ++ b = a' ++ b')%string -> a = a' /\ b = b'.
Proof.
  revert a'. induction a as [|c a IH]; intros [|c' a'] L E; cbn in *; try discriminate; auto.
  injection E as -> E. injection L as L. destruct (IH _ L E) as [-> ->]. auto.
Qed.

(* consume *)
Lemma consumebytes_app p r n : N.of_nat (String.length p) = n -> consumebytes n (p ++ r)%string = Some (p, r).
Proof.
  intros <-. unfold consumebytes, sizeof. rewrite slen_app.
  destruct (N.ltb_spec (N.of_nat (String.length p + String.length r)) (N.of_nat (String.length p))); [lia|].
  rewrite Nat2N.id, stake_app, sdrop_app. reflexivity.
Qed.
Lemma consumebytes_inv n s b r : consumebytes n s = Some (b, r) -> s = (b ++ r)%string /\ N.of_nat (String.length b) = n.
Proof.
  unfold consumebytes, sizeof. destruct (N.ltb_spec (N.of_nat (String.length s)) n); [discriminate|].
  intros E. injection E as <- <-. split; [symmetry; apply stake_sdrop|]. rewrite stake_length by lia. lia.
Qed.
Lemma consumebytes_none n s : consumebytes n s = None <-> N.of_nat (String.length s) < n.
Proof.
  unfold consumebytes, sizeof. destruct (N.ltb_spec (N.of_nat (String.length s)) n); split; intros; auto; try discriminate; lia.
Qed.
Lemma consumestr_app a r : no_nul a -> consumestr (a ++ String NUL r)%string = Some (a, r).
Proof.
  induction a as [|c a IH]; [reflexivity|]. intros [C A]. cbn [append consumestr].
  destruct (Ascii.eqb_spec c NUL); [contradiction|]. rewrite IH by auto. reflexivity.
Qed.
Lemma consumestr_inv : forall s a r, consumestr s = Some (a, r) -> s = (a ++ String NUL r)%string /\ no_nul a.
Proof.
  induction s as [|c s IH]; intros a r H; [discriminate|]. cbn [consumestr] in H.
  destruct (Ascii.eqb_spec c NUL) as [->|NC].
  - injection H as <- <-. split; [reflexivity|exact Logic.I].
  - destruct (consumestr s) as [[x y]|] eqn:E; [|discriminate]. injection H as <- <-.
    destruct (IH _ _ eq_refl) as [-> B]. split; [reflexivity|split; auto].
Qed.
Lemma cstring_app a r : (cstring a ++ r)%string = (a ++ String NUL r)%string.
Proof. unfold cstring. rewrite sapp_assoc. reflexivity. Qed.
Lemma consumestr_cstring a r : no_nul a -> consumestr (cstring a ++ r)%string = Some (a, r).
Proof. intros H. rewrite cstring_app. apply consumestr_app, H. Qed.
Lemma cstring_len a : String.length (cstring a) = S (String.length a).
Proof. unfold cstring. rewrite slen_app. cbn. lia. Qed.

(* signed numbers *)
Lemma int32_len z : String.length (int32 z) = 4%nat.
Proof. apply num_len. Qed.
Lemma signed_word z : i32 z -> to_signed 32 (to_word 32 z) = z.
Proof.
  unfold i32, to_signed, to_word. intros H. rewrite Z2N.id by (apply Z.mod_pos_bound; reflexivity).
  change (2 ^ Z.of_N 32)%Z with 4294967296%Z. change (2 ^ (Z.of_N 32 - 1))%Z with 2147483648%Z.
  change (2 ^ 31)%Z with 2147483648%Z in H. rewrite Zmod_mod.
  destruct (Z.ltb_spec (z mod 4294967296) 2147483648); lia.
Qed.
Lemma word_lt z : to_word 32 z < 2 ^ 32.
Proof.
  unfold to_word. pose proof (Z.mod_pos_bound z (2 ^ Z.of_N 32) eq_refl) as H.
  change (2 ^ Z.of_N 32)%Z with 4294967296%Z in *. change (2 ^ 32) with 4294967296. lia.
Qed.
Lemma val_int32 z : val (int32 z) = to_word 32 z.
Proof. unfold int32. rewrite val_num. apply N.mod_small, word_lt. Qed.
Lemma signed_int32 z : i32 z -> to_signed 32 (val (int32 z)) = z.
Proof. intros H. rewrite val_int32. apply signed_word, H. Qed.
Lemma val_num_id w v : v < 256 ^ N.of_nat w -> val (num w v) = v.
Proof. intros H. rewrite val_num. apply N.mod_small, H. Qed.

(* images of lists *)
Lemma images_app {A} (f : A -> string) l m : images f (l ++ m) = (images f l ++ images f m)%string.
Proof. induction l as [|x l IH]; cbn [images app]; auto. rewrite IH, sapp_assoc. reflexivity. Qed.
Lemma images_len {A} (f : A -> string) w : (forall x, String.length (f x) = w) -> forall l, String.length (images f l) = (length l * w)%nat.
Proof. intros H l. induction l as [|x l IH]; cbn [images length]; auto. rewrite slen_app, H, IH. reflexivity. Qed.
Lemma blocks_images {A} (f : A -> string) w : (forall x, String.length (f x) = w) ->
  forall l r, blocks (length l) w (images f l ++ r)%string = map f l.
Proof.
  intros H l. induction l as [|x l IH]; intros r; [reflexivity|]. cbn [length blocks images map].
  rewrite sapp_assoc, <- (H x). rewrite stake_app, sdrop_app. rewrite H. f_equal. apply IH.
Qed.
Fixpoint total (l : list string) : nat := match l with [] => 0 | x :: t => (String.length x + total t)%nat end.
Notation cat_all := (images (fun x : string => x)).
Lemma cat_len l : String.length (cat_all l) = total l.
Proof. induction l as [|x l IH]; cbn [images total]; auto. rewrite slen_app, IH. reflexivity. Qed.
Lemma sdrop_field : forall k l r x off, nth_error l k = Some x -> off = total (firstn k l) ->
  exists r', sdrop off (cat_all l ++ r)%string = (x ++ r')%string.
Proof.
  induction k as [|k IH]; intros l r x off E ->; destruct l as [|y l]; try discriminate.
  - injection E as ->. cbn [firstn total sdrop images]. rewrite sapp_assoc. eauto.
  - cbn [nth_error] in E. cbn [firstn total images]. rewrite sapp_assoc, sdrop_more. eapply IH; eauto.
Qed.
Lemma field k l r x off w : nth_error l k = Some x -> off = total (firstn k l) -> String.length x = w ->
  word off w (cat_all l ++ r)%string = val x.
Proof.
  intros E O W. destruct (sdrop_field k l r x off E O) as [r' H]. unfold word. rewrite H, <- W, stake_app. reflexivity.
Qed.
