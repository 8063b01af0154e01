(* Account lookups. *)
From Coq Require Import Lia.
From Verif Require Import M_Lookup S_Lookup.
Local Open Scope Z_scope.

Lemma nth_size_S first n : nth_size first (S n) = nth_size first n * 2.
Proof. unfold nth_size. rewrite Nat2Z.inj_succ, Z.pow_succ_r by lia. lia. Qed.
Lemma nth_size_ge first n : 1 <= first -> 2 ^ Z.of_nat n <= nth_size first n.
Proof. intros H. unfold nth_size. pose proof (Z.pow_nonneg 2 (Z.of_nat n)). nia. Qed.
Lemma nth_size_mono first m n : 1 <= first -> (m <= n)%nat -> nth_size first m <= nth_size first n.
Proof. intros H L. unfold nth_size. apply Z.mul_le_mono_nonneg_l; [lia|]. apply Z.pow_le_mono_r; lia. Qed.
Lemma tried_21 first n : 1 <= first -> tried first n -> (n <= 20)%nat.
Proof.
  intros H [->|T]; [lia|]. pose proof (nth_size_ge first n H) as G. assert (2 ^ Z.of_nat n <= 2 ^ 20) by lia.
  apply Z.pow_le_mono_r_iff in H0; lia.
Qed.
Lemma small_dec {A} (x : reply A) : {too_small x} + {~ too_small x}.
Proof.
  unfold too_small. destruct x as [e| |a]; [|right; discriminate|right; discriminate].
  destruct (Z.eq_dec e 34) as [->|N]; [left; reflexivity|right; congruence].
Qed.
Lemma attempts_spec {A} (service : nat -> Z -> reply A) first (F1 : 1 <= first) fuel : forall n,
  tried first n -> (forall m, (m < n)%nat -> too_small (service m (nth_size first m))) -> (n + fuel > 20)%nat ->
  exists rc out, attempts (2 ^ 20) service fuel n (nth_size first n) = Ret rc out /\ answered service first rc out.
Proof.
  induction fuel as [|fuel IH]; intros n T S F.
  { pose proof (tried_21 first n F1 T). lia. }
  cbn [attempts]. destruct (small_dec (service n (nth_size first n))) as [Z|N].
  - rewrite Z. change (34 =? ERANGE_) with true. cbv iota zeta. rewrite <- nth_size_S. destruct (Z.leb_spec (nth_size first (Datatypes.S n)) (2 ^ 20)) as [L|L].
    + apply IH; [right; exact L| |lia]. intros m M. destruct (Nat.eq_dec m n) as [->|]; [exact Z|]. apply S. lia.
    + eexists _, _. split; [reflexivity|]. right. split; [|split; reflexivity]. intros k TK.
      destruct (Nat.lt_trichotomy k n) as [K|[->|K]]; [apply S, K|exact Z|]. exfalso. destruct TK as [->|TK]; [lia|].
      pose proof (nth_size_mono first (Datatypes.S n) k F1 ltac:(lia)). lia.
  - assert (K : forall rc out, (rc, out) = told (service n (nth_size first n)) -> answered service first rc out) by (intros rc out E; left; exists n; auto).
    destruct (service n (nth_size first n)) as [e| |a].
    + destruct (Z.eqb_spec e ERANGE_) as [->|]; [exfalso; apply N; reflexivity|]. eexists _, _. split; [reflexivity|]. apply K. reflexivity.
    + eexists _, _. split; [reflexivity|]. apply K. reflexivity.
    + eexists _, _. split; [reflexivity|]. apply K. reflexivity.
Qed.
Lemma lookup_spec {A} (service : nat -> Z -> reply A) first : 1 <= first ->
  exists rc out, attempts (2 ^ 20) service 21 0 first = Ret rc out /\ answered service first rc out.
Proof.
  intros F. destruct (attempts_spec service first F 21 0%nat) as (rc & out & E & K); [left; reflexivity|intros m M; lia|lia|].
  exists rc, out. split; [|exact K]. rewrite <- E. f_equal. unfold nth_size. rewrite Z.mul_1_r || idtac. change (2 ^ Z.of_nat 0) with 1. lia.
Qed.
Lemma first_pos sysconf : sysconf = -1 \/ 1 <= sysconf -> 1 <= first_size sysconf.
Proof. unfold first_size. intros [->|H]; [vm_compute; discriminate|]. destruct (sysconf =? -1); lia. Qed.
Lemma user_found service sysconf user : sysconf = -1 \/ 1 <= sysconf ->
  exists rc out, lookup_user service sysconf 21 user = Ret rc out /\ answered (service user) (first_size sysconf) rc out.
Proof. intros H. apply lookup_spec, first_pos, H. Qed.
Lemma group_found service sysconf group : sysconf = -1 \/ 1 <= sysconf ->
  exists rc out, lookup_group service sysconf 21 group = Ret rc out /\ answered (service group) (first_size sysconf) rc out.
Proof. intros H. apply lookup_spec, first_pos, H. Qed.
Lemma zero_loops : exists service, forall fuel user, lookup_user service 0 fuel user = Running.
Proof.
  exists (fun _ _ _ => Fails 34). intros fuel user. unfold lookup_user, first_size. change (0 =? -1) with false. cbv iota.
  generalize O. induction fuel as [|f IH]; intros n; [reflexivity|]. cbn [attempts]. change (34 =? ERANGE_) with true. cbv iota zeta. apply IH.
Qed.
