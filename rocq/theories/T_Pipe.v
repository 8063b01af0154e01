(* C26, C27: sending a jail through a pipe. *)
From Verif Require Import S_Marshal S_Pipe P_Pipe.
Local Open Scope N_scope.

(* C27: for every sequence of kernel answers, success means that exactly the
   buffer was taken; failure, that a proper prefix was taken and the last
   answer was the error reported, which is not an interruption. *)
Theorem C27_write_exactly : forall w, real_errors w -> forall fuel i p sent,
  match write_exactly fuel w i p sent with
  | Wrote rc out i' => (i <= i')%nat /\ exists took rest, p = (took ++ rest)%string /\ out = (sent ++ took)%string /\
      (rc = 0%Z <-> rest = EmptyString) /\
      (rc <> 0%Z -> exists k, i' = S k /\ w k = Fail (- rc) /\ (- rc)%Z <> EINTR)
  | More out => exists took rest, p = (took ++ rest)%string /\ out = (sent ++ took)%string /\ rest <> EmptyString
  end.
Proof. exact write_result. Qed.
Print Assumptions C27_write_exactly.
(* It returns, if the kernel goes on accepting bytes or failing. *)
Theorem C27_write_returns : forall w, (forall m, exists k, (m <= k)%nat /\ progress (w k)) ->
  forall p i sent, exists fuel rc out i', write_exactly fuel w i p sent = Wrote rc out i'.
Proof. exact write_ends. Qed.
Print Assumptions C27_write_returns.
Example C27_case : exists out, write_exactly 20 slow 0 "hello, pipe"%string EmptyString = Wrote 0 out 8 /\ out = "hello, pipe"%string.
Proof. exact slow_case. Qed.
Example C27_fair : forall m, exists k, (m <= k)%nat /\ progress (slow k).
Proof. exact slow_fair. Qed.

(* C26: whatever the writer managed to send and however much of it arrives,
   the reader has the configuration that was sent, or an error. *)
Theorem C26_exact_or_error : forall addr e e' h j j0 fuel w res size piped lost r,
  history e minijail_new h j -> c_typed j -> nonnull addr ->
  k_landlock_abi e' = k_landlock_abi e -> real_errors w ->
  minijail_size addr j = Some size -> size < 2 ^ 64 ->
  minijail_to_fd addr j fuel w = Some res -> delivered res = (piped ++ lost)%string ->
  minijail_from_fd e' j0 r piped = FOk (received j) \/
  exists rc j', minijail_from_fd e' j0 r piped = FErr rc j' /\ (rc < 0)%Z.
Proof. exact never_truncated. Qed.
Print Assumptions C26_exact_or_error.
(* Success with whole reads; the two configurations refused by the reader
   (C23) are excluded. *)
Theorem C26_whole_reads_partial : forall addr e e' h j j0 fuel w out i size r,
  history e minijail_new h j -> c_typed j -> nonnull addr ->
  k_landlock_abi e' = k_landlock_abi e -> real_errors w ->
  minijail_size addr j = Some size -> size <= 65535 ->
  Forall (fun r => fr_flags r <> 0) (j_fs_rules j) -> j_fs_rules_fd j <> 0%Z ->
  minijail_to_fd addr j fuel w = Some (Wrote 0 out i) ->
  (exists n, r O = Bytes n /\ 8 <= n) -> (exists n, r 1%nat = Bytes n /\ size <= n) ->
  minijail_from_fd e' j0 r out = FOk (received j).
Proof. exact whole_transfer. Qed.
Print Assumptions C26_whole_reads_partial.
Example C26_case : exists h j, history full_env minijail_new h j /\ map fst h = full_calls /\ real_errors slow /\
  minijail_size any_addr j = Some 2399 /\
  exists out i, minijail_to_fd any_addr j 1700 slow = Some (Wrote 0 out i) /\ i = 1606%nat /\
    minijail_from_fd full_env minijail_new whole out = FOk (received j) /\
    minijail_from_fd full_env minijail_new short out = FErr (-22) minijail_new.
Proof. exact pipe_case. Qed.
