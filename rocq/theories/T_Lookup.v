(* C45: account lookups.  [service name n sz] is the reply of the name service
   to the n-th question, about [name] with a buffer of [sz] bytes; [sysconf] is
   the recommended size. *)
From Verif Require Import M_Lookup S_Lookup P_Lookup.
Local Open Scope Z_scope.

(* Whatever the service replies, the lookup ends within 21 questions; it tells
   what the first reply says that is not "buffer too small". *)
Theorem C45_user : forall service sysconf user, sysconf = -1 \/ 1 <= sysconf ->
  exists rc out, lookup_user service sysconf 21 user = Ret rc out /\ answered (service user) (first_size sysconf) rc out.
Proof. exact user_found. Qed.
Print Assumptions C45_user.
Theorem C45_group : forall service sysconf group, sysconf = -1 \/ 1 <= sysconf ->
  exists rc out, lookup_group service sysconf 21 group = Ret rc out /\ answered (service group) (first_size sysconf) rc out.
Proof. exact group_found. Qed.
Print Assumptions C45_group.
Example C45_cases :
  lookup_user (fun u n sz => if sz <? 5000 then Fails 34 else if (u =? "root")%string then Entry_ (0, 0) else NoEntry) 1024 21 "root" = Ret 0 (Some (0, 0)) /\
  lookup_user (fun u n sz => if sz <? 5000 then Fails 34 else if (u =? "root")%string then Entry_ (0, 0) else NoEntry) 1024 21 "other" = Ret (-2) None /\
  lookup_user (fun _ _ _ => Fails 34) 1 21 "root" = Ret (-34) None /\
  lookup_group (fun _ n _ => if Nat.eqb n 1 then Fails 5 else Fails 34) (-1) 21 "root" = Ret (-5) None.
Proof. repeat split; reflexivity. Qed.
(* A recommended size of 0, which glibc never gives, can make it run for ever. *)
Theorem C45_size_zero_refuted : exists service, forall fuel user, lookup_user service 0 fuel user = Running.
Proof. exact zero_loops. Qed.
Print Assumptions C45_size_zero_refuted.
