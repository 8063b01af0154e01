(* Specification: the calls that a log of the audit subsystem records, and the
   traces that show the same calls. *)
From Coq Require Import String Ascii List NArith ZArith Bool.
From Verif Require Import S_Text S_Const S_Policy M_PyParse S_PyText S_Common S_Gen.
From Verif Require Import M_Audit.
Import ListNotations.
Local Open Scope string_scope.

(* A call: its name in policies and, when it is inspected, the constants of the
   inspected argument. *)
Record acall := ACall { ac_name : string; ac_value : list part }.
(* [f] is the first field of that name. *)
Definition first_field (r : arecord) (name : string) (f : afield) : Prop :=
  exists u v, r = (u ++ f :: v)%list /\ af_name f = name /\ Forall (fun g => af_name g <> name) u.
Definition field_is (r : arecord) (name text : string) : Prop := exists f, first_field r name f /\ af_text f = text.
(* How a call is shown: by its name, or by its number when the library does
   not know it, which is so for the private calls of ARM. *)
Definition private_calls : list (string * string) :=
  [("983041", "ARM_breakpoint"); ("983042", "ARM_cacheflush"); ("983043", "ARM_usr26"); ("983044", "ARM_usr32"); ("983045", "ARM_set_tls")].
Inductive shown_as (n : string) : string -> Prop :=
| sa_name : plain_name n -> shown_as n n
| sa_number k : In (k, n) private_calls -> shown_as n ("unknown-syscall(" ++ k ++ ")").
Definition quoted (s : string) : string := String """" (s ++ String """" "").
(* What a record says of the calls of the program: a call with an inspected
   argument is taken from records of calls, any other from records of the
   filter. *)
Inductive records (comm : string) (r : arecord) : list acall -> Prop :=
| rc_other : ~ (field_is r "type" "SECCOMP" \/ field_is r "type" "SYSCALL") \/ ~ field_is r "comm" (quoted comm) -> records comm r []
| rc_skipped f n : field_is r "comm" (quoted comm) -> first_field r "syscall" f -> af_text f <> "" -> shown_as n (af_shown f) ->
    (field_is r "type" "SECCOMP" /\ (exists i, first_entry inspected n i)) \/ (field_is r "type" "SYSCALL" /\ (forall i, ~ first_entry inspected n i)) ->
    records comm r []
| rc_plain f n : field_is r "comm" (quoted comm) -> first_field r "syscall" f -> af_text f <> "" -> shown_as n (af_shown f) ->
    field_is r "type" "SECCOMP" -> (forall i, ~ first_entry inspected n i) -> records comm r [ACall n []]
| rc_inspected f n i g ps : field_is r "comm" (quoted comm) -> first_field r "syscall" f -> af_text f <> "" -> shown_as n (af_shown f) ->
    field_is r "type" "SYSCALL" -> first_entry inspected n i -> first_field r ("a" ++ digit_of (N.of_nat i)) g -> af_text g <> "" -> af_shown g = parts_text ps ->
    records comm r [ACall n ps].
(* A log, which is not empty, and the calls that its records say, in order. *)
Definition log_records (comm : string) (l : alog) (cs : list acall) : Prop :=
  (exists r e t, l = (r :: e) :: t) /\ exists css, Forall2 (records comm) (concat l) css /\ cs = concat css.
(* A file of strace that shows the same calls. *)
Definition same_calls (f : tfile) (cs : list acall) : Prop :=
  Forall2 (fun l c => exists t, l = Call t /\ policy_name (tf_name f) (tc_name t) (ac_name c) /\
                      ((exists i, first_entry inspected (ac_name c) i) -> tc_value t = ac_value c)) (tf_lines f) cs.
(* Calls of which a policy can speak. *)
Definition acall_ok (a : parch) (c : acall) : Prop :=
  plain_name (ac_name c) /\ (reserved (ac_name c) -> ac_name c = "kill") /\ ~ In (ac_name c) arm_calls /\
  (exists nr, first_entry (pa_syscalls a) (ac_name c) nr) /\
  forall i, first_entry inspected (ac_name c) i -> ac_value c <> [] /\ Forall (part_ok a) (ac_value c).
(* Nothing is missing from a record of the program: there is a call and, when
   its argument is inspected, that argument. *)
Definition complete (comm : string) (r : arecord) : Prop :=
  field_is r "comm" (quoted comm) -> field_is r "type" "SECCOMP" \/ field_is r "type" "SYSCALL" ->
  exists f, first_field r "syscall" f /\ af_text f <> "" /\
  forall n i, shown_as n (af_shown f) -> first_entry inspected n i -> field_is r "type" "SYSCALL" ->
  exists g, first_field r ("a" ++ digit_of (N.of_nat i)) g /\ af_text g <> "".
