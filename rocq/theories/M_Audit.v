(* Model of tools/generate_seccomp_policy.py for logs of the Linux audit
   subsystem: from the records that the auparse library delivers, and the texts
   of the logs of strace, to the text of the policy.
   Simplifications: auparse is not modelled: a log is given as what its calls
   return (events, records, fields with their text and their interpretation);
   the choice between the two kinds of logs (74-107), the frequency file and
   the messages are left out.  None is an exception. *)
From Verif Require Import M_Gen.
Local Open Scope N_scope.
Local Open Scope string_scope.

(* get_field_name(), get_field_str(), interpret_field() *)
Record afield := AField { af_name : string; af_text : string; af_shown : string }.
Definition arecord := list afield.
Definition aevent := list arecord.
Definition alog := list aevent.

(* 246-252 _find_field_in_current_record *)
Fixpoint find_field (r : arecord) (name : string) : option afield :=
  match r with [] => None | f :: t => if String.eqb (af_name f) name then Some f else find_field t name end.
Definition field_str (r : arecord) (name : string) : option string := option_map af_text (find_field r name).

(* 223 unknown_syscall_re, with int() of its group (285) *)
Fixpoint syscall_num (s : string) (some : bool) (n : N) : option N :=
  match s with
  | EmptyString => None
  | String c t => if is_digit c then syscall_num t true (10 * n + (N_of_ascii c - 48)) else if is_c ")" c && some then Some n else None
  end.
Fixpoint after (p s : string) : option string :=
  match p, s with
  | EmptyString, _ => Some s
  | String c p, String d s => if Ascii.eqb c d then after p s else None
  | _, EmptyString => None
  end.
Definition unknown_syscall (s : string) : option N :=
  match after "unknown-syscall(" s with Some t => syscall_num t false 0 | None => None end.
(* 283-286: PRIVATE_ARM_SYSCALLS.get(syscall_num, syscall) *)
Fixpoint arm_get (n : N) (l : list (N * string)) (default : string) : string :=
  match l with [] => default | (m, s) :: t => if N.eqb m n then s else arm_get n t default end.
Definition syscall_name (shown : string) : string :=
  match unknown_syscall shown with Some n => arm_get n PRIVATE_ARM_SYSCALLS shown | None => shown end.

Section parsing.
Variable audit_comm : string.
Definition is_str (o : option string) (s : string) : bool := match o with Some x => String.eqb x s | None => false end.
Definition QUOTE : string := String """" "".
(* 233-237, 262-265: the search for events and the test of records *)
Definition relevant (r : arecord) : bool :=
  (is_str (field_str r "type") "SECCOMP" || is_str (field_str r "type") "SYSCALL") && is_str (field_str r "comm") (QUOTE ++ audit_comm ++ QUOTE).
(* 258-311: one record.  [not field]: missing or empty *)
Definition parse_record (st : traced) (r : arecord) : option traced :=
  if negb (relevant r) then Some st else
  let seccomp := is_str (field_str r "type") "SECCOMP" in
  match find_field r "syscall" with
  | None => None
  | Some f =>
      if String.eqb (af_text f) "" then None else
      let syscall := syscall_name (af_shown f) in
      match lookup syscall arg_inspection with
      | Some i =>
          if seccomp then Some st else
          match find_field r ("a" ++ String (ascii_of_nat (48 + i)) "") with
          | None => None
          | Some g => if String.eqb (af_text g) "" then None
                      else Some (Traced (count syscall (t_counts st)) (add_value syscall (af_shown g) (t_values st)))
          end
      | None => if seccomp then Some (Traced (count syscall (t_counts st)) (t_values st)) else Some st
      end
  end.
Fixpoint parse_records (st : traced) (rs : list arecord) : option traced :=
  match rs with
  | [] => Some st
  | r :: t => match parse_record st r with Some st => parse_records st t | None => None end
  end.
(* 254-257: events with a relevant record *)
Fixpoint parse_events (st : traced) (es : list aevent) : option traced :=
  match es with
  | [] => Some st
  | e :: t => if existsb relevant e then match parse_records st e with Some st => parse_events st t | None => None end else parse_events st t
  end.
(* 220-311 parse_audit_log, with the check of the first record (228) *)
Definition parse_audit_log (st : traced) (l : alog) : option traced :=
  match l with (_ :: _) :: _ => parse_events st l | _ => None end.
(* 346-347: every log in turn *)
Fixpoint parse_logs (st : traced) (ls : list alog) : option traced :=
  match ls with
  | [] => Some st
  | l :: t => match parse_audit_log st l with Some st => parse_logs st t | None => None end
  end.
(* 314-390 main, with both kinds of logs.  [order]: the order in which a set is
   walked *)
Definition generate_all (order : list string -> list string) (year : string) (frequency : bool) (files : list (string * string)) (logs : list alog) : option string :=
  match parse_traces (Traced [] []) files with
  | None => None
  | Some st =>
      match parse_logs st logs with
      | None => None
      | Some st => Some (NOTICE year ++ NL ++ String.concat "" (map (policy_line order (t_values st)) (sorted_syscalls frequency (with_basic (t_counts st)))))
      end
  end.
End parsing.
