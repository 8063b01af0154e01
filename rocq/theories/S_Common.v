(* Specification: policies that both compilers take, as they are written and
   what they decide.  From the models only data types are used. *)
From Coq Require Import String Ascii List NArith ZArith Bool.
From Verif Require Import S_Bpf S_Text S_Const S_Policy.
From Verif Require Import M_PyParse S_PyText.
Import ListNotations.
Local Open Scope string_scope.

(* ---- Policies ---- *)
(* A constant as it is written, and its value. *)
Record part := Part { pt_word : string; pt_value : N }.
(* argument, operator, constants (or their complements) joined by | *)
Record catom := CAtom { ca_arg : N; ca_op : op; ca_parts : list part }.
Inductive crule := CAllow | CReturn (x : part) | CCond (alts : list (list catom)).
Inductive cline := CBlank | CComment (t : string) | CRule (name : string) (nr : N) (r : crule).

(* ---- How they are written ---- *)
Definition op_word (o : op) : string :=
  match o with
  | M_Bpf.EQ => "==" | M_Bpf.NE => "!=" | M_Bpf.LT => "<" | M_Bpf.LE => "<="
  | M_Bpf.GT => ">" | M_Bpf.GE => ">=" | M_Bpf.SET => "&" | M_Bpf.IN => "in"
  end.
Definition digit_of (i : N) : string := String (ascii_of_N (48 + i)) "".
Definition parts_text (l : list part) : string := String.concat "|" (map pt_word l).
Definition atom_text (x : catom) : string :=
  "arg" ++ digit_of (ca_arg x) ++ " " ++ op_word (ca_op x) ++ " " ++ parts_text (ca_parts x).
Definition alt_text (l : list catom) : string := String.concat " && " (map atom_text l).
Definition rule_text (r : crule) : string :=
  match r with
  | CAllow => "1"
  | CReturn x => "return " ++ pt_word x
  | CCond alts => String.concat " || " (map alt_text alts)
  end.
Definition line_text (l : cline) : string :=
  match l with CBlank => "" | CComment t => "#" ++ t | CRule name _ r => name ++ ": " ++ rule_text r end.
Fixpoint policy_text (p : list cline) : string :=
  match p with [] => "" | l :: t => line_text l ++ String newline (policy_text t) end.

(* ---- What they decide ---- *)
Definition parts_value (l : list part) : N := fold_right (fun x v => N.lor (pt_value x) v) 0%N l.
Definition catom_holds (bits : N) (d : sdata) (x : catom) : bool :=
  op_holds (ca_op x) (sd_arg d (N.to_nat (ca_arg x)) mod 2 ^ bits) (parts_value (ca_parts x)).
Definition crule_value (bits : N) (d : sdata) (otherwise : N) (r : crule) : N :=
  match r with
  | CAllow => ALLOW
  | CReturn x => ERRNO (pt_value x)
  | CCond alts => if existsb (forallb (catom_holds bits d)) alts then ALLOW else otherwise
  end.
Fixpoint common_decision (bits : N) (otherwise : N) (p : list cline) (d : sdata) : N :=
  match p with
  | [] => otherwise
  | CRule _ nr r :: t => if (nr =? sd_nr d)%N then crule_value bits d otherwise r else common_decision bits otherwise t d
  | _ :: t => common_decision bits otherwise t d
  end.

(* ---- Which policies, for which tables ---- *)
Definition plain_name (s : string) : Prop := exists c t, s = String c t /\ (letter c \/ c = "_"%char) /\ all_chars word_char t.
Definition reserved (s : string) : Prop :=
  s = "in" \/ s = "return" \/ In s actions_named \/ exists ds, s = "arg" ++ ds /\ one_of dec_digit ds.
(* C numbers, with or without a minus *)
Inductive c_number : string -> Z -> Prop :=
| cn_plain s n : magnitude s n -> c_number s (Z.of_N n)
| cn_minus s n : magnitude s n -> c_number ("-" ++ s) (- Z.of_N n).
Section tables.
Variable a : parch.
Let bits := arch_bits (pa_arch a).
Definition word_of (z : Z) : N := Z.to_N (z mod 2 ^ Z.of_N bits).
Definition in_word (z : Z) : Prop := (- 2 ^ (Z.of_N bits - 1) <= z < 2 ^ Z.of_N bits)%Z.
Definition const_ok (x : part) : Prop :=
  exists z, in_word z /\ pt_value x = word_of z /\
  ((plain_name (pt_word x) /\ ~ reserved (pt_word x) /\ first_entry (pa_constants a) (pt_word x) z) \/ c_number (pt_word x) z).
(* a constant, or its complement *)
Definition part_ok (x : part) : Prop :=
  const_ok x \/ exists y, const_ok y /\ pt_word x = "~" ++ pt_word y /\ pt_value x = (2 ^ bits - 1 - pt_value y)%N.
Definition catom_ok (x : catom) : Prop := (ca_arg x < 6)%N /\ ca_parts x <> [] /\ Forall part_ok (ca_parts x).
Definition crule_ok (r : crule) : Prop :=
  match r with
  | CAllow => True
  | CReturn x => const_ok x /\ (pt_value x mod 2 ^ 32 <> 2 ^ 32 - 1)%N
  | CCond alts => alts <> [] /\ Forall (fun l => l <> [] /\ Forall catom_ok l) alts
  end.
Definition cline_ok (l : cline) : Prop :=
  match l with
  | CBlank => True
  | CComment t => all_chars (fun c => c <> newline /\ c <> cr /\ c <> "000"%char) t /\ forall u, t <> u ++ "\"
  | CRule name nr r => plain_name name /\ (reserved name -> name = "kill") /\ first_entry (pa_syscalls a) name nr /\ crule_ok r
  end.
(* One rule for a system call. *)
Definition rule_numbers (p : list cline) : list N := flat_map (fun l => match l with CRule _ nr _ => [nr] | _ => [] end) p.
Definition common_ok (p : list cline) : Prop := Forall cline_ok p /\ NoDup (rule_numbers p).
End tables.
(* Room in the C compiler: labels, and instructions (at most). *)
Definition crule_labels (r : crule) : nat := match r with CAllow => 0 | CReturn _ => 1 | CCond alts => 2 + length alts end.
Definition crule_most (r : crule) : nat :=
  match r with CAllow => 2 | CReturn _ => 4 | CCond alts => 6 + list_sum (map (fun g => 2 + 9 * length g) alts) end.
Definition on_rules (f : crule -> nat) (p : list cline) : nat :=
  list_sum (map (fun l => match l with CRule _ _ r => f r | _ => 0 end) p).
(* beside the calls that options allow *)
Definition has_room (more : nat) (p : list cline) : Prop :=
  on_rules crule_labels p <= 512 /\ 5 + 2 * more + on_rules crule_most p <= 4096.
(* Both compilers have the same tables. *)
Definition same_tables (b : build) (a : parch) : Prop :=
  M_Bpf.arch_no (M_Filter.b_plat b) = arch_nr (pa_arch a) /\
  arch_bits (pa_arch a) = (if M_Bpf.bits64 (M_Filter.b_plat b) then 64 else 32)%N /\
  M_Filter.b_syscalls b = pa_syscalls a /\
  M_Filter.b_consts b = map (fun e => (fst e, word_of a (snd e))) (pa_constants a) /\
  Forall (fun e => plain_name (fst e)) (pa_constants a).
(* The default action chosen by the options of the Python compiler. *)
Definition py_default (o : popts) : N := match o_override o with Some v => v | None => o_kill o end.
