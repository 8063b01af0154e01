(* Model of the constant-expression parser and the table lookups of
   /repo/util.c. *)
From Verif Require Export M_CStr.
Local Open Scope N_scope.

(* constant_table (generated; /repo/constants.h): names and unsigned long
   values, first match wins.  The table is a parameter. *)
Definition consts := list (string * N).

Fixpoint assoc {A} (n : string) (l : list (string * A)) : option A :=
  match l with
  | [] => None
  | (m, v) :: l' => if String.eqb m n then Some v else assoc n l'
  end.

(* util.c:222-266 parse_single_constant for a w-bit long.  A long is
   represented by its w-bit pattern; None models the error convention
   *endptr == constant_str. *)
Definition parse_single_constant (w : N) (tbl : consts) (s : string) : option N :=
  match assoc s tbl with
  | Some v => Some (v mod 2 ^ w)
  | None =>
      let '(res, rest, erange) := strtol w 0 s in
      if erange then
        if (res =? 2 ^ (Z.of_N w - 1) - 1)%Z then
          let '(ures, rest', erange') := strtoul w 0 s in
          if erange' then None
          else match rest' with
               | EmptyString => Some ures
               | _ => None
               end
        else None
      else match rest with
           | EmptyString =>
               (* no digits: endptr = constant_str *)
               if String.eqb s rest then None else Some (to_word w res)
           | _ => None
           end
  end.

(* util.c:268-301 tokenize_parenthesized_expression, called with the text
   after the opening parenthesis and depth 1 (paren_count = depth): the text inside and the
   text after the matching parenthesis. *)
Fixpoint paren_split (depth : nat) (s : string) : option (string * string) :=
  match s with
  | EmptyString => None
  | String c s' =>
      if Ascii.eqb c "("%char then
        match paren_split (S depth) s' with
        | Some (a, b) => Some (String c a, b)
        | None => None
        end
      else if Ascii.eqb c ")"%char then
        match depth with
        | S (S d) =>
            match paren_split (S d) s' with
            | Some (a, b) => Some (String c a, b)
            | None => None
            end
        | _ => Some (EmptyString, s')
        end
      else
        match paren_split depth s' with
        | Some (a, b) => Some (String c a, b)
        | None => None
        end
  end.

(* Outcome of the parser; PFuel never happens (P_Const.parse_constant_fuel). *)
Inductive pres := POk (v : N) | PErr | PFuel.

(* ~current_value on a w-bit long (util.c:384) *)
Definition wnot (w v : N) : N := N.lxor v (N.ones w).

(* util.c:303-390 parse_constant: [acc] is |value|, [first] says that the loop
   has not run yet (so *endptr would be constant_str: an error).  Recursion on
   fuel; every iteration and every nested call consumes a character. *)
Fixpoint parse_constant_loop (fuel : nat) (w : N) (tbl : consts)
         (acc : N) (first : bool) (s : string) : pres :=
  match fuel with
  | O => PFuel
  | S fuel' =>
      match s with
      | EmptyString => if first then PErr else POk acc
      | String c0 s0 =>
          let negate := Ascii.eqb c0 "~"%char in
          let s1 := if negate then s0 else s in
          let add v := N.lor acc (if negate then wnot w v else v) in
          if has_prefix "(" s1 then
            match paren_split 1 (sdrop 1 s1) with
            | None => PErr
            | Some (group, rest) =>
                match parse_constant_loop fuel' w tbl 0 true group with
                | POk v =>
                    if String.eqb rest "" then parse_constant_loop fuel' w tbl (add v) false ""
                    else if negb (has_prefix "|" rest) then PErr
                    else if String.eqb (sdrop 1 rest) "" then PErr
                    else parse_constant_loop fuel' w tbl (add v) false (sdrop 1 rest)
                | e => e
                end
            end
          else
            match tokenize "|" s1 with
            | (tok, rest) =>
                match parse_single_constant w tbl tok with
                | None => PErr
                | Some v =>
                    parse_constant_loop fuel' w tbl (add v) false
                      (match rest with Some r => r | None => "" end)
                end
            end
      end
  end.

Definition parse_constant (w : N) (tbl : consts) (s : string) : pres :=
  parse_constant_loop (S (S (String.length s))) w tbl 0 true s.

(* syscall_table (generated): names and non-negative numbers, ended by a
   sentinel that is not part of this list.  util.c:196-211 lookup_syscall:
   number and index. *)
Definition syscalls := list (string * N).

Fixpoint lookup_syscall_from (i : N) (tbl : syscalls) (n : string) : option (N * N) :=
  match tbl with
  | [] => None
  | (m, nr) :: t => if String.eqb m n then Some (nr, i) else lookup_syscall_from (i + 1) t n
  end.
Definition lookup_syscall (tbl : syscalls) (n : string) : option (N * N) :=
  lookup_syscall_from 0 tbl n.
