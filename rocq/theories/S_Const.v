(* Specification: the constant expressions of policy files.
   Documented in /repo/util.c:324-338 and minijail0(5). *)
From Coq Require Import String Ascii List ZArith NArith Bool.
From Verif Require Import S_Text.
Import ListNotations.
Local Open Scope string_scope.

(* [c] is the digit of value [v]. *)
Definition digit (c : ascii) (v : N) : Prop :=
  get (N.to_nat v) "0123456789abcdefghijklmnopqrstuvwxyz" = Some c \/
  get (N.to_nat v) "0123456789ABCDEFGHIJKLMNOPQRSTUVWXYZ" = Some c.

(* Positional value of a non-empty digit string. *)
Inductive digits_val (base : N) : string -> N -> Prop :=
| dv_one c v : digit c v -> (v < base)%N -> digits_val base (String c "") v
| dv_snoc s n c v : digits_val base s n -> digit c v -> (v < base)%N ->
    digits_val base (s ++ String c "") (n * base + v)%N.

(* C integer literals: decimal, octal after a leading 0, hexadecimal after
   0x. *)
Inductive magnitude : string -> N -> Prop :=
| mag_dec s n : (forall t, s <> String "0" t) -> digits_val 10 s n -> magnitude s n
| mag_oct s n : digits_val 8 (String "0" s) n -> magnitude (String "0" s) n
| mag_hex s n : digits_val 16 s n -> magnitude ("0x" ++ s) n
| mag_Hex s n : digits_val 16 s n -> magnitude ("0X" ++ s) n.

Definition space_char (c : ascii) : Prop :=
  c = " "%char \/ (9 <= N_of_ascii c <= 13)%N.

(* Optional white space, an optional sign, a literal read by [mag]. *)
Inductive signed (mag : string -> N -> Prop) : string -> Z -> Prop :=
| sg_plain sp s n : all_chars space_char sp -> mag s n -> signed mag (sp ++ s) (Z.of_N n)
| sg_plus sp s n : all_chars space_char sp -> mag s n -> signed mag (sp ++ "+" ++ s) (Z.of_N n)
| sg_minus sp s n : all_chars space_char sp -> mag s n -> signed mag (sp ++ "-" ++ s) (- Z.of_N n).

Definition c_integer : string -> Z -> Prop := signed magnitude.
Definition decimal_integer : string -> Z -> Prop := signed (digits_val 10).

(* First entry of that name in a table. *)
Inductive first_entry {A} : list (string * A) -> string -> A -> Prop :=
| fe_here n v t : first_entry ((n, v) :: t) n v
| fe_later m x n v t : m <> n -> first_entry t n v -> first_entry ((m, x) :: t) n v.

Section Grammar.
  Variable w : N.                        (* width of long *)
  Variable tbl : list (string * N).      (* named constants *)

  (* A name of the table, or an integer that fits in a signed or an unsigned
     w-bit word, read modulo 2^w. *)
  Inductive simple_const : string -> N -> Prop :=
  | sc_name s v : first_entry tbl s v -> simple_const s (v mod 2 ^ w)
  | sc_int s z :
      (forall v, ~ first_entry tbl s v) -> c_integer s z ->
      (- 2 ^ (Z.of_N w - 1) <= z < 2 ^ Z.of_N w)%Z ->
      simple_const s (Z.to_N (z mod 2 ^ Z.of_N w)).

  Definition complement (v : N) : N := (2 ^ w - 1 - v)%N.

  (* Terms, their complements, and alternatives joined by |.  The code also
     accepts one | after a last term without parentheses (const_bar). *)
  Inductive const_expr : string -> N -> Prop :=
  | const_last s v : const_term s v -> const_expr s v
  | const_bar s v : plain_term s v -> const_expr (s ++ "|") v
  | const_or s v r v' : const_term s v -> const_expr r v' ->
      const_expr (s ++ "|" ++ r) (N.lor v v')
  with const_term : string -> N -> Prop :=
  | term_plain s v : plain_term s v -> const_term s v
  | term_paren s v : const_expr s v -> const_term ("(" ++ s ++ ")") v
  | term_not_paren s v : const_expr s v -> const_term ("~(" ++ s ++ ")") (complement v)
  with plain_term : string -> N -> Prop :=
  | plain_simple s v : simple_const s v -> plain_term s v
  | plain_not s v : simple_const s v -> plain_term ("~" ++ s) (complement v).

End Grammar.

(* What the generated table must satisfy for the grammar to be unambiguous:
   names are not empty and contain none of ( ) | ~ (they are C identifiers). *)
Definition names_ok (tbl : list (string * N)) : Prop :=
  Forall (fun e => fst e <> "" /\
    all_chars (fun c => c <> "("%char /\ c <> ")"%char /\ c <> "|"%char /\ c <> "~"%char)
              (fst e)) tbl.
