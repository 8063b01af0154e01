(* Property theorems: text splitting (C16) and constants (C09). *)
From Verif Require Import P_ConstExpr P_Atom.
Local Open Scope string_scope.

(* C16: the pieces obtained by calling tokenize until exhaustion are the
   string cut at the delimiter. *)
Theorem C16_tokenize : forall d s ps, d <> "" -> (tokens d s = ps <-> splits d s ps).
Proof. exact tokens_spec. Qed.
Print Assumptions C16_tokenize.

(* C16: joined with the delimiter they give back the string, and none
   contains it. *)
Theorem C16_tokenize_lossless : forall d s, d <> "" ->
  String.concat d (tokens d s) = s /\ Forall (fun p => ~ contains d p) (tokens d s).
Proof. exact tokens_lossless. Qed.
Print Assumptions C16_tokenize_lossless.
Example C16_tokenize_case : tokens "||" "a||b|c||||" = ["a"; "b|c"; ""; ""].
Proof. reflexivity. Qed.

Theorem C16_strip : forall raw s, strip raw = s <-> stripped raw s.
Proof. exact strip_spec. Qed.
Print Assumptions C16_strip.
Example C16_strip_case : strip "  a b  " = "a b".
Proof. reflexivity. Qed.

(* C09: a constant is accepted exactly when it is a well-formed expression
   that fits the machine word, with the value of that expression. *)
Theorem C09_constants : forall w tbl, (0 < w)%N -> names_ok tbl ->
  forall s v, parse_constant w tbl s = POk v <-> const_expr w tbl s v.
Proof. exact parse_constant_spec. Qed.
Print Assumptions C09_constants.

(* C09: every other text is rejected (the parser always ends). *)
Theorem C09_rejects : forall w tbl, (0 < w)%N -> names_ok tbl ->
  forall s, (forall v, ~ const_expr w tbl s v) -> parse_constant w tbl s = PErr.
Proof. exact parse_constant_rejects. Qed.
Print Assumptions C09_rejects.

(* C09: values fit the machine word. *)
Theorem C09_in_range : forall w tbl, (0 < w)%N -> names_ok tbl ->
  forall s v, const_expr w tbl s v -> (v < 2 ^ w)%N.
Proof. exact const_in_range. Qed.
Print Assumptions C09_in_range.

Example C09_case :
  names_ok [("O_RDWR", 2%N)] /\
  parse_constant 64 [("O_RDWR", 2%N)] "~(O_RDWR|0x10)|017" = POk 18446744073709551599.
Proof. exact constants_case. Qed.
Example C09_overflow_case :
  parse_constant 64 [] "18446744073709551615" = POk 18446744073709551615 /\
  parse_constant 64 [] "18446744073709551616" = PErr /\
  parse_constant 64 [] "-9223372036854775809" = PErr.
Proof. vm_compute. auto. Qed.
