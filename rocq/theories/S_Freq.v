(* Specification: how often a call is in the traces. *)
From Coq Require Import String Ascii List NArith ZArith Bool.
From Verif Require Import S_Gen.
Import ListNotations.
Local Open Scope N_scope.

(* The lines of the traces, each with the name of its file. *)
Definition all_lines (tr : list tfile) : list (string * tline) := flat_map (fun f => map (pair (tf_name f)) (tf_lines f)) tr.
(* [n]: the name of a call in policies. *)
Inductive times (n : string) : list (string * tline) -> N -> Prop :=
| tm_nil : times n [] 0
| tm_call f c r k : policy_name f (tc_name c) n -> times n r k -> times n ((f, Call c) :: r) (k + 1)
| tm_not f c r k : ~ policy_name f (tc_name c) n -> times n r k -> times n ((f, Call c) :: r) k
| tm_other f s r k : times n r k -> times n ((f, Other s) :: r) k.
(* The calls of the traces with their numbers, and once those that every
   program needs. *)
Definition frequency_of (tr : list tfile) (n : string) (k : N) : Prop :=
  exists m, times n (all_lines tr) m /\ ((0 < m /\ k = m) \/ (m = 0 /\ In n basic /\ k = 1)).
