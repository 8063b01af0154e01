(* Specification: size strings, paths, environments. *)
From Coq Require Import String Ascii List NArith Bool Permutation.
From Verif Require Import S_Text S_Const.
Import ListNotations.
Local Open Scope string_scope.

(* "12", "12K", ...: a decimal number, times 1024^k for the k-th suffix. *)
Inductive size_text : string -> N -> Prop :=
| size_plain s n : digits_val 10 s n -> size_text s n
| size_suffix s n c k : digits_val 10 s n -> get k "KMGTPE" = Some c ->
    size_text (s ++ String c "") (n * 1024 ^ N.of_nat (S k)).

(* Paths as lists of components. *)
Definition component (c : string) : Prop := c <> "" /\ all_chars (fun x => x <> "/"%char) c.
Fixpoint slashed (cs : list string) : string :=
  match cs with [] => "" | c :: t => "/" ++ c ++ slashed t end.
(* The absolute path with these components. *)
Definition abs_path (cs : list string) : string :=
  match cs with [] => "/" | _ => slashed cs end.

(* Environments as maps. *)
Definition var_name (n : string) : Prop := n <> "" /\ all_chars (fun x => x <> "="%char) n.
(* [entry] defines variable [n]. *)
Definition for_name (n entry : string) : Prop := exists v, entry = n ++ "=" ++ v.
Definition has_value (e : list string) (n v : string) : Prop := In (n ++ "=" ++ v) e.
(* No variable is defined twice. *)
Definition distinct (e : list string) : Prop :=
  forall n, var_name n -> forall a x b y c,
    e = (a ++ x :: b ++ y :: c)%list -> ~ (for_name n x /\ for_name n y).

Inductive env_op := SetVar (n v : string) (overwrite : bool) | UnsetVar (n : string).
Definition op_ok (o : env_op) : Prop :=
  match o with SetVar n _ _ => var_name n | UnsetVar n => var_name n end.

Definition store := string -> option string.
Definition store_step (m : store) (o : env_op) : store :=
  fun x => match o with
           | SetVar n v ow =>
               if String.eqb x n
               then match m n with Some old => if ow then Some v else Some old | None => Some v end
               else m x
           | UnsetVar n => if String.eqb x n then None else m x
           end.
