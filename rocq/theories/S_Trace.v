(* Order of calls in a trace. *)
From Verif Require Export M_Io.

(* The call was made and succeeded. *)
Definition worked (c : call) (t : list event) : Prop := exists v s, In (c, Yes v s) t.

(* No call of the first kind comes after a call of the second kind. *)
Definition never_after (P Q : call -> bool) (t : list event) : Prop :=
  forall t1 c x t2, t = t1 ++ (c, x) :: t2 -> Q c = true -> forall ev, In ev t2 -> P (fst ev) = false.
(* Every call of the first kind has one of the second kind, which worked, before it. *)
Definition only_after (P Q : call -> bool) (t : list event) : Prop :=
  forall t1 c x t2, t = t1 ++ (c, x) :: t2 -> P c = true ->
  exists c' v s, In (c', Yes v s) t1 /\ Q c' = true.
