(* Property theorems: sizes, paths, environments (C15, C17, C18). *)
From Verif Require Import P_Util.
Local Open Scope string_scope.

(* C15: success exactly on the documented texts whose value fits 64 bits, with
   that value; every other outcome leaves the result untouched (the model's
   error outcomes carry no value). *)
Theorem C15_parse_size_exact : forall s n,
  parse_size s = SizeOk n <-> size_text s n /\ (n < 2 ^ 64)%N.
Proof. exact parse_size_ok. Qed.
Print Assumptions C15_parse_size_exact.
Example C15_case : parse_size "3G" = SizeOk 3221225472 /\ size_text "3G" 3221225472 /\
  parse_size "16E" = SizeRange /\ parse_size "18446744073709551616" = SizeRange /\
  parse_size "1KK" = SizeInval /\ parse_size "-1" = SizeInval.
Proof. exact size_case. Qed.

(* C17: on absolute paths given by their components it is strict containment;
   on arbitrary texts it is prefix with a boundary at a slash. *)
Theorem C17_path_components : forall a b, Forall component a -> Forall component b ->
  (path_is_parent (abs_path a) (abs_path b) = BVal true <-> exists c t, b = (a ++ c :: t)%list).
Proof. exact path_parent_components. Qed.
Print Assumptions C17_path_components.
Theorem C17_path_text : forall p c, p <> "" ->
  (path_is_parent p c = BVal true <->
   exists r, c = p ++ r /\ r <> "" /\ ((exists q, p = q ++ "/") \/ exists q, r = "/" ++ q)).
Proof. exact path_parent_spec. Qed.
Print Assumptions C17_path_text.
Example C17_case : Forall component ["usr"; "lib"] /\
  path_is_parent (abs_path ["usr"]) (abs_path ["usr"; "lib"]) = BVal true /\
  path_is_parent (abs_path ["usr"]) "/usrlocal" = BVal false.
Proof. exact path_case. Qed.
(* The excluded case is a read before the start of the string. *)
Theorem C17_empty_parent_refuted : path_is_parent "" "x" = BUb.
Proof. exact empty_parent_ub. Qed.
Print Assumptions C17_empty_parent_refuted.

(* C18: any history of operations behaves as on a map; names stay distinct;
   entries for other names keep their number of occurrences. *)
Theorem C18_history : forall ops e, distinct e -> Forall op_ok ops ->
  distinct (fold_left env_step ops e) /\
  forall n, var_name n ->
    minijail_getenv (fold_left env_step ops e) n = fold_left store_step ops (minijail_getenv e) n.
Proof. exact env_history. Qed.
Print Assumptions C18_history.
Theorem C18_lookup : forall e n v, distinct e -> var_name n ->
  (minijail_getenv e n = Some v <-> has_value e n v).
Proof. exact getenv_spec. Qed.
Print Assumptions C18_lookup.
Theorem C18_others_kept : forall e o n x, op_ok o ->
  (o = UnsetVar n \/ exists v ow, o = SetVar n v ow) -> ~ for_name n x ->
  count_occ string_dec (env_step e o) x = count_occ string_dec e x.
Proof. exact env_others. Qed.
Print Assumptions C18_others_kept.
Theorem C18_results : forall e n v ow, var_name n ->
  fst (minijail_setenv e n v ow) = 0%N /\
  (fst (minijail_unsetenv e n) = true <-> exists x, In x e /\ for_name n x).
Proof. exact env_results. Qed.
Print Assumptions C18_results.
Example C18_case :
  distinct ["PATH=/bin"; "HOME=/"; "junk"] /\ Forall op_ok [SetVar "HOME" "/root" true; UnsetVar "PATH"] /\
  fold_left env_step [SetVar "HOME" "/root" true; UnsetVar "PATH"] ["PATH=/bin"; "HOME=/"; "junk"] =
    ["junk"; "HOME=/root"].
Proof. exact env_case. Qed.
