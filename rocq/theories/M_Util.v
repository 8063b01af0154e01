(* Model of the remaining pure functions of /repo/util.c: parse_size,
   path_is_parent, path_join and the environment functions. *)
From Verif Require Export M_CStr.
Local Open Scope string_scope.

(* Outcome of parse_size: 0 with *result set, -EINVAL, -ERANGE.  On the last
   two *result is not written (the only store is util.c:436). *)
Inductive size_res := SizeOk (v : N) | SizeInval | SizeRange.

(* util.c:416 static const char suffixes[] = "KMGTPE", 422-433 the loop. *)
Fixpoint scale_by (c : ascii) (i : N) (suffixes : string) (size : N) : size_res :=
  match suffixes with
  | EmptyString => SizeInval
  | String x rest =>
      if Ascii.eqb c x then
        let scale := ((i + 1) * 10)%N in
        (* ~((1 << (64 - scale)) - 1), 64 bits *)
        let mask := N.lxor (N.ones 64) (N.shiftl 1 (64 - scale) - 1) in
        if (N.land size mask =? 0)%N
        then SizeOk (N.shiftl size scale mod 2 ^ 64)
        else SizeRange
      else scale_by c (i + 1) rest size
  end.

(* util.c:392-438.  strtoull is 64 bits wide; its only errno here is ERANGE. *)
Definition parse_size (sizespec : string) : size_res :=
  match sizespec with
  | EmptyString => SizeInval                 (* '\0' < '0' *)
  | String c0 _ =>
      if ((N_of_ascii c0 <? 48) || (57 <? N_of_ascii c0))%N then SizeInval
      else
        let '(size, rest, erange) := strtoul 64 10 sizespec in
        if erange then SizeRange
        else match rest with
             | EmptyString => SizeOk size
             | String c EmptyString => scale_by c 0 "KMGTPE" size
             | String _ (String _ _) => SizeInval
             end
  end.

(* util.c:488-494 *)
Definition path_join (external_path internal_path : string) : string :=
  external_path ++ "/" ++ internal_path.

(* A C boolean, or a read outside an object. *)
Inductive bres := BVal (b : bool) | BUb.

(* util.c:496-510.  With an empty parent and a non-empty child the code reads
   parent[-1]. *)
Definition path_is_parent (parent child : string) : bres :=
  let parent_len := String.length parent in
  if has_prefix parent child then
    if Nat.ltb parent_len (String.length child) then
      match parent_len with
      | O => BUb
      | S n => BVal ((match get n parent with Some c => Ascii.eqb c "/"%char | None => false end)
                     || (match get parent_len child with Some c => Ascii.eqb c "/"%char | None => false end))
      end
    else BVal false
  else BVal false.

(* An environment: the strings of a NULL-terminated char** array, in order.
   Ownership of the strings is not modelled; allocation succeeds. *)
Definition env := list string.

(* util.c:550-572; None models NULL. *)
Definition minijail_copy_env (e : option env) : env :=
  match e with None => [] | Some l => l end.

(* util.c:591-592 *)
Definition env_match (name entry : string) : bool :=
  has_prefix name entry &&
  match get (String.length name) entry with
  | Some c => Ascii.eqb c "="%char
  | None => false          (* the terminating NUL *)
  end.

(* util.c:579-599: index of the first match. *)
Fixpoint getenv_index (e : env) (name : string) : option nat :=
  match e with
  | [] => None
  | x :: t => if env_match name x then Some O
              else match getenv_index t name with
                   | Some i => Some (S i)
                   | None => None
                   end
  end.

Fixpoint set_nth {A} (i : nat) (v : A) (l : list A) : list A :=
  match l, i with
  | [], _ => []
  | _ :: t, O => v :: t
  | x :: t, S i' => x :: set_nth i' v t
  end.

(* util.c:601-639: returned errno (0 or EINVAL = 22) and the new array. *)
Definition minijail_setenv (e : env) (name value : string) (overwrite : bool) : N * env :=
  if String.eqb name "" then (22%N, e)
  else match getenv_index e name with
       | Some i => if overwrite then (0%N, set_nth i (name ++ "=" ++ value) e)
                   else (0%N, e)
       | None => (0%N, (e ++ [(name ++ "=" ++ value)%string])%list)
       end.

(* util.c:680-691 *)
Definition minijail_getenv (e : env) (name : string) : option string :=
  match getenv_index e name with
  | None => None
  | Some i => match nth_error e i with
              | Some x => Some (sdrop (String.length name + 1) x)
              | None => None
              end
  end.

(* util.c:693-711: the last entry takes the place of the removed one. *)
Definition minijail_unsetenv (e : env) (name : string) : bool * env :=
  match getenv_index e name with
  | None => (false, e)
  | Some i => (true, removelast (set_nth i (last e "") e))
  end.
