(* Specification of paths as sequences of components, and of what a path
   inside a jail denotes outside. *)
From Verif Require Import S_Jail.
Local Open Scope string_scope.

(* The components of a path: the non-empty pieces between slashes. *)
Fixpoint pieces (s : string) : list string :=
  match s with
  | EmptyString => [""]
  | String c r =>
      match pieces r with
      | h :: t => if Ascii.eqb c "/"%char then "" :: h :: t else String c h :: t
      | [] => []
      end
  end.
Definition components (s : string) : list string :=
  filter (fun p => negb (String.eqb p "")) (pieces s).

(* [below d p]: the components that lead from directory d to p. *)
Fixpoint below_list (d p : list string) : option (list string) :=
  match d, p with
  | [], r => Some r
  | x :: d', y :: p' => if String.eqb x y then below_list d' p' else None
  | _ :: _, [] => None
  end.
Definition below (d p : string) : option (list string) := below_list (components d) (components p).
Definition inside (d p : string) : bool := match below d p with Some _ => true | None => false end.

(* The file a path denotes: in the mount made last among those whose
   destination contains the path - nowhere outside if that mount is not a bind
   mount (flag 4096) - and otherwise under the root directory. *)
Fixpoint covering (ms : list mountpoint) (p : string) : option mountpoint :=
  match ms with
  | [] => None
  | m :: t => match covering t p with
              | Some m' => Some m'
              | None => if inside (m_dest m) p then Some m else None
              end
  end.
Definition original (ms : list mountpoint) (root : option string) (p : string) : option (list string) :=
  match covering ms p with
  | Some m => if N.testbit (m_flags m) 12
              then match below (m_dest m) p with Some r => Some (components (m_src m) ++ r)%list | None => None end
              else None
  | None => Some ((match root with Some d => components d | None => [] end) ++ components p)%list
  end.

(* The components after removing "." and resolving "..". *)
Fixpoint resolve_dots (acc cs : list string) : list string :=
  match cs with
  | [] => rev acc
  | c :: t => if String.eqb c "." then resolve_dots acc t
              else if String.eqb c ".." then resolve_dots (List.tl acc) t
              else resolve_dots (c :: acc) t
  end.
Definition lies_under (prefix path : string) : Prop :=
  exists r, r <> [] /\ resolve_dots [] (components path) = (components prefix ++ r)%list.

(* A bind source is acceptable when its resolution is itself, up to one
   trailing slash, or it is textually below an allowed prefix. *)
Definition resolves_to_itself (path : string) (rp : option string) : Prop :=
  exists q, rp = Some q /\ (path = q \/ path = q ++ "/").
Definition textually_under (prefix path : string) : Prop :=
  exists r, path = prefix ++ r /\ r <> "" /\ ((exists q, prefix = q ++ "/") \/ exists q, r = "/" ++ q).
