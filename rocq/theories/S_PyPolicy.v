(* Specification: what a policy for tools/compile_seccomp_policy.py says.
   From the model only the data types are used: comparisons, filters,
   statements, architectures. *)
From Verif Require Export S_Bpf S_Policy.
From Verif Require Import M_PyComp.
Local Open Scope N_scope.

(* The value of an argument on an architecture with [bits]-bit words. *)
Definition arg_of (bits : N) (d : sdata) (i : N) : N := sd_arg d (N.to_nat i) mod 2 ^ bits.
Definition cond_holds (bits : N) (d : sdata) (a : patom) : bool :=
  op_holds (p_op a) (arg_of bits d (p_arg a)) (p_val a).
(* An expression is a disjunction of conjunctions; no expression: always. *)
Definition applies (bits : N) (d : sdata) (f : filt) : bool :=
  match f_expr f with None => true | Some e => existsb (forallb (cond_holds bits d)) e end.
(* The action of the first filter that applies, or else [v]. *)
Fixpoint first_match (bits : N) (d : sdata) (v : N) (fs : list filt) : N :=
  match fs with
  | [] => v
  | f :: r => if applies bits d f then a_val (f_act f) else first_match bits d v r
  end.

(* The filters the policy gives for a system call, in the order of the file. *)
Definition filters_for (nr : N) (ss : list statement) : list filt :=
  flat_map (fun s => flat_map (fun c => if snd c =? nr then st_filters s else []) (st_calls s)) ss.
Definition calls (ss : list statement) : list (string * N) := flat_map st_calls ss.
Definition listed (nr : N) (ss : list statement) : bool := existsb (fun c => snd c =? nr) (calls ss).

(* What the policy says about a system call of its architecture.  With a
   denylist the system calls that are not listed are allowed. *)
Definition decision (bits : N) (denylist : bool) (default : N) (ss : list statement) (d : sdata) : N :=
  if listed (sd_nr d) ss then first_match bits d default (filters_for (sd_nr d) ss)
  else if denylist then ALLOW else default.

(* The action that is left for a system call when no condition holds. *)
Definition last_resort (default : N) (fs : list filt) : N :=
  match find (fun f => match f_expr f with None => true | Some _ => false end) fs with
  | Some f => a_val (f_act f)
  | None => default
  end.

(* Policies as the parser makes them: words of 32 or 64 bits, constants of at
   most a word, arguments 0 to 5, a system call number has one name; an object
   that occurs twice has one value. *)
Definition atom_fits (bits : N) (a : patom) : Prop := p_arg a < 6 /\ p_val a < 2 ^ bits.
Definition filt_fits (bits : N) (f : filt) : Prop :=
  a_val (f_act f) < 2 ^ 32 /\
  match f_expr f with None => True | Some e => Forall (Forall (atom_fits bits)) e end.
Definition actions (default : act) (ss : list statement) : list act :=
  default :: flat_map (fun s => map f_act (st_filters s)) ss.
Definition policy_ok (a : arch) (default : act) (ss : list statement) : Prop :=
  (arch_bits a = 32 \/ arch_bits a = 64) /\ arch_nr a < 2 ^ 32 /\ a_val default < 2 ^ 32 /\
  (forall s f, In s ss -> In f (st_filters s) -> filt_fits (arch_bits a) f) /\
  (forall x y, In x (actions default ss) -> In y (actions default ss) -> a_id x = a_id y -> x = y) /\
  (forall c, In c (calls ss) -> snd c < 2 ^ 32 - 1).
Definition one_name (ss : list statement) : Prop :=
  forall c c', In c (calls ss) -> In c' (calls ss) -> snd c = snd c' -> c = c'.
