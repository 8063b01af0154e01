(* Specification: which files are logs of the audit subsystem. *)
From Coq Require Import String Ascii List NArith ZArith Bool.
From Verif Require Import S_Text S_PyText.
Import ListNotations.
Local Open Scope string_scope.

Definition lower (c : ascii) : Prop := (97 <= N_of_ascii c <= 122)%N.
(* Somewhere in the line: a name, arguments in parentheses, an equals sign. *)
Definition call_line (l : string) : Prop :=
  exists u n ds args sp rest, l = u ++ n ++ ds ++ "(" ++ args ++ ")" ++ sp ++ "= " ++ rest /\
  one_of lower n /\ all_chars dec_digit ds /\ one_of (fun c => c <> newline) args /\ one_of (fun c => c = " "%char) sp.
Definition audit_line (l : string) : Prop := contains "type=SYSCALL" l \/ contains "type=SECCOMP" l.
(* The first line that is one or the other is of the audit subsystem. *)
Definition audit_text (lines : list string) : Prop :=
  exists ls l r, lines = (ls ++ l :: r)%list /\ Forall (fun x => ~ call_line x /\ ~ audit_line x) ls /\ audit_line l /\ ~ call_line l.
(* Files, those of the audit subsystem, and the others, in order. *)
Inductive parted : list (string * string) -> list (string * string) -> list (string * string) -> Prop :=
| pt_nil : parted [] [] []
| pt_audit name t ls files au tr : text_cut t ls -> audit_text ls -> parted files au tr -> parted ((name, t) :: files) ((name, t) :: au) tr
| pt_trace name t ls files au tr : text_cut t ls -> ~ audit_text ls -> parted files au tr -> parted ((name, t) :: files) au ((name, t) :: tr).
(* Files that exist. *)
Definition found (files : list (string * string)) : list (string * option string) := map (fun f => (fst f, Some (snd f))) files.
