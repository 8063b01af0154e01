(* Specification: configuration files (minijail0(5)). *)
From Coq Require Import String Ascii List Bool NArith.
From Verif Require Import S_Text.
Import ListNotations.
Local Open Scope string_scope.

(* One setting: "key" or "key = value", blanks around both parts ignored. *)
Inductive setting : string -> string * option string -> Prop :=
| set_flag s k : all_chars (fun c => c <> "="%char) s -> stripped s k -> k <> "" ->
    setting s (k, None)
| set_value a b k v : all_chars (fun c => c <> "="%char) a -> stripped a k -> k <> "" ->
    stripped b v -> v <> "" -> setting (a ++ "=" ++ b) (k, Some v).

(* Blank lines and comments give nothing, every other line one setting. *)
Inductive settings : list string -> list (string * option string) -> Prop :=
| ss_nil : settings [] []
| ss_skip l s ls es : stripped l s -> (s = "" \/ exists t, s = "#" ++ t) ->
    settings ls es -> settings (l :: ls) es
| ss_line l s e ls es : stripped l s -> s <> "" -> (forall t, s <> "#" ++ t) ->
    setting s e -> settings ls es -> settings (l :: ls) (e :: es).

Definition config_text (bytes : string) (es : list (string * option string)) : Prop :=
  exists rest ls, bytes = "% minijail-config-file v0" ++ String newline rest /\
    file_lines rest ls /\ settings ls es.

(* Arguments a configuration file can carry. *)
Definition plain_arg (a : string) : Prop :=
  a <> "" /\ stripped a a /\ (forall t, a <> t ++ "\") /\
  all_chars (fun c => c <> newline /\ c <> "000"%char) a.

