(* Specification: how text is cut into pieces.  Stated with string
   concatenation only, independently of the functions of the model. *)
From Coq Require Import String Ascii List NArith Bool.
Import ListNotations.
Local Open Scope string_scope.

Definition all_chars (P : ascii -> Prop) (s : string) : Prop :=
  forall i c, get i s = Some c -> P c.

Definition blank_char (c : ascii) : Prop := c = " "%char \/ c = "009"%char.
Definition newline : ascii := "010"%char.

(* [s] is [raw] without the blanks at its start and without the blanks and
   newlines at its end. *)
Definition stripped (raw s : string) : Prop :=
  exists pre post,
    raw = pre ++ s ++ post /\
    all_chars blank_char pre /\
    all_chars (fun c => blank_char c \/ c = newline) post /\
    (forall c t, s = String c t -> ~ blank_char c) /\
    (forall c t, s = t ++ String c EmptyString -> ~ blank_char c /\ c <> newline).

Definition contains (d s : string) : Prop := exists a b, s = a ++ d ++ b.

(* [pieces] is [s] cut at the occurrences of [d], searching from the left,
   without overlap (like Python's s.split(d)). *)
Inductive splits (d : string) : string -> list string -> Prop :=
| splits_last s : ~ contains d s -> splits d s [s]
| splits_cons p r ps :
    (forall a b, p ++ d ++ r = a ++ d ++ b -> (String.length p <= String.length a)%nat) ->
    splits d r ps ->
    splits d (p ++ d ++ r) (p :: ps).

(* [ws] are the maximal non-empty runs of characters other than [c]. *)
Inductive runs (c : ascii) : string -> list string -> Prop :=
| runs_nil s : all_chars (fun x => x = c) s -> runs c s []
| runs_cons pre w r ws :
    all_chars (fun x => x = c) pre ->
    w <> "" -> all_chars (fun x => x <> c) w ->
    (r = "" \/ exists r', r = String c r') ->
    runs c r ws ->
    runs c (pre ++ w ++ r) (w :: ws).

(* The part of a byte sequence before its first NUL. *)
Definition c_string (bytes s : string) : Prop :=
  all_chars (fun x => x <> "000"%char) s /\
  (bytes = s \/ exists r, bytes = s ++ String "000"%char r).

(* The lines of a text: cut at newlines; a last line without newline counts
   if it is not empty. *)
Inductive lines_of : string -> list string -> Prop :=
| lines_nil : lines_of "" []
| lines_last s : s <> "" -> all_chars (fun x => x <> newline) s -> lines_of s [s]
| lines_cons l r ls :
    all_chars (fun x => x <> newline) l -> lines_of r ls ->
    lines_of (l ++ String newline r) (l :: ls).

(* Joining continuation lines: a line ending in a backslash loses it and is
   joined to the following logical line with one space.  A text that ends
   inside a continuation loses that whole last logical line. *)
Inductive joined : list string -> list string -> Prop :=
| joined_nil : joined [] []
| joined_plain l ls js :
    (forall t, l <> t ++ "\") -> joined ls js -> joined (l :: ls) (l :: js)
| joined_cont l ls j js :
    joined ls (j :: js) -> joined ((l ++ "\") :: ls) ((l ++ " " ++ j) :: js)
| joined_lost l ls : joined ls [] -> joined ((l ++ "\") :: ls) [].

(* The logical lines of a file. *)
Definition file_lines (bytes : string) (lines : list string) : Prop :=
  exists ls js, lines_of bytes ls /\ joined ls js /\ Forall2 c_string js lines.

(* A text that consists of whole logical lines: empty, or ending in a newline
   that is not part of a continuation. *)
Definition whole_lines (t : string) : Prop :=
  t = "" \/ exists u, t = u ++ String newline "" /\ forall v, u <> v ++ "\".
