(* C strings and the string-processing part of util.c.
   C strings are Coq strings; a pointer into a mutable buffer becomes the
   string it denotes; functions that cut a buffer in place return the pieces. *)
From Coq Require Export String Ascii List ZArith NArith Bool Lia.
Export ListNotations.
Local Open Scope string_scope.

(* Bytes used below. *)
Definition c_nul : ascii := "000"%char.
Definition c_tab : ascii := "009"%char.
Definition c_nl  : ascii := "010"%char.
Definition c_sp  : ascii := " "%char.
Definition c_bsl : ascii := "\"%char.
Definition nl    : string := String c_nl EmptyString.

(* isblank(3) in the C locale: space or tab. Used by util.c:443,446. *)
Definition is_blank (c : ascii) : bool := Ascii.eqb c c_sp || Ascii.eqb c c_tab.

(* isspace(3) in the C locale; strtol(3) skips these first. *)
Definition is_space (c : ascii) : bool :=
  Ascii.eqb c c_sp || ((9 <=? N_of_ascii c)%N && (N_of_ascii c <=? 13)%N).

(* The C string stored at a buffer: bytes up to the first NUL. *)
Fixpoint cstr (s : string) : string :=
  match s with
  | EmptyString => EmptyString
  | String c s' => if Ascii.eqb c c_nul then EmptyString else String c (cstr s')
  end.

(* util.c:440-450 strip(): drop leading blanks, then trailing blanks and
   newlines. *)
Fixpoint lstrip (s : string) : string :=
  match s with
  | String c s' => if is_blank c then lstrip s' else s
  | EmptyString => EmptyString
  end.

Fixpoint rstrip (s : string) : string :=
  match s with
  | EmptyString => EmptyString
  | String c s' =>
      match rstrip s' with
      | EmptyString =>
          if is_blank c || Ascii.eqb c c_nl then EmptyString
          else String c EmptyString
      | r => String c r
      end
  end.

Definition strip (s : string) : string := rstrip (lstrip s).

(* strstr(3) followed by cutting: the text before the first occurrence of [d]
   in [s] and the text after it. *)
Fixpoint cut_first (d s : string) : option (string * string) :=
  if String.prefix d s
  then Some (EmptyString, substring (String.length d) (String.length s) s)
  else match s with
       | EmptyString => None
       | String c s' =>
           match cut_first d s' with
           | Some (a, b) => Some (String c a, b)
           | None => None
           end
       end.

(* util.c:452-486 tokenize(&s, d) for a non-NULL s and non-empty d: the token
   returned and the new value of *stringp (None models NULL). *)
Definition tokenize (d s : string) : string * option string :=
  match cut_first d s with
  | None => (s, None)
  | Some (a, b) => (a, Some b)
  end.

(* All pieces obtained by calling tokenize(&s, d) until it returns NULL
   (the loops syscall_filter.c:452 and 455).  Recursion on a fuel that is
   larger than the string; P_CStr.tokens_eq shows the fuel is never the
   reason to stop. *)
Fixpoint tokens_fuel (n : nat) (d s : string) : list string :=
  match n with
  | O => [s]
  | S n' => match tokenize d s with
            | (t, None) => [t]
            | (t, Some r) => t :: tokens_fuel n' d r
            end
  end.
Definition tokens (d s : string) : list string :=
  tokens_fuel (S (String.length s)) d s.

(* strtok_r(3) with the single delimiter character [d], called until it
   returns NULL: the maximal non-empty runs of other characters.
   [cur] is the run being read. *)
Fixpoint words_aux (d : ascii) (cur : string) (s : string) : list string :=
  match s with
  | EmptyString => match cur with EmptyString => [] | _ => [cur] end
  | String c s' =>
      if Ascii.eqb c d
      then match cur with
           | EmptyString => words_aux d EmptyString s'
           | _ => cur :: words_aux d EmptyString s'
           end
      else words_aux d (cur ++ String c EmptyString) s'
  end.
Definition words (d : ascii) (s : string) : list string := words_aux d EmptyString s.

(* strsep(&s, "c"): text before the first c, and the text after it (None: no
   such character, *stringp becomes NULL). *)
Fixpoint strsep (d : ascii) (s : string) : string * option string :=
  match s with
  | EmptyString => (EmptyString, None)
  | String c s' =>
      if Ascii.eqb c d then (EmptyString, Some s')
      else let (a, b) := strsep d s' in (String c a, b)
  end.

(* strncmp(p, s, strlen(p)) == 0 *)
Definition has_prefix (p s : string) : bool := String.prefix p s.

(* The string after its first n characters. *)
Fixpoint sdrop (n : nat) (s : string) : string :=
  match n, s with
  | O, _ => s
  | S n', String _ s' => sdrop n' s'
  | S _, EmptyString => EmptyString
  end.

Fixpoint stake (n : nat) (s : string) : string :=
  match n, s with
  | O, _ => EmptyString
  | S n', String c s' => String c (stake n' s')
  | S _, EmptyString => EmptyString
  end.

(* Value of a digit in the given base, as strtol(3) reads it. *)
Definition digit_val (base : N) (c : ascii) : option N :=
  let n := N_of_ascii c in
  let v := if (48 <=? n)%N && (n <=? 57)%N then Some (n - 48)%N
           else if (97 <=? n)%N && (n <=? 122)%N then Some (n - 87)%N
           else if (65 <=? n)%N && (n <=? 90)%N then Some (n - 55)%N
           else None in
  match v with
  | Some d => if (d <? base)%N then Some d else None
  | None => None
  end.

(* Longest run of digits at the head: accumulated value, whether at least one
   digit was read, and the rest. *)
Fixpoint digits (base acc : N) (any : bool) (s : string) : N * bool * string :=
  match s with
  | EmptyString => (acc, any, s)
  | String c s' =>
      match digit_val base c with
      | Some d => digits base (acc * base + d)%N true s'
      | None => (acc, any, s)
      end
  end.

Fixpoint skip_space (s : string) : string :=
  match s with
  | String c s' => if is_space c then skip_space s' else s
  | EmptyString => EmptyString
  end.

(* Optional sign. *)
Definition read_sign (s : string) : bool * string :=
  match s with
  | String c s' =>
      if Ascii.eqb c "-"%char then (true, s')
      else if Ascii.eqb c "+"%char then (false, s')
      else (false, s)
  | EmptyString => (false, s)
  end.

(* Base prefix handling of strtol(3): for base 0 or 16 a "0x"/"0X" followed by
   a hexadecimal digit is skipped; base 0 otherwise means 8 after a leading
   "0" and 10 otherwise. *)
Definition read_base (base : N) (s : string) : N * string :=
  let hexpfx :=
    match s with
    | String "0" (String x (String d _)) =>
        (Ascii.eqb x "x"%char || Ascii.eqb x "X"%char) &&
        match digit_val 16 d with Some _ => true | None => false end
    | _ => false
    end in
  if (base =? 0)%N then
    if hexpfx then (16%N, sdrop 2 s)
    else match s with
         | String "0" _ => (8%N, s)
         | _ => (10%N, s)
         end
  else if (base =? 16)%N then
    if hexpfx then (16%N, sdrop 2 s) else (16%N, s)
  else (base, s).

(* What strtol/strtoul/strtoull read: sign, magnitude, rest of the string;
   None when there are no digits (then endptr = nptr). *)
Definition read_int (base : N) (s : string) : option (bool * N * string) :=
  let (neg, s1) := read_sign (skip_space s) in
  let (b, s2) := read_base base s1 in
  let '(v, any, rest) := digits b 0 false s2 in
  if any then Some (neg, v, rest) else None.

(* strtol(3) for a w-bit long: value, endptr string, ERANGE flag. *)
Definition strtol (w : N) (base : N) (s : string) : Z * string * bool :=
  match read_int base s with
  | None => (0%Z, s, false)
  | Some (neg, v, rest) =>
      let lim := (2 ^ (Z.of_N w - 1))%Z in
      if neg then
        if (lim <? Z.of_N v)%Z then ((- lim)%Z, rest, true)
        else ((- Z.of_N v)%Z, rest, false)
      else
        if (lim - 1 <? Z.of_N v)%Z then ((lim - 1)%Z, rest, true)
        else (Z.of_N v, rest, false)
  end.

(* strtoul(3) / strtoull(3) for a w-bit unsigned type. *)
Definition strtoul (w : N) (base : N) (s : string) : N * string * bool :=
  match read_int base s with
  | None => (0%N, s, false)
  | Some (neg, v, rest) =>
      if (2 ^ w - 1 <? v)%N then ((2 ^ w - 1)%N, rest, true)
      else if neg then (((2 ^ w - v) mod 2 ^ w)%N, rest, false)
      else (v, rest, false)
  end.

(* Two's complement: the w-bit pattern of z, and the signed value of a
   pattern. *)
Definition to_word (w : N) (z : Z) : N := Z.to_N (z mod 2 ^ Z.of_N w).
Definition to_signed (w : N) (n : N) : Z :=
  let m := (Z.of_N n mod 2 ^ Z.of_N w)%Z in
  if (m <? 2 ^ (Z.of_N w - 1))%Z then m else (m - 2 ^ Z.of_N w)%Z.

(* Conversion of a long (given as an integer) to a 32-bit int. *)
Definition to_int (z : Z) : Z := to_signed 32 (to_word 32 z).
