(* Model of /repo/config_parser.c and of the configuration-file writer and
   reader of /repo/minijail0_cli.c. *)
From Verif Require Export M_Lines.
Local Open Scope string_scope.

(* struct config_entry: key and value (None models NULL). *)
Definition entry : Type := string * option string.

(* config_parser.c:58-86; strdup succeeds. *)
Definition parse_config_line (line : string) : option entry :=
  let (k, v) := tokenize "=" line in
  let key := strip k in
  let value := match v with Some x => Some (strip x) | None => None end in
  if String.eqb key "" ||
     match value with Some x => String.eqb x "" | None => false end
  then None
  else Some (key, value).

(* Text before the first newline, the newline included, and the rest: the
   first getline(3) call. *)
Fixpoint first_line (s : string) : string * string :=
  match s with
  | EmptyString => ("", "")
  | String c s' => if Ascii.eqb c c_nl then (String c "", s')
                   else let (a, b) := first_line s' in (String c a, b)
  end.

Definition directive : string := "% minijail-config-file v0" ++ nl.

(* Result of reading the file: the entries, failure, or a store outside the
   entries array. *)
Inductive fres := FOk (l : list entry) | FFail | FUb.

(* config_parser.c:103-130.  [acc] holds the entries read so far, [cap] is
   num_allocated_ (100 at the start, config_parser.c:16). *)
Fixpoint config_lines (acc : list entry) (cap : N) (ls : list string) : fres :=
  match ls with
  | [] => FOk acc
  | l :: rest =>
      let s := strip l in
      match s with
      | EmptyString => config_lines acc cap rest
      | String c _ =>
          if Ascii.eqb c "#"%char then config_lines acc cap rest
          else
            let n := N.of_nat (length acc) in
            let cap' := if (cap <=? n)%N then (cap * 2)%N else cap in
            if (cap' <=? n)%N then FUb
            else match parse_config_line s with
                 | None => FFail
                 | Some e => config_lines (acc ++ [e])%list cap' rest
                 end
      end
  end.

(* config_parser.c:93-153 on a fresh list; the realloc at the end keeps the
   entries. *)
Definition parse_config_file (f : stream) : fres :=
  let (l, rest) := first_line (s_bytes f) in
  if negb (String.eqb (cstr l) directive) then FFail
  else match config_lines [] 100 (multilines rest) with
       | FOk es => if s_ioerr f then FFail else FOk es
       | e => e
       end.

(* minijail0_cli.c:484-509 *)
Definition OPT_ADD_SUPPL_GROUP : N := 257.
Definition OPT_ALLOW_SPECULATIVE_EXECUTION : N := 258.
Definition OPT_AMBIENT : N := 259.
Definition OPT_CONFIG : N := 260.
Definition OPT_ENV_ADD : N := 261.
Definition OPT_ENV_RESET : N := 262.
Definition OPT_ENABLE_PROFILE_FS_RESTRICTIONS : N := 263.
Definition OPT_FS_DEFAULT_PATHS : N := 264.
Definition OPT_FS_PATH_RX : N := 265.
Definition OPT_FS_PATH_RO : N := 266.
Definition OPT_FS_PATH_RW : N := 267.
Definition OPT_FS_PATH_ADVANCED_RW : N := 268.
Definition OPT_GEN_CONFIG : N := 269.
Definition OPT_LOGGING : N := 270.
Definition OPT_NO_DEFAULT_RUNTIME : N := 271.
Definition OPT_NO_FS_RESTRICTIONS : N := 272.
Definition OPT_NO_NEW_SESSIONS : N := 273.
Definition OPT_PRELOAD_LIBRARY : N := 274.
Definition OPT_PRESERVE_FD : N := 275.
Definition OPT_PROFILE : N := 276.
Definition OPT_SECCOMP_BPF_BINARY : N := 277.
Definition OPT_UTS : N := 278.
Definition opt_char (c : ascii) : N := N_of_ascii c.

(* minijail0_cli.c:517-518 *)
Definition optstring : string :=
  "+a:b:c:de::f:g:hik:lm::nprst::u:vwyzB:C:GHIK::LM::NP:R:S:T:UV:Y".

(* minijail0_cli.c:520-551 (names and values; the argument column is
   has_arg, used by getopt_long only). *)
Inductive has_arg := NoArg | ReqArg | OptArg.
Definition long_options : list (string * (has_arg * N)) :=
  [ ("help", (NoArg, opt_char "h")); ("mount-dev", (NoArg, opt_char "d"));
    ("ambient", (NoArg, OPT_AMBIENT)); ("uts", (OptArg, OPT_UTS));
    ("logging", (ReqArg, OPT_LOGGING)); ("profile", (ReqArg, OPT_PROFILE));
    ("preload-library", (ReqArg, OPT_PRELOAD_LIBRARY));
    ("seccomp-bpf-binary", (ReqArg, OPT_SECCOMP_BPF_BINARY));
    ("add-suppl-group", (ReqArg, OPT_ADD_SUPPL_GROUP));
    ("allow-speculative-execution", (NoArg, OPT_ALLOW_SPECULATIVE_EXECUTION));
    ("config", (ReqArg, OPT_CONFIG)); ("gen-config", (ReqArg, OPT_GEN_CONFIG));
    ("env-add", (ReqArg, OPT_ENV_ADD)); ("env-reset", (NoArg, OPT_ENV_RESET));
    ("mount", (ReqArg, opt_char "k")); ("bind-mount", (ReqArg, opt_char "b"));
    ("ns-mount", (NoArg, opt_char "v"));
    ("enable-profile-fs-restrictions", (NoArg, OPT_ENABLE_PROFILE_FS_RESTRICTIONS));
    ("fs-default-paths", (NoArg, OPT_FS_DEFAULT_PATHS));
    ("fs-path-rx", (ReqArg, OPT_FS_PATH_RX)); ("fs-path-ro", (ReqArg, OPT_FS_PATH_RO));
    ("fs-path-rw", (ReqArg, OPT_FS_PATH_RW));
    ("fs-path-advanced-rw", (ReqArg, OPT_FS_PATH_ADVANCED_RW));
    ("no-default-runtime-environment", (NoArg, OPT_NO_DEFAULT_RUNTIME));
    ("no-fs-restrictions", (NoArg, OPT_NO_FS_RESTRICTIONS));
    ("no-new-sessions", (NoArg, OPT_NO_NEW_SESSIONS));
    ("preserve-fd", (ReqArg, OPT_PRESERVE_FD)) ].

(* minijail0_cli.c:794-806 *)
Fixpoint getname_from_opt (opt : N) (tbl : list (string * (has_arg * N))) : option string :=
  match tbl with
  | [] => None
  | (name, (_, val)) :: t => if (opt =? val)%N then Some name else getname_from_opt opt t
  end.

(* minijail0_cli.c:893-905: the name recorded for an option. *)
Definition recorded_name (opt : N) : string :=
  match getname_from_opt opt long_options with
  | Some n => n
  | None => String (ascii_of_N opt) ""
  end.

(* minijail0_cli.c:1350-1363: the file written for recorded entries. *)
Definition write_entry (e : entry) : string :=
  let (name, args) := e in
  if String.eqb name "config" || String.eqb name "gen-config" then ""
  else match args with
       | None => name ++ nl
       | Some a => name ++ " = " ++ a ++ nl
       end.
Definition write_config (es : list entry) : string :=
  "% minijail-config-file v0" ++ nl ++ nl ++ String.concat "" (map write_entry es).

(* isalpha(3) in the C locale. *)
Definition is_alpha (c : ascii) : bool :=
  let n := N_of_ascii c in
  ((65 <=? n) && (n <=? 90) || (97 <=? n) && (n <=? 122))%N.

(* strchr(s, c) != NULL for a non-NUL c *)
Fixpoint has_char (c : ascii) (s : string) : bool :=
  match s with
  | EmptyString => false
  | String x s' => Ascii.eqb c x || has_char c s'
  end.

Fixpoint long_val (key : string) (tbl : list (string * (has_arg * N))) : option N :=
  match tbl with
  | [] => None
  | (name, (_, val)) :: t => if String.eqb key name then Some val else long_val key t
  end.

(* minijail0_cli.c:747-772: option value and argument of an entry; None
   models errx(). *)
Definition opt_from_conf (e : entry) : option (N * option string) :=
  let (key, value) := e in
  match long_val key long_options with
  | Some v => Some (v, value)
  | None =>
      match key with
      | String c EmptyString =>
          if is_alpha c && has_char c optstring then Some (opt_char c, value) else None
      | _ => None
      end
  end.

(* Option values getopt_long (minijail0_cli.c:790) returns for a recognised
   option: the val column or a letter of optstring. *)
Definition valid_opt (o : N) : Prop :=
  In o (map (fun x => snd (snd x)) long_options) \/
  exists c, o = N_of_ascii c /\ is_alpha c = true /\ has_char c optstring = true.
