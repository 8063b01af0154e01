(* What minijail0's options mean (minijail0.1, minijail0.5, the help text). *)
From Verif Require Export M_Cli S_Jail.
Local Open Scope N_scope.

(* The options given, in order, each with its argument: those on the command
   line, and after each --config those in the file it names. *)
Definition file_options (w : world) (p : string) : list (N * option string) :=
  match w_config w p with
  | Some f => match parse_config_file f with
              | FOk es => flat_map (fun e => match opt_from_conf e with Some x => [x] | None => [] end) es
              | _ => []
              end
  | None => []
  end.
Definition all_options (w : world) (opts : list (N * option string)) : list (N * option string) :=
  flat_map (fun x => x :: (if fst x =? OPT_CONFIG then match snd x with Some p => file_options w p | None => [] end else []))%list opts.
Definition has (l : list (N * option string)) (n : N) : Prop := exists a, In (n, a) l.
Definition twice (l : list (N * option string)) (p : N -> Prop) : Prop :=
  exists l1 l2 l3 n a m b, l = (l1 ++ (n, a) :: l2 ++ (m, b) :: l3)%list /\ p n /\ p m.
Definition short (c : ascii) : N := N_of_ascii c.

(* Options that contradict each other, in whatever order and from wherever. *)
Definition root_option (n : N) : Prop := n = short "C" \/ n = short "P" \/ n = OPT_PROFILE.
Definition path_option (n : N) : Prop :=
  n = OPT_FS_DEFAULT_PATHS \/ n = OPT_FS_PATH_RX \/ n = OPT_FS_PATH_RO \/ n = OPT_FS_PATH_RW \/ n = OPT_FS_PATH_ADVANCED_RW.
Inductive conflict (l : list (N * option string)) : Prop :=
  | two_roots : twice l root_option -> conflict l
  | two_users : twice l (eq (short "u")) -> conflict l
  | two_groups : twice l (eq (short "g")) -> conflict l
  | keep_and_inherit : has l (short "y") -> has l (short "G") -> conflict l
  | strict_and_policy : has l (short "s") -> has l (short "S") -> conflict l
  | strict_and_binary : has l (short "s") -> has l OPT_SECCOMP_BPF_BINARY -> conflict l
  | policy_and_binary : has l (short "S") -> has l OPT_SECCOMP_BPF_BINARY -> conflict l
  | log_and_binary : has l (short "L") -> has l OPT_SECCOMP_BPF_BINARY -> conflict l
  | bind_alone : has l (short "b") -> ~ has l (short "v") -> (forall n, root_option n -> ~ has l n) -> conflict l
  | ambient_alone : has l OPT_AMBIENT -> ~ has l (short "c") -> conflict l
  | remount_alone : has l (short "K") -> ~ has l (short "v") -> conflict l
  | paths_and_none n : has l n -> path_option n -> has l OPT_NO_FS_RESTRICTIONS -> conflict l.

(* The options that must have an argument. *)
Definition takes_argument : list N :=
  (map short ["u"; "g"; "S"; "B"; "c"; "C"; "P"; "f"; "a"; "T"]%char ++
   [OPT_LOGGING; OPT_PROFILE; OPT_PRELOAD_LIBRARY; OPT_FS_PATH_RX; OPT_FS_PATH_RO; OPT_FS_PATH_RW; OPT_FS_PATH_ADVANCED_RW; OPT_PRESERVE_FD;
    OPT_SECCOMP_BPF_BINARY; OPT_ADD_SUPPL_GROUP; OPT_GEN_CONFIG; OPT_ENV_ADD])%list.
