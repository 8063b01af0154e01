(* What minijail0 has to set up for the program from outside, from the options
   alone (minijail0.1: -z, -f, -R, -m, -M). *)
From Verif Require Export S_CliRun.
From Verif Require M_Sync S_Sync.
Local Open Scope N_scope.

(* TYPE,CUR,MAX *)
Definition limit_arg (w : world) (a : option string) (l : rlimit) : Prop :=
  exists text type cur max t c m, a = Some text /\ splits "," text [type; cur; max] /\
  simple_const (w_long w) (w_consts w) type t /\ limit_text w cur c /\ limit_text w max m /\ l = Rlimit (Z.of_N t) c m.
(* The map of -m or -M: as given, or from the chosen id to the caller's. *)
Definition map_due (L : list (N * option string)) (n : N) (chosen : N -> Prop) (mine : N) (m : option string) : Prop :=
  match last_arg L n with
  | None => m = None
  | Some (Some t) => m = Some t
  | Some None => exists id t, chosen id /\ map_text id mine t /\ m = Some t
  end.
(* The parent's calls for the child [pid]: signals are forwarded unless -z says
   otherwise; the pid file, the limits in the
   order of the options, the id maps.  setgroups is denied before the group
   map is written by a process that may not change groups. *)
Definition set_up_due (w : world) (L : list (N * option string)) (pid : N) (l : list M_Sync.pcall) : Prop :=
  exists file limits um gm,
  match last_arg L (short "f") with None => file = [] | Some a => exists p, a = Some p /\ file = [p] end /\
  Forall2 (limit_arg w) (args_of L (short "R")) limits /\
  map_due L (short "m") (last_uid w L) (w_getuid w) um /\ map_due L (short "M") (last_gid w L) (w_getgid w) gm /\
  l = ((match last_arg L (short "z") with None => [M_Sync.ForwardTo pid] | Some _ => [] end) ++ map (fun p => M_Sync.WritePid (Own p) pid) file ++ map (M_Sync.Prlimit pid) limits ++
       S_Sync.map_file pid "uid_map" um ++
       (if negb (w_cap_setgid w) then match gm with Some _ => [M_Sync.WriteProc pid "setgroups" "deny"] | None => [] end else []) ++
       S_Sync.map_file pid "gid_map" gm)%list.

(* The ids the child takes in its user namespace before it enters the jail:
   those of -g and -u, or root's. *)
Definition chosen (L : list (N * option string)) (n : N) (arg : string -> N -> Prop) (id : N) : Prop :=
  args_of L n = [] /\ id = 0 \/ exists a, args_of L n = [Some a] /\ arg a id.
Definition ids_taken (w : world) (L : list (N * option string)) (l : list M_Sync.ccall) : Prop :=
  exists g u gid uid, l = (g ++ u ++ [M_Sync.Goes_on])%list /\
  chosen L (short "g") (gid_arg w) gid /\ chosen L (short "u") (uid_arg w) uid /\
  S_Sync.when (has L (short "M")) [M_Sync.Setresgid gid] g /\ S_Sync.when (has L (short "m")) [M_Sync.Setresuid uid] u.
