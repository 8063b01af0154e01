(* Which configuration calls minijail0's options stand for (minijail0.1, the
   help text of minijail0_cli.c:553-655, libminijail.h). *)
From Verif Require Export S_Cli S_Text S_Const S_Util S_Bpf.
Local Open Scope N_scope.

(* A number in hexadecimal, with or without 0x. *)
Inductive hex_magnitude : string -> N -> Prop :=
  | hex_plain s n : digits_val 16 s n -> hex_magnitude s n
  | hex_0x s n : digits_val 16 s n -> hex_magnitude ("0x" ++ s)%string n
  | hex_0X s n : digits_val 16 s n -> hex_magnitude ("0X" ++ s)%string n.
Definition hex_integer : string -> Z -> Prop := signed hex_magnitude.
Definition word (bits : N) (z : Z) : Prop := (0 <= z < 2 ^ Z.of_N bits)%Z.

(* The arguments of the options [n], in order; the last of them. *)
Definition args_of (l : list (N * option string)) (n : N) : list (option string) :=
  map snd (filter (fun o => fst o =? n) l).
Definition last_arg (l : list (N * option string)) (n : N) : option (option string) := hd_error (rev (args_of l n)).

Section Calls.
Variable w : world.
(* A user or group given as a number, or by its name. *)
Definition uid_arg (a : string) (uid : N) : Prop :=
  decimal_integer a (Z.of_N uid) \/ (forall z, ~ decimal_integer a z) /\ exists gid, w_user w a = Some (uid, gid).
Definition gid_arg (a : string) (gid : N) : Prop :=
  decimal_integer a (Z.of_N gid) \/ (forall z, ~ decimal_integer a z) /\ w_group w a = Some gid.
(* The value of a resource limit. *)
Inductive limit_text : string -> N -> Prop :=
  | limit_none : limit_text "unlimited" (2 ^ w_long w - 1)
  | limit_number s n : s <> "unlimited"%string -> c_integer s (Z.of_N n) -> limit_text s n.
Definition opened (a : option string) : Z := match a with Some p => w_open w p | None => (-1)%Z end.

(* Options whose calls do not depend on an argument. *)
Definition plain_calls : list (N * list api) :=
  [ (short "n", [A_no_new_privs]); (short "s", [A_use_seccomp]); (short "S", [A_use_seccomp_filter]);
    (OPT_SECCOMP_BPF_BINARY, [A_use_seccomp_filter]); (short "l", [A_namespace_ipc]);
    (short "L", [A_log_seccomp_filter_failures]); (short "t", [A_namespace_vfs]);
    (short "v", [A_namespace_vfs; A_remount_mode 524288]);            (* MS_SLAVE *)
    (short "r", [A_remount_proc_readonly]); (short "G", [A_inherit_usergroups]); (short "y", [A_keep_supplementary_gids]);
    (short "N", [A_namespace_cgroups]); (short "p", [A_namespace_pids]); (short "I", [A_namespace_pids; A_run_as_init]);
    (short "U", [A_namespace_user; A_namespace_pids]); (short "w", [A_new_session_keyring]);
    (short "Y", [A_set_seccomp_filter_tsync]); (short "d", [A_namespace_vfs; A_mount_dev]);
    (OPT_AMBIENT, [A_set_ambient_caps]); (OPT_ENABLE_PROFILE_FS_RESTRICTIONS, [A_set_enable_profile_fs_restrictions]);
    (OPT_FS_DEFAULT_PATHS, [A_enable_default_fs_restrictions]); (OPT_NO_FS_RESTRICTIONS, [A_disable_fs_restrictions]);
    (OPT_NO_DEFAULT_RUNTIME, [A_set_enable_default_runtime false]); (OPT_NO_NEW_SESSIONS, [A_set_enable_new_sessions false]);
    (OPT_ALLOW_SPECULATIVE_EXECUTION, [A_set_seccomp_filter_allow_speculation]);
    (* these act later, or not on the jail *)
    (short "K", []); (short "m", []); (short "M", []); (short "z", []); (short "i", []); (short "T", []);
    (OPT_LOGGING, []); (OPT_PRELOAD_LIBRARY, []); (OPT_ADD_SUPPL_GROUP, []); (OPT_CONFIG, []); (OPT_ENV_ADD, []); (OPT_ENV_RESET, []) ].
(* Options that hand their argument on. *)
Definition text_calls (a : string) : list (N * list api) :=
  [ (short "C", [A_enter_chroot a]); (short "P", [A_enter_pivot_root a; A_namespace_vfs]); (short "f", [A_write_pid_file a]);
    (short "a", [A_use_alt_syscall a]); (OPT_FS_PATH_RX, [A_fs_rx a]); (OPT_FS_PATH_RO, [A_fs_ro a]); (OPT_FS_PATH_RW, [A_fs_rw a]);
    (OPT_FS_PATH_ADVANCED_RW, [A_fs_advanced_rw a]); (OPT_UTS, [A_namespace_uts; A_namespace_set_hostname a]);
    (short "e", [A_namespace_enter_net (w_open w a)]) ].
Definition bind_ro (p : string) : api := A_bind p p false (w_realpath w p).
Definition profile_calls (dev : bool) : list api :=
  ([A_namespace_vfs; bind_ro "/"; bind_ro "/proc"] ++ (if dev then [bind_ro "/dev/log"; A_mount_dev] else []) ++
   [A_remount_proc_readonly; A_set_using_minimalistic_mountns; A_enter_pivot_root (w_pivot_dir w); A_namespace_vfs])%list.
(* The bits of a capability set given by name. *)
Definition cap_bits (flag : N -> cap_flag) (m : N) : Prop :=
  forall i, N.testbit m i = true <-> i <= w_last_cap w /\ flag i = CapSet.

(* [asks n a l]: the option [n] with argument [a] stands for the calls [l]. *)
Inductive asks : N -> option string -> list api -> Prop :=
  | as_plain n a l : In (n, l) plain_calls -> asks n a l
  | as_text n a l : In (n, l) (text_calls a) -> asks n (Some a) l
  | as_uts : asks OPT_UTS None [A_namespace_uts]
  | as_net : asks (short "e") None [A_namespace_net]
  | as_vfs a : asks (short "V") a [A_namespace_enter_vfs (opened a)]
  | as_uid a n : decimal_integer a (Z.of_N n) -> asks (short "u") (Some a) [A_change_uid n]
  | as_user a u g : (forall z, ~ decimal_integer a z) -> w_user w a = Some (u, g) -> asks (short "u") (Some a) [A_change_user a (inr (u, g))]
  | as_gid a n : gid_arg a n -> asks (short "g") (Some a) [A_change_gid n]
  | as_bits a n : hex_integer a (Z.of_N n) -> asks (short "B") (Some a) [A_skip_setting_securebits n]
  | as_caps_named a f m : w_cap_text w a = Some f -> cap_bits f m -> asks (short "c") (Some a) [A_use_caps m]
  | as_caps a n : w_cap_text w a = None -> hex_integer a (Z.of_N n) -> asks (short "c") (Some a) [A_use_caps n]
  (* SRC[,DEST[,WRITEABLE]] *)
  | as_bind a src l : splits "," a (src :: l) -> src <> ""%string -> In l [[]; [""%string]] ->
      asks (short "b") (Some a) [A_bind src src false (w_realpath w src)]
  | as_bind_to a src dest : splits "," a [src; dest] -> src <> ""%string -> dest <> ""%string ->
      asks (short "b") (Some a) [A_bind src dest false (w_realpath w src)]
  | as_bind_mode a src dest flag : splits "," a [src; dest; flag] -> src <> ""%string ->
      In flag [""; "0"; "1"]%string ->
      asks (short "b") (Some a) [A_bind src (if (dest =? "")%string then src else dest) (flag =? "1")%string (w_realpath w src)]
  (* SRC,DEST,TYPE[,FLAGS[,DATA]]; DATA may contain commas *)
  | as_mount a src dest type : splits "," a [src; dest; type] -> ~ In ""%string [src; dest; type] ->
      asks (short "k") (Some a) [A_mount_with_data src dest type 0 None]
  | as_mount_flags a src dest type flags f : splits "," a [src; dest; type; flags] -> ~ In ""%string [src; dest; type] ->
      (flags = ""%string /\ f = 0 \/ const_expr (w_long w) (w_consts w) flags f) ->
      asks (short "k") (Some a) [A_mount_with_data src dest type f None]
  | as_mount_data head a src dest type flags f data : splits "," head [src; dest; type; flags] -> ~ In ""%string [src; dest; type] ->
      (flags = ""%string /\ f = 0 \/ const_expr (w_long w) (w_consts w) flags f) -> a = (head ++ "," ++ data)%string ->
      asks (short "k") (Some a) [A_mount_with_data src dest type f (Some data)]
  (* TYPE,CUR,MAX *)
  | as_rlimit a type cur max t c m : splits "," a [type; cur; max] -> type <> ""%string ->
      simple_const (w_long w) (w_consts w) type t -> limit_text cur c -> limit_text max m ->
      asks (short "R") (Some a) [A_rlimit (Z.of_N t) c m]
  | as_fd a z : decimal_integer a z -> asks OPT_PRESERVE_FD (Some a) [A_preserve_fd z z]
  | as_profile : asks OPT_PROFILE (Some "minimalistic-mountns"%string) (profile_calls true)
  | as_profile_nodev : asks OPT_PROFILE (Some "minimalistic-mountns-nodev"%string) (profile_calls false).

(* Numbers that the options are documented to take: they are ids, 64-bit
   masks, descriptors or limits, and not empty. *)
Definition fits (o : N * option string) : Prop :=
  let (n, arg) := o in forall a, arg = Some a ->
  (In n [short "u"; short "g"; OPT_ADD_SUPPL_GROUP] -> forall z, decimal_integer a z -> word 32 z) /\
  (n = short "B" \/ n = short "c" /\ w_cap_text w a = None -> a <> ""%string /\ forall z, hex_integer a z -> word 64 z) /\
  (n = OPT_PRESERVE_FD -> a <> ""%string /\ forall z, decimal_integer a z -> (- 2 ^ 31 <= z < 2 ^ 31)%Z) /\
  (n = short "R" -> forall type cur max, splits "," a [type; cur; max] ->
     (forall t, simple_const (w_long w) (w_consts w) type t -> t < 2 ^ 31) /\
     (forall z, c_integer cur z \/ c_integer max z -> word (w_long w) z)).

(* The same for ids alone. *)
Definition id_fits (o : N * option string) : Prop :=
  forall a, snd o = Some a -> In (fst o) [short "u"; short "g"; OPT_ADD_SUPPL_GROUP] -> forall z, decimal_integer a z -> word 32 z.

(* The calls that follow the options [l]. *)
(* The gid the user's map is for: the one given by -g or by the user named
   with -u, whichever is last. *)
Inductive last_gid : list (N * option string) -> N -> Prop :=
  | lg_none : last_gid [] 0
  | lg_g l a n : gid_arg a n -> last_gid (l ++ [(short "g", Some a)])%list n
  | lg_user l a u g : (forall z, ~ decimal_integer a z) -> w_user w a = Some (u, g) -> last_gid (l ++ [(short "u", Some a)])%list g
  | lg_uid l a z n : decimal_integer a z -> last_gid l n -> last_gid (l ++ [(short "u", Some a)])%list n
  | lg_skip l o n : fst o <> short "g" -> fst o <> short "u" -> last_gid l n -> last_gid (l ++ [o])%list n.
Definition last_uid (l : list (N * option string)) (n : N) : Prop :=
  match last_arg l (short "u") with Some (Some a) => uid_arg a n | Some None => False | None => n = 0 end.
(* "<inside> <outside> 1" *)
Definition map_text (inside outside : N) (t : string) : Prop :=
  exists a b, t = (a ++ " " ++ b ++ " 1")%string /\ digits_val 10 a inside /\ digits_val 10 b outside.
Definition to_stderr (l : list (N * option string)) : bool :=
  match last_arg l OPT_LOGGING with
  | Some (Some a) => if (a =? "stderr")%string then true else if (a =? "syslog")%string then false else w_tty w
  | _ => w_tty w
  end.
(* The size of /tmp after the options: -t sets it, or makes it the default
   (64 MiB) if there is none; so does --profile. *)
Inductive tmp_size : list (N * option string) -> N -> Prop :=
  | ts_none : tmp_size [] 0
  | ts_size l a n : size_text a n -> tmp_size (l ++ [(short "t", Some a)])%list n
  | ts_default l o n : o = (short "t", None) \/ fst o = OPT_PROFILE -> tmp_size l n ->
      tmp_size (l ++ [o])%list (if n =? 0 then 67108864 else n)
  | ts_skip l o n : fst o <> short "t" -> fst o <> OPT_PROFILE -> tmp_size l n -> tmp_size (l ++ [o])%list n.
Inductive uid_map (l : list (N * option string)) : list api -> Prop :=
  | um_none : last_arg l (short "m") = None -> uid_map l []
  | um_given t : last_arg l (short "m") = Some (Some t) -> uid_map l [A_namespace_user; A_namespace_pids; A_uidmap t]
  | um_own n t : last_arg l (short "m") = Some None -> last_uid l n -> map_text n (w_getuid w) t ->
      uid_map l [A_namespace_user; A_namespace_pids; A_uidmap t].
Definition gid_map_calls (t : string) : list api :=
  ([A_namespace_user; A_namespace_pids] ++ (if w_cap_setgid w then [] else [A_namespace_user_disable_setgroups]) ++ [A_gidmap t])%list.
Inductive gid_map (l : list (N * option string)) : list api -> Prop :=
  | gm_none : last_arg l (short "M") = None -> gid_map l []
  | gm_given t : last_arg l (short "M") = Some (Some t) -> gid_map l (gid_map_calls t)
  | gm_own n t : last_arg l (short "M") = Some None -> last_gid l n -> map_text n (w_getgid w) t -> gid_map l (gid_map_calls t).
(* mount(2): MS_SHARED, MS_PRIVATE, MS_SLAVE, MS_UNBINDABLE *)
Definition propagation : list (string * N) :=
  [("shared", 2 ^ 20); ("private", 2 ^ 18); ("slave", 2 ^ 19); ("unbindable", 2 ^ 17)]%string.
Inductive remounts (l : list (N * option string)) : list api -> Prop :=
  | rm_none : last_arg l (short "K") = None -> remounts l []
  | rm_skip : last_arg l (short "K") = Some None -> remounts l [A_skip_remount_private]
  | rm_mode a m : last_arg l (short "K") = Some (Some a) -> In (a, m) propagation -> remounts l [A_remount_mode m].
Inductive groups (l : list (N * option string)) : list api -> Prop :=
  | gr_none : args_of l OPT_ADD_SUPPL_GROUP = [] -> groups l []
  | gr_some gids : gids <> [] -> Forall2 (fun a g => exists t, a = Some t /\ gid_arg t g) (args_of l OPT_ADD_SUPPL_GROUP) gids ->
      groups l [A_set_supplementary_gids gids].
(* struct sock_filter: code (16 bits), jt, jf (8 each), k (32), in the host's
   byte order *)
Definition byte (v i : N) : N := (v / 2 ^ (8 * i)) mod 256.
Definition bytes_of (n : N) (v : N) : list N :=
  let l := map (byte v) (map N.of_nat (seq 0 (N.to_nat n))) in if h_little (w_host w) then l else rev l.
Definition instr_bytes (i : instr) : list N := (bytes_of 2 (code i) ++ [jt i; jf i] ++ bytes_of 4 (k i))%list.
Definition sock_filter (i : instr) : Prop := code i < 2 ^ 16 /\ jt i < 256 /\ jf i < 256 /\ k i < 2 ^ 32.
Definition filter_file (path : string) (prog : list instr) : Prop :=
  w_bytes w path = Some (concat (map instr_bytes prog)) /\ Forall sock_filter prog.
Definition no_policy (l : list (N * option string)) : Prop := ~ has l (short "S") /\ ~ has l OPT_SECCOMP_BPF_BINARY.
Inductive filters (l : list (N * option string)) : list api -> Prop :=
  | fl_policy p : last_arg l (short "S") = Some (Some p) -> filters l [A_parse_seccomp_filters (w_policy w p)]
  | fl_binary p prog : last_arg l OPT_SECCOMP_BPF_BINARY = Some (Some p) -> filter_file p prog -> filters l [A_set_seccomp_filters prog]
  | fl_no_default : no_policy l -> has l OPT_NO_DEFAULT_RUNTIME -> filters l []
  | fl_default : no_policy l -> ~ has l OPT_NO_DEFAULT_RUNTIME -> w_exists w "/etc/security/minijail/v0.bin" = false ->
      filters l [A_no_new_privs]
  | fl_default_policy prog : no_policy l -> ~ has l OPT_NO_DEFAULT_RUNTIME -> w_exists w "/etc/security/minijail/v0.bin" = true ->
      filter_file "/etc/security/minijail/v0.bin" prog ->
      filters l [A_use_seccomp_filter; A_set_seccomp_filters prog; A_no_new_privs].
Inductive closes (l : list (N * option string)) : list api -> Prop :=
  | closes_with um gm rm gr fl n : uid_map l um -> gid_map l gm -> remounts l rm -> groups l gr -> filters l fl -> tmp_size l n ->
      closes l ((if to_stderr l then [A_preserve_fd 2 2] else []) ++ um ++ gm ++
                (match last_arg l (short "z") with None => [A_forward_signals] | Some _ => [] end) ++ rm ++ gr ++ fl ++
                (if n =? 0 then [] else [A_mount_tmp_size n]) ++ [A_add_minimalistic_mountns_fs_rules])%list.

(* What the calls [l] set, in order. *)
Definition given {A} (f : api -> option A) (l : list api) : list A :=
  flat_map (fun a => match f a with Some x => [x] | None => [] end) l.

(* The variables of the environment after the options [l]. *)
Inductive env_has : list (N * option string) -> string -> string -> Prop :=
  | eh_old n v : has_value (w_environ w) n v -> env_has [] n v
  | eh_add l n v : env_has (l ++ [(OPT_ENV_ADD, Some (n ++ "=" ++ v)%string)])%list n v
  | eh_keep l o n v : env_has l n v -> fst o <> OPT_ENV_RESET -> (forall u, o <> (OPT_ENV_ADD, Some (n ++ "=" ++ u)%string)) ->
      env_has (l ++ [o])%list n v.

(* All calls for the options [l]; [preload] says whether the library named
   [lib] is preloaded into the program. *)
Definition stands_for (l : list (N * option string)) (preload : bool) (lib : string) (calls : list api) : Prop :=
  exists each fin, Forall2 (fun o cs => asks (fst o) (snd o) cs) l each /\ closes l fin /\
  calls = (concat each ++ fin ++ (if preload then [A_set_preload_path lib] else []))%list.

(* Ids below 2^31, filter files of less than 65536 instructions. *)
Definition small_ids (l : list (N * option string)) : Prop :=
  (has l (short "m") -> w_getuid w < 2 ^ 31 /\ forall n, last_uid l n -> n < 2 ^ 31) /\
  (has l (short "M") -> w_getgid w < 2 ^ 31 /\ forall n, last_gid l n -> n < 2 ^ 31).
Definition files_ok : Prop := forall p b, w_bytes w p = Some b -> N.of_nat (length b) < 8 * 65536 /\ Forall (fun x => x < 256) b.
End Calls.
