(* Model of the serialization of a jail: /repo/libminijail.c:1587-1927
   (marshal and unmarshal), 4171-4213 (destroy), 3065-3080 (copy), and
   /repo/util.c:512-529.  The byte image of struct minijail is the one of an
   LP64 little-endian target; the model of the image is exact in size and
   field position, with padding written as zero and ignored on reading.
   Allocations are assumed to succeed.  Unaligned loads of the two integers of
   a serialized mount are modelled as plain loads. *)
From Verif Require Export M_Jail.
Local Open Scope N_scope.

(* ---- bytes ---- *)
Definition bt (n : N) : ascii := ascii_of_N n.
(* The w bytes of v, little-endian; the value of a byte string. *)
Fixpoint num (w : nat) (v : N) : string :=
  match w with
  | O => EmptyString
  | S w' => String (bt (v mod 256)) (num w' (v / 256))
  end.
Fixpoint val (s : string) : N :=
  match s with
  | EmptyString => 0
  | String c s' => N_of_ascii c + 256 * val s'
  end.
Definition NUL : ascii := "000"%char.
Definition int32 (z : Z) : string := num 4 (to_word 32 z).
Definition cstring (s : string) : string := (s ++ String NUL EmptyString)%string.
Definition sizeof (s : string) : N := N.of_nat (String.length s).

(* ---- util.c:512-529 ----  The piece consumed and the rest; None: NULL. *)
Definition consumebytes (n : N) (s : string) : option (string * string) :=
  if sizeof s <? n then None else Some (stake (N.to_nat n) s, sdrop (N.to_nat n) s).
Fixpoint consumestr (s : string) : option (string * string) :=
  match s with
  | EmptyString => None
  | String c s' =>
      if Ascii.eqb c NUL then Some (EmptyString, s')
      else match consumestr s' with
           | Some (a, r) => Some (String c a, r)
           | None => None
           end
  end.

(* ---- the image of struct minijail, libminijail.c:127-229 ---- *)
(* The values of live pointers; an unknown that only matters as non-zero. *)
Section Image.
Variable addr : N -> N.

Definition ptr {A} (i : N) (c : cell A) : string :=
  num 8 (match c with Null => 0 | _ => addr i end).
Definition lptr {A} (i : N) (l : list A) : string :=
  num 8 (match l with [] => 0 | _ => addr i end).
Fixpoint ptrs {A} (i : N) (l : list (cell A)) : string :=
  match l with [] => EmptyString | c :: t => (ptr i c ++ ptrs (i + 1) t)%string end.
Definition rlimit_image (r : rlimit) : string :=
  (int32 (rl_type r) ++ num 4 0 ++ num 8 (rl_cur r) ++ num 8 (rl_max r))%string.
Definition fdpair_image (p : Z * Z) : string := (int32 (fst p) ++ int32 (snd p))%string.
Fixpoint images {A} (f : A -> string) (l : list A) : string :=
  match l with [] => EmptyString | x :: t => (f x ++ images f t)%string end.

(* The members and the padding, in order. *)
Definition image_fields (j : jail) : list string :=
  [num 6 (j_flags j); num 2 0;
   num 4 (j_uid j); num 4 (j_gid j); num 4 (j_usergid j); num 4 0;
   ptr 1 (j_user j); num 8 (j_suppl_gid_count j); ptr 2 (j_suppl_gid_list j);
   num 8 (j_caps j); num 8 (j_cap_bset j);
   int32 (j_initpid j); int32 (j_mountns_fd j); int32 (j_netns_fd j);
   int32 (j_fs_rules_fd j); int32 (j_fs_rules_landlock_abi j); num 4 0;
   ptr 3 (j_chrootdir j); ptr 4 (j_pid_file_path j); ptr 5 (j_uidmap j);
   ptr 6 (j_gidmap j); ptr 7 (j_hostname j); ptr 8 (j_preload_path j);
   ptr 9 (j_filename j);
   num 8 (j_filter_len j); ptr 10 (j_filter_prog j); ptr 11 (j_alt_syscall_table j);
   lptr 12 (j_mounts j); lptr 13 (j_mounts j); num 8 (j_mounts_count j);
   num 8 (j_remount_mode j); lptr 14 (j_remounts j); lptr 15 (j_remounts j);
   num 8 (j_tmpfs_size j);
   lptr 16 (j_fs_rules j); lptr 17 (j_fs_rules j); num 8 (j_fs_rules_count j);
   ptrs 32 (j_cgroups j); num 8 (j_cgroup_count j);
   images rlimit_image (j_rlimits j); num 8 (j_rlimit_count j);
   num 8 (j_securebits_skip_mask j);
   lptr 18 (j_hooks j); lptr 19 (j_hooks j);
   images fdpair_image (j_preserved_fds j); num 8 (j_preserved_fd_count j);
   ptr 20 (j_seccomp_policy_path j)].
Definition image (j : jail) : string := images (fun x => x) (image_fields j).

(* ---- what minijail_marshal_helper appends, libminijail.c:1616-1678 ----
   The list of byte strings passed to marshal_append, in order; None when it
   would read through a dangling pointer. *)
Definition read_cell {A} (c : cell A) (k : A -> option (list string)) : option (list string) :=
  match c with
  | Null => Some []
  | Own a => k a
  | Freed | Wild => None
  end.
(* libminijail.c:1616-1619 *)
Definition string_chunk (c : cell string) : option (list string) :=
  read_cell c (fun s => Some [cstring s]).
(* libminijail.c:1621-1631 *)
Definition mount_chunks (m : mountpoint) : list string :=
  ([cstring (m_src m); cstring (m_dest m); cstring (m_type m);
    int32 (match m_data m with Some _ => 1 | None => 0 end)%Z] ++
   match m_data m with Some d => [cstring d] | None => [] end ++
   [num 8 (m_flags m)])%list.
(* libminijail.c:1633-1639 *)
Definition rule_chunks (r : fs_rule) : list string := [cstring (fr_path r); num 8 (fr_flags r)].
(* struct sock_filter *)
Definition instr_image (i : instr) : string :=
  (num 2 (code i) ++ num 1 (jt i) ++ num 1 (jf i) ++ num 4 (k i))%string.

Fixpoint cgroup_chunks (n : nat) (l : list (cell string)) : option (list string) :=
  match n, l with
  | O, _ => Some []
  | S _, [] => None                       (* past the end of the array *)
  | S n', c :: t =>
      match c, cgroup_chunks n' t with
      | Own s, Some r => Some (cstring s :: r)
      | _, _ => None
      end
  end.
Definition cat (a b : option (list string)) : option (list string) :=
  match a, b with Some x, Some y => Some (x ++ y)%list | _, _ => None end.

(* libminijail.c:1641-1678 *)
Definition chunks (j : jail) : option (list string) :=
  cat (Some [image j])
  (cat (string_chunk (j_user j))
  (cat (read_cell (j_suppl_gid_list j) (fun l =>
          (* reading more than was allocated is undefined *)
          if N.of_nat (length l) <? j_suppl_gid_count j then None
          else Some [images (num 4) (firstn (N.to_nat (j_suppl_gid_count j)) l)]))
  (cat (string_chunk (j_chrootdir j))
  (cat (string_chunk (j_hostname j))
  (cat (string_chunk (j_alt_syscall_table j))
  (cat (if hasf F_seccomp_filter j
        then read_cell (j_filter_prog j) (fun p => Some [images instr_image p])
        else Some [])
  (cat (Some (flat_map mount_chunks (j_mounts j)))
  (cat (if N.of_nat (length (j_cgroups j)) <? j_cgroup_count j then None
        else cgroup_chunks (N.to_nat (j_cgroup_count j)) (j_cgroups j))
  (cat (Some (flat_map rule_chunks (j_fs_rules j)))
  (cat (Some [int32 (j_fs_rules_fd j)])
       (string_chunk (j_seccomp_policy_path j)))))))))))).

(* libminijail.c:1587-1614: available, total, and the bytes written so far at
   the start of the buffer. *)
Record mstate := MState { ms_avail : N; ms_total : N; ms_out : string }.
Definition marshal_append (st : mstate) (src : string) : mstate :=
  let n := sizeof src in
  let copy := N.min (ms_avail st) n in
  MState (ms_avail st - copy) (ms_total st + n) (ms_out st ++ stake (N.to_nat copy) src)%string.

Definition marshal_helper (st : mstate) (j : jail) : option mstate :=
  match chunks j with
  | None => None
  | Some l => Some (fold_left marshal_append l st)
  end.

(* libminijail.c:1680-1686; None: undefined behaviour *)
Definition minijail_size (j : jail) : option N :=
  match marshal_helper (MState 0 0 EmptyString) j with
  | None => None
  | Some st => Some (ms_total st)
  end.
(* libminijail.c:1688-1694: the return value and the bytes written to the
   front of the buffer *)
Definition minijail_marshal (j : jail) (available : N) : option (Z * string) :=
  match marshal_helper (MState available 0 EmptyString) j with
  | None => None
  | Some st => Some (if available <? ms_total st then 1%Z else 0%Z, ms_out st)
  end.
End Image.

(* ---- libminijail.c:1696-1927, reading ---- *)
Definition word (off w : nat) (s : string) : N := val (stake w (sdrop off s)).
Definition sint (off : nat) (s : string) : Z := to_signed 32 (word off 4 s).
Definition stale {A} (off : nat) (s : string) : cell A :=
  if word off 8 s =? 0 then Null else Wild.
Fixpoint blocks (n w : nat) (s : string) : list string :=
  match n with O => [] | S n' => stake w s :: blocks n' w (sdrop w s) end.

(* libminijail.c:1706-1724: the memcpy of the image and the clearing of the
   pointers that are not used as signals. *)
Definition IMAGE_SIZE : N := 2176.
Definition load_image (s : string) : jail :=
  Jail (word 0 6 s) (word 8 4 s) (word 12 4 s) (word 16 4 s)
    (stale 24 s) (word 32 8 s) (stale 40 s) (word 48 8 s) (word 56 8 s)
    (sint 64 s) (sint 68 s) (sint 72 s) (sint 76 s) (sint 80 s)
    (stale 88 s) Null Null Null (stale 120 s) Null Null
    (word 144 8 s) Null (stale 160 s)
    [] (word 184 8 s) (word 192 8 s) [] (word 216 8 s)
    [] (word 240 8 s)
    (map (fun b => stale 0 b) (blocks 10 8 (sdrop 248 s))) (word 328 8 s)
    (map (fun b => Rlimit (sint 0 b) (word 8 8 b) (word 16 8 b)) (blocks 32 24 (sdrop 336 s)))
    (word 1104 8 s) (word 1112 8 s) []
    (map (fun b => (sint 0 b, sint 4 b)) (blocks 128 8 (sdrop 1136 s)))
    (word 2160 8 s) (stale 2168 s).

Definition NGROUPS_MAX : N := 65536.
Definition USHRT_MAX : N := 65535.

(* Outcomes of minijail_unmarshal: success, failure leaving the given object,
   undefined behaviour, and exhaustion of the model's fuel (never happens:
   unmarshal_fuel). *)
Inductive ures := UOk (j : jail) | UErr (j : jail) | UUb | UFuel.

(* free(p) of a member: allowed on null and on a live allocation. *)
Definition freeable {A} (c : cell A) : bool :=
  match c with Null | Own _ => true | Freed | Wild => false end.
Fixpoint freeable_first (n : nat) (l : list (cell string)) : bool :=
  match n, l with
  | O, _ => true
  | S _, [] => false
  | S n', c :: t => freeable c && freeable_first n' t
  end.
Definition after_free {A} (c : cell A) : cell A := match c with Null => Null | _ => Freed end.

(* The error exits, libminijail.c:1880-1926, each falling through to the
   next. *)
Definition clear_pointers (j : jail) : ures :=
  UErr (set_seccomp_policy_path Null (set_fs_rules_count 0 (set_cgroup_count 0
        (set_alt_syscall_table Null (set_hostname Null (set_chrootdir Null
        (set_suppl_gid_list Null (set_user Null j)))))))).
Definition bad_gid_list (j : jail) : ures :=
  if freeable (j_user j) then clear_pointers (set_user (after_free (j_user j)) j) else UUb.
Definition bad_chrootdir (j : jail) : ures :=
  if freeable (j_suppl_gid_list j)
  then bad_gid_list (set_suppl_gid_list (after_free (j_suppl_gid_list j)) j) else UUb.
Definition bad_hostname (j : jail) : ures :=
  if freeable (j_chrootdir j)
  then bad_chrootdir (set_chrootdir (after_free (j_chrootdir j)) j) else UUb.
Definition bad_syscall_table (j : jail) : ures :=
  if freeable (j_hostname j)
  then bad_hostname (set_hostname (after_free (j_hostname j)) j) else UUb.
Definition bad_filters (j : jail) : ures :=
  if freeable (j_alt_syscall_table j)
  then bad_syscall_table (set_alt_syscall_table (after_free (j_alt_syscall_table j)) j) else UUb.
(* bad_mounts and bad_filter_prog_instrs: the instructions and the header are
   freed; the member keeps its value. *)
Definition bad_mounts (j : jail) : ures :=
  if freeable (j_filter_prog j)
  then bad_filters (set_filter_prog (after_free (j_filter_prog j)) j) else UUb.
Definition bad_fs_rules (j : jail) : ures := bad_mounts (set_fs_rules [] j).
Definition bad_cgroups (j : jail) : ures :=
  if freeable_first (N.to_nat (j_cgroup_count j)) (j_cgroups j)
  then bad_fs_rules
         (set_cgroups (map after_free (firstn (N.to_nat (j_cgroup_count j)) (j_cgroups j)) ++
                       skipn (N.to_nat (j_cgroup_count j)) (j_cgroups j))%list
           (set_remounts [] (set_mounts [] j)))
  else UUb.

(* A string member announced by a stale pointer: consume it, or leave by the
   given exit. *)
Definition load_string (c : cell string) (set : cell string -> jail -> jail) (bad : jail -> ures)
  (j : jail) (s : string) (k : jail -> string -> ures) : ures :=
  match c with
  | Null => k j s
  | _ => match consumestr s with
         | None => bad j
         | Some (x, s') => k (set (Own x) j) s'
         end
  end.

(* libminijail.c:1735-1752 *)
Definition load_gids (j : jail) (s : string) (k : jail -> string -> ures) : ures :=
  match j_suppl_gid_list j with
  | Null => k j s
  | _ =>
      if NGROUPS_MAX <? j_suppl_gid_count j then bad_gid_list j
      else match consumebytes (j_suppl_gid_count j * 4) s with
           | None => bad_gid_list j
           | Some (b, s') =>
               k (set_suppl_gid_list (Own (map val (blocks (N.to_nat (j_suppl_gid_count j)) 4 b))) j) s'
           end
  end.

(* libminijail.c:1781-1803 *)
Definition load_instr (b : string) : instr := I (word 0 2 b) (word 2 1 b) (word 3 1 b) (word 4 4 b).
Definition load_filter (j : jail) (s : string) (k : jail -> string -> ures) : ures :=
  if hasf F_seccomp_filter j && (0 <? j_filter_len j)
  then if USHRT_MAX <? j_filter_len j then bad_filters j
       else match consumebytes (j_filter_len j * 8) s with
            | None => bad_filters j
            | Some (b, s') =>
                k (set_filter_prog (Own (map load_instr (blocks (N.to_nat (j_filter_len j)) 8 b))) j) s'
            end
  else k j s.

(* libminijail.c:1805-1837; [count] is what remains of the announced count. *)
Fixpoint load_mounts (fuel : nat) (count : N) (j : jail) (s : string)
  (kk : jail -> string -> ures) : ures :=
  if count =? 0 then kk j s else
  match fuel with
  | O => UFuel
  | S fuel' =>
      match consumestr s with
      | None => bad_mounts j
      | Some (src, s) =>
      match consumestr s with
      | None => bad_mounts j
      | Some (dest, s) =>
      match consumestr s with
      | None => bad_mounts j
      | Some (type, s) =>
      match consumebytes 4 s with
      | None => bad_mounts j
      | Some (hd, s) =>
      let with_flags (data : option string) (s : string) :=
        match consumebytes 8 s with
        | None => bad_mounts j
        | Some (fl, s) =>
            match minijail_mount_with_data src dest type (val fl) data j with
            | ARet 0%Z j' => load_mounts fuel' (count - 1) j' s kk
            | ARet _ j' => bad_mounts j'
            | _ => UUb
            end
        end in
      if val hd =? 0 then with_flags None s
      else match consumestr s with
           | None => bad_mounts j
           | Some (d, s) => with_flags (Some d) s
           end
      end end end end
  end.

(* libminijail.c:1839-1849; [i] is the index written next.  The array has
   MAX_CGROUPS entries and the announced count is not checked against it. *)
Fixpoint set_nth_cell (n : nat) (x : cell string) (l : list (cell string)) : list (cell string) :=
  match n, l with
  | O, _ :: t => x :: t
  | S n', y :: t => y :: set_nth_cell n' x t
  | _, [] => []
  end.
Fixpoint load_cgroups (fuel : nat) (count i : N) (j : jail) (s : string)
  (kk : jail -> string -> ures) : ures :=
  if count =? 0 then kk j s else
  match fuel with
  | O => UFuel
  | S fuel' =>
      match consumestr s with
      | None => bad_cgroups j
      | Some (c, s) =>
          if N.of_nat (length (j_cgroups j)) <=? i then UUb
          else load_cgroups fuel' (count - 1) (i + 1)
                 (set_cgroup_count (j_cgroup_count j + 1)
                   (set_cgroups (set_nth_cell (N.to_nat i) (Own c) (j_cgroups j)) j)) s kk
      end
  end.

(* libminijail.c:1851-1866.  The path is tested after the second consume; the
   mask bytes are read without a test. *)
Fixpoint load_rules (e : kenv) (fuel : nat) (count : N) (j : jail) (s : string)
  (kk : jail -> string -> ures) : ures :=
  if count =? 0 then kk j s else
  match fuel with
  | O => UFuel
  | S fuel' =>
      match consumestr s with
      | None => bad_fs_rules j
      | Some (p, s) =>
          match consumebytes 8 s with
          | None => UUb
          | Some (b, s) =>
              if val b =? 0 then bad_fs_rules j
              else load_rules e fuel' (count - 1) (add_fs_restriction_path e p (val b) j) s kk
          end
      end
  end.

(* libminijail.c:1696-1927.  [j] is the object passed in. *)
Definition minijail_unmarshal (e : kenv) (j : jail) (s : string) : ures :=
  if sizeof s <? IMAGE_SIZE then UErr j else
  let fuel := S (String.length s) in
  let j := load_image s in
  let s := sdrop 2176 s in
  load_string (j_user j) set_user clear_pointers j s (fun j s =>
  load_gids j s (fun j s =>
  load_string (j_chrootdir j) set_chrootdir bad_chrootdir j s (fun j s =>
  load_string (j_hostname j) set_hostname bad_hostname j s (fun j s =>
  load_string (j_alt_syscall_table j) set_alt_syscall_table bad_syscall_table j s (fun j s =>
  load_filter j s (fun j s =>
  load_mounts fuel (j_mounts_count j) (set_mounts_count 0 j) s (fun j s =>
  load_cgroups fuel (j_cgroup_count j) 0 (set_cgroup_count 0 j) s (fun j s =>
  load_rules e fuel (j_fs_rules_count j) (set_fs_rules_count 0 j) s (fun j s =>
  match consumebytes 4 s with
  | None => UUb                           (* memcpy from a null pointer *)
  | Some (b, s) =>
      let j := set_fs_rules_fd (to_signed 32 (val b)) j in
      if (j_fs_rules_fd j =? 0)%Z then bad_cgroups j
      else load_string (j_seccomp_policy_path j) set_seccomp_policy_path bad_cgroups j s
             (fun j _ => UOk j)
  end))))))))).

(* libminijail.c:4171-4213: true when every free is of a null or live block.
   Blocks owned by the lists are distinct by construction of the model. *)
Definition minijail_destroy_ok (j : jail) : bool :=
  freeable (j_filter_prog j) && freeable (j_user j) && freeable (j_suppl_gid_list j) &&
  freeable (j_chrootdir j) && freeable (j_pid_file_path j) && freeable (j_uidmap j) &&
  freeable (j_gidmap j) && freeable (j_hostname j) && freeable (j_preload_path j) &&
  freeable (j_filename j) && freeable (j_alt_syscall_table j) &&
  (j_cgroup_count j <=? N.of_nat (length (j_cgroups j))) &&
  freeable_first (N.to_nat (j_cgroup_count j)) (j_cgroups j) &&
  freeable (j_seccomp_policy_path j).

(* libminijail.c:3065-3080 *)
Definition minijail_copy_jail (addr : N -> N) (e : kenv) (from out : jail) : ures :=
  match minijail_size addr from with
  | None => UUb
  | Some sz =>
      match minijail_marshal addr from sz with
      | None => UUb
      | Some (rc, buf) => if (rc =? 0)%Z then minijail_unmarshal e out buf else UErr out
      end
  end.
