{"id": "C01", "title": "Argument comparisons are exact on full machine words", "statement": "A policy atom 'argN OP c' lets control continue exactly when the unsigned machine-word comparison it denotes holds of the N-th syscall argument (==, !=, <, <=, >, >=, & meaning 'shares a bit', in meaning 'has no bit outside'), on 64-bit and on 32-bit targets, although BPF only compares 32-bit halves.", "quantifier": "every operator, every argument index 0..5, every constant, every argument value, both word sizes", "why_tests_cant": "2^128 argument/constant pairs per operator; the interesting errors are at the 32-bit boundary", "anchors": ["bpf.c:bpf_arg_comp", "bpf.c:bpf_comp_jeq64", "bpf.c:bpf_comp_jgt64", "bpf.c:bpf_comp_jge64", "bpf.c:bpf_comp_jset64", "bpf.c:bpf_comp_jin", "bpf.c:bpf_load_arg"]}
{"id": "C02", "title": "A compiled policy decides every system call as the policy text says", "statement": "When compile_filter succeeds, running the produced BPF program on any syscall event of the native architecture returns: ALLOW for a syscall listed with '1'; for a syscall with an argument expression, ALLOW iff some '||'-alternative has all its '&&'-atoms true, otherwise the line's own 'return' action or the default action; for 'return N' the errno action; for an unlisted syscall the default action. The first line naming a syscall decides.", "quantifier": "every policy text (including included files), every option set, every syscall number and argument vector", "why_tests_cant": "the product of all policies and all syscall events is unbounded; tests sample a few policies and events", "anchors": ["syscall_filter.c:compile_filter", "syscall_filter.c:compile_file", "syscall_filter.c:compile_policy_line", "syscall_filter.c:compile_atom", "syscall_filter.c:compile_errno", "bpf.c:bpf_resolve_jumps"]}
{"id": "C03", "title": "Foreign-architecture calls are always killed", "statement": "Every successfully compiled filter returns SECCOMP_RET_KILL for any syscall event whose arch field differs from the architecture minijail was built for, whatever the policy allows.", "quantifier": "every policy, option set and syscall event", "why_tests_cant": "one missed jump in any of the generated shapes would let a compat-ABI syscall through", "anchors": ["bpf.c:bpf_validate_arch", "syscall_filter.c:compile_filter"]}
{"id": "C04", "title": "Syscalls not mentioned in the policy get the default action and nothing else is allowed", "statement": "A native-architecture syscall whose number is named by no line of the policy (and is not in the logging or libc compatibility lists selected by the options) gets exactly the configured default action (KILL, KILL_PROCESS, TRAP, or LOG only with logging enabled); it is never allowed.", "quantifier": "every policy, option set and syscall event", "why_tests_cant": "absence of a behaviour over all unlisted numbers cannot be sampled", "anchors": ["syscall_filter.c:compile_filter", "syscall_filter.c:compile_file", "syscall_filter.c:allow_selected_syscalls"]}
{"id": "C05", "title": "Compiled filters are always loadable and always terminate with a verdict", "statement": "Every program produced by compile_filter from a policy that only uses argument indices 0..5 has between 1 and 4096 instructions, uses only opcodes seccomp accepts, jumps only forward to instructions inside the program, loads only aligned in-range words of seccomp_data, reads scratch memory only after writing it, and ends every execution in a RET: it passes the kernel's classic-BPF and seccomp checks.", "quantifier": "every policy text and option set, every execution path", "why_tests_cant": "jump offsets depend on the whole policy; tests only cover small policies", "anchors": ["bpf.c:bpf_resolve_jumps", "syscall_filter.c:flatten_block_list", "syscall_filter.c:compile_filter"]}
{"id": "C06", "title": "Policy compilation is all-or-nothing", "statement": "compile_filter either returns a program for the entire text or fails and hands out no program: any malformed line, unknown syscall (without logging), bad include, unreadable input or oversized result makes the whole compilation fail; no rule is ever silently dropped except a final line cut off by a trailing backslash, whose loss can only deny.", "quantifier": "every policy text, every point at which reading or parsing fails", "why_tests_cant": "the set of malformed policies is infinite; silent dropping shows up only in particular line/EOF combinations", "anchors": ["syscall_filter.c:compile_file", "syscall_filter.c:compile_filter", "util.c:getmultiline"]}
{"id": "C07", "title": "Only existing syscall arguments can be named", "statement": "A policy atom is accepted only if it names one of the six syscall arguments arg0..arg5, so that the compiled filter never inspects anything but the argument that was named.", "quantifier": "every atom text", "why_tests_cant": "index validation must hold for all decimal strings, including signs and huge numbers", "anchors": ["syscall_filter.c:compile_atom", "bpf.c:bpf_load_arg", "bpf.h:LO_ARG"]}
{"id": "C08", "title": "Compiling a policy never accesses the label table out of bounds", "statement": "For every policy text the compiler stays inside its 512-entry label table: a policy that needs more labels is rejected.", "quantifier": "every policy text", "why_tests_cant": "needs policies with more than 512 labels in a particular order", "anchors": ["bpf.c:bpf_label_id", "bpf.c:bpf_resolve_jumps", "syscall_filter.c:compile_file"]}
{"id": "C09", "title": "Constant expressions evaluate to their C value", "statement": "A constant in a policy (numbers in C octal/decimal/hex syntax, named constants, '~', '|', parentheses) is accepted only if it is well formed and fits the machine word, and its value is the C value of the expression (unsigned numbers above LONG_MAX as the same bit pattern); anything that overflows or has trailing garbage is rejected.", "quantifier": "every constant text and every table of named constants", "why_tests_cant": "unbounded nesting and all numerals up to and beyond the overflow boundaries", "anchors": ["util.c:parse_constant", "util.c:parse_single_constant", "util.c:tokenize_parenthesized_expression"]}
{"id": "C10", "title": "'return N' makes the call fail with errno N", "statement": "A syscall blocked by a 'return N' clause fails with errno exactly N for every accepted N.", "quantifier": "every errno expression accepted by the compiler", "why_tests_cant": "depends on truncation of the parsed long to int and then to 16 bits", "anchors": ["syscall_filter.c:compile_errno", "bpf.h:set_bpf_ret_errno"]}
{"id": "C11", "title": "Duplicate syscalls are rejected unless allowed", "statement": "Without the allow-duplicates option a policy naming the same syscall twice (also across @include) never compiles. With it, if compilation succeeds the first definition decides.", "quantifier": "every policy, every include arrangement", "why_tests_cant": "all pairs of positions across files", "anchors": ["syscall_filter.c:insert_and_check_duplicate_syscall", "syscall_filter.c:compile_file"]}
{"id": "C12", "title": "Includes behave like textual inclusion, one level deep", "statement": "A successfully compiled policy with '@include path' lines decides every call exactly like the policy with the included file's lines in place; an @include inside an included file, a path not starting with '/' or './', or an unreadable file makes compilation fail.", "quantifier": "every policy and file system contents", "why_tests_cant": "all combinations of files", "anchors": ["syscall_filter.c:parse_include_statement", "syscall_filter.c:compile_file"]}
{"id": "C13", "title": "Logging options add exactly the advertised syscalls", "statement": "Without the logging options the filter allows only what the policy lists; with 'allow syscalls for logging' it additionally allows exactly the listed logging syscalls (unconditionally), and RET_LOG as default action is accepted only together with logging.", "quantifier": "every policy and option set", "why_tests_cant": "absence of extra permissions over all syscall events", "anchors": ["syscall_filter.c:compile_filter", "syscall_filter.c:allow_selected_syscalls", "util.c:log_syscalls"]}
{"id": "C14", "title": "Seccomp options map to the right violation action", "statement": "minijail_parse_seccomp_filters picks the default action from the option flags in a fixed way: logging needs RET_LOG support in the kernel or falls back to TRAP handling only when TSYNC is off, TSYNC needs kernel support and never falls back to an in-process signal handler, and no combination yields a permissive default except LOG when logging was requested.", "quantifier": "every combination of option flags and kernel capabilities, every call history", "why_tests_cant": "flag interaction over histories of setter calls", "anchors": ["libminijail.c:parse_seccomp_filters", "libminijail.c:seccomp_should_use_filters", "libminijail.c:set_seccomp_filter"]}
{"id": "C15", "title": "Size strings are parsed exactly or rejected", "statement": "parse_size accepts exactly a decimal number optionally followed by one of K M G T P E, and on success the result is the number times 1024^k with no wrap-around; anything that does not fit 64 bits is rejected and the output variable is left untouched.", "quantifier": "every string", "why_tests_cant": "the overflow boundary differs per suffix", "anchors": ["util.c:parse_size"]}
{"id": "C16", "title": "Tokenizing and stripping lose nothing", "statement": "Splitting a string with tokenize until exhaustion and joining the pieces with the delimiter gives back the string, no piece contains the delimiter, and strip removes only leading blanks and trailing blanks/newlines.", "quantifier": "every string and every non-empty delimiter", "why_tests_cant": "all strings", "anchors": ["util.c:tokenize", "util.c:strip"]}
{"id": "C17", "title": "path_is_parent is strict path containment", "statement": "For a non-empty parent path, path_is_parent(parent, child) holds exactly when child is parent followed by at least one more character and the boundary is at a '/'.", "quantifier": "every pair of paths", "why_tests_cant": "sibling-prefix confusion ('/foo' vs '/foobar') appears only for specific pairs", "anchors": ["util.c:path_is_parent"]}
{"id": "C18", "title": "Environment editing follows setenv/getenv/unsetenv", "statement": "For any sequence of minijail_setenv / minijail_unsetenv on an environment without duplicate names, minijail_getenv returns the last value set for each name (or nothing after unset), other variables are unaffected, and no name appears twice.", "quantifier": "every environment and every history of operations with names not containing '='", "why_tests_cant": "histories are unbounded", "anchors": ["util.c:minijail_setenv", "util.c:minijail_unsetenv", "util.c:minijail_getenv", "util.c:getenv_index"]}
{"id": "C19", "title": "A configuration file is taken over completely or rejected", "statement": "When parse_config_file succeeds, the first line was the version directive and the entry list contains exactly one entry per non-blank non-comment logical line, in order, with the key and value of that line; otherwise it fails.", "quantifier": "every file content", "why_tests_cant": "all file contents, including unterminated continuation lines", "anchors": ["config_parser.c:parse_config_file", "config_parser.c:parse_config_line", "util.c:getmultiline"]}
{"id": "C20", "title": "A generated configuration file reproduces the options it was generated from", "statement": "Reading back the file written by --gen-config yields the same option names and arguments in the same order.", "quantifier": "every list of options and arguments", "why_tests_cant": "arguments with leading/trailing blanks, newlines, backslashes, empty values", "anchors": ["minijail0_cli.c:parse_args", "config_parser.c:parse_config_file"]}
{"id": "C21", "title": "Program linkage is classified correctly", "statement": "get_elf_linkage reports a program as static only if it is an ELF file without an interpreter segment, and as dynamic for every ELF file with a PT_INTERP program header, for both word sizes and byte orders; it reads only inside the file and never misclassifies truncated files as static.", "quantifier": "every file content", "why_tests_cant": "all header field combinations and truncation points", "anchors": ["elfparse.c:get_elf_linkage", "elfparse.h"]}
{"id": "C22", "title": "The serialized size is exact", "statement": "minijail_size(j) is exactly the number of bytes minijail_marshal writes for j; with a smaller buffer marshalling fails and never writes past the buffer, with an equal or larger one it succeeds.", "quantifier": "every jail configuration and every buffer size", "why_tests_cant": "sizes of all variable-length parts interact", "anchors": ["libminijail.c:minijail_size", "libminijail.c:minijail_marshal", "libminijail.c:marshal_helper"]}
{"id": "C23", "title": "Serializing and deserializing a jail preserves its configuration", "statement": "minijail_unmarshal applied to minijail_marshal's output succeeds and yields a jail with the same identity, capability, namespace, seccomp, mount, cgroup, filesystem-rule and descriptor configuration (everything but the parts documented as parent-only).", "quantifier": "every jail reachable through the API", "why_tests_cant": "all combinations of optional parts; a field confusion appears only for particular contents", "anchors": ["libminijail.c:minijail_marshal_helper", "libminijail.c:minijail_unmarshal", "libminijail.c:minijail_copy_jail"]}
{"id": "C24", "title": "Deserialization is memory safe on any bytes", "statement": "minijail_unmarshal on an arbitrary byte string either succeeds or fails; it never reads outside the buffer, dereferences null or writes outside the jail object.", "quantifier": "every byte string", "why_tests_cant": "truncation at every byte and every count value", "anchors": ["libminijail.c:minijail_unmarshal", "util.c:consumebytes", "util.c:consumestr"]}
{"id": "C25", "title": "A jail whose deserialization failed can be destroyed", "statement": "After minijail_unmarshal fails, minijail_destroy on the same object frees every block at most once.", "quantifier": "every byte string", "why_tests_cant": "depends on which of the error exits is taken with which parts already allocated", "anchors": ["libminijail.c:minijail_unmarshal", "libminijail.c:minijail_destroy"]}
{"id": "C26", "title": "Jail transfer over a pipe is exact or fails", "statement": "For every way the kernel may split the reads and writes, minijail_from_fd at the other end of minijail_to_fd either reconstructs exactly the configuration sent or reports an error; it never applies a truncated configuration. With whole reads it succeeds for configurations up to the documented 64 KiB limit.", "quantifier": "every configuration and every schedule of partial reads, partial writes and EINTR", "why_tests_cant": "schedules are nondeterministic", "anchors": ["libminijail.c:minijail_to_fd", "libminijail.c:minijail_from_fd", "libminijail.c:write_exactly"]}
{"id": "C27", "title": "write_exactly writes everything or reports failure", "statement": "write_exactly returns success only after all n bytes were written in order exactly once, for every pattern of short writes and interruptions.", "quantifier": "every buffer and every sequence of write results", "why_tests_cant": "unbounded result sequences", "anchors": ["libminijail.c:write_exactly"]}
{"id": "C28", "title": "Splitting the work between launcher and preload library loses no restriction", "statement": "When a program is run with the preload library, every restriction configured on the jail is applied either by the forked child before exec or by the preload library after exec, and none is silently skipped by both.", "quantifier": "every jail configuration", "why_tests_cant": "the split is driven by two flag-clearing functions; a flag cleared on both sides would be invisible to per-flag tests", "anchors": ["libminijail.c:minijail_preexec", "libminijail.c:minijail_preenter", "libminijail.c:minijail_enter", "libminijailpreload.c:fake_main"]}
{"id": "C29", "title": "Entering a jail is fail-closed", "statement": "If minijail_enter returns, every restriction requested by the configuration calls (namespaces, propagation, root directory, mounts, private /tmp, read-only /proc, ids, no_new_privs, capabilities, file access rules, system call filter) has been applied by a kernel call that succeeded; any other failing call terminates the process first, apart from a fixed list of harmless ones. (File access rules have no effect on kernels without Landlock, as documented.)", "quantifier": "every configuration and every pattern of kernel failures", "why_tests_cant": "2^n failure patterns at dozens of call sites", "anchors": ["libminijail.c:minijail_enter", "libminijail.c:process_mounts_or_die", "libminijail.c:mount_one", "libminijail.c:drop_ugid", "libminijail.c:drop_caps"]}
{"id": "C30", "title": "Restrictions are applied in a safe order", "statement": "In every execution of minijail_enter the mounts precede the root change, the root change precedes dropping ids, supplementary groups are dropped before the gid and the gid before the uid, no_new_privs precedes the seccomp filter when both are requested, and with no_new_privs the filter is the last privileged step.", "quantifier": "every configuration and kernel behaviour", "why_tests_cant": "ordering over all flag combinations", "anchors": ["libminijail.c:minijail_enter", "libminijail.c:drop_ugid"]}
{"id": "C31", "title": "Capabilities are reduced to exactly the requested set", "statement": "After a successful minijail_enter with use_caps(mask), the effective, permitted and inheritable sets of the process are exactly the capabilities of mask that the kernel supports; the ambient set is the same set if ambient capabilities were requested and otherwise contains nothing outside it; the bounding set loses every supported capability outside mask and no other (unless the caller asked to skip SECURE_NOROOT or its lock, when the bounding set is left alone); CAP_SETPCAP kept temporarily is gone unless requested. With capbset_drop(mask) the bounding set loses exactly the supported capabilities outside mask.", "quantifier": "every mask, every number of kernel capabilities, every starting capability state that permits the operations", "why_tests_cant": "2^64 masks times kernel versions", "anchors": ["libminijail.c:drop_caps", "libminijail.c:drop_capbset", "system.c:get_last_valid_cap"]}
{"id": "C32", "title": "Securebits end up set and locked, or jailing fails", "statement": "When minijail_enter returns after use_caps, the securebits NOROOT, NO_SETUID_FIXUP and KEEP_CAPS and their locks are set, except those the caller asked to skip (and, with ambient capabilities, except a KEEP_CAPS that was already locked off); if the kernel refuses, the process dies instead.", "quantifier": "every current securebits value, skip mask and kernel response", "why_tests_cant": "combination of masks and error codes", "anchors": ["system.c:lock_securebits"]}
{"id": "C33", "title": "Changing identity leaves no residual privilege", "statement": "When minijail_enter returns with uid/gid changes requested, real/effective/saved ids are the requested ones and the supplementary groups are exactly: the requested list, the target user's groups, the original ones (keep), or empty, according to the option chosen; contradictory options abort.", "quantifier": "every combination of identity options and every starting identity", "why_tests_cant": "option interaction and call order", "anchors": ["libminijail.c:drop_ugid", "libminijail.c:minijail_set_supplementary_gids", "libminijail.c:minijail_change_user"]}
{"id": "C34", "title": "API limits and exclusions hold under every call history", "statement": "After any sequence of API calls on a jail: at most 32 rlimits with distinct types, at most 10 cgroups, at most 128 preserved descriptors all non-negative, use_caps and capbset_drop never both set, chroot and pivot_root never both set, and each one-shot setting (root directory, hostname, preload library path) keeps its first value. A call is refused exactly when it would exceed a limit or repeat a type, and the accepted ones are recorded in order.", "quantifier": "every history of API calls", "why_tests_cant": "histories are unbounded", "anchors": ["libminijail.c:minijail_rlimit", "libminijail.c:minijail_add_to_cgroup", "libminijail.c:minijail_preserve_fd", "libminijail.c:minijail_use_caps", "libminijail.c:minijail_capbset_drop", "libminijail.c:minijail_enter_chroot", "libminijail.c:minijail_enter_pivot_root"]}
{"id": "C35", "title": "Every configured mount is performed, in order, or jailing aborts", "statement": "process_mounts performs the configured mounts in the order they were added; if it returns, each of them was mounted successfully.", "quantifier": "every mount list and every pattern of kernel failures and concurrent path changes", "why_tests_cant": "failure at the k-th mount for every k, and races on path checks", "anchors": ["libminijail.c:mount_one", "libminijail.c:process_mounts_or_die"]}
{"id": "C36", "title": "Paths inside the jail map back to the right outside path", "statement": "minijail_get_original_path returns the source path of the bind mount that contains the given path, or the path under the new root, respecting path component boundaries.", "quantifier": "every mount list and path", "why_tests_cant": "prefix confusion between sibling names", "anchors": ["libminijail.c:minijail_get_original_path"]}
{"id": "C37", "title": "Preserved descriptors arrive at the requested numbers", "statement": "For every list of (parent fd, child fd) pairs with distinct child numbers naming open descriptors, in the child each child fd refers to the open file its parent fd referred to, even when the pairs overlap or permute, and internal pipes are not clobbered; duplicate child numbers abort.", "quantifier": "every pair list, every descriptor table", "why_tests_cant": "permutation cycles and overlaps", "anchors": ["libminijail.c:redirect_fds", "libminijail.c:prepare_preserved_fds", "libminijail.c:ensure_no_fd_conflict", "libminijail.c:avoid_pipe_conflicts", "libminijail.c:avoid_pipe_conflict"]}
{"id": "C38", "title": "Requested standard streams are connected to the returned pipes", "statement": "With stdin/stdout/stderr pipes requested, in the child descriptors 0/1/2 refer to the corresponding pipe ends and no other pipe end stays open, whatever descriptors the parent had open.", "quantifier": "every parent descriptor table", "why_tests_cant": "depends on which low descriptors were free", "anchors": ["libminijail.c:setup_child_std_fds", "libminijail.c:setup_pipe_end", "libminijail.c:dupe_and_close_fd"]}
{"id": "C39", "title": "Exit statuses are reported faithfully", "statement": "minijail_wait returns the child's exit code if it exited, 253 if it was killed by SIGSYS, and 128+n if killed by another signal n.", "quantifier": "every wait status", "why_tests_cant": "all 16-bit wait statuses", "anchors": ["libminijail.c:minijail_wait_internal", "libminijail.c:minijail_wait"]}
{"id": "C40", "title": "The jail's init reports the program's own status", "statement": "The init process of a pid-namespace jail reaps every descendant, ignores the statuses of others, and exits with the exit code of the jailed program (or 254 if it was killed by a signal), both when all children are gone and when it is told to terminate after the program has ended.", "quantifier": "every order of child exits and every arrival time of the termination signal", "why_tests_cant": "interleavings of exits and signals", "anchors": ["libminijail.c:init", "libminijail.c:init_term"]}
{"id": "C41", "title": "Preload environment is set up and removed cleanly", "statement": "After the launcher adds the preload library and descriptor variables and the preload library removes them again, the jailed program sees the environment it was given: same variables with the same values, in particular its own LD_PRELOAD.", "quantifier": "every environment", "why_tests_cant": "LD_PRELOAD present/absent, positions, duplicate names", "anchors": ["libminijail.c:setup_preload", "libminijailpreload.c:truncate_preload_env", "libminijailpreload.c:fake_main"]}
{"id": "C42", "title": "Hooks run in registration order at their event and stop on failure", "statement": "Hooks registered for an event run in the order added, each exactly once, only at that event, and the first one returning non-zero aborts the process.", "quantifier": "every hook list and every pattern of hook results", "why_tests_cant": "order over all lists", "anchors": ["libminijail.c:run_hooks_or_die", "libminijail.c:minijail_add_hook"]}
{"id": "C43", "title": "Filesystem rules grant at most what was asked", "statement": "The path rules are given to the kernel one by one in the order they were added, before access is restricted, each for the descriptor of its path and with exactly the requested access rights, reduced to file-compatible rights for non-directories; no other rule is added, and every requested rule that the ruleset can express takes effect.", "quantifier": "every access mask, path type and kernel ABI", "why_tests_cant": "all masks", "anchors": ["landlock_util.c:populate_ruleset_internal", "libminijail.c:apply_landlock_restrictions", "libminijail.c:setup_fs_rules_fd"]}
{"id": "C44", "title": "Directory creation creates only missing components of the given path", "statement": "mkdir_p creates only prefixes of the path that did not exist, in order, and succeeds only if the full path (or its parent, as asked) exists as a directory afterwards; setup_mount_destination creates a file or directory matching the source type and never overwrites an existing target; new directories give no permission beyond the mode asked for (0755 for destinations), and a new destination is given to the user and group asked for.", "quantifier": "every path, every file-system state and failure pattern", "why_tests_cant": "all paths", "anchors": ["system.c:mkdir_p", "system.c:setup_mount_destination"]}
{"id": "C45", "title": "Account lookups terminate and only report real entries", "statement": "lookup_user/lookup_group return success only with ids of the named entry, retry with growing buffers, and terminate with ENOENT/ERANGE-style errors after a bounded number of retries for every response sequence.", "quantifier": "every response sequence of the name service", "why_tests_cant": "unbounded response sequences", "anchors": ["system.c:lookup_user", "system.c:lookup_group"]}
{"id": "C46", "title": "The optimizing policy compiler preserves the policy", "statement": "For every parsed policy, the BPF programs produced by tools/compile_seccomp_policy.py with the linear and with the binary-search strategy return, for every syscall event of the policy's architecture, the action of the first matching filter of that syscall, or the default action; foreign architectures get the kill action.", "quantifier": "every policy, every frequency assignment, every syscall event", "why_tests_cant": "the chosen search tree depends on the whole policy; all events must be covered", "anchors": ["tools/compiler.py:PolicyCompiler.compile_file", "tools/compiler.py:_compile_entries_bst", "tools/compiler.py:_compile_entries_linear", "tools/bpf.py:FlatteningVisitor"]}
{"id": "C47", "title": "A conditional denial in a policy is honoured by the optimizing compiler", "statement": "For a syscall whose filter list denies some argument values and then allows the rest, the program compiled by the Python tool denies those argument values.", "quantifier": "every filter list ending in an unconditional allow", "why_tests_cant": "needs the specific shape 'deny some, allow rest'", "anchors": ["tools/compiler.py:PolicyCompiler.compile_filter_statement"]}
{"id": "C48", "title": "Long jumps in the optimizing compiler reach their targets", "statement": "For every pair of jump distances the emitted instruction sequence (direct 8-bit jump or trampolines) reaches the intended targets and its length is accounted for.", "quantifier": "every distance pair and comparison outcome", "why_tests_cant": "boundary at 255/256", "anchors": ["tools/bpf.py:FlatteningVisitor._emit_jmp"]}
{"id": "C49", "title": "Numeric ids on the command line denote themselves", "statement": "A numeric -u/-g/--add-suppl-group argument selects exactly that id or is rejected.", "quantifier": "every numeral", "why_tests_cant": "32-bit truncation appears only for numerals above 2^32", "anchors": ["minijail0_cli.c:set_user", "minijail0_cli.c:set_group", "minijail0_cli.c:suppl_group_add"]}
{"id": "C50", "title": "Conflicting command-line options are rejected", "statement": "minijail0 never runs a program with contradictory options: -C with -P, -y with -G, different seccomp modes, -L with a BPF binary, bind mounts without a mount namespace or root change, --ambient without -c, -c with a static program without --ambient.", "quantifier": "every option sequence, from the command line and from a config file", "why_tests_cant": "all orders of options", "anchors": ["minijail0_cli.c:parse_args", "minijail0_cli.c:use_chroot", "minijail0_cli.c:use_pivot_root"]}
{"id": "C51", "title": "The environment options apply to the program that is run", "statement": "With --env-reset/--env-add the jailed program gets exactly the resulting environment, whatever the linkage of the program.", "quantifier": "every option sequence and program type", "why_tests_cant": "depends on the linkage classification", "anchors": ["minijail0.c:main", "minijail0_cli.c:set_child_env"]}
{"id": "C52", "title": "Bind-mount and pid-file paths through symlinks are refused", "statement": "With symlink blocking enabled, a bind source/destination is accepted only if resolving symlinks leaves it unchanged (up to a trailing slash) or it lies under an allowed prefix.", "quantifier": "every path and resolution result", "why_tests_cant": "all path strings", "anchors": ["libminijail.c:is_valid_bind_path", "system.c:is_canonical_path"]}
{"id": "C53", "title": "Per-mount remount modes never loosen the root propagation mode", "statement": "With a remount mode configured (MS_PRIVATE unless changed), entering a new mount namespace first remounts '/' recursively with it, then applies the per-mount modes in order; a per-mount mode numerically below that of '/' aborts instead of being applied, and no other propagation change is made except on the old root that pivot_root detaches.", "quantifier": "every remount configuration and kernel behaviour", "why_tests_cant": "all configurations", "anchors": ["libminijail.c:minijail_enter", "libminijail.c:minijail_add_remount"]}
{"id": "C54", "title": "Only the intended descriptors survive into the child", "statement": "With close_open_fds set, every descriptor the child holds after setup is 0/1/2, a preserved or internal pipe descriptor; all others are closed.", "quantifier": "every descriptor table", "why_tests_cant": "all tables", "anchors": ["libminijail.c:close_open_fds", "libminijail.c:minijail_run_internal"]}
{"id": "C55", "title": "Securing a tmpfs/mount default: mounts without explicit flags are nodev, noexec, nosuid", "statement": "A mount added with flags 0 is performed with NODEV|NOEXEC|NOSUID, a tmpfs without data gets the restrictive default data, and adding a mount always implies a new mount namespace unless an existing one is entered; these defaults are stable under serialization.", "quantifier": "every mount argument combination", "why_tests_cant": "all flag and data combinations", "anchors": ["libminijail.c:minijail_mount_with_data"]}
{"id": "C56", "title": "The old root is gone after pivot_root", "statement": "When entering with pivot_root succeeds, the new root was bound onto itself, made the root, the old root was entered, made recursively private and detached in this order (so that the unmount does not propagate to the outside), and the process ends with its root and current directory in the new root.", "quantifier": "every jail configuration and kernel behaviour", "why_tests_cant": "the order must hold on every path through the function and for every kernel", "anchors": ["libminijail.c:enter_pivot_root"]}
{"id": "C57", "title": "The parent's set-up for the child is complete before the child goes on", "statement": "When a jail is run, the launching process writes the pid file, puts the child into the requested control groups, sets its resource limits and writes its uid and gid maps (denying setgroups first when asked) before the child takes its ids in the user namespace, enters the jail or runs the program; if one of these steps fails the program is never run.", "quantifier": "every configuration, every interleaving of parent and child, every failing step, every point at which the parent is killed", "why_tests_cant": "the race between the two processes and crash points of the parent cannot be enumerated by running them", "anchors": ["libminijail.c:minijail_run_internal", "libminijail.c:parent_setup_complete", "libminijail.c:wait_for_parent_setup", "libminijail.c:kill_child_and_die", "libminijail.c:write_ugid_maps_or_die", "system.c:write_pid_to_path", "system.c:write_proc_file"]}
{"id": "C58", "title": "No command line or configuration file makes minijail0 misbehave in memory", "statement": "Whatever options and configuration file minijail0 is given, it runs the program, exits with an error or aborts; it never dereferences a missing argument, overruns a table or shifts by more than a word.", "quantifier": "every option list, configuration file and system", "why_tests_cant": "the dangerous inputs are combinations of an option source and a missing value", "anchors": ["minijail0_cli.c:parse_args", "minijail0_cli.c:getopt_from_conf", "minijail0_cli.c:getopt_conf_or_cli", "config_parser.c:parse_config_line"]}
{"id": "C59", "title": "minijail0's options mean what they say", "statement": "The jail minijail0 runs a program in is the one built by the library calls its options are documented to stand for, in the order of the options, followed by the defaults; options from a configuration file count where the file is named.", "quantifier": "every option list, configuration file and system", "why_tests_cant": "options interact through shared state and the order in which they are given", "anchors": ["minijail0_cli.c:parse_args", "minijail0_cli.c:add_binding", "minijail0_cli.c:add_mount", "minijail0_cli.c:add_rlimit", "minijail0_cli.c:use_caps", "minijail0_cli.c:use_profile", "minijail0_cli.c:set_ugid_mapping", "minijail0.c:main"]}
{"id": "C61", "title": "minijail0 does not run the program when the library refuses a setting", "statement": "If a configuration call that an option stands for is refused by the library, minijail0 exits instead of running the program without the setting.", "quantifier": "every option list, configuration file and system", "why_tests_cant": "which calls can be refused depends on the whole history of calls", "anchors": ["minijail0_cli.c:parse_args", "libminijail.c:minijail_namespace_set_hostname", "libminijail.c:minijail_preserve_fd"]}
{"id": "C60", "title": "What the command line says is in force when the program runs", "statement": "If minijail0 accepts a command line (with its configuration files) and the program starts, then everything the options ask for was done successfully before the program's first instruction: the namespaces of -v -t -d -P -r -p -U -m -M -l -e -N --uts, the propagation mode of -K, the host name, joined namespaces of -e and -V, the session keyring, the new root of -C, -P or --profile, /tmp, the read-only /proc, no_new_privs, strict seccomp, the alt-syscall table; the program has exactly the user, group and supplementary groups of -u, -g, -G, -y and --add-suppl-group; its capability sets are those named by -c; the mounts of -b and -k are made in order below the new root; and its system calls are decided by the policy text of -S (with -L and -Y) or by the filter file.", "quantifier": "every command line, configuration file, system (users, groups, files, capabilities, kernel answers) and program, with and without the preload library", "why_tests_cant": "The composition of option parsing, library settings, transfer to the child, kernel calls and execve ranges over unboundedly many option lists and kernel answers; tests run a few command lines with everything succeeding.", "anchors": ["minijail0.c:main", "minijail0_cli.c:parse_args", "libminijail.c:minijail_run_internal", "libminijail.c:minijail_enter", "libminijailpreload.c:fake_main", "minijail0.1"]}
{"id": "C62", "title": "The Python compiler reads all of a policy text, and reads it one way", "statement": "tools/compile_seccomp_policy.py cuts a policy text into lines and these into words so that every character of every line belongs to exactly one word, comment or blank; which words these are is determined by the documented kinds, tried in order, the longest word counting; lines ending in a backslash are joined with the next. A text that cannot be cut is refused. Nothing of the text is ignored.", "quantifier": "every text (any bytes of ASCII, any line ends, any length), every file", "why_tests_cant": "The set of texts is infinite and the words are recognised by regular expressions with look-ahead that interact; tests tokenize a handful of lines.", "anchors": ["tools/parser.py:ParserState.tokenize", "tools/parser.py:ParserState._parse", "tools/parser.py:_TOKEN_SPECIFICATION"]}
{"id": "C63", "title": "A policy text compiled by the Python compiler means what the grammar says", "statement": "tools/compile_seccomp_policy.py accepts exactly the files that follow the documented grammar, with includes up to the depth limit and frequency files, in which the unconditional filter of a system call is its last one; the program it writes returns, for every system call of the architecture, the action of the first filter that applies in the text (in the order of the statements, through includes), or else the default action; system calls of another architecture get the kill action; the kernel accepts the program.", "quantifier": "every policy text and set of included files, every table of system calls and constants, all options, every system call and its arguments", "why_tests_cant": "The grammar is recursive (parenthesised constants, lists, braces, includes) and the meaning ranges over all argument values; tests compile a few policies and simulate a few calls.", "anchors": ["tools/parser.py:PolicyParser", "tools/compiler.py:PolicyCompiler.compile_file", "tools/compile_seccomp_policy.py:main", "tools/arch.py:Arch"]}
{"id": "C64", "title": "Both compilers understand a policy alike", "statement": "A policy text that both minijail0 (run-time compilation) and compile_seccomp_policy.py (build-time compilation) accept, with the same system call and constant tables and the same default action, produces filters that give the same answer to every system call of that architecture.", "quantifier": "all policy texts of plain rules ('1', 'return CONSTANT', disjunctions of conjunctions of comparisons with constants or their complements joined by '|'), comments and blank lines; all tables; all default actions; all system calls and argument values", "why_tests_cant": "Two independent parsers in two languages and two code generators; agreement ranges over every text and every argument value, and tests compare a few sample policies", "anchors": ["syscall_filter.c:compile_file", "syscall_filter.c:compile_policy_line", "syscall_filter.c:compile_filter", "util.c:parse_constant", "tools/parser.py:PolicyParser", "tools/compiler.py:PolicyCompiler"]}
{"id": "C65", "title": "A readable policy compiles unless it does not fit", "statement": "Run-time compilation of a policy file succeeds exactly if every line of it can be read, no system call is listed twice (unless repeats are allowed, and then never with two conditions for the same call), the logging action is used only where logging is allowed, and the policy stays within 512 jump labels and 4096 instructions. The size of the filter is determined by the lines of the policy.", "quantifier": "all policy files (all bytes, include trees), tables, options", "why_tests_cant": "Completeness of a compiler: no readable policy within the limits may be refused, and no other accepted; the limits are reached only by combinations of many lines", "anchors": ["syscall_filter.c:compile_filter", "syscall_filter.c:compile_file", "syscall_filter.c:compile_policy_line", "bpf.c:get_label_id", "bpf.c:bpf_resolve_jumps"]}
{"id": "C66", "title": "A generated policy allows what was traced, and nothing else", "statement": "generate_seccomp_policy.py turns logs of strace into a policy that, compiled by minijail0 or by compile_seccomp_policy.py, allows every traced system call with the inspected argument (domain of socket, request of ioctl, option of prctl) it was traced with, allows memory to be mapped for writing or for execution but for both only where a trace shows it, adds only the four calls every program needs to return and exit, and denies all other calls.", "quantifier": "all logs of lines written by strace (process numbers, tags, signals, resumed and unfinished calls), all file names, all tables of calls and constants, all iteration orders of Python sets, all system calls and arguments", "why_tests_cant": "The repository has no test of this tool, and samples could not settle the claim: it ranges over every log, every order in which a set is walked and every argument value", "anchors": ["tools/generate_seccomp_policy.py:parse_trace_file", "tools/generate_seccomp_policy.py:get_seccomp_bpf_filter", "tools/generate_seccomp_policy.py:main", "tools/README.md"]}
{"id": "C67", "title": "A policy that the linter passes allows dangerous calls only with a comment or harmless arguments", "statement": "seccomp_policy_lint.py reports exactly the names that have a second rule and the rules for dangerous system calls that have neither a comment before them nor one of the known safe texts; the dangerous calls are those listed after --dangerous-syscalls, by default a fixed list of seventeen. So a filter compiled from a policy that it passes, by minijail0 or by compile_seccomp_policy.py, lets a dangerous call through only if a comment precedes its rule or its arguments cannot map memory both writable and executable (mmap, mmap2, mprotect) or use the blocking random pool (getrandom); and a policy said to contain no dangerous calls lets none through.", "quantifier": "all texts of policies, all lists of dangerous calls, all tables of system calls and constants, all system calls and argument values", "why_tests_cant": "The unit tests check a few policies; the claim ranges over every text and over every argument of every call against the filters that both compilers produce", "anchors": ["tools/seccomp_policy_lint.py:check_seccomp_policy", "tools/seccomp_policy_lint.py:main", "syscall_filter.c:compile_filter", "tools/compile_seccomp_policy.py"]}
{"id": "C68", "title": "A jailed program with a terminal gets its own session", "statement": "Unless the caller disabled new sessions, a program one of whose standard streams is a terminal, or for which minijail_create_session was called, starts in a session of its own; its controlling terminal, if it has one, is its own standard input and belonged to no session, so it is not the launcher's and TIOCSTI cannot be used against it. With new sessions disabled (--no-new-sessions) the program stays in the launcher's session and never starts in a pid namespace.", "quantifier": "all configuration histories, all command lines of minijail0, all descriptor tables, all descriptors to pass on, all terminals", "why_tests_cant": "Tests have no terminals of their own to check; the claim ranges over every table of descriptors after every redirection", "anchors": ["libminijail.c:setup_child_std_fds", "libminijail.c:minijail_create_session", "libminijail.c:minijail_set_enable_new_sessions", "minijail0_cli.c:OPT_NO_NEW_SESSIONS"]}
{"id": "C69", "title": "The jailed program starts with the signal mask and dispositions asked for", "statement": "With minijail_reset_signal_mask the program starts with no signal blocked, otherwise with the launcher's mask. With minijail_reset_signal_handlers every signal whose disposition can be changed is at its default, otherwise exactly the signals the launcher ignored are ignored. No handler of the launcher survives; the only handler a program can start with is minijail's for SIGSYS.", "quantifier": "all configuration histories, all signal states of the launcher, all signals, all kernels (which signals cannot be changed)", "why_tests_cant": "Tests look at a few signals; the claim is about every signal, every launcher state and every kernel's set of unchangeable signals", "anchors": ["libminijail.c:minijail_run_internal", "libminijail.c:minijail_reset_signal_mask", "libminijail.c:minijail_reset_signal_handlers", "signal_handler.c:install_sigsys_handler"]}
{"id": "C70", "title": "Forwarded signals are sent to the jailed process and to nobody else", "statement": "After a jail with minijail_forward_signals is started, every signal the launcher can handle except SIGCHLD that is delivered to it is sent to the jail's process, in order, once each; a jail without it leaves the launcher's handlers alone.", "quantifier": "all configuration histories, all sequences of launches, signals, waits and pid reuse, all kernels", "why_tests_cant": "Signals arrive at any time and in any number between launches and waits", "anchors": ["libminijail.c:forward_signal", "libminijail.c:install_signal_handlers", "libminijail.c:minijail_forward_signals", "libminijail.c:init"]}
{"id": "C71", "title": "Sending the configuration does not disturb the launcher's signals", "statement": "Whenever the reader of the configuration goes away, no SIGPIPE caused by the launch is delivered to the launcher or left pending, and its signal mask is the same afterwards; SIGPIPEs it receives are those sent by others. The child is killed unless it was sent the whole configuration.", "quantifier": "all answers of the kernel to the writes, all interleavings with other senders of SIGPIPE, all masks", "why_tests_cant": "The reader can disappear between any two writes and others may send SIGPIPE at any point", "anchors": ["libminijail.c:minijail_run_internal", "libminijail.c:minijail_to_fd"]}
{"id": "C72", "title": "A jail can be launched again", "statement": "A jail that was launched before, any number of times and with configuration calls in between, treats the next program as if it were the first: everything the configuration calls ask for is applied to it, and nothing of earlier launches takes part except descriptors. minijail_wait and minijail_kill are about the program started last.", "quantifier": "all sequences of configuration calls, failed runs and runs of a jail, all programs, all kernels", "why_tests_cant": "Tests launch a jail once; the claim ranges over every past a jail can have", "anchors": ["libminijail.c:minijail_run_internal", "libminijail.c:minijail_run", "libminijail.c:minijail_fork", "libminijail.c:minijail_wait", "libminijail.c:minijail_kill", "libminijail.c:setup_fs_rules_fd"]}
{"id": "C73", "title": "The ends of the pipes are held only by those who use them", "statement": "After a run with pipes, the launcher has no end meant for the program and the program none meant for the launcher, each under the one number expected: closing one's ends is seen by the other side, as end of file or as a failing write. Nobody keeps the writing ends of the library's own pipes, so neither the library in the program nor the waiting child waits for itself.", "quantifier": "all descriptor tables of the launcher, all descriptors to pass on (swaps, cycles, numbers of pipes), all combinations of pipes, with and without close_open_fds and the provided init", "why_tests_cant": "A leaked end shows only as a hang for particular numberings of descriptors; the claim ranges over all of them", "anchors": ["libminijail.c:minijail_run_config_internal", "libminijail.c:minijail_run_internal", "libminijail.c:minijail_free_run_state", "libminijail.c:wait_for_parent_setup", "libminijail.c:avoid_pipe_conflicts", "libminijail.c:setup_child_std_fds"]}
{"id": "C74", "title": "Namespaces to enter are the ones given, and their descriptors do not reach the program", "statement": "With minijail_namespace_enter_vfs or minijail_namespace_enter_net, the child enters the namespace the descriptor named when the program was run, whatever descriptors are passed on and whether or not all others are closed; the program does not have that descriptor.", "quantifier": "all descriptor tables, all descriptors to pass on, all combinations of namespaces, with and without close_open_fds", "why_tests_cant": "Which numbers collide depends on the launcher's descriptors; tests try one arrangement", "anchors": ["libminijail.c:minijail_run_internal", "libminijail.c:minijail_enter", "libminijail.c:minijail_preserve_fd", "libminijail.c:redirect_fds"]}
{"id": "C75", "title": "The Rust methods make the C library's setting, or return an error and change nothing", "statement": "A configuration method of the Rust crate that returns Ok made the one library call it is named after, with the caller's arguments, and the library accepted it; one that returns an error left the jail as it was, and did so because an argument was no C string, path or filter or because the library refused. No request the library would accept is refused.", "quantifier": "all methods, all byte strings as arguments, all filter buffers and alignments, all jails, all answers of the user database and the file system, all sequences of methods", "why_tests_cant": "A dropped return value or a swapped argument shows only for requests the library refuses or values a test did not use", "anchors": ["rust/minijail/src/lib.rs:Minijail::change_user", "rust/minijail/src/lib.rs:Minijail::parse_seccomp_bytes", "rust/minijail/src/lib.rs:Minijail::mount_with_data", "rust/minijail/src/lib.rs:Minijail::set_rlimit"]}
{"id": "C76", "title": "Rust's wait and kill say how the program ended", "statement": "Minijail::wait and Minijail::kill return Ok exactly for a program that exited with 0, Killed with the signal for one that a signal killed, SeccompViolation for SIGSYS and ReturnCode with the exit code otherwise, and never panic.", "quantifier": "all exit codes and signals, with and without core files, any number of interrupted waits, all errors of waitpid and kill, with and without the provided init", "why_tests_cant": "Ranges over all wait statuses and retries; only some can be provoked in a test", "anchors": ["rust/minijail/src/lib.rs:translate_wait_error", "rust/minijail/src/lib.rs:Minijail::wait", "rust/minijail/src/lib.rs:Minijail::kill", "libminijail.c:minijail_wait_internal"]}
{"id": "C77", "title": "A program started from Rust has the descriptors listed, /dev/null for missing standard streams, and nothing else", "statement": "Every program run or forked from Rust has the listed descriptors under the numbers asked for, /dev/null as each of 0, 1 and 2 that was not listed, and no other descriptor of the launcher; the launcher keeps its own unchanged. Arguments reach the program unchanged; fork is refused in a process with several threads.", "quantifier": "all jails configured from Rust, all lists of descriptors (swaps, cycles, duplicates in the launcher), all descriptor tables, any number of runs", "why_tests_cant": "Which numbers collide depends on the launcher's table, and later runs depend on all earlier ones", "anchors": ["rust/minijail/src/lib.rs:Minijail::run_internal", "rust/minijail/src/lib.rs:Minijail::fork_remap", "rust/minijail/src/lib.rs:to_execve_cstring_array", "libminijail.c:redirect_fds"]}
{"id": "C78", "title": "A copy of a jail is identical to the original", "statement": "minijail_copy_jail, and try_clone in Rust, give a jail identical to the original, so that programs started in either are set up and restricted in the same way.", "quantifier": "all histories of configuration calls before the copy", "why_tests_cant": "Each setting has to be in the copy whatever the others are; tests copy a few jails", "anchors": ["libminijail.h:minijail_copy_jail", "libminijail.c:minijail_copy_jail", "rust/minijail/src/lib.rs:Minijail::try_clone", "libminijail.c:minijail_marshal_helper", "libminijail.c:minijail_unmarshal"]}
{"id": "C79", "title": "What starting a program returns, stores and leaves open", "statement": "minijail_run and its variants return 0 exactly if they started a process, and minijail_fork its pid. Then the pid and the caller's ends of the requested streams are in the variables given for them, every other variable and descriptor of the caller is as before (descriptors of entered namespaces are closed), the jail is about that process, and the process was sent its whole configuration or was killed. Otherwise a negative error is returned and nothing has changed; a caller that aborts half way has killed the process.", "quantifier": "all functions and arguments (null and non-null pointers), all jails and descriptor tables, all failures of pipes, memory, set-up calls and writes, all pids", "why_tests_cant": "Each failure has its own clean-up path, and which pipe fails depends on the caller's descriptors", "anchors": ["libminijail.h:minijail_run_env_pid_pipes", "libminijail.h:minijail_fork", "libminijail.c:minijail_run_config_internal", "libminijail.c:minijail_run_internal", "libminijail.c:minijail_free_run_state"]}
{"id": "C80", "title": "What the started process becomes, and what waiting for it reports otherwise", "statement": "The process executes the program asked for, by name or by descriptor, with the arguments and the environment asked for, its standard streams are connected to the caller's, and it is in the jail when main or minijail_fork's return is reached. If it does not get there, minijail_wait reports 127 for a program that does not exist, 126 for one that cannot be executed, and otherwise that the process aborted.", "quantifier": "all functions and arguments, all pasts of the jail, all answers of the kernel, all deliveries of the configuration, with and without the provided init", "why_tests_cant": "Connects two processes, the environment, descriptors and the wait status for every configuration; tests run a few programs", "anchors": ["libminijail.h:minijail_run_fd_env_pid_pipes", "libminijail.h:minijail_wait", "libminijail.c:minijail_run_internal", "libminijail.c:minijail_run_config_internal", "libminijailpreload.c:fake_main"]}
{"id": "C81", "title": "minijail0 from its command line to its exit status", "statement": "The child of minijail0 executes the first argument that is not an option, with the arguments after it, in minijail0's environment as changed by its options, and in the jail the options ask for. minijail0 then exits with what became of the program: its exit code, 253 for SIGSYS, 128 + n for another signal n (through the provided init 254), 127 or 126 for a program that could not be executed. If nothing was started the status is not 0, unless only help or a configuration file was asked for. With -i the status is 0 as soon as the program was started.", "quantifier": "all command lines and configuration files, all systems (files, users, kernels, descriptors), all answers of waitpid, with and without preload library and init", "why_tests_cant": "The tests of minijail0 stop at its option parser; this composes the parser, both processes of the launch, the preload library and waiting, for all of their inputs", "anchors": ["minijail0.c:main", "minijail0_cli.c:parse_args", "libminijail.c:minijail_run_config_internal", "libminijailpreload.c:fake_main", "libminijail.c:minijail_wait", "minijail0.1"]}
{"id": "C82", "title": "parse_seccomp_policy accepts and dumps what the policy says", "statement": "Without -h, parse_seccomp_policy exits with status 0 only if the policy (the named file, or standard input for no name or '-') compiles with 'kill' as the default action; what it lists, or writes to the last file named with --dump, is a filter that decides every system call as the text says. It accepts every policy that compiles if the output can be written. Equal listings mean equal filters. A program that minijail0 --seccomp-bpf-binary runs with a dumped file runs under a filter that decides as the text.", "quantifier": "all command lines, policy files, included files, systems and system calls; all command lines of minijail0 that use the file", "why_tests_cant": "The tests run the compiler's functions, not the tool or the file format between the tool and minijail0; the claim is about every policy and every system call", "anchors": ["parse_seccomp_policy.cc:main", "parse_seccomp_policy.cc:DumpBpfProg", "syscall_filter.c:compile_filter", "minijail0_cli.c:read_seccomp_filter"]}
{"id": "C83", "title": "compile_seccomp_policy.py writes the filter its command line asks for", "statement": "When compile_seccomp_policy.py exits with status 0, its output (a binary file, or the array in a C header) is a filter that decides every system call as the policy's text says, where 'kill' and the default action are what the options ask for: log with --use-ret-log or MINIJAIL_DEFAULT_RET_LOG, EPERM with --denylist, the process with --use-kill-process, otherwise the thread; --default-action overrides @default. A policy that does not compile leaves the output untouched; one that follows the grammar and settles each system call is accepted. A program that minijail0 --seccomp-bpf-binary runs with the output runs under that filter.", "quantifier": "all command lines, policies with included and frequency files, architecture tables, systems and system calls; all command lines of minijail0 that use the file", "why_tests_cant": "The unit tests call the parser and the compiler with a few policies and never run main; the claim is about all option combinations, all policies and all system calls, and about two programs connected by a file", "anchors": ["tools/compile_seccomp_policy.py:main", "tools/compile_seccomp_policy.py:parse_args", "tools/bpf.py:SockFilter.encode", "tools/parser.py:_parse_include_statement", "minijail0_cli.c:read_seccomp_filter"]}
{"id": "C84", "title": "constants.json holds exactly the tables that clang compiled", "statement": "From the LLVM IR of libconstants.gen.c and libsyscalls.gen.c, given in any order, generate_constants_json.py writes a file from which the policy compiler reads every name of the two tables with the number it has there (negative numbers included; the last one for a repeated name), no other name, and the machine's name, audit number and word size; entries whose value is a pointer are left out. For another machine, or without the constants that name it, nothing is written.", "quantifier": "all tables of any length, all names, symbols, numbers and attributes that clang may print, both ways of printing an entry, and both orders of the files", "why_tests_cant": "The entries are found with backtracking regular expressions in one very long line; whether a name or number is ever cut, skipped or taken from the wrong place depends on all texts around it. Tests see the tables of one compiler version.", "anchors": ["tools/generate_constants_json.py: parse_llvm_ir, main, _STRING_CONSTANT_RE, _TABLE_ENTRY_RE, _TABLE_ENTRY_CONTENTS, _IGNORED_ENTRY_CONTENTS", "tools/arch.py: load_from_json_bytes", "gen_syscalls.sh", "gen_constants.sh"]}
{"id": "C85", "title": "The tables of names hold the macros of the system's headers", "statement": "The table of system calls generated at build time has exactly the names for which the headers define a macro __NR_name or __ARM_NR_name (small letters, digits, underscores) at their end, each with the one number that macro has, whatever else the headers define, undefine or define again. The table of constants has every macro in capital letters that is defined at the end, with its value.", "quantifier": "all outputs of the preprocessor: any number of lines, definitions with any text, with or without arguments, redefinitions and removals in any order", "why_tests_cant": "The tables are cut out of thousands of lines of system headers with sed and grep; each system and kernel version has other lines, and a line that is missed only shows as a policy that is refused.", "anchors": ["gen_syscalls.sh", "gen_constants.sh", "gen_syscalls.c", "gen_constants.c"]}
{"id": "C86", "title": "A policy generated from audit logs allows what was recorded, and nothing else", "statement": "Given logs of the Linux audit subsystem and the name of a program, generate_seccomp_policy.py writes the policy it would write for logs of strace that show the same calls: calls with an inspected argument are taken from the records of calls of that program, with the argument as recorded, all other calls from the records of its filter, private calls of ARM by their number; records of other programs and of other kinds change nothing. Compiled by minijail0 or by compile_seccomp_policy.py, the policy allows these calls, with arguments that are names of constants or numbers, as it would allow traced ones, and denies all others.", "quantifier": "all logs (events, records, fields in any order) as the auparse library delivers them, all program names, any mixture with logs of strace, all tables of calls and constants, all iteration orders of Python sets, all system calls and arguments", "why_tests_cant": "The repository has no test of this tool, and samples could not settle the claim: it ranges over every arrangement of events, records and fields and over every call the compiled filter may meet", "anchors": ["tools/generate_seccomp_policy.py:parse_audit_log", "tools/generate_seccomp_policy.py:main"]}
{"id": "C87", "title": "The frequency file gives every recorded call with the number of times it was made", "statement": "The file that generate_seccomp_policy.py writes with --frequency, read through @frequency by compile_seccomp_policy.py, names every call of the logs once, with exactly the number of times the logs show it (under its name in policies), and otherwise only the four calls every program needs, with the number 1; nothing in it is misread.", "quantifier": "all logs of strace and of the audit subsystem, all numbers of calls, all tables of calls", "why_tests_cant": "No test of the repository runs the generator or feeds its frequency file to the compiler; the claim ranges over every log and every number of calls", "anchors": ["tools/generate_seccomp_policy.py:main", "tools/generate_seccomp_policy.py:parse_trace_file", "tools/generate_seccomp_policy.py:parse_audit_log", "tools/parser.py:PolicyParser._parse_frequency_file"]}
{"id": "C88", "title": "Every input file of the policy generator is read once, as the kind of log it is", "statement": "generate_seccomp_policy.py reads every file it is given exactly once: as a log of the audit subsystem when, of the lines that look like a call of strace or like a record of a call or of the filter, the first is such a record, and otherwise as a log of strace; from files of both kinds, in any order, it writes the policy that one trace of all their calls would give. A file that does not exist ends it without a policy.", "quantifier": "all lists of files, all texts, all orders, all audit and strace logs", "why_tests_cant": "The repository has no test of this tool; the claim ranges over every list of files and every text, including the regular expressions' searches in every line", "anchors": ["tools/generate_seccomp_policy.py:BucketInputFiles", "tools/generate_seccomp_policy.py:main"]}
