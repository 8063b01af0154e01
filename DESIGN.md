# Formal model of google/minijail in Rocq: design

## Layout

All Coq sources are in `rocq/theories` (logical name `Verif`).  Four kinds of file:

* `M_*.v`: the model.  Definitions only, each with a comment citing the file
  and lines of /repo it models and every simplification.
* `S_*.v`: small specifications, written from the documentation / the English
  property and independent of the model's helpers (e.g. the kernel's BPF
  machine, the meaning of a policy, credentials of a process, an abstract
  environment map).
* `P_*.v`: lemmas and proofs, non-vacuity examples.
* `T_*.v`: the property theorems and nothing else: statement, `exact lemma`,
  `Print Assumptions`, and beneath it an `Example` with a concrete case that
  meets the hypotheses.

Names: `Cnn_...` belongs to property Cnn.  `_partial`: part of the property (the
MANIFEST note says what is missing).  `_refuted`: the property as stated is
false of the code, with a concrete witness.

## Modelling conventions

* C strings are Coq `string`s without NUL bytes (files are arbitrary bytes; the
  truncation at a NUL is explicit in the model of the reader).
* Machine integers are `N`/`Z` with explicit `mod 2^32`/`2^64` wrap-around.
* In-place tokenizers become functions returning the pieces.
* `die()`, errors, out-of-bounds accesses and other undefined behaviour are
  distinct outcomes; so is a loop that has not ended yet.
* Kernel calls are the nodes of an inductive program tree; the answer to every
  call is universally quantified (an arbitrary environment, which may depend on
  the whole history, chooses it), so statements hold for every failure pattern
  and schedule.
* Memory allocation is assumed to succeed (malloc/strdup/calloc/asprintf).
* Everything the outside decides (files, accounts, libcap, getopt) is a
  variable of the theorem or a field of a record it quantifies over, never an
  axiom.

## What is modelled

| model file | code |
|---|---|
| M_CStr, M_Util, M_Const, M_Lines | util.c: tokenizing, stripping, parse_size, path_is_parent, path_join, environment functions, constant expressions, getmultiline |
| M_Bpf | bpf.c and the macros of bpf.h |
| M_Filter | syscall_filter.c: compiling a policy text, with @include, logging, frequency lines |
| M_Config | config_parser.c; writing (--gen-config) and reading configuration files |
| M_Elf | elfparse.c |
| M_JailRec, M_Jail | struct minijail and the configuration API, libminijail.c:83-1585 |
| M_Marshal | marshal, unmarshal, copy, destroy, byte for byte; libminijail.c:1587-1927, 3065-3080, 4171-4213 |
| M_Pipe | minijail_to_fd, minijail_from_fd, write_exactly |
| M_Io, M_Enter | minijail_enter and what it calls; system.c: namespaces, mounts, mkdir_p, setup_mount_destination, securebits, capabilities; landlock_util.c |
| M_Lookup | system.c lookup_user, lookup_group |
| M_Run | minijail_run_internal's process side, libminijailpreload.c |
| M_Fds | descriptors and standard streams in minijail_run |
| M_Session | the session of the program (end of setup_child_std_fds) |
| M_Signal | forwarding, resets, SIGSYS handler, SIGPIPE while sending; one thread, hooks leave signals alone |
| M_Sync | the parent's set-up (cgroups, id maps, rlimits, pid file) and the child's wait |
| M_Wait | minijail_wait, init() of a pid namespace |
| M_Rust | rust/minijail/src/lib.rs: the configuration methods, try_clone, run and fork up to the C call, wait and kill; without logging |
| M_Launch | libminijail.c: minijail_run and its variants, minijail_fork, minijail_run_config_internal and minijail_run_internal (3429-4101) as a whole, over M_Run, M_Fds, M_Sync, M_Pipe; signal masks and sessions are in M_Signal and M_Session |
| M_Main | minijail0.c: main (20-83), over M_Cli, M_Launch and M_Wait; setpgid is M_Cli's, the sanitizer's destruction of the jail is left out |
| M_Dump | parse_seccomp_policy.cc: main and DumpBpfProg; which lines copy the policy's name (syscall_filter.c: compile_file) |
| M_PyMain | tools/compile_seccomp_policy.py: main and the header template; bpf.py: SockFilter.encode; argparse, printing and non-ASCII names in headers are left out |
| M_Json | tools/generate_constants_json.py: parse_llvm_ir, main; tools/arch.py: load_from_json_bytes; argparse, opening the files and JSON itself (taken to be read back as written) are left out; lines are without their line ends |
| M_Table | gen_syscalls.sh, gen_constants.sh: the sed and grep expressions; the preprocessor and the C compiler are oracles (lines; values of the macros), the order of constants is left out |
| M_Cli | minijail0_cli.c, minijail0.c |
| M_PyComp | tools/compiler.py, tools/bpf.py |
| M_PyParse | tools/parser.py: tokens, grammar, includes (C62-C64) |
| M_Gen | tools/generate_seccomp_policy.py for strace logs (C66) |
| M_Audit | generate_seccomp_policy.py for audit logs (C86): parse_audit_log and main with both kinds of logs; the auparse library is an oracle (events, records, fields with text and interpretation) |
| M_Freq | the frequency file of generate_seccomp_policy.py (C87) |
| M_Bucket | BucketInputFiles of generate_seccomp_policy.py and the whole tool (C88); argparse and the messages are left out |
| M_Lint | tools/seccomp_policy_lint.py (C67); the texts of the messages and --denylist, which the program parses and ignores, are left out |

## What is not modelled

* getopt_long (the command line is the list of options it returns), usage and
  help text, logging and the text of messages.
* libcap, the name service, the dynamic loader, open/fopen: oracles.
* What the SIGSYS handler prints; signals in programs with several threads.
* the rest of rust/ (the bindings' generator, logging), the fuzzers.
* Android-specific and other #ifdef variants, except where a comment says so.
* Time, resource exhaustion, failures of malloc.

## Plan per property

| id | modelled | proof |
|----|----------|-------|
| C01 | bpf.c comparison generators, cBPF machine | case analysis on operator, halves arithmetic |
| C02 | bpf.c, syscall_filter.c, util.c tokenizers and constant parser | symbolic-label semantics, induction over lines/groups/atoms, refinement to a policy meaning |
| C03, C04, C13 | same | corollaries of the refinement |
| C05 | same, plus the kernel's classic BPF and seccomp checker as specification | invariants of generated blocks, label resolution |
| C06 | compile_file/compile_filter with a reader oracle | induction over the text |
| C07 | compile_atom | refutation (arg6, arg-1 accepted), plus what does hold |
| C08 | label table as bounded array with an out-of-bounds outcome | refutation; safety under a bound |
| C09 | parse_constant and friends | induction on the expression grammar (printing/parsing), soundness |
| C10 | compile_errno | refutation for 65536; exactness for 0..65535 |
| C11, C12 | compile_file with includes | induction over lines |
| C14 | parse_seccomp_filters decision logic, API flag state machine | finite case analysis over flags lifted to histories |
| C15 | parse_size | arithmetic, induction on digits |
| C16, C17 | tokenize, strip, path_is_parent | string induction |
| C18 | environment functions | refinement to a finite map, induction over histories |
| C19, C20 | config_parser.c, gen-config writer | induction over lines; refutation for trailing backslash / odd arguments |
| C21 | elfparse.c | case analysis; refutation for big-endian |
| C22-C25 | marshal/unmarshal over bytes with ownership tracking | round-trip induction; refutations |
| C26, C27 | write_exactly, to_fd, from_fd over a chunk schedule | induction over schedules |
| C28 | preexec/preenter/enter as list of applied restrictions | set inclusion for every configuration |
| C29, C30, C35, C53 | minijail_enter as kernel-call tree | induction over tree; refutation for mounts |
| C31, C32 | capability state machine of the kernel as specification | bit-vector reasoning per capability |
| C33 | drop_ugid over a credential state | case analysis |
| C34, C55 | API setters as a transition system | invariants over histories |
| C36 | get_original_path | refutation for sibling prefixes; correctness otherwise |
| C37, C38, C54 | fd table model, redirect/avoid/close functions | invariants over list of pairs; refutation for closed std fds |
| C39, C40 | wait status decoding, init loop as a transition system over child exits and signals | case analysis, induction over events; refutation for SIGTERM path |
| C41 | setup_preload / truncate_preload_env | environment laws |
| C42 | run_hooks | induction |
| C43 | landlock helper masks | bitwise reasoning |
| C44, C45 | mkdir_p, setup_mount_destination, lookups with oracles | induction |
| C46-C48 | tools/compiler.py, tools/bpf.py: filter DAG, lowering, flattening, ranges, BST | refinement to list-of-filters meaning; refutation for C47 |
| C49-C51 | minijail0_cli.c option state machine | case analysis; refutations |
| C52 | is_valid_bind_path, is_canonical_path | string reasoning |
| C53 | apply_remounts | trace reasoning: every remount call carries the mode set last |
| C54 | M_Fds | the table after exec is exactly the wanted one |
| C55 | minijail_mount, minijail_mount_with_data, enter | history invariant to the flags of the mount call |
| C56 | enter_pivot_root | trace order, detaching unmount |
| C57 | M_Sync: two processes as one transition system | invariant over all interleavings; refutation when the parent is killed |
| C58 | M_Cli: undefined behaviour is an outcome | case analysis over the options, induction over the list |
| C59 | M_Cli: the calls the options make | induction over the options; refutations for out-of-range numbers |
| C60 | M_Cli, M_Jail, M_Marshal, M_Run, M_Enter, M_Filter, M_Sync composed | composition of C59, C23, C28, C29, C02, C57 |
| C61 | M_Cli: codes of the library's answers | induction; refutations |
| C62, C63 | M_PyParse: tokens and grammar of tools/parser.py | the parser accepts exactly the grammar; nothing of a line is skipped; composition with C46; refutations where text is lost |
| C64 | S_Common: policies as data with a printer; M_Filter and M_PyParse read the printed text | both readings are built from the data (cutting lemmas), then C02 and C63 give the same decision; refutations outside |
| C65 | S_Accept: size and labels of a policy counted from its lines; M_Filter as before | progress: each stage of the compiler succeeds on what S_Policy reads, label table and jump resolution by invariants; converse from C01/C02; refutation for repeats |
| C66 | M_Gen: the regular expression, the dictionaries and the printer of generate_seccomp_policy.py; S_Gen: traces as data with a printer | reading a printed line gives back the call (first match of the expression); what is collected is the set of traced calls, by induction over the lines; the printed policy is one of S_Common, so C64 gives its decisions; refutations for raw logs, times, file names, paths |
| C67 | M_Lint: the three regular expressions, the loop and main of seccomp_policy_lint.py with --dangerous-syscalls; S_Lint: comment lines, rule lines, what is reported, harmless arguments | an invariant over the lines read so far gives exactly what is reported; through the reading relation of C01 every rule of the C compiler is a rule line of the linter, the safe texts are rules of S_Common, so their decisions are known; refutations for continuation lines, included files, several calls in one rule, architectures, a space at the end |
| C68 | M_Session on top of M_Fds: isatty of the three streams, setsid, TIOCSCTTY; S_Session: the last word on new sessions, a terminal among the standard streams | case analysis after C24's theory of histories; minijail0's options through the tables of C59; refutation: a program with files as streams keeps the launcher's terminal |
| C69 | M_Signal: dispositions and mask through fork, the two resets, execve and minijail_enter's calls about SIGSYS | induction over the loop of resets and over the calls made |
| C70 | M_Signal: the launcher as a machine with events (launch, signal, wait, reuse of a pid) | induction over event lists; refutations: two jails, a reused pid, pid namespaces (the provided init reacts only to SIGTERM), handlers inherited by a later init |
| C71 | M_Signal: the launcher between blocking and restoring SIGPIPE as a transition system with other senders | invariant over all runs; refutation: a SIGPIPE the caller had pending is lost |
| C72 | M_Run's parent_jail as one more step of a jail's life (S_Reuse: configuration calls, failed runs, runs) | simulation: a jail with a past differs from one that was only configured in the process id, the program's name and the ruleset number, which launching overwrites; configuration calls commute with these; refutations: namespaces can be entered once (the descriptor is closed), a jail with file access rules starts 128 programs |
| C73 | M_Fds: the tables of launcher, program, provided init and waiting child; S_Holders: who has which end | from the theory of C37, C38, C54 (where each file of the child's table comes from); refutation: the provided init keeps the program's streams, so the launcher sees no end of output before the namespace is gone |
| C74 | M_Fds: entry_pairs (namespaces are passed on when all else is closed), close_entered | the same theory, and that redirections leave all other numbers alone; refutations without close_open_fds: another descriptor asked for under that number, the namespace itself passed on |
| C75 | M_Rust: the methods, over M_Jail's calls; S_Rust: the call each method stands for, acceptable arguments | by cases over methods, with the byte layout of filters (M_Marshal); induction over sequences of methods; refutations: unknown users and groups are accepted, and the program then runs as the launcher (from C25's theory of credentials) |
| C76 | M_Rust: translate_wait_error over M_Wait | arithmetic on wait statuses, on top of C39 and C40; refutations: exit codes that look like signals, SIGSYS reported as exit code 253 |
| C77 | M_Rust: the preparation of descriptors before the C call, over M_Jail, M_Run and M_Fds | composition with C37, C38, C54, C72; refutation: the second run of a jail always has two descriptors for 0, so that its process ends before executing |
| C78 | M_Marshal's copy, M_Sync for what the launcher does with the copy | C23, and a frame argument for the settings that are not sent; refutations: id maps, pid file, remounts, hooks and filters not yet enabled are lost |
| C79 | M_Launch: the functions that start programs, in the launching process; S_Launch: what each argument is, the caller's variables | an invariant of the pipes opened so far for the clean-up after a failure; composition with C38 and C72; refutations: positive errors, an error of minijail_fork that looks like a pid, 0 for programs that are not executed |
| C80 | M_Launch: the same functions in the child, up to execve, exit or return | composition of M_Fds, M_Run, M_Pipe and M_Wait: C37, C38, C28, C72, C39, C40; partial for descriptors of jails with file access rules, and where C28 and C40 are |
| C81 | M_Main: minijail0's main; S_Main: exit statuses, answers of waitpid | composition of C49-C51, C60, C79, C80, C39 and C40; refutation: with -i the status is 0 although nothing was started; partial where C40, C41 and C60 are |
| C82 | M_Dump: parse_seccomp_policy; S_Dump: its options, its input, deciding as the text says | C02, C05 and C60 composed through the bytes of the file; numbers in the listing are read back; refutations: no arguments at all is undefined behaviour (strdup of argv[1]), a failing fclose is not seen |
| C83 | M_PyMain: compile_seccomp_policy.py's main and its output formats; S_PyMain: what the options stand for | C63 and C60 composed through the bytes of the file; numbers in the header are read back; refutations: a number given with --include-depth-limit switches the limit off, --use-ret-log does not change kill-process and trap, --default-action is ignored in a denylist; partial where C60 and C63 are |
| C84 | M_Json: parse_llvm_ir and main of generate_constants_json.py, load_from_json; S_Json: how clang writes the tables, as concatenations of texts | the matches of the expressions by the soundness and completeness of the matcher (P_PyLex), then induction over entries and lines; refutations: a file without system calls is written with status 0, pointers of older clang versions get 0 |
| C85 | M_Table: the expressions of gen_syscalls.sh and gen_constants.sh and what the C compiler makes of the entries; S_Table: directives, macros defined at the end | each line: soundness and completeness of the matcher; induction over lines; refutation: constants with parentheses, minus signs, SIG_ or NULL are missed |
| C86 | M_Audit over M_Gen; S_Audit: what a record says, traces that show the same calls | each record adds what a traced line adds, by cases; induction over records, events and logs; hence the same text as from a trace, whose existence is shown by construction, and C66 gives the decisions; refutations: program names the kernel writes in hexadecimal, calls the library does not know |
| C87 | M_Freq over M_Gen and M_Audit; S_Freq: how often a call is in the traces | the counter of a call is the number of its lines, by induction; the names are listed once; each printed line is cut into the words of a line of a frequency file as C63 specifies it; decimal numbers do not begin with 0 |
| C88 | M_Bucket over M_Audit; S_Bucket: lines of calls and of records, the parting of the files | the searches of the two regular expressions by soundness and completeness of the matcher; induction over lines and files; then C86; refutation: an interrupted call that writes an audit record |

## Trusted base

* Coq 8.16.1's kernel, with `vm_compute` (used for witnesses and concrete
  cases, and re-run by the kernel).
* Axioms: none.  `Print Assumptions` stands under every theorem of the `T_*.v`
  files and prints "Closed under the global context" for each of them.  No
  axiom, parameter, functor or module type is declared; variables occur only
  inside sections that are closed.  (A listing of all axioms in the loaded
  libraries shows those of `Coq.ssr.ssrunder`, which no theorem uses.)
* The reading of /repo recorded in the comments of the `M_*.v` files: that each
  definition does what the cited lines do.
* The specifications in the `S_*.v` files, among them those of outside
  behaviour: the kernel's BPF machine and its checks (S_Bpf), credentials
  (S_Creds), a tree of files (S_Dirs), pipes (S_Pipe), wait statuses (S_Wait),
  ELF (S_Elf).

## Testing the theorems

`seeded/LOG.jsonl` records one line per wrong program tried: the definition
edited, the edit, the claim it breaks, the theorems that no longer hold, and
the theorems tightened because of it.
