# Formal model of QingdaoU/Judger in Rocq: design

All line numbers refer to the pinned sources in /repo.  The properties are in
`properties.jsonl` (C01...), the claims per property in `MANIFEST.json`.

## 1. Layout

| directory | content |
|---|---|
| `rocq/theories/Base`  | C integers (ranges, wrap-around, undefined behaviour as an outcome), byte strings |
| `rocq/theories/Model` | the model: one Gallina definition per C / Python / C++ function, each with a citation |
| `rocq/theories/Spec`  | small specifications that do not import the model's helpers (decision table, value denotation, scanning of a command line, permitted system calls, ...) |
| `rocq/theories/Proofs`| lemmas and proofs |
| `rocq/theories/Props` | only the property theorems (`exact lemma.`), the concrete `Example`s that meet their hypotheses, and `Print Assumptions` |

A theorem called `Cxx_..._partial` proves part of property Cxx.  A theorem
called `Cxx_..._refuted` shows that the full statement is false of the model of
the code (it is a defect of the code); the part that does hold is proved beside it.

## 2. Modelling style

* C functions are total Gallina functions.  `int`, `long`, `unsigned` are `Z` with explicit
  range tests or wrap-around at exactly the places where C converts.  Undefined behaviour
  (signed overflow, out-of-bounds array access, use of a dead object, reading an
  uninitialised cell) is a separate outcome, never assumed away.
* Strings are lists of bytes (`list ascii`) without the terminating NUL.
* Loops with a clear measure are structural recursion; the option-parsing loop, which does
  not always terminate in C, is a function of a step budget, and the theorems say for which
  inputs some budget suffices and for which none does.
* System calls and library calls are an environment: a record of arbitrary functions (which
  call fails, what wait4 returns, ...) over which every theorem quantifies.  What a call does
  when it succeeds (descriptor table, rlimits, credentials, seccomp filter) is modelled.
* The timeout thread, the judger, the kernel and the program run as an interleaving
  transition system; an execution is an arbitrary list of steps.

## 3. Plan per property

| id | model | proof |
|---|---|---|
| C01-C09 | `Model/Runner.v`: `run` as function of what the system calls return; wait-status macros bit by bit | decision table in `Spec/Verdict.v`; case analysis and arithmetic; C09 by a counterexample plus the user-time-only case |
| C10-C12 | same, with the list of system effects performed | case analysis over all oracles; iff statements |
| C13-C16, C18-C21, C29 | `Model/Child.v`: `child_process` over a kernel state (descriptors, limits, credentials, filter) with a failure oracle for every call | symbolic execution for all oracles; invariants on the descriptor table |
| C17 | `(x+1000)/1000` as checked int arithmetic in child and killer | boundary iff |
| C14 | error path of the child as system calls filtered by the loaded filter and by RLIMIT_FSIZE | case analysis; three exact exceptions |
| C22-C28 | `Model/Seccomp.v`: rule tables, libseccomp evaluation | iff against a spec written as a predicate on calls |
| C30-C37 | `Model/Timeout.v`: interleaving transition system | inductive invariants; witnesses for the refuted ones; C37 for the profiles on `Model/Processes.v` |
| C38, C39 | `Model/ArgInt.v`: glibc `strtol`, `strtol0X`, `detectsuffix`, `arg_int_scanfn` | equality with a denotational grammar in `Spec/IntSyntax.v` |
| C40-C42 | `Model/Getopt.v`: `getopt_internal`, `parse_long_options`, `permute_args`, and the loops of `arg_parse` | refinement of a left-to-right scanner `Spec/CmdLine.v`; exact characterisation of divergence |
| C43 | `permute_args` on an array, cycle by cycle | number theory on the cycles, for all lengths |
| C44-C49 | `Model/Argtable.v`, `Model/Main.v` | from the refinement, case analysis; array bounds as outcome |
| C50 | `Model/Messages.v` (`print_result`), `Spec/Json.v`: the JSON grammar | a pushdown machine that reads exactly what the grammar derives gives unique reading; round trip for all values |
| C51, C52 | `Model/Logger.v`, `Spec/LogSpec.v` | buffer contents and lengths computed symbolically; invariant over all histories of any number of logging processes (lock owned by the open file description, bytes appended one at a time) |
| C53-C56 | `Model/Python.v` (argument list), `Model/PythonDecode.v` (output), composed with the command line model | end-to-end round trip: words -> reading -> configuration -> printed JSON -> dictionary |
| C57 | `Model/LuaBinding.v` (lua_next order, NUL cut, an int stored in a long field), `Spec/LuaSpec.v` | accepted iff described, fields carried, never reaches fork, for all tables |
| C58, C59 | `Model/NodeBinding.v` (type checks, 255-byte copies, a small shell lexer, fgets/strlen reading, last-brace search), `Spec/NodeSpec.v`, composed with the command line model | shell words of the built command, then the command line theorems; unique reading of JSON for the output, for all objects |
| C60 | `Model/Constants.v` | for all names and values (finite lists) |
| C61, C62 | `Base/CMem.v` (blocks of bytes, out-of-bounds access as outcome), `Model/Dstr.v`, `Model/ArgCat.v` | buffer invariants by induction over operations |
| C64, C65 | `Model/Messages.v`: the error functions, the usage text, printf formats | equality with the texts of `Spec/MessageSpec.v`, for all command lines |
| C63 | `Model/Judger.v`: main, run, the timeout thread and child_process in one transition system; the process becomes the program only if child_process reaches execve | invariant relating every recorded outcome to what happened in the history, then C01-C05, C13, C14 and C44-C50 on top; a total history exists in every world |
| C66-C68, C20 after the start | `Model/Program.v`: any number of processes making system calls under their filters | invariant over all interleavings; replay of one program's calls for isolation |
| C69 | `Spec/ResourceSpec.v` over the effects of `Model/Runner.v` | case analysis over all paths of run(); induction over the sequence of calls |
| C70 | `Model/LuaMemory.v`: live blocks, malloc that may fail, pointers in the configuration | ownership invariant of the parameter loop (each live block is in exactly one slot), for all tables and failures |
| C71 | `Model/ArgMemory.v`: the parser again with arrays, heap blocks, failing malloc | simulation between the two models, entry by entry; size lemmas for the option lists; the live blocks are a stack plus the table |
| C72 | `Model/Sort.v`: the merge sort on an array, with its scratch block and int arithmetic | induction over the recursion; the merge loop keeps a permutation and sortedness |
| C73 | `Model/HashTable.v`: chains, growth, iterators, the command registry, with memory and failing malloc; `Spec/CommandSpec.v` says what a registry is by the last request | invariant: every entry is in the chain of its hash, keys distinct, live blocks are the owned ones; induction over the requests and over the walk |
| C74 | `Model/Wrap.v` (the wrapping loop with its indices, the GNU glossary) on the growable string and the option buffer; `Spec/WrapSpec.v` says what words and lines are | each round is a function on the rest of the text that shortens it; words are kept across a round; induction over the rest; invariant of the option buffer for texts that fit |
| C75 | `Model/Trex.v`: compiler and matcher of the regular expressions, node by node; `Spec/RegexSpec.v` says what an expression means and how it is written | the compiler's nodes represent an expression (relation by induction); the parse is inverted for soundness, replayed for acceptance, and the notation is shown to be unambiguous; matching by induction over the represented expression, with a measure for termination |
| C76 | `Model/ArgFile.v`; `Spec/FileSpec.v` says what base names and extensions are | strrchr finds the last one; uniqueness of the split |
| C77 | `Model/ArgDate.v`: `arg_strptime` character by character, with int arithmetic; `Spec/DateSpec.v` gives formats as lists of parts, what each part reads, and how dates are written | each conversion is one step that reads its parts; induction over the format; the parts read as specified and in one way; what is written is read back by induction over the parts |
| C78 | `Model/Files.v`: contents and offsets on top of `Model/Program.v`; path names to files by any function | every history is one of `Model/Program.v`, so its invariants hold; size by induction over the history; contents by the invariant that the offset of the stream is the length of what it took; the descriptors at the start are traced to the openings of `Model/Child.v` |
| C79 | `Model/ArgObject.v`: each kind of option as one block of bytes with the struct and its arrays, aligned accesses inside the block only; `Spec/ObjectSpec.v` says what a count with arrays is | representation invariant between the block and the abstract object; the layout (offsets, disjointness, alignment) by case analysis over the kinds; induction over the uses |
| C80 | `Model/Callers.v`: the Python and the Node function around the judger of `Model/Judger.v`; what was written to the judger's streams is an argument | composition: C53-C56 and the Node claims give the configuration, C63 the history and the result, the output claims the dictionary; samples computed through all layers |
| C81 | `Model/Usage.v`: the usage lines (short and verbose) and the plain glossary of any table, on the growable string and the option buffer; `Spec/UsageSpec.v` says what a line looks like | what a sequence of calls appends, by induction over the table; exactness of the buffer for names that fit; lengths and first letters show that the line determines the counts; counterexamples by computation |
| C82 | the error functions of all eight kinds and the messages for commands in `Model/Usage.v`; complaints and their wording in `Spec/UsageSpec.v`; `strftime` is an argument | case analysis over the complaints on top of the lemmas of C81; induction over the errors |
| C83 | `dbl_scan` in `Model/Usage.v`, `strtod` an argument; `Spec/DoubleSpec.v` says which words count | induction over the words with the room left |
| C84 | `arg_parse` over tables whose scan, check and reset functions are arguments in `Model/AnyTable.v` (getopt as in `Model/Getopt.v`); reading of the words in `Spec/AnyLine.v`, effect on objects and errors in `Spec/AnySpec.v` | simulation of getopt by the reading relation, for letters inside a word and for words; totality and uniqueness of the relation; `Model/Argtable.v` is an instance (`Proofs/AnyBridge.v`) |
| C85 | ways of writing an option in `Spec/Writing.v`, tables of switches, integers and texts in `Spec/PlainSpec.v` | induction over what is written, on top of C84 |
| C86, C87 | `Model/Processes.v`: a table of processes with users, process limits, parents, times and memory; any number of judgers start children that go through setrlimit, setuid and execve of src/child.c and then fork (by the system calls the profile of `Model/Seccomp.v` lets through), compute, end and wait in any order; `Spec/ProcSpec.v`: families, time spent and memory held, by events only | invariants over all histories (families, limits, sums); C86_set_up ties the three steps of the set-up and the filter to `child_process` of `Model/Child.v`; witnesses of any size for the refuted ones |
| C88 | `Model/Killed.v`: the judger of `Model/Judger.v` stops anywhere in its history, or when any prefix of its report has left it; its threads vanish, the process it created goes on; the bindings read what there is | every proper prefix of a report leaves an object open in the JSON reader, whatever stands before it; execve needs the complete set-up; witnesses for the refuted ones |
| C89 | `Model/Pipes.v`: the descriptor tables of all processes of a program, from those `child_process` leaves at execve, under open, dup, close, fork (if the profile lets it through), execve and exit; `Spec/PipeSpec.v`: the end of a pipe | invariant "no descriptor of the pipe", from C18 and C19; witnesses for the refuted ones |
| C90 | `Model/GetoptFull.v`: `getopt`, `getopt_long`, `getopt_long_only` with every flag, any array of names, `-W name` and the messages; the reading relation `Spec/GetoptSpec.v` (independent of the code), what is answered `Spec/GetoptAnswer.v` | simulation call by call (`Proofs/GetoptCalls.v`), progress and a decreasing measure for totality, path argument for the circle; `Model/Getopt.v` is an instance (`Proofs/GetoptRefines.v`) |
| C91 | `Model/Tables.v`: the constructors as far as address, flag and failure go, `arg_nullcheck`, `arg_free`, `arg_freetable` over a heap of objects; `Spec/TableSpec.v` | induction over the table; each function is characterised in both directions (result iff description), then composed over a table's life |
| C92 | `Model/Meter.v`: user and system time, address space and resident memory of every process, on top of `Model/Program.v`; a tick compares the time with RLIMIT_CPU, every growth the space with RLIMIT_AS; `Spec/MeterSpec.v` | every history is one of `Model/Program.v`, so that limits never rise; invariants on time and memory; a history by slices of one microsecond for what can be had; C01 for what is reported |
| C93 | `Model/Neighbours.v`: the six calls of the kill family on top of `Model/Program.v`: filter, permission, delivery; `Spec/NeighbourSpec.v` | invariant: a program under a profile keeps its one user id; each step of another one leaves the process unchanged; replay of a program's own calls; witnesses for every pair of programs of one user |
| C94 | `Model/HashTable.v`, all of it, with any hash function and equality; `Spec/HashSpec.v`: a collection of pairs, and a map | the invariant of C73 without distinct keys; refinement of the collection by each call; the collection is the map when no key is inserted twice |
| C95 | `Model/TrexSearch.v`: the matcher again, with the positions of sub-expressions, and the searching functions; `Spec/SearchSpec.v` | simulation of `Model/Trex.v` by the matcher with positions (same outcome, places only within the text); the compiler's numbers of sub-expressions by an invariant; the search from C75's soundness, completeness and termination at every position |
| C96 | `Model/Stamp.v`: time stamps of the log (localtime with any zone, strftime) and the calls of the two error macros; `Spec/StampSpec.v`: the calendar day by day, the order of texts, failures | eras of 400 years and years beginning with March by linear arithmetic over divisions, months by computation; the text of a line is taken apart from the left; together with the schedules of C52 |
| C97 | `Model/Runner.v` run twice; `Spec/CompareSpec.v`: limits that allow more, answers alike, use no greater | both results are taken apart to the same status and usage; the verdict as a function of the three comparisons, by cases |
| C98 | `Model/Timeout.v`; `Spec/LifeSpec.v`: how a program ends in an execution and how long it lived | an execution is taken apart at the acts of the parent, backwards from the return; between two acts only the given delay passes; the end lies between fork and wait4, once |
| C99 | `Model/Calls.v`: a list of executions of `Model/Timeout.v` with common clocks and process numbers; a fork takes the number of a program that is gone, a signal sent to such a number ends the program that has it now; `Spec/CallsSpec.v` | every call is shown to be an execution of its own, so all earlier theorems apply; what one call does to another is classified by induction over the interleaving; with the delays of C98 it does nothing; a concrete interleaving refutes this without them |
| C100 | `Model/Names.v`: objects with owners and modes, path resolution, the openings of `src/child.c`, and what a program may do to names; `Spec/NamesSpec.v`: path resolution as inference rules, directories shut to a user | the walk is equal to the rules; every call changes only objects its caller may write or owns, so a way through shut directories is kept (induction over the calls and the rules); adding names keeps what was found; a link at a free name composes two ways |
| C101 | `Model/Reading.v`: requests of a program that depend on the answers so far, the answers of the kernel, the user, groups and open files of the program after `src/child.c`; `Spec/ReadingSpec.v`: hidden files, file systems that are equal but for secret contents | a relation between two runs kept by every request (paths do not depend on contents; rights of files of others stay); the descriptors from C19, the user from C20; the rules from C24, C26, C27 |
| C102 | `Model/Starting.v`: the search for the program of `execve` (rights, files open for writing, `#!` lines); `Spec/StartingSpec.v`: the same as relations, and what it means that a program is guarded | the parser of the first line and the recursion agree with the relations (both directions); emptied files start nothing (C100 for what is opened); guarded files and ways are kept by every history (induction, with C100) |
| C103 | `Model/Shell.v`: the words of simple commands with quotes; `Spec/ShellSpec.v`: quoting a text, objects that stand for a call | the lexer takes a quoted text as it is, whatever it contains (induction on the text); the words of the command are those of the call meant; then the theorems of C59 and C80 about these words |
| C104 | `Spec/ReportSpec.v`: the end of a program as wait4 describes it, calls against a rule, and the result that is reported | an invariant over histories of all processes (filters and the single thread are kept), from which the event that ends a program is found (induction on the history); composed with the theorems about the rules (C24, C26, C27) and about run() (C01, C04) |
| C105 | `Spec/AskedSpec.v`: what was asked to be written through a descriptor; writes cut only by the limit | the file is the bytes taken (C78's invariant, sharpened to the position of the descriptor); induction on the history relates taken and asked; the end by SIGXFSZ composed with run() as in C104 |

## 4. Trusted base

### Kernel and axioms

* Coq 8.16.1: the kernel (with its `vm_compute`) and `coqchk`; standard library only.
* `Print Assumptions` stands under every property theorem and answers "Closed under the global
  context" each time: no axiom of the standard library or of any other library is used, and
  none is added.

### What is modelled

| source | modelled | in |
|---|---|---|
| `src/main.c` | everything from `arg_parse` to the end (13-191) | `Argtable`, `Main`, `ArgMemory`, `Messages`, `Judger` |
| `src/runner.c` | everything, as a function of what its calls return (`Runner`) and as one of the interleaved threads (`Timeout`, `Judger`) | `Runner`, `Timeout`, `Judger` |
| `src/killer.c` | everything | `Timeout` |
| `src/child.c` | everything; what the redirections and the program do to files in `Files`, which files their paths lead to, which program `execve` starts and what it can read in `Names`, `Starting` and `Reading` | `Child`, `Files`, `Names`, `Reading`, `Starting` |
| `src/rules/*.c` | all five profiles, rule by rule | `Seccomp` |
| `src/logger.c`, `logger.h` | everything | `Logger` |
| `src/runner.h` | types, constants, enumerations | `Config` |
| `src/argtable3.c` sort and hash table (387-875), commands (4690-4868) | `arg_mgsort`, `arg_hashtable_*`, `arg_cmd_*` | `Sort`, `HashTable`, `HashItr` |
| `src/argtable3.c` getopt (923, 1225-1964) | `getopt`, `getopt_long`, `getopt_long_only`, `getopt_internal`, `parse_long_options`, `permute_args`, `gcd`, the messages given to `warnx` | `Permute`, `Getopt`, `GetoptFull` |
| `src/argtable3.c` strings (971-1210) | all of `arg_dstr_*` | `Dstr` |
| `src/argtable3.c` arg_lit, arg_int, arg_str, arg_end | scan, check, reset and error functions; `strtol0X`, `detectsuffix` | `ArgInt`, `Argtable`, `Messages` |
| `src/argtable3.c` arg_rex (3625-3657, 3816-4458) | `arg_rex_scanfn`, `trex_compile`, `trex_match` with all their parts | `Trex` |
| `src/argtable3.c` arg_file (2864-2942) | `arg_basename`, `arg_extension`, `arg_file_scanfn` | `ArgFile` |
| `src/argtable3.c` arg_date (2010-2034, 2152-2535) | `arg_date_scanfn`, `arg_strptime`, `conv_num` | `ArgDate` |
| `src/argtable3.c` option objects (2083-2129, 2577-2801, 2921-3026, 3285-3318, 3363-3436, 3625-3787, 4555-4650) | `arg_litn`, `arg_intn`, `arg_dbln`, `arg_strn`, `arg_rexn`, `arg_filen`, `arg_daten`, `arg_end`: layout in memory, scan, reset and check of all of them, `arg_register_error`; the conversion of the word is an argument | `ArgObject` |
| `src/argtable3.c` parsing (4990-5410) | `arg_register_error`, `find_shortoption`, `alloc_longoptions`, `alloc_shortoptions`, `arg_parse*`, `arg_reset`; with their memory in `ArgMemory`, over arbitrary objects in `AnyTable` | `Argtable`, `AnyTable`, `ArgMemory` |
| `src/argtable3.c` tables (352-385, 5949-6012) | `arg_set_panic`, `xmalloc`, `xcalloc`, `xfree`, `arg_nullcheck`, `arg_free`, `arg_freetable` | `Tables` |
| `src/argtable3.c` printing (5432-5790, 5825-5942) | `arg_cat*`, `arg_print_option/gnuswitch/syntax/glossary/errors`, `arg_print_formatted`, `arg_print_glossary_gnu`, `arg_print_syntaxv` | `ArgCat`, `Messages`, `Wrap`, `Usage` |
| `src/argtable3.c` errors and made messages (2040-2070, 2578-2640, 2951-2975, 3671-3704, 4870-4930) | the error functions of all kinds, `arg_dbl_scanfn`, `arg_make_*` | `Usage` |
| `bindings/Python/_judger/__init__.py` | everything | `Python`, `PythonDecode`, `Constants`, `Callers` |
| `bindings/Lua/judger.c` | everything | `LuaBinding`, `LuaMemory`, `Constants` |
| `bindings/NodeJS/judger.cc` | everything that builds the command and reads the result | `NodeBinding`, `Shell`, `Constants`, `Callers` |

### What is not modelled

* `src/argtable3.c`: what `strtod` and `strftime` compute (but see C96 for the log), entries that share an object.
* The windows of the bindings' host languages beyond the calls made (Lua's and V8's garbage
  collectors, CPython itself).  `demo/` and `tests/`.
* Memory exhaustion, except in the option parser, the sort, the hash table and the Lua binding; signals sent to the judger itself, except that it is killed (C88).
* The program: only its life cycle (`Timeout`, `Judger`) and its system calls (`Program`), as far as
  descriptors, limits, credentials, threads, filters, the contents of files (`Files`), their names and rights (`Names`, `Reading`), and the amounts of time and memory (`Meter`) go; not what its memory holds, and no shared mappings of files.

### What the outside is assumed to do

* The reading of the C sources: each definition cites the lines it models; simplifications are
  in the same comment.
* Linux on x86-64: `fork`, `wait4` and its status words, `setrlimit`, `dup2`, `setgid`,
  `setgroups`, `setuid`, `execve`, `kill`, `flock`, append mode, signal delivery to a process
  under a filter; any of the calls may fail at any time.  For running programs: what `open`, `dup`,
  `close`, `prlimit64`, `execve`, `clone`, the set*id calls and `exit_group` do to descriptors, limits and
  credentials, and that the other calls of the c_cpp whitelist do nothing to them; `write` at an offset and
  at RLIMIT_FSIZE, O_TRUNC.  For process trees (`Processes`): RLIMIT_NPROC counts the processes of the real
  user at fork, setuid and execve, root is exempt; wait adds a child's times to its parent's, children that
  are not waited for are lost to it; resident memory survives execve as a peak.  For time and memory (`Meter`): at
  every tick the hard limit RLIMIT_CPU ends a process by SIGKILL, the soft limit sends SIGXCPU and is raised by a
  second; mmap, brk, execve and stack growth stop at the soft limit RLIMIT_AS; resident memory is part of the space.
  For signals (`Neighbours`): kill(2)'s rule about user ids.
* libseccomp: a filter is the list of its rules, the first match decides by priority of the
  action, foreign architectures are killed.
* glibc: `strtol`, ctype in the C locale, `snprintf`, `fopen` modes, `pthread_cancel` at
  cancellation points, `sleep`, `popen` and `fgets`.
* gcc: conversion of an out-of-range integer is modular; reading uninitialised memory is
  an outcome of its own.
* `sh`: only the words of simple commands are interpreted, without quotes (`NodeBinding`) and with them (`Shell`).
