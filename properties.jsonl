{"id": "C01", "title": "Verdict decision table", "statement": "When run() gets a wait status for the program and reports no error, `result` is exactly: SYSTEM_ERROR if the program was terminated by SIGUSR1; else, if it was terminated by SIGSEGV, MEMORY_LIMIT_EXCEEDED if a memory limit is set and the measured memory exceeds it, otherwise RUNTIME_ERROR; else the first that applies of CPU_TIME_LIMIT_EXCEEDED, REAL_TIME_LIMIT_EXCEEDED, MEMORY_LIMIT_EXCEEDED (limit set and strictly exceeded by the measured value), RUNTIME_ERROR (terminated by a signal or non-zero exit code), SUCCESS.", "quantifier": "every wait status, resource usage, start/end time and every valid configuration", "why_tests_cant": "2^16 wait statuses x unbounded usages x limits; the precedence between simultaneous violations is only seen when several limits trip at once", "anchors": ["src/runner.c:run", "src/runner.h:RESULT codes"]}
{"id": "C02", "title": "SUCCESS is sound and complete", "statement": "run() returns error = 0 and result = SUCCESS iff the program exited normally with status 0 and none of the set limits (CPU, real time, memory) is exceeded by the measured values.", "quantifier": "every wait status, usage, timing and configuration", "why_tests_cant": "an iff over all process outcomes cannot be enumerated", "anchors": ["src/runner.c:run"]}
{"id": "C03", "title": "error != 0 leaves every other field zero; result alone is not a verdict", "statement": "If `error` is non-zero then cpu_time, real_time, memory, signal, exit_code and result are all 0, so a failed judgement shows result = 0 = SUCCESS and callers must test `error` first; `error` is always one of 0, INVALID_CONFIG, FORK_FAILED, PTHREAD_FAILED, WAIT_FAILED, ROOT_REQUIRED, and the codes -6..-11 are never returned. The naive reading 'result = SUCCESS means the program succeeded' is false.", "quantifier": "every failure combination of getuid/fork/pthread_create/wait4 and every configuration", "why_tests_cant": "requires fault injection on every syscall combination", "anchors": ["src/runner.c:run", "src/runner.c:init_result", "src/runner.c:ERROR_EXIT", "src/runner.h"]}
{"id": "C04", "title": "signal and exit_code report the wait status", "statement": "With error = 0, if the program exited with code c then signal = 0 and exit_code = c (0..255); if it was terminated by signal s then signal = s and exit_code = 0 (also when a core was dumped).", "quantifier": "every exit code, signal and core flag", "why_tests_cant": "decoding is bit arithmetic over all status words", "anchors": ["src/runner.c:run WIFSIGNALED/WTERMSIG/WEXITSTATUS"]}
{"id": "C05", "title": "SYSTEM_ERROR exactly for SIGUSR1, without measurements", "statement": "result = SYSTEM_ERROR iff the program process was terminated by SIGUSR1; then exit_code, cpu_time and memory are 0 while real_time is set. The stronger reliance 'SYSTEM_ERROR means that the sandbox set-up failed' is false: the judged program can produce it itself.", "quantifier": "every wait status and usage", "why_tests_cant": "needs all program behaviours", "anchors": ["src/runner.c:run", "src/child.c:CHILD_ERROR_EXIT"]}
{"id": "C06", "title": "Memory verdict uses peak resident set in bytes", "statement": "Except for SIGUSR1, `memory` is the peak RSS in KiB times 1024, and MEMORY_LIMIT_EXCEEDED is only ever reported when a memory limit is set and memory > max_memory (equality is within the limit).", "quantifier": "every usage and limit up to the long range, including the multiplication overflow boundary", "why_tests_cant": "boundary values at 2^53 KiB and at equality", "anchors": ["src/runner.c:run ru_maxrss"]}
{"id": "C07", "title": "UNLIMITED disables a verdict and its kernel limit", "statement": "A limit set to UNLIMITED (-1) never yields the corresponding verdict (CPU_TIME, REAL_TIME, MEMORY), no timeout thread is created for max_real_time = -1, and no rlimit is installed for the corresponding resource.", "quantifier": "every configuration and outcome", "why_tests_cant": "absence of an effect in all executions", "anchors": ["src/runner.c:run", "src/child.c:child_process", "src/runner.h:UNLIMITED"]}
{"id": "C08", "title": "real_time is the elapsed wall time to within 1 ms", "statement": "For start and end instants (microseconds) of a run, real_time differs from the true elapsed time by less than 1 ms, is non-negative when the clock did not go backwards, and is monotone in the end instant, as long as the run lasts less than 2^31 ms; beyond that the reported int wraps.", "quantifier": "every pair of timevals", "why_tests_cant": "floor-of-difference versus difference-of-floors is exact only by arithmetic over all timevals", "anchors": ["src/runner.c:run gettimeofday"]}
{"id": "C09", "title": "cpu_time is user time only", "statement": "cpu_time is the user CPU time of the program rounded down to ms. It does not include system time, so the reliance 'a program whose total CPU time exceeds max_cpu_time gets CPU_TIME_LIMIT_EXCEEDED' is false; it holds for programs that use no system time.", "quantifier": "every user/system time pair", "why_tests_cant": "system-time heavy programs are not deterministic to produce", "anchors": ["src/runner.c:run ru_utime"]}
{"id": "C10", "title": "Configuration validation", "statement": "For a root caller, run() starts a process iff each of max_cpu_time, max_real_time, max_memory, max_process_number, max_output_size is >= 1 or UNLIMITED, max_stack >= 1, and otherwise returns error = INVALID_CONFIG without starting anything. In particular max_stack = UNLIMITED is always rejected.", "quantifier": "every configuration", "why_tests_cant": "nine numeric fields over their full C ranges", "anchors": ["src/runner.c:run config check"]}
{"id": "C11", "title": "Root is required, checked before anything is started", "statement": "If the caller's real uid is not 0, run() returns error = ROOT_REQUIRED for every configuration (valid or not) and performs no fork.", "quantifier": "every uid and configuration", "why_tests_cant": "all uids", "anchors": ["src/runner.c:run getuid"]}
{"id": "C12", "title": "Failure of fork, thread creation or wait", "statement": "fork failure gives FORK_FAILED with no child; a failed timeout-thread creation or a failed wait gives PTHREAD_FAILED or WAIT_FAILED after SIGKILL has been sent to the child, so the program is not left running unbounded.", "quantifier": "every failure point and schedule", "why_tests_cant": "needs fault injection and all interleavings", "anchors": ["src/runner.c:run", "src/killer.c:kill_pid"]}
{"id": "C13", "title": "No program execution without the complete sandbox", "statement": "The program image is executed only after, in this order: every requested resource limit was set, stdin/stdout/stderr were redirected, gid, supplementary groups and then uid were set (unless -1), and the requested seccomp filter was loaded; there is no execution in which execve happens and one of them failed or was skipped.", "quantifier": "every configuration and every pattern of system call failures", "why_tests_cant": "exponentially many failure patterns", "anchors": ["src/child.c:child_process"]}
{"id": "C14", "title": "Set-up failure is reported as SYSTEM_ERROR", "statement": "If a set-up step or execve fails, the program is never executed and the child terminates by SIGUSR1, so that the caller sees SYSTEM_ERROR. This is guaranteed only if SIGUSR1 has its default disposition, the log file is not over max_output_size, and no whitelist filter is loaded yet; exact exceptions: ignored SIGUSR1 gives RUNTIME_ERROR exit code 1, a log file at or over the output limit gives SIGXFSZ, a loaded c_cpp/c_cpp_file_io filter gives SIGSYS.", "quantifier": "every configuration, failure pattern, inherited signal disposition and log file size", "why_tests_cant": "depends on environment states outside the reach of a unit test", "anchors": ["src/child.c:CHILD_ERROR_EXIT", "src/logger.c:log_write", "src/rules/c_cpp.c"]}
{"id": "C15", "title": "Resource limits installed", "statement": "At execve the kernel limits are exactly: stack = max_stack, address space = 2*max_memory bytes unless UNLIMITED or memory_limit_check_only is set, CPU = floor(max_cpu_time/1000)+1 seconds, processes = max_process_number, file size = max_output_size; each with soft = hard; every resource that is UNLIMITED keeps the inherited limit; no computed value wraps or equals RLIM_INFINITY.", "quantifier": "every valid configuration", "why_tests_cant": "needs the full numeric range, including overflow of the doubling", "anchors": ["src/child.c:child_process setrlimit"]}
{"id": "C16", "title": "CPU limit granularity", "statement": "The kernel CPU limit is strictly above max_cpu_time and at most 1 s above it, so a program that consumed only user time and was stopped by the kernel limit is reported as CPU_TIME_LIMIT_EXCEEDED (unless it died by SIGSEGV/SIGUSR1).", "quantifier": "every max_cpu_time up to INT_MAX-1000 and every usage", "why_tests_cant": "all millisecond values", "anchors": ["src/child.c:RLIMIT_CPU", "src/runner.c:run"]}
{"id": "C17", "title": "No integer overflow for accepted limits", "statement": "The second-rounding of max_cpu_time (in the child) and of max_real_time (in the timeout thread) is free of signed overflow for every accepted value up to INT_MAX-1000, and overflows for every larger one. So the unrestricted 'no overflow for accepted configurations' is false, because run() accepts the larger values too.", "quantifier": "every accepted configuration", "why_tests_cant": "undefined behaviour is not observable by testing", "anchors": ["src/child.c:RLIMIT_CPU", "src/killer.c:timeout_killer"]}
{"id": "C18", "title": "Standard streams", "statement": "At execve, descriptor 0 refers to the file opened for reading at input_path, 1 to output_path opened for (truncating) writing and 2 to error_path; when output_path and error_path are the same string, 1 and 2 share one open file description, otherwise they have different ones. This holds for every initial descriptor table of the judger, including closed 0, 1 or 2.", "quantifier": "every path triple and every initial descriptor table", "why_tests_cant": "the clobbering order of dup2 depends on which descriptors were free", "anchors": ["src/child.c:child_process dup2"]}
{"id": "C19", "title": "No other descriptor is passed to the program", "statement": "Every descriptor of the judger from 3 on is still open in the program, and besides those only streams opened for the redirections are; so 'the program sees only descriptors 0, 1, 2' is false: the log file (opened for append) is passed on.", "quantifier": "every descriptor table", "why_tests_cant": "quantifies over every inherited descriptor", "anchors": ["src/child.c:child_process", "src/logger.c:log_open"]}
{"id": "C20", "title": "Privilege drop", "statement": "When uid and gid differ from -1, the program runs with real, effective and saved uid = uid, the same for gid, and exactly the supplementary groups [gid]; with a non-zero uid and a seccomp rule it cannot regain uid 0 or change its ids by execve of set-uid files or the set*id calls (without a rule a set-uid file gives it other rights). uid = -1 (accepted from the command line) leaves the program running as root; the default is 65534.", "quantifier": "every uid/gid pair and initial credentials of a root caller", "why_tests_cant": "order of setgid/setgroups/setuid matters in all combinations", "anchors": ["src/child.c:setgid/setgroups/setuid", "src/main.c:uid"]}
{"id": "C21", "title": "Files are closed at most once on failure paths", "statement": "On no failure path is a stream closed twice, even when stdout and stderr share a stream, and only opened streams are closed.", "quantifier": "every failure point and path configuration", "why_tests_cant": "double close is a memory error that only shows on specific paths", "anchors": ["src/child.c:close_file", "src/child.c:CHILD_ERROR_EXIT"]}
{"id": "C22", "title": "Seccomp rule selection", "statement": "seccomp_rule_name = NULL loads no filter; c_cpp, c_cpp_file_io, general, golang, node load the corresponding filter; any other name prevents the program from being executed.", "quantifier": "every string", "why_tests_cant": "all strings", "anchors": ["src/child.c:seccomp_rule_name", "src/rules/*"]}
{"id": "C23", "title": "Filter failures are fail-closed", "statement": "If initialising, adding any rule or loading the filter fails, the program is not executed; a loaded filter always contains all of its rules.", "quantifier": "every failure position among the libseccomp calls", "why_tests_cant": "needs fault injection for each of ~35 calls per profile", "anchors": ["src/rules/c_cpp.c", "src/rules/general.c", "src/rules/golang.c", "src/rules/node.c"]}
{"id": "C24", "title": "c_cpp whitelist", "statement": "Under c_cpp a system call is permitted iff it is one of the fixed whitelisted names, or execve with the judger's exe_path pointer, or open/openat whose access mode bits are read-only; everything else, including foreign-ABI calls, is killed. Under c_cpp_file_io open, openat, dup, dup2, dup3 are permitted without restriction and the rest is as in c_cpp.", "quantifier": "every system call name and all 64-bit arguments", "why_tests_cant": "unbounded argument space", "anchors": ["src/rules/c_cpp.c", "src/rules/c_cpp_file_io.c"]}
{"id": "C25", "title": "c_cpp cannot modify files through open", "statement": "Every open/openat permitted by c_cpp is read-only. The stronger 'creates, truncates or writes no file' is false: O_RDONLY|O_CREAT and O_RDONLY|O_TRUNC are permitted.", "quantifier": "every flag word", "why_tests_cant": "all flag combinations", "anchors": ["src/rules/c_cpp.c"]}
{"id": "C26", "title": "general blacklist", "statement": "Under general a native call is killed iff it is clone, fork, vfork, kill, execveat (when known at build time), execve with a path pointer other than exe_path, or open/openat with the O_WRONLY or the O_RDWR bit; socket returns EACCES; everything else is permitted (clone3, creat, openat2, rename, unlink included, so process creation and file writing are not excluded).", "quantifier": "every system call name and arguments", "why_tests_cant": "unbounded argument space and an open-ended set of names", "anchors": ["src/rules/general.c"]}
{"id": "C27", "title": "golang and node blacklists", "statement": "Under golang a native call is killed iff it is socket, fork, vfork, kill, execveat, or open/openat with the O_WRONLY or O_RDWR bit; under node iff it is socket, fork, vfork, kill, execveat; everything else, execve included, is permitted.", "quantifier": "every system call name and arguments", "why_tests_cant": "unbounded argument space", "anchors": ["src/rules/golang.c", "src/rules/node.c"]}
{"id": "C28", "title": "execve restriction is by pointer, not by path", "statement": "Under c_cpp, c_cpp_file_io and general the judger's own execve passes the filter and any later execve passes iff its first argument is the same address; the reliance 'only the program exe_path can be executed' is false because the filter does not look at the string.", "quantifier": "every pointer and memory content", "why_tests_cant": "depends on address-space contents", "anchors": ["src/rules/c_cpp.c", "src/rules/general.c"]}
{"id": "C29", "title": "memory_limit_check_only", "statement": "A non-zero memory_limit_check_only only removes the address-space limit; the memory verdict and all other limits are unaffected.", "quantifier": "every configuration and outcome", "why_tests_cant": "relational property over pairs of executions", "anchors": ["src/child.c:RLIMIT_AS", "src/runner.c:run", "src/main.c"]}
{"id": "C30", "title": "Timeout never fires early", "statement": "The timeout SIGKILL is sent only after strictly more than max_real_time ms have passed since the program was started, provided the sleep is not interrupted by a signal handler and the thread could be detached.", "quantifier": "every interleaving of judger, timeout thread, program and clock", "why_tests_cant": "schedules", "anchors": ["src/killer.c:timeout_killer", "src/runner.c:run"]}
{"id": "C31", "title": "Timeout is enforced within one second plus scheduling delay", "statement": "If the program is still running when the timeout thread's sleep ends (at most max_real_time+1000 ms after thread start), the thread sends SIGKILL to it, after which it can no longer be running or stopped except for the delivery of that signal, so run() returns.", "quantifier": "every interleaving", "why_tests_cant": "schedules", "anchors": ["src/killer.c:timeout_killer"]}
{"id": "C32", "title": "A program killed by the timeout is reported as a time limit violation", "statement": "In every execution in which the timeout thread's SIGKILL was sent before the program was reaped and the reported signal is SIGKILL, result is REAL_TIME_LIMIT_EXCEEDED or CPU_TIME_LIMIT_EXCEEDED, if the wall clock is not set meanwhile; false if it is set back.", "quantifier": "every interleaving with a non-decreasing clock", "why_tests_cant": "needs all schedules and rounding positions", "anchors": ["src/killer.c", "src/runner.c"]}
{"id": "C33", "title": "SIGKILL is only ever sent to the judged process", "statement": "Until the program has been reaped, every signal run() or its timeout thread sends goes to the program; no other pid number is ever signalled. The unrestricted 'no other process is ever signalled' is false: between reaping and pthread_cancel (and after it, if the sleep has ended) the timeout thread can send SIGKILL to the recycled pid.", "quantifier": "every interleaving, including pid reuse", "why_tests_cant": "pid reuse in a microsecond window", "anchors": ["src/runner.c:pthread_cancel", "src/killer.c:timeout_killer"]}
{"id": "C34", "title": "Timeout thread arguments are valid when read", "statement": "The timeout thread reads its pid and timeout while the structure is alive in every schedule in which it reads them before run() goes on; it is false in general: the structure lives in a block that run() leaves right after creating the thread, and a late thread can send SIGKILL to pid -1.", "quantifier": "every interleaving", "why_tests_cant": "stack reuse is compiler dependent", "anchors": ["src/runner.c:killer_args", "src/killer.c:timeout_killer"]}
{"id": "C35", "title": "pthread_cancel is applied to a live thread", "statement": "run() cancels the timeout thread while its thread id is valid in every execution in which the thread did not fire; it is false in general: after an enforced timeout the detached thread's id can be used after its end.", "quantifier": "every interleaving", "why_tests_cant": "undefined behaviour", "anchors": ["src/runner.c:pthread_cancel", "src/killer.c:pthread_detach"]}
{"id": "C36", "title": "run() returns only after the program has terminated", "statement": "When run() returns with error = 0 and the program was never stopped, the program has terminated and has been reaped. False for a program that stops itself: run() returns RUNTIME_ERROR with exit_code = the stop signal, the program stays alive and its timeout is cancelled.", "quantifier": "every interleaving and program behaviour", "why_tests_cant": "schedules and job-control signals", "anchors": ["src/runner.c:wait4 WSTOPPED"]}
{"id": "C37", "title": "No process of the program outlives run()", "statement": "If the program creates no process, none is left after run(); under c_cpp and c_cpp_file_io it cannot create any. Under general, golang, node and without a rule it is false that no process started by the program outlives run(): only the direct child is ever signalled or waited for.", "quantifier": "every process tree", "why_tests_cant": "process trees", "anchors": ["src/runner.c", "src/killer.c"]}
{"id": "C38", "title": "Integer options: accepted values", "statement": "An integer option value in the documented format (optional white space and sign, a decimal, 0x, 0o or 0b number, optional KB/MB/GB, white space) is accepted iff the denoted number fits an int, and what is stored is exactly that number; in particular str(n) denotes n. The accepted language is exactly the documented one plus repeated space, sign and 0x after a radix prefix, with the obvious value; every other string is a usage error, except that -0x-n (and the like) with n >= 2^63 overflows.", "quantifier": "every string", "why_tests_cant": "all strings, all boundary values", "anchors": ["src/argtable3.c:arg_int_scanfn", "src/argtable3.c:strtol0X", "src/argtable3.c:detectsuffix"]}
{"id": "C39", "title": "Integer options never wrap", "statement": "A value outside the int range is rejected as an error (so limits of 2 GiB and more cannot be expressed), never truncated.", "quantifier": "every integer and suffix", "why_tests_cant": "all integers", "anchors": ["src/argtable3.c:arg_int_scanfn"]}
{"id": "C40", "title": "Option names resolve by exact match or unique prefix", "statement": "A long option name is matched if it is a full option name or a prefix of exactly one option name; a prefix of several names is rejected as ambiguous and an unknown name is rejected.", "quantifier": "every string", "why_tests_cant": "all strings", "anchors": ["src/argtable3.c:parse_long_options", "src/main.c:argtable"]}
{"id": "C41", "title": "Command line scanning", "statement": "Options are recognised in any position in order from left to right, `--` ends options, a value is taken from `=value` or the next word, option-argument permutation preserves the relative order of options and of other words, and every non-option word is a usage error.", "quantifier": "every argument vector", "why_tests_cant": "unbounded argument vectors", "anchors": ["src/argtable3.c:getopt_internal", "src/argtable3.c:permute_args", "src/argtable3.c:arg_parse_tagged", "src/argtable3.c:arg_parse_untagged"]}
{"id": "C42", "title": "Command line parsing terminates", "statement": "Parsing terminates iff it does not reach a word of the form -xyz- (a dash, one or more non-dash characters, a final dash) in option position; on such a word it loops forever.", "quantifier": "every argument vector", "why_tests_cant": "divergence cannot be observed by a test", "anchors": ["src/argtable3.c:getopt_internal", "src/argtable3.c:arg_parse_tagged"]}
{"id": "C43", "title": "Argument permutation algorithm", "statement": "The in-place cyclic exchange of two adjacent blocks of argv is the block swap for all block lengths (no element lost, duplicated or reordered inside a block, no division by zero).", "quantifier": "every argv and block boundaries", "why_tests_cant": "unbounded lengths; gcd-dependent cycles", "anchors": ["src/argtable3.c:permute_args", "src/argtable3.c:gcd"]}
{"id": "C44", "title": "Occurrence limits and required option", "statement": "exe_path must be given exactly once, every other scalar option at most once, args and env at most 255 times; otherwise the judger exits with status 1 without running anything.", "quantifier": "every argument vector", "why_tests_cant": "unbounded vectors", "anchors": ["src/main.c:argtable", "src/argtable3.c:arg_parse_check", "src/argtable3.c:arg_str_scanfn"]}
{"id": "C45", "title": "Defaults and value mapping", "statement": "When the judger runs, each configuration field is the value given on the command line or its documented default, and no option influences another field.", "quantifier": "every argument vector", "why_tests_cant": "combinatorial in 17 options", "anchors": ["src/main.c"]}
{"id": "C46", "title": "help and version take precedence and never run anything", "statement": "If --help was recognised the usage is printed, else if --version was recognised the version is printed, in both cases exit status 0 and nothing is run, even if there are errors elsewhere on the command line.", "quantifier": "every argument vector", "why_tests_cant": "unbounded vectors", "anchors": ["src/main.c"]}
{"id": "C47", "title": "Program argument vector", "statement": "Whenever the judger runs the program, argv = exe_path followed by the args values in order, and the environment is exactly the env values in order; this covers up to 254 args and 255 env values. With the accepted maximum of 255 args the terminator is written outside the array (undefined behaviour).", "quantifier": "every list of args and env", "why_tests_cant": "off-by-one at a length nobody tests, memory layout dependent", "anchors": ["src/main.c:_config.args", "src/runner.h:ARGS_MAX_NUMBER"]}
{"id": "C48", "title": "Empty option values are rejected", "statement": "An option that requires a value and is given the empty value is a usage error, so the empty string can be passed neither as program argument nor as path.", "quantifier": "every argument vector", "why_tests_cant": "unbounded vectors", "anchors": ["src/argtable3.c:arg_parse_tagged"]}
{"id": "C49", "title": "Error collection is bounded", "statement": "At most 10 parse errors are stored whatever the command line; further errors replace the last by an 'too many errors' marker; the error count returned is positive iff some error occurred.", "quantifier": "every argument vector", "why_tests_cant": "unbounded number of errors", "anchors": ["src/argtable3.c:arg_register_error"]}
{"id": "C50", "title": "Output is one JSON object that determines the result", "statement": "On a run the judger prints to stdout exactly one JSON object with the seven integer fields, and decoding it gives back the result structure, for every field value. Output that the program wrote before it to the same stdout either is blank or makes the whole text invalid JSON, so no program can forge a result; help, version and error texts are not JSON.", "quantifier": "every result structure", "why_tests_cant": "all int/long values", "anchors": ["src/main.c:printf"]}
{"id": "C51", "title": "log_write stays inside its buffer", "statement": "log_write reads and writes only within its 8192-byte buffers. It does so exactly for lines of at most 8192 bytes (a line of exactly 8192 bytes is written with a NUL in place of its newline; a longer one makes write() read past the buffer, because it is given the untruncated length); lines below 8192 bytes, in particular those of all call sites, are written as they are.", "quantifier": "every message, file name and level", "why_tests_cant": "over-read is silent", "anchors": ["src/logger.c:log_write"]}
{"id": "C52", "title": "Log file access", "statement": "Judgers with their own log descriptors never mix their lines: each line is appended under the exclusive lock, and the lock is released afterwards unless write() fails, in which case log_write returns with the lock held and no other judger can log until that descriptor is closed. Processes that share a descriptor (a judger and its child) are not separated by the lock. Every line that cannot be logged is reported on standard error.", "quantifier": "every failure pattern and interleaving of judger processes", "why_tests_cant": "schedules", "anchors": ["src/logger.c:log_write"]}
{"id": "C53", "title": "Python binding transmits parameters faithfully", "statement": "For type-correct parameters (ints in int range, non-empty strings without NUL, at most 254 args), the configuration the judger runs with has exactly the given values, where -1 selects the default of the option; list order is kept and no value can be mistaken for an option.", "quantifier": "every parameter tuple", "why_tests_cant": "unbounded strings, adversarial values", "anchors": ["bindings/Python/_judger/__init__.py", "src/main.c", "src/argtable3.c"]}
{"id": "C54", "title": "Python binding rejects wrong types before running", "statement": "A non-list args/env, a non-string element, a number that is neither int nor bool, a non-string path, or a string with a null byte raises ValueError and the judger is not started; nothing else does. A bool for a number is refused by the judger, so that the program is not run either.", "quantifier": "every parameter tuple", "why_tests_cant": "all value combinations", "anchors": ["bindings/Python/_judger/__init__.py"]}
{"id": "C55", "title": "Python result decoding", "statement": "Python run() returns a dictionary equal to the result structure when the judger ran and wrote nothing else, and raises ValueError when stderr is non-empty or the output is not JSON (usage errors).", "quantifier": "every result and every judger output", "why_tests_cant": "all outputs", "anchors": ["bindings/Python/_judger/__init__.py", "src/main.c"]}
{"id": "C56", "title": "Python UNLIMITED", "statement": "Passing -1 in Python means 'unlimited' for max_cpu_time, max_real_time, max_memory, max_process_number and max_output_size. For max_stack it means 16 MiB, for uid/gid 65534, for memory_limit_check_only 0, so 'unlimited for every numeric parameter' is false.", "quantifier": "every parameter tuple", "why_tests_cant": "all tuples", "anchors": ["bindings/Python/_judger/__init__.py", "src/main.c"]}
{"id": "C57", "title": "Lua binding: parameters and outcome", "statement": "judger.run accepts exactly the tables that hold every parameter with its type (at most 255 strings in args and env), raises an error for the others, passes non-negative parameters that fit their types unchanged to the judge and returns its result field by field. But it has no max_stack and leaves it 0, so no table makes the judger run a program: every call is answered INVALID_CONFIG (ROOT_REQUIRED if not root) without a fork; and -1 in max_memory or max_output_size arrives as 4294967295.", "quantifier": "every Lua argument table and environment", "why_tests_cant": "all tables", "anchors": ["bindings/Lua/judger.c"]}
{"id": "C58", "title": "Node binding extracts the result after any program output", "statement": "When the judged program's own output precedes the judger's JSON object (standard output of both is one stream), the Node binding returns exactly the judger's result and prints the program's output, for every program output without NUL, also one that contains braces; NULs in earlier lines do no harm. A NUL in the line that the result shares hides the result: the binding then reads outside its buffer, as for every output without '{', or accepts fields that the program added to the result.", "quantifier": "every program output and result (total below 2 GiB)", "why_tests_cant": "all outputs, including ones that contain braces", "anchors": ["bindings/NodeJS/judger.cc", "src/main.c"]}
{"id": "C59", "title": "Node binding transmits parameters faithfully", "statement": "For every object whose strings are short and shell-neutral, the judger is started as the only command, with exactly the configuration the object asks for (missing parameters have the defaults, null elements of args and env are skipped), and the call returns its result; nothing else is ever run with such values, values the judger refuses end in an access outside a buffer, and a parameter of the wrong type is an exception. For other strings it is false: values are pasted unquoted into a shell command, so a blank splits a value and a semicolon runs another command; exactly the values of 255 bytes or more overflow a buffer; env is refused unless args is given, and an env that is not an array is used as if it were one.", "quantifier": "every parameter object, environment and judger result", "why_tests_cant": "all strings", "anchors": ["bindings/NodeJS/judger.cc", "src/main.c"]}
{"id": "C60", "title": "Constants agree", "statement": "All bindings and the core use the same numeric values for result codes, error codes, UNLIMITED and the version.", "quantifier": "all constants", "why_tests_cant": "n/a for a single test suite: four languages", "anchors": ["src/runner.h", "bindings/Python/_judger/__init__.py", "bindings/NodeJS/judger.cc", "bindings/Lua/judger.c"]}
{"id": "C61", "title": "String buffer used for messages", "statement": "The growable string used for all messages behaves as string concatenation for every sequence of appends and assignments whose text stays below 1 GiB - 2 bytes, never accesses memory outside its allocations, and frees all of them; from there on the size computation overflows.", "quantifier": "every sequence of operations and lengths", "why_tests_cant": "unbounded sequences, buffer growth boundaries", "anchors": ["src/argtable3.c:arg_dstr_cat", "src/argtable3.c:setup_append_buf", "src/argtable3.c:arg_dstr_catf"]}
{"id": "C62", "title": "Option syntax buffer", "statement": "Formatting an option name and an arbitrarily long user value for an error message never accesses memory outside the 200-byte buffer and leaves a NUL-terminated text of at most 199 bytes, which for options with one name (all options of the judger) is the full text cut after 198 bytes. (With several names it need not be a prefix of the full text.)", "quantifier": "every option text and user value", "why_tests_cant": "buffer boundary", "anchors": ["src/argtable3.c:arg_cat", "src/argtable3.c:arg_cat_optionv", "src/argtable3.c:arg_print_option_ds"]}
{"id": "C63", "title": "End to end: command line to verdict", "statement": "For every argument vector and every environment, whatever the judger prints is the help text, the version, a report of faults or exactly one result; a result without error reports, by the decision table, what became of the process; SUCCESS implies that the configured program was executed in the complete sandbox, exited with 0 by itself and stayed within the limits; in every history a program only runs in the complete sandbox, and one that was not started is never reported as successful. (A program can make the judger report SYSTEM_ERROR.)", "quantifier": "every argument vector, failure pattern, program behaviour and schedule", "why_tests_cant": "composition of all of the above", "anchors": ["src/main.c", "src/runner.c", "src/child.c", "src/killer.c"]}
{"id": "C64", "title": "Every command line fault is explained", "statement": "For every faulty command line the judger prints one line per fault, naming the offending word, letter, option and value, in order, at most ten (the tenth says that there are more), then a hint, and exits with 1. (A letter with code 1 to 5 is reported as another fault; an excess value is cut after 198 bytes.)", "quantifier": "every argument vector", "why_tests_cant": "all combinations of faults and texts", "anchors": ["src/main.c", "src/argtable3.c:arg_print_errors_ds", "src/argtable3.c:arg_end_errorfn", "src/argtable3.c:arg_int_errorfn", "src/argtable3.c:arg_str_errorfn", "src/argtable3.c:arg_lit_errorfn"]}
{"id": "C65", "title": "Help and version text", "statement": "Whenever help is requested, in any spelling and whatever else is on the command line, the printed text lists every option with its value form, multiplicity and description; version prints 2.1.1.", "quantifier": "every argument vector that asks for help or the version", "why_tests_cant": "all command lines", "anchors": ["src/main.c", "src/argtable3.c:arg_print_syntax_ds", "src/argtable3.c:arg_print_glossary_ds"]}
{"id": "C66", "title": "Containment while the program runs", "statement": "However the system calls of any number of judged programs interleave and whatever their arguments, a program started under c_cpp or c_cpp_file_io as an ordinary user never creates a process or thread, never changes its identity or its filter, and never has a limit above the one it started with; under c_cpp everything it can write to was open when it started (under c_cpp_file_io not). It ends only by exit, by a call its filter forbids (SIGSYS), or by a signal from the kernel or from outside.", "quantifier": "every number of programs, every finite sequence of system calls with every arguments", "why_tests_cant": "unbounded histories of system calls", "anchors": ["src/child.c", "src/rules/c_cpp.c", "src/rules/c_cpp_file_io.c"]}
{"id": "C67", "title": "Judged programs do not disturb each other", "statement": "A program under c_cpp or c_cpp_file_io whose user id no other running program has is at any time in the state its own calls alone put it in, whatever the other judged programs do. Programs with the same user id can lower each other's limits (prlimit64 is permitted) and change nothing else; in particular one can take the other's CPU time away.", "quantifier": "every set of programs, every interleaving of their system calls", "why_tests_cant": "all interleavings", "anchors": ["src/child.c", "src/rules/c_cpp.c", "src/rules/c_cpp_file_io.c"]}
{"id": "C68", "title": "A forbidden call ends the program", "statement": "Under c_cpp and c_cpp_file_io the first system call that the profile does not permit, at whatever point of the program's life, ends the whole program with SIGSYS and changes nothing else. Under golang it may end only one of several threads, so that the program goes on.", "quantifier": "every history of system calls and every forbidden call", "why_tests_cant": "unbounded histories", "anchors": ["src/rules/c_cpp.c", "src/rules/c_cpp_file_io.c", "src/rules/golang.c", "src/child.c"]}
{"id": "C69", "title": "run() leaves no log open; process and thread cleanup", "statement": "Every call of run() that returns has closed the log file it opened, exactly once, so that no sequence of calls accumulates descriptors. The process it created is reaped exactly when the call reports no error (and the process was not merely stopped), and the watchdog thread is cancelled exactly when the call reports no error: after PTHREAD_FAILED or WAIT_FAILED the child is killed but remains a zombie, and after WAIT_FAILED the watchdog goes on.", "quantifier": "every configuration, every behaviour of the system, every sequence of calls", "why_tests_cant": "leaks show after many failing calls only", "anchors": ["src/runner.c:run", "src/logger.c"]}
{"id": "C70", "title": "Memory of the Lua binding", "statement": "Whatever table judger.run is given and whichever allocations fail, the binding frees exactly the blocks it allocated, each once, writes only inside its arrays, and has freed everything when it returns or raises an error. If no allocation fails, run() finds behind its pointers, all into live blocks, the configuration the table describes. (A failed allocation is not reported: run() is called with a null pointer.)", "quantifier": "every table, every pattern of allocation failures", "why_tests_cant": "failure points, unbounded tables", "anchors": ["bindings/Lua/judger.c"]}
{"id": "C71", "title": "Memory of the option parser", "statement": "Whatever the words of the command line and whichever allocations fail, parsing stays inside the arrays of the option table, of the argument copy and of the lists handed to getopt, does exactly what the properties about the command line say, and everything is freed when main returns; a failed allocation ends the process. The same holds of the parser with every other table whose long names are not empty and do not begin with a comma and whose error list has room for one error.", "quantifier": "every argument vector, every pattern of allocation failures, every table of options", "why_tests_cant": "buffer sizes for all words and tables, failure points", "anchors": ["src/argtable3.c:alloc_longoptions", "src/argtable3.c:alloc_shortoptions", "src/argtable3.c:arg_parse", "src/argtable3.c:arg_freetable", "src/argtable3.c:arg_register_error", "src/main.c"]}
{"id": "C72", "title": "The library's sort", "statement": "For every array whose size in bytes an int holds (and of at most 2^30 elements), arg_mgsort leaves in the given range the same elements, in order whenever the comparison function is a consistent order, changes nothing outside the range, stays inside the array and frees its scratch memory; a failed allocation ends the process. (It is not stable, and it overflows for larger arrays.)", "quantifier": "every array, range, comparison function, element size and pattern of allocation failures", "why_tests_cant": "all arrays and orders", "anchors": ["src/argtable3.c:arg_mgsort", "src/argtable3.c:merge"]}
{"id": "C73", "title": "The registry of commands", "statement": "After every sequence of arg_cmd_register and arg_cmd_unregister calls, however names collide and whenever the table grows: looking up a name gives the procedure and description of its last registration unless it was unregistered since; dispatch calls that procedure; the count is the number of registered names; an iterator meets each registered command exactly once, also when commands are removed on the way; arg_cmd_uninit frees everything. A failed allocation ends the process. (Without arg_cmd_init, a null pointer is followed.)", "quantifier": "every sequence of fewer than 2^32 requests with names below 100 and descriptions below 256 bytes, every load limit, every pattern of allocation failures", "why_tests_cant": "unbounded histories, collisions, growth, failure points", "anchors": ["src/argtable3.c:arg_cmd_register", "src/argtable3.c:arg_cmd_unregister", "src/argtable3.c:arg_cmd_info", "src/argtable3.c:arg_cmd_count", "src/argtable3.c:arg_cmd_dispatch", "src/argtable3.c:arg_cmd_itr_create", "src/argtable3.c:arg_hashtable_insert", "src/argtable3.c:arg_hashtable_itr_remove"]}
{"id": "C74", "title": "Wrapped help texts", "statement": "For every table of options, arg_print_glossary_gnu terminates and prints for each option with a help text its names and value form and, in the columns 28 to 79, the words of the help text in their order, none lost, doubled or joined; no line is longer than the column, and a word is broken only if it does not fit on a line, into full lines. (An empty help text leaves its line open; lines after a newline in the text may lack the margin; the wrapping procedure does not terminate in a column without width.)", "quantifier": "every table whose names fit the 200-byte buffer, every help text, every margins", "why_tests_cant": "all texts and widths, termination", "anchors": ["src/argtable3.c:arg_print_formatted_ds", "src/argtable3.c:arg_print_glossary_gnu_ds", "src/argtable3.c:arg_cat_optionv"]}
{"id": "C75", "title": "Regular expressions on the command line", "statement": "For an arg_rex option: compiling its pattern terminates; a pattern that is accepted writes exactly one regular expression of the documented notation, and every pattern of that notation (not longer than 32 characters if it contains a range) is accepted. Matching terminates for every text. A value is stored, as a whole and in the next place, only if all of it is an instance of the expression, otherwise ARG_ERR_REGNOMATCH is returned and nothing changes; expressions that repeat only a single character at their end accept every instance; expressions without '.', '[^' and word boundaries never read past the text. (Not so, as shown: repetitions give nothing back, '.' takes the terminator for a character, word boundaries, ranges without regard to case and counts above 65534 accept what is no instance, patterns not according to the notation lead to a null pointer.)", "quantifier": "every pattern, every text, with and without regard to case, every number of earlier values", "why_tests_cant": "all patterns and texts, termination", "anchors": ["src/argtable3.c:arg_rex_scanfn", "src/argtable3.c:trex_compile", "src/argtable3.c:trex_list", "src/argtable3.c:trex_element", "src/argtable3.c:trex_class", "src/argtable3.c:trex_matchnode", "src/argtable3.c:trex_match"]}
{"id": "C76", "title": "File names", "statement": "An arg_file option stores with every value, in the next free place, the value, its base name (what is behind the last '/', nothing if that is '.' or '..') and the extension of that (from the last dot on, nothing if one side of the dot is empty), and changes no other place; a value too many is ARG_ERR_MAXCOUNT and changes nothing.", "quantifier": "every file name, every number of earlier values", "why_tests_cant": "all names", "anchors": ["src/argtable3.c:arg_basename", "src/argtable3.c:arg_extension", "src/argtable3.c:arg_file_scanfn"]}
{"id": "C77", "title": "Dates and times", "statement": "For an arg_date option: for every format, right or wrong, and every value, reading ends without undefined behaviour; the value is stored, in the next place, exactly if the format reads all of it, part for part in the only possible way; otherwise ARG_ERR_BADDATE is returned and nothing changes; with a format that is none nothing is ever stored. A date written as strftime writes it is read back: the members the format names become those of the date and the others stay. (Formats without %C and with one %y. Not so, as shown: %C%y is off by 1900 years, a format that goes on behind %p reads nothing, the example date of the error message is never read, the calendar is not checked, %e does not read a day with a blank.)", "quantifier": "every format, every value, every date, every number of earlier values", "why_tests_cant": "all formats, texts and dates, termination", "anchors": ["src/argtable3.c:arg_date_scanfn", "src/argtable3.c:arg_strptime", "src/argtable3.c:conv_num"]}
{"id": "C78", "title": "What a program writes", "statement": "Before the program starts, the output and the error file are empty, and the input and all other files are as they were, with the input at its beginning. While programs run under c_cpp or c_cpp_file_io with an output limit, whatever they do, no file grows beyond the limit (or the size it had). Unless the program sets offsets or opens files, or somebody else can write to the file, the output file contains exactly the bytes that writes through standard output have taken, in order (with those of standard error if the two paths are the same), likewise the error file. A write that begins below the limit takes a prefix that ends at it at most and the program goes on; at the limit nothing is taken and SIGXFSZ ends the program. (Not so, as shown: two spellings of the same file for output and error overwrite each other; a program whose last write was cut can still exit with 0; the limit is one per file, not of all output; an input that is also the output is empty.)", "quantifier": "every configuration, every number of programs, every interleaving of system calls with any arguments, every assignment of paths to files", "why_tests_cant": "all histories of system calls, all interleavings", "anchors": ["src/child.c:child_process"]}
{"id": "C79", "title": "Storage of option objects", "statement": "Whatever counts an option is made with (not negative; for arg_dbln below INT_MAX), wherever malloc places it and whatever the memory contained: the constructor and every later sequence of words and resets stay inside the block allocated for the option, with aligned accesses; count, codes and stored values are those of arrays with as many places as the maximum: no value is stored behind the last place, a refused word changes nothing, stored values stay until their place is used again, the names and texts of the option stay as given. Fresh strings and file names are \"\", fresh dates are zero. The error list made with an even number of places keeps the errors in their order, and says in its last place that there were more if so. (Not so, as shown: a negative maximum makes the constructor write behind the block; arg_dbln overflows at INT_MAX; arg_end with an odd number of places uses misaligned pointers; with no place it writes in front of its arrays.)", "quantifier": "every kind of option, every counts, every address and contents of the memory, every sequence of words and resets", "why_tests_cant": "all sizes and histories, memory layout", "anchors": ["src/argtable3.c:arg_litn", "src/argtable3.c:arg_intn", "src/argtable3.c:arg_dbln", "src/argtable3.c:arg_strn", "src/argtable3.c:arg_rexn", "src/argtable3.c:arg_filen", "src/argtable3.c:arg_daten", "src/argtable3.c:arg_end", "src/argtable3.c:arg_register_error"]}
{"id": "C80", "title": "From the call to the verdict", "statement": "Every call of the Python function run() with valid arguments that comes to an end either returns the result of a judger that worked with exactly the limits, files, arguments, environment, identities and rule passed, or raises; it raises exactly if something was written to standard error or something other than blanks to the judger's standard output. The result reports truly: without error its verdict is that of the decision table for what happened to the process, and SUCCESS means that the program passed was executed in its complete sandbox, exited with 0 itself and stayed within the limits passed. No program is executed outside its sandbox or for invalid arguments, and every valid call can come to an end. The same of the Node function, for objects of plain text, with what the program wrote returned beside the result. A Node call with a number of another type ends with an exception and runs nothing; parameters of the right types are never an exception, except (as shown) env without args; a string of 255 bytes or more makes the behaviour undefined before anything is run.", "quantifier": "every argument of the caller, every world, every schedule of judger, watchdog and program, every output", "why_tests_cant": "composition of binding, command line, judger and program over all schedules", "anchors": ["bindings/Python/_judger/__init__.py:run", "bindings/NodeJS/judger.cc", "src/main.c", "src/runner.c:run", "src/child.c"]}
{"id": "C81", "title": "Usage lines of any table", "statement": "For every table of options whose names fit the 200-byte buffer: arg_print_syntax prints the letters of all switches gathered (mandatory ones first, optional ones in brackets) and then every other option under its first name with its value, as often as it is expected, optional ones in brackets and three or more of them as dots; arg_print_syntaxv prints every option so under all its names, arg_print_glossary a line with names and help text for every option that has one, in the order of the table; nothing else is printed. From the verbose line of an option the least count and (up to three) the number of optional ones can be read. (Not so, as shown: a negative minimum overflows, the short line does not tell the counts of switches, names that do not fit are cut.)", "quantifier": "every table, every counts, every suffix and width", "why_tests_cant": "all tables and counts", "anchors": ["src/argtable3.c:arg_print_syntax_ds", "src/argtable3.c:arg_print_syntaxv_ds", "src/argtable3.c:arg_print_gnuswitch_ds", "src/argtable3.c:arg_print_glossary_ds", "src/argtable3.c:arg_cat_option"]}
{"id": "C82", "title": "Messages about errors", "statement": "For every list of errors, arg_print_errors prints for each, in order, one message with the program, the option with its names and the word, worded by the kind of error and option: missing, excess, extraneous, invalid, too large, no match, no date, unknown letter or word, missing argument. The messages for commands print the help with usage and glossary if help was asked for, otherwise the errors with the usage if there are any, otherwise nothing, and return accordingly. (Not so, as shown: the date that shows the right format is no date, and is undefined if it does not fit its buffer.)", "quantifier": "every list of errors of all kinds of options, every word, every table", "why_tests_cant": "all errors, words and tables", "anchors": ["src/argtable3.c:arg_print_errors_ds", "src/argtable3.c:arg_end_errorfn", "src/argtable3.c:arg_int_errorfn", "src/argtable3.c:arg_dbl_errorfn", "src/argtable3.c:arg_date_errorfn", "src/argtable3.c:arg_rex_errorfn", "src/argtable3.c:arg_make_syntax_err_help_msg"]}
{"id": "C83", "title": "Numbers with a fraction", "statement": "For an arg_dbl option given any sequence of words: the count and the array are those of the first words, as many as there is room for, that strtod reads to their end; every other word is answered ARG_ERR_BADDOUBLE, or ARG_ERR_MAXCOUNT if there is no room, and changes nothing. (Not so, as shown: an empty word is accepted as a number.)", "quantifier": "every sequence of words, every maximum, every function strtod that stays inside its text", "why_tests_cant": "all sequences of words", "anchors": ["src/argtable3.c:arg_dbl_scanfn"]}
{"id": "C84", "title": "Any table of options", "statement": "For every table of options with any objects behind them (each option with letters, names, and a value needed, optional or none; the objects' own functions are arbitrary) and every command line: arg_parse gives each object, in the order of the command line, exactly the values written for its option (exact name, unambiguous abbreviation, letters gathered in one word, values attached or in the next word), shares the other words out among the arguments without names in their order, and reports exactly the errors of the line: unknown names and letters, missing values, words nobody takes, refusals, and, only if there are none, objects that are not content; with more errors than there is room for, the last says so. Every command line has exactly one such outcome, except that a word of switches that ends in a dash (-ab-) makes arg_parse run forever. The judger's table is such a table.", "quantifier": "every table, every behaviour of the objects (also undefined), every command line, with and without POSIXLY_CORRECT, every limit of errors", "why_tests_cant": "all tables, behaviours and command lines, non-termination", "anchors": ["src/argtable3.c:arg_parse", "src/argtable3.c:arg_parse_tagged", "src/argtable3.c:arg_parse_untagged", "src/argtable3.c:arg_parse_check", "src/argtable3.c:arg_reset", "src/argtable3.c:getopt_internal", "src/argtable3.c:parse_long_options"]}
{"id": "C85", "title": "What is written is read", "statement": "Whoever writes options as --name, --name=value, --name value, -abc, -cvalue or -c value, in any order and with other words between them or, behind two dashes, any words after them, has written exactly these: the parser reads them back; and a table of switches, integers and texts holds afterwards, option by option, exactly the values written in their order, the other words in the arguments without names, and no errors, provided that everything is as often as expected.", "quantifier": "every table of options, every list of settings and words", "why_tests_cant": "all tables and command lines", "anchors": ["src/argtable3.c:arg_parse", "src/argtable3.c:getopt_long", "src/argtable3.c:arg_lit_scanfn", "src/argtable3.c:arg_int_scanfn", "src/argtable3.c:arg_str_scanfn"]}
{"id": "C86", "title": "The process limit", "statement": "However many judgers and programs run on the machine and whatever they do: a program started with a process limit and a user other than root never has more processes than the limit, counting ended ones nobody has waited for. It makes processes only by system calls its rule leaves it: none under c_cpp and c_cpp_file_io, clone3 under general, clone and clone3 under golang and node. If no other program runs as that user, the limit never keeps the program from being executed, and it can make processes by these calls exactly until the limit is reached. (Not so, as shown: if others of the same user are more than the limit, a program that would be fine is never executed and the result is a system error; and for a program that stays root there is no limit.)", "quantifier": "every history of any number of judgers and processes: starts, forks, ends, waits, in any order", "why_tests_cant": "all interleavings of judgers and programs, every number of processes", "anchors": ["src/child.c", "src/runner.c:run", "src/rules/general.c:general_seccomp_rules", "src/rules/c_cpp.c:_c_cpp_seccomp_rules"]}
{"id": "C87", "title": "Time and memory of many processes", "statement": "For a program of any number of processes: the reported CPU time is never more than the user time all of them spent, and exactly that time, in whole milliseconds, if every process was waited for by its parent (in particular if there is only one, as always under c_cpp and c_cpp_file_io, and under general without clone3), so that the CPU limit then holds for all together; the reported memory is that of the largest of them, never less than what the judger itself had when it forked, so that no program succeeds under a lower limit. (Not so, as shown, under every rule that leaves a call to make processes: if processes are not waited for, any time can be spent with 0 reported and success; and processes that exist together can hold any multiple of the memory limit.)", "quantifier": "every history of any number of judgers and processes, every time and amount of memory", "why_tests_cant": "all process trees and histories", "anchors": ["src/runner.c:run", "src/child.c"]}
{"id": "C88", "title": "The judger is killed", "statement": "If the judger is killed at any moment (by the system, an operator, its caller): a Python call that returns all the same returns the true result of a finished run, or a text that someone else (the program) wrote to the judger's standard output; a part of a report is never taken for one, whatever was written before it, and if nobody else writes there no false verdict is returned. The same holds of the Node function, which ends with an error at a part of a report. A process that becomes the program afterwards does so only in its complete sandbox. (Not so, as shown: nobody enforces the limit of real time any more, the program may run for any time; a program that can write to the judger's standard output can choose the verdict that is returned, as the exit status is not looked at; if the judger had not written anything the Node function's behaviour is undefined.)", "quantifier": "every moment at which the judger is killed, every split of its report, every history before and after", "why_tests_cant": "all crash points, schedules and partial writes", "anchors": ["src/main.c:main", "src/runner.c:run", "src/killer.c:timeout_killer", "bindings/Python/_judger/__init__.py", "bindings/NodeJS/judger.cc"]}
{"id": "C89", "title": "When a call ends", "statement": "A Python call ends as soon as its judger has ended (also if it was killed), whatever processes the program has left behind and whatever they do: none of them holds a pipe the call reads, unless a path of the call or one a process opens names that pipe, or the process was stopped before it became the program. The same holds of the Node function if output_path is given; under c_cpp and c_cpp_file_io no process is left at all. (Not so, as shown: without output_path a Node call whose program was successful can be held up for any time by a process it left behind; a process that is stopped while being set up holds up a Python call.)", "quantifier": "every history of the judger, every later behaviour of every process the program made", "why_tests_cant": "all schedules, descriptor tables and process trees", "anchors": ["bindings/Python/_judger/__init__.py", "bindings/NodeJS/judger.cc", "src/child.c", "src/runner.c:run"]}
{"id": "C90", "title": "Reading options with getopt", "statement": "For every caller of getopt, getopt_long or getopt_long_only with any declared letters and names (values needed, optional or none, -W name, flags or codes, '+', '-' or ':' before the letters, POSIXLY_CORRECT or not) and every command line: calling until -1 gives exactly one answer for each option written, in order (letters gathered in one word, values attached or in the next word, exact names and unambiguous abbreviations, with one dash too for getopt_long_only unless the text is rather a letter), with the documented codes, optarg, optopt, flag and message for each mistake, and leaves exactly the other words, in their order, from optind on; words are never lost, and not moved unless the others are collected at the end; nothing is undefined. (Not so, as shown: a group of letters that ends in a dash makes getopt_long answer forever; -1 never comes. Without such words, and with getopt always, it comes.)", "quantifier": "every option string and array of names that can be declared, every environment, every command line, every number of calls", "why_tests_cant": "all option tables and command lines, non-termination", "anchors": ["src/argtable3.c:getopt", "src/argtable3.c:getopt_long", "src/argtable3.c:getopt_long_only", "src/argtable3.c:getopt_internal", "src/argtable3.c:parse_long_options", "src/argtable3.c:permute_args"]}
{"id": "C91", "title": "Tables of options: making, checking, freeing", "statement": "For every table of options of every caller: the constructors give distinct new objects or, if an allocation fails, end the process (with a panic function that returns the behaviour is undefined, so no constructor ever returns NULL). arg_nullcheck returns 1 exactly if the table is NULL or a NULL comes before its end. arg_free frees the objects up to the first NULL or the end, arg_freetable those among the first n elements, each once, leaving NULL in their place and all else untouched; without an end, with an object that is there twice or with too large an n the behaviour is undefined. arg_freetable gives back exactly what the constructors took, also after arg_free, and calling either again does nothing; arg_free alone does exactly if no object stands behind the first NULL or the end.", "quantifier": "every table, every flags, every address malloc gives, every pattern of failures", "why_tests_cant": "all tables and allocation failures", "anchors": ["src/argtable3.c:arg_nullcheck", "src/argtable3.c:arg_free", "src/argtable3.c:arg_freetable", "src/argtable3.c:arg_set_panic", "src/argtable3.c:argtable3_xmalloc", "src/main.c:main"]}
{"id": "C92", "title": "Time and memory while the program runs", "statement": "However any number of programs run side by side under c_cpp or c_cpp_file_io: with a CPU limit, none uses more user and system time together than the limit rounded up to the next full second (a limit of full seconds gets one more), plus one tick of the kernel's clock; with a memory limit that is not only checked afterwards, none ever has more than twice that memory. All of this can be had, in any proportion of user and system time. A program ended by SIGKILL or SIGXCPU that nobody sent has used more than its limit. So the reported CPU time is at most the limit, one second and a tick, and the reported memory at most twice the limit or what the judger itself had; and a program ended for its time is reported CPU_TIME_LIMIT_EXCEEDED if it spent more than the limit in user mode. (Not so, as shown: one that spends its time in system calls is ended after the same time but reported RUNTIME_ERROR with no time used; one that is refused memory beyond its limit and goes on is reported SUCCESS; with memory_limit_check_only nothing bounds the memory while it runs.) The bounds hold under the other rules too, as long as a program makes only calls that are modelled; without a rule a set-uid file removes them.", "quantifier": "every history of any number of programs, every length of the tick, every reaction to SIGXCPU, every configuration with limits", "why_tests_cant": "all interleavings and amounts of time and memory", "anchors": ["src/child.c", "src/runner.c:run", "src/rules/c_cpp.c:_c_cpp_seccomp_rules"]}
{"id": "C93", "title": "Neighbours", "statement": "While programs of several judgers run side by side under any rules and make any calls of those modelled, including the six calls that send signals: a process of another user, and every process of root (the judgers), stays exactly as it is; a program with a user id of its own is in the state its own calls alone would have put it in. Under c_cpp and c_cpp_file_io no signal can be sent at all. Under general, golang and node kill ends the caller, but tkill, tgkill, rt_sigqueueinfo, rt_tgsigqueueinfo and pidfd_send_signal are let through. (Not so, as shown: programs of the same user under these three rules can end each other by any signal, and the one that did nothing is reported RUNTIME_ERROR; a program without a rule can end even the judger through a set-uid file.)", "quantifier": "every number of programs and other processes, every interleaving of their calls with any arguments", "why_tests_cant": "all interleavings and calls", "anchors": ["src/rules/general.c:general_seccomp_rules", "src/rules/golang.c:golang_seccomp_rules", "src/rules/node.c:node_seccomp_rules", "src/rules/c_cpp.c:_c_cpp_seccomp_rules", "src/child.c"]}
{"id": "C94", "title": "The hash table", "statement": "For every hash function, every equality the hash function respects and every history of insertions, removals and changes: the table of the library holds exactly the pairs inserted and not removed, with the values they were changed to, however keys collide and however often the table grows; a search finds a pair with the key exactly if there is one; the count is right; a walk with an iterator meets each pair once, also when several iterators are there at a time; destroying the table and the iterators, in any order, returns all memory, each block once. If no key is inserted while it is there the table is a map. A new table has more than the number of chains asked for, and none is made above 2^30. (Not so, as shown: with a key inserted twice the pair found is not always the last one, as growing reverses the order; values are owned by the table although the comment says they are not; changing a value to itself frees it twice.)", "quantifier": "every hash function, equality, size, history of requests and failure of malloc", "why_tests_cant": "all histories and all user functions", "anchors": ["src/argtable3.c:arg_hashtable_insert", "src/argtable3.c:arg_hashtable_change", "src/argtable3.c:arg_hashtable_remove", "src/argtable3.c:arg_hashtable_expand", "src/argtable3.c:arg_hashtable_itr_advance"]}
{"id": "C95", "title": "Searching with regular expressions", "statement": "For every pattern that compiles, every text and whatever earlier calls have left in the compiled pattern: trex_match returns what C75 says, also with the positions of sub-expressions it keeps; trex_search ends, reads nothing outside the text if the expression cannot take its end for a character, and what it finds is an instance of the expression that begins at a character of the text; for an expression without repetitions and alternatives it finds exactly the first instance, and something if there is one; a text that matches is found as a whole. There is a place for each sub-expression, asking for any number is safe, the first place is the whole of what was matched or found, and every other one is none, what it was before, or within the text and its terminator. (Not so, as shown: nothing is found at the end of a text or in an empty one; trex_searchrange finds things that reach behind its range; a place can be the terminator, can be in the text of an earlier call, and can be another part than the one its sub-expression matched.)", "quantifier": "every pattern, text, history of calls on the same compiled pattern", "why_tests_cant": "all patterns and texts, all histories", "anchors": ["src/argtable3.c:trex_matchnode", "src/argtable3.c:trex_match", "src/argtable3.c:trex_searchrange", "src/argtable3.c:trex_search", "src/argtable3.c:trex_getsubexp", "src/argtable3.c:trex_getsubexpcount"]}
{"id": "C96", "title": "What can be read from the log", "statement": "The log can be read back: for every sequence of failures of any number of judgers and their children (none of whose writes fails or is cut short), the text of the log determines who failed (judger or child), in which order, in which file and line, when by the clock, for which reason and with which code. A time stamp is the right date of the calendar and time of day in 19 bytes (1970 to 9999); stamps sort as text in the order of the clock, which is the order in time while the zone does not change. When the clocks go back it is not; a source file with a colon in its name makes lines ambiguous; a clock beyond the years of an int makes strftime read a null pointer.", "quantifier": "every sequence of failures, every time, every time zone", "why_tests_cant": "all times, zones, histories and interleavings", "anchors": ["src/logger.c:log_write", "src/runner.h:ERROR_EXIT", "src/child.h:CHILD_ERROR_EXIT"]}
{"id": "C97", "title": "Comparing judgements", "statement": "Two calls of run() that both report no error: for the same answers of the system the numbers reported do not depend on the configuration; of a configuration that is accepted only the limits of CPU time, real time and memory have a part in the result (errors included); judged again at another time, with another process number and system time, a program gets the same result; under limits at least as generous, and with no more use of milliseconds and memory, a success stays a success, a runtime error a runtime error, a system error a system error, and an exceeded limit becomes at most one that is looked at later, a runtime error or a success. (Not so, as shown: a more generous limit need not help; of two programs the one done in fewer microseconds can be the one whose real time is exceeded.)", "quantifier": "every pair of configurations and every pair of answers of the system", "why_tests_cant": "pairs of runs over all configurations and all measurements", "anchors": ["src/runner.c:run"]}
{"id": "C98", "title": "The time a program took", "statement": "In every interleaving of run(), its timeout thread, the program, the kernel and the passing of time (the wall clock being left alone, the program not being stopped, the calls not failing): the real_time reported differs from the life of the program, from its start to its end, by less than a millisecond downwards, and upwards by less than a millisecond and five times the delay with which whoever can act does act. So a program whose life and five delays are within max_real_time never gets REAL_TIME_LIMIT_EXCEEDED and, if it exits with 0 and keeps the other limits, gets SUCCESS, and its call never sends anybody a signal, then or later; one that lives a millisecond longer than max_real_time or more never gets SUCCESS, whatever the delays, but CPU_TIME_ or REAL_TIME_LIMIT_EXCEEDED (unless SIGUSR1 or SIGSEGV ended it); one that never ends by itself is reported as ended by signal 9 with one of these two, the latter if it kept the limit of CPU time. (Not so, as shown: at the limit itself a program can get either verdict, for a delay of a millisecond; without a bound on the delays a program that ends at once can get REAL_TIME_LIMIT_EXCEEDED.)", "quantifier": "every interleaving, every delay, every life and end of the program, every configuration", "why_tests_cant": "all schedules and instants", "anchors": ["src/runner.c:run", "src/killer.c:timeout_killer"]}
{"id": "C99", "title": "Many calls in one process", "statement": "When one process calls run() many times, one after another or in several threads at once, each call behaves as it would alone: its result and the signals it sends are those of a single call to whose program the same things happen. One call can touch the program of another in two ways only: the number of its program, once that has been waited for, may be given to the program of a later call, and a signal its timeout thread sends to this number afterwards ends the program that now has it. A call whose program ends in time (its life and five delays fit into the limit) never does the latter, and a program among any number of such calls that exits with 0 within its limits is a success. Without a bound on the delays this is false: a slow thread of one call can end the innocent program of the next, which is then reported as a runtime error with signal 9.", "quantifier": "every number of calls of run() in one process, entered at any moments with any limits, every interleaving of their steps, programs and timeout threads, every reuse of process numbers and every adjustment of the clock", "why_tests_cant": "depends on the order in which several threads and programs act and on which process number the kernel hands out next; a test meets one such order and a number is reused only after the kernel has counted through all of them", "anchors": ["src/runner.c:run", "src/killer.c:timeout_killer", "src/killer.c:kill_pid", "bindings/Lua/judger.c:global_judge"]}
{"id": "C100", "title": "Whose files are opened", "statement": "run() opens the input, output and error file with the rights of root, following symbolic links. Before the program starts it empties or creates exactly the objects that the output path and then, if it is spelt differently, the error path lead to, and changes nothing else in the file system; new files belong to root. If every directory on the way of a path is closed to the user id of the judged programs (neither writable to it nor owned by it), no program of that user can make the path lead elsewhere, whatever it does to names, links and rights; and with a mask that includes 022 no program without a descriptor for it can change the contents of such a file later. If that user may write to the directory of the output file, one symbolic link suffices to have the next call empty any file of the system. The rules c_cpp and c_cpp_file_io end programs that try to change names; the other rules and no rule allow it. Programs that can only open and write cannot redirect a path that already leads to a file. Over any history of programs of such users and of openings by the judger, a path through closed directories that leads to an object leads to that object for good. Opening the log changes nothing but, if there is none, makes one.", "quantifier": "every file system (any tree, links, owners and modes), every path, every sequence of open, write, symlink, link, mkdir, unlink, rename, chmod and chgrp calls of the programs, every configuration", "why_tests_cant": "tests run in one prepared directory with one set of rights; the property is about every arrangement of links and rights and every sequence of calls of a hostile program", "anchors": ["src/child.c:child_process", "src/rules/c_cpp.c:_c_cpp_seccomp_rules", "src/rules/general.c:general_seccomp_rules", "src/runner.c:run"]}
{"id": "C101", "title": "What a judged program can read", "statement": "A program judged with a user id and a group id learns nothing of the contents of files which this user and group have no right to read (and which the user does not own), except through descriptors: the one of the input file, which is opened with the rights of root, and those the caller hands on. Whatever requests it makes, each chosen by all answers so far, the answers and what it leaves in the file system are the same for any other contents of the same size. This also holds of several programs together, of any users without the right, in any order of their steps, with openings by the judger in between. The sizes of such files are not kept from it, and every file it has the right to read, such as expected results with mode 0644, can be read by it: none of the rules forbids opening for reading or reading.", "quantifier": "every program (any function from answers to requests), every number of requests, every file system, any set of secret files and any two contents of them, every configuration with a user and a group", "why_tests_cant": "absence of information flow relates two runs of every possible program on all pairs of contents; a test shows that one attempt fails", "anchors": ["src/child.c:child_process", "src/rules/c_cpp.c:_c_cpp_seccomp_rules", "src/rules/general.c:general_seccomp_rules", "src/runner.c:run"]}
{"id": "C102", "title": "Which program is started", "statement": "The program of a call is the file that exe_path leads to for the configured user and group (not for root), following symbolic links from the working directory of the caller; it is started exactly if that user may search the directories on the way and execute the file, nobody has it open for writing, and it is a program itself or begins with #! and the name of a file for which the same holds, through at most five names, with the arguments of execve(2). If the output or the error path leads to the same file, the file is emptied first and is not started. If the way to the program and its interpreters and these files themselves are closed to the users of all programs judged before, and the judger opens none of them as an output file, the same program with the same contents is started after any history; if such users may change the directory, it need not be.", "quantifier": "every file system, path, user, mode and argument list, every chain of interpreters, every history of programs and calls", "why_tests_cant": "which file a path stands for depends on every directory, link, right and first line involved and on all that ran before; tests use one executable in one prepared directory", "anchors": ["src/child.c:child_process", "src/runner.c:run"]}
{"id": "C103", "title": "Values for the Node function can be quoted", "statement": "A caller of the Node function can pass any text: if each string in the object is plain or a text in single quotes with '\\'' for each single quote inside (at most 254 bytes, without NUL), the shell runs one command only, the judger, with exactly the texts meant, and nothing else is ever run; the call returns the result of a judger that did what was meant and reports truly. Quotes cost two bytes, and three for each single quote inside. (Not so, as shown: putting quotes around a text without replacing those inside; such a text can begin another command.)", "quantifier": "every object, every text, every world, schedule and output of the program", "why_tests_cant": "whether some text escapes from its quotes is a question about all texts; tests pass paths without special characters", "anchors": ["bindings/NodeJS/judger.cc:Method", "bindings/NodeJS/judger.cc:ToCStr"]}
{"id": "C104", "title": "What is reported of a program that breaks its rule", "statement": "Under every rule, a call the rule forbids, at whatever point of the program's life and whatever other programs do, ends the program, and the result has signal 31, exit code 0 and RUNTIME_ERROR, or the limit that was exceeded as well; never SUCCESS or SYSTEM_ERROR. So SUCCESS means that every call the program made is one its rule does not forbid, that no signal ended it, and that its last act was to exit with status 0 (modulo 256). A reported signal other than 31 came from the kernel or from outside; 31 did too or the program made a forbidden call. Under c_cpp and c_cpp_file_io this holds of all programs, under the others of those with one thread that make only calls whose effect is modelled: if a program under golang makes a thread, a forbidden call need not show in the result.", "quantifier": "every configuration and rule, every history of calls of any number of programs, every place of the forbidden call, every measured usage", "why_tests_cant": "the histories are unbounded; the tests of the rules use one program for each of six calls", "anchors": ["src/rules/c_cpp.c:_c_cpp_seccomp_rules", "src/rules/general.c:general_seccomp_rules", "src/rules/golang.c:golang_seccomp_rules", "src/rules/node.c:node_seccomp_rules", "src/child.c:child_process", "src/runner.c:run"]}
{"id": "C105", "title": "What the output file and the result say about the output", "statement": "Under c_cpp and c_cpp_file_io with an output limit, if nobody else writes to the output (or error) file, the program neither seeks in it nor opens it again, and the device is not full, the file holds what the program asked to write, or its first max_output_size bytes exactly; a file shorter than the limit is complete. A program that asks for another byte when the file is full is ended by SIGXFSZ (unless that signal is ignored), and the result has signal 25, exit code 0 and RUNTIME_ERROR, or a limit that was exceeded as well. So after SUCCESS at most the last write was cut: nothing was asked for after it. (SUCCESS with a cut last write does happen.)", "quantifier": "every configuration and state of the caller's process, every history of calls of any number of programs, every split of the output into writes, every measured usage", "why_tests_cant": "the split into writes and the place where the limit falls are unbounded; a test writes one fixed pattern", "anchors": ["src/child.c:child_process", "src/runner.c:run"]}
