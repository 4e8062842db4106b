# Formal model of c-events

Source of truth: `/repo` (read as text, never built).  Coq 8.16.1, logical name `Verif`,
sources in `rocq/theories`.

## Layout

Every area has three files.

* `<Area>Model.v`: executable Gallina definitions only.  Each definition cites the C file and
  lines it models and states its simplifications.
* `<Area>Proofs.v`: independent specification definitions, lemmas, proofs.
* `<Area>Props.v`: only the claim theorems (`exact lemma`), each followed by a non-vacuity
  `Example` where the theorem has hypotheses, and by `Print Assumptions`.

`Base.v` holds shared helpers (list update, machine-integer wrap, outcome type).

## Conventions

* Undefined behaviour (out-of-bounds access, use of freed memory, signed overflow, division by
  zero, read before a buffer) is a distinct outcome (`UB`, or `None` where the function has no
  other failure), never a default value.
* Loops become structural recursion, or recursion on explicit fuel; running out of fuel is a
  distinct outcome and every theorem states that it does not happen.
* Operating-system calls, clocks, callbacks, the allocator and the scheduler's choices are
  oracles (function or list arguments quantified in the theorems).
* Concurrency is modelled as interleaving of the atomic steps of the C code under sequential
  consistency.  Weak memory reorderings are not modelled.
* A property the faithful model violates gets a `_refuted` theorem with a concrete witness and,
  where one exists, a positive theorem under the extra hypothesis that makes it true.

## Plan per property

| id | area files | what is modelled | how it is proved |
|----|-----------|------------------|------------------|
| C01-C05 | Array | block with capacity, size, type, cells; allocator oracle for realloc | simulation against `list` operations; induction on operation lists |
| C06-C10 | Str (proofs also in StrProofs2) | mempos, memnstr, subcount, split, swap, repeat, pad over byte buffers with explicit bounds | induction on text/fuel; independent "first occurrence" and "greedy" specs |
| C11 | Sort | the gap loops over a cell array | permutation by swaps; sortedness from the last gap-1 pass |
| C12 | Itoa | utoa2p bit tricks and the 20-byte buffer | finite sweep for pairs, induction on the quotient |
| C13-C14 | Base64 | tables, packing loops, size checks | finite sweeps on 6-bit groups lifted; induction on groups of three |
| C15-C16 | Str | str_lcpy, binary_strcasecmp | induction |
| C17, C20, C87 | Deque | top/bottom/array with 64-bit wrap | abstraction to a list; invariant |
| C18, C19, C65 | DequeConc | every atomic access of owner, stealers and a second producer as one step | inductive invariant on reachable states; witness schedules |
| C21, C22, C66, C67 | Timers | heap of timer records, 32-bit delay arithmetic, callbacks as programs | refinement of a sorted-list reference machine |
| C23-C25, C69 | Wheel | 128 slots, bit matrices, resolution arithmetic, callbacks as programs | refinement of a deadline table; invariant on bits |
| C88, C89 | Kq | kqueue backend: change list threaded through the targets, packed link words, kernel filters with errors, change batches of 256 | invariant: chain of changed descriptors and kernel state; refinement of an interest map |
| C26-C28, C70 | Epoll | target table, kernel interest map, dispatch with callback programs | refinement of an interest map; invariant over programs |
| C29, C30 | Dll, Sched | heap of prev/next pointers | doubly-linked-list representation predicate |
| C31, C32, C68 | Sleep | sleep and run queues over shared link fields, 32-bit truncation | sortedness invariant on the representation |
| C33 | Sched | run queue with task behaviours | induction on rounds |
| C34, C35 | Result | result table with id counter, growth and freeing; atomic steps of several creators | refinement of a finite map; invariant on interleavings, witness schedules |
| C36, C37, C75 | Pool | round-robin counters; poster's share loop; tid of a fresh result | arithmetic; partition by permutation |
| C38, C74 | Wait, Pool | foreach+remove loop with completion oracle | permutation/termination measure |
| C39, C77 | Generator | producer/consumer flag protocol inside the run queue | trace invariant; queue representation |
| C40, C41, C78 | Except | stage machine of the macros; language of try blocks | step machine refines a structured-exception semantics by induction on programs |
| C42, C79 | Defer | defer arrays of thread and task, guard records | induction on lists of deferred programs |
| C43, C80 | Except | protect stack with heap of variables | induction |
| C44-C47, C76 | Promise | lock/value/done steps; job array, worker loop, queue_wait | interleaving invariants, witness schedules |
| C48 | Fd | pseudo descriptor table | refinement of a finite set |
| C49 | Signal | signal table, pending counter, loop | refinement of a map from signal to callback |
| C50, C73 | Notify | record walk over a byte buffer; watch numbers in the descriptor table | induction on records |
| C51, C52, C57, C72 | Io | partial read/write oracles, file contents, open/close through a pool | induction on the oracle; invariant |
| C53, C58-C60, C71 | Core | time arithmetic, allocator table, lifecycle, alignment, socket timeout | lia; case analysis; induction on histories |
| C54 | Getopt | argv scan | exhaustive characterisation |
| C55, C103 | Uri | both parsers over a byte list with indices | component-wise lemmas; a predicate kept by every step for all texts |
| C56 | Addr | address parser with strtol/sscanf readings | grammar of each form, witnesses |
| C61-C64 | Str | trim, two-pattern search, argument joining, bounded equality | induction; witnesses |
| C81 | Range | capacity arithmetic in int and size_t, append through a stale handle | induction on the number of values |
| C82 | Text | str_split's loops on the copy, appends through a stale handle | induction on the parts |
| C83, C84 | Text | byte buffers with checked reads and writes | induction |
| C85 | Text | positions, atoi, strtoul with base 0, ownership of what is returned | grammar of numbers and hosts, one lemma per form |
| C86 | Text | glibc dirname and basename on texts | cutting lemmas |
| C90-C93 | Rp | rpmalloc: size-class table, spans with free, partial, deferred lists and bump limit, large runs, huge maps, aligned blocks, realloc, links written into free blocks | ownership invariant counting each block and each span once; ghost list of held blocks |
| C94-C98 | Proc | argument and environment texts over the string model, process records over the descriptor table, children as pid -> state, spawn as a list of actions, descriptor maps under dup2, the output pipe | refinement of a map handle -> child; cutting at a character; absorbing full pipe |
| C99-C102 | Sock | opening calls as lists of actions over results of system calls, bytes of sun_path, packet records with shared or own addresses, records of local sockets per descriptor | case analysis over all results; simulation of a spec that knows data and sender of every packet |
| C104 | Await | tasks as programs of yields, waits, closes; run queue, descriptor table and one poll per switch, composed of the Dll and Epoll models | simulation of a reference with one ready list and one waiting map; position in the queue as measure |
| C105, C106 | Tls | handshake, reading and writing loops of the secure sockets; the library by its answers, the loop by its reports | induction on the answers that ask to wait; the two ends of the loop by computation |
| C107 | Tls | descriptors, sessions and table entries over histories of calls | invariant: live sessions and secure open descriptors correspond one to one |
| C108 | Spin | any number of threads with sections of arbitrary steps under spin locks, interleaved access by access | simulation of whole sections run one after another; potential function for progress |
| C109 | Spin | appends to a shared array, access by access, under its lock | instance of C108; order invariant |
| C110 | RpConc | one span, its owner and any number of freeing threads, access by access | invariant: every block in one place, counters against lists, state of the mark; four modes of the span |
| C111 | RpConc | the same | from the invariant; witness run |
| C112 | Rb | red-black tree of the Windows poller on a memory of nodes with parent links | zipper representation; red-black invariant through every rotation of insertion and removal; refinement of a map, height from black height |
| C113 | We | port of the Windows poller: labelled steps of callers, threads and kernel on one state | invariant of sockets, queues, requests and completions; simulation into a small map of registered sockets (`fair`, `after`) |
| C114 | We | the same | empty update queue while a thread waits + mask coverage; refuted by runs with a refusing device |
| C115 | We | poll groups | counting invariant, prefix with full groups |
| C116 | We | deletion of a port | weaker invariant kept by forced deletion, measures; refuted by a run with a pending request |
| C117 | Wr | handles, tree of ports, reference lock in 32-bit words, threads as small programs | simulation into a map of handles; per port a phase with counts of threads inside; races by runs |
| C118 | Wr | loop of a wait over clock and kernel answers; conversion of times | induction over the answers; exact set of values for which the conversion is right |
| C119-C121 | Run | rpmalloc: mapping and unmapping of spans, reserve, thread caches, global caches with overflow, deferred spans, heaps in groups of sixteen, shutdown | each mapping cut into pieces that are in exactly one place, kept by every operation; sums of pieces against the counts in the headers |
| C122, C123 | Wx | pread, pwrite, sendfile on Windows over a file with a position | case analysis against "the bytes at" and "put at" relations; loop invariant over the list of chunks; witnesses |
| C124, C125 | Wn | dirname and basename on Windows | bytes marked as separators or not, parts of a path as a relation, induction over the scans |
| C126 | Wp | socketpair and os_pipe on Windows | all paths through the calls, counts of opens and closes per socket |
| C127 | Wp | translation of open flags | bit by bit; exact set of flags for which it is right |
| C128 | Wt | descriptor table of Windows with its reads, writes and closes | simulation into a map from numbers to objects; witnesses for every collision |
| C129 | Wt | handles opened and closed | balance of opens, closes and slots in use, kept by every step |
| C130 | Wm | notices of directory changes on Windows | encoding of notices into bytes, decoding shown to give them back; the place looked at for the next one computed |
| C131 | Wm | watches of one monitor | induction over the additions; what remains after a removal |
| C132 | Fs | arguments packed into words and unpacked by the worker, results packed and read | decoding after encoding is the identity for each operation |
| C133 | Fs | the result word of a promise over a sequence of operations | induction over the results |
| C134 | Fs | two tasks looking at one flag | induction over the schedule before the worker's end |
| C135 | Es | table of signals and names, dispositions, the set-up flag | invariant over the calls: delivery is the latest request |
| C136 | Wq | two links for each node | refinement to disjoint lists, with a frame lemma for rings |
| C137 | Fu | threads with phases, one error slot per scope, a join that does not wait | invariant giving each future by its stage; exact answers |
| C138, C139 | Fw | watch tasks, one notification descriptor per loop, handle table, loop that removes while it walks | invariant over all uses; exact effect of closing |
| C140, C141 | Wc | command line, environment block with the bytes behind it, one buffer shared by reading thread and loop | exact texts; invariant of the buffer over all interleavings |
| C142, C143 | Sm | the runs of C119-C121 under any settings, with pages larger than spans and the global reserve: spans named by address; headers in mapped memory; reserves, caches of threads and classes, deferred lists, global caches and overflow lists; mappings | inventory of runs as ghost state, conserved by every step; finalize empties it |
| C144, C145, C146 | Bw | listing of a directory against the recorded files; marks of the table entry; kinds from flags and counts; list of watches | course of changes told in order; every other kind of event refuted; closing characterised |
| C147, C148, C149 | Ax | the bytes of the switch decoded and run on a machine of registers and words; set-up of a new task | symbolic execution proved sound and run on each table; invariant over histories of any tasks |
| C150, C151, C152 | Sk | sizes of task blocks in size_t arithmetic; a task's writes to its own block and the check; `task_derive` with signals, one system call at a time, threads in any order | arithmetic without wrap; induction over actions; invariant over interleavings |
| C153, C154, C155 | Th | one thread of tasks: ready queue, sleep queue, descriptor waits, the library's waking task, the main task's special turn; programs are arbitrary | invariant (permutation of places), induction over turns |
| C156, C157 | Hp | heaps of the allocator and threads: the first use, taking and giving back of heaps, the lock, the owner test of a free; one memory access per step, any number of threads | invariant (each heap in one place; one thread with the lock), witnesses |
| C158, C159 | Lp | passes of an event loop on Linux: the wait, one timer per pass, tasks, what `events_once` and `events_is_running` say | induction over passes on top of C21's refinement, witnesses |
| C160, C161 | Uf | the memory of parsed URIs: blocks of the record and its parts, `uri_free`, failing allocations | direct, on top of Uri's parser |
| C162, C163 | Tl | values of threads with destructors on 32-bit Windows, and the allocator's key there | invariant over operations, witnesses |
| C164–C167 | Ps | setting up the threads of futures and tasks, `events_init_pool`, and their end; failures by an oracle | invariant over all histories of calls; induction on the number of cores for set-up and end; witnesses for all numbers of cores |
| C168–C170 | Cn | names of certificate and key files, the pair made for a program without one, over several runs in a directory | invariant over all sequences of calls and restarts |
| C171, C172 | Nw | `events_now`, `events_timeofday`, `events_nsec` with the widths of `time_t` and `long` as arguments | arithmetic |
| C173, C174 | Gd | `guard`, `guarded`, `guard_init`, `guard_reset`, `get_scope`, `deferred`, `guard_set` for any number of tasks and threads in any schedule | simulation of a stack per flow; chain of saved pointers |
| C175 | Tx | `try_start`, `try_finallying`, `try_finish`, `ex_throw`, `ex_protect_ptr`, `unprotected` for any number of tasks and threads in any schedule | simulation of a stack of blocks per flow; chain of contexts per thread |
| C176 | Dm | `defer_free`, `deferred`, `deferred_unwind`/`scope_unwind`, `is_data`, `data_type`, `str_trim`, `data_delete` on bytes of memory | induction on the blocks from the latest; bytes outside the first 8 of released blocks do not change |
| C177 | Dm | `mem_printf`, `vasprintf`, `rpfree` of memory that is not the allocator's | direct |
| C178 | Hn | `async_gethostbyname`, `gethostbyname_ip`, the threads that serve requests, the shared hostent and buffer | what a step keeps, induction on the operations of others |
| C179 | Hn | `async_inet_pton` on lists of addresses and bytes of memory | induction on the addresses |
| C180 | Er | `events_ssl_error` on the TLS library's queue of errors | induction on the reports |
| C181 | Er | `x509_str` on a memory BIO that grows as it is written | induction on the pieces written |
| C182 | Fc | `fence`, `ex_protect_ptr`, `ex_unwind_stack` on linked records | shape of the chain, induction on the operations |
| C183 | Fc | `trying`, `fence`, `guard_set`, `scope_unwind` | induction on the calls |
| C184 | En | `scope_init`, `scope_destroy`, `scope_unwind`, `ex_terminate`, exit handlers, threads | invariant from the history of calls, then the ending computed |
| C185 | En | `ex_throw`, `ex_handler`, `ex_terminate` | invariant over all calls; output only grows |
| C186, C187 | Cy | `copyfile` of Linux over arbitrary transfers of `sendfile` | induction over the transfers; exact condition for a complete copy; closed form of what is copied |
| C188, C189 | Td | functions as sequences of making arrays, reading arguments, deferring; heap of arrays with stale cells; threads and pool workers | invariants over the function's steps for a shared and for fresh arrays; exact count of what stays allocated; induction over the jobs |
| C190, C191 | Pk | OpenSSL objects with counted references, its answers as a quantified argument; callers as sequences of calls | references = owners + certificates holding the key, kept by every call; a typing of callers; exact documents |
| C192 | Jn | threads with a moment of their end and a machine word; a clock in nanoseconds; joins with and without the system's timed variants | arithmetic of the deadline for every clock and time; induction over repeated calls |
| C193 | Ft | `st_mode` as an unbounded number; Windows handles as a quantified table | bit arithmetic for every mode |
| C194 | Af | masks as words of bits; the system's answer from the processors it has | masks as sets, by induction over the calls |
| C195, C196, C197 | Bl | time limits of sockets in int arithmetic; `nanosleep` with a signal; flags of open files shared by descriptors | arithmetic for every time; bits of the flags |
| C198 | Np | the table of descriptors as slots with paths; which path is made and which is opened | invariant over any sequence of pipes |
| C199 | Dt | one task: its memory, state, mark, error and data under any sequence of events | invariant over sequences |

## Trusted base

* The Coq 8.16.1 kernel, including its bytecode evaluator (`vm_compute`); `native_compute` is
  not used.
* `Print Assumptions` follows every claim theorem in the `*Props.v` files.  It prints "Closed
  under the global context" for each of them: no axiom is used, neither our own nor one from
  the standard library.  (`coqchk -o` on the whole development lists the seven abstract
  parameters of `Coq.ssr.ssrunder.Under_rel`, which belong to a standard-library module type
  that is loaded with `lia`/`ssreflect`; no theorem depends on them.)
* The reading of the C text: the models are hand transcriptions; nothing is executed against
  the C code.
* libc (`memchr`, `memcmp`, `memmove`, `strtol`, `sscanf` ...), the kernel and the compiler behave
  as the models of them say in the cited definitions.

Modelled (by source file):

* `arrays.c`: array blocks, iteration, tuples, strings, sorting, number formatting, base64, URIs.
* `catomics.h`: spin locks (other operations are single steps of the models that use them).
* `deque.c`: all operations, sequentially and interleaved.
* `events.c`: timers, timeout wheel, descriptor registration, run queue, sleep queue, scheduler
  loop, task results, task groups, pool distribution, generators, job workers, allocator table,
  start-up and shutdown, aligned allocation, socket timeouts, deferred functions of tasks, tasks that
  wait for descriptors (scheduler, registration and polling together).
* `epoll.c`: registration and one poll.
* `kqueue.c`: registration, pending changes and one poll (with the BSD part of path registration).
* `future.c`: promises, job submission, collection and waiting; futures of threads.
* `except.c`, `except.h`: try/catch/finally, throwing, protected pointers, scopes, guards, fences,
  the table of signals thrown as exceptions.
* `os_unix.c`: descriptor table, signals, directory watches (inotify, and their emulation for kqueue), file copy, time arithmetic, sleep, starting
  programs and waiting for them (vfork, waitid and dup2 by their results; the child's side only as far
  as its descriptors, arguments and environment).
* `async_io.c`: asynchronous write, whole-file read and write, open/close through the pool,
  address parsing, spawned programs and their output, opening sockets, operations run by a worker (arguments and
  results as words).
* `async_uds.c`, `async_udp.c`: local sockets and datagrams (addresses are numbers; the system calls given by
  their results).
* `async_tls.c`: accepting, dialling, binding, closing, reading and writing (libtls by its answers; configurations,
  certificates and messages left out).
* `getopt.c`: option lookup.
* `wepoll.c`: the red-black tree; the linked queues; sockets, poll groups, registration, waiting and deletion of a port;
  handles and references of ports, waiting times.
* `os_windows.c`: positioned reads and writes, sendfile, path names, socket pairs, flags of opening, the
  descriptor table with its files and pipes, directory watches (system calls succeed).
* `rpmalloc.c`: size classes, allocation of every size, aligned allocation, reallocation, freeing by the
  owner and by other threads, usable sizes.  Calls are atomic in
  RpModel; RpConcModel interleaves the accesses of frees and allocations on one span. In RpModel the caches
  and the reserve are one pool of runs from which an oracle chooses and cuts; RunModel has them in full:
  mapping, unmapping, caches, heaps, threads and the shutdown for the default settings; SmModel for pages larger than spans
  and any number of spans mapped at once, with the global reserve. Statistics and first-class heaps are left out;
  free lists are lists of addresses, the bytes of their links arbitrary noise.
* `create_task`, `tasks_stack_check`, `task_derive` with `sigaltstack`: sizes, the bytes of the block, signal
  disposition and alternate stack; the jump itself (`siglongjmp`) and the kernel's signal frame are not modelled.
* `task_wait_system`, `delay`, `async_wait`, `yield`, `tasks_schedulering`, `async_run` together (area Th), with queues as
  lists; cancelling, wait groups, generators, timers and thread changes are left to their own areas; `num_others_ran`
  is an integer without bound.
* `rpmalloc.c`: who has which heap (area Hp), sequentially consistent, with the work inside a heap as one place;
  `rpmalloc_finalize`, the table of all heaps, statistics and first-class heaps are left out.
* `events.c` passes of the loop (area Lp): the wait, the timers, the order of things in a pass; what callbacks and tasks do
  to timers, how long they take and what they leave are arguments; `active_io` is 0 (Linux), shutting down is left out.
* `arrays.c` memory of URIs (area Uf): the blocks asked for while a text is parsed are replayed from the parts Uri's parser
  sets (each at most once, always in the same order); the variant that frees by itself is left out.
* `rpmalloc.c` `rpmalloc_tls_*` of 32-bit Windows (area Tl): keys, slots, values; one operation at a time.
* `events.c` set-up of threads (area Ps): the table of queues, loops with their numbers and whether they are freed, the lists
  of thread numbers, the main thread's loop and future. Calls are made by the main thread, one after the other; a thread's
  own work is left out except for its end. The poller is that of `epoll.c`; `kqueue.c` has the same order of steps.
* `async_tls.c` names and own pair (area Cn): the static buffers, the host's name, a file system of names and contents in
  which "./x" is "x". A certificate is the number of its key. Unix separators; the thread that makes the pair is waited for.
* `events.c` clocks (area Nw): the readings of the system's clocks are arguments; the variant for macOS is left out.
* `except.h`/`except.c` guards of several flows (area Gd): deferred functions are numbers, they defer nothing themselves; the
  bodies raise nothing that passes the end of a guard (see DeferModel for that); freed blocks are not reused.
* `except.c` try blocks of several flows (area Tx): the stages of a block are in ExceptModel, here a block is entered, gets
  exceptions, comes to its finally part and is left; protections outside of all blocks are not followed.
* `events.c`, `arrays.c` memory released at the end of a task (area Dm): bytes of one address space with pointers of 64 bits;
  functions called do nothing to this memory; allocation does not fail; what the allocator writes into a freed block is an
  argument (first 8 bytes).
* `async_io.c` names of hosts (area Hn): a call of the C library's gethostbyname or inet_ntop is one step, a failed lookup
  leaves its record as it was; getaddrinfo is given by what it knows, numeric texts and names apart.
* `async_tls.c` errors and text of certificates (area Er): OpenSSL's queue of errors and memory BIO are modelled after its
  documentation and source (growth to (n+3)/3*4 bytes); what its calls write is an argument.
* `except.c` fences and `trying` (area Fc): one try block, its records and the scope's; release functions leave the cells as
  they are; in C183 the scope's deferred functions are the releases of the values.
* `except.c` end of the program (area En): native thread-local storage, `exit` within `exit` as in glibc; handlers of other
  parts of the library are not followed; deferred functions defer no others and use no fence.
* `os_unix.c` `copyfile` (area Cy): files as lists of bytes, every answer of the system an argument; permissions (0660
  whatever the source has) and `errno` are left out; the FreeBSD branch declares `file_stat` and `copied` twice and does not compile.
* `future.c` `thrd_data` (the macros `$`, `$$`), `_thrd_wrapper`, `queue_work` and `events.c` `__future_wrapper` (area Td): an array is
  its size, its cells and whether it is released; growing moves it or not (argument). Functions do not throw there and use no
  guard; words are not taken for addresses (C132).
* `async_tls.c` `rsa_pkey`, `generate_pkey_ex`, `x509_self`, `x509_self_req`, `x509_self_export`, `x509_pkey_write`, `pkey_get`,
  `x509_get` (area Pk): OpenSSL's objects are counted references, its calls answer as an argument says; which limits its
  names have and what `EVP_PKEY_keygen` does on failure is taken from its documentation and source. `gen_private_key` is
  called by nothing and left out.
* `os_unix.c` and `os_windows.c` `os_join`, `os_detach`, `os_exit` (area Jn): the realtime clock is not set while a call waits, and
  calls take no time besides waiting.
* `events.c` `events_fd_type` (area Ft), both systems.
* `os_unix.c` and `os_windows.c`, `os_cpumask_set` and `os_affinity` (area Af), with `CPU_SET` of the GNU C library.
* `events.c` `events_set_nonblocking`, `events_set_blocking` (Unix), `events_tcp_timeout`; `os_unix.c` `os_sleep` (area Bl).
  What Linux does with `SO_RCVTIMEO`, `SO_SNDTIMEO` and `F_SETFL` is part of the model.
* `os_unix.c` `os_mkfifo`, `os_open`, `events_pseudo_fd` (area Np).
* `events.c` `task_delete`, `events_task_unwind` (area Dt).
* `asm.c`: the tables for amd64 (SystemV, Win64), i386 and AArch64, decoded and executed; the other models
  take a switch as an atomic transfer of control.

Not modelled: the rest of the Windows back end, libtls itself, the switches for ARM32, PPC64 and RISC-V
(they refer to a function the program does not have), weak memory ordering
(interleavings are sequentially consistent), wall-clock progress, exhaustion of memory except
where a definition says so.

## Findings

Each item is a theorem (`_refuted`, or a positive theorem giving the exact behaviour) about the
model of the code as it is.

Arrays and strings
* C02: an append to an array of capacity 0 stores outside the block; copying an empty array gives
  such an array.
* C03: growing may move the block; the caller's handle then refers to freed memory.
* C04: removing the current element in a forward iteration skips the next one.
* C12: the sign is lost, values of 2^31 and above are corrupted, and the copy out of the scratch
  buffer reads past its end.
* C14: the needed length is masked to 32 bits, so an over-long source overruns the destination.
* C61: trimming a blank or empty string reads (and may write) before the buffer.
* C62: the two-pattern search accepts mixtures of the two patterns.
* C63: the second call joins onto what the first one left in the static buffer.
* C55: hosts without a dot are refused unless they are this machine's name; any fragment of a
  scheme name counts as that scheme; text after the port digits is ignored.

Work queue
* C18: take reads the top before the fence, so a task may be handed out twice.  This is its only
  defect: with the top read after the store nothing is lost or doubled (proved).
* C19: growing frees the old buffer at once; a stealer may still read it.
* C87: looking at a task by index shows removed tasks, and the first one again one past the end.
* C20: take on a fresh queue wraps the index and corrupts the queue.
* C65: two producers can store into the same slot; one task is lost.

Memory
* C90: requests within 128 bytes of 2^64 wrap round and return a small block; `rpcalloc` multiplies without
  an overflow check (the check is compiled out); from 16 TiB on the page count is cut to 32 bits, so the
  usable size (and what reallocation copies) is wrong.
* C92: alignments up to a page that are no power of two are accepted but not honoured; larger ones are
  refused, and so is an alignment of a span (64 KiB) or more.

Programs started
* C94: no argument text gives one empty argument; one `key=value` without `;` is dropped; no environment
  (documented as the starter's) gives an empty one; `exec_addenv` ends its text with no NUL and reads past its
  buffer for pairs over 2 KiB.
* C95: any timeout but 0 waits for ever; a failed `vfork` gives a handle like a good one; a finished wait
  closes the descriptor numbered like the process id; handles of detached programs are never given back.
* C96: both arguments of the exit callback are the exit code, never a signal; the error pipe of `spawn_cgi` stays
  open; a failed registration leaves the program running with its pipes open.
* C97: errors sent to the starter's output follow a redirected output.
* C98: the loop watches the end of the pipe that is written to: a full pipe is never read again, and what
  was written last is closed unread.

Sockets
* C99: `async_socket` leaks the record of a local socket that cannot listen; `async_bind` ignores the result of
  listen and opens an IPv4 socket for IPv6 addresses, which then cannot be bound.
* C100: paths of 107 bytes: bind is given `sizeof(sun_path)`, connect the whole structure.
* C101: `udp_recv` keeps the packet it returns as the state of the descriptor: the next call overwrites the
  address of that packet (its own copy is lost), and reads it after `udp_handler` has freed it;
  `udp_send` sends to the last sender, not the packet's; `udp_message` of an earlier packet frees part of the
  descriptor table; `async_sendto` gives 16 bytes of address, too few for IPv6 (not modelled).
* C102: an accepted connection keeps what the table held for that number before.

Timers, timeouts, descriptors
* C22: delays of 2148 ms and more overflow an int.
* C66: equal due times fire newest first.
* C67: repeat then clear in a callback uses a freed timer; repeating a pending timer loses
  others; a forgotten repeat keeps the loop counted.
* C23: clearing or re-arming, from a callback, another timeout of the same group of 16 that is
  due in the same slot does not stop it; registering twice leaves a stale wheel bit.
* C24: timeouts of more than 128 slots are reported after 128.
* C69: a maximum timeout of 0 divides by zero, and timeout handling never ends.
* C88: on kqueue systems interest in both directions watches reading only (`EVFILT_READ | EVFILT_WRITE`
  is `-1 | -2 = -1`), and widening from writing to both disables writing.  `events_del` of a
  descriptor without pending changes tells the kernel nothing, so later polls return at once with
  events that are dropped, and a descriptor registered again for writing is still called for reading.
  Path watches mask to no events and are never passed on.  Registering a descriptor twice before a
  poll closes the list of changes on itself and loses every registration behind it.
* C89: on kqueue systems the end of a stream is masked with `&=` instead of added: never told to
  readers, and writers get a callback with no event.
* C26: a descriptor the kernel refuses is reported as registered; path watches never reach it, and
  a path watch with an interest is always edge-triggered reading.
* C28: each double registration is counted again and never uncounted.
* C70: the hangup flag is read|timeout; an error-only event calls nothing for ever; a path event
  discards the rest of the batch.
* C71: socket timeouts above 2147483 ms overflow.
* C49: removing a signal outside its own callback reports success but changes only the count;
  doing it twice reads through NULL; a throwing callback makes the next signal end the process;
  double registration leaves the count at one; dead entries fill the table.
* C48: closing a finished child passes its process number to close(); an unattached handle is
  never freed and closing it closes an unrelated descriptor; a self-handle is closed twice; a
  full table is not grown unless the loop count says so.
* C50, C73: records about the watched directory itself are never reported; `inotify_next` never
  reaches the following record; a watch number equal to the notification descriptor's own number
  reads its path through NULL; long paths are cut; with a full table entry -1 is written.

Tasks
* C30: enqueuing a queued task loses everything behind it, or makes a cycle.
* C32: the time reported by delay is truncated to 32 bits of nanoseconds.
* C68: the waiter of a sleeping task is never detached and is woken again by later sleeps.
* C34: the result with id 0 cannot be cancelled; a task without result asks about another's.
* C35: at every block boundary two creators write to freed memory, past the end, or lose all
  results.
* C36: uneven distribution while the pool grows or several threads submit.
* C37: a wait group with fewer tasks than the shares need dereferences an empty slot.
* C74: a pool thread with two or more posted tasks looks only at the last one, after freeing it.
* C75: starting a threaded task inside an open wait group indexes with an unwritten number.
* C39: the call after the producer returned uses the freed generator; the last uncollected value
  is lost.
* C77: the first collection enqueues the generator twice: tasks behind it are lost, or the
  collector starves.

Promises and jobs
* C44: a returned word above 0x20000000 that is not a library array is dereferenced.
* C45: a burst of jobs beyond the array's capacity leaves the worker on a freed array.
* C46, C47: naming a job twice, or waiting for a collected one, frees it twice.
* C76: the worker uses the job record after marking it done, when the owner may have freed it.

Exceptions
* C41: a conditional handler that does not accept runs twice, and finally is skipped; an exception
  thrown in it is offered to handlers of the same block.
* C42: functions deferred while unwinding never run, or (in a task) move the array in use;
  after a throwing deferred function a second unwinding reads freed records.
* C43: a NULL variable or a pointer protected twice in a row stops the releases below it; removal
  across blocks releases the wrong ones.
* C78: leaving a body by break skips finally, and the next throw jumps to a dead block.
* C79: an exception that escapes a guard takes the freed guard down again; with fenced memory in
  the guard, a recovered exception is thrown on.
* C80: fenced memory in a try block: the release function gets the first word of the memory.

Ranges
* C81: a range that runs backwards by two or more gets a block smaller than its own header (or
  writes outside it); very wide ranges overflow int; a stepped range with more values than a
  fresh array holds uses a freed block if growth moves it; a step of zero never ends, a negative
  one never returns; the addition after the last value may overflow; bytes from 128 on are
  sign-extended; the second value appended to a finished range is undefined if its block moves.

Texts, hosts and paths
* C82: a text without the delimiter explodes into an empty array; many parts use a freed block if
  growth moves it; an empty delimiter never ends (also C83 and the splitting of C07).
* C85: without autofree (the way udp sockets call it) host:port is read after its memory was freed
  and a bare address yields no text; hosts of up to six characters lose their port;
  scheme://address without port returns a pointer made of the first eight characters;
  [address]:port cuts the caller's own text and stores no address; addresses from 192 on with
  fewer than four parts store unwritten bytes; text after a fourth part and numbers modulo 2^32
  are accepted; a minus sign before the port is; an empty text reads an unwritten byte.
* C86: a file without directory is its own directory; a trailing slash is cut off in the caller's
  memory.

Input and output, start-up
* C104: two tasks waiting for one descriptor: the second registration replaces the first, whose task is
  never resumed, and the loop never ends; a wait for a descriptor out of range or with a letter other
  than r and w suspends the task for good; closing a waited-for descriptor leaves its task waiting; an
  error reported without hang-up (EPOLLERR alone) wakes nobody.
* C111: an owner that frees its last block of a span while another thread has not yet counted the last other
  one leaves the empty span linked to its size class; it is neither cached nor given back until that class allocates
  from it again.
* C108: the lock is not fair: one thread may spin for ever while others come and go; a lock that its owner takes
  again stops all its users.
* C109: the lock of an array lies in the block that an append may move: the unlock (and every thread spinning)
  then uses freed memory; an array used under two locks loses values (the job array of a worker is reserved
  by waitgroup under the array's lock, and appended to and shifted under the worker's mutex).
* C105: a failed accept(2) indexes the table with -1; a dialled handshake that fails with an error other than
  a refused connection, and a client session that cannot be made, take the error text of a session that
  is gone (null); a peer whose last bytes arrive together with its closing is refused; readiness left in
  the table entry hides one failure; accepting on a listener without TLS returns a plain connection.
* C106: bytes that arrive together with the peer's closing are never given by a secure read.
* C107: close(2) or async_close of a secure descriptor keeps its session, and the next socket with that
  number counts as secure and reads the old session; a handler that closes its connection itself has
  the connection that got the number next closed by the closing deferred for it; setting up one
  listener twice leaks its session; dialling and binding leave the descriptor open when the
  configuration, certificates or keys cannot be used.
* C51: the count of a partial transfer is lost if an error follows.
* C57: writing a shorter text leaves the old tail; an empty file reads back as NULL; descriptor 0
  is taken for failure.
* C72: with two or more workers a correctly reopened file is sometimes not closed; a descriptor
  opened elsewhere with a remembered number is not closed.
* C54: a flag in last place yields NULL; text after a second `=` is cut; fragments of the help
  text hide later flags.
* C56: text starting with a number that is not a complete address:port gives port 1 on the
  wildcard address; octets above 255 spill; ports above 65535 wrap; signs are accepted
  everywhere; numbers of 2^32 and above are undefined.
* C58: start-up replaces an allocator installed before it.
* C59: a failed start-up is remembered as success; a failed table allocation is dereferenced at
  shutdown; a failed event descriptor walks an uninitialised table.
* C60: an aligned allocation of a size near 2^64 wraps.

Windows poller
* C114: a poll the device refuses leaves its socket first in the update queue: every later wait fails at once and no
  other socket is polled; if a thread waits already, registering such a socket reports success and its
  events are never seen; a wait whose time is over returns -1 instead of 0 while such a socket is queued.
* C116: sockets are freed while their cancelled requests are still at the kernel, which then writes its status into
  freed memory.
* C117: a port that is closed sets its completion port to null while others are still inside; a registration that
  needs a new device handle at that moment trips an assertion. A waiting thread reads the completion port before it
  calls the kernel, outside the lock: if the port is closed in between and the handle value is given to a new port,
  it takes that port's completions (and works on sockets that are not its own).
* C118: the milliseconds of a time with nanoseconds are computed by a remainder instead of a division: two seconds
  wait for 1001.999 seconds; the result is right for one value of the nanoseconds in a million.
* C119: `rp_malloc` on a thread whose heap cannot be mapped reads through a null heap instead of returning NULL
  (`rpmalloc_init` ignores that there is no heap). `rp_free` gives up the thread's heap after every single free
  (`rpmalloc_thread_finalize(1)`), so the next request has to take up a heap again; the model's departures may
  happen at any point, so the theorems cover it.
* C122: `pread` and `pwrite` on Windows leave the descriptor at the requested position when the read or write
  fails; `pwrite` returns -1 although the bytes are written if the last seek fails; both always fail on a
  descriptor whose position does not fit 32 bits.
* C123: `sendfile` on Windows never moves the offset variable (-1 becomes 0), dereferences a null offset, drops
  the bytes of a chunk that a short write did not take and goes on, and returns -1 after bytes were sent.
* C124: `dirname` on Windows reads the byte before the path when it starts with a backslash and the answer is
  the root. For a drive alone it returns the empty string although the comment promises the drive, and the
  returned pointer is always past the drive.
* C125: `basename` on Windows cuts a name at a colon in the second place of a component ("/a:b" gives "b").
* C126: `socketpair` on Windows closes the listener twice if the accepted peer is a stranger, and reports
  EAGAIN instead of the error that made it fail. `os_pipe` on 64-bit Windows writes two 8-byte sockets into an
  array of two ints.
* C127: on Windows a file opened asynchronously for reading is opened for writing only (O_RDONLY is 0, so the
  read right is never asked for; FILE_FLAG_OVERLAPPED is the same bit as GENERIC_WRITE). O_CREAT alone truncates
  an existing file; O_TRUNC without O_EXCL gives an invalid disposition, and with O_CREAT and O_EXCL it truncates
  an existing file instead of failing.
* C128: on Windows the numbers of the descriptor table, of sockets and of the C library overlap. A file whose
  handle is beyond the table gets number 1, that of standard output. A socket numbered like a slot receives what
  is written to the file. `os_read` and `os_write` look up any number in the table before checking it, so with a
  loop running a socket numbered 256 or more reads out of bounds. A file that cannot be opened
  (INVALID_HANDLE_VALUE), or whose handle is beyond the target array, makes `events_new_fd` read outside that
  array. Without a loop, writes to a slot go to the C library descriptor of that number. Before `os_init` and after
  `os_shutdown` the table is null or freed but still read.
* C129: each open leaves the event object of `CreateEventA` behind; a client's end of a pipe can never be closed
  (it cannot be disconnected, and then `os_close` gives up); a pipe opened by its maker has two numbers for one
  handle, each of which closes it; `os_mkfifo` loses the pipe's handle when the table has no place; the shutdown
  closes no handle.
* C130: on Windows `inotify_next` adds the byte offset of the next notice to a pointer to records, so it jumps 16
  times too far, out of the buffer for all but short names. The handler looks at the first notice of a buffer only.
  `inotify_name` writes no terminator, so after a longer name the rest of it stays.
* C131: on Windows, removing one directory outside its watcher closes the whole monitor: all directories leave the
  list, only the handle of the last one added is closed, the others stay open, and the kernel goes on writing their
  notices into the freed buffer. Within a watcher only the list entry goes, and the directory is still watched.
  `fs_events_path` gives the directory added last, whichever the notice is from.
* C132: a result above 0x20000000 is taken for an address and the bytes in front of it are read to see whether it is
  an array, so `fs_read`, `fs_write`, `fs_sendfile`, `fs_fread` and `fs_fwrite` of more than 512 MiB (or as many
  items) crash. For streams and buffers the bytes in front decide: if they look like the head of an array, the result
  is copied as one. `fs_fwrite` keeps the count in an `int`; `fs_mkdir` uses 16 bits of the mode.
* C133: `promise_work` clears 32 of the 64 bits of the last result and `promise_set` does not store NULL, so after
  `promise_fopen` the end of file is not NULL in `promise_fgets` (a loop over lines does not end). The worker frees the
  arguments and the promise keeps the pointer: the next operation and `promise_clean` read freed memory.
* C134: `errno` is set by the handler task, so a caller that looks first does not find it, and finds it changed later;
  operations that fail with NULL or another number than -1 never pass it on; a caller whose task ends first leaves the
  handler with freed memory.
* C135: `ex_signal_default` leaves SIGPIPE with the library. An entry of the table is never given back, so after 32
  different signals no other can be registered even when all were reset. One `ex_signal` before the first guard block
  keeps the set-up from installing anything; one `ex_signal_reset` makes the next guard block install all thirteen again
  and replace names the program had given.
* C137: `thrd_get` joins without waiting, so between the end of the function and the exit of its thread it throws
  nothing: the caller gets 0, and `errno` is ETIMEDOUT. The error is kept in the scope of the creator: another thread of
  the scope that fails makes `thrd_get` throw its error instead, and one that begins wipes it. The error is thrown once
  only. After `thrd_get` has taken the result `thrd_is_done` is false for ever and `thrd_wait` does not end. Of an
  array only the first value arrives; of an empty one a value is read that is not there.
* C138: all watches of a loop share one notification descriptor and one handler. The handler of the watch begun last
  gets the changes of all directories. Stopping any of them closes the descriptor: the others end at their next turn,
  their ids stay listed and counted, and one of them that runs after a new watch began closes that one as well. Closing
  never takes the descriptor out of the loop, so the count of active descriptors only grows and the loop never ends.
  When the directory cannot be watched, the task reads the handle table at index -1.
* C139: closing removes entries of the list it walks, so only the watches at even places are freed. The others keep
  their handle for ever, and when the kernel gives the same number again (it starts from 1 for each descriptor),
  changes are reported under the old directory.
* C140: an argument with a space cannot be told from two; commas in the name become spaces; names of 256 bytes or more
  lose their extension or end. The environment block is the split copy: its closing empty text is there only when the
  text ends in a semicolon or has even length, otherwise memory behind it is read. An empty place hides what follows. A
  single variable is not passed on.
* C141: the thread reads into one buffer and posts only the length, so a second read before the loop turns replaces the
  first piece. When the end is noticed the buffer is freed without waiting for the thread: pieces not yet taken are
  never told and the next read goes to freed memory. When the program cannot be started the thread is started all the
  same and reads through NULL.
* C143: `_rpmalloc_heap_allocate_new` stores what is left of a page in the global reserve without giving back what was
  there. With pages of more than 64 spans, a reserve too small for 16 heaps is forgotten when heaps are next needed, and
  its page is never given back, not even by rpmalloc_finalize.
* C144: on kqueue systems a file added to a watched directory is never told. Listed last it is not found at all and the
  handler is given a null name; elsewhere the name points into the directory stream that has just been closed. An event
  that changes no file (a directory made inside) also prints a null pointer, because `fflags & IN_MODIFY` is always true
  (the macro has no parentheses), and so does the removal of the file listed last right after another removal (`inUse`
  is never reset). Names of 255 bytes are cut on record and told as removed.
* C145: `inotify_modified` is true for every event; the name of an added file cannot be read; kevent writes as many events
  as there are watches, whatever the length passed to the read.
* C146: `inotify_close` removes from the list it walks and so closes every second watch only; the others stay open and
  registered with no way to end them. It closes the kernel queue, which is the event loop's own when there is a loop. It
  releases none of the structures of directories, and without a loop closes none of the directories.
* C148: on Windows AArch64 the switch keeps the thread's stack limits in the 16 bytes after the register area, which are
  the task's `stack_base` and `magic_number`: the first switch to a task makes these two the stack limits of the thread, and
  every switch away replaces the number by which the library recognises a live task.
* C149: on amd64 and i386 the function that ends a task is entered by the return of the first one, with the stack one word
  off the required alignment; on Win64 the 32 bytes it may write above its return address end 8 bytes after the block.
* `task_derive` for ARM32, PPC64 and RISC-V names a function `coro_func` that does not exist, so these do not compile;
  on PPC64 VRSAVE is stored at 736 (past the area) and loaded from 720.
* C150: with `sigaltstack` or `ucontext` the stack given to the system starts inside the task's own descriptor and ends
  before the block does, so the part above the descriptor is smaller than requested; sizes near the end of `size_t` wrap and
  give a block smaller than the descriptor that is then written; in a thread 18433 bytes give half of what 18432 give.
* C151: the mark lies near the start of the descriptor, behind `name` and `err_buf`: an overrun of less than these changes the
  fields after the mark (among them `garbage`, `args`, `results`) and is not noticed.
* C152: SIGUSR1's handler belongs to the process: two threads that make tasks at the same time can be killed by the default
  action, or leave the library's handler installed for good.  With SIGUSR1 blocked the task's jump buffer is never filled
  but the task is given back.  If `sigaction` fails the alternate stack stays; the block is never freed, as `task_delete` sees no mark yet.
* C155: the library's waking task looks at sleepers only after a round in which nobody else ran.  The exception in `yield`
  covers the main task with exactly one sleeper.  So one task that keeps yielding keeps all sleepers asleep for ever if
  there are two of them or the main task has ended; they wake as soon as nobody else is ready.
* C144: a directory that cannot be opened for listing has its own path told to the handler as if it were a file in it.
* C144: a file that was made and removed again between two looks makes the library read a name it never had (undefined).
* C144: two neighbours that the directory lists in the other order than before leave one of them on record twice and the
  other not at all.
* C157: `rpmalloc_initialize_config` sets `_rpmalloc_initialized` before it sets anything up, and neither reads nor writes
  it atomically: a second thread that allocates meanwhile uses a key that does not exist and sizes that are 0.  If both
  threads pass the tests before either stores, both set up, and the heap that the first already works in is no longer
  known as its own (it allocates from another from then on, and frees still go to the first).
* C157: after `rpmalloc_set_main_thread`, that thread gives its heap back without taking the lock and then sets the lock
  to 0 although another thread may hold it.  `main_bad` is an interleaving in which two threads then allocate from one
  heap.  (Nothing in the library calls `rpmalloc_set_main_thread`.)
* C159: the time `events_once` waits does not depend on the timers.  With no descriptor ready and no task, a timer is
  called only after the whole wait, and since a pass calls one timer, the last of k timers due together waits k waits.
  With a negative time to wait and timers alone the call never returns.
* C159: `epoll_wait` ended by a handled signal makes `events_once` return -1 before timers and tasks are looked at.
* C161: `uri_free` frees nothing unless the type is one of the four transports: a record that `parse_uri_ex` itself
  refuses still has type 0, so the record and its parts are lost; a URI that was accepted with an unknown scheme (type
  `-DATA_MAXCOUNTER`, not rejected) can never be freed.
* C161: a failing allocation of the record is read through, one of a part goes to `strlen`.
* C163: `rpmalloc_tls_delete` leaves the slot of the destructor as it is: a key given out again under the same number has
  its value handed to the destructor once for each time the number was used, or to the destructor of the deleted key.
  1088 creations with a destructor use all slots up, deleted or not; a creation that fails uses one up too.
* C163: for 32-bit Windows `rpmalloc_initialize_config` makes a fibre key, but never `_memory_thread_heap`, which stays 0:
  the allocator keeps heaps under the first TLS index of the process, whoever owns it.
* `os_windows.c` has the same table once more (1192-1250), and nothing calls its `impl_tls_dtor_invoke`: destructors given
  to `os_tls_alloc` never run there.
* C165: `events_create_pool` with a loop whose number exceeds the number of cores reads `local[index]` behind the table
  (2618). This happens in `events_init_pool` after two or more loops of the program's own, and in `accept_handler`,
  `uds_handler`, `tls_handler` and `fs_events` when every core is a future (`events_init_pool(20)` on fewer cores, or a
  single core).
* C166: the main thread's first `events_create` gives the new loop to a future's thread as well. That thread destroys it at
  the end (2659), and so does the program, as `events_start` and every example and test that uses `events_init_pool` do: the second
  `events_destroy` reads the freed loop.
* C166: `deque_destroy` joins the thread of every queue, also if it was never started (`OS_NULL`) or the field never
  written; `thrd_pool_shutdown` goes up to the number of loops ever made, not to the size of the table.
* C167: `events_create_pool` answers 0 for any loop whose place has a queue: for the loop of the program itself, and on a
  second attempt after the thread could not be started; `go()` then still panics.
* C167: `events_create` frees the loop if the poller cannot be made, but the main thread's `loop` and the future already
  started keep pointing to it; `events_create_pool(events_create(…))` and `events_init_pool` read through NULL if there is
  no loop.
* C169: `default_cert_path` fills the directory but not the names; `use_certificate` and `use_secure_client` look at the
  directory only and leave the names alone from then on, so that the files are sought (and made) in the current directory.
  `cert_file()` before `use_certificate(path)` gives a name that is not used later. A second path is ignored, one of
  `PATH_MAX` bytes or more is cut without a message, an empty one is ignored.
* C170: the marker `host.local` is one and the same file for clients (pair in `./`) and servers (pair in `../`): whoever
  comes second finds the marker, makes no pair and loads files that do not exist. A program calling `use_secure_client` and
  then `use_certificate(NULL)` works on its first run only.
* C170: `use_certificate("/my/dir/")` followed by `use_secure_client()` overwrites the program's own key and certificate in
  `/my/dir/` by a self-signed pair, if `./host.local` is not there: the directory "./" is ignored since there is one already.
  `use_certificate(NULL)` overwrites a pair in `..` if the marker is missing in the current directory. The key is written
  before the certificate is known to be writable. `x509_self_export` ignores its three arguments: it makes a key and a
  certificate of its own and writes them to `pkey_file()` and `cert_file()`.
* C171: `events_now` multiplies `tv_sec`, a `long` on 32-bit Unix, by 10^9 in that type: signed overflow three seconds after
  boot. On Windows `count.QuadPart * 1000000000` overflows when the counter passes 9.2 * 10^9, 15 minutes after boot at the
  usual 10 MHz; before `events_init` it divides by 0, since `&sys_event.timer` is never null. If `clock_gettime` fails, or
  its answer is 0, the time of day is answered, which is another clock.
* C172: on Windows the seconds of `events_timeofday` have 32 bits and turn negative in 2038. Timers and sleeps are measured
  by the time of day (`events_nsec`), so that setting the clock moves them.
* C173: `guard` keeps the innermost scope in `scope_local()->arena`, one per thread, and `deferred` uses it even for a task
  with a scope of its own. A task that defers while another task of its thread is inside a guard puts its function into that
  guard: it runs when the other task leaves, for example closing a socket that is in use. If the task that entered first
  leaves first, the second's next `defer` dereferences null; when both have left, `arena` is the freed scope of the first, and
  the next exception, or the first `defer` after another guard, uses it.
* C174: `guard_setup_func` is one variable for all threads. While any thread is in a guard, an exception in another thread
  calls `guard_set`, which finds no arena and returns, so that `exception_setup_func` is not called. If guards of two threads
  overlap, the variable is reset while the second is still in its guard, and stays set after both have ended.
* C175: the chain of exception contexts hangs on one pointer per thread and no switch of tasks saves it. A task that throws
  while another task of its thread is inside a `try` jumps onto the other's stack. `try_finish` only takes a block off the chain
  if it is the current one; if two tasks leave in the order in which they entered, the current context is a dead stack frame
  from then on. `try_finallying` takes off whatever is current.
* C176: `deferred_unwind` and `scope_unwind` tell records of deferred functions, objects, arrays and plain memory apart by
  reading a type number from the memory itself. `DATA_DEFER` is 37, the byte `%`; `DATA_HASHTABLE` is `#` and `DATA_MAP` is
  `$`. `str_dup("%")` in a task makes the library call an address taken from behind the block when the task ends, and a copy
  of 32 chosen bytes makes it call any address. `is_data` reads in front of every block, at the place of an array's head,
  before anything else is known about it; `DATA_TUPLE` is 32, a space. `str_dup(" ")` followed by six short copies in blocks
  of 16 bytes ends in a double free.
* C177: `mem_printf` gives the memory of the C library's `vasprintf` to `defer_free`, which releases it with `rpfree`. `rpfree`
  looks for a span's head in the memory below. For an empty text the memory is lost and NULL returned.
* C178: `async_gethostbyname` hands out the C library's static `hostent`, and `gethostbyname_ip` writes into the buffer of
  the main thread's future, which the threads of a tasks pool are given too. Two tasks that ask at the same time get each
  other's addresses. `examples/dns_ip.c` with an unknown name reads through NULL.
* C179: `async_inet_pton` copies every matching address over the one before. `resolve_src` 0 sets `AI_ALL | AI_PASSIVE`
  instead of `AI_NUMERICHOST`: `[name]:80` is looked up.
* C180: `events_ssl_error` calls `ERR_get_error` twice and prints the second error. With one error in the queue it prints
  `error:00000000`. Its buffer has `MAXHOSTNAMELEN` bytes; `ERR_error_string` requires 256.
* C181: `x509_str` gives the data of a memory BIO, which is not ended by a zero byte, to `str_dup`.
* C182: `fence` uses `scope->protector`, one record per scope. The second call links the record to itself; memory protected
  before is not released when an exception leaves the block.
* C183: `trying` fences its value. In a guard this makes the throw unwind the guard's scope, which frees the value; the catch
  clause then writes to it, and a later `fence` or `defer` in the guard finds no array. The value comes from `calloc` and goes to
  `events_free`, as in C177.
* C184: `scope_init` marks the context that is current as scoped; if that is a try block's, `ex_terminate` does not unwind the
  scope, and after a signal `_Exit` skips the exit handlers as well. `got_signal` is never reset (`ex_flags_reset` has no
  caller), so a signal that was caught long ago has the same effect. `atexit_ctr_c_unwind` may be the scope of another thread,
  running or gone. A deferred function that throws makes `ex_terminate` start again with the same array, whose first records
  were freed.
* C184: if the first function of a thread was deferred in a try block, one that throws during `exit` keeps those after it from
  being called, unless another thread deferred too: then they are called by the next handler, or freed records are used.
* C185: `ex_throw` ends the program before it stores the text if the context is being unwound. A signal gives NULL as the
  function's name to `snprintf`.
* C186: `sendfile(output, input, &copied, …)` moves `copied` itself, and `copied += written` moves it again. After a transfer
  that is not complete the next piece is skipped or the loop ends early, and 0 is returned. A transfer of 0 bytes, as at the
  end of a file that became shorter, is repeated for ever.
* C187: `creat` empties the destination before anything is known about the source; if both are the same file its contents are
  lost and 0 is returned. The answer of `close(output)` is dropped.
* C188: `thrd_data` empties and refills the array of the arguments when the thread has some. Two results of `$` are one array,
  and `args[0]` is the result after `$`. More values than `data_queue_size()` move the array while its old address is kept.
* C189: in a worker of the pool `__thrd()` was called, so `tasks_is_active()` holds and `defer` puts functions on the garbage list
  of a task that is none and never ends. `$delete(worker->args)` comes before the result is looked at, which may be the
  arguments. `scope_local()->local` is read although the thread may have no scope. Only a returned array is released.
* C190: `EVP_PKEY_keygen` of OpenSSL 1.1.1 releases the key it was given when it fails and sets the caller's variable to NULL, but
  that variable is the parameter of `generate_pkey_ex`; `rsa_pkey` and the worker release the key again. For the same reason a key
  made for a NULL parameter (`EVP_PKEY_new` failed in the worker, unchecked) is known to nobody.
* C191: the answers of `add_ext`, `X509_NAME_add_entry_by_txt` and `X509_set_pubkey` are not looked at.
* C192: outside Linux the Unix `os_join` calls `pthread_join` whatever the time is; `thrd_get` (`future.c` 140), which asks with
  the time 0, waits there for the thread. Joining or detaching a thread that was joined is undefined in POSIX;
  `tests/test-thread.c` 24 does it ("noop").
* C193: on Windows `events_fd_type` casts `&fd` to a `HANDLE` and compares attribute bits with `switch`; a return value of -1 in the
  unsigned enumeration `fd_types` is 4294967295.
* C194: on macOS `CPU_SET`, `CPU_ISSET` and `sched_getaffinity` shift an `int`: the 32nd processor, and looking for a processor in
  an empty mask, are undefined; only the first processor of a mask is used. On Windows `os_cpumask_set` does not check its number.
* C195: `events_tcp_timeout` computes `milliseconds * 1000` in `int`, which overflows for 2147484 (36 minutes) and more;
  `milliseconds % 1000 * 1000` would not. Negative times are not refused.
* C196: `os_sleep` ends early when a signal is handled.
* C198: `os_mkfifo` enters a path into the table before it knows whether `mkfifo` succeeds, does not report a full table (`os_open`
  of the name then opens a file of the current directory), and cuts long names.
* C199: `task_delete` takes `TASK_NORMAL` (given way to another task) for an end; its mark is read from memory that may have been
  freed; a running task, as `events_ctr_c_unwind` finds it, is never freed.

## Tests against wrong programs

`seeded/LOG.jsonl` holds one line per edit of the model that was tried (in a scratch copy): the
file, the edit, the claim it breaks, the theorems that no longer prove, and what was tightened.
A line whose `failed` list is empty says why: the edit does not change the claim, or it was the
reason to tighten the theorems named in `tightened`.
