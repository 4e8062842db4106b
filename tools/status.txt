C01|proved|Every operation list refines the sequence specification, with size and every index observable.
C02|proved|Appends stay in the block for non-zero capacity; the zero-capacity out-of-bounds store is exhibited, also through copy of an empty array.
C03|partial|False of the code as titled: proved when growth is in place, refuted when the allocator moves the block (finding F1).
C04|proved|Forward and backward iteration visit exactly the elements; the skip caused by removal is characterised exactly.
C05|proved|All mutators raise on a frozen array and change nothing.
C06|proved|Position is the leftmost occurrence for texts below 2^31 bytes (the result is an int); pointer search proved to return the next occurrence with all reads in bounds.
C07|proved|NUL-free non-empty strings, non-empty delimiter; cutting is modelled on the byte buffer with stored NULs.
C08|proved|Result is the join of the unique leftmost non-overlapping decomposition with the replacement, and fits the allocation.
C09|proved|Doubling copy equals n-fold concatenation with checked writes; negative count panics.
C10|proved|Width, position of the original text and every pad byte.
C15|proved|Exact final buffer, terminator, and untouched tail.
C16|proved|Zero exactly on equality up to ASCII case; sign is the lexicographic order of the lower-cased strings (hence antisymmetric).
C61|partial|Proved for strings with a non-blank; blank strings are shown to read before the buffer (finding).
C62|partial|False of the code: exact behaviour proved, intended meaning refuted.
C63|partial|First call proved; exact result for any buffer history proved; independence of history refuted.
C64|proved|Exact characterisation for every len.
C11|proved|Any length, any element type, any total preorder; permutation and memory safety even for inconsistent comparisons.
C12|partial|Proved for 0 <= x < 2^31 up to the over-long copy; sign loss, 32-bit truncation and the out-of-bounds read are exhibited (findings).
C13|proved|Sources up to 3*(2^30-1) bytes; the encoder is shown equal to RFC 4648 arithmetic and the decoder to invert it.
C14|partial|Proved for sources up to 3*(2^30-1) bytes and for all decoding; the 32-bit mask overrun is exhibited for longer sources.
C17|proved|Operation outputs equal a double-ended sequence for every initial size and history (indices below 2^63); the pool thread's task_take receives exactly the queued tasks in order.
C18|partial|Linearizable for one pusher and any number of stealers under every schedule (sequential consistency), also with takes that are not interrupted; takes interrupted only after publishing the bottom lose and double nothing; a take interrupted earlier can hand a task out twice (witness schedule).
C19|partial|False: use after free exhibited; proved that this is the only undefined behaviour and that a queue that never grows is safe.
C20|partial|Proved after any history with at least one push; refuted for a fresh queue of any size.
C65|partial|False of the code: two concurrent spawners lose a task (witness schedule); one spawner is covered by C18.
C21|proved|Refinement of the linked timer list to a sorted list for every program that repeats only from the timer's own callback; one firing per creation or repeat; never early; at most one per iteration.
C22|partial|Proved for 0 <= ms < 2148; signed overflow exhibited for every larger delay.
C29|proved|Every list of valid queue operations refines a sequence, with both link directions.
C30|partial|False: everything queued behind the task is lost, and a lone task is handed out for ever (both for every queue).
C31|proved|Sleep and run queues modelled over shared link fields; pass removes exactly the due or halted prefix.
C32|partial|Exact below 2^32 ns; wrong for every elapsed time of at least 4.295 s.
C33|proved|Tasks that spawn, yield and finish: every round runs exactly the queued tasks in order; each task runs exactly as often as it has segments; the loop ends exactly when all are finished.
C66|partial|False: a new timer fires before every pending one with the same due time.
C67|partial|False without the rules of C21: use after free, lost timers and a permanently counted timer are exhibited; C21 proves safety under the rules.
C68|partial|False: the sleeping task's attachment is never cleared (the waiter's own field is), so the waiter is re-queued on each later wake.
C23|partial|Refinement, timing and clearing proved for every program that obeys the rules; false when a callback touches another timeout of its group of 16, or a descriptor is registered twice.
C24|partial|False: every timeout of more than 128 slots is reported after 128 slots. The configured maximum fits in the span.
C25|proved|Summary and descriptor bits exact after every rule-obeying program; both tables fit their block without overlap.
C69|partial|False: with a maximum of 0 every timeout divides by zero and timeout handling never ends.
C26|partial|Proved for pollable descriptors and any program; false for descriptors the kernel refuses (no error returned) and for path watches (never passed to the kernel, or with the wrong interest).
C27|proved|Every batch and callback behaviour; stale events are silent and removed.
C28|partial|Exact for programs that never register a registered descriptor; otherwise false for every number of registrations.
C70|partial|False: hangup shows the read and timeout bits; an error-only event is swallowed and repeats for ever; a path event drops the rest of the batch.
C53|proved|Every time up to 2^62 seconds, every size_t millisecond count; every 32-bit sleep.
C71|partial|Exact up to 2147483 ms either way; signed overflow for every larger timeout.
C60|partial|Proved for every block that fits the address space; false when size + page + line wraps round 2^64.
C58|partial|All-or-nothing, routing and errno proved for any history; false across start-up, which silently installs the built-in allocator.
C59|partial|Idempotence proved from any state, balance proved for all histories without an allocation failure inside the operating-system layer; false after failed start-ups.
C51|partial|Order and completeness proved for every pattern of partial writes; the returned count is lost when an error follows a partial transfer.
C52|proved|Equal contents on success for every pattern of short reads, short writes and interruptions; failure leaves a prefix; no overwrite.
C57|partial|Exact effect proved; false for longer old contents, the empty text (reads back as NULL) and descriptor 0.
C72|partial|Proved for one worker and descriptors from the library's own open; false for every larger pool and for descriptors from elsewhere.
C54|partial|Exact characterisation for every argument vector (found and not found, exhaustive); false as wished: flag in last place gives NULL, text after a second = is cut, any fragment of the help text hides later flags.
C56|partial|Every form (quad, bracketed v6, name, unix path, junk) characterised for all texts and resolver answers; false for bare ports, addresses without port, octets above 255, ports above 65535; signs are accepted and huge numbers undefined.
C49|partial|Every delivery calls the last registered callback, for all programs removing signals from their own callbacks; removal from anywhere else, throwing callbacks and double registration break it (refutations).
C48|partial|Uniqueness, completeness, growth and the exact closes for every sequence; child close, unattached handles, self-handles and full tables are refuted.
C50|partial|Every buffer of well-formed records; self-changes are lost and inotify_next is broken (refuted).
C73|partial|Proved for watch numbers free in the table; refuted on collision with the notification descriptor and for a full table.
C55|partial|Memory safety for every text and exact components for every well-formed URI, any lengths; the public call refuses dotless hosts, accepts scheme fragments and ignores text after a port (refuted).
C34|partial|Ids, values, growth and memory safety proved for every sequence; the first result cannot be cancelled and a task without a result asks about someone else's (refuted).
C35|partial|Distinct ids always; nothing lost inside a block or with one creator; at every block boundary two threads corrupt memory or lose all results (refuted).
C36|partial|Proved for a fixed pool and any number of starts, and for one submitter of jobs; even again after a growth; false across a growth and for concurrent submitters.
C37|partial|Proved whenever at least the declared number of tasks was added; the exact condition for the crash is proved as well.
C38|proved|Every group, every pattern of completion: each member collected once, after it ended; the loop ends exactly if all members end.
C74|partial|Holds for one posted task; with two or more the thread never completes its wait and reads freed memory (a stale loop variable).
C75|partial|Holds outside wait groups; inside one an unwritten thread number is used as an index.
C44|partial|One setter, any waiters, any schedule; sequentially consistent memory. Words above 0x20000000 that are not library arrays are dereferenced (refuted).
C45|partial|Order and completeness for any submitters and schedule while the job array is not moved by growth; a burst beyond its capacity can leave a freed array in use (refuted).
C46|partial|Every completion order, jobs pairwise different; a job named twice is freed twice (refuted).
C47|partial|Any number of collections by queue_get; queue_wait after queue_get frees the job twice (refuted).
C76|partial|Holds when the worker ends first; the owner may free the job before the worker's last use (refuted).
C39|partial|Every schedule and any number of consumers while the producer has not returned; the call after the end uses the freed generator, and an uncollected last value is lost (both refuted, for every value list).
C77|partial|False: tasks queued after the generator are lost, and a lone generator starves its collector (both for every queue).
C40|proved|
C41|partial|Accepting handlers are covered by C40_programs_follow_structured_exceptions; a handler that does not accept runs twice and finally is skipped, for every block (refuted).
C42|partial|Holds for every list of functions that neither throw nor (in a task) defer further; functions deferred during unwinding are lost or move the array, and unwinding after a throwing function reads freed records (refuted).
C43|partial|Exact release order for any number of usable, neighbour-wise different pointers, in any nesting (with C40); a NULL variable or repeated pointer stops the releases and removal across blocks releases the wrong ones (refuted).
C78|partial|False for every block: finally is skipped and the next throw jumps to a dead block.
C79|partial|Holds on normal end and for recovered exceptions; an escaping exception uses the freed guard, and fenced memory defeats recovery (refuted).
C80|partial|False: the first word of the memory is released instead.
C81|partial|Exact contents for every upward range and every text, and for stepped ranges that fit the first block; backward, very wide, zero-step, downward and long moved ranges are refuted.
C82|partial|Exact for two or more parts that fit the first block (or grow in place); one part, moved growth and empty delimiters are refuted.
C83|partial|Exact for every byte sequence and non-empty delimiter; an empty delimiter never ends (refuted).
C84|proved|
C85|partial|Exact results for every accepted and refused form with autofree; the use after free, lost ports, wild pointers, cut caller texts, unwritten bytes and accepted junk are refuted.
C86|partial|Exact for every path with a directory and a plain file name; lone files and trailing slashes are refuted.
C87|partial|Exact while nothing was removed and for indices outside; removed tasks and the index one past the end are refuted.
C88|partial|Exact for every lawful program (one direction at a time, no path watch, descriptors new when registered); the excluded cases are refuted; the change list is in bounds from any state.
C89|partial|Exact callbacks for every lawful program; the end of a stream is never told (refuted for every program).
C90|partial|Every block of up to 8 TiB holds its request after any history; wrapping sizes, wrapping products and page counts above 32 bits are refuted. Calls are atomic.
C91|proved|Blocks in use and free-list links are pairwise disjoint after any sequence of allocations, reallocations and frees by any thread. Calls are atomic.
C92|partial|Alignments that are powers of two are honoured up to 32 KiB and larger ones refused; other alignments up to a page are refuted.
C93|proved|For sizes up to 2^62 and blocks of up to 8 TiB, after any history; calls are atomic.
C94|partial|Arguments and environments are the pieces of their texts; the extra empty argument, the dropped environments, long pairs and the missing end of exec_addenv's text are refuted.
C95|partial|Exact answers for every handle after any history; timeouts, failed starts and the closed process id are refuted. vfork and waitid are oracles.
C96|partial|One callback with the way of ending and closed pipes; the error pipe, failed watching and failed starts are refuted.
C97|partial|Streams above descriptor 2 as asked; errors to the starter's output are refuted.
C98|partial|In order and once; the last output and a full pipe are refuted. Capacity counted in bytes.
C99|partial|Every combination of results; the leak, the ignored listen and IPv6 binding are refuted.
C100|partial|Paths up to 106 bytes; longer ones refuted.
C101|partial|Every use that keeps to the last packet of each descriptor; use of earlier packets, handlers that end early, empty and long datagrams are refuted.
C102|partial|While opening tasks go on and accepted numbers were no local sockets; both exceptions refuted.
C103|proved|Clean components and a 16-bit port for every text; refused ports; the forms without a scheme with a port, the two file forms, a scheme alone, and the exact choice of the transport, any lengths.
C104|partial|All programs and reports where each descriptor has one waiter; two waiters for one descriptor, bad arguments, closed descriptors and bare errors are refuted.
C105|partial|All handshakes whose waits end in plain readiness or in failure; error paths that read a freed session or entry -1, hang-ups with data, stale readiness and listeners without TLS are refuted. libtls is given by its answers.
C106|partial|All sequences of reads and writes and all answers; data arriving together with a hang-up is refuted. Plain descriptors are covered by C51.
C107|partial|All histories without plain closes of secure descriptors and without the failing dials whose message reads a freed session; those, double closes and leaks on failed configuration are refuted. Other tasks do not touch a descriptor while one waits for it.
C108|proved|Any number of threads and any sections under one lock, sequentially consistent; unfairness towards a single thread and locks that stay held are shown separately.
C109|partial|All interleavings when the array has room or grows in place; a block that moves and an array under two locks are refuted.
C110|proved|One span with any number of blocks, threads and calls; sequentially consistent accesses, fixed owner, the end of the owner's thread left out.
C111|partial|The run can always be found again; that it is handed back once empty is refuted with a run of two blocks.
C112|proved|All programs over the tree; the loops of the code run within twice the logarithm of the number of operations.
C113|proved|All histories; sections under the port's lock are single steps, the device and kernel are arbitrary but honest about events and closing.
C114|partial|Proved while the device accepts every poll and cancellation; with a refusing device refuted three times (event lost after a successful registration, one socket blocks all waits, time-out reported as error).
C115|proved|Counts, limit and number of handles over all histories.
C116|partial|Everything is freed once and the assertions hold; that the kernel is done with the memory is refuted.
C117|partial|Proved for all interleavings in which no device is opened for a port being closed and the handle a wait has read was not given to another port before it is used; both exceptions refuted by runs.
C118|partial|The waiting loop is proved; the conversion of seconds and nanoseconds is refuted, with the exact set of values for which it is right.
C119|partial|Proved for all histories in which requests come from threads that have a heap; a first request without memory for the heap is refuted (null pointer read). Calls run one after another.
C120|proved|
C121|proved|
C122|partial|Successful calls are proved in full; failed calls that move the position or that wrote, and positions beyond 32 bits, are refuted.
C123|partial|What is delivered is proved for whole writes and described exactly for all answers; the offset variable, short writes, late failures and a null offset are refuted.
C124|partial|Proved for all paths except those that start with a backslash and have the root as answer (out-of-bounds read, refuted) and a drive alone (refuted).
C125|partial|Exact for single-byte encodings and paths without a colon in the second place of a component (those are refuted); termination for all encodings.
C126|partial|Success and absence of leaks proved; the double close, the hidden error and the pipe outside its array are refuted.
C127|partial|The translation is described exactly; reading, creating and truncating are refuted, with the exact set of flags that work.
C128|partial|Proved for all runs in which no number in use is handed out again by another source; the collisions, out-of-bounds lookups, failed opens, idle writes and calls without a table are refuted.
C129|partial|Proved for files and pipes as long as no process opens its own pipe; event objects, clients' ends, own pipes, a full table and the shutdown are refuted.
C130|partial|The first notice of a buffer is proved; the following ones, the step to the next one and names after longer names are refuted.
C131|partial|Additions, counts and the list are proved; removals and the reported directory are refuted.
C132|partial|Proved for results that are small or have no array in front of them and counts that fit an int; refuted beyond.
C133|partial|Numbers are right if freed memory stays as it was; NULL and the use of freed arguments are refuted.
C134|partial|Holds when the handler looks first; refuted otherwise, for failures other than -1 and after the end of the caller.
C135|partial|Proved for up to 32 different signals with the set-up counted only at the start and after a reset; SIGPIPE, the full table and the set-up flag are refuted.
C136|proved|Full refinement to lists.
C137|partial|Values are right in all interleavings; errors only when the thread has exited and the scope was quiet since. The other cases are refuted.
C138|partial|Ids, counts and the end of a stopped task are proved; independence of watches, end of the loop and refusal are refuted.
C139|partial|Entering, removing one watch and closing with a single directory are proved; closing with several is refuted.
C140|partial|Names without commas, short, and environments of even length or closed by a semicolon are proved; the other cases are refuted.
C141|partial|Order and lengths are proved, contents while the loop keeps step; the other cases are refuted.
C142|proved|All settings, all sequences of operations; each call is one step.
C143|partial|Bounds and thread ends for all settings; nothing forgotten and all given back with at most 64 spans mapped at once or without a small global reserve left; the rest is refuted.
C144|partial|Changes and removals told in order for any course; additions, events without a changed file, the last file after a removal and names of 255 bytes are refuted.
C145|partial|Changes and removals; the kind modified, additions, the last file after an earlier change and the buffer bound are refuted.
C146|partial|Removing one watch of a loop proved; closing is right for one watch only and closes the loop's queue (refuted).
C147|proved|
C148|partial|Windows AArch64 writes two fields past the area (refuted).
C149|partial|The start is proved; the frame of the finishing function is refuted on amd64 and i386.
C150|partial|Proved for assembly builds and sizes that do not wrap; the other builds, huge sizes and monotony are refuted.
C151|partial|What a passed check means is proved; overruns that stay short of the mark are refuted.
C152|partial|Proved for tasks made one after the other; overlapping creations, blocked signal and failing sigaction refuted.
C153|proved|
C154|proved|
C155|partial|Never early, never lost, woken when idle or beside a yielding main task: proved.  Beside another task that keeps yielding: refuted.
C156|proved|
C157|partial|Refuted: the first use by two threads at once, and the giving back of a heap by the named main thread.  Without these: C156.
C158|proved|
C159|partial|Refuted: the wait ignores timers, a negative wait with timers alone never returns, and a signal that ends the wait skips timers and tasks.  How late a timer can be: C158.
C160|proved|
C161|partial|Refuted: refused URIs and URIs with an unknown scheme are never freed, and any failing allocation is undefined.
C162|proved|
C163|partial|Refuted: destructors of deleted keys are called again, slots run out, and the allocator uses key 0 without owning it.  Without deletions: C162.
C164|proved|
C165|partial|Refuted after two loops of the program's own, and for connections when all cores are futures.  Proved from the start and after one loop.
C166|partial|Refuted for the usual ending (loop destroyed twice), threads that did not start, and thrd_pool_shutdown with more loops than cores.
C167|partial|Refuted: own loop, second attempt, no poller, no memory for a connection's loop.  Proved for free places.
C168|proved|
C169|partial|the directory asked for last is refuted: default_cert_path first, names asked for before
C170|partial|mixed use as client and server, and loss of other pairs, are refuted
C171|partial|refuted for a 32-bit time_t, on Windows late, before events_init and in the fallback
C172|partial|refuted from 2038 on (Windows)
C173|partial|refuted for tasks that switch inside guards
C174|partial|refuted for overlapping guards of two threads
C175|partial|refuted for tasks that switch inside try blocks
C176|partial|refuted for contents that look like a type number, and for neighbours
C177|partial|refuted for empty texts, and for memory of the C library's vasprintf
C178|partial|refuted when two tasks ask at the same time, and for unknown names
C179|partial|refuted: the last address is taken, and names are always looked up
C180|partial|refuted: every first error is dropped; texts may not fit
C181|partial|refuted unless the byte behind the text happens to be zero
C182|partial|refuted for two fences in a scope
C183|partial|refuted in guards, and when an exception leaves the enclosing block later
C184|partial|refuted after signals, for other threads, and for functions that throw
C185|partial|refuted for the text of an exception thrown during unwinding
C186|partial|refuted for files that one transfer does not move, and for sources shortened meanwhile
C187|partial|refuted for a file copied onto itself, for former destinations and for close
C188|partial|refuted for a second $ in a thread with arguments, for arguments read after $ and for many values
C189|partial|refuted for arrays not returned, for deferred functions, and for arguments or other arrays returned
C190|partial|refuted with OpenSSL 1.1.1 when making a key fails or the key NULL is written, and for x509_self_export without memory
C191|partial|refuted for refused extensions and for long domains
C192|partial|refuted where the system has no timed joins, and for calls after the thread was joined or detached
C193|partial|refuted on Windows, and for the sign of the error with gcc and clang
C194|partial|refuted on macOS, and on Windows for processors beyond the width of size_t
C195|partial|refuted beyond 2147483 milliseconds and for negative times
C196|partial|refuted when a signal is handled meanwhile
C197|proved|For Unix, with sharing of open files between descriptors.
C198|partial|refuted for a full table, a failing mkfifo and long names
C199|partial|refuted for tasks that gave way, for deleting twice and for running tasks
