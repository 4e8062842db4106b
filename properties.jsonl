{"id": "C01", "title": "Dynamic array behaves as a sequence", "statement": "Whatever calls are made to append, pop, shift, remove-at-index, reset and copy on an array, the array's visible contents (its size and the element at every index) are those of the mathematical sequence under push-back, drop-last, drop-first, delete-at and clear; pop and shift on an empty array return the empty value and change nothing, and growing never loses or reorders elements.", "quantifier": "for every array with non-zero capacity, every element type and every finite list of operations", "why_tests_cant": "tests exercise a handful of sizes; growth happens at data-dependent points and an off-by-one in memmove or growth shows only for particular size/capacity pairs", "anchors": ["src/arrays.c: data_append, data_pop, data_shift, data_remove, data_reset, data_copy, array_grow"]}
{"id": "C02", "title": "Array writes stay inside the allocated block", "statement": "An append never stores outside the block allocated for the array, for any array whose capacity is not zero; an array whose capacity is zero (as left by copying an empty array or building an empty stepped range) is written out of bounds by the next append.", "quantifier": "for every reachable size/capacity pair and any number of appends", "why_tests_cant": "an out-of-bounds heap store usually does not crash, and the zero-capacity case needs a copy of an empty array followed by an append", "anchors": ["src/arrays.c: data_append, data_append_item, array_grow, data_copy, rangeing"]}
{"id": "C03", "title": "Array handle survives growth", "statement": "After any sequence of appends through a handle, the handle still designates the array (refuted: growth reassigns only the callee's copy of the pointer, so when the allocator moves the block the caller's handle dangles).", "quantifier": "for all append counts and all allocator behaviours (in place or moved)", "why_tests_cant": "most allocators extend small blocks in place, so the dangling handle is only seen for some sizes under some allocators", "anchors": ["src/arrays.c: data_append, data_append_item, data_reserve, array_grow"]}
{"id": "C04", "title": "Iterating an array visits each element once in order", "statement": "foreach over an array that is not modified visits every element exactly once in index order, and foreach_back visits every element exactly once in reverse order; removing the current element inside a forward foreach makes it skip the following one.", "quantifier": "for every array length and contents", "why_tests_cant": "tests iterate over a few fixed arrays; the skip-on-remove behaviour depends on which positions are removed", "anchors": ["include/arrays.h: foreach, foreach_back", "src/arrays.c: data_remove"]}
{"id": "C05", "title": "Tuples are immutable", "statement": "Once an array has been frozen as a tuple, append, pop, shift, remove and reset all raise logic_error and leave contents and size untouched.", "quantifier": "for every tuple and every operation sequence after the freeze", "why_tests_cant": "tests check one operation on one tuple", "anchors": ["src/arrays.c: data_tuple, data_append, data_pop, data_shift, data_remove, data_reset"]}
{"id": "C06", "title": "Substring search returns the first occurrence", "statement": "Searching for a needle in a text returns the offset of its leftmost occurrence, 0 for an empty needle, and -1 exactly when it does not occur; it never reads outside either string.", "quantifier": "for all byte strings needle and text of any length", "why_tests_cant": "unbounded input space; the memchr/memcmp skipping loop has boundary cases at the end of the text", "anchors": ["src/arrays.c: mempos, str_pos, str_has, str_memnstr"]}
{"id": "C07", "title": "Occurrence counting and splitting agree", "statement": "Splitting a string at a delimiter yields one more part than the number of non-overlapping occurrences of the delimiter, no part contains the delimiter, and joining the parts with the delimiter gives back the original string.", "quantifier": "for every non-empty string and every non-empty delimiter", "why_tests_cant": "round-trip over all strings and delimiters, including overlapping and adjacent delimiters, cannot be enumerated", "anchors": ["src/arrays.c: mem_subcount, mem_split_ex, str_split_ex"]}
{"id": "C08", "title": "Replacement is greedy, leftmost and non-overlapping", "statement": "Replacing a needle yields the original text with exactly the leftmost non-overlapping occurrences substituted, of the size that was allocated for it; when the needle does not occur the result is NULL.", "quantifier": "for every text, non-empty needle and replacement of any length", "why_tests_cant": "size computation and copy loop must agree for all overlap patterns, e.g. replacing aa in aaa", "anchors": ["src/arrays.c: str_swap_ex"]}
{"id": "C09", "title": "Repeat produces exactly n copies", "statement": "Repeating a string n times yields the n-fold concatenation and never writes beyond the n*len result buffer although it copies in doubling chunks.", "quantifier": "for every string and every n >= 0", "why_tests_cant": "the doubling memmove has a special last partial chunk whose length depends on n", "anchors": ["src/arrays.c: str_repeat"]}
{"id": "C10", "title": "Padding reaches exactly the requested width", "statement": "Padding a string to a width larger than its length returns a string of exactly that width that contains the original unchanged, with the pad characters cycling through the pad string, split left/right as requested; a width not larger than the string returns the string unchanged.", "quantifier": "for every string, non-empty pad string, width and mode (left, right, both)", "why_tests_cant": "parity of the missing width and the modulus of the pad length interact; infinitely many combinations", "anchors": ["src/arrays.c: str_pad"]}
{"id": "C11", "title": "Sorting returns an ordered permutation", "statement": "Sorting an array in memory yields a permutation of the input that is ordered with respect to the supplied comparison, for any total preorder comparison, and leaves arrays of zero or one element alone.", "quantifier": "for every array length, contents, element size and every total preorder", "why_tests_cant": "the gap sequence is skipped depending on the length; correctness of the final pass must be shown for all lengths", "anchors": ["src/arrays.c: memsort"]}
{"id": "C12", "title": "Integer formatting is the decimal representation", "statement": "Formatting a non-negative integer below 2^31 produces exactly its decimal digits with no leading zero and a terminating NUL; negative numbers lose their sign and values of magnitude 2^31 and above are corrupted (refuted in general).", "quantifier": "for every integer in the stated range, and witnesses outside it", "why_tests_cant": "2^31 inputs and a packed two-digits-at-a-time table", "anchors": ["src/arrays.c: utoa2p, utoa2p_ex, str_itoa"]}
{"id": "C13", "title": "Base64 round trip", "statement": "Decoding the base64 encoding of any string gives back the string, and the encoding has length 4*ceil(n/3) and uses only the base64 alphabet.", "quantifier": "for every NUL-free byte string of any length and sufficient buffers", "why_tests_cant": "all lengths modulo 3 and all byte values interact through the bit packing", "anchors": ["src/arrays.c: str_encode64, str_decode64, str_base64_len, str_is_base64"]}
{"id": "C14", "title": "Base64 never overruns the destination", "statement": "Encoding and decoding either refuse (NULL) or write, terminator included, at most the destination size the caller declared; decoding refuses any input with a character outside the alphabet or whose length is not a multiple of four.", "quantifier": "for every source string and every declared destination size", "why_tests_cant": "needs all source/destination length pairs; the expected-length formulas are conservative approximations", "anchors": ["src/arrays.c: str_encode64, str_decode64, str_base64_len"]}
{"id": "C15", "title": "Bounded copy truncates safely", "statement": "The bounded string copy writes at most len bytes, always NUL-terminates when len > 0, and the result is the longest prefix of the source that fits.", "quantifier": "for every source, destination and len", "why_tests_cant": "boundary conditions at len 0, 1 and source length +/- 1 for arbitrary lengths", "anchors": ["src/arrays.c: str_lcpy"]}
{"id": "C16", "title": "Case-insensitive comparison is an equivalence on ASCII case", "statement": "The length-aware case-insensitive comparison returns 0 exactly when both strings have the same length and agree character by character up to ASCII case, and its sign is antisymmetric.", "quantifier": "for all pairs of byte strings", "why_tests_cant": "quadratic infinite input space", "anchors": ["src/arrays.c: binary_strcasecmp, str_case_equal, tolower_map"]}
{"id": "C17", "title": "Work queue of a pool thread is a FIFO for the consumer", "statement": "Used by one thread, a task queue with push, steal and take behaves as a double-ended sequence: steal removes the oldest, take removes the newest, and growing when full keeps all queued tasks in order.", "quantifier": "for every initial size >= 1, every operation sequence with take only on a non-empty queue, any number of resizes", "why_tests_cant": "index arithmetic modulo the current size must stay aligned across every resize point", "anchors": ["src/deque.c: deque_init, deque_push, deque_take, deque_steal, deque_resize"]}
{"id": "C18", "title": "Each task is handed out at most once under concurrency", "statement": "With one producer pushing and taking and any number of threads stealing concurrently, no task is returned to two callers and every task returned had been pushed; every pushed task not yet returned is still in the queue.", "quantifier": "for every interleaving of the atomic steps of any number of stealing threads and one owner", "why_tests_cant": "interleavings cannot be enumerated by tests, and the race on the last element has a tiny window", "anchors": ["src/deque.c: deque_push, deque_take, deque_steal"]}
{"id": "C19", "title": "Growing the queue is safe for concurrent stealers", "statement": "A stealing thread never reads a queue buffer that the owner has released (refuted: the buffer is freed at once although a stealer may have loaded its address).", "quantifier": "for all interleavings of one resize and one steal", "why_tests_cant": "use-after-free window between two instructions of another thread", "anchors": ["src/deque.c: deque_resize, deque_steal"]}
{"id": "C20", "title": "Taking from an empty queue reports empty", "statement": "Taking from an empty queue returns the empty marker and leaves the queue usable (refuted for a fresh queue: the index wraps around to the largest integer, garbage is returned and the queue is corrupted).", "quantifier": "for every empty queue state", "why_tests_cant": "the wrap happens only when the bottom index is zero, i.e. before the first push", "anchors": ["src/deque.c: deque_take"]}
{"id": "C21", "title": "Timers fire in due-time order, once, and never early", "statement": "The pending timers of a loop are always ordered by due time; each loop iteration fires at most one timer, the one with the earliest due time, only if its due time has been reached; a fired one-shot timer never fires again and a repeating one is re-queued only through repeat.", "quantifier": "for every sequence of timer creations, repeats and loop iterations and every monotone or non-monotone clock reading", "why_tests_cant": "depends on clock values and insertion orders; wall-clock tests are flaky and finite", "anchors": ["src/events.c: events_actor_timeout, events_repeat_actor, events_clear_actor, events_execute"]}
{"id": "C22", "title": "Timer delay is honoured for every delay value", "statement": "A timer created with delay ms is due ms milliseconds after creation (refuted for ms >= 2148: the multiplication is done in 32-bit int and overflows).", "quantifier": "for every int delay", "why_tests_cant": "tests use short delays", "anchors": ["src/events.c: events_actor_timeout"]}
{"id": "C23", "title": "Descriptor timeouts never fire early and never get lost", "statement": "A descriptor whose timeout is set to s seconds gets its timeout callback exactly once, not before (about) s seconds have elapsed and not later than one wheel slot after the slot it was filed under, unless the timeout is cleared or replaced first; after clearing, no timeout callback is delivered.", "quantifier": "for every set of descriptors below the maximum, every timeout value below the wheel span and every clock advance", "why_tests_cant": "bit-packed two-level wheel: an error affects only particular descriptor numbers or slots", "anchors": ["src/events.c: events_set_timeout, events_handle_timeout_internal, events_init_loop_internal"]}
{"id": "C24", "title": "Timeouts beyond the wheel span", "statement": "A timeout longer than 127 wheel slots is honoured in full (refuted: it is silently shortened to 127 slots).", "quantifier": "for every timeout value", "why_tests_cant": "requires waiting longer than the maximum timeout configured for the loop", "anchors": ["src/events.c: events_set_timeout"]}
{"id": "C25", "title": "Wheel summary bits are exact", "statement": "A summary bit of the timeout wheel is set exactly when the word it summarises has some descriptor bit set, and a descriptor's bit is set in exactly the slot recorded for it; the table sizes cover every descriptor below the maximum.", "quantifier": "for every sequence of set/clear operations over all descriptors and slots and every maximum descriptor count", "why_tests_cant": "invariant over all states of two bit matrices", "anchors": ["src/events.c: events_set_timeout, events_init (timeout_vec_size)", "include/async_io.h: EVENTS_TIMEOUT_VEC_OF, EVENTS_RND_UP"]}
{"id": "C26", "title": "Kernel interest matches what was registered", "statement": "After registering, changing or polling descriptors, every registered descriptor with a non-empty read/write interest is watched by the kernel with exactly that interest.", "quantifier": "for every sequence of add, set_event and del calls over any descriptors", "why_tests_cant": "depends on the history of MOD/ADD fallbacks and deferred deletes", "anchors": ["src/epoll.c: events_update_internal, events_poll_once_internal", "src/events.c: events_add, events_del, events_set_event"]}
{"id": "C27", "title": "Callbacks are delivered only to registered descriptors", "statement": "A readiness callback is invoked only for a descriptor currently registered with that loop and with a non-empty interest, with exactly the read/write/closed flags the kernel reported; a stale kernel event for an unregistered descriptor removes it from the kernel set and calls nothing.", "quantifier": "for every batch of kernel events, every registration state and every callback behaviour (callbacks may add or remove descriptors)", "why_tests_cant": "stale-event races need a descriptor removed by an earlier callback of the same batch", "anchors": ["src/epoll.c: events_poll_once_internal", "src/events.c: events_del"]}
{"id": "C28", "title": "Descriptor count is balanced", "statement": "The loop's count of active descriptors equals the number of descriptors registered with it (holds when no descriptor is registered twice; refuted otherwise, registering a registered descriptor counts it again and the loop never becomes idle).", "quantifier": "for every sequence of add and del calls", "why_tests_cant": "double registration is a usage pattern tests avoid", "anchors": ["src/events.c: events_add, events_del, events_once, events_is_running"]}
{"id": "C29", "title": "Run queue is first-in first-out", "statement": "Tasks made ready are run in the order they became ready: the intrusive doubly linked run queue, under enqueue of a task not already in the queue, dequeue of the head and unlinking of any member, always represents a duplicate-free sequence with correct forward and backward links.", "quantifier": "for every sequence of enqueue/dequeue/unlink operations on any number of tasks", "why_tests_cant": "pointer-level invariant over unbounded list shapes", "anchors": ["src/events.c: enqueue, dequeue, task_dequeue"]}
{"id": "C30", "title": "Making a queued task ready again is harmless", "statement": "Enqueuing a task that is already in the run queue keeps all queued tasks reachable (refuted: the tasks between it and the tail are lost or a cycle is created).", "quantifier": "for every queue state", "why_tests_cant": "needs a task to be resumed twice before it runs", "anchors": ["src/events.c: enqueue, resume, tasks_wait, yielded, wait_cb"]}
{"id": "C31", "title": "Sleeping tasks wake in order and not early", "statement": "The sleep queue is always ordered by wake time; each pass of the wait system moves exactly the due (or halted) prefix to the run queue in that order, and a task is never woken before its wake time unless halted.", "quantifier": "for every set of sleeping tasks and every clock value", "why_tests_cant": "wall-clock dependent", "anchors": ["src/events.c: add_timeout, delay, task_wait_system"]}
{"id": "C32", "title": "Elapsed time reported by delay", "statement": "delay returns the elapsed milliseconds (refuted for sleeps longer than about 4.29 s: nanoseconds are truncated to 32 bits before the division).", "quantifier": "for every elapsed time", "why_tests_cant": "tests sleep for fractions of a second", "anchors": ["src/events.c: delay"]}
{"id": "C33", "title": "Round-robin scheduling is fair", "statement": "With n ready tasks that only yield or finish, every n consecutive scheduler steps run each of them, in the same cyclic order; a finished task is never run again.", "quantifier": "for every number of tasks and every mixture of yield/finish behaviours", "why_tests_cant": "fairness is a property of all infinite schedules", "anchors": ["src/events.c: tasks_schedulering, yield, task_done, task_push"]}
{"id": "C34", "title": "Task results are stored once under unique ids", "statement": "Every task created with a result gets an id no other task has; after it finishes with a non-NULL value, asking for that id returns that value from then on whatever other tasks are created or finish; before that the empty value is returned; growing the result table keeps all results and never writes outside it.", "quantifier": "for every number of tasks and every interleaving of creation, completion and queries in one thread", "why_tests_cant": "table growth points depend on how many tasks were created since start-up", "anchors": ["src/events.c: tasks_create_result, tasks_result_set, results_for, task_is_ready, task_push"]}
{"id": "C35", "title": "Result table growth is safe across threads", "statement": "Creating results concurrently never hands out an id twice and never loses a result or touches memory outside the table (the ids hold; the rest holds for one creator, and for any number of creators until the id that opens the next block of the table is due; at every block boundary two creators can write to freed memory, write past the end, or leave a freed table in use).", "quantifier": "for every table block size, every number of threads and every interleaving of their shared accesses", "why_tests_cant": "race window of a few instructions at table growth", "anchors": ["src/events.c: tasks_create_result"]}
{"id": "C36", "title": "Threaded tasks are spread evenly over the pool", "statement": "Each started threaded task is assigned to exactly one pool thread; after any number of starts the numbers assigned to any two pool threads differ by at most one.", "quantifier": "for every pool size and every number of starts", "why_tests_cant": "needs all counts and pool sizes", "anchors": ["src/events.c: task_push, go, enqueue_tasks", "src/future.c: queue_work, thrd pool selection"]}
{"id": "C37", "title": "A wait group's tasks are each posted exactly once", "statement": "Posting a threaded wait group gives each pool thread its share and leaves the rest to the caller, so that every task of the group is owned by exactly one thread, provided at least the declared capacity of tasks was added; with fewer tasks than the shares need the poster dereferences an empty slot.", "quantifier": "for every capacity, number of threads and number of tasks", "why_tests_cant": "integer division shares depend on capacity and core count", "anchors": ["src/events.c: waitgroup, tasks_poster"]}
{"id": "C38", "title": "Waiting on a group collects every finished task exactly once", "statement": "Waiting on a task group terminates its loop only when every member has terminated; each member is removed exactly once and its result id is reported exactly once if it has a result.", "quantifier": "for every group size and every pattern of which members have terminated at each pass", "why_tests_cant": "removal during iteration skips elements; the outer loop must compensate for all patterns", "anchors": ["src/events.c: tasks_wait, waitfor", "src/future.c: queue_wait"]}
{"id": "C39", "title": "Generators deliver every yielded value once in order", "statement": "The sequence of values a consumer receives from a generator is exactly the sequence the generator yielded, with no loss, duplication or reordering, followed by the empty value when the generator has finished.", "quantifier": "for every sequence of yielded values and every schedule of producer and consumer steps", "why_tests_cant": "depends on the schedule", "anchors": ["src/events.c: generator, yielding, yielded"]}
{"id": "C40", "title": "try/catch/finally control flow", "statement": "For every nesting of try blocks: if the body does not throw, no catch runs and finally runs once; if it throws an exception a catch names, that catch runs once, then finally once, and nothing propagates; otherwise finally runs once and the exception propagates to the enclosing block; an exception thrown by a catch body still runs finally and replaces the original.", "quantifier": "for every program built from throw, sequencing, and nested try/catch/finally of any depth", "why_tests_cant": "structural induction over unbounded nesting; setjmp state machine", "anchors": ["src/except.c: try_next, try_finish, try_catching, try_finallying, ex_throw", "include/except.h: try, catch, finally"]}
{"id": "C41", "title": "finally runs also after a conditional handler", "statement": "A block with a catch-if handler that does not mark the exception as caught still runs its finally part, and the handler runs once (refuted: the handler runs twice and finally not at all).", "quantifier": "for the stage machine of every such block", "why_tests_cant": "needs an uncaught exception inside a guard block", "anchors": ["src/except.c: try_catching, try_next", "include/except.h: catch_if, guarded"]}
{"id": "C42", "title": "Deferred functions run in reverse order exactly once", "statement": "On scope exit, normal or by exception, every deferred function runs exactly once in reverse order of registration, and a second unwinding of the same scope runs nothing.", "quantifier": "for every list of deferred functions", "why_tests_cant": "unbounded number of deferrals", "anchors": ["src/except.c: scope_unwind, scope_deferred", "src/events.c: deferred_unwind, deferred, _defer_init"]}
{"id": "C43", "title": "Protected resources are released innermost first on a throw", "statement": "When an exception is thrown, the protected resources of the throwing block are released in reverse order of protection, each at most once, and those of outer blocks only if the exception reaches them.", "quantifier": "for every stack of protected resources", "why_tests_cant": "unbounded stacks", "anchors": ["src/except.c: ex_protect_ptr, ex_unprotect_ptr, ex_unwind_stack, ex_throw"]}
{"id": "C44", "title": "A promise delivers the value that was set", "statement": "Waiting on a promise returns only after it has been set, and then get returns exactly the value of the last set before the read, in every interleaving of one setter and any number of waiters; the done flag is never observed before the value.", "quantifier": "for every interleaving of lock-level steps", "why_tests_cant": "interleavings", "anchors": ["src/future.c: promise_set, promise_wait, promise_get, promise_erred"]}
{"id": "C45", "title": "Job queue of a worker thread preserves order and loses nothing", "statement": "Jobs submitted to one pool thread are executed in submission order, each exactly once, for every interleaving of submissions and executions.", "quantifier": "for every number of jobs and every interleaving", "why_tests_cant": "interleavings and unbounded queue lengths", "anchors": ["src/future.c: enqueue_promise, queue_work", "src/events.c: __future_wrapper"]}
{"id": "C46", "title": "queue_wait calls the continuation once per job", "statement": "Waiting for a set of submitted jobs calls the continuation exactly once for each job, only after that job has completed, and returns if every job completes; each job is released once if no job is named twice (refuted otherwise).", "quantifier": "for every number of jobs and every completion order", "why_tests_cant": "completion orders are exponential in the number of jobs", "anchors": ["src/future.c: queue_wait"]}
{"id": "C47", "title": "A job result can be collected only once", "statement": "The first collection of a job's result returns its value; any later collection raises logic_error, and each job record is released exactly once (the release part is refuted when a collected job is passed to queue_wait).", "quantifier": "for every job and any number of collections", "why_tests_cant": "misuse path", "anchors": ["src/future.c: queue_get, queue_is_valid"]}
{"id": "C48", "title": "Pseudo descriptors are unique while open", "statement": "Every allocation of a pseudo descriptor returns one that is not currently in use (or -1, only when nothing suitable is free), marks only that one used, and closing frees only it and closes only its own descriptors; growing the table keeps every open descriptor (refuted parts: closing a finished child passes its process number to close; a handle nothing was attached to is never freed and closing it closes an unrelated descriptor; a handle standing for itself is closed twice; a full table is not enlarged).", "quantifier": "for every sequence of allocations and closes and every table size", "why_tests_cant": "exhaustion and growth points need hundreds of descriptors", "anchors": ["src/os_unix.c: events_new_fd, events_free_fd, events_valid_fd, events_get_fd, grow_ioTable"]}
{"id": "C49", "title": "Signal handlers: the most recent registration is the one called", "statement": "Delivering a signal calls exactly the callback last registered for it and not since removed, and takes the default action when there is none; removing a signal stops its callback and the loop ends when no signal is left (proved for programs that remove a signal from its own callback; refuted otherwise: removal from elsewhere reports success and changes nothing but a counter, after which removal from the callback is undefined; a callback left by an exception makes the next signal end the process; registering twice keeps the loop alive for ever; stale entries fill the table).", "quantifier": "for every sequence of registrations and removals", "why_tests_cant": "needs a specific order of adds and removes across different signals", "anchors": ["src/os_unix.c: events_add_signal, events_del_signal, events_sig_handler"]}
{"id": "C50", "title": "Directory-change records are all delivered in order", "statement": "Given the bytes the kernel returned for a watch, the handler is called exactly once, in order, for each record that has a name and a recognised action, with exactly that kind of change and the full path, and the walk always ends at the end of the buffer without reading past it (refuted: records about the watched directory itself are never reported; stepping with inotify_next never reaches the following record).", "quantifier": "for every well-formed sequence of variable-length records", "why_tests_cant": "variable-length records: infinitely many layouts", "anchors": ["src/os_unix.c: inotify_handler, inotify_next"]}
{"id": "C51", "title": "Asynchronous write sends all bytes in order", "statement": "An asynchronous write hands the kernel exactly the caller's bytes, in order, with nothing skipped or repeated, however the kernel splits it into partial writes, and returns the number of bytes accepted.", "quantifier": "for every buffer and every sequence of partial-write results", "why_tests_cant": "partial-write patterns are controlled by the kernel", "anchors": ["src/async_io.c: async_write"]}
{"id": "C52", "title": "File copy preserves contents", "statement": "Copying a file yields a destination whose contents equal the source for every split of reads and writes, or reports failure.", "quantifier": "for every file contents and every sequence of short reads/writes", "why_tests_cant": "short-write patterns cannot be provoked reliably", "anchors": ["src/os_unix.c: os_copyfile"]}
{"id": "C53", "title": "Deadline arithmetic is exact and normalised", "statement": "Adding milliseconds to a time value yields a normalised time (nanoseconds below 10^9) that is exactly that much later, and splitting a millisecond sleep into seconds and nanoseconds loses nothing.", "quantifier": "for every time and every millisecond count", "why_tests_cant": "carry boundary at one second", "anchors": ["src/os_unix.c: _timespec_addms, os_sleep"]}
{"id": "C54", "title": "Command-line option lookup", "statement": "Looking up a flag returns the argument following its first exact occurrence (or the text after = for single flags) provided nothing before it looks like a help request; it never reads beyond the argument vector (refuted when the flag is last).", "quantifier": "for every argument vector", "why_tests_cant": "unbounded argument vectors; help detection is a reversed substring test that also fires on fragments such as - or e", "anchors": ["src/getopt.c: getopt_has, getopts, getopt_message_set"]}
{"id": "C55", "title": "URI parsing splits the text into its components", "statement": "Parsing a well-formed absolute URI assembled from scheme, user, password, host, port, path, query and fragment returns exactly these components, and for any text at all the parser never reads outside the input (refuted for the public call: hosts without a dot are refused unless they are the machine's name; any fragment of the scheme list is accepted as a scheme; text after a port's digits is ignored).", "quantifier": "for every choice of components over the allowed characters, any lengths", "why_tests_cant": "grammar-based infinite input space with optional components", "anchors": ["src/arrays.c: url_parse_ex2, parse_uri, parse_uri_ex, binary_strcspn, str_memrchr"]}
{"id": "C56", "title": "Address text with a port keeps the port", "statement": "Parsing address text yields the address and the port given in the text, or fails: dotted quad, bracketed IPv6 address or resolvable host name with :port, or a unix:// path; other text is refused (refuted: an operator-precedence slip turns any text starting with a number that is not a complete address:port into port 1 on the wildcard address; octets above 255 spill into their neighbours; ports above 65535 wrap; signs are accepted; numbers of 2^32 and more are undefined).", "quantifier": "for every dotted quad, bracketed IPv6 text, host name, path, resolver answer and port", "why_tests_cant": "tests may check only the address part", "anchors": ["src/async_io.c: async_parse_addr"]}
{"id": "C57", "title": "Writing a file replaces its contents", "statement": "After a successful whole-file write, reading the file back returns exactly the written text (refuted when the file existed with longer contents: the old tail remains).", "quantifier": "for every old and new contents", "why_tests_cant": "tests write to fresh files", "anchors": ["src/async_io.c: fs_writefile, fs_readfile"]}
{"id": "C58", "title": "Custom allocators are installed all together or not at all", "statement": "Installing allocator functions either fails leaving all four unchanged (if any is NULL) or installs all four; afterwards every allocation, reallocation and release goes through the installed functions and release preserves the error number.", "quantifier": "for every combination of functions", "why_tests_cant": "combinations of NULL arguments and histories", "anchors": ["src/events.c: events_set_allocator, events_malloc, events_realloc, events_calloc, events_free"]}
{"id": "C59", "title": "Start-up and shutdown are idempotent", "statement": "Calling start-up again without shutdown changes nothing and returns 0; calling shutdown again changes nothing; every start-up/shutdown history releases each global resource at most once.", "quantifier": "for every sequence of init/deinit calls", "why_tests_cant": "double release histories", "anchors": ["src/events.c: events_init, events_deinit"]}
{"id": "C60", "title": "Aligned allocation stays inside its block", "statement": "The aligned buffer returned for a size lies completely inside the block obtained from the allocator and is aligned to the cache line, for every address the allocator returns and every random page offset.", "quantifier": "for every size, base address and random value", "why_tests_cant": "depends on addresses and random numbers", "anchors": ["src/events.c: events_memalign"]}
{"id": "C61", "title": "Trimming removes exactly the surrounding blanks", "statement": "Trimming a string that contains a non-blank character leaves exactly the text between its first and last non-blank characters; on a string that is empty or only blanks the routine reads (and may write) before the start of the caller's buffer.", "quantifier": "for every NUL-free string and every amount of leading and trailing white space", "why_tests_cant": "the out-of-bounds read of the blank case rarely crashes and depends on the bytes that happen to precede the buffer", "anchors": ["src/arrays.c: trim, ltrim, rtrim"]}
{"id": "C62", "title": "Two-pattern search reports one of the two patterns", "statement": "The two-pattern search should be true exactly when one of the two patterns occurs in the text (refuted: it accepts any window whose every byte matches either pattern at that position, and only windows of the first pattern's length).", "quantifier": "for every text and every pair of patterns", "why_tests_cant": "tests try texts containing one pattern in full; the false positives need an interleaving of the two", "anchors": ["src/arrays.c: str_has_either"]}
{"id": "C63", "title": "Joining command-line arguments does not depend on earlier calls", "statement": "Joining arguments from a start index with a delimiter yields the delimiter-joined text; on the first call this holds, but a later call returns a prefix of the earlier text followed by the new one, because the static buffer is never cleared.", "quantifier": "for every argument vector, delimiter and history of earlier calls", "why_tests_cant": "a test process joins its arguments once; the defect needs a second call in the same process", "anchors": ["src/arrays.c: str_cat_argv"]}
{"id": "C64", "title": "Bounded case-insensitive equality compares the first len characters", "statement": "The bounded case-insensitive equality is true exactly when len is positive and the first len characters of both strings agree up to ASCII case, strings shorter than len having to be equal in full; neither string is read past its terminator.", "quantifier": "for every pair of NUL-free strings and every len", "why_tests_cant": "reads past the shorter string's terminator are silent", "anchors": ["src/arrays.c: str_case_equal, str_is_case"]}
{"id": "C65", "title": "Tasks spawned concurrently by several threads are all run", "statement": "When two threads spawn threaded tasks at the same time, every spawned task reaches the pool thread it was assigned to (refuted: the queue supports a single producer; two producers can store into the same slot and one task is lost).", "quantifier": "for every interleaving of two or more spawning threads", "why_tests_cant": "the window is a few instructions between reading and publishing the bottom index", "anchors": ["src/events.c: enqueue_tasks, task_push", "src/deque.c: deque_push"]}
{"id": "C66", "title": "Timers due at the same time fire in creation order", "statement": "Two timers with equal due time fire in the order they were created (refuted: the newest fires first).", "quantifier": "for every list of pending timers", "why_tests_cant": "needs identical nanosecond due times", "anchors": ["src/events.c: events_actor_timeout"]}
{"id": "C67", "title": "Repeating and clearing timers is memory safe at any time", "statement": "Any order of repeat and clear on an existing timer, inside or outside its callback, leaves the timer list intact and uses no released timer (refuted; proved under the rules stated in C21).", "quantifier": "for every sequence of timer operations", "why_tests_cant": "tests follow the intended call pattern", "anchors": ["src/events.c: events_repeat_actor, events_clear_actor, events_execute"]}
{"id": "C68", "title": "A task waiting for a sleeping task is resumed once", "statement": "The task attached to a sleeping task is made ready exactly once, when that sleep ends (refuted: the attachment is not cleared, so each later sleep of the same task makes the waiter ready again and may corrupt the queues).", "quantifier": "for every sequence of sleeps and wake passes", "why_tests_cant": "needs a worker that sleeps at least twice while its waiter is queued or asleep", "anchors": ["src/events.c: task_wait_system, tasks_wait"]}
{"id": "C69", "title": "Loops created with a maximum timeout of zero", "statement": "A loop created with a maximum timeout of 0 can still be run and accept timeouts (refuted: setting a timeout divides by zero, and an iteration never finishes handling timeouts).", "quantifier": "for every state of such a loop, every descriptor and every timeout value", "why_tests_cant": "the failing iteration does not terminate, so a test can only time out", "anchors": ["src/events.c: events_init_loop_internal, events_set_timeout, events_handle_timeout_internal"]}
{"id": "C70", "title": "Hangup, error and path events are reported distinctly and completely", "statement": "A hangup is distinguishable from readable data and from a timeout, an error on a descriptor is reported to its callback, and every event of a batch is handled (refuted: a hangup shows the read and timeout bits, an error-only event calls nothing and stays pending, and a path-watch event discards the rest of the batch).", "quantifier": "for every kernel event mask, registration state and rest of batch", "why_tests_cant": "needs error-only readiness or several descriptors ready in one poll together with a path watch", "anchors": ["include/events.h: EVENTS_CLOSED", "src/epoll.c: events_poll_once_internal"]}
{"id": "C71", "title": "Socket timeouts are split exactly", "statement": "Setting a socket timeout in milliseconds passes the kernel seconds and microseconds that add up to exactly that time, microseconds below one million (refuted: above about 35 minutes the intermediate product overflows).", "quantifier": "for every int number of milliseconds", "why_tests_cant": "tests use timeouts of a few seconds", "anchors": ["src/events.c: events_tcp_timeout"]}
{"id": "C72", "title": "Closing a file through the pool closes it", "statement": "Closing an open descriptor through the job pool closes it and returns 0, and closing one that is not open returns -1 (refuted: a per-worker double-close guard compares numbers only, so with two or more workers a correctly reopened file is sometimes left open and -1 returned).", "quantifier": "for every program of opens, closes and other jobs and every pool size", "why_tests_cant": "depends on which worker a job lands on and on descriptor number reuse", "anchors": ["src/async_io.c: fs_open, fs_close", "src/future.c: futures_pool, queue_work"]}
{"id": "C73", "title": "Changes are reported under the directory that was watched", "statement": "Whatever set of directories is watched, a change is reported with the path of the directory whose watch it belongs to (proved while the kernel's watch numbers are free in the descriptor table; refuted for the watch whose number equals that of the notification descriptor: its path is read through NULL).", "quantifier": "for every set of watches and every table", "why_tests_cant": "the collision needs as many directories as the descriptor's number", "anchors": ["src/os_unix.c: __inotify_add_watch, inotify_recursive, inotify_handler, events_new_fd"]}
{"id": "C74", "title": "A pool thread waits for every task of its share", "statement": "After a threaded wait group is posted, each pool thread collects every task it was given exactly once, after that task ended (refuted for every share of two or more: the loop looks only at the last task, and reads it after freeing it).", "quantifier": "for every share size and every pattern of completion", "why_tests_cant": "the freed task usually still looks ended, so small tests pass", "anchors": ["src/events.c: __thrd_waitfor", "include/arrays.h: foreach"]}
{"id": "C75", "title": "Starting a threaded task uses only initialised data", "statement": "Starting a threaded task picks a pool thread and wakes that thread, also while a wait group is open (refuted for an open wait group: the thread number read was never written).", "quantifier": "for every pool and every state of the result table", "why_tests_cant": "freshly allocated memory is usually zero", "anchors": ["src/events.c: go, task_push, tasks_create_result, results_tid"]}
{"id": "C76", "title": "A job record outlives its last use", "statement": "After a job's result is collected, its record is released only when the worker no longer uses it (refuted: the worker reads the record after marking it done, and the collector may release it as soon as it is marked).", "quantifier": "for every interleaving of worker and collector", "why_tests_cant": "window of a few instructions", "anchors": ["src/events.c: __future_wrapper", "src/future.c: queue_get, promise_set"]}
{"id": "C77", "title": "Starting to collect from a generator leaves other tasks alone", "statement": "The first collection from a generator that has not run yet keeps every other queued task in the run queue and lets the collector run again (refuted: tasks queued after the generator are lost, and if the generator is the only queued task the collector is never run again).", "quantifier": "for every run queue containing the generator task", "why_tests_cant": "the test always has a system task queued in front of the generator, which happens to mend the list", "anchors": ["src/events.c: generator, yielded, enqueue, dequeue"]}
{"id": "C78", "title": "Leaving a try block early is safe", "statement": "Leaving the body of a try block by break (or return) still runs its finally clause, and later throws reach the enclosing block (refuted: finally is skipped and the next throw jumps to the block that was left).", "quantifier": "for every handler list and finally clause", "why_tests_cant": "no test leaves a try block by break or return; the stale jump often appears to work", "anchors": ["include/except.h: try, finally", "src/except.c: try_next, try_finish, ex_throw"]}
{"id": "C79", "title": "A guard block runs its deferred functions once and hands an exception on", "statement": "Ending a guard block, normally or by an exception, runs its deferred functions once in reverse order and takes the guard down; an exception recovered by a deferred function ends there, any other is thrown on (refuted: an escaping exception takes the freed guard down again; with fenced memory a recovered exception is thrown on and the guard stays).", "quantifier": "for every list of deferred functions and every choice of recovering functions", "why_tests_cant": "the read of the freed guard usually sees the old contents", "anchors": ["include/except.h: guard, guarded", "src/except.c: guard_init, guard_reset, guard_set, guard_caught, ex_unwind_stack"]}
{"id": "C80", "title": "Fenced memory is released when an exception leaves", "statement": "Memory fenced inside a try block is released when the block throws (refuted: the release function is called with the contents of the first word of the memory).", "quantifier": "for every memory contents", "why_tests_cant": "tests fence memory whose first word is not a usable pointer", "anchors": ["src/except.c: fence, ex_protect_ptr, ex_unwind_stack"]}
{"id": "C81", "title": "Integer and character ranges", "statement": "range(a, b) holds a, a+1, ..., b-1; range_char(text) one element per byte; rangeing(a, b, s) the values a, a+s, ... below b, for every a, b, s that fits an int (refuted for backward ranges, for very wide ones, for steps that are not positive and for long stepped ranges when growth moves the block).", "quantifier": "for every start, stop, step and text, every initial capacity and every allocator choice", "why_tests_cant": "tests try a few short upward ranges that fit the initial capacity", "anchors": ["src/arrays.c: range, rangeing, range_char"]}
{"id": "C82", "title": "Exploding a text into an array", "statement": "str_explode returns an array whose elements are exactly the parts of the text between occurrences of the delimiter (refuted: a text without the delimiter gives an empty array; more parts than a fresh array holds use a freed block if growth moves it; an empty delimiter never ends).", "quantifier": "for every text, delimiter, initial capacity and allocator behaviour", "why_tests_cant": "tests explode one or two short sentences", "anchors": ["src/arrays.c: str_explode, data_append_item"]}
{"id": "C83", "title": "Splitting binary data", "statement": "mem_split_ex reports the number of parts between occurrences of the delimiter and points at each part, followed by a zero byte, for arbitrary bytes including zeros; an empty delimiter never ends (refuted).", "quantifier": "for every byte sequence and delimiter", "why_tests_cant": "the number of byte sequences is unbounded; tests use printable text", "anchors": ["src/arrays.c: mem_split_ex"]}
{"id": "C84", "title": "Concatenation and letter case", "statement": "str_cat returns a fresh string that is its arguments one after the other; str_toupper and str_tolower change exactly the ASCII letters of the string in place and nothing behind its end.", "quantifier": "for every list of strings and every buffer", "why_tests_cant": "unbounded inputs", "anchors": ["src/arrays.c: str_cat_ex, str_toupper, str_tolower"]}
{"id": "C85", "title": "Host texts", "statement": "Parsing [scheme://]host[:port] yields host text, IPv4 address and port, and leaves the caller's text alone (refuted: without autofree freed memory is read; hosts below seven characters lose their port; scheme://address without port returns a wild pointer; [address]:port cuts the caller's text; shortened class C addresses contain unwritten bytes; trailing text and numbers of 2^32 and above are accepted).", "quantifier": "for every host, scheme, port text and both ownership modes", "why_tests_cant": "tests parse a handful of complete addresses", "anchors": ["src/arrays.c: str_parseip"]}
{"id": "C86", "title": "Path components", "statement": "pathinfo splits a path into directory, last directory component, file name and extension (refuted: a file without directory is its own directory; a path ending in slashes is shortened in the caller's memory).", "quantifier": "for every path", "why_tests_cant": "tests use one path", "anchors": ["src/arrays.c: pathinfo, str_memrchr"]}
{"id": "C87", "title": "Looking at a queued task", "statement": "deque_peek(i) returns the i-th waiting task and NULL if there is none (refuted: after a removal it still shows the removed task, and one past the last slot it shows the first again); indices that are negative or larger give NULL.", "quantifier": "for every history of pushes, every queue size and index", "why_tests_cant": "nothing in the test-suite looks at a full or drained queue by index", "anchors": ["src/deque.c: deque_peek"]}
{"id": "C88", "title": "BSD and macOS: the kernel watches what was asked for", "statement": "On kqueue systems, once a poll begins, the kernel watches every registered descriptor for exactly the events last asked for with events_add or events_set_event, and the table of pending changes is never overrun (refuted: asking for both directions watches reading only; widening from writing to both stops the writing; a deleted descriptor stays watched; path watches never reach the kernel; registering twice loses another descriptor's registration).", "quantifier": "for every program of registrations, changes, deletions, polls, opens and closes, any number of descriptors and any lengths", "why_tests_cant": "the change list batches over unboundedly many descriptors and histories; tests register one or two descriptors once", "anchors": ["src/kqueue.c: apply_pending_changes, events_update_internal, events_poll_once_internal", "src/events.c: events_add, events_del, events_set_event", "src/os_unix.c: kqueue_add_watch"]}
{"id": "C89", "title": "BSD and macOS: callbacks of a poll", "statement": "On kqueue systems a poll calls the callbacks of exactly the registered descriptors with events, in order, and tells each whether it can read or write; the end of the stream is told as EVENTS_CLOSED (refuted: it is never told; a writer's callback is called with no event at all).", "quantifier": "for every program and every batch of events", "why_tests_cant": "the events a kernel reports and the programs around them are unbounded", "anchors": ["src/kqueue.c: events_poll_once_internal"]}
{"id": "C90", "title": "Allocator: a block holds what was asked for", "statement": "rpmalloc and rpcalloc return a block whose usable size is at least the number of bytes asked for and whose address is a multiple of 16; the usable size stays at least that as long as the block is held, and the bytes up to the usable size belong to no other block (refuted for sizes close to 2^64, for products of 2^64 and more, and from 16 TiB on).", "quantifier": "for every size up to 8 TiB and every earlier sequence of allocations, reallocations and frees, by the owner or by other threads", "why_tests_cant": "sizes, size classes, alignments and histories of the heap are unbounded", "anchors": ["src/rpmalloc.c: rpmalloc, rpcalloc, rpmalloc_usable_size, _rpmalloc_adjust_size_class"]}
{"id": "C91", "title": "Allocator: blocks in use never overlap", "statement": "At any time the blocks a program holds share no byte with each other, nor with the free blocks and the links the allocator keeps in them.", "quantifier": "for every sequence of allocations, aligned allocations, reallocations and frees, by the owner or other threads, and every choice among cached and fresh spans", "why_tests_cant": "an overlap needs a particular history of spans moving between lists, of which there are unboundedly many", "anchors": ["src/rpmalloc.c: _rpmalloc_allocate, _rpmalloc_deallocate, _rpmalloc_span_initialize_new"]}
{"id": "C92", "title": "Allocator: alignment is honoured", "statement": "Aligned allocation returns a block aligned as asked for that holds the bytes asked for; up to a page inside a larger block, above it in pages of its own whose span is found from the pointer; the search for suitable pages always ends and succeeds while the system maps pages; alignments of 64 KiB or more, or no powers of two above a page, are refused (refuted: other alignments up to a page are accepted and not honoured).", "quantifier": "for every power of two, every size, every address the system maps and every state of the heap", "why_tests_cant": "addresses returned by the system and heap states are unbounded", "anchors": ["src/rpmalloc.c: _rpmalloc_aligned_allocate, _rpmalloc_mmap_os"]}
{"id": "C93", "title": "Allocator: changing a block's size keeps its bytes", "statement": "rprealloc returns a block that starts with the bytes of the old one up to the smaller of the two sizes, and changes no byte of any other block in use; when it fails the old block is still held, unchanged.  Allocating and freeing change no byte of other blocks.", "quantifier": "for every heap reachable by any sequence of calls, every old and new size and every block, aligned ones included", "why_tests_cant": "whether the block moves, and what is written around it, depends on the whole history", "anchors": ["src/rpmalloc.c: _rpmalloc_reallocate, rprealloc, rpfree"]}
{"id": "C94", "title": "Starting a program: its arguments and environment", "statement": "The program started by exec gets the command and the pieces of the argument text between commas as its arguments, and the pieces of the environment text between semicolons as its environment; exec_addenv appends \"key=value;\" for every pair to the text it is given (refuted: without an argument text the program still gets one empty argument; an environment of one variable without a semicolon, and none at all, leave it without any variable; pairs longer than 2 KiB read past a buffer; the text of exec_addenv is not terminated).", "quantifier": "for every command, argument text, environment text and list of pairs", "why_tests_cant": "unbounded texts with separators anywhere, empty pieces included", "anchors": ["src/os_unix.c: exec, exec_info", "src/async_io.c: exec_addenv"]}
{"id": "C95", "title": "Waiting for a program answers for that program", "statement": "exec_wait on a handle returned by exec tells the exit code of the process started for that handle, minus the signal number when it was killed, or that it still runs when asked not to wait; waiting for one handle does not change the answer for another, and handles in use differ (refuted: a timeout other than zero waits without end; a program that cannot be started still gives a handle; the end of the wait closes the descriptor whose number is the process id).", "quantifier": "for every sequence of starts, waits, ends of programs and other uses of the descriptor table", "why_tests_cant": "handles and process ids are reused in unboundedly many orders", "anchors": ["src/os_unix.c: exec, os_exec_info, exec_wait, events_new_fd, os_close"]}
{"id": "C96", "title": "The end of a spawned program is told once", "statement": "When a spawned program ends, its exit callback is called once with its exit code or minus the signal that killed it, after both its pipes are closed at both ends (refuted: the pipe for errors is never closed; when the output cannot be watched the program runs on with its pipes open and no callback; a program that could not be started is told to have ended with 0).", "quantifier": "for every number of turns until the end, every way of ending and every combination of callbacks", "why_tests_cant": "the number of polls before the end is unbounded, and failures of registration are not reachable on demand", "anchors": ["src/async_io.c: spawning, spawn_ex"]}
{"id": "C97", "title": "Standard streams of a started program", "statement": "The standard input, output and errors of a started program are the descriptors asked for, or those of the starter where inherit was asked for; its other descriptors are unchanged.  A spawned program reads one pipe, writes the other and does not hold the far ends (refuted: errors sent to the output of the starter while the output is redirected end up in the redirected output).", "quantifier": "for every table of open descriptors and every choice of streams above 2", "why_tests_cant": "the effect of dup2 in sequence depends on which numbers coincide", "anchors": ["src/os_unix.c: os_exec_info, exec_info"]}
{"id": "C98", "title": "Output of a spawned program", "statement": "The output callback of a spawned program is told what the program wrote, in order and each byte once, in pieces of at most 32 KiB (refuted: what was written after the last turn of the loop is never told; after the program has filled the pipe it is never read again, because the end that is watched is the one written to).", "quantifier": "for every pipe capacity and every sequence of writes and turns of the loop", "why_tests_cant": "how writes and turns of the loop interleave is up to the scheduler", "anchors": ["src/async_io.c: spawn_io, spawning, spawn_ex"]}
{"id": "C99", "title": "Opening a socket leaves nothing behind when it fails", "statement": "async_socket, async_bind and async_connect return -1 with no descriptor left open and no record left allocated, or a descriptor that is open, does not block, is bound or connected to the address asked for and, for stream sockets of async_socket, listens (refuted: async_socket leaks the record of a local socket that cannot listen; async_bind returns sockets that do not listen, and can never bind an IPv6 address).", "quantifier": "for every kind of socket and every combination of results of the system calls", "why_tests_cant": "failures of each system call cannot be provoked on demand", "anchors": ["src/async_io.c: async_socket, async_bind, async_connect"]}
{"id": "C100", "title": "A local socket is reached under the path it is bound to", "statement": "The name a local socket is bound to and the name a connection asks for are the path itself (refuted for paths of 107 bytes and more: the bound name is one byte shorter than the one connected to).", "quantifier": "for every path", "why_tests_cant": "paths of every length and content", "anchors": ["src/async_io.c: async_socket, async_bind, async_connect"]}
{"id": "C101", "title": "Datagram packets", "statement": "The last packet received on a descriptor gives the datagram, its sender and the flags of the descriptor, answers to it go to its sender, an address and flags set for a descriptor are the ones used next, the message of a packet is given up to the task at most once, and no freed packet is used, while packets are only used before the next receive on their descriptor (refuted beyond that: an earlier packet takes the sender of the next one, its message frees a block that is none, and a server whose handler ends before the next receive uses a freed packet; empty datagrams are dropped though answers go to their sender from then on, and those over 48 KiB cut).", "quantifier": "for every set of descriptors and every sequence of receives, uses and ends of handlers", "why_tests_cant": "unbounded sequences of packets from any senders, and handlers ending at any point", "anchors": ["src/async_udp.c: udp_bind, udp_connect, udp_to, udp_recv, udp_send, udp_message, udp_ip, udp_handler, async_sendto"]}
{"id": "C102", "title": "Telling local sockets from others", "statement": "socket_is_uds is true exactly for local sockets, opened or accepted (refuted: a connection accepted under a number that was a local socket is told local; after the end of the task that opened the socket a freed record is read).", "quantifier": "for every sequence of opening and accepting", "why_tests_cant": "reuse of descriptor numbers in every order", "anchors": ["src/async_uds.c: socket_is_uds, uds_accept, uds_bind, uds_connect", "src/async_io.c: async_accept"]}
{"id": "C103", "title": "URIs of other forms, and refused ones", "statement": "Whatever the text, no returned component has a control byte and the port fits in 16 bits; a port that is too long, above 65535, negative or no number makes the URI refused; //host:port/path, host:port/path, file:///path, file:///c:path, a path without colon and a scheme alone give exactly their components (the public call refuses the last two: no host); the transport follows from the scheme by the lists of known names.", "quantifier": "for every text, host, port, path, query and fragment of any length", "why_tests_cant": "infinite input space with overlapping forms (host:port against scheme:path)", "anchors": ["src/arrays.c: url_parse_ex2, parse_uri, parse_uri_ex, scheme_type"]}
{"id": "C104", "title": "Tasks waiting for descriptors", "statement": "A task that waits for a descriptor is suspended and does not run until the descriptor is reported ready, an unready descriptor never wakes it; once reported, it is put back in the queue, the descriptor is no longer watched for it, and it runs within as many switches as there are tasks; other tasks go on meanwhile, the loop does not end while a task waits, and every task is always in exactly one place (queued, waiting for one descriptor, or finished).", "quantifier": "for every number of tasks, every program of yields, waits, closes and ends, every schedule of polls and every set of reported descriptors", "why_tests_cant": "the orders of waits, reports and switches are unbounded, and a lost wake-up hangs only under particular ones", "anchors": ["src/events.c: async_wait, wait_cb, tasks_schedulering, async_run, events_once, task_wait_system, events_add, events_del", "src/epoll.c: events_poll_once_internal"]}
{"id": "C105", "title": "Setting up a secure connection succeeds or leaves nothing behind", "statement": "Accepting on a secure listener and dialling repeat the handshake as long as the library asks to wait, waiting for exactly the direction it asked for; when the handshake ends the descriptor is returned, open and secure, with a session of its own. When it fails the caller gets 0 (refused) or -1 (accept) or -EINVAL (dial), the descriptor is closed, the session freed exactly once and everything else is as before.", "quantifier": "all states, descriptors, numbers of waits in any directions, reports, error codes and points of failure", "why_tests_cant": "A test drives one handshake with a friendly peer over loopback; the number and direction of waits, hang-ups in the middle and failures at each call are chosen by the peer and the library.", "anchors": ["src/async_tls.c:tls_accept", "src/async_tls.c:async_tls_accept", "src/async_tls.c:tls_dial", "src/async_tls.c:async_tls_connect", "src/async_tls.c:tls_bind", "src/async_tls.c:tls_poll", "src/async_tls.c:tlserr"]}
{"id": "C106", "title": "Secure reads give the peer's bytes in order and secure writes send the caller's", "statement": "However the library answers, the bytes given by successive reads of a secure descriptor, in order, followed by what was not read yet, are what the peer sent, and what reaches the peer is the parts of the caller's data reported as written, in order; a read gives at most the room offered, an orderly end gives 0, failures give a negative error and take no byte; length 0 writes the text up to its NUL.", "quantifier": "all sequences of reads and writes, sizes, answers, waits and reports", "why_tests_cant": "Short reads and writes and waits inside a record depend on how the peer's bytes arrive; tests see one segmentation.", "anchors": ["src/async_tls.c:tls_reader", "src/async_tls.c:tls_writer", "src/async_tls.c:tls_poll", "src/async_tls.c:tlserr"]}
{"id": "C107", "title": "Every secure descriptor owns one live session, and no other session is alive", "statement": "For every history of binding, accepting, dialling, reading, writing, opening and closing by a program that closes secure descriptors with tls_closer, no freed session is used, each secure descriptor has one live session of its own, no session lives without its descriptor, socket_is_secure answers exactly that, and closing all descriptors frees all sessions.", "quantifier": "all histories of calls with all results of the system and the library, excluding the failing calls whose error message reads a freed session", "why_tests_cant": "Leaked sessions, reused descriptor numbers and double frees depend on the order of closings and openings over a long history and are not visible in one connection.", "anchors": ["src/async_tls.c:tls_closer", "src/async_tls.c:tls_accept", "src/async_tls.c:tls_dial", "src/async_tls.c:tls_bind", "src/async_tls.c:tls_socket_bind", "src/async_tls.c:socket_is_secure"]}
{"id": "C108", "title": "Spin locks exclude, and what they protect happens as if in one piece", "statement": "With all sections under one lock, no two threads are ever inside at the same time; the shared state and every thread's variables are what results from running whole sections one after another in the order in which they ended, none lost and none twice; a section that is never wrong by itself is never wrong under the lock; and if every thread keeps getting turns, all sections end within a number of rounds linear in the work.", "quantifier": "all numbers of threads, sections of any steps on any shared state, and all interleavings of their atomic accesses (sequentially consistent)", "why_tests_cant": "A missing exclusion shows only in rare interleavings of a few instructions, and a test cannot cover sections that do not exist yet.", "anchors": ["include/catomics.h:atomic_spinlock_lock", "include/catomics.h:atomic_spinlock_unlock"]}
{"id": "C109", "title": "Appending to a shared array under its lock loses nothing", "statement": "Threads that append to one array under its lock, where the array has room or grows in place, put every value there exactly once, each thread's values in its order, after what was there before.", "quantifier": "all numbers of threads, values, capacities and interleavings", "why_tests_cant": "Lost appends need two threads between the load and the store of the size; a moved block needs growth at that moment.", "anchors": ["src/arrays.c:data_append", "src/arrays.c:data_lock", "src/arrays.c:data_gc", "src/events.c:group_result_set", "src/events.c:defer", "src/future.c:promise_free", "src/future.c:enqueue_promise", "src/events.c:waitgroup"]}
{"id": "C110", "title": "Blocks freed by other threads while the owner works", "statement": "While the owner of a run of equal blocks allocates and frees, and other threads free blocks of it, no block is given to two callers, the run goes back to the caches only when none of its blocks is out and is not touched afterwards by a thread still finishing a free, it is handed back at most once, and whenever nobody is in a call every block is in exactly one place and the counts agree with the lists.", "quantifier": "all numbers of blocks and threads, all sequences of calls and all interleavings of their atomic accesses (sequentially consistent)", "why_tests_cant": "The windows are a few instructions wide (a block counted but not yet stored, a span compared while it is counted); a lost or doubled block shows up only much later.", "anchors": ["src/rpmalloc.c:_rpmalloc_deallocate_defer_small_or_medium", "src/rpmalloc.c:_rpmalloc_deallocate_defer_free_span", "src/rpmalloc.c:_rpmalloc_deallocate_direct_small_or_medium", "src/rpmalloc.c:_rpmalloc_span_extract_free_list_deferred", "src/rpmalloc.c:_rpmalloc_allocate_from_heap_fallback", "src/rpmalloc.c:_rpmalloc_heap_cache_adopt_deferred"]}
{"id": "C111", "title": "A run whose blocks are all back is not lost", "statement": "When all blocks of a run are back and nobody is in a call, the run is in the caches, exactly once in its owner's list of runs handed back, or still linked for further allocations of its size.", "quantifier": "all numbers of blocks and threads, all sequences of calls and interleavings", "why_tests_cant": "Whether the run is handed back depends on which of two frees counts first.", "anchors": ["src/rpmalloc.c:_rpmalloc_deallocate_direct_small_or_medium", "src/rpmalloc.c:_rpmalloc_deallocate_defer_small_or_medium"]}
{"id": "C112", "title": "The poller's ordered tree is a map and stays balanced", "statement": "However nodes are added under keys, removed and looked up, the tree answers as a map from keys to nodes: a second node under a key is refused and changes nothing, a removal takes out exactly its node, a search finds exactly the node under its key; the nodes reached from the root are exactly those in the map, the root is empty only when the map is, and no path down is longer than twice the base-two logarithm of one more than the number of nodes.", "quantifier": "all sequences of additions, removals and searches with any keys, where a node is added only while it is not in the tree and removed only while it is; any contents of fresh nodes", "why_tests_cant": "A rotation or recolouring slip in one of the mirrored cases leaves a tree that still answers most searches; losing a node or its balance needs a particular order of keys and removals.", "anchors": ["src/wepoll.c:tree_add", "src/wepoll.c:tree_del", "src/wepoll.c:tree_find", "src/wepoll.c:tree__rotate_left", "src/wepoll.c:tree__rotate_right"]}
{"id": "C113", "title": "Windows poller: any history of calls, threads and kernel answers", "statement": "Whatever registrations, changes, removals and waits are made from any number of threads, and whatever the kernel answers, no memory of a socket that is gone is used, no assertion fails and no socket has two requests at the kernel. Registering fails only for an invalid or already registered socket, for one that cannot be resolved, or for lack of memory or device, and an invalid handle is reported before anything else; changing and removing fail only for sockets that are not registered. Every reported event was asked for in the latest registration or change of that socket, was in the latest answer of the kernel, carries the data given last, and is reported once; a one-shot socket reports nothing more until it is changed. A wait gives at most as many events as it has room for, returns exactly the number it gave, returns none only if it does not wait without end, and gives none with an error. A socket leaves by itself only after it was closed.", "quantifier": "all histories: any number of threads, ports' calls, socket handles, masks, data and limits; any device and kernel answers and interleavings of the sections under the port's lock", "why_tests_cant": "The faults live in orders of events: a socket removed or changed while its request is at the kernel, completions taken by one thread while another registers, sockets closed under the poller.", "anchors": ["src/wepoll.c:epoll_ctl", "src/wepoll.c:epoll_wait", "src/wepoll.c:port_wait", "src/wepoll.c:port_ctl", "src/wepoll.c:sock_update", "src/wepoll.c:sock_feed_event", "src/wepoll.c:sock__delete", "src/wepoll.c:sock_set_event"]}
{"id": "C114", "title": "Windows poller: a waiting thread misses nothing", "statement": "While some thread waits and nothing more happens at the kernel, no registered socket is closed or has an event that was asked for; a wait whose time is over returns zero.", "quantifier": "all histories as before in which the device accepts every poll and every cancellation", "why_tests_cant": "A lost wake-up is a wait that does not end; it depends on which thread changes which mask while requests are under way.", "anchors": ["src/wepoll.c:port__update_events", "src/wepoll.c:port__update_events_if_polling", "src/wepoll.c:port__poll", "src/wepoll.c:sock_update", "src/wepoll.c:sock__epoll_events_to_afd_events"]}
{"id": "C115", "title": "Windows poller: device handles are shared by thirty-two", "statement": "Every socket belongs to exactly one device handle, a handle has exactly the sockets it counts and never more than thirty-two, and another handle is opened only when all are full, so that there is at most one more than a thirty-second of the most sockets there ever were at once.", "quantifier": "all histories of registrations and removals, failed ones included", "why_tests_cant": "Needs more than thirty-two sockets and removals in particular orders; a wrong count only wastes handles or trips an assertion much later.", "anchors": ["src/wepoll.c:poll_group_acquire", "src/wepoll.c:poll_group_release", "src/wepoll.c:sock_new"]}
{"id": "C116", "title": "Windows poller: closing frees everything", "statement": "Once a port is closed and nobody is in a call, deleting it frees every socket and every device handle exactly once, whatever requests, removed sockets and queues there are, its assertions hold, and no memory is freed while the kernel may still write to it.", "quantifier": "all histories before the deletion, all shapes of the tree, all device answers", "why_tests_cant": "The interesting ports have sockets in every state at the moment of closing.", "anchors": ["src/wepoll.c:port_delete", "src/wepoll.c:sock_force_delete", "src/wepoll.c:poll_group_delete"]}
{"id": "C117", "title": "Windows poller: a port lives while it is used", "statement": "Whatever threads create, use and close ports at the same time, a call with a handle works on the port that handle names at that moment and on no other, or is refused if it names none; closing succeeds for exactly one thread per port, waits exactly for the calls that are inside, and is told by the last of them; a port's memory is freed once, after its handle is gone and all calls have left, and no call touches it afterwards, also when handle values and addresses are used again. When nobody is in a call, exactly the ports created and not closed remain. No assertion of the reference counts fails.", "quantifier": "all interleavings of any number of threads below 2^28 over creations, calls, closings, reuse of handle values and addresses", "why_tests_cant": "Needs a handle closed, and its value given out again, between two instructions of another thread.", "anchors": ["src/wepoll.c:epoll_create", "src/wepoll.c:epoll_close", "src/wepoll.c:epoll_ctl", "src/wepoll.c:epoll_wait", "src/wepoll.c:reflock_ref", "src/wepoll.c:reflock_unref", "src/wepoll.c:reflock_unref_and_destroy", "src/wepoll.c:ts_tree_del_and_ref", "src/wepoll.c:ts_tree_find_and_ref", "src/wepoll.c:port_close"]}
{"id": "C118", "title": "Windows poller: how long a wait lasts", "statement": "A wait with a positive time asks the kernel at every call for exactly the time that is left, and returns without events only once the time is over; with time zero the kernel is asked once and not waited for; a negative time never ends without events. A time given as seconds and nanoseconds waits for that many milliseconds, rounded up; no time at all waits without end.", "quantifier": "all times, clocks and sequences of kernel answers and wake-ups", "why_tests_cant": "Depends on completions that bring no event at particular moments, and on each value of the nanoseconds.", "anchors": ["src/wepoll.c:port_wait", "src/wepoll.c:epoll_pwait2"]}
{"id": "C119", "title": "Allocator: runs of memory handed to threads", "statement": "Whatever threads start, take memory of any class or length, give back memory of their own or of others, and leave, in any order: a run of memory handed out is at least as long as asked, lies within memory the kernel gave and did not get back, and is apart from every other run in use; a request fails only if the kernel has no memory; the contents of memory are dropped, and memory is given back to the kernel, only when nothing in it is in use, and exactly the bytes of one mapping are given back, once; no heap is used by two threads at the same time. If the kernel has no memory for a thread's first request, that request fails without harm.", "quantifier": "all sequences of starts, requests, returns and departures of any number of threads, all addresses the kernel may answer", "why_tests_cant": "The caches, their overflow and the partial return of mappings depend on hundreds of runs in particular orders and on the kernel's answers.", "anchors": ["src/rpmalloc.c:_rpmalloc_span_map", "src/rpmalloc.c:_rpmalloc_span_unmap", "src/rpmalloc.c:_rpmalloc_global_cache_insert_spans", "src/rpmalloc.c:_rpmalloc_global_cache_extract_spans", "src/rpmalloc.c:_rpmalloc_heap_cache_insert", "src/rpmalloc.c:_rpmalloc_heap_extract_new_span", "src/rpmalloc.c:_rpmalloc_heap_cache_adopt_deferred", "src/rpmalloc.c:_rpmalloc_deallocate_large", "src/rpmalloc.c:_rpmalloc_heap_allocate", "src/rpmalloc.c:_rpmalloc_heap_release", "src/rpmalloc.c:rp_malloc", "src/rpmalloc.c:rp_free"]}
{"id": "C120", "title": "Allocator: everything goes back at the end", "statement": "When the allocator is shut down and no large block is in use and the other blocks have been freed, every byte ever obtained from the kernel is returned to it, each mapping exactly once and whole, whatever happened before and in whichever order the threads' heaps are visited; nothing already returned is read or written meanwhile.", "quantifier": "all histories before the shutdown, all orders of heaps", "why_tests_cant": "Which runs are in which cache, reserve or deferred list at the end depends on the whole history.", "anchors": ["src/rpmalloc.c:rpmalloc_finalize", "src/rpmalloc.c:_rpmalloc_heap_global_finalize", "src/rpmalloc.c:_rpmalloc_heap_finalize", "src/rpmalloc.c:_rpmalloc_heap_unmap", "src/rpmalloc.c:_rpmalloc_global_cache_finalize", "src/rpmalloc.c:_rpmalloc_span_unmap"]}
{"id": "C121", "title": "Allocator: what was given back can be had again", "statement": "A thread that takes a run, gives it back and asks again for the same length and class gets a run without any new memory from the kernel, for blocks of a size class the very same one, however full the caches are.", "quantifier": "all histories before, all lengths and classes", "why_tests_cant": "The caches overflow into each other only after particular histories.", "anchors": ["src/rpmalloc.c:_rpmalloc_heap_cache_insert", "src/rpmalloc.c:_rpmalloc_heap_extract_new_span", "src/rpmalloc.c:_rpmalloc_span_release_to_cache", "src/rpmalloc.c:_rpmalloc_deallocate_large"]}
{"id": "C122", "title": "Windows: reading and writing at a position", "statement": "A successful read at a position gives bytes that stand there, no more than asked and fewer only if the system delivered fewer or the file ends, and leaves the file and the descriptor's position as they were; a successful write at a position changes exactly the bytes written, with a gap filled by zeros, and leaves the descriptor's position as it was; both succeed whenever the system calls do and the positions fit an offset; a failed call changes nothing.", "quantifier": "all files, positions, lengths, and results of the system calls", "why_tests_cant": "Failures of the single seeks, reads and writes inside the emulation do not happen on demand, and they are where the position is lost.", "anchors": ["src/os_windows.c:pread", "src/os_windows.c:pwrite"]}
{"id": "C123", "title": "Windows: copying from a descriptor to another", "statement": "Sending a number of bytes from a position of one file to another descriptor delivers exactly the bytes that stand there, in order, up to that number or the end of the file, whatever the sizes of the pieces; it returns the number delivered, always returns, moves the offset variable past what was read, and loses nothing when the receiver takes less than offered.", "quantifier": "all files, offsets, lengths, and sizes and failures of every read and write", "why_tests_cant": "Short reads and writes in the middle of a transfer cannot be forced.", "anchors": ["src/os_windows.c:sendfile"]}
{"id": "C124", "title": "Windows: directory part of a path", "statement": "For every path, the directory part is what is left after taking away trailing separators, the last name and the separators before it, the root if only separators are left and a dot if nothing is; separators are slashes and backslashes that are not the second byte of a character; a drive letter in front is not part of a name; memory outside the path is not read.", "quantifier": "all byte strings and all sets of lead bytes", "why_tests_cant": "Paths are unbounded and the code page decides which bytes are separators.", "anchors": ["src/os_windows.c:dirname"]}
{"id": "C125", "title": "Windows: last name of a path", "statement": "For every path, the last name is the part after the last separator that is followed by a name, without trailing separators; a drive letter in front is not part of it; the call returns for every path and any multibyte encoding.", "quantifier": "all byte strings; termination for all multibyte encodings", "why_tests_cant": "Paths are unbounded and the encoding is the system's.", "anchors": ["src/os_windows.c:basename"]}
{"id": "C126", "title": "Windows: pairs of sockets", "statement": "A successful pair consists of two different sockets whose other ends are each other, and nothing else opened on the way stays open or is closed twice; a failed call leaves nothing open, closes nothing twice and reports its own error; a pipe stores its two descriptors within the array given.", "quantifier": "all results of the eight system calls", "why_tests_cant": "A stranger connecting to the listener, and failures of single calls, do not happen on demand.", "anchors": ["src/os_windows.c:socketpair", "src/os_windows.c:os_pipe"]}
{"id": "C127", "title": "Windows: flags of opening a file", "statement": "For every combination of flags, a file is opened with the access asked for and no other, is created, kept, truncated or refused as the flags say, and the flags for asynchronous use decide which system call is made while all others reach it unchanged.", "quantifier": "all flag words", "why_tests_cant": "There are too many combinations, and the tests open files in a few of them only.", "anchors": ["src/os_windows.c:_os_open", "src/os_windows.c:os_open"]}
{"id": "C128", "title": "Windows: numbers of files, sockets and library descriptors", "statement": "A number given to an opened file or pipe is not in use by another one, and until it is closed every read, write and close of a number reaches the file, pipe, socket or C library descriptor it was given for, the table growing as needed; the standard streams keep their numbers; a failed open is reported; numbers of sockets of any size can be read and written; calls before the start and after the shutdown do no harm.", "quantifier": "all sequences of opening, reading, writing and closing of files, pipes, sockets and library descriptors, all handle numbers and answers of the kernel", "why_tests_cant": "Which numbers the kernel hands out, and so whether they collide, cannot be chosen by a test.", "anchors": ["src/os_windows.c:events_new_fd", "src/os_windows.c:events_free_fd", "src/os_windows.c:events_valid_fd", "src/os_windows.c:events_assign_fd", "src/os_windows.c:os_read", "src/os_windows.c:os_write", "src/os_windows.c:os_close", "src/os_windows.c:os_open", "src/os_windows.c:is_socket", "src/os_windows.c:grow_ioTable"]}
{"id": "C129", "title": "Windows: every handle is closed once", "statement": "Every kernel handle opened for a file or pipe is closed exactly once: when its number is closed, when the open fails later on, or at the shutdown; nothing opened along the way stays open, and no handle is closed while another number still stands for it.", "quantifier": "all sequences of opening and closing of files and pipes", "why_tests_cant": "Leaks and double closes of handles have no visible effect until numbers are reused.", "anchors": ["src/os_windows.c:os_close", "src/os_windows.c:os_mkfifo", "src/os_windows.c:os_accept_pipe", "src/os_windows.c:events_new_fd", "src/os_windows.c:clear_pseudo_events", "src/os_windows.c:os_shutdown"]}
{"id": "C130", "title": "Windows: notices of directory changes", "statement": "For every buffer of notices the kernel delivers, the watcher is called once for each notice, in order, with its own name and exactly the bit of its kind of change; going through the buffer with the library's functions visits exactly the notices in it and reads nothing else; the name given for a notice is its own.", "quantifier": "all lists of notices, names and code pages", "why_tests_cant": "Several changes fall into one buffer only when they happen faster than they are read.", "anchors": ["src/os_windows.c:inotify_handler", "src/os_windows.c:inotify_next", "src/os_windows.c:inotify_name", "src/os_windows.c:inotify_mask", "src/os_windows.c:inotify_length"]}
{"id": "C131", "title": "Windows: adding and removing watched directories", "statement": "Each directory added is watched until it is removed, and counted with the directories below it; removing one ends the watching of that directory alone, closes its handle once and keeps the others; within a watcher the directory reported is the one of the notice; memory the kernel still writes to is not freed.", "quantifier": "all sequences of additions followed by removals, all directory trees", "why_tests_cant": "The tests watch one directory; leaked handles and writes to freed buffers have no visible effect at once.", "anchors": ["src/os_windows.c:inotify_add_watch", "src/os_windows.c:inotify_rm_watch", "src/os_windows.c:inotify_close", "src/os_windows.c:inotify_del_monitor", "src/os_windows.c:inotify_directories", "src/os_windows.c:fs_events_path", "src/os_windows.c:events_watch_count"]}
{"id": "C132", "title": "File operations run by a worker", "statement": "Every operation on files, directories, streams and host names that is run by a worker reaches the system exactly once with the arguments given, and the caller gets what the system returned, for all values of the argument types and all results, counts and pointers.", "quantifier": "all 23 operations, all argument values, all results", "why_tests_cant": "The tests use small counts and modes; the failures begin at half a gigabyte, or depend on bytes in front of a buffer.", "anchors": ["src/async_io.c:fs_open", "src/async_io.c:fs_read", "src/async_io.c:fs_write", "src/async_io.c:fs_sendfile", "src/async_io.c:fs_close", "src/async_io.c:fs_unlink", "src/async_io.c:fs_rmdir", "src/async_io.c:fs_mkdir", "src/async_io.c:fs_stat", "src/async_io.c:fs_fstat", "src/async_io.c:fs_access", "src/async_io.c:fs_rename", "src/async_io.c:fs_copyfile", "src/async_io.c:fs_chmod", "src/async_io.c:fs_fopen", "src/async_io.c:fs_fclose", "src/async_io.c:fs_fgetc", "src/async_io.c:fs_fgets", "src/async_io.c:fs_fread", "src/async_io.c:fs_fwrite", "src/async_io.c:async_getentropy", "src/async_io.c:async_getaddrinfo", "src/async_io.c:async_getnameinfo"]}
{"id": "C133", "title": "One promise for several stream operations", "statement": "When one promise is used for opening a stream, then for any number of reads and writes, and for closing it, each operation gives the result of that operation, among them the end of the file, and memory of an earlier operation is not used.", "quantifier": "all sequences of results", "why_tests_cant": "The tests read files whose end is found otherwise; a read of freed memory gives the expected value most of the time.", "anchors": ["src/async_io.c:promise_fopen", "src/async_io.c:promise_fgets", "src/async_io.c:promise_fgetc", "src/async_io.c:promise_read", "src/async_io.c:promise_fclose", "src/async_io.c:promise_fwrite", "src/future.c:promise_work", "src/future.c:promise_set", "src/future.c:promise_wait", "src/future.c:promise_clean"]}
{"id": "C134", "title": "errno after an operation run by a worker", "statement": "When an operation run by a worker fails, the caller finds the errno of the operation after the call, whatever the order in which the tasks of its thread run, and no task uses the job after the caller's task has ended.", "quantifier": "all orders of the worker's end, the looks of handler and caller and other changes of errno", "why_tests_cant": "It depends on which of two tasks looks first after the worker has ended.", "anchors": ["src/future.c:queue_work_handler", "src/future.c:queue_work", "src/future.c:queue_get", "src/future.c:promise_set"]}
{"id": "C135", "title": "Signals thrown as exceptions", "statement": "After any sequence of registrations, resets, set-ups and returns to the defaults, a signal is thrown under the name it was last registered with, and has its default action when it was reset last or never registered; the set-up installs the thirteen names of the library, and the return to the defaults takes all of them away.", "quantifier": "all sequences of calls, all signals and names, all signals the system refuses", "why_tests_cant": "The tests register a few names and send one signal each; the order of registration, reset and set-up is not varied and 32 signals are not reached.", "anchors": ["src/except.c:ex_signal", "src/except.c:ex_signal_reset", "src/except.c:ex_signal_setup", "src/except.c:ex_signal_default", "src/except.c:ex_handler"]}
{"id": "C136", "title": "Linked queues", "statement": "The doubly linked queues behave as lists: for any number of queues and nodes and any sequence of initialising, appending, prepending, moving to either end and removing, first, last, emptiness and membership are those of the lists, whatever the memory held before.", "quantifier": "all sequences of calls, any number of queues and nodes, all contents of memory", "why_tests_cant": "A wrong link shows only after certain later calls on its neighbours.", "anchors": ["src/wepoll.c:queue_init", "src/wepoll.c:queue_node_init", "src/wepoll.c:queue_first", "src/wepoll.c:queue_last", "src/wepoll.c:queue_prepend", "src/wepoll.c:queue_append", "src/wepoll.c:queue_move_to_start", "src/wepoll.c:queue_move_to_end", "src/wepoll.c:queue_remove", "src/wepoll.c:queue_is_empty", "src/wepoll.c:queue_is_enqueued"]}
{"id": "C137", "title": "Futures of threads", "statement": "For threads started with thrd_async, thrd_get gives each time what the function of that thread returned, with its errno, or throws the error that it threw; thrd_is_done is true from the end of the function on, so that thrd_wait ends.", "quantifier": "all interleavings of any number of threads of one scope with the calls of their creator, all results", "why_tests_cant": "The tests have one thread and one call; what is found depends on whether the thread has exited and on what other threads of the same scope did.", "anchors": ["src/future.c:thrd_async", "src/future.c:thrd_get", "src/future.c:thrd_wait", "src/future.c:thrd_is_done", "src/future.c:thrd_data", "src/os_unix.c:os_join"]}
{"id": "C138", "title": "Stopping a directory watch ends that watch", "statement": "Stopping a watch by its id succeeds exactly while the id is listed; the task of that watch ends at its next turn and no other watch is affected; when all watches are stopped the loop has nothing left to do; a directory that cannot be watched is refused.", "quantifier": "all sequences of starting, running and stopping any number of watch tasks of one loop, all answers of the kernel", "why_tests_cant": "The test watches one directory with one task; sharing shows only with two, and the loop that never ends only when nothing else ends the program.", "anchors": ["src/events.c:fsevents_init", "src/events.c:fsevents_stop", "src/events.c:fsevents_task", "src/events.c:events_watch", "src/events.c:events_del_watch", "src/events.c:events_is_watching", "src/os_unix.c:events_watch_count"]}
{"id": "C139", "title": "Handles of watched directories are given back", "statement": "Watching a directory enters it and every directory below it; removing a watch frees exactly its handle; closing the notification descriptor frees the handles of all its watches, so that later watches report changes under their own directories.", "quantifier": "all lists of watched directories, all kernel numbers, all later uses", "why_tests_cant": "Which handles are kept depends on the number and order of directories; the wrong name appears only in a later watch.", "anchors": ["src/os_unix.c:inotify_close", "src/os_unix.c:inotify_del_monitor", "src/os_unix.c:__inotify_add_watch", "src/os_unix.c:inotify_recursive", "src/os_unix.c:__inotify_rm_watch", "src/os_unix.c:os_close"]}
{"id": "C140", "title": "Command line and environment of a program started on Windows", "statement": "A program started by exec on Windows gets a command line made of its name, with .exe added when it has no extension, and its arguments separated by spaces; the variables of the environment text are all passed to it.", "quantifier": "all names, argument texts and environment texts", "why_tests_cant": "The tests start one program with one argument and no environment; the outcome depends on length parity, separators and the length of the name.", "anchors": ["src/os_windows.c:exec", "src/os_windows.c:exec_info", "src/os_windows.c:os_exec_child", "src/os_windows.c:os_exec_info"]}
{"id": "C141", "title": "Output and end of a program spawned on Windows", "statement": "The output callback of a program spawned on Windows is told what the program wrote, in order and each byte once; its end is told once, after the whole output; a program that cannot be started is reported.", "quantifier": "all interleavings of the reading thread, the loop and the task waiting for the end; all outputs", "why_tests_cant": "What is told depends on how often the thread reads before the loop turns, and on where the thread is when the end is noticed.", "anchors": ["src/os_windows.c:spawn_io_thread", "src/os_windows.c:os_iodispatch", "src/os_windows.c:os_exec_child", "src/os_windows.c:events_free_fd", "src/async_io.c:spawn_io", "src/async_io.c:spawning"]}
{"id": "C142", "title": "Allocator with any settings (huge pages, any map count): runs of spans never overlap", "statement": "Every request for memory of one or more spans is answered by a run of at least as many spans (at most half more) in mapped memory that overlaps no other run in use, cached or reserved, or refused as the system refuses memory; no operation touches memory that is not mapped; memory is given back to the system only when nothing of it is in use, cached or reserved, and then exactly as it was mapped.", "quantifier": "all sequences of requests, frees by the owner or by other threads, thread ends and heap requests, all contents written in the runs, all answers of the system, all settings", "why_tests_cant": "Runs wander through reserves, thread caches, global caches and overflow lists of 63 sizes each; a double use shows only after thousands of operations in a certain order.", "anchors": ["src/rpmalloc.c:_rpmalloc_span_map", "src/rpmalloc.c:_rpmalloc_span_map_aligned_count", "src/rpmalloc.c:_rpmalloc_span_unmap", "src/rpmalloc.c:_rpmalloc_heap_extract_new_span", "src/rpmalloc.c:_rpmalloc_heap_cache_insert", "src/rpmalloc.c:_rpmalloc_global_cache_insert_spans", "src/rpmalloc.c:_rpmalloc_heap_allocate_new", "src/rpmalloc.c:_rpmalloc_mmap_os", "src/rpmalloc.c:_rpmalloc_unmap_os"]}
{"id": "C143", "title": "Allocator with any settings: caches stay within bounds and all is given back", "statement": "The caches of spans never exceed their arrays; a thread that ends hands its caches over; memory that is mapped is never forgotten, and finalizing the allocator gives all of it back to the system.", "quantifier": "all sequences of operations as above; all settings for the bounds; for giving back: settings that map at most 64 spans at once, or no heaps requested while a small global reserve is left", "why_tests_cant": "Full caches need hundreds of freed spans of one size; a leak is not visible to the tests at all.", "anchors": ["src/rpmalloc.c:_rpmalloc_heap_cache_insert", "src/rpmalloc.c:_rpmalloc_global_cache_insert_spans", "src/rpmalloc.c:_rpmalloc_heap_release", "src/rpmalloc.c:_rpmalloc_heap_finalize", "src/rpmalloc.c:rpmalloc_finalize", "src/rpmalloc.c:_rpmalloc_heap_allocate_new"]}
{"id": "C144", "title": "Directory watch on kqueue systems: the handler is told which file changed", "statement": "On systems with kqueue, every event of a watched directory calls the handler with the kind of change (added, removed, modified, moved) and the whole path of the file it happened to; what the library has on record afterwards is what is in the directory.", "quantifier": "all directories, listing orders, file names and stat results, all sequences of events and event flags", "why_tests_cant": "The kernel names no file; the library compares listings position by position, so the outcome depends on the listing order, on where a new file is listed and on earlier events.", "anchors": ["src/os_unix.c:inotify_update", "src/os_unix.c:inotify_task", "src/os_unix.c:inotify_handler", "src/os_unix.c:inotify_recursive"]}
{"id": "C145", "title": "Blocking reads of directory changes on kqueue systems", "statement": "A blocking read on a watch descriptor stays inside the caller's buffer and yields an event whose name is the path of the changed file and for which exactly the right one of added, removed and modified holds.", "quantifier": "all directories, listing orders and stat results, all earlier reads, all event flags and buffer lengths", "why_tests_cant": "The answers depend on marks left by earlier reads and on the place of the file in the listing; an overrun needs several watched directories to change at once.", "anchors": ["src/os_unix.c:os_read", "src/os_unix.c:inotify_update", "src/os_unix.c:inotify_added", "src/os_unix.c:inotify_removed", "src/os_unix.c:inotify_modified", "src/os_unix.c:inotify_name"]}
{"id": "C146", "title": "Ending directory watches on kqueue systems", "statement": "Removing a watch closes its descriptor, takes it out of the event loop and releases its memory, and leaves the other watches alone; closing the notification descriptor does so for all its watches and leaves the event loop usable.", "quantifier": "all numbers and orders of watches, with and without an event loop", "why_tests_cant": "Descriptors left open are not visible to the tests, and a loop whose queue was closed fails only at its next wait.", "anchors": ["src/os_unix.c:inotify_close", "src/os_unix.c:inotify_rm_watch", "src/os_unix.c:inotify_init", "src/os_unix.c:inotify_add_watch", "src/os_unix.c:os_close"]}
{"id": "C147", "title": "The context switch resumes every task exactly where it left", "statement": "Whatever tasks are created, given up and switched between, and whatever the running one computes, each switch completes and resumes the chosen task at the return address of the switch it last called (a new one at the start of its function), with its stack pointer and all registers the calling convention reserves for callers as they were then.", "quantifier": "all numbers of tasks and lengths of histories, all register and memory contents, all addresses; amd64 SystemV, Win64, i386, AArch64", "why_tests_cant": "The switch is a table of machine code. A wrong byte in it corrupts one register that the compiler may not be using where the tests switch.", "anchors": ["src/asm.c:coro_swap_function", "src/asm.c:task_derive", "src/events.c:task_switch"]}
{"id": "C148", "title": "What a context switch writes", "statement": "A switch writes nothing but the register area of the task it leaves and, on Windows, the two stack limits of the thread; a switch to the running task itself is a plain return.", "quantifier": "all machine states, all places of the two tasks that do not overlap; amd64 SystemV, Win64, i386, AArch64 with and without Windows", "why_tests_cant": "A word written past the area damages another field of the task, seen much later if at all; most of the platforms are not those the tests run on.", "anchors": ["src/asm.c:coro_swap_function", "src/events_internal.h:coro_events_s", "src/events_internal.h:events_task_s"]}
{"id": "C149", "title": "A new task's first stack frame", "statement": "The first switch to a new task enters its function inside the task's own block with the stack aligned as the calling convention requires, and when the function returns the finishing function is entered in the same way.", "quantifier": "all blocks, sizes and machine states; amd64 SystemV, Win64, i386, AArch64", "why_tests_cant": "A misaligned stack only fails where the compiler chose aligned vector instructions, which depends on the build.", "anchors": ["src/asm.c:task_derive", "src/events.c:create_task", "src/events.c:task_awaitable", "src/events.c:task_done", "src/events.c:task_func"]}
{"id": "C150", "title": "A task gets the stack it was promised", "statement": "A task created with a stack size gets a block whose stack part has at least that many bytes (8 KiB at least, six times that for the main task, more than 18 KiB in a thread), aligned, with the descriptor in the same block and bounded waste.", "quantifier": "all requested sizes, all structure sizes, 32 and 64 bit, assembly, sigaltstack and ucontext builds, any MINSIGSTKSZ", "why_tests_cant": "Tests use a few sizes on one build; too small a stack shows only when the deepest call happens to reach the end.", "anchors": ["src/events.c:create_task", "src/events.c:task_derive", "include/arrays.h:_mem_align_up", "include/async_io.h:TASK_STACK_SIZE"]}
{"id": "C151", "title": "The stack check lets a task go on only with room left and its mark intact", "statement": "When a task gives up control it goes on only if its stack has the required bytes left and its mark is intact, and is otherwise stopped at once; a task that keeps within its stack is never stopped without need and never changes its own descriptor.", "quantifier": "all sequences of calls, returns and checks, all written bytes, all block sizes", "why_tests_cant": "Overruns depend on how deep the calls of a task go and which bytes they write.", "anchors": ["src/events.c:tasks_stack_check", "src/events.c:task_yielding", "src/events.c:create_task", "src/events_internal.h:events_task_s"]}
{"id": "C152", "title": "Making a task by a signal leaves signal handling as it was", "statement": "On builds without assembly, making a task leaves what SIGUSR1 does and the thread's alternate stack as they were, never runs the program's own handler, never kills the process, and a task that is given back can be entered.", "quantifier": "all numbers of threads, all orders of their system calls, all failures of these calls, blocked or unblocked signal, any earlier handler and alternate stack", "why_tests_cant": "It needs two threads between the same two system calls, or a failing system call, on a platform without the assembly switch.", "anchors": ["src/events.c:task_derive", "src/events.c:_spring_board", "src/events.c:create_task", "src/events.c:task_delete"]}
{"id": "C153", "title": "Every task of a thread is in one place, and the loop returns when all have ended", "statement": "Tasks that yield, sleep, wait for descriptors, start tasks and end never corrupt the scheduler's lists: each task is at every moment either ready, asleep, waiting for a descriptor or ended, and in one of these only; the event loop returns exactly when all tasks of the program have ended.", "quantifier": "all programs of any number of tasks in which no two tasks wait for one descriptor, all clocks, all reports of the kernel, all numbers of turns", "why_tests_cant": "It speaks of every mix of sleeping, waiting and ready tasks over unbounded time; a test sees one schedule.", "anchors": ["src/events.c:task_wait_system", "src/events.c:add_timeout", "src/events.c:delay", "src/events.c:async_wait", "src/events.c:wait_cb", "src/events.c:tasks_schedulering", "src/events.c:async_run", "src/events.c:yield", "src/events.c:launch"]}
{"id": "C154", "title": "Every ready task gets its turn in order", "statement": "A ready task with n tasks before it runs after exactly n turns whatever the others do in between (new tasks, woken sleepers and reported waiters go behind it); only the main task may need one turn more.  A task waiting for a descriptor is ready after the turn that reports it.", "quantifier": "all programs, all reachable states, all clocks and reports", "why_tests_cant": "Fairness is a statement about all schedules of any length.", "anchors": ["src/events.c:tasks_schedulering", "src/events.c:yield", "src/events.c:task_push", "src/events.c:wait_cb", "src/events.c:async_wait"]}
{"id": "C155", "title": "A sleeper wakes when its time has come and not before", "statement": "A task that sleeps becomes ready only in a turn at or after the time of its call plus its delay, and is never lost.  It does become ready within a bounded number of turns after that time.", "quantifier": "all programs, all reachable states, all clocks and reports", "why_tests_cant": "A sleeper that is never woken is only seen by waiting for ever; which tasks must be running besides it is found by proof.", "anchors": ["src/events.c:task_wait_system", "src/events.c:task_yielding_active", "src/events.c:yield", "src/events.c:task_sleep_switch", "src/events.c:add_timeout", "src/events.c:delay"]}
{"id": "C156", "title": "No two threads ever work in one heap of the allocator, and no heap is lost", "statement": "After a first allocation that was done by one thread alone, threads may allocate, free, give their heaps back and exit in any interleaving of memory accesses: nothing undefined happens, no two threads are ever inside one heap, every heap waits in the list of free heaps or belongs to one thread, a free works directly in the block's heap exactly when the heap is the freeing thread's own, the lock is always given back, and a thread without a heap takes a waiting one before memory is asked for.", "quantifier": "all numbers of threads, all interleavings of single accesses, all answers of mmap, all numbers of heaps per piece of memory", "why_tests_cant": "The number of interleavings is unbounded and the failures (two threads in one heap) show only as rare corruption later.", "anchors": ["src/rpmalloc.c:_rpmalloc_heap_allocate", "src/rpmalloc.c:_rpmalloc_heap_release", "src/rpmalloc.c:_rpmalloc_heap_orphan", "src/rpmalloc.c:_rpmalloc_heap_extract_orphan", "src/rpmalloc.c:rpmalloc_initialize_config", "src/rpmalloc.c:rpmalloc_thread_initialize", "src/rpmalloc.c:rpmalloc_thread_finalize", "src/rpmalloc.c:rpmalloc_init", "src/rpmalloc.c:rp_free", "src/rpmalloc.c:set_thread_heap"]}
{"id": "C157", "title": "The first allocation and the main thread are as safe as the rest", "statement": "Two threads may do the very first allocation at the same time, and a thread that calls rpmalloc_set_main_thread may give its heap back while others allocate, with the same guarantees: nothing undefined and never two threads in one heap.", "quantifier": "all pairs of threads, all interleavings", "why_tests_cant": "The wrong interleavings are a few instructions wide.", "anchors": ["src/rpmalloc.c:_rpmalloc_heap_allocate", "src/rpmalloc.c:_rpmalloc_heap_release", "src/rpmalloc.c:_rpmalloc_heap_orphan", "src/rpmalloc.c:_rpmalloc_heap_extract_orphan", "src/rpmalloc.c:rpmalloc_initialize_config", "src/rpmalloc.c:rpmalloc_thread_initialize", "src/rpmalloc.c:rpmalloc_thread_finalize", "src/rpmalloc.c:rpmalloc_init", "src/rpmalloc.c:rp_free", "src/rpmalloc.c:set_thread_heap", "src/rpmalloc.c:rpmalloc_set_main_thread"]}
{"id": "C158", "title": "Overdue timers are called one per pass of the loop, in order, and pending timers keep the loop alive", "statement": "Of the timers that are overdue when a pass of events_once begins, the passes call exactly one each, in the order of their due times, whatever timers the callbacks of descriptors, timers and tasks start meanwhile; the n-th is called before n passes' worth of time is over. A pass with a task present does not wait. While a timer is pending events_is_running is true and events_once returns at least 1; with one-shot timers alone each is called once, events_once returns the number left, and events_is_running becomes false with the last.", "quantifier": "all lists of timers, all numbers of passes, all things callbacks do within the rules of C21, all clocks that do not run backwards, all times to wait", "why_tests_cant": "The order depends on timers that callbacks start and on clock readings; tests try a few of each.", "anchors": ["src/events.c:events_once", "src/events.c:events_execute", "src/events.c:events_is_running", "src/epoll.c:events_poll_once_internal"]}
{"id": "C159", "title": "A timer is called soon after it is due", "statement": "events_once waits no longer than until the next timer is due, and a due timer is called in the pass that finds it due.", "quantifier": "all lists of timers, all times to wait, all signals that arrive", "why_tests_cant": "Delays add up with the number of timers due together and depend on when signals arrive.", "anchors": ["src/events.c:events_once", "src/events.c:events_execute", "src/events.c:events_is_running", "src/epoll.c:events_poll_once_internal"]}
{"id": "C160", "title": "A parsed URI with a known scheme is freed whole, once", "statement": "If parse_uri_ex accepts a text whose scheme it knows, the record and each part that is there lie in separate new blocks of memory; uri_free gives back exactly these and nothing else, and a second uri_free of the same record is the caller's error.", "quantifier": "all texts, host names and contents of the heap, with memory available", "why_tests_cant": "A part forgotten or freed twice shows only for texts with just that combination of parts, and only with a checking allocator.", "anchors": ["src/arrays.c:parse_uri_ex", "src/arrays.c:uri_free", "src/arrays.c:url_parse_ex2", "src/arrays.c:uri_dup"]}
{"id": "C161", "title": "No URI, accepted or refused, loses memory, and a lack of memory is reported", "statement": "After parse_uri_ex refused a text, or after uri_free of any record it gave, the heap is as before; if memory runs out, parse_uri_ex returns NULL.", "quantifier": "all texts, all patterns of failing allocations", "why_tests_cant": "Failing allocations and lost blocks are not seen by tests of the result.", "anchors": ["src/arrays.c:parse_uri_ex", "src/arrays.c:uri_free", "src/arrays.c:url_parse_ex2", "src/arrays.c:uri_dup", "src/arrays.c:scheme_type"]}
{"id": "C162", "title": "On 32-bit Windows the destructors of a thread's values are called once each when it ends", "statement": "As long as no key is deleted: when a thread ends, for every key made with a destructor under which the thread has a value that is not null, the destructor is called with that value, once, in the order in which keys were made, and no destructor is called at any other time; making a key succeeds exactly if the system gives one and, with a destructor, fewer than 1088 were asked for. Whatever is deleted, a key reads what was stored under it since it was last made or deleted (null if nothing), and the program holds exactly the keys it was given, less those deleted and those given back because no slot was left.", "quantifier": "all sequences of creations, stores and thread ends, all threads, all answers of the system, all numbers of slots", "why_tests_cant": "Needs a 32-bit Windows and many threads and keys.", "anchors": ["src/rpmalloc.c:rpmalloc_tls_create", "src/rpmalloc.c:rpmalloc_tls_delete", "src/rpmalloc.c:impl_tls_dtor_register", "src/rpmalloc.c:impl_tls_dtor_invoke", "src/os_windows.c:os_tls_alloc"]}
{"id": "C163", "title": "Deleted keys and the allocator's own key do no harm on 32-bit Windows", "statement": "A deleted key's destructor is never called again and its slot can be used again, and the allocator keeps its per-thread heap under a key of its own.", "quantifier": "all sequences of creations, deletions, stores and thread ends", "why_tests_cant": "Shows only when the system gives a number out again, or when another module owns the first key.", "anchors": ["src/rpmalloc.c:rpmalloc_tls_create", "src/rpmalloc.c:rpmalloc_tls_delete", "src/rpmalloc.c:impl_tls_dtor_register", "src/rpmalloc.c:impl_tls_dtor_invoke", "src/os_windows.c:os_tls_alloc", "src/rpmalloc.c:get_thread_heap_raw", "src/rpmalloc.c:set_thread_heap", "src/rpmalloc.c:rpmalloc_initialize_config"]}
{"id": "C164", "title": "Every thread the library starts has its own place and loop, and gets its share of the work", "statement": "Whatever loops, futures and task pools the main thread asks for, and whatever allocation or thread start fails on the way, as long as no call went wrong: each running thread has a place of its own between 1 and the number of cores and works with the loop of that number; go() hands tasks only to running threads of tasks and queue_work only to running threads of futures, every such thread is reached, and without a thread of tasks go() panics.", "quantifier": "all numbers of cores, all sequences of calls, all patterns of failures", "why_tests_cant": "The number of cores is fixed on a test machine and failures of allocation or thread start hardly occur.", "anchors": ["src/events.c:events_create_pool", "src/events.c:events_create_future", "src/events.c:events_init_pool", "src/events.c:events_init_loop_internal", "src/epoll.c:events_create", "src/events.c:go", "src/future.c:futures_pool"]}
{"id": "C165", "title": "events_init_pool uses every core", "statement": "If nothing fails, events_init_pool(count) returns the main thread's loop and starts one thread on each core: max(1, min(count, cores)) for futures, the rest for tasks; successive go() and queue_work() calls go round all of them in turn; connections are given to threads of tasks. (Refuted if the main thread made two or more loops before, and for the first connection when all cores are futures: the table of threads is read behind its end.)", "quantifier": "all numbers of cores, all counts, all numbers of loops made before", "why_tests_cant": "Depends on the number of cores; reading one place behind a table usually goes unnoticed.", "anchors": ["src/events.c:events_create_pool", "src/events.c:events_create_future", "src/events.c:events_init_pool", "src/events.c:events_init_loop_internal", "src/epoll.c:events_create", "src/events.c:accept_handler", "src/async_uds.c:uds_handler", "src/async_tls.c:tls_handler"]}
{"id": "C166", "title": "At the end every thread is joined once, and every queue and loop freed once", "statement": "Leaving the library tells all threads to stop, joins each exactly once, frees every queue and the loop of every thread once, and touches nothing freed. (Holds if nothing failed before and the program destroyed no loop. Refuted for the usual ending, in which the program destroys the loop it was given; for threads that did not start; and thrd_pool_shutdown for more loops than cores.)", "quantifier": "all numbers of cores, all histories of calls before", "why_tests_cant": "Using a freed loop once at exit rarely shows.", "anchors": ["src/deque.c:deque_destroy", "src/events.c:events_deinit", "src/events.c:__future_wrapper", "src/events.c:__tasks_pool_wrapper", "src/future.c:thrd_pool_shutdown", "src/epoll.c:events_destroy"]}
{"id": "C167", "title": "Asking for a thread tells truly whether there is one", "statement": "events_create_pool returns 0 exactly if a thread of tasks works with the loop, events_create_future the new future exactly if its thread runs; failing calls leave nothing behind and are not used further. (Refuted: for the main thread's own loop and on a second attempt 0 is returned without any thread; a loop whose poller could not be made remains the main thread's loop after it was freed; a connection handler uses a loop that could not be made.)", "quantifier": "all numbers of cores, all histories of calls before, all patterns of failures", "why_tests_cant": "Needs failures of the kernel at particular moments.", "anchors": ["src/events.c:events_create_pool", "src/events.c:events_create_future", "src/events.c:events_init_pool", "src/events.c:events_init_loop_internal", "src/epoll.c:events_create", "src/events.c:accept_handler"]}
{"id": "C168", "title": "The names of the certificate, the request and the key go together", "statement": "Whatever the program called before, cert_file, csr_file and pkey_file, asked for in any order, answer the same directory followed by the same host name and .crt, .csr or .key, with nothing cut off, and answer the same when asked again. The directory is none, ./, ../ or a path given to use_certificate, cut to PATH_MAX-1 bytes; the host is what gethostname gave, or localhost.", "quantifier": "all sequences of calls (with restarts of the program), all host names and paths, all sizes of the buffers, all failures of the system's calls", "why_tests_cant": "The names live in static buffers filled at the first use; a test process sees one order of calls only.", "anchors": ["src/async_tls.c:cert_file", "src/async_tls.c:csr_file", "src/async_tls.c:pkey_file", "src/async_tls.c:cert_names_setup", "src/async_tls.c:default_cert_file", "src/async_tls.c:events_hostname"]}
{"id": "C169", "title": "The directory given to use_certificate is where the files are", "statement": "The first use_certificate with a path that is not empty and fits chooses the directory of the three names for the rest of the program, and the first use_ca_certificate the file of trusted authorities. (Refuted: after default_cert_path no use_certificate has any effect on the names, and a name asked for before use_certificate is not the one asked for later.)", "quantifier": "all calls before and after, all paths, all host names", "why_tests_cant": "No test calls use_certificate; the one example that does calls it once, with no path, before anything else.", "anchors": ["src/async_tls.c:cert_file", "src/async_tls.c:csr_file", "src/async_tls.c:pkey_file", "src/async_tls.c:cert_names_setup", "src/async_tls.c:default_cert_file", "src/async_tls.c:events_hostname", "src/async_tls.c:use_certificate", "src/async_tls.c:default_cert_path", "src/async_tls.c:use_ca_certificate"]}
{"id": "C170", "title": "A server or client without a certificate gets a certificate and its key, and no other pair is lost", "statement": "If the system's calls succeed, a program that begins with use_certificate(NULL) loads a certificate and the key it was made for, whatever it does afterwards and however often it is started again in the same directory; so does a program that begins with use_secure_client and never calls use_certificate. Starts with use_certificate(NULL) at which making or writing key, certificate or marker fails or is cut short, any number of them, do not prevent that: the next start whose calls succeed loads a pair. Programs that call none of use_certificate(NULL), use_secure_client and x509_self_export write no file. (Refuted: a client's and a server's program in the same directory, either order; one program calling both works once only; use_secure_client overwrites the pair given by use_certificate(path); use_certificate(NULL) overwrites a pair in .. if the marker file is missing; a failing write leaves a new key with the old certificate; a write that is cut short destroys the old certificate.)", "quantifier": "all sequences of calls, any number of runs, all host names, all contents of the directory", "why_tests_cant": "No test calls use_certificate or use_secure_client, so none looks at what two programs or two runs in one directory leave there; that the files of every sequence of calls fit together needs every prior content of the directory.", "anchors": ["src/async_tls.c:use_certificate", "src/async_tls.c:use_secure_client", "src/async_tls.c:create_self_ex", "src/async_tls.c:default_cert_file", "src/async_tls.c:x509_self_export", "src/async_io.c:fs_touch"]}
{"id": "C171", "title": "events_now counts nanoseconds and never goes back", "statement": "events_now answers the nanoseconds of a clock that only goes forward; the difference of two answers is the time between the calls. (Holds on 64-bit Unix for 292 years while clock_gettime succeeds, on Windows while the counter times 10^9 is below 2^63. Refuted: with a 32-bit time_t the multiplication overflows from the third second on; on Windows after 922 seconds at 10^7 counts a second, before events_init - division by 0 - and in the fallback; a call for which the monotonic clock fails answers the time of day.)", "quantifier": "all readings of the system's clocks, all frequencies", "why_tests_cant": "A test sees the readings of its own machine only; overflow depends on the uptime, on the frequency of the counter and on the width of time_t.", "anchors": ["src/events.c:events_now", "src/events.c:events_timeofday", "src/events.c:events_init"]}
{"id": "C172", "title": "The time of day is exact to the resolution of the clock", "statement": "On Windows events_timeofday answers the seconds and microseconds since 1970 of the system time, exact to the millisecond, and the nanoseconds by which timers and sleeping tasks are measured are those of the time of day. (Until January 2038; refuted later: the seconds are negative.)", "quantifier": "all system times, all sizes of long and time_t", "why_tests_cant": "Dates to come.", "anchors": ["src/events.c:events_timeofday", "src/events.c:events_nsec"]}
{"id": "C173", "title": "A deferred function runs at the end of the guard it was deferred in, whoever else is in a guard", "statement": "A function deferred inside a guard runs when that guard ends, one deferred outside when its task or thread ends, latest first, and nothing freed is used. (Holds if the guards of each thread end in the reverse order in which they began and only the task of the innermost open guard defers. Refuted for tasks that switch inside guards: a task in no guard, or in an outer one, defers into the guard of another task; a task in its guard dereferences null when another left first; afterwards the thread keeps a pointer to a freed guard, which the next exception or a later defer uses.)", "quantifier": "all numbers of threads and tasks, all schedules, any nesting", "why_tests_cant": "A test runs few interleavings of few tasks, and the guards of the tests enclose no switch to another task with a guard of its own.", "anchors": ["include/except.h:guard", "include/except.h:guarded", "src/except.c:guard_init", "src/except.c:guard_reset", "src/except.c:get_scope", "src/except.c:scope_is_guarded", "src/except.c:scope_deferred", "src/events.c:deferred"]}
{"id": "C174", "title": "An exception inside a guard is told to that guard, one outside to the program's handler", "statement": "An exception raised in the innermost open guard is recorded in that guard, and with no open guard the program's exception handler hears of it. (Holds if the guards of the whole process end in the reverse order in which they began. Refuted: while one thread is in a guard the handler is not told of exceptions in other threads; of two threads in guards the one that entered last is not told if the other leaves first; after both left the handler is never called again.)", "quantifier": "all numbers of threads and tasks, all schedules, any nesting", "why_tests_cant": "Depends on the order in which threads enter and leave guards.", "anchors": ["include/except.h:guard", "include/except.h:guarded", "src/except.c:guard_init", "src/except.c:guard_reset", "src/except.c:get_scope", "src/except.c:scope_is_guarded", "src/except.c:scope_deferred", "src/events.c:deferred", "src/except.c:ex_throw", "src/except.c:guard_set"]}
{"id": "C175", "title": "An exception goes to the innermost try block of the task that threw it", "statement": "Whatever other tasks do, an exception goes to the innermost try block of the task or thread that threw it and releases what was protected in that block, latest first; outside of all blocks it ends the program. (Holds if the blocks of each thread end, or come to their finally part, in the reverse order in which they began, and only the task of the latest throws or protects meanwhile. Refuted for tasks that switch inside blocks: the exception of a task in no block, or in an earlier one, jumps into the block of another task; its protections are released by the other; after two tasks left in the order in which they entered, every exception jumps into a block that is gone; a finally part takes the block of another task away, whose exception then ends the program.)", "quantifier": "all numbers of threads and tasks, all schedules, any nesting of blocks and protections", "why_tests_cant": "No test has two tasks of one thread inside try blocks at once; a jump into a dead or foreign stack frame may seem to work.", "anchors": ["include/except.h:try", "include/except.h:unprotected", "src/except.c:try_start", "src/except.c:try_finish", "src/except.c:try_finallying", "src/except.c:ex_throw", "src/except.c:ex_protect_ptr", "src/except.c:ex_local"]}
{"id": "C176", "title": "Memory given to defer_free is released once, whatever is in it", "statement": "When a task ends, every deferred function is called once with its argument and every block given to defer_free, by the program or by str_trim, str_dup and the like, is released once, the latest first; nothing else is called, and the contents of the blocks do not matter. (Holds if no text begins with one of the bytes 21, 35, 36, 37 followed by three zeros, as far as it goes on, and if before no block, at the distance of an array's head, stands one of the numbers 31 to 34. Refuted: a copied text can be made such that any function is called with any argument; the copy of \"%\" calls whatever stands behind its block, those of \"#\" and \"$\" do that and are never released; the copy of \" \" is released twice if another block begins as far behind it as an array's elements behind its head.)", "quantifier": "all programs of copies, printed texts, deferred functions, arrays and objects, all places of the blocks, all sizes of an array's head, all contents of memory, whatever the allocator writes into freed blocks", "why_tests_cant": "The contents that are taken for something else are few among all contents, and no test defers one of them; which block stands before another depends on the allocator.", "anchors": ["src/events.c:defer_free", "src/events.c:deferred_unwind", "src/events.c:deferred", "src/except.c:scope_unwind", "src/arrays.c:is_data", "src/arrays.c:data_type", "src/arrays.c:str_trim", "src/arrays.c:data_delete"]}
{"id": "C177", "title": "mem_printf returns the text and its length, and the text is released later", "statement": "mem_printf returns the formatted text, sets the count to its length, and the memory is released when the task ends. (Holds for texts that are not empty where vasprintf takes its memory from the library's allocator. Refuted: for an empty text NULL is returned, the count is not set and the memory never released; where vasprintf is the C library's and the library has its own allocator, the memory is never released or the allocator is destroyed.)", "quantifier": "all texts, both kinds of vasprintf, all contents of the page that the allocator looks at", "why_tests_cant": "No test calls mem_printf; what the allocator finds in memory that is not its own is a matter of chance.", "anchors": ["src/arrays.c:mem_printf", "src/arrays.c:vasprintf", "src/rpmalloc.c:rpfree", "src/rpmalloc.c:rpmalloc_is_valid", "src/events.c:events_init"]}
{"id": "C178", "title": "A task that asks for a host's address gets the address of that host", "statement": "async_gethostbyname followed by gethostbyname_ip gives a task the text of the first address of the name it asked for, whatever other tasks do meanwhile, and an unknown name is reported. (Holds if no other request is served until the task has called gethostbyname_ip, and no task calls it until the text has been read. Refuted: otherwise the task gets the address of another task's name or sees its text change, the C library's record and the buffer being one for all tasks, also of several threads; for an unknown name gethostbyname_ip reads through NULL.)", "quantifier": "all tasks, names, threads that serve requests, states and interleavings of other tasks' requests, all answers of the system", "why_tests_cant": "The test asks for one name in one task.", "anchors": ["src/async_io.c:async_gethostbyname", "src/async_io.c:gethostbyname_ip", "src/async_io.c:os_gethostbyname", "src/future.c:future_buffer", "src/events.c:active_future", "src/events.c:__tasks_pool_wrapper"]}
{"id": "C179", "title": "async_inet_pton stores an address of the wanted family and looks names up only if told to", "statement": "async_inet_pton returns 1 exactly if the text is known to the system and has an address of the wanted family that fits into the destination; it then stores the first of these, otherwise nothing; it never writes behind the destination; a text that is not a number is looked up only if resolve_src is set. (Refuted: the last address is stored, not the first; and names are looked up in any case.)", "quantifier": "all texts, families, lists of addresses, sizes of the destination, contents of memory", "why_tests_cant": "Depends on the answers of name servers; a name in brackets is not tested.", "anchors": ["src/async_io.c:async_inet_pton"]}
{"id": "C180", "title": "Errors of the TLS library are reported, the oldest first", "statement": "events_ssl_error prints the oldest error of the TLS library's queue, so that calling it until the queue is empty reports each error once in the order of occurrence, and it prints nothing if there is none. (Refuted: the oldest error is taken and dropped; the next one, or \"no error\", is printed. Calls until the queue is empty report every second error. A text of 64 bytes or more is written behind the buffer where MAXHOSTNAMELEN is 64.)", "quantifier": "all sequences of errors, all lengths of texts, all numbers of errors that the library keeps", "why_tests_cant": "What is printed is not checked by any test; errors with texts of more than 63 bytes are rare.", "anchors": ["src/async_tls.c:events_ssl_error"]}
{"id": "C181", "title": "x509_str returns the text of a certificate", "statement": "x509_str returns the details (if asked for) followed by the certificate's text, and NULL if the certificate is NULL or a call of the TLS library fails. (Holds if the byte behind the text in the TLS library's buffer happens to be zero; the result always begins with the text. Refuted: the buffer is not ended by a zero byte: what stands behind the text becomes part of it, and if the text fills the buffer exactly, memory behind it is read.)", "quantifier": "all texts and all ways of writing them in pieces, all contents of the allocator's memory", "why_tests_cant": "Fresh memory is mostly zero; the exact fit depends on the length of the certificate.", "anchors": ["src/async_tls.c:x509_str"]}
{"id": "C182", "title": "Protected memory is released when an exception leaves a try block, whatever was fenced in it", "statement": "When an exception leaves a try block, the memory of every pointer protected in it is released once, the latest first, however many blocks were fenced in between. (Holds with at most one fence in the scope. Refuted: a scope has one record for all its fences; a second fence makes the chain of records lead back to itself, and nothing that was protected before the first of the last two fences is released.)", "quantifier": "all sequences of protections and fences, all addresses", "why_tests_cant": "The tests fence one block at a time.", "anchors": ["src/except.c:fence", "src/except.c:ex_protect_ptr", "src/except.c:ex_unwind_stack", "src/except.c:ex_throw"]}
{"id": "C183", "title": "trying returns a value that stays valid until the scope ends", "statement": "trying returns a value that holds what tryFunc returned, or, after an exception, what catchFunc returned (0 without catchFunc); finalFunc is called once with it; the value stays valid until the scope ends and is then released once. (Holds outside guards, or without exceptions, as long as no exception leaves the enclosing try block. Refuted: in a guard, an exception in tryFunc releases the value before catchFunc's result is stored in it; an exception that leaves the enclosing try block later releases what trying returned, as if it were the value's address.)", "quantifier": "all numbers of calls, all results, with and without catchFunc and finalFunc", "why_tests_cant": "No test calls trying; memory that was just released often still holds what is written to it.", "anchors": ["src/except.c:trying", "src/except.c:fence", "src/except.c:guard_set", "src/except.c:scope_unwind", "src/except.c:ex_unwind_stack"]}
{"id": "C184", "title": "Deferred functions are called when the program ends", "statement": "When the program ends, by exit, by an exception nobody catches or by a signal nobody catches, the functions that were deferred outside of guards and tasks are called once each, the latest first. (Holds for the thread that ends the program, for exit and for exceptions if no signal came before, as long as none of the functions throws; the first one to be called may throw when an exception ends the program. Refuted: after a signal, caught or not, the functions are not called if the first of them was deferred in a try block; functions of other threads are not called; a thread that deferred nothing calls those of the thread that deferred first, while that still runs or when its memory is gone; a function that throws after another was called makes the records of those before be read and freed again.)", "quantifier": "all threads, all sequences of deferrals, try blocks, caught exceptions and signals, ends of threads", "why_tests_cant": "A test ends once; the order of the first deferral, a caught signal and the end is never varied, and other threads have no deferred functions.", "anchors": ["src/except.c:scope_destroy", "src/except.c:scope_init", "src/except.c:scope_unwind", "src/except.c:ex_terminate", "src/events.c:deferred"]}
{"id": "C185", "title": "A program that ends by an exception says which one, and calls the registered functions once", "statement": "A program that ends by an exception or signal nobody catches first prints its text; the functions registered for termination and control-C are called at most once, the latter only if SIGINT came; there is one end, and nothing is printed or called before or after it. (Refuted for the text: if the exception is thrown by the release function of a protected pointer while another exception leaves a block, the text is empty.)", "quantifier": "all sequences of calls in all threads, all deferred functions, throwing or not", "why_tests_cant": "The registered functions and the printed line are not looked at by any test.", "anchors": ["src/except.c:ex_terminate", "src/except.c:ex_throw", "src/except.c:ex_handler", "src/except.c:ex_print"]}
{"id": "C186", "title": "Linux: a copied file holds what the original holds", "statement": "fs_copyfile, when it reports success, has made a file with the bytes of the source, and it ends. (Shown exactly: if nobody writes to the source, the copy is complete if and only if the first transfer by the system that moves anything moves everything; it ends if each transfer moves something. Refuted: a file longer than the system moves at once, 2147479552 bytes, loses its end, or every second piece of that size, with success reported; so does any file if the system moves only a part; if the source is emptied by another meanwhile, the call never returns.)", "quantifier": "all contents and lengths of the source, all sizes of the system's transfers, all writes of others to the source", "why_tests_cant": "Tests copy a few bytes, which one transfer moves; the error needs a file of more than 2 GB or a short transfer.", "anchors": ["src/os_unix.c:copyfile", "src/async_io.c:fs_copyfile"]}
{"id": "C187", "title": "Linux: a copy that fails says so and loses nothing", "statement": "fs_copyfile closes each descriptor it opened once, answers 0 exactly if opening, creating, measuring and all transfers succeeded and -1 otherwise, leaves the source alone, and leaves the destination alone if the source cannot be opened or the destination cannot be made. (Refuted: a file copied onto itself is emptied with success reported; a failure later on has destroyed the former destination; bytes the system could not store are not noticed.)", "quantifier": "all outcomes of the system's calls, all contents", "why_tests_cant": "Tests neither make a transfer or close fail nor copy a file onto itself.", "anchors": ["src/os_unix.c:copyfile", "src/async_io.c:fs_copyfile"]}
{"id": "C188", "title": "What a function gives back with $ is what its caller gets", "statement": "A function run by thrd_async or queue_work that makes arrays with $ ($$, thrd_data) and returns one of them gives its caller the values of that one, and its arguments stay as they were given. (Shown: in the pool, any number of jobs one after the other, and in threads started without arguments, for as many values as a new array holds; in a thread with arguments if $ is called once and the arguments are not read afterwards. Refuted: in a thread with arguments every $ is the array of the arguments, so a second $ replaces the values of the first and each overwrites the arguments from the front; with one value more than a new array has room for, 4 on a machine with one processor, the array is used after it was moved.)", "quantifier": "all functions as sequences of making arrays, reading arguments and deferring; all arguments, values and results; all capacities", "why_tests_cant": "The examples call $ once with one value, as the last thing before they return.", "anchors": ["src/future.c:thrd_data", "src/future.c:_thrd_wrapper", "src/future.c:promise_set", "src/events.c:__future_wrapper", "src/arrays.c:data_ex"]}
{"id": "C189", "title": "What a pool job makes and defers is cleaned up after it", "statement": "After a job of the pool its arguments and the arrays it made with $ are released, each once, and the functions it deferred have run. (Shown exactly: the arguments and the array that is returned are released once, and the deferred functions of a thread of its own run, latest first. Refuted: arrays that a job makes and does not return stay allocated; nothing that a job defers ever runs, whatever the jobs are, and it piles up in an array that is used after it was moved; a job that returns its arguments, or the first job of a worker that returns an array made otherwise, leads to a use of released memory or of a null pointer.)", "quantifier": "all sequences of jobs of a worker, all functions, arguments and results", "why_tests_cant": "Leaks and functions that do not run are not noticed by tests that look at results; no test defers anything within a job.", "anchors": ["src/events.c:__future_wrapper", "src/events.c:deferred", "src/events.c:active_task", "src/future.c:queue_work", "src/future.c:_thrd_wrapper"]}
{"id": "C190", "title": "Keys and certificates are released once", "statement": "A caller that releases what rsa_pkey, x509_self and x509_self_req gave it, once, and uses only what it still has, never touches a released key or certificate, and nothing is left after its scope has ended; keys and certificates read from files are released with the scope; a failing call leaves nothing behind; a key that is given is new and complete. (Shown for OpenSSL 3.0 and later, whatever its calls answer. Refuted: with OpenSSL 1.1.1 a key whose generation fails is released twice, and writing the key NULL reads through it; x509_self_export without memory for its key can leave a generated key that nobody knows.)", "quantifier": "all sequences of calls of a careful caller, all answers of OpenSSL, all key lengths and texts", "why_tests_cant": "Needs failures of single OpenSSL calls at every position; leaks and double releases are not seen by checks of results.", "anchors": ["src/async_tls.c:rsa_pkey", "src/async_tls.c:generate_pkey_ex", "src/async_tls.c:x509_self", "src/async_tls.c:x509_self_req", "src/async_tls.c:create_self_ex", "src/async_tls.c:x509_self_export", "src/async_tls.c:pkey_get", "src/async_tls.c:x509_get"]}
{"id": "C191", "title": "A certificate says what was asked for", "statement": "x509_self and x509_self_req give a signed certificate for the caller's key, valid for a year, with the country, organization and domain (or the defaults) as subject and issuer, x509_self_req with the serial number and the seven extensions, among them the alternative names; if one of these cannot be had they give none. (Shown for texts that fit and extensions that OpenSSL makes, and that there is none without a key. Refuted: an extension that OpenSSL refuses, such as badly written alternative names, and a domain of more than 64 bytes are left out, and the certificate is given nevertheless.)", "quantifier": "all keys, texts, serial numbers and all answers of OpenSSL to the requests for extensions", "why_tests_cant": "The tests only look whether a certificate is given.", "anchors": ["src/async_tls.c:x509_self", "src/async_tls.c:x509_self_req", "src/async_tls.c:add_ext"]}
{"id": "C192", "title": "A thread is waited for at most as long as was said", "statement": "os_join returns 0, with the exit code the thread gave to os_exit or returned, when the thread ends within the time given (-1: any time); otherwise it fails with ETIMEDOUT after that time, neither earlier nor later, and can be called again until the thread is joined; calling it again after that fails. (Shown with timed joins, on Linux and Windows, for every time, every start of the clock within a second and every number of repetitions. Refuted: where there are none, on Android, macOS and the BSDs, the time is ignored, also 0, and the call does not return before the thread ends; a further call after success or os_detach is undefined except on Windows, as is the os_detach after os_join in tests/test-thread.c.)", "quantifier": "all times, clocks, threads, exit codes, and sequences of calls", "why_tests_cant": "The carry into the seconds depends on the moment the test runs; tests wait for threads that end.", "anchors": ["src/os_unix.c:os_join", "src/os_unix.c:_timespec_addms", "src/os_unix.c:os_exit", "src/os_unix.c:os_detach", "src/os_windows.c:os_join", "src/os_windows.c:os_detach"]}
{"id": "C193", "title": "events_fd_type tells what a descriptor is", "statement": "events_fd_type gives the kind of a descriptor (regular file, directory, device, pipe, link, socket), unknown for any other, and -1 for what is no descriptor, so that a caller finds errors with < 0. (Shown on Unix for every mode: the kind depends on the four bits above the permissions only, and an error is none of the kinds. Refuted: fd_types is unsigned with gcc and clang, so that the error is not negative; on Windows every descriptor is unknown, as the address of the parameter is taken for the handle, and even with the handle a file with any attribute besides one of three is unknown.)", "quantifier": "all modes, descriptors, attributes and handles", "why_tests_cant": "No test calls it; the Windows part gives a legal answer.", "anchors": ["src/events.c:events_fd_type", "include/events.h:fd_types"]}
{"id": "C194", "title": "os_affinity binds a thread to the processors of its mask", "statement": "After os_cpumask_set for any processors, in any order, os_affinity lets the thread run on exactly those of them that there are and gives 0, or leaves the thread as it was and gives an error. (Shown on Linux, where numbers from 1024 on are ignored, and on Windows for numbers below the width of size_t, where one processor that the process does not have makes the call fail. Refuted: a greater number is undefined on Windows; on macOS numbers from 31 on and a mask of no processor are undefined, only the smallest number counts, and sched_getaffinity on a machine of more than 31 cores is undefined.)", "quantifier": "all lists of processors, all sets of processors of the machine, all earlier masks", "why_tests_cant": "The one test sets processor 0; the failures need machines with more than 31 or 64 processors.", "anchors": ["src/os_unix.c:os_cpumask_set", "src/os_unix.c:os_affinity", "src/os_unix.c:pthread_setaffinity_np", "src/os_windows.c:os_cpumask_set", "src/os_windows.c:os_affinity", "src/os_unix.c:sched_getaffinity"]}
{"id": "C195", "title": "events_tcp_timeout limits reading and writing", "statement": "events_tcp_timeout(fd, ms) lets a blocking read or write of the socket wait for at most ms milliseconds, 0 meaning no limit; it gives 0 exactly if both limits were set, and a limit that could not be set stays as it was. (Shown for 0 to 2147483 milliseconds, and on Windows for every int. Refuted: more than 2147483 milliseconds, about 36 minutes, overflow an int and are undefined; negative times of whole seconds are taken, for no waiting at all, where other negative times are refused; on Windows a negative time is one of up to 49 days.)", "quantifier": "all times, earlier limits, and failures of either call", "why_tests_cant": "No test sets a limit; an overflow gives some legal limit on most machines.", "anchors": ["src/events.c:events_tcp_timeout"]}
{"id": "C196", "title": "os_sleep sleeps for the time given", "statement": "os_sleep(ms) returns 0 after ms milliseconds. (Shown if no signal is handled meanwhile. Refuted: a signal ends the sleep with -1, and the rest of the time is not slept and not told.)", "quantifier": "all times and moments of a signal", "why_tests_cant": "Needs a signal within the sleep.", "anchors": ["src/os_unix.c:os_sleep"]}
{"id": "C197", "title": "Blocking mode of descriptors", "statement": "events_set_nonblocking and events_set_blocking give 0 and change the blocking mode of the open file and nothing else about it, for every descriptor that shares the open file and no other; for what is no descriptor they give -1 and change nothing.", "quantifier": "all flags, tables of descriptors with any sharing, positions of the flag", "why_tests_cant": "Tests look at the effect on one descriptor, not at the other flags and descriptors.", "anchors": ["src/events.c:events_set_nonblocking", "src/events.c:events_set_blocking"]}
{"id": "C198", "title": "Named pipes are found by their names (Unix)", "statement": "After os_mkfifo(name), os_open of that name, or of its full path, opens the pipe that was made, and every other name opens what it names. (Shown for every sequence of pipes as long as the table of descriptors has room, for names that fit into 260 bytes with the directory and do not begin with it. Refuted: with a full table the pipe is made but its name opens a file of the current directory; if making the pipe fails, its name stands for the path in the directory of pipes all the same; names that are too long are cut, so that different names are the same pipe.)", "quantifier": "all sequences of pipes, names, sizes of the table, directories of pipes, and failures", "why_tests_cant": "Tests make one pipe; a full table needs 255 of them, and nothing frees the slot of a pipe that was not opened.", "anchors": ["src/os_unix.c:os_mkfifo", "src/os_unix.c:os_open", "src/os_unix.c:events_pseudo_fd"]}
{"id": "C199", "title": "The memory of a task is given back once, and only when it has ended", "statement": "Deleting a task that has ended (dead, erred or finished) gives its memory back; deleting one that is running, has not started, sleeps or is in an event only sets its error code and leaves the rest. Unwinding a task gives it back in any state together with its data. (Refuted: a task that has given way to another one counts as ended when it is deleted, so that its memory is gone before it goes on; deleting a task twice reads memory that was given back, as the mark that should prevent it is in there; deleting a running task, as after an interrupt, never gives it back.)", "quantifier": "all sequences of changes of state, of data, and of deletions of a task", "why_tests_cant": "A read of freed memory usually still finds the cleared mark; tests do not interrupt a program and count its memory.", "anchors": ["src/events.c:task_delete", "src/events.c:events_task_unwind", "src/events.c:events_ctr_c_unwind"]}
