{"id": "C01", "title": "FIFO, exactly once (ring without DROP/FARM)", "statement": "On a ring created without SHR_DROP/SHR_FARM, the concatenation (in lock order) of all messages put into the ring by any writers equals the concatenation (in lock order) of all messages handed to any readers, followed by the messages still unread. No message is lost, duplicated, reordered or altered, whatever mix of shr_write, shr_writev, shr_read, shr_readv, shr_flush, shr_close, blocking and non-blocking calls is made.", "quantifier": "every ring geometry (size, max messages), every number of readers and writers, every interleaving of their calls, wake-ups and deaths outside a critical section, every message content and size", "why_tests_cant": "tests exercise a few sizes and schedules; wrap-around offsets, slot reuse and interleavings are unbounded", "anchors": ["src/shr.c:shr_writev", "src/shr.c:shr_readv", "src/shr.c:next_msg_info"]}
{"id": "C02", "title": "Message boundaries and bytes are preserved in every mode", "statement": "Every message returned by shr_read/shr_readv, in any ring mode (plain, DROP, FARM), is byte for byte one message written earlier with the same boundary, even when it wraps around the end of the data area; one consumer position advances strictly through the write history.", "quantifier": "every ring geometry, mode, history of writes/reads, every wrap position", "why_tests_cant": "the split of a message at the end of the ring depends on unboundedly many (offset, length) combinations", "anchors": ["src/shr.c:shr_writev", "src/shr.c:next_msg_info", "src/shr.c:shr_readv"]}
{"id": "C03", "title": "writev is all or nothing and contiguous", "statement": "A call of shr_writev/shr_write either appends all its messages to the ring, consecutively and with no other writer's message between them, and returns the total byte count; or leaves the ring content exactly as it was (return 0 or negative).", "quantifier": "every ring state reachable, every iovec, every writer mode; environment without failing syscalls", "why_tests_cant": "needs all interleavings and all ring fill levels", "anchors": ["src/shr.c:shr_writev"]}
{"id": "C04", "title": "Rejected writes", "statement": "shr_writev returns -1 and changes nothing when the vector is empty, its first element is empty, the total exceeds the ring byte size or the element count exceeds the ring's maximum message count.", "quantifier": "every ring, every vector of real buffers", "why_tests_cant": "the reject condition is a boundary in two unbounded dimensions plus a wrapping 64-bit sum", "anchors": ["src/shr.c:shr_writev"]}
{"id": "C05", "title": "Exact capacity of a ring without DROP", "statement": "A non-blocking write to a ring without SHR_DROP returns 0 exactly when the unread bytes plus the new bytes exceed the ring size, or the unread messages plus the new messages exceed the maximum; otherwise it returns the full length. In particular space of read messages is entirely reusable, with no byte or slot lost to fragmentation.", "quantifier": "every reachable ring state and vector within the total capacity", "why_tests_cant": "off-by-one at wrap and at full ring depends on history", "anchors": ["src/shr.c:shr_writev"]}
{"id": "C06", "title": "DROP mode always accepts and drops the minimum from the oldest end", "statement": "On a SHR_DROP ring a write within the total capacity never blocks, never returns 0; it removes the shortest sequence of oldest unread messages that makes room, keeps every other unread message in order, and appends the new messages.", "quantifier": "every reachable DROP ring state, every acceptable vector", "why_tests_cant": "the number dropped depends on the whole history of sizes", "anchors": ["src/shr.c:drop_unread", "src/shr.c:shr_writev"]}
{"id": "C07", "title": "Readv fills greedily and partitions the caller buffer", "statement": "A successful shr_readv returns the longest sequence of next messages that fits both the caller's buffer and iovec count; the iovec entries tile the front of the buffer in order, each holding exactly one message; bytes past the returned count are untouched; the return value is the sum of the lengths and *iovcnt the number of messages.", "quantifier": "every reachable ring, buffer size and iovec count", "why_tests_cant": "unbounded combinations of message sizes, buffer sizes and counts", "anchors": ["src/shr.c:shr_readv", "src/shr.c:shr_read"]}
{"id": "C08", "title": "Too-small buffer consumes nothing", "statement": "If the next message does not fit the caller's buffer the read returns -2, consumes nothing, and a later read with a big enough buffer gets the same message; a read with a zero-length buffer or zero iovecs returns -1 and consumes nothing.", "quantifier": "every reachable ring and reader", "why_tests_cant": "every state/size combination", "anchors": ["src/shr.c:shr_readv"]}
{"id": "C09", "title": "Non-blocking read returns 0 exactly when nothing is available", "statement": "shr_read/shr_readv on a SHR_NONBLOCK reader returns 0 exactly when no unread message is available to that reader; it never blocks.", "quantifier": "every reachable state", "why_tests_cant": "all states", "anchors": ["src/shr.c:shr_readv"]}
{"id": "C10", "title": "FARM: each reader sees every retained message, in order, gaps counted exactly", "statement": "On a SHR_FARM ring each reader obtains a subsequence of the write history starting at the oldest message retained when it opened; for each reader, at any time after a read call, (messages it got) + (messages shr_farm_stat reported lost) equals the distance its position moved through the write history; messages are skipped only if they had been overwritten in the ring before the reader got to them.", "quantifier": "every number of farm readers and writers and every schedule, for rings that carry fewer than 2^64 messages in total", "why_tests_cant": "needs all interleavings of overwrite and read positions", "anchors": ["src/shr.c:next_msg_info", "src/shr.c:shr_farm_stat", "src/shr.c:shr_open"]}
{"id": "C11", "title": "FARM readers are independent", "statement": "A read by one FARM reader changes neither the ring content nor what any other reader will get nor the room available to writers.", "quantifier": "every FARM ring state, every reader", "why_tests_cant": "all states and readers", "anchors": ["src/shr.c:shr_readv"]}
{"id": "C12", "title": "FARM retention: only overwritten data disappears", "statement": "On a FARM ring a write removes the fewest oldest messages that make room for the new ones; everything else stays readable by every reader; the unread count reported by shr_stat equals the number of messages a reader opening now can read.", "quantifier": "every reachable FARM ring", "why_tests_cant": "all histories", "anchors": ["src/shr.c:drop_unread", "src/shr.c:shr_writev", "src/shr.c:shr_stat"]}
{"id": "C13", "title": "Counters reconcile", "statement": "On a non-FARM ring, in a stats period without failing syscalls, bytes written = bytes read + bytes dropped + change of unread bytes, and likewise for messages (modulo 2^64 counter width). On a FARM ring written = dropped + change of unread.", "quantifier": "every history of operations and resets", "why_tests_cant": "it is a global invariant over histories", "anchors": ["src/shr.c:shr_stat", "src/shr.c:shr_writev", "src/shr.c:shr_readv", "src/shr.c:drop_unread"]}
{"id": "C14", "title": "shr_stat reports the true fill level; reset touches only counters", "statement": "shr_stat's bu and mu are the byte total and number of messages that reads would return now, never above bn and mm; resetting the statistics changes no message and no position.", "quantifier": "every reachable state", "why_tests_cant": "all states", "anchors": ["src/shr.c:shr_stat"]}
{"id": "C15", "title": "No assertion failure, no out-of-bounds access, no unbounded loop", "statement": "For every sequence of well-formed API calls (roles respected, no empty vector element after the first), no assert in the library fails, every memory copy and slot access stays inside its region, unsigned subtractions never wrap, and the internal loops terminate.", "quantifier": "every geometry whose file size fits in off_t, every schedule", "why_tests_cant": "memory safety for all states cannot be sampled", "anchors": ["src/shr.c:shr_writev", "src/shr.c:shr_readv", "src/shr.c:drop_unread", "src/shr.c:next_msg_info"]}
{"id": "C16", "title": "Buffered writer: order and no loss/duplication across cache and flush", "statement": "For a SHR_BUFFERED writer, the messages accepted by its successful writes equal, in order, the messages it has put in the ring followed by those still in its cache; flushes triggered by a full cache, by shr_flush or by shr_close keep that.", "quantifier": "every sequence of buffered writes/flushes/other clients' operations, every ring geometry", "why_tests_cant": "every interaction of cache fullness and ring fullness", "anchors": ["src/shr.c:shr_writev", "src/shr.c:shr_flush", "src/shr.c:shr_close", "src/shr.c:init_cache"]}
{"id": "C17", "title": "The cache can always be flushed in one write", "statement": "The cached data of a buffered writer never exceeds the ring byte size or its maximum message count, so that a flush is never rejected as too large; a flush on an idle large-enough ring puts everything in.", "quantifier": "every ring geometry and sequence of buffered writes", "why_tests_cant": "the cache sizing rule has clamps over the whole range of ring sizes", "anchors": ["src/shr.c:init_cache", "src/shr.c:shr_writev", "src/shr.c:shr_flush"]}
{"id": "C18", "title": "shr_flush and shr_close outcomes", "statement": "shr_flush returns the number of cached bytes and empties the cache when they went in; returns 0 with the cache intact when a non-blocking flush found no room; a blocking flush (wait non-zero, or blocking writer) does not return 0 for non-empty cache; the handle's blocking mode is restored afterwards.", "quantifier": "every reachable writer state", "why_tests_cant": "all states", "anchors": ["src/shr.c:shr_flush", "src/shr.c:shr_close"]}
{"id": "C19", "title": "No lost wake-up for blocked readers", "statement": "A reader blocked in shr_read/shr_readv while data is available to it always has a pending wake-up, so it resumes; resuming in an unchanged ring returns data.", "quantifier": "every schedule of any number of readers and writers that open, close, die, write and read, for rings whose environment has no failing socket calls and unique socket names", "why_tests_cant": "a lost wake-up needs a specific interleaving", "anchors": ["src/shr.c:shr_readv", "lib/bw.c:bw_wake", "lib/bw.c:bw_sync", "lib/bw.c:bw_force", "lib/bw.c:bw_wait_ul"]}
{"id": "C20", "title": "No lost wake-up for blocked writers", "statement": "A writer blocked in shr_write/shr_writev/shr_flush while the ring has room for its data always has a pending wake-up.", "quantifier": "every schedule as above", "why_tests_cant": "a lost wake-up needs a specific interleaving", "anchors": ["src/shr.c:shr_writev", "src/shr.c:shr_flush", "src/shr.c:open_blockwake", "lib/bw.c"]}
{"id": "C21", "title": "The selectable descriptor is readable whenever data is available", "statement": "For every open non-blocking reader that is not inside a call, if a message is available to it then its selectable descriptor is readable; right after a read call that leaves nothing available, it is not readable.", "quantifier": "every schedule as above", "why_tests_cant": "needs all interleavings of several readers and writers", "anchors": ["src/shr.c:shr_get_selectable_fd", "src/shr.c:shr_readv", "src/shr.c:open_blockwake", "lib/bw.c:bw_force"]}
{"id": "C22", "title": "A wake-up reaches every current waiter", "statement": "bw_wake by any waker makes the descriptor of every process currently waiting-registered on the handle readable, including those that registered after the waker connected; registration slots of live waiters are never given away or purged; at most BW_WAITMAX waiters are registered, each in its own slot.", "quantifier": "every history of bw_open/bw_close/bw_wake/bw_force/process death on a handle; sockets names not reused, process probing sound", "why_tests_cant": "history-dependent connection caches and sequence numbers", "anchors": ["lib/bw.c:bw_wake", "lib/bw.c:bw_sync", "lib/bw.c:bw_reserve", "lib/bw.c:prune_handle", "lib/bw.c:bw_close"]}
{"id": "C23", "title": "Slots of dead waiters are reclaimed", "statement": "When waiters die without closing, a later bw_open whose process probe recognises them as dead frees their slots, so that a new waiter registers whenever fewer than BW_WAITMAX live waiters are registered.", "quantifier": "every handle state", "why_tests_cant": "depends on crash history", "anchors": ["lib/bw.c:prune_handle", "lib/bw.c:bw_reserve"]}
{"id": "C24", "title": "shr_init lays out disjoint, aligned regions inside the file", "statement": "When the requested sizes do not overflow, the ring file is exactly control+data+padding+slots+appdata; the regions are disjoint and inside the file, the slot table is 8-byte aligned, the slot table holds exactly the maximum number of messages, and the default maximum is 100 + size/100.", "quantifier": "every data size, max messages and appdata size", "why_tests_cant": "arithmetic over the whole 64-bit range", "anchors": ["src/shr.c:shr_init"]}
{"id": "C25", "title": "shr_init rejects sizes it cannot represent", "statement": "shr_init either fails or creates a ring whose regions lie inside the file (no 64-bit overflow in the size computation goes unnoticed).", "quantifier": "every data size, max messages and appdata size below 2^64", "why_tests_cant": "overflow corner cases", "anchors": ["src/shr.c:shr_init", "src/shr.c:validate_ring"]}
{"id": "C26", "title": "A ring is always reopenable and keeps its content", "statement": "After any history of operations the ring file passes the validation of shr_open, and a process opening it later (after all others have gone) sees the same unread messages: the ring persists independently of the processes.", "quantifier": "every history", "why_tests_cant": "all histories", "anchors": ["src/shr.c:shr_open", "src/shr.c:validate_ring"]}
{"id": "C27", "title": "shr_open accepts only well-formed rings", "statement": "shr_open fails on a file that is too small, has the wrong magic, or whose header does not describe a usable ring.", "quantifier": "every file content", "why_tests_cant": "the set of files is unbounded", "anchors": ["src/shr.c:validate_ring", "src/shr.c:shr_open"]}
{"id": "C28", "title": "SHR_KEEPEXIST and re-creation", "statement": "shr_init on an existing file with SHR_KEEPEXIST returns 0 and changes nothing; without it, the path gets a fresh empty ring while processes that have the old ring open keep using the old one undisturbed.", "quantifier": "every file-system state, every set of open handles", "why_tests_cant": "all states", "anchors": ["src/shr.c:shr_init", "src/shr.c:shr_open"]}
{"id": "C29", "title": "Open flags: reading and writing are mutually exclusive", "statement": "shr_open fails unless exactly one of SHR_RDONLY and SHR_WRONLY is given, and fails if an shr_init-only flag is given.", "quantifier": "every flags value", "why_tests_cant": "2^32 flag values", "anchors": ["src/shr.c:validate_flags", "src/shr.c:shr_open"]}
{"id": "C30", "title": "Application data round trip and isolation", "statement": "shr_appdata get returns the bytes given at creation or by the last successful set; a set with the wrong size returns -1 and changes nothing; ring traffic never changes the application data and shr_appdata never changes messages.", "quantifier": "every history of set/get/ring operations", "why_tests_cant": "all histories", "anchors": ["src/shr.c:shr_appdata", "src/shr.c:shr_init"]}
{"id": "C31", "title": "Application data get with a larger caller buffer is safe", "statement": "shr_appdata get with a caller buffer larger than the data copies only the data and sets *sz to its length.", "quantifier": "every buffer size", "why_tests_cant": "depends on memory layout past the ring file", "anchors": ["src/shr.c:shr_appdata"]}
{"id": "C32", "title": "A process killed in the middle of a write leaves a consistent ring", "statement": "If a writer dies at any point inside shr_writev (the file lock is then released by the kernel), the ring still contains exactly the messages unread before, possibly followed by the dying writer's messages, and remains usable.", "quantifier": "every crash point between two stores of the critical section, every ring state", "why_tests_cant": "crash points cannot be enumerated by unit tests", "anchors": ["src/shr.c:shr_writev", "src/shr.c:drop_unread"]}
{"id": "C33", "title": "The file lock serialises all ring accesses", "statement": "Any fine-grained interleaving of the stores and loads of the critical sections of several processes under the ring lock gives the same ring and the same results as executing the critical sections one after the other, in lock order.", "quantifier": "every number of processes, every fine-grained schedule", "why_tests_cant": "schedules", "anchors": ["src/shr.c:lock", "src/shr.c:unlock", "src/shr.c:shr_writev", "src/shr.c:shr_readv"]}
{"id": "C34", "title": "Empty vector elements are handled", "statement": "shr_writev with an empty element in any position is rejected or stored, but never aborts the process while it holds the ring lock.", "quantifier": "every vector", "why_tests_cant": "position of the empty element is unbounded", "anchors": ["src/shr.c:shr_writev"]}
{"id": "C35", "title": "Write failure means no data was written", "statement": "If shr_write/shr_writev returns -1 then none of its messages is in the ring.", "quantifier": "every environment behaviour (socket, msync failures)", "why_tests_cant": "needs injected kernel failures", "anchors": ["src/shr.c:shr_writev", "lib/bw.c:bw_wake"]}
{"id": "C36", "title": "SHR_POLLFD interrupts exactly blocked calls", "statement": "A blocked read or write returns -3 when a descriptor registered by shr_ctl(SHR_POLLFD) becomes ready, without consuming or writing anything, and no call returns -3 otherwise; a registered descriptor is monitored in every later blocking call.", "quantifier": "every state and history of shr_ctl calls", "why_tests_cant": "all states", "anchors": ["src/shr.c:shr_ctl", "src/shr.c:shr_flush", "lib/bw.c:bw_ctl", "lib/bw.c:bw_wait_ul"]}
{"id": "C37", "title": "Pub/sub framing survives arbitrary segmentation", "statement": "The byte stream produced by `shr-tool pub` for a sequence of messages, cut into arbitrary pieces by the network and fed to `shr-tool sub`, is decoded into exactly the same sequence of messages.", "quantifier": "every list of messages that fit the subscriber's buffer, every segmentation", "why_tests_cant": "segmentations are exponential in number", "anchors": ["util/shr-tool.c:decode_frames", "util/shr-tool.c:do_subscriber", "util/shr-tool.c:handle_io"]}
{"id": "C38", "title": "Subscriber handles every frame a publisher can send", "statement": "Every frame that pub can emit (up to its 1000000-byte read buffer) and every frame under sub's MAX_FRAME limit is either decoded or rejected with an error, never aborts the subscriber.", "quantifier": "every frame length", "why_tests_cant": "boundary in a million-byte range", "anchors": ["util/shr-tool.c:decode_frames", "util/shr-tool.c:do_subscriber"]}
{"id": "C39", "title": "Socket-name conversion round trip", "statement": "Converting a kernel-assigned abstract socket address to the stored printable form and back yields the same address and length.", "quantifier": "every abstract name the kernel can assign", "why_tests_cant": "all names", "anchors": ["lib/bw.c:asc2sock", "lib/bw.c:sock2asc"]}
{"id": "C40", "title": "/proc column scanner", "statement": "The column scanner returns exactly the requested space-separated column of the first line, or reports absence.", "quantifier": "every buffer and column number", "why_tests_cant": "all strings", "anchors": ["lib/ux.c:get_col"]}
{"id": "C41", "title": "Process/socket probe is correct", "statement": "has_pid_socket's table scan reports 1 exactly if a row with the wanted name and one of the process's inodes exists and 0 if none does.", "quantifier": "every well-formed /proc/net/unix table", "why_tests_cant": "all tables", "anchors": ["lib/ux.c:has_socket_name", "lib/ux.c:get_socket_inodes", "lib/ux.c:has_pid_socket"]}
{"id": "C42", "title": "Hex argument decoding", "statement": "`shr-tool writehex` turns the hex spelling of any byte string into exactly that byte string, decoding in place.", "quantifier": "every byte string", "why_tests_cant": "all strings; in-place overwrite hazards", "anchors": ["util/shr-tool.c:unhex"]}
{"id": "C43", "title": "Raw read output", "statement": "`shr-tool read` outputs each message's bytes exactly once even if the output descriptor accepts only part of a write.", "quantifier": "every message and every pattern of partial writes", "why_tests_cant": "partial writes are rare", "anchors": ["util/shr-tool.c:handle_io"]}
{"id": "C44", "title": "Size suffixes", "statement": "The -s option multiplies the number by 1024 to the power 1,2,3,4 for k,m,g,t in either case.", "quantifier": "every number and suffix", "why_tests_cant": "fall-through switch; overflow", "anchors": ["util/shr-tool.c:main"]}
{"id": "C45", "title": "Tee copies the stream", "statement": "`shr-tool tee` puts the same messages in the same order into both output rings as it consumed from the input ring.", "quantifier": "every input history", "why_tests_cant": "all histories", "anchors": ["util/shr-tool.c:handle_io"]}
{"id": "C46", "title": "A process killed in the middle of a read leaves a consistent ring", "statement": "If a reader dies at any point inside shr_readv (the file lock is then released by the kernel), the ring remains usable and no message is lost but those the dying reader was taking, and no message already consumed is delivered again.", "quantifier": "every crash point between two stores of the critical section, every ring state, every buffer and vector size", "why_tests_cant": "crash points cannot be enumerated by unit tests", "anchors": ["src/shr.c:shr_readv", "src/shr.c:get_next_msg_info"]}
{"id": "C47", "title": "A creator killed while initializing leaves no half-made ring in use", "statement": "If the creating process dies at any point while shr_init writes the control block, a later shr_open either refuses the file or gets a ring with the requested size, slots, flags and application data.", "quantifier": "every crash point between two stores of the initialization, every size, flags and application data", "why_tests_cant": "crash points cannot be enumerated by unit tests", "anchors": ["src/shr.c:shr_init", "src/shr.c:validate_ring", "src/shr.c:shr_open"]}
{"id": "C48", "title": "Hex arguments that are not hex are rejected", "statement": "`shr-tool writehex` refuses every argument that is not the hexadecimal spelling of a byte string, without writing anything.", "quantifier": "every argument", "why_tests_cant": "all strings", "anchors": ["util/shr-tool.c:unhex", "util/shr-tool.c:main"]}
{"id": "C49", "title": "Line writer stores each line as a message", "statement": "`shr-tool write` stores every line of its standard input as one message, in order.", "quantifier": "every text", "why_tests_cant": "all texts: line lengths, blank lines, zero bytes", "anchors": ["util/shr-tool.c:main"]}
{"id": "C50", "title": "A buffered writer caches in order", "statement": "A write by a writer opened with SHR_BUFFERED goes to its cache, without touching the ring, when it fits what is left there (10% of the ring but at most 2^30 bytes, all of a ring below 10240 bytes; at most 10000 messages and at most those of the ring). Otherwise the cached messages go to the ring first and the new ones are then cached if they fit an empty cache or put in the ring; when the ring has no room nothing changes and the writer waits or gets 0.", "quantifier": "every ring, cache content, write and interleaving", "why_tests_cant": "all combinations of cache fill, ring fill, message sizes and faults", "anchors": ["src/shr.c:init_cache", "src/shr.c:shr_writev", "src/shr.c:shr_flush", "README.md"]}
{"id": "C51", "title": "Readers and writers do not deadlock", "statement": "A reader blocked in shr_read and a writer blocked in shr_write, shr_flush or shr_close on one ring never both sleep without a wake-up waiting for one of them.", "quantifier": "every reachable state of any number of clients, in which socket calls work and no two clients share a name", "why_tests_cant": "all interleavings of blocking readers and writers, all ring contents and message sizes", "anchors": ["src/shr.c:shr_readv", "src/shr.c:shr_writev", "src/shr.c:shr_flush", "lib/bw.c:bw_wake", "lib/bw.c:bw_wait_ul"]}
{"id": "C52", "title": "One atomic queue explains every execution", "statement": "Whatever any number of processes do concurrently, what the calls return is what a single atomic queue would answer: each write takes effect in full at one instant between call and return (when it returns the byte count) or not at all (0, or an error other than a failure after the commit), each read takes what is at the head of the queue at one instant, 0 is returned only when the queue is full, respectively empty, at that instant, and shr_stat tells the content of the queue at one instant.", "quantifier": "every execution of any number of clients with any flags, faults and process deaths between critical sections", "why_tests_cant": "all interleavings of all calls; a test sees a few", "anchors": ["src/shr.c:shr_readv", "src/shr.c:shr_writev", "src/shr.c:shr_flush", "src/shr.c:shr_stat", "src/shr.c:shr_farm_stat"]}
{"id": "C53", "title": "Processes killed inside calls leave the others a working queue", "statement": "A process may be killed (SIGKILL) at any statement of any call, including shr_open, shr_close, and inside the wake-up code. Except when a writer or reader is killed in the few windows between its counter updates (C32, C46), the others continue to see one queue: what the calls return is what an atomic queue answers, a write that was killed took effect in full or not at all (or has discarded messages that SHR_DROP allows it to discard), a killed reader has taken some of the first messages and no others, nothing is reordered, and no surviving process aborts or accesses memory out of bounds.", "quantifier": "every execution of any number of clients, any number of kills, each at any statement", "why_tests_cant": "all kill points combined with all interleavings before and after", "anchors": ["src/shr.c:shr_readv", "src/shr.c:shr_writev", "src/shr.c:shr_open", "src/shr.c:shr_close", "lib/bw.c:bw_wake", "lib/bw.c:bw_sync", "lib/bw.c:bw_open"]}
{"id": "C54", "title": "Killed processes do not leave others asleep", "statement": "If a writer is killed after its messages are in the ring, sleeping readers are nevertheless woken (and sleeping writers if a reader is killed after having freed space).", "quantifier": "every execution with kills at any statement", "why_tests_cant": "the kill must fall between the update of the ring and the wake-up", "anchors": ["src/shr.c:shr_writev", "src/shr.c:shr_readv", "lib/bw.c:bw_wake"]}
{"id": "C55", "title": "Wake-ups survive kills and failing connects", "statement": "Whatever processes killed at arbitrary points have left in the waiter tables, and whatever connects failed before: a successful shr_write (or shr_flush that stored messages) has made the descriptor of every live reader readable; a read that returned messages with sockets working has done so for every blocking writer; no wake-up is lost to what another process does or to its being killed; and every live waiter keeps a slot of its own.", "quantifier": "every execution with kills at any statement and with failing connects", "why_tests_cant": "depends on which slots dead processes left behind, on slot reuse and on which connect fails", "anchors": ["lib/bw.c:bw_wake", "lib/bw.c:bw_sync", "lib/bw.c:bw_open", "src/shr.c:shr_writev"]}
{"id": "C56", "title": "A successful read has woken the blocked writers", "statement": "If shr_read returns messages, freeing space, every blocked writer's descriptor has been made readable, even if connecting to one failed (or else the failure is reported).", "quantifier": "every execution with failing connects", "why_tests_cant": "needs a connect to fail in the reader's process", "anchors": ["src/shr.c:shr_readv", "lib/bw.c:bw_wake"]}
{"id": "C57", "title": "Several handles in one process", "statement": "A process may have several handles on one ring, in one thread or several, and close them at any time: critical sections still exclude each other and the ring still behaves as a queue.", "quantifier": "every interleaving of the statements of any number of handles, any assignment of handles to processes", "why_tests_cant": "depends on the interleaving; fcntl locks do not exclude threads of one process", "anchors": ["src/shr.c:lock", "src/shr.c:unlock", "src/shr.c:shr_close", "src/shr.c:shr_writev", "src/shr.c:shr_readv"]}
{"id": "C58", "title": "A blocked call whose turn has come ends", "statement": "If every process that could take the lock eventually does and every queued wake-up is eventually received, a blocked shr_read with a message available eventually returns, unless another reader takes messages first; and a blocked write whose messages fit eventually adds them, unless another writer adds messages first.", "quantifier": "every infinite fair execution of any number of processes", "why_tests_cant": "a statement about infinite executions: no finite run can refute or confirm 'eventually'", "anchors": ["src/shr.c:shr_readv", "src/shr.c:shr_writev", "lib/bw.c:bw_wait_ul", "lib/bw.c:bw_wake"]}
{"id": "C59", "title": "A pipe does not stall", "statement": "While one reader keeps reading (with buffers as large as the ring), every shr_write, shr_flush and shr_close of a single writer returns, and every message added to a ring without DROP is eventually delivered, in order.", "quantifier": "every infinite fair execution; any sizes, any other readers", "why_tests_cant": "a statement about infinite executions", "anchors": ["src/shr.c:shr_readv", "src/shr.c:shr_writev", "src/shr.c:shr_flush", "src/shr.c:shr_close"]}
{"id": "C60", "title": "hexdump shows the message", "statement": "The output of readhex shows every byte of the message, in order, at its offset, in hexadecimal and as a character; different messages have different dumps.", "quantifier": "every message of any length", "why_tests_cant": "the layout has to be right for every length and byte", "anchors": ["util/shr-tool.c:hexdump"]}
{"id": "C61", "title": "Addresses are what they say", "statement": "pub and sub accept host:port and port with a port from 1 to 65535, use that host and port, and refuse everything else.", "quantifier": "every string, every resolver", "why_tests_cant": "the strings are unbounded", "anchors": ["util/shr-tool.c:parse_spec"]}
{"id": "C62", "title": "Each client gets a stream of whole messages", "statement": "Whatever clients come, go and break off, each one is sent the messages read while it is connected, whole and in order (only the last can be cut off, when its connection breaks), and every message read from the ring goes to exactly one client.", "quantifier": "every sequence of connections, disconnections, refused clients, ring data, partial and failed writes", "why_tests_cant": "histories of events and write results are unbounded", "anchors": ["util/shr-tool.c:handle_io", "util/shr-tool.c:accept_client", "util/shr-tool.c:handle_client", "util/shr-tool.c:close_client"]}
{"id": "C63", "title": "Clients cannot stop the publisher", "statement": "Whatever a client does, the publisher goes on: it fails no assertion and does not exit.", "quantifier": "every history of client behaviour", "why_tests_cant": "histories are unbounded; needs connections to break at particular times", "anchors": ["util/shr-tool.c:handle_client", "util/shr-tool.c:accept_client", "util/shr-tool.c:handle_io"]}
{"id": "C64", "title": "The publisher loses nothing", "statement": "Every message the publisher takes from the ring is sent to a client.", "quantifier": "every history", "why_tests_cant": "needs a connection to break in the middle of a message", "anchors": ["util/shr-tool.c:handle_io", "util/shr-tool.c:close_client"]}
{"id": "C65", "title": "pub and sub copy a ring", "statement": "What a subscriber writes to its ring is what the publisher read from its own while serving it, in order and without gaps, however the stream is cut; once all has arrived, all of it.", "quantifier": "every history of the publisher, every segmentation, every behaviour of the target ring", "why_tests_cant": "the composition of two programs over arbitrary segmentations", "anchors": ["util/shr-tool.c:handle_io", "util/shr-tool.c:do_subscriber", "util/shr-tool.c:decode_frames"]}
{"id": "C66", "title": "The subscriber takes what the ring can take", "statement": "A subscriber writes all messages that are individually small enough for its ring, whatever the timing of their arrival.", "quantifier": "every list of messages, every segmentation", "why_tests_cant": "depends on how many frames one read() returns", "anchors": ["util/shr-tool.c:do_subscriber", "util/shr-tool.c:decode_frames", "src/shr.c:shr_writev"]}
{"id": "C67", "title": "create makes the ring it is asked for", "statement": "The ring made by create has the size, the modes, the number of slots and the application data given by the options, in any order and combination.", "quantifier": "every list of options", "why_tests_cant": "combinations of options are unbounded", "anchors": ["util/shr-tool.c:main", "src/shr.c:shr_init"]}
{"id": "C68", "title": "status shows the attributes", "statement": "The attributes line of status shows drop, farm, mlock, sync and appdata exactly for the rings that have them.", "quantifier": "every ring made by shr_init", "why_tests_cant": "every combination of flags", "anchors": ["util/shr-tool.c:main", "src/shr.c:shr_stat"]}
{"id": "C69", "title": "read prints the messages, as many as asked", "statement": "read prints the messages in order, stops after N with -N, at the end of data without -b, and goes on waiting with -b.", "quantifier": "every sequence of results of shr_read, every N", "why_tests_cant": "sequences are unbounded", "anchors": ["util/shr-tool.c:handle_io", "util/shr-tool.c:main"]}
{"id": "C70", "title": "Critical sections appear atomic at the granularity of statements", "statement": "Let the process that has the file lock execute its statements one at a time, while the other processes start calls, sleep, receive the datagrams it is sending, and are interrupted, and let it be killed before any statement. Then whenever the lock is free the state, and at any time the calls and results so far, are those of an execution in which each critical section happens at once; every statement it reaches is defined and it reaches unlock().", "quantifier": "every ring, every number of processes, every interleaving of statements and of actions of the others, every kill point", "why_tests_cant": "the number of interleavings is unbounded, and a wake-up received while the sender still holds the lock is a matter of microseconds", "anchors": ["src/shr.c:shr_readv", "src/shr.c:shr_writev", "src/shr.c:shr_open", "src/shr.c:shr_close", "lib/bw.c:bw_wake", "lib/bw.c:bw_wait_ul", "lib/bw.c:bw_force"]}
{"id": "C71", "title": "Application data when processes are killed", "statement": "Whatever processes are killed at whatever statement (except where that leaves the ring damaged, C32 and C46), the application data are those of the last shr_appdata that set them; what one process sets is what others get. (False for a process killed while it is setting them: a beginning of the new data is followed by the rest of the old. That is the only exception; nothing else ever changes them.)", "quantifier": "every ring, every number of processes, every schedule, every kill point", "why_tests_cant": "kill points and schedules are unbounded", "anchors": ["src/shr.c:shr_appdata", "src/shr.c:shr_writev", "src/shr.c:shr_readv"]}
{"id": "C72", "title": "Statistics when processes are killed", "statement": "Whatever processes are killed, the counters reported by shr_stat agree with the messages written, read and dropped since the last reset, and the sizes with the messages in the ring. (The sizes always do. The counters do if no process was killed in a call since the reset; otherwise a message whose writer was killed directly after storing it may be missing in the counts of messages and bytes written, and that is the only discrepancy in these two.)", "quantifier": "every ring, every number of processes, every schedule, every kill point", "why_tests_cant": "kill points and schedules are unbounded", "anchors": ["src/shr.c:shr_stat", "src/shr.c:shr_writev"]}
{"id": "C73", "title": "A ring in which processes were killed can be opened and used", "statement": "Whatever processes are killed at whatever statement of whatever call, shr_open included (except where that leaves the ring damaged, C32 and C46), shr_open accepts the ring; and, with no failing system call, it succeeds for as long as fewer than 64 clients of the kind that needs a slot are alive: slots left by killed processes, whether half registered or not, are reclaimed.", "quantifier": "every ring, every number of processes, every schedule, every kill point", "why_tests_cant": "kill points and schedules are unbounded, and a leak shows only when all 64 slots are affected", "anchors": ["src/shr.c:shr_open", "lib/bw.c:bw_open", "lib/bw.c:bw_wait_ul"]}
{"id": "C74", "title": "bw_wake wakes every waiter", "statement": "Processes that share a bw_handle call bw_open, bw_wake, bw_force, bw_ready_ul, bw_wait_ul, bw_ctl and bw_close in any order, and are killed at any statement. Once a bw_wake has returned 0, the descriptor of every handle open for waiting is readable, and stays readable until its owner takes or clears the wake-up, closes the handle or ends. When no system call fails bw_wake returns 0.", "quantifier": "every number of processes and handles, every history of calls, every kill point", "why_tests_cant": "the waker works from its own table of connections, which is stale after any history of opens, closes and kills", "anchors": ["lib/bw.c:bw_wake", "lib/bw.c:bw_sync", "lib/bw.c:wake_one", "lib/bw.c:open_socket", "lib/bw.c:bw_open", "lib/bw.c:bw_close", "lib/bw.h", "lib/README.md"]}
{"id": "C75", "title": "What bw_force, bw_ready_ul and bw_wait_ul do", "statement": "bw_force(1) returning 0 leaves the caller's descriptor readable, bw_force(0) returning 0 leaves it not readable, a failing bw_force changes nothing; bw_ready_ul takes one wake-up if there is one and returns 0; bw_wait_ul returns 0 only if there was a wake-up, which it takes, and -3 for a descriptor added with bw_ctl, taking none. A new waiter is not readable.", "quantifier": "every reachable state and every call of a waiter", "why_tests_cant": "depends on the number of datagrams queued by other processes", "anchors": ["lib/bw.c:bw_force", "lib/bw.c:bw_ready_ul", "lib/bw.c:bw_wait_ul", "lib/bw.c:bw_ctl", "lib/bw.h", "lib/README.md"]}
{"id": "C76", "title": "No spurious wake-ups", "statement": "A waiter never has more wake-ups queued than it was sent and has not taken: each bw_wake sends it at most one, a bw_wake that fails sends none, bw_force(1) adds one only if there is none, and no other call of any process, nor its being killed, adds any.", "quantifier": "every history of calls and kills", "why_tests_cant": "a waiter registered or connected to twice would be sent two; that no history leads there needs an invariant", "anchors": ["lib/bw.c:bw_wake", "lib/bw.c:wake_one", "lib/bw.c:bw_sync", "lib/bw.c:bw_reserve", "lib/bw.c:bw_force", "lib/bw.h", "lib/README.md"]}
{"id": "C77", "title": "Room for 64 waiters", "statement": "There are never more than 64 open waiters on a handle, and with no failing system call bw_open for waiting succeeds exactly if there are fewer than 64: the slots of handles that were closed, of processes that ended, and of processes killed at any statement of bw_open or bw_close are reclaimed.", "quantifier": "every history of opens, closes, ends and kills", "why_tests_cant": "the leak of a slot shows after many kills at particular statements", "anchors": ["lib/bw.c:bw_open", "lib/bw.c:prune_handle", "lib/bw.c:bw_reserve", "lib/bw.c:bw_close", "lib/bw.c:has_pid_socket", "lib/bw.h", "lib/README.md"]}
{"id": "C78", "title": "Calls in the handle's mode return", "statement": "A call that lib/bw.h has for the mode the handle was opened in returns 0 or -1 in every reachable state, whatever system calls fail (bw_wait_ul if the descriptor is readable; it blocks otherwise); the other calls are stopped by an assertion.", "quantifier": "every reachable state, every call, every failure of system calls", "why_tests_cant": "all combinations of states and failures", "anchors": ["lib/bw.c:bw_wake", "lib/bw.c:bw_force", "lib/bw.c:bw_ready_ul", "lib/bw.c:bw_wait_ul", "lib/bw.c:bw_ctl", "lib/bw.c:bw_close", "lib/bw.h", "lib/README.md"]}
{"id": "C79", "title": "Blocked calls proceed although processes are killed", "statement": "If processes are killed at arbitrary points, a blocking shr_read for which there is a message, and a blocked shr_write for which there is room, still proceed under a fair scheduler: the read returns unless another reader takes the messages or they are lost with a killed process; the write stores its messages unless another writer stores some. The exception is a message left by a writer killed before its call returned, or room left by a reader killed before its call returned: then this holds from the next write that stores messages, or the next read that returns some.", "quantifier": "every infinite execution, every point at which processes are killed, every fair schedule", "why_tests_cant": "eventuality over infinite schedules and all kill points", "anchors": ["src/shr.c:shr_readv", "src/shr.c:shr_writev", "src/shr.c:shr_flush", "lib/bw.c:bw_wake", "lib/bw.c:bw_force", "lib/bw.c:bw_wait_ul"]}
{"id": "C80", "title": "The exit status of shr-tool says whether it did what it was asked", "statement": "shr-tool exits with status 0 if and only if it did what it was asked: create made every ring named with the parameters the options ask for, write wrote every input line, writehex and writefile the message, mount mounted the file system and made the subdirectories, read showed the messages.", "quantifier": "all arguments, options and inputs, all results of all library and system calls", "why_tests_cant": "every combination of arguments and failing calls", "anchors": ["util/shr-tool.c:main", "util/shr-tool.c:handle_io", "util/shr-tool.c:map", "util/shr-tool.c:query_ramdisk"]}
{"id": "C81", "title": "shr-tool mount does not stack ramdisks and makes subdirectories only inside the new one", "statement": "shr-tool mount does not mount over a directory that is a ramdisk already; subdirectories are made after the ramdisk is mounted and entered; -u only unmounts; -q only looks, and reports whether the directory is a ramdisk, and the size and use of a tmpfs.", "quantifier": "all directories, options, file systems and results of system calls", "why_tests_cant": "every path, file system state and failing call", "anchors": ["util/shr-tool.c:suitable_mountpoint", "util/shr-tool.c:query_ramdisk", "util/shr-tool.c:main", "README.md"]}
{"id": "C82", "title": "shr-tool delegates unknown commands to shr-tool-COMMAND beside it", "statement": "A command shr-tool does not know runs the program in its own directory whose name is its own, a hyphen and the command, with the remaining arguments, if there is one; the path is never truncated or written beyond its buffer; otherwise the tool exits with failure.", "quantifier": "all commands, arguments, program paths", "why_tests_cant": "all lengths of paths and commands", "anchors": ["util/shr-tool.c:try_delegate"]}
{"id": "C83", "title": "A ring with SHR_SYNC survives a power failure", "statement": "In a ring made with SHR_SYNC, when a call that stored something returns success, the ring file on the disk is the ring as the processes see it: a power failure between calls loses no message written, brings back none that was read, and leaves a ring that shr_open accepts and that works as a queue.", "quantifier": "all executions of any number of processes, all ways the kernel may have written the pages of the file before the power failure", "why_tests_cant": "a test cannot choose which pages the kernel has written back when the power fails", "anchors": ["src/shr.c:shr_sync", "src/shr.c:shr_open", "src/shr.c:shr_writev", "src/shr.c:shr_readv", "src/shr.c:shr_stat", "src/shr.c:shr_appdata"]}
{"id": "C84", "title": "A power failure inside a call leaves the call done or not done", "statement": "If the power fails while a call on a ring with SHR_SYNC is under way, the ring on the disk is as before the call or as after it: messages are added and removed as a whole, and the messages before are neither lost nor changed.", "quantifier": "all executions, all statements at which the power fails, all ways the kernel may have written the pages of the file", "why_tests_cant": "all crash points times all subsets of pages and their times", "anchors": ["src/shr.c:shr_sync", "src/shr.c:shr_writev", "src/shr.c:reclaim", "src/shr.c:shr_readv"]}
{"id": "C85", "title": "A ring with SHR_SYNC is one queue across power failures", "statement": "However often the power fails, the processes that open a ring with SHR_SYNC afterwards go on with the queue as it was: over all the power failures messages are read once and in the order written, shr_open accepts the ring, no call aborts, and who sleeps on it is woken although the file keeps the slots of dead processes.", "quantifier": "all sequences of calls by any number of processes with any number of power failures between calls or inside them, all ways the kernel may have written the pages of the file", "why_tests_cant": "the histories between power failures, the crash points and the subsets of pages on the disk multiply; the stale slots in the file depend on all of them", "anchors": ["src/shr.c:shr_sync", "src/shr.c:shr_open", "src/shr.c:validate_ring", "src/shr.c:shr_writev", "src/shr.c:shr_readv", "lib/bw.c:bw_open"]}
{"id": "C86", "title": "What shr-tool write takes from its input is what shr-tool read shows", "statement": "The lines that a shr-tool write process has put in the ring are at any time an initial part of its input, and when it has exited with status 0 they are all of it; writehex and writefile put exactly the one message in. A shr-tool read process shows what it has read, in order. So between one write and one read process on a ring without overwriting, the messages shown are an initial part of the input lines, and once write has succeeded and read is waiting, the input is what was shown plus what is still in the ring; on any ring the messages shown are lines of the input in order, none twice.", "quantifier": "all inputs and command line options, all sequences of calls that the two processes and any other users of the ring make in any interleaving, all states of the ring, all ways in which calls fail", "why_tests_cant": "the property joins a parser, a retry loop and two processes that interleave at every call; a test sees a few schedules and inputs", "anchors": ["util/shr-tool.c:main", "util/shr-tool.c:handle_io", "src/shr.c:shr_write", "src/shr.c:shr_read", "src/shr.c:shr_writev", "src/shr.c:shr_readv"]}
{"id": "C87", "title": "shr-tool write and read never wait for each other", "statement": "While the ring holds a message that a shr-tool read process has not read, the descriptor in its epoll is readable; so if write has exited with status 0 and read waits with a descriptor that is not readable, the whole input has been shown. A write that sleeps for space while read waits with nothing to wake it can wake up and go on.", "quantifier": "all inputs, all interleavings of the calls of any number of processes, all times at which a process falls asleep", "why_tests_cant": "a lost wake-up needs one particular interleaving of the two processes with the registration of the sleeper", "anchors": ["util/shr-tool.c:main", "util/shr-tool.c:new_epoll", "src/shr.c:shr_get_selectable_fd", "src/shr.c:shr_writev", "src/shr.c:shr_readv", "lib/bw.c:bw_wait_ul", "lib/bw.c:bw_wake"]}
{"id": "C88", "title": "A ring is continued on another host", "statement": "With shr-tool pub reading one ring and shr-tool sub writing another, what sub has put in its ring is a contiguous part of what pub took from its own: in order, nothing twice and no gaps, an initial part if pub has served no other connection before. With shr-tool write at one end and shr-tool read at the other, and rings that do not overwrite, the messages shown are an initial part of the input; when all of them wait, the input is what was shown and what is in the rings.", "quantifier": "all inputs, all interleavings of the calls on both rings, all segmentations of the stream and times at which it is cut off, all results of the calls, all histories of clients of the publisher", "why_tests_cant": "four processes, two rings and a network interleave freely; connections break anywhere in a message", "anchors": ["util/shr-tool.c:handle_io", "util/shr-tool.c:do_subscriber", "util/shr-tool.c:decode_frames", "util/shr-tool.c:close_client", "src/shr.c:shr_read", "src/shr.c:shr_writev", "src/shr.c:shr_write"]}
{"id": "C89", "title": "tee fills both rings with what it took from the first", "statement": "What shr-tool tee has put in each of its two output rings is an initial part, in order and without gaps, of the messages that it took from the input ring, whatever the results of its calls, and all of them whenever it waits for the next message.", "quantifier": "all interleavings of its calls with those of the other users of the three rings, all results of the calls, all states of the rings", "why_tests_cant": "the three rings change independently between any two calls of tee", "anchors": ["util/shr-tool.c:handle_io", "src/shr.c:shr_read", "src/shr.c:shr_write"]}
{"id": "C90", "title": "An event loop misses nothing", "statement": "A reader opened with SHR_NONBLOCK that calls shr_read only when select/poll/epoll report its shr_get_selectable_fd descriptor readable, and does so whenever the descriptor stays readable, gets on forever: every message added to a ring without DROP is eventually handed to a reader, in order, and every shr_write, shr_flush and shr_close of a single writer returns.", "quantifier": "every infinite fair execution; any sizes of messages, any other readers, any interleaving of polls, reads and writes", "why_tests_cant": "a lost readiness notification shows only as something that never happens, in a rare interleaving of a write with a read", "anchors": ["src/shr.c:shr_read", "src/shr.c:shr_readv", "src/shr.c:shr_writev", "src/shr.c:shr_get_selectable_fd", "lib/bw.c:bw_wake", "lib/bw.c:bw_force", "lib/bw.c:bw_wait_ul"]}
{"id": "C91", "title": "A FARM reader that keeps reading is never left behind", "statement": "In a FARM ring, for a reader that keeps reading (blocking, or with an event loop): every message that was in the ring when it was opened or was written since has, after a while, been handed to it or been counted as lost to it by shr_farm_stat; if nothing was lost it has got every message, in order.", "quantifier": "every infinite fair execution; any number of writers and other readers, any speed of the writers", "why_tests_cant": "a statement about infinite executions with a fast writer", "anchors": ["src/shr.c:shr_readv", "src/shr.c:shr_farm_stat", "src/shr.c:shr_writev", "lib/bw.c:bw_wake"]}
{"id": "C92", "title": "After crashes, readers and writers that start afresh make progress", "statement": "Whatever processes were killed before, at whatever point of a call: from the moment on at which no more are killed, if a reader that was not in a call then reads on and a writer that was not in a call then is the only one to write, every call of the writer ends, and everything that was left in the ring (without DROP) or is written later is handed to a reader, in order. (A process that was already blocked in a call when another was killed may stay blocked forever.)", "quantifier": "every infinite fair execution, every history of kills before", "why_tests_cant": "a statement about infinite executions after arbitrary crash histories", "anchors": ["src/shr.c:shr_readv", "src/shr.c:shr_writev", "lib/bw.c:bw_wake", "lib/bw.c:bw_wait_ul"]}
{"id": "C93", "title": "With several writers, some write always gets on", "statement": "With any number of writers, while one reader reads on: whenever a client is trying to add messages, then after a while these are added, or its call ends, or another client has added messages. The same holds after processes were killed, for clients that start afresh.", "quantifier": "every infinite fair execution, any number of writers, every history of kills before", "why_tests_cant": "a statement about infinite executions under every schedule", "anchors": ["src/shr.c:shr_writev", "src/shr.c:shr_readv", "lib/bw.c:bw_wake", "lib/bw.c:bw_wait_ul"]}
{"id": "C94", "title": "bw-tool waits and wakes", "statement": "bw-tool wait exits with 0 only after another process has sent a wake-up since it opened the handle, having closed the handle; it goes on as soon as its handle is readable, and does nothing until then; -c and -f determine what is readable in the end. bw-tool wake exits with 0 only if it has made every handle open for waiting readable. A signal ends bw-tool wait with an error; with -w it is reported as a signal while blocked and the handle is closed.", "quantifier": "every interleaving with any other users of the handle, opening, closing, waking and being killed at any statement; any combination of the options", "why_tests_cant": "spurious and lost wake-ups depend on the interleaving and on other processes being killed", "anchors": ["lib/bw-tool.c:main", "lib/bw-tool.c:await_readiness", "lib/bw.c:bw_wait_ul", "lib/bw.c:bw_wake", "lib/bw.c:bw_force"]}
{"id": "C95", "title": "FARM readers catch up after processes were killed", "statement": "In a FARM ring in which processes were killed at any points, a reader that starts to read afterwards, with enough room in its buffer, and keeps calling shr_read is handed every message that is written from then on and every message the killed processes left for it, in order, unless messages were overwritten before it read them; those it is told of by shr_farm_stat. A reader that was blocked in shr_read when a writer was killed may stay blocked although there is a message.", "quantifier": "every history with any number of readers and writers and kills at any statement, every fair infinite continuation without kills", "why_tests_cant": "an eventual guarantee over infinite executions after an arbitrary crash history", "anchors": ["src/shr.c:shr_read", "src/shr.c:shr_farm_stat", "src/shr.c:shr_writev", "lib/bw.c:bw_wake"]}
{"id": "C96", "title": "A reader with an event loop after processes were killed", "statement": "After processes were killed at any points, a reader opened with SHR_NONBLOCK that calls shr_read only when its selectable descriptor is readable, and does so again and again, misses nothing: its descriptor is readable whenever there is a message for it; every message in the ring is handed to a reader in order (in a FARM ring: to this reader, unless overwritten before it read it, which shr_farm_stat reports); and the calls of the one writer that is still running end. This holds provided that its descriptor was readable, or there was nothing for it to read, when the last process was killed; otherwise it may wait for ever although there is a message.", "quantifier": "every history with any number of readers and writers and kills at any statement, every fair infinite continuation without kills", "why_tests_cant": "an eventual guarantee over infinite executions after an arbitrary crash history", "anchors": ["src/shr.c:shr_read", "src/shr.c:shr_get_selectable_fd", "src/shr.c:shr_writev", "lib/bw.c:bw_force", "lib/bw.c:bw_wake"]}
