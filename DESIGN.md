# Formal model of troydhanson/shr in Rocq (Coq 8.16.1)

`properties.jsonl` lists the properties, `MANIFEST.json` says which theorems
state each of them, `rocq/theories/Props*.v` contains exactly those theorems
(each closed by `exact`, followed by `Print Assumptions` and by an example that
meets its hypotheses), `seeded/LOG.jsonl` records the wrong programs the
theorems were tried against.

## 1. Approach

The model is a set of executable Gallina functions, one per C function, over
records that mirror the C structs. `size_t` arithmetic is written with an
explicit wrap (`u64 x = x mod 2^64`) over `Z`. Every function that contains an
`assert`, a memory copy, an array access or an unbounded loop returns an
`outcome`: `Ok v`, `Abort` (assert failed), `UB` (access outside a region,
division by zero) or `Stuck` (loop did not finish within its fuel). Nothing is
assumed away: that the last three do not occur is itself a theorem (C15).

Everything the environment decides is a parameter of the step that asks for it
(record `env` of `Bw.v`): whether the lock, msync, malloc, socket(), connect(),
send() succeed, which name autobind picks, what the /proc probe answers, when a
signal or a registered descriptor interrupts a wait, which process runs next.
A theorem over `reach P` quantifies over all of these choices subject to `P`.

### Model files (no proofs in them)

| file | what it models |
|---|---|
| `Base.v` | bytes, `u64`, bounds-checked memory access, the `outcome` monad |
| `Ring.v` | control block, slots, data; `drop_unread_to_fit`, `next_msg_info`, the read and write critical sections (src/shr.c l.537-1012) |
| `Bw.v` | lib/bw.c: block/wake handles, slots, connection cache, over a model of kernel datagram sockets |
| `Init.v` | layout and flags of `shr_init` (l.170-299), `validate_ring` (l.360-420), flag checks and cache sizes of `shr_open` |
| `Sys.v` | struct shr, `shr_open/close/readv/writev/flush/stat/farm_stat/appdata/ctl/get_selectable_fd`; the world of one ring and any number of processes; one step per critical section |
| `Micro.v` | the write and read critical sections store by store, labelled with source lines |
| `BwMicro.v` | lib/bw.c statement by statement (stores to the shared handle, socket calls) |
| `Kill.v` | the critical sections of all calls and of `shr_open` statement by statement; executions with kills |
| `Fine.v` | all processes interleaved statement by statement: one inside its critical section, the others outside (C70) |
| `Lock.v` | any number of processes interleaved store by store under the file lock |
| `Fs.v` | paths, inodes; `shr_init` system call by system call, several rings |
| `Create.v` | the stores `shr_init` makes to the new file |
| `Ux.v` | lib/ux.c (/proc scanners) and the socket-name conversions of lib/bw.c |
| `Tool.v` | util/shr-tool.c: framing of pub/sub, unhex, -s, raw output, tee, write |
| `Disk.v` | the ring file on the disk: msync, power failures (C83, C84) |
| `Reboot.v` | what comes after a power failure (C85) |
| `PipeSpec.v` | a process of shr-tool (`Main.v`) whose calls are those of a handle of a ring (`Sys.v`) (C86, C87) |
| `RelaySpec.v` | publisher, subscriber and tee (`Tool.v`, `Tool2.v`) on their rings (C88, C89) |
| `BwTool.v`, `BwToolSpec.v` | lib/bw-tool.c: wait and wake (C94) |
| `Tool2.v` | util/shr-tool.c: hexdump, addresses, the publisher's event loop, read -b -N, create's options, status's attributes |

### Specification files

`Spec.v` (queue, capacity, history, pending calls, execution predicates),
`CrashSpec.v`, `TraceSpec.v`, `KillSpec.v`, `CountSpec.v`, `FairSpec.v`, `UxSpec.v`, `ToolSpec.v`, `ToolSpec2.v`: small, and independent of the model
except for the record fields and events they look at.

### Execution predicates

`reach P r w evs`: from the fresh ring `r` some execution, all of whose actions
satisfy `P`, shows the calls and returns `evs` and ends in world `w`.
`contract`: callers obey the API, nothing assumed of the environment (every
syscall may fail, processes may be killed between critical sections).
`reliable`: socket calls do not fail and the /proc probe tells the truth.
`faultless`: also msync works. `undisturbed`: also locks, allocations succeed,
no signal. `steady`: `reliable` and socket names are not reused. `orderly`:
`steady`, and no half-way failure of open/close.

## 2. Method per property

* C01-C09, C12-C15, C26, C30: one invariant on ring and history (`RingFacts`,
  `QueueFacts`), preserved by each critical section, lifted to all executions by
  induction over actions (`StepInv`, `WorldFacts`, `Reach`, `Final`).
* C10, C11: position of each reader in the history (`Farm.v`).
* C16-C18, C50: invariant on the cache (`Cache.v`, `Calls.v`, `Buf.v`).
* C19-C23: invariant relating pending datagrams, slots, connections and sleeping
  processes (`BwInv`, `BwWorld`, `BwStep`, `BwLive`, `BwOcc`, `BwFinal`).
* C20_blocked, C51: the same invariant and an arithmetic argument that an empty
  ring has room for any accepted message (`Live.v`).
* C52: every step is a step of the queue of `CrashSpec.v` (`Trace.v`, by the lemma
  `step_sim` of `Crash.v`), by induction over actions.
* C53, C54: executions in which processes are killed before any statement of any
  critical section (`Kill.v`, `BwMicro.v`); what is left by the killed one is an
  invariant on prefixes of its stores (`Crash.v`, `KillFacts.v`), carried through
  executions in `KillInv.v`; that the statements add up to the functions used
  elsewhere is `KillExec.v`; consequences and witnesses, `KillFinal.v`.
* C54-C56: the invariant of C19-C23 weakened to hold at every statement, with
  dead processes' slots and failed connects (`KillBw.v`: Hoare triples over
  prefixes of statements; `KillBwInv`, `KillBwStep`, `KillBwFinal`), and the
  argument about sleeping processes redone with it (`KillNap.v`).
  Specification: `KillSpec.v`.
* C57: with one handle in use at a time, executions under POSIX locks are
  executions under the locks of C33 (`PosixFacts.v`); witnesses for the others.
* C58, C59: executions without end (`FairSpec.v`), weakly fair to the clients in
  question. What a step can do to a client inside a call, and what it cannot undo
  (room, messages there), is `Fair.v`; then induction on the distance to the turn
  that fairness promises; C59 by a lexicographic induction on the writer's
  remaining work and the number of unread messages (`Fair2.v`).
* C70: a simulation (`FineSim.v` to `FineSim4.v`). In `Fine.v` the process that has
  the lock executes statement by statement while the others act. Actions of the
  others on themselves are moved before its section. So is the receipt of a datagram, if
  the section has not yet touched that socket, and otherwise it is moved
  after the section: each section touches the queue of a sleeping process's socket at
  most once (`FineAdv.v`, `FineOnce.v`, `FineBody.v`), because a socket name is
  registered in at most one slot (`FineHome.v`, `FineHome2.v`, `FineHI.v`). That the
  sections of `Fine.v` do what `run_client`, `do_open` and the killable sections of
  `Kill.v` do is `FineSect.v`.
* C71, C72: what each prefix of the statements of a section does to the application
  data and to the counters (`KillCount.v`), by induction over executions with
  kills; the steps between are those of C13 and C30 (`Counters.v`, `AppFacts.v`).
  Specification: `CountSpec.v`.
* C73: the invariant of C23 (the slots taken are those of living clients or can be
  reclaimed) is kept by every prefix of the statements of a section (`KillOcc.v`):
  each slot is unchanged, free, or names a socket of the killed process, which the
  kernel closes.
* C74-C78: lib/bw.c as a library of its own (`BwApi.v`: the statement-level programs
  of `BwMicro.v`, any number of processes and handles, kills at any statement;
  specification `BwSpec.v`). An invariant over all executions (`BwApiInv.v`,
  `BwApiStep.v`): the slot of an open waiter names its socket, a waker whose seqno is
  that of the handle has a connection to every waiter, and a socket name has one slot
  (`FineHome.v`); C76 from the last (`BwApiFinal.v`), C77 by counting
  (`BwApiFinal2.v`).
* C79: as C58, with kills among the steps (`KillFairSpec.v`, `KillFair.v`): a kill of
  another process does not end a client's call, leaves its queued wake-ups, and takes
  away messages only as C53 says; the wake-up is there by C54 and C55.
* C80-C82: main() of shr-tool as a program of calls with arbitrary results (`Main.v`,
  specification `MainSpec.v`); by cases on the results and induction on the arguments,
  lines and rounds of the event loop (`MainFacts.v` to `MainFacts3.v`).
* C83, C84: the programs of `Kill.v` with msync and the contents the file has had in
  memory since the last one (`Disk.v`, `DiskSpec.v`); each page of the file survives in
  any of these. C83 by an invariant: all these contents have the ring of now
  (`DiskFacts2.v`). C84 by what each statement leaves alone (`DiskFacts3.v` to
  `DiskFacts7.v`): the control region is in one page, and what a write without
  SHR_DROP stores elsewhere does not touch what is unread.
* C85: executions with power failures, after each of which only the file is left, as it
  is on the disk (`Reboot.v`). The invariants of C05, C19, C20, C52 and C83 together, and
  of whatever contents the file had that its slot tables have their length and the
  sequence numbers are not negative; a power failure is the death of all processes
  (`RebootFacts.v`, `RebootInv.v`, `RebootWake.v`).
* C86, C87: a trace of a shr-tool process (`Main.v`) and an execution of the ring
  (`Sys.v`) are joined where the process makes a call of a handle: the results that the
  program sees are those that the ring has returned (`attached`, `PipeSpec.v`). What the
  program has done follows from the trace, what is in the ring from the history; an
  invariant relates what each write returned to what it put in (`PipeFacts.v`), and the
  rest is C05, C06, C10, C21, C23 (`Pipe.v`).
* C92: an infinite execution with kills (as in C79) in which none happens from step
  i0 on.  No client that begins its call after i0 is left asleep although it could go
  on (two invariants: a sleeping reader with messages, a sleeping writer with room,
  has a queued wake-up), because what makes messages or room appear now is a complete
  write or read, which wakes everyone; then the argument of C59 (`KillPipe.v`).
  Deadlocked executions show that "begins after i0" is needed.
* C96: C90 after kills (`kevent_loop` in `KillFairSpec.v`, proofs in `KillLoop.v`): the invariant
  "d is not asleep, and if something is available to d its descriptor is readable" is kept by
  every step without a kill: another client's step keeps the descriptor readable and, if it made
  something available, is a commit that wakes d; d's own read re-arms its descriptor (`read_own2`,
  as `read_own` of C23 but with only the bookkeeping that survives kills). Hence `reads_on`, and
  C92, C95 apply. Counterexample when the descriptor was not readable: `KillLoopWitness.v`.
* C95: C91 after kills; as C92's reader argument with "available to d" for "unread"
  (`KillFarm.v`): only a commit makes an empty stretch non-empty and wakes d; a read moves
  d's position past at least one message; the position never goes back, so it gets past
  every commit. What d is handed between two steps is the stretch of the write history
  between its positions unless one of its reads counted overwritten messages. Witness and
  counterexample for readers already in a call: `KillFarmWitness.v`.
* C94: lib/bw-tool.c as a process among arbitrary users of the same handle
  (`BwTool.v`): an invariant over its phases, with the wake-up accounting of C76
  ("not woken, no wake-up queued") and C74, C75 for what the calls do
  (`BwToolFinal.v`; that a woken tool finishes: `BwToolRun.v`). Examples are played from scripts (`BwToolPlay.v`). Missing in the wake
  theorem: recycled socket names, as in C74.
* C93: by induction on what is unread: either the messages fit, and C58's argument
  applies, or the reader takes something (the drain lemma of C59 or C92), or someone
  has added messages (`KillSome.v`; the case without kills is an instance).
* C90, C91: as C58 and C59, for a reader that polls its selectable descriptor
  (`event_loop` in `FairSpec.v`, `FairPoll.v`; a descriptor that is not readable means, by
  C21, that nothing is there to be read), and for FARM rings, where the reading position
  only grows and grows past every index of the write history (`FairFarm.v`; with C10).
* C88, C89: the same for the loops of pub, sub and tee (`Tool.v`, `Tool2.v`), one
  execution of `Sys.v` for each ring (`RelaySpec.v`); with C37, C62 for the stream between
  pub and sub (`Relay.v`). Two rings run independently: the theorems hold for every
  pair of executions whose calls have the results that the process sees, in whatever
  order in time. The subscriber is stated with the results of shr_writev one after the other
  (`sub_calls`), so that the same message may be accepted once and refused later.
* C24, C25, C27, C29: arithmetic (`InitFacts.v`).
* C28: induction over the steps of all processes (`FsFacts.v`).
* C32, C46: the store-level program computes the same as the function
  (`MicroFacts.v`, theorems `C32_faithful`, `C46_faithful`); an invariant on what
  each prefix of its stores leaves behind (`Crash.v`, `CrashFinal.v`).
* C33: reduction theorem by induction over interleavings (`LockFacts.v`).
* C34, C35, C36: witnesses for the false parts, `PollFacts.v` for the rest.
* C37-C45, C48, C49: induction over bytes, segments and traces (`ToolFacts*.v`,
  `UxFacts.v`).
* C60-C69: induction over bytes and over the rounds of the event loops
  (`ToolFacts3.v` to `ToolFacts5.v`); C65 composes publisher and subscriber.
* C47: every prefix of the stores of `shr_init` (`CreateFacts.v`).

A property the code violates keeps its full English statement, has status
`partial`, a `_refuted` theorem with a concrete execution of the model, and a
`_partial` theorem for the largest part I could identify in which it holds.

`Conformance.v` (generated by `tools/conformance.py` from the programs and
expected outputs of /repo/tests) replays eleven of the project's own tests in the
model. It is a check of the model, not of the claims.

## 3. Trusted base

* Coq 8.16.1's kernel (`coqc`, `coqchk`), including `vm_compute` in the
  non-vacuity examples and refutations.
* `Print Assumptions` of every theorem listed in MANIFEST.json: *Closed under
  the global context*. No axiom is declared, no standard library axiom is used.
  (`coqchk` lists seven constants of `Coq.ssr.ssrunder.Under_rel`: they belong to
  a module of Coq's standard library that gets loaded indirectly, are sealed by a
  module type there, and no theorem here depends on them.)
* The only library beyond Coq's own is `RecordUpdate` (the `r <| f := x |>`
  notation, transparent definitions; no axioms).
* The reading of the C code by which each definition was written; each cites
  file and lines.

### Modelled

src/shr.c: all of the API functions of src/shr.h except `shr_get_selectable_fd`'s
epoll (the descriptor is the bound socket itself, as in the code). lib/bw.c:
`bw_open`, `bw_close`, `bw_wait_ul`, `bw_wake`, `bw_force`, `bw_ctl(BW_POLLFD)`,
slot reservation and pruning. lib/ux.c: all scanners. util/shr-tool.c: see
`Tool.v`, `Tool2.v`.

### Not modelled

* Compiler and hardware memory order: stores of one critical section are in
  program order (they are under a lock; a *crash* between reordered non-volatile
  stores is not covered).
* POSIX locks belong to processes and disappear when the process closes *any*
  descriptor of the file. `Posix.v` (C57) models that for the critical sections
  of `shr_writev` and `shr_readv`; everywhere else handle and process are one.
* Tracing (`BW_TRACE`, `SHR_VERBOSE` output to stderr), mlock's effect.
* Power failures (`Disk.v`): a page is written to the disk as a whole; an msync that
  succeeds has written all pages, of one that fails nothing is known; the directory
  entry and the size of the file are there (`shr_init` syncs nothing: before the first
  successful `shr_open` nothing is claimed). After a power failure (`Reboot.v`) the
  file is what is on the disk, no process and no socket is left, and socket names may be
  given again.
* Kills are statement by statement in all calls (`Kill.v`, C53-C56, C71-C73) and in
  `shr_init` (C47); except that the `memset` of the counters in `shr_stat` is one
  statement, and that `memcpy` copies upwards, byte by byte.
* Timing. C19-C23 and C53-C56 say "a wake-up is pending"; C58, C59 and C79
  say "eventually", under fairness and without failing sockets; C59 without kills, C92 after the last kill.
* util/shr-tool.c: getopt itself, the socket set-up (its calls succeed or fail), the
  text of status other than the attributes, execve failing; lib/bw-tool.c: getopt and
  "make". The
  percentage of `mount -q` is computed exactly, not in doubles.
* The socket-name space: names are opaque integers in `Bw.v`; their text form
  is in `Ux.v`.

## 4. Findings

Defects or surprises of the code met on the way (theorem in parentheses):

* Sizes: a huge `data_sz` wraps the file size below `sizeof(ctrl)`, and the
  stores go past the mapping (`C25_refuted`); `validate_ring`'s expected size can
  wrap as well; ftruncate's EINVAL is tolerated. The default message count is
  100 + size/100, README says size/100.
* `shr_open` accepts RDONLY|WRONLY (`C29_refuted`) and rings with broken slot
  tables (`C27_refuted`).
* `shr_appdata` with a larger buffer reads past the data (`C31_refuted`); with
  `*get == NULL` and `set != NULL` it returns 0 and does nothing; `stat.flags`
  never includes SHR_APPDATA.
* An empty iovec element after the first aborts the process while it holds the
  lock (`C34_refuted`); a network peer can cause that through `shr-tool sub`
  (`C38_empty_refuted`).
* A failing wake-up or msync makes `shr_write` return -1 although the messages
  are in the ring (`C35_refuted`); for a buffered writer the cache is kept and
  the messages are written twice (`C35_duplicate_refuted`).
* `shr_flush(s,1)` of a non-blocking writer does not monitor registered
  descriptors (`C36_refuted`).
* `shr_init` failing after unlink has destroyed the previous ring; a failing
  init unlinks whatever is at the path, also another process's ring; KEEPEXIST
  returns 0 for an unusable file and -1 in a race (C28 `_refuted` theorems).
* A killed writer/reader/creator leaves an inconsistent ring at the places
  named in C32, C46, C47 `_refuted`: l.663/664, 975/976, 986-1000, 1001, 1002,
  840/841, 282-290.
* A process killed between its store and the wake-up leaves the others asleep
  until the next one (`C54_refuted`), which may never come: after a reader is
  killed, a writer and another reader can wait for each other forever
  (`C79_writer_exception_needed`); `shr_read` ignores that `bw_wake` failed
  (l.849), leaving a writer asleep (`C56_refuted`).
* A process killed in `shr_appdata` leaves a mixture of old and new data
  (`C71_refuted`); one killed after storing its message leaves it uncounted, so
  the counters disagree with the ring until they are reset (`C72_refuted`).
* POSIX locks: two threads of one process are both inside, messages are lost
  (`C57_threads_refuted`); `shr_close` of one handle releases the lock of another
  (`C57_close_refuted`).
* Socket names that the kernel reuses make a waker purge live waiters
  (`C19_/C20_/C22_name_reuse_refuted`, `C74_reuse_refuted`); so do transient send errors (ENOBUFS).
* `has_socket_name` returns -1 as soon as an unnamed socket precedes the match
  (`C41_refuted`), so stale slots are not pruned on usual systems.
  `get_socket_inodes` leaks its DIR on errors.
* Leaks: `shr_open` failing after the block/wake set-up leaves slot and sockets;
  `shr_close` whose lock fails leaves both; `bw_open`'s wake failure leaks fds.
* SHR_SYNC: `shr_read` ignores that msync failed, so messages read are unread again
  after a power failure (`C83_read_refuted`). A power failure inside `shr_write` on a
  file of more than a page can bring back messages delivered long ago (`C84_refuted`)
  and, with SHR_DROP, damage messages written before (`C84_drop_refuted`). `shr_init`
  and `shr_close` do not msync.
* bw-tool checks for -2 where `bw_wait_ul` returns -3 (`C94_signal_refuted`): with -w a
  signal is noticed only at the end, and the handle is never closed then (`C94_signal`).
* shr-tool: raw output repeats data after a partial write (`C43_refuted`); -s
  wraps beyond 2^64 (`C44_refuted`); writehex accepts 4g and aborts on -f
  (`C48_*`); write fails on blank lines and splits long ones (`C49_*`); frames of
  999997..1048576 bytes abort sub (`C38_refuted`); pub asserts that a 4-byte
  prefix is written at once; -H falls through into -N; messages that arrive
  together at sub and exceed the ring together make it exit (`C66_together`);
  pub exits when its client resets the connection (`C63_refuted`) and loses the
  message being sent (`C64_refuted`); ports are taken modulo 2^32 and trailing
  text is ignored (`C61_refuted`); status never shows appdata (`C68_refuted`).
* shr-tool: read always exits with failure, also after showing what it was asked for
  (`C80_read_refuted`); it, pub, sub and tee exit with success only when epoll_wait
  fails (`C80_loops`), as it does with EINTR when the process is stopped and continued;
  status -A and mount -q exit with success although they failed (`C80_status_refuted`,
  `C80_query_refuted`). mount ignores that its check failed (path of 4093 bytes or
  more, stat error) and mounts over a ramdisk (`C81_refuted`,
  `C81_unchecked_refuted`); -q of a tmpfs without limit divides by 0
  (`C81_query_refuted`).
