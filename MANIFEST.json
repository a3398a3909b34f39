{
 "claims": [
  {
   "property": "C01",
   "status": "proved",
   "theorems": [
    "C01_fifo_exactly_once",
    "C01_drop_history"
   ],
   "note": "all executions; second theorem is the DROP variant"
  },
  {
   "property": "C02",
   "status": "proved",
   "theorems": [
    "C02_boundaries_and_bytes",
    "C01_drop_history",
    "C10_farm_follow"
   ],
   "note": ""
  },
  {
   "property": "C03",
   "status": "proved",
   "theorems": [
    "C03_contiguous",
    "C03_all_or_nothing"
   ],
   "note": ""
  },
  {
   "property": "C04",
   "status": "proved",
   "theorems": [
    "C04_rejected_writes"
   ],
   "note": ""
  },
  {
   "property": "C05",
   "status": "proved",
   "theorems": [
    "C05_C06_write_pass",
    "C05_zero_write"
   ],
   "note": ""
  },
  {
   "property": "C06",
   "status": "proved",
   "theorems": [
    "C05_C06_write_pass"
   ],
   "note": ""
  },
  {
   "property": "C07",
   "status": "proved",
   "theorems": [
    "C07_C08_C09_read_pass"
   ],
   "note": ""
  },
  {
   "property": "C08",
   "status": "proved",
   "theorems": [
    "C07_C08_C09_read_pass",
    "C08_zero_length"
   ],
   "note": ""
  },
  {
   "property": "C09",
   "status": "proved",
   "theorems": [
    "C07_C08_C09_read_pass",
    "C09_zero_read"
   ],
   "note": ""
  },
  {
   "property": "C10",
   "status": "proved",
   "theorems": [
    "C10_farm_follow",
    "C10_farm_next",
    "C10_farm_stat",
    "C10_farm_caught_up"
   ],
   "note": "executions carrying fewer than 2^64 messages"
  },
  {
   "property": "C11",
   "status": "proved",
   "theorems": [
    "C11_farm_independent"
   ],
   "note": ""
  },
  {
   "property": "C12",
   "status": "proved",
   "theorems": [
    "C05_C06_write_pass",
    "C12_farm_unread",
    "C12_C26_open_reads",
    "C14_stat"
   ],
   "note": ""
  },
  {
   "property": "C13",
   "status": "proved",
   "theorems": [
    "C13_counters",
    "C13_write_counters",
    "C13_reconcile"
   ],
   "note": ""
  },
  {
   "property": "C14",
   "status": "proved",
   "theorems": [
    "C14_stat",
    "C14_stat_flags"
   ],
   "note": ""
  },
  {
   "property": "C15",
   "status": "proved",
   "theorems": [
    "C15_no_abort_no_oob"
   ],
   "note": ""
  },
  {
   "property": "C16",
   "status": "proved",
   "theorems": [
    "C16_buffered_account"
   ],
   "note": ""
  },
  {
   "property": "C17",
   "status": "proved",
   "theorems": [
    "C17_cache_fits",
    "C17_C18_flush_pass"
   ],
   "note": ""
  },
  {
   "property": "C18",
   "status": "proved",
   "theorems": [
    "C18_flush_start",
    "C18_flush_outcomes",
    "C17_C18_flush_pass",
    "C18_flags_fixed",
    "C18_close_flushes"
   ],
   "note": ""
  },
  {
   "property": "C19",
   "status": "proved",
   "theorems": [
    "C19_reader_wakes",
    "C19_name_reuse_refuted"
   ],
   "note": "executions in which the kernel never hands out a socket name twice (as quantified); the refutation shows that condition is needed"
  },
  {
   "property": "C20",
   "status": "proved",
   "theorems": [
    "C20_writer_wakes",
    "C20_blocked",
    "C20_name_reuse_refuted"
   ],
   "note": "same condition; the refutation shows it is needed"
  },
  {
   "property": "C21",
   "status": "proved",
   "theorems": [
    "C21_selectable_fd",
    "C21_ready",
    "C21_after_read",
    "C21_after_open"
   ],
   "note": ""
  },
  {
   "property": "C22",
   "status": "proved",
   "theorems": [
    "C22_wakes_readers",
    "C22_wakes_writers",
    "C22_wake_kept",
    "C22_all_readers",
    "C22_all_writers",
    "C22_own_slot",
    "C22_at_most_64",
    "C22_name_reuse_refuted"
   ],
   "note": "same condition as C19"
  },
  {
   "property": "C23",
   "status": "proved",
   "theorems": [
    "C23_reserve",
    "C23_open_succeeds"
   ],
   "note": ""
  },
  {
   "property": "C24",
   "status": "proved",
   "theorems": [
    "C24_layout",
    "C24_refusals"
   ],
   "note": ""
  },
  {
   "property": "C25",
   "status": "partial",
   "theorems": [
    "C25_partial",
    "C25_refuted"
   ],
   "note": "false in general: the size computation wraps (C25_refuted); proved when the regions fit size_t"
  },
  {
   "property": "C26",
   "status": "proved",
   "theorems": [
    "C26_always_valid",
    "C12_C26_open_reads",
    "C07_C08_C09_read_pass"
   ],
   "note": ""
  },
  {
   "property": "C27",
   "status": "partial",
   "theorems": [
    "C27_accepted_partial",
    "C27_magic_partial",
    "C27_refused_partial",
    "C27_refuted"
   ],
   "note": "false in general: slot table and several header fields are not validated (C27_refuted)"
  },
  {
   "property": "C28",
   "status": "proved",
   "theorems": [
    "C28_keepexist",
    "C28_recreate",
    "C28_result",
    "C28_each_ring",
    "C28_undisturbed",
    "C28_failure_keeps_ring_refuted",
    "C28_success_lasts_refuted",
    "C28_keepexist_usable_refuted",
    "C28_keepexist_race_refuted"
   ],
   "note": "the last four theorems record stronger expectations that are false"
  },
  {
   "property": "C29",
   "status": "partial",
   "theorems": [
    "C29_flags_partial",
    "C29_refused_partial",
    "C29_refuted"
   ],
   "note": "false: RDONLY and WRONLY together are accepted (C29_refuted)"
  },
  {
   "property": "C30",
   "status": "proved",
   "theorems": [
    "C30_appdata_history",
    "C30_appdata_call"
   ],
   "note": ""
  },
  {
   "property": "C31",
   "status": "partial",
   "theorems": [
    "C31_small_partial",
    "C30_appdata_call",
    "C31_refuted"
   ],
   "note": "false: a larger buffer reads past the application data (C31_refuted)"
  },
  {
   "property": "C32",
   "status": "partial",
   "theorems": [
    "C32_unread_partial",
    "C32_usable_partial",
    "C32_drain_partial",
    "C32_faithful",
    "C32_order_refuted",
    "C32_corrupt_refuted",
    "C32_overwrite_refuted",
    "C32_wedged_refuted",
    "C32_lag_refuted"
   ],
   "note": "false at five places between stores (the _refuted theorems); proved everywhere else"
  },
  {
   "property": "C33",
   "status": "proved",
   "theorems": [
    "C33_exclusion",
    "C33_serial",
    "C33_inside",
    "C33_queue",
    "C32_faithful",
    "C46_faithful"
   ],
   "note": "generic in the critical sections; instantiated for those of shr_writev and shr_readv"
  },
  {
   "property": "C34",
   "status": "partial",
   "theorems": [
    "C34_first_partial",
    "C15_no_abort_no_oob",
    "C34_refuted"
   ],
   "note": "false: an empty element after the first aborts inside the critical section (C34_refuted)"
  },
  {
   "property": "C35",
   "status": "partial",
   "theorems": [
    "C35_partial",
    "C35_refuted",
    "C35_duplicate_refuted"
   ],
   "note": "false when waking readers or msync fails (C35_refuted)"
  },
  {
   "property": "C36",
   "status": "partial",
   "theorems": [
    "C36_poll_wakes",
    "C36_poll_only",
    "C36_poll_other",
    "C36_refuted"
   ],
   "note": "false for the waiting flush of a nonblocking writer (C36_refuted); proved otherwise"
  },
  {
   "property": "C37",
   "status": "proved",
   "theorems": [
    "C37_publish",
    "C37_publish_broken",
    "C37_subscribe",
    "C37_meanwhile"
   ],
   "note": "messages that fit the buffer of the subscriber, as quantified; C38 is about the others"
  },
  {
   "property": "C38",
   "status": "partial",
   "theorems": [
    "C38_partial",
    "C38_aborts",
    "C38_refuted",
    "C38_empty_refuted"
   ],
   "note": "false: frames of 999997 to 1048576 bytes abort the subscriber, and so does an empty frame behind another (C38_refuted, C38_empty_refuted); fitting frames are decoded (C37) and longer ones rejected (C38_partial)"
  },
  {
   "property": "C39",
   "status": "proved",
   "theorems": [
    "C39_round_trip",
    "C39_injective",
    "C39_long"
   ],
   "note": ""
  },
  {
   "property": "C40",
   "status": "proved",
   "theorems": [
    "C40_column",
    "C40_word",
    "C40_none",
    "C40_slurp"
   ],
   "note": ""
  },
  {
   "property": "C41",
   "status": "partial",
   "theorems": [
    "C41_partial",
    "C41_sound",
    "C41_refuted"
   ],
   "note": "false for tables with unnamed sockets, where -1 is returned (C41_refuted); proved when all sockets have names, and 0 and 1 are always right (C41_sound)"
  },
  {
   "property": "C42",
   "status": "proved",
   "theorems": [
    "C42_unhex",
    "C42_refused"
   ],
   "note": ""
  },
  {
   "property": "C43",
   "status": "partial",
   "theorems": [
    "C43_partial",
    "C43_short",
    "C43_refuted",
    "C43_error_refuted"
   ],
   "note": "false: after a partial write the beginning of the message is output again (C43_refuted)"
  },
  {
   "property": "C44",
   "status": "partial",
   "theorems": [
    "C44_partial",
    "C44_plain",
    "C44_bad_unit",
    "C44_wraps",
    "C44_refuted"
   ],
   "note": "false beyond 2^64, where the result wraps (C44_refuted); proved below"
  },
  {
   "property": "C45",
   "status": "proved",
   "theorems": [
    "C45_tee",
    "C05_zero_write"
   ],
   "note": "a blocking writer never gets 0 from shr_write (C05_zero_write), which is the hypothesis of C45_tee"
  },
  {
   "property": "C46",
   "status": "partial",
   "theorems": [
    "C46_safe_partial",
    "C46_farm",
    "C46_faithful",
    "C46_refuted"
   ],
   "note": "false when killed between the stores of r->r and r->m (C46_refuted); proved everywhere else, and everywhere for SHR_FARM rings"
  },
  {
   "property": "C47",
   "status": "partial",
   "theorems": [
    "C47_done",
    "C47_refused",
    "C47_accepted_partial",
    "C47_refuted",
    "C47_appdata_refuted"
   ],
   "note": "false when killed between the store of the data size and the end: flags or application data are missing (C47_refuted, C47_appdata_refuted); refused before, and otherwise a sound empty ring"
  },
  {
   "property": "C48",
   "status": "partial",
   "theorems": [
    "C42_refused",
    "C48_refuted",
    "C48_abort_refuted"
   ],
   "note": "false: 4g is accepted and -f aborts; the empty argument and odd lengths are refused (C42_refused)"
  },
  {
   "property": "C49",
   "status": "partial",
   "theorems": [
    "C49_partial",
    "C49_blank_refuted",
    "C49_long_refuted"
   ],
   "note": "false for blank lines and lines of more than 998 bytes; proved for the others"
  },
  {
   "property": "C50",
   "status": "proved",
   "theorems": [
    "C50_start",
    "C50_pass"
   ],
   "note": ""
  },
  {
   "property": "C51",
   "status": "proved",
   "theorems": [
    "C51_no_deadlock"
   ],
   "note": ""
  },
  {
   "property": "C52",
   "status": "proved",
   "theorems": [
    "C52_linearizable",
    "C52_spec_fifo"
   ],
   "note": ""
  },
  {
   "property": "C53",
   "status": "proved",
   "theorems": [
    "C53_sections",
    "C53_open_section",
    "C53_atomic",
    "C53_no_abort",
    "C53_fifo",
    "C53_reader_refuted"
   ],
   "note": "C53_reader_refuted: the messages a killed reader had taken are lost"
  },
  {
   "property": "C54",
   "status": "partial",
   "theorems": [
    "C54_refuted",
    "C54_readers_partial",
    "C54_writers_partial"
   ],
   "note": "false: a process killed between updating the ring and waking leaves the others asleep (C54_refuted).  Proved: that is the only case, and it lasts until the next write, or read of messages"
  },
  {
   "property": "C55",
   "status": "proved",
   "theorems": [
    "C55_wakes_readers",
    "C55_success_wakes",
    "C55_wakes_writers",
    "C55_wake_kept",
    "C55_kept_by_kill",
    "C55_kept_by_kill_open",
    "C55_registered"
   ],
   "note": "assumes that sends do not fail other than by a full queue, that has_pid_socket is exact, and that new sockets get new names (honest_sockets, new_names)"
  },
  {
   "property": "C56",
   "status": "partial",
   "theorems": [
    "C56_refuted",
    "C55_wakes_writers"
   ],
   "note": "false: shr_read returns messages even if bw_wake failed, leaving a writer asleep.  Proved if no socket call fails (C55_wakes_writers)"
  },
  {
   "property": "C57",
   "status": "partial",
   "theorems": [
    "C57_exclusion_partial",
    "C57_serial_partial",
    "C57_queue_partial",
    "C57_threads_refuted",
    "C57_close_refuted"
   ],
   "note": "false for threads with handles of their own, and for closing one handle while another is inside; proved if each process uses one handle at a time"
  },
  {
   "property": "C58",
   "status": "proved",
   "theorems": [
    "C58_reader",
    "C58_writer"
   ],
   "note": "weak fairness of the lock and of wake-ups is a hypothesis; no kills, no failing sockets"
  },
  {
   "property": "C59",
   "status": "proved",
   "theorems": [
    "C59_calls_end",
    "C59_delivered"
   ],
   "note": "fairness as in C58; calls_end needs the writer to be the only one writing (otherwise weak fairness allows it to starve)"
  },
  {
   "property": "C60",
   "status": "proved",
   "theorems": [
    "C60_hexdump",
    "C60_lossless"
   ],
   "note": "messages up to 2^32 bytes (the offset is printed as an int)"
  },
  {
   "property": "C61",
   "status": "partial",
   "theorems": [
    "C61_partial",
    "C61_accepted",
    "C61_refuted"
   ],
   "note": "false: ports are reduced modulo 2^32, text after the digits is ignored; proved for digits below 2^32"
  },
  {
   "property": "C62",
   "status": "proved",
   "theorems": [
    "C62_stream"
   ],
   "note": ""
  },
  {
   "property": "C63",
   "status": "partial",
   "theorems": [
    "C63_partial",
    "C63_refuted"
   ],
   "note": "false: recv failing (connection reset) ends the publisher; proved if no call other than write fails"
  },
  {
   "property": "C64",
   "status": "partial",
   "theorems": [
    "C64_partial",
    "C64_refuted"
   ],
   "note": "false: the message being sent when the connection breaks is lost; proved if none breaks"
  },
  {
   "property": "C65",
   "status": "proved",
   "theorems": [
    "C65_pipe"
   ],
   "note": "messages that fit the buffer of the subscriber, as in C37"
  },
  {
   "property": "C66",
   "status": "partial",
   "theorems": [
    "C66_partial",
    "C66_together",
    "C66_one_by_one",
    "C66_refuted"
   ],
   "note": "false: frames that arrive together are written together, and lost if they exceed the ring together"
  },
  {
   "property": "C67",
   "status": "proved",
   "theorems": [
    "C67_create"
   ],
   "note": ""
  },
  {
   "property": "C68",
   "status": "partial",
   "theorems": [
    "C68_partial",
    "C68_refuted"
   ],
   "note": "false: appdata is never shown; the others are"
  },
  {
   "property": "C69",
   "status": "proved",
   "theorems": [
    "C69_read"
   ],
   "note": ""
  },
  {
   "property": "C70",
   "status": "proved",
   "theorems": [
    "C70_atomic",
    "C70_midway",
    "C70_next",
    "C70_unlocks",
    "C70_fifo",
    "C70_sleepers"
   ],
   "note": "while a process is between lock() and unlock(), lock() giving up in another process and the death of another process that has sockets are not modelled"
  },
  {
   "property": "C71",
   "status": "partial",
   "theorems": [
    "C71_history",
    "C71_partial",
    "C71_call",
    "C71_refuted"
   ],
   "note": "false for a process killed while setting them (C71_refuted); C71_history says that this is the only exception and what it leaves"
  },
  {
   "property": "C72",
   "status": "partial",
   "theorems": [
    "C72_stat",
    "C72_counters_partial",
    "C72_written_partial",
    "C72_written_bound",
    "C72_refuted"
   ],
   "note": "false until the next reset after a writer died with its message stored (C72_refuted); proved: after the reset, and in any case for the sizes (C72_stat) and up to those messages (C72_written_bound)"
  },
  {
   "property": "C73",
   "status": "proved",
   "theorems": [
    "C73_valid",
    "C73_open_succeeds"
   ],
   "note": "executions in which no system call fails, for C73_open_succeeds; kills at the places of C32 and C46 excepted"
  },
  {
   "property": "C74",
   "status": "partial",
   "theorems": [
    "C74_wake_partial",
    "C74_kept",
    "C74_wake_returns",
    "C74_reuse_refuted"
   ],
   "note": "proved if the kernel never gives a socket a name it has given before; with a closed waiter name given to the next waiter in the same slot a wake-up is lost and that waiter unregistered: C74_reuse_refuted"
  },
  {
   "property": "C75",
   "status": "proved",
   "theorems": [
    "C75_own",
    "C75_new"
   ],
   "note": ""
  },
  {
   "property": "C76",
   "status": "proved",
   "theorems": [
    "C76_no_more"
   ],
   "note": "names of sockets are not given again"
  },
  {
   "property": "C77",
   "status": "proved",
   "theorems": [
    "C77_max",
    "C77_open"
   ],
   "note": "names of sockets are not given again"
  },
  {
   "property": "C78",
   "status": "proved",
   "theorems": [
    "C78_modes"
   ],
   "note": ""
  },
  {
   "property": "C79",
   "status": "proved",
   "theorems": [
    "C79_reader",
    "C79_next_write",
    "C79_writer",
    "C79_next_read",
    "C79_writer_exception_needed",
    "C79_reader_exception_needed"
   ],
   "note": "no failing socket calls; names of sockets are not given again"
  },
  {
   "property": "C80",
   "status": "partial",
   "theorems": [
    "C80_create",
    "C80_write",
    "C80_writehex",
    "C80_writefile",
    "C80_mount",
    "C80_fails",
    "C80_read",
    "C80_loops",
    "C80_read_refuted",
    "C80_status_refuted",
    "C80_query_refuted"
   ],
   "note": "false: read exits with failure after doing what was asked, status -A and mount -q with success after failing; proved for create, write, writehex, writefile, mount"
  },
  {
   "property": "C81",
   "status": "partial",
   "theorems": [
    "C81_no_stacking_partial",
    "C81_inside",
    "C81_unmount",
    "C81_query",
    "C81_query_partial",
    "C81_safe",
    "C81_query_refuted",
    "C81_refuted",
    "C81_unchecked_refuted"
   ],
   "note": "false for paths of 4093 bytes or more, if stat or statfs fails, and for a tmpfs of 0 blocks; proved otherwise"
  },
  {
   "property": "C82",
   "status": "proved",
   "theorems": [
    "C82_delegate"
   ],
   "note": ""
  },
  {
   "property": "C83",
   "status": "partial",
   "theorems": [
    "C83_every_execution",
    "C83_nothing_lost",
    "C83_valid",
    "C83_works",
    "C83_fifo",
    "C83_success",
    "C83_open",
    "C83_read_partial",
    "C83_read_refuted"
   ],
   "note": "false of shr_read when msync fails (its result is ignored, l.852); proved otherwise, while msync works for every call, and for the other calls whatever failed before"
  },
  {
   "property": "C84",
   "status": "partial",
   "theorems": [
    "C84_control_partial",
    "C84_one_page_partial",
    "C84_write_page_partial",
    "C84_write_partial",
    "C84_refuted",
    "C84_drop_refuted"
   ],
   "note": "false for writes on files of more than a page: old messages reappear, and with SHR_DROP messages are damaged; proved for files of one page and for the calls that store only in the control region, as far as C46 and C53 go; without SHR_DROP the messages before the write are safe"
  },
  {
   "property": "C85",
   "status": "partial",
   "theorems": [
    "C85_every_execution",
    "C85_nothing_lost",
    "C85_valid",
    "C85_works",
    "C85_no_abort",
    "C85_atomic",
    "C85_atomic_during",
    "C85_fifo",
    "C85_fifo_during",
    "C85_during_partial",
    "C85_reader_wakes",
    "C85_writer_wakes"
   ],
   "note": "proved in full when the power fails between sections; inside a section when the ring on the disk is that of some statement of it, which C85_during_partial shows of calls that store only control fields and of files of one page (C84 refutes it for other writes), outside the places of C54"
  },
  {
   "property": "C86",
   "status": "proved",
   "theorems": [
    "C86_write",
    "C86_empty_line",
    "C86_writehex",
    "C86_writefile",
    "C86_read",
    "C86_through",
    "C86_any"
   ],
   "note": "an input with an empty line cannot be written (C86_empty_line): write ends with an error there, as no ring can hold an empty message"
  },
  {
   "property": "C87",
   "status": "proved",
   "theorems": [
    "C87_reader",
    "C87_drained",
    "C87_no_deadlock"
   ],
   "note": "while no socket call fails and socket names are not reused (C19_name_reuse_refuted)"
  },
  {
   "property": "C88",
   "status": "proved",
   "theorems": [
    "C88_pub",
    "C88_sub",
    "C88_relay",
    "C88_hosts",
    "C88_hosts_any"
   ],
   "note": "a message being sent when a connection breaks is lost between two connections (C64_refuted), hence part, not initial part, for later ones"
  },
  {
   "property": "C89",
   "status": "proved",
   "theorems": [
    "C89_tee"
   ],
   "note": ""
  },
  {
   "property": "C90",
   "status": "proved",
   "theorems": [
    "C90_calls_end",
    "C90_delivered"
   ],
   "note": "fairness as in C58; calls_end needs the writer to be the only one writing"
  },
  {
   "property": "C91",
   "status": "proved",
   "theorems": [
    "C91_farm",
    "C91_event_loop"
   ],
   "note": "fairness as in C58; fewer than 2^64 messages written"
  },
  {
   "property": "C92",
   "status": "proved",
   "theorems": [
    "C92_calls_end",
    "C92_delivered",
    "C92_writer_afresh_needed",
    "C92_reader_afresh_needed"
   ],
   "note": "no failing socket calls; names of sockets are not given again; with a client that was in a call when another was killed it is false (the two _afresh_needed theorems, and C79)"
  },
  {
   "property": "C93",
   "status": "proved",
   "theorems": [
    "C93_some_writer",
    "C93_after_kills"
   ],
   "note": "fairness as in C58; no failing socket calls; that every one of several writers gets on does not hold without a fair lock and is not claimed"
  },
  {
   "property": "C94",
   "status": "partial",
   "theorems": [
    "C94_wait",
    "C94_goes_on",
    "C94_finishes",
    "C94_stays",
    "C94_wake_partial",
    "C94_wake_exit",
    "C94_forced",
    "C94_signal",
    "C94_signal_refuted"
   ],
   "note": "that a signal during wait -w is reported and the handle closed is false (C94_signal_refuted); the wake theorem excludes recycled socket names, with which it is false (C74_reuse_refuted)"
  },
  {
   "property": "C95",
   "status": "proved",
   "theorems": [
    "C95_farm",
    "C95_left",
    "C95_afresh_needed"
   ],
   "note": "fairness as in C58; no failing socket calls; C95_afresh_needed: a reader already in its call when a writer was killed can be left asleep"
  },
  {
   "property": "C96",
   "status": "proved",
   "theorems": [
    "C96_ready",
    "C96_delivered",
    "C96_calls_end",
    "C96_farm",
    "C96_first_needed"
   ],
   "note": "fairness as in C58; no failing socket calls; C96_first_needed: an event loop whose descriptor is not readable after a kill can miss the messages a killed writer left"
  }
 ]
}