#!/usr/bin/env python3
# regenerates MANIFEST.json from the table below
import json
T={}
def c(p,status,ths,note): T[p]=dict(property=p,status=status,theorems=ths.split(),note=note)
c('C01','proved','C01_fifo_exactly_once C01_drop_history','all executions; second theorem is the DROP variant')
c('C02','proved','C02_boundaries_and_bytes C01_drop_history C10_farm_follow','')
c('C03','proved','C03_contiguous C03_all_or_nothing','')
c('C04','proved','C04_rejected_writes','')
c('C05','proved','C05_C06_write_pass C05_zero_write','')
c('C06','proved','C05_C06_write_pass','')
c('C07','proved','C07_C08_C09_read_pass','')
c('C08','proved','C07_C08_C09_read_pass C08_zero_length','')
c('C09','proved','C07_C08_C09_read_pass C09_zero_read','')
c('C10','proved','C10_farm_follow C10_farm_next C10_farm_stat C10_farm_caught_up','executions carrying fewer than 2^64 messages')
c('C11','proved','C11_farm_independent','')
c('C12','proved','C05_C06_write_pass C12_farm_unread C12_C26_open_reads C14_stat','')
c('C13','proved','C13_counters C13_write_counters C13_reconcile','')
c('C14','proved','C14_stat C14_stat_flags','')
c('C15','proved','C15_no_abort_no_oob','')
c('C16','proved','C16_buffered_account','')
c('C17','proved','C17_cache_fits C17_C18_flush_pass','')
c('C18','proved','C18_flush_start C18_flush_outcomes C17_C18_flush_pass C18_flags_fixed C18_close_flushes','')
c('C30','proved','C30_appdata_history C30_appdata_call','')
c('C24','proved','C24_layout C24_refusals','')
c('C25','partial','C25_partial C25_refuted','false in general: the size computation wraps (C25_refuted); proved when the regions fit size_t')
c('C26','proved','C26_always_valid C12_C26_open_reads C07_C08_C09_read_pass','')
c('C27','partial','C27_accepted_partial C27_magic_partial C27_refused_partial C27_refuted','false in general: slot table and several header fields are not validated (C27_refuted)')
c('C29','partial','C29_flags_partial C29_refused_partial C29_refuted','false: RDONLY and WRONLY together are accepted (C29_refuted)')
c('C31','partial','C31_small_partial C30_appdata_call C31_refuted','false: a larger buffer reads past the application data (C31_refuted)')
c('C34','partial','C34_first_partial C15_no_abort_no_oob C34_refuted','false: an empty element after the first aborts inside the critical section (C34_refuted)')
c('C35','partial','C35_partial C35_refuted C35_duplicate_refuted','false when waking readers or msync fails (C35_refuted)')
c('C36','partial','C36_poll_wakes C36_poll_only C36_poll_other C36_refuted','false for the waiting flush of a nonblocking writer (C36_refuted); proved otherwise')
c('C19','proved','C19_reader_wakes C19_name_reuse_refuted','executions in which the kernel never hands out a socket name twice (as quantified); the refutation shows that condition is needed')
c('C20','proved','C20_writer_wakes C20_blocked C20_name_reuse_refuted','same condition; the refutation shows it is needed')
c('C21','proved','C21_selectable_fd C21_ready C21_after_read C21_after_open','')
c('C22','proved','C22_wakes_readers C22_wakes_writers C22_wake_kept C22_all_readers C22_all_writers C22_own_slot C22_at_most_64 C22_name_reuse_refuted','same condition as C19')
c('C23','proved','C23_reserve C23_open_succeeds','')
c('C28','proved','C28_keepexist C28_recreate C28_result C28_each_ring C28_undisturbed C28_failure_keeps_ring_refuted C28_success_lasts_refuted C28_keepexist_usable_refuted C28_keepexist_race_refuted','the last four theorems record stronger expectations that are false')
c('C32','partial','C32_unread_partial C32_usable_partial C32_drain_partial C32_faithful C32_order_refuted C32_corrupt_refuted C32_overwrite_refuted C32_wedged_refuted C32_lag_refuted','false at five places between stores (the _refuted theorems); proved everywhere else')
c('C46','partial','C46_safe_partial C46_farm C46_faithful C46_refuted','false when killed between the stores of r->r and r->m (C46_refuted); proved everywhere else, and everywhere for SHR_FARM rings')
c('C33','proved','C33_exclusion C33_serial C33_inside C33_queue C32_faithful C46_faithful','generic in the critical sections; instantiated for those of shr_writev and shr_readv')
c('C37','proved','C37_publish C37_publish_broken C37_subscribe C37_meanwhile','messages that fit the buffer of the subscriber, as quantified; C38 is about the others')
c('C38','partial','C38_partial C38_aborts C38_refuted C38_empty_refuted','false: frames of 999997 to 1048576 bytes abort the subscriber, and so does an empty frame behind another (C38_refuted, C38_empty_refuted); fitting frames are decoded (C37) and longer ones rejected (C38_partial)')
c('C39','proved','C39_round_trip C39_injective C39_long','')
c('C40','proved','C40_column C40_word C40_none C40_slurp','')
c('C41','partial','C41_partial C41_sound C41_refuted','false for tables with unnamed sockets, where -1 is returned (C41_refuted); proved when all sockets have names, and 0 and 1 are always right (C41_sound)')
c('C42','proved','C42_unhex C42_refused','')
c('C43','partial','C43_partial C43_short C43_refuted C43_error_refuted','false: after a partial write the beginning of the message is output again (C43_refuted)')
c('C44','partial','C44_partial C44_plain C44_bad_unit C44_wraps C44_refuted','false beyond 2^64, where the result wraps (C44_refuted); proved below')
c('C45','proved','C45_tee C05_zero_write','a blocking writer never gets 0 from shr_write (C05_zero_write), which is the hypothesis of C45_tee')
c('C50','proved','C50_start C50_pass','')
c('C48','partial','C42_refused C48_refuted C48_abort_refuted','false: 4g is accepted and -f aborts; the empty argument and odd lengths are refused (C42_refused)')
c('C49','partial','C49_partial C49_blank_refuted C49_long_refuted','false for blank lines and lines of more than 998 bytes; proved for the others')
c('C47','partial','C47_done C47_refused C47_accepted_partial C47_refuted C47_appdata_refuted','false when killed between the store of the data size and the end: flags or application data are missing (C47_refuted, C47_appdata_refuted); refused before, and otherwise a sound empty ring')
c('C51','proved','C51_no_deadlock','')
c('C52','proved','C52_linearizable C52_spec_fifo','')
c('C53','proved','C53_sections C53_open_section C53_atomic C53_no_abort C53_fifo C53_reader_refuted','C53_reader_refuted: the messages a killed reader had taken are lost')
c('C54','partial','C54_refuted C54_readers_partial C54_writers_partial','false: a process killed between updating the ring and waking leaves the others asleep (C54_refuted).  Proved: that is the only case, and it lasts until the next write, or read of messages')
c('C55','proved','C55_wakes_readers C55_success_wakes C55_wakes_writers C55_wake_kept C55_kept_by_kill C55_kept_by_kill_open C55_registered','assumes that sends do not fail other than by a full queue, that has_pid_socket is exact, and that new sockets get new names (honest_sockets, new_names)')
c('C56','partial','C56_refuted C55_wakes_writers','false: shr_read returns messages even if bw_wake failed, leaving a writer asleep.  Proved if no socket call fails (C55_wakes_writers)')
c('C57','partial','C57_exclusion_partial C57_serial_partial C57_queue_partial C57_threads_refuted C57_close_refuted','false for threads with handles of their own, and for closing one handle while another is inside; proved if each process uses one handle at a time')
c('C58','proved','C58_reader C58_writer','weak fairness of the lock and of wake-ups is a hypothesis; no kills, no failing sockets')
c('C59','proved','C59_calls_end C59_delivered','fairness as in C58; calls_end needs the writer to be the only one writing (otherwise weak fairness allows it to starve)')
c('C60','proved','C60_hexdump C60_lossless','messages up to 2^32 bytes (the offset is printed as an int)')
c('C61','partial','C61_partial C61_accepted C61_refuted','false: ports are reduced modulo 2^32, text after the digits is ignored; proved for digits below 2^32')
c('C62','proved','C62_stream','')
c('C63','partial','C63_partial C63_refuted','false: recv failing (connection reset) ends the publisher; proved if no call other than write fails')
c('C64','partial','C64_partial C64_refuted','false: the message being sent when the connection breaks is lost; proved if none breaks')
c('C65','proved','C65_pipe','messages that fit the buffer of the subscriber, as in C37')
c('C66','partial','C66_partial C66_together C66_one_by_one C66_refuted','false: frames that arrive together are written together, and lost if they exceed the ring together')
c('C67','proved','C67_create','')
c('C68','partial','C68_partial C68_refuted','false: appdata is never shown; the others are')
c('C69','proved','C69_read','')
c('C70','proved','C70_atomic C70_midway C70_next C70_unlocks C70_fifo C70_sleepers','while a process is between lock() and unlock(), lock() giving up in another process and the death of another process that has sockets are not modelled')
c('C71','partial','C71_history C71_partial C71_call C71_refuted','false for a process killed while setting them (C71_refuted); C71_history says that this is the only exception and what it leaves')
c('C72','partial','C72_stat C72_counters_partial C72_written_partial C72_written_bound C72_refuted','false until the next reset after a writer died with its message stored (C72_refuted); proved: after the reset, and in any case for the sizes (C72_stat) and up to those messages (C72_written_bound)')
c('C73','proved','C73_valid C73_open_succeeds','executions in which no system call fails, for C73_open_succeeds; kills at the places of C32 and C46 excepted')
c('C74','partial','C74_wake_partial C74_kept C74_wake_returns C74_reuse_refuted','proved if the kernel never gives a socket a name it has given before; with a closed waiter name given to the next waiter in the same slot a wake-up is lost and that waiter unregistered: C74_reuse_refuted')
c('C75','proved','C75_own C75_new','')
c('C76','proved','C76_no_more','names of sockets are not given again')
c('C77','proved','C77_max C77_open','names of sockets are not given again')
c('C78','proved','C78_modes','')
c('C79','proved','C79_reader C79_next_write C79_writer C79_next_read C79_writer_exception_needed C79_reader_exception_needed','no failing socket calls; names of sockets are not given again')
c('C80','partial','C80_create C80_write C80_writehex C80_writefile C80_mount C80_fails C80_read C80_loops C80_read_refuted C80_status_refuted C80_query_refuted','false: read exits with failure after doing what was asked, status -A and mount -q with success after failing; proved for create, write, writehex, writefile, mount')
c('C81','partial','C81_no_stacking_partial C81_inside C81_unmount C81_query C81_query_partial C81_safe C81_query_refuted C81_refuted C81_unchecked_refuted','false for paths of 4093 bytes or more, if stat or statfs fails, and for a tmpfs of 0 blocks; proved otherwise')
c('C82','proved','C82_delegate','')
c('C83','partial','C83_every_execution C83_nothing_lost C83_valid C83_works C83_fifo C83_success C83_open C83_read_partial C83_read_refuted','false of shr_read when msync fails (its result is ignored, l.852); proved otherwise, while msync works for every call, and for the other calls whatever failed before')
c('C84','partial','C84_control_partial C84_one_page_partial C84_write_page_partial C84_write_partial C84_refuted C84_drop_refuted','false for writes on files of more than a page: old messages reappear, and with SHR_DROP messages are damaged; proved for files of one page and for the calls that store only in the control region, as far as C46 and C53 go; without SHR_DROP the messages before the write are safe')
c('C85','partial','C85_every_execution C85_nothing_lost C85_valid C85_works C85_no_abort C85_atomic C85_atomic_during C85_fifo C85_fifo_during C85_during_partial C85_reader_wakes C85_writer_wakes','proved in full when the power fails between sections; inside a section when the ring on the disk is that of some statement of it, which C85_during_partial shows of calls that store only control fields and of files of one page (C84 refutes it for other writes), outside the places of C54')
c('C86','proved','C86_write C86_empty_line C86_writehex C86_writefile C86_read C86_through C86_any','an input with an empty line cannot be written (C86_empty_line): write ends with an error there, as no ring can hold an empty message')
c('C87','proved','C87_reader C87_drained C87_no_deadlock','while no socket call fails and socket names are not reused (C19_name_reuse_refuted)')
c('C88','proved','C88_pub C88_sub C88_relay C88_hosts C88_hosts_any','a message being sent when a connection breaks is lost between two connections (C64_refuted), hence part, not initial part, for later ones')
c('C89','proved','C89_tee','')
c('C90','proved','C90_calls_end C90_delivered','fairness as in C58; calls_end needs the writer to be the only one writing')
c('C91','proved','C91_farm C91_event_loop','fairness as in C58; fewer than 2^64 messages written')
c('C92','proved','C92_calls_end C92_delivered C92_writer_afresh_needed C92_reader_afresh_needed','no failing socket calls; names of sockets are not given again; with a client that was in a call when another was killed it is false (the two _afresh_needed theorems, and C79)')
c('C93','proved','C93_some_writer C93_after_kills','fairness as in C58; no failing socket calls; that every one of several writers gets on does not hold without a fair lock and is not claimed')
c('C94','partial','C94_wait C94_goes_on C94_finishes C94_stays C94_wake_partial C94_wake_exit C94_forced C94_signal C94_signal_refuted','that a signal during wait -w is reported and the handle closed is false (C94_signal_refuted); the wake theorem excludes recycled socket names, with which it is false (C74_reuse_refuted)')
c('C95','proved','C95_farm C95_left C95_afresh_needed','fairness as in C58; no failing socket calls; C95_afresh_needed: a reader already in its call when a writer was killed can be left asleep')
c('C96','proved','C96_ready C96_delivered C96_calls_end C96_farm C96_first_needed','fairness as in C58; no failing socket calls; C96_first_needed: an event loop whose descriptor is not readable after a kill can miss the messages a killed writer left')
json.dump({"claims":[T[k] for k in sorted(T)]},open('MANIFEST.json','w'),indent=1)
