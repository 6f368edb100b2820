{
 "claims": [
  {
   "property": "C01",
   "status": "proved",
   "theorems": [
    "C01_deterministic",
    "C01_final_state",
    "C01_termination_agrees",
    "C01_no_deadlock"
   ],
   "note": "All executions of the round-based parallel loop, any number of workers and any interleaving; host programs are arbitrary deterministic functions."
  },
  {
   "property": "C02",
   "status": "proved",
   "theorems": [
    "C02_no_panic",
    "C02_times_sorted",
    "C02_arrivals_not_in_past"
   ],
   "note": "Proved for every reachable state of the loop."
  },
  {
   "property": "C03",
   "status": "proved",
   "theorems": [
    "C03_latency",
    "C03_static_exact",
    "C03_dynamic_exact"
   ],
   "note": "Exact arrival time, with the cases in which the window end postpones it."
  },
  {
   "property": "C04",
   "status": "proved",
   "theorems": [
    "C04_windows",
    "C04_next_window",
    "C04_in_window",
    "C04_all_executed",
    "C04_end"
   ],
   "note": "Window arithmetic, next-window choice and completeness at the end."
  },
  {
   "property": "C05",
   "status": "proved",
   "theorems": [
    "C05_history_sound",
    "C05_history_complete",
    "C05_conserves",
    "C05_drain_sorted",
    "C05_insertion_order_irrelevant",
    "C05_order_total",
    "C05_order_strict",
    "C05_times_monotone"
   ],
   "note": ""
  },
  {
   "property": "C06",
   "status": "partial",
   "theorems": [
    "C06_policy",
    "C06_bounds",
    "C06_no_panic",
    "C06_never_grows_partial",
    "C06_never_grows_refuted"
   ],
   "note": "Policy, bounds and absence of panics proved. 'Never grows' holds after the first report only; with dynamic runahead the first report can raise it (refuted theorem)."
  },
  {
   "property": "C07",
   "status": "partial",
   "theorems": [
    "C07_charge_exact",
    "C07_charge_rounded",
    "C07_charge_near",
    "C07_charge_nearest_refuted",
    "C07_delay",
    "C07_cpu_no_panic",
    "C07_no_threshold",
    "C07_inert",
    "C07_delay_covers_work_refuted",
    "C07_conserved",
    "C07_defer_later",
    "C07_expire_late",
    "C07_never_early",
    "C07_off"
   ],
   "note": "Conservation, no anticipation, exact charge proved. The charged time is not the nearest multiple for odd precisions, and the delay does not cover the charged work because the clock it is compared with moves along (refuted theorems)."
  },
  {
   "property": "C08",
   "status": "proved",
   "theorems": [
    "C08_refines_ideal_bucket",
    "C08_rate_bound",
    "C08_new_total"
   ],
   "note": "Token bucket refines an ideal bucket; rate bound over any interval."
  },
  {
   "property": "C09",
   "status": "proved",
   "theorems": [
    "C09_wait_exact"
   ],
   "note": "Returned wait is exact for the bucket."
  },
  {
   "property": "C10",
   "status": "partial",
   "theorems": [
    "C10_in_order",
    "C10_conserves",
    "C10_no_panic",
    "C10_one_wakeup",
    "C10_released",
    "C10_not_before",
    "C10_rate",
    "C10_oversize",
    "C10_oversize_refuted"
   ],
   "note": "Order, conservation, rate, single wake-up and absence of panics hold for all histories; a packet that fits the token bucket leaves at its wake-up. A packet larger than the bucket (a 3028-byte UDP packet at 1 Mbit/s) is never sent and blocks the relay for ever (refuted theorem)."
  },
  {
   "property": "C11",
   "status": "proved",
   "theorems": [
    "C11_conserves",
    "C11_serves",
    "C11_drop_reason"
   ],
   "note": "Control law increment is any function bounded by 100 ms; packet statuses not modelled. Times non-decreasing and 10 s away from the end of representable time."
  },
  {
   "property": "C12",
   "status": "proved",
   "theorems": [
    "C12_refines_queue",
    "C12_deterministic",
    "C12_no_panic",
    "C12_conserves",
    "C12_none_priority_refuted",
    "C12_interface_complete",
    "C12_interface_fifo",
    "C12_round_robin",
    "C12_tcp_overtakes_refuted"
   ],
   "note": "Queue refines an ordered list for both disciplines; the interface built on it is complete, fifo for UDP sockets, and fair under round robin. Findings: a push without priority on a priority queue registers the socket for ever; a TCP socket overtakes earlier packets of other sockets."
  },
  {
   "property": "C13",
   "status": "proved",
   "theorems": [
    "C13_delivery",
    "C13_associate",
    "C13_restores",
    "C13_no_panic"
   ],
   "note": "Two interfaces, any history of associations and disassociations."
  },
  {
   "property": "C14",
   "status": "proved",
   "theorems": [
    "C14_free_port",
    "C14_shared_port_refuted"
   ],
   "note": "Any association history, any random stream. Finding: without a peer, a port used by a connected socket counts as free."
  },
  {
   "property": "C15",
   "status": "proved",
   "theorems": [
    "C15_unique",
    "C15_explicit",
    "C15_auto",
    "C15_auto_panics",
    "C15_lookup",
    "C15_hosts",
    "C15_hosts_error",
    "C15_hosts_no_panic"
   ],
   "note": "IPv4 only (the code's IPv6 case is unimplemented!())."
  },
  {
   "property": "C16",
   "status": "proved",
   "theorems": [
    "C16_shortest",
    "C16_self_loop",
    "C16_symmetric",
    "C16_outcome",
    "C16_direct",
    "C16_smallest",
    "C16_unconnected_refuted"
   ],
   "note": "Dijkstra proved correct for every monotone rounding of losses and every tie-breaking of the queue. The route table construction panics instead of reporting an error when two nodes in use are not connected (refuted theorem)."
  },
  {
   "property": "C17",
   "status": "proved",
   "theorems": [
    "C17_accept",
    "C17_reason",
    "C17_lookup",
    "C17_inverse",
    "C17_reserved",
    "C17_hosts_file",
    "C17_hosts_panic",
    "C17_hosts_deterministic"
   ],
   "note": "File contents as lines of (address, name); formatting to text not modelled."
  },
  {
   "property": "C18",
   "status": "proved",
   "theorems": [
    "C18_fifo",
    "C18_length",
    "C18_has",
    "C18_read",
    "C18_peek",
    "C18_push_stream",
    "C18_push_packet",
    "C18_no_panic",
    "C18_progress_refuted",
    "C18_peek_prefix_refuted"
   ],
   "note": "Order, boundaries, lengths and absence of panics proved for chunk capacities above zero. Two refuted theorems record that an empty stream chunk blocks all reads, and that peeking with a writer that blocks part-way skips bytes."
  },
  {
   "property": "C19",
   "status": "proved",
   "theorems": [
    "C19_lookup",
    "C19_intervals",
    "C19_total",
    "C19_change",
    "C19_iter_from"
   ],
   "note": ""
  },
  {
   "property": "C20",
   "status": "proved",
   "theorems": [
    "C20_fifo",
    "C20_bytes",
    "C20_capacity",
    "C20_read",
    "C20_eof",
    "C20_write",
    "C20_status",
    "C20_no_panic",
    "C20_fault_write_refuted",
    "C20_fault_read_refuted",
    "C20_zero_read_refuted",
    "C20_atomic_refuted"
   ],
   "note": "Refinement to a bounded sequence of bytes and packets for every history of opens, closes, reads and writes with valid memory; capacity and absence of panics also with faulting memory. Findings: failed reads and writes leave the status stale (and bytes lost or delivered), a zero-length read drops a packet, writes up to PIPE_BUF are not atomic. File listeners, ioctl and fstat not modelled."
  },
  {
   "property": "C21",
   "status": "partial",
   "theorems": [
    "C21_table",
    "C21_lowest_partial",
    "C21_reuse",
    "C21_close_unused_refuted",
    "C21_dup_high_refuted",
    "C21_dup_min_refuted"
   ],
   "note": "Freshness, minimum, exact failure, only-named-number effects and absence of panics hold for all histories. The lowest-number clause is false of the code in general (three refutations: close of an unused number, dup2 high then close, F_DUPFD high then close); it is proved for compact histories, and in general a non-lowest number was closed before."
  },
  {
   "property": "C22",
   "status": "partial",
   "theorems": [
    "C22_ledger",
    "C22_results",
    "C22_ready_partial",
    "C22_closed",
    "C22_told",
    "C22_ready_refuted"
   ],
   "note": "Ledger, exact blocking conditions, semaphore mode and notifications hold for all histories. Readiness bits agree with the counter except on a fresh counter with a positive initial value, which is not marked readable until the first successful read or write (refuted)."
  },
  {
   "property": "C23",
   "status": "proved",
   "theorems": [
    "C23_callbacks",
    "C23_callbacks_bounds",
    "C23_count",
    "C23_remaining",
    "C23_stale",
    "C23_no_panic",
    "C23_fd_readable",
    "C23_fd_read",
    "C23_fd_gettime",
    "C23_fault_refuted",
    "C23_overflow_refuted",
    "C23_interval_refuted"
   ],
   "note": "Timer and TimerFd, with the event queue as environment (tasks run at their time, in time order). Findings: a faulting read loses the count and leaves a stale readable bit; accepted times and intervals near the end of representable time panic."
  },
  {
   "property": "C24",
   "status": "partial",
   "theorems": [
    "C24_wait",
    "C24_ctl",
    "C24_readable",
    "C24_told",
    "C24_edge",
    "C24_oneshot_partial",
    "C24_fair",
    "C24_no_panic",
    "C24_oneshot_refuted"
   ],
   "note": "Waits, registration results, readability, notifications, edge triggering and fairness hold for all histories, with any number of files and descriptors. One-shot registrations report each event once, but one asking for several events can report again with another event (refuted). EPOLLERR and EPOLLHUP are never reported by the code and are outside the model; so is an epoll file closed while still registered."
  },
  {
   "property": "C25",
   "status": "proved",
   "theorems": [
    "C25_value",
    "C25_returned",
    "C25_no_panic",
    "C25_equality",
    "C25_display",
    "C25_display_deterministic"
   ],
   "note": ""
  },
  {
   "property": "C26",
   "status": "partial",
   "theorems": [
    "C26_sim_checked_arith_exact",
    "C26_emu_checked_arith_exact",
    "C26_sim_emu_roundtrip",
    "C26_emu_sim_roundtrip",
    "C26_c_repr_roundtrip",
    "C26_timespec_roundtrip",
    "C26_timespec_decode",
    "C26_timeval_roundtrip",
    "C26_timeval_decode",
    "C26_subsec_decompose",
    "C26_sim_saturating_partial",
    "C26_sim_saturating_add_total_refuted",
    "C26_emu_saturating_sub_monotone_refuted",
    "C26_emu_saturating_duration",
    "C26_emu_saturating_duration_refuted"
   ],
   "note": "Conversions round-trip and checked arithmetic is exact. The saturating operations are not: saturating_add can panic and EmulatedTime::saturating_sub is not monotone (refuted theorems)."
  },
  {
   "property": "C27",
   "status": "proved",
   "theorems": [
    "C27_once",
    "C27_no_panic",
    "C27_terminates",
    "C27_exclusive",
    "C27_thread_per_host"
   ],
   "note": "Any interleaving of queue operations, any number of rounds; thread-per-host scheduler as well."
  },
  {
   "property": "C28",
   "status": "partial",
   "theorems": [
    "C28_no_early_pass",
    "C28_latch_no_panic",
    "C28_latch_no_lost_wakeup",
    "C28_latch_returns",
    "C28_barrier",
    "C28_no_overrun",
    "C28_double_count",
    "C28_no_panic",
    "C28_no_lost_wakeup_partial",
    "C28_returns",
    "C28_no_lost_wakeup_refuted"
   ],
   "note": "All interleavings, cloning and dropping included, over the true (unbounded) round numbers. Waiters are released provided some counter is left; when all counters are dropped a sleeping waiter can be forgotten (refuted theorem). Sequential consistency assumed; a panic stops the model."
  },
  {
   "property": "C29",
   "status": "proved",
   "theorems": [
    "C29_exclusion",
    "C29_exclusion_disconnected",
    "C29_no_panic",
    "C29_no_lost_wakeup",
    "C29_acquires"
   ],
   "note": "Any number of threads below 2^16, any interleaving of atomic operations and futex calls, interrupted sleeps included; sequential consistency assumed."
  },
  {
   "property": "C30",
   "status": "proved",
   "theorems": [
    "C30_word",
    "C30_delivery",
    "C30_no_panic",
    "C30_no_race",
    "C30_no_lost_wakeup",
    "C30_results",
    "C30_receives",
    "C30_receives_closed"
   ],
   "note": "One sender, one receiver, any number of closers, any interleaving of atomic operations, cell accesses and futex calls; sequential consistency assumed; dropping the channel not modelled."
  },
  {
   "property": "C31",
   "status": "proved",
   "theorems": [
    "C31_values",
    "C31_placement",
    "C31_reuse",
    "C31_recycled",
    "C31_shfree_leaks",
    "C31_shfree_refuted",
    "C31_zero_sized_refuted",
    "C31_oversize_refuted"
   ],
   "note": "Byte-level memory: headers and user bytes share one address space, writing one destroys the other. Assumes mmap answers fresh page-aligned ranges, requests of at least one byte that fit in one chunk. C31_shfree_refuted/C31_shfree_leaks: shfree never returns memory; C31_zero_sized_refuted, C31_oversize_refuted: requests that crash."
  },
  {
   "property": "C32",
   "status": "proved",
   "theorems": [
    "C32_contains",
    "C32_len",
    "C32_intersection",
    "C32_intersection_empty",
    "C32_intersection_empties",
    "C32_intersection_range",
    "C32_symmetric",
    "C32_arithmetic"
   ],
   "note": ""
  },
  {
   "property": "C33",
   "status": "proved",
   "theorems": [
    "C33_challenge",
    "C33_prefix",
    "C33_end_of_stream",
    "C33_acknowledged",
    "C33_no_reset",
    "C33_no_panic",
    "C33_short_streams",
    "C33_overtaken_syn_refuted",
    "C33_early_reset_refuted",
    "C33_mixed_scaling_refuted",
    "C33_failed_write_refuted",
    "C33_failed_read_refuted",
    "C33_reset_exact"
   ],
   "note": "Two connections, an arbitrary network, any interleaving of application calls; window wrap-around included. Packets must not be older than one sequence space, which C33_short_streams shows is automatic for streams shorter than it. A RST is obeyed only if exact, and answered if it is merely in the window. Writes from (reads into) a failing buffer and some handshake packets misbehave (refuted theorems)."
  },
  {
   "property": "C34",
   "status": "partial",
   "theorems": [
    "C34_flow_control",
    "C34_all_accepted",
    "C34_latest_window",
    "C34_reordered_refuted",
    "C34_segment",
    "C34_announces",
    "C34_buffer",
    "C34_in_place",
    "C34_end_in_place",
    "C34_accepts"
   ],
   "note": "Two connections whose packets arrive in order: everything sent lies in the window announced by the last packet received, and everything sent is accepted by the receiver. Against any packets at all: segments have at most 1500 bytes and lie in a window that arrived, window fields fit 16 bits, the announced window and the unread bytes fit the buffer, and every byte read arrived at its place; a packet in order that fits is accepted whole. Missing: reordered packets break the 'most recent window' claim (C34_reordered_refuted)."
  },
  {
   "property": "C35",
   "status": "proved",
   "theorems": [
    "C35_calls",
    "C35_errors",
    "C35_edges",
    "C35_silent",
    "C35_meaning",
    "C35_progress",
    "C35_timeouts",
    "C35_poll",
    "C35_sticky",
    "C35_reads",
    "C35_unread",
    "C35_in_place",
    "C35_fin_with_ack_refuted"
   ],
   "note": "Every event moves a socket along an edge of the diagram or leaves it; each state means what RFC 793 says, and packets in order move it on. Polling agrees with the calls; the answers of connect, shutdown and send and the error left pending are those of a separate table. The listening state is C36. C35_fin_with_ack_refuted: an end that comes with the packet that makes the connection is reported late."
  },
  {
   "property": "C36",
   "status": "partial",
   "theorems": [
    "C36_children",
    "C36_fifo",
    "C36_accept",
    "C36_push",
    "C36_answers",
    "C36_made",
    "C36_listen",
    "C36_backlog",
    "C36_queue_partial",
    "C36_wants",
    "C36_pop",
    "C36_fair",
    "C36_close",
    "C36_queue_refuted"
   ],
   "note": "Order, at most once, the accept call, packets, backlog, sending, fairness and closing are proved for every history. That no more connections wait than the backlog allows is proved if no opening SYN has the ACK flag, and refuted otherwise (C36_queue_refuted)."
  },
  {
   "property": "C37",
   "status": "proved",
   "theorems": [
    "C37_alias",
    "C37_no_panic",
    "C37_text",
    "C37_file_name",
    "C37_malformed_refuted"
   ],
   "note": "Builds on the allocator model of C31; the receiving process reads through its own mappings of the chunk files. Assumes file names are not reused (O_EXCL) and mmap answers disjoint ranges. C37_malformed_refuted: malformed text panics."
  },
  {
   "property": "C38",
   "status": "partial",
   "theorems": [
    "C38_listener_partial",
    "C38_close_partial",
    "C38_syn_rst_refuted",
    "C38_syn_ack_refuted",
    "C38_syn_window_refuted",
    "C38_close_refuted",
    "C38_close_rst_refuted",
    "C38_push_partial",
    "C38_pop_partial",
    "C38_calls",
    "C38_not_syn_refuted",
    "C38_zero_window_refuted",
    "C38_early_ack_refuted",
    "C38_early_data_refuted",
    "C38_early_abort_refuted",
    "C38_socket_partial",
    "C38_stray_refuted",
    "C38_unsent_refuted"
   ],
   "note": "One connection and arbitrary packets: arrivals do not panic once SYNs went both ways (or if they are SYN or RST), nor do the application's calls and, with the same proviso, sending. Before that, a non-SYN packet, a SYN with a zero window, a SYN that acknowledges our unsent SYN, early data and an early abort panic (refuted theorems). The same for whole sockets, with calls and timers (C38_socket_partial). C38_listener_partial and C38_close_partial: the same for a listening socket, with the packets that make it panic."
  },
  {
   "property": "C39",
   "status": "partial",
   "theorems": [
    "C39_datagrams",
    "C39_genuine",
    "C39_no_panic_partial",
    "C39_crash",
    "C39_no_panic_refuted",
    "C39_idle_partial",
    "C39_drains_partial",
    "C39_stuck_refuted"
   ],
   "note": "The whole UDP side of a host refines mailboxes (C39_datagrams: order, integrity, at most once, one fate per datagram); what is read was sent (C39_genuine). No panic and progress of the relays hold without sockets bound to loopback addresses other than 127.0.0.1; with them they are refuted (C39_no_panic_refuted, C39_stuck_refuted), and C39_crash says that this is the only panic. Bandwidth limits of the relays, latency and loss of the network are outside."
  },
  {
   "property": "C40",
   "status": "partial",
   "theorems": [
    "C40_ports",
    "C40_wire_partial",
    "C40_reply_partial",
    "C40_reply_refuted",
    "C40_closed",
    "C40_name_refuted",
    "C40_unspecified_refuted"
   ],
   "note": "Ports have one owner, closing is final. Replies reach the sender unless it is bound to a loopback address other than 127.0.0.1 (C40_reply_refuted). getsockname can return the peer's address (C40_name_refuted); sendto 0.0.0.0 is dropped (C40_unspecified_refuted)."
  },
  {
   "property": "C41",
   "status": "partial",
   "theorems": [
    "C41_poll",
    "C41_told",
    "C41_wakes",
    "C41_writable_refuted",
    "C41_closes_partial",
    "C41_closed_refuted",
    "C41_shutdown_refuted",
    "C41_dontwait_refuted"
   ],
   "note": "Readability exact, writability exact without SO_SNDBUF (C41_writable_refuted); no lost wakeup. Refuted: closed sockets poll as ready again, shutdown does not wake readers."
  },
  {
   "property": "C42",
   "status": "partial",
   "theorems": [
    "C42_refines",
    "C42_stream",
    "C42_stream_end",
    "C42_stream_ends",
    "C42_seqpacket",
    "C42_datagram",
    "C42_connected",
    "C42_truncation_partial",
    "C42_truncation_refuted",
    "C42_filter_refuted",
    "C42_fault_stream_refuted",
    "C42_fault_source_refuted"
   ],
   "note": "Streams, seqpacket and datagrams deliver in order and unaltered along all runs without inaccessible memory (refinement of the code to a machine of inboxes, C42_refines). Refuted: truncation is reported only to readers that pass MSG_TRUNC; a connected datagram socket reads from anybody; reads that fault lose data and mix up sources."
  },
  {
   "property": "C43",
   "status": "proved",
   "theorems": [
    "C43_bound",
    "C43_stream",
    "C43_message"
   ],
   "note": "Exact results of all sends in terms of what was sent and read; for all runs without inaccessible memory."
  },
  {
   "property": "C44",
   "status": "partial",
   "theorems": [
    "C44_bind",
    "C44_autobind",
    "C44_owner",
    "C44_accept",
    "C44_connect",
    "C44_inherit_refuted"
   ],
   "note": "Names, autobind, backlog and order of accept exactly; C44_inherit_refuted: accepted sockets inherit O_NONBLOCK from the listener."
  },
  {
   "property": "C45",
   "status": "partial",
   "theorems": [
    "C45_bits_partial",
    "C45_writable_refuted",
    "C45_told",
    "C45_news",
    "C45_woken_partial",
    "C45_stuck_refuted"
   ],
   "note": "Bits exact but for unused datagram sockets (C45_writable_refuted); every change and arrival is announced; every blocked call is woken but senders of messages for which there was some room (C45_stuck_refuted)."
  },
  {
   "property": "C46",
   "status": "partial",
   "theorems": [
    "C46_crash_partial",
    "C46_self_refuted",
    "C46_connect_refuted",
    "C46_fault_refuted",
    "C46_fault_datagram_refuted"
   ],
   "note": "Without inaccessible memory exactly the calls by which a socket reaches itself crash (C46_crash_partial). Refuted: sending to or connecting to oneself, faulting sends and reads."
  },
  {
   "property": "C47",
   "status": "partial",
   "theorems": [
    "C47_traces",
    "C47_pending",
    "C47_take",
    "C47_return",
    "C47_kill",
    "C47_tgkill",
    "C47_tgkill_none",
    "C47_tkill",
    "C47_handler",
    "C47_sigaction",
    "C47_sigprocmask",
    "C47_sigaltstack",
    "C47_restore",
    "C47_sigkill",
    "C47_actions",
    "C47_unblockable_refuted",
    "C47_group_refuted"
   ],
   "note": "Traces, pending sets, choice of the next signal, kill, tkill and tgkill of ids, sigaction, sigprocmask, sigaltstack, handler entry and return, SIGKILL, exactly. Refuted: SIGKILL and SIGSTOP can be blocked (C47_unblockable_refuted); kill of a group reaches one process only (C47_group_refuted). Numbers above 31 are not supported by the code."
  },
  {
   "property": "C48",
   "status": "partial",
   "theorems": [
    "C48_woken",
    "C48_woken_process_partial",
    "C48_leaves",
    "C48_restart",
    "C48_lost_refuted"
   ],
   "note": "Thread-directed signals wake blocked calls in all histories; process-directed ones in processes that never make a thread (C48_woken_process_partial); with threads this is refuted (C48_lost_refuted)."
  },
  {
   "property": "C49",
   "status": "partial",
   "theorems": [
    "C49_lives",
    "C49_parents",
    "C49_getppid",
    "C49_wait4",
    "C49_waitid",
    "C49_waiter_partial",
    "C49_served",
    "C49_exit",
    "C49_killed",
    "C49_told_exited",
    "C49_told_killed",
    "C49_pdeath",
    "C49_set_pdeath",
    "C49_exit_thread",
    "C49_unwoken_refuted"
   ],
   "note": "Lives, parents, getppid, wait4, waitid, exit of threads and processes, parent death signals, exactly. Blocked waits are woken for children with an exit signal (C49_waiter_partial: for any or one child); refuted without one (C49_unwoken_refuted)."
  },
  {
   "property": "C50",
   "status": "partial",
   "theorems": [
    "C50_session",
    "C50_leader",
    "C50_setpgid",
    "C50_getpgid",
    "C50_getsid",
    "C50_setsid",
    "C50_explicit_refuted"
   ],
   "note": "Invariants and both calls exactly; C50_explicit_refuted: setpgid(p, p) for a new group fails with EPERM."
  },
  {
   "property": "C51",
   "status": "partial",
   "theorems": [
    "C51_step_partial",
    "C51_runs_partial",
    "C51_cont_refuted",
    "C51_stop_refuted",
    "C51_exit_signal_refuted",
    "C51_pdeathsig_refuted",
    "C51_wait4_refuted",
    "C51_pidfd_refuted",
    "C51_exec_wait_refuted",
    "C51_exec_exec_refuted"
   ],
   "note": "Outside the situations that ProcFaults.v lists no step panics; a witness for each kind of situation is refuted separately."
  },
  {
   "property": "C52",
   "status": "partial",
   "theorems": [
    "C52_clone",
    "C52_child",
    "C52_thread",
    "C52_thread_start",
    "C52_exec",
    "C52_mask_refuted",
    "C52_thread_mask_refuted"
   ],
   "note": "clone without CLONE_THREAD or CLONE_SIGHAND, clone of threads, the start of the child and exec, exactly, except the signal mask of a child and of a new thread, which is empty (C52_mask_refuted, C52_thread_mask_refuted)."
  },
  {
   "property": "C53",
   "status": "partial",
   "theorems": [
    "C53_refines",
    "C53_wake",
    "C53_exit",
    "C53_address_refuted",
    "C53_pid_refuted"
   ],
   "note": "The queue of waiting threads is refined in all runs, panics included; wake and exit laws proved for addresses below 2^48 and process ids below 2^16. C53_address_refuted, C53_pid_refuted: beyond them Shadow panics. Futexes in memory shared by processes are not modelled (the code does not support them)."
  },
  {
   "property": "C54",
   "status": "partial",
   "theorems": [
    "C54_blocks",
    "C54_compare",
    "C54_timeout",
    "C54_prompt",
    "C54_conserves_partial",
    "C54_timeout_loses_refuted",
    "C54_signal_loses_refuted",
    "C54_restart_refuted",
    "C54_long_timeout_refuted",
    "C54_reread_refuted"
   ],
   "note": "Blocking, comparison, timeouts and promptness proved for all runs. Conservation of wakeups only for runs without timeouts and signals: C54_timeout_loses_refuted and C54_signal_loses_refuted show lost wakeups. C54_restart_refuted, C54_long_timeout_refuted, C54_reread_refuted: further deviations."
  },
  {
   "property": "C55",
   "status": "proved",
   "theorems": [
    "C55_no_panic",
    "C55_once",
    "C55_at_most_once",
    "C55_parallel",
    "C55_scope",
    "C55_waits",
    "C55_panic",
    "C55_calm",
    "C55_progress",
    "C55_terminates",
    "C55_joined"
   ],
   "note": "All interleavings of any number of threads and processors under sequential consistency; operations of queues, parkers and the latch are atomic; CPU affinity and closures of scope that panic themselves are not modelled. Termination: a bound on the steps that change anything, and such a step exists."
  },
  {
   "property": "C56",
   "status": "proved",
   "theorems": [
    "C56_no_panic",
    "C56_once",
    "C56_at_most_once",
    "C56_scope",
    "C56_waits",
    "C56_panic",
    "C56_calm",
    "C56_progress",
    "C56_terminates",
    "C56_joined"
   ],
   "note": "As C55, for the pool of the thread-per-core scheduler; generations of the start latch wrap at 32 bits."
  },
  {
   "property": "C57",
   "status": "partial",
   "theorems": [
    "C57_time",
    "C57_time_upper",
    "C57_bytes",
    "C57_bits",
    "C57_small",
    "C57_unambiguous",
    "C57_round_trip",
    "C57_convert",
    "C57_convert_total",
    "C57_convert_total_refuted",
    "C57_used",
    "C57_accepted_refuted",
    "C57_plain"
   ],
   "note": "Everything is proved for the units that the options use. Two parts fail in the code, each with a witness: a time of more than 584 years (or a rate of more than 64 bits) is accepted when the file is read and panics when it is used (C57_accepted_refuted), and conversions between units with small prefixes, which no option uses, can panic (C57_convert_total_refuted)."
  },
  {
   "property": "C58",
   "status": "proved",
   "theorems": [
    "C58_once",
    "C58_same_value",
    "C58_no_race",
    "C58_no_panic",
    "C58_bounded",
    "C58_progress",
    "C58_all_return",
    "C58_panicked",
    "C58_initd",
    "C58_drop"
   ],
   "note": "The state word is a location of a release and acquire memory (loads may be stale); an initializer that uses its own lock is not modelled."
  },
  {
   "property": "C59",
   "status": "partial",
   "theorems": [
    "C59_map",
    "C59_still_used",
    "C59_panics",
    "C59_full",
    "C59_wait_free",
    "C59_drop",
    "C59_full_refuted"
   ],
   "note": "The claim on full tables fails in the code (C59_full_refuted): an insertion can panic although the table is full at no moment; what holds instead is C59_full. Everything else is proved. The memory is sequentially consistent in this model, and the rule that a key is used by one thread at a time is an assumption on the callers, as in the documentation of the code."
  },
  {
   "property": "C60",
   "status": "partial",
   "theorems": [
    "C60_start",
    "C60_transparent_partial",
    "C60_contents_partial",
    "C60_zeroed_refuted",
    "C60_mprotect_empty_refuted",
    "C60_unreadable_refuted",
    "C60_unwritable_refuted",
    "C60_munmap_length_refuted",
    "C60_mprotect_failed_refuted",
    "C60_brk_unaligned_refuted",
    "C60_brk_to_start_refuted",
    "C60_partly_mapped_refuted",
    "C60_mremap_part_refuted",
    "C60_mremap_readonly_refuted"
   ],
   "note": "Proved against the process alone on a model of the kernel, from any start and for all runs of supported calls (C60_start in full; C60_transparent_partial, C60_contents_partial). The claim fails in the code for the others, each with a run that the kernel serves: lengths that are not whole pages (C60_zeroed_refuted, C60_munmap_length_refuted), empty or failing mprotect, brk to an unaligned address or back to the start, mremap of a part or of read-only memory, and system calls on memory without the permission or only partly mapped (the C60_*_refuted theorems). Outside the theorem without a refutation: heaps above the stack. The kernel's calls are modelled from their manual pages; permission to execute is not modelled."
  },
  {
   "property": "C61",
   "status": "partial",
   "theorems": [
    "C61_mirrors_partial",
    "C61_released_partial"
   ],
   "note": "For all runs of the calls that C60 supports; the calls that it does not support are the findings of C60, some of which leave mappings behind."
  },
  {
   "property": "C62",
   "status": "proved",
   "theorems": [
    "C62_exactly_lost",
    "C62_once",
    "C62_blocks",
    "C62_held",
    "C62_acked_never_asked_refuted",
    "C62_sacks_remembered_refuted"
   ],
   "note": "By refinement to sets of packets, for all events whose numbers do not wrap around (the code compares them as plain integers) and whose blocks are not empty (C62_blocks and C62_held: those that a peer sends). Claimed for numbers from the highest acknowledgement on: smaller ones may be asked for again, without effect (C62_acked_never_asked_refuted). The queue of packets kept for retransmission is not modelled."
  },
  {
   "property": "C63",
   "status": "proved",
   "theorems": [
    "C63_stream",
    "C63_read",
    "C63_never_stuck",
    "C63_buffer_drains_refuted",
    "C63_next_handed_out_refuted"
   ],
   "note": "One direction of an established connection; sequence numbers (one per packet) do not wrap, as the code assumes. Which packets are reported lost and the congestion window are arbitrary inputs (for the former see C62). C63_never_stuck says that a continuation exists from every reachable state, not that the timers choose it. Opening and closing are not modelled."
  },
  {
   "property": "C64",
   "status": "proved",
   "theorems": [
    "C64_bounds",
    "C64_batching",
    "C64_avoid_growth",
    "C64_slow_start_growth",
    "C64_threshold",
    "C64_recovery",
    "C64_two_duplicates",
    "C64_timeout",
    "C64_three_in_a_row_refuted",
    "C64_timeout_reduces_refuted",
    "C64_ack_never_shrinks_refuted"
   ],
   "note": "All of tcp_cong_reno.c, with unsigned 32-bit arithmetic; which events are reported by tcp.c is arbitrary. Three statements one would expect of Reno are refuted (see the findings)."
  },
  {
   "property": "C65",
   "status": "proved",
   "theorems": [
    "C65_announced",
    "C65_windows",
    "C65_send_buffer",
    "C65_kept_once",
    "C65_receive_buffer",
    "C65_announced_fits_refuted"
   ],
   "note": "About the model of C63 (one direction of an established connection). The packets that arrived out of order are not counted in the receive buffer (nor by the code's window). C65_announced_fits_refuted: an acknowledgement that waits for the interface may announce more than is free."
  },
  {
   "property": "C66",
   "status": "proved",
   "theorems": [
    "C66_file",
    "C66_whole",
    "C66_packet",
    "C66_same_file"
   ],
   "note": "Errors of the file system are not modelled. Checksums are written as zero by the code, and the reader of the specification does not check them. Of the TCP flags only the low six are written. The time is exact below 2^32 seconds, beyond that the seconds saturate."
  },
  {
   "property": "C67",
   "status": "proved",
   "theorems": [
    "C67_writes",
    "C67_safe",
    "C67_append",
    "C67_printf",
    "C67_printf_fits",
    "C67_printf_cuts_refuted",
    "C67_decode",
    "C67_decode_unique",
    "C67_decode_text"
   ],
   "note": "The output of vsnprintf and Rust's from_utf8 (by its table) are modelled, the buffer is the text written so far. C67_printf_cuts_refuted: printed text that is too long may end in a replacement character that is not part of it."
  },
  {
   "property": "C68",
   "status": "proved",
   "theorems": [
    "C68_memory",
    "C68_cut",
    "C68_bytes",
    "C68_classify",
    "C68_unterminated_refuted",
    "C68_path",
    "C68_abstract",
    "C68_equal",
    "C68_inet",
    "C68_kind"
   ],
   "note": "Faults when copying and uninitialised padding are not modelled; the conversion of IPv4 addresses by the nix crate is. C68_unterminated_refuted: a pathname that ends with the length of the address, without NUL (allowed on Linux), is not found."
  }
 ]
}