# Formal model of Shadow (Rocq / Coq 8.16.1)

## Method

Each area of the code has up to four files in `rocq/theories/`:

* `XModel.v`  – the functions of the code, transcribed one by one, each with the
  file and lines it models and the simplifications made.  No proofs.
* `XSpec.v`   – (when needed) a small independent specification, written without
  the model's helpers.
* `XProofs.v` – lemmas and invariants.
* `XProps.v`  – only the property theorems, each closed by `exact lemma`, an
  `Example` beside it that meets its hypotheses on a non-trivial case, and
  `Print Assumptions`.

Conventions: machine integers are `Z` or `N` values with the ranges stated as
invariants; wrap-around is written (`mod 2^32`) where the code relies on it; Rust
panics (`unwrap`, `assert!`, overflow in debug builds) are explicit error values
(`None`/`Panic`), so that "never panics" is a theorem.  Properties about all
histories are stated over arbitrary operation lists run from the initial state.
Properties about concurrency are stated over arbitrary interleavings, i.e. all
finite traces of a small-step relation.

## Trusted base

* Coq 8.16.1's kernel (and `vm_compute` where an `Example` or refutation uses it).
* The axioms printed by `Print Assumptions` under each theorem ("Closed under the
  global context" unless listed in the table "Axioms" below).
* The faithfulness of the transcription: the model is hand-written from the text
  of /repo, nothing is extracted from or linked to the Rust code.
* The Rust standard library, crossbeam, petgraph, kernel futexes and similar are
  represented by their documented behaviour (BinaryHeap pops a maximum, HashMap is
  a finite map, `ArrayQueue` is a linearisable queue, `futex_wait` sleeps only if
  the word has the expected value, Rust atomics on one word are sequentially
  consistent for that word).

## Plan per property

| Id | What is modelled | How it is proved |
|----|------------------|------------------|
| C01 | hosts as arbitrary deterministic step functions with private state and event queue; a round as any interleaving of per-host steps by any workers, packet pushes into other hosts' queues included; manager loop | diamond/commutation argument: steps of different hosts commute up to queue content because deliveries are at or after the window end; the result of any complete interleaving equals the sequential host-by-host result; induction over rounds |
| C02 | same model with the queue assertions as explicit panics | invariant: every queued event is at or after the last popped time of its host and, between rounds, at or after the window end |
| C03 | `send_packet` arithmetic and runahead | direct, from the round invariant |
| C04 | `manager_finished_current_round` and the manager loop | invariant on windows, induction over rounds |
| C05 | event order and queue | totality and transitivity of the order; popped sequence is the sorted permutation |
| C06 | `Runahead` under arbitrary update sequences | fold invariant, permutation invariance |
| C07 | `Cpu` and the delay branch of `Host::execute` | invariant over operation lists |
| C08, C09 | `TokenBucket` with saturating arithmetic | invariant over request lists; refinement to an ideal bucket |
| C10 | `Relay` state machine over a source list and a token bucket | invariant over notify/fire/arrive events |
| C11 | `CoDelQueue`, control law as a parameter of the model | invariant over push/pop lists |
| C12 | `NetworkQueue`; the send side of `NetworkInterface` (UDP and TCP sockets, `add_data_source`, `pop`) | refinement to an ordered list; invariant over histories of sends and pops; fairness by counting |
| C13, C14 | association map of an interface, namespace with two interfaces, random port search over an arbitrary random stream | refinement to a finite map; pigeonhole for completeness |
| C15 | `IpAssignment` | invariant over assignment lists |
| C16 | `compute_shortest_paths`, `get_direct_paths`, `get_smallest_latency_ns`; petgraph's Dijkstra written out (it is not in /repo), losses as integers with abstract monotone rounding | Dijkstra correctness |
| C17 | `DnsBuilder` | invariant over registrations |
| C18 | `ByteQueue` chunk list | refinement to list of bytes / list of packets |
| C19 | `IntervalMap` | refinement to a function |
| C20 | `SharedBuf`, `Pipe` | refinement to a bounded FIFO, invariant over operation lists |
| C21 | `DescriptorTable` | invariant over operation lists; lowest-number claim refuted |
| C22 | `EventFd` | ledger invariant |
| C23 | `Timer`, `TimerFd` | invariant linking pending events to the armed schedule |
| C24 | `Epoll`, `Entry` | invariant over operation lists |
| C25 | `Counter` | refinement to a function to `Z` |
| C26 | time types | arithmetic |
| C27 | `ThreadPerCoreSched` queues | small-step system, permutation invariant |
| C28 | latches | small-step system over any number of handles |
| C29 | `SelfContainedMutex` at the granularity of atomic operations and futex calls | inductive invariant of a small-step system |
| C30 | `SelfContainedChannel` likewise | inductive invariant |
| C31 | `FreelistAllocator` on addresses | invariant over allocation histories |
| C32 | `Seq`, `SeqRange` | arithmetic against a set specification |
| C33, C34 | `SendQueue`, `RecvQueue`, `Connection` and two connections joined by an adversarial network | inductive invariant relating every packet in flight to the sent stream |
| C34, C38 | one `Connection` and arbitrary packets (`TcpSolo*.v`) | inductive invariant: each sequence number is read as the position nearest to the window; a transmit mark outside the queue behaves like one at its end |
| C35, C38 | all states of `states.rs` but the listening one, with the real connection inside, their timers and `poll` (`TcpState*.v`); a socket begins unconnected or as the child of a listener; the association with an interface is an argument | one invariant per state that contains the invariant of `TcpSolo*.v`; the diagram is a separate relation over events, the answers of calls and the errors a separate table (`TcpCall*.v`) |
| C36, C38 | `ListenState` with its children, queues, backlog and closing (`TcpListen*.v`); a child that is not handed out is a whole socket of `TcpState*.v`. The slot map's keys are numbers that are never used again; the association with an interface is not modelled | invariant over packets, timers, accepts and calls, which contains the one of `TcpState*.v` for each child |
| C37 | block serialization, its text, `FreelistDeserializer` with the mappings of the receiving process | round trip of the text, invariant over the histories of both processes |
| C39, C40, C41 | UDP sockets (`udp.rs`), `associate_socket`, both interfaces of a host with their queues, its relays and `send_packet` up to the network (`Udp*.v`); the namespace is that of `Iface*.v`, holding UDP only | refinement of the whole host to mailboxes with labels; the theorems about order, origin and replies are proved of the specification and carried back |
| C42 to C46 | unix domain sockets of one host: `unix.rs`, `abstract_unix_ns.rs`, `shared_buf.rs`, the callback queue, abstract and unnamed addresses, failing memory (`Unix*.v`) | refinement to a machine of inboxes without buffers, counters, listeners or callbacks (`UnixSpec.v`); laws by induction over its runs, carried back; bits and announcements by invariants of the model; not modelled: see the head of `UnixModel.v` |
| C47 to C52 | processes, threads and signals of one host, in Shadow and in the shim: sending, taking and handling signals, blocked calls and their restart, clone, exec, exit, wait, groups and sessions (`Proc*.v`; sources and simplifications at the head of `ProcModel.v`) | invariant over all histories that relates the pending sets and the process table to an abstract reading of the trace (`ProcSpec.v`); laws of each call against the separate statements of `ProcApi.v`; panics are those situations that `ProcFaults.v` lists |
| C53, C54 | futexes of one host: the call, `FutexTable`, the listeners of `futex.c`, conditions with their timers and wakeups, thread exit and the end of processes (`Futex*.v`) | refinement of table, objects, listeners and sequence values to one queue of waiting threads (`FutexSpec.v`); laws of the queue by induction over runs, carried back |
| C55, C56 | the two thread pools: `bounded.rs` with the queues of `logical_processor.rs` and parking, `unbounded.rs` with the start latch; the count-down latch (C28) reduced to the set of counters that are down; closures of `scope` that panic themselves are left out (`Pool*.v`, `UPool*.v`) | small-step systems over any number of threads; inductive invariants; a measure bounds the steps of a wait |
| C57 | `units.rs`: prefixes, suffixes, FromStr with its regular expression over code points, Display, deserialization of numbers, convert; the uses in `configuration.rs`, `sim_config.rs` and `graph/mod.rs`; convert_lossy (unused) and JSON schemas are left out (`Units*.v`) | the parser is equal to a relation between strings and meanings; round trip with Display; exact result of convert |
| C58 | `lazy_lock.rs`: `force`, `init`, `initd`, drop, on a memory with release and acquire orderings and with futexes that may wake spuriously; an initializer that uses its own lock is left out (`Lazy*.v`) | small-step system over any number of threads; inductive invariant over the possible histories of the state word; a weight per thread bounds its steps |
| C59 | `atomic_tls_map.rs`: get, get_or_insert_with, remove, references, forget_all, drop, step by step over the probe sequence; the hash function is arbitrary; the obligation of callers (one thread per key) is explicit (`Tls*.v`) | small-step system over any number of threads; inductive invariant; observations explained by a map; a weight per thread bounds its steps |
| C60 | `memory_mapper.rs` (all), `memory_manager/mod.rs` (294-720), `memory_copier.rs`, over a model of the kernel's address spaces and of the shared memory file (`Mem*.v`) | refinement: relation between the mapper on the kernel and the process alone on the kernel, kept by each call, with the interval map of C19 underneath; established by the initialisation |
| C61 | the same as C60 | invariant of the relation of C60 (`mirrors` in `MemSpec.v`); `Drop` by induction over the regions |
| C62 | `tcp_retransmit_tally.cc` (all), and of `tcp.c` what drives it: 1249-1287, 1333-1358, 1548-1556, 1850-1927, 1972-1974, 2345-2360 (`Tally*.v`) | lists of ranges as sets of numbers (insertion, subtraction with a measure for its loop, tidying), then refinement of each event to the sets of packets of the specification |
| C63 | the path of user data in `tcp.c` (781-953, 978-998, 1049-1071, 1183-1219, 1289-1464, 1873-2037, 2340-2438, 2474-2543, 2562-2732), the buffers of `socket.c` (282-446), `priority_queue.c` as a sorted list (`Ltcp*.v`) | invariant over all events: every packet held anywhere is the packet of its number, what was read and waits is the first packets, and all packets not acknowledged are kept by the sender; then, for progress, a schedule that brings the next packet across is constructed from every state |
| C64 | `tcp_cong_reno.c` (all) (`Reno*.v`) | invariant over all events (window at least one and bounded, packets counted in congestion avoidance below the window, threshold at most the window in fast recovery), the loop by induction against an arithmetic specification (`one_per_window`) that determines the window, and composes |
| C65 | the model of C63 (`Lwin*.v`) | invariant: what is kept moves between the queues as a permutation without repetition, the acknowledgement and the window the sender knows are a pair the receiver has announced, and the buffer size is the one asked for last |
| C66 | `PcapWriter`, `Give`, `Packet::display_bytes`, `capture_if_configured` (`Pcap*.v`) | round trip: the file is parsed by an independent reader of libpcap files, the bytes by an independent dissector of IPv4, TCP and UDP; the file position is at the end between packets, and the length filled in afterwards replaces exactly the placeholder |
| C67 | `utf8.rs`, `format_buffer.rs` of `formatting-nostd` (`Fmt*.v`) | refinement: UTF-8 by RFC 3629 as encoding of scalar values, the validity table proved equivalent to it; then the buffer refines "the longest prefix of characters that fits" |
| C68 | `sockaddr.rs`, `read_sockaddr` and `write_sockaddr_and_len` of `io.rs` (`Saddr*.v`) | round trips and a complete case analysis, stated on the bytes the application sees |

## Not modelled

The syscall layer except the calls about processes, signals, UDP and unix sockets
and futexes that are named above; the shim except its processing of signals; of the
default TCP sockets (C code) everything outside the rows C62 to C65 (among them
opening and closing connections, and the automatic tuning of buffers); configuration
parsing except the parts named above; logging except
its text buffers; and everything that depends on the host kernel, except where a row
above names a model of it.

## Axioms

Every theorem in the `*Props.v` files prints "Closed under the global context"
unless listed here. No axiom is used at present.

## Findings

Places where the code, as modelled, does not do what the property (or the
documentation of the function) says. Each has a theorem named `..._refuted` with
a concrete witness.

| Theorem | Finding |
|---------|---------|
| `C26_sim_saturating_add_total_refuted` | `SimulationTime::saturating_add` panics when the sum exceeds the valid range but not `u64`. |
| `C26_emu_saturating_sub_monotone_refuted`, `C26_emu_saturating_duration_refuted` | `EmulatedTime::saturating_sub` is not monotone; `saturating_duration_since` gives 0 for a difference too large to represent. |
| `C06_never_grows_refuted` | With dynamic runahead and no configured minimum, the first reported latency can raise the runahead. |
| `C07_charge_nearest_refuted`, `C07_delay_covers_work_refuted` | For an odd precision the charge is not rounded to the nearest multiple. |
| `C18_progress_refuted`, `C18_peek_prefix_refuted` | Pushing an empty stream chunk blocks all later reads. Peeking into a writer that blocks part-way skips bytes. |
| `C20_fault_write_refuted`, `C20_fault_read_refuted`, `C20_zero_read_refuted`, `C20_atomic_refuted` | A pipe write that faults part-way delivers bytes but reports an error and leaves the status stale; a faulting read loses bytes; a zero-length read drops a packet; writes of up to `PIPE_BUF` bytes are not atomic. |
| `C21_close_unused_refuted`, `C21_dup_high_refuted`, `C21_dup_min_refuted` | The descriptor table does not always give the lowest free number. |
| `C22_ready_refuted` | A fresh eventfd with a positive value is not marked readable. |
| `C23_fault_refuted`, `C23_overflow_refuted`, `C23_interval_refuted` | A faulting timerfd read loses the expiration count and leaves the file marked readable. Accepted timer values near the end of representable time panic. |
| `C24_oneshot_refuted` | A one-shot epoll registration for several events can report more than once: only the reported events are disabled. |
| `C33_overtaken_syn_refuted`, `C33_early_reset_refuted`, `C33_mixed_scaling_refuted` | A TCP packet other than a SYN that arrives before the first SYN panics (with two honest endpoints: a simultaneous open where the acknowledgement overtakes the SYN). A RST sent before window scaling is negotiated panics. Data that arrives before our own SYN was sent panics when only we use window scaling. |
| `C33_failed_write_refuted`, `C33_failed_read_refuted` | A TCP write whose source buffer faults part-way reports an error but queues part of the data; a read whose destination faults part-way loses data. |
| `C34_reordered_refuted` | A TCP sender replaces its idea of the peer's window by that of any packet whose sequence range meets the receive window, without RFC 793's check that the packet is newer than the last one used. Overtaken packets make it transmit far beyond the receiver's buffer (160000 bytes against 100000), and since there is no retransmission that data is lost. |
| `C12_none_priority_refuted` | `NetworkQueue::try_push` without a priority on a priority queue returns an error but leaves the item registered for ever. |
| `C12_tcp_overtakes_refuted` | A TCP socket always reports priority 0, so under the first-in-first-out discipline its packets overtake earlier packets of other sockets. |
| `C14_shared_port_refuted` | For a bind without a peer, a port that another socket uses for a connection counts as free. |
| `C10_oversize_refuted` | A packet larger than the relay's token bucket (bandwidth per millisecond plus 1500 bytes) is never forwarded and blocks everything behind it for ever (`C10_oversize`). UDP datagrams of up to 65507 bytes are sent as one packet, so a 3000-byte datagram does this on a 1 Mbit/s host. |
| `C16_unconnected_refuted` | A graph in which two nodes in use are not connected makes the shortest-path computation panic (an assertion on the table size) instead of returning an error. |
| `C28_no_lost_wakeup_refuted` | When the last counter of a count-down latch is dropped while a waiter already waits for the next round, the waiter that starts that round does not wake it: it sleeps for ever. |
| `C31_shfree_refuted`, `C31_zero_sized_refuted`, `C31_oversize_refuted` | `shfree` sets the block's pointer to null before it hands it to the allocator, so nothing is freed and the memory is never used again (`C31_shfree_leaks`). Allocating a zero-sized value divides by zero. A value larger than a chunk dereferences null before the assertion meant to catch it. |
| `C37_malformed_refuted` | Parsing the text of a serialized block panics when its number is malformed, although the function returns a `Result`. |
| `C38_not_syn_refuted`, `C38_zero_window_refuted`, `C38_early_ack_refuted`, `C38_early_data_refuted`, `C38_early_abort_refuted` | Packets that no TCP sends at that point make a TCP connection panic: anything but a SYN or RST before the first SYN; a SYN that announces a zero window, or acknowledges our SYN before it was sent (the panic comes when the interface asks for a packet); data between the SYN's arrival and our answer. Aborting the connection in that interval panics too (closing a listener right after a SYN arrived does this). `C34_skips`: acknowledging data that was not sent makes the connection never send it. |
| `C35_fin_with_ack_refuted` | When the packet whose acknowledgement makes a connection also ends the other side's stream, that end is acknowledged but the socket goes to the established state: a reader waits until another packet arrives. |
| `C38_stray_refuted`, `C38_unsent_refuted` | A socket that waits for the answer to its SYN panics on any packet that is neither SYN nor RST. One that could not send its answer to a SYN for a minute panics when its timer runs. |
| `C36_queue_refuted` | A SYN with the ACK flag that acknowledges our SYN before it was sent opens a connection (without window scaling) that any later packet makes: the queue of `accept` grows beyond the backlog. |
| `C38_syn_rst_refuted`, `C38_syn_ack_refuted`, `C38_syn_window_refuted` | One packet makes a listening socket panic: a SYN that is a RST too; with window scaling, a SYN that acknowledges our SYN, or one that announces a zero window. |
| `C38_close_refuted`, `C38_close_rst_refuted` | Closing a listening socket panics if a SYN arrived whose answer was not sent yet (window scaling on; no misbehaving peer is needed), and if one of its connections is being reset. |
| `C39_no_panic_refuted`, `C39_stuck_refuted` | A UDP socket bound to a loopback address other than 127.0.0.1 (which `bind` accepts) and sending to another host: the datagram is queued at the loopback interface while the other interface's relay is told, so it is stuck; when something else wakes the loopback relay, the simulation panics because 127.0.0.2 is no host of the topology. |
| `C40_reply_refuted` | A datagram from a socket bound to 127.0.0.2 can be received, but answers to its source reach nobody: packets for 127.0.0.2 are not routed to the loopback interface. |
| `C40_name_refuted` | `getsockname` of a UDP socket bound to 0.0.0.0 and connected returns the peer's IP address. |
| `C40_unspecified_refuted` | `sendto` 0.0.0.0 drops the datagram (Linux sends it to this host), while `connect` to 0.0.0.0 means 127.0.0.1. |
| `C41_writable_refuted` | Enlarging the send buffer with `SO_SNDBUF` makes room but does not make the UDP socket poll as writable, and wakes nobody. |
| `C41_closed_refuted` | A closed UDP socket polls as readable and writable again when a datagram of its send buffer leaves. |
| `C41_shutdown_refuted`, `C41_dontwait_refuted` | Shutting down reading does not wake a blocked reader; afterwards a non-blocking read fails with EWOULDBLOCK where a blocking one returns 0. |
| `C42_truncation_refuted`, `C42_filter_refuted` | A message that was cut off is flagged MSG_TRUNC only if the reader passed MSG_TRUNC. A connected datagram socket still reads what third parties send it. |
| `C42_fault_stream_refuted`, `C42_fault_source_refuted`, `C46_fault_refuted`, `C46_fault_datagram_refuted` | Reads into inaccessible memory lose the data; for datagrams the list of sources is not updated, so the next read tells a wrong source or panics. A stream write that faults midway leaves bytes that are not counted: reading them panics. |
| `C44_inherit_refuted` | A socket accepted from a non-blocking listener is non-blocking. |
| `C45_writable_refuted` | A datagram socket does not poll as writable until something else changes its state. |
| `C45_stuck_refuted` | A blocking send of a message waits for the writable bit although it is on when there is some room but too little; nothing wakes it when room is made. |
| `C46_self_refuted`, `C46_connect_refuted` | A datagram socket that sends to its own name and a stream socket that connects to its own name panic the simulation. |
| `C47_unblockable_refuted` | `rt_sigprocmask` and `sa_mask` can block SIGKILL and SIGSTOP. |
| `C47_group_refuted` | `kill` with 0 or a negative id reaches one process at most, the one whose id is the group's; `kill(-1)` fails with ENOTSUP. |
| `C48_lost_refuted` | A signal sent to a process is announced to one thread only. If that thread takes another signal first whose handler blocks this one, and goes back to a blocking call, other threads that do not block it sleep on for ever. |
| `C49_unwoken_refuted` | The end of a child without exit signal (`clone` with exit signal 0) does not wake a wait with `__WALL` or `__WCLONE`. |
| `C50_explicit_refuted` | `setpgid(p, p)` for a process that is not a group leader yet, the usual way to make a group, fails with EPERM; `setpgid(p, 0)` succeeds. |
| `C51_cont_refuted`, `C51_stop_refuted` | The default action of SIGCONT and of the stop signals panics the shim. |
| `C51_exit_signal_refuted`, `C51_pdeathsig_refuted` | A realtime signal as exit signal of `clone` or for `PR_SET_PDEATHSIG` panics when it is sent (index out of bounds). |
| `C51_wait4_refuted`, `C51_pidfd_refuted` | `wait4(INT_MIN)` and `waitid(P_PIDFD)` panic. |
| `C51_exec_wait_refuted`, `C51_exec_exec_refuted` | `execve` panics while another thread is blocked in a wait for children, and when two threads call it. |
| `C52_mask_refuted`, `C52_thread_mask_refuted` | The child of `fork` and a new thread start with an empty signal mask instead of their creator's. |
| `C53_address_refuted`, `C53_pid_refuted` | A futex call at an address of 2^48 or more, or in a process with an id of 2^16 or more, panics Shadow. |
| `C54_timeout_loses_refuted`, `C54_signal_loses_refuted` | `FUTEX_WAKE` returns 1, but the chosen thread reports its timeout of the same instant (or a signal that arrives before it resumes), and another thread sleeps on: the wakeup is lost. Linux returns 0 from a wait that was woken. |
| `C54_restart_refuted` | A futex wait that a signal interrupts while it sleeps is never restarted, although `SA_RESTART` asks for it. |
| `C54_long_timeout_refuted` | A relative timeout close to the largest accepted one panics once the simulation has run for a while. |
| `C54_reread_refuted` | The timeout is read again after sleeping; if its bytes are invalid by then, a woken wait fails. |
| read only | SA_NOCLDWAIT is ignored; CLONE_SIGHAND with CLONE_VFORK and CLONE_VM gives the child default actions; CLONE_CLEAR_SIGHAND resets ignored signals too; `waitid` without WEXITED is accepted and with WNOHANG leaves its result unwritten; a blocked or ignored SIGSEGV of the hardware is raised for ever; signals ignored while blocked are dropped, and setting SIG_IGN does not discard pending ones; leaving a handler on the alternate stack by `siglongjmp` keeps the stack marked in use; the masks of `ppoll`, `pselect` and `epoll_pwait` are not applied; `setpgid` of a child after its exec does not fail with EACCES. |
| `C57_accepted_refuted` | A duration such as `6000000 hours` (or a rate above 64 bits in the base unit) is accepted when the configuration is read, and the `unwrap` of its conversion panics when it is used. |
| `C57_convert_total_refuted` | `convert` between units with small prefixes (`SiPrefix`, which no option uses) panics instead of reporting an error when the factor exceeds 64 bits, e.g. from tebi to nano. |
| `C59_full_refuted` | `AtomicTlsMap` may panic on insertion (`unwrap` of a failed probe, documented as "panics if the table is full") although the table is never full: a slot already passed is freed while a slot ahead is filled. |
| `C60_zeroed_refuted` | `munmap` with a length that is not a number of pages punches only that many bytes out of the shared file, so a later mapping of the page shows old bytes where the kernel gives zeros. |
| `C60_mprotect_empty_refuted` | `mprotect` of an empty range (allowed by the kernel) panics in the interval map. |
| `C60_unreadable_refuted`, `C60_unwritable_refuted` | `get_mapped_ptr` ignores the protection of the region: a system call with a pointer to unreadable or read-only memory makes Shadow itself fault instead of answering EFAULT. |
| `C60_munmap_length_refuted` | After `munmap` with an unaligned length the rest of the page stays a region of the mapper, though both mappings are gone: a system call on it makes Shadow fault. |
| `C60_mprotect_failed_refuted` | An `mprotect` that fails at a later page has changed the earlier ones in the process, but not in Shadow: a system call that writes there makes Shadow fault. |
| `C60_brk_unaligned_refuted`, `C60_brk_to_start_refuted` | `brk` to an unaligned address, or back to the start of the heap, panics. |
| `C60_partly_mapped_refuted` | A write by a system call to memory that is only partly mapped panics (assertion on the number of bytes of process_vm_writev). |
| `C60_mremap_part_refuted`, `C60_mremap_readonly_refuted` | `mremap` of a part of a mapping panics; `mremap` of memory without write permission to another address makes Shadow fault while it copies. |
| `C62_acked_never_asked_refuted` | `tidy_ranges` does not cut a range whose last number is the new acknowledgement, nor any but the first range: acknowledged packets stay marked as lost and are asked for again after a timeout. Without effect, since they have left the retransmission queue. |
| `C62_sacks_remembered_refuted` | A packet beyond the next one for which there is no room makes `_tcp_dataProcessing` drop selective acknowledgements of packets that are kept, so that the peer sends them again. |
| `C63_buffer_drains_refuted` | A packet that is sent again and whose first copy is acknowledged while the second waits in the socket's output buffer is put into the retransmit queue when it leaves (`tcp_networkInterfaceIsAboutToSendPacket` does not compare its number with the acknowledgements). `_tcp_clearRetransmitRange` starts at the last acknowledgement and never removes it: the output buffer stays non-empty, its space is lost, the retransmission timer keeps firing, and a socket that is closed or shut down waits for an empty buffer and does not send its FIN. |
| `C63_next_handed_out_refuted` | In `_tcp_flush` the removal of a duplicate from the unordered packets ends the loop: following packets that are in order stay there until the next flush (a read flushes first, so that no data is missed). |
| `C64_three_in_a_row_refuted` | In congestion avoidance a new acknowledgement does not reset `duplicate_ack_n`: three duplicate acknowledgements halve the window even if each of them is followed by new acknowledgements, arbitrarily far apart. |
| `C64_timeout_reduces_refuted` | A timeout sets the window to 10 although connections start with 1 (`ca_reno_init_` sets 10, `tcp_cong_reno_init` overwrites it): an early timeout makes the window larger. |
| `C64_ack_never_shrinks_refuted` | After such a timeout the window (10) may be above the threshold, and the next new acknowledgement reduces it to the threshold. |
| `C65_announced_fits_refuted` | Acknowledgements are filled in when the network interface takes them (`tcp_networkInterfaceIsAboutToSendPacket`), with a window computed by the last flush *before* it moved packets into the input buffer: an acknowledgement that waited may announce more packets than fit, and the surplus is dropped on arrival. |
| `C67_printf_cuts_refuted` | `FormatBuffer::sprintf` decodes what `vsnprintf` has cut: if the cut is within a character and there is room, the buffer ends with U+FFFD although the output was valid UTF-8. |
| `C68_unterminated_refuted` | `SockaddrUnix::as_path` requires a NUL within the length; an address made with `SUN_LEN` (which does not count it, and which Linux accepts) is neither a path nor abstract nor unnamed. |
