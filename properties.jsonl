{"id": "C01", "title": "Parallel execution is deterministic", "statement": "Running a simulation gives every host the same sequence of executed events, the same final state and the same sequence of time windows whatever the number of worker threads, whichever worker each host lands on, and however the workers' steps (including the cross-host packet deliveries they make) interleave in real time.", "quantifier": "every host behaviour, every initial event population, every assignment of hosts to workers in every round, every interleaving of worker steps, any number of rounds", "why_tests_cant": "A test runs a handful of schedules on one machine; the claim is about all interleavings and all host programs.", "anchors": ["src/main/core/manager.rs: Manager::run", "src/main/core/worker.rs: Worker::send_packet, push_packet_to_host, update_next_event_time", "src/main/host/host.rs: Host::execute", "src/main/core/work/event_queue.rs"]}
{"id": "C02", "title": "Simulated time never runs backwards on a host", "statement": "On every host the times of executed events never decrease, and no packet or task ever arrives at a host with a timestamp earlier than an event that host has already executed; the queue's assertions to that effect can never fail.", "quantifier": "all hosts, all event histories, all packet patterns between hosts, any number of rounds", "why_tests_cant": "The assertion would only fire on a particular cross-host timing pattern; tests cannot enumerate them.", "anchors": ["src/main/core/work/event_queue.rs: EventQueue::push, pop", "src/main/core/worker.rs: send_packet", "src/main/core/controller.rs: manager_finished_current_round"]}
{"id": "C03", "title": "Packets take at least the path latency", "statement": "A packet accepted for delivery reaches the destination host no earlier than its send time plus the latency of the path, and never inside the window that is currently executing; it arrives exactly at send time plus latency whenever the latency is at least the window length in force.", "quantifier": "all send times, latencies, window ends, static and dynamic runahead histories", "why_tests_cant": "Quantifies over all latencies and all histories of dynamic runahead updates.", "anchors": ["src/main/core/worker.rs: send_packet", "src/main/core/runahead.rs", "src/main/core/controller.rs"]}
{"id": "C04", "title": "Windows partition the simulation and miss no event", "statement": "Successive execution windows are non-empty, disjoint, increasing and never extend past the configured stop time; every event scheduled before the stop time is executed exactly once, in exactly one window, and the simulation stops only when no such event remains.", "quantifier": "all event populations, runahead values and host behaviours, any number of rounds", "why_tests_cant": "A skipped event would need a specific gap between two windows; there are unboundedly many window sequences.", "anchors": ["src/main/core/controller.rs: manager_finished_current_round", "src/main/core/manager.rs: run", "src/main/host/host.rs: execute, push_local_event, next_event_time"]}
{"id": "C05", "title": "Event queue pops in one fixed total order", "statement": "Events leave a host's queue in increasing time; at equal times packets precede local tasks, packets are ordered by (source host, source sequence number) and tasks by their sequence number; the order does not depend on the order of insertion, nothing is lost or duplicated, and the comparison never panics as long as no two different events carry the same identity.", "quantifier": "all multisets of events, all interleavings of pushes and pops", "why_tests_cant": "Insertion orders are factorial in the number of events.", "anchors": ["src/main/core/work/event.rs: Event::partial_cmp, PacketEventData, LocalEventData", "src/main/core/work/event_queue.rs"]}
{"id": "C06", "title": "Runahead is the safe minimum", "statement": "The window length offered by the runahead policy is always positive, is at least any configured lower bound, equals the larger of that bound and the smallest latency seen (dynamic mode) or possible (static mode), never grows during a run, and does not depend on the order in which workers report latencies.", "quantifier": "all sequences and interleavings of latency reports, all configurations", "why_tests_cant": "Reports race between threads; tests cannot cover all orders.", "anchors": ["src/main/core/runahead.rs: Runahead::get, update_lowest_used_latency"]}
{"id": "C07", "title": "CPU delay postpones but never loses or anticipates events", "statement": "With the CPU model enabled an event that finds the CPU busy is postponed, never dropped (before the stop time), and never runs before its scheduled time; the CPU delay seen is bounded below by the accumulated work.", "quantifier": "all delay sequences, thresholds and precisions, all event histories", "why_tests_cant": "Depends on unbounded histories of accumulated delay and rounding.", "anchors": ["src/main/host/cpu.rs: Cpu", "src/main/host/host.rs: execute"]}
{"id": "C08", "title": "Token bucket never exceeds its rate", "statement": "Over any stretch of time the amount removed from a bandwidth token bucket is at most its capacity plus the refill per interval times the number of refill boundaries crossed, and its balance never exceeds capacity or goes below zero.", "quantifier": "all sequences of removal requests at non-decreasing times and all bucket parameters", "why_tests_cant": "Rate bounds quantify over all request sequences of any length.", "anchors": ["src/main/network/relay/token_bucket.rs: TokenBucket"]}
{"id": "C09", "title": "Token bucket tells the exact waiting time", "statement": "When a removal is refused, the returned duration is exactly how long the caller must wait: repeating the same request at now+duration succeeds (if the request fits the capacity) and repeating it at any earlier instant is refused.", "quantifier": "all bucket states reachable by any request history, all request sizes and times", "why_tests_cant": "Minimality is a for-all over instants.", "anchors": ["src/main/network/relay/token_bucket.rs: comforming_remove, compute_conforming_duration, lazy_refill"]}
{"id": "C10", "title": "A relay forwards every packet once, in order, within its bandwidth", "statement": "Packets leave a relay in the order the source device supplied them, each exactly once, none invented or lost; non-local traffic conforms to the relay's token bucket; and whenever the relay holds a packet back it has exactly one wake-up scheduled, so no packet is stuck.", "quantifier": "all packet arrivals, sizes, notifications and task firings in any order", "why_tests_cant": "Loss or duplication would need a specific interleaving of notify, block and wake-up.", "anchors": ["src/main/network/relay/mod.rs: Relay::notify, forward_later, run_forward_task, forward_now, forward_until_blocked"]}
{"id": "C11", "title": "Router queue conserves packets and order", "statement": "The router's active queue keeps packets in arrival order; each packet pushed is eventually delivered or dropped exactly once or still queued; its byte count always equals the sizes stored; and it never drops unless a packet has waited at least the target delay.", "quantifier": "all sequences of pushes and pops at non-decreasing times, all packet sizes", "why_tests_cant": "The drop law depends on unbounded history.", "anchors": ["src/main/network/router/codel_queue.rs: CoDelQueue"]}
{"id": "C12", "title": "Interface send order follows the configured discipline", "statement": "The interface's outgoing queue never holds the same socket twice, returns sockets exactly as often as they were queued, and returns them in first-in-first-out order or in order of lowest packet priority with ties broken by arrival.", "quantifier": "all sequences of pushes and pops, both disciplines, all priorities", "why_tests_cant": "Heap order with ties must hold for every history.", "anchors": ["src/main/host/network/queuing.rs: NetworkQueue, MinPriority, Fifo"]}
{"id": "C13", "title": "An incoming packet reaches the most specific socket", "statement": "A packet arriving at an interface is given to the socket associated with exactly its protocol, local address and remote peer if there is one, otherwise to the wildcard socket for its protocol and local address, otherwise dropped; no other association is affected, and associating then disassociating restores the previous behaviour.", "quantifier": "all histories of associations and disassociations, all packets", "why_tests_cant": "Depends on the whole association history.", "anchors": ["src/main/host/network/interface.rs: NetworkInterface", "src/main/host/network/namespace.rs: associate_interface, disassociate_interface"]}
{"id": "C14", "title": "Ephemeral ports are really free", "statement": "A port handed out for an interface and peer is in the ephemeral range and is unused on every interface the address denotes, both specifically and by wildcard; none is handed out only if no port of the range is free.", "quantifier": "all association states, all random streams", "why_tests_cant": "Failure to find a free port depends on the whole table and on all random outcomes.", "anchors": ["src/main/host/network/namespace.rs: get_random_free_port, is_addr_in_use"]}
{"id": "C15", "title": "IP addresses are unique", "statement": "No two hosts ever receive the same address; an explicit assignment of a taken address is refused; automatically chosen addresses never end in .0 or .255 and skip those already in use.", "quantifier": "all sequences of explicit and automatic assignments", "why_tests_cant": "Collision needs a particular mix of manual and automatic addresses.", "anchors": ["src/main/network/graph/mod.rs: IpAssignment", "src/main/core/sim_config.rs: assign_ips"]}
{"id": "C16", "title": "Routes are the shortest paths", "statement": "With shortest-path routing, the latency between two nodes is the minimum of the summed edge latencies over all walks in the network graph; a node's path to itself is its unique self-loop.", "quantifier": "all network graphs with positive latencies", "why_tests_cant": "Minimality quantifies over all walks of all graphs.", "anchors": ["src/main/network/graph/mod.rs: NetworkGraph::compute_shortest_paths, PathProperties"]}
{"id": "C17", "title": "Name service is a bijection", "statement": "Name and address lookups are mutually inverse partial functions: each registered name maps to one address and back, a refused registration changes nothing, reserved names and addresses are never registered, and the hosts file lists each record once in address order.", "quantifier": "all sequences of registrations", "why_tests_cant": "Consistency of two indexes over all histories.", "anchors": ["src/main/network/dns.rs: DnsBuilder::register, into_dns, Dns"]}
{"id": "C18", "title": "Byte queues return the bytes that were written", "statement": "Reading from a byte queue yields exactly the bytes pushed, in order; stream reads may merge writes; a packet read returns a prefix of one packet and discards the rest of that packet only; the reported length is the number of bytes held.", "quantifier": "all sequences of stream/packet pushes and pops, all sizes and chunk capacities", "why_tests_cant": "Chunk-boundary cases are unbounded.", "anchors": ["src/main/utility/byte_queue.rs: ByteQueue"]}
{"id": "C19", "title": "Interval map behaves as a point-wise map", "statement": "After any sequence of range insertions and clears, looking up a key gives the value of the last insertion covering it (and nothing if it was cleared later); stored intervals stay sorted, non-empty and disjoint; and the reported modifications describe exactly the parts of old intervals that changed.", "quantifier": "all sequences of insertions and clears, all ranges and keys", "why_tests_cant": "Overlap configurations grow without bound.", "anchors": ["src/main/utility/interval_map.rs: IntervalMap"]}
{"id": "C20", "title": "Pipes deliver bytes in order and respect capacity", "statement": "Bytes read from a pipe are exactly the bytes successfully written, in order; the buffer never holds more than its capacity; readers get end-of-file only when all writers are gone and the pipe is empty, writers get EPIPE exactly when all readers are gone, and the advertised readable/writable status agrees with the buffer.", "quantifier": "all sequences of reads, writes, opens and closes on both ends", "why_tests_cant": "Interleavings of ends and sizes are unbounded.", "anchors": ["src/main/host/descriptor/shared_buf.rs: SharedBuf", "src/main/host/descriptor/pipe.rs: Pipe"]}
{"id": "C21", "title": "Descriptor numbers are never shared", "statement": "A newly allocated descriptor number is never one in use, is at least the requested minimum, and closing or replacing affects only the named number; allocation returns the lowest unused number at or above the minimum.", "quantifier": "all histories of open, dup-to, close and range-close", "why_tests_cant": "Allocation depends on the whole open/close history.", "anchors": ["src/main/host/descriptor/descriptor_table.rs: DescriptorTable"]}
{"id": "C22", "title": "Eventfd counts exactly", "statement": "The value returned by reads of an eventfd over time plus its remaining counter equals its initial value plus everything written; semaphore reads return one; reads block exactly at zero, writes block exactly when they would exceed the maximum; readiness bits agree with the counter.", "quantifier": "all histories of reads and writes, all values", "why_tests_cant": "Unbounded histories and 64-bit extremes.", "anchors": ["src/main/host/descriptor/eventfd.rs: EventFd"]}
{"id": "C23", "title": "Timers expire exactly as armed", "statement": "An interval timer's expiration count equals the number of scheduled expirations (initial plus multiples of the interval) that have fired since it was last armed or read; re-arming or disarming cancels all earlier pending expirations; time remaining is measured to the next expiration.", "quantifier": "all sequences of arm, disarm, read and event firings, including stale events firing after re-arming", "why_tests_cant": "Stale-event races depend on arbitrary interleavings.", "anchors": ["src/main/host/timer.rs: Timer", "src/main/host/descriptor/timerfd.rs: TimerFd"]}
{"id": "C24", "title": "Epoll reports exactly the ready descriptors", "statement": "An epoll wait returns only registered descriptors having a requested event, no descriptor twice in a call; level-triggered readiness keeps being reported while it lasts, edge-triggered readiness is reported once per change, one-shot entries are disabled after one report; the epoll file is readable exactly when a wait would return something; a descriptor that stays ready is not starved by others.", "quantifier": "all histories of registration, status changes and waits with any maximum", "why_tests_cant": "Fairness and edge semantics quantify over unbounded histories.", "anchors": ["src/main/host/descriptor/epoll/mod.rs: Epoll", "src/main/host/descriptor/epoll/entry.rs: Entry"]}
{"id": "C25", "title": "Counters add up", "statement": "A counter's value for a key is the sum of all additions minus subtractions; merging counters adds values point-wise; equality does not depend on the order of operations; the printed order is by decreasing value then by key.", "quantifier": "all operation histories and keys", "why_tests_cant": "Zero-removal and order-independence hold only as for-all statements.", "anchors": ["src/main/utility/counter.rs: Counter"]}
{"id": "C26", "title": "Simulation and emulation time convert faithfully", "statement": "Conversions between simulated time, emulated time, durations and C structures round-trip on their domain, checked arithmetic returns the exact result or nothing, and saturating arithmetic never exceeds the maximum.", "quantifier": "all 64-bit values", "why_tests_cant": "Boundary behaviour over the whole 64-bit range.", "anchors": ["src/lib/shadow-shim-helper-rs/src/simulation_time.rs", "src/lib/shadow-shim-helper-rs/src/emulated_time.rs"]}
{"id": "C27", "title": "Each host runs exactly once per round", "statement": "In each round every host is executed by exactly one worker, exactly once, even when workers steal hosts from each other; no host is lost between rounds.", "quantifier": "all numbers of hosts and threads, all interleavings of queue pops and pushes, any number of rounds", "why_tests_cant": "Steal interleavings are unbounded.", "anchors": ["src/lib/scheduler/src/thread_per_core.rs: ThreadPerCoreSched, HostIter::for_each", "src/lib/scheduler/src/thread_per_host.rs"]}
{"id": "C28", "title": "Round barriers separate rounds", "statement": "No waiter passes the count-down latch of a round before every counter has counted down for that round, no counter can run ahead by more than a round without panicking, and waiters are not blocked once all counters have counted down.", "quantifier": "all interleavings of any number of waiters and counters, any number of rounds, including cloning and dropping handles", "why_tests_cant": "Interleavings are unbounded.", "anchors": ["src/lib/scheduler/src/sync/count_down_latch.rs", "src/lib/scheduler/src/sync/simple_latch.rs"]}
{"id": "C29", "title": "Shared-memory mutex excludes and wakes", "statement": "At most one party holds the shared-memory mutex at any time, its assertions never fail under correct use, and it never loses a wake-up: whenever the mutex is free and someone sleeps waiting for it, somebody is already on the way to waking them or taking it.", "quantifier": "all interleavings of any number of threads (below 2^16), spurious wake-ups and signals included", "why_tests_cant": "Interleavings of atomics are unbounded; model checkers bound the number of threads.", "anchors": ["src/lib/vasi-sync/src/scmutex.rs: SelfContainedMutex"]}
{"id": "C30", "title": "Shared-memory channel delivers each message once", "statement": "Under its single-producer single-consumer contract the channel returns messages in the order sent, each once; its assertions never fail; a receiver never sleeps while a message is ready or the writer is closed and no wake-up is on the way; closing wakes the receiver without losing a completed message.", "quantifier": "all interleavings of sender, receiver and closer, spurious wake-ups included, any number of messages", "why_tests_cant": "Interleavings are unbounded.", "anchors": ["src/lib/vasi-sync/src/scchannel.rs: SelfContainedChannel"]}
{"id": "C31", "title": "Shared-memory allocator never overlaps blocks", "statement": "Live blocks returned by the shared-memory allocator are properly aligned, large enough, inside their chunk, and pairwise disjoint (also from allocator metadata); freeing one block leaves the others untouched and freed blocks are reused only for requests of the same size.", "quantifier": "all allocation and free histories, all layouts", "why_tests_cant": "Overlap would depend on a specific history.", "anchors": ["src/lib/shmem/src/shmalloc_impl.rs: FreelistAllocator"]}
{"id": "C32", "title": "TCP sequence-number ranges behave as sets", "statement": "Containment, length, and intersection of sequence-number ranges agree with the set of 32-bit numbers they denote, including across wrap-around; when two ranges meet in two separate pieces no intersection is reported.", "quantifier": "all 32-bit sequence numbers and ranges", "why_tests_cant": "2^128 combinations.", "anchors": ["src/lib/tcp/src/seq.rs: Seq, SeqRange"]}
{"id": "C33", "title": "TCP delivers a prefix of the sent bytes", "statement": "Whatever a network does to packets (lose, duplicate, reorder, delay arbitrarily), the bytes one endpoint reads are always a prefix of the bytes the other endpoint wrote, in order and without gaps or duplicates.", "quantifier": "all application write/read patterns, all network behaviours, streams shorter than the sequence space", "why_tests_cant": "Network behaviours are unbounded.", "anchors": ["src/lib/tcp/src/buffer.rs: SendQueue, RecvQueue", "src/lib/tcp/src/connection.rs: Connection"]}
{"id": "C34", "title": "TCP respects the peer's window", "statement": "A TCP endpoint never transmits payload outside the window its peer most recently advertised, segments never exceed the maximum segment size, and a receiver buffers no byte outside the window it may advertise; advertised windows fit the 16-bit field after scaling.", "quantifier": "all connection histories, window sizes and scales", "why_tests_cant": "Depends on all histories of acknowledgements and window updates.", "anchors": ["src/lib/tcp/src/connection.rs: Connection", "src/lib/tcp/src/window_scaling.rs: WindowScaling"]}
{"id": "C35", "title": "TCP connections follow the RFC 793 state diagram", "statement": "Every transition of a TCP socket between its externally visible states is an edge of the RFC 793 state diagram (or an abort/timeout to closed), whatever sequence of user calls, packets and timer events arrives, and a closed socket never sends again.", "quantifier": "all sequences of calls, packets and timers from the initial state", "why_tests_cant": "State/event combinations over unbounded histories.", "anchors": ["src/lib/tcp/src/states.rs"]}
{"id": "C36", "title": "Listening sockets keep their queues consistent", "statement": "A listening TCP socket hands out each established connection exactly once, in the order they became established, never more than the backlog allows, and a connection that closes first is never handed out.", "quantifier": "all histories of SYNs, packets, timeouts and accepts", "why_tests_cant": "Depends on arbitrary interleavings of children.", "anchors": ["src/lib/tcp/src/states.rs: ListenState"]}
{"id": "C37", "title": "A shared-memory block can be passed to another process as text", "statement": "The text form of a block, parsed and deserialized in another process, gives access to the same memory: as long as the owner keeps the block, the other process reads the owner's current bytes, whatever else is allocated, freed or sent in between.", "quantifier": "all histories of allocations, writes, frees and sends; all placements of mappings in both processes", "why_tests_cant": "A wrong chunk or offset shows only for some histories and mappings.", "anchors": ["src/lib/shmem/src/allocator.rs: ShMemBlockSerialized", "src/lib/shmem/src/shmalloc_impl.rs: FreelistDeserializer"]}
{"id": "C38", "title": "No packet makes TCP panic", "statement": "Whatever packets arrive, in whatever order and with whatever contents the wire format allows, a TCP connection does not panic, neither when they arrive nor when the application reads, writes or shuts down nor when the next packet is sent.", "quantifier": "all packets (not only those a TCP would send), all interleavings with application calls", "why_tests_cant": "The packets that break an assertion are exactly those nobody thought of.", "anchors": ["src/lib/tcp/src/connection.rs: Connection", "src/lib/tcp/src/states.rs", "src/lib/tcp/src/window_scaling.rs: WindowScaling"]}
{"id": "C39", "title": "UDP datagrams arrive whole, unaltered, at most once and in order", "statement": "Whatever programs on a host do with their UDP sockets and whatever arrives from the network, every read returns the beginning of one datagram that was sent to that socket, with its true source and a truncation flag that tells whether bytes are missing; no datagram is read twice; datagrams from one socket to another of the same host, and those the network delivers to a socket, are read in order; a datagram that was accepted for sending leaves the host; none of this panics.", "quantifier": "all histories of socket calls, relay activity and arrivals on a host; all queueing disciplines", "why_tests_cant": "Depends on interleavings of sockets, interfaces, relays and full buffers.", "anchors": ["src/main/host/descriptor/socket/inet/udp.rs: UdpSocket", "src/main/host/host.rs: notify_socket_has_packets, get_packet_device", "src/main/host/network/interface.rs", "src/main/core/worker.rs: send_packet"]}
{"id": "C40", "title": "UDP addresses: one owner per port, replies reach the sender, closing is final", "statement": "At most one open UDP socket has a given port of a given interface. The source address of a datagram, as seen on the network or by a reader on the same host, is one at which answers reach the sending socket while it is open. getsockname tells an address of this host. A closed socket receives and sends nothing more.", "quantifier": "all histories of bind, connect, send, close and arrivals; all draws of ephemeral ports", "why_tests_cant": "Implicit binds, wildcard binds and reuse after close combine without bound.", "anchors": ["src/main/host/descriptor/socket/inet/udp.rs", "src/main/host/descriptor/socket/inet/mod.rs: associate_socket", "src/main/host/network/namespace.rs"]}
{"id": "C41", "title": "UDP poll state is exact and no wakeup is lost", "statement": "An open UDP socket polls as readable exactly if a datagram waits and as writable exactly if there is room; every change is told to the socket's listeners, so a reader or writer that blocks is woken when it can go on; a closed socket is neither readable nor writable.", "quantifier": "all histories of calls, relay activity and arrivals", "why_tests_cant": "A lost wakeup needs one particular interleaving of buffer changes.", "anchors": ["src/main/host/descriptor/socket/inet/udp.rs: refresh_readable_writable, update_state, handle_state_change"]}
{"id": "C42", "title": "Unix sockets deliver what was sent", "statement": "On a connected pair of stream sockets the bytes read at one end are those written at the other, in order, none lost, repeated or changed; a read returns nothing only after the other end was closed and everything it sent was read. On seqpacket and datagram sockets each read returns the beginning of exactly one message, in the order of sending, with its true source, and tells if it was cut off; a connected datagram socket reads only what its peer sent.", "quantifier": "all histories of socket calls on a host, any number of sockets, all sizes of reads and writes", "why_tests_cant": "Interleavings of connects, closes, partial reads and writes on many sockets are unbounded.", "anchors": ["src/main/host/descriptor/socket/unix.rs", "src/main/host/descriptor/shared_buf.rs", "src/main/utility/byte_queue.rs"]}
{"id": "C43", "title": "Unix sockets bound what waits to be read", "statement": "At most 212992 bytes sent by a socket wait to be read. A stream write takes as many bytes as there is room for and waits (or fails with EAGAIN) exactly if there is none; a message is taken whole or not at all, and refused with EMSGSIZE if it can never fit. Reading gives the room back.", "quantifier": "all histories of socket calls, all sizes", "why_tests_cant": "An accounting error of one byte shows after long histories only.", "anchors": ["src/main/host/descriptor/socket/unix.rs: UnixSocketCommon::sendmsg, inform_bytes_read"]}
{"id": "C44", "title": "Unix socket names have one owner and listeners serve in order", "statement": "An abstract name can be bound exactly if no open socket of the same type has it; it leads to that socket until it is closed. Autobind finds a free name of five hexadecimal digits unless all are taken. A listening socket admits as many waiting connections as its backlog says, and accept returns them in the order of the connects, each once, with the address of the connecting socket; the accepted socket is blocking unless accept says otherwise.", "quantifier": "all histories of bind, listen, connect, accept and close", "why_tests_cant": "Name reuse after close, full queues and re-listening combine without bound.", "anchors": ["src/main/host/descriptor/socket/unix.rs", "src/main/host/descriptor/socket/abstract_unix_ns.rs"]}
{"id": "C45", "title": "Unix socket poll state is exact and no wakeup is lost", "statement": "A unix socket polls as readable exactly if a read (or accept) would not block and as writable exactly if a byte could be sent. Its listeners are told every change, and every arrival of data. A call that blocks is woken when it can go on.", "quantifier": "all histories of socket calls", "why_tests_cant": "A lost wakeup needs one particular interleaving of calls on both ends.", "anchors": ["src/main/host/descriptor/socket/unix.rs: refresh_file_state, update_state", "src/main/host/descriptor/shared_buf.rs: refresh_state", "src/main/utility/callback_queue.rs"]}
{"id": "C46", "title": "No use of unix sockets makes the simulator panic", "statement": "No sequence of socket calls, with any arguments and any inaccessible memory, makes the simulator panic.", "quantifier": "all histories of socket calls, including failing memory accesses", "why_tests_cant": "The sequences that violate an assertion are those nobody thought of.", "anchors": ["src/main/host/descriptor/socket/unix.rs", "src/main/host/descriptor/shared_buf.rs"]}
{"id": "C47", "title": "Signals sent to processes and threads are neither lost nor invented, and handlers run as sigaction asked", "statement": "A signal of the standard numbers that is sent to a process or thread that does not ignore it stays pending until exactly one thread it was sent to takes it, with the information of its sender; a second one that arrives while the first is pending is dropped. A thread takes only signals it does not block, its own before those of its process, the lowest number first; when a call returns, everything still pending is blocked. A handler runs with the mask, alternate stack, one-shot reset and restart behaviour that sigaction and sigaltstack asked for, and its return restores the mask and alternate stack whatever happened meanwhile. SIGKILL and SIGSTOP can be neither handled, ignored nor blocked; a process that takes SIGKILL ends. sigaction, sigprocmask and sigaltstack change the action, mask and stack they name and nothing else. kill reaches the process or all processes of the group it names.", "quantifier": "all histories of calls, handlers, wakeups, timers and outside events on a host with any number of processes and threads", "why_tests_cant": "Which signal meets which mask, handler and blocked call depends on the interleaving of all threads; tests run a few.", "anchors": ["src/lib/shim/src/signals.rs", "src/lib/shadow-shim-helper-rs/src/shim_shmem.rs", "src/main/host/syscall/handler/signal.rs", "src/main/host/process.rs"]}
{"id": "C48", "title": "A signal interrupts a blocked call, and SA_RESTART decides whether it is made again", "statement": "Whenever an unblocked signal is pending for a thread, or for a process one of whose threads does not block it, a blocked call of such a thread is going to be woken; once woken with such a signal it does not block again but has completed or was interrupted. An interrupted call that may be made again is made again exactly if every handler that ran had SA_RESTART; otherwise the application sees EINTR.", "quantifier": "all histories of calls, handlers, wakeups, timers and outside events on a host", "why_tests_cant": "A lost wakeup shows only under the interleaving that loses it, as a thread that sleeps for ever.", "anchors": ["src/main/host/syscall/syscall_condition.c", "src/main/host/process.rs", "src/lib/shim/src/syscall.rs", "src/main/host/thread.rs"]}
{"id": "C49", "title": "Ended processes are reported to their parents exactly once and nothing is left behind", "statement": "Process ids are never used again. A process ends once; its end is told to its parent by its exit signal unless that is ignored or pending; it is kept until a wait call of its parent reports it with its status, which happens at most once, and it is not kept if its parent ended or ignores the signal. wait4 and waitid report the ended child with the lowest id among those their arguments select, fail with ECHILD if they select none, return 0 with WNOHANG, and otherwise block until such a child ends. getppid names the parent, init if the parent has ended. The children of an ended process get the signal they asked for with PR_SET_PDEATHSIG. exit ends one thread; with the last thread the process ends, with the status that its first thread gave to exit.", "quantifier": "all histories of calls, handlers, wakeups, timers and outside events on a host", "why_tests_cant": "Orphans, concurrent waits and ignored exit signals combine in ways no test enumerates.", "anchors": ["src/main/host/process.rs", "src/main/host/host.rs", "src/main/host/syscall/handler/wait.rs"]}
{"id": "C50", "title": "Process groups lie within sessions", "statement": "All processes of a group are in one session, and so is the process the group is named after. setpgid succeeds exactly for the caller or a child of it in the same session that is not a session leader, and a group of that session or a new one named after the process; setsid makes a new session and group unless a group of the caller's id exists. Both change nothing else.", "quantifier": "all histories of calls on a host", "why_tests_cant": "An invariant over all interleavings of setpgid, setsid, fork, exec and exit.", "anchors": ["src/main/host/syscall/handler/unistd.rs", "src/main/host/host.rs"]}
{"id": "C51", "title": "No use of processes, threads and signals makes the simulator or the shim panic", "statement": "No sequence of calls about processes, threads and signals, with any arguments, makes the simulator or the managed process's shim panic.", "quantifier": "all histories of calls, handlers, wakeups, timers and outside events on a host", "why_tests_cant": "The sequences that violate an assertion are those nobody thought of.", "anchors": ["src/main/host/process.rs", "src/main/host/syscall/handler/", "src/lib/shim/src/signals.rs", "src/main/host/syscall/syscall_condition.c"]}
{"id": "C52", "title": "fork and exec pass on exactly the state they should", "statement": "A process made by fork has an id that was never used, the group, session, signal actions and signal mask of its creator, one thread and no pending signals, and fork returns 0 in it; nothing else changes. exec leaves one thread, with the process's id and the caller's mask and pending signals; ignored signals stay ignored and handlers are reset; parent, group and session stay. A new thread has an id that was never used, the mask of its creator and nothing pending, and changes nothing else.", "quantifier": "all histories of calls on a host", "why_tests_cant": "State that is forgotten or leaks at fork or exec shows only if a program depends on it later.", "anchors": ["src/main/host/syscall/handler/clone.rs", "src/main/host/process.rs", "src/main/host/thread.rs", "src/main/host/syscall/handler/unistd.rs"]}
{"id": "C53", "title": "A futex wakeup reaches the right threads", "statement": "FUTEX_WAKE wakes, among the threads of the process that wait at the given word and were not woken yet, those that have waited the longest, as many as asked for, and returns how many; no other thread is affected. A thread that exits clears the word that it registered and wakes one thread waiting there. This holds for every address and every process.", "quantifier": "all histories of futex calls, timeouts, signals, writes to memory and exits of any number of threads and processes of a host", "why_tests_cant": "Who is woken depends on the order in which threads began to wait, on earlier wakeups that are not delivered yet, on timeouts and on cancelled waits; tests fix one order.", "anchors": ["src/main/host/futex.c", "src/main/host/futex_table.rs", "src/main/host/syscall/handler/futex.rs", "src/main/host/process.rs"]}
{"id": "C54", "title": "A futex wait blocks and ends as it should, and no wakeup is lost", "statement": "A futex wait blocks only if the word holds the expected value. It ends at the instant of the wakeup that chose it, or at its timeout, which it reports exactly then, or for a signal, after which it can be restarted if the handler allows that. Every wakeup that FUTEX_WAKE reports ends one wait successfully. No argument makes the simulator panic.", "quantifier": "all histories of futex calls, timeouts, signals, writes to memory and exits of any number of threads and processes of a host", "why_tests_cant": "A lost wakeup needs a timeout or a signal in the same instant as the wakeup, which tests hardly ever produce; the program then hangs.", "anchors": ["src/main/host/syscall/handler/futex.rs", "src/main/host/syscall/syscall_condition.c", "src/main/host/futex.c"]}
{"id": "C55", "title": "A task of the bounded thread pool runs once on every thread, with bounded parallelism", "statement": "A task given to the pool with a bound on the parallelism runs exactly once on each of its threads, at any moment in at most one thread per processor, and only while the scope that brought it is open. The scope ends when all threads have run the task, and it does end, whatever the order in which the threads run; it reports a panic exactly if the task panicked in some thread, and the pool is not usable after that. No other use of the pool panics, and joining it ends all threads.", "quantifier": "all numbers of processors and threads, all interleavings of the threads, all sequences of scopes, all choices of panicking executions", "why_tests_cant": "The pool moves workers between processors by racing on queues, counts down a latch and borrows cells that panic on conflicting use; an error shows only in rare interleavings.", "anchors": ["src/lib/scheduler/src/pools/bounded.rs", "src/lib/scheduler/src/logical_processor.rs", "src/lib/scheduler/src/sync/thread_parking.rs"]}
{"id": "C56", "title": "A task of the unbounded thread pool runs once on every thread", "statement": "A task given to the pool of the scheduler with one thread per core runs exactly once on each thread, only while the scope that brought it is open; the scope ends when all threads have run the task, and it does end; it reports a panic exactly if the task panicked in some thread, and the pool is not usable after that. No other use of the pool panics, however many rounds there are, and joining it ends all threads.", "quantifier": "all numbers of threads, all interleavings, all sequences of scopes of any length (generations of the start latch wrap around), all choices of panicking executions", "why_tests_cant": "An error would show only in rare interleavings of the threads, or after 2^32 rounds.", "anchors": ["src/lib/scheduler/src/pools/unbounded.rs", "src/lib/scheduler/src/sync/simple_latch.rs"]}
{"id": "C57", "title": "Quantities in the configuration mean what they say", "statement": "A time, size or rate written in the configuration or in the network graph is read as the number and the unit that it shows, under any of the names of the unit, with optional sign plus and white space, and is refused if it shows none; no string has two readings, and a number without unit is in the default unit. Writing a quantity and reading it again gives the same quantity. Converting it to another unit keeps its value exactly, and is refused only if the new unit does not divide the old one or if the result does not fit in 64 bits. What the simulation then uses, in nanoseconds, seconds, bytes or bits per second, is the quantity that was written.", "quantifier": "all strings, all values of 64 bits, all units and all pairs of units", "why_tests_cant": "There are infinitely many strings, prefixes that are also beginnings of unit names (m, min, M, Mi), suffixes that are also ends of each other, and overflows at the end of the range.", "anchors": ["src/main/utility/units.rs", "src/main/core/configuration.rs", "src/main/network/graph/mod.rs"]}
{"id": "C58", "title": "A lazily initialised value is initialised once, and every thread gets that value", "statement": "However many threads ask for the value at the same time, the initializer runs at most once, every thread that gets a reference reads the result of that run, nobody reads the value before it is written or while it is written, and no thread waits forever: each call ends after a bounded number of steps, and a thread that sleeps is woken by the one that initialises. Whether the value is initialised is told truthfully, and dropping the lock drops the value exactly if there is one. If the initializer panics, no call returns.", "quantifier": "all numbers of threads, all interleavings, all stale reads that the release and acquire orderings of the code allow, all spurious wakeups", "why_tests_cant": "The code uses relaxed and acquire orderings and a futex; a missing ordering or a lost wakeup shows only on some machines in rare interleavings.", "anchors": ["src/lib/vasi-sync/src/lazy_lock.rs"]}
{"id": "C59", "title": "The table of thread-local values behaves as a map", "statement": "Every lookup, insertion and removal of a thread in the shared table returns what a map from keys to values says, and a reference reads the value of its key as long as it exists, whatever other threads do with their own keys at the same time and wherever the hash function puts the keys. A removal panics exactly if the thread still holds a reference to the value. No call waits for another thread, and each takes a number of steps bounded by the size of the table. An insertion panics only if the table is full. Dropping the table drops each value once, and after a fork the child can start again with an empty table.", "quantifier": "all table sizes, hash functions, numbers of threads, keys and values, all interleavings", "why_tests_cant": "Threads race for slots by compare-and-exchange over a probe sequence from which other keys come and go; errors need particular collisions and interleavings.", "anchors": ["src/lib/vasi-sync/src/atomic_tls_map.rs"]}
{"id": "C60", "title": "A managed process cannot tell that Shadow has taken over its memory", "statement": "After Shadow has remapped the heap and the stack of a process into shared memory, and through any sequence of mmap, munmap, mremap, mprotect, brk, loads, stores and system calls that read or write the process's memory, the process gets exactly the answers, the bytes and the faults that it would get from the kernel without Shadow, and Shadow does not crash.", "quantifier": "all processes at start (any mappings, heap and stack), all sequences of calls and accesses with all addresses, lengths, protections and contents, all addresses chosen by the kernel for the process and for Shadow", "why_tests_cant": "Regions are split, merged, moved and re-protected in any order and with any overlap; an error in the bookkeeping of one piece shows as one wrong byte much later.", "anchors": ["src/main/host/memory_manager/memory_mapper.rs", "src/main/host/memory_manager/mod.rs", "src/main/host/memory_manager/memory_copier.rs", "src/main/host/syscall/handler/mman.rs"]}
{"id": "C61", "title": "Shadow maps the memory of a process once, and nothing else", "statement": "At all times Shadow has mapped exactly the bytes of the shared memory file that the process has mapped, each once and with the protection that the process has; bytes of the file that the process no longer has mapped are freed (zero); and when the process ends nothing stays mapped in Shadow while the process's own memory is left alone.", "quantifier": "all processes at start, all sequences of supported calls, all addresses chosen by the kernel", "why_tests_cant": "A leaked or doubled mapping has no effect on the answers of calls; it shows only as growing memory in long simulations.", "anchors": ["src/main/host/memory_manager/memory_mapper.rs"]}
{"id": "C62", "title": "TCP sends lost packets again, and only those", "statement": "For any sequence of arriving acknowledgements, selective acknowledgements and retransmission timeouts, the default TCP socket sends again exactly the packets that are due: after a timeout all packets outstanding or found lost that the peer has not said to have, at the third and later repetition of an acknowledgement the packet that the peer waits for, unless it was sent again since the last timeout; none of them twice between timeouts. No assertion fails. The peer's selective acknowledgements name only packets that it keeps, in at most four ordered blocks.", "quantifier": "all sequences of events with all (non-wrapping) sequence numbers and blocks; all sequences of received packets", "why_tests_cant": "The sets of lost, acknowledged and retransmitted packets are kept as lists of ranges that are merged, cut and subtracted in every combination; tests cover single cases of these.", "anchors": ["src/main/host/descriptor/tcp_retransmit_tally.cc", "src/main/host/descriptor/tcp.c: _tcp_flush, _tcp_ackProcessing, _tcp_dataProcessing, _tcp_selective_acks_from_list, _tcp_runRetransmitTimerExpiredTask"]}
{"id": "C63", "title": "The default TCP sockets carry a stream, and never get stuck", "statement": "Between two established default (C) TCP sockets, for any writes, reads and buffer sizes and for a network that loses, repeats, delays and reorders packets and acknowledgements in any way: no assertion fails; the bytes read are a prefix of the bytes accepted by the writes, in order and each once; every further byte can either be read at once or is in a packet that the sender still keeps; reads return less than asked only when nothing more can be read; and from every state that can be reached, packets can be delivered so that the reader gets everything written, without any further write or larger buffer.", "quantifier": "all sequences of writes, reads, deliveries (of any packet, any number of times, in any order), acknowledgements, timeouts, congestion windows and buffer sizes", "why_tests_cant": "Tests send streams over a few fixed networks; the claim is about every interleaving of losses, duplicates, retransmissions, window and buffer sizes.", "anchors": ["src/main/host/descriptor/tcp.c: tcp_sendUserData, tcp_receiveUserData, _tcp_flush, _tcp_dataProcessing, _tcp_ackProcessing, _tcp_retransmitPacket, tcp_networkInterfaceIsAboutToSendPacket", "src/main/host/descriptor/socket.c: buffers", "src/main/utility/priority_queue.c"]}
{"id": "C64", "title": "The congestion window of the default TCP sockets", "statement": "Whatever acknowledgements, duplicate acknowledgements and timeouts a default TCP socket sees, its congestion window is at least one packet and at most ten plus what was acknowledged (duplicates counting four); it does not matter whether packets are acknowledged at once or in parts; in congestion avoidance the window grows by one for each window of packets acknowledged; in slow start by one for each packet, up to the threshold, and from there on as in congestion avoidance; up to two duplicate acknowledgements (since a timeout or a new acknowledgement outside of congestion avoidance) make no difference, the third one halves it, each further one adds one, and the next new acknowledgement leaves half of the window before; after a timeout it starts again at ten with slow start up to half of the window before.", "quantifier": "all sequences of acknowledgements (of any numbers of packets), duplicate acknowledgements and timeouts, with fewer than 2^32 packets in all", "why_tests_cant": "Tests look at the throughput of a few transfers; the claim is about the window after every sequence of events, including long ones where 32-bit counters could wrap and the loop of congestion avoidance could fail to end.", "anchors": ["src/main/host/descriptor/tcp_cong_reno.c"]}
{"id": "C65", "title": "The default TCP sockets keep to the windows and to their buffers", "statement": "For any writes, reads, losses, repetitions and buffer sizes on an established connection between default TCP sockets: every data packet that enters the network is within a window the receiver has announced; in each event packets leave only within the smaller of the congestion window and the announced window; a write accepts exactly as many bytes as fit into the send buffer (of the size asked for last) besides all bytes written and not yet acknowledged, at most 65535, and would block only if none fit; nothing but a write makes the sender keep more, and every packet is kept once; the receiver buffers in-order data only as long as it fits into the size asked for last, and after a read the window is the free space in packets.", "quantifier": "all sequences of writes, reads, deliveries, acknowledgements, timeouts, congestion windows and buffer sizes", "why_tests_cant": "Whether a window or a buffer is ever exceeded is a question about every interleaving of acknowledgements, retransmissions and changes of the sizes.", "anchors": ["src/main/host/descriptor/tcp.c: _tcp_flush, _tcp_updateSendWindow, _tcp_updateReceiveWindow, _tcp_getBufferSpaceOut, tcp_sendUserData, _tcp_ackProcessing", "src/main/host/descriptor/socket.c: buffers"]}
{"id": "C66", "title": "Capture files tell exactly which packets passed an interface", "statement": "For any capture length and any IPv4 packets passing an interface at any times, the capture file is a well-formed libpcap file of raw IP packets with that snapshot length; its records are, in order, one for each packet, with the simulated time to the microsecond, the length of the packet and its first bytes up to the capture length. If packets are not cut, a reader of the file (by RFC 791, 9293, 768) learns the addresses, ports, TCP flags, sequence and acknowledgement numbers, window, window scale and payload of every packet, and the bytes are as many as the packet's length. Writing a packet in pieces and writing it as one buffer make the same file.", "quantifier": "all capture lengths and all sequences of well-formed packets and times", "why_tests_cant": "The length field of a record is filled in afterwards by seeking, and packets are cut at any byte; a test tries a few packets and lengths.", "anchors": ["src/main/utility/pcap_writer.rs", "src/main/utility/give.rs", "src/main/network/packet.rs: display_bytes, write_tcpdata_bytes, write_udpdata_bytes, len", "src/main/host/network/interface.rs: capture_if_configured"]}
{"id": "C67", "title": "Log buffers hold text, cut at a character, and count what is cut", "statement": "A fixed-size format buffer never overflows (one byte for NUL always fits), never panics, and always holds valid UTF-8, for any sequence of text writes, printf-style output of arbitrary bytes, and resets. After any text writes it holds the longest part from the beginning that fits, in whole characters, and its truncation count is the number of all other bytes; once something has been cut nothing is appended. Lossy decoding ends for all bytes and puts one U+FFFD for each stretch of bytes where no character starts; text is decoded as it is, and printed text that fits is appended as it is.", "quantifier": "all buffer sizes, all texts and byte strings, all sequences of operations", "why_tests_cant": "The string accessor skips the UTF-8 check (unsafe), so one sequence of writes that cuts inside a character is undefined behaviour; tests try a few characters and sizes.", "anchors": ["src/lib/formatting-nostd/src/utf8.rs", "src/lib/formatting-nostd/src/format_buffer.rs"]}
{"id": "C68", "title": "Socket addresses keep their meaning through the memory of applications", "statement": "For any address of up to 128 bytes: an address written to an application's buffer that is large enough and read back with the returned length is the same address; with a smaller buffer what fits is written, nothing outside is touched, and the returned length is that of the whole address; longer addresses are refused. Any bytes with family AF_UNIX and a possible length are of exactly one kind (unnamed, abstract with just the bytes after the first NUL, or pathname up to the first NUL), names and paths built into an address are found in it again, and two unix addresses are equal just if the bytes after the family are. An IPv4 address and port are found again and are no other kind; a kind is given just for its family and at least its size.", "quantifier": "all byte strings, names, paths, buffers, addresses and ports", "why_tests_cant": "Every length from 0 to 128 and every position of NUL is a case of its own, and the code reinterprets memory through a union.", "anchors": ["src/main/utility/sockaddr.rs", "src/main/host/syscall/io.rs: write_sockaddr_and_len, read_sockaddr"]}
