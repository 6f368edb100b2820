(** One direction of a connection between two of Shadow's default (C) TCP
    sockets, src/main/host/descriptor/tcp.c, with the buffers of
    src/main/host/descriptor/socket.c and a network that loses, duplicates and
    reorders packets.

    Modelled: the path of user data from write to read once the connection is
    established: segmentation, the throttled queue, the retransmit queue, the
    socket buffers with their pending sizes, the windows, the queue of unordered
    packets, partially read packets, acknowledgements.
    Simplified: sequence numbers (one per packet) are unbounded integers where
    the code has 32 bits and says that it does not handle overflow
    (tcp.c:1244-1247); the lengths of queues are computed from their contents
    where the code keeps counters; a priority queue is a sorted list (packets
    with equal numbers in the order of arrival); the congestion window and the
    packets reported lost (property C62) are inputs.
    Not modelled: opening and closing, timers, timestamps, RTT, errors of copying
    from or to user memory, and the file state except "readable". *)
From Verif Require Import Base.

(** A data packet: its number and its payload. *)
Record pkt := Pkt { p_seq : Z; p_data : list Z }.

(** packet_getPayloadSize *)
Definition plen (p : pkt) : Z := Z.of_nat (length (p_data p)).

Fixpoint total (l : list pkt) : Z :=
  match l with [] => 0 | p :: r => plen p + total r end.

(** CONFIG_TCP_MAX_SEGMENT_SIZE, src/main/core/definitions.h:102-129 *)
Definition MSS : Z := 1460.

(** ** Socket buffers, src/main/host/descriptor/socket.c *)

(** inputBufferSize and inputBufferSizePending (and the same for output) *)
Record buf := Buf { b_size : Z; b_pending : Z }.

(** legacysocket_getInputBufferSize, legacysocket_getOutputBufferSize,
    socket.c:314-322 *)
Definition buf_size (b : buf) : Z :=
  if 0 <? b_pending b then b_pending b else b_size b.

(** legacysocket_getInputBufferSpace, legacysocket_getOutputBufferSpace,
    socket.c:282-302; [len] is the length of the buffer *)
Definition buf_space (b : buf) (len : Z) : option Z :=
  check (len <=? b_size b);
  Some (if buf_size b <? len then 0 else buf_size b - len).

(** legacysocket_setInputBufferSize, legacysocket_setOutputBufferSize,
    socket.c:324-346 *)
Definition buf_set (n len : Z) : buf :=
  if len <=? n then Buf n 0 else Buf len n.

(** the end of legacysocket_removeFromInputBuffer and
    legacysocket_removeFromOutputBuffer, socket.c:376-379 and 439-442; [len] is
    the length after the removal *)
Definition buf_removed (b : buf) (len : Z) : buf :=
  if 0 <? b_pending b then buf_set (b_pending b) len else b.

(** setsockopt of SO_SNDBUF and SO_RCVBUF,
    src/main/host/descriptor/socket/inet/legacy_tcp.rs:1288-1345: the value is
    doubled and clamped.  (The automatic tuning of tcp.c:520-645 sets sizes from
    the same range.) *)
Definition opt_size (v : Z) : Z := Z.min (Z.max (v * 2) 2048) 268435456.

(** ** Priority queues by sequence number, src/main/utility/priority_queue.c
    with packet_compareTCPSequence (src/main/network/packet.rs:1390-1406) *)
Fixpoint pq_push (p : pkt) (l : list pkt) : list pkt :=
  match l with
  | [] => [p]
  | x :: r => if p_seq p <? p_seq x then p :: l else x :: pq_push p r
  end.

Definition has_seq (n : Z) (l : list pkt) : bool :=
  existsb (fun x => p_seq x =? n) l.

(** ** The sending socket *)
Record sender := Snd {
  s_next : Z;              (* send.next *)
  s_unacked : Z;           (* send.unacked *)
  s_lastack : Z;           (* receive.lastAcknowledgment *)
  s_lastwin : Z;           (* receive.lastWindow *)
  s_cwnd : Z;              (* cong.cwnd *)
  s_thr : list pkt;        (* throttledOutput *)
  s_q : list pkt;          (* retransmit.queue *)
  s_out : list pkt;        (* outputBuffer of the socket *)
  s_buf : buf              (* its sizes *)
}.

(** tcp_getOutputBufferLength, tcp.c:781-786 *)
Definition out_length (s : sender) : Z := total (s_thr s) + total (s_q s).

(** _tcp_getBufferSpaceOut, tcp.c:800-807 *)
Definition space_out (s : sender) : option Z :=
  do sp <- buf_space (s_buf s) (total (s_out s));
  Some (Z.max 0 (sp - out_length s)).

(** _tcp_bufferPacketOut, tcp.c:817-833 (the packet object of a number is
    unique in the sender) *)
Definition packet_out (p : pkt) (s : sender) : sender :=
  if has_seq (p_seq p) (s_thr s) then s
  else Snd (s_next s) (s_unacked s) (s_lastack s) (s_lastwin s) (s_cwnd s)
           (pq_push p (s_thr s)) (s_q s) (s_out s) (s_buf s).

(** _tcp_retransmitPacket, tcp.c:1183-1219 *)
Definition retransmit (n : Z) (s : sender) : sender :=
  match find (fun x => p_seq x =? n) (s_q s) with
  | None => s
  | Some p =>
      packet_out p
        (Snd (s_next s) (s_unacked s) (s_lastack s) (s_lastwin s) (s_cwnd s) (s_thr s)
             (filter (fun x => negb (p_seq x =? n)) (s_q s)) (s_out s) (s_buf s))
  end.

(** the loop of _tcp_flush over the throttled packets, tcp.c:1358-1419; [lim]
    is send.unacked + send.window *)
Fixpoint flush_out (lim : Z) (b : buf) (thr out : list pkt) : option (list pkt * list pkt) :=
  match thr with
  | [] => Some ([], out)
  | p :: r =>
      do sp <- buf_space b (total out);
      if (0 <? plen p) && (negb (plen p <=? sp) || negb (p_seq p <? lim))
      then Some (thr, out)
      else (check (plen p <=? sp); flush_out lim b r (out ++ [p]))
  end.

(** the sending half of _tcp_flush, tcp.c:1326-1419, with _tcp_updateSendWindow
    (tcp.c:880-885): [lost] are the packets reported by the tally *)
Definition flush_s (lost : list Z) (s : sender) : option sender :=
  let s := fold_left (fun s n => retransmit n s) lost s in
  let window := Z.min (s_cwnd s) (s_lastwin s) in
  do (thr, out) <- flush_out (s_unacked s + window) (s_buf s) (s_thr s) (s_out s);
  Some (Snd (s_next s) (s_unacked s) (s_lastack s) (s_lastwin s) (s_cwnd s)
            thr (s_q s) out (s_buf s)).

(** the loop of tcp_sendUserData, tcp.c:2510-2536, with _tcp_createDataPacket
    and _tcp_createPacketWithoutPayload (tcp.c:887-953); [fuel] bounds the number
    of packets, [None] when it runs out *)
Fixpoint segment (fuel : nat) (bytes : list Z) (s : sender) : option sender :=
  match bytes with
  | [] => Some s
  | _ =>
      match fuel with
      | O => None
      | S fuel =>
          let p := Pkt (s_next s) (firstn (Z.to_nat MSS) bytes) in
          let s := Snd (s_next s + 1) (s_unacked s) (s_lastack s) (s_lastwin s) (s_cwnd s)
                       (s_thr s) (s_q s) (s_out s) (s_buf s) in
          segment fuel (skipn (Z.to_nat MSS) bytes) (packet_out p s)
      end
  end.

(** What a call tells its caller. *)
Inductive result :=
| Wrote (n : Z)            (* a write accepted [n] bytes *)
| Got (bytes : list Z)     (* a read returned these bytes *)
| WouldBlock               (* EWOULDBLOCK *)
| Quiet.                   (* not a call of the application *)

(** tcp_sendUserData, tcp.c:2474-2543 *)
Definition write (bytes : list Z) (s : sender) : option (result * sender) :=
  do space <- space_out s;
  let acceptable := Z.min (Z.of_nat (length bytes)) 65535 in
  let n := Z.min acceptable space in
  let taken := firstn (Z.to_nat n) bytes in
  do s <- segment (length taken) taken s;
  do s <- flush_s [] s;
  Some (if (n =? 0) && negb (Z.of_nat (length bytes) =? 0) then WouldBlock else Wrote n, s).

(** legacysocket_pullOutPacket and tcp_networkInterfaceIsAboutToSendPacket,
    socket.c:425-446 and tcp.c:1289-1321, with _tcp_addRetransmit
    (tcp.c:978-998) *)
Definition pull (s : sender) : option pkt * sender :=
  match s_out s with
  | [] => (None, s)
  | p :: r =>
      (Some p,
       Snd (s_next s) (s_unacked s) (s_lastack s) (s_lastwin s) (s_cwnd s) (s_thr s)
           (if (0 <? p_seq p) && negb (has_seq (p_seq p) (s_q s))
            then s_q s ++ [p] else s_q s)
           r (buf_removed (s_buf s) (total r)))
  end.

(** _tcp_ackProcessing, tcp.c:1945-2037, with _tcp_clearRetransmitRange
    (tcp.c:1049-1071), and the flush that ends _tcp_processPacket
    (tcp.c:2438) *)
Definition ack_in (ack win : Z) (lost : list Z) (s : sender) : option sender :=
  let valid := (s_unacked s <? ack) && (ack <=? s_next s) in
  let valid_window :=
    ((ack =? s_lastack s) && (s_lastwin s <? win))
    || ((s_lastack s <? ack) && negb (win =? s_lastwin s)) in
  let s1 :=
    if valid then
      Snd (s_next s) ack ack (s_lastwin s) (s_cwnd s) (s_thr s)
          (filter (fun x => negb ((s_lastack s <=? p_seq x) && (p_seq x <? ack))) (s_q s))
          (s_out s) (s_buf s)
    else s in
  let s2 :=
    if valid_window then
      Snd (s_next s1) (s_unacked s1) (s_lastack s1) win (s_cwnd s1) (s_thr s1) (s_q s1)
          (s_out s1) (s_buf s1)
    else s1 in
  flush_s lost s2.

(** ** The receiving socket *)
Record receiver := Rcv {
  r_next : Z;                    (* receive.next *)
  r_win : Z;                     (* receive.window *)
  r_unord : list pkt;            (* unorderedInput *)
  r_in : list pkt;               (* inputBuffer of the socket *)
  r_part : option (pkt * Z);     (* partialUserDataPacket and partialOffset *)
  r_buf : buf;                   (* the sizes of the input buffer *)
  r_readable : bool              (* FileState_READABLE *)
}.

(** _tcp_updateReceiveWindow, tcp.c:854-878 *)
Definition update_window (r : receiver) : option receiver :=
  do sp <- buf_space (r_buf r) (total (r_in r));
  let win := sp / MSS in
  check (negb (win =? 0) || negb (total (r_in r) =? 0));
  Some (Rcv (r_next r) win (r_unord r) (r_in r) (r_part r) (r_buf r) (r_readable r)).

(** the loop of _tcp_flush over the unordered packets, tcp.c:1421-1464, with
    legacysocket_addToInputBuffer (socket.c:348-364).  A packet already delivered
    is removed, and the loop ends. *)
Fixpoint flush_in (b : buf) (next : Z) (readable : bool) (u inp : list pkt)
  : option (Z * bool * list pkt * list pkt) :=
  match u with
  | [] => Some (next, readable, [], inp)
  | p :: u' =>
      if p_seq p <? next then Some (next, readable, u', inp)
      else if p_seq p =? next then
        do sp <- buf_space b (total inp);
        if plen p <=? sp
        then flush_in b (next + 1) (readable || (0 <? total (inp ++ [p]))) u' (inp ++ [p])
        else Some (next, readable, u, inp)
      else Some (next, readable, u, inp)
  end.

(** the receiving half of _tcp_flush, tcp.c:1326-1328 and 1421-1464 *)
Definition flush_r (r : receiver) : option receiver :=
  do r <- update_window r;
  do (next, readable, u, inp) <- flush_in (r_buf r) (r_next r) (r_readable r) (r_unord r) (r_in r);
  Some (Rcv next (r_win r) u inp (r_part r) (r_buf r) readable).

(** _tcp_bufferPacketIn, tcp.c:835-852.  [shared] says that the sender's own
    packet object arrives (over loopback); otherwise the worker has copied it
    (src/main/core/worker.rs:391), so that it is not in the queue. *)
Definition packet_in (shared : bool) (p : pkt) (r : receiver) : receiver :=
  if negb (p_seq p <? r_next r) && negb (shared && has_seq (p_seq p) (r_unord r))
  then Rcv (r_next r) (r_win r) (pq_push p (r_unord r)) (r_in r) (r_part r) (r_buf r)
           (r_readable r)
  else r.

(** _tcp_dataProcessing, tcp.c:1873-1943 (without the selective
    acknowledgements: property C62), with _tcp_getBufferSpaceIn
    (tcp.c:809-815) *)
Definition data_in (shared : bool) (p : pkt) (r : receiver) : option receiver :=
  if r_next r + r_win r <=? p_seq p then Some r
  else if r_next r <=? p_seq p then
    do sp <- buf_space (r_buf r) (total (r_in r));
    let is_next := p_seq p =? r_next r in
    let fits := plen p <=? Z.max 0 (sp - total (r_unord r)) in
    if (is_next && negb (r_readable r)) || fits
    then Some (packet_in shared p r)
    else Some r
  else Some r.

(** the arrival of a data packet in _tcp_processPacket, tcp.c:2340-2438: a
    packet ahead of the next one is answered by a duplicate acknowledgement at
    once, which flushes, and the end flushes (again) *)
Definition arrive (shared : bool) (p : pkt) (r : receiver) : option receiver :=
  do r <- data_in shared p r;
  do r <- (if (r_next r <? p_seq p) && (p_seq p <? r_next r + r_win r)
           then flush_r r else Some r);
  flush_r r.

(** the loop of tcp_receiveUserData over the buffered packets,
    tcp.c:2623-2671 *)
Fixpoint read_loop (rem : Z) (inp : list pkt) (b : buf) (acc : list Z)
  : list Z * option (pkt * Z) * list pkt * buf :=
  match inp with
  | [] => (acc, None, [], b)
  | p :: rest =>
      if rem <=? 0 then (acc, None, inp, b)
      else
        let n := Z.min (plen p) rem in
        let acc := acc ++ firstn (Z.to_nat n) (p_data p) in
        let b := buf_removed b (total rest) in
        if n <? plen p then (acc, Some (p, n), rest, b)
        else read_loop (rem - n) rest b acc
  end.

(** the start of tcp_receiveUserData: a partially read packet,
    tcp.c:2594-2621 *)
Definition read_part (n : Z) (part : option (pkt * Z))
  : option (list Z * option (pkt * Z) * Z) :=
  match part with
  | Some (p, off) =>
      if 0 <? n then
        let left := plen p - off in
        check (0 <? left);
        let c := Z.min left n in
        let bytes := firstn (Z.to_nat c) (skipn (Z.to_nat off) (p_data p)) in
        if left <=? c then Some (bytes, None, n - c)
        else (check (n - c =? 0); Some (bytes, Some (p, off + c), n - c))
      else Some ([], Some (p, off), n)
  | None => Some ([], None, n)
  end.

(** tcp_receiveUserData, tcp.c:2562-2732, without the end of the stream *)
Definition read (n : Z) (r : receiver) : option (result * receiver) :=
  do r <- flush_r r;
  if (total (r_in r) =? 0) && match r_part r with None => true | Some _ => false end
  then Some (WouldBlock, r)
  else
    do (acc, part, rem) <- read_part n (r_part r);
    let '(acc, part, inp, b) :=
      if 0 <? rem then
        let '(acc, part', inp, b) := read_loop rem (r_in r) (r_buf r) acc in
        (acc, match part' with Some x => Some x | None => part end, inp, b)
      else (acc, part, r_in r, r_buf r) in
    let more := (0 <? total inp) || match part with None => false | Some _ => true end in
    do r <- update_window (Rcv (r_next r) (r_win r) (r_unord r) inp part b more);
    Some (if (Z.of_nat (length acc) =? 0) && (negb (n =? 0) || negb more)
          then WouldBlock else Got acc, r).

(** ** Two sockets and the network *)
Record sys := Sys {
  y_s : sender;
  y_r : receiver;
  y_net : list pkt;          (* every data packet that entered the network *)
  y_acks : list (Z * Z)      (* every acknowledgement, with its window *)
}.

Inductive event :=
| EWrite (bytes : list Z)            (* the application writes *)
| ERead (n : Z)                      (* the other application reads *)
| EPull                              (* the network interface takes a packet *)
| EDeliver (shared : bool) (i : nat) (* the network delivers its [i]-th packet *)
| ESendAck                           (* the receiver sends an acknowledgement *)
| EFlush                             (* the receiver flushes for another reason *)
| EAck (i : nat) (lost : list Z)     (* the network delivers the [i]-th acknowledgement *)
| ETimer (lost : list Z)             (* the sender's retransmission timer *)
| ECwnd (n : Z)                      (* the congestion window changes *)
| ESndBuf (v : Z)                    (* setsockopt *)
| ERcvBuf (v : Z).

(** One event.  An acknowledgement takes its contents when the network
    interface takes the packet (tcp.c:1289-1302); the receiver flushes when it
    queues one (_tcp_sendControlPacket, tcp.c:961-976) and in other places. *)
Definition step (ev : event) (y : sys) : option (result * sys) :=
  let s := y_s y in
  let r := y_r y in
  match ev with
  | EWrite bytes =>
      do (res, s) <- write bytes s;
      Some (res, Sys s r (y_net y) (y_acks y))
  | ERead n =>
      do (res, r) <- read n r;
      Some (res, Sys s r (y_net y) (y_acks y))
  | EPull =>
      match pull s with
      | (Some p, s) => Some (Quiet, Sys s r (y_net y ++ [p]) (y_acks y))
      | (None, s) => Some (Quiet, Sys s r (y_net y) (y_acks y))
      end
  | EDeliver shared i =>
      match nth_error (y_net y) i with
      | None => Some (Quiet, y)
      | Some p => do r <- arrive shared p r; Some (Quiet, Sys s r (y_net y) (y_acks y))
      end
  | ESendAck => Some (Quiet, Sys s r (y_net y) (y_acks y ++ [(r_next r, r_win r)]))
  | EFlush => do r <- flush_r r; Some (Quiet, Sys s r (y_net y) (y_acks y))
  | EAck i lost =>
      match nth_error (y_acks y) i with
      | None => Some (Quiet, y)
      | Some (a, w) => do s <- ack_in a w lost s; Some (Quiet, Sys s r (y_net y) (y_acks y))
      end
  | ETimer lost => do s <- flush_s lost s; Some (Quiet, Sys s r (y_net y) (y_acks y))
  | ECwnd n =>
      Some (Quiet,
            Sys (Snd (s_next s) (s_unacked s) (s_lastack s) (s_lastwin s) n (s_thr s) (s_q s)
                     (s_out s) (s_buf s)) r (y_net y) (y_acks y))
  | ESndBuf v =>
      Some (Quiet,
            Sys (Snd (s_next s) (s_unacked s) (s_lastack s) (s_lastwin s) (s_cwnd s) (s_thr s)
                     (s_q s) (s_out s) (buf_set (opt_size v) (total (s_out s))))
                r (y_net y) (y_acks y))
  | ERcvBuf v =>
      Some (Quiet,
            Sys s (Rcv (r_next r) (r_win r) (r_unord r) (r_in r) (r_part r)
                       (buf_set (opt_size v) (total (r_in r))) (r_readable r))
                (y_net y) (y_acks y))
  end.

(** After the handshake (tcp.c:2905-2929): the SYN has number 1, so data starts
    with 2; both windows are 10 packets. *)
Definition start (sndbuf rcvbuf : Z) : sys :=
  Sys (Snd 2 2 2 10 10 [] [] [] (Buf (opt_size sndbuf) 0))
      (Rcv 2 10 [] [] None (Buf (opt_size rcvbuf) 0) false) [] [].

Fixpoint run (evs : list event) (y : sys) : option (list result * sys) :=
  match evs with
  | [] => Some ([], y)
  | ev :: rest =>
      do (res, y) <- step ev y;
      do (outs, y) <- run rest y;
      Some (res :: outs, y)
  end.
