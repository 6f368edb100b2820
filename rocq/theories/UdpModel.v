(** Model of src/main/host/descriptor/socket/inet/udp.rs: UDP sockets; of [associate_socket]
    (src/main/host/descriptor/socket/inet/mod.rs); and of the host around them: its two network
    interfaces (IfaceModel), the relays that forward their packets (src/main/host/host.rs) and the
    first half of [Worker::send_packet] (src/main/core/worker.rs).
    Payload bytes are integers. Not modelled: packet status flags, pcap output, object counters,
    readv/writev/stat/lseek/listen/accept (constant results), getsockopt (returns the limits),
    SO_BROADCAST, the bandwidth limit of the relays (RelayModel), control messages. [None] is a panic. *)
From Verif Require Import Base FMap NetqModel IfaceModel.

Definition blen (b : list Z) : Z := Z.of_nat (length b).

(* ------------------------------------------------------------------ message buffers *)
(** udp.rs:1122-1133 *)
Record msgbuf {H : Type} := mkB { mb_msgs : list (list Z * H); mb_len : Z; mb_limit : Z }.
Arguments msgbuf : clear implicits.
Section Buffers.
Context {H : Type}.
(** udp.rs:1136-1142 *)
Definition mb_new (limit : Z) : msgbuf H := mkB _ [] 0 limit.
(** udp.rs:1183-1185 *)
Definition mb_has_space (b : msgbuf H) : bool := mb_len b <? mb_limit b.
(** udp.rs:1188-1190 *)
Definition mb_is_empty (b : msgbuf H) : bool := match mb_msgs b with [] => true | _ => false end.
(** udp.rs:1146-1159; both callers unwrap the result, so a refusal is a panic *)
Definition mb_push (b : msgbuf H) (m : list Z) (h : H) : option (msgbuf H) :=
  check (mb_has_space b);
  check (mb_len b + blen m <=? U64_MAX);
  Some (mkB _ (mb_msgs b ++ [(m, h)]) (mb_len b + blen m) (mb_limit b)).
(** udp.rs:1163-1168; the subtraction panics below zero *)
Definition mb_pop (b : msgbuf H) : option (option (list Z * H) * msgbuf H) :=
  match mb_msgs b with
  | [] => Some (None, b)
  | (m, h) :: r =>
      check (blen m <=? mb_len b);
      Some (Some (m, h), mkB _ r (mb_len b - blen m) (mb_limit b))
  end.
(** udp.rs:1171-1173 *)
Definition mb_peek (b : msgbuf H) : option (list Z * H) := hd_error (mb_msgs b).
(** udp.rs:1198-1200 *)
Definition mb_set_limit (b : msgbuf H) (l : Z) : msgbuf H := mkB _ (mb_msgs b) (mb_len b) l.
End Buffers.

(* ------------------------------------------------------------------ the socket *)
(** The bits of FileState that UDP sockets set (descriptor/mod.rs:128-149). *)
Record bits := mkBits { b_active : bool; b_readable : bool; b_writable : bool; b_closed : bool }.
Definition bits_eqb (a b : bits) : bool :=
  Bool.eqb (b_active a) (b_active b) && Bool.eqb (b_readable a) (b_readable b) &&
  Bool.eqb (b_writable a) (b_writable b) && Bool.eqb (b_closed a) (b_closed b).
(** What listeners are told: the new state, and whether READ_BUFFER_GREW is signalled. *)
Definition unote := (bits * bool)%type.

(** udp.rs:1097-1106 *)
Record shdr := mkSh { sh_src : addr; sh_dst : addr; sh_pri : Z }.
(** udp.rs:1110-1119 *)
Record rhdr := mkRh { rh_src : addr; rh_dst : addr; rh_time : Z }.
(** A UDP packet (network/packet.rs:303-318). *)
Record upkt := mkUp { up_src : addr; up_dst : addr; up_data : list Z; up_pri : Z }.

(** udp.rs:37-54; of the status only NONBLOCK, of the association its two addresses *)
Record udp := mkU {
  u_nb : bool; u_st : bits; u_shr : bool; u_shw : bool; u_send : msgbuf shdr; u_recv : msgbuf rhdr;
  u_peer : option addr; u_bound : option addr; u_assoc : option (addr * addr); u_last : option Z }.

Definition u_set_st (u : udp) (b : bits) : udp :=
  mkU (u_nb u) b (u_shr u) (u_shw u) (u_send u) (u_recv u) (u_peer u) (u_bound u) (u_assoc u) (u_last u).
Definition u_set_send (u : udp) (b : msgbuf shdr) : udp :=
  mkU (u_nb u) (u_st u) (u_shr u) (u_shw u) b (u_recv u) (u_peer u) (u_bound u) (u_assoc u) (u_last u).
Definition u_set_recv (u : udp) (b : msgbuf rhdr) : udp :=
  mkU (u_nb u) (u_st u) (u_shr u) (u_shw u) (u_send u) b (u_peer u) (u_bound u) (u_assoc u) (u_last u).
Definition u_set_peer (u : udp) (p : option addr) : udp :=
  mkU (u_nb u) (u_st u) (u_shr u) (u_shw u) (u_send u) (u_recv u) p (u_bound u) (u_assoc u) (u_last u).
Definition u_set_bound (u : udp) (b : option addr) (a : option (addr * addr)) : udp :=
  mkU (u_nb u) (u_st u) (u_shr u) (u_shw u) (u_send u) (u_recv u) (u_peer u) b a (u_last u).
Definition u_set_last (u : udp) (t : option Z) : udp :=
  mkU (u_nb u) (u_st u) (u_shr u) (u_shw u) (u_send u) (u_recv u) (u_peer u) (u_bound u) (u_assoc u) t.
(** udp.rs:85-87 *)
Definition u_set_nb (u : udp) (nb : bool) : udp :=
  mkU nb (u_st u) (u_shr u) (u_shw u) (u_send u) (u_recv u) (u_peer u) (u_bound u) (u_assoc u) (u_last u).
Definition u_set_shut (u : udp) (r w : bool) : udp :=
  mkU (u_nb u) (u_st u) r w (u_send u) (u_recv u) (u_peer u) (u_bound u) (u_assoc u) (u_last u).

(** udp.rs:1056-1094 [update_state], [handle_state_change] *)
Definition u_update (u : udp) (b : bits) (grew : bool) : udp * list unote :=
  (u_set_st u b, if bits_eqb b (u_st u) && negb grew then [] else [(b, grew)]).
(** udp.rs:1031-1054. Unlike other files it does not look at CLOSED. *)
Definition u_refresh (u : udp) (grew : bool) : udp * list unote :=
  u_update u (mkBits (b_active (u_st u)) (negb (mb_is_empty (u_recv u))) (mb_has_space (u_send u)) (b_closed (u_st u))) grew.
(** udp.rs:57-81 *)
Definition u_new (nb : bool) (snd rcv : Z) : udp :=
  fst (u_refresh (mkU nb (mkBits true false false false) false false (mb_new snd) (mb_new rcv) None None None None) false).

(** Do two socket addresses agree? *)
Definition addr_eqb (a b : addr) : bool := (fst a =? fst b) && (snd a =? snd b).
(** udp.rs:103-162 *)
Definition u_push_in (u : udp) (p : upkt) (now : Z) : option (udp * list unote) :=
  if match u_peer u with Some a => negb (addr_eqb a (up_src p)) | None => false end then Some (u, [])
  else if negb (mb_has_space (u_recv u)) then Some (u, [])
  else
    do r <- mb_push (u_recv u) (up_data p) (mkRh (up_src p) (up_dst p) now);
    Some (u_refresh (u_set_recv u r) true).
(** udp.rs:164-185 *)
Definition u_pull_out (u : udp) : option (udp * option upkt * list unote) :=
  do (m, b) <- mb_pop (u_send u);
  match m with
  | None => Some (u, None, [])
  | Some (d, h) =>
      let (u', n) := u_refresh (u_set_send u b) false in
      Some (u', Some (mkUp (sh_src h) (sh_dst h) d (sh_pri h)), n)
  end.
(** udp.rs:187-189 *)
Definition u_peek_priority (u : udp) : option Z := option_map (fun x => sh_pri (snd x)) (mb_peek (u_send u)).
(** udp.rs:191-193 *)
Definition u_has_data (u : udp) : bool := negb (mb_is_empty (u_send u)).
(** udp.rs:195-210 *)
Definition u_getsockname (u : udp) : addr :=
  let a := match u_bound u with Some a => a | None => (0, 0) end in
  if is_unspecified (fst a) then match u_peer u with Some p => (fst p, snd a) | None => a end else a.
(** udp.rs:220-231; dropping the association is left to the host below *)
Definition u_close (u : udp) : udp * list unote :=
  u_update (u_set_bound u (u_bound u) None) (mkBits false false false true) false.

(* ------------------------------------------------------------------ system calls *)
Inductive uerr := EPIPE | EINVAL | EAFNOSUPPORT | EDESTADDRREQ | EMSGSIZE | EWOULDBLOCK | EFAULT | ENOTCONN
  | ECONNREFUSED | EADDRINUSE | EADDRNOTAVAIL | ENOENT | EBADF.
(** Results: a number, a datagram (return value, bytes written, source, MSG_TRUNC), end of file,
    an address, an error, or the call blocks until the socket is writable or readable. *)
Inductive ures := UOk | UNum (n : Z) | UMsg (n : Z) (got : list Z) (from : addr) (trunc : bool) | UEof
  | UAddr (a : addr) | UErr (e : uerr) | UWaitWritable | UWaitReadable.

(** inet/mod.rs:503-578 for a UDP socket (protocol 17). [debug]: debug assertions are on. *)
Definition UDP : Z := 17.
Definition associate_socket (debug : bool) (ns : netns) (s : Z) (local peer : addr) (generic : bool) (rng : nat -> Z)
  : option (netns * (addr + uerr)) :=
  if negb (is_unspecified (fst local)) && match ns_interface ns (fst local) with Some _ => false | None => true end
  then Some (ns, inr EINVAL)
  else
    match (if negb (snd local =? 0) then Some (snd local) else get_random_free_port ns UDP (fst local) peer rng) with
    | None => Some (ns, inr EADDRINUSE)
    | Some port =>
        let local := (fst local, port) in
        match ns_in_use ns UDP local peer with
        | Some true => Some (ns, inr EADDRINUSE)
        | None => Some (ns, inr EADDRNOTAVAIL)
        | Some false =>
            match (if generic then ns_in_use ns UDP local wildcard else Some false) with
            | Some true => Some (ns, inr EADDRINUSE)
            | None => Some (ns, inr EADDRNOTAVAIL)
            | Some false => do ns' <- ns_associate debug ns s UDP local peer; Some (ns', inl local)
            end
        end
    end.

(** udp.rs:233-287. [a]: no address given, an address that is not an inet address, or an address. *)
Definition u_bind (debug : bool) (ns : netns) (s : Z) (u : udp) (a : option (option addr)) (rng : nat -> Z)
  : option (netns * udp * ures) :=
  match a with
  | None => Some (ns, u, UErr EFAULT)
  | Some None => Some (ns, u, UErr EINVAL)
  | Some (Some a) =>
      match u_bound u with
      | Some _ => Some (ns, u, UErr EINVAL)
      | None =>
          check (match u_peer u with None => true | Some _ => false end);
          check (match u_assoc u with None => true | Some _ => false end);
          do (ns', r) <- associate_socket debug ns s a wildcard true rng;
          match r with
          | inl l => Some (ns', u_set_bound u (Some l) (Some (l, wildcard)), UOk)
          | inr e => Some (ns', u, UErr e)
          end
      end
  end.

(** udp.rs:368-384 and 725-744: may a socket bound to [bound] talk to [dst]? *)
Definition same_side (bound dst : addr) : bool :=
  is_unspecified (fst bound) || Bool.eqb (fst bound =? LOCALHOST) (fst dst =? LOCALHOST).

(** The part of sendmsg and connect that makes sure the socket is bound (udp.rs:362-410, 716-776):
    [local] is the address bound to implicitly. The result is an error, if any. *)
Definition u_ensure_bound (debug : bool) (ns : netns) (s : Z) (u : udp) (dst local : addr) (rng : nat -> Z)
  : option (netns * udp * option uerr) :=
  match u_bound u with
  | Some b =>
      check (match u_assoc u with Some _ => true | None => false end);
      Some (ns, u, if same_side b dst then None else Some EINVAL)
  | None =>
      check (match u_peer u with None => true | Some _ => false end);
      check (match u_assoc u with None => true | Some _ => false end);
      do (ns', r) <- associate_socket debug ns s local wildcard true rng;
      match r with
      | inl l => Some (ns', u_set_bound u (Some l) (Some (l, wildcard)), None)
      | inr e => Some (ns', u, Some e)
      end
  end.

(** Arguments of sendmsg: an optional address as for bind, the bytes, whether the program's memory is
    readable, and the flags ([None]: not recognised; otherwise whether MSG_DONTWAIT is set). *)
Record sargs := mkSa { sa_addr : option (option addr); sa_data : list Z; sa_mem : bool; sa_flags : option bool }.
(** udp.rs:35 *)
Definition DATAGRAM_MAX : Z := 65507.
(** udp.rs:315-470. [pri] is the host's priority counter (host.rs:698-703). Also returned: the address
    whose interface is told that the socket has packets (450-459). *)
Definition u_sendmsg (debug : bool) (ns : netns) (pri : Z) (s : Z) (u : udp) (x : sargs) (rng : nat -> Z)
  : option (netns * Z * udp * ures * list unote * option Z) :=
  if u_shw u then Some (ns, pri, u, UErr EPIPE, [], None)
  else
    match sa_flags x with
    | None => Some (ns, pri, u, UErr EINVAL, [], None)
    | Some dontwait =>
        match (match sa_addr x with
               | Some (Some a) => inl a
               | Some None => inr EAFNOSUPPORT
               | None => match u_peer u with Some a => inl a | None => inr EDESTADDRREQ end
               end) with
        | inr e => Some (ns, pri, u, UErr e, [], None)
        | inl dst =>
            if DATAGRAM_MAX <? blen (sa_data x) then Some (ns, pri, u, UErr EMSGSIZE, [], None)
            else
              do (ns1, u1, err) <- u_ensure_bound debug ns s u dst (0, 0) rng;
              match err with
              | Some e => Some (ns1, pri, u1, UErr e, [], None)
              | None =>
                  if negb (mb_has_space (u_send u1)) then
                    let (u2, n) := u_refresh u1 false in
                    Some (ns1, pri, u2, if dontwait || u_nb u then UErr EWOULDBLOCK else UWaitWritable, n, None)
                  else if negb (sa_mem x) && negb (blen (sa_data x) =? 0) then
                    let (u2, n) := u_refresh u1 false in Some (ns1, pri, u2, UErr EFAULT, n, None)
                  else
                    check (pri + 1 <=? U64_MAX);
                    do b <- u_bound u1;
                    let src := if is_unspecified (fst b)
                               then (if fst dst =? LOCALHOST then LOCALHOST else ns_ip ns1, snd b) else b in
                    do q <- mb_push (u_send u1) (sa_data x) (mkSh src dst pri);
                    let (u2, n) := u_refresh (u_set_send u1 q) false in
                    Some (ns1, pri + 1, u2, UNum (blen (sa_data x)), n, Some (fst b))
              end
        end
    end.

(** Arguments of recvmsg: room, whether the program's memory is writable, and the flags ([None]: not
    recognised; otherwise MSG_DONTWAIT, MSG_PEEK, MSG_TRUNC). *)
Record rargs := mkRa { ra_len : Z; ra_mem : bool; ra_flags : option (bool * bool * bool) }.
Definition take (n : Z) (l : list Z) : list Z := firstn (Z.to_nat n) l.
(** udp.rs:472-560 *)
Definition u_recvmsg (u : udp) (x : rargs) : option (udp * ures * list unote) :=
  match ra_flags x with
  | None => Some (u, UErr EINVAL, [])
  | Some (dontwait, peek, trunc) =>
      do (m, b) <- (if peek then Some (mb_peek (u_recv u), u_recv u) else mb_pop (u_recv u));
      let u1 := u_set_recv u b in
      match m with
      | None =>
          let (u2, n) := u_refresh u1 false in
          Some (u2, if dontwait || u_nb u then UErr EWOULDBLOCK else if u_shr u then UEof else UWaitReadable, n)
      | Some (d, h) =>
          let got := take (Z.min (ra_len x) (blen d)) d in
          if negb (ra_mem x) && negb (blen got =? 0) then let (u2, n) := u_refresh u1 false in Some (u2, UErr EFAULT, n)
          else
            let (u2, n) := u_refresh (u_set_last u1 (Some (rh_time h))) false in
            Some (u2, UMsg (if trunc then blen d else blen got) got (rh_src h) (blen got <? blen d), n)
      end
  end.

(** udp.rs:681-782. [a]: not an inet address, or an address; [known]: the addresses in the simulation. *)
Definition u_connect (debug : bool) (known : Z -> bool) (ns : netns) (s : Z) (u : udp) (a : option addr) (rng : nat -> Z)
  : option (netns * udp * ures) :=
  match a with
  | None => Some (ns, u, UErr EINVAL)
  | Some a =>
      let peer := if is_unspecified (fst a) then (LOCALHOST, snd a) else a in
      if negb (fst peer =? LOCALHOST) && negb (known (ns_ip ns) && known (fst peer)) then Some (ns, u, UErr ECONNREFUSED)
      else
        do (ns1, u1, err) <- u_ensure_bound debug ns s u peer (if fst peer =? LOCALHOST then LOCALHOST else ns_ip ns, 0) rng;
        match err with
        | Some e => Some (ns1, u1, UErr e)
        | None => Some (ns1, u_set_peer u1 (Some peer), UOk)
        end
  end.
(** udp.rs:793-814 *)
Definition u_shutdown (u : udp) (rd wr : bool) : udp * ures :=
  match u_peer u with
  | None => (u, UErr ENOTCONN)
  | Some _ => (u_set_shut u (u_shr u || rd) (u_shw u || wr), UOk)
  end.
(** udp.rs:914-943 and 944-973: a c_int, doubled and clamped; neither refreshes the state *)
Definition clamp (low v : Z) : Z := Z.min (Z.max (v * 2) low) 268435456.
Definition u_sndbuf (u : udp) (v : Z) : udp * ures :=
  if v <? 0 then (u, UErr EINVAL) else (u_set_send u (mb_set_limit (u_send u) (clamp 4096 v)), UOk).
Definition u_rcvbuf (u : udp) (v : Z) : udp * ures :=
  if v <? 0 then (u, UErr EINVAL) else (u_set_recv u (mb_set_limit (u_recv u) (clamp 2048 v)), UOk).

(* ------------------------------------------------------------------ the host *)
(** The host's UDP sockets, its namespace, the interfaces' queues of sockets with packets, whether
    each interface's relay has a forwarding task pending, and the priority counter. *)
Record host := mkH {
  h_ns : netns; h_socks : @fmap Z udp; h_qlo : netq; h_qin : netq; h_due_lo : bool; h_due_in : bool; h_pri : Z; h_next : Z }.
Definition h_new (k : kind) (ip : Z) : host := mkH (ns_new ip) [] (nq_new k) (nq_new k) false false 0 0.
Definition h_set_ns (h : host) (ns : netns) : host :=
  mkH ns (h_socks h) (h_qlo h) (h_qin h) (h_due_lo h) (h_due_in h) (h_pri h) (h_next h).
Definition h_put (h : host) (s : Z) (u : udp) : host :=
  mkH (h_ns h) (put s u (h_socks h)) (h_qlo h) (h_qin h) (h_due_lo h) (h_due_in h) (h_pri h) (h_next h).
Definition h_set_pri (h : host) (p : Z) : host :=
  mkH (h_ns h) (h_socks h) (h_qlo h) (h_qin h) (h_due_lo h) (h_due_in h) p (h_next h).
Definition h_q (h : host) (w : which) : netq := match w with Lo => h_qlo h | Inet => h_qin h end.
Definition h_set_q (h : host) (w : which) (q : netq) : host :=
  match w with
  | Lo => mkH (h_ns h) (h_socks h) q (h_qin h) (h_due_lo h) (h_due_in h) (h_pri h) (h_next h)
  | Inet => mkH (h_ns h) (h_socks h) (h_qlo h) q (h_due_lo h) (h_due_in h) (h_pri h) (h_next h)
  end.
Definition h_due (h : host) (w : which) : bool := match w with Lo => h_due_lo h | Inet => h_due_in h end.
Definition h_set_due (h : host) (w : which) (d : bool) : host :=
  match w with
  | Lo => mkH (h_ns h) (h_socks h) (h_qlo h) (h_qin h) d (h_due_in h) (h_pri h) (h_next h)
  | Inet => mkH (h_ns h) (h_socks h) (h_qlo h) (h_qin h) (h_due_lo h) d (h_pri h) (h_next h)
  end.

(** What can be seen besides results: listeners of a socket are told its state, and a packet goes out
    to the simulated network. *)
Inductive uevent := ENote (s : Z) (b : bits) (grew : bool) | EWire (p : upkt).
Definition notes (s : Z) (l : list unote) : list uevent := map (fun n => ENote s (fst n) (snd n)) l.

(** interface.rs:168-182 *)
Definition h_add_source (h : host) (w : which) (s : Z) (u : udp) : option host :=
  check (u_has_data u);
  if negb (nq_contains (h_q h w) s) then do q <- nq_push (h_q h w) s (u_peek_priority u); Some (h_set_q h w q) else Some h.
(** host.rs:954-968 [notify_socket_has_packets]: the socket joins the queue of the interface of [ip];
    the relay notified is that of the loopback interface for 127.0.0.1 and otherwise the other. *)
Definition h_notify (h : host) (ip s : Z) : option host :=
  match ns_interface (h_ns h) ip with
  | None => Some h
  | Some w =>
      do u <- get s (h_socks h);
      do h1 <- h_add_source h w s u;
      Some (h_set_due h1 (if ip =? LOCALHOST then Lo else Inet) true)
  end.

(** interface.rs:228-263 [pop]: take a packet from the next socket in the queue; [fuel] bounds the
    iterations (as in [if_pop]). *)
Fixpoint h_pop_loop (fuel : nat) (h : host) (w : which) : option (host * option upkt * list uevent) :=
  match fuel with
  | O => None
  | S fuel =>
      do (q, r) <- nq_pop (h_q h w);
      let h1 := h_set_q h w q in
      match r with
      | None => Some (h1, None, [])
      | Some s =>
          do u <- get s (h_socks h);
          do (u1, p, n) <- u_pull_out u;
          let h2 := h_put h1 s u1 in
          match p with
          | None => h_pop_loop fuel h2 w
          | Some p =>
              do h3 <- (if u_has_data u1 then h_add_source h2 w s u1 else Some h2);
              Some (h3, Some p, notes s n)
          end
      end
  end.
Definition h_pop (h : host) (w : which) : option (host * option upkt * list uevent) :=
  h_pop_loop (S (Z.to_nat (nq_len (h_q h w)))) h w.

(** interface.rs:266-313 [push]: the associated socket takes the packet. *)
Definition h_receive (h : host) (w : which) (p : upkt) (now : Z) : option (host * list uevent) :=
  match if_target (ns_get (h_ns h) w) UDP (snd (up_dst p)) (up_src p) with
  | None => Some (h, [])
  | Some s =>
      do u <- get s (h_socks h);
      do (u1, n) <- u_push_in u p now;
      Some (h_put h s u1, notes s n)
  end.
(** worker.rs:324-384 [send_packet], up to handing the packet to the destination's event queue:
    unknown destinations are dropped; the source must be known (348-349). Random loss and latency are
    the network's, outside the host. [get_node] and [addr_to_host_id] know the same addresses, those
    of the hosts. *)
Definition send_packet (known : Z -> bool) (p : upkt) : option (list uevent) :=
  if known (fst (up_dst p)) then check (known (fst (up_src p))); Some [EWire p] else Some [].
(** host.rs:931-939 [get_packet_device] and the push in relay/mod.rs:249-275 *)
Definition h_route (known : Z -> bool) (h : host) (p : upkt) (now : Z) : option (host * list uevent) :=
  if fst (up_dst p) =? LOCALHOST then h_receive h Lo p now
  else if fst (up_dst p) =? ns_ip (h_ns h) then h_receive h Inet p now
  else do e <- send_packet known p; Some (h, e).

(** Operations. System calls name an open socket; descriptors of closed sockets are gone. [UForward]:
    the relay of an interface, if it has a task pending, forwards one packet, or becomes idle.
    [UArrive]: the relay behind the router forwards a packet from the simulated network. *)
Inductive uop :=
| USocket (nb : bool) (snd rcv : Z)
| UBind (s : Z) (a : option (option addr)) (rng : nat -> Z)
| UConnect (s : Z) (a : option addr) (rng : nat -> Z)
| USend (s : Z) (x : sargs) (rng : nat -> Z)
| URecv (s : Z) (x : rargs)
| UShutdown (s : Z) (rd wr : bool)
| USndBuf (s v : Z)
| URcvBuf (s v : Z)
| UNonblock (s : Z) (nb : bool)
| UName (s : Z)
| UPeer (s : Z)
| UInq (s : Z)
| UOutq (s : Z)
| UStamp (s : Z)
| UClose (s : Z)
| UForward (w : which) (now : Z)
| UArrive (p : upkt) (now : Z).

Definition h_open (h : host) (s : Z) : option udp :=
  match get s (h_socks h) with
  | Some u => if b_closed (u_st u) then None else Some u
  | None => None
  end.
(** A system call on an open socket. *)
Definition on_socket (h : host) (s : Z) (f : udp -> option (host * ures * list uevent)) : option (host * ures * list uevent) :=
  match h_open h s with
  | None => Some (h, UErr EBADF, [])
  | Some u => f u
  end.
Definition h_step (debug : bool) (known : Z -> bool) (h : host) (o : uop) : option (host * ures * list uevent) :=
  match o with
  | USocket nb snd rcv =>
      Some (mkH (h_ns h) (put (h_next h) (u_new nb snd rcv) (h_socks h)) (h_qlo h) (h_qin h) (h_due_lo h) (h_due_in h) (h_pri h) (h_next h + 1),
            UNum (h_next h), [])
  | UBind s a rng => on_socket h s (fun u =>
      do (ns, u1, r) <- u_bind debug (h_ns h) s u a rng; Some (h_put (h_set_ns h ns) s u1, r, []))
  | UConnect s a rng => on_socket h s (fun u =>
      do (ns, u1, r) <- u_connect debug known (h_ns h) s u a rng; Some (h_put (h_set_ns h ns) s u1, r, []))
  | USend s x rng => on_socket h s (fun u =>
      do (ns, pri, u1, r, n, ip) <- u_sendmsg debug (h_ns h) (h_pri h) s u x rng;
      let h1 := h_put (h_set_pri (h_set_ns h ns) pri) s u1 in
      do h2 <- match ip with Some ip => h_notify h1 ip s | None => Some h1 end;
      Some (h2, r, notes s n))
  | URecv s x => on_socket h s (fun u => do (u1, r, n) <- u_recvmsg u x; Some (h_put h s u1, r, notes s n))
  | UShutdown s rd wr => on_socket h s (fun u => let (u1, r) := u_shutdown u rd wr in Some (h_put h s u1, r, []))
  | USndBuf s v => on_socket h s (fun u => let (u1, r) := u_sndbuf u v in Some (h_put h s u1, r, []))
  | URcvBuf s v => on_socket h s (fun u => let (u1, r) := u_rcvbuf u v in Some (h_put h s u1, r, []))
  | UNonblock s nb => on_socket h s (fun u => Some (h_put h s (u_set_nb u nb), UOk, []))
  | UName s => on_socket h s (fun u => Some (h, UAddr (u_getsockname u), []))
  (* udp.rs:212-214 *)
  | UPeer s => on_socket h s (fun u => Some (h, match u_peer u with Some a => UAddr a | None => UErr ENOTCONN end, []))
  (* udp.rs:569-581 FIONREAD *)
  | UInq s => on_socket h s (fun u => Some (h, UNum (match mb_peek (u_recv u) with Some m => blen (fst m) | None => 0 end), []))
  (* udp.rs:583-590 TIOCOUTQ *)
  | UOutq s => on_socket h s (fun u => Some (h, UNum (mb_len (u_send u)), []))
  (* udp.rs:591-611 SIOCGSTAMP, as an emulated time *)
  | UStamp s => on_socket h s (fun u => Some (h, match u_last u with Some t => UNum t | None => UErr ENOENT end, []))
  | UClose s => on_socket h s (fun u =>
      let ns := match u_assoc u with Some (l, r) => ns_disassociate (h_ns h) UDP l r | None => h_ns h end in
      let (u1, n) := u_close u in
      Some (h_put (h_set_ns h ns) s u1, UOk, notes s n))
  | UForward w now =>
      if h_due h w then
        do (h1, p, e) <- h_pop h w;
        match p with
        | None => Some (h_set_due h1 w false, UOk, e)
        | Some p => do (h2, e2) <- h_route known h1 p now; Some (h2, UOk, e ++ e2)
        end
      else Some (h, UOk, [])
  | UArrive p now => do (h1, e) <- h_route known h p now; Some (h1, UOk, e)
  end.
Fixpoint h_run (debug : bool) (known : Z -> bool) (h : host) (ops : list uop) : option (host * list (ures * list uevent)) :=
  match ops with
  | [] => Some (h, [])
  | o :: r => do (h1, a, e) <- h_step debug known h o; do (h2, l) <- h_run debug known h1 r; Some (h2, (a, e) :: l)
  end.
