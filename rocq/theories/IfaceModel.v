(** Model of src/main/host/network/interface.rs and src/main/host/network/namespace.rs: the network
    interface's send queue and socket associations, and the namespace's two interfaces.
    Sockets are identified by integers, IPv4 addresses by 32-bit integers, protocols by integers.
    Not modelled: pcap output, packet status flags, the unix-socket namespace, what a socket does
    with a packet it receives. [None] is a panic. *)
From Verif Require Import Base FMap NetqModel.

(* ------------------------------------------------------------------ sending *)
(** A packet waiting in a socket: the socket, the priority drawn from the host's counter when it was
    queued (udp.rs:427-429, host.rs:698-703), and what it carries. *)
Record packet := mkK { k_sock : Z; k_pri : Z; k_id : Z }.
(** Which kind of socket: UDP and legacy TCP report the priority of their next packet
    (udp.rs:191-193, legacy_tcp.rs:183-185); the Rust TCP socket reports 0 (tcp.rs:270-273). *)
Inductive skind := SUdp | STcp.

Section Sending.
(** The kind of each socket. *)
Variable kindof : Z -> skind.

(** Packets each socket has ready, oldest first. *)
Definition socks := @fmap Z (list packet).
Definition queue_of (m : socks) (s : Z) : list packet := match get s m with Some l => l | None => [] end.
(** udp.rs:195-197, tcp.rs:275-277, legacy_tcp.rs:187-189 *)
Definition has_data (m : socks) (s : Z) : bool := match queue_of m s with [] => false | _ => true end.
(** udp.rs:191-193, tcp.rs:270-273, legacy_tcp.rs:183-185 *)
Definition peek_priority (m : socks) (s : Z) : option Z :=
  match queue_of m s with [] => None | p :: _ => Some (match kindof s with SUdp => k_pri p | STcp => 0 end) end.
(** udp.rs:169-189: take the oldest packet *)
Definition pull_out_packet (m : socks) (s : Z) : socks * option packet :=
  match queue_of m s with [] => (m, None) | p :: r => (put s r m, Some p) end.

(** interface.rs:168-182 *)
Definition add_data_source (q : netq) (m : socks) (s : Z) : option netq :=
  check (has_data m s);
  if negb (nq_contains q s) then nq_push q s (peek_priority m s) else Some q.

(** interface.rs:228-263 [pop]: a loop over the queued sockets; [fuel] bounds its iterations. *)
Fixpoint if_pop_loop (fuel : nat) (q : netq) (m : socks) : option (netq * socks * option packet) :=
  match fuel with
  | O => None
  | S fuel =>
      do (q1, r) <- nq_pop q;
      match r with
      | None => Some (q1, m, None)
      | Some s =>
          let '(m1, o) := pull_out_packet m s in
          match o with
          | None => if_pop_loop fuel q1 m1
          | Some p =>
              do q2 <- (if has_data m1 s then add_data_source q1 m1 s else Some q1);
              Some (q2, m1, Some p)
          end
      end
  end.
Definition if_pop (q : netq) (m : socks) : option (netq * socks * option packet) :=
  if_pop_loop (S (Z.to_nat (nq_len q))) q m.

(** What happens on the sending side: a socket queues a packet and tells the interface
    (udp.rs:450-467, host.rs notify_socket_has_packets), the relay takes a packet, or a socket
    discards what it had queued. *)
Inductive iop := ISend (p : packet) | IPop | IDiscard (s : Z).
Definition istate := (netq * socks)%type.
Definition i_step (st : istate) (o : iop) : option (istate * list (option packet)) :=
  let '(q, m) := st in
  match o with
  | ISend p =>
      let m1 := put (k_sock p) (queue_of m (k_sock p) ++ [p]) m in
      do q1 <- add_data_source q m1 (k_sock p);
      Some ((q1, m1), [])
  | IPop => do (q1, m1, o) <- if_pop q m; Some ((q1, m1), [o])
  | IDiscard s => Some ((q, put s [] m), [])
  end.
Fixpoint i_run (st : istate) (ops : list iop) : option (istate * list (option packet)) :=
  match ops with
  | [] => Some (st, [])
  | o :: r => do (st1, a) <- i_step st o; do (st2, b) <- i_run st1 r; Some (st2, a ++ b)
  end.
Definition i_new (k : kind) : istate := (nq_new k, []).
End Sending.

(* ------------------------------------------------------------------ receiving *)
Definition addr := (Z * Z)%type.   (* ip, port *)
(** interface.rs:27-43 *)
Definition akey := (Z * (addr * addr))%type.
(** interface.rs:57-71: the address and the associations *)
Record iface := mkI { i_addr : Z; i_recv : @fmap akey Z }.
(** interface.rs:73-117 *)
Definition if_new (a : Z) : iface := mkI a [].
(** Ipv4Addr::UNSPECIFIED:0 *)
Definition wildcard : addr := (0, 0).

(** interface.rs:119-136; [warn_and_debug_panic!] panics in debug builds only *)
Definition if_associate (debug : bool) (i : iface) (sock proto port : Z) (peer : addr) : option iface :=
  let key : akey := (proto, ((i_addr i, port), peer)) in
  if mem key (i_recv i) then (if debug then None else Some i)
  else Some (mkI (i_addr i) (put key sock (i_recv i))).
(** interface.rs:138-159. [cleanup_in_progress] is only set while [remove_all_sockets] runs. *)
Definition if_disassociate (i : iface) (proto port : Z) (peer : addr) : iface :=
  mkI (i_addr i) (del (proto, ((i_addr i, port), peer)) (i_recv i)).
(** interface.rs:161-165 *)
Definition if_in_use (i : iface) (proto port : Z) (peer : addr) : bool := mem (proto, ((i_addr i, port), peer)) (i_recv i).
(** interface.rs:189-195 *)
Definition if_remove_all (i : iface) : iface := mkI (i_addr i) [].
(** interface.rs:266-313 [push]: the socket that receives the packet, [None] when it is dropped. *)
Definition if_target (i : iface) (proto dst_port : Z) (src : addr) : option Z :=
  match get (proto, ((i_addr i, dst_port), src)) (i_recv i) with
  | Some s => Some s
  | None => get (proto, ((i_addr i, dst_port), wildcard)) (i_recv i)
  end.

(** namespace.rs:25-37 *)
Record netns := mkNs { ns_lo : iface; ns_inet : iface; ns_ip : Z }.
(** Ipv4Addr::LOCALHOST *)
Definition LOCALHOST : Z := 2130706433.
(** Ipv4Addr::is_loopback: 127.0.0.0/8 *)
Definition is_loopback (ip : Z) : bool := ip / 16777216 =? 127.
Definition is_unspecified (ip : Z) : bool := ip =? 0.
(** namespace.rs:40-53 *)
Definition ns_new (ip : Z) : netns := mkNs (if_new LOCALHOST) (if_new ip) ip.
Inductive which := Lo | Inet.
Definition ns_get (ns : netns) (w : which) : iface := match w with Lo => ns_lo ns | Inet => ns_inet ns end.
Definition ns_set (ns : netns) (w : which) (i : iface) : netns :=
  match w with Lo => mkNs i (ns_inet ns) (ns_ip ns) | Inet => mkNs (ns_lo ns) i (ns_ip ns) end.
(** namespace.rs:71-92 *)
Definition ns_interface (ns : netns) (ip : Z) : option which :=
  if is_loopback ip then Some Lo
  else if (ip =? ns_ip ns) || is_unspecified ip then Some Inet
  else None.
(** namespace.rs:119-143; [None] is Err(NoInterface) *)
Definition ns_in_use (ns : netns) (proto : Z) (src dst : addr) : option bool :=
  if is_unspecified (fst src) then
    Some (if_in_use (ns_lo ns) proto (snd src) dst || if_in_use (ns_inet ns) proto (snd src) dst)
  else match ns_interface ns (fst src) with
       | Some w => Some (if_in_use (ns_get ns w) proto (snd src) dst)
       | None => None
       end.
Definition or_true (o : option bool) : bool := match o with Some b => b | None => true end.
(** namespace.rs:164-178 and 186-198 *)
Definition port_taken (ns : netns) (proto ip : Z) (peer : addr) (port : Z) : bool :=
  or_true (ns_in_use ns proto (ip, port) peer) || or_true (ns_in_use ns proto (ip, port) wildcard).
(** namespace.rs:16 *)
Definition MIN_RANDOM_PORT : Z := 10000.
(** The integers a, a+1, ..., a+n-1. *)
Fixpoint count_up (n : nat) (a : Z) : list Z := match n with O => [] | S n => a :: count_up n (a + 1) end.
Definition zrange (a : Z) (n : Z) : list Z := count_up (Z.to_nat n) a.
(** namespace.rs:146-204. [rng k] is the k-th draw of random_range(10000..=65535). *)
Definition get_random_free_port (ns : netns) (proto ip : Z) (peer : addr) (rng : nat -> Z) : option Z :=
  match find (fun p => negb (port_taken ns proto ip peer p)) (map rng (seq 0 10)) with
  | Some p => Some p
  | None =>
      let start := rng 10%nat in
      find (fun p => negb (port_taken ns proto ip peer p))
        (zrange start (U16_MAX - start + 1) ++ zrange MIN_RANDOM_PORT (start - MIN_RANDOM_PORT))
  end.

(** namespace.rs:212-241 *)
Definition ns_associate (debug : bool) (ns : netns) (sock proto : Z) (bind peer : addr) : option netns :=
  if is_unspecified (fst bind) then
    do lo <- if_associate debug (ns_lo ns) sock proto (snd bind) peer;
    do inet <- if_associate debug (ns_inet ns) sock proto (snd bind) peer;
    Some (mkNs lo inet (ns_ip ns))
  else match ns_interface ns (fst bind) with
       | Some w => do i <- if_associate debug (ns_get ns w) sock proto (snd bind) peer; Some (ns_set ns w i)
       | None => Some ns
       end.
(** namespace.rs:248-270, and dropping an AssociationHandle (namespace.rs:309-321) *)
Definition ns_disassociate (ns : netns) (proto : Z) (bind peer : addr) : netns :=
  if is_unspecified (fst bind) then
    mkNs (if_disassociate (ns_lo ns) proto (snd bind) peer) (if_disassociate (ns_inet ns) proto (snd bind) peer) (ns_ip ns)
  else match ns_interface ns (fst bind) with
       | Some w => ns_set ns w (if_disassociate (ns_get ns w) proto (snd bind) peer)
       | None => ns
       end.
(** namespace.rs:57-67 *)
Definition ns_cleanup (ns : netns) : netns := mkNs (if_remove_all (ns_lo ns)) (if_remove_all (ns_inet ns)) (ns_ip ns).

Inductive nsop := NsAssoc (sock proto : Z) (bind peer : addr) | NsDis (proto : Z) (bind peer : addr) | NsCleanup.
Definition ns_step (debug : bool) (ns : netns) (o : nsop) : option netns :=
  match o with
  | NsAssoc s p b r => ns_associate debug ns s p b r
  | NsDis p b r => Some (ns_disassociate ns p b r)
  | NsCleanup => Some (ns_cleanup ns)
  end.
Fixpoint ns_run (debug : bool) (ns : netns) (ops : list nsop) : option netns :=
  match ops with
  | [] => Some ns
  | o :: r => do ns1 <- ns_step debug ns o; ns_run debug ns1 r
  end.
