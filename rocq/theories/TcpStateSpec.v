(** One TCP socket: calls, packets and timers in any order. *)
From Verif Require Import Base SeqModel SeqSpec TcpBufModel TcpBufSpec TcpConnModel TcpConnSpec TcpSoloSpec TcpStateModel.

(** Where a socket is in its life; [PConn] are the states of RFC 793. *)
Inductive phase : Type := PInit | PConn (k : kind) | PRst | PClosed.
Definition phase_of (t : tcp) : phase :=
  match t_sock t with Init _ => PInit | Conn k _ => PConn k | Rst _ _ => PRst | Closed _ _ => PClosed end.
Definition open_now (t : tcp) : bool := match t_sock t with Conn _ _ => true | _ => false end.

(** The socket, the time, when it entered its phase, the addresses (local, remote) it is connected with, what
    the application wrote and read, whether it ended its side of an open connection, the number of
    bytes accepted from packets, the packets that arrived for the connection, each with the state it
    found, and the packets that left. *)
Record sess : Type := { s_tcp : tcp; s_now : Z; s_since : Z; s_addr : option (Z * Z); s_wrote : list Z; s_shut : bool; s_got : list Z; s_taken : Z;
                        s_in : list (kind * (header * payload)); s_out : list (header * payload) }.
Inductive ev : Type :=
| VClose | VShutdown (h : how) | VConnect (remote : Z) (assoc : option Z) | VSend (data : list Z) | VRecv (n : Z)
| VPush (h : header) (p : payload) | VPop | VClear | VFire (i : nat) | VWait (d : Z).

Definition pkts (s : sess) : list (header * payload) := map snd (s_in s).
(** A packet for the connection that the socket has. *)
Definition concerns (s : sess) (h : header) : bool :=
  match s_addr s with Some (l, r) => (h_src h =? r) && (h_dst h =? l) | None => false end.
Definition arrived (s : sess) (h : header) (p : payload) : list (kind * (header * payload)) :=
  match phase_of (s_tcp s) with
  | PConn k => if concerns s h then [(k, (h, p))] else []
  | _ => []
  end.
Definition same_phase (t t' : tcp) : bool :=
  match phase_of t, phase_of t' with
  | PInit, PInit | PRst, PRst | PClosed, PClosed => true
  | PConn k, PConn k' => is_kind k k'
  | _, _ => false
  end.
(** The new state of the socket. *)
Definition put_tcp (s : sess) (t : tcp) : sess :=
  {| s_tcp := t; s_now := s_now s; s_since := if same_phase (s_tcp s) t then s_since s else s_now s; s_addr := s_addr s; s_wrote := s_wrote s; s_shut := s_shut s; s_got := s_got s; s_taken := s_taken s; s_in := s_in s; s_out := s_out s |}.
Definition put_shut (s : sess) (b : bool) : sess :=
  {| s_tcp := s_tcp s; s_now := s_now s; s_since := s_since s; s_addr := s_addr s; s_wrote := s_wrote s; s_shut := s_shut s || b; s_got := s_got s; s_taken := s_taken s; s_in := s_in s; s_out := s_out s |}.
(** The effect of an event; [None]: a panic. *)
Definition vact (s : sess) (e : ev) : option sess :=
  match e with
  | VClose => do t <- t_close (s_now s) (s_tcp s); Some (put_shut (put_tcp s t) (open_now t))
  | VShutdown h => do r <- t_shutdown (s_now s) (s_tcp s) h; Some (put_shut (put_tcp s (fst r)) (shuts_write h && open_now (fst r)))
  | VConnect remote assoc =>
      do r <- t_connect (s_now s) (s_tcp s) remote assoc;
      let s1 := put_tcp s (fst r) in
      Some {| s_tcp := s_tcp s1; s_now := s_now s1; s_since := s_since s1; s_addr := match snd r, assoc with Ok _, Some l => Some (l, remote) | _, _ => s_addr s1 end;
              s_wrote := s_wrote s1; s_shut := s_shut s1; s_got := s_got s1; s_taken := s_taken s1; s_in := s_in s1; s_out := s_out s1 |}
  | VSend data =>
      do r <- t_send (s_tcp s) data (zlen data);
      let s1 := put_tcp s (fst r) in
      Some {| s_tcp := s_tcp s1; s_now := s_now s1; s_since := s_since s1; s_addr := s_addr s1; s_wrote := s_wrote s1 ++ match snd r with Ok n => zfirst n data | Err _ => [] end;
              s_shut := s_shut s1; s_got := s_got s1; s_taken := s_taken s1; s_in := s_in s1; s_out := s_out s1 |}
  | VRecv n =>
      do r <- t_recv (s_tcp s) None n;
      let s1 := put_tcp s (fst (fst r)) in
      Some {| s_tcp := s_tcp s1; s_now := s_now s1; s_since := s_since s1; s_addr := s_addr s1; s_wrote := s_wrote s1; s_shut := s_shut s1; s_got := s_got s1 ++ snd r;
              s_taken := s_taken s1; s_in := s_in s1; s_out := s_out s1 |}
  | VPush h p =>
      do r <- t_push (s_now s) (s_tcp s) h p;
      let s1 := put_tcp s (fst r) in
      Some {| s_tcp := s_tcp s1; s_now := s_now s1; s_since := s_since s1; s_addr := s_addr s1; s_wrote := s_wrote s1; s_shut := s_shut s1; s_got := s_got s1;
              s_taken := s_taken s1 + match snd r with Ok n => n | Err _ => 0 end; s_in := s_in s1 ++ arrived s h p; s_out := s_out s1 |}
  | VPop =>
      do r <- t_pop (s_tcp s);
      let s1 := put_tcp s (fst r) in
      Some {| s_tcp := s_tcp s1; s_now := s_now s1; s_since := s_since s1; s_addr := s_addr s1; s_wrote := s_wrote s1; s_shut := s_shut s1; s_got := s_got s1; s_taken := s_taken s1;
              s_in := s_in s1; s_out := s_out s1 ++ match snd r with Ok hp => [hp] | Err _ => [] end |}
  | VClear => Some (put_tcp s (fst (t_clear_error (s_tcp s))))
  | VFire i => do t <- t_fire (s_tcp s) i; Some (put_tcp s t)
  | VWait d => Some {| s_tcp := s_tcp s; s_now := s_now s + d; s_since := s_since s; s_addr := s_addr s; s_wrote := s_wrote s; s_shut := s_shut s; s_got := s_got s; s_taken := s_taken s; s_in := s_in s; s_out := s_out s |}
  end.
(** What can happen: packets fit the wire format, a timer runs once it is due, and if timers are
    [punctual], the clock does not move past one that is still pending. *)
Definition allows (punctual : bool) (s : sess) (e : ev) : Prop :=
  match e with
  | VRecv n => 0 <= n <= U32_MAX
  | VPush h p => wire h p
  | VFire i => forall k d, nth_error (t_timers (s_tcp s)) i = Some (k, d) -> d <= s_now s
  | VWait d => 0 <= d /\ (punctual = true -> forall k x, In (k, x) (t_timers (s_tcp s)) -> s_now s + d <= x)
  | _ => True
  end.
(** A socket begins unconnected, or as the child of a listening socket that got a SYN. *)
Definition begun (sc : bool) (now : Z) : sess :=
  {| s_tcp := t_new sc; s_now := now; s_since := now; s_addr := None; s_wrote := []; s_shut := false; s_got := []; s_taken := 0; s_in := []; s_out := [] |}.
Definition born (now : Z) (h : header) (p : payload) (t : tcp) (n : Z) : sess :=
  {| s_tcp := t; s_now := now; s_since := now; s_addr := Some (h_dst h, h_src h); s_wrote := []; s_shut := false; s_got := []; s_taken := n; s_in := [(SynReceived, (h, p))]; s_out := [] |}.
(** The payload bytes of a SYN that a new connection accepts. *)
Definition syn_taken (sc : bool) (h : header) (p : payload) : Z :=
  match conn_new (h_dst h) (h_src h) 0 sc with
  | Some c => match push_packet c h p with Some (_, n) => n | None => 0 end
  | None => 0
  end.
Inductive life (punctual sc : bool) : sess -> Prop :=
| LStart now : life punctual sc (begun sc now)
| LChild now h p t : wire h p -> child_new now sc h p = Some t -> life punctual sc (born now h p t (syn_taken sc h p))
| LStep s e s' : life punctual sc s -> allows punctual s e -> vact s e = Some s' -> life punctual sc s'.

(** ** The state diagram: RFC 793, figure 6, without [LISTEN]; aborts, resets and timeouts. *)
Definition ends (e : ev) : bool := match e with VClose => true | VShutdown h => shuts_write h | _ => false end.
Definition plain (e : ev) : bool := match e with VPush h _ => negb (h_rst h) | _ => false end.
Definition packet (e : ev) : bool := match e with VPush _ _ => true | _ => false end.
Inductive edge : phase -> ev -> phase -> Prop :=
| G_open r l : edge PInit (VConnect r (Some l)) (PConn SynSent)
| G_unused : edge PInit VClose PClosed
(* the handshake *)
| G_syn_ack h p : h_syn h = true -> h_rst h = false -> h_ack h = true -> h_acknum h = 1 -> edge (PConn SynSent) (VPush h p) (PConn Established)
| G_syn h p : h_syn h = true -> h_rst h = false -> edge (PConn SynSent) (VPush h p) (PConn SynReceived)
| G_ack e : packet e = true -> edge (PConn SynReceived) e (PConn Established)
(* the application ends its side *)
| G_give_up e : ends e = true -> edge (PConn SynSent) e PClosed
| G_fin_early e : ends e = true -> edge (PConn SynReceived) e (PConn FinWaitOne)
| G_fin e : ends e = true -> edge (PConn Established) e (PConn FinWaitOne)
| G_last e : ends e = true -> edge (PConn CloseWait) e (PConn LastAck)
(* the other side ends *)
| G_passive e : packet e = true -> edge (PConn Established) e (PConn CloseWait)
| G_fin_acked e : plain e = true -> edge (PConn FinWaitOne) e (PConn FinWaitTwo)
| G_both e : packet e = true -> edge (PConn FinWaitOne) e (PConn Closing)
| G_both_acked e : plain e = true -> edge (PConn FinWaitOne) e (PConn TimeWait)
| G_second e : plain e = true -> edge (PConn FinWaitTwo) e (PConn TimeWait)
| G_closing e : plain e = true -> edge (PConn Closing) e (PConn TimeWait)
| G_done e : plain e = true -> edge (PConn LastAck) e PClosed
(* a RST arrived *)
| G_reset k h p : h_rst h = true -> edge (PConn k) (VPush h p) PClosed
(* this side resets: the packet must not be answered otherwise, or unread data is thrown away *)
| G_refuse k e : plain e = true -> edge (PConn k) e PRst
| G_unread k : k <> SynSent -> k <> TimeWait -> edge (PConn k) VClose PRst
| G_rst_sent : edge PRst VPop PClosed
(* timeouts *)
| G_no_answer i : edge (PConn SynSent) (VFire i) PClosed
| G_no_ack i : edge (PConn SynReceived) (VFire i) PRst
| G_waited i : edge (PConn TimeWait) (VFire i) PClosed.

(** ** What has happened to a connection whose initial sequence number is 0 *)
(** A SYN has arrived; the SYN of this side was acknowledged; so was its FIN; the FIN of the other
    side arrived right after all accepted bytes. *)
Definition syn_heard (s : sess) : Prop := opening (pkts s) <> None.
Definition syn_acked (s : sess) : Prop := exists h p n, In (h, p) (pkts s) /\ h_ack h = true /\ h_acknum h = n mod 4294967296 /\ 1 <= n <= 1 + zlen (s_wrote s) + b2z (s_shut s).
Definition fin_acked (s : sess) : Prop := s_shut s = true /\ exists h p, In (h, p) (pkts s) /\ h_ack h = true /\ h_acknum h = (zlen (s_wrote s) + 2) mod 4294967296.
Definition fin_heard (s : sess) : Prop := exists h0 h p j, opening (pkts s) = Some h0 /\ In (h, p) (pkts s) /\ nth_error (pkt_syms h p) j = Some SFin /\
  (h_seq h + Z.of_nat j) mod 4294967296 = (h_seq h0 + 1 + s_taken s) mod 4294967296.
(** While the connection is being made. *)
Definition early (k : kind) : bool := match k with SynSent | SynReceived => true | _ => false end.
(** A packet with a FIN arrived while the connection was being made. *)
Definition fin_early (s : sess) : Prop := exists k h p, In (k, (h, p)) (s_in s) /\ early k = true /\ h_fin h = true.
(** What each state of RFC 793 promises. *)
Definition means (s : sess) (k : kind) : Prop :=
  match k with
  | SynSent => pkts s = []
  | SynReceived | FinWaitOne | Closing => syn_heard s
  | Established | CloseWait | LastAck => syn_heard s /\ syn_acked s
  | FinWaitTwo | TimeWait => syn_heard s /\ syn_acked s /\ fin_acked s
  end /\
  s_shut s = match k with SynSent | SynReceived | Established | CloseWait => false | _ => true end /\
  match k with CloseWait | Closing | TimeWait | LastAck => fin_heard s | _ => True end.

(** ** What cannot go wrong *)
Definition syn_sent (s : sess) : Prop := exists h p, In (h, p) (s_out s) /\ h_syn h = true.
(** The local address of a connect is not the unspecified one; without an answer yet, a packet is a SYN or
    a RST; and if window scaling is enabled, this side has sent its SYN. *)
Definition sane (sc : bool) (s : sess) (e : ev) : Prop :=
  match phase_of (s_tcp s) with
  | PInit => match e with VConnect _ (Some l) => 65536 <= l | _ => True end
  | PConn SynSent => match e with VPush h _ => h_rst h = true \/ h_syn h = true /\ (sc = false \/ syn_sent s) | _ => True end
  | PConn _ => sc = false \/ syn_sent s
  | _ => True
  end.

(** ** What must go right *)
(** Where RFC 793 sends a connection that got a packet in order without data: [fin] tells that the packet
    ends the stream of the other side, [all] that it acknowledges all that this side said. *)
Definition next_phase (k : kind) (fin all : bool) : phase :=
  match k, fin, all with
  | SynReceived, _, true => PConn Established
  | Established, true, _ => PConn CloseWait
  | FinWaitOne, true, true => PConn TimeWait
  | FinWaitOne, true, false => PConn Closing
  | FinWaitOne, false, true => PConn FinWaitTwo
  | FinWaitTwo, true, _ => PConn TimeWait
  | Closing, _, true => PConn TimeWait
  | LastAck, _, true => PClosed
  | _, _, _ => PConn k
  end.
(** The other side has said all it will say. *)
Definition peer_done (k : kind) : bool := match k with CloseWait | Closing | TimeWait | LastAck => true | _ => false end.

(** ** Running a list of events *)
Definition wireb (h : header) (p : payload) : bool :=
  (0 <=? h_seq h) && (h_seq h <? 4294967296) && ((0 <=? h_acknum h) && (h_acknum h <? 4294967296)) && ((0 <=? h_win h) && (h_win h <=? 65535)) &&
  match h_scale h with Some s => (0 <=? s) && (s <=? 255) | None => true end && (zlen (concat p) <=? 65535).
Definition allowsb (punctual : bool) (s : sess) (e : ev) : bool :=
  match e with
  | VRecv n => (0 <=? n) && (n <=? U32_MAX)
  | VPush h p => wireb h p
  | VFire i => match nth_error (t_timers (s_tcp s)) i with Some (_, d) => d <=? s_now s | None => true end
  | VWait d => (0 <=? d) && (negb punctual || forallb (fun kx => s_now s + d <=? snd kx) (t_timers (s_tcp s)))
  | _ => true
  end.
Fixpoint vexec (punctual : bool) (s : sess) (l : list ev) : option sess :=
  match l with
  | [] => Some s
  | e :: l => check (allowsb punctual s e); do s' <- vact s e; vexec punctual s' l
  end.
Definition vrun (sc : bool) (l : list ev) : option sess := vexec true (begun sc 0) l.
Definition vchild (sc : bool) (h : header) (p : payload) (l : list ev) : option sess :=
  check (wireb h p); do t <- child_new 0 sc h p; vexec true (born 0 h p t (syn_taken sc h p)) l.
