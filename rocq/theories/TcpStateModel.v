(** TCP sockets: the states around a connection. /repo/src/lib/tcp/src/states.rs, lib.rs

    An address with its port is the number [ip * 65536 + port]. The instants of the [Dependencies] are
    numbers (nanoseconds); a timer that was registered and has not run yet is kept with the state that
    registered it. The results of the callbacks that associate a socket with an interface are arguments
    ([None]: the callback failed). Debug assertions count as assertions. *)
From Verif Require Import Base FMap SeqModel TcpBufModel TcpConnModel.

(** lib.rs:380-396 [TcpStateEnum]: the states with a connection *)
Inductive kind : Type := SynSent | SynReceived | Established | FinWaitOne | FinWaitTwo | Closing | TimeWait | CloseWait | LastAck.
(** lib.rs:514-524 [TcpError] *)
Inductive tcp_error : Type := ResetSent | ResetReceived | ClosedWhileConnecting | TimedOut.
(** states.rs:21-127: all states but [ListenState]; [InitState] has its configuration (window
    scaling), [RstState] the packets to send, [ClosedState] the data not read yet; both know whether
    the socket was connected. *)
Inductive sock : Type :=
| Init (scaled : bool)
| Conn (k : kind) (c : conn)
| Rst (pkts : list header) (was : bool)
| Closed (q : recvq) (was : bool).
(** states.rs:136-143 [Common]: the pending error; and the pending timers *)
Record tcp : Type := { t_sock : sock; t_err : option tcp_error; t_timers : list (kind * Z) }.
Definition set_sock (t : tcp) (s : sock) : tcp := {| t_sock := s; t_err := t_err t; t_timers := t_timers t |}.
Definition set_err (t : tcp) (e : option tcp_error) : tcp := {| t_sock := t_sock t; t_err := e; t_timers := t_timers t |}.

(** lib.rs:525-597, the errors of the calls *)
Inductive err : Type := EInvalidState | ENotConnected | EInProgress | EAlreadyConnected | EIsListening | EFailedAssociation | EFull | EEmpty | EStreamClosed | EIo | ENothingToAccept | ENoPacket.
Inductive res (A : Type) : Type := Ok (a : A) | Err (e : err).
Arguments Ok {A} a.
Arguments Err {A} e.
(** lib.rs:507-512 [Shutdown] *)
Inductive how : Type := ShutRead | ShutWrite | ShutBoth.
Definition shuts_read (h : how) : bool := match h with ShutWrite => false | _ => true end.
Definition shuts_write (h : how) : bool := match h with ShutRead => false | _ => true end.

(** states.rs:209-218 [set_error_if_unset] *)
Definition err_if_unset (t : tcp) (e : tcp_error) : tcp := set_err t (match t_err t with None => Some e | x => x end).
(** states.rs:2187-2200 [ClosedState::new] *)
Definition closed_new (t : tcp) (q : option recvq) (was : bool) : option tcp :=
  let q := match q with Some q => q | None => rq_new 0 end in
  check (was || rq_is_empty q);
  Some (set_sock t (Closed q was)).
(** connection.rs:64-70 [into_recv_buffer] *)
Definition into_recv_buffer (c : conn) : option recvq := match c_recv c with Some (q, _) => Some q | None => None end.
(** The [new] of the states with a connection: states.rs:740-758, 899-917 and 1615-1635 register a
    timer of 60 seconds, the others none. *)
Definition TIMEOUT : Z := 60000000000.
Definition has_timer (k : kind) : bool := match k with SynSent | SynReceived | TimeWait => true | _ => false end.
Definition enter (t : tcp) (now : Z) (k : kind) (c : conn) : tcp :=
  {| t_sock := Conn k c; t_err := t_err t; t_timers := t_timers t ++ (if has_timer k then [(k, now + TIMEOUT)] else []) |}.
(** states.rs:2057-2068 [RstState::new] *)
Definition rst_new (t : tcp) (pkts : list header) (was : bool) : option tcp :=
  check (forallb h_rst pkts);
  check (negb (match pkts with [] => true | _ => false end));
  Some (set_sock t (Rst pkts was)).
(** states.rs:2316-2343 [connection_was_reset] *)
Definition was_reset (t : tcp) (c : conn) : option tcp :=
  check (c_reset c);
  do r <- pop_packet c;
  match r with
  | (c, Some (h, p)) =>
      check (pay_empty p);
      do r <- pop_packet c;
      check (is_none (snd r));
      rst_new (err_if_unset t ResetSent) [h] true
  | (_, None) => closed_new t None true
  end.
(** states.rs:2299-2314 [reset_connection] *)
Definition is_rst (s : sock) : bool := match s with Rst _ _ => true | _ => false end.
Definition reset_connection (t : tcp) (c : conn) : option tcp :=
  do t <- was_reset t (send_rst c);
  check (is_rst (t_sock t));
  Some t.

(** ** The calls of the states (all but [ListenState]) *)
(** [close]: states.rs:263-266, 762-772, 921-939, 1058-1073, 1205-1218, 1348-1361, 1479-1492,
    1639-1649, 1771-1786, 1921-1934, 2071-2074, 2203-2206 *)
Definition t_close (now : Z) (t : tcp) : option tcp :=
  match t_sock t with
  | Init _ => closed_new t None false
  | Conn SynSent c => check (negb (recv_has_data c)); closed_new (err_if_unset t ClosedWhileConnecting) None true
  | Conn SynReceived c =>
      if recv_has_data c then reset_connection t c
      else do c <- send_fin c; Some (enter (err_if_unset t ClosedWhileConnecting) now FinWaitOne (rst_if_recv_payload c))
  | Conn Established c =>
      if recv_has_data c then reset_connection t c
      else do c <- send_fin c; Some (enter t now FinWaitOne (rst_if_recv_payload c))
  | Conn CloseWait c =>
      if recv_has_data c then reset_connection t c
      else do c <- send_fin c; Some (enter t now LastAck (rst_if_recv_payload c))
  | Conn TimeWait c => Some (set_sock t (Conn TimeWait (rst_if_recv_payload c)))
  | Conn k c =>
      if recv_has_data c then reset_connection t c
      else Some (set_sock t (Conn k (rst_if_recv_payload c)))
  | Rst _ _ | Closed _ _ => Some t
  end.
(** [rst_close]: states.rs:268-272, 774-784, 941-944, 1075-1078, 1788-1791; lib.rs:170-176 for the
    others *)
Definition t_rst_close (t : tcp) : option (tcp * res unit) :=
  match t_sock t with
  | Init _ => do t <- closed_new t None false; Some (t, Ok tt)
  | Conn SynSent c =>
      check (negb (recv_has_data c));
      do t <- closed_new (err_if_unset t ClosedWhileConnecting) None true; Some (t, Ok tt)
  | Conn (SynReceived | Established | CloseWait) c => do t <- reset_connection t c; Some (t, Ok tt)
  | _ => Some (t, Err EInvalidState)
  end.
(** [shutdown]: states.rs:274-276, 786-804, 946-963, 1080-1094, 1220-1230 and alike, 1793-1807,
    2076-2092, 2208-2224 *)
Definition t_shutdown (now : Z) (t : tcp) (h : how) : option (tcp * res unit) :=
  match t_sock t with
  | Init _ => Some (t, Err ENotConnected)
  | Conn k c =>
      let c := if shuts_read h then rst_if_recv_payload c else c in
      if shuts_write h then
        match k with
        | SynSent =>
            check (negb (recv_has_data c));
            do t <- closed_new (err_if_unset t ClosedWhileConnecting) None true; Some (t, Ok tt)
        | SynReceived => do c <- send_fin c; Some (enter (err_if_unset t ClosedWhileConnecting) now FinWaitOne c, Ok tt)
        | Established => do c <- send_fin c; Some (enter t now FinWaitOne c, Ok tt)
        | CloseWait => do c <- send_fin c; Some (enter t now LastAck c, Ok tt)
        | _ => Some (set_sock t (Conn k c), Ok tt)
        end
      else Some (set_sock t (Conn k c), Ok tt)
  | Rst _ was | Closed _ was => Some (t, if was then Ok tt else Err ENotConnected)
  end.
(** [connect]: states.rs:295-313 (the initial sequence number is always 0), 806-812 and alike,
    2094-2104, 2226-2236 *)
Definition t_connect (now : Z) (t : tcp) (remote : Z) (assoc : option Z) : option (tcp * res unit) :=
  match t_sock t with
  | Init scaled =>
      match assoc with
      | None => Some (t, Err EFailedAssociation)
      | Some local =>
          check (65536 <=? local);
          do c <- conn_new local remote 0 scaled;
          Some (enter t now SynSent c, Ok tt)
      end
  | Conn (SynSent | SynReceived) _ => Some (t, Err EInProgress)
  | Conn _ _ => Some (t, Err EAlreadyConnected)
  | Rst _ was | Closed _ was => Some (t, Err (if was then EAlreadyConnected else EInvalidState))
  end.
(** [send]: states.rs:315-317, 814-816, 973-975, 1104-1111, 1240-1242 and alike, 1817-1824,
    2106-2112, 2238-2244 *)
Definition t_send (t : tcp) (reader : list Z) (n : Z) : option (tcp * res Z) :=
  match t_sock t with
  | Init _ | Conn (SynSent | SynReceived) _ => Some (t, Err ENotConnected)
  | Conn ((Established | CloseWait) as k) c =>
      do r <- conn_send c reader n;
      let '(c, r) := r in
      Some (set_sock t (Conn k c), match r with SOk n => Ok n | SFull => Err EFull | SIo => Err EIo end)
  | Conn _ _ => Some (t, Err EStreamClosed)
  | Rst _ was | Closed _ was => Some (t, Err (if was then EStreamClosed else ENotConnected))
  end.
(** [recv]: states.rs:319-321, 818-820, 977-979, 1113-1120, 1244-1251, 1387-1394, 1518-1532, 1675-1689,
    1826-1840, 1960-1974, 2114-2120, 2246-2262. With the error [EIo] come the bytes that were already
    written. *)
Definition eof_at_end (k : kind) : bool := match k with Closing | TimeWait | CloseWait | LastAck => true | _ => false end.
Definition t_recv (t : tcp) (room : option Z) (n : Z) : option (tcp * res unit * list Z) :=
  match t_sock t with
  | Init _ | Conn (SynSent | SynReceived) _ => Some (t, Err ENotConnected, [])
  | Conn k c =>
      do r <- conn_recv c room n;
      let '(c, r) := r in
      Some (match r with
            | ROk bytes => (set_sock t (Conn k c), Ok tt, bytes)
            | REmpty => (set_sock t (Conn k c), Err (if eof_at_end k then EStreamClosed else EEmpty), [])
            | RIo bytes => (set_sock t (Conn k c), Err EIo, bytes)
            end)
  | Rst _ was => Some (t, Err (if was then EStreamClosed else ENotConnected), [])
  | Closed q was =>
      if negb was then Some (t, Err ENotConnected, [])
      else if rq_is_empty q then Some (t, Err EStreamClosed, [])
      else
        do r <- rq_read q room n;
        let '(q, bytes, ok) := r in
        Some (set_sock t (Closed q was), if ok : bool then Ok tt else Err EIo, bytes)
  end.

(** [push_packet], what follows once the connection has taken the packet: states.rs:838-862, 999-1015,
    1138-1154, 1269-1297, 1412-1428, 1550-1568, 1708-1718, 1858-1868, 1992-2010 *)
Definition settle (now : Z) (t : tcp) (k : kind) (h : header) (c : conn) : option tcp :=
  if c_reset c then was_reset (if h_rst h then err_if_unset t ResetReceived else t) c
  else
    match k with
    | SynSent =>
        if negb (is_none (c_recv c)) && c_syn_acked c then Some (enter t now Established c)
        else if negb (is_none (c_recv c)) then Some (enter t now SynReceived c)
        else Some (set_sock t (Conn k c))
    | SynReceived => if c_syn_acked c then Some (enter t now Established c) else Some (set_sock t (Conn k c))
    | Established => if received_fin c then Some (enter t now CloseWait c) else Some (set_sock t (Conn k c))
    | FinWaitOne =>
        if received_fin c && fin_was_acked c then Some (enter t now TimeWait c)
        else if received_fin c then Some (enter t now Closing c)
        else if fin_was_acked c then Some (enter t now FinWaitTwo c)
        else Some (set_sock t (Conn k c))
    | FinWaitTwo => if received_fin c then Some (enter t now TimeWait c) else Some (set_sock t (Conn k c))
    | Closing => if fin_was_acked c then Some (enter t now TimeWait c) else Some (set_sock t (Conn k c))
    | TimeWait | CloseWait => Some (set_sock t (Conn k c))
    | LastAck => if fin_was_acked c then closed_new t (into_recv_buffer c) true else Some (set_sock t (Conn k c))
    end.
(** [push_packet]: states.rs:822-863 and alike, 2122-2129; lib.rs:214-223 for the initial and the closed
    state *)
Definition t_push (now : Z) (t : tcp) (h : header) (p : payload) : option (tcp * res Z) :=
  match t_sock t with
  | Init _ | Closed _ _ => Some (t, Err EInvalidState)
  | Rst _ _ => Some (t, Ok 0)
  | Conn k c =>
      if negb (addrs_match c h) then Some (t, Ok 0)
      else
        do r <- push_packet c h p;
        let '(c, n) := r in
        do t <- settle now t k h c;
        Some (t, Ok n)
  end.
(** [pop_packet]: states.rs:865-873 and alike, 2131-2155; lib.rs:225-232 *)
Definition t_pop (t : tcp) : option (tcp * res (header * payload)) :=
  match t_sock t with
  | Init _ | Closed _ _ => Some (t, Err EInvalidState)
  | Conn k c =>
      do r <- pop_packet c;
      let '(c, o) := r in
      Some (set_sock t (Conn k c), match o with Some x => Ok x | None => Err ENoPacket end)
  | Rst [] _ => None
  | Rst (h :: pkts) was =>
      check (h_rst h);
      match pkts with
      | [] => do t <- closed_new t None was; Some (t, Ok (h, []))
      | _ => Some (set_sock t (Rst pkts was), Ok (h, []))
      end
  end.
(** [clear_error]: states.rs:323-325 and alike *)
Definition t_clear_error (t : tcp) : tcp * option tcp_error := (set_err t None, t_err t).
(** [wants_to_send]: states.rs:337-339, 889-891 and alike, 2175-2179, 2290-2292 *)
Definition t_wants (t : tcp) : option bool :=
  match t_sock t with
  | Init _ | Closed _ _ => Some false
  | Conn _ c => wants_to_send c
  | Rst pkts _ => check (negb (match pkts with [] => true | _ => false end)); Some true
  end.
(** The callbacks of the timers: states.rs:745-755, 904-914, 1623-1632 *)
Definition is_kind (k k' : kind) : bool :=
  match k, k' with
  | SynSent, SynSent | SynReceived, SynReceived | Established, Established | FinWaitOne, FinWaitOne | FinWaitTwo, FinWaitTwo
  | Closing, Closing | TimeWait, TimeWait | CloseWait, CloseWait | LastAck, LastAck => true
  | _, _ => false
  end.
Definition callback (t : tcp) (k : kind) : option tcp :=
  match t_sock t with
  | Conn k' c =>
      if is_kind k k' then
        match k with
        | SynSent | SynReceived =>
            do r <- t_rst_close (set_err t (Some TimedOut));
            check (match snd r with Ok _ => true | Err _ => false end);
            Some (fst r)
        | TimeWait => closed_new t (into_recv_buffer c) true
        | _ => Some t
        end
      else Some t
  | _ => Some t
  end.
(** A timer runs: its place in the list of pending timers. *)
Definition drop_nth {A} (i : nat) (l : list A) : list A := firstn i l ++ skipn (S i) l.
Definition t_fire (t : tcp) (i : nat) : option tcp :=
  match nth_error (t_timers t) i with
  | None => Some t
  | Some (k, _) => callback {| t_sock := t_sock t; t_err := t_err t; t_timers := drop_nth i (t_timers t) |} k
  end.

(** lib.rs:600-642 [PollState] *)
Record poll : Type := { p_readable : bool; p_writable : bool; p_error : bool; p_recv_closed : bool; p_send_closed : bool;
  p_listening : bool; p_ready : bool; p_connecting : bool; p_connected : bool; p_closed : bool }.
Definition has_err (t : tcp) : bool := negb (is_none (t_err t)).
(** [poll]: states.rs:327-335, 879-887, 1032-1040, 1171-1187, 1314-1330, 1445-1461, 1585-1603, 1735-1753,
    1885-1903, 2027-2045, 2161-2173, 2268-2288 *)
Definition t_poll (t : tcp) : poll :=
  match t_sock t with
  | Init _ => {| p_readable := false; p_writable := false; p_error := has_err t; p_recv_closed := false; p_send_closed := false;
                 p_listening := false; p_ready := false; p_connecting := false; p_connected := false; p_closed := false |}
  | Conn k c =>
      match k with
      | SynSent | SynReceived =>
          {| p_readable := false; p_writable := false; p_error := has_err t; p_recv_closed := false; p_send_closed := false;
             p_listening := false; p_ready := false; p_connecting := true; p_connected := false; p_closed := false |}
      | Established =>
          {| p_readable := recv_has_data c; p_writable := has_space c; p_error := has_err t; p_recv_closed := false; p_send_closed := false;
             p_listening := false; p_ready := false; p_connecting := false; p_connected := true; p_closed := false |}
      | FinWaitOne | FinWaitTwo =>
          {| p_readable := recv_has_data c; p_writable := false; p_error := has_err t; p_recv_closed := false; p_send_closed := true;
             p_listening := false; p_ready := false; p_connecting := false; p_connected := true; p_closed := false |}
      | Closing | TimeWait | LastAck =>
          {| p_readable := recv_has_data c; p_writable := false; p_error := has_err t; p_recv_closed := true; p_send_closed := true;
             p_listening := false; p_ready := false; p_connecting := false; p_connected := true; p_closed := false |}
      | CloseWait =>
          {| p_readable := recv_has_data c; p_writable := has_space c; p_error := has_err t; p_recv_closed := true; p_send_closed := false;
             p_listening := false; p_ready := false; p_connecting := false; p_connected := true; p_closed := false |}
      end
  | Rst _ was =>
      {| p_readable := false; p_writable := false; p_error := has_err t; p_recv_closed := true; p_send_closed := true;
         p_listening := false; p_ready := false; p_connecting := false; p_connected := was; p_closed := false |}
  | Closed q was =>
      {| p_readable := negb (rq_is_empty q); p_writable := false; p_error := has_err t; p_recv_closed := true; p_send_closed := true;
         p_listening := false; p_ready := false; p_connecting := false; p_connected := was; p_closed := true |}
  end.

(** lib.rs:249-253 and states.rs:251-259 [InitState::new] *)
Definition t_new (scaled : bool) : tcp := {| t_sock := Init scaled; t_err := None; t_timers := [] |}.
(** states.rs:362-386, the new state in [register_child] *)
Definition child_new (now : Z) (scaled : bool) (h : header) (p : payload) : option tcp :=
  check (h_syn h); check (negb (h_rst h));
  do c <- conn_new (h_dst h) (h_src h) 0 scaled;
  do r <- push_packet c h p;
  Some (enter {| t_sock := Init scaled; t_err := None; t_timers := [] |} now SynReceived (fst r)).

(** ** The listening state *)
(** states.rs:27-49, 222-245, 347-358 [ListenState], [ChildEntry], [new]. The addresses are the pair of
    the remote and the local one. [l_children] is in the order of the dense slot map; its keys are
    numbers, given out one after the other. *)
Record listener : Type := { l_scaled : bool; l_err : option tcp_error; l_max : Z; l_buf : list header;
  l_children : list (Z * (tcp * (Z * Z))); l_map : fmap (Z * Z) Z; l_accept : list Z; l_send : list Z; l_next : Z }.
Definition l_new (scaled : bool) (e : option tcp_error) (max : Z) : listener :=
  {| l_scaled := scaled; l_err := e; l_max := max; l_buf := []; l_children := []; l_map := []; l_accept := []; l_send := []; l_next := 0 |}.
Definition set_children (l : listener) (ch : list (Z * (tcp * (Z * Z)))) : listener :=
  {| l_scaled := l_scaled l; l_err := l_err l; l_max := l_max l; l_buf := l_buf l; l_children := ch; l_map := l_map l; l_accept := l_accept l; l_send := l_send l; l_next := l_next l |}.
Definition set_lists (l : listener) (acc send : list Z) : listener :=
  {| l_scaled := l_scaled l; l_err := l_err l; l_max := l_max l; l_buf := l_buf l; l_children := l_children l; l_map := l_map l; l_accept := acc; l_send := send; l_next := l_next l |}.
Definition set_map (l : listener) (m : fmap (Z * Z) Z) : listener :=
  {| l_scaled := l_scaled l; l_err := l_err l; l_max := l_max l; l_buf := l_buf l; l_children := l_children l; l_map := m; l_accept := l_accept l; l_send := l_send l; l_next := l_next l |}.
Definition set_buf (l : listener) (b : list header) : listener :=
  {| l_scaled := l_scaled l; l_err := l_err l; l_max := l_max l; l_buf := b; l_children := l_children l; l_map := l_map l; l_accept := l_accept l; l_send := l_send l; l_next := l_next l |}.

(** The slot map: replacing a value, and removing one (the last one takes its place). *)
Definition replace_child (k : Z) (v : tcp * (Z * Z)) (ch : list (Z * (tcp * (Z * Z)))) : list (Z * (tcp * (Z * Z))) :=
  map (fun x => if fst x =? k then (k, v) else x) ch.
Definition swap_remove (k : Z) (ch : list (Z * (tcp * (Z * Z)))) : list (Z * (tcp * (Z * Z))) :=
  match rev ch with
  | [] => []
  | lst :: front => map (fun x => if fst x =? k then lst else x) (rev front)
  end.
(** util/mod.rs:67-73 [remove_from_list]: removes the first entry *)
Fixpoint remove_first (k : Z) (l : list Z) : list Z :=
  match l with
  | [] => []
  | x :: l => if x =? k then l else x :: remove_first k l
  end.
Definition contains_key (k : Z) (l : list Z) : bool := existsb (fun x => x =? k) l.

(** states.rs:446-460 [remove_child] *)
Definition remove_child (l : listener) (k : Z) : option (listener * tcp) :=
  do e <- get k (l_children l);
  let l := set_children l (swap_remove k (l_children l)) in
  let l := set_lists l (remove_first k (l_accept l)) (remove_first k (l_send l)) in
  check (match get (snd e) (l_map l) with Some k' => k' =? k | None => false end);
  Some (set_map l (del (snd e) (l_map l)), fst e).
(** states.rs:394-444 [sync_child]; the child exists *)
Definition acceptable (s : sock) : bool := match s with Conn (Established | CloseWait) _ => true | _ => false end.
Definition sync_child (l : listener) (k : Z) : option listener :=
  do e <- get k (l_children l);
  let '(t, addrs) := e in
  do w <- t_wants t;
  let send := if w : bool then (if contains_key k (l_send l) then l_send l else l_send l ++ [k]) else remove_first k (l_send l) in
  let acc := if acceptable (t_sock t) then (if contains_key k (l_accept l) then l_accept l else l_accept l ++ [k]) else remove_first k (l_accept l) in
  let l := set_lists l acc send in
  check (match get addrs (l_map l) with Some k' => k' =? k | None => false end);
  if p_closed (t_poll t) then do r <- remove_child l k; Some (fst r) else Some l.
(** states.rs:467-488 [with_child]; the inner [None] is [ChildNotFound] *)
Definition with_child {A} (l : listener) (k : Z) (f : tcp -> option (tcp * A)) : option (listener * option A) :=
  match get k (l_children l) with
  | None => Some (l, None)
  | Some (t, addrs) =>
      do r <- f t;
      let '(t, a) := r in
      do l <- sync_child (set_children l (replace_child k (t, addrs) (l_children l))) k;
      Some (l, Some a)
  end.
(** states.rs:360-392 [register_child] *)
Definition register_child (now : Z) (l : listener) (h : header) (p : payload) : option listener :=
  let addrs := (h_src h, h_dst h) in
  let k := l_next l in
  do t <- child_new now (l_scaled l) h p;
  check (negb (mem addrs (l_map l)));
  sync_child {| l_scaled := l_scaled l; l_err := l_err l; l_max := l_max l; l_buf := l_buf l; l_children := l_children l ++ [(k, (t, addrs))];
                l_map := put addrs k (l_map l); l_accept := l_accept l; l_send := l_send l; l_next := k + 1 |} k.

(** states.rs:506-512, the packets a child still wants to send *)
Fixpoint drain (fuel : nat) (l : listener) (k : Z) : option listener :=
  match fuel with
  | O => None
  | S fuel =>
      do r <- with_child l k t_pop;
      match r with
      | (l, Some (Ok (h, p))) => check (pay_empty p); drain fuel (set_buf l (l_buf l ++ [h])) k
      | (l, _) => Some l
      end
  end.
(** states.rs:501-513 *)
Fixpoint reset_children (l : listener) (ks : list Z) : option listener :=
  match ks with
  | [] => Some l
  | k :: ks =>
      do r <- with_child l k t_rst_close;
      let '(l, o) := r in
      check (match o with Some (Ok _) => true | _ => false end);
      do l <- drain 3 l k;
      reset_children l ks
  end.
(** states.rs:492-537 [close], [rst_close] *)
Definition l_close (l : listener) : option tcp :=
  do l <- reset_children l (map fst (l_children l));
  check (match l_children l with [] => true | _ => false end);
  let t := {| t_sock := Init (l_scaled l); t_err := l_err l; t_timers := [] |} in
  match filter h_rst (l_buf l) with
  | [] => closed_new t None false
  | pkts => rst_new t pkts false
  end.
(** states.rs:278-293 and 548-566 [listen]: the backlog is one more than asked for, [u32] *)
Definition backlog_of (n : Z) : Z := Z.min (n + 1) U32_MAX.
Definition l_listen (l : listener) (n : Z) : listener :=
  {| l_scaled := l_scaled l; l_err := l_err l; l_max := backlog_of n; l_buf := l_buf l; l_children := l_children l; l_map := l_map l; l_accept := l_accept l; l_send := l_send l; l_next := l_next l |}.
(** states.rs:712-714 [clear_error] *)
Definition l_clear (l : listener) : listener :=
  {| l_scaled := l_scaled l; l_err := None; l_max := l_max l; l_buf := l_buf l; l_children := l_children l; l_map := l_map l; l_accept := l_accept l; l_send := l_send l; l_next := l_next l |}.
(** states.rs:576-595 [accept] *)
Definition l_accept_call (l : listener) : option (listener * res tcp) :=
  match l_accept l with
  | [] => Some (l, Err ENothingToAccept)
  | k :: rest =>
      do r <- remove_child (set_lists l rest (l_send l)) k;
      let '(l, t) := r in
      check (acceptable (t_sock t));
      Some (l, Ok t)
  end.
Definition is_syn_received (s : sock) : bool := match s with Conn SynReceived _ => true | _ => false end.
(** states.rs:605-683 [push_packet] *)
Definition l_push (now : Z) (l : listener) (h : header) (p : payload) : option (listener * res Z) :=
  let accept_len := zlen (l_accept l) in
  check (accept_len <=? zlen (l_children l));
  let syn_len := zlen (l_children l) - accept_len in
  let accept_full := l_max l <=? accept_len in
  let syn_full := l_max l <=? syn_len in
  if h_syn h && (accept_full || syn_full) then Some (l, Ok 0)
  else
    match get (h_src h, h_dst h) (l_map l) with
    | Some k =>
        if match get k (l_children l) with Some (t, _) => is_syn_received (t_sock t) | None => false end && h_ack h && accept_full then Some (l, Ok 0)
        else
          do r <- with_child l k (fun t => t_push now t h p);
          let '(l, o) := r in
          do o <- o;
          Some (l, o)
    | None =>
        if negb (h_syn h) then Some (l, Ok 0)
        else do l <- register_child now l h p; Some (l, Ok 0)
    end.
(** states.rs:685-710 [pop_packet] *)
Definition l_pop (l : listener) : option (listener * res (header * payload)) :=
  match l_buf l with
  | h :: b => Some (set_buf l b, Ok (h, []))
  | [] =>
      match l_send l with
      | k :: rest =>
          do r <- with_child (set_lists l (l_accept l) rest) k t_pop;
          let '(l, o) := r in
          match o with
          | Some (Ok (h, p)) => check (pay_empty p); Some (l, Ok (h, p))
          | _ => None
          end
      | [] => Some (l, Err ENoPacket)
      end
  end.
(** states.rs:716-732 [poll], [wants_to_send] *)
Definition l_poll (l : listener) : poll :=
  {| p_readable := false; p_writable := false; p_error := negb (is_none (l_err l)); p_recv_closed := false; p_send_closed := false;
     p_listening := true; p_ready := negb (match l_accept l with [] => true | _ => false end); p_connecting := false; p_connected := false; p_closed := false |}.
Definition l_wants (l : listener) : bool :=
  negb (match l_buf l with [] => true | _ => false end) || negb (match l_send l with [] => true | _ => false end).
(** states.rs:146-203 [register_timer]: a timer of a child runs *)
Definition l_fire (l : listener) (k : Z) (i : nat) : option listener :=
  do r <- with_child l k (fun t => do t <- t_fire t i; Some (t, tt));
  Some (fst r).
