(** A listening TCP socket: packets, timers and accepts in any order. *)
From Verif Require Import Base FMap SeqModel SeqSpec TcpBufModel TcpBufSpec TcpConnModel TcpConnSpec TcpSoloSpec TcpStateModel TcpStateSpec.

(** The connections that have not been handed out, by number: their sockets, and their remote and
    local addresses. *)
Definition kid (l : listener) (k : Z) : option (tcp * (Z * Z)) := get k (l_children l).
Definition kids (l : listener) : list Z := map fst (l_children l).
(** A connection that can be handed out. *)
Definition made (t : tcp) : bool := match phase_of t with PConn Established | PConn CloseWait => true | _ => false end.
Definition made_at (l : listener) (k : Z) : bool := match kid l k with Some (t, _) => made t | None => false end.
Definition is_kid (l : listener) (k : Z) : bool := match kid l k with Some _ => true | None => false end.
Definition listed (k : Z) (l : list Z) : bool := existsb (fun x => x =? k) l.

(** The connection with the given addresses. *)
Definition who (l : listener) (a : Z * Z) : option (Z * tcp) :=
  match find (fun x => (fst (snd (snd x)) =? fst a) && (snd (snd (snd x)) =? snd a)) (l_children l) with Some (k, (t, _)) => Some (k, t) | None => None end.
(** The socket, the time, the connections in the order in which they were made, and in the order in which
    they were handed out, those that sent a SYN, and the packets that arrived. *)
Record hall : Type := { g_l : listener; g_now : Z; g_made : list Z; g_given : list Z; g_spoke : list Z; g_in : list (header * payload) }.
Inductive lev : Type := LPush (h : header) (p : payload) | LPop | LAccept | LFire (k : Z) (i : nat) | LWait (d : Z) | LListen (n : Z) | LClear.
(** The connections that were made by a step. *)
Definition newly (l l' : listener) : list Z := filter (fun k => made_at l' k && negb (made_at l k)) (kids l').
Definition go (g : hall) (l : listener) : hall :=
  {| g_l := l; g_now := g_now g; g_made := g_made g ++ newly (g_l g) l; g_given := g_given g; g_spoke := g_spoke g; g_in := g_in g |}.
(** The effect of an event; [None]: a panic. A connection is handed out if a successful accept takes
    it away. *)
Definition lact (g : hall) (e : lev) : option hall :=
  match e with
  | LPush h p =>
      do r <- l_push (g_now g) (g_l g) h p;
      let g1 := go g (fst r) in
      Some {| g_l := g_l g1; g_now := g_now g1; g_made := g_made g1; g_given := g_given g1; g_spoke := g_spoke g1; g_in := g_in g1 ++ [(h, p)] |}
  | LPop =>
      do r <- l_pop (g_l g);
      let g1 := go g (fst r) in
      Some {| g_l := g_l g1; g_now := g_now g1; g_made := g_made g1; g_given := g_given g1;
              g_spoke := g_spoke g1 ++ match snd r with Ok (h, _) => if h_syn h then match who (g_l g) (h_dst h, h_src h) with Some (k, _) => [k] | None => [] end else [] | Err _ => [] end; g_in := g_in g1 |}
  | LAccept =>
      do r <- l_accept_call (g_l g);
      let g1 := go g (fst r) in
      Some {| g_l := g_l g1; g_now := g_now g1; g_made := g_made g1;
              g_given := g_given g1 ++ match snd r with Ok _ => filter (fun k => negb (is_kid (g_l g1) k)) (kids (g_l g)) | Err _ => [] end; g_spoke := g_spoke g1; g_in := g_in g1 |}
  | LFire k i => do l <- l_fire (g_l g) k i; Some (go g l)
  | LWait d => Some {| g_l := g_l g; g_now := g_now g + d; g_made := g_made g; g_given := g_given g; g_spoke := g_spoke g; g_in := g_in g |}
  | LListen n => Some (go g (l_listen (g_l g) n))
  | LClear => Some (go g (l_clear (g_l g)))
  end.
Definition lallows (punctual : bool) (g : hall) (e : lev) : Prop :=
  match e with
  | LPush h p => wire h p
  | LFire k i => forall t a s d, kid (g_l g) k = Some (t, a) -> nth_error (t_timers t) i = Some (s, d) -> d <= g_now g
  | LWait d => 0 <= d /\ (punctual = true -> forall k t a s x, kid (g_l g) k = Some (t, a) -> In (s, x) (t_timers t) -> g_now g + d <= x)
  | LListen n => 0 <= n <= U32_MAX
  | _ => True
  end.
Definition opened (sc : bool) (e : option tcp_error) (n now : Z) : hall :=
  {| g_l := l_new sc e (backlog_of n); g_now := now; g_made := []; g_given := []; g_spoke := []; g_in := [] |}.
Inductive hears (punctual sc : bool) : hall -> Prop :=
| HStart e n now : 0 <= n <= U32_MAX -> hears punctual sc (opened sc e n now)
| HStep g e g' : hears punctual sc g -> lallows punctual g e -> lact g e = Some g' -> hears punctual sc g'.

(** ** The parts that the theorems speak of *)
(** One connection changes, or goes if it is closed; the others stay. *)
Definition becomes (l : listener) (k : Z) (t : tcp) (l' : listener) : Prop :=
  forall j, kid l' j = if j =? k then match kid l k with Some (_, a) => if p_closed (t_poll t) then None else Some (t, a) | None => None end else kid l j.
(** One connection is new. *)
Definition adds (l : listener) (k : Z) (t : tcp) (a : Z * Z) (l' : listener) : Prop :=
  kid l k = None /\ forall j, kid l' j = if j =? k then Some (t, a) else kid l j.
Definition n_made (l : listener) : Z := zlen (filter (made_at l) (kids l)).
Definition n_rest (l : listener) : Z := zlen (filter (fun k => negb (made_at l k)) (kids l)).
Definition half_open (t : tcp) : bool := match phase_of t with PConn SynReceived => true | _ => false end.
(** A connection behaves like a socket of its own that began with a SYN that arrived here; its application did
    nothing yet. *)
Record own (punctual sc : bool) (g : hall) (k : Z) (t : tcp) (a : Z * Z) (s : sess) : Prop := {
  ow_life : life punctual sc s;
  ow_tcp : s_tcp s = t;
  ow_now : s_now s = g_now g;
  ow_addr : s_addr s = Some (snd a, fst a);
  ow_spoke : In k (g_spoke g) -> syn_sent s;
  ow_idle : s_wrote s = [] /\ s_got s = [] /\ s_shut s = false;
  ow_in : forall h p, In (h, p) (pkts s) -> In (h, p) (g_in g) /\ (h_src h, h_dst h) = a }.

(** The connections that wait to be handed out, in the order in which they were made. *)
Definition waiting (g : hall) : list Z := filter (made_at (g_l g)) (g_made g).
(** The queue of connections to hand out is full, or that of the others. *)
Definition l_full (l : listener) : bool := l_max l <=? n_made l.
Definition q_full (l : listener) : bool := l_max l <=? n_rest l.
(** The effect of a packet: a SYN is dropped if a queue is full; a packet of a known connection goes to
    it, but the one that would make the connection is dropped if the queue is full; otherwise a SYN opens a connection. *)
Definition heard (now : Z) (l : listener) (h : header) (p : payload) (l' : listener) (r : res Z) : Prop :=
  l_max l' = l_max l /\ l_err l' = l_err l /\
  if h_syn h && (l_full l || q_full l) then l' = l /\ r = Ok 0
  else
    match who l (h_src h, h_dst h) with
    | Some (k, t) => if half_open t && h_ack h && l_full l then l' = l /\ r = Ok 0 else exists t', t_push now t h p = Some (t', r) /\ becomes l k t' l'
    | None => if h_syn h then r = Ok 0 /\ exists k t, child_new now (l_scaled l) h p = Some t /\ half_open t = true /\ adds l k t (h_src h, h_dst h) l' else l' = l /\ r = Ok 0
    end.
(** The states that a connection can have before it is handed out. *)
Definition kin (ph : phase) : bool := match ph with PConn SynReceived | PConn Established | PConn CloseWait | PRst => true | _ => false end.
Definition is_pconn (t : tcp) : Prop := exists k, phase_of t = PConn k.

(** ** What cannot go wrong *)
(** A SYN for a new connection is no RST, and with window scaling it acknowledges nothing and grants
    a window; a packet or a timer of a connection comes after its SYN was sent, if window scaling is on. *)
Definition lsane (sc : bool) (g : hall) (e : lev) : Prop :=
  match e with
  | LPush h _ =>
      match who (g_l g) (h_src h, h_dst h) with
      | Some (k, _) => sc = false \/ In k (g_spoke g)
      | None => h_syn h = true -> h_rst h = false /\ (sc = false \/ h_ack h = false /\ 0 < h_win h)
      end
  | LFire k _ => is_kid (g_l g) k = true -> sc = false \/ In k (g_spoke g)
  | _ => True
  end.
Inductive careful (punctual sc : bool) : hall -> Prop :=
| CStart e n now : 0 <= n <= U32_MAX -> careful punctual sc (opened sc e n now)
| CStep g e g' : careful punctual sc g -> lallows punctual g e -> lsane sc g e -> lact g e = Some g' -> careful punctual sc g'.

(** ** How many connections wait *)
(** The backlog is at most [n]; and if [strict], no SYN that opens a connection acknowledges
    anything. *)
Definition lmodest (n : Z) (strict : bool) (g : hall) (e : lev) : Prop :=
  match e with
  | LListen m => backlog_of m <= n
  | LPush h _ => strict = true -> who (g_l g) (h_src h, h_dst h) = None -> h_syn h = true -> h_ack h = false
  | _ => True
  end.
Inductive modest (punctual sc : bool) (n : Z) (strict : bool) : hall -> Prop :=
| MStart e m now : 0 <= m <= U32_MAX -> backlog_of m <= n -> modest punctual sc n strict (opened sc e m now)
| MStep g e g' : modest punctual sc n strict g -> lallows punctual g e -> lmodest n strict g e -> lact g e = Some g' -> modest punctual sc n strict g'.

(** ** Taking packets one after the other *)
Fixpoint pulls (n : nat) (g : hall) : option (hall * list (header * payload)) :=
  match n with
  | O => Some (g, [])
  | S n =>
      do r <- l_pop (g_l g);
      do g' <- lact g LPop;
      do q <- pulls n g';
      Some (fst q, match snd r with Ok hp => [hp] | Err _ => [] end ++ snd q)
  end.

(** ** Running a list of events *)
Definition lallowsb (punctual : bool) (g : hall) (e : lev) : bool :=
  match e with
  | LPush h p => wireb h p
  | LFire k i => match kid (g_l g) k with Some (t, _) => match nth_error (t_timers t) i with Some (_, d) => d <=? g_now g | None => true end | None => true end
  | LWait d => (0 <=? d) && (negb punctual || forallb (fun x => forallb (fun kx => g_now g + d <=? snd kx) (t_timers (fst (snd x)))) (l_children (g_l g)))
  | LListen n => (0 <=? n) && (n <=? U32_MAX)
  | _ => true
  end.
Fixpoint lexec (punctual : bool) (g : hall) (l : list lev) : option hall :=
  match l with
  | [] => Some g
  | e :: l => check (lallowsb punctual g e); do g' <- lact g e; lexec punctual g' l
  end.
Definition lrun (sc : bool) (n : Z) (l : list lev) : option hall := check ((0 <=? n) && (n <=? U32_MAX)); lexec true (opened sc None n 0) l.
