(** Two TCP connections and a network between them that may lose, repeat, reorder and delay packets
    as it likes: every packet ever sent can be delivered at any time, any number of times. *)
From Verif Require Import Base TcpBufModel TcpConnModel.

(** A packet with the number of bytes its sender and the other side had written when it was sent. *)
Record sent : Type := { s_h : header; s_p : payload; s_mine : Z; s_peer : Z }.
(** An endpoint: its connection, the bytes its application wrote and read so far, whether it shut its
    side down, and the packets it sent. *)
Record endp : Type := { e_conn : conn; e_wrote : list Z; e_shut : bool; e_got : list Z; e_out : list sent }.

Inductive op : Type :=
| OWrite (data : list Z)       (* write the bytes [data] *)
| OShut                        (* nothing more to write *)
| ORead (n : Z)                (* read at most [n] bytes *)
| OPop                         (* the interface asks for a packet *)
| OPush (s : sent)             (* a packet of the other side arrives *)
| OAbort | ORstIfPayload.      (* reset the connection, now or when payload arrives *)

(** A packet is fresh unless almost a whole sequence space was written since it was sent. *)
Definition fresh (x y : endp) (s : sent) : Prop :=
  zlen (e_wrote y) - s_mine s <= 4294967296 - 300000 /\ zlen (e_wrote x) - s_peer s <= 4294967296 - 300000.

(** What the application and the network may do at endpoint [x] when the other one is [y]. *)
Definition allowed (x y : endp) (o : op) : Prop :=
  match o with
  | OWrite _ | OShut => e_shut x = false
  | ORead n => 0 <= n <= U32_MAX
  | OPush s => In s (e_out y) /\ fresh x y s
  | _ => True
  end.

(** The effect; [None]: the connection panics. *)
Definition act (x y : endp) (o : op) : option endp :=
  match o with
  | OWrite data =>
      do r <- conn_send (e_conn x) data (zlen data);
      let '(c, res) := r in
      Some {| e_conn := c; e_wrote := e_wrote x ++ match res with SOk n => zfirst n data | _ => [] end; e_shut := e_shut x; e_got := e_got x; e_out := e_out x |}
  | OShut =>
      do c <- send_fin (e_conn x);
      Some {| e_conn := c; e_wrote := e_wrote x; e_shut := true; e_got := e_got x; e_out := e_out x |}
  | ORead n =>
      do r <- conn_recv (e_conn x) None n;
      let '(c, res) := r in
      Some {| e_conn := c; e_wrote := e_wrote x; e_shut := e_shut x; e_got := e_got x ++ match res with ROk b => b | _ => [] end; e_out := e_out x |}
  | OPop =>
      do r <- pop_packet (e_conn x);
      let '(c, res) := r in
      Some {| e_conn := c; e_wrote := e_wrote x; e_shut := e_shut x; e_got := e_got x;
              e_out := e_out x ++ match res with
                                  | Some (h, p) => [{| s_h := h; s_p := p; s_mine := zlen (e_wrote x); s_peer := zlen (e_wrote y) |}]
                                  | None => []
                                  end |}
  | OPush s =>
      do r <- push_packet (e_conn x) (s_h s) (s_p s);
      Some {| e_conn := fst r; e_wrote := e_wrote x; e_shut := e_shut x; e_got := e_got x; e_out := e_out x |}
  | OAbort => Some {| e_conn := send_rst (e_conn x); e_wrote := e_wrote x; e_shut := e_shut x; e_got := e_got x; e_out := e_out x |}
  | ORstIfPayload => Some {| e_conn := rst_if_recv_payload (e_conn x); e_wrote := e_wrote x; e_shut := e_shut x; e_got := e_got x; e_out := e_out x |}
  end.

(** Two fresh connections with their initial sequence numbers. *)
Definition started (x : endp) (iss : Z) (scaled : bool) : Prop :=
  exists local remote, conn_new local remote iss scaled = Some (e_conn x) /\ e_wrote x = [] /\ e_shut x = false /\ e_got x = [] /\ e_out x = [].
(** The histories of the pair without a panic; the flag says whether an application ever called
    [OAbort] or [ORstIfPayload]. *)
Definition rude (o : op) : bool := match o with OAbort | ORstIfPayload => true | _ => false end.
Inductive history (ix iy : Z) (sx sy : bool) : bool -> endp -> endp -> Prop :=
| HStart x y : started x ix sx -> started y iy sy -> history ix iy sx sy false x y
| HLeft b x y o x' : history ix iy sx sy b x y -> allowed x y o -> act x y o = Some x' -> history ix iy sx sy (b || rude o) x' y
| HRight b x y o y' : history ix iy sx sy b x y -> allowed y x o -> act y x o = Some y' -> history ix iy sx sy (b || rude o) x y'.

(** Running a list of commands ([CPush i]: packet number [i] of the other side arrives); [true] is
    the first endpoint. *)
Inductive cmd : Type := CWrite (d : list Z) | CShut | CRead (n : Z) | CPop | CPush (i : nat) | CAbort | CRst.
Definition op_of (y : endp) (c : cmd) : option op :=
  match c with
  | CWrite d => Some (OWrite d)
  | CShut => Some OShut
  | CRead n => Some (ORead n)
  | CPop => Some OPop
  | CPush i => do s <- nth_error (e_out y) i; Some (OPush s)
  | CAbort => Some OAbort
  | CRst => Some ORstIfPayload
  end.
Definition allowedb (x y : endp) (o : op) : bool :=
  match o with
  | OWrite _ | OShut => negb (e_shut x)
  | ORead n => (0 <=? n) && (n <=? U32_MAX)
  | OPush s => (zlen (e_wrote y) - s_mine s <=? 4294967296 - 300000) && (zlen (e_wrote x) - s_peer s <=? 4294967296 - 300000)
  | _ => true
  end.
Fixpoint exec (b : bool) (x y : endp) (l : list (bool * cmd)) : option (bool * endp * endp) :=
  match l with
  | [] => Some (b, x, y)
  | (true, c) :: l =>
      do o <- op_of y c; check (allowedb x y o); do x' <- act x y o; exec (b || rude o) x' y l
  | (false, c) :: l =>
      do o <- op_of x c; check (allowedb y x o); do y' <- act y x o; exec (b || rude o) x y' l
  end.
Definition start_of (local remote iss : Z) (scaled : bool) : option endp :=
  do c <- conn_new local remote iss scaled;
  Some {| e_conn := c; e_wrote := []; e_shut := false; e_got := []; e_out := [] |}.
Definition run (ix iy : Z) (sx sy : bool) (l : list (bool * cmd)) : option (bool * endp * endp) :=
  do x <- start_of 1 2 ix sx; do y <- start_of 2 1 iy sy; exec false x y l.
