(** One TCP connection against the whole world: any packets may arrive, in any order, whether or not
    any TCP would send them. *)
From Verif Require Import Base SeqModel SeqSpec TcpBufModel TcpBufSpec TcpConnModel TcpConnSpec.

(** The connection, what its application wrote and read, whether it shut its side down, the number of
    payload bytes the connection accepted, and the packets that arrived and left. *)
Record solo : Type := { o_conn : conn; o_wrote : list Z; o_shut : bool; o_got : list Z; o_taken : Z;
                        o_in : list (header * payload); o_out : list (header * payload) }.
Inductive sop : Type := XWrite (data : list Z) | XShut | XRead (n : Z) | XPop | XPush (h : header) (p : payload) | XAbort | XRstIfPayload.

(** A packet that fits the wire format: sequence numbers are 32-bit, the window 16-bit and the scale
    option 8-bit numbers, and an IP packet has less than 65536 bytes. *)
Definition wire (h : header) (p : payload) : Prop :=
  is_seq (h_seq h) /\ is_seq (h_acknum h) /\ 0 <= h_win h <= 65535 /\ (forall s, h_scale h = Some s -> 0 <= s <= 255) /\ zlen (concat p) <= 65535.
Definition permits (x : solo) (o : sop) : Prop :=
  match o with
  | XWrite _ | XShut => o_shut x = false
  | XRead n => 0 <= n <= U32_MAX
  | XPush h p => wire h p
  | _ => True
  end.
(** The effect; [None]: the connection panics. *)
Definition sact (x : solo) (o : sop) : option solo :=
  match o with
  | XWrite data =>
      do r <- conn_send (o_conn x) data (zlen data);
      let '(c, res) := r in
      Some {| o_conn := c; o_wrote := o_wrote x ++ match res with SOk n => zfirst n data | _ => [] end; o_shut := o_shut x; o_got := o_got x; o_taken := o_taken x; o_in := o_in x; o_out := o_out x |}
  | XShut =>
      do c <- send_fin (o_conn x);
      Some {| o_conn := c; o_wrote := o_wrote x; o_shut := true; o_got := o_got x; o_taken := o_taken x; o_in := o_in x; o_out := o_out x |}
  | XRead n =>
      do r <- conn_recv (o_conn x) None n;
      let '(c, res) := r in
      Some {| o_conn := c; o_wrote := o_wrote x; o_shut := o_shut x; o_got := o_got x ++ match res with ROk b => b | _ => [] end; o_taken := o_taken x; o_in := o_in x; o_out := o_out x |}
  | XPop =>
      do r <- pop_packet (o_conn x);
      let '(c, res) := r in
      Some {| o_conn := c; o_wrote := o_wrote x; o_shut := o_shut x; o_got := o_got x; o_taken := o_taken x; o_in := o_in x;
              o_out := o_out x ++ match res with Some hp => [hp] | None => [] end |}
  | XPush h p =>
      do r <- push_packet (o_conn x) h p;
      Some {| o_conn := fst r; o_wrote := o_wrote x; o_shut := o_shut x; o_got := o_got x; o_taken := o_taken x + snd r; o_in := o_in x ++ [(h, p)]; o_out := o_out x |}
  | XAbort => Some {| o_conn := send_rst (o_conn x); o_wrote := o_wrote x; o_shut := o_shut x; o_got := o_got x; o_taken := o_taken x; o_in := o_in x; o_out := o_out x |}
  | XRstIfPayload => Some {| o_conn := rst_if_recv_payload (o_conn x); o_wrote := o_wrote x; o_shut := o_shut x; o_got := o_got x; o_taken := o_taken x; o_in := o_in x; o_out := o_out x |}
  end.
(** All histories without a panic from a new connection with initial sequence number [iss]; [sc] says
    whether window scaling is enabled. *)
Inductive alone (iss : Z) (sc : bool) : solo -> Prop :=
| AStart local remote c : conn_new local remote iss sc = Some c ->
    alone iss sc {| o_conn := c; o_wrote := []; o_shut := false; o_got := []; o_taken := 0; o_in := []; o_out := [] |}
| AStep x o x' : alone iss sc x -> permits x o -> sact x o = Some x' -> alone iss sc x'.

(** The first SYN that arrived, and the shift of the windows that the other side announces. *)
Definition opening (l : list (header * payload)) : option header :=
  match find (fun hp => h_syn (fst hp) && negb (h_rst (fst hp))) l with Some (h, _) => Some h | None => None end.
Definition offered (l : list (header * payload)) : option Z :=
  match opening l with
  | Some h => match h_scale h with Some s => Some (Z.min 14 s) | None => None end
  | None => None
  end.
(** What a packet grants: windows other than a SYN's are scaled if both sides do so. *)
Definition grant (sc : bool) (l : list (header * payload)) (h : header) : Z :=
  h_win h * (if h_syn h then 1 else if sc then match offered l with Some s => 2 ^ s | None => 1 end else 1).
(** What this side's own packets announce: units of two bytes if both sides scale. *)
Definition announced (sc : bool) (l : list (header * payload)) (h : header) : Z :=
  h_win h * (if h_syn h then 1 else if sc then match offered l with Some _ => 2 | None => 1 end else 1).

(** The connection has heard, or said, a SYN. *)
Definition heard (x : solo) : Prop := opening (o_in x) <> None.
Definition spoke (x : solo) : Prop := exists h p, In (h, p) (o_out x) /\ h_syn h = true.

(** Running a list of operations. *)
Definition permitsb (x : solo) (o : sop) : bool :=
  match o with
  | XWrite _ | XShut => negb (o_shut x)
  | XRead n => (0 <=? n) && (n <=? U32_MAX)
  | XPush h p => (0 <=? h_seq h) && (h_seq h <? 4294967296) && ((0 <=? h_acknum h) && (h_acknum h <? 4294967296)) && ((0 <=? h_win h) && (h_win h <=? 65535)) &&
      match h_scale h with Some s => (0 <=? s) && (s <=? 255) | None => true end && (zlen (concat p) <=? 65535)
  | _ => true
  end.
Fixpoint sexec (x : solo) (l : list sop) : option solo :=
  match l with
  | [] => Some x
  | o :: l => check (permitsb x o); do x' <- sact x o; sexec x' l
  end.
Definition srun (iss : Z) (sc : bool) (l : list sop) : option solo :=
  do c <- conn_new 1 2 iss sc;
  sexec {| o_conn := c; o_wrote := []; o_shut := false; o_got := []; o_taken := 0; o_in := []; o_out := [] |} l.
