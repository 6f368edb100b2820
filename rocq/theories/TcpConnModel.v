(** TCP connections (the transmission control block). /repo/src/lib/tcp/src/connection.rs

    Addresses with ports are numbers. The header options the library neither reads nor sets
    (selective acknowledgements, timestamps) and the flags it ignores are left out. *)
From Verif Require Import Base SeqModel TcpBufModel.

(** lib.rs:665-703 [TcpHeader] *)
Record header : Type := { h_src : Z; h_dst : Z; h_syn : bool; h_fin : bool; h_rst : bool; h_ack : bool;
                          h_seq : Z; h_acknum : Z; h_win : Z; h_scale : option Z }.
(** lib.rs:705-745 [Payload], [len] (panics when the sum does not fit u32), [is_empty] *)
Definition payload : Type := list (list Z).
Definition pay_len (p : payload) : option Z :=
  let n := zsum (map zlen p) in check (n <=? U32_MAX); Some n.
Definition pay_empty (p : payload) : bool := forallb (fun c => zlen c =? 0) p.

(** connection.rs:14-28 [Connection] with 666-705 [ConnectionSend], [ConnectionRecv] *)
Record conn : Type := { c_local : Z; c_remote : Z;
  c_sq : sendq; c_win : Z; c_sclosed : bool; c_syn_acked : bool;
  c_recv : option (recvq * bool);
  c_need_ack : bool; c_last_adv : option Z; c_ws : scaling;
  c_rst_if_payload : bool; c_reset : bool; c_need_rst : bool }.

Definition SEND_BUF_MAX : Z := 100000.
Definition RECV_BUF_MAX : Z := 100000.

Definition set_sq (c : conn) (q : sendq) : conn :=
  {| c_local := c_local c; c_remote := c_remote c; c_sq := q; c_win := c_win c; c_sclosed := c_sclosed c; c_syn_acked := c_syn_acked c;
     c_recv := c_recv c; c_need_ack := c_need_ack c; c_last_adv := c_last_adv c; c_ws := c_ws c;
     c_rst_if_payload := c_rst_if_payload c; c_reset := c_reset c; c_need_rst := c_need_rst c |}.
Definition set_win (c : conn) (w : Z) : conn :=
  {| c_local := c_local c; c_remote := c_remote c; c_sq := c_sq c; c_win := w; c_sclosed := c_sclosed c; c_syn_acked := c_syn_acked c;
     c_recv := c_recv c; c_need_ack := c_need_ack c; c_last_adv := c_last_adv c; c_ws := c_ws c;
     c_rst_if_payload := c_rst_if_payload c; c_reset := c_reset c; c_need_rst := c_need_rst c |}.
Definition set_sclosed (c : conn) : conn :=
  {| c_local := c_local c; c_remote := c_remote c; c_sq := c_sq c; c_win := c_win c; c_sclosed := true; c_syn_acked := c_syn_acked c;
     c_recv := c_recv c; c_need_ack := c_need_ack c; c_last_adv := c_last_adv c; c_ws := c_ws c;
     c_rst_if_payload := c_rst_if_payload c; c_reset := c_reset c; c_need_rst := c_need_rst c |}.
Definition set_syn_acked (c : conn) : conn :=
  {| c_local := c_local c; c_remote := c_remote c; c_sq := c_sq c; c_win := c_win c; c_sclosed := c_sclosed c; c_syn_acked := true;
     c_recv := c_recv c; c_need_ack := c_need_ack c; c_last_adv := c_last_adv c; c_ws := c_ws c;
     c_rst_if_payload := c_rst_if_payload c; c_reset := c_reset c; c_need_rst := c_need_rst c |}.
Definition set_recv (c : conn) (r : option (recvq * bool)) : conn :=
  {| c_local := c_local c; c_remote := c_remote c; c_sq := c_sq c; c_win := c_win c; c_sclosed := c_sclosed c; c_syn_acked := c_syn_acked c;
     c_recv := r; c_need_ack := c_need_ack c; c_last_adv := c_last_adv c; c_ws := c_ws c;
     c_rst_if_payload := c_rst_if_payload c; c_reset := c_reset c; c_need_rst := c_need_rst c |}.
Definition set_need_ack (c : conn) (b : bool) : conn :=
  {| c_local := c_local c; c_remote := c_remote c; c_sq := c_sq c; c_win := c_win c; c_sclosed := c_sclosed c; c_syn_acked := c_syn_acked c;
     c_recv := c_recv c; c_need_ack := b; c_last_adv := c_last_adv c; c_ws := c_ws c;
     c_rst_if_payload := c_rst_if_payload c; c_reset := c_reset c; c_need_rst := c_need_rst c |}.
Definition set_last_adv (c : conn) (w : option Z) : conn :=
  {| c_local := c_local c; c_remote := c_remote c; c_sq := c_sq c; c_win := c_win c; c_sclosed := c_sclosed c; c_syn_acked := c_syn_acked c;
     c_recv := c_recv c; c_need_ack := c_need_ack c; c_last_adv := w; c_ws := c_ws c;
     c_rst_if_payload := c_rst_if_payload c; c_reset := c_reset c; c_need_rst := c_need_rst c |}.
Definition set_ws (c : conn) (w : scaling) : conn :=
  {| c_local := c_local c; c_remote := c_remote c; c_sq := c_sq c; c_win := c_win c; c_sclosed := c_sclosed c; c_syn_acked := c_syn_acked c;
     c_recv := c_recv c; c_need_ack := c_need_ack c; c_last_adv := c_last_adv c; c_ws := w;
     c_rst_if_payload := c_rst_if_payload c; c_reset := c_reset c; c_need_rst := c_need_rst c |}.
Definition set_rst (c : conn) (reset need : bool) : conn :=
  {| c_local := c_local c; c_remote := c_remote c; c_sq := c_sq c; c_win := c_win c; c_sclosed := c_sclosed c; c_syn_acked := c_syn_acked c;
     c_recv := c_recv c; c_need_ack := c_need_ack c; c_last_adv := c_last_adv c; c_ws := c_ws c;
     c_rst_if_payload := c_rst_if_payload c; c_reset := reset; c_need_rst := need |}.
(** connection.rs:85-88 [send_rst_if_recv_payload] *)
Definition rst_if_recv_payload (c : conn) : conn :=
  {| c_local := c_local c; c_remote := c_remote c; c_sq := c_sq c; c_win := c_win c; c_sclosed := c_sclosed c; c_syn_acked := c_syn_acked c;
     c_recv := c_recv c; c_need_ack := c_need_ack c; c_last_adv := c_last_adv c; c_ws := c_ws c;
     c_rst_if_payload := true; c_reset := c_reset c; c_need_rst := c_need_rst c |}.

(** connection.rs:36-62 [new]; [scaled] is [config.window_scaling_enabled] *)
Definition conn_new (local remote iss : Z) (scaled : bool) : option conn :=
  do q <- sq_new iss;
  do w <- (if scaled then Some ws_new else ws_disable ws_new);
  Some {| c_local := local; c_remote := remote; c_sq := q; c_win := 2048; c_sclosed := false; c_syn_acked := false;
          c_recv := None; c_need_ack := true; c_last_adv := None; c_ws := w;
          c_rst_if_payload := false; c_reset := false; c_need_rst := false |}.

(** connection.rs:72-88 [packet_addrs_match], [send_fin], [send_rst] *)
Definition addrs_match (c : conn) (h : header) : bool := (h_src h =? c_remote c) && (h_dst h =? c_local c).
Definition send_fin (c : conn) : option conn :=
  do q <- add_fin_s (c_sq c); Some (set_sclosed (set_sq c q)).
Definition send_rst (c : conn) : conn := set_rst c true true.

(** connection.rs:90-106 [send], 611-618 [send_buf_has_space] *)
Inductive send_res : Type := SOk (n : Z) | SFull | SIo.
Definition has_space (c : conn) : bool := sq_len (c_sq c) <? SEND_BUF_MAX.
Definition conn_send (c : conn) (reader : list Z) (n : Z) : option (conn * send_res) :=
  if negb (has_space c) then Some (c, SFull)
  else
    let n := Z.min n (Z.max 0 (SEND_BUF_MAX - sq_len (c_sq c))) in
    do r <- add_data (S (Z.to_nat n)) (c_sq c) reader n;
    let '(q, ok) := r in
    Some (set_sq c q, if ok then SOk n else SIo).

(** connection.rs:108-116 [recv] *)
Inductive recv_res : Type := ROk (bytes : list Z) | REmpty | RIo (written : list Z).
Definition conn_recv (c : conn) (room : option Z) (n : Z) : option (conn * recv_res) :=
  match c_recv c with
  | None => None
  | Some (q, closed) =>
      if rq_is_empty q then Some (c, REmpty)
      else
        do r <- rq_read q room n;
        let '(q, bytes, ok) := r in
        Some (set_recv c (Some (q, closed)), if ok then ROk bytes else RIo bytes)
  end.

(** connection.rs:633-664 [send_window], [recv_window_len], [recv_window] *)
Definition send_window (c : conn) : range :=
  {| start := sstart (c_sq c); end_ := seq_add (sstart (c_sq c)) (c_win c) |}.
Definition recv_window (c : conn) : option range :=
  match c_recv c with
  | None => None
  | Some (q, _) =>
      let n := Z.min (Z.max 0 (RECV_BUF_MAX - rq_len q)) (recv_window_max (c_ws c)) in
      Some {| start := rend q; end_ := seq_add (rend q) n |}
  end.
Definition recv_window_len (c : conn) : Z :=
  match recv_window c with
  | Some w => len w
  | None => Z.min RECV_BUF_MAX (recv_window_max (c_ws c))
  end.

(** connection.rs:798-822 [trim_chunk] *)
Definition trim_chunk (s : Z) (chunk : list Z) (w : range) : option (list Z) :=
  match intersection {| start := s; end_ := seq_add s (zlen chunk) |} w with
  | None => None
  | Some i => Some (zfirst (len i) (zskip (seq_diff (start i) s) chunk))
  end.
(** connection.rs:755-796 [trim_payload] (outer [None]: the length assertion fails). [advance] in
    [trim_chunk] panics when the offset is past the end of the chunk, see [trim_chunks]. *)
Fixpoint trim_chunks (s : Z) (p : payload) (w : range) : option payload :=
  match p with
  | [] => Some []
  | c :: p =>
      check (match intersection {| start := s; end_ := seq_add s (zlen c) |} w with
             | Some i => seq_diff (start i) s <=? zlen c
             | None => true
             end);
      do r <- trim_chunks (seq_add s (zlen c)) p w;
      Some (match trim_chunk s c w with Some c' => c' | None => [] end :: r)
  end.
Definition trim_payload (s : Z) (p : payload) (w : range) : option (option (Z * payload)) :=
  do n <- pay_len p;
  let r := {| start := s; end_ := seq_add s n |} in
  match intersection r w with
  | None => Some None
  | Some i =>
      if range_eqb r i then Some (Some (s, p))
      else
        do p' <- trim_chunks s p w;
        do n' <- pay_len p';
        check (n' =? len i);
        Some (Some (start i, p'))
  end.

Definition b2z (b : bool) : Z := if b then 1 else 0.
(** connection.rs:707-753 [trim_segment] *)
Definition trim_segment (h : header) (p : payload) (w : range) : option (option (header * payload)) :=
  do n <- pay_len p;
  let r := {| start := h_seq h; end_ := seq_add (seq_add (seq_add (h_seq h) (b2z (h_syn h))) n) (b2z (h_fin h)) |} in
  match intersection r w with
  | None => Some None
  | Some i =>
      if range_eqb i r then Some (Some (h, p))
      else
        let include_syn := h_syn h && contains w (start r) in
        let include_fin := h_fin h && contains w (seq_sub (end_ r) 1) in
        do t <- trim_payload (seq_add (h_seq h) (b2z (h_syn h))) p w;
        do p' <- match t with
                 | Some (s, p') => check (s =? seq_add (start i) (b2z include_syn)); Some p'
                 | None => Some []
                 end;
        Some (Some ({| h_src := h_src h; h_dst := h_dst h; h_syn := include_syn; h_fin := include_fin; h_rst := h_rst h; h_ack := h_ack h;
                       h_seq := start i; h_acknum := h_acknum h; h_win := h_win h; h_scale := h_scale h |}, p'))
  end.

Fixpoint add_chunks (q : recvq) (p : payload) : option recvq :=
  match p with
  | [] => Some q
  | c :: p => do q <- add_r q c; add_chunks q p
  end.

(** connection.rs:241-289, the payload, SYN and FIN of a trimmed segment. [None] inside is the
    second SYN. *)
Definition take_segment (q : recvq) (closed : bool) (h : header) (p : payload) : option (option (recvq * bool * Z)) :=
  if closed then Some (Some (q, closed, 0))
  else
    if h_syn h && rsyn q then Some None
    else
      do q <- (if h_syn h then add_syn_r q else Some q);
      do n <- pay_len p;
      let payload_seq := seq_add (h_seq h) (b2z (h_syn h)) in
      let fin_seq := seq_add payload_seq n in
      do r <- (if negb (n =? 0) && (payload_seq =? rend q) then do q <- add_chunks q p; Some (q, n) else Some (q, 0));
      let '(q, pushed) := r in
      if h_fin h && (fin_seq =? rend q) then do q <- add_fin_r q; Some (Some (q, true, pushed))
      else Some (Some (q, closed, pushed)).

(** connection.rs:298-323, the window and acknowledgement of a segment *)
Definition take_ack (c : conn) (h : header) : option conn :=
  if h_ack h then
    let valid := {| start := seq_add (sstart (c_sq c)) 1; end_ := seq_add (send_ (c_sq c)) 1 |} in
    if contains valid (h_acknum h) then
      let c := if negb (h_acknum h =? sstart (c_sq c)) then set_syn_acked c else c in
      do q <- advance_start (c_sq c) (h_acknum h);
      Some (set_sq c q)
    else Some c
  else Some c.

(** connection.rs:183-192, the first SYN *)
Definition take_syn (c : conn) (h : header) : option conn :=
  if is_none (c_recv c) && h_syn h then
    do w <- received_syn (c_ws c) (h_scale h);
    Some (set_ws (set_recv c (Some (rq_new (h_seq h), false))) w)
  else Some c.
(** connection.rs:207-325, what follows in [push_packet] *)
Definition push_segment (c : conn) (h : header) (p : payload) : option (conn * Z) :=
  let had_syn := h_syn h in
  do w <- recv_window c;
  do t <- trim_segment h p w;
  match t with
  | None => Some (set_need_ack c true, 0)
  | Some (h, p) =>
      match c_recv c with
      | None => Some (send_rst c, 0)
      | Some (q, closed) =>
          if c_rst_if_payload c && negb (pay_empty p) then Some (send_rst c, 0)
          else if closed && (negb (pay_empty p) || h_syn h || h_fin h) then Some (send_rst c, 0)
          else
            do r <- take_segment q closed h p;
            match r with
            | None => Some (send_rst c, 0)
            | Some (q', closed', pushed) =>
                let c := set_recv c (Some (q', closed')) in
                let c := if negb (rend q' =? rend q) then set_need_ack c true else c in
                do c <- (if had_syn then Some (set_win c (h_win h))
                         else do s <- send_shift (c_ws c); Some (set_win c (Z.shiftl (h_win h) s)));
                do c <- take_ack c h;
                Some (c, pushed)
            end
      end
  end.
(** connection.rs:118-325 [push_packet]; the number is the count of payload bytes accepted *)
Definition push_packet (c : conn) (h : header) (p : payload) : option (conn * Z) :=
  check (negb (c_reset c));
  if h_rst h then
    match recv_window c with
    | None => Some (set_rst c true (c_need_rst c), 0)
    | Some w =>
        if h_seq h =? start w then Some (set_rst c true (c_need_rst c), 0)
        else if contains w (h_seq h) then Some (set_need_ack c true, 0)
        else Some (c, 0)
    end
  else do c <- take_syn c h; push_segment c h p.

(** connection.rs:514-585 [next_data_segment]: the loop. Outer [None]: a panic (or no fuel). *)
Definition MSS : Z := 1500.
Record acc : Type := { a_chunks : payload; a_syn : bool; a_fin : bool; a_start : option Z; a_len : Z; a_bytes : Z }.
Definition acc0 : acc := {| a_chunks := []; a_syn := false; a_fin := false; a_start := None; a_len := 0; a_bytes := 0 |}.
Fixpoint data_loop (fuel : nat) (q : sendq) (w : range) (a : acc) : option acc :=
  match fuel with
  | O => None
  | S fuel =>
      do n <- next_not_transmitted q (a_len a);
      match n with
      | None => Some a
      | Some (s, seg) =>
          if negb (contains w s) then Some a
          else if a_bytes a =? MSS then Some a
          else
            let st := match a_start a with None => Some s | x => x end in
            let a' := match seg with
              | Syn => {| a_chunks := a_chunks a; a_syn := true; a_fin := a_fin a; a_start := st; a_len := a_len a + 1; a_bytes := a_bytes a |}
              | Fin => {| a_chunks := a_chunks a; a_syn := a_syn a; a_fin := true; a_start := st; a_len := a_len a + 1; a_bytes := a_bytes a |}
              | Data chunk =>
                  let allowed := Z.min (Z.max 0 (MSS - a_bytes a)) (seq_diff (end_ w) s) in
                  let chunk := zfirst (Z.min (zlen chunk) allowed) chunk in
                  {| a_chunks := a_chunks a ++ [chunk]; a_syn := a_syn a; a_fin := a_fin a; a_start := st;
                     a_len := a_len a + zlen chunk; a_bytes := a_bytes a + zlen chunk |}
              end in
            check (a_bytes a' <=? MSS);
            data_loop fuel q w a'
      end
  end.
(** A segment to send: its sequence range, SYN, FIN and RST flags and payload. *)
Record out_seg : Type := { o_range : range; o_syn : bool; o_fin : bool; o_rst : bool; o_pay : payload }.
Definition next_data_segment (c : conn) : option (option out_seg) :=
  do a <- data_loop (S (S (length (segs (c_sq c))))) (c_sq c) (send_window c) acc0;
  if negb (match a_chunks a with [] => true | _ => false end) || a_syn a || a_fin a then
    do s <- a_start a;
    Some (Some {| o_range := {| start := s; end_ := seq_add s (a_len a) |}; o_syn := a_syn a; o_fin := a_fin a; o_rst := false; o_pay := a_chunks a |})
  else Some None.

(** connection.rs:444-512 [_next_segment] *)
Definition unsent_seq (q : sendq) : option Z :=
  do n <- next_not_transmitted q 0;
  Some (match n with Some (s, _) => s | None => send_ q end).
Definition next_segment (c : conn) : option (option out_seg) :=
  if c_need_rst c then
    do s <- unsent_seq (c_sq c);
    Some (Some {| o_range := {| start := s; end_ := s |}; o_syn := false; o_fin := false; o_rst := true; o_pay := [] |})
  else if c_reset c then Some None
  else
    do d <- next_data_segment c;
    do o <- match d with
            | Some o => Some (Some o)
            | None =>
                do update <- match recv_window c with
                             | None => Some false
                             | Some w =>
                                 do s <- recv_shift (c_ws c);
                                 let apparent := Z.shiftl (Z.shiftr (len w) s) s in
                                 Some (negb (match c_last_adv c with Some x => x =? apparent | None => false end))
                             end;
                if c_need_ack c || update then
                  do s <- unsent_seq (c_sq c);
                  Some (Some {| o_range := {| start := s; end_ := s |}; o_syn := false; o_fin := false; o_rst := false; o_pay := [] |})
                else Some None
            end;
    match o with
    | None => Some None
    | Some o => if negb (o_syn o) && negb (is_configured (c_ws c)) then Some None else Some (Some o)
    end.
(** connection.rs:427-431 [wants_to_send] *)
Definition wants_to_send (c : conn) : option bool := do o <- next_segment c; Some (negb (is_none o)).

(** connection.rs:327-418 [pop_packet] *)
Definition pop_packet (c : conn) : option (conn * option (header * payload)) :=
  do o <- next_segment c;
  match o with
  | None => Some (c, None)
  | Some o =>
      let '(ackflag, acknum) := match c_recv c with Some (q, _) => (true, rend q) | None => (false, 0) end in
      do r <- (if o_syn o then
                 let scale := if can_send_scale (c_ws c) then Some (scale_shift RECV_BUF_MAX) else None in
                 let size := recv_window_len c in
                 check (size <=? U16_MAX);
                 do w <- sent_syn (c_ws c) scale;
                 Some (set_ws (set_last_adv c (Some size)) w, size, scale)
               else
                 do s <- recv_shift (c_ws c);
                 let size := Z.shiftr (recv_window_len c) s in
                 Some (set_last_adv c (Some (Z.shiftl size s)), size, None));
      let '(c, size, scale) := r in
      check (size <=? U16_MAX);
      let h := {| h_src := c_local c; h_dst := c_remote c; h_syn := o_syn o; h_fin := o_fin o; h_rst := o_rst o; h_ack := ackflag;
                  h_seq := start (o_range o); h_acknum := acknum; h_win := size; h_scale := scale |} in
      let c := set_need_ack c false in
      do q <- mark_as_transmitted (c_sq c) (end_ (o_range o));
      let c := set_sq c q in
      do c <- (if o_rst o then check (c_need_rst c); Some (set_rst c (c_reset c) false) else Some c);
      Some (c, Some (h, o_pay o))
  end.

(** connection.rs:587-631 *)
Definition received_fin (c : conn) : bool := match c_recv c with Some (_, closed) => closed | None => false end.
Definition fin_was_acked (c : conn) : bool := c_sclosed c && (sstart (c_sq c) =? send_ (c_sq c)).
Definition recv_has_data (c : conn) : bool := match c_recv c with Some (q, _) => negb (rq_is_empty q) | None => false end.
