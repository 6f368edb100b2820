(** The TCP library's send and receive queues and its window scaling.
    /repo/src/lib/tcp/src/{buffer,window_scaling}.rs

    Bytes are numbers; a [Bytes] object is a list of them. A reader is the list of bytes it can still
    give, a writer the number of bytes it can still take ([None]: any number); reading or writing more
    is the I/O error. The time stamp [time_last_segment_sent] is written but never read by the library
    and is left out. *)
From Verif Require Import Base SeqModel.

Definition zlen {A} (l : list A) : Z := Z.of_nat (length l).
Definition zfirst {A} (n : Z) (l : list A) : list A := firstn (Z.to_nat n) l.
Definition zskip {A} (n : Z) (l : list A) : list A := skipn (Z.to_nat n) l.

(** buffer.rs:338-352 [Segment], [len] *)
Inductive segment : Type := Data (l : list Z) | Syn | Fin.
Definition seg_len (s : segment) : Z := match s with Data l => zlen l | _ => 1 end.

(** buffer.rs:9-20 [SendQueue]; [unused] is the length of the preallocated buffer *)
Record sendq : Type := { segs : list segment; tx : Z; sstart : Z; send_ : Z; sfin : bool; unused : Z }.
Definition set_unused (q : sendq) (u : Z) : sendq :=
  {| segs := segs q; tx := tx q; sstart := sstart q; send_ := send_ q; sfin := sfin q; unused := u |}.
Definition set_front (q : sendq) (l : list segment) (s : Z) : sendq :=
  {| segs := l; tx := tx q; sstart := s; send_ := send_ q; sfin := sfin q; unused := unused q |}.
Definition set_tx (q : sendq) (t : Z) : sendq :=
  {| segs := segs q; tx := t; sstart := sstart q; send_ := send_ q; sfin := sfin q; unused := unused q |}.

(** buffer.rs:96-109 [add_segment] *)
Definition add_segment (q : sendq) (s : segment) : option sendq :=
  check (negb (sfin q));
  let fin' := match s with Fin => true | _ => sfin q end in
  if seg_len s =? 0 then
    Some {| segs := segs q; tx := tx q; sstart := sstart q; send_ := send_ q; sfin := fin'; unused := unused q |}
  else
    Some {| segs := segs q ++ [s]; tx := tx q; sstart := sstart q; send_ := seq_add (send_ q) (seg_len s); sfin := fin'; unused := unused q |}.

(** buffer.rs:22-45 [new], [add_syn], [add_fin] *)
Definition sq_new (iss : Z) : option sendq :=
  add_segment {| segs := []; tx := iss; sstart := iss; send_ := iss; sfin := false; unused := 0 |} Syn.
Definition add_fin_s (q : sendq) : option sendq := add_segment q Fin.

(** buffer.rs:47-94 [add_data]. The boolean is [Ok]; [None] is a panic (or no fuel). *)
Fixpoint add_data (fuel : nat) (q : sendq) (reader : list Z) (n : Z) : option (sendq * bool) :=
  match fuel with
  | O => None
  | S fuel =>
      if n <=? 0 then Some (q, true)
      else
        let u := if unused q =? 0 then Z.max (Z.min n 10000) 2000 else unused q in
        let to_read := Z.min n u in
        let q := set_unused q (u - to_read) in
        if zlen reader <? to_read then Some (q, false)
        else
          do q <- add_segment q (Data (zfirst to_read reader));
          add_data fuel q (zskip to_read reader) (n - to_read)
  end.

(** buffer.rs:111-125 *)
Definition sq_range (q : sendq) : range := {| start := sstart q; end_ := send_ q |}.
Definition sq_contains (q : sendq) (s : Z) : bool := contains (sq_range q) s.
Definition sq_len (q : sendq) : Z := seq_diff (send_ q) (sstart q).

(** buffer.rs:127-155 [advance_start] *)
Fixpoint advance_loop (fuel : nat) (q : sendq) (new_start : Z) : option sendq :=
  match fuel with
  | O => None
  | S fuel =>
      if sstart q =? new_start then Some q
      else
        let by_ := seq_diff new_start (sstart q) in
        match segs q with
        | [] => None
        | front :: rest =>
            if seg_len front <=? by_ then advance_loop fuel (set_front q rest (seq_add (sstart q) (seg_len front))) new_start
            else
              match front with
              | Data l =>
                  let l' := zskip by_ l in
                  check (negb (zlen l' =? 0));
                  advance_loop fuel (set_front q (Data l' :: rest) (seq_add (sstart q) by_)) new_start
              | _ => None
              end
        end
  end.
Definition advance_start (q : sendq) (new_start : Z) : option sendq :=
  check (sq_contains q new_start || (new_start =? send_ q));
  advance_loop (S (S (length (segs q)))) q new_start.

(** buffer.rs:157-197 [next_not_transmitted]; [None] is the [unreachable!] *)
Fixpoint find_segment (l : list segment) (cursor target : Z) : option segment :=
  match l with
  | [] => None
  | s :: l =>
      if contains {| start := cursor; end_ := seq_add cursor (seg_len s) |} target then
        Some (match s with Data c => Data (zskip (seq_diff target cursor) c) | s => s end)
      else find_segment l (seq_add cursor (seg_len s)) target
  end.
Definition next_not_transmitted (q : sendq) (offset : Z) : option (option (Z * segment)) :=
  let target := seq_add (tx q) offset in
  if negb (sq_contains q target) then Some None
  else do s <- find_segment (segs q) (sstart q) target; Some (Some (target, s)).

(** buffer.rs:199-207 [mark_as_transmitted] *)
Definition mark_as_transmitted (q : sendq) (up_to : Z) : option sendq :=
  check (sq_contains q up_to || (up_to =? send_ q));
  Some (set_tx q up_to).

(** buffer.rs:210-231 [RecvQueue] *)
Record recvq : Type := { rsegs : list (list Z); rstart : Z; rend : Z; rsyn : bool; rfin : bool }.
Definition rq_new (irs : Z) : recvq := {| rsegs := []; rstart := irs; rend := irs; rsyn := false; rfin := false |}.

(** buffer.rs:233-262 [add_syn], [add_fin], [add] *)
Definition add_syn_r (q : recvq) : option recvq :=
  check (negb (rsyn q));
  Some {| rsegs := rsegs q; rstart := seq_add (rstart q) 1; rend := seq_add (rend q) 1; rsyn := true; rfin := rfin q |}.
Definition add_fin_r (q : recvq) : option recvq :=
  check (rsyn q); check (negb (rfin q));
  Some {| rsegs := rsegs q; rstart := seq_add (rstart q) 1; rend := seq_add (rend q) 1; rsyn := rsyn q; rfin := true |}.
Definition add_r (q : recvq) (data : list Z) : option recvq :=
  check (rsyn q); check (negb (rfin q));
  if zlen data =? 0 then Some q
  else Some {| rsegs := rsegs q ++ [data]; rstart := rstart q; rend := seq_add (rend q) (zlen data); rsyn := rsyn q; rfin := rfin q |}.

(** buffer.rs:264-277 *)
Definition rq_len (q : recvq) : Z := seq_diff (rend q) (rstart q).
Definition rq_is_empty (q : recvq) : bool := rq_len q =? 0.

(** buffer.rs:279-307 [pop] *)
Definition rq_pop (q : recvq) (n : Z) : option (recvq * option (list Z)) :=
  match rsegs q with
  | [] => Some (q, None)
  | c :: rest =>
      let '(seg, l') := if n <? zlen c then (zfirst n c, zskip n c :: rest) else (c, rest) in
      check (negb (zlen seg =? 0) || (n =? 0));
      Some ({| rsegs := l'; rstart := seq_add (rstart q) (zlen seg); rend := rend q; rsyn := rsyn q; rfin := rfin q |}, Some seg)
  end.

(** buffer.rs:309-334 [read]: the bytes the writer took, and whether the call succeeded. *)
Fixpoint read_loop (fuel : nat) (q : recvq) (room : option Z) (n : Z) (acc : list Z) : option (recvq * list Z * bool) :=
  match fuel with
  | O => None
  | S fuel =>
      if n <=? zlen acc then Some (q, acc, true)
      else
        let remaining := n - zlen acc in
        do r <- rq_pop q (Z.min remaining U32_MAX);
        let '(q, d) := r in
        match d with
        | None => Some (q, acc, true)
        | Some data =>
            check (zlen data <=? remaining);
            match room with
            | Some c => if c <? zlen data then Some (q, acc ++ zfirst c data, false)
                        else read_loop fuel q (Some (c - zlen data)) n (acc ++ data)
            | None => read_loop fuel q None n (acc ++ data)
            end
        end
  end.
Definition rq_read (q : recvq) (room : option Z) (n : Z) : option (recvq * list Z * bool) :=
  if rq_is_empty q then Some (q, [], true) else read_loop (S (S (length (rsegs q)))) q room n [].

(** window_scaling.rs:1-24 [WindowScaling] *)
Record scaling : Type := { w_sent : bool; w_received : bool; w_recv : option Z; w_send : option Z; w_disabled : bool }.
Definition ws_new : scaling := {| w_sent := false; w_received := false; w_recv := None; w_send := None; w_disabled := false |}.

(** window_scaling.rs:26-48 [scale_shift_for_max_window] *)
Definition scale_shift (window : Z) : Z :=
  let window := Z.min window (Z.shiftl 65535 14) in
  if window =? 0 then 0 else Z.min (Z.max 0 (Z.log2 window - 15)) 14.

(** window_scaling.rs:50-55 [disable] *)
Definition ws_disable (w : scaling) : option scaling :=
  check (negb (w_sent w));
  Some {| w_sent := w_sent w; w_received := w_received w; w_recv := w_recv w; w_send := w_send w; w_disabled := true |}.

Definition is_none {A} (o : option A) : bool := match o with None => true | Some _ => false end.
(** window_scaling.rs:57-85 [sent_syn] *)
Definition sent_syn (w : scaling) (scale : option Z) : option scaling :=
  check (negb (w_sent w));
  check (negb (w_disabled w) || is_none scale);
  check (negb (w_received w && is_none (w_send w)) || is_none scale);
  check (match scale with Some s => s <=? 14 | None => true end);
  Some {| w_sent := true; w_received := w_received w; w_recv := scale; w_send := w_send w; w_disabled := w_disabled w |}.
(** window_scaling.rs:87-103 [received_syn] *)
Definition received_syn (w : scaling) (scale : option Z) : option scaling :=
  check (negb (w_received w));
  Some {| w_sent := w_sent w; w_received := true; w_recv := w_recv w;
          w_send := match scale with Some s => Some (if 14 <? s then 14 else s) | None => None end; w_disabled := w_disabled w |}.
(** window_scaling.rs:105-116 *)
Definition can_send_scale (w : scaling) : bool := negb (w_disabled w || (w_received w && is_none (w_send w))).
Definition is_configured (w : scaling) : bool := w_disabled w || (w_sent w && w_received w).
(** window_scaling.rs:118-166 *)
Definition recv_shift0 (w : scaling) : Z :=
  if w_disabled w then 0 else match w_recv w, w_send w with Some r, Some _ => r | _, _ => 0 end.
Definition send_shift0 (w : scaling) : Z :=
  if w_disabled w then 0 else match w_send w, w_recv w with Some s, Some _ => s | _, _ => 0 end.
Definition recv_shift (w : scaling) : option Z := check (is_configured w); Some (recv_shift0 w).
Definition send_shift (w : scaling) : option Z := check (is_configured w); Some (send_shift0 w).
Definition recv_window_max (w : scaling) : Z := Z.shiftl 65535 (recv_shift0 w).
