(** Model of the bookkeeping of lost packets in Shadow's default TCP socket:
    src/main/host/descriptor/tcp_retransmit_tally.cc, and the parts of
    src/main/host/descriptor/tcp.c that drive it.  Sequence numbers of this
    socket count packets.

    Conventions.  [SeqNum] is an int64 (tcp_retransmit_tally.h:55), modelled by
    [Z]; conversions to uint32 are written out.  A failed [assert] is [None].
    A [Ranges] vector is a list, an iterator a position in it. *)
From Coq Require Import ZArith List Lia Bool.
From Verif Require Import Base.
Import ListNotations.
Local Open Scope Z_scope.

Definition range := (Z * Z)%type.

(** Conversion to uint32. *)
Definition u32 (x : Z) : Z := x mod 2 ^ 32.

(** tcp_retransmit_tally.cc:11-22 [still_sorted_]: the last range itself is not
    looked at. *)
Fixpoint still_sorted (rs : list range) : bool :=
  match rs with
  | [] => true
  | r :: t =>
      match t with
      | [] => true
      | r' :: _ => (fst r <? snd r) && (snd r <? fst r') && still_sorted t
      end
  end.

(** tcp_retransmit_tally.cc:36-38 [range_contains]. *)
Definition range_contains (r : range) (v : Z) : bool := (fst r <=? v) && (v <? snd r).

(** tcp_retransmit_tally.cc:40-42 [range_overlap]. *)
Definition range_overlap (l r : range) : bool := (fst l <? snd r) && (fst r <? snd l).

(** tcp_retransmit_tally.cc:44-46 [range_adj]. *)
Definition range_adj (l r : range) : bool := (snd l =? fst r) || (snd r =? fst l).

(** tcp_retransmit_tally.cc:48-56 [ranges_contains]. *)
Definition ranges_contains (rs : list range) (v : Z) : bool :=
  existsb (fun r => range_contains r v) rs.

(** tcp_retransmit_tally.cc:58-79 [ranges_mergable]: the loop from position [i]
    on; [None] stands for [ranges.end()] in the first component. *)
Fixpoint mergable_from (rs : list range) (i : nat) (first : option nat) (v : range)
  : option nat * nat :=
  match rs with
  | [] => (first, i)
  | r :: t =>
      if fst r <=? snd v then
        mergable_from t (S i)
          (match first with
           | None => if range_overlap r v || range_adj r v then Some i else None
           | Some j => Some j
           end) v
      else (first, i)
  end.

Definition ranges_mergable (rs : list range) (v : range) : option nat * nat :=
  mergable_from rs 0 None v.

(** tcp_retransmit_tally.cc:81-84 [range_merge]. *)
Definition range_merge (x y : range) : range := (Z.min (fst x) (fst y), Z.max (snd x) (snd y)).

(** tcp_retransmit_tally.cc:86-103 [ranges_insert]. *)
Definition ranges_insert (rs : list range) (v : range) : option (list range) :=
  check (still_sorted rs);
  let '(first, second) := ranges_mergable rs v in
  let rs' :=
    match first with
    | None => firstn second rs ++ v :: skipn second rs
    | Some i =>
        firstn i rs
        ++ fold_left range_merge (firstn (second - (i + 1)) (skipn (i + 1) rs))
             (range_merge (nth i rs (0, 0)) v)
           :: skipn second rs
    end in
  check (still_sorted rs');
  Some rs'.

(** tcp_retransmit_tally.cc:105-127 [range_subtract]. *)
Definition range_subtract (l r : range) : list range :=
  if range_overlap l r then
    (if fst l <? fst r then [(fst l, fst r)] else [])
    ++ (if snd r <? snd l then [(snd r, snd l)] else [])
  else [l].

(** tcp_retransmit_tally.cc:142-157: the loop of [ranges_subtract], with
    [lhs_to_consider] in [cur], the ranges after [idx] in [l] and those from
    [jtr] on in [r].  Lines 159-166 are the case of an empty [r].  [fuel] bounds
    the number of rounds; running out is [None], which the theorems exclude. *)
Fixpoint subtract_loop (fuel : nat) (cur : range) (l r : list range) (res : list range)
  : option (list range) :=
  match fuel with
  | O => None
  | S fuel =>
      match r with
      | [] => Some (res ++ cur :: l)
      | y :: r' =>
          if snd y <=? fst cur then subtract_loop fuel cur l r' res
          else if snd cur <=? fst y then
            match l with
            | [] => Some (res ++ [cur])
            | c :: l' => subtract_loop fuel c l' r (res ++ [cur])
            end
          else
            match range_subtract cur y with
            | [a; b] => subtract_loop fuel b l r (res ++ [a])
            | [a] => subtract_loop fuel a l r res
            | _ =>
                match l with
                | [] => Some res
                | c :: l' => subtract_loop fuel c l' r res
                end
            end
      end
  end.

(** tcp_retransmit_tally.cc:129-178 [ranges_subtract]. *)
Definition ranges_subtract (l r : list range) : option (list range) :=
  do res <-
    match r with
    | [] => Some l
    | _ =>
        match l with
        | [] => Some []
        | c :: l' => subtract_loop (2 * (length l + length r) + 2) c l' r []
        end
    end;
  check (forallb (fun x => fst x <? snd x) res);
  check (still_sorted res);
  Some res.

(** tcp_retransmit_tally.h:60-75 [RetransmitTally]; the magic number is left
    out. *)
Record tally : Type := mkTally {
  t_ack : Z;
  t_dup : Z;
  t_marked : list range;
  t_sacked : list range;
  t_retx : list range;
  t_lost : list range
}.

(** tcp_retransmit_tally.cc:276-282 the constructor. *)
Definition tally_init : tally := mkTally (-1) 0 [] [] [] [].

(** tcp_retransmit_tally.cc:295-298 [compute_lost]. *)
Definition compute_lost (t : tally) : option tally :=
  do l <- ranges_subtract (t_marked t) (t_sacked t);
  do l <- ranges_subtract l (t_retx t);
  Some (mkTally (t_ack t) (t_dup t) (t_marked t) (t_sacked t) (t_retx t) l).

(** tcp_retransmit_tally.cc:300-318 [tidy_ranges]. *)
Definition tidy_ranges (ack : Z) (rs : list range) : option (list range) :=
  check (still_sorted rs);
  let rs' :=
    match rs with
    | [] => []
    | r :: t =>
        if (fst r <=? ack) && (ack <? snd r - 1) then (ack, snd r) :: t
        else if snd r - 1 <=? ack then filter (fun x => negb (snd x <=? ack)) rs
        else rs
    end in
  check (still_sorted rs');
  Some rs'.

(** tcp_retransmit_tally.h:66 [kDuplAckLostThresh]. *)
Definition DUP_THRESH : Z := 3.

(** tcp_retransmit_tally.cc:195-224 [retransmit_tally_update]; [max_ack] is not
    used there.  The answer is whether [TCP_PF_DATA_LOST_] is returned. *)
Definition tally_update (ack : Z) (dup : bool) (t : tally) : option (tally * bool) :=
  do t <-
    if dup && (ack =? t_ack t) then
      Some (mkTally (t_ack t) (t_dup t + 1) (t_marked t) (t_sacked t) (t_retx t) (t_lost t))
    else if t_ack t <? ack then
      do m <- tidy_ranges ack (t_marked t);
      do s <- tidy_ranges ack (t_sacked t);
      do r <- tidy_ranges ack (t_retx t);
      Some (mkTally ack 0 m s r (t_lost t))
    else Some t;
  if (DUP_THRESH <=? t_dup t) && negb (ranges_contains (t_retx t) (t_ack t)) then
    let right_edge := u32 (t_ack t + 1) in
    do m <- ranges_insert (t_marked t) (t_ack t, right_edge);
    do t <- compute_lost (mkTally (t_ack t) (t_dup t) m (t_sacked t) (t_retx t) (t_lost t));
    Some (t, negb (Nat.eqb (length (t_lost t)) 0))
  else Some (t, false).

(** tcp_retransmit_tally.cc:226-236 [retransmit_tally_mark_sacked]. *)
Fixpoint mark_sacked (blocks : list range) (t : tally) : option tally :=
  match blocks with
  | [] => Some t
  | b :: rest =>
      check (0 <? snd b);
      do s <- ranges_insert (t_sacked t) b;
      mark_sacked rest (mkTally (t_ack t) (t_dup t) (t_marked t) s (t_retx t) (t_lost t))
  end.

(** tcp_retransmit_tally.cc:238-246 [retransmit_tally_mark_lost]. *)
Definition mark_lost (b e : Z) (t : tally) : option tally :=
  if b =? u32 (e + 1) then Some t
  else
    let e := if b =? e then u32 (e + 1) else e in
    check (b <? e);
    do m <- ranges_insert (t_marked t) (b, e);
    compute_lost (mkTally (t_ack t) (t_dup t) m (t_sacked t) (t_retx t) (t_lost t)).

(** tcp_retransmit_tally.cc:248-254 [retransmit_tally_mark_retransmitted]. *)
Definition mark_retransmitted (b e : Z) (t : tally) : option tally :=
  do r <- ranges_insert (t_retx t) (b, e);
  compute_lost (mkTally (t_ack t) (t_dup t) (t_marked t) (t_sacked t) r (t_lost t)).

(** tcp_retransmit_tally.cc:256-259 [retransmit_tally_clear_retransmitted]. *)
Definition clear_retransmitted (t : tally) : tally :=
  mkTally (t_ack t) (t_dup t) (t_marked t) (t_sacked t) [] (t_lost t).

(** tcp.c:1346-1350: the numbers a loop from [b] up to [e] asks
    [_tcp_retransmitPacket] for. *)
Fixpoint numbers_from (b : Z) (n : nat) : list Z :=
  match n with
  | O => []
  | S n => b :: numbers_from (b + 1) n
  end.

Definition numbers (b e : Z) : list Z := numbers_from b (Z.to_nat (e - b)).

(** tcp.c:1341-1355: the loop over the copy of the lost ranges
    (tcp_retransmit_tally.cc:266-274 converts them to uint32). *)
Fixpoint flush_ranges (rs : list range) (t : tally) : option (list Z * tally) :=
  match rs with
  | [] => Some ([], t)
  | r :: rest =>
      let b := u32 (fst r) in
      let e := u32 (snd r) in
      do t <- mark_retransmitted b e t;
      do (out, t) <- flush_ranges rest t;
      Some (numbers b e ++ out, t)
  end.

(** tcp.c:1333-1358: the retransmissions of [_tcp_flush].  The answer is the
    list of sequence numbers that [_tcp_retransmitPacket] is called with. *)
Definition flush (t : tally) : option (list Z * tally) := flush_ranges (t_lost t) t.

(** What happens to a connected socket. *)
Inductive event : Type :=
  (** a packet with its acknowledgement and DUPACK flag if it has any, and its
      selective acknowledgements *)
  | Packet (ack : option (Z * bool)) (sacks : list range)
  (** the retransmission timer expires, with [receive.lastAcknowledgment] and
      [send.highestSequence + 1] *)
  | Timeout (b e : Z).

(** tcp.c:2345-2360 and 2437 of [_tcp_processPacket], with tcp.c:1972-1974 of
    [_tcp_ackProcessing]; and tcp.c:1548-1556 of
    [_tcp_runRetransmitTimerExpiredTask]. *)
Definition handle (ev : event) (t : tally) : option (list Z * tally) :=
  match ev with
  | Packet ack sacks =>
      do t <-
        match ack with
        | None => Some t
        | Some (a, dup) => do (t, _) <- tally_update a dup t; Some t
        end;
      do t <- mark_sacked sacks t;
      flush t
  | Timeout b e =>
      do t <- mark_lost b e (clear_retransmitted t);
      flush t
  end.

(** A run of the socket: the numbers asked for after each event. *)
Fixpoint run (evs : list event) (t : tally) : option (list (list Z) * tally) :=
  match evs with
  | [] => Some ([], t)
  | ev :: rest =>
      do (out, t) <- handle ev t;
      do (outs, t) <- run rest t;
      Some (out :: outs, t)
  end.

(** ** The receiving side *)

(** tcp.c:1249-1287 [_tcp_selective_acks_from_list], the loop: [cur] is
    [ranges\[i\]] with the ranges before it in [done]. *)
Fixpoint sacks_loop (l : list Z) (done : list range) (cur : range) : list range :=
  match l with
  | [] => done ++ [cur]
  | seq :: t =>
      if seq =? snd cur then sacks_loop t done (fst cur, u32 (snd cur + 1))
      else if snd cur <? seq then
        if Nat.leb 4 (length done + 1) then done ++ [cur]
        else sacks_loop t (done ++ [cur]) (seq, u32 (seq + 1))
      else sacks_loop t done cur
  end.

Definition selective_acks_from_list (l : list Z) : list range :=
  match l with
  | [] => []
  | seq :: t => sacks_loop t [] (seq, u32 (seq + 1))
  end.

(** [g_list_insert_sorted] with tcp.c:999-1003 [_tcp_compare_sequence]: the new
    element goes before the first that is not smaller. *)
Fixpoint insert_sorted (x : Z) (l : list Z) : list Z :=
  match l with
  | [] => [x]
  | y :: t => if y <? x then y :: insert_sorted x t else x :: l
  end.

(** tcp.c:1850-1874 [_tcp_removeSacks]; the list is sorted already, so that
    sorting the remaining elements again gives them in their order. *)
Definition remove_sacks (l : list Z) (seq : Z) : list Z := filter (fun x => seq <? x) l.

(** tcp.c:1908-1917: the number up to which the loop goes over the list. *)
Fixpoint first_gap (seq curr : Z) (l : list Z) : Z :=
  match l with
  | [] => curr
  | next :: t =>
      if (u32 (curr + 1) <? next) && (seq <? curr) then curr else first_gap seq next t
  end.

(** tcp.c:1896-1922 and 1927 of [_tcp_dataProcessing], for a packet in the
    receive window: the new list of selective acknowledgements, and whether the
    packet is kept. *)
Definition data_processing (seq next : Z) (fits waiting : bool) (sacks : list Z)
  : list Z * bool :=
  let is_next := seq =? next in
  let sacks' :=
    if negb is_next && fits then insert_sorted seq sacks
    else
      match sacks with
      | [] => []
      | f :: t =>
          if f <=? u32 (seq + 1) then remove_sacks sacks (first_gap seq f t) else sacks
      end in
  (sacks', (is_next && negb waiting) || fits).

(** A run of the receiver: packets in the window, with the next number expected
    and whether there is room for each; the numbers kept so far. *)
Fixpoint receive (l : list (Z * Z * bool * bool)) (sacks kept : list Z) : list Z * list Z :=
  match l with
  | [] => (sacks, kept)
  | (seq, next, fits, waiting) :: t =>
      let '(sacks, keep) := data_processing seq next fits waiting sacks in
      receive t sacks (if keep : bool then seq :: kept else kept)
  end.
