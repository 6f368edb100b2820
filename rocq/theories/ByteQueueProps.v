(** C18: the byte queue. *)
From Verif Require Import Base ByteQueueModel ByteQueueSpec ByteQueueProofs.

(** First in, first out: over any history, what was pushed is what was removed followed by what is
    left. A stream read delivers exactly the bytes removed; a packet read removes one packet and
    delivers a prefix of it; peeking removes nothing. *)
Theorem C18_fifo : forall (B : Type) cap (ops : list (bop B)) q outs,
  (0 < cap)%nat -> bq_run (bq_new cap) ops = Some (q, outs) ->
  exists rems, length outs = length ops /\
    Forall2 (fun ox rem => removes (fst ox) (snd ox) rem) (combine ops outs) rems /\
    added ops outs = concat rems ++ content q.
Proof. exact @fifo_main. Qed.
Print Assumptions C18_fifo.

(** The reported length is the number of bytes held. *)
Theorem C18_length : forall (B : Type) cap (ops : list (bop B)) q outs,
  (0 < cap)%nat -> bq_run (bq_new cap) ops = Some (q, outs) ->
  num_bytes q = total_bytes (content q) /\ drop_ok q = true.
Proof. exact @length_main. Qed.
Print Assumptions C18_length.

(** Emptiness is reported correctly. *)
Theorem C18_has : forall (B : Type) cap (ops : list (bop B)) q outs,
  (0 < cap)%nat -> Forall proper ops -> bq_run (bq_new cap) ops = Some (q, outs) ->
  (has_chunks q = false <-> content q = []) /\ (has_bytes q = false <-> total_bytes (content q) = O).
Proof. exact @has_main. Qed.
Print Assumptions C18_has.

(** Reading into a buffer of [n] bytes gives the next [n] bytes of the stream, up to the next packet,
    or the first [n] bytes of the packet at the front. *)
Theorem C18_read : forall (B : Type) cap (ops : list (bop B)) q outs n,
  (0 < cap)%nat -> Forall proper ops -> bq_run (bq_new cap) ops = Some (q, outs) ->
  exists q' r written, bq_step q (Pop (slice n)) = Some (q', OPop r written) /\
    read_result (content q) n r written (content q').
Proof. exact @read_main. Qed.
Print Assumptions C18_read.

(** Peeking gives the same result and leaves the queue alone. *)
Theorem C18_peek : forall (B : Type) cap (ops : list (bop B)) q outs n,
  (0 < cap)%nat -> Forall proper ops -> bq_run (bq_new cap) ops = Some (q, outs) ->
  exists r written rest, bq_step q (Peek (slice n)) = Some (q, OPeek r written) /\
    read_result (content q) n r written rest.
Proof. exact @peek_main. Qed.
Print Assumptions C18_peek.

(** Pushing a stream takes all the source offers, and reports how much that was. *)
Theorem C18_push_stream : forall (B : Type) cap (ops : list (bop B)) q outs src orc,
  (0 < cap)%nat -> bq_run (bq_new cap) ops = Some (q, outs) ->
  exists q' res, bq_step q (PushStream src orc) = Some (q', OStream res) /\
    (ends src -> res = inl (length (offered false src))) /\ (~ ends src -> exists e, res = inr e).
Proof. exact @push_stream_main. Qed.
Print Assumptions C18_push_stream.

(** Pushing a packet succeeds exactly when the source offers enough bytes; otherwise nothing changes. *)
Theorem C18_push_packet : forall (B : Type) cap (ops : list (bop B)) q outs src n,
  (0 < cap)%nat -> bq_run (bq_new cap) ops = Some (q, outs) ->
  exists q' res, bq_step q (PushPacket src n) = Some (q', OPacket res) /\
    ((n <= length (offered true src))%nat -> res = inl tt) /\
    ((length (offered true src) < n)%nat -> (exists e, res = inr e) /\ q' = q).
Proof. exact @push_packet_main. Qed.
Print Assumptions C18_push_packet.

(** No history panics, unless a writer for a packet blocks. *)
Theorem C18_no_panic : forall (B : Type) cap (ops : list (bop B)),
  (0 < cap)%nat -> Forall nonblocking ops -> bq_run (bq_new cap) ops <> None.
Proof. exact @no_panic_main. Qed.
Print Assumptions C18_no_panic.

(** Finding: "a read with room returns bytes when there are bytes" is false once an empty stream
    chunk has been pushed: it stays at the front and every read returns zero bytes. *)
Theorem C18_progress_refuted : exists (ops : list (bop nat)) q outs n,
  bq_run (bq_new 4) ops = Some (q, outs) /\ num_bytes q = 2%nat /\ (0 < n)%nat /\
  bq_step q (Pop (slice n)) = Some (q, OPop (inl (Some (0, 0, Stream)))%nat []).
Proof. exact progress_refuted_main. Qed.
Print Assumptions C18_progress_refuted.

(** Finding: "peeking delivers a prefix of the stream" is false for a writer that blocks after a
    partial write and then accepts more: the rest of a chunk is skipped. *)
Theorem C18_peek_prefix_refuted : exists (ops : list (bop nat)) q outs w written r,
  Forall proper ops /\ bq_run (bq_new 4) ops = Some (q, outs) /\ bq_step q (Peek w) = Some (q, OPeek r written) /\
  ~ exists rest, content q = map IByte written ++ rest.
Proof. exact peek_gap_refuted_main. Qed.
Print Assumptions C18_peek_prefix_refuted.

(** Witness: stream writes of 3 and 4 bytes in chunks of 4 (the second merged in part), a packet,
    reads of 5 bytes, a truncated packet read and a last read. *)
Example C18_history :
  match bq_run (bq_new 4)
    [PushStream [RData [1; 2; 3]] []; PushStream [RData [4; 5]; RData [6; 7]] [true; false];
     PushPacket [RData [20]; RIntr; RData [21; 22; 23]] 3; PushStream [RData [8]] [];
     Peek (slice 2); Pop (slice 5); PopChunk 1; Pop (mkW [WIntr; WTake 1; WErr] 0); Pop (slice 2); Pop (slice 9);
     Pop (slice 9)]%nat with
  | Some (q, outs) => content q = [] /\ skipn 4 outs =
      [OPeek (inl (Some (2, 2, Stream))) [1; 2]; OPop (inl (Some (5, 5, Stream))) [1; 2; 3; 4; 5];
       OPopChunk (Some ([6], Stream)); OPop (inl (Some (1, 1, Stream))) [7]; OPop (inl (Some (2, 3, Packet))) [20; 21];
       OPop (inl (Some (1, 1, Stream))) [8]; OPop (inl None) []]%nat
  | None => False
  end.
Proof. vm_compute. split; reflexivity. Qed.
