(** C20: pipes. *)
From Verif Require Import Base ByteQueueModel ByteQueueSpec PipeModel PipeSpec PipeProofs.

(** Over any history with valid memory, what the successful writes put in is what the reads took out
    followed by what is left. A read delivers stream bytes, or a prefix of one packet. *)
Theorem C20_fifo : forall (B : Type) PB chunk mx (w0 wd : world B) ops outs,
  (0 < PB)%nat -> (0 < chunk)%nat -> world_new chunk mx = Some w0 -> pipe_run PB w0 ops = Some (wd, outs) ->
  Forall clean ops -> exists adds rems, length outs = length ops /\
    Forall2 (fun ox a => puts (fst ox) (snd ox) a) (combine ops outs) adds /\
    Forall2 (fun ox r => gets (fst ox) (snd ox) r) (combine ops outs) rems /\
    concat adds = concat rems ++ held wd.
Proof. exact @pfifo_main. Qed.
Print Assumptions C20_fifo.

(** Without O_DIRECT the bytes received, followed by those still held, are the bytes sent. *)
Theorem C20_bytes : forall (B : Type) PB chunk mx (w0 wd : world B) ops outs,
  (0 < PB)%nat -> (0 < chunk)%nat -> world_new chunk mx = Some w0 -> pipe_run PB w0 ops = Some (wd, outs) ->
  Forall clean ops -> Forall stream_only ops ->
  concat (map (fun ox => sent (fst ox) (snd ox)) (combine ops outs)) = concat (map received outs) ++ bytes_of (held wd).
Proof. exact @stream_main. Qed.
Print Assumptions C20_bytes.

(** The buffer never holds more than its capacity, faults included. *)
Theorem C20_capacity : forall (B : Type) PB chunk mx (w0 wd : world B) ops outs,
  (0 < PB)%nat -> (0 < chunk)%nat -> world_new chunk mx = Some w0 -> pipe_run PB w0 ops = Some (wd, outs) ->
  Forall unblocked ops -> (total_bytes (held wd) <= mx)%nat.
Proof. exact @capacity_main. Qed.
Print Assumptions C20_capacity.

(** A read takes the next bytes (or a prefix of the next packet); it would block exactly when there
    is nothing to read and a writer is open. *)
Theorem C20_read : forall (B : Type) PB chunk mx (w0 wd : world B) ops outs,
  (0 < PB)%nat -> (0 < chunk)%nat -> world_new chunk mx = Some w0 -> pipe_run PB w0 ops = Some (wd, outs) ->
  Forall unblocked ops -> forall i p n, open_at wd i p -> p_read p = true ->
  exists wd' r out, readv wd i (slice n) n = Some (wd', r, out) /\
    (exists x, read_result (held wd) n x out (held wd')) /\
    (r = inr EWOULDBLOCK <-> held wd = [] /\ n <> O /\ has_writer wd) /\
    (r <> inr EWOULDBLOCK -> r = inl (length out)).
Proof. exact @read_main'. Qed.
Print Assumptions C20_read.

(** End of file is reported exactly when the pipe is empty and no writer is open. *)
Theorem C20_eof : forall (B : Type) PB chunk mx (w0 wd : world B) ops outs,
  (0 < PB)%nat -> (0 < chunk)%nat -> world_new chunk mx = Some w0 -> pipe_run PB w0 ops = Some (wd, outs) ->
  Forall unblocked ops -> forall i p n wd' out, open_at wd i p -> p_read p = true -> (0 < n)%nat ->
  (readv wd i (slice n) n = Some (wd', inl O, out) -> held wd = [] /\ ~ has_writer wd) /\
  (held wd = [] -> ~ has_writer wd -> exists w1, readv wd i (slice n) n = Some (w1, inl O, []) /\ held w1 = []).
Proof. exact @eof_main. Qed.
Print Assumptions C20_eof.

(** A write fails with EPIPE exactly when no reader is open, and then changes nothing. Otherwise it
    appends what fits: as many bytes as there is room for, or as many whole packets. *)
Theorem C20_write : forall (B : Type) PB chunk mx (w0 wd : world B) ops outs,
  (0 < PB)%nat -> (0 < chunk)%nat -> world_new chunk mx = Some w0 -> pipe_run PB w0 ops = Some (wd, outs) ->
  Forall unblocked ops -> forall i p l orc, open_at wd i p -> p_write p = true ->
  exists wd' r, writev PB wd i (mkMem l (length l)) orc = Some (wd', r) /\
    (r = inr EPIPE <-> ~ has_reader wd) /\ (~ has_reader wd -> wd' = wd) /\
    (has_reader wd -> exists added, held wd' = held wd ++ added /\
       (packet_mode wd p -> packet_outcome PB wd l r added) /\ (~ packet_mode wd p -> stream_outcome wd l r added)).
Proof. exact @write_main. Qed.
Print Assumptions C20_write.

(** The status of every file agrees with the buffer and the open files. *)
Theorem C20_status : forall (B : Type) PB chunk mx (w0 wd : world B) ops outs,
  (0 < PB)%nat -> (0 < chunk)%nat -> world_new chunk mx = Some w0 -> pipe_run PB w0 ops = Some (wd, outs) ->
  Forall clean ops -> forall i p, nth_error (w_pipes wd) i = Some p ->
  (p_readable p = true <-> p_closed p = false /\ p_read p = true /\ (held wd <> [] \/ ~ has_writer wd)) /\
  (p_writable p = true <-> p_closed p = false /\ p_write p = true /\ ((total_bytes (held wd) < mx)%nat \/ ~ has_reader wd)).
Proof. exact @status_main. Qed.
Print Assumptions C20_status.

(** No operation on an open file panics. *)
Theorem C20_no_panic : forall (B : Type) PB chunk mx (w0 wd : world B) ops outs,
  (0 < PB)%nat -> (0 < chunk)%nat -> world_new chunk mx = Some w0 -> pipe_run PB w0 ops = Some (wd, outs) ->
  Forall unblocked ops -> forall o, valid_on wd o -> pipe_step PB wd o <> None.
Proof. exact @pno_panic_main. Qed.
Print Assumptions C20_no_panic.

(** Finding: a write that runs into unreadable memory fails, yet its first bytes stay in the pipe and
    the reader is not told. *)
Theorem C20_fault_write_refuted : exists w0 (ops : list (pop_ nat)) wd outs e p,
  world_new 4 8 = Some w0 /\ pipe_run 4 w0 ops = Some (wd, outs) /\ last outs PNone = PWriteRes (inr (EIO e)) /\
  bytes_of (held wd) = [7; 8]%nat /\ open_at wd 0 p /\ p_read p = true /\ p_readable p = false.
Proof. exact fault_write_main. Qed.
Print Assumptions C20_fault_write_refuted.

(** Finding: a failed read of a packet loses the packet, and the file stays readable though a read
    would block. *)
Theorem C20_fault_read_refuted : exists w0 (ops : list (pop_ nat)) wd outs p,
  world_new 4 8 = Some w0 /\ pipe_run 4 w0 ops = Some (wd, outs) /\
  last outs PNone = PReadRes (inr (EIO OtherErr)) [] /\
  concat (map (fun ox => sent (fst ox) (snd ox)) (combine ops outs)) = [7; 8]%nat /\
  concat (map received outs) = [] /\ held wd = [] /\ open_at wd 0 p /\ p_readable p = true /\
  exists w', readv wd 0 (slice 5) 5 = Some (w', inr EWOULDBLOCK, []).
Proof. exact fault_read_main. Qed.
Print Assumptions C20_fault_read_refuted.

(** Finding: reading zero bytes discards the packet at the front. *)
Theorem C20_zero_read_refuted : exists w0 (ops : list (pop_ nat)) wd outs w',
  world_new 4 8 = Some w0 /\ Forall clean ops /\ pipe_run 4 w0 ops = Some (wd, outs) /\ bytes_of (held wd) = [7; 8]%nat /\
  readv wd 0 (slice 0) 0 = Some (w', inl O, []) /\ held w' = [].
Proof. exact zero_read_main. Qed.
Print Assumptions C20_zero_read_refuted.

(** Finding: a write of at most PIPE_BUF bytes is not atomic: it is cut short when there is less room. *)
Theorem C20_atomic_refuted : exists w0 (ops : list (pop_ nat)) wd outs l w' k,
  world_new 4 4 = Some w0 /\ Forall clean ops /\ pipe_run 4 w0 ops = Some (wd, outs) /\ (length l <= 4)%nat /\
  writev 4 wd 1 (mkMem l (length l)) [] = Some (w', inl k) /\ (0 < k < length l)%nat.
Proof. exact atomic_main. Qed.
Print Assumptions C20_atomic_refuted.

(** Witness: two writers, one in packet mode; a full pipe, a blocked read, end of file and EPIPE. *)
Example C20_history :
  match world_new 4 6 with
  | Some w0 =>
      match pipe_run 4 w0
        [PConnect true false false; PConnect false true false; PRead 0 (slice 4) 4; PWrite 1 (mkMem [1; 2; 3; 4; 5; 6; 7] 7) [];
         PWrite 1 (mkMem [8] 1) []; PRead 0 (slice 5) 5; PConnect false true true; PRead 0 (slice 5) 5;
         PWrite 2 (mkMem [10; 11; 12; 13; 14] 5) []; PWrite 1 (mkMem [20] 1) []; PRead 0 (slice 3) 3; PRead 0 (slice 9) 9;
         PClose 1; PClose 2; PRead 0 (slice 9) 9; PRead 0 (slice 9) 9; PConnect false true false; PClose 0;
         PWrite 3 (mkMem [30] 1) []]%nat with
      | Some (wd, outs) => held wd = [] /\ map p_writable (w_pipes wd) = [false; false; false; true] /\
          [nth 2 outs PNone; nth 3 outs PNone; nth 4 outs PNone; nth 5 outs PNone; nth 7 outs PNone; nth 8 outs PNone; nth 9 outs PNone;
           nth 10 outs PNone; nth 11 outs PNone; nth 14 outs PNone; nth 15 outs PNone; nth 18 outs PNone]%nat =
          [PReadRes (inr EWOULDBLOCK) []; PWriteRes (inl 6); PWriteRes (inr EAGAIN); PReadRes (inl 5) [1; 2; 3; 4; 5];
           PReadRes (inl 1) [6]; PWriteRes (inl 5); PWriteRes (inl 1); PReadRes (inl 3) [10; 11; 12]; PReadRes (inl 1) [14];
           PReadRes (inl 1) [20]; PReadRes (inl 0) []; PWriteRes (inr EPIPE)]%nat
      | None => False
      end
  | None => False
  end.
Proof. vm_compute. repeat split. Qed.
