(** Model of src/main/host/descriptor/shared_buf.rs and src/main/host/descriptor/pipe.rs, with the
    event delivery of src/main/utility/callback_queue.rs.
    One shared buffer and the pipe files connected to it. The chunk capacity and PIPE_BUF (both 4096 in the
    code) are parameters. Callbacks queued by an operation run when it ends, in order, as
    [CallbackQueue::queue_and_run] does; a pipe's own listeners are not modelled. Listener handles are
    pipe indices. [None] is a panic. ioctl, lseek, stat are not modelled. *)
From Verif Require Import Base ByteQueueModel.

Section Pipe.
Context {B : Type}.
Variable PIPE_BUF : nat.

(* shared_buf.rs:253-267 *)
Record bstate := mkBS { bs_readable : bool; bs_writable : bool; bs_no_readers : bool; bs_no_writers : bool }.
Definition bs_xor (a b : bstate) : bstate :=
  mkBS (xorb (bs_readable a) (bs_readable b)) (xorb (bs_writable a) (bs_writable b))
       (xorb (bs_no_readers a) (bs_no_readers b)) (xorb (bs_no_writers a) (bs_no_writers b)).
Definition bs_empty (a : bstate) : bool :=
  negb (bs_readable a || bs_writable a || bs_no_readers a || bs_no_writers a).

(* shared_buf.rs:9-16 *)
Record sbuf := mkSB { sb_queue : bq B; sb_max : nat; sb_state : bstate; sb_readers : Z; sb_writers : Z;
                      sb_listeners : list nat }.
(** A queued callback: listener, buffer state, changed bits, BUFFER_GREW *)
Definition msg : Type := nat * bstate * bstate * bool.

(* shared_buf.rs:19-29; [chunk] is 4096 in the code *)
Definition sb_new (chunk max_len : nat) : option sbuf :=
  check (negb (Nat.eqb max_len 0));
  Some (mkSB (bq_new chunk) max_len (mkBS false true true true) 0 0 []).
Definition has_data (b : sbuf) : bool := has_chunks (sb_queue b).
(* shared_buf.rs:39-41; an underflow panics *)
Definition space_available (b : sbuf) : option nat :=
  check (Nat.leb (num_bytes (sb_queue b)) (sb_max b)); Some (sb_max b - num_bytes (sb_queue b))%nat.

(* shared_buf.rs:186-233 *)
Definition refresh_state (b : sbuf) (grew : bool) : option (sbuf * list msg) :=
  do space <- space_available b;
  let new_state := mkBS (has_data b) (Nat.ltb 0 space) (sb_readers b =? 0) (sb_writers b =? 0) in
  let changed := bs_xor new_state (sb_state b) in
  let b' := mkSB (sb_queue b) (sb_max b) new_state (sb_readers b) (sb_writers b) (sb_listeners b) in
  Some (b', if bs_empty changed && negb grew then [] else map (fun i => (i, new_state, changed, grew)) (sb_listeners b)).

Definition set_queue (b : sbuf) (q : bq B) : sbuf := mkSB q (sb_max b) (sb_state b) (sb_readers b) (sb_writers b) (sb_listeners b).
Definition set_counts (b : sbuf) (r w : Z) : sbuf := mkSB (sb_queue b) (sb_max b) (sb_state b) r w (sb_listeners b).
Definition set_listeners (b : sbuf) (l : list nat) : sbuf :=
  mkSB (sb_queue b) (sb_max b) (sb_state b) (sb_readers b) (sb_writers b) l.

(* shared_buf.rs:45-79 (u16 counters) *)
Definition add_reader (b : sbuf) : option (sbuf * list msg) :=
  check (sb_readers b + 1 <=? U16_MAX); refresh_state (set_counts b (sb_readers b + 1) (sb_writers b)) false.
Definition remove_reader (b : sbuf) : option (sbuf * list msg) :=
  check (1 <=? sb_readers b); refresh_state (set_counts b (sb_readers b - 1) (sb_writers b)) false.
Definition add_writer (b : sbuf) : option (sbuf * list msg) :=
  check (sb_writers b + 1 <=? U16_MAX); refresh_state (set_counts b (sb_readers b) (sb_writers b + 1)) false.
Definition remove_writer (b : sbuf) : option (sbuf * list msg) :=
  check (1 <=? sb_writers b); refresh_state (set_counts b (sb_readers b) (sb_writers b - 1)) false.

Inductive perrno := EAGAIN | EMSGSIZE | EIO (e : ioerr) | EBADF | EPIPE | EWOULDBLOCK.

(* shared_buf.rs:91-105; also the bytes given to the writer. An error returns before the refresh. *)
Definition sb_read (b : sbuf) (w : writer) : option (sbuf * list msg * (nat * nat + perrno) * list B) :=
  do (q, r, out) <- pop (sb_queue b) w;
  let b := set_queue b q in
  match r with
  | inr e => Some (b, [], inr (EIO e), out)
  | inl x =>
      let nm := match x with Some (n, m, _) => (n, m) | None => (0, 0)%nat end in
      do (b, ms) <- refresh_state b false; Some (b, ms, inl nm, out)
  end.

(** Read::take(n) *)
Fixpoint take_reader (n : nat) (r : reader B) : reader B :=
  match n, r with
  | O, _ | _, [] => []
  | _, RData l :: r => if Nat.leb n (length l) then [RData (firstn n l)] else RData l :: take_reader (n - length l) r
  | _, e :: r => e :: take_reader n r
  end.
(* shared_buf.rs:107-133; [orc]: see push_stream *)
Definition write_stream (b : sbuf) (src : reader B) (len : nat) (orc : list bool)
  : option (sbuf * list msg * (nat + perrno)) :=
  if Nat.eqb len 0 then Some (b, [], inl 0%nat) else
  do space <- space_available b;
  if Nat.eqb space 0 then Some (b, [], inr EAGAIN) else
  do (q, r) <- push_stream (sb_queue b) (take_reader space src) orc;
  let b := set_queue b q in
  match r with
  | inr e => Some (b, [], inr (EIO e))
  | inl written => do (b, ms) <- refresh_state b (Nat.ltb 0 written); Some (b, ms, inl written)
  end.
(* shared_buf.rs:135-155 *)
Definition sb_write_packet (b : sbuf) (src : reader B) (len : nat) : option (sbuf * list msg * option perrno) :=
  if Nat.ltb (sb_max b) len then Some (b, [], Some EMSGSIZE) else
  do space <- space_available b;
  if Nat.ltb space len then Some (b, [], Some EAGAIN) else
  do (q, r) <- push_packet (sb_queue b) src len;
  let b := set_queue b q in
  match r with
  | inr e => Some (b, [], Some (EIO e))
  | inl _ => do (b, ms) <- refresh_state b true; Some (b, ms, None)
  end.

(* pipe.rs:21-34 (the fields used) and the READABLE, WRITABLE, ACTIVE, CLOSED bits of its state *)
Record pipe := mkP { p_read : bool; p_write : bool; p_direct : bool; p_wmode : ctype;
                     p_buffer : bool; p_reader_handle : bool; p_writer_handle : bool;
                     p_readable : bool; p_writable : bool; p_active : bool; p_closed : bool }.
Record world := mkWd { w_buf : sbuf; w_pipes : list pipe }.

(* pipe.rs:39-52 *)
Definition pipe_new (r w direct : bool) : pipe :=
  mkP r w direct Stream false false false false false true false.

(* pipe.rs:402-478 *)
Definition align_state (p : pipe) (s : bstate) : pipe :=
  if p_closed p then p else
  mkP (p_read p) (p_write p) (p_direct p) (p_wmode p) (p_buffer p) (p_reader_handle p) (p_writer_handle p)
      (if p_read p then bs_readable s || bs_no_writers s else p_readable p)
      (if p_write p then bs_writable s || bs_no_readers s else p_writable p)
      (p_active p) (p_closed p).

(** shared_buf.rs:157-177, pipe.rs:325-367: the callback registered by a pipe *)
Definition monitored (p : pipe) (changed : bstate) : bool :=
  (p_read p && (bs_readable changed || bs_no_writers changed)) ||
  (p_write p && (bs_writable changed || bs_no_readers changed)).
Fixpoint set_pipe (l : list pipe) (i : nat) (p : pipe) : list pipe :=
  match l, i with
  | [], _ => []
  | _ :: r, O => p :: r
  | x :: r, S i => x :: set_pipe r i p
  end.
Definition run_msg (ps : list pipe) (m : msg) : list pipe :=
  let '(i, s, changed, grew) := m in
  match nth_error ps i with
  | Some p => if monitored p changed || grew then set_pipe ps i (align_state p s) else ps
  | None => ps
  end.
(* callback_queue.rs:39-52 *)
Definition run_queue (ps : list pipe) (ms : list msg) : list pipe := fold_left run_msg ms ps.

(* pipe.rs:295-374; the new pipe is the last; it is not a listener while the counts change *)
Definition connect (wd : world) (r w direct : bool) : option world :=
  let i := length (w_pipes wd) in
  let b := w_buf wd in
  do (b, m1) <- (if w then add_writer b else Some (b, []));
  do (b, m2) <- (if r then add_reader b else Some (b, []));
  let b := set_listeners b (sb_listeners b ++ [i]) in
  let p := mkP r w direct Stream true r w false false true false in
  let p := align_state p (sb_state b) in
  Some (mkWd b (run_queue (w_pipes wd ++ [p]) (m1 ++ m2))).

Fixpoint remove_nat (i : nat) (l : list nat) : option (list nat) :=
  match l with
  | [] => None
  | x :: r => if Nat.eqb x i then Some r else do r' <- remove_nat i r; Some (x :: r')
  end.
(* pipe.rs:82-122; [p_buffer]: the file still refers to the buffer and listens to it *)
Definition close (wd : world) (i : nat) : option world :=
  do p <- nth_error (w_pipes wd) i;
  let b := w_buf wd in
  do b <- (if p_buffer p then do l <- remove_nat i (sb_listeners b); Some (set_listeners b l) else Some b);
  do (b, m1) <- (if p_writer_handle p then check (p_buffer p); remove_writer b else Some (b, []));
  do (b, m2) <- (if p_reader_handle p then check (p_buffer p); remove_reader b else Some (b, []));
  let p' := mkP (p_read p) (p_write p) (p_direct p) (p_wmode p) false false false false false false true in
  Some (mkWd b (run_queue (set_pipe (w_pipes wd) i p') (m1 ++ m2))).

(* pipe.rs:124-165; the memory to read into is a writer of [n] bytes *)
Definition readv (wd : world) (i : nat) (w : writer) (n : nat) : option (world * (nat + perrno) * list B) :=
  do p <- nth_error (w_pipes wd) i;
  if negb (p_read p) then Some (wd, inr EBADF, []) else
  check (p_buffer p);
  do (b, ms, r, out) <- sb_read (w_buf wd) w;
  let wd := mkWd b (run_queue (w_pipes wd) ms) in
  Some (wd, match r with
            | inr e => inr e
            | inl (copied, _) =>
                if Nat.eqb copied 0 && negb (Nat.eqb n 0) && (0 <? sb_writers b) then inr EWOULDBLOCK else inl copied
            end, out).

(** Plugin memory to write from: [m_bytes], then a fault if [m_len] is larger. *)
Record mem := mkMem { m_bytes : list B; m_len : nat }.
Definition mem_reader (m : mem) (skip : nat) : reader B :=
  match skipn skip (m_bytes m) with [] => [] | l => [RData l] end ++
  (if Nat.ltb (length (m_bytes m)) (m_len m) then [RErr] else []).

(* pipe.rs:209-234; the reader continues where the previous packet ended *)
Fixpoint packet_loop (fuel : nat) (b : sbuf) (m : mem) (num_written : nat)
  : option (sbuf * list msg * (nat + perrno)) :=
  match fuel with
  | O => None
  | S fuel =>
      let remaining := (m_len m - num_written)%nat in
      if Nat.eqb remaining 0 then Some (b, [], inl num_written) else
      let k := Nat.min remaining PIPE_BUF in
      do (b, ms, e) <- sb_write_packet b (mem_reader m num_written) k;
      match e with
      | Some e => Some (b, ms, if Nat.ltb 0 num_written then inl num_written else inr e)
      | None => do (b, ms', r) <- packet_loop fuel b m (num_written + k); Some (b, ms ++ ms', r)
      end
  end.
(* pipe.rs:167-238 *)
Definition writev (wd : world) (i : nat) (m : mem) (orc : list bool) : option (world * (nat + perrno)) :=
  do p <- nth_error (w_pipes wd) i;
  if negb (p_write p) then Some (wd, inr EBADF) else
  check (p_buffer p);
  let b := w_buf wd in
  if sb_readers b =? 0 then Some (wd, inr EPIPE) else
  let mode := match p_wmode p with
              | Packet => if p_direct p then Packet else Stream
              | Stream => if p_direct p && negb (has_data b) then Packet else Stream
              end in
  let p := mkP (p_read p) (p_write p) (p_direct p) mode (p_buffer p) (p_reader_handle p) (p_writer_handle p)
               (p_readable p) (p_writable p) (p_active p) (p_closed p) in
  do (b, ms, r) <- match mode with
                   | Stream => write_stream b (mem_reader m 0) (m_len m) orc
                   | Packet => packet_loop (S (m_len m)) b m 0
                   end;
  Some (mkWd b (run_queue (set_pipe (w_pipes wd) i p) ms), r).
(* pipe.rs:58-60: fcntl(F_SETFL) with or without O_DIRECT *)
Definition set_direct (wd : world) (i : nat) (d : bool) : option world :=
  do p <- nth_error (w_pipes wd) i;
  Some (mkWd (w_buf wd) (set_pipe (w_pipes wd) i
    (mkP (p_read p) (p_write p) d (p_wmode p) (p_buffer p) (p_reader_handle p) (p_writer_handle p)
         (p_readable p) (p_writable p) (p_active p) (p_closed p)))).

Inductive pop_ :=
| PConnect (r w direct : bool)
| PClose (i : nat)
| PSetDirect (i : nat) (d : bool)
| PRead (i : nat) (w : writer) (n : nat)
| PWrite (i : nat) (m : mem) (orc : list bool).
Inductive pout := PNone | PReadRes (r : nat + perrno) (out : list B) | PWriteRes (r : nat + perrno).
Definition pipe_step (wd : world) (o : pop_) : option (world * pout) :=
  match o with
  | PConnect r w d => do wd' <- connect wd r w d; Some (wd', PNone)
  | PClose i => do wd' <- close wd i; Some (wd', PNone)
  | PSetDirect i d => do wd' <- set_direct wd i d; Some (wd', PNone)
  | PRead i w n => do (wd', r, out) <- readv wd i w n; Some (wd', PReadRes r out)
  | PWrite i m orc => do (wd', r) <- writev wd i m orc; Some (wd', PWriteRes r)
  end.
Fixpoint pipe_run (wd : world) (l : list pop_) : option (world * list pout) :=
  match l with
  | [] => Some (wd, [])
  | o :: r => do (w1, x) <- pipe_step wd o; do (w2, xs) <- pipe_run w1 r; Some (w2, x :: xs)
  end.
Definition world_new (chunk max_len : nat) : option world :=
  do b <- sb_new chunk max_len; Some (mkWd b []).
End Pipe.
Arguments sbuf : clear implicits.
Arguments world : clear implicits.
Arguments mem : clear implicits.
Arguments pop_ : clear implicits.
Arguments pout : clear implicits.
