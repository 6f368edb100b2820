(** Model of src/main/utility/byte_queue.rs (lines 22-520).
    Bytes are of an arbitrary type. [Bytes]/[BytesMut] are lists; whether a chunk is a [BytesMut] is
    kept, and whether [try_unsplit] succeeds (it depends on memory addresses) is decided by an
    arbitrary oracle. The assertions [unused.len() == unused.capacity()] concern the allocator and are
    not modelled. [None] is a panic or exhausted fuel. Lengths are natural numbers without bound. *)
From Verif Require Import Base.

Section BQ.
Context {B : Type}.

Inductive ctype := Stream | Packet.                                     (* byte_queue.rs:422-425 *)
(* byte_queue.rs:427-430, 484-487 *)
Record chunk := mkChunk { c_data : list B; c_mut : bool; c_type : ctype }.
(* byte_queue.rs:22-34; [bq_unused]: the length of the unused buffer *)
Record bq := mkBq { bq_bytes : list chunk; bq_unused : option nat; bq_length : nat; bq_cap : nat }.

(* byte_queue.rs:36-46 *)
Definition bq_new (cap : nat) : bq := mkBq [] None 0 cap.
(* byte_queue.rs:50-62 *)
Definition num_bytes (q : bq) : nat := bq_length q.
Definition has_bytes (q : bq) : bool := Nat.ltb 0 (num_bytes q).
Definition has_chunks (q : bq) : bool := match bq_bytes q with [] => false | _ => true end.

(** std::io::Read: a script of what successive reads find. A read into a buffer of [n] bytes
    returns at most [n] bytes of the next piece; the empty piece and the end of the script are EOF. *)
Inductive rdev := RData (l : list B) | RIntr | RErr.
Definition reader := list rdev.
Inductive rres := ROk (l : list B) | RFail (interrupted : bool).
Definition r_read (n : nat) (r : reader) : rres * reader :=
  match n, r with
  | O, _ | _, [] => (ROk [], r)
  | _, RData l :: r' =>
      (ROk (firstn n l), match skipn n l with [] => r' | l' => RData l' :: r' end)
  | _, RIntr :: r' => (RFail true, r')
  | _, RErr :: r' => (RFail false, r')
  end.

(** std::io::Write: a script of what successive writes do, then a slice of [w_cap] bytes. *)
Inductive wev := WTake (n : nat) | WIntr | WBlock | WErr.
Record writer := mkW { w_script : list wev; w_cap : nat }.
Inductive ioerr := Interrupted | WouldBlock | OtherErr | UnexpectedEof.
Definition w_write (w : writer) (len : nat) : (nat + ioerr) * writer :=
  match w_script w with
  | [] => let n := Nat.min (w_cap w) len in (inl n, mkW [] (w_cap w - n))
  | WTake k :: s => (inl (Nat.min k len), mkW s (w_cap w))
  | WIntr :: s => (inr Interrupted, mkW s (w_cap w))
  | WBlock :: s => (inr WouldBlock, mkW s (w_cap w))
  | WErr :: s => (inr OtherErr, mkW s (w_cap w))
  end.
(** &mut dst[..n] *)
Definition slice (n : nat) : writer := mkW [] n.

Definition is_stream (t : ctype) : bool := match t with Stream => true | Packet => false end.

(* byte_queue.rs:159-165 *)
Definition push_chunk (q : bq) (data : list B) (mutable : bool) (t : ctype) : bq * nat :=
  (mkBq (bq_bytes q ++ [mkChunk data mutable t]) (bq_unused q) (bq_length q + length data) (bq_cap q),
   length data).

(** byte_queue.rs:100-123: merging into the last chunk *)
Fixpoint try_merge (l : list chunk) (data : list B) : option (list chunk) :=
  match l with
  | [] => None
  | [c] => if is_stream (c_type c) && c_mut c then Some [mkChunk (c_data c ++ data) true Stream] else None
  | c :: r => do r' <- try_merge r data; Some (c :: r')
  end.
Definition add_stream (q : bq) (data : list B) (unsplit : bool) : bq :=
  match (if unsplit then try_merge (bq_bytes q) data else None) with
  | Some l => mkBq l (bq_unused q) (bq_length q + length data) (bq_cap q)
  | None => fst (push_chunk q data true Stream)
  end.
Definition set_unused (q : bq) (u : option nat) : bq := mkBq (bq_bytes q) u (bq_length q) (bq_cap q).

(* byte_queue.rs:74-128; [orc]: does try_unsplit succeed; the result is Ok(total) or an error *)
Fixpoint push_stream_loop (fuel : nat) (q : bq) (src : reader) (orc : list bool) (total : nat)
  : option (bq * (nat + ioerr)) :=
  match fuel with
  | O => None
  | S fuel =>
      let unused := match bq_unused q with Some x => x | None => bq_cap q end in
      let q := set_unused q None in
      match r_read unused src with
      | (RFail i, _) => Some (q, inr (if i then Interrupted else OtherErr))
      | (ROk bytes, src) =>
          let rest := (unused - length bytes)%nat in
          let q := if Nat.eqb rest 0 then q else set_unused q (Some rest) in
          match bytes with
          | [] => Some (q, inl total)
          | _ => push_stream_loop fuel (add_stream q bytes (hd false orc)) src (tl orc) (total + length bytes)
          end
      end
  end.
Fixpoint reader_size (r : reader) : nat :=
  match r with [] => 0 | RData l :: r => S (length l) + reader_size r | _ :: r => S (reader_size r) end.
Definition push_stream (q : bq) (src : reader) (orc : list bool) : option (bq * (nat + ioerr)) :=
  push_stream_loop (S (reader_size src)) q src orc 0.

(** Read::read_exact into a buffer of [n] bytes: the bytes read, or an error *)
Fixpoint read_exact (fuel : nat) (n : nat) (src : reader) : option (list B + ioerr) :=
  match fuel with
  | O => None
  | S fuel =>
      match n with
      | O => Some (inl [])
      | _ => match r_read n src with
             | (RFail true, src) => read_exact fuel n src
             | (RFail false, _) => Some (inr OtherErr)
             | (ROk [], _) => Some (inr UnexpectedEof)
             | (ROk l, src) => do r <- read_exact fuel (n - length l) src;
                               Some (match r with inl l' => inl (l ++ l') | inr e => inr e end)
             end
      end
  end.
(* byte_queue.rs:132-156 *)
Definition push_packet (q : bq) (src : reader) (size : nat) : option (bq * (unit + ioerr)) :=
  do r <- read_exact (S (S (reader_size src))) size src;
  Some (match r with
        | inr e => (q, inr e)
        | inl bytes =>
            let u := match bq_unused q with
                     | Some n => if Nat.leb size n then (if Nat.eqb (n - size) 0 then None else Some (n - size)%nat)
                                 else (if Nat.eqb n 0 then None else Some n)
                     | None => None
                     end in
            (fst (push_chunk (set_unused q u) bytes true Packet), inl tt)
        end).

(* byte_queue.rs:193-238; returns also the bytes given to the writer *)
Fixpoint pop_stream (fuel : nat) (q : bq) (w : writer) (total : nat) : option (bq * (nat + ioerr) * list B) :=
  match fuel with
  | O => None
  | S fuel =>
      match bq_bytes q with
      | [] => Some (q, inl total, [])
      | c :: r =>
          if negb (is_stream (c_type c)) then Some (q, inl total, []) else
          match w_write w (length (c_data c)) with
          | (inr Interrupted, w) => pop_stream fuel q w total
          | (inr WouldBlock, w) =>
              if Nat.eqb total 0 then Some (q, inr WouldBlock, []) else Some (q, inl total, [])
          | (inr e, w) => Some (q, inr e, [])
          | (inl copied, w) =>
              if Nat.eqb copied 0 then Some (q, inl total, []) else
              check (Nat.leb copied (bq_length q));
              let data := skipn copied (c_data c) in
              let bytes := match data with [] => r | _ => mkChunk data (c_mut c) (c_type c) :: r end in
              do (q', res, out) <- pop_stream fuel (mkBq bytes (bq_unused q) (bq_length q - copied) (bq_cap q)) w (total + copied);
              Some (q', res, firstn copied (c_data c) ++ out)
          end
      end
  end.
(** byte_queue.rs:253-278 and 379-404: the loop writing one packet; [None] is the panic for WouldBlock *)
Fixpoint write_packet (fuel : nat) (data : list B) (w : writer) (total : nat) : option ((nat + ioerr) * list B) :=
  match fuel with
  | O => None
  | S fuel =>
      match w_write w (length data) with
      | (inr Interrupted, w) => write_packet fuel data w total
      | (inr WouldBlock, _) => None
      | (inr e, _) => Some (inr e, [])
      | (inl copied, w) =>
          if Nat.eqb copied 0 then Some (inl total, []) else
          do (res, out) <- write_packet fuel (skipn copied data) w (total + copied);
          Some (res, firstn copied data ++ out)
      end
  end.
Definition packet_fuel (w : writer) (data : list B) : nat := S (S (length (w_script w))).

Definition popres : Type := option (nat * nat * ctype) + ioerr.
Definition pop_fuel (q : bq) (w : writer) : nat := S (S (length (w_script w) + length (bq_bytes q))).
(* byte_queue.rs:173-191 (and 240-251) *)
Definition pop (q : bq) (w : writer) : option (bq * popres * list B) :=
  match bq_bytes q with
  | [] => Some (q, inl None, [])
  | c :: r =>
      match c_type c with
      | Stream =>
          do (q', res, out) <- pop_stream (pop_fuel q w) q w 0;
          Some (q', match res with inl n => inl (Some (n, n, Stream)) | inr e => inr e end, out)
      | Packet =>
          check (Nat.leb (length (c_data c)) (bq_length q));
          let q' := mkBq r (bq_unused q) (bq_length q - length (c_data c)) (bq_cap q) in
          do (res, out) <- write_packet (packet_fuel w (c_data c)) (c_data c) w 0;
          Some (q', match res with inl n => inl (Some (n, length (c_data c), Packet)) | inr e => inr e end, out)
      end
  end.

(* byte_queue.rs:284-305 *)
Definition pop_chunk (q : bq) (hint : nat) : option (bq * option (list B * ctype)) :=
  match bq_bytes q with
  | [] => Some (q, None)
  | c :: r =>
      let '(bytes, rest) :=
        match c_type c with
        | Stream =>
            let n := Nat.min (length (c_data c)) hint in
            (firstn n (c_data c),
             match skipn n (c_data c) with [] => r | d => mkChunk d (c_mut c) Stream :: r end)
        | Packet => (c_data c, r)
        end in
      check (Nat.leb (length bytes) (bq_length q));
      Some (mkBq rest (bq_unused q) (bq_length q - length bytes) (bq_cap q), Some (bytes, c_type c))
  end.

(** byte_queue.rs:333-366: for one chunk (inner loop); the result is Some total to go on with the
    next chunk, or an error *)
Fixpoint peek_inner (fuel : nat) (data : list B) (w : writer) (total : nat)
  : option ((nat + ioerr) * writer * list B) :=
  match fuel with
  | O => None
  | S fuel =>
      match w_write w (length data) with
      | (inr Interrupted, w) => peek_inner fuel data w total
      | (inr WouldBlock, w) => if Nat.eqb total 0 then Some (inr WouldBlock, w, []) else Some (inl total, w, [])
      | (inr e, w) => Some (inr e, w, [])
      | (inl copied, w) =>
          if Nat.eqb copied 0 then Some (inl total, w, []) else
          do (res, w', out) <- peek_inner fuel (skipn copied data) w (total + copied);
          Some (res, w', firstn copied data ++ out)
      end
  end.
Fixpoint peek_stream (l : list chunk) (w : writer) (total : nat) : option ((nat + ioerr) * list B) :=
  match l with
  | [] => Some (inl total, [])
  | c :: r =>
      if negb (is_stream (c_type c)) then Some (inl total, []) else
      do (res, w', out) <- peek_inner (S (S (length (w_script w)))) (c_data c) w total;
      match res with
      | inr e => Some (inr e, out)
      | inl total => do (res, out') <- peek_stream r w' total; Some (res, out ++ out')
      end
  end.
(* byte_queue.rs:312-329, 368-405 *)
Definition peek (q : bq) (w : writer) : option (popres * list B) :=
  match bq_bytes q with
  | [] => Some (inl None, [])
  | c :: r =>
      match c_type c with
      | Stream =>
          do (res, out) <- peek_stream (bq_bytes q) w 0;
          Some (match res with inl n => inl (Some (n, n, Stream)) | inr e => inr e end, out)
      | Packet =>
          do (res, out) <- write_packet (packet_fuel w (c_data c)) (c_data c) w 0;
          Some (match res with inl n => inl (Some (n, length (c_data c), Packet)) | inr e => inr e end, out)
      end
  end.

(** byte_queue.rs:410-419: the check when a queue is dropped *)
Definition drop_ok (q : bq) : bool :=
  Nat.eqb (num_bytes q) (fold_right (fun c n => (length (c_data c) + n)%nat) O (bq_bytes q)).

(** Histories *)
Inductive bop :=
| PushStream (r : reader) (orc : list bool)
| PushPacket (r : reader) (size : nat)
| PushChunk (data : list B) (mutable : bool) (t : ctype)
| Pop (w : writer)
| PopChunk (hint : nat)
| Peek (w : writer).
Inductive bout :=
| OStream (r : nat + ioerr)
| OPacket (r : unit + ioerr)
| OChunk (n : nat)
| OPop (r : popres) (written : list B)
| OPopChunk (r : option (list B * ctype))
| OPeek (r : popres) (written : list B).
Definition bq_step (q : bq) (o : bop) : option (bq * bout) :=
  match o with
  | PushStream r orc => do (q', x) <- push_stream q r orc; Some (q', OStream x)
  | PushPacket r n => do (q', x) <- push_packet q r n; Some (q', OPacket x)
  | PushChunk d m t => let '(q', n) := push_chunk q d m t in Some (q', OChunk n)
  | Pop w => do (q', x, out) <- pop q w; Some (q', OPop x out)
  | PopChunk h => do (q', x) <- pop_chunk q h; Some (q', OPopChunk x)
  | Peek w => do (x, out) <- peek q w; Some (q, OPeek x out)
  end.
Fixpoint bq_run (q : bq) (ops : list bop) : option (bq * list bout) :=
  match ops with
  | [] => Some (q, [])
  | o :: r => do (q1, x) <- bq_step q o; do (q2, xs) <- bq_run q1 r; Some (q2, x :: xs)
  end.
End BQ.
Arguments chunk : clear implicits.
Arguments bq : clear implicits.
Arguments bop : clear implicits.
Arguments bout : clear implicits.
Arguments reader : clear implicits.
Arguments rdev : clear implicits.
