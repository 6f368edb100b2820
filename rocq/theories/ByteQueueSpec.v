(** Specification of the byte queue: its content is a sequence of stream bytes and packets. *)
From Verif Require Import Base ByteQueueModel.

Section Spec.
Context {B : Type}.

Inductive item := IByte (b : B) | IPkt (l : list B).

(** The content of a queue, read off its chunks. *)
Definition content (q : bq B) : list item :=
  flat_map (fun c => match c_type c with Stream => map IByte (c_data c) | Packet => [IPkt (c_data c)] end)
    (bq_bytes q).
Definition item_bytes (i : item) : nat := match i with IByte _ => 1 | IPkt l => length l end.
Fixpoint total_bytes (l : list item) : nat := match l with [] => 0 | i :: r => item_bytes i + total_bytes r end.

(** The stream bytes before the next packet. *)
Fixpoint leading (l : list item) : list B := match l with IByte b :: r => b :: leading r | _ => [] end.

(** What a source offers before its first error (or end); with [skip], interruptions are passed over. *)
Fixpoint offered (skip : bool) (r : reader B) : list B :=
  match r with
  | RData [] :: _ | [] => []
  | RData l :: r => l ++ offered skip r
  | RIntr :: r => if skip then offered skip r else []
  | RErr :: _ => []
  end.
(** Whether the source ends (rather than fails). *)
Fixpoint ends (r : reader B) : Prop :=
  match r with
  | RData [] :: _ | [] => True
  | RData _ :: r => ends r
  | _ => False
  end.

(** What an operation adds to the queue, given its result. *)
Definition adds (o : bop B) (x : bout B) : list item :=
  match o, x with
  | PushStream r _, _ => map IByte (offered false r)
  | PushPacket r n, OPacket (inl _) => [IPkt (firstn n (offered true r))]
  | PushChunk d _ Stream, _ => map IByte d
  | PushChunk d _ Packet, _ => [IPkt d]
  | _, _ => []
  end.

(** What an operation removes from the front of the queue, given its result: the bytes of a stream read are exactly those
    removed; a packet read delivers a prefix of the packet removed, and reports its length. *)
Definition prefix (a b : list B) : Prop := exists c, b = a ++ c.
Definition removes (o : bop B) (x : bout B) (rem : list item) : Prop :=
  match o, x with
  | Pop _, OPop (inl None) written => written = [] /\ rem = []
  | Pop _, OPop (inl (Some (n, m, Stream))) written => rem = map IByte written /\ n = length written /\ m = n
  | Pop _, OPop (inl (Some (n, m, Packet))) written =>
      exists p, rem = [IPkt p] /\ prefix written p /\ n = length written /\ m = length p
  | Pop _, OPop (inr _) written => rem = map IByte written \/ exists p, rem = [IPkt p] /\ prefix written p
  | PopChunk _, OPopChunk None => rem = []
  | PopChunk h, OPopChunk (Some (l, Stream)) => rem = map IByte l /\ (length l <= h)%nat
  | PopChunk _, OPopChunk (Some (l, Packet)) => rem = [IPkt l]
  | _, _ => rem = []
  end.

Fixpoint added (ops : list (bop B)) (outs : list (bout B)) : list item :=
  match ops, outs with o :: ops, x :: outs => adds o x ++ added ops outs | _, _ => [] end.

(** No empty stream chunk is pushed. *)
Definition proper (o : bop B) : Prop := match o with PushChunk [] _ Stream => False | _ => True end.
(** No writer blocks ([WouldBlock] while writing a packet is a panic by design). *)
Definition nonblocking (o : bop B) : Prop :=
  match o with Pop w | Peek w => ~ In WBlock (w_script w) | _ => True end.

(** The result of reading into a buffer of [n] bytes a queue with content [l]. *)
Definition read_result (l : list item) (n : nat) (r : popres) (written : list B) (after : list item) : Prop :=
  match l with
  | [] => r = inl None /\ written = [] /\ after = []
  | IByte _ :: _ =>
      written = firstn n (leading l) /\ r = inl (Some (length written, length written, Stream)) /\
      after = skipn (length written) l
  | IPkt p :: rest =>
      written = firstn n p /\ r = inl (Some (length written, length p, Packet)) /\ after = rest
  end.
End Spec.
Arguments item : clear implicits.
