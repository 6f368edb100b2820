(** Model of src/main/core/work/event.rs and src/main/core/work/event_queue.rs.

    Simplifications: the packet and task handles are opaque values compared by a boolean equality
    (in the code: pointer equality, packet.rs:222-228, task.rs:50-57); [Magic] and [ObjectCounter]
    fields are omitted; the standard library's [BinaryHeap] is a bag whose [pop] removes the
    least element in the event order and which panics when any two of its elements have no relative
    order (the real heap panics only if it happens to compare them, so the model panics at least as
    often as the code). *)
From Verif Require Import Base.

Section Event.
Context {K T : Type}.          (* packet handles, task handles *)
Context (keqb : K -> K -> bool) (teqb : T -> T -> bool).

(** event.rs:101-123: EventData, PacketEventData, LocalEventData *)
Inductive evdata : Type :=
| EPacket (src : nat) (id : Z) (k : K)
| ELocal (id : Z) (t : T).

(** event.rs:10-15 *)
Record event : Type := mkEv { ev_time : Z; ev_data : evdata }.

(** event.rs:52-55: Event::set_time *)
Definition ev_set_time (e : event) (t : Z) : event := mkEv t (ev_data e).

(** event.rs:131-155 (packets), 163-184 (tasks), 102-110 (derived order: Packet before Local) *)
Definition data_partial_cmp (a b : evdata) : option comparison :=
  match a, b with
  | EPacket s1 i1 k1, EPacket s2 i2 k2 =>
      match (match Nat.compare s1 s2 with Eq => Z.compare i1 i2 | c => c end) with
      | Eq => if keqb k1 k2 then Some Eq else None
      | c => Some c
      end
  | ELocal i1 t1, ELocal i2 t2 =>
      match Z.compare i1 i2 with
      | Eq => if teqb t1 t2 then Some Eq else None
      | c => Some c
      end
  | EPacket _ _ _, ELocal _ _ => Some Lt
  | ELocal _ _, EPacket _ _ _ => Some Gt
  end.

(** event.rs:84-99 *)
Definition ev_partial_cmp (a b : event) : option comparison :=
  match Z.compare (ev_time a) (ev_time b) with
  | Eq => data_partial_cmp (ev_data a) (ev_data b)
  | c => Some c
  end.

(** event_queue.rs:10-13: the heap as a bag, and last_popped_event_time *)
Record equeue : Type := mkQ { q_bag : list event; q_last : Z }.

(** event_queue.rs:16-21; the constant is EmulatedTime::SIMULATION_START *)
Definition q_new (start : Z) : equeue := mkQ [] start.

(** Does the event have a relative order to all events of the bag? (event_queue.rs:87-91, the unwrap) *)
Definition comparable (e : event) (l : list event) : bool :=
  forallb (fun x => match ev_partial_cmp e x with Some _ => true | None => false end) l.

(** event_queue.rs:31-36 *)
Definition q_push (q : equeue) (e : event) : option equeue :=
  check (q_last q <=? ev_time e);
  check (comparable e (q_bag q));
  Some (mkQ (e :: q_bag q) (q_last q)).

(** Removing the least element of a bag (BinaryHeap<Reverse<_>>::pop). *)
Definition ev_ltb (a b : event) : bool :=
  match ev_partial_cmp a b with Some Lt => true | _ => false end.
Fixpoint pop_min (l : list event) : option (event * list event) :=
  match l with
  | [] => None
  | e :: r =>
      match pop_min r with
      | None => Some (e, [])
      | Some (m, r') => if ev_ltb m e then Some (m, e :: r') else Some (e, m :: r')
      end
  end.

(** event_queue.rs:39-49; inner option: the queue was empty *)
Definition q_pop (q : equeue) : option (option event * equeue) :=
  match pop_min (q_bag q) with
  | None => Some (None, q)
  | Some (e, r) =>
      check (q_last q <=? ev_time e);
      Some (Some e, mkQ r (ev_time e))
  end.

(** event_queue.rs:52-54 *)
Definition q_next_event_time (q : equeue) : option Z :=
  match pop_min (q_bag q) with None => None | Some (e, _) => Some (ev_time e) end.

(** Client operations on one queue. *)
Inductive qop := QPush (e : event) | QPop.
Definition q_step (q : equeue) (o : qop) : option (equeue * list (option event)) :=
  match o with
  | QPush e => do q' <- q_push q e; Some (q', [])
  | QPop => do (r, q') <- q_pop q; Some (q', [r])
  end.
Fixpoint q_run (q : equeue) (ops : list qop) : option (equeue * list (option event)) :=
  match ops with
  | [] => Some (q, [])
  | o :: r => do (q1, o1) <- q_step q o; do (q2, o2) <- q_run q1 r; Some (q2, o1 ++ o2)
  end.

End Event.
Arguments evdata : clear implicits.
Arguments event : clear implicits.
Arguments equeue : clear implicits.
Arguments qop : clear implicits.
