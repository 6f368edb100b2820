(** Model of src/main/host/network/queuing.rs: the queue of sockets with packets to send.
    Items (sockets) are identified by integers; equality of items is equality of identifiers. The
    standard library's [HashSet] is a duplicate-free list and its [BinaryHeap] is a bag whose [pop]
    removes the greatest element; [None] is a panic. *)
From Verif Require Import Base.

(** queuing.rs:14-18 *)
Record prioritized := mkP { p_item : Z; p_priority : Z; p_order : Z }.

(** queuing.rs:20-35 [Ord::cmp]: the order is reversed so that the heap gives the smallest priority
    first and, among equals, the one pushed first. Its assertion (35) is the check in [nq_try_push]. *)
Definition p_cmp (a b : prioritized) : comparison :=
  match Z.compare (p_priority a) (p_priority b) with
  | Lt => Gt
  | Gt => Lt
  | Eq => CompOpp (Z.compare (p_order a) (p_order b))
  end.

(** BinaryHeap::pop: remove the greatest element. *)
Fixpoint pop_max (l : list prioritized) : option (prioritized * list prioritized) :=
  match l with
  | [] => None
  | e :: r =>
      match pop_max r with
      | None => Some (e, [])
      | Some (m, r') => match p_cmp m e with Gt => Some (m, e :: r') | _ => Some (e, m :: r') end
      end
  end.

(** queuing.rs:58-66 *)
Inductive kind := MinPriority | FirstInFirstOut.
(** queuing.rs:75-80 *)
Inductive discipline := DMin (heap : list prioritized) (counter : Z) | DFifo (deque : list Z).
(** queuing.rs:82-88 *)
Inductive push_error := AlreadyQueued | NonePriority.
(** queuing.rs:99-104 *)
Record netq := mkN { n_members : list Z; n_disc : discipline }.

(** queuing.rs:108-119 *)
Definition nq_new (k : kind) : netq :=
  mkN [] (match k with MinPriority => DMin [] 0 | FirstInFirstOut => DFifo [] end).
(** queuing.rs:122-128 *)
Definition nq_clear (q : netq) : netq :=
  mkN [] (match n_disc q with DMin _ c => DMin [] c | DFifo _ => DFifo [] end).
(** queuing.rs:131-133 *)
Definition nq_contains (q : netq) (i : Z) : bool := existsb (Z.eqb i) (n_members q).
(** queuing.rs:142-144 *)
Definition nq_len (q : netq) : Z := Z.of_nat (length (n_members q)).
(** queuing.rs:137-139 *)
Definition nq_is_empty (q : netq) : bool := nq_len q =? 0.

(** HashSet::remove *)
Definition set_remove (i : Z) (l : list Z) : list Z := filter (fun x => negb (x =? i)) l.

(** queuing.rs:148-156; the item popped must be a member (154) *)
Definition nq_pop (q : netq) : option (netq * option Z) :=
  let taken :=
    match n_disc q with
    | DMin heap c => match pop_max heap with Some (x, r) => Some (p_item x, DMin r c) | None => None end
    | DFifo deque => match deque with x :: r => Some (x, DFifo r) | [] => None end
    end in
  match taken with
  | None => Some (q, None)
  | Some (i, d) =>
      check (existsb (Z.eqb i) (n_members q));
      Some (mkN (set_remove i (n_members q)) d, Some i)
  end.

(** queuing.rs:177-198. The item is inserted into the membership before the priority is looked at
    (181). [counter += 1] (185) panics on overflow; the heap panics if it compares two equal
    entries (35), here whenever an equal entry is present. *)
Definition nq_try_push (q : netq) (i : Z) (pri : option Z) : option (netq * option push_error) :=
  if nq_contains q i then Some (q, Some AlreadyQueued)
  else
    let members := i :: n_members q in
    match n_disc q with
    | DMin heap c =>
        match pri with
        | Some p =>
            check (c + 1 <=? U64_MAX);
            check (forallb (fun x => match p_cmp (mkP i p c) x with Eq => false | _ => true end) heap);
            Some (mkN members (DMin (mkP i p c :: heap) (c + 1)), None)
        | None => Some (mkN members (DMin heap c), Some NonePriority)
        end
    | DFifo deque => Some (mkN members (DFifo (deque ++ [i])), None)
    end.
(** queuing.rs:167-169 *)
Definition nq_push (q : netq) (i : Z) (pri : option Z) : option netq :=
  match nq_try_push q i pri with
  | Some (q', None) => Some q'
  | _ => None
  end.

(** Calls on one queue and their results. *)
Inductive nop := NTryPush (i : Z) (pri : option Z) | NPush (i : Z) (pri : option Z) | NPop | NClear | NContains (i : Z) | NLen | NIsEmpty.
Inductive nres := RTry (e : option push_error) | RUnit | RPop (i : option Z) | RBool (b : bool) | RLen (n : Z).
Definition nq_step (q : netq) (o : nop) : option (netq * nres) :=
  match o with
  | NTryPush i p => do (q', e) <- nq_try_push q i p; Some (q', RTry e)
  | NPush i p => do q' <- nq_push q i p; Some (q', RUnit)
  | NPop => do (q', r) <- nq_pop q; Some (q', RPop r)
  | NClear => Some (nq_clear q, RUnit)
  | NContains i => Some (q, RBool (nq_contains q i))
  | NLen => Some (q, RLen (nq_len q))
  | NIsEmpty => Some (q, RBool (nq_is_empty q))
  end.
Fixpoint nq_run (q : netq) (ops : list nop) : option (netq * list nres) :=
  match ops with
  | [] => Some (q, [])
  | o :: r => do (q1, a) <- nq_step q o; do (q2, l) <- nq_run q1 r; Some (q2, a :: l)
  end.
