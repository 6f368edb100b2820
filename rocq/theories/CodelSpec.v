(** Specification of the router queue: a first-in-first-out queue that may discard from its head. *)
From Verif Require Import Base TimeSpec CodelModel.

Definition pushes (ops : list cop) : list pkt := flat_map (fun o => match o with CPush p _ => [p] | _ => [] end) ops.
Definition op_time (o : cop) : Z := match o with CPush _ t | CPop t => t end.
(** Packets that left the queue, in order of leaving. *)
Definition opt_list {A} (o : option A) : list A := match o with Some x => [x] | None => [] end.
Definition left_queue (outs : list cout) : list pkt := flat_map (fun o => fst o ++ opt_list (snd o)) outs.
Definition sizes (l : list pkt) : Z := zsum (map pk_len l).

(** Times never decrease, from [t0], and are at least 10 seconds away from the end of time. *)
Fixpoint in_time (t0 : Z) (ops : list cop) : Prop :=
  match ops with
  | [] => True
  | o :: r => t0 <= op_time o <= EMU_LIMIT - 10000000000 /\ in_time (op_time o) r
  end.
(** Packet sizes, and not more than 2^64 of anything. *)
Definition fits (ops : list cop) : Prop :=
  (forall p t, In (CPush p t) ops -> 0 <= pk_len p) /\ sizes (pushes ops) <= U64_MAX /\ Z.of_nat (length ops) < U64_MAX.

(** What an observer of the queue sees each time a packet leaves: when, how long it had waited, how
    many bytes it left behind, and whether it was dropped; or that a pop found nothing. *)
Inductive sight := Seen (t waited behind : Z) (dropped : bool) | Nothing (t : Z).
Definition mark (l : list (pkt * Z)) (t : Z) (d : bool) : list sight :=
  match l with
  | (p, ts) :: r => [Seen t (t - ts) (sizes (map fst r)) d]
  | [] => [Nothing t]
  end.
Fixpoint drops (l : list (pkt * Z)) (t : Z) (n : nat) : list sight :=
  match n with O => [] | S n => mark l t true ++ drops (tl l) t n end.
Fixpoint watch (l : list (pkt * Z)) (ops : list cop) (outs : list cout) : list sight :=
  match ops, outs with
  | CPush p t :: r, _ => watch (l ++ [(p, t)]) r outs
  | CPop t :: r, (d, o) :: os =>
      drops l t (length d) ++ mark (skipn (length d) l) t false ++ watch (skipn (S (length d)) l) r os
  | _, _ => []
  end.

(** A packet that waited 10 ms or more and leaves more than one full-sized packet behind. *)
Definition congested (s : sight) : Prop := match s with Seen _ w b _ => 10000000 <= w /\ 1500 < b | Nothing _ => False end.
Definition when (s : sight) : Z := match s with Seen t _ _ _ | Nothing t => t end.
Definition is_drop (s : sight) : bool := match s with Seen _ _ _ d => d | _ => false end.
