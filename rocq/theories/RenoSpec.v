(** How a congestion window should move (RFC 5681). *)
From Verif Require Import Base RenoModel.

(** Every acknowledged packet and duplicate acknowledgement counts towards a
    bound of the window. *)
Definition weight (ev : event) : Z :=
  match ev with Acked n => n | Dup => 4 | Timeout => 0 end.

Definition weights (evs : list event) : Z := zsum (map weight evs).

(** Events of a connection that moves fewer than 2^32 packets. *)
Definition small (evs : list event) : Prop :=
  Forall (fun ev => 0 <= weight ev) evs /\ weights evs + 10 < 4294967296.

(** [c0 + (c0 + 1) + ... ], [k] terms: the packets in [k] windows, each one
    larger than the one before *)
Fixpoint windows (c0 : Z) (k : nat) : Z :=
  match k with O => 0 | S k => c0 + windows (c0 + 1) k end.

(** From window [c0], after [n] acknowledged packets, the window is [c] and [r]
    packets of it have been acknowledged: one more for each window. *)
Definition one_per_window (c0 n c r : Z) : Prop :=
  exists k, c = c0 + Z.of_nat k /\ n = windows c0 k + r /\ 0 <= r < c.

Definition acked (ns : list Z) : list event := map Acked ns.

(** There have been no duplicate acknowledgements since the connection started,
    or since a timeout or a new acknowledgement that was not in congestion
    avoidance (new acknowledgements in congestion avoidance do not count, see
    [C64_three_in_a_row_refuted]). *)
Definition no_dups (evs : list event) : Prop :=
  (exists ns, evs = acked ns)
  \/ (exists before ns, evs = before ++ [Timeout] ++ acked ns)
  \/ (exists before s n ns, evs = before ++ [Acked n] ++ acked ns
        /\ run before init = Some s /\ phase_of s <> CongAvoid).
