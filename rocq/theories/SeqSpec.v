(** Ranges of sequence numbers as sets: going up from the start, around the circle of 32-bit numbers,
    until before the end. *)
From Verif Require Import Base SeqModel.

Definition is_seq (x : Z) : Prop := 0 <= x < 4294967296.
Definition is_range (r : range) : Prop := is_seq (start r) /\ is_seq (end_ r).
Definition member (r : range) (x : Z) : Prop :=
  exists n i, 0 <= i < n /\ n < 4294967296 /\ end_ r = (start r + n) mod 4294967296 /\ x = (start r + i) mod 4294967296.
