(** What a TCP stream is: a SYN, the bytes written, and a FIN once the writer has shut down. Every
    symbol takes one sequence number. *)
From Verif Require Import Base.

Inductive sym : Type := SSyn | SByte (b : Z) | SFin.
Definition stream (wrote : list Z) (shut : bool) : list sym :=
  SSyn :: map SByte wrote ++ (if shut then [SFin] else []).
(** The symbols at positions [lo], ..., [hi - 1] of a list whose first symbol has position [s]. *)
Definition cut {A} (s lo hi : Z) (l : list A) : list A := skipn (Z.to_nat (lo - s)) (firstn (Z.to_nat (hi - s)) l).
(** The sequence number of position [p] of a stream that starts at [iss]. *)
Definition pos (iss p : Z) : Z := (iss + p) mod 4294967296.
