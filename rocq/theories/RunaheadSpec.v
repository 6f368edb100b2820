(** What the runahead policy is supposed to compute. *)
From Verif Require Import Base.

Fixpoint least (d : Z) (l : list Z) : Z := match l with [] => d | x :: r => least (Z.min d x) r end.

(** Smallest of a non-empty list, or the default when nothing was reported. *)
Definition smallest_or (d : Z) (l : list Z) : Z := match l with [] => d | x :: r => least x r end.

Definition bound_of (config : option Z) : Z := match config with Some c => c | None => 0 end.

(** Window length the policy should offer after the latencies [l] have been used. *)
Definition policy (dynamic : bool) (min_possible : Z) (config : option Z) (l : list Z) : Z :=
  Z.max (bound_of config) (if dynamic then smallest_or min_possible l else min_possible).
