(** Specification vocabulary for the time types, independent of the model's functions. *)
From Verif Require Import Base.

(** A valid simulation time / emulated time (value of the Rust newtype). *)
Definition SIM_LIMIT : Z := 17500059273709551614. (* 2^64 - 2 - 946684800 * 10^9 *)
Definition EMU_LIMIT : Z := 18446744073709551614. (* 2^64 - 2 *)
Definition valid_sim (t : Z) : Prop := 0 <= t <= SIM_LIMIT.
Definition valid_emu (t : Z) : Prop := 0 <= t <= EMU_LIMIT.

(** "Exact result or nothing": [r] is [Some x] exactly when the mathematical result [x] is in range. *)
Definition exact_or_none (valid : Z -> Prop) (x : Z) (r : option Z) : Prop :=
  (valid x -> r = Some x) /\ (~ valid x -> r = None).

(** Ideal saturation into [lo, hi]. *)
Definition clamp (lo hi x : Z) : Z := Z.max lo (Z.min hi x).
