(** What the CPU model should compute. *)
From Verif Require Import Base.

(** [r] is [x] rounded to a multiple of [p], [x] going up from the midpoint. *)
Definition rounds_to (p x r : Z) : Prop := (p | r) /\ 2 * (x - r) < p /\ 2 * (r - x) <= p.

(** Uses of the CPU: native work, or the clock moving. *)
Inductive cpu_use : Type := UWork (native : Z) | UTime (now : Z).

(** A processor that is busy until [busy]: work starts when it is free (not before now). *)
Fixpoint busy_until (simf natf busy now : Z) (l : list cpu_use) : Z * Z :=
  match l with
  | [] => (busy, now)
  | UWork n :: r => busy_until simf natf (Z.max busy now + n * natf / simf) now r
  | UTime t :: r => busy_until simf natf busy t r
  end.
