(** Specification of counters: a total function from keys to integers. *)
From Coq Require Import String.
From Verif Require Import Base CounterModel.

Fixpoint total (h : chist) (k : string) : Z :=
  match h with
  | HNew => 0
  | HOp h id op v =>
      if String.eqb k id then
        match op with CAdd => total h k + v | CSub => total h k - v | CSet => v end
      else total h k
  | HAddCounter h o => total h k + total o k
  | HSubCounter h o => total h k - total o k
  end.

(** Every value along the history fits in 64 bits. *)
Fixpoint fits (h : chist) : Prop :=
  (forall k, -9223372036854775808 <= total h k <= 9223372036854775807) /\
  match h with
  | HNew => True
  | HOp h _ _ _ => fits h
  | HAddCounter h o | HSubCounter h o => fits h /\ fits o
  end.

(** Printing order: larger values first, then keys in byte order. *)
Definition printed_before (a b : string * Z) : Prop :=
  snd b < snd a \/ snd a = snd b /\ String.ltb (fst a) (fst b) = true.
