(** TCP sequence numbers. /repo/src/lib/tcp/src/seq.rs *)
From Verif Require Import Base.

(** [Seq] is a u32; arithmetic wraps (seq.rs:41-75). *)
Definition M32 : Z := 4294967296.
Definition seq_add (s n : Z) : Z := (s + n) mod M32.
Definition seq_sub (s n : Z) : Z := (s - n) mod M32.
(** [Seq - Seq] *)
Definition seq_diff (a b : Z) : Z := (a - b) mod M32.

(** seq.rs:77-86 [SeqRange] *)
Record range : Type := { start : Z; end_ : Z }.
Definition range_eqb (a b : range) : bool := (start a =? start b) && (end_ a =? end_ b).

(** seq.rs:103-118 [len], [is_empty], [contains] *)
Definition len (r : range) : Z := seq_diff (end_ r) (start r).
Definition is_empty (r : range) : bool := len r =? 0.
Definition contains (r : range) (s : Z) : bool := len {| start := start r; end_ := s |} <? len r.

(** seq.rs:120-171 [intersection] *)
Definition then_some {A} (b : bool) (x : A) : option A := if b then Some x else None.
Definition intersection (a b : range) : option range :=
  match is_empty a, is_empty b with
  | true, true => then_some (range_eqb a b) a
  | true, false => then_some (contains b (start a)) a
  | false, true => then_some (contains a (start b)) b
  | false, false =>
      let a_0_in_b := contains b (start a) in
      let a_1_in_b := contains b (seq_sub (end_ a) 1) in
      match a_0_in_b, a_1_in_b with
      | true, false => Some {| start := start a; end_ := end_ b |}
      | false, true => Some {| start := start b; end_ := end_ a |}
      | true, true => if seq_diff (start a) (start b) <? seq_diff (end_ a) (start b) then Some a else None
      | false, false =>
          let b_0_in_a := contains a (start b) in
          let b_1_in_a := contains a (seq_sub (end_ b) 1) in
          if b_0_in_a && b_1_in_a then Some b else None
      end
  end.
