(** C32: TCP sequence-number ranges behave as sets. *)
From Verif Require Import Base SeqModel SeqSpec SeqProofs.

Theorem C32_contains : forall r x, is_range r -> is_seq x -> (contains r x = true <-> member r x).
Proof. exact contains_main. Qed.
Print Assumptions C32_contains.

(** The length counts the members. *)
Theorem C32_len : forall r, is_range r -> exists l, NoDup l /\ Z.of_nat (length l) = len r /\ forall x, In x l <-> member r x.
Proof. exact len_main. Qed.
Print Assumptions C32_len.

(** The intersection of two non-empty ranges is the range with exactly the common members, when there
    is one: there is none when they are disjoint or meet in two pieces. *)
Theorem C32_intersection : forall a b r, is_range a -> is_range b -> is_range r -> (exists x, member a x) -> (exists x, member b x) ->
  (intersection a b = Some r <-> (exists x, member r x) /\ forall x, member r x <-> member a x /\ member b x).
Proof. exact intersection_main. Qed.
Print Assumptions C32_intersection.

(** An empty range meets another when that contains it, or is the same. *)
Theorem C32_intersection_empty : forall a b r, is_range a -> is_range b -> ~ (exists x, member a x) -> (exists x, member b x) ->
  (intersection a b = Some r <-> r = a /\ member b (start a)).
Proof. exact intersection_empty. Qed.
Print Assumptions C32_intersection_empty.
Theorem C32_intersection_empties : forall a b r, is_range a -> is_range b -> ~ (exists x, member a x) -> ~ (exists x, member b x) ->
  (intersection a b = Some r <-> r = a /\ a = b).
Proof. exact intersection_empties. Qed.
Print Assumptions C32_intersection_empties.
Theorem C32_intersection_range : forall a b r, is_range a -> is_range b -> intersection a b = Some r -> is_range r.
Proof. exact intersection_valid. Qed.
Print Assumptions C32_intersection_range.
Theorem C32_symmetric : forall a b, is_range a -> is_range b -> intersection a b = intersection b a.
Proof. exact intersection_sym. Qed.
Print Assumptions C32_symmetric.

(** Adding and subtracting wrap and undo each other. *)
Theorem C32_arithmetic : forall s n, is_seq s -> is_seq n ->
  is_seq (seq_add s n) /\ seq_diff (seq_add s n) s = n /\ seq_sub (seq_add s n) n = s /\ seq_add n (seq_diff s n) = s.
Proof. exact arith_main. Qed.
Print Assumptions C32_arithmetic.

(** Across the wrap-around: one piece, and two pieces. *)
Example C32_wrap : let r x y := {| start := x; end_ := y |} in
  is_range (r 4294967290 10) /\ contains (r 4294967290 10) 3 = true /\ contains (r 4294967290 10) 10 = false /\ len (r 4294967290 10) = 16 /\
  intersection (r 4294967290 10) (r 4294967295 20) = Some (r 4294967295 10) /\
  intersection (r 4294967290 10) (r 5 4294967292) = None /\
  member (r 4294967290 10) 6 /\ member (r 5 4294967292) 6 /\ member (r 4294967290 10) 4294967291 /\ member (r 5 4294967292) 4294967291.
Proof.
  cbv zeta. split; [unfold is_range, is_seq; cbn; lia|]. do 5 (split; [vm_compute; reflexivity|]).
  split; [|split; [|split]]; (apply contains_main; [unfold is_range, is_seq; cbn; lia|unfold is_seq; lia|vm_compute; reflexivity]).
Qed.
