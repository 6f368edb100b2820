(** Model of src/main/network/relay/token_bucket.rs.
    Tokens are u64 values in [Z]; [None] is a panic. *)
From Verif Require Import Base TimeModel.

(* token_bucket.rs:6-12 *)
Record bucket := {
  tb_capacity : Z;
  tb_balance : Z;
  tb_increment : Z;
  tb_interval : Z;      (* SimulationTime *)
  tb_last_refill : Z;   (* EmulatedTime *)
}.

(* token_bucket.rs:37-57 (new_inner), log message omitted *)
Definition tb_new_inner (capacity increment interval last_refill : Z) : option bucket :=
  if (capacity >? 0) && (increment >? 0) && negb (interval =? 0)
  then Some {| tb_capacity := capacity; tb_balance := capacity; tb_increment := increment;
               tb_interval := interval; tb_last_refill := last_refill |}
  else None.

(* token_bucket.rs:20-33 *)
Definition tb_new (capacity increment interval : Z) : option bucket :=
  tb_new_inner capacity increment interval EMUTIME_SIMULATION_START.

(* token_bucket.rs:124-154.  The two [try_into] from u128 to u64 cannot fail because the
   quotient is at most the u64 dividend; debug assertions are kept. *)
Definition tb_lazy_refill (b : bucket) (now : Z) : option (bucket * Z) :=
  do span <- emu_duration_since now (tb_last_refill b);
  do r <-
    (if span >=? tb_interval b then
       do num_refills <- u64_checked_div (sim_as_nanos span) (sim_as_nanos (tb_interval b));
       let num_tokens := u64_saturating_mul (tb_increment b) num_refills in
       check (num_tokens >? 0);
       let balance := Z.max 0 (Z.min (u64_saturating_add (tb_balance b) num_tokens) (tb_capacity b)) in
       do inc <- sim_saturating_mul (tb_interval b) num_refills;
       let last := emu_saturating_add (tb_last_refill b) inc in
       do span' <- emu_duration_since now last;
       Some ({| tb_capacity := tb_capacity b; tb_balance := balance;
                tb_increment := tb_increment b; tb_interval := tb_interval b;
                tb_last_refill := last |}, span')
     else Some (b, span));
  let '(b', span') := r in
  check (span' <? tb_interval b');
  do w <- sim_checked_sub (tb_interval b') span';
  Some (b', w).

(* token_bucket.rs:91-117 *)
Definition tb_compute_conforming_duration (b : bucket) (decrement next_refill_span : Z) : option Z :=
  let required := u64_saturating_sub decrement (tb_balance b) in
  let num_refills := required / tb_increment b in
  let remainder := required mod tb_increment b in
  let num_required := if remainder >? 0 then num_refills + 1 else num_refills in
  if num_required =? 0 then Some 0
  else if num_required =? 1 then Some next_refill_span
  else
    do n1 <- u64_checked_sub num_required 1;
    do m <- sim_saturating_mul (tb_interval b) n1;
    sim_saturating_add next_refill_span m.

Inductive tb_result := TbOk (balance : Z) | TbWait (d : Z).

(* token_bucket.rs:72-83; on refusal the refill is kept, the balance is not decremented *)
Definition tb_conforming_remove (b : bucket) (decrement now : Z) : option (bucket * tb_result) :=
  do r <- tb_lazy_refill b now;
  let '(b', span) := r in
  match u64_checked_sub (tb_balance b') decrement with
  | Some bal =>
      Some ({| tb_capacity := tb_capacity b'; tb_balance := bal; tb_increment := tb_increment b';
               tb_interval := tb_interval b'; tb_last_refill := tb_last_refill b' |}, TbOk bal)
  | None =>
      do d <- tb_compute_conforming_duration b' decrement span;
      Some (b', TbWait d)
  end.

(** A history: requests (decrement, time), executed in order. *)
Fixpoint tb_run (b : bucket) (reqs : list (Z * Z)) : option (bucket * list tb_result) :=
  match reqs with
  | [] => Some (b, [])
  | (d, t) :: rest =>
      do r <- tb_conforming_remove b d t;
      let '(b1, x) := r in
      do r2 <- tb_run b1 rest;
      let '(b2, xs) := r2 in
      Some (b2, x :: xs)
  end.
