(** Independent specification of a token bucket with discrete refills: an ideal bucket ticks at
    START + interval, START + 2*interval, ...; each tick adds [inc] tokens, up to [cap]. *)
From Verif Require Import Base TimeModel TimeSpec TokenBucketModel.

Definition START : Z := 946684800000000000. (* 2000-01-01 in ns since the epoch *)

(** Number of refill boundaries in (START, t]. *)
Definition boundaries (interval t : Z) : Z := (t - START) / interval.

(** [n] ideal ticks. *)
Definition ticks (cap inc : Z) (n : nat) (bal : Z) : Z :=
  Nat.iter n (fun x => Z.min cap (x + inc)) bal.

(** Ideal run: balance at the last request and its boundary count are threaded. *)
Fixpoint ideal (cap inc interval bal k : Z) (reqs : list (Z * Z)) : Z * list bool :=
  match reqs with
  | [] => (bal, [])
  | (d, t) :: rest =>
      let k' := boundaries interval t in
      let bal' := ticks cap inc (Z.to_nat (k' - k)) bal in
      if d <=? bal' then
        let '(b, l) := ideal cap inc interval (bal' - d) k' rest in (b, true :: l)
      else
        let '(b, l) := ideal cap inc interval bal' k' rest in (b, false :: l)
  end.

Definition accepted (r : tb_result) : bool := match r with TbOk _ => true | TbWait _ => false end.

(** Tokens removed by the accepted requests. *)
Fixpoint removed (reqs : list (Z * Z)) (res : list tb_result) : Z :=
  match reqs, res with
  | (d, _) :: rq, r :: rs => (if accepted r then d else 0) + removed rq rs
  | _, _ => 0
  end.

(** Request times never decrease, start at or after [t0], and are valid emulated times. *)
Fixpoint times_ok (t0 : Z) (reqs : list (Z * Z)) : Prop :=
  match reqs with
  | [] => True
  | (d, t) :: rest => t0 <= t /\ valid_emu t /\ is_u64 d /\ times_ok t rest
  end.

(** Parameters as they can be configured. *)
Definition params_ok (cap inc interval : Z) : Prop :=
  0 < cap <= U64_MAX /\ 0 < inc <= U64_MAX /\ 0 < interval /\ valid_sim interval.

(** Requests for which the waiting time is representable. *)
Definition wait_fits (inc interval d : Z) : Prop :=
  interval * (d / inc + 2) <= SIM_LIMIT.

Definition last_time (t0 : Z) (reqs : list (Z * Z)) : Z := last (map snd reqs) t0.
