(** What a user expects of a timer: a schedule of expirations. *)
From Verif Require Import Base TimeModel TimerModel.

(** A schedule: the first expiration and the interval of a periodic timer. *)
Definition sched : Type := Z * option Z.
(** The times at which a schedule expires. *)
Definition expires_at (s : sched) (t : Z) : Prop :=
  match snd s with
  | None => t = fst s
  | Some d => exists k, 0 <= k /\ t = fst s + k * d
  end.
(** How many of them are at or before [t]. *)
Definition expirations (s : option sched) (t : Z) : Z :=
  match s with
  | None => 0
  | Some (first, i) =>
      if t <? first then 0 else match i with None => 1 | Some d => 1 + (t - first) / d end
  end.
(** The first of them after [t]. *)
Definition next_after (s : option sched) (t : Z) : option Z :=
  match s with
  | None => None
  | Some (first, i) =>
      if t <? first then Some first
      else match i with None => None | Some d => Some (first + (1 + (t - first) / d) * d) end
  end.

(** The schedule last set in a history, and the counts read and callbacks made since. *)
Definition view : Type := option sched * Z * Z.
Definition see (v : view) (ox : top * tres) : view :=
  let '(s, r, c) := v in
  match ox with
  | (Arm e i, _) => (Some (e, i), 0, 0)
  | (Disarm, _) => (None, 0, 0)
  | (Consume, Count n) => (s, r + n, c)
  | (Run _, Ran true) => (s, r, c + 1)
  | _ => (s, r, c)
  end.
Definition seen (h : list (top * tres)) : view := fold_left see h (None, 0, 0).
Definition set_sched (h : list (top * tres)) : option sched := fst (fst (seen h)).
Definition read_since (h : list (top * tres)) : Z := snd (fst (seen h)).
Definition called_since (h : list (top * tres)) : Z := snd (seen h).

(** Nothing is left to run at the current time. *)
Definition settled (w : world) : Prop := Forall (fun ev => now w < fst ev) (pending w).

(** The simulation ends at least two seconds before the last representable instant. *)
Definition sane_times (stop start : Z) : Prop :=
  EMUTIME_SIMULATION_START <= start < stop /\ stop + 2000000000 <= EMUTIME_MAX.
(** An interval that added to any time of the simulation is representable. *)
Definition sane_interval (stop : Z) (o : top) : Prop :=
  match o with Arm _ (Some d) => stop + d <= EMUTIME_MAX | _ => True end.
(** The documented preconditions of [arm]: a time not in the past and a positive interval. *)
Definition documented (w : world) (o : top) : Prop :=
  match o with Arm e i => now w <= e /\ (forall d, i = Some d -> 0 < d) | _ => True end.

(** ** Timer descriptors *)
Definition nanos (t : timespec) : Z := tv_sec t * 1000000000 + tv_nsec t.
(** The clock, the schedule last set, and the counts read since, as the program sees them. *)
Definition fview : Type := Z * option sched * Z.
Definition fsee (v : fview) (ox : fop * fres) : fview :=
  let '(n, s, r) := v in
  match ox with
  | (FSet abs value interval, FUnit) =>
      if nanos value =? 0 then (n, None, 0)
      else (n, Some (Z.max ((if abs then 0 else n) + nanos value) n,
                     if 0 <? nanos interval then Some (nanos interval) else None), 0)
  | (FRead _ _ _, FCount k) => (n, s, r + k)
  | (FRun ev, _) => (fst ev, s, r)
  | (FWait t, _) => (t, s, r)
  | _ => (n, s, r)
  end.
Definition fseen (start : Z) (h : list (fop * fres)) : fview := fold_left fsee h (start, None, 0).
Definition f_now (start : Z) (h : list (fop * fres)) : Z := fst (fst (fseen start h)).
Definition f_sched (start : Z) (h : list (fop * fres)) : option sched := snd (fst (fseen start h)).
Definition f_read (start : Z) (h : list (fop * fres)) : Z := snd (fseen start h).
(** The count a read should deliver. *)
Definition f_count (start : Z) (h : list (fop * fres)) : Z :=
  expirations (f_sched start h) (f_now start h) - f_read start h.
Definition no_fault (ox : fop * fres) : Prop := match fst ox with FRead _ _ a => a = true | _ => True end.
Definition no_close (ox : fop * fres) : Prop := fst ox <> FClose.
Definition interval_of (s : option sched) : Z := match s with Some (_, Some d) => d | _ => 0 end.
