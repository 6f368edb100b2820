(** Timers and timer descriptors.
    /repo/src/main/host/timer.rs, /repo/src/main/host/descriptor/timerfd.rs,
    /repo/src/main/host/syscall/handler/timerfd.rs *)
From Verif Require Import Base TimeModel.

(** timer.rs:24-31 [struct TimerInternal]; the callback is reported as the third result of [expire].
    Identifiers and the count are u64 in the code and unbounded here. *)
Record timer : Type := {
  next_expire_time : option Z;
  expire_interval : option Z;
  expiration_count : Z;
  next_expire_id : Z;
  min_valid_expire_id : Z }.

(** timer.rs:52-65 [Timer::new] *)
Definition timer_new : timer :=
  {| next_expire_time := None; expire_interval := None; expiration_count := 0;
     next_expire_id := 0; min_valid_expire_id := 0 |}.

(** timer.rs:34-44 [reset] *)
Definition reset (t : timer) (next interval : option Z) : timer :=
  {| next_expire_time := next; expire_interval := interval; expiration_count := 0;
     next_expire_id := next_expire_id t; min_valid_expire_id := next_expire_id t |}.

(** timer.rs:156-182 [schedule_new_expire_event]: the task's time and identifier. *)
Definition schedule (now : Z) (t : timer) : option (timer * (Z * Z)) :=
  do since <- emu_duration_since now EMUTIME_SIMULATION_START;
  do secs <- sim_try_from_secs (sim_as_secs since);
  do two <- sim_checked_mul SIMTIME_ONE_SECOND 2;
  do early <- sim_checked_add secs two;
  do next <- next_expire_time t;
  do lim <- emu_checked_add EMUTIME_SIMULATION_START early;
  Some ({| next_expire_time := next_expire_time t; expire_interval := expire_interval t;
           expiration_count := expiration_count t; next_expire_id := next_expire_id t + 1;
           min_valid_expire_id := min_valid_expire_id t |}, (Z.min next lim, next_expire_id t)).

(** timer.rs:194-213 [arm]; the debug assertions are taken to be on. *)
Definition arm (now : Z) (t : timer) (e : Z) (i : option Z) : option (timer * (Z * Z)) :=
  check (now <=? e);
  check (match i with Some d => 0 <? d | None => true end);
  schedule now (reset t (Some e) i).

(** timer.rs:103-107 [disarm] *)
Definition disarm (t : timer) : timer := reset t None None.

(** timer.rs:83-89 [consume_expiration_count] *)
Definition consume (t : timer) : timer * Z :=
  ({| next_expire_time := next_expire_time t; expire_interval := expire_interval t; expiration_count := 0;
      next_expire_id := next_expire_id t; min_valid_expire_id := min_valid_expire_id t |}, expiration_count t).

(** timer.rs:93-98 [remaining_time] *)
Definition remaining (now : Z) (t : timer) : option Z :=
  match next_expire_time t with Some e => Some (emu_saturating_duration_since e now) | None => None end.

(** timer.rs:109-154 [timer_expire]: the new timer, the tasks scheduled, and whether [on_expire] ran.
    The timer is taken to be alive: after it is dropped its tasks do nothing. *)
Definition expire (now : Z) (t : timer) (id : Z) : option (timer * list (Z * Z) * bool) :=
  if id <? min_valid_expire_id t then Some (t, [], false)
  else
    do e <- next_expire_time t;
    if now <? e then do (t', ev) <- schedule now t; Some (t', [ev], false)
    else
      let n := expiration_count t + 1 in
      match expire_interval t with
      | Some d =>
          check (0 <? d);
          do e' <- emu_checked_add e d;
          do (t', ev) <- schedule now
            {| next_expire_time := Some e'; expire_interval := expire_interval t; expiration_count := n;
               next_expire_id := next_expire_id t; min_valid_expire_id := min_valid_expire_id t |};
          Some (t', [ev], true)
      | None =>
          Some ({| next_expire_time := None; expire_interval := expire_interval t; expiration_count := n;
                   next_expire_id := next_expire_id t; min_valid_expire_id := min_valid_expire_id t |}, [], true)
      end.

(** The timer together with the clock and its own tasks in the host's event queue. A task at or after
    the end of the simulation is not queued (host.rs:728-734). *)
Record world : Type := { now : Z; tm : timer; pending : list (Z * Z) }.
Definition enqueue (stop : Z) (p : list (Z * Z)) (evs : list (Z * Z)) : list (Z * Z) :=
  p ++ filter (fun ev => fst ev <? stop) evs.

Inductive top : Type :=
| Arm (e : Z) (i : option Z)
| Disarm
| Consume
| Run (ev : Z * Z)     (* the event queue runs this task *)
| Wait (t : Z).        (* the clock moves on *)
Inductive tres : Type := Unit | Count (n : Z) | Ran (called : bool).

Definition remove_ev (ev : Z * Z) (p : list (Z * Z)) : list (Z * Z) :=
  filter (fun x => negb ((fst x =? fst ev) && (snd x =? snd ev))) p.

Definition tstep (stop : Z) (w : world) (o : top) : option (world * tres) :=
  match o with
  | Arm e i =>
      do (t, ev) <- arm (now w) (tm w) e i;
      Some ({| now := now w; tm := t; pending := enqueue stop (pending w) [ev] |}, Unit)
  | Disarm => Some ({| now := now w; tm := disarm (tm w); pending := pending w |}, Unit)
  | Consume => let (t, n) := consume (tm w) in Some ({| now := now w; tm := t; pending := pending w |}, Count n)
  | Run ev =>
      do (x, called) <- expire (fst ev) (tm w) (snd ev);
      let (t, evs) := x in
      Some ({| now := fst ev; tm := t; pending := enqueue stop (remove_ev ev (pending w)) evs |}, Ran called)
  | Wait t => Some ({| now := t; tm := tm w; pending := pending w |}, Unit)
  end.

(** What the event queue and the scheduler guarantee (properties C01 and C02): tasks run at their
    time, in time order, and the clock does not move past a waiting task nor to the end time. *)
Definition legal (stop : Z) (w : world) (o : top) : Prop :=
  match o with
  | Run ev => In ev (pending w) /\ Forall (fun x => fst ev <= fst x) (pending w)
  | Wait t => now w <= t < stop /\ Forall (fun x => t <= fst x) (pending w)
  | Arm e _ => e <= EMUTIME_MAX (* the type's bound *)
  | _ => True
  end.

Definition world_new (start : Z) : world := {| now := start; tm := timer_new; pending := [] |}.

(** Histories of legal operations that do not panic. *)
Inductive truns (stop start : Z) : list (top * tres) -> world -> Prop :=
| tr_nil : truns stop start [] (world_new start)
| tr_snoc h w o x w' : truns stop start h w -> legal stop w o -> tstep stop w o = Some (w', x) ->
    truns stop start (h ++ [(o, x)]) w'.

(** ** Timer descriptors *)
(** timerfd.rs: READABLE and CLOSED bits. *)
Record timerfd : Type := { td_world : world; td_readable : bool; td_closed : bool }.
Inductive errno : Type := EINVAL | EWOULDBLOCK | ESPIPE | EFAULT.

(** timerfd.rs:234-252 [refresh_state] *)
Definition refresh (f : timerfd) (w : world) : timerfd :=
  {| td_world := w;
     td_readable := if td_closed f then td_readable f else 0 <? expiration_count (tm w);
     td_closed := td_closed f |}.

(** timerfd.rs:134-171 [readv] *)
Definition fd_read (f : timerfd) (offset : bool) (len : Z) (accessible : bool) : timerfd * (Z + errno) :=
  if offset then (f, inr ESPIPE)
  else if len <? 8 then (f, inr EINVAL)
  else
    let (t, n) := consume (tm (td_world f)) in
    let w := {| now := now (td_world f); tm := t; pending := pending (td_world f) |} in
    if n =? 0 then ({| td_world := w; td_readable := td_readable f; td_closed := td_closed f |}, inr EWOULDBLOCK)
    else if negb accessible then ({| td_world := w; td_readable := td_readable f; td_closed := td_closed f |}, inr EFAULT)
    else (refresh f w, inl n).

(** handler/timerfd.rs:139-211 [timerfd_settime], after reading [new_value]; [abs] is
    TFD_TIMER_ABSTIME. The clock starts at the epoch, zero. *)
Definition fd_settime (stop : Z) (f : timerfd) (abs : bool) (value interval : timespec) : option (timerfd * option errno) :=
  match sim_try_from_timespec value, sim_try_from_timespec interval with
  | Some v, Some i =>
      if v =? 0 then
        do (w, _) <- tstep stop (td_world f) Disarm; Some (refresh f w, None)
      else
        do e <- emu_checked_add (if abs then 0 else now (td_world f)) v;
        do (w, _) <- tstep stop (td_world f) (Arm (Z.max e (now (td_world f))) (if 0 <? i then Some i else None));
        Some (refresh f w, None)
  | _, _ => Some (f, Some EINVAL)
  end.

(** handler/timerfd.rs:85-124 [timerfd_gettime_helper]: time left and interval, as nanoseconds. *)
Definition fd_gettime (f : timerfd) : Z * Z :=
  (match remaining (now (td_world f)) (tm (td_world f)) with Some d => d | None => 0 end,
   match expire_interval (tm (td_world f)) with Some d => d | None => 0 end).

(** The task of the event queue, with the callback of timerfd.rs:55-69. *)
Definition fd_run (stop : Z) (f : timerfd) (ev : Z * Z) : option timerfd :=
  do (w, x) <- tstep stop (td_world f) (Run ev);
  Some (match x with
        | Ran true => refresh f w
        | _ => {| td_world := w; td_readable := td_readable f; td_closed := td_closed f |}
        end).

(** timerfd.rs:184-194 [close] *)
Definition fd_close (f : timerfd) : timerfd :=
  {| td_world := td_world f; td_readable := false; td_closed := true |}.

Inductive fop : Type :=
| FSet (abs : bool) (value interval : timespec)
| FRead (offset : bool) (len : Z) (accessible : bool)
| FClose
| FRun (ev : Z * Z)
| FWait (t : Z).
Inductive fres : Type := FUnit | FErr (e : errno) | FCount (n : Z).
Definition fstep (stop : Z) (f : timerfd) (o : fop) : option (timerfd * fres) :=
  match o with
  | FSet abs v i => do (f', r) <- fd_settime stop f abs v i; Some (f', match r with None => FUnit | Some e => FErr e end)
  | FRead o l a => let (f', r) := fd_read f o l a in Some (f', match r with inl n => FCount n | inr e => FErr e end)
  | FClose => Some (fd_close f, FUnit)
  | FRun ev => do f' <- fd_run stop f ev; Some (f', FUnit)
  | FWait t => Some ({| td_world := {| now := t; tm := tm (td_world f); pending := pending (td_world f) |};
                        td_readable := td_readable f; td_closed := td_closed f |}, FUnit)
  end.
Definition flegal (stop : Z) (f : timerfd) (o : fop) : Prop :=
  match o with FRun ev => legal stop (td_world f) (Run ev) | FWait t => legal stop (td_world f) (Wait t) | _ => True end.
(** timerfd.rs:40-52 [new] *)
Definition timerfd_new (start : Z) : timerfd := {| td_world := world_new start; td_readable := false; td_closed := false |}.
Inductive fruns (stop start : Z) : list (fop * fres) -> timerfd -> Prop :=
| fr_nil : fruns stop start [] (timerfd_new start)
| fr_snoc h f o x f' : fruns stop start h f -> flegal stop f o -> fstep stop f o = Some (f', x) ->
    fruns stop start (h ++ [(o, x)]) f'.
