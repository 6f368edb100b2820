(** C23: timers and timer descriptors. *)
From Verif Require Import Base TimeModel TimerModel TimerSpec TimerProofs.

(** Once the tasks due now have run, the callback has been made once for every expiration, up to now,
    of the schedule last set; earlier schedules contribute nothing. *)
Theorem C23_callbacks : forall stop start h w, EMUTIME_SIMULATION_START <= start < stop -> truns stop start h w ->
  settled w -> called_since h = expirations (set_sched h) (now w).
Proof. exact called_main. Qed.
Print Assumptions C23_callbacks.

(** At any moment, every expiration before now has been reported and none after now. *)
Theorem C23_callbacks_bounds : forall stop start h w, EMUTIME_SIMULATION_START <= start < stop -> truns stop start h w ->
  expirations (set_sched h) (now w - 1) <= called_since h <= expirations (set_sched h) (now w).
Proof. exact called_bounds. Qed.
Print Assumptions C23_callbacks_bounds.

(** The count is the number of callbacks since the timer was set, less the counts already read. *)
Theorem C23_count : forall stop start h w, EMUTIME_SIMULATION_START <= start < stop -> truns stop start h w ->
  expiration_count (tm w) = called_since h - read_since h.
Proof. exact count_main. Qed.
Print Assumptions C23_count.

(** The time remaining is measured to the next expiration of the schedule. *)
Theorem C23_remaining : forall stop start h w, EMUTIME_SIMULATION_START <= start < stop -> truns stop start h w ->
  settled w -> remaining (now w) (tm w) =
    match next_after (set_sched h) (now w) with Some e => Some (e - now w) | None => None end.
Proof. exact remaining_main. Qed.
Print Assumptions C23_remaining.

(** A task queued before the timer was set again or disarmed does nothing whenever it runs. *)
Theorem C23_stale : forall stop start h w, EMUTIME_SIMULATION_START <= start < stop -> truns stop start h w ->
  forall o x w1 ev, (match o with Arm _ _ | Disarm => True | _ => False end) ->
  legal stop w o -> tstep stop w o = Some (w1, x) -> In ev (pending w) ->
  forall h2 w2, truns stop start (h ++ (o, x) :: h2) w2 -> expire (fst ev) (tm w2) (snd ev) = Some (tm w2, [], false).
Proof. exact stale_main. Qed.
Print Assumptions C23_stale.

(** Setting a timer within its documented preconditions, and running its tasks, never panics as long
    as no interval reaches past the representable times. *)
Theorem C23_no_panic : forall stop start h w o, sane_times stop start -> truns stop start h w ->
  Forall (fun ox => sane_interval stop (fst ox)) h -> legal stop w o -> documented w o ->
  exists w' x, tstep stop w o = Some (w', x).
Proof. exact no_panic_main. Qed.
Print Assumptions C23_no_panic.

(** A timer descriptor is readable exactly when expirations have not been read. *)
Theorem C23_fd_readable : forall stop start h f, EMUTIME_SIMULATION_START <= start < stop -> stop <= EMUTIME_MAX ->
  fruns stop start h f -> Forall no_fault h -> settled (td_world f) -> Forall no_close h ->
  td_readable f = (0 <? f_count start h).
Proof. exact fd_readable_main. Qed.
Print Assumptions C23_fd_readable.

(** A read delivers the number of unread expirations and would block exactly when there are none. *)
Theorem C23_fd_read : forall stop start h f, EMUTIME_SIMULATION_START <= start < stop -> stop <= EMUTIME_MAX ->
  fruns stop start h f -> Forall no_fault h -> settled (td_world f) -> forall len, 8 <= len ->
  exists f', fstep stop f (FRead false len true) =
    Some (f', if f_count start h =? 0 then FErr EWOULDBLOCK else FCount (f_count start h)).
Proof. exact fd_read_main. Qed.
Print Assumptions C23_fd_read.

(** timerfd_gettime reports the time to the next expiration and the interval. *)
Theorem C23_fd_gettime : forall stop start h f, EMUTIME_SIMULATION_START <= start < stop -> stop <= EMUTIME_MAX ->
  fruns stop start h f -> Forall no_fault h -> settled (td_world f) ->
  fd_gettime f = (match next_after (f_sched start h) (f_now start h) with Some e => e - f_now start h | None => 0 end,
                  interval_of (f_sched start h)).
Proof. exact fd_gettime_main. Qed.
Print Assumptions C23_fd_gettime.

Definition ts (s n : Z) : timespec := {| tv_sec := s; tv_nsec := n |}.
Definition T0 : Z := EMUTIME_SIMULATION_START.

(** A periodic timer of 1.5 seconds, set again and disarmed, with early wake-ups and a stale task. *)
Definition story : list fop :=
  [FSet false (ts 3 0) (ts 1 500000000);
   FRun (T0 + 2000000000, 0); FRun (T0 + 3000000000, 1); FRun (T0 + 4500000000, 2); FWait (T0 + 5000000000);
   FRead false 8 true; FRead false 8 true; FSet false (ts 2 5) (ts 0 0); FRun (T0 + 6000000000, 3);
   FRun (T0 + 7000000000, 4); FRun (T0 + 7000000005, 5); FWait (T0 + 7000000006)].
Definition story_end := fexec (T0 + 100000000000) (timerfd_new T0) story.
Example C23_story : exists h f, story_end = Some (h, f) /\ fruns (T0 + 100000000000) T0 h f /\
  map snd h = [FUnit; FUnit; FUnit; FUnit; FUnit; FCount 2; FErr EWOULDBLOCK; FUnit; FUnit; FUnit; FUnit; FUnit] /\
  Forall no_fault h /\ Forall no_close h /\ settled (td_world f) /\ td_readable f = true /\ f_count T0 h = 1.
Proof.
  destruct story_end as [[h f]|] eqn:E; [|vm_compute in E; discriminate].
  exists h, f. split; [reflexivity|]. pose proof (fexec_new _ _ _ _ _ E) as R. split; [exact R|].
  vm_compute in E. injection E as <- <-. split; [reflexivity|]. split; [repeat constructor|].
  split; [repeat constructor; discriminate|]. split; [repeat constructor|]. split; reflexivity.
Qed.

(** A read into inaccessible memory loses the count and leaves the descriptor readable, so that the
    next read would block on a readable descriptor. *)
Theorem C23_fault_refuted : exists stop start h f f', EMUTIME_SIMULATION_START <= start < stop /\ stop <= EMUTIME_MAX /\
  fruns stop start h f /\ settled (td_world f) /\ Forall no_close h /\
  expirations (f_sched start h) (f_now start h) = 1 /\ f_read start h = 0 /\
  td_readable f = true /\ fstep stop f (FRead false 8 true) = Some (f', FErr EWOULDBLOCK).
Proof.
  destruct (fexec (T0 + 100000000000) (timerfd_new T0)
    [FSet false (ts 1 0) (ts 0 0); FRun (T0 + 1000000000, 0); FWait (T0 + 1500000000); FRead false 8 false]) as [[h f]|] eqn:E; [|vm_compute in E; discriminate].
  exists (T0 + 100000000000), T0, h, f. pose proof (fexec_new _ _ _ _ _ E) as R.
  destruct (fstep (T0 + 100000000000) f (FRead false 8 true)) as [[f' x]|] eqn:F.
  - exists f'. split; [vm_compute; split; [discriminate|reflexivity]|]. split; [vm_compute; discriminate|]. split; [exact R|].
    vm_compute in E. injection E as <- <-. vm_compute in F. injection F as <- <-.
    split; [repeat constructor|]. split; [repeat constructor; discriminate|]. repeat split; reflexivity.
  - vm_compute in E. injection E as <- <-. vm_compute in F. discriminate.
Qed.
Print Assumptions C23_fault_refuted.

(** A relative time that timerfd_settime accepts as valid can panic the simulator. *)
Theorem C23_overflow_refuted : exists stop start h f value v, sane_times stop start /\ fruns stop start h f /\
  sim_try_from_timespec value = Some v /\ fstep stop f (FSet false value (ts 0 0)) = None.
Proof.
  exists (T0 + 100000000000), (T0 + 1000000000), [], (timerfd_new (T0 + 1000000000)), (ts 17500059273 0).
  eexists. split; [split; [split; [vm_compute; discriminate|vm_compute; reflexivity]|vm_compute; discriminate]|]. split; [constructor|].
  split; vm_compute; reflexivity.
Qed.
Print Assumptions C23_overflow_refuted.
(** So can an interval, when the first expiration is reached. *)
Theorem C23_interval_refuted : exists stop start h f ev, sane_times stop start /\ fruns stop start h f /\
  flegal stop f (FRun ev) /\ fstep stop f (FRun ev) = None.
Proof.
  destruct (fexec (T0 + 100000000000) (timerfd_new T0) [FSet false (ts 1 0) (ts 17500059273 0)]) as [[h f]|] eqn:E; [|vm_compute in E; discriminate].
  exists (T0 + 100000000000), T0, h, f, (T0 + 1000000000, 0). pose proof (fexec_new _ _ _ _ _ E) as R.
  split; [split; [split; [vm_compute; discriminate|vm_compute; reflexivity]|vm_compute; discriminate]|].
  split; [exact R|]. vm_compute in E. injection E as <- <-. split; [apply flegalb_ok; vm_compute; reflexivity|vm_compute; reflexivity].
Qed.
Print Assumptions C23_interval_refuted.
