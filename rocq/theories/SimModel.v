(** Model of the simulation loop: src/main/core/manager.rs:425-538 (scheduling loop),
    src/main/core/controller.rs:87-113 (window policy), src/main/core/worker.rs:262-397, 595-607
    (clock, runahead time, latency and next-event bookkeeping, packet sending),
    src/main/host/host.rs:674-678, 715-734, 774-819 (event ids, scheduling, execution loop), on top of
    the event queue (EventModel), CPU model (CpuModel) and runahead policy (RunaheadModel).

    What a host does while it handles an event (processes, sockets, timers, router) is an arbitrary
    deterministic program over private state, which interacts with the simulator only through the
    actions below. The private state includes the host's own random number generator (host.rs
    random_mut), so [chance] in a send comes from the program.

    Worker threads interleave: any worker that is not executing a host may take any host not yet taken
    in this round (this covers every scheduler, see C27), and an active host advances in atomic
    micro-steps; a packet send is three micro-steps (decide; report latency; push). Panics are [None].

    Simplifications: times are unbounded integers (the code panics if a time exceeds year 2554, see
    C26); the latency report is one atomic step here (its two lock acquisitions are interleaved in
    RunaheadModel, C06); event ids do not wrap around 2^64; packet counters and status breadcrumbs are omitted. *)
From Verif Require Import Base TimeModel EventModel CpuModel RunaheadModel.

(** What the program running on a host may ask of the simulator. *)
Inductive action (K T : Type) : Type :=
| ADone                                           (* the event handler returns *)
| ASchedule (delay : N) (task : T)                (* host.rs:720: schedule_task_with_delay; also
                                                     host.rs:715 with an absolute time >= now *)
| ASend (dst : nat) (chance : Z) (payload : bool) (pkt : K)
                                                  (* worker.rs:324: send_packet; an address is a
                                                     host id, unknown if no such host (worker.rs:341) *)
| AAdvance (t : Z)                                (* handler/mod.rs:289-320, managed_thread.rs:434-468:
                                                     move the clock forward inside an event *)
| ARunahead                                       (* worker.rs:271: max_event_runahead_time *)
| AClock                                          (* worker.rs:287: current_time *)
| ACpu (native : N).                              (* process.rs:478: cpu add_delay *)
Arguments ADone {K T}. Arguments ASchedule {K T}. Arguments ASend {K T}. Arguments AAdvance {K T}.
Arguments ARunahead {K T}. Arguments AClock {K T}. Arguments ACpu {K T}.

Inductive response : Type := RUnit | RBool (b : bool) | RTime (t : Z).

Record params (S K T : Type) : Type := mkParams {
  p_nhosts : nat;
  p_sim_end : Z;                        (* stop time, as emulated time *)
  p_boot_end : Z;                       (* bootstrap_end_time *)
  p_lat : nat -> nat -> Z;              (* routing latency between hosts *)
  p_rel : nat -> nat -> Z;              (* path reliability, same scale as [chance] *)
  p_start : nat -> Z -> evdata K T -> S -> S;      (* begin handling an event *)
  p_next : nat -> S -> action K T;                 (* next action of the handler *)
  p_resume : nat -> S -> response -> S             (* continue with the answer *)
}.
Arguments p_nhosts {S K T}. Arguments p_sim_end {S K T}. Arguments p_boot_end {S K T}.
Arguments p_lat {S K T}. Arguments p_rel {S K T}. Arguments p_start {S K T}.
Arguments p_next {S K T}. Arguments p_resume {S K T}.

Section Sim.
Context {S K T : Type} (keqb : K -> K -> bool) (teqb : T -> T -> bool) (P : params S K T).
Notation event := (event K T).

(** Where a host is in its execution loop. *)
Inductive phase : Type :=
| PIdle                                        (* at the head of host.rs:775 *)
| PExec                                        (* inside an event handler *)
| PLat (dst : nat) (k : K) (delay : Z)         (* worker.rs:372 *)
| PPush (dst : nat) (k : K) (delay : Z).       (* worker.rs:381 *)

Record hstate : Type := mkH {
  h_priv : S;
  h_phase : phase;
  h_q : equeue K T;
  h_ctr : Z;            (* event_id_counter, host.rs:674-678 *)
  h_cpu : cpu;
  h_clock : Z;          (* Worker clock while the host executes; keeps its last value afterwards *)
}.

(** What a micro-step does to the outside (and what an observer sees). *)
Inductive effect : Type :=
| FNone
| FExec (e : event)                             (* event handed to the host *)
| FLocal (e : event)                            (* event put into the host's own queue *)
| FRefused (e : event)                          (* schedule refused: at or after the stop time *)
| FDefer (e : event) (t : Z)                    (* CPU busy: event moved to [t] *)
| FExpire (e : event) (t : Z)                   (* CPU busy: moved to [t], at or after the stop time: dropped *)
| FLost (k : K)                                 (* packet dropped before being sent *)
| FLat (delay : Z)                              (* latency used *)
| FSend (dst : nat) (now delay : Z) (e : event) (* packet event pushed to the destination host *)
| FReturn.                                      (* execute() returns *)

(** worker.rs:271-277 *)
Definition max_runahead (we : Z) (q : equeue K T) : Z :=
  match q_next_event_time keqb teqb q with Some t => Z.min we t | None => we end.

(** host.rs:728-734; [inl]: time at or after the stop time, not pushed *)
Definition push_local (q : equeue K T) (e : event) : option (bool * equeue K T) :=
  if p_sim_end P <=? ev_time e then Some (false, q)
  else do q' <- q_push keqb teqb q e; Some (true, q').

(** The handler of host [h] asked for action [a] (the host's phase is PExec). *)
Definition do_action (h : nat) (we : Z) (x : hstate) (a : action K T) : option (hstate * effect) :=
  let now := h_clock x in
  let resume r := p_resume P h (h_priv x) r in
  match a with
  | ADone =>  (* host.rs:812-813 *)
      Some (mkH (h_priv x) PIdle (h_q x) (h_ctr x) (h_cpu x) now, FNone)
  | ASchedule d task =>
      (* host.rs:715-722, event.rs:35-45: the id is consumed even if the event is refused *)
      let e := mkEv (now + Z.of_N d) (ELocal (h_ctr x) task) in
      do (ok, q') <- push_local (h_q x) e;
      Some (mkH (resume (RBool ok)) PExec q' (h_ctr x + 1) (h_cpu x) now,
            if ok : bool then FLocal e else FRefused e)
  | ASend dst chance payload k =>  (* worker.rs:324-370 *)
      if p_sim_end P <=? now then
        Some (mkH (resume RUnit) PExec (h_q x) (h_ctr x) (h_cpu x) now, FLost k)
      else if negb (Nat.ltb dst (p_nhosts P)) then
        Some (mkH (resume RUnit) PExec (h_q x) (h_ctr x) (h_cpu x) now, FLost k)
      else if negb (now <? p_boot_end P) && (p_rel P h dst <=? chance) && payload then
        Some (mkH (resume RUnit) PExec (h_q x) (h_ctr x) (h_cpu x) now, FLost k)
      else
        Some (mkH (h_priv x) (PLat dst k (p_lat P h dst)) (h_q x) (h_ctr x) (h_cpu x) now, FNone)
  | AAdvance t =>
      if (now <=? t) && (t <=? max_runahead we (h_q x))
      then Some (mkH (resume (RBool true)) PExec (h_q x) (h_ctr x) (h_cpu x) t, FNone)
      else Some (mkH (resume (RBool false)) PExec (h_q x) (h_ctr x) (h_cpu x) now, FNone)
  | ARunahead =>
      Some (mkH (resume (RTime (max_runahead we (h_q x)))) PExec (h_q x) (h_ctr x) (h_cpu x) now, FNone)
  | AClock =>
      Some (mkH (resume (RTime now)) PExec (h_q x) (h_ctr x) (h_cpu x) now, FNone)
  | ACpu native =>
      do c' <- cpu_add_delay (h_cpu x) (Z.of_N native);
      Some (mkH (resume RUnit) PExec (h_q x) (h_ctr x) c' now, FNone)
  end.

(** host.rs:774-815: one turn of the execution loop up to the start of the handler *)
Definition pop_step (h : nat) (we : Z) (x : hstate) : option (hstate * effect) :=
  match q_next_event_time keqb teqb (h_q x) with
  | Some t =>
      if t <? we then
        do (r, q') <- q_pop keqb teqb (h_q x);
        do e <- r;
        let c' := cpu_update_time (h_cpu x) (ev_time e) in
        let d := cpu_delay c' in
        if 0 <? d then
          let e' := ev_set_time e (ev_time e + d) in
          do (ok, q'') <- push_local q' e';
          Some (mkH (h_priv x) PIdle q'' (h_ctr x) c' (h_clock x),
                if ok : bool then FDefer e (ev_time e') else FExpire e (ev_time e'))
        else
          Some (mkH (p_start P h (ev_time e) (ev_data e) (h_priv x)) PExec q' (h_ctr x) c' (ev_time e),
                FExec e)
      else Some (x, FReturn)
  | None => Some (x, FReturn)
  end.

(** One micro-step of an active host [h] in a window ending at [we]; depends on that host only. *)
Definition host_step (h : nat) (we : Z) (x : hstate) : option (hstate * effect) :=
  match h_phase x with
  | PIdle => pop_step h we x
  | PExec => do_action h we x (p_next P h (h_priv x))
  | PLat d k delay =>
      Some (mkH (h_priv x) (PPush d k delay) (h_q x) (h_ctr x) (h_cpu x) (h_clock x), FLat delay)
  | PPush d k delay =>
      (* worker.rs:381-396, event.rs:20-31 *)
      let e := mkEv (Z.max (h_clock x + delay) we) (EPacket h (h_ctr x) k) in
      Some (mkH (p_resume P h (h_priv x) RUnit) PExec (h_q x) (h_ctr x + 1) (h_cpu x) (h_clock x),
            FSend d (h_clock x) delay e)
  end.

(** Progress of a host in the current round. *)
Inductive rstatus : Type := RWait | RActive (w : nat) | RReading (w : nat) | RDone.

(** Worker-thread state: the thread's slot of thread_next_event_times (manager.rs:437), the worker's
    next_event_time and min_latency_cache (worker.rs:291-320). *)
Record wstate : Type := mkW { w_next : option Z; w_pkt : option Z; w_cache : option Z }.

Record gstate : Type := mkG {
  g_host : nat -> hstate;
  g_status : nat -> rstatus;
  g_worker : nat -> wstate;
  g_ra : runahead;
  g_window : option (Z * Z);     (* None: the loop has ended *)
}.

(** min of two optional times, None meaning absent (manager.rs:484-487) *)
Definition omin (a b : option Z) : option Z :=
  match a, b with
  | Some x, Some y => Some (Z.min x y)
  | Some x, None => Some x
  | None, y => y
  end.

Definition set_q (x : hstate) (q : equeue K T) : hstate :=
  mkH (h_priv x) (h_phase x) q (h_ctr x) (h_cpu x) (h_clock x).

(** What the rest of the simulator does with the effect of a micro-step of host [h] on worker [w]. *)
Definition apply_effect (s : gstate) (h w : nat) (x' : hstate) (f : effect) : option gstate :=
  let hosts := upd (g_host s) h x' in
  let W := g_worker s w in
  match f with
  | FLat delay =>
      (* worker.rs:291-302, runahead.rs:61-117 *)
      do (c, go) <- cache_update (w_cache W) delay;
      do ra <- (if go : bool then ra_update (g_ra s) delay else Some (g_ra s));
      Some (mkG hosts (g_status s) (upd (g_worker s) w (mkW (w_next W) (w_pkt W) c)) ra (g_window s))
  | FSend d now delay e =>
      (* worker.rs:386-396: update_next_event_time, then push_packet_to_host; an unknown host id
         would panic (worker.rs:605) *)
      check (Nat.ltb d (p_nhosts P));
      do q' <- q_push keqb teqb (h_q (hosts d)) e;
      Some (mkG (upd hosts d (set_q (hosts d) q')) (g_status s)
                (upd (g_worker s) w (mkW (w_next W) (omin (w_pkt W) (Some (ev_time e))) (w_cache W)))
                (g_ra s) (g_window s))
  | FReturn =>
      Some (mkG hosts (upd (g_status s) h (RReading w)) (g_worker s) (g_ra s) (g_window s))
  | _ => Some (mkG hosts (g_status s) (g_worker s) (g_ra s) (g_window s))
  end.

(** manager.rs:480-487: read the host's next event time into the thread's slot *)
Definition finish_host (s : gstate) (h w : nat) : gstate :=
  let W := g_worker s w in
  mkG (g_host s) (upd (g_status s) h RDone)
      (upd (g_worker s) w
           (mkW (omin (w_next W) (q_next_event_time keqb teqb (h_q (g_host s h)))) (w_pkt W) (w_cache W)))
      (g_ra s) (g_window s).

(** manager.rs:490-495, 519-524 over the workers [0 .. n-1] *)
Fixpoint min_next (s : gstate) (n : nat) : option Z :=
  match n with
  | O => None
  | Datatypes.S n => omin (min_next s n) (omin (w_next (g_worker s n)) (w_pkt (g_worker s n)))
  end.

(** controller.rs:87-112 *)
Definition next_window (ra : runahead) (min_next_event : Z) : option (option (Z * Z)) :=
  let r := ra_get ra in
  check (negb (r =? 0));
  let new_end := match emu_checked_add min_next_event r with Some t => t | None => EMUTIME_MAX end in
  let new_end := Z.min new_end (p_sim_end P) in
  Some (if min_next_event <? new_end then Some (min_next_event, new_end) else None).

(** manager.rs:517-537 and the reset at the head of the next round (473, 522) *)
Definition end_round (s : gstate) (nworkers : nat) : option gstate :=
  let m := match min_next s nworkers with Some t => t | None => EMUTIME_MAX end in
  do win <- next_window (g_ra s) m;
  Some (mkG (g_host s) (fun _ => RWait)
            (fun w => mkW None None (w_cache (g_worker s w))) (g_ra s) win).

(** Observable labels. *)
Inductive label : Type :=
| LTau
| LHost (h : nat) (f : effect)
| LWindow (w : option (Z * Z)).

(** The interleaved steps, with [n] workers. [None] is a panic. *)
Inductive step (n : nat) : gstate -> option (gstate * label) -> Prop :=
| St_start s h w we ws : g_window s = Some (ws, we) -> (h < p_nhosts P)%nat -> (w < n)%nat ->
    g_status s h = RWait ->
    (forall h', g_status s h' <> RActive w) -> (forall h', g_status s h' <> RReading w) ->
    step n s (Some (mkG (g_host s) (upd (g_status s) h (RActive w)) (g_worker s) (g_ra s) (g_window s), LTau))
| St_host s h w ws we : g_window s = Some (ws, we) -> g_status s h = RActive w ->
    step n s (do (x', f) <- host_step h we (g_host s h);
              do s' <- apply_effect s h w x' f; Some (s', LHost h f))
| St_finish s h w ws we : g_window s = Some (ws, we) -> g_status s h = RReading w ->
    step n s (Some (finish_host s h w, LTau))
| St_round s ws we : g_window s = Some (ws, we) ->
    (forall h, (h < p_nhosts P)%nat -> g_status s h = RDone) ->
    step n s (do s' <- end_round s n; Some (s', LWindow (g_window s'))).

(** Executions: list of labels, oldest first. *)
Inductive run (n : nat) (s0 : gstate) : list label -> option gstate -> Prop :=
| run_nil : run n s0 [] (Some s0)
| run_step tr s s' l : run n s0 tr (Some s) -> step n s (Some (s', l)) -> run n s0 (tr ++ [l]) (Some s')
| run_panic tr s : run n s0 tr (Some s) -> step n s None -> run n s0 tr None.

(** manager.rs:430-433: the first window; everything else as configured by the caller: private states,
    CPUs, runahead and the events scheduled during boot (host.rs:404-427: process start and stop tasks,
    created with ids 0 .. n-1; those at or after the stop time are refused, host.rs:729). *)
Definition boot_queue (l : list (Z * T)) : list event :=
  filter (fun e => ev_time e <? p_sim_end P)
    (map (fun '(i, (t, task)) => mkEv t (ELocal (Z.of_nat i) task)) (combine (seq 0 (length l)) l)).
Definition init_host (priv : S) (c : cpu) (l : list (Z * T)) : hstate :=
  mkH priv PIdle (mkQ (boot_queue l) EMUTIME_SIMULATION_START) (Z.of_nat (length l)) c EMUTIME_SIMULATION_START.
Definition init_state (priv : nat -> S) (c : nat -> cpu) (l : nat -> list (Z * T)) (ra : runahead) : gstate :=
  mkG (fun h => init_host (priv h) (c h) (l h)) (fun _ => RWait) (fun _ => mkW None None None) ra
      (Some (EMUTIME_SIMULATION_START, EMUTIME_SIMULATION_START + 1)).

End Sim.
Arguments phase : clear implicits.
Arguments hstate : clear implicits.
Arguments effect : clear implicits.
Arguments label : clear implicits.
Arguments gstate : clear implicits.
