(** C01, C02, C03, C04 and the simulation part of C07. *)
From Verif Require Import Base EventModel EventSpec CpuModel RunaheadModel RunaheadSpec SimModel SimSpec SimMain SimExample.

Lemma demo_setup : forall th dyn, setup demo (demo_cpu th) demo_boot dyn 1 None (demo_ra dyn).
Proof. intros th dyn. constructor; [apply demo_config|apply demo_boot_ok|lia|reflexivity]. Qed.

(** C01. Any two executions of the same simulation, with whatever numbers of workers, assignments of
    hosts to workers and interleavings, agree: at any two moments the windows opened so far, and what
    each host has done so far, are equal or one is an initial part of the other. *)
Theorem C01_deterministic : forall (S K T : Type) keqb teqb (P : params S K T) priv c boot dyn mp cfg ra,
  setup P c boot dyn mp cfg ra -> forall n1 n2 tr1 tr2 s1 s2,
  run keqb teqb P n1 (init_state P priv c boot ra) tr1 (Some s1) ->
  run keqb teqb P n2 (init_state P priv c boot ra) tr2 (Some s2) ->
  comparable_lists (windows tr1) (windows tr2) /\
  forall h, (h < p_nhosts P)%nat -> comparable_lists (effects h tr1) (effects h tr2) /\
    comparable_lists (executed h tr1) (executed h tr2).
Proof. exact @det_prefix. Qed.
Print Assumptions C01_deterministic.

(** C01. Finished executions have the same windows, the same number of steps, the same per-host
    histories and the same final state (host programs, clocks, counters, CPUs, pending events). *)
Theorem C01_final_state : forall (S K T : Type) keqb teqb (P : params S K T) priv c boot dyn mp cfg ra,
  setup P c boot dyn mp cfg ra -> forall n1 n2 tr1 tr2 s1 s2,
  run keqb teqb P n1 (init_state P priv c boot ra) tr1 (Some s1) ->
  run keqb teqb P n2 (init_state P priv c boot ra) tr2 (Some s2) ->
  g_window s1 = None -> g_window s2 = None ->
  windows tr1 = windows tr2 /\ length tr1 = length tr2 /\ g_ra s1 = g_ra s2 /\
  forall h, (h < p_nhosts P)%nat ->
    effects h tr1 = effects h tr2 /\ executed h tr1 = executed h tr2 /\
    h_priv (g_host s1 h) = h_priv (g_host s2 h) /\ h_ctr (g_host s1 h) = h_ctr (g_host s2 h) /\
    h_clock (g_host s1 h) = h_clock (g_host s2 h) /\ h_cpu (g_host s1 h) = h_cpu (g_host s2 h) /\
    Permutation (q_bag (h_q (g_host s1 h))) (q_bag (h_q (g_host s2 h))).
Proof. exact @det_final. Qed.
Print Assumptions C01_final_state.

Example C01_final_state_case :
  run Nat.eqb Nat.eqb demo 1 (demo_init None false) (tr_of 1 None false) (Some (st_of 1 None false)) /\
  run Nat.eqb Nat.eqb demo 3 (demo_init None false) (tr_of 3 None false) (Some (st_of 3 None false)) /\
  g_window (st_of 1 None false) = None /\ g_window (st_of 3 None false) = None /\
  tr_of 1 None false <> tr_of 3 None false /\ length (executed 0 (tr_of 1 None false)) = 6%nat.
Proof.
  split; [exact demo_run_1|]. split; [exact demo_run_3|]. split; [vm_compute; reflexivity|]. split; [vm_compute; reflexivity|].
  split; [|vm_compute; reflexivity]. intros E. apply (f_equal (fun l => nth 1 l LTau)) in E. vm_compute in E. discriminate.
Qed.

(** C01. If one execution finishes, no other takes more steps, and every other one with at least one
    worker can be continued until it finishes. *)
Theorem C01_termination_agrees : forall (S K T : Type) keqb teqb (P : params S K T) priv c boot dyn mp cfg ra,
  setup P c boot dyn mp cfg ra -> forall n1 n2 tr1 tr2 s1 s2, (0 < n1)%nat ->
  run keqb teqb P n1 (init_state P priv c boot ra) tr1 (Some s1) ->
  run keqb teqb P n2 (init_state P priv c boot ra) tr2 (Some s2) ->
  g_window s2 = None ->
  (length tr1 <= length tr2)%nat /\
  exists more s1', run keqb teqb P n1 (init_state P priv c boot ra) (tr1 ++ more) (Some s1') /\ g_window s1' = None.
Proof. exact @det_complete. Qed.
Print Assumptions C01_termination_agrees.

(** C01. The loop is never stuck before its end. *)
Theorem C01_no_deadlock : forall (S K T : Type) keqb teqb (P : params S K T) priv c boot dyn mp cfg ra,
  setup P c boot dyn mp cfg ra -> forall n tr s, (0 < n)%nat ->
  run keqb teqb P n (init_state P priv c boot ra) tr (Some s) -> g_window s <> None ->
  exists s' l, step keqb teqb P n s (Some (s', l)).
Proof. exact @main_progress. Qed.
Print Assumptions C01_no_deadlock.

(** C02. No execution panics: none of the queue's, scheduler's or runahead's assertions can fail. *)
Theorem C02_no_panic : forall (S K T : Type) keqb teqb (P : params S K T) priv c boot dyn mp cfg ra,
  setup P c boot dyn mp cfg ra -> forall n tr,
  ~ run keqb teqb P n (init_state P priv c boot ra) tr None.
Proof. exact @main_no_panic. Qed.
Print Assumptions C02_no_panic.

(** C02. The times of the events a host executes never decrease. *)
Theorem C02_times_sorted : forall (S K T : Type) keqb teqb (P : params S K T) priv c boot dyn mp cfg ra,
  setup P c boot dyn mp cfg ra -> forall n tr s h,
  run keqb teqb P n (init_state P priv c boot ra) tr (Some s) -> (h < p_nhosts P)%nat ->
  times_sorted (executed h tr).
Proof. exact @main_sorted. Qed.
Print Assumptions C02_times_sorted.

(** C02. Whatever arrives at host [d] (a task of its own, or a packet from any host) is not earlier than
    anything [d] has executed. *)
Theorem C02_arrivals_not_in_past : forall (S K T : Type) keqb teqb (P : params S K T) priv c boot dyn mp cfg ra,
  setup P c boot dyn mp cfg ra -> forall n a h f b o d e e',
  run keqb teqb P n (init_state P priv c boot ra) (a ++ LHost h f :: b) o ->
  (f = FLocal e /\ d = h \/ exists now delay, f = FSend d now delay e) ->
  In e' (executed d a) -> ev_time e' <= ev_time e.
Proof. exact @main_arrivals. Qed.
Print Assumptions C02_arrivals_not_in_past.

Example C02_case : setup demo (demo_cpu (Some 0)) demo_boot true 1 None (demo_ra true) /\
  run Nat.eqb Nat.eqb demo 3 (demo_init (Some 0) true) (tr_of 3 (Some 0) true) (Some (st_of 3 (Some 0) true)) /\
  map (fun e => ev_time e - SIM_START) (executed 0 (tr_of 3 (Some 0) true)) = [0; 4; 7; 20; 20; 40].
Proof. split; [apply demo_setup|]. split; [exact demo_run_cpu|]. vm_compute. reflexivity. Qed.

(** C03. A packet arrives at the send time plus the latency of the path, or at the end of the window in
    force if that is later; exactly on time when the latency is at least the length of the window. *)
Theorem C03_latency : forall (S K T : Type) keqb teqb (P : params S K T) priv c boot dyn mp cfg ra,
  setup P c boot dyn mp cfg ra -> forall n a h b o d now delay e,
  run keqb teqb P n (init_state P priv c boot ra) (a ++ LHost h (FSend d now delay e) :: b) o ->
  exists ws we, window_after a = Some (ws, we) /\ ws <= now <= we /\ delay = p_lat P h d /\
    ev_time e = Z.max (now + p_lat P h d) we /\ (we - ws <= p_lat P h d -> ev_time e = now + p_lat P h d).
Proof. exact @main_latency. Qed.
Print Assumptions C03_latency.

(** C03. With static runahead, no path faster than the minimum and no configured bound above it, every
    packet is exactly on time. *)
Theorem C03_static_exact : forall (S K T : Type) keqb teqb (P : params S K T) priv c boot dyn mp cfg ra,
  setup P c boot dyn mp cfg ra -> forall n a h b o d now delay e,
  run keqb teqb P n (init_state P priv c boot ra) (a ++ LHost h (FSend d now delay e) :: b) o ->
  dyn = false -> (h < p_nhosts P)%nat -> (d < p_nhosts P)%nat ->
  mp <= p_lat P h d -> bound_of cfg <= p_lat P h d -> ev_time e = now + p_lat P h d.
Proof. exact @main_static. Qed.
Print Assumptions C03_static_exact.

(** C03. With dynamic runahead a packet is exactly on time if no larger latency has been used before. *)
Theorem C03_dynamic_exact : forall (S K T : Type) keqb teqb (P : params S K T) priv c boot dyn mp cfg ra,
  setup P c boot dyn mp cfg ra -> forall n a h b o d now delay e,
  run keqb teqb P n (init_state P priv c boot ra) (a ++ LHost h (FSend d now delay e) :: b) o ->
  bound_of cfg <= p_lat P h d -> mp <= p_lat P h d ->
  (forall l, In l (used a) -> l <= p_lat P h d) -> ev_time e = now + p_lat P h d.
Proof. exact @main_dynamic. Qed.
Print Assumptions C03_dynamic_exact.

(** The first packet of the demonstration, sent in the first window. *)
Example C03_case : exists a b e, tr_of 3 None false = a ++ LHost 0 (FSend 1 SIM_START 10 e) :: b /\
  ev_time e = SIM_START + 10 /\ window_after a = Some (SIM_START, SIM_START + 1).
Proof.
  set (i := length (filter (fun _ => true) (let fix go l := match l with
      | LHost _ (FSend _ _ _ _) :: _ => [] | x :: r => x :: go r | [] => [] end in go (tr_of 3 None false)))).
  exists (firstn i (tr_of 3 None false)), (skipn (Datatypes.S i) (tr_of 3 None false)),
    (mkEv (SIM_START + 10) (EPacket 0 2 3%nat)).
  split; [vm_compute; reflexivity|]. split; vm_compute; reflexivity.
Qed.

(** C04. The windows are non-empty, increasing, disjoint and never extend past the stop time; nothing
    follows the end. (The first window is one nanosecond long.) *)
Theorem C04_windows : forall (S K T : Type) keqb teqb (P : params S K T) priv c boot dyn mp cfg ra,
  setup P c boot dyn mp cfg ra -> forall n tr s,
  run keqb teqb P n (init_state P priv c boot ra) tr (Some s) ->
  windows_ok (p_sim_end P) (SIM_START + 1) (windows tr).
Proof. exact @main_windows. Qed.
Print Assumptions C04_windows.

(** C04. Each window starts at the earliest pending event of all hosts and has the length given by the
    runahead policy, cut at the stop time; the simulation ends when nothing is pending before it. *)
Theorem C04_next_window : forall (S K T : Type) keqb teqb (P : params S K T) priv c boot dyn mp cfg ra,
  setup P c boot dyn mp cfg ra -> forall n a w b o,
  run keqb teqb P n (init_state P priv c boot ra) (a ++ LWindow w :: b) o ->
  exists s, run keqb teqb P n (init_state P priv c boot ra) a (Some s) /\
  match w with
  | Some (x, y) => y = Z.min (x + policy dyn mp cfg (used a)) (p_sim_end P) /\ x < p_sim_end P /\
       (forall h e, (h < p_nhosts P)%nat -> In e (q_bag (h_q (g_host s h))) -> x <= ev_time e) /\
       (exists h e, (h < p_nhosts P)%nat /\ In e (q_bag (h_q (g_host s h))) /\ ev_time e = x)
  | None => forall h e, (h < p_nhosts P)%nat -> In e (q_bag (h_q (g_host s h))) -> p_sim_end P <= ev_time e
  end.
Proof. exact @main_window_policy. Qed.
Print Assumptions C04_next_window.

(** C04. Events are executed inside the window in force. *)
Theorem C04_in_window : forall (S K T : Type) keqb teqb (P : params S K T) priv c boot dyn mp cfg ra,
  setup P c boot dyn mp cfg ra -> forall n a h e b o,
  run keqb teqb P n (init_state P priv c boot ra) (a ++ LHost h (FExec e) :: b) o ->
  exists ws we, window_after a = Some (ws, we) /\ ws <= ev_time e < we.
Proof. exact @main_exec_window. Qed.
Print Assumptions C04_in_window.

(** C04. When a simulation (without CPU delays) has ended, each host has executed exactly the events that
    arrived for times before the stop time, each one once. *)
Theorem C04_all_executed : forall (S K T : Type) keqb teqb (P : params S K T) priv c boot dyn mp cfg ra,
  setup P c boot dyn mp cfg ra -> forall n tr s h, (forall h, cpu_threshold (c h) = None) ->
  run keqb teqb P n (init_state P priv c boot ra) tr (Some s) -> g_window s = None -> (h < p_nhosts P)%nat ->
  Permutation (executed h tr) (filter (fun e => ev_time e <? p_sim_end P) (arrived P boot h tr)).
Proof. exact @main_all_executed. Qed.
Print Assumptions C04_all_executed.

Example C04_case : run Nat.eqb Nat.eqb demo 3 (demo_init None false) (tr_of 3 None false) (Some (st_of 3 None false)) /\
  g_window (st_of 3 None false) = None /\ length (arrived demo demo_boot 0 (tr_of 3 None false)) = 6%nat /\
  length (windows (tr_of 3 None false)) = 7%nat.
Proof. split; [exact demo_run_3|]. split; [vm_compute; reflexivity|]. split; vm_compute; reflexivity. Qed.

(** C04, C07. At any time, with CPU delays: what arrived at a host is, up to postponements, what it
    executed, what a busy CPU moved past the stop time, and what is still queued; nothing is executed
    twice and no two arrivals are confused. *)
Theorem C07_conserved : forall (S K T : Type) keqb teqb (P : params S K T) priv c boot dyn mp cfg ra,
  setup P c boot dyn mp cfg ra -> forall n tr s h,
  run keqb teqb P n (init_state P priv c boot ra) tr (Some s) -> (h < p_nhosts P)%nat ->
  NoDup (map ident_of (arrived P boot h tr)) /\
  exists l, Forall2 (postponed (deferred h tr)) (arrived P boot h tr) l /\
    Permutation l (executed h tr ++ expired h tr ++ q_bag (h_q (g_host s h))) /\ NoDup (map ident_of (executed h tr)).
Proof. exact @main_conserved. Qed.
Print Assumptions C07_conserved.

(** C04, C07. At the end only events at or after the stop time are left. *)
Theorem C04_end : forall (S K T : Type) keqb teqb (P : params S K T) priv c boot dyn mp cfg ra,
  setup P c boot dyn mp cfg ra -> forall n tr s h e,
  run keqb teqb P n (init_state P priv c boot ra) tr (Some s) -> g_window s = None -> (h < p_nhosts P)%nat ->
  In e (q_bag (h_q (g_host s h))) -> p_sim_end P <= ev_time e.
Proof. exact @main_end_queue. Qed.
Print Assumptions C04_end.

(** C07. A busy CPU only moves events to later times before the stop time. *)
Theorem C07_defer_later : forall (S K T : Type) keqb teqb (P : params S K T) priv c boot dyn mp cfg ra,
  setup P c boot dyn mp cfg ra -> forall n a h e t b o,
  run keqb teqb P n (init_state P priv c boot ra) (a ++ LHost h (FDefer e t) :: b) o ->
  ev_time e < t < p_sim_end P /\ exists ws we, window_after a = Some (ws, we) /\ ws <= ev_time e < we.
Proof. exact @main_defer. Qed.
Print Assumptions C07_defer_later.

(** C07. It drops an event only when that moves it to the stop time or later. *)
Theorem C07_expire_late : forall (S K T : Type) keqb teqb (P : params S K T) priv c boot dyn mp cfg ra,
  setup P c boot dyn mp cfg ra -> forall n a h e t b o,
  run keqb teqb P n (init_state P priv c boot ra) (a ++ LHost h (FExpire e t) :: b) o ->
  ev_time e < t /\ p_sim_end P <= t.
Proof. exact @main_expire. Qed.
Print Assumptions C07_expire_late.

(** C07. No event runs before the time it was scheduled for. *)
Theorem C07_never_early : forall (S K T : Type) keqb teqb (P : params S K T) priv c boot dyn mp cfg ra,
  setup P c boot dyn mp cfg ra -> forall n tr s h e,
  run keqb teqb P n (init_state P priv c boot ra) tr (Some s) -> (h < p_nhosts P)%nat -> In e (executed h tr) ->
  exists e0, In e0 (arrived P boot h tr) /\ ev_data e0 = ev_data e /\ ev_time e0 <= ev_time e.
Proof. exact @main_never_early. Qed.
Print Assumptions C07_never_early.

(** C07. Without a CPU threshold nothing is postponed or dropped. *)
Theorem C07_off : forall (S K T : Type) keqb teqb (P : params S K T) priv c boot dyn mp cfg ra,
  setup P c boot dyn mp cfg ra -> forall n tr s, (forall h, cpu_threshold (c h) = None) ->
  run keqb teqb P n (init_state P priv c boot ra) tr (Some s) ->
  (forall h, cpu_threshold (h_cpu (g_host s h)) = None) /\ forall h, deferred h tr = [] /\ expired h tr = [].
Proof. exact @main_no_defer. Qed.
Print Assumptions C07_off.

Example C07_case : run Nat.eqb Nat.eqb demo 3 (demo_init (Some 0) true) (tr_of 3 (Some 0) true) (Some (st_of 3 (Some 0) true)) /\
  deferred 0 (tr_of 3 (Some 0) true) = [mkEv (SIM_START + 3) (ELocal 1 1%nat)] /\
  In (mkEv (SIM_START + 4) (ELocal 1 1%nat)) (executed 0 (tr_of 3 (Some 0) true)).
Proof. split; [exact demo_run_cpu|]. split; [vm_compute; reflexivity|]. vm_compute. auto. Qed.
