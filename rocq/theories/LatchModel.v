(** The latches of the scheduler: src/lib/scheduler/src/sync/simple_latch.rs and
    count_down_latch.rs, at the granularity of atomic operations, futex calls and critical
    sections. Memory is sequentially consistent (the code uses release/acquire on one word). *)
From Verif Require Import Base SchedModel.

Definition wrap32 (x : Z) : Z := x mod 4294967296.
Definition wrap64 (x : Z) : Z := x mod 18446744073709551616.

(** ** simple_latch.rs *)

(** Where a waiter is in LatchWaiter::wait, lines 92-129. *)
Inductive wpc :=
| WIdle                  (* not waiting *)
| WLoad                  (* at the top of the loop, line 94 *)
| WFutex (g : Z)         (* loaded [g], about to futex-wait on it, line 106 *)
| WYield                 (* about to yield and try again, lines 118-124 *)
| WAsleep                (* sleeping in the futex call *)
| WPanic                 (* line 102 *)
| WGone.                 (* dropped *)

(** LatchWaiter, lines 29-37; ghosts: the number of openings when it (or the waiter it was cloned
    from) was created, and the number of returns from [wait] since. *)
Record waiter := Waiter {
  waiter_gen : Z; spin_yield : bool; w_pc : wpc; w_start : Z; w_returns : Z }.

(** Latch, lines 20-24; [opening] is true between the two steps of [open]; ghost: number of
    openings. *)
Record latch := Latch { latch_gen : Z; opening : bool; waiters : list waiter; opened : Z }.

(** Latch::new, lines 41-45 *)
Definition latch_new : latch := Latch 0 false [] 0.

(** What can happen next; an action that is not possible leaves the state unchanged. *)
Inductive lact :=
| LWaiter (spin : bool)  (* Latch::waiter, lines 54-62 *)
| LClone (i : nat)       (* clone of a waiter, line 29 *)
| LDrop (i : nat)
| LOpen                  (* Latch::open, the fetch_add, line 67 *)
| LWake                  (* Latch::open, the FUTEX_WAKE, lines 69-80 *)
| LCall (i : nat)        (* a call of wait *)
| LStep (i : nat)        (* the next step of a waiter *)
| LSpurious (i : nat).   (* the futex call of a sleeping waiter returns (EINTR or spuriously) *)

Definition set_w (l : latch) (i : nat) (w : waiter) : latch :=
  Latch (latch_gen l) (opening l) (upd i w (waiters l)) (opened l).
Definition at_pc (w : waiter) (p : wpc) : waiter :=
  Waiter (waiter_gen w) (spin_yield w) p (w_start w) (w_returns w).

(** One iteration of the loop of wait, lines 94-126 *)
Definition w_load (g : Z) (w : waiter) : waiter :=
  let d := wrap32 (g - waiter_gen w) in
  if d =? 1 then
    Waiter (wrap32 (waiter_gen w + 1)) (spin_yield w) WIdle (w_start w) (w_returns w + 1)
  else if d =? 0 then
    at_pc w (if spin_yield w then WYield else WFutex g)
  else at_pc w WPanic.

(** FUTEX_WAKE with INT_MAX *)
Definition wake_w (w : waiter) : waiter :=
  match w_pc w with WAsleep => at_pc w WLoad | _ => w end.

Definition lstep (a : lact) (l : latch) : latch :=
  match a with
  | LWaiter spin =>
      if opening l then l
      else Latch (latch_gen l) false
             (waiters l ++ [Waiter (latch_gen l) spin WIdle (opened l) 0]) (opened l)
  | LClone i =>
      match nth_error (waiters l) i with
      | Some w => match w_pc w with
                  | WIdle => Latch (latch_gen l) (opening l) (waiters l ++ [w]) (opened l)
                  | _ => l
                  end
      | None => l
      end
  | LDrop i =>
      match nth_error (waiters l) i with
      | Some w => match w_pc w with WIdle => set_w l i (at_pc w WGone) | _ => l end
      | None => l
      end
  | LOpen =>
      if opening l then l
      else Latch (wrap32 (latch_gen l + 1)) true (waiters l) (opened l + 1)
  | LWake =>
      if opening l then Latch (latch_gen l) false (map wake_w (waiters l)) (opened l) else l
  | LCall i =>
      match nth_error (waiters l) i with
      | Some w => match w_pc w with WIdle => set_w l i (at_pc w WLoad) | _ => l end
      | None => l
      end
  | LStep i =>
      match nth_error (waiters l) i with
      | Some w =>
          match w_pc w with
          | WLoad => set_w l i (w_load (latch_gen l) w)
          | WFutex g => set_w l i (at_pc w (if latch_gen l =? g then WAsleep else WLoad))
          | WYield => set_w l i (at_pc w WLoad)
          | _ => l
          end
      | None => l
      end
  | LSpurious i =>
      match nth_error (waiters l) i with
      | Some w => match w_pc w with WAsleep => set_w l i (at_pc w WLoad) | _ => l end
      | None => l
      end
  end.

Fixpoint lrun (l : latch) (acts : list lact) : latch :=
  match acts with [] => l | a :: r => lrun (lstep a l) r end.

(** ** count_down_latch.rs *)

(** LatchState, lines 36-48 *)
Record cstate := CState {
  generation : Z; counters : Z; cwaiters : Z; total_counters : Z; total_waiters : Z }.

(** A LatchCounter, lines 11-15: [c_notify] between the critical section and the notification of
    [count_down]; ghost: the true number of the round it counts down next. *)
Record counter := Counter { c_gen : Z; c_notify : bool; c_live : bool; c_round : Z }.

(** A LatchWaiter, lines 24-28, with its place in [wait]: not waiting, about to evaluate the
    condition, or asleep in the condition variable; ghost: the round it waits for next. *)
Inductive cwpc := CIdle | CCheck | CAsleep.
Record cwaiter := CWaiter { cw_gen : Z; cw_pc : cwpc; cw_live : bool; cw_round : Z }.

(** The latch with all its handles; [broken]: some operation panicked (with the lock poisoned or
    not). Ghost: the true round number. *)
Record cdl := Cdl {
  cst : cstate; cs : list counter; ws : list cwaiter; broken : bool; round_no : Z }.

(** build_count_down_latch, lines 52-75 *)
Definition cdl_new : cdl :=
  Cdl (CState 0 1 1 1 1) [Counter 0 false true 0] [CWaiter 0 CIdle true 0] false 0.

(** usize::checked_sub and checked_add, unwrapped *)
Definition usub (a : Z) : option Z := if 1 <=? a then Some (a - 1) else None.
Definition uadd (a : Z) : option Z := if a + 1 <=? U64_MAX then Some (a + 1) else None.

(** LatchState::advance_generation, lines 78-84 *)
Definition advance (s : cstate) : option cstate :=
  check (counters s =? 0);
  check (cwaiters s =? 0);
  Some (CState (wrap64 (generation s + 1)) (total_counters s) (total_waiters s)
               (total_counters s) (total_waiters s)).

(** Condvar::notify_all *)
Definition notify_w (w : cwaiter) : cwaiter :=
  match cw_pc w with CAsleep => CWaiter (cw_gen w) CCheck (cw_live w) (cw_round w) | _ => w end.

(** LatchCounter::count_down, lines 91-115: the critical section. The second component tells
    whether the waiters are to be notified. *)
Definition cd_section (s : cstate) (gen : Z) : option (cstate * bool) :=
  check (gen =? generation s);
  do n <- usub (counters s);
  Some (CState (generation s) n (cwaiters s) (total_counters s) (total_waiters s), n =? 0).

(** The condition of [wait_while], line 131: true means keep waiting. *)
Definition must_wait (s : cstate) (gen : Z) : bool :=
  negb (gen =? generation s) || (0 <? counters s).

(** LatchWaiter::wait after the condition turned false, lines 130-142. The second component tells
    whether the generation was advanced. *)
Definition wait_section (s : cstate) : option (cstate * bool) :=
  do n <- usub (cwaiters s);
  let s1 := CState (generation s) (counters s) n (total_counters s) (total_waiters s) in
  if n =? 0 then do s2 <- advance s1; Some (s2, true) else Some (s1, false).

(** Clone for LatchCounter, lines 145-160 *)
Definition clone_counter (s : cstate) (gen : Z) : option cstate :=
  do t <- uadd (total_counters s);
  do c <- (if gen =? generation s then uadd (counters s) else Some (counters s));
  Some (CState (generation s) c (cwaiters s) t (total_waiters s)).

(** Clone for LatchWaiter, lines 162-177 *)
Definition clone_waiter (s : cstate) (gen : Z) : option cstate :=
  do t <- uadd (total_waiters s);
  do c <- (if gen =? generation s then uadd (cwaiters s) else Some (cwaiters s));
  Some (CState (generation s) (counters s) c (total_counters s) t).

(** Drop for LatchCounter, lines 179-194. The second component: notify. *)
Definition drop_counter (s : cstate) (gen : Z) : option (cstate * bool) :=
  do t <- usub (total_counters s);
  do c <- (if gen =? generation s then usub (counters s) else Some (counters s));
  Some (CState (generation s) c (cwaiters s) t (total_waiters s), c =? 0).

(** Drop for LatchWaiter, lines 196-211. The second component: the generation was advanced. *)
Definition drop_waiter (s : cstate) (gen : Z) : option (cstate * bool) :=
  do t <- usub (total_waiters s);
  do c <- (if gen =? generation s then usub (cwaiters s) else Some (cwaiters s));
  let s1 := CState (generation s) (counters s) c (total_counters s) t in
  if (c =? 0) && (counters s =? 0) then do s2 <- advance s1; Some (s2, true) else Some (s1, false).

Inductive cact :=
| CCountDown (i : nat)     (* the critical section of count_down *)
| CNotify (i : nat)        (* its notification *)
| CWait (i : nat)          (* a call of wait *)
| CStep (i : nat)          (* a waiter evaluates the condition *)
| CSpurious (i : nat)      (* a sleeping waiter wakes up by itself *)
| CCloneC (i : nat) | CCloneW (i : nat)
| CDropC (i : nat) | CDropW (i : nat).

Definition set_c (l : cdl) (i : nat) (c : counter) : cdl :=
  Cdl (cst l) (upd i c (cs l)) (ws l) (broken l) (round_no l).
Definition set_cw (l : cdl) (i : nat) (w : cwaiter) : cdl :=
  Cdl (cst l) (cs l) (upd i w (ws l)) (broken l) (round_no l).
Definition break (l : cdl) : cdl := Cdl (cst l) (cs l) (ws l) true (round_no l).

Definition b2z (b : bool) : Z := if b then 1 else 0.

Definition cstep (a : cact) (l : cdl) : cdl :=
  if broken l then l else
  match a with
  | CCountDown i =>
      match nth_error (cs l) i with
      | Some c =>
          if c_live c && negb (c_notify c) then
            match cd_section (cst l) (c_gen c) with
            | None => break l
            | Some (s, n) =>
                Cdl s (upd i (Counter (wrap64 (c_gen c + 1)) n true (c_round c + 1)) (cs l)) (ws l)
                    false (round_no l)
            end
          else l
      | None => l
      end
  | CNotify i =>
      match nth_error (cs l) i with
      | Some c =>
          if c_notify c then
            Cdl (cst l) (upd i (Counter (c_gen c) false (c_live c) (c_round c)) (cs l))
                (map notify_w (ws l)) false (round_no l)
          else l
      | None => l
      end
  | CWait i =>
      match nth_error (ws l) i with
      | Some w =>
          match cw_pc w with
          | CIdle => if cw_live w then set_cw l i (CWaiter (cw_gen w) CCheck true (cw_round w)) else l
          | _ => l
          end
      | None => l
      end
  | CStep i =>
      match nth_error (ws l) i with
      | Some w =>
          match cw_pc w with
          | CCheck =>
              if must_wait (cst l) (cw_gen w) then
                set_cw l i (CWaiter (cw_gen w) CAsleep (cw_live w) (cw_round w))
              else
                match wait_section (cst l) with
                | None => break l
                | Some (s, adv) =>
                    Cdl s (cs l)
                        (upd i (CWaiter (wrap64 (cw_gen w + 1)) CIdle (cw_live w) (cw_round w + 1)) (ws l))
                        false (round_no l + b2z adv)
                end
          | _ => l
          end
      | None => l
      end
  | CSpurious i =>
      match nth_error (ws l) i with
      | Some w => set_cw l i (notify_w w)
      | None => l
      end
  | CCloneC i =>
      match nth_error (cs l) i with
      | Some c =>
          if c_live c && negb (c_notify c) then
            match clone_counter (cst l) (c_gen c) with
            | None => break l
            | Some s => Cdl s (cs l ++ [c]) (ws l) false (round_no l)
            end
          else l
      | None => l
      end
  | CCloneW i =>
      match nth_error (ws l) i with
      | Some w =>
          match cw_pc w with
          | CIdle =>
              if cw_live w then
                match clone_waiter (cst l) (cw_gen w) with
                | None => break l
                | Some s => Cdl s (cs l) (ws l ++ [w]) false (round_no l)
                end
              else l
          | _ => l
          end
      | None => l
      end
  | CDropC i =>
      match nth_error (cs l) i with
      | Some c =>
          if c_live c && negb (c_notify c) then
            match drop_counter (cst l) (c_gen c) with
            | None => break l
            | Some (s, n) =>
                Cdl s (upd i (Counter (c_gen c) false false (c_round c)) (cs l))
                    (if n then map notify_w (ws l) else ws l) false (round_no l)
            end
          else l
      | None => l
      end
  | CDropW i =>
      match nth_error (ws l) i with
      | Some w =>
          match cw_pc w with
          | CIdle =>
              if cw_live w then
                match drop_waiter (cst l) (cw_gen w) with
                | None => break l
                | Some (s, adv) =>
                    Cdl s (cs l) (upd i (CWaiter (cw_gen w) CIdle false (cw_round w)) (ws l))
                        false (round_no l + b2z adv)
                end
              else l
          | _ => l
          end
      | None => l
      end
  end.

Fixpoint crun (l : cdl) (acts : list cact) : cdl :=
  match acts with [] => l | a :: r => crun (cstep a l) r end.
