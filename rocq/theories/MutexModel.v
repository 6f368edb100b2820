(** The shared-memory mutex, src/lib/vasi-sync/src/scmutex.rs, at the granularity of atomic
    operations and futex calls. Memory is sequentially consistent (the code uses one atomic word
    with acquire and release); the compare-exchange does not fail spuriously (it is the strong
    one). The protected value is not modelled: its accesses go through the guard. *)
From Verif Require Import Base SchedModel.

(** UNLOCKED, LOCKED and LOCKED_DISCONNECTED, lines 152-154 *)
Definition UNLOCKED : Z := 0.
Definition LOCKED : Z := 1.
Definition LOCKED_DISCONNECTED : Z := 2.

(** FutexWord, lines 106-130: to_u32 and its inverse *)
Definition word (lock_state num_sleepers : Z) : Z := lock_state * 65536 + num_sleepers.
Definition lock_state (w : Z) : Z := w / 65536.
Definition num_sleepers (w : Z) : Z := w mod 65536.

(** fetch_add and fetch_sub on the AtomicU32 *)
Definition wrap (x : Z) : Z := x mod 4294967296.

(** Where a thread is. *)
Inductive tpc :=
| TIdle                 (* not using the mutex *)
| TCas (cur : Z)        (* in lock, about to compare-exchange [cur], an UNLOCKED word, line 189 *)
| TInc                  (* in lock, about to increment the number of sleepers, line 218 *)
| TWait (cur : Z)       (* in lock, about to call futex_wait with [cur], line 225 *)
| TAsleep               (* in lock, sleeping on the futex *)
| TReload               (* in lock, futex_wait returned EAGAIN, line 238 *)
| TDec                  (* in lock, about to decrement the number of sleepers, line 245 *)
| THold                 (* has a guard *)
| TWake                 (* in unlock, about to call futex_wake, line 266 *)
| TRecon (cur : Z)      (* in reconnect, at the top of the loop, line 307 *)
| TPanic.               (* panicked *)

(** Ghost: the number of guards that are disconnected. *)
Record mutex := Mutex { futex : Z; threads : list tpc; detached : Z }.

(** new, lines 168-176, with [n] threads *)
Definition mutex_new (n : nat) : mutex := Mutex (word UNLOCKED 0) (repeat TIdle n) 0.

(** The top of the loop of lock, lines 184-214, with the given view of the word *)
Definition lock_loop (cur : Z) : tpc := if lock_state cur =? UNLOCKED then TCas cur else TInc.
(** The top of the inner loop, lines 219-224 *)
Definition sleep_loop (cur : Z) : tpc := if lock_state cur =? UNLOCKED then TDec else TWait cur.

(** The next step of a thread: the new word and the thread's new place. *)
Definition tstep (f : Z) (t : tpc) : Z * tpc :=
  match t with
  | TCas cur =>                                                   (* lines 187-207 *)
      if f =? cur then (word LOCKED (num_sleepers cur), THold) else (f, lock_loop f)
  | TInc =>                                                       (* lines 218 and 22-35 *)
      (wrap (f + 1),
       if num_sleepers f + 1 <=? 65535 then sleep_loop (word (lock_state f) (num_sleepers f + 1))
       else TPanic)
  | TWait cur => (f, if f =? cur then TAsleep else TReload)       (* lines 225-239 *)
  | TReload => (f, sleep_loop f)                                  (* line 238 *)
  | TDec =>                                                       (* lines 245 and 37-52 *)
      (wrap (f - 1),
       if 1 <=? num_sleepers f then lock_loop (word (lock_state f) (num_sleepers f - 1)) else TPanic)
  | TRecon cur =>                                                 (* lines 306-330 *)
      if lock_state cur =? LOCKED_DISCONNECTED then
        if f =? cur then (word LOCKED (num_sleepers cur), THold) else (f, TRecon f)
      else (f, TPanic)
  | _ => (f, t)
  end.

(** unlock, lines 260-268 and 54-70 *)
Definition unlock (f : Z) : Z * tpc :=
  (wrap (f - word LOCKED 0),
   if lock_state f =? LOCKED then if 0 <? num_sleepers f then TWake else TIdle else TPanic).

(** SelfContainedMutexGuard::disconnect, lines 285-292 and 72-88 *)
Definition disconnect (f : Z) : Z * tpc :=
  (wrap (f + word (LOCKED_DISCONNECTED - LOCKED) 0),
   if lock_state f =? LOCKED then TIdle else TPanic).

(** What can happen next; an action that is not possible leaves the state unchanged. *)
Inductive mact :=
| MLock (i : nat)           (* thread i calls lock *)
| MUnlock (i : nat)         (* thread i drops its guard *)
| MDisconnect (i : nat)     (* thread i disconnects its guard *)
| MReconnect (i : nat)      (* thread i calls reconnect *)
| MStep (i : nat)           (* thread i takes its next step *)
| MWake (i j : nat)         (* thread i wakes thread j *)
| MWakeNone (i : nat)       (* thread i calls futex_wake and nobody sleeps *)
| MIntr (i : nat).          (* the futex call of thread i returns (EINTR or spuriously) *)

Definition set_t (m : mutex) (i : nat) (ft : Z * tpc) : mutex :=
  Mutex (fst ft) (upd i (snd ft) (threads m)) (detached m).
Definition add_detached (d : Z) (m : mutex) : mutex := Mutex (futex m) (threads m) (detached m + d).

(** Does this step turn a disconnected guard into a guard? *)
Definition reconnected (t t' : tpc) : Z :=
  match t, t' with TRecon _, THold => -1 | _, _ => 0 end.

Definition mstep (a : mact) (m : mutex) : mutex :=
  match a with
  | MLock i =>
      match nth_error (threads m) i with
      | Some TIdle => set_t m i (futex m, lock_loop (word UNLOCKED 0))
      | _ => m
      end
  | MUnlock i =>
      match nth_error (threads m) i with Some THold => set_t m i (unlock (futex m)) | _ => m end
  | MDisconnect i =>
      match nth_error (threads m) i with
      | Some THold => add_detached 1 (set_t m i (disconnect (futex m)))
      | _ => m
      end
  | MReconnect i =>
      match nth_error (threads m) i with
      | Some TIdle => set_t m i (futex m, TRecon (word LOCKED_DISCONNECTED 0))
      | _ => m
      end
  | MStep i =>
      match nth_error (threads m) i with
      | Some t => add_detached (reconnected t (snd (tstep (futex m) t))) (set_t m i (tstep (futex m) t))
      | None => m
      end
  | MWake i j =>
      match nth_error (threads m) i, nth_error (threads m) j with
      | Some TWake, Some TAsleep => set_t (set_t m j (futex m, TDec)) i (futex m, TIdle)
      | _, _ => m
      end
  | MWakeNone i =>
      match nth_error (threads m) i with
      | Some TWake =>
          if existsb (fun t => match t with TAsleep => true | _ => false end) (threads m) then m
          else set_t m i (futex m, TIdle)
      | _ => m
      end
  | MIntr i =>
      match nth_error (threads m) i with
      | Some TAsleep => set_t m i (futex m, TDec)
      | _ => m
      end
  end.

Fixpoint mrun (m : mutex) (acts : list mact) : mutex :=
  match acts with [] => m | a :: r => mrun (mstep a m) r end.
