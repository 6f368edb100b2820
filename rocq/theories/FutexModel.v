(** Model of futexes: the futex call, the table of futexes of a host, the waiters
    of a futex and how a thread that waits is woken up.

    Sources (all paths below src/main/host/):
    - syscall/handler/futex.rs 24-218 ([futex], [futex_wake_helper],
      [futex_wait_helper])
    - futex.c (listeners of a futex and [futex_wake]), futex_table.rs 10-48
    - status_listener.c 40-51 ([status_listener_compare]) and 62-66 (order of
      creation)
    - syscall/syscall_condition.c 130-185 (cancelling), 307-382 (whether and how
      a thread resumes), 428-456 (a wakeup is scheduled once), 458-560
      (registering a condition), 572-593 (wakeup for a signal)
    - syscall/handler/mod.rs 118-330 (a call that would block while a signal is
      pending), 653-672; thread.rs 513-572; process.rs 182-218
      ([physical_address]), 325-355 ([reap_thread]), 1276-1291, 1510-1521

    The steps of the machine are calls of threads that do not wait on a futex, a
    waiting thread that resumes, and events from outside: time passes, a timer
    expires, a signal becomes pending or is taken, a signal wakes a thread, memory
    is written or unmapped, a thread exits, a process ends.

    Simplifications.  Any thread that does not wait on a futex may make a call at
    any time (the host runs one thread at a time; this only allows more
    interleavings).  The bytes of the timeout are an input of the call and, since
    the code reads them again, of the resumption.  Whether an unblocked signal is
    pending for a thread is a flag set by an input (ProcModel models signals).
    Objects are never freed.  The latency of the CPU (which delays the result of a
    completed call) is not modelled.  Sequence numbers of listeners are unbounded. *)
From Verif Require Import Base FMap TimeModel.

(** * Addresses *)

(* physical_address, process.rs:182-218: pid u32, virtual address u64; panics unless
   the pid has 16 bits and the address 48 *)
Definition VADDR_BITS : Z := 48.
Definition physical_address (pid va : Z) : option Z :=
  let high := Z.shiftl pid VADDR_BITS mod (U64_MAX + 1) in
  check (Z.shiftr high VADDR_BITS =? pid);
  check (Z.shiftr va VADDR_BITS =? 0);
  Some (Z.lor high va).

(** * State *)

(** The condition a thread waits on (SysCallCondition) and what the handler needs of
    the call: the address, whether a timeout was given, the futex, the sequence
    value of the listener, the time at which the condition expires and
    wakeupScheduled. *)
Record wt := mkWt {
  w_va : Z; w_ptr : bool; w_obj : Z; w_seq : Z; w_dl : option Z; w_sched : bool }.

(** A thread: its process, whether an unblocked signal is pending, clear_child_tid
    and the condition it waits on. *)
Record thr := mkThr { t_pid : Z; t_sig : bool; t_ctid : Z; t_wait : option wt }.

(** Listeners of a futex (futex.c:22-25): sequence value of the listener, thread,
    and whether the listener was already woken. *)
Definition lsts := fmap Z (Z * bool).

Record st := mkSt {
  now : Z;
  sq : Z;                        (** next deterministic sequence value of the host *)
  nobj : Z;                      (** next address for a futex object *)
  mm : Z -> Z -> option Z;       (** word at (process, virtual address), [None]: unreadable *)
  thrs : fmap Z thr;
  tab : fmap Z Z;                (** FutexTable: physical address to futex *)
  objs : fmap Z lsts }.          (** the futexes *)

Definition set_now t s := mkSt t (sq s) (nobj s) (mm s) (thrs s) (tab s) (objs s).
Definition set_sq q s := mkSt (now s) q (nobj s) (mm s) (thrs s) (tab s) (objs s).
Definition set_mm m s := mkSt (now s) (sq s) (nobj s) m (thrs s) (tab s) (objs s).
Definition set_thrs x s := mkSt (now s) (sq s) (nobj s) (mm s) x (tab s) (objs s).
Definition set_tab x s := mkSt (now s) (sq s) (nobj s) (mm s) (thrs s) x (objs s).
Definition set_objs x s := mkSt (now s) (sq s) (nobj s) (mm s) (thrs s) (tab s) x.
Definition set_wait (w : option wt) (t : thr) := mkThr (t_pid t) (t_sig t) (t_ctid t) w.
Definition set_sched (w : wt) :=
  mkWt (w_va w) (w_ptr w) (w_obj w) (w_seq w) (w_dl w) true.

(* the listeners of a futex *)
Definition lst (o : Z) (s : st) : lsts := match get o (objs s) with Some l => l | None => [] end.

(** * Waking *)

(* _syscallcondition_scheduleWakeupTask, syscall_condition.c:428-456, for the
   condition with listener [q] of thread [tid] *)
Definition schedule (tid q : Z) (s : st) : st :=
  match get tid (thrs s) with
  | Some t => match t_wait t with
              | Some w => if w_seq w =? q
                          then set_thrs (put tid (set_wait (Some (set_sched w)) t) (thrs s)) s
                          else s
              | None => s
              end
  | None => s
  end.

(* g_list_sort with status_listener_compare, status_listener.c:40-51 *)
Fixpoint insert (q : Z) (l : list Z) : list Z :=
  match l with [] => [q] | x :: r => if q <=? x then q :: l else x :: insert q r end.
Definition isort (l : list Z) : list Z := fold_right insert [] l.

(* the loop of futex_wake, futex.c:92-114 *)
Fixpoint wake_loop (todo : list Z) (o n woken : Z) (s : st) : st * Z :=
  match todo with
  | [] => (s, woken)
  | q :: r =>
    if woken <? n then
      match get q (lst o s) with
      | None => wake_loop r o n woken s
      | Some (tid, did) =>
        if (did : bool) then wake_loop r o n woken s
        else let s1 := schedule tid q s in
             let s2 := set_objs (put o (put q (tid, true) (lst o s1)) (objs s1)) s1 in
             wake_loop r o n (woken + 1) s2
      end
    else (s, woken)
  end.

(* futex_wake, futex.c:71-120 *)
Definition futex_wake (o n : Z) (s : st) : st * Z := wake_loop (isort (keys (lst o s))) o n 0 s.

(** * Calls *)

Inductive out :=
| Nothing
| Block                                    (** the calling thread waits *)
| Ret (v : Z) (restartable : bool).        (** the call of the thread returns [v] *)

Definition EINTR := 4.   Definition EAGAIN := 11. Definition EFAULT := 14.
Definition EINVAL := 22. Definition ENOSYS := 38. Definition ETIMEDOUT := 110.

(* an error of a handler: SyscallError::from(Errno), types.rs:190-197 *)
Definition err (e : Z) : out := Ret (- e) false.

(** The timeout argument: null, or a pointer to memory that can be read or not. *)
Inductive tsp := TNull | TPtr (rd : option timespec).

(* reading the timeout, futex.rs:115-123: an errno or the timeout *)
Definition read_timeout (ts : tsp) : Z + option Z :=
  match ts with
  | TNull => inr None
  | TPtr None => inl EFAULT
  | TPtr (Some t) => match sim_try_from_timespec t with Some d => inr (Some d) | None => inl EINVAL end
  end.

(* futex_wake_helper, futex.rs:83-108 *)
Definition wake_helper (pid va n : Z) (s : st) : option (st * Z) :=
  do pa <- physical_address pid va;
  match get pa (tab s) with
  | None => Some (s, 0)
  | Some o => if n =? 0 then Some (s, 0) else Some (futex_wake o n s)
  end.

(* the time at which the condition expires, futex.rs:195-208; EmulatedTime + SimulationTime
   panics on overflow *)
Definition deadline (abs : bool) (tm : option Z) (t0 : Z) : option (option Z) :=
  match tm with
  | None => Some None
  | Some d => do e <- emu_checked_add (if abs then 0 else t0) d; Some (Some (Z.max e t0))
  end.

(* futex_wait_helper when the call has not blocked yet, futex.rs:110-143 and 177-211, then
   mod.rs:221-233 (a pending signal), thread.rs:537-544 and syscall_condition.c:486-560
   (registering the condition) *)
Definition wait_first (tid : Z) (t : thr) (va val : Z) (ts : tsp) (abs : bool) (s : st) :
  option (st * out) :=
  match read_timeout ts with
  | inl e => Some (s, err e)
  | inr tm =>
    match mm s (t_pid t) va with
    | None => Some (s, err EFAULT)
    | Some v =>
      if negb (v =? val) then Some (s, err EAGAIN)
      else
        do pa <- physical_address (t_pid t) va;
        let '(o, s1) :=
          match get pa (tab s) with
          | Some o => (o, s)
          | None => (nobj s, mkSt (now s) (sq s) (nobj s + 1) (mm s) (thrs s)
                               (put pa (nobj s) (tab s)) (put (nobj s) [] (objs s)))
          end in
        do dl <- deadline abs tm (now s);
        if t_sig t then Some (s1, Ret (- EINTR) true)
        else
          let w := mkWt va (match ts with TNull => false | _ => true end) o (sq s1) dl false in
          let s2 := set_sq (sq s1 + 1) s1 in
          let s3 := set_thrs (put tid (set_wait (Some w) t) (thrs s2)) s2 in
          Some (set_objs (put o (put (w_seq w) (tid, false) (lst o s3)) (objs s3)) s3, Block)
    end
  end.

(* _syscallcondition_cleanupListeners, syscall_condition.c:130-185 *)
Definition cancel (w : wt) (s : st) : st :=
  set_objs (put (w_obj w) (del (w_seq w) (lst (w_obj w) s)) (objs s)) s.

(* did_listen_timeout_expire, mod.rs:657-672 *)
Definition expired (w : wt) (s : st) : bool :=
  match w_dl w with Some d => d <=? now s | None => false end.

(* futex_wait_helper after the call has blocked, futex.rs:110-175; [rd]: the bytes of the
   timeout now; the value of the word is read but not compared *)
Definition wait_again (t : thr) (w : wt) (rd : option timespec) (s : st) : option (st * out) :=
  match read_timeout (if w_ptr w then TPtr rd else TNull) with
  | inl e => Some (s, err e)
  | inr tm =>
    match mm s (t_pid t) (w_va w) with
    | None => Some (s, err EFAULT)
    | Some _ =>
      do pa <- physical_address (t_pid t) (w_va w);
      do o <- get pa (tab s);
      let r := if match tm with Some _ => true | None => false end && expired w s
               then err ETIMEDOUT
               else if t_sig t then err EINTR
               else Ret 0 false in
      let s1 := if Z.of_nat (length (lst o s)) =? 0 then set_tab (del pa (tab s)) s else s in
      Some (s1, r)
    end
  end.

(* the wakeup task of a thread, syscall_condition.c:343-426 (a futex condition is always
   satisfied, 321-341), then thread.rs:513-530 and managed_thread.rs:284 *)
Definition resume (tid : Z) (rd : option timespec) (s : st) : option (st * out) :=
  match get tid (thrs s) with
  | Some t =>
    match t_wait t with
    | Some w =>
      if w_sched w then
        do (s1, r) <- wait_again t w rd (cancel w s);
        Some (set_thrs (put tid (set_wait None t) (thrs s1)) s1, r)
      else Some (s, Nothing)
    | None => Some (s, Nothing)
    end
  | None => Some (s, Nothing)
  end.

Definition FUTEX_WAIT := 0.         Definition FUTEX_WAKE := 1.
Definition FUTEX_WAIT_BITSET := 9.  Definition FUTEX_WAKE_BITSET := 10.
Definition POSSIBLE_OPTIONS := 384. (* FUTEX_PRIVATE_FLAG | FUTEX_CLOCK_REALTIME *)
Definition MATCH_ANY := U32_MAX.

(* futex, futex.rs:24-81; the cast of the count to i32 cannot overflow below 2^31 threads *)
Definition futex (tid : Z) (t : thr) (op va val : Z) (ts : tsp) (val3 : Z) (s : st) :
  option (st * out) :=
  let oper := Z.ldiff op POSSIBLE_OPTIONS in
  let wake := do (s1, n) <- wake_helper (t_pid t) va val s; Some (s1, Ret n false) in
  if oper =? FUTEX_WAIT then wait_first tid t va val ts false s
  else if oper =? FUTEX_WAKE then wake
  else if (oper =? FUTEX_WAIT_BITSET) && (val3 =? MATCH_ANY) then wait_first tid t va val ts true s
  else if (oper =? FUTEX_WAKE_BITSET) && (val3 =? MATCH_ANY) then wake
  else Some (s, err ENOSYS).

(** * The end of threads *)

(* a thread of the process is left, process.rs:1281-1286 *)
Definition others (pid : Z) (x : fmap Z thr) : bool := existsb (fun p => t_pid (snd p) =? pid) x.

(* the exit of a running thread, process.rs:1276-1291 and reap_thread 325-355; the
   write of the word is unwrapped *)
Definition exit_thread (tid : Z) (t : thr) (s : st) : option st :=
  let s1 := set_thrs (del tid (thrs s)) s in
  if (t_ctid t =? 0) || negb (others (t_pid t) (thrs s1)) then Some s1
  else
    check (match mm s1 (t_pid t) (t_ctid t) with Some _ => true | None => false end);
    let s2 := set_mm (fun p a => if (p =? t_pid t) && (a =? t_ctid t) then Some 0 else mm s1 p a) s1 in
    do pa <- physical_address (t_pid t) (t_ctid t);
    match get pa (tab s2) with
    | None => Some s2
    | Some o => Some (fst (futex_wake o 1 s2))
    end.

(* the end of a process, process.rs:1510-1521: the condition of every thread is cancelled;
   reap_thread finds no thread left and wakes nobody *)
Definition kill_one (p : Z * thr) (s : st) : st :=
  let s1 := match t_wait (snd p) with Some w => cancel w s | None => s end in
  set_thrs (del (fst p) (thrs s1)) s1.
Definition kill (pid : Z) (s : st) : st :=
  fold_right kill_one s (filter (fun p => t_pid (snd p) =? pid) (thrs s)).

(** * The machine *)

Inductive op :=
| Spawn (tid pid : Z)              (** a new thread; its id is new *)
| SetTid (tid va : Z)              (** set_tid_address, unistd.rs:899-913 *)
| Futex (tid opn va val : Z) (ts : tsp) (val3 : Z)
| Resume (tid : Z) (rd : option timespec)
| TimerFires (tid : Z)
| SigWakes (tid : Z)               (** syscallcondition_wakeupForSignal finds the signal unblocked *)
| SetSig (tid : Z) (b : bool)      (** an unblocked signal is pending from now on, or none is *)
| Store (pid va : Z) (v : option Z)
| Advance (t : Z)                  (** time passes; no task is left and no timer is skipped *)
| Tick                             (** another listener takes a sequence value *)
| Exit (tid : Z)
| Kill (pid : Z).

Definition may_pass (t : Z) (s : st) : bool :=
  (now s <=? t) && (t <=? EMUTIME_MAX) &&
  forallb (fun p => match t_wait (snd p) with
                    | None => true
                    | Some w => (negb (w_sched w) || (t <=? now s)) &&
                                match w_dl w with Some d => t <=? d | None => true end
                    end) (thrs s).

Definition upd (tid : Z) (f : thr -> thr) (s : st) : st :=
  match get tid (thrs s) with Some t => set_thrs (put tid (f t) (thrs s)) s | None => s end.

Definition step (s : st) (o : op) : option (st * out) :=
  match o with
  | Spawn tid pid =>
    if mem tid (thrs s) then Some (s, Nothing)
    else Some (set_thrs (put tid (mkThr pid false 0 None) (thrs s)) s, Nothing)
  | SetTid tid va =>
    Some (upd tid (fun t => mkThr (t_pid t) (t_sig t) va (t_wait t)) s, Nothing)
  | Futex tid opn va val ts val3 =>
    match get tid (thrs s) with
    | Some t => match t_wait t with
                | None => futex tid t opn va val ts val3 s
                | Some _ => Some (s, Nothing)
                end
    | None => Some (s, Nothing)
    end
  | Resume tid rd => resume tid rd s
  | TimerFires tid =>
    match get tid (thrs s) with
    | Some t => match t_wait t with
                | Some w => Some (if expired w s then schedule tid (w_seq w) s else s, Nothing)
                | None => Some (s, Nothing)
                end
    | None => Some (s, Nothing)
    end
  | SigWakes tid =>
    match get tid (thrs s) with
    | Some t => match t_wait t with
                | Some w => Some (schedule tid (w_seq w) s, Nothing)
                | None => Some (s, Nothing)
                end
    | None => Some (s, Nothing)
    end
  | SetSig tid b => Some (upd tid (fun t => mkThr (t_pid t) b (t_ctid t) (t_wait t)) s, Nothing)
  | Store pid va v =>
    Some (set_mm (fun p a => if (p =? pid) && (a =? va) then v else mm s p a) s, Nothing)
  | Advance t => Some (if may_pass t s then set_now t s else s, Nothing)
  | Tick => Some (set_sq (sq s + 1) s, Nothing)
  | Exit tid =>
    match get tid (thrs s) with
    | Some t => match t_wait t with
                | None => do s1 <- exit_thread tid t s; Some (s1, Nothing)
                | Some _ => Some (s, Nothing)
                end
    | None => Some (s, Nothing)
    end
  | Kill pid => Some (kill pid s, Nothing)
  end.

(** A host at time [t0] without threads. *)
Definition init (t0 : Z) : st := mkSt t0 0 0 (fun _ _ => None) [] [] [].

(** The outputs of a run; [None]: Shadow panics. *)
Fixpoint run (s : st) (ops : list op) : option (st * list out) :=
  match ops with
  | [] => Some (s, [])
  | o :: r => do (s1, x) <- step s o; do (s2, xs) <- run s1 r; Some (s2, x :: xs)
  end.
