(** The thread pool that bounds the parallelism:
    src/lib/scheduler/src/pools/bounded.rs with logical_processor.rs and
    sync/thread_parking.rs, as a small-step system of the main thread and any number
    of pool threads.

    Operations of [ArrayQueue], of the ready flag of a parker and of the count-down
    latch are atomic; the latch is the one of LatchModel in the use that is made of it
    here (one waiter; a counter per thread), reduced to the set of counters that have
    counted down for the current round.  [AtomicRefCell::borrow_mut] panics while
    another thread holds a borrow.  The memory is sequentially consistent.  A task
    returns or panics, as the schedule chooses.  Publishing a worker (the push to the
    done queue, the change of its processor and the unpark) is one step: nobody else
    looks at these until the unpark.  CPU affinity is not modelled, and the closure given to
    [scope] does not panic itself. *)
From Verif Require Import Base.

Definition fupd {A} (i : nat) (x : A) (f : nat -> A) : nat -> A :=
  fun j => if Nat.eqb j i then x else f j.

(** Why a thread starts its successor: the task returned, the task panicked, or there
    was no task (the pool is being joined). *)
Inductive why := Returned | Panicked | Stopped.

(** Where a thread is in [work_loop], bounded.rs 303-420. *)
Inductive tpc :=
| TPark                                    (** park, line 376 *)
| TLoad                                    (** lines 380-384 *)
| TRun (p : nat)                           (** knows its processor; about to borrow the task, line 405 *)
| TBusy (p : nat)                          (** runs the task, line 406 *)
| TNext (p k : nat) (r : why)              (** looks for a worker in the [k]-th queue, logical_processor.rs 35-43 *)
| TGot (p q w : nat) (r : why)             (** took worker [w] from queue [q] *)
| TCount                                   (** count_down, line 415 *)
| TPoison                                  (** drop of PoisonWhenDropped while unwinding, lines 330-336 *)
| TDrop                                    (** drop of the counter while unwinding *)
| TGone (panicked : bool).

(** Where the main thread is. *)
Inductive mpc :=
| MIdle                                    (** between scopes *)
| MScope                                   (** in the closure of [scope], no task yet *)
| MStart (p k : nat)                       (** TaskRunner::run, lines 293-299: starts a worker of processor [p] *)
| MGot (p q w : nat)
| MBody                                    (** in the closure after [run] *)
| MWait                                    (** drop of WorkerScope, line 242 *)
| MClear                                   (** line 245 *)
| MReset                                   (** lines 248-264 *)
| MPanicked                                (** [scope] panicked *)
| MJoin (i : nat) (e : bool)               (** join_internal, lines 168-170; [e] is check_for_errors *)
| MJoined (i : nat) (e : bool)             (** lines 172-177 *)
| MEnd.

Record pool := Pool {
  np : nat;                                (** logical processors *)
  nt : nat;                                (** threads *)
  ready : nat -> list nat;                 (** ready_workers of each processor *)
  fin : nat -> list nat;                   (** done_workers of each processor *)
  pidx : nat -> nat;                       (** logical_processor_idx of each thread *)
  flag : nat -> bool;                      (** ready_flag of each thread's parker *)
  pcs : nat -> tpc;
  counted : nat -> bool;                   (** counters that have counted down in this round *)
  live : nat -> bool;                      (** counters that are not dropped *)
  task : bool;                             (** a task is set *)
  poisoned : bool;                         (** has_thread_panicked *)
  main : mpc;
  cur : list (nat * nat);                  (** ghost: executions of this task: thread, processor *)
  past : list (list (nat * nat)) }.        (** ghost: those of the tasks before *)

Definition set_ready x s := Pool (np s) (nt s) x (fin s) (pidx s) (flag s) (pcs s) (counted s) (live s) (task s) (poisoned s) (main s) (cur s) (past s).
Definition set_pc i x s := Pool (np s) (nt s) (ready s) (fin s) (pidx s) (flag s) (fupd i x (pcs s)) (counted s) (live s) (task s) (poisoned s) (main s) (cur s) (past s).
Definition set_flag i x s := Pool (np s) (nt s) (ready s) (fin s) (pidx s) (fupd i x (flag s)) (pcs s) (counted s) (live s) (task s) (poisoned s) (main s) (cur s) (past s).
Definition set_counted x s := Pool (np s) (nt s) (ready s) (fin s) (pidx s) (flag s) (pcs s) x (live s) (task s) (poisoned s) (main s) (cur s) (past s).
Definition set_live i x s := Pool (np s) (nt s) (ready s) (fin s) (pidx s) (flag s) (pcs s) (counted s) (fupd i x (live s)) (task s) (poisoned s) (main s) (cur s) (past s).
Definition set_task x s := Pool (np s) (nt s) (ready s) (fin s) (pidx s) (flag s) (pcs s) (counted s) (live s) x (poisoned s) (main s) (cur s) (past s).
Definition set_poisoned x s := Pool (np s) (nt s) (ready s) (fin s) (pidx s) (flag s) (pcs s) (counted s) (live s) (task s) x (main s) (cur s) (past s).
Definition set_main x s := Pool (np s) (nt s) (ready s) (fin s) (pidx s) (flag s) (pcs s) (counted s) (live s) (task s) (poisoned s) x (cur s) (past s).
Definition set_cur x s := Pool (np s) (nt s) (ready s) (fin s) (pidx s) (flag s) (pcs s) (counted s) (live s) (task s) (poisoned s) (main s) x (past s).

(* ParallelismBoundedThreadPool::new, bounded.rs 73-140: thread [i] belongs to processor
   [i mod np] *)
Definition pool_new (cpus threads : nat) : pool :=
  let n := Nat.min cpus threads in
  Pool n threads
    (fun p => if Nat.ltb p n then filter (fun i => Nat.eqb (Nat.modulo i n) p) (seq 0 threads) else [])
    (fun _ => []) (fun i => Nat.modulo i n) (fun _ => false) (fun _ => TPark) (fun _ => false)
    (fun _ => true) false false MIdle [] [].

Definition all (s : pool) (f : nat -> bool) : bool := forallb f (seq 0 (nt s)).

(* a thread holds a borrow of the task, lines 405-411 *)
Definition holds_task (s : pool) (i : nat) : bool :=
  match pcs s i with TBusy _ => true | _ => false end.
(* a thread holds a borrow of the logical processors, lines 380-412 *)
Definition holds_lps (s : pool) (i : nat) : bool :=
  match pcs s i with TRun _ | TBusy _ | TNext _ _ _ | TGot _ _ _ _ => true | _ => false end.

(* next_worker: the pop of the [k]-th queue, logical_processor.rs 35-43 *)
Definition pop (s : pool) (p k : nat) : option (nat * nat) * pool :=
  let q := Nat.modulo (p + k) (np s) in
  match ready s q with
  | w :: t => (Some (q, w), set_ready (fupd q t (ready s)) s)
  | [] => (None, s)
  end.

(* the rest of next_worker (line 46) and start_next_thread, bounded.rs 423-446 *)
Definition publish (s : pool) (p q w : nat) : option pool :=
  check (Nat.ltb (length (fin s p)) (nt s));
  check (Nat.eqb q (pidx s w));
  Some (Pool (np s) (nt s) (ready s) (fupd p (fin s p ++ [w]) (fin s)) (fupd w p (pidx s))
             (fupd w true (flag s)) (pcs s) (counted s) (live s) (task s) (poisoned s) (main s)
             (cur s) (past s)).

(* after StartNextThreadOnDrop; a thread that stops drops its counter *)
Definition after (i : nat) (r : why) (s : pool) : pool :=
  match r with
  | Returned => set_pc i TCount s
  | Panicked => set_pc i TPoison s
  | Stopped => set_live i false (set_pc i (TGone false) s)
  end.

(* one step of thread [i]; [b]: the task panics *)
Definition tstep (i : nat) (b : bool) (s : pool) : option pool :=
  match pcs s i with
  | TPark => if flag s i then Some (set_pc i TLoad (set_flag i false s)) else Some s
  | TLoad => Some (set_pc i (TRun (pidx s i)) s)
  | TRun p => Some (set_pc i (if task s then TBusy p else TNext p 0 Stopped) s)
  | TBusy p => Some (set_pc i (TNext p 0 (if b then Panicked else Returned)) (set_cur (cur s ++ [(i, p)]) s))
  | TNext p k r =>
    if Nat.ltb k (np s) then
      match pop s p k with
      | (Some (q, w), s1) => Some (set_pc i (TGot p q w r) s1)
      | (None, s1) => Some (set_pc i (TNext p (S k) r) s1)
      end
    else Some (after i r s)
  | TGot p q w r => do s1 <- publish s p q w; Some (after i r s1)
  | TCount => check (negb (counted s i)); Some (set_pc i TPark (set_counted (fupd i true (counted s)) s))
  | TPoison => Some (set_pc i TDrop (set_poisoned true s))
  | TDrop => Some (set_live i false (set_pc i (TGone true) s))
  | TGone _ => Some s
  end.

(** What the user of the pool does next. *)
Inductive act := ABegin (** a call of [scope] *) | ARun (** TaskRunner::run *)
| ALeave (** the closure ends *) | ADrop (** the pool is joined or dropped *) | AGo (** the next step of the pool's own code *).

(* scope (lines 201-222), TaskRunner::run (280-300), WorkerScope::drop (237-266), join_internal
   (157-178); an action that the main thread cannot take where it is does nothing *)
Definition mstep (a : act) (s : pool) : option pool :=
  match main s, a with
  | MIdle, ABegin => Some (set_main (if poisoned s then MPanicked else MScope) s)
  | MPanicked, ABegin => Some (set_main (if poisoned s then MPanicked else MScope) s)
  | MScope, ARun =>
    check (all s (fun i => negb (holds_task s i)));
    Some (set_main (MStart 0 0) (set_task true s))
  | MStart p k, AGo =>
    if Nat.ltb p (np s) then
      if Nat.ltb k (np s) then
        match pop s p k with
        | (Some (q, w), s1) => Some (set_main (MGot p q w) s1)
        | (None, s1) => Some (set_main (MStart p (S k)) s1)
        end
      else Some (set_main (MStart (S p) 0) s)
    else Some (set_main MBody s)
  | MGot p q w, AGo => do s1 <- publish s p q w; Some (set_main (MStart (S p) 0) s1)
  | MScope, ALeave => Some (set_main (if task s then MWait else MIdle) s)
  | MBody, ALeave => Some (set_main (if task s then MWait else MIdle) s)
  | MWait, AGo =>
    if all s (fun i => negb (live s i) || counted s i)
    then Some (set_main MClear (set_counted (fun _ => false) s)) else Some s
  | MClear, AGo =>
    check (all s (fun i => negb (holds_task s i)));
    Some (set_main MReset (set_task false s))
  | MReset, AGo =>
    check (all s (fun i => negb (holds_lps s i)));
    (* LogicalProcessors::reset, logical_processor.rs 56-61 *)
    check (forallb (fun p => match ready s p with [] => true | _ => false end) (seq 0 (np s)));
    Some (Pool (np s) (nt s) (fin s) (ready s) (pidx s) (flag s) (pcs s) (counted s) (live s)
               (task s) (poisoned s) (if poisoned s then MPanicked else MIdle) [] (past s ++ [cur s]))
  | MIdle, ADrop => check (negb (task s)); Some (set_main (MJoin 0 (negb (poisoned s))) s)
  | MPanicked, ADrop => check (negb (task s)); Some (set_main (MJoin 0 (negb (poisoned s))) s)
  | MJoin i e, AGo =>
    if Nat.ltb i (nt s) then Some (set_main (MJoin (S i) e) (set_flag i true s))
    else Some (set_main (MJoined 0 e) s)
  | MJoined i e, AGo =>
    if Nat.ltb i (nt s) then
      match pcs s i with
      | TGone b => check (negb (e && b)); Some (set_main (MJoined (S i) e) s)
      | _ => Some s
      end
    else Some (set_main MEnd s)
  | _, _ => Some s
  end.

(** A schedule: steps of the main thread and of pool threads. *)
Inductive op := Main (a : act) | Thread (i : nat) (panics : bool).
Definition step (s : pool) (o : op) : option pool :=
  match o with
  | Main a => mstep a s
  | Thread i b => if Nat.ltb i (nt s) then tstep i b s else Some s
  end.

Fixpoint steps (s : pool) (ops : list op) : option pool :=
  match ops with [] => Some s | o :: r => do s1 <- step s o; steps s1 r end.
