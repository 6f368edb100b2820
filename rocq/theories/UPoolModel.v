(** The thread pool without a bound on the parallelism:
    src/lib/scheduler/src/pools/unbounded.rs, the pool of the scheduler with one thread per core.
    As in PoolModel: a small-step system of the main thread and any number of pool threads.

    The start latch is the one of LatchModel at the granularity of its generation (32 bits,
    wrapping); that a waiter sleeps in the kernel is left out, LatchModel shows that it is woken.
    The count-down latch is reduced as in PoolModel. *)
From Verif Require Import Base PoolModel LatchModel.
Local Open Scope Z_scope.

(** Where a thread is in [work_loop], unbounded.rs 223-283. *)
Inductive upc :=
| UWait                                    (** start_waiter.wait, line 263 *)
| URun                                     (** about to borrow the task, line 268 *)
| UBusy                                    (** runs the task, line 269 *)
| UCount                                   (** line 278 *)
| UPoison                                  (** drop of PoisonWhenDropped while unwinding, lines 250-256 *)
| UDrop                                    (** drop of the counter while unwinding *)
| UGone (panicked : bool).

Inductive umpc :=
| UIdle | UScope                           (** as in PoolModel *)
| UOpen                                    (** the task is set, the latch is not open yet, line 219 *)
| UBody
| UMWait                                   (** drop of WorkerScope, line 179 *)
| UClear                                   (** lines 182-194 *)
| UPanicked
| UJoin (e : bool)                         (** join_internal before the latch opens *)
| UJoined (i : nat) (e : bool)             (** lines 109-114 *)
| UEnd.

Record upool := UPool {
  unt : nat;
  gen : Z;                                 (** latch_gen *)
  seen : nat -> Z;                         (** waiter_gen of each thread *)
  upcs : nat -> upc;
  ucounted : nat -> bool;
  ulive : nat -> bool;
  utask : bool;
  upoisoned : bool;
  umain : umpc;
  ucur : list nat;                         (** ghost: the threads that ran this task *)
  upast : list (list nat) }.

Definition uset_pc i x s := UPool (unt s) (gen s) (seen s) (fupd i x (upcs s)) (ucounted s) (ulive s) (utask s) (upoisoned s) (umain s) (ucur s) (upast s).
Definition uset_seen i x s := UPool (unt s) (gen s) (fupd i x (seen s)) (upcs s) (ucounted s) (ulive s) (utask s) (upoisoned s) (umain s) (ucur s) (upast s).
Definition uset_gen x s := UPool (unt s) x (seen s) (upcs s) (ucounted s) (ulive s) (utask s) (upoisoned s) (umain s) (ucur s) (upast s).
Definition uset_counted x s := UPool (unt s) (gen s) (seen s) (upcs s) x (ulive s) (utask s) (upoisoned s) (umain s) (ucur s) (upast s).
Definition uset_live i x s := UPool (unt s) (gen s) (seen s) (upcs s) (ucounted s) (fupd i x (ulive s)) (utask s) (upoisoned s) (umain s) (ucur s) (upast s).
Definition uset_task x s := UPool (unt s) (gen s) (seen s) (upcs s) (ucounted s) (ulive s) x (upoisoned s) (umain s) (ucur s) (upast s).
Definition uset_poisoned x s := UPool (unt s) (gen s) (seen s) (upcs s) (ucounted s) (ulive s) (utask s) x (umain s) (ucur s) (upast s).
Definition uset_main x s := UPool (unt s) (gen s) (seen s) (upcs s) (ucounted s) (ulive s) (utask s) (upoisoned s) x (ucur s) (upast s).
Definition uset_cur x s := UPool (unt s) (gen s) (seen s) (upcs s) (ucounted s) (ulive s) (utask s) (upoisoned s) (umain s) x (upast s).

(* UnboundedThreadPool::new, unbounded.rs 48-88 *)
Definition upool_new (threads : nat) : upool :=
  UPool threads 0 (fun _ => 0) (fun _ => UWait) (fun _ => false) (fun _ => true) false false UIdle [] [].

Definition uall (s : upool) (f : nat -> bool) : bool := forallb f (seq 0 (unt s)).
Definition uholds (s : upool) (i : nat) : bool := match upcs s i with UBusy => true | _ => false end.

(* one step of thread [i]; [b]: the task panics *)
Definition utstep (i : nat) (b : bool) (s : upool) : option upool :=
  match upcs s i with
  | UWait =>
    (* simple_latch.rs 92-130 *)
    let d := wrap32 (gen s - seen s i) in
    if d =? 1 then Some (uset_pc i URun (uset_seen i (wrap32 (seen s i + 1)) s))
    else if d =? 0 then Some s else None
  | URun => Some (if utask s then uset_pc i UBusy s else uset_live i false (uset_pc i (UGone false) s))
  | UBusy => Some (uset_pc i (if b then UPoison else UCount) (uset_cur (ucur s ++ [i]) s))
  | UCount => check (negb (ucounted s i)); Some (uset_pc i UWait (uset_counted (fupd i true (ucounted s)) s))
  | UPoison => Some (uset_pc i UDrop (uset_poisoned true s))
  | UDrop => Some (uset_live i false (uset_pc i (UGone true) s))
  | UGone _ => Some s
  end.

(* scope (138-159), TaskRunner::run (208-220), WorkerScope::drop (174-197), join_internal (96-115) *)
Definition umstep (a : act) (s : upool) : option upool :=
  match umain s, a with
  | UIdle, ABegin => Some (uset_main (if upoisoned s then UPanicked else UScope) s)
  | UPanicked, ABegin => Some (uset_main (if upoisoned s then UPanicked else UScope) s)
  | UScope, ARun =>
    check (uall s (fun i => negb (uholds s i)));
    Some (uset_main UOpen (uset_task true s))
  | UOpen, AGo => Some (uset_main UBody (uset_gen (wrap32 (gen s + 1)) s))
  | UScope, ALeave => Some (uset_main (if utask s then UMWait else UIdle) s)
  | UBody, ALeave => Some (uset_main (if utask s then UMWait else UIdle) s)
  | UMWait, AGo =>
    if uall s (fun i => negb (ulive s i) || ucounted s i)
    then Some (uset_main UClear (uset_counted (fun _ => false) s)) else Some s
  | UClear, AGo =>
    check (uall s (fun i => negb (uholds s i)));
    Some (UPool (unt s) (gen s) (seen s) (upcs s) (ucounted s) (ulive s) false (upoisoned s)
                (if upoisoned s then UPanicked else UIdle) [] (upast s ++ [ucur s]))
  | UIdle, ADrop => check (negb (utask s)); Some (uset_main (UJoin (negb (upoisoned s))) s)
  | UPanicked, ADrop => check (negb (utask s)); Some (uset_main (UJoin (negb (upoisoned s))) s)
  | UJoin e, AGo => Some (uset_main (UJoined 0 e) (uset_gen (wrap32 (gen s + 1)) s))
  | UJoined i e, AGo =>
    if Nat.ltb i (unt s) then
      match upcs s i with
      | UGone b => check (negb (e && b)); Some (uset_main (UJoined (S i) e) s)
      | _ => Some s
      end
    else Some (uset_main UEnd s)
  | _, _ => Some s
  end.

Definition ustep (s : upool) (o : op) : option upool :=
  match o with
  | Main a => umstep a s
  | Thread i b => if Nat.ltb i (unt s) then utstep i b s else Some s
  end.

Fixpoint usteps (s : upool) (ops : list op) : option upool :=
  match ops with [] => Some s | o :: r => do s1 <- ustep s o; usteps s1 r end.
