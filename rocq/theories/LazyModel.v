(** The lazily initialised value that threads share: src/lib/vasi-sync/src/lazy_lock.rs,
    as a small-step system of any number of threads.

    The memory is not sequentially consistent.  The state word is a list of messages in
    modification order; a load returns any message that is not older than what the thread
    has seen of the word, a read-modify-write extends the last message, and a release
    makes what the thread knows part of the message, which is known to those who acquire
    it (also through later read-modify-writes).  The one thing to know is whether the
    value was written.  A thread that reads the value without knowing that it was written
    gets nothing ([None]).

    futex_wait compares the word with the expected value inside the kernel: the read is
    not older than what the thread has seen, and not older than what any earlier
    futex_wake on the word had seen, since both hold the lock of the futex.  A sleeping
    thread wakes up because of futex_wake, or for no reason (or a signal). *)
From Verif Require Import Base PoolModel.

(* InitState, lazy_lock.rs 27-39 *)
Inductive ist := Uninitd | Initd | Initializing | Sleepers.

(** A message: the state, and whether the value is known to be written by who acquires it. *)
Definition msg : Type := ist * bool.

(** Where a thread is. *)
Inductive lpc :=
| LOut                                     (** does not use the lock *)
| LEnter                                   (** force, line 178 *)
| LLoop (st : ist)                         (** top of the loop of init with its variable [state], line 97 *)
| LProduce                                 (** has the initialization lock, lines 107-113 *)
| LPublish                                 (** the swap, lines 116-120 *)
| LWake                                    (** futex_wake_all, line 127 *)
| LAsleep                                  (** in futex_wait, line 152 *)
| LReload                                  (** after futex_wait, line 160 *)
| LRef                                     (** holds the reference that force returned *)
| LDead                                    (** the initializer panicked *)
| LBug.                                    (** an unwrap or an explicit panic of the lock *)

Record lazy := Lazy {
  hist : list msg;                         (** init_state: all messages, oldest first *)
  taken : bool;                            (** the initializer was taken *)
  value : option Z;
  idx : nat -> nat;                        (** the last message of the word that each thread has seen *)
  knows : nat -> bool;                     (** whether the thread knows that the value was written *)
  kern : nat;                              (** the last message seen by a futex_wake *)
  lpcs : nat -> lpc;
  runs : list (nat * Z);                   (** ghost: completed runs of the initializer: thread and result *)
  got : list (nat * option Z) }.           (** ghost: what was read through references, newest first *)

(* new, lines 88-94 *)
Definition lazy_new : lazy := Lazy [(Uninitd, false)] false None (fun _ => 0%nat) (fun _ => false) 0 (fun _ => LOut) [] [].

Definition last_idx (s : lazy) : nat := (length (hist s) - 1)%nat.

(** Thread [i] has read message [j] and goes on at [p]; [a] is what it acquires. *)
Definition read_to (i j : nat) (a : bool) (p : lpc) (s : lazy) : lazy :=
  Lazy (hist s) (taken s) (value s) (fupd i j (idx s)) (fupd i (knows s i || a) (knows s)) (kern s) (fupd i p (lpcs s)) (runs s) (got s).
(** Thread [i] appends message [m], and goes on at [p]. *)
Definition write_to (i : nat) (m : msg) (p : lpc) (s : lazy) : lazy :=
  Lazy (hist s ++ [m]) (taken s) (value s) (fupd i (length (hist s)) (idx s)) (knows s) (kern s) (fupd i p (lpcs s)) (runs s) (got s).
Definition goto (i : nat) (p : lpc) (s : lazy) : lazy :=
  Lazy (hist s) (taken s) (value s) (idx s) (knows s) (kern s) (fupd i p (lpcs s)) (runs s) (got s).

(** Message [j] may be read by thread [i]. *)
Definition may_read (s : lazy) (i j : nat) (m : msg) : Prop := (idx s i <= j)%nat /\ nth_error (hist s) j = Some m.
Definition is_last (s : lazy) (m : msg) : Prop := nth_error (hist s) (last_idx s) = Some m.

(* lines 183-186: the fast path of force *)
Definition after_load (st : ist) : lpc := match st with Initd => LRef | st => LLoop st end.

(* all sleepers wake up; what the waker has seen of the word is seen by all later calls of futex_wait *)
Definition wake_all (i : nat) (s : lazy) : lazy :=
  Lazy (hist s) (taken s) (value s) (idx s) (knows s) (Nat.max (kern s) (idx s i))
       (fun k => if Nat.eqb k i then LRef else match lpcs s k with LAsleep => LReload | p => p end) (runs s) (got s).

(* lines 109-113: takes the initializer, runs it and writes its result [v] *)
Definition produce (i : nat) (v : Z) (s : lazy) : lazy :=
  if taken s then goto i LBug s
  else Lazy (hist s) true (Some v) (idx s) (fupd i true (knows s)) (kern s) (fupd i LPublish (lpcs s)) ((i, v) :: runs s) (got s).

(* lines 116-131: [m] is the previous message *)
Definition publish (i : nat) (m : msg) (s : lazy) : lazy :=
  write_to i (Initd, knows s i || snd m) (match fst m with Initializing => LRef | Sleepers => LWake | _ => LBug end) s.

(** The kinds of steps. *)
Inductive lab :=
| Call (i : nat)                           (** a thread calls force *)
| Work (i : nat)                           (** a thread takes a step inside force *)
| Spurious (i : nat)                       (** futex_wait returns for no reason *)
| Fail (i : nat)                           (** the initializer panics *)
| Use (i : nat)                            (** a thread reads the value, or gives the reference back *)
| Probe (i : nat) (r : bool).              (** initd() returns r *)

Inductive step (s : lazy) : lab -> lazy -> Prop :=
| S_call i : lpcs s i = LOut -> step s (Call i) (goto i LEnter s)
(* line 178: load with Acquire *)
| S_enter i j m : lpcs s i = LEnter -> may_read s i j m -> step s (Work i) (read_to i j (snd m) (after_load (fst m)) s)
(* lines 100-106: compare_exchange, Relaxed *)
| S_lock i b : lpcs s i = LLoop Uninitd -> is_last s (Uninitd, b) -> step s (Work i) (write_to i (Initializing, b) LProduce s)
(* lines 133-136: it failed, Acquire *)
| S_nolock i j m : lpcs s i = LLoop Uninitd -> may_read s i j m -> fst m <> Uninitd -> step s (Work i) (read_to i j (snd m) (LLoop (fst m)) s)
| S_produce i v : lpcs s i = LProduce -> step s (Work i) (produce i v s)
| S_fail i : lpcs s i = LProduce -> taken s = false ->
    step s (Fail i) (Lazy (hist s) true (value s) (idx s) (knows s) (kern s) (fupd i LDead (lpcs s)) (runs s) (got s))
| S_publish i m : lpcs s i = LPublish -> is_last s m -> step s (Work i) (publish i m s)
| S_wake i : lpcs s i = LWake -> step s (Work i) (wake_all i s)
(* lines 140-149: compare_exchange, Relaxed; or it failed, Acquire *)
| S_announce i b : lpcs s i = LLoop Initializing -> is_last s (Initializing, b) -> step s (Work i) (write_to i (Sleepers, b) (LLoop Sleepers) s)
| S_noannounce i j m : lpcs s i = LLoop Initializing -> may_read s i j m -> fst m <> Initializing -> step s (Work i) (read_to i j (snd m) (LLoop (fst m)) s)
(* lines 152-158: futex_wait; it sleeps or returns EAGAIN *)
| S_wait i j m : lpcs s i = LLoop Sleepers -> may_read s i j m -> (kern s <= j)%nat ->
    step s (Work i) (read_to i j false (match fst m with Sleepers => LAsleep | _ => LReload end) s)
| S_spurious i : lpcs s i = LAsleep -> step s (Spurious i) (goto i LReload s)
(* lines 160-161: load with Acquire *)
| S_reload i j m : lpcs s i = LReload -> may_read s i j m -> step s (Work i) (read_to i j (snd m) (LLoop (fst m)) s)
| S_break i : lpcs s i = LLoop Initd -> step s (Work i) (goto i LRef s)
| S_use i : lpcs s i = LRef ->
    step s (Use i) (Lazy (hist s) (taken s) (value s) (idx s) (knows s) (kern s) (lpcs s) (runs s) ((i, if knows s i then value s else None) :: got s))
| S_back i : lpcs s i = LRef -> step s (Use i) (goto i LOut s)
(* lines 196-199: initd, a relaxed load *)
| S_probe i j m : lpcs s i = LOut -> may_read s i j m ->
    step s (Probe i (match fst m with Initd => true | _ => false end)) (read_to i j false LOut s).

(** Runs. *)
Inductive steps (s : lazy) : list lab -> lazy -> Prop :=
| Steps_nil : steps s [] s
| Steps_cons l t ls u : step s l t -> steps t ls u -> steps s (l :: ls) u.

(* drop, lines 223-230, by a thread that has the lock for itself: what is dropped *)
Definition drop_lock (s : lazy) : option Z :=
  match nth_error (hist s) (last_idx s) with Some (Initd, _) => value s | _ => None end.
