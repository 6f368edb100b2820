(** The thread-per-core and thread-per-host schedulers:
    src/lib/scheduler/src/thread_per_core.rs and thread_per_host.rs.

    The thread pool runs a task once on every thread and waits for all of them (PoolModel); here a
    round is any interleaving of the threads' queue operations until all threads are done.
    [ArrayQueue]'s [push] and [pop] are atomic. *)
From Verif Require Import Base.

Fixpoint upd {A} (i : nat) (x : A) (l : list A) : list A :=
  match l, i with
  | [], _ => []
  | _ :: r, O => x :: r
  | y :: r, S j => y :: upd j x r
  end.

Section Model.
Variable H : Type.

(** thread_per_core.rs 18-24: the queues with their capacity. *)
Record sched := Sched {
  num_threads : nat;
  capacity : nat;
  thread_hosts : list (list H);
  thread_hosts_processed : list (list H);
  hosts_need_swap : bool
}.

(** ArrayQueue::push with unwrap: panics when full. *)
Definition q_push (cap : nat) (q : list H) (h : H) : option (list H) :=
  check (Nat.ltb (length q) cap); Some (q ++ [h]).

(** The round-robin loop of ThreadPerCoreSched::new, lines 63-66 ([i] is the position in the
    cycle). *)
Fixpoint assign (n cap : nat) (qs : list (list H)) (i : nat) (hosts : list H)
  : option (list (list H)) :=
  match hosts with
  | [] => Some qs
  | h :: r =>
      do q <- q_push cap (nth i qs []) h;
      assign n cap (upd i q qs) (if Nat.eqb (S i) n then 0 else S i)%nat r
  end.

(** ThreadPerCoreSched::new, lines 26-75. [ArrayQueue::new] panics for capacity 0; without threads
    the cycle is empty and no host is stored. *)
Definition sched_new (n : nat) (hosts : list H) : option sched :=
  check (Nat.eqb n 0 || negb (Nat.eqb (length hosts) 0));
  do qs <- (if Nat.eqb n 0 then Some [] else assign n (length hosts) (repeat [] n) 0 hosts);
  Some (Sched n (length hosts) qs (repeat [] n) false).

(** Where a thread is in HostIter::for_each, lines 195-210: at the [k]-th queue of its cycle, or
    running a host popped from it. *)
Inductive pc := At (k : nat) | Running (k : nat) (h : H).

(** A round in progress: the queues hosts are taken from, those they are put into, the threads,
    and a ghost log of executions (thread, host before, host after). *)
Record round := Round {
  from : list (list H);
  to : list (list H);
  pcs : list pc;
  log : list (nat * H * H)
}.

(** One atomic step of thread [i] with the task's function [f]. *)
Definition tstep (n cap : nat) (f : nat -> H -> H) (i : nat) (r : round) : option round :=
  match nth_error (pcs r) i with
  | None => Some r
  | Some (At k) =>
      if Nat.ltb k n then
        let q := ((i + k) mod n)%nat in
        match nth q (from r) [] with
        | h :: t => Some (Round (upd q t (from r)) (to r) (upd i (Running k h) (pcs r)) (log r))
        | [] => Some (Round (from r) (to r) (upd i (At (S k)) (pcs r)) (log r))
        end
      else Some r
  | Some (Running k h) =>
      do q <- q_push cap (nth i (to r) []) (f i h);
      Some (Round (from r) (upd i q (to r)) (upd i (At k) (pcs r)) (log r ++ [(i, h, f i h)]))
  end.

Fixpoint tsteps (n cap : nat) (f : nat -> H -> H) (is : list nat) (r : round) : option round :=
  match is with
  | [] => Some r
  | i :: rest => do r' <- tstep n cap f i r; tsteps n cap f rest r'
  end.

(** The round is over when every thread has passed its last queue. *)
Definition done (n : nat) (p : pc) : bool := match p with At k => Nat.leb n k | Running _ _ => false end.
Definition finished (n : nat) (r : round) : bool := forallb (done n) (pcs r).

(** ThreadPerCoreSched::scope, lines 83-114: the swap of the previous round's queues. *)
Definition scope_begin (s : sched) : option sched :=
  if hosts_need_swap s then
    check (forallb (fun q => match q with [] => true | _ => false end) (thread_hosts s));
    Some (Sched (num_threads s) (capacity s) (thread_hosts_processed s) (thread_hosts s) false)
  else Some s.

Definition round_begin (s : sched) : round :=
  Round (thread_hosts s) (thread_hosts_processed s) (repeat (At 0) (num_threads s)) [].

(** What the closure given to [scope] does. *)
Inductive task :=
| RunNothing                                       (* the closure does not run a task *)
| RunPlain                                         (* SchedulerScope::run, lines 137-139 *)
| RunHosts (f : nat -> H -> H) (order : list nat). (* run_with_hosts / run_with_data, 142-179 *)

(** A whole scope. [Some None]: the threads have not finished after the steps in [order], so the
    scope has not returned. *)
Definition scope (s : sched) (t : task) : option (option (sched * list (nat * H * H))) :=
  do s1 <- scope_begin s;
  match t with
  | RunNothing | RunPlain => Some (Some (s1, []))
  | RunHosts f order =>
      do r <- tsteps (num_threads s1) (capacity s1) f order (round_begin s1);
      if finished (num_threads s1) r then
        Some (Some (Sched (num_threads s1) (capacity s1) (from r) (to r) true, log r))
      else Some None
  end.

Fixpoint scopes (s : sched) (ts : list task) : option (option (sched * list (list (nat * H * H)))) :=
  match ts with
  | [] => Some (Some (s, []))
  | t :: rest =>
      do x <- scope s t;
      match x with
      | None => Some None
      | Some (s', l) =>
          do y <- scopes s' rest;
          match y with None => Some None | Some (s'', ls) => Some (Some (s'', l :: ls)) end
      end
  end.

(** ** Thread per host *)

(** thread_per_host.rs 17-23: every thread stores one host. *)
Definition tph := list (option H).

(** ThreadPerHostSched::new, lines 34-61: thread [i] takes host [i]. *)
Definition tph_new (hosts : list H) : tph := map Some hosts.

(** run_with_hosts on thread [i], lines 122-140 with HostIter::for_each (185-191): take the host
    out of the storage, run it, put it back. *)
Definition tph_run (f : nat -> H -> H) (i : nat) (st : tph) : option (tph * list (nat * H * H)) :=
  do slot <- nth_error st i;
  do h <- slot;
  Some (upd i (Some (f i h)) st, [(i, h, f i h)]).

(** A round: the pool runs the task once on each thread, in any order. *)
Fixpoint tph_round (f : nat -> H -> H) (order : list nat) (st : tph)
  : option (tph * list (nat * H * H)) :=
  match order with
  | [] => Some (st, [])
  | i :: r =>
      do x <- tph_run f i st;
      do y <- tph_round f r (fst x);
      Some (fst y, snd x ++ snd y)
  end.
End Model.
