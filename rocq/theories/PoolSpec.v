(** What is asked of the pool, in terms of its executions. *)
From Verif Require Import Base PoolModel UPoolModel.

(** The main thread is between [run] and the end of the scope's wait. *)
Definition in_task (s : pool) : bool :=
  match main s with MStart _ _ | MGot _ _ _ | MBody | MWait => true | _ => false end.
(** The pool's threads work for the main thread: it must be able to go on. *)
Definition waits (s : pool) : bool :=
  match main s with
  | MStart _ _ | MGot _ _ _ | MWait | MClear | MReset | MJoin _ _ | MJoined _ _ => true
  | _ => false
  end.

(** Threads that run the task, and on which processor. *)
Definition busy (s : pool) (i : nat) : option nat :=
  match pcs s i with TBusy p => Some p | _ => None end.
Definition busy_threads (s : pool) : list nat :=
  filter (fun i => match busy s i with Some _ => true | None => false end) (seq 0 (nt s)).

(** One task: every thread runs it once, on some processor. *)
Definition once (s : pool) (l : list (nat * nat)) : Prop :=
  Permutation (map fst l) (seq 0 (nt s)) /\ Forall (fun x => (snd x < np s)%nat) l.

(** A run in which the main thread waits for the pool and every step changes something. *)
Inductive busy_run : pool -> nat -> pool -> Prop :=
| br_nil s : busy_run s 0 s
| br_step s o s1 n s2 : waits s = true -> step s o = Some s1 -> s1 <> s -> busy_run s1 n s2 -> busy_run s (S n) s2.

(** A schedule in which no execution of the task panics. *)
Definition calm (ops : list op) : Prop := Forall (fun o => match o with Thread _ b => b = false | _ => True end) ops.

(** The same for the pool without a bound. *)
Definition u_in_task (s : upool) : bool := match umain s with UOpen | UBody | UMWait => true | _ => false end.
Definition u_waits (s : upool) : bool :=
  match umain s with UOpen | UMWait | UClear | UJoin _ | UJoined _ _ => true | _ => false end.
Definition u_busy (s : upool) (i : nat) : bool := match upcs s i with UBusy => true | _ => false end.
Inductive u_busy_run : upool -> nat -> upool -> Prop :=
| ubr_nil s : u_busy_run s 0 s
| ubr_step s o s1 n s2 : u_waits s = true -> ustep s o = Some s1 -> s1 <> s -> u_busy_run s1 n s2 -> u_busy_run s (S n) s2.
