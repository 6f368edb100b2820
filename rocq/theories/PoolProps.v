(** Properties C55 and C56: the thread pools of the schedulers. *)
From Verif Require Import Base PoolModel UPoolModel PoolSpec PoolLaws UPoolLaws.
Local Open Scope nat_scope.

(** A schedule: the main thread and [n] threads take turns; the task of thread [x] panics. *)
Definition turn (n : nat) (x : option nat) : list op :=
  Main AGo :: map (fun i => Thread i (match x with Some y => Nat.eqb i y | None => false end)) (seq 0 n).
Definition turns (k n : nat) (x : option nat) : list op := concat (repeat (turn n x) k).
Definition a_round (n : nat) (x : option nat) : list op := [Main ABegin; Main ARun] ++ turns 20 n x ++ [Main ALeave] ++ turns 40 n x.
Definition sees {A} (f : pool -> A) (cpus threads : nat) (ops : list op) : option A := option_map f (steps (pool_new cpus threads) ops).
Definition sees_u {A} (f : upool -> A) (threads : nat) (ops : list op) : option A := option_map f (usteps (upool_new threads) ops).

(** * C55: the pool with a bound on the parallelism *)

(** No use of the pool panics inside it, except that a scope reports the panic of a task. *)
Theorem C55_no_panic : forall cpus threads ops, 0 < cpus -> 0 < threads -> exists s, steps (pool_new cpus threads) ops = Some s.
Proof. exact no_panic. Qed.
Print Assumptions C55_no_panic.
Example C55_no_panic_ex : sees main 2 3 (a_round 3 None ++ a_round 3 (Some 1) ++ [Main ABegin; Main ADrop] ++ turns 40 3 None) = Some MEnd.
Proof. vm_compute. reflexivity. Qed.

(** In every round that is over, every thread ran the task once, on one of the processors. *)
Theorem C55_once : forall cpus threads ops s, 0 < cpus -> 0 < threads -> steps (pool_new cpus threads) ops = Some s ->
  forall l, In l (past s) -> Permutation (map fst l) (seq 0 threads) /\ forall i p, In (i, p) l -> p < Nat.min cpus threads.
Proof. exact once_past. Qed.
Print Assumptions C55_once.
Example C55_once_ex : sees past 2 3 (a_round 3 None ++ a_round 3 None) =
  Some [[(0, 0); (1, 1); (2, 0)]; [(0, 0); (1, 1); (2, 0)]].
Proof. vm_compute. reflexivity. Qed.

(** At any moment of a round, no thread has run the task twice. *)
Theorem C55_at_most_once : forall cpus threads ops s, 0 < cpus -> 0 < threads -> steps (pool_new cpus threads) ops = Some s -> in_task s = true ->
  NoDup (map fst (cur s)) /\ forall i p, In (i, p) (cur s) -> i < threads /\ p < Nat.min cpus threads.
Proof. exact cur_once. Qed.
Print Assumptions C55_at_most_once.
Example C55_at_most_once_ex : sees (fun s => (in_task s, cur s)) 2 3 ([Main ABegin; Main ARun] ++ turns 9 3 None) = Some (true, [(0, 0); (1, 1)]).
Proof. vm_compute. reflexivity. Qed.

(** At any moment, each processor runs the task in at most one thread. *)
Theorem C55_parallel : forall cpus threads ops s, 0 < cpus -> 0 < threads -> steps (pool_new cpus threads) ops = Some s ->
  (forall i p, busy s i = Some p -> i < threads /\ p < Nat.min cpus threads) /\
  (forall i j p, busy s i = Some p -> busy s j = Some p -> i = j) /\
  length (busy_threads s) <= Nat.min cpus threads.
Proof. exact parallel. Qed.
Print Assumptions C55_parallel.
Example C55_parallel_ex : exists ops, sees busy_threads 2 4 ops = Some [0; 1].
Proof. exists ([Main ABegin; Main ARun] ++ repeat (Main AGo) 6 ++ [Thread 0 false; Thread 1 false; Thread 0 false; Thread 1 false; Thread 0 false; Thread 1 false]). vm_compute. reflexivity. Qed.

(** The task runs only while the scope that brought it is open: borrowed data stay valid. *)
Theorem C55_scope : forall cpus threads ops s i p, 0 < cpus -> 0 < threads -> steps (pool_new cpus threads) ops = Some s ->
  busy s i = Some p -> in_task s = true.
Proof. exact scope_borrow. Qed.
Print Assumptions C55_scope.
Example C55_scope_ex : sees (fun s => map (busy s) [0; 1; 2]) 2 3 ([Main ABegin; Main ARun; Main AGo; Main AGo; Thread 0 false; Thread 0 false; Thread 0 false]) =
  Some [Some 0; None; None].
Proof. vm_compute. reflexivity. Qed.

(** The scope goes on when every thread has run the task, and not before. *)
Theorem C55_waits : forall cpus threads ops s o s', 0 < cpus -> 0 < threads -> steps (pool_new cpus threads) ops = Some s ->
  step s o = Some s' -> in_task s = true -> in_task s' = false ->
  Permutation (map fst (cur s')) (seq 0 threads) /\ forall i, busy s' i = None.
Proof. exact scope_leaves. Qed.
Print Assumptions C55_waits.
Example C55_waits_ex : exists ops o, sees in_task 2 3 ops = Some true /\ sees in_task 2 3 (ops ++ [o]) = Some false.
Proof.
  exists ([Main ABegin; Main ARun] ++ turns 20 3 None ++ [Main ALeave]), (Main AGo). split; vm_compute; reflexivity.
Qed.

(** After the task panicked in some thread no scope returns normally or begins again. *)
Theorem C55_panic : forall cpus threads ops s i p ops' s', 0 < cpus -> 0 < threads -> steps (pool_new cpus threads) ops = Some s ->
  busy s i = Some p -> steps s (Thread i true :: ops') = Some s' -> main s' <> MIdle /\ main s' <> MScope.
Proof. exact panic_stays. Qed.
Print Assumptions C55_panic.
Example C55_panic_ex : sees main 2 3 (a_round 3 (Some 1)) = Some MPanicked /\ sees (fun s => length (past s)) 2 3 (a_round 3 (Some 1)) = Some 1.
Proof. split; vm_compute; reflexivity. Qed.

(** If the task never panics, no scope reports a panic. *)
Theorem C55_calm : forall cpus threads ops s, calm ops -> steps (pool_new cpus threads) ops = Some s ->
  main s <> MPanicked /\ forall i, pcs s i <> TGone true.
Proof. exact no_false_panic. Qed.
Print Assumptions C55_calm.
Example C55_calm_ex : calm (a_round 3 None) /\ sees main 2 3 (a_round 3 None) = Some MIdle.
Proof. split; [|vm_compute; reflexivity]. repeat constructor. Qed.

(** While the main thread waits for the pool, some step changes something: there is no deadlock. *)
Theorem C55_progress : forall cpus threads ops s, 0 < cpus -> 0 < threads -> steps (pool_new cpus threads) ops = Some s ->
  waits s = true -> exists o s', step s o = Some s' /\ s' <> s.
Proof. exact progresses. Qed.
Print Assumptions C55_progress.
Example C55_progress_ex : sees waits 2 3 ([Main ABegin; Main ARun] ++ turns 7 3 None ++ [Main ALeave]) = Some true.
Proof. vm_compute. reflexivity. Qed.

(** And there are only so many such steps: the wait ends if no thread is starved. *)
Theorem C55_terminates : forall cpus threads ops s n s', 0 < cpus -> 0 < threads -> steps (pool_new cpus threads) ops = Some s ->
  busy_run s n s' -> n <= (Nat.min cpus threads + threads + 1) * (Nat.min cpus threads + 12).
Proof. exact terminates. Qed.
Print Assumptions C55_terminates.
Example C55_terminates_ex : exists s s', steps (pool_new 2 3) [Main ABegin; Main ARun] = Some s /\ busy_run s 1 s'.
Proof.
  eexists. eexists. split; [reflexivity|].
  eapply (br_step _ (Main AGo)); [reflexivity|reflexivity|intros H; apply (f_equal main) in H; discriminate|constructor].
Qed.

(** When the pool has been joined or dropped, all its threads have ended. *)
Theorem C55_joined : forall cpus threads ops s, 0 < cpus -> 0 < threads -> steps (pool_new cpus threads) ops = Some s ->
  main s = MEnd -> forall i, i < threads -> exists b, pcs s i = TGone b.
Proof. exact joined. Qed.
Print Assumptions C55_joined.
Example C55_joined_ex : sees main 2 3 (a_round 3 None ++ [Main ADrop] ++ turns 40 3 None) = Some MEnd.
Proof. vm_compute. reflexivity. Qed.

(** * C56: the pool without a bound *)

Theorem C56_no_panic : forall threads ops, exists s, usteps (upool_new threads) ops = Some s.
Proof. exact u_no_panic. Qed.
Print Assumptions C56_no_panic.
Example C56_no_panic_ex : sees_u umain 3 (a_round 3 None ++ a_round 3 (Some 1) ++ [Main ABegin; Main ADrop] ++ turns 40 3 None) = Some UEnd.
Proof. vm_compute. reflexivity. Qed.

Theorem C56_once : forall threads ops s, usteps (upool_new threads) ops = Some s -> forall l, In l (upast s) -> Permutation l (seq 0 threads).
Proof. exact u_once_past. Qed.
Print Assumptions C56_once.
Example C56_once_ex : sees_u upast 3 (a_round 3 None ++ a_round 3 None) = Some [[0; 1; 2]; [0; 1; 2]].
Proof. vm_compute. reflexivity. Qed.

Theorem C56_at_most_once : forall threads ops s, usteps (upool_new threads) ops = Some s -> u_in_task s = true ->
  NoDup (ucur s) /\ forall i, In i (ucur s) -> i < threads.
Proof. exact u_cur_once. Qed.
Print Assumptions C56_at_most_once.
Example C56_at_most_once_ex : sees_u (fun s => (u_in_task s, ucur s)) 3 ([Main ABegin; Main ARun; Main AGo] ++ repeat (Thread 1 false) 3) = Some (true, [1]).
Proof. vm_compute. reflexivity. Qed.

Theorem C56_scope : forall threads ops s i, usteps (upool_new threads) ops = Some s -> u_busy s i = true -> u_in_task s = true.
Proof. exact u_scope_borrow. Qed.
Print Assumptions C56_scope.
Example C56_scope_ex : sees_u (fun s => map (u_busy s) [0; 1; 2]) 3 ([Main ABegin; Main ARun; Main AGo] ++ [Thread 0 false; Thread 0 false; Thread 2 false; Thread 2 false]) = Some [true; false; true].
Proof. vm_compute. reflexivity. Qed.

Theorem C56_waits : forall threads ops s o s', usteps (upool_new threads) ops = Some s ->
  ustep s o = Some s' -> u_in_task s = true -> u_in_task s' = false ->
  Permutation (ucur s') (seq 0 threads) /\ forall i, u_busy s' i = false.
Proof. exact u_scope_leaves. Qed.
Print Assumptions C56_waits.
Example C56_waits_ex : exists ops o, sees_u u_in_task 3 ops = Some true /\ sees_u u_in_task 3 (ops ++ [o]) = Some false.
Proof.
  exists ([Main ABegin; Main ARun] ++ turns 20 3 None ++ [Main ALeave]), (Main AGo). split; vm_compute; reflexivity.
Qed.

Theorem C56_panic : forall threads ops s i ops' s', usteps (upool_new threads) ops = Some s ->
  u_busy s i = true -> usteps s (Thread i true :: ops') = Some s' -> umain s' <> UIdle /\ umain s' <> UScope.
Proof. exact u_panic_stays. Qed.
Print Assumptions C56_panic.
Example C56_panic_ex : sees_u umain 3 (a_round 3 (Some 1)) = Some UPanicked.
Proof. vm_compute. reflexivity. Qed.

Theorem C56_calm : forall threads ops s, calm ops -> usteps (upool_new threads) ops = Some s ->
  umain s <> UPanicked /\ forall i, upcs s i <> UGone true.
Proof. exact u_no_false_panic. Qed.
Print Assumptions C56_calm.
Example C56_calm_ex : sees_u umain 3 (a_round 3 None) = Some UIdle.
Proof. vm_compute. reflexivity. Qed.

Theorem C56_progress : forall threads ops s, usteps (upool_new threads) ops = Some s -> u_waits s = true -> exists o s', ustep s o = Some s' /\ s' <> s.
Proof. exact u_progresses. Qed.
Print Assumptions C56_progress.
Example C56_progress_ex : sees_u u_waits 3 ([Main ABegin; Main ARun; Main AGo] ++ [Thread 0 false; Main ALeave; Thread 0 true]) = Some true.
Proof. vm_compute. reflexivity. Qed.

Theorem C56_terminates : forall threads ops s n s', usteps (upool_new threads) ops = Some s -> u_busy_run s n s' -> n <= 7 * threads + 3.
Proof. exact u_terminates. Qed.
Print Assumptions C56_terminates.
Example C56_terminates_ex : exists s s', usteps (upool_new 3) [Main ABegin; Main ADrop; Main ALeave; Main ADrop] = Some s /\ u_busy_run s 2 s'.
Proof.
  eexists. eexists. split; [reflexivity|].
  eapply (ubr_step _ (Main AGo)); [reflexivity|reflexivity|intros H; apply (f_equal umain) in H; discriminate|].
  eapply (ubr_step _ (Thread 1 false)); [reflexivity|reflexivity|intros H; apply (f_equal (fun s => upcs s 1)) in H; discriminate|constructor].
Qed.

Theorem C56_joined : forall threads ops s, usteps (upool_new threads) ops = Some s -> umain s = UEnd -> forall i, i < threads -> exists b, upcs s i = UGone b.
Proof. exact u_joined. Qed.
Print Assumptions C56_joined.
Example C56_joined_ex : sees_u umain 3 (a_round 3 None ++ [Main ADrop] ++ turns 40 3 None) = Some UEnd.
Proof. vm_compute. reflexivity. Qed.
