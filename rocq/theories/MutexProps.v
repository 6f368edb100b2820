(** The shared-memory mutex (C29). *)
From Verif Require Import Base SchedModel MutexModel MutexSpec MutexProofs.

(** At most one thread has a guard, and none has one while a guard is disconnected: in every state
    reachable by any interleaving of any number of threads below 2^16. *)
Theorem C29_exclusion n acts i j : Z.of_nat n < 65536 ->
  holds (mrun (mutex_new n) acts) i -> holds (mrun (mutex_new n) acts) j -> i = j.
Proof. intros B. destruct (mrun_inv acts _ _ (new_inv n B)) as (st & I). exact (exclusive _ st i j I). Qed.
Print Assumptions C29_exclusion.

Theorem C29_exclusion_disconnected n acts i : Z.of_nat n < 65536 ->
  holds (mrun (mutex_new n) acts) i -> detached (mrun (mutex_new n) acts) = 0.
Proof. intros B. destruct (mrun_inv acts _ _ (new_inv n B)) as (st & I). exact (exclusive_detached _ st i I). Qed.
Print Assumptions C29_exclusion_disconnected.

(** No assertion or overflow check fails under correct use. *)
Theorem C29_no_panic n acts i : Z.of_nat n < 65536 -> recon_ok (mutex_new n) acts ->
  nth_error (threads (mrun (mutex_new n) acts)) i <> Some TPanic.
Proof. exact (mutex_no_panic n acts i). Qed.
Print Assumptions C29_no_panic.

(** No lost wake-up: when the mutex is free and a thread sleeps on it, some thread is about to wake
    one or is awake and trying to take it; ... *)
Theorem C29_no_lost_wakeup n acts i : Z.of_nat n < 65536 ->
  free (mrun (mutex_new n) acts) -> nth_error (threads (mrun (mutex_new n) acts)) i = Some TAsleep ->
  exists j t, nth_error (threads (mrun (mutex_new n) acts)) j = Some t /\ (t = TWake \/ trying t = true).
Proof. exact (mutex_no_lost n acts i). Qed.
Print Assumptions C29_no_lost_wakeup.

(** ... and a thread that is awake and trying takes a free mutex in at most four steps if nobody
    interferes. *)
Theorem C29_acquires n acts i t : Z.of_nat n < 65536 ->
  free (mrun (mutex_new n) acts) -> nth_error (threads (mrun (mutex_new n) acts)) i = Some t -> trying t = true ->
  exists k, (k <= 4)%nat /\ holds (mrun (mutex_new n) (acts ++ repeat (MStep i) k)) i.
Proof.
  intros B F E T. destruct (mrun_inv acts _ _ (new_inv n B)) as (st & I).
  destruct (solo _ st i t I (free_st _ _ I F) E T) as (k & K & H). exists k. split; [exact K|]. now rewrite mrun_app.
Qed.
Print Assumptions C29_acquires.

(** Three threads: the first holds the mutex, the others sleep; it unlocks and wakes the second,
    which takes the mutex, disconnects it; the first reconnects, unlocks, wakes the third. *)
Definition mutex_case : list mact :=
  [MLock 0; MStep 0; MLock 1; MStep 1; MStep 1; MLock 2; MStep 2; MStep 2; MStep 2; MStep 1; MStep 1; MStep 1;
   MUnlock 0; MWake 0 1; MStep 1; MStep 1; MDisconnect 1; MReconnect 0; MStep 0; MStep 0; MUnlock 0; MWake 0 2;
   MStep 2; MStep 2].
Example C29_case :
  threads (mrun (mutex_new 3) (firstn 12 mutex_case)) = [THold; TAsleep; TAsleep] /\
  threads (mrun (mutex_new 3) (firstn 13 mutex_case)) = [TWake; TAsleep; TAsleep] /\
  threads (mrun (mutex_new 3) (firstn 17 mutex_case)) = [TIdle; TIdle; TAsleep] /\
  detached (mrun (mutex_new 3) (firstn 17 mutex_case)) = 1 /\
  threads (mrun (mutex_new 3) (firstn 20 mutex_case)) = [THold; TIdle; TAsleep] /\
  threads (mrun (mutex_new 3) mutex_case) = [TIdle; TIdle; THold] /\
  futex (mrun (mutex_new 3) mutex_case) = word LOCKED 0.
Proof. repeat split; vm_compute; reflexivity. Qed.
Example C29_case_free : free (mrun (mutex_new 3) (firstn 13 mutex_case)).
Proof. split; [|reflexivity]. intros i. unfold holds. change (nth_error [TWake; TAsleep; TAsleep] i <> Some THold). destruct i as [|[|[|[|]]]]; discriminate. Qed.
Example C29_case_use : recon_ok (mutex_new 3) mutex_case.
Proof.
  unfold mutex_case. cbn [recon_ok]. repeat (match goal with |- _ /\ _ => split | |- True => exact Logic.I end).
  - intros _. split; [vm_compute; reflexivity|]. intros j c.
    match goal with |- context [threads ?m] => let m' := eval vm_compute in (threads m) in change (threads m) with m' end.
    destruct j as [|[|[|[|]]]]; discriminate.
Qed.

(** Reconnecting a mutex that is not disconnected panics (as documented) and does not grant it. *)
Example C29_case_panic :
  threads (mrun (mutex_new 2) [MLock 0; MStep 0; MReconnect 1; MStep 1; MStep 1]) = [THold; TPanic].
Proof. vm_compute. reflexivity. Qed.
