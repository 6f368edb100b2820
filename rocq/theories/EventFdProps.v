(** C22: event counters. *)
From Verif Require Import Base EventFdModel EventFdSpec EventFdProofs.

(** No operation panics, and the counter is the initial value plus what was written minus what was
    read, between zero and 2^64 - 2. *)
Theorem C22_ledger : forall init sem ops, 0 <= init <= top -> Forall value_ok ops ->
  exists e xs, erun (eventfd_new init sem) ops = Some (e, xs) /\ length xs = length ops /\
    counter e = level init (combine ops (map fst xs)) /\ 0 <= counter e <= top.
Proof. exact run_main. Qed.
Print Assumptions C22_ledger.

(** After any history the next operation does what it should: a read takes one unit in semaphore
    mode and everything otherwise, and would block exactly at zero; a write would block exactly when
    the sum would pass the maximum; ill-formed requests fail. *)
Theorem C22_results : forall init sem ops, 0 <= init <= top -> Forall value_ok ops ->
  forall e xs, erun (eventfd_new init sem) ops = Some (e, xs) -> forall o, value_ok o ->
  exists e' x n, estep e o = Some (e', x, n) /\
    right sem (level init (combine ops (map fst xs))) o x /\ (ill_formed o -> exists err, x = Err err).
Proof. exact next_main. Qed.
Print Assumptions C22_results.

(** The readiness bits agree with the counter if the initial value was zero or some read or write
    succeeded. Missing: a fresh counter with a positive initial value, see the refutation below. *)
Theorem C22_ready_partial : forall init sem ops, 0 <= init <= top -> Forall value_ok ops ->
  forall e xs, erun (eventfd_new init sem) ops = Some (e, xs) ->
  init = 0 \/ Exists success (map fst xs) -> ~ Exists is_close ops ->
  st_readable (state e) = (0 <? level init (combine ops (map fst xs))) /\
  st_writable (state e) = (level init (combine ops (map fst xs)) <? top).
Proof. exact ready_main. Qed.
Print Assumptions C22_ready_partial.

(** Once closed, neither readable nor writable. *)
Theorem C22_closed : forall init sem ops, 0 <= init <= top -> Forall value_ok ops ->
  forall e xs, erun (eventfd_new init sem) ops = Some (e, xs) -> Exists is_close ops ->
  st_readable (state e) = false /\ st_writable (state e) = false.
Proof. exact closed_main. Qed.
Print Assumptions C22_closed.

(** A listener that starts from the initial state and applies every notification knows the state. *)
Theorem C22_told : forall init sem ops, 0 <= init <= top -> Forall value_ok ops ->
  forall e xs, erun (eventfd_new init sem) ops = Some (e, xs) ->
  told (state (eventfd_new init sem)) (concat (map snd xs)) = state e.
Proof. exact told_main. Qed.
Print Assumptions C22_told.

(** A fresh counter with a positive initial value can be read but is not marked readable, and stays
    so however often blocked writes are tried. *)
Theorem C22_ready_refuted : exists init sem ops e xs,
  0 <= init <= top /\ Forall value_ok ops /\ erun (eventfd_new init sem) ops = Some (e, xs) /\
  ~ Exists is_close ops /\ 0 < level init (combine ops (map fst xs)) /\ st_readable (state e) = false /\
  exists e', estep e (Read {| lens := [8]; has_offset := false; accessible := true |}) = Some (e', Got 5, []).
Proof.
  exists 5, false, [Write {| lens := [8]; has_offset := false; accessible := true |} (2^64 - 3)].
  eexists. eexists. split; [vm_compute; split; discriminate|]. split; [repeat constructor; vm_compute; discriminate|].
  split; [vm_compute; reflexivity|]. split; [intros H; inversion H as [? ? K|? ? K]; [destruct K|inversion K]|].
  split; [reflexivity|]. split; [reflexivity|]. eexists. vm_compute. reflexivity.
Qed.
Print Assumptions C22_ready_refuted.

Definition rq : request := {| lens := [8]; has_offset := false; accessible := true |}.
(** A semaphore history that blocks at both ends. *)
Example C22_history : Forall value_ok [Read rq; Write rq 2; Read rq; Write rq (2^64 - 3); Write rq 1; Read rq; Write rq (2^64 - 1)] /\
  exists e, erun (eventfd_new 0 true) [Read rq; Write rq 2; Read rq; Write rq (2^64 - 3); Write rq 1; Read rq; Write rq (2^64 - 1)] =
   Some (e, [(Err EWOULDBLOCK, []);
             (Put, [({| st_active := true; st_readable := true; st_writable := true; st_closed := false |}, true)]);
             (Got 1, []);
             (Put, [({| st_active := true; st_readable := true; st_writable := false; st_closed := false |}, true)]);
             (Err EWOULDBLOCK, []);
             (Got 1, [({| st_active := true; st_readable := true; st_writable := true; st_closed := false |}, false)]);
             (Err EINVAL, [])]) /\ counter e = 2^64 - 3.
Proof.
  split; [repeat constructor; vm_compute; congruence|]. eexists. split; vm_compute; reflexivity.
Qed.
