(** The round barriers of the scheduler (C28). *)
From Verif Require Import Base SchedModel LatchModel LatchSpec LatchProofs.

(** ** The simple latch (start of a round) *)

(** A waiter never returns more often than the latch was opened since it was created, whatever the
    interleaving, however often it is opened, cloned, dropped or spuriously woken. *)
Theorem C28_no_early_pass acts w : In w (waiters (lrun latch_new acts)) ->
  w_round w <= opened (lrun latch_new acts).
Proof. exact (latch_no_early acts w). Qed.
Print Assumptions C28_no_early_pass.

(** If the latch is opened only when all waiters have returned for the openings before, no waiter
    panics and none misses an opening. *)
Theorem C28_latch_no_panic acts w : synced latch_new acts ->
  In w (waiters (lrun latch_new acts)) -> w_live w = true ->
  opened (lrun latch_new acts) - 1 <= w_round w <= opened (lrun latch_new acts) /\ w_pc w <> WPanic.
Proof. exact (latch_no_panic acts w). Qed.
Print Assumptions C28_latch_no_panic.

(** No lost wake-up: if a waiter sleeps although the latch has been opened for it, the opener is
    about to wake it; ... *)
Theorem C28_latch_no_lost_wakeup acts w : synced latch_new acts ->
  In w (waiters (lrun latch_new acts)) -> w_pc w = WAsleep ->
  w_round w < opened (lrun latch_new acts) -> opening (lrun latch_new acts) = true.
Proof. exact (latch_no_lost acts w). Qed.
Print Assumptions C28_latch_no_lost_wakeup.

(** ... and once awake its next step returns. *)
Theorem C28_latch_returns acts i w : nth_error (waiters (lrun latch_new acts)) i = Some w ->
  w_round w + 1 = opened (lrun latch_new acts) -> w_pc w = WLoad ->
  exists w', nth_error (waiters (lrun latch_new (acts ++ [LStep i]))) i = Some w' /\
    w_pc w' = WIdle /\ w_round w' = w_round w + 1.
Proof.
  assert (A : forall b l a, lrun l (b ++ [a]) = lstep a (lrun l b)) by (induction b; intros; cbn; auto).
  rewrite A. exact (latch_returns _ i w (lrun_inv acts _ latch_new_inv)).
Qed.
Print Assumptions C28_latch_returns.

(** Two waiters, one of them spinning, go through two openings; the sleeping one is woken. *)
Definition latch_case : list lact :=
  [LWaiter false; LWaiter true; LCall 0; LStep 0; LStep 0; LOpen; LCall 1; LStep 1; LWake; LStep 0;
   LCall 1; LStep 1; LStep 1; LOpen; LWake; LStep 1; LCall 0; LStep 0].
Example C28_latch_case :
  map (fun w => (w_pc w, w_round w)) (waiters (lrun latch_new latch_case)) = [(WIdle, 2); (WIdle, 2)] /\
  map w_pc (waiters (lrun latch_new (firstn 6 latch_case))) = [WAsleep; WIdle] /\
  opening (lrun latch_new (firstn 6 latch_case)) = true /\ synced latch_new latch_case.
Proof.
  repeat (split; [vm_compute; reflexivity|]). apply syncedb_ok. vm_compute. reflexivity.
Qed.

(** ** The count-down latch (end of a round) *)

(** A waiter passes round k only when every counter has counted down for round k: in any reachable
    state, whatever happens next. *)
Theorem C28_barrier acts a i w w' : Z.of_nat (length acts) < U64_MAX - 1 ->
  broken (crun cdl_new acts) = false ->
  nth_error (ws (crun cdl_new acts)) i = Some w ->
  nth_error (ws (cstep a (crun cdl_new acts))) i = Some w' -> cw_round w' <> cw_round w ->
  cw_round w' = cw_round w + 1 /\ cw_live w = true /\ all_down (crun cdl_new acts) (cw_round w).
Proof. intros S B. destruct (reach_inv acts S B) as [I SM]. exact (cdl_barrier _ a i w w' I SM). Qed.
Print Assumptions C28_barrier.

(** A counter goes on to round k+1 only when every waiter has returned for the rounds before k. *)
Theorem C28_no_overrun acts a i c c' : Z.of_nat (length acts) < U64_MAX - 1 ->
  broken (crun cdl_new acts) = false ->
  nth_error (cs (crun cdl_new acts)) i = Some c ->
  nth_error (cs (cstep a (crun cdl_new acts))) i = Some c' -> c_round c' <> c_round c ->
  c_round c' = c_round c + 1 /\ c_live c = true /\
  (forall w, In w (ws (crun cdl_new acts)) -> cw_live w = true -> c_round c <= cw_round w).
Proof. intros S B. destruct (reach_inv acts S B) as [I SM]. exact (cdl_count _ a i c c' I). Qed.
Print Assumptions C28_no_overrun.

(** Counting down twice in a round panics rather than being counted for the next. *)
Theorem C28_double_count acts i c w : Z.of_nat (length acts) < U64_MAX - 1 ->
  broken (crun cdl_new acts) = false ->
  nth_error (cs (crun cdl_new acts)) i = Some c -> c_live c = true -> c_notify c = false ->
  In w (ws (crun cdl_new acts)) -> cw_live w = true -> cw_round w < c_round c ->
  broken (crun cdl_new (acts ++ [CCountDown i])) = true.
Proof.
  intros S B. destruct (reach_inv acts S B) as [I SM].
  assert (A : forall b l a, crun l (b ++ [a]) = cstep a (crun l b)) by (induction b; intros; cbn; auto).
  rewrite A. exact (cdl_double _ i c w I).
Qed.
Print Assumptions C28_double_count.

(** Correct use never panics. *)
Theorem C28_no_panic acts : Z.of_nat (length acts) < U64_MAX - 1 -> correct_use cdl_new acts ->
  broken (crun cdl_new acts) = false.
Proof.
  intros S C. apply (cdl_safe acts cdl_new 0 cdl_new_inv); [vm_compute; discriminate|vm_compute; discriminate|lia|exact C].
Qed.
Print Assumptions C28_no_panic.

(** No lost wake-up as long as there is a counter: if a waiter sleeps although all counters have
    counted down for its round, a notification is on its way; ... *)
Theorem C28_no_lost_wakeup_partial acts w : Z.of_nat (length acts) < U64_MAX - 1 ->
  broken (crun cdl_new acts) = false -> always_counter cdl_new acts ->
  In w (ws (crun cdl_new acts)) -> cw_pc w = CAsleep ->
  all_down (crun cdl_new acts) (cw_round w) -> notifying (crun cdl_new acts).
Proof. exact (cdl_no_lost acts w). Qed.
Print Assumptions C28_no_lost_wakeup_partial.

(** ... and once awake it returns. *)
Theorem C28_returns acts i w : Z.of_nat (length acts) < U64_MAX - 1 ->
  broken (crun cdl_new acts) = false -> some_counter (crun cdl_new acts) ->
  nth_error (ws (crun cdl_new acts)) i = Some w -> cw_pc w = CCheck ->
  all_down (crun cdl_new acts) (cw_round w) ->
  exists w', nth_error (ws (crun cdl_new (acts ++ [CStep i]))) i = Some w' /\
    cw_pc w' = CIdle /\ cw_round w' = cw_round w + 1.
Proof.
  intros S B. destruct (reach_inv acts S B) as [I SM].
  assert (A : forall b l a, crun l (b ++ [a]) = cstep a (crun l b)) by (induction b; intros; cbn; auto).
  rewrite A. exact (cdl_returns _ i w I).
Qed.
Print Assumptions C28_returns.

(** Two counters and two waiters through two rounds, with a waiter asleep, a counter dropped in
    the second round, and a waiter running ahead of the other. *)
Definition cdl_case : list cact :=
  [CCloneC 0; CCloneW 0; CWait 0; CStep 0; CCountDown 0; CCountDown 1; CNotify 1; CStep 0;
   CWait 0; CStep 0; CWait 1; CStep 1; CCountDown 0; CDropC 1; CNotify 0; CStep 0; CWait 1; CStep 1].
Example C28_case :
  broken (crun cdl_new cdl_case) = false /\
  map (fun w => (cw_pc w, cw_round w)) (ws (crun cdl_new cdl_case)) = [(CIdle, 2); (CIdle, 2)] /\
  map (fun c => (c_live c, c_round c)) (cs (crun cdl_new cdl_case)) = [(true, 2); (false, 1)] /\
  map cw_pc (ws (crun cdl_new (firstn 6 cdl_case))) = [CAsleep; CIdle] /\
  broken (crun cdl_new (firstn 6 cdl_case ++ [CCountDown 0])) = true.
Proof. repeat (split; [vm_compute; reflexivity|]). vm_compute. reflexivity. Qed.
Example C28_case_use : correct_use cdl_new cdl_case /\ always_counter cdl_new cdl_case.
Proof.
  split; [apply correct_useb_ok|apply always_counterb_ok]; vm_compute; reflexivity.
Qed.

(** Without the condition that a counter is left the wake-up can be lost: two waiters, one counter.
    The counter counts down; the first waiter returns and waits for the next round; the counter is
    dropped; the second waiter returns, which starts the next round without any counter. The first
    waiter is not woken: it sleeps for ever, although nothing is left to wait for. *)
Definition lost_case : list cact :=
  [CCloneW 0; CCountDown 0; CNotify 0; CWait 0; CStep 0; CWait 0; CStep 0; CDropC 0; CStep 0;
   CWait 1; CStep 1].
Theorem C28_no_lost_wakeup_refuted :
  exists acts i w, broken (crun cdl_new acts) = false /\ correct_use cdl_new acts /\
    nth_error (ws (crun cdl_new acts)) i = Some w /\ cw_pc w = CAsleep /\
    all_down (crun cdl_new acts) (cw_round w) /\
    must_wait (cst (crun cdl_new acts)) (cw_gen w) = false /\
    (forall later, ~ In (CSpurious i) later ->
       nth_error (ws (crun (crun cdl_new acts) later)) i = Some w).
Proof.
  exists lost_case, 0%nat, (CWaiter 1 CAsleep true 1).
  assert (D : dead (crun cdl_new lost_case)).
  { intros c I. vm_compute in I. destruct I as [<-|[]]. auto. }
  split; [vm_compute; reflexivity|]. split.
  { apply correct_useb_ok. vm_compute. reflexivity. }
  split; [vm_compute; reflexivity|]. split; [reflexivity|]. split.
  { intros c I L. apply D in I as [L' _]. congruence. }
  split; [vm_compute; reflexivity|].
  intros later N. apply dead_forever; auto.
Qed.
Print Assumptions C28_no_lost_wakeup_refuted.
