(** C64: the congestion window of the default TCP socket. *)
From Coq Require Import ZArith List Lia.
From Verif Require Import Base RenoModel RenoSpec RenoProofs.
Import ListNotations.
Local Open Scope Z_scope.

Ltac small_list := split; [repeat (apply Forall_cons; [simpl; lia|]); apply Forall_nil|vm_compute; reflexivity].

(** Whatever is reported, every report is dealt with, the window is never zero,
    and it is bounded by what was acknowledged. *)
Theorem C64_bounds : forall evs, small evs ->
  exists s, run evs init = Some s /\ 1 <= cwnd s <= 10 + weights evs.
Proof. exact bounds_law. Qed.
Print Assumptions C64_bounds.

Definition evs1 : list event :=
  [Acked 3; Acked 100; Dup; Dup; Dup; Dup; Acked 20; Acked 300; Timeout; Acked 7; Acked 90; Dup].

Example C64_bounds_ex : small evs1
  /\ option_map cwnd (run evs1 init) = Some 32
  /\ map (fun k => option_map cwnd (run (firstn k evs1) init)) (seq 0 12)
     = map Some [1; 4; 104; 104; 104; 56; 57; 53; 58; 10; 17; 32].
Proof. split; [small_list|split; vm_compute; reflexivity]. Qed.

(** One acknowledgement of many packets is worth as much as many acknowledgements
    of the same packets. *)
Theorem C64_batching : forall evs a b, 0 <= a -> 0 <= b -> small (evs ++ [Acked (a + b)]) ->
  exists s, run (evs ++ [Acked a; Acked b]) init = Some s
            /\ run (evs ++ [Acked (a + b)]) init = Some s.
Proof. exact batching_law. Qed.
Print Assumptions C64_batching.

Example C64_batching_ex : small (evs1 ++ [Acked (70 + 90)])
  /\ option_map cwnd (run (evs1 ++ [Acked 70; Acked 90]) init) = Some 37.
Proof. split; [small_list|vm_compute; reflexivity]. Qed.

(** In congestion avoidance the window grows by one for each window of packets
    acknowledged. *)
Theorem C64_avoid_growth : forall evs ns s, small (evs ++ acked ns) -> run evs init = Some s ->
  phase_of s = CongAvoid ->
  exists s' r0, run (evs ++ acked ns) init = Some s' /\ phase_of s' = CongAvoid
    /\ 0 <= r0 < cwnd s
    /\ exists r, one_per_window (cwnd s) (r0 + zsum ns) (cwnd s') r.
Proof. exact avoid_growth_law. Qed.
Print Assumptions C64_avoid_growth.

Example C64_avoid_growth_ex : small (evs1 ++ acked [20; 30; 200])
  /\ option_map phase_of (run evs1 init) = Some CongAvoid
  /\ option_map cwnd (run (evs1 ++ acked [20; 30; 200]) init) = Some 39
  /\ windows 32 7 = 245 /\ windows 32 8 = 284.
Proof. split; [small_list|repeat split; vm_compute; reflexivity]. Qed.

(** In slow start it grows by one for each packet acknowledged ... *)
Theorem C64_slow_start_growth : forall evs ns s, small (evs ++ acked ns) -> run evs init = Some s ->
  phase_of s = SlowStart -> cwnd s + zsum ns < ssthresh s ->
  exists s', run (evs ++ acked ns) init = Some s' /\ phase_of s' = SlowStart
    /\ cwnd s' = cwnd s + zsum ns.
Proof. exact start_growth_law. Qed.
Print Assumptions C64_slow_start_growth.

Example C64_slow_start_growth_ex : small ([Acked 5; Acked 200] ++ acked [1; 3; 40])
  /\ option_map cwnd (run [Acked 5; Acked 200] init) = Some 206
  /\ option_map cwnd (run ([Acked 5; Acked 200] ++ acked [1; 3; 40]) init) = Some 250.
Proof. split; [small_list|split; vm_compute; reflexivity]. Qed.

(** ... up to the threshold, and from there on as in congestion avoidance. *)
Theorem C64_threshold : forall evs ns s, small (evs ++ acked ns) -> run evs init = Some s ->
  phase_of s = SlowStart -> ns <> [] -> ssthresh s <= cwnd s + zsum ns ->
  exists s' r, run (evs ++ acked ns) init = Some s' /\ phase_of s' = CongAvoid
    /\ one_per_window (ssthresh s) (cwnd s + zsum ns - ssthresh s) (cwnd s') r.
Proof. exact start_cross_law. Qed.
Print Assumptions C64_threshold.

Example C64_threshold_ex : small ([Acked 99; Timeout] ++ acked [20; 60; 100])
  /\ option_map ssthresh (run [Acked 99; Timeout] init) = Some 51
  /\ option_map cwnd (run ([Acked 99; Timeout] ++ acked [20; 60; 100]) init) = Some 53.
Proof. split; [small_list|split; vm_compute; reflexivity]. Qed.

(** The third duplicate acknowledgement halves the window (the first two leave it
    alone), and every further one lets one more packet out; the next new
    acknowledgement ends this with half of the window before. *)
Theorem C64_recovery : forall evs k n,
  small (evs ++ [Dup; Dup; Dup] ++ repeat Dup k ++ [Acked n]) -> no_dups evs ->
  exists s s1 s2, run evs init = Some s
    /\ option_map cwnd (run (evs ++ [Dup]) init) = Some (cwnd s)
    /\ option_map cwnd (run (evs ++ [Dup; Dup]) init) = Some (cwnd s)
    /\ run (evs ++ [Dup; Dup; Dup] ++ repeat Dup k) init = Some s1
    /\ cwnd s1 = cwnd s / 2 + 4 + Z.of_nat k
    /\ run (evs ++ [Dup; Dup; Dup] ++ repeat Dup k ++ [Acked n]) init = Some s2
    /\ exists r, one_per_window (cwnd s / 2 + 1) n (cwnd s2) r.
Proof. exact three_dups_law. Qed.
Print Assumptions C64_recovery.

(** The second recovery of a connection. *)
Definition evs2 : list event := [Acked 99; Dup; Dup; Dup; Dup] ++ [Acked 60] ++ acked [7; 1].

Example C64_recovery_ex : small (evs2 ++ [Dup; Dup; Dup] ++ repeat Dup 5 ++ [Acked 60])
  /\ no_dups evs2
  /\ option_map cwnd (run evs2 init) = Some 52
  /\ option_map cwnd (run (evs2 ++ [Dup; Dup; Dup] ++ repeat Dup 5) init) = Some 35
  /\ option_map cwnd (run (evs2 ++ [Dup; Dup; Dup] ++ repeat Dup 5 ++ [Acked 60]) init)
     = Some 29.
Proof.
  split; [small_list|]. split; [|repeat split; vm_compute; reflexivity].
  right. right. exists [Acked 99; Dup; Dup; Dup; Dup]. eexists. exists 60, [7; 1].
  split; [reflexivity|]. split; [vm_compute; reflexivity|discriminate].
Qed.

(** Up to two duplicate acknowledgements make no difference, then or later. *)
Theorem C64_two_duplicates : forall evs m ns,
  (m <= 2)%nat -> small (evs ++ repeat Dup m ++ acked ns) -> no_dups evs ->
  option_map cwnd (run (evs ++ repeat Dup m ++ acked ns) init)
  = option_map cwnd (run (evs ++ acked ns) init).
Proof. exact two_dups_law. Qed.
Print Assumptions C64_two_duplicates.

Example C64_two_duplicates_ex : small (evs2 ++ repeat Dup 2 ++ acked [44; 3; 70])
  /\ no_dups evs2
  /\ option_map cwnd (run (evs2 ++ repeat Dup 2 ++ acked [44; 3; 70]) init) = Some 54.
Proof.
  split; [small_list|]. split; [|vm_compute; reflexivity].
  right. right. exists [Acked 99; Dup; Dup; Dup; Dup]. eexists. exists 60, [7; 1].
  split; [reflexivity|]. split; [vm_compute; reflexivity|discriminate].
Qed.

(** After a timeout the window starts again at ten, with slow start up to half of
    the window before. *)
Theorem C64_timeout : forall evs ns s, small (evs ++ [Timeout] ++ acked ns) ->
  run evs init = Some s ->
  exists s', run (evs ++ [Timeout] ++ acked ns) init = Some s'
    /\ (10 + zsum ns < cwnd s / 2 + 1 -> cwnd s' = 10 + zsum ns)
    /\ (ns <> [] -> cwnd s / 2 + 1 <= 10 + zsum ns ->
        exists r, one_per_window (cwnd s / 2 + 1) (10 + zsum ns - (cwnd s / 2 + 1)) (cwnd s') r).
Proof. exact timeout_law. Qed.
Print Assumptions C64_timeout.

Example C64_timeout_ex : small ([Acked 99] ++ [Timeout] ++ acked [4; 30])
  /\ option_map cwnd (run ([Acked 99] ++ [Timeout]) init) = Some 10
  /\ option_map cwnd (run ([Acked 99] ++ [Timeout] ++ acked [4; 30]) init) = Some 44
  /\ option_map cwnd (run ([Acked 99] ++ [Timeout] ++ acked [4; 30; 7; 52]) init) = Some 52.
Proof. split; [small_list|repeat split; vm_compute; reflexivity]. Qed.

(** ** What does not hold *)

(** The window is halved by three duplicate acknowledgements although each of them
    is followed by a new acknowledgement (in congestion avoidance the count is not
    reset). *)
Theorem C64_three_in_a_row_refuted : exists evs s s', small (evs ++ [Dup])
  /\ run evs init = Some s
  /\ run (evs ++ [Dup]) init = Some s'
  /\ (exists n evs0, evs = evs0 ++ [Dup; Acked 10; Dup; Acked n] /\ 0 < n)
  /\ cwnd s = 51 /\ cwnd s' = 29.
Proof.
  exists [Acked 99; Timeout; Acked 41; Dup; Acked 10; Dup; Acked 10].
  do 2 eexists. split; [small_list|].
  split; [vm_compute; reflexivity|]. split; [vm_compute; reflexivity|].
  split; [exists 10, [Acked 99; Timeout; Acked 41]; split; [reflexivity|lia]|].
  split; reflexivity.
Qed.
Print Assumptions C64_three_in_a_row_refuted.

(** A timeout may make the window larger. *)
Theorem C64_timeout_reduces_refuted : exists evs s s', small (evs ++ [Timeout])
  /\ run evs init = Some s /\ run (evs ++ [Timeout]) init = Some s' /\ cwnd s < cwnd s'.
Proof.
  exists [Acked 2]. do 2 eexists. split; [small_list|].
  split; [vm_compute; reflexivity|]. split; [vm_compute; reflexivity|]. reflexivity.
Qed.
Print Assumptions C64_timeout_reduces_refuted.

(** A new acknowledgement outside of fast recovery may make it smaller. *)
Theorem C64_ack_never_shrinks_refuted : exists evs n s s', small (evs ++ [Acked n])
  /\ run evs init = Some s /\ run (evs ++ [Acked n]) init = Some s'
  /\ phase_of s <> FastRecovery /\ cwnd s' < cwnd s.
Proof.
  exists [Acked 2; Timeout], 1. do 2 eexists. split; [small_list|].
  split; [vm_compute; reflexivity|]. split; [vm_compute; reflexivity|].
  split; [discriminate|reflexivity].
Qed.
Print Assumptions C64_ack_never_shrinks_refuted.
