(** The shared-memory channel (C30). *)
From Verif Require Import Base ChanModel ChanSpec ChanProofs.

(** The word in shared memory determines the state. *)
Theorem C30_word s : of_u32 (to_u32 s) = Some s.
Proof. exact (word_roundtrip s). Qed.
Print Assumptions C30_word.

(** Messages are received in the order sent, each once; at most one is under way. *)
Theorem C30_delivery (M : Type) (acts : list (kact M)) : polite chan_new acts ->
  sends (krun chan_new acts) = received (krun chan_new acts) \/
  exists v, sends (krun chan_new acts) = received (krun chan_new acts) ++ [v].
Proof. intros P. exact (delivery _ (krun_inv acts _ new_kinv P)). Qed.
Print Assumptions C30_delivery.

(** No assertion fails. *)
Theorem C30_no_panic (M : Type) (acts : list (kact M)) : polite chan_new acts ->
  sender (krun chan_new acts) <> SPanic /\ receiver (krun chan_new acts) <> RPanic.
Proof. intros P. exact (no_panic _ (krun_inv acts _ new_kinv P)). Qed.
Print Assumptions C30_no_panic.

(** The message is never written while it is read. *)
Theorem C30_no_race (M : Type) (acts : list (kact M)) v : polite chan_new acts ->
  sender (krun chan_new acts) = SWrite v -> receiver (krun chan_new acts) <> RRead.
Proof.
  intros P S R. destruct (krun_inv acts _ new_kinv P) as [L RC]. unfold rcv_ok in RC. rewrite R in RC. destruct RC as [_ RD].
  destruct L as [A B C|x A B C|x A B C|x A B C D|x A B C D|x A B C D F]; try congruence. destruct B; congruence.
Qed.
Print Assumptions C30_no_race.

(** A receiver does not sleep on while a message is there or the writer is closed: somebody is about
    to wake it. *)
Theorem C30_no_lost_wakeup (M : Type) (acts : list (kact M)) : polite chan_new acts ->
  receiver (krun chan_new acts) = RAsleep ->
  published (krun chan_new acts) <> received (krun chan_new acts) \/
  writer_closed (state (krun chan_new acts)) = true ->
  sender (krun chan_new acts) = SWake \/ (0 < closing (krun chan_new acts))%nat.
Proof. intros P. exact (no_lost _ (krun_inv acts _ new_kinv P)). Qed.
Print Assumptions C30_no_lost_wakeup.

(** What [receive] returns: a message only if it is the next published one; the error only if the
    writer is closed and every published message has been received. *)
Theorem C30_results (M : Type) (acts : list (kact M)) a : polite chan_new (acts ++ [a]) ->
  let c := krun chan_new acts in
  results (krun chan_new (acts ++ [a])) = results c \/
  (exists v, results (krun chan_new (acts ++ [a])) = results c ++ [Some v] /\ published c = received c ++ [v]) \/
  (results (krun chan_new (acts ++ [a])) = results c ++ [None] /\ writer_closed (state c) = true /\
   published c = received c).
Proof.
  intros P. assert (PA : forall l c, polite c (l ++ [a]) -> polite c l /\ may_send (krun c l) a).
  { induction l as [|x l IH]; intros c H; cbn in *; [tauto|]. destruct H as [H1 H2]. apply IH in H2. tauto. }
  destruct (PA acts _ P) as [P1 P2]. cbv zeta. rewrite krun_app. cbn [krun].
  exact (step_results a _ (krun_inv acts _ new_kinv P1) P2).
Qed.
Print Assumptions C30_results.

(** A receiver that is awake returns a published message, or the error after closing, in at most
    five steps of its own. *)
Theorem C30_receives (M : Type) (acts : list (kact M)) v : polite chan_new acts ->
  let c := krun chan_new acts in
  published c = received c ++ [v] -> receiving (receiver c) ->
  exists k, (k <= 5)%nat /\ results (krun c (repeat KReceiver k)) = results c ++ [Some v] /\
    receiver (krun c (repeat KReceiver k)) = RIdle.
Proof. intros P c. exact (solo_receive c v (krun_inv acts _ new_kinv P)). Qed.
Print Assumptions C30_receives.

Theorem C30_receives_closed (M : Type) (acts : list (kact M)) : polite chan_new acts ->
  let c := krun chan_new acts in
  published c = received c -> writer_closed (state c) = true -> receiving (receiver c) ->
  exists k, (k <= 2)%nat /\ results (krun c (repeat KReceiver k)) = results c ++ [None] /\
    receiver (krun c (repeat KReceiver k)) = RIdle.
Proof. intros P c. exact (solo_closed c (krun_inv acts _ new_kinv P)). Qed.
Print Assumptions C30_receives_closed.

(** A receiver sleeps, a message is sent and wakes it; a second message is published before the
    writer is closed and is still received; then the error. *)
Definition chan_case : list (kact Z) :=
  [KRecv; KReceiver; KReceiver; KReceiver; KSend 7; KSender; KSender; KSender; KSender; KReceiver;
   KReceiver; KReceiver; KReceiver; KSend 8; KSender; KSender; KRecv; KReceiver; KSender; KClose; KReceiver;
   KReceiver; KReceiver; KReceiver; KRecv; KReceiver].
Example C30_case :
  receiver (krun chan_new (firstn 8 chan_case)) = RAsleep /\
  sender (krun chan_new (firstn 8 chan_case)) = SWake /\
  published (krun chan_new (firstn 8 chan_case)) = [7] /\
  receiver (krun chan_new (firstn 18 chan_case)) = RSetBit (CState false false Writing) /\
  results (krun chan_new chan_case) = [Some 7; Some 8; None] /\ receiver (krun chan_new chan_case) = RIdle.
Proof. repeat split; vm_compute; reflexivity. Qed.
Example C30_case_use : polite chan_new chan_case.
Proof.
  unfold chan_case. cbn [polite]. repeat (match goal with |- _ /\ _ => split | |- True => exact Logic.I end).
  all: intros _; vm_compute; reflexivity.
Qed.

(** Sending while a message is pending panics, and the pending message survives. *)
Example C30_case_busy :
  let c := krun chan_new [KSend 1; KSender; KSender; KSender; KSend 2; KSender; KRecv; KReceiver; KReceiver;
                          KReceiver; KReceiver] in
  sender c = SPanic /\ results c = [Some 1].
Proof. split; vm_compute; reflexivity. Qed.
