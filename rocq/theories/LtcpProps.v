(** C63: the default TCP sockets carry a stream. *)
From Verif Require Import Base LtcpModel LtcpSpec LtcpProofs LtcpProgress.

(** Whatever the network loses, repeats and reorders, whatever the congestion
    window does and whichever packets are sent again: no assertion fails, and the
    bytes written are the bytes read so far, then those the receiver can hand out,
    then the payloads of packets that the sender still keeps. *)
Theorem C63_stream : forall sndbuf rcvbuf evs, Forall good_event evs ->
  exists outs y rest, run evs (start sndbuf rcvbuf) = Some (outs, y)
    /\ written evs outs = got outs ++ waiting (y_r y) ++ concat (map p_data rest)
    /\ Forall (fun p => In p (kept (y_s y))) rest.
Proof. exact stream_law. Qed.
Print Assumptions C63_stream.

(** Three packets; the first is lost, the third arrives before the second and
    twice; the first is sent again. *)
Ltac good := repeat (apply Forall_cons; [simpl; first [exact Logic.I|lia]|]); apply Forall_nil.

Definition evs1 : list event :=
  [EWrite [1; 2; 3]; EWrite [4; 5]; EWrite [6; 7; 8]; EPull; EPull; EPull;
   EDeliver false 2; EDeliver false 1; EDeliver false 2; ERead 10;
   ETimer [2]; EPull; EDeliver false 3; ERead 2; ERead 2; ESendAck; EAck 0 []; ERead 100].

Example C63_stream_ex :
  Forall good_event evs1
  /\ option_map fst (run evs1 (start 20000 20000))
     = Some [Wrote 3; Wrote 2; Wrote 3; Quiet; Quiet; Quiet; Quiet; Quiet; Quiet; WouldBlock;
             Quiet; Quiet; Quiet; Got [1; 2]; Got [3; 4]; Quiet; Quiet; Got [5; 6; 7; 8]].
Proof. split; [good|vm_compute; reflexivity]. Qed.

(** A read returns at most what was asked, and returns less only when nothing
    is left; it fails with EWOULDBLOCK only then. *)
Theorem C63_read : forall sndbuf rcvbuf evs outs y n, Forall good_event evs ->
  run evs (start sndbuf rcvbuf) = Some (outs, y) -> 0 <= n ->
  exists res y', step (ERead n) y = Some (res, y')
    /\ (res = WouldBlock /\ waiting (y_r y') = []
        \/ exists bs, res = Got bs /\ Z.of_nat (length bs) <= n
             /\ (0 < n -> bs <> []) /\ (Z.of_nat (length bs) < n -> waiting (y_r y') = [])).
Proof. exact read_result_law. Qed.
Print Assumptions C63_read.

Example C63_read_ex :
  option_map fst
    (run [EWrite [1; 2; 3]; EPull; EDeliver false 0; ERead 0; ERead 2; ERead 2; ERead 0; ERead 2]
         (start 20000 20000))
  = Some [Wrote 3; Quiet; Quiet; Got []; Got [1; 2]; Got [3]; WouldBlock; WouldBlock].
Proof. vm_compute. reflexivity. Qed.

(** Whatever has happened, and without further writes or larger buffers, the
    network and the reading application can still bring all across: the sockets
    never get stuck. *)
Theorem C63_never_stuck : forall sndbuf rcvbuf evs, Forall good_event evs ->
  exists evs' outs y, Forall helpful evs'
    /\ run (evs ++ evs') (start sndbuf rcvbuf) = Some (outs, y)
    /\ got outs = written (evs ++ evs') outs.
Proof. exact never_stuck_law. Qed.
Print Assumptions C63_never_stuck.

(** All of the first packets are lost; the receiver keeps copies of later ones
    in a small buffer, and the sender is asked to send what has been
    acknowledged. *)
Definition evs2 : list event :=
  [EWrite (repeat 1 1460); EWrite (repeat 2 500); EWrite [3]; EPull; EPull; EPull;
   EDeliver false 2; EDeliver false 1; ERead 10; ETimer [2; 3]].

Definition evs2' : list event :=
  [EPull; EPull; EDeliver false 3; ERead 3000; EDeliver false 4; ERead 3000; ESendAck; EAck 0 [];
   EDeliver false 2; ERead 3000; ERead 3000].

Example C63_never_stuck_ex :
  Forall good_event evs2 /\ Forall helpful evs2'
  /\ exists outs y, run (evs2 ++ evs2') (start 4000 0) = Some (outs, y)
     /\ length (got outs) = 1961%nat /\ got outs = written (evs2 ++ evs2') outs.
Proof.
  split; [good|]. split; [good|]. eexists _, _. split; [vm_compute; reflexivity|].
  split; vm_compute; reflexivity.
Qed.

(** "Once all is acknowledged, the output buffer becomes empty" is false.  The
    sender sends a packet again, and the acknowledgement of the first copy arrives
    while the second waits for the network interface: when the second leaves, it
    is put into the retransmit queue, from which no acknowledgement ever removes
    it (unless it is asked for once more).  As the socket sends its FIN when this
    buffer is empty, such a connection does not close. *)
Theorem C63_buffer_drains_refuted : exists evs outs y,
  Forall good_event evs /\ run evs (start 20000 20000) = Some (outs, y)
  /\ got outs = written evs outs /\ got outs <> []
  /\ s_unacked (y_s y) = s_next (y_s y) /\ s_thr (y_s y) = [] /\ s_out (y_s y) = []
  /\ forall evs', Forall good_event evs' -> Forall (fun ev => ~ asks 2 ev) evs' ->
     exists outs' y', run evs' y = Some (outs', y') /\ 0 < out_length (y_s y').
Proof.
  exists [EWrite [1]; EPull; EDeliver false 0; ERead 10; ETimer [2]; ESendAck; EAck 0 []; EPull].
  eexists _, _.
  assert (G : Forall good_event
    [EWrite [1]; EPull; EDeliver false 0; ERead 10; ETimer [2]; ESendAck; EAck 0 []; EPull])
    by good.
  split; [exact G|]. split; [vm_compute; reflexivity|].
  split; [vm_compute; reflexivity|]. split; [vm_compute; discriminate|].
  split; [vm_compute; reflexivity|]. split; [vm_compute; reflexivity|].
  split; [vm_compute; reflexivity|].
  refine (stale_law 20000 20000 _ _ _ (Pkt 2 [1]) G _ _ _).
  - vm_compute. reflexivity.
  - simpl. auto.
  - simpl. lia.
Qed.
Print Assumptions C63_buffer_drains_refuted.

(** "A packet that is next, and fits, is handed out on arrival" is false: a
    second copy of its predecessor in the queue ends the loop. *)
Theorem C63_next_handed_out_refuted : exists evs outs y,
  Forall good_event evs /\ run evs (start 20000 20000) = Some (outs, y)
  /\ has_seq (r_next (y_r y)) (r_unord (y_r y)) = true
  /\ total (r_unord (y_r y)) + total (r_in (y_r y)) <= buf_size (r_buf (y_r y)).
Proof.
  exists [EWrite [1]; EWrite [2]; EWrite [3]; EPull; EPull; EPull;
          EDeliver false 2; EDeliver false 1; EDeliver false 1; EDeliver false 0].
  eexists _, _. split; [good|]. split; [vm_compute; reflexivity|].
  split; [vm_compute; reflexivity|vm_compute; discriminate].
Qed.
Print Assumptions C63_next_handed_out_refuted.
