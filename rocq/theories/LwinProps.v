(** C65: the default TCP sockets keep to the windows and to their buffers. *)
From Verif Require Import Base LtcpModel LtcpSpec LtcpProofs LwinSpec LwinProofs.

Ltac good := repeat (apply Forall_cons; [simpl; first [exact Logic.I|lia]|]); apply Forall_nil.

(** Every packet that enters the network is in a window that the receiver has
    announced. *)
Theorem C65_announced : forall sndbuf rcvbuf evs outs y, Forall good_event evs ->
  run evs (start sndbuf rcvbuf) = Some (outs, y) ->
  Forall (fun p => Exists (within p) (announced y)) (y_net y).
Proof. exact announced_law. Qed.
Print Assumptions C65_announced.

(** The receive buffer takes one packet of the largest size.  Of thirteen packets
    ten leave; after an acknowledgement with window 1 and without progress none; an
    acknowledgement of all ten lets one out. *)
Definition evs1 : list event :=
  repeat (EWrite [7]) 13 ++ repeat EPull 13
  ++ [EDeliver false 0; EFlush; ESendAck; EAck 0 []; EPull; ERead 5]
  ++ map (EDeliver false) (seq 1 9) ++ [EFlush; ERead 100]
  ++ map (EDeliver false) (seq 1 9) ++ [EFlush; ESendAck; EAck 1 []; EPull; EPull].

Example C65_announced_ex :
  Forall good_event evs1
  /\ exists outs y, run evs1 (start 20000 0) = Some (outs, y)
     /\ map p_seq (y_net y) = [2; 3; 4; 5; 6; 7; 8; 9; 10; 11; 12]
     /\ announced y = [(2, 10); (3, 1); (12, 1)].
Proof.
  split; [unfold evs1; simpl; good|]. eexists _, _. split; [vm_compute; reflexivity|].
  split; vm_compute; reflexivity.
Qed.

(** In each event the sender lets a packet out only within the smaller of the
    congestion window and the window announced with the acknowledgement it knows. *)
Theorem C65_windows : forall sndbuf rcvbuf evs outs y ev, Forall good_event evs -> good_event ev ->
  run evs (start sndbuf rcvbuf) = Some (outs, y) ->
  exists res y', step ev y = Some (res, y')
    /\ In (s_unacked (y_s y'), s_lastwin (y_s y')) (announced y')
    /\ forall p, In p (s_out (y_s y')) -> In p (s_out (y_s y))
         \/ p_seq p < s_unacked (y_s y') + Z.min (s_cwnd (y_s y')) (s_lastwin (y_s y')).
Proof. exact window_law. Qed.
Print Assumptions C65_windows.

(** With a congestion window of 3, and after it grows to 5. *)
Example C65_windows_ex :
  exists outs y y', run (ECwnd 3 :: repeat (EWrite [7]) 8) (start 20000 20000) = Some (outs, y)
    /\ map p_seq (s_out (y_s y)) = [2; 3; 4]
    /\ run [ECwnd 5; ETimer []] y = Some ([Quiet; Quiet], y')
    /\ map p_seq (s_out (y_s y')) = [2; 3; 4; 5; 6].
Proof. eexists _, _, _. repeat (split; [vm_compute; reflexivity|]). vm_compute. reflexivity. Qed.

(** A write accepts as many bytes as fit into the send buffer (of the size asked
    for last) besides all that is kept, at most 65535, and what is kept grows by
    just that. *)
Theorem C65_send_buffer : forall sndbuf rcvbuf evs outs y bytes, Forall good_event evs ->
  run evs (start sndbuf rcvbuf) = Some (outs, y) ->
  let n := Z.min (Z.min (Z.of_nat (length bytes)) 65535)
                 (Z.max 0 (opt_size (last_sndbuf sndbuf evs) - total (kept (y_s y)))) in
  exists res y', step (EWrite bytes) y = Some (res, y')
    /\ res = (if (n =? 0) && negb (Z.of_nat (length bytes) =? 0) then WouldBlock else Wrote n)
    /\ total (kept (y_s y')) = total (kept (y_s y)) + n.
Proof. exact send_buffer_law. Qed.
Print Assumptions C65_send_buffer.

(** A buffer of 2048 bytes; packets taken by the network count until they are
    acknowledged. *)
Example C65_send_buffer_ex :
  option_map fst
    (run [EWrite (repeat 1 2000); EWrite (repeat 2 100); EWrite [3]; EPull; EPull; EPull; EWrite [4];
          EDeliver false 0; EFlush; ESendAck; EAck 0 []; EWrite (repeat 5 2000); EWrite [6];
          ESndBuf 1025; EWrite [7; 8; 9]] (start 1000 20000))
  = Some [Wrote 2000; Wrote 48; WouldBlock; Quiet; Quiet; Quiet; WouldBlock;
          Quiet; Quiet; Quiet; Quiet; Wrote 1460; WouldBlock; Quiet; Wrote 2].
Proof. vm_compute. reflexivity. Qed.

(** Nothing but writes makes the sender keep more, and it keeps each packet
    once. *)
Theorem C65_kept_once : forall sndbuf rcvbuf evs outs y ev, Forall good_event evs -> good_event ev ->
  run evs (start sndbuf rcvbuf) = Some (outs, y) -> ~ is_write ev ->
  exists res y', step ev y = Some (res, y')
    /\ NoDup (map p_seq (kept (y_s y'))) /\ total (kept (y_s y')) <= total (kept (y_s y)).
Proof. exact memory_law. Qed.
Print Assumptions C65_kept_once.

Example C65_kept_once_ex :
  exists outs y, run [EWrite [1; 2]; EWrite [3]; EPull; EPull; ETimer [2; 3; 2]; EPull; ETimer [3; 2]]
                     (start 1000 1000) = Some (outs, y)
    /\ map p_seq (kept (y_s y)) = [3; 2] /\ total (kept (y_s y)) = 3.
Proof. eexists _, _. repeat (split; [vm_compute; reflexivity|]). vm_compute. reflexivity. Qed.

(** Packets are put into the receive buffer (of the size asked for last) only as
    long as they fit, and after a read the window is what is free, in packets. *)
Theorem C65_receive_buffer : forall sndbuf rcvbuf evs outs y ev, Forall good_event evs ->
  good_event ev -> run evs (start sndbuf rcvbuf) = Some (outs, y) ->
  let size := opt_size (last_rcvbuf rcvbuf (evs ++ [ev])) in
  exists res y', step ev y = Some (res, y')
    /\ total (r_in (y_r y')) <= Z.max size (total (r_in (y_r y)))
    /\ (forall n, ev = ERead n ->
        r_win (y_r y') = Z.max 0 (size - total (r_in (y_r y'))) / MSS).
Proof. exact receive_buffer_law. Qed.
Print Assumptions C65_receive_buffer.

Example C65_receive_buffer_ex :
  exists outs y, run [EWrite (repeat 1 1460); EWrite (repeat 2 1000); EPull; EPull;
                      EDeliver false 0; EDeliver false 1] (start 20000 0) = Some (outs, y)
    /\ total (r_in (y_r y)) = 1460
    /\ option_map (fun x => r_win (y_r (snd x))) (step (ERead 10) y) = Some 1
    /\ option_map (fun x => r_win (y_r (snd x))) (step (ERead 0) y) = Some 0.
Proof. eexists _, _. repeat (split; [vm_compute; reflexivity|]). vm_compute. reflexivity. Qed.

(** "The window announced fits into the receive buffer" is false: an
    acknowledgement that waits for the network interface is filled in when it
    leaves, and a packet that has arrived meanwhile has been added after the window
    was computed. *)
Theorem C65_announced_fits_refuted : exists evs outs y,
  Forall good_event evs /\ run (evs ++ [ESendAck]) (start 20000 0) = Some (outs, y)
  /\ exists a w, last (y_acks y) (0, 0) = (a, w)
     /\ opt_size 0 - total (r_in (y_r y)) < w * MSS.
Proof.
  exists [EWrite (repeat 1 1460); EPull; EFlush; EDeliver false 0]. eexists _, _.
  split; [good|]. split; [vm_compute; reflexivity|].
  eexists _, _. split; [vm_compute; reflexivity|vm_compute; reflexivity].
Qed.
Print Assumptions C65_announced_fits_refuted.
