(** C33: TCP delivers a prefix of the sent bytes. *)
From Verif Require Import Base SeqModel SeqSpec TcpBufModel TcpConnModel TcpNetSpec TcpNetProofs TcpFlowProofs.

(** Whatever the network does with the packets, what an application read is a prefix of what the
    other one wrote. *)
Theorem C33_prefix : forall ix iy sx sy b x y, is_seq ix -> is_seq iy -> history ix iy sx sy b x y ->
  (exists rest, e_wrote x = e_got y ++ rest) /\ (exists rest, e_wrote y = e_got x ++ rest).
Proof. exact prefix_main. Qed.
Print Assumptions C33_prefix.

(** The end of the stream is only seen when the writer shut down; with nothing left in the buffer
    everything was read. *)
Theorem C33_end_of_stream : forall ix iy sx sy b x y, is_seq ix -> is_seq iy -> history ix iy sx sy b x y -> received_fin (e_conn y) = true ->
  e_shut x = true /\ (recv_has_data (e_conn y) = false -> e_got y = e_wrote x).
Proof. exact fin_main. Qed.
Print Assumptions C33_end_of_stream.

(** A writer that saw its FIN acknowledged knows that the reader has the end of the stream. *)
Theorem C33_acknowledged : forall ix iy sx sy b x y, is_seq ix -> is_seq iy -> history ix iy sx sy b x y ->
  fin_was_acked (e_conn x) = true -> received_fin (e_conn y) = true.
Proof. exact acked_main. Qed.
Print Assumptions C33_acknowledged.

(** Unless an application resets the connection, no packet makes an endpoint reset it. *)
Theorem C33_no_reset : forall ix iy sx sy x y, is_seq ix -> is_seq iy -> history ix iy sx sy false x y ->
  c_reset (e_conn x) = false /\ forall s, In s (e_out x) -> h_rst (s_h s) = false.
Proof. exact no_reset_main. Qed.
Print Assumptions C33_no_reset.

(** With the same scaling option on both sides no step panics, except: reading before a SYN came;
    sending a RST before the scaling is negotiated; and a packet that comes after a reset, or that
    overtakes the SYN. *)
Theorem C33_no_panic : forall ix iy s b x y o, is_seq ix -> is_seq iy -> history ix iy s s b x y -> allowed x y o ->
  match o with
  | ORead _ => c_recv (e_conn x) <> None
  | OPop => c_need_rst (e_conn x) = true -> is_configured (c_ws (e_conn x)) = true
  | OPush s => c_reset (e_conn x) = false /\ (c_recv (e_conn x) <> None \/ h_syn (s_h s) = true \/ h_rst (s_h s) = true)
  | _ => True
  end -> act x y o <> None.
Proof. exact no_panic_all. Qed.
Print Assumptions C33_no_panic.

(** Streams shorter than the sequence space need no condition on the age of packets. *)
Theorem C33_short_streams : forall ix iy sx sy b x y s, is_seq ix -> is_seq iy -> history ix iy sx sy b x y -> In s (e_out y) ->
  zlen (e_wrote x) <= 4294967296 - 300000 -> zlen (e_wrote y) <= 4294967296 - 300000 -> allowed x y (OPush s).
Proof. intros ix iy sx sy b x y s IX IY H IN LX LY. split; [exact IN|]. exact (short_fresh ix iy sx sy b x y s IX IY H IN LX LY). Qed.
Print Assumptions C33_short_streams.

(** A connection over the wrap-around of the sequence numbers: packets are lost, repeated and come in
    the wrong order. *)
Definition demo : list (bool * cmd) :=
  [(true, CPop); (false, CPush 0); (false, CPop); (true, CPush 0); (true, CPop); (false, CPush 1);
   (true, CWrite [1; 2; 3]); (true, CPop); (true, CWrite [4; 5]); (true, CPop);
   (false, CPush 3); (false, CRead 10); (false, CPush 2); (false, CRead 2); (false, CPush 2); (false, CPop); (false, CPush 3);
   (true, CShut); (true, CPop); (false, CPush 0); (false, CPush 4); (false, CPush 4); (false, CRead 1); (false, CRead 10); (false, CPop); (true, CPush 1); (true, CPush 2); (true, CPush 1)].
Example C33_case : exists x y, history 4294967294 7 true true false x y /\ e_wrote x = [1; 2; 3; 4; 5] /\ e_got y = [1; 2; 3; 4; 5] /\
  received_fin (e_conn y) = true /\ fin_was_acked (e_conn x) = true /\ length (e_out x) = 5%nat.
Proof. apply (run_case _ _ _ _ demo). vm_compute. repeat split; reflexivity. Qed.

(** ** Where it fails *)
(** Both sides open at the same time, and the acknowledgement of the first overtakes its SYN: the
    code panics. *)
Theorem C33_overtaken_syn_refuted : exists x y s, history 0 0 true true false x y /\ allowed x y (OPush s) /\ c_reset (e_conn x) = false /\ act x y (OPush s) = None.
Proof. apply (run_push_case _ _ _ _ [(true, CPop); (false, CPop); (false, CPush 0); (false, CPop)] _ 1). vm_compute. repeat split; reflexivity. Qed.
Print Assumptions C33_overtaken_syn_refuted.

(** An endpoint that got a SYN, has not answered yet, and is reset by its application panics when it
    should send the RST. *)
Theorem C33_early_reset_refuted : exists x y, history 0 0 true true true x y /\ act x y OPop = None.
Proof. apply (run_case _ _ _ _ [(false, CPop); (true, CPush 0); (true, CAbort)]). vm_compute. repeat split; reflexivity. Qed.
Print Assumptions C33_early_reset_refuted.

(** With window scaling on one side only, data before the handshake is over makes the other side
    panic. *)
Theorem C33_mixed_scaling_refuted : exists x y s, history 0 0 true false false x y /\ allowed x y (OPush s) /\ ((exists q, c_recv (e_conn x) = Some q) /\ c_reset (e_conn x) = false) /\ act x y (OPush s) = None.
Proof. apply (run_push_case _ _ _ _ [(false, CPop); (false, CWrite [1]); (false, CPop); (true, CPush 0)] _ 1). vm_compute. split; [reflexivity|]. split; [split; [eexists; reflexivity|reflexivity]|split; reflexivity]. Qed.
Print Assumptions C33_mixed_scaling_refuted.

(** A write whose source fails half way reports an error, but part of the data is sent. *)
Theorem C33_failed_write_refuted : exists c data n c', conn_new 1 2 0 true = Some c /\ conn_send c data n = Some (c', SIo) /\ sq_len (c_sq c') = 10001.
Proof.
  assert (E : match conn_new 1 2 0 true with Some c => match conn_send c (repeat 7 (Z.to_nat 10001)) 12000 with Some (c', SIo) => sq_len (c_sq c') = 10001 | _ => False end | None => False end) by (vm_compute; reflexivity).
  destruct (conn_new 1 2 0 true) as [c|]; [|easy]. exists c, (repeat 7 (Z.to_nat 10001)), 12000. destruct (conn_send c _ 12000) as [(c', [n| |])|]; try easy. exists c'. auto.
Qed.
Print Assumptions C33_failed_write_refuted.

(** A read whose destination fails loses data. *)
Theorem C33_failed_read_refuted : exists x y c, history 0 0 true true false x y /\ e_got y = [] /\ e_wrote x = [1; 2; 3] /\
  conn_recv (e_conn y) (Some 1) 3 = Some (c, RIo [1]) /\ recv_has_data c = false.
Proof.
  destruct (run_case 0 0 true true [(true, CPop); (false, CPush 0); (false, CPop); (true, CPush 0); (true, CWrite [1; 2; 3]); (true, CPop); (false, CPush 1)] false
    (fun x y => e_got y = [] /\ e_wrote x = [1; 2; 3] /\ match conn_recv (e_conn y) (Some 1) 3 with Some (c, RIo [1]) => recv_has_data c = false | _ => False end)) as (x & y & H & G & W & R).
  - vm_compute. repeat split; reflexivity.
  - exists x, y. destruct (conn_recv (e_conn y) (Some 1) 3) as [(c, [| |[|[|[| |]|] [|]]])|]; try easy. exists c. auto.
Qed.
Print Assumptions C33_failed_read_refuted.
