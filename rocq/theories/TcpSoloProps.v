(** C34 and C38: one TCP connection, whatever packets arrive. *)
From Verif Require Import Base SeqModel SeqSpec TcpBufModel TcpBufSpec TcpConnModel TcpConnSpec TcpSoloSpec TcpSoloProofs.

(** Every packet sent has at most 1500 bytes of payload, its window field fits 16 bits, and what it
    carries lies in a window that arrived: it ends at most [w] after [a], where [a] was acknowledged by a packet
    that arrived (or is the initial sequence number), and [w] is the initial window or one that a packet granted. *)
Theorem C34_segment : forall iss sc x x' h p, is_seq iss -> alone iss sc x -> sact x XPop = Some x' -> o_out x' = o_out x ++ [(h, p)] ->
  zlen (concat p) <= 1500 /\ 0 <= h_win h <= 65535 /\
  (pkt_syms h p <> [] -> exists a w, (a = iss \/ exists h' p', In (h', p') (o_in x) /\ h_ack h' = true /\ h_acknum h' = a) /\
     (w = 2048 \/ exists h' p', In (h', p') (o_in x) /\ w = grant sc (o_in x) h') /\
     (h_seq h - a) mod 4294967296 + zlen (pkt_syms h p) <= w).
Proof. exact seg_main. Qed.
Print Assumptions C34_segment.

(** Every packet acknowledges exactly what was accepted, and the window it announces plus the bytes
    that the application has not read is at most the buffer. *)
Theorem C34_announces : forall iss sc x x' h p, is_seq iss -> alone iss sc x -> sact x XPop = Some x' -> o_out x' = o_out x ++ [(h, p)] ->
  h_ack h = negb (is_none (opening (o_in x))) /\
  (forall h0, opening (o_in x) = Some h0 -> c_reset (o_conn x) = false -> h_acknum h = (h_seq h0 + 1 + o_taken x + b2z (received_fin (o_conn x))) mod 4294967296) /\
  0 <= announced sc (o_in x) h /\ announced sc (o_in x) h + (o_taken x - zlen (o_got x)) <= 100000.
Proof. exact ack_main. Qed.
Print Assumptions C34_announces.

(** The connection never holds more than 100000 bytes that were not read. *)
Theorem C34_buffer : forall iss sc x, is_seq iss -> alone iss sc x -> 0 <= o_taken x - zlen (o_got x) <= 100000.
Proof. exact buffer_main. Qed.
Print Assumptions C34_buffer.

(** Byte number [i] that the application reads arrived in a packet, at the place that sequence number
    [i + 1] after the first SYN's has. *)
Theorem C34_in_place : forall iss sc x i b, is_seq iss -> alone iss sc x -> nth_error (o_got x) i = Some b ->
  exists h0 h p j, opening (o_in x) = Some h0 /\ In (h, p) (o_in x) /\ nth_error (pkt_syms h p) j = Some (SByte b) /\
    (h_seq h + Z.of_nat j) mod 4294967296 = (h_seq h0 + 1 + Z.of_nat i) mod 4294967296.
Proof. exact place_main. Qed.
Print Assumptions C34_in_place.

(** The end of the stream is believed only if a packet carried it, at the place right after the
    accepted bytes. *)
Theorem C34_end_in_place : forall iss sc x, is_seq iss -> alone iss sc x -> received_fin (o_conn x) = true ->
  exists h0 h p j, opening (o_in x) = Some h0 /\ In (h, p) (o_in x) /\ nth_error (pkt_syms h p) j = Some SFin /\
    (h_seq h + Z.of_nat j) mod 4294967296 = (h_seq h0 + 1 + o_taken x) mod 4294967296.
Proof. exact fin_main. Qed.
Print Assumptions C34_end_in_place.

(** A packet in order that fits the buffer is accepted whole, with the end of the stream that it brings. *)
Theorem C34_accepts : forall iss sc x h p x' h0, is_seq iss -> alone iss sc x -> wire h p -> opening (o_in x) = Some h0 -> c_reset (o_conn x) = false -> h_rst h = false -> h_syn h = false ->
  h_seq h = (h_seq h0 + 1 + o_taken x) mod 4294967296 -> received_fin (o_conn x) = false -> c_rst_if_payload (o_conn x) = false ->
  zlen (concat p) + b2z (h_fin h) <= Z.min 65535 (100000 - (o_taken x - zlen (o_got x))) -> sact x (XPush h p) = Some x' ->
  c_reset (o_conn x') = false /\ o_taken x' = o_taken x + zlen (concat p) /\ received_fin (o_conn x') = h_fin h.
Proof. exact accepts_main. Qed.
Print Assumptions C34_accepts.

(** A RST is obeyed only if its sequence number is exactly the next one expected; in any case it
    changes neither what was received nor what is to be sent. *)
Theorem C33_reset_exact : forall iss sc x h p x' h0, is_seq iss -> alone iss sc x -> opening (o_in x) = Some h0 -> h_rst h = true -> sact x (XPush h p) = Some x' ->
  c_reset (o_conn x) = false /\ (c_reset (o_conn x') = true <-> h_seq h = (h_seq h0 + 1 + o_taken x + b2z (received_fin (o_conn x))) mod 4294967296) /\ o_taken x' = o_taken x /\ o_wrote x' = o_wrote x /\ c_sq (o_conn x') = c_sq (o_conn x).
Proof. exact reset_main. Qed.
Print Assumptions C33_reset_exact.

(** A packet makes no connection panic that was not reset, provided it is a SYN or RST, or SYNs have
    been sent both ways (without window scaling: a SYN has arrived). *)
Theorem C38_push_partial : forall iss sc x h p, is_seq iss -> alone iss sc x -> wire h p -> c_reset (o_conn x) = false ->
  h_rst h = true \/ h_syn h = true \/ heard x /\ (sc = false \/ spoke x) -> sact x (XPush h p) <> None.
Proof. exact push_total. Qed.
Print Assumptions C38_push_partial.

(** Asking for a packet panics neither once SYNs have been sent both ways, nor before a SYN has
    arrived, nor when all that arrived acknowledges nothing and grants a window, unless a reset is to be sent. *)
Theorem C38_pop_partial : forall iss sc x, is_seq iss -> alone iss sc x ->
  (sc = false \/ heard x /\ spoke x) \/ c_need_rst (o_conn x) = false /\ (~ heard x \/ forall h p, In (h, p) (o_in x) -> h_ack h = false /\ 0 < h_win h) ->
  sact x XPop <> None.
Proof. exact pop_main. Qed.
Print Assumptions C38_pop_partial.

(** The application's calls do not panic. *)
Theorem C38_calls : forall iss sc x, is_seq iss -> alone iss sc x ->
  (forall data, o_shut x = false -> sact x (XWrite data) <> None) /\ (o_shut x = false -> sact x XShut <> None) /\ (forall n, 0 <= n <= U32_MAX -> heard x -> sact x (XRead n) <> None).
Proof. exact user_main. Qed.
Print Assumptions C38_calls.

(** ** Cases *)
Definition pkt (syn fin rst ack : bool) (seq acknum win : Z) (scale : option Z) : header :=
  {| h_src := 2; h_dst := 1; h_syn := syn; h_fin := fin; h_rst := rst; h_ack := ack; h_seq := seq; h_acknum := acknum; h_win := win; h_scale := scale |}.
(** A strange peer: its first data overlaps, arrives after a gap, wraps around, is repeated with
    other bytes, and acknowledges what was never sent. *)
Definition strange : list sop :=
  [XPop; XPush (pkt true false false true 4294967294 8 300 (Some 20)) []; XPop;
   XWrite [1; 2; 3; 4; 5; 6; 7; 8; 9];
   XPush (pkt false false false true 4294967295 8 3 None) [[10; 11]; [12]];
   XPush (pkt false false false true 6 4000 3 None) [[66]];
   XPush (pkt false false false true 0 4 1 None) [[99; 98; 13; 14]];
   XPush (pkt false false false true 3 8 2 None) [[97; 96]]; XRead 3].
Example C34_strange : exists x, alone 7 true x /\
  (o_got x = [10; 11; 12] /\ o_taken x = 6 /\ offered (o_in x) = Some 14 /\
   match sact x XPop with
   | Some x' => match skipn (length (o_out x)) (o_out x') with
                | [(h, p)] => p = [[1; 2; 3; 4; 5; 6; 7; 8; 9]] /\ h_seq h = 8 /\ h_acknum h = 5 /\ h_win h = 49998 /\ announced true (o_in x) h = 99996
                | _ => False
                end
   | None => False
   end).
Proof. apply (srun_case _ _ strange). vm_compute. repeat split; reflexivity. Qed.
Example C33_reset_case : exists x, alone 7 true x /\
  (opening (o_in x) <> None /\ match sact x (XPush (pkt false false true false 6 0 0 None) []), sact x (XPush (pkt false false true false 5 0 0 None) []) with
                               | Some x1, Some x2 => c_reset (o_conn x1) = false /\ c_reset (o_conn x2) = true
                               | _, _ => False
                               end).
Proof. apply (srun_case _ _ strange). vm_compute. repeat split; discriminate. Qed.
(** A FIN after a gap is not believed, one in its place is. *)
Example C34_end_case : exists x, alone 7 true x /\
  match sact x (XPush (pkt false true false true 6 8 2 None) []), sact x (XPush (pkt false true false true 4 8 2 None) [[3]]) with
  | Some x1, Some x2 => received_fin (o_conn x1) = false /\ received_fin (o_conn x2) = true /\ o_taken x2 = 6
  | _, _ => False
  end.
Proof. apply (srun_case _ _ strange). vm_compute. repeat split; discriminate. Qed.
(** The hypotheses of [C34_accepts]; the packet arrives with two buffers. *)
Example C34_accepts_case : exists x, alone 7 true x /\
  (opening (o_in x) = Some (pkt true false false true 4294967294 8 300 (Some 20)) /\ c_reset (o_conn x) = false /\ (4294967294 + 1 + o_taken x) mod 4294967296 = 5 /\ received_fin (o_conn x) = false /\ c_rst_if_payload (o_conn x) = false /\
   100000 - (o_taken x - zlen (o_got x)) = 99997 /\
   match sact x (XPush (pkt false true false true 5 8 2 None) [[3]; [4; 5]]) with Some x' => o_taken x' = 9 | None => False end).
Proof. apply (srun_case _ _ strange). vm_compute. repeat split; reflexivity. Qed.
(** The peer acknowledges data before it was sent; the connection skips it. *)
Example C34_skips : exists x, alone 7 false x /\
  (o_wrote x = [1; 2; 3; 4; 5] /\
   match sact x XPop with
   | Some x' => match skipn (length (o_out x)) (o_out x') with
                | [(h, p)] => p = [] /\ h_seq h = 13
                | _ => False
                end
   | None => False
   end).
Proof.
  apply (srun_case _ _ [XPop; XPush (pkt true false false true 100 8 1000 None) []; XPop; XWrite [1; 2; 3; 4; 5]; XPush (pkt false false false true 101 11 1000 None) [[1]]]).
  vm_compute. repeat split; reflexivity.
Qed.

(** ** Panics *)
(** The first packet that reaches a new connection is not a SYN. *)
Theorem C38_not_syn_refuted : exists x h p, alone 0 true x /\ spoke x /\ wire h p /\ c_reset (o_conn x) = false /\ sact x (XPush h p) = None.
Proof.
  enough (exists x, alone 0 true x /\ (existsb (fun hp => h_syn (fst hp)) (o_out x) = true /\ c_reset (o_conn x) = false /\ sact x (XPush (pkt false false false true 5 1 1000 None) []) = None)) as (x & A & I & B & C).
  { exists x, (pkt false false false true 5 1 1000 None), []. split; [exact A|]. split; [|split; [|auto]].
    - apply existsb_exists in I. destruct I as ((h & p) & I & E). exists h, p. auto.
    - apply (permitsb_ok x (XPush _ _)). reflexivity. }
  apply (srun_case _ _ [XPop]). vm_compute. repeat split; auto.
Qed.
Print Assumptions C38_not_syn_refuted.
(** A SYN with a zero window arrives at a new connection, which is then asked for a packet. *)
Theorem C38_zero_window_refuted : exists x, alone 0 true x /\ heard x /\ c_need_rst (o_conn x) = false /\ sact x XPop = None.
Proof. apply (srun_case _ _ [XPush (pkt true false false false 5 0 0 None) []] (fun x => heard x /\ c_need_rst (o_conn x) = false /\ sact x XPop = None)). vm_compute. repeat split; auto; discriminate. Qed.
Print Assumptions C38_zero_window_refuted.
(** A SYN that acknowledges a SYN that was not sent yet. *)
Theorem C38_early_ack_refuted : exists x, alone 0 true x /\ heard x /\ c_need_rst (o_conn x) = false /\ sact x XPop = None.
Proof. apply (srun_case _ _ [XPush (pkt true false false true 5 1 1000 None) []] (fun x => heard x /\ c_need_rst (o_conn x) = false /\ sact x XPop = None)). vm_compute. repeat split; auto; discriminate. Qed.
Print Assumptions C38_early_ack_refuted.
(** A packet that follows the SYN before the connection's own SYN was sent. *)
Theorem C38_early_data_refuted : exists x h p, alone 0 true x /\ heard x /\ wire h p /\ c_reset (o_conn x) = false /\ sact x (XPush h p) = None.
Proof.
  enough (exists x, alone 0 true x /\ (heard x /\ c_reset (o_conn x) = false /\ sact x (XPush (pkt false false false false 6 0 1000 None) [[1]]) = None)) as (x & A & I & B & C).
  { exists x, (pkt false false false false 6 0 1000 None), [[1]]. split; [exact A|]. split; [exact I|]. split; [|auto]. apply (permitsb_ok x (XPush _ _)). reflexivity. }
  apply (srun_case _ _ [XPush (pkt true false false false 5 0 1000 None) []] (fun x => heard x /\ c_reset (o_conn x) = false /\ sact x (XPush (pkt false false false false 6 0 1000 None) [[1]]) = None)). vm_compute. repeat split; auto; discriminate.
Qed.
Print Assumptions C38_early_data_refuted.
(** The application aborts after a SYN arrived and before the answer was sent. *)
Theorem C38_early_abort_refuted : exists x, alone 0 true x /\ heard x /\ sact x XPop = None.
Proof. apply (srun_case _ _ [XPush (pkt true false false false 5 0 1000 None) []; XAbort] (fun x => heard x /\ sact x XPop = None)). vm_compute. repeat split; auto; discriminate. Qed.
Print Assumptions C38_early_abort_refuted.
