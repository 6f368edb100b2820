(** C34: TCP respects the peer's window. *)
From Verif Require Import Base SeqModel SeqSpec TcpBufModel TcpConnModel TcpConnSpec TcpNetSpec TcpNetProofs TcpFlowSpec TcpFlowProofs.

(** With a network that keeps the order of the packets (it may lose some), an endpoint never has more
    than 100000 bytes under way or unread, and what it sends is a prefix of what was written. *)
Theorem C34_flow_control : forall ix iy sx sy lossy b n m x y, is_seq ix -> is_seq iy -> inorder ix iy sx sy lossy b n m x y ->
  zlen (sent_bytes x) <= zlen (e_got y) + 100000 /\ exists rest, e_wrote x = sent_bytes x ++ rest.
Proof. exact flow_main. Qed.
Print Assumptions C34_flow_control.

(** If no packet is lost either, everything that is sent fits: no packet panics and each is accepted
    as a whole. *)
Theorem C34_all_accepted : forall ix iy sc n m x y s, is_seq ix -> is_seq iy -> inorder ix iy sc sc false false n m x y -> nth_error (e_out y) n = Some s ->
  exists c', push_packet (e_conn x) (s_h s) (s_p s) = Some (c', zlen (concat (s_p s))).
Proof. intros ix iy sc n m x y s IX IY H E. exact (lossless_main ix iy sc false n m x y s IX IY H eq_refl E). Qed.
Print Assumptions C34_all_accepted.

(** And a packet with data, SYN or FIN stays inside the window that the most recent packet from the
    other side announced. *)
Theorem C34_latest_window : forall ix iy sx sy n m x y x' k s, is_seq ix -> is_seq iy -> inorder ix iy sx sy false false (S n) m x y -> nth_error (e_out y) n = Some k ->
  act x y OPop = Some x' -> e_out x' = e_out x ++ [s] -> pkt_syms (s_h s) (s_p s) <> [] ->
  (h_seq (s_h s) - ack_from ix k) mod 4294967296 + zlen (pkt_syms (s_h s) (s_p s)) <= window_of (sx && sy) k.
Proof. exact window_main. Qed.
Print Assumptions C34_latest_window.

Definition handshake : list (bool * cmd) := [(true, CPop); (false, CPush 0); (false, CPop); (true, CPush 0); (true, CPop); (false, CPush 1); (false, CPop)].
Definition zeros (n : Z) : list Z := repeat 0 (Z.to_nat n).
Definition pops (n : Z) : list (bool * cmd) := repeat (true, CPop) (Z.to_nat n).
Definition arrive (from n : Z) : list (bool * cmd) := map (fun i => (false, CPush i)) (seq (Z.to_nat from) (Z.to_nat n)).

(** A writer that fills the reader's window: 100000 bytes are sent and not one more. *)
Example C34_full_window : exists b n m x y, inorder 4294967000 5 true true false b n m x y /\
  (b = false /\ zlen (sent_bytes x) = 100000 /\ zlen (e_wrote x) = 134464 /\ e_got y = [] /\ wants_to_send (e_conn x) = Some false).
Proof.
  apply (run_in_case _ _ _ _ _ (handshake ++ [(true, CPush 1); (true, CWrite (zeros 100000))] ++ pops 30 ++ arrive 2 23 ++ [(false, CPop); (true, CPush 2); (true, CWrite (zeros 34464))] ++ pops 80)).
  vm_compute. repeat split; reflexivity.
Qed.
(** The announced windows are exact: here the latest one is used up to its last byte. *)
Example C34_latest_case : exists b n m x y, inorder 4294967000 5 true true false b n m x y /\
  (b = false /\ n = 2%nat /\ match nth_error (e_out y) 1, act x y OPop with
              | Some k, Some x' => match skipn (length (e_out x)) (e_out x') with
                                   | [s] => window_of true k = 100000 /\ (h_seq (s_h s) - ack_from 4294967000 k) mod 4294967296 + zlen (pkt_syms (s_h s) (s_p s)) = 100000
                                   | _ => False
                                   end
              | _, _ => False
              end).
Proof.
  apply (run_in_case _ _ _ _ _ (handshake ++ [(true, CPush 1); (true, CWrite (zeros 100000))] ++ pops 66)).
  vm_compute. repeat split; reflexivity.
Qed.

(** ** Where it fails *)
(** When packets overtake each other, the window of an old packet is added to the acknowledgement of a
    newer one: 160000 bytes are sent although the reader has read nothing and has room for 100000. *)
Theorem C34_reordered_refuted : exists x y, history 0 0 true true false x y /\ e_got y = [] /\ zlen (sent_bytes x) = 160000.
Proof.
  apply (run_case _ _ _ _ (handshake ++ [(true, CWrite (zeros 60000))] ++ pops 40 ++ arrive 2 40 ++ [(false, CPop); (true, CPush 2); (true, CPush 1); (true, CWrite (zeros 100000))] ++ pops 67)).
  vm_compute. repeat split; reflexivity.
Qed.
Print Assumptions C34_reordered_refuted.
