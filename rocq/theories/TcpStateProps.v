(** C35 and C38: one TCP socket, whatever the application does and whatever packets arrive. *)
From Verif Require Import Base SeqModel SeqSpec TcpBufModel TcpBufSpec TcpConnModel TcpConnSpec TcpSoloSpec TcpStateModel TcpStateSpec TcpStateFacts.

(** Whatever happens, the socket stays in its state or follows an edge of the diagram. *)
Theorem C35_edges : forall pu sc s e s', life pu sc s -> allows pu s e -> vact s e = Some s' ->
  phase_of (s_tcp s') = phase_of (s_tcp s) \/ edge (phase_of (s_tcp s)) e (phase_of (s_tcp s')).
Proof. exact edges_main. Qed.
Print Assumptions C35_edges.

(** An unconnected socket sends nothing; a connected one sends, when asked, packets that are no resets; one
    that resets its connection sends one RST; a closed one stays closed and sends nothing. *)
Theorem C35_silent : forall pu sc s e s', life pu sc s -> allows pu s e -> vact s e = Some s' ->
  match phase_of (s_tcp s) with
  | PInit => s_out s' = []
  | PConn k => s_out s' = s_out s \/ e = VPop /\ exists h p, s_out s' = s_out s ++ [(h, p)] /\ h_rst h = false /\ s_addr s = Some (h_src h, h_dst h)
  | PRst => s_out s' = s_out s /\ phase_of (s_tcp s') = PRst \/
            e = VPop /\ phase_of (s_tcp s') = PClosed /\ exists h, s_out s' = s_out s ++ [(h, [])] /\ h_rst h = true /\ s_addr s = Some (h_src h, h_dst h)
  | PClosed => s_out s' = s_out s /\ phase_of (s_tcp s') = PClosed
  end.
Proof. exact silent_main. Qed.
Print Assumptions C35_silent.

(** Every state means what RFC 793 says. *)
Theorem C35_meaning : forall pu sc s k, life pu sc s -> phase_of (s_tcp s) = PConn k -> means s k.
Proof. exact means_main. Qed.
Print Assumptions C35_meaning.

(** A packet in order, without data, moves the connection where RFC 793 says (and does not make it
    panic), provided no FIN arrived while the connection was being made. *)
Theorem C35_progress : forall pu sc s k h p h0, life pu sc s -> phase_of (s_tcp s) = PConn k -> k <> SynSent -> sc = false \/ syn_sent s -> wire h p -> concerns s h = true ->
  h_rst h = false -> h_syn h = false -> h_ack h = true -> concat p = [] -> opening (pkts s) = Some h0 -> ~ fin_early s -> (k = SynReceived -> ~ syn_acked s) ->
  h_seq h = (h_seq h0 + 1 + s_taken s + b2z (peer_done k)) mod 4294967296 ->
  (h_fin h = true -> peer_done k = false /\ s_taken s - zlen (s_got s) < 100000) ->
  exists s', vact s (VPush h p) = Some s' /\ phase_of (s_tcp s') = next_phase k (h_fin h) (h_acknum h =? (1 + zlen (s_wrote s) + b2z (s_shut s)) mod 4294967296).
Proof. exact progress_total. Qed.
Print Assumptions C35_progress.

(** A connection is not left waiting for an answer, nor after its end, for more than a minute; and a
    timer does nothing before that minute is over. *)
Theorem C35_timeouts : forall pu sc s, life pu sc s ->
  (forall k, pu = true -> phase_of (s_tcp s) = PConn k -> has_timer k = true -> s_now s <= s_since s + 60000000000) /\
  (forall i s', allows pu s (VFire i) -> vact s (VFire i) = Some s' -> phase_of (s_tcp s') <> phase_of (s_tcp s) -> s_since s + 60000000000 <= s_now s).
Proof. exact timeouts_main. Qed.
Print Assumptions C35_timeouts.

(** What polling says is what the calls do: a readable socket gives bytes, a writable one takes bytes,
    and otherwise the call fails with the error that the other flags tell and changes nothing. *)
Theorem C35_poll : forall pu sc s, life pu sc s -> let t := s_tcp s in
  (p_readable (t_poll t) = true -> forall n, 0 < n <= U32_MAX -> exists t' bytes, t_recv t None n = Some (t', Ok tt, bytes) /\ bytes <> []) /\
  (p_readable (t_poll t) = false -> forall n, 0 <= n <= U32_MAX ->
     t_recv t None n = Some (t, Err (if negb (p_connected (t_poll t)) then ENotConnected else if p_recv_closed (t_poll t) then EStreamClosed else EEmpty), [])) /\
  (p_writable (t_poll t) = true -> forall data, data <> [] -> exists t' n, t_send t data (zlen data) = Some (t', Ok n) /\ 0 < n <= zlen data) /\
  (p_writable (t_poll t) = false -> forall data,
     t_send t data (zlen data) = Some (t, Err (if negb (p_connected (t_poll t)) then ENotConnected else if p_send_closed (t_poll t) then EStreamClosed else EFull))).
Proof. exact poll_main. Qed.
Print Assumptions C35_poll.

(** What is closed stays closed. *)
Theorem C35_sticky : forall pu sc s e s', life pu sc s -> allows pu s e -> vact s e = Some s' -> let p := t_poll (s_tcp s) in let p' := t_poll (s_tcp s') in
  (p_recv_closed p = true -> p_recv_closed p' = true) /\ (p_send_closed p = true -> p_send_closed p' = true) /\ (p_closed p = true -> p_closed p' = true).
Proof. exact sticky_main. Qed.
Print Assumptions C35_sticky.

(** A read gives all the accepted bytes that were not read, as far as they fit. *)
Theorem C35_reads : forall pu sc s k n, life pu sc s -> phase_of (s_tcp s) = PConn k -> early k = false -> 0 <= n <= U32_MAX ->
  exists s', vact s (VRecv n) = Some s' /\ zlen (s_got s') = Z.min (zlen (s_got s) + n) (s_taken s).
Proof. exact reads_conn. Qed.
Print Assumptions C35_reads.
(** This still holds after an orderly end of the connection. *)
Theorem C35_unread : forall pu sc s e s' k n, life pu sc s -> allows pu s e -> vact s e = Some s' -> phase_of (s_tcp s) = PConn k -> k = TimeWait \/ k = LastAck ->
  phase_of (s_tcp s') = PClosed -> (forall h p, e = VPush h p -> h_rst h = false) -> 0 <= n <= U32_MAX ->
  exists s2, vact s' (VRecv n) = Some s2 /\ zlen (s_got s2) = Z.min (zlen (s_got s') + n) (s_taken s').
Proof. exact unread_main. Qed.
Print Assumptions C35_unread.
(** Byte number [i] that was read arrived in a packet of this connection, at the place that sequence
    number [i + 1] after the first SYN's has; also in the closed states. *)
Theorem C35_in_place : forall pu sc s, life pu sc s -> forall i b, nth_error (s_got s) i = Some b ->
  exists h0 h p j, opening (pkts s) = Some h0 /\ In (h, p) (pkts s) /\ nth_error (pkt_syms h p) j = Some (SByte b) /\
    (h_seq h + Z.of_nat j) mod 4294967296 = (h_seq h0 + 1 + Z.of_nat i) mod 4294967296.
Proof. exact got_life. Qed.
Print Assumptions C35_in_place.

(** No call, packet or timer makes the socket panic, provided that a packet that answers the SYN is a SYN or RST,
    and that with window scaling the own SYN has been sent. *)
Theorem C38_socket_partial : forall pu sc s e, life pu sc s -> allows pu s e -> sane sc s e -> vact s e <> None.
Proof. exact safe_main. Qed.
Print Assumptions C38_socket_partial.

(** ** Cases *)
Definition seg (syn fin rst ack : bool) (seq acknum : Z) : header :=
  {| h_src := 2; h_dst := 65537; h_syn := syn; h_fin := fin; h_rst := rst; h_ack := ack; h_seq := seq; h_acknum := acknum; h_win := 1000; h_scale := None |}.
(** The states that a list of events passes through. *)
Fixpoint passes (s : sess) (l : list ev) : list phase :=
  match l with
  | [] => []
  | e :: l => match vact s e with Some s' => (if same_phase (s_tcp s) (s_tcp s') then [] else [phase_of (s_tcp s')]) ++ passes s' l | None => [] end
  end.
(** A client: it connects, writes three bytes, gets two and reads one, and ends first. *)
Definition talk : list ev :=
  [VConnect 2 (Some 65537); VPop; VPush (seg true false false true 100 1) []; VPop; VSend [1; 2; 3]; VPop; VPush (seg false false false true 101 4) [[7; 8]]; VRecv 1].
Definition bye : list ev :=
  [VShutdown ShutWrite; VPop; VPush (seg false false false true 103 5) []; VPush (seg false true false true 103 5) []; VPop; VWait 60000000000; VFire 0; VFire 0; VRecv 10].
Example C35_active_case : exists s, life true true s /\
  (passes (begun true 0) (talk ++ bye) = [PConn SynSent; PConn Established; PConn FinWaitOne; PConn FinWaitTwo; PConn TimeWait; PClosed] /\ s_got s = [7; 8] /\ s_wrote s = [1; 2; 3] /\ p_closed (t_poll (s_tcp s)) = true).
Proof. apply (vrun_case _ (talk ++ bye)). vm_compute. repeat split; reflexivity. Qed.
(** Both sides end at the same time; the other side ends first. *)
Example C35_closing_case : passes (begun true 0) (talk ++ [VClose; VPush (seg false true false true 103 4) []; VPush (seg false false false true 104 5) []]) = [PConn SynSent; PConn Established; PRst] /\
  passes (begun true 0) (talk ++ [VRecv 5; VClose; VPush (seg false true false true 103 4) []; VPush (seg false false false true 104 5) []]) = [PConn SynSent; PConn Established; PConn FinWaitOne; PConn Closing; PConn TimeWait] /\
  passes (begun true 0) (talk ++ [VPush (seg false true false true 103 4) []; VShutdown ShutBoth; VPush (seg false false false true 104 5) []]) = [PConn SynSent; PConn Established; PConn CloseWait; PConn LastAck; PClosed].
Proof. vm_compute. repeat split. Qed.
(** A server's side: the SYN, our answer, its acknowledgement; a reset comes. *)
Example C35_child_case : exists s, life true false s /\ (phase_of (s_tcp s) = PConn Established /\ s_taken s = 1 /\ syn_heard s /\
  match vact s (VPush (seg false false true false 102 0) []), vact s (VPush (seg false false true false 103 0) []) with
  | Some s1, Some s2 => phase_of (s_tcp s1) = PClosed /\ t_err (s_tcp s1) = Some ResetReceived /\ phase_of (s_tcp s2) = PConn Established
  | _, _ => False
  end).
Proof. apply (vchild_case false (seg true false false false 100 0) [] [VPop; VPush (seg false false false true 101 1) [[9]]]). vm_compute. repeat split; discriminate. Qed.
(** The hypotheses of [C35_progress] and [C35_unread]. *)
Example C35_progress_case : exists s, life true true s /\ (phase_of (s_tcp s) = PConn FinWaitOne /\ syn_sent s /\ concerns s (seg false true false true 103 5) = true /\ opening (pkts s) = Some (seg true false false true 100 1) /\ ~ fin_early s /\
  h_seq (seg false true false true 103 5) = (100 + 1 + s_taken s) mod 4294967296 /\ s_taken s - zlen (s_got s) = 1 /\ 1 + zlen (s_wrote s) + b2z (s_shut s) = 5).
Proof.
  enough (exists s, life true true s /\ (phase_of (s_tcp s) = PConn FinWaitOne /\ existsb (fun hp => h_syn (fst hp)) (s_out s) = true /\ concerns s (seg false true false true 103 5) = true /\ opening (pkts s) = Some (seg true false false true 100 1) /\
    existsb (fun x => early (fst x) && h_fin (fst (snd x))) (s_in s) = false /\
    h_seq (seg false true false true 103 5) = (100 + 1 + s_taken s) mod 4294967296 /\ s_taken s - zlen (s_got s) = 1 /\ 1 + zlen (s_wrote s) + b2z (s_shut s) = 5)) as (s & L & A & B & C & D & E & F).
  { exists s. split; [exact L|]. split; [exact A|]. split; [|split; [exact C|split; [exact D|split; [|exact F]]]].
    - apply existsb_exists in B. destruct B as ((h & p) & I & X). exists h, p. auto.
    - intros (k & h & p & I & K & X). assert (Y : existsb (fun x => early (fst x) && h_fin (fst (snd x))) (s_in s) = true) by (apply existsb_exists; exists (k, (h, p)); cbn; now rewrite K, X). congruence. }
  apply (vrun_case _ (talk ++ [VShutdown ShutWrite; VPop])). vm_compute. repeat split; reflexivity.
Qed.
Example C35_unread_case : exists s, life true true s /\ (phase_of (s_tcp s) = PConn LastAck /\ s_taken s = 2 /\ s_got s = [7] /\
  match vact s (VPush (seg false false false true 104 5) []) with Some s' => phase_of (s_tcp s') = PClosed | None => False end).
Proof. apply (vrun_case _ (talk ++ [VPush (seg false true false true 103 4) []; VShutdown ShutBoth])). vm_compute. repeat split; reflexivity. Qed.
(** Timers: no answer to a SYN; none to a SYN-ACK. *)
Example C35_timeouts_case : exists s, life true true s /\ (phase_of (s_tcp s) = PConn SynSent /\ s_now s = s_since s + 60000000000 /\
  match vact s (VFire 0) with Some s' => phase_of (s_tcp s') = PClosed /\ t_err (s_tcp s') = Some TimedOut | None => False end).
Proof. apply (vrun_case _ [VWait 5; VConnect 2 (Some 65537); VPop; VWait 60000000000]). vm_compute. repeat split; reflexivity. Qed.

(** ** What goes wrong *)
(** A packet in order brings the acknowledgement that makes the connection, and the end of the other side's
    stream: that end is acknowledged, but not reported, and a reader waits, until some later packet arrives. *)
Theorem C35_fin_with_ack_refuted : exists s h h0, life true true s /\ phase_of (s_tcp s) = PConn SynReceived /\ syn_sent s /\ wire h [] /\ concerns s h = true /\
  opening (pkts s) = Some h0 /\ h_fin h = true /\ h_rst h = false /\ h_seq h = (h_seq h0 + 1 + s_taken s) mod 4294967296 /\
  match vact s (VPush h []) with
  | Some s1 => match vact s1 VPop with
               | Some s2 => p_recv_closed (t_poll (s_tcp s2)) = false /\ t_recv (s_tcp s2) None 10 = Some (s_tcp s2, Err EEmpty, []) /\ exists h' p', In (h', p') (s_out s2) /\ h_acknum h' = h_seq h0 + 2
               | None => False
               end
  | None => False
  end.
Proof.
  set (h := seg false true false true 101 1). set (h0 := seg true false false false 100 0).
  enough (exists s, life true true s /\ (phase_of (s_tcp s) = PConn SynReceived /\ existsb (fun hp => h_syn (fst hp)) (s_out s) = true /\ concerns s h = true /\ opening (pkts s) = Some h0 /\ h_seq h = (h_seq h0 + 1 + s_taken s) mod 4294967296 /\
    match vact s (VPush h []) with
    | Some s1 => match vact s1 VPop with
                 | Some s2 => p_recv_closed (t_poll (s_tcp s2)) = false /\ t_recv (s_tcp s2) None 10 = Some (s_tcp s2, Err EEmpty, []) /\ existsb (fun hp => h_acknum (fst hp) =? h_seq h0 + 2) (s_out s2) = true
                 | None => False
                 end
    | None => False
    end)) as (s & L & A & B & C & D & E & F).
  { exists s, h, h0. split; [exact L|]. split; [exact A|]. split; [|split; [apply wireb_ok; reflexivity|split; [exact C|split; [exact D|split; [reflexivity|split; [reflexivity|split; [exact E|]]]]]]].
    - apply existsb_exists in B. destruct B as ((h' & p) & I & X). exists h', p. auto.
    - destruct (vact s (VPush h [])) as [s1|]; [|exact F]. destruct (vact s1 VPop) as [s2|]; [|exact F]. destruct F as (F1 & F2 & F3). split; [exact F1|]. split; [exact F2|].
      apply existsb_exists in F3. destruct F3 as ((h' & p) & I & X). exists h', p. split; [exact I|]. now apply Z.eqb_eq. }
  apply (vchild_case true h0 [] [VPop]). vm_compute. repeat split; reflexivity.
Qed.
Print Assumptions C35_fin_with_ack_refuted.
(** While a connection is being made, a stray packet makes it panic. *)
Theorem C38_stray_refuted : exists s h, life true true s /\ phase_of (s_tcp s) = PConn SynSent /\ syn_sent s /\ wire h [] /\ concerns s h = true /\ vact s (VPush h []) = None.
Proof.
  set (h := seg false false false true 100 1).
  enough (exists s, life true true s /\ (phase_of (s_tcp s) = PConn SynSent /\ existsb (fun hp => h_syn (fst hp)) (s_out s) = true /\ concerns s h = true /\ vact s (VPush h []) = None)) as (s & L & A & B & C & D).
  { exists s, h. split; [exact L|]. split; [exact A|]. split; [|split; [apply wireb_ok; reflexivity|auto]]. apply existsb_exists in B. destruct B as ((h' & p) & I & X). exists h', p. auto. }
  apply (vrun_case _ [VConnect 2 (Some 65537); VPop]). vm_compute. repeat split; reflexivity.
Qed.
Print Assumptions C38_stray_refuted.
(** The answer to a SYN is still unsent when the timer runs out: the timer panics. *)
Theorem C38_unsent_refuted : exists s, life true true s /\ phase_of (s_tcp s) = PConn SynReceived /\ vact s (VFire 0) = None /\ allows true s (VFire 0).
Proof.
  enough (exists s, life true true s /\ (phase_of (s_tcp s) = PConn SynReceived /\ vact s (VFire 0) = None /\ allowsb true s (VFire 0) = true)) as (s & L & A & B & C).
  { exists s. split; [exact L|]. split; [exact A|]. split; [exact B|now apply allowsb_ok]. }
  apply (vchild_case true (seg true false false false 100 0) [] [VWait 60000000000]). vm_compute. repeat split; reflexivity.
Qed.
Print Assumptions C38_unsent_refuted.
