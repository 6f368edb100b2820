(** C33 and C35: what a TCP socket tells its application, and how it answers a doubtful reset. *)
From Verif Require Import Base SeqModel SeqSpec TcpBufModel TcpBufSpec TcpConnModel TcpConnSpec TcpSoloSpec TcpStateModel TcpStateSpec TcpCallSpec TcpCallFacts TcpSoloProofs TcpStateFacts.

(** The answers of [connect] and [shutdown] and the errors of [send] are those of the table, and a call that fails
    changes nothing. *)
Theorem C35_calls : forall pu sc s, life pu sc s ->
  (forall remote assoc t r, t_connect (s_now s) (s_tcp s) remote assoc = Some (t, r) -> r = connect_says s assoc /\ (r <> Ok tt -> t = s_tcp s)) /\
  (forall h t r, t_shutdown (s_now s) (s_tcp s) h = Some (t, r) -> r = shutdown_says s /\ (r <> Ok tt -> t = s_tcp s)) /\
  (forall data n, match send_error s with
                  | Some x => t_send (s_tcp s) data n = Some (s_tcp s, Err x)
                  | None => forall t x, t_send (s_tcp s) data n = Some (t, Err x) -> x = EFull \/ x = EIo
                  end).
Proof. exact calls_main. Qed.
Print Assumptions C35_calls.

(** The error of a socket is the one that the way its connection ended, or failed to be made, gives it; it stays
    until the application fetches it. *)
Theorem C35_errors : forall pu sc s e s', life pu sc s -> allows pu s e -> vact s e = Some s' ->
  t_err (s_tcp s') = match e with VClear => None | _ => keeps_error (t_err (s_tcp s)) (blames (phase_of (s_tcp s)) e (phase_of (s_tcp s'))) end.
Proof. exact errors_main. Qed.
Print Assumptions C35_errors.

(** A RST whose sequence number is in the window, but not the one expected, is answered with an
    acknowledgement that tells the one expected (RFC 5961); one outside the window is ignored. *)
Theorem C33_challenge : forall iss sc x h p h0, is_seq iss -> alone iss sc x -> opening (o_in x) = Some h0 -> c_reset (o_conn x) = false -> wire h p -> h_rst h = true ->
  let next := (h_seq h0 + 1 + o_taken x + b2z (received_fin (o_conn x))) mod 4294967296 in h_seq h <> next ->
  exists x', sact x (XPush h p) = Some x' /\
    if (h_seq h - next) mod 4294967296 <? recv_window_len (o_conn x)
    then sc = false \/ spoke x -> exists x2 h2 p2, sact x' XPop = Some x2 /\ o_out x2 = o_out x ++ [(h2, p2)] /\ h_ack h2 = true /\ h_acknum h2 = next
    else o_conn x' = o_conn x.
Proof. exact challenge_main. Qed.
Print Assumptions C33_challenge.

(** ** Cases *)
Definition seg (syn fin rst ack : bool) (seq acknum : Z) : header :=
  {| h_src := 2; h_dst := 65537; h_syn := syn; h_fin := fin; h_rst := rst; h_ack := ack; h_seq := seq; h_acknum := acknum; h_win := 1000; h_scale := None |}.
(** The errors that a list of events leaves behind, and what [connect] says then. *)
Fixpoint tells (s : sess) (l : list ev) : list (option tcp_error * res unit) :=
  match l with
  | [] => []
  | e :: l => match vact s e with Some s' => (t_err (s_tcp s'), connect_says s' None) :: tells s' l | None => [] end
  end.
Definition opened : list ev := [VConnect 2 (Some 65537); VPop; VPush (seg true false false true 100 1) []].
Example C35_errors_case : tells (begun true 0) (opened ++ [VPush (seg false false true false 102 0) []; VPush (seg false false true false 101 0) []; VClose; VClear]) =
    [(None, Err EInProgress); (None, Err EInProgress); (None, Err EAlreadyConnected); (None, Err EAlreadyConnected); (Some ResetReceived, Err EAlreadyConnected); (Some ResetReceived, Err EAlreadyConnected); (None, Err EAlreadyConnected)] /\
  tells (begun true 0) [VConnect 2 (Some 65537); VPop; VShutdown ShutBoth] = [(None, Err EInProgress); (None, Err EInProgress); (Some ClosedWhileConnecting, Err EAlreadyConnected)] /\
  tells (begun true 0) (opened ++ [VPush (seg false false false true 101 1) [[7; 8]]; VClose; VPop]) =
    [(None, Err EInProgress); (None, Err EInProgress); (None, Err EAlreadyConnected); (None, Err EAlreadyConnected); (Some ResetSent, Err EAlreadyConnected); (Some ResetSent, Err EAlreadyConnected)] /\
  tells (begun true 0) [VClose] = [(None, Err EInvalidState)].
Proof. vm_compute. repeat split. Qed.
Example C35_calls_case : exists s, life true true s /\ (t_err (s_tcp s) = Some ResetReceived /\ send_error s = Some EStreamClosed /\ shutdown_says s = Ok tt).
Proof. apply (vrun_case _ (opened ++ [VPush (seg false false true false 101 0) []])). vm_compute. repeat split. Qed.
Example C33_challenge_case : exists x, alone 7 true x /\ (opening (o_in x) = Some (seg true false false true 100 8) /\ c_reset (o_conn x) = false /\
  (existsb (fun hp => h_syn (fst hp)) (o_out x)) = true /\ wire (seg false false true false 105 0) [] /\ ((105 - (100 + 1 + o_taken x + b2z (received_fin (o_conn x))) mod 4294967296) mod 4294967296 <? recv_window_len (o_conn x)) = true /\
  ((90 - (100 + 1 + o_taken x + b2z (received_fin (o_conn x))) mod 4294967296) mod 4294967296 <? recv_window_len (o_conn x)) = false).
Proof. apply (srun_case 7 true [XPop; XPush (seg true false false true 100 8) []; XPop]). vm_compute. repeat split; discriminate. Qed.
