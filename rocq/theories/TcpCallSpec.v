(** What a TCP socket tells its application: the results of its calls and the errors it keeps. *)
From Verif Require Import Base TcpBufModel TcpConnModel TcpStateModel TcpSoloSpec TcpStateSpec.

(** A socket has a connection, or has had one, once it has been given addresses. *)
Definition has_addr (s : sess) : bool := match s_addr s with Some _ => true | None => false end.
(** What [connect] answers; [assoc] is the local address that the host gives, if it can. *)
Definition connect_says (s : sess) (assoc : option Z) : res unit :=
  match phase_of (s_tcp s) with
  | PInit => match assoc with None => Err EFailedAssociation | Some _ => Ok tt end
  | PConn (SynSent | SynReceived) => Err EInProgress
  | PConn _ => Err EAlreadyConnected
  | PRst | PClosed => Err (if has_addr s then EAlreadyConnected else EInvalidState)
  end.
(** What [shutdown] answers: all is well if there is, or was, a connection. *)
Definition shutdown_says (s : sess) : res unit := if has_addr s then Ok tt else Err ENotConnected.
(** The error of a [send], if the phase alone gives one. *)
Definition send_error (s : sess) : option err :=
  match phase_of (s_tcp s) with
  | PInit | PConn (SynSent | SynReceived) => Some ENotConnected
  | PConn (Established | CloseWait) => None
  | PConn _ => Some EStreamClosed
  | PRst | PClosed => Some (if has_addr s then EStreamClosed else ENotConnected)
  end.

(** The error that a change of phase leaves behind: a RST came or was sent, the application gave up
    the connection while it was being made, or the other side did not answer. *)
Definition blames (p : phase) (e : ev) (p' : phase) : option tcp_error :=
  match p, e, p' with
  | PConn _, VPush h _, PClosed => if h_rst h then Some ResetReceived else None
  | PConn _, (VPush _ _ | VClose), PRst => Some ResetSent
  | PConn SynSent, (VClose | VShutdown _), PClosed => Some ClosedWhileConnecting
  | PConn SynReceived, (VClose | VShutdown _), PConn FinWaitOne => Some ClosedWhileConnecting
  | PConn SynSent, VFire _, PClosed => Some TimedOut
  | PConn SynReceived, VFire _, PRst => Some TimedOut
  | _, _, _ => None
  end.
(** The first error stays until the application fetches it, but a timeout replaces it. *)
Definition keeps_error (before new : option tcp_error) : option tcp_error :=
  match before, new with
  | _, Some TimedOut => Some TimedOut
  | Some x, _ => Some x
  | None, x => x
  end.
