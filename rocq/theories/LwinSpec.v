(** What bounds the data a default TCP socket sends and keeps. *)
From Verif Require Import Base LtcpModel LtcpSpec.

(** the size of the send buffer that was asked for last *)
Definition last_sndbuf (v : Z) (evs : list event) : Z :=
  fold_left (fun v ev => match ev with ESndBuf v' => v' | _ => v end) evs v.

(** the packet is in the window [w] that was announced with the acknowledgement
    [a] *)
Definition within (p : pkt) (aw : Z * Z) : Prop := p_seq p < fst aw + snd aw.

(** all the receiver has announced, and the window of a new connection *)
Definition announced (y : sys) : list (Z * Z) := (2, 10) :: y_acks y.

Definition is_write (ev : event) : Prop := match ev with EWrite _ => True | _ => False end.

(** the size of the receive buffer that was asked for last *)
Definition last_rcvbuf (v : Z) (evs : list event) : Z :=
  fold_left (fun v ev => match ev with ERcvBuf v' => v' | _ => v end) evs v.
