(** What the applications at both ends of a connection see. *)
From Verif Require Import Base LtcpModel.

(** the bytes accepted by the writes, in order *)
Fixpoint written (evs : list event) (outs : list result) : list Z :=
  match evs, outs with
  | EWrite bytes :: evs, Wrote n :: outs => firstn (Z.to_nat n) bytes ++ written evs outs
  | _ :: evs, _ :: outs => written evs outs
  | _, _ => []
  end.

(** the bytes returned by the reads, in order *)
Fixpoint got (outs : list result) : list Z :=
  match outs with
  | Got bytes :: outs => bytes ++ got outs
  | _ :: outs => got outs
  | [] => []
  end.

(** the bytes that the receiver can hand out at once *)
Definition waiting (r : receiver) : list Z :=
  match r_part r with
  | Some (p, off) => skipn (Z.to_nat off) (p_data p)
  | None => []
  end ++ concat (map p_data (r_in r)).

(** the packets the sender still has: not yet sent, on the way to the network
    interface, or kept for retransmission *)
Definition kept (s : sender) : list pkt := s_thr s ++ s_out s ++ s_q s.

(** The code's congestion window is positive; reads ask for a size. *)
Definition good_event (ev : event) : Prop :=
  match ev with ERead n => 0 <= n | ECwnd n => 0 <= n | _ => True end.

(** the event makes the sender send packet [n] again *)
Definition asks (n : Z) (ev : event) : Prop :=
  match ev with EAck _ lost | ETimer lost => In n lost | _ => False end.

(** neither application writes or changes a buffer size *)
Definition helpful (ev : event) : Prop :=
  match ev with
  | EWrite _ | ESndBuf _ | ERcvBuf _ => False
  | _ => good_event ev
  end.
