(** The stream symbols a packet carries. *)
From Verif Require Import Base TcpBufSpec TcpConnModel.

Definition syms (syn : bool) (bytes : list Z) (fin : bool) : list sym :=
  (if syn then [SSyn] else []) ++ map SByte bytes ++ (if fin then [SFin] else []).
Definition pkt_syms (h : header) (p : payload) : list sym := syms (h_syn h) (concat p) (h_fin h).
