(** The congestion window of the default TCP socket,
    src/main/host/descriptor/tcp_cong_reno.c (all of it).  Numbers are unsigned
    32-bit integers that wrap around ([u32]); the state hooks are a tag. *)
From Verif Require Import Base.

Definition u32 (x : Z) : Z := x mod 4294967296.

(** slow_start_hooks_, fast_recovery_hooks_, cong_avoid_hooks_,
    tcp_cong_reno.c:200-240 *)
Inductive phase := SlowStart | FastRecovery | CongAvoid.

(** CAReno_, tcp_cong_reno.c:15-24, and cwnd of TCPCong *)
Record reno := Reno {
  cwnd : Z;
  ssthresh : Z;
  nacked : Z;       (* cong_avoid_nacked *)
  dups : Z;         (* duplicate_ack_n *)
  phase_of : phase
}.

(** tcp_cong_reno_init with ca_reno_init_, tcp_cong_reno.c:128-134 and
    190-197: the window of 10 set by the latter is replaced by 1 *)
Definition init : reno := Reno 1 2147483647 0 0 SlowStart.

(** ssthresh_halve, tcp_cong_reno.c:35-37 *)
Definition halve (s : reno) : Z := u32 (cwnd s / 2 + 1).

(** the loop of ca_reno_cong_avoid_new_ack_ev_, tcp_cong_reno.c:120-124;
    [None] when the fuel runs out *)
Fixpoint avoid_loop (fuel : nat) (na cw : Z) : option (Z * Z) :=
  if cw <=? na then
    match fuel with
    | O => None
    | S fuel => avoid_loop fuel (u32 (na - cw)) (u32 (cw + 1))
    end
  else Some (na, cw).

(** ca_reno_cong_avoid_new_ack_ev_, tcp_cong_reno.c:114-125 *)
Definition avoid_ack (n : Z) (s : reno) : option reno :=
  let na := u32 (nacked s + n) in
  do (na, cw) <- avoid_loop (Z.to_nat na) na (cwnd s);
  Some (Reno cw (ssthresh s) na (dups s) (phase_of s)).

(** transition_to_cong_avoid, tcp_cong_reno.c:42-47 *)
Definition to_avoid (n : Z) (s : reno) : option reno :=
  avoid_ack n (Reno (cwnd s) (ssthresh s) 0 (dups s) CongAvoid).

(** ca_reno_slow_start_new_ack_ev_, tcp_cong_reno.c:68-94 *)
Definition start_ack (n : Z) (s : reno) : option reno :=
  let new := u32 (cwnd s + n) in
  if ssthresh s <=? new then
    let left := u32 (new - ssthresh s) in
    to_avoid left (Reno (ssthresh s) (ssthresh s) (nacked s) 0 (phase_of s))
  else Some (Reno new (ssthresh s) (nacked s) 0 (phase_of s)).

(** ca_reno_fast_recovery_new_ack_ev_, tcp_cong_reno.c:102-109 *)
Definition recovery_ack (n : Z) (s : reno) : option reno :=
  to_avoid n (Reno (ssthresh s) (ssthresh s) (nacked s) 0 (phase_of s)).

(** tcp_cong_reno_new_ack_ev_, tcp_cong_reno.c:150-153 *)
Definition new_ack (n : Z) (s : reno) : option reno :=
  match phase_of s with
  | SlowStart => start_ack n s
  | FastRecovery => recovery_ack n s
  | CongAvoid => avoid_ack n s
  end.

(** tcp_cong_reno_duplicate_ack_ev_, tcp_cong_reno.c:140-143, with
    ca_reno_slow_start_duplicate_ack_ev_ (also of congestion avoidance,
    tcp_cong_reno.c:51-66) and ca_reno_fast_recovery_duplicate_ack_ev_
    (98-100) *)
Definition dup_ack (s : reno) : reno :=
  match phase_of s with
  | FastRecovery => Reno (u32 (cwnd s + 1)) (ssthresh s) (nacked s) (dups s) FastRecovery
  | _ =>
      let d := dups s + 1 in
      if d =? 3 then
        let th := halve s in
        Reno (u32 (th + 3)) th (nacked s) d FastRecovery
      else Reno (cwnd s) (ssthresh s) (nacked s) d (phase_of s)
  end.

(** tcp_cong_reno_timeout_ev_, tcp_cong_reno.c:156-167 *)
Definition timeout (s : reno) : reno := Reno 10 (halve s) (nacked s) 0 SlowStart.

(** What src/main/host/descriptor/tcp.c reports: newly acknowledged packets
    (2003), duplicate acknowledgements (1979), retransmission timeouts (1544). *)
Inductive event := Acked (n : Z) | Dup | Timeout.

Definition step (ev : event) (s : reno) : option reno :=
  match ev with
  | Acked n => new_ack n s
  | Dup => Some (dup_ack s)
  | Timeout => Some (timeout s)
  end.

Fixpoint run (evs : list event) (s : reno) : option reno :=
  match evs with
  | [] => Some s
  | ev :: evs => do s <- step ev s; run evs s
  end.
