(** Model of src/main/network/relay/mod.rs: a relay that moves packets from a source device to
    destination devices under a bandwidth limit.
    A packet is its identity, length in bytes, and destination address. The source device is the
    list of packets it will supply, in order; new packets may enter at any position (queuing
    discipline). Destination devices only receive. The event queue of the host is the list of times
    at which forward tasks of this relay are scheduled. [None] is a panic. *)
From Verif Require Import Base TimeModel TokenBucketModel.

Record rpkt := mkR { rp_id : Z; rp_len : Z; rp_dst : Z }.
(** relay/mod.rs:67-77 *)
Inductive rstate := Idle | Pending | Forwarding.
(** relay/mod.rs:57-63 *)
Record relay := mkRelay { r_limiter : option bucket; r_addr : Z; r_state : rstate; r_next : option rpkt }.
(** A relay, its source device, its scheduled tasks. *)
Record rworld := mkW { w_relay : relay; w_src : list rpkt; w_tasks : list Z }.

(** What happens, in order: packets entering the source device (at a position), lost inside it,
    taken from it by the relay, and pushed by the relay to a destination (with the time and whether
    the simulation is bootstrapping). *)
Inductive revent := EEnter (n : nat) (p : rpkt) | ELost (n : nat) | EPop (p : rpkt) | ESend (t : Z) (boot : bool) (p : rpkt).

(** relay/mod.rs:280-291, 317-319: CONFIG_MTU is 1500 *)
Definition create_token_bucket (bytes_per_second : Z) : option bucket :=
  let refill_size := Z.max 1 (bytes_per_second / 1000) in
  check (refill_size + 1500 <=? U64_MAX);
  tb_new (refill_size + 1500) refill_size 1000000.

(** relay/mod.rs:92-106; [None]: unlimited *)
Definition relay_new (rate : option Z) (addr : Z) : option relay :=
  match rate with
  | Some b => do tb <- create_token_bucket b; Some (mkRelay (Some tb) addr Idle None)
  | None => Some (mkRelay None addr Idle None)
  end.

Definition r_set_state (r : relay) (s : rstate) : relay := mkRelay (r_limiter r) (r_addr r) s (r_next r).
Definition r_set_next (r : relay) (p : option rpkt) : relay := mkRelay (r_limiter r) (r_addr r) (r_state r) p.
Definition r_set_limiter (r : relay) (b : option bucket) : relay := mkRelay b (r_addr r) (r_state r) (r_next r).

(** relay/mod.rs:146-167 with host.rs:720-722 *)
Definition forward_later (w : rworld) (delay now : Z) : option rworld :=
  check (match r_state (w_relay w) with Pending => false | _ => true end);
  do due <- emu_checked_add now delay;
  Some (mkW (r_set_state (w_relay w) Pending) (w_src w) (w_tasks w ++ [due])).

(** relay/mod.rs:111-137 *)
Definition notify (w : rworld) (now : Z) : option rworld :=
  match r_state (w_relay w) with
  | Idle => forward_later w 0 now
  | Pending => Some w
  | Forwarding => Some w
  end.

(** A device gains packet [p] at position [n]. *)
Definition insert_at (n : nat) (p : rpkt) (l : list rpkt) : list rpkt := firstn n l ++ p :: skipn n l.
Definition arrive (l : list rpkt) (ps : list (nat * rpkt)) : list rpkt := fold_left (fun l np => insert_at (fst np) (snd np) l) ps l.
Definition enter_events (ps : list (nat * rpkt)) : list revent := map (fun np => EEnter (fst np) (snd np)) ps.

(** relay/mod.rs:212-247: may this packet go now? [Some (bucket, None)]: yes; [Some (bucket, Some d)]:
    only after [d]. The second call of [comforming_remove] inside the log message is omitted: it
    removes nothing and its refill has just been done. *)
Definition admit (r : relay) (p : rpkt) (boot : bool) (now : Z) : option (relay * option Z) :=
  if negb boot && negb (r_addr r =? rp_dst p) then
    match r_limiter r with
    | Some tb =>
        do (tb', res) <- tb_conforming_remove tb (rp_len p) now;
        Some (r_set_limiter r (Some tb'), match res with TbOk _ => None | TbWait d => Some d end)
    | None => Some (r, None)
    end
  else Some (r, None).

(** relay/mod.rs:191-275. [reacts] are the packets that enter the source device as a reaction to each
    push to a destination (their [notify] is skipped: the relay is Forwarding). *)
Fixpoint forward_loop (fuel : nat) (r : relay) (src : list rpkt) (reacts : list (list (nat * rpkt))) (boot : bool) (now : Z) (log : list revent) : option (relay * list rpkt * list revent * option Z) :=
  match fuel with
  | O => None
  | S fuel =>
      let taken := match r_next r with
                   | Some p => Some (p, src, [])
                   | None => match src with p :: rest => Some (p, rest, [EPop p]) | [] => None end
                   end in
      match taken with
      | None => Some (r_set_state r Idle, src, log, None)
      | Some (p, src1, pops) =>
          let r1 := r_set_next r None in
          do (r2, wait) <- admit r1 p boot now;
          match wait with
          | Some d =>
              check (match r_next r2 with None => true | Some _ => false end);
              Some (r_set_state (r_set_next r2 (Some p)) Idle, src1, log ++ pops, Some d)
          | None =>
              forward_loop fuel r2 (arrive src1 (hd [] reacts)) (tl reacts) boot now (log ++ pops ++ [ESend now boot p] ++ enter_events (hd [] reacts))
          end
      end
  end.
Definition total_reacts (reacts : list (list (nat * rpkt))) : nat := length (concat reacts).
Definition forward_until_blocked (w : rworld) (reacts : list (list (nat * rpkt))) (boot : bool) (now : Z) : option (rworld * list revent * option Z) :=
  let r := r_set_state (w_relay w) Forwarding in
  do (r', src', log, wait) <- forward_loop (2 + length (w_src w) + total_reacts reacts) r (w_src w) reacts boot now [];
  Some (mkW r' src' (w_tasks w), log, wait).

(** relay/mod.rs:170-192 *)
Definition run_forward_task (w : rworld) (reacts : list (list (nat * rpkt))) (boot : bool) (now : Z) : option (rworld * list revent) :=
  let w0 := mkW (r_set_state (w_relay w) Idle) (w_src w) (w_tasks w) in
  do (w1, log, wait) <- forward_until_blocked w0 reacts boot now;
  match wait with
  | Some d => do w2 <- forward_later w1 d now; Some (w2, log)
  | None => Some (w1, log)
  end.

(** Histories. [RArrive]: a packet enters the source device, which notifies the relay if it was
    empty; [RNotify]: a further notification; [RDiscard]: the device drops a packet itself (CoDel,
    closed sockets); [RFire]: the host runs the task scheduled for now. *)
Inductive rop :=
| RArrive (t : Z) (n : nat) (p : rpkt)
| RNotify (t : Z)
| RDiscard (t : Z) (n : nat)
| RFire (t : Z) (boot : bool) (reacts : list (list (nat * rpkt))).
Fixpoint drop_task (d : Z) (l : list Z) : list Z := match l with [] => [] | x :: r => if x =? d then r else x :: drop_task d r end.
Definition r_step (w : rworld) (o : rop) : option (rworld * list revent) :=
  match o with
  | RArrive t n p =>
      let w1 := mkW (w_relay w) (insert_at n p (w_src w)) (w_tasks w) in
      match w_src w with
      | [] => do w2 <- notify w1 t; Some (w2, [EEnter n p])
      | _ => Some (w1, [EEnter n p])
      end
  | RNotify t => do w1 <- notify w t; Some (w1, [])
  | RDiscard _ n => Some (mkW (w_relay w) (firstn n (w_src w) ++ skipn (S n) (w_src w)) (w_tasks w), [ELost n])
  | RFire t boot reacts => run_forward_task (mkW (w_relay w) (w_src w) (drop_task t (w_tasks w))) reacts boot t
  end.
