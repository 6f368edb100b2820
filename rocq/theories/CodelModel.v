(** Model of src/main/network/router/codel_queue.rs: the router's CoDel queue.
    A packet is its identity and its length in bytes. Packet status flags are omitted. The
    increment of the control law (a floating-point computation, codel_queue.rs:279-287) is the
    parameter [law]. [None] is a panic. *)
From Verif Require Import Base TimeModel.

(** codel_queue.rs:23, 28; CONFIG_MTU is 1500 *)
Definition TARGET : Z := 10000000.
Definition INTERVAL : Z := 100000000.
Definition CONFIG_MTU : Z := 1500.
(** codel_queue.rs:33: usize::MAX *)
Definition LIMIT : Z := U64_MAX.

Record pkt := mkPkt { pk_id : Z; pk_len : Z }.
(** codel_queue.rs:43-48 *)
Inductive cmode := Store | DropMode.
(** codel_queue.rs:65-83 *)
Record codel := mkC {
  cq_elements : list (pkt * Z);  (* packet, enqueue time *)
  cq_bytes : Z;
  cq_mode : cmode;
  cq_interval_end : option Z;
  cq_drop_next : option Z;
  cq_current : Z;
  cq_previous : Z }.

(** codel_queue.rs:87-97 *)
Definition cq_new : codel := mkC [] 0 Store None None 0 0.

Definition set_mode (q : codel) (m : cmode) : codel := mkC (cq_elements q) (cq_bytes q) m (cq_interval_end q) (cq_drop_next q) (cq_current q) (cq_previous q).
Definition set_end (q : codel) (e : option Z) : codel := mkC (cq_elements q) (cq_bytes q) (cq_mode q) e (cq_drop_next q) (cq_current q) (cq_previous q).
Definition set_store (q : codel) (l : list (pkt * Z)) (b : Z) : codel := mkC l b (cq_mode q) (cq_interval_end q) (cq_drop_next q) (cq_current q) (cq_previous q).
Definition set_drops (q : codel) (n : option Z) (c p : Z) : codel := mkC (cq_elements q) (cq_bytes q) (cq_mode q) (cq_interval_end q) n c p.

(** codel_queue.rs:220-255 *)
Definition process_standing_delay (q : codel) (now delay : Z) : codel * bool :=
  if (delay <? TARGET) || (cq_bytes q <=? CONFIG_MTU) then (set_end q None, false)
  else match cq_interval_end q with
       | Some e => (q, e <=? now)
       | None => (set_end q (Some (emu_saturating_add now INTERVAL)), false)
       end.

(** codel_queue.rs:192-216: the packet and whether it may be dropped *)
Definition codel_pop (q : codel) (now : Z) : option (codel * option (pkt * bool)) :=
  match cq_elements q with
  | (p, ts) :: rest =>
      check (pk_len p <=? cq_bytes q);
      let q1 := set_store q rest (u64_saturating_sub (cq_bytes q) (pk_len p)) in
      check (ts <=? now);
      let '(q2, ok) := process_standing_delay q1 now (emu_saturating_duration_since now ts) in
      Some (q2, Some (p, ok))
  | [] => Some (set_end q None, None)
  end.

(** codel_queue.rs:258-263 *)
Definition should_drop (q : codel) (now : Z) : bool := match cq_drop_next q with Some n => n <=? now | None => false end.
(** codel_queue.rs:266-274 *)
Definition was_dropping_recently (q : codel) (now : Z) : option bool :=
  match cq_drop_next q with
  | Some n => do w <- sim_saturating_mul INTERVAL 16; Some (emu_saturating_duration_since now n <? w)
  | None => Some false
  end.

Section Law.
(** codel_queue.rs:279-287: INTERVAL / sqrt(count) in floating point, rounded *)
Variable law : Z -> Z.

(** codel_queue.rs:278-291 *)
Definition apply_control_law (t count : Z) : option Z :=
  do o <- emu_to_abs_simtime t;
  do a <- sim_saturating_add o (law count);
  emu_from_abs_simtime a.

(** codel_queue.rs:140-159: the packet returned; [p] itself is dropped *)
Definition drop_from_store_mode (q : codel) (now : Z) (p : pkt) : option (codel * list pkt * option pkt) :=
  do (q1, item) <- codel_pop q now;
  let q2 := set_mode q1 DropMode in
  let delta := u64_saturating_sub (cq_current q2) (cq_previous q2) in
  do recent <- was_dropping_recently q2 now;
  let count := if recent && (1 <? delta) then delta else 1 in
  do next <- apply_control_law now count;
  Some (set_drops q2 (Some next) count count, [p], option_map fst item).

(** codel_queue.rs:161-189: the loop; [dropped] collects the packets dropped so far *)
Fixpoint drop_loop (fuel : nat) (q : codel) (now : Z) (item : option pkt) (dropped : list pkt) : option (codel * list pkt * option pkt) :=
  match fuel with
  | O => None
  | S fuel =>
      match item, cq_mode q with
      | Some p, DropMode =>
          if should_drop q now then
            check (cq_current q + 1 <=? U64_MAX);
            let q1 := set_drops q (cq_drop_next q) (cq_current q + 1) (cq_previous q) in
            do (q2, item2) <- codel_pop q1 now;
            do q3 <- (match item2 with
                      | Some (_, true) =>
                          do n <- cq_drop_next q2;
                          do n' <- apply_control_law n (cq_current q2);
                          Some (set_drops q2 (Some n') (cq_current q2) (cq_previous q2))
                      | _ => Some (set_mode q2 Store)
                      end);
            drop_loop fuel q3 now (option_map fst item2) (dropped ++ [p])
          else Some (q, dropped, item)
      | _, _ => Some (q, dropped, item)
      end
  end.

(** codel_queue.rs:121-138: the packets dropped and the packet returned *)
Definition cq_pop (q : codel) (now : Z) : option (codel * list pkt * option pkt) :=
  do (q1, item) <- codel_pop q now;
  match item with
  | Some (p, true) =>
      match cq_mode q1 with
      | Store => drop_from_store_mode q1 now p
      | DropMode => drop_loop (S (S (length (cq_elements q1)))) q1 now (Some p) []
      end
  | Some (p, false) => Some (set_mode q1 Store, [], Some p)
  | None => Some (set_mode q1 Store, [], None)
  end.

(** codel_queue.rs:296-311; [false]: dropped because the queue is full *)
Definition cq_push (q : codel) (p : pkt) (now : Z) : option (codel * bool) :=
  if Z.of_nat (length (cq_elements q)) <? LIMIT then
    check (cq_bytes q + pk_len p <=? U64_MAX);
    Some (set_store q (cq_elements q ++ [(p, now)]) (cq_bytes q + pk_len p), true)
  else Some (q, false).

(** Histories. *)
Inductive cop := CPush (p : pkt) (t : Z) | CPop (t : Z).
(** The result of a pop: packets dropped, packet delivered. *)
Definition cout := (list pkt * option pkt)%type.
Definition cq_step (q : codel) (o : cop) : option (codel * list cout) :=
  match o with
  | CPush p t => do (q', ok) <- cq_push q p t; check ok; Some (q', [])
  | CPop t => do (q', d, r) <- cq_pop q t; Some (q', [(d, r)])
  end.
Fixpoint cq_run (q : codel) (ops : list cop) : option (codel * list cout) :=
  match ops with
  | [] => Some (q, [])
  | o :: r => do (q1, a) <- cq_step q o; do (q2, b) <- cq_run q1 r; Some (q2, a ++ b)
  end.
End Law.
