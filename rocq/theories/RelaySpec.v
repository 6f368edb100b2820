(** Specification vocabulary for the relay. *)
From Verif Require Import Base TimeSpec TokenBucketSpec RelayModel.

Definition rop_time (o : rop) : Z := match o with RArrive t _ _ | RNotify t | RDiscard t _ | RFire t _ _ => t end.
(** IPv4 packets. *)
Definition ip_packet (p : rpkt) : Prop := 0 <= rp_len p <= 65535.
Definition entering (o : rop) : list rpkt :=
  match o with
  | RArrive _ _ p => [p]
  | RFire _ _ reacts => map snd (concat reacts)
  | _ => []
  end.
(** Time never goes back, stops 100 s before the end of time, tasks run exactly when they are due and
    are not passed over. *)
Definition possible (now : Z) (w : rworld) (o : rop) : Prop :=
  now <= rop_time o <= EMU_LIMIT - 100000000000 /\
  (forall d, In d (w_tasks w) -> rop_time o <= d) /\
  (forall p, In p (entering o) -> ip_packet p) /\
  (forall b r, o = RFire (rop_time o) b r -> In (rop_time o) (w_tasks w)).
Inductive r_run (w0 : rworld) : Z -> list rop -> list revent -> rworld -> Prop :=
| r_run_nil : r_run w0 946684800000000000 [] [] w0
| r_run_step now ops tr w o w' e : r_run w0 now ops tr w -> possible now w o -> r_step w o = Some (w', e) ->
    r_run w0 (rop_time o) (ops ++ [o]) (tr ++ e) w'.

(** What the source device holds after a trace, if the trace is one of a device. *)
Fixpoint device (l : list rpkt) (tr : list revent) : option (list rpkt) :=
  match tr with
  | [] => Some l
  | EEnter n p :: r => device (firstn n l ++ p :: skipn n l) r
  | ELost n :: r => device (firstn n l ++ skipn (S n) l) r
  | EPop p :: r => match l with x :: l' => if (rp_id x =? rp_id p) && (rp_len x =? rp_len p) && (rp_dst x =? rp_dst p) then device l' r else None | [] => None end
  | ESend _ _ _ :: r => device l r
  end.
Definition entered (tr : list revent) : list rpkt := flat_map (fun e => match e with EEnter _ p => [p] | _ => [] end) tr.
Definition lossless (tr : list revent) : Prop := forall n, ~ In (ELost n) tr.
(** Every packet enters at the tail. *)
Definition fifo_device (tr : list revent) : Prop := forall n p, In (EEnter n p) tr -> (length (entered tr) <= n)%nat.
Definition taken (tr : list revent) : list rpkt := flat_map (fun e => match e with EPop p => [p] | _ => [] end) tr.
Definition sent (tr : list revent) : list rpkt := flat_map (fun e => match e with ESend _ _ p => [p] | _ => [] end) tr.
Definition held (w : rworld) : list rpkt := match r_next (w_relay w) with Some p => [p] | None => [] end.
(** Sends that count against the bandwidth: time and size. *)
Definition metered (addr : Z) (tr : list revent) : list (Z * Z) :=
  flat_map (fun e => match e with ESend t b p => if b || (addr =? rp_dst p) then [] else [(rp_len p, t)] | _ => [] end) tr.
Definition bytes (l : list (Z * Z)) : Z := zsum (map fst l).
