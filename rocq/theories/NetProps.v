(** C12, C13, C14: the network interface's send queue, socket associations, ephemeral ports. *)
From Verif Require Import Base FMap NetqModel NetqSpec NetqProofs IfaceModel IfaceSpec IfaceProofs IfaceSendProofs.

(* ================================================================== C12 *)
(** C12. Every history of the socket queue is one of the specification: no socket is queued twice,
    the next socket is the oldest, or the oldest among those with the least priority. The history
    is shorter than 2^64 calls and gives priorities to a priority queue. *)
Theorem C12_refines_queue : forall k ops q rs, Z.of_nat (length ops) <= U64_MAX -> Forall (gives_priority k) ops ->
  nq_run (nq_new k) ops = Some (q, rs) -> exists l, spec_run k [] ops rs l.
Proof. exact queue_refines. Qed.
Print Assumptions C12_refines_queue.

(** C12. The specification leaves no freedom. *)
Theorem C12_deterministic : forall k ops rs l, spec_run k [] ops rs l -> forall rs' l', spec_run k [] ops rs' l' -> rs = rs' /\ l = l'.
Proof. intros k ops rs l R. exact (spec_run_det k [] ops rs l R (NoDup_nil _)). Qed.
Print Assumptions C12_deterministic.

(** C12. The next call never panics, except [push] of a socket that is already queued. *)
Theorem C12_no_panic : forall k ops o q rs l, Z.of_nat (length ops) < U64_MAX -> Forall (gives_priority k) (ops ++ [o]) ->
  nq_run (nq_new k) ops = Some (q, rs) -> spec_run k [] ops rs l ->
  (forall i p, o = NPush i p -> ~ In i (items l)) -> nq_step q o <> None.
Proof. exact queue_progress. Qed.
Print Assumptions C12_no_panic.

(** C12. Sockets come out exactly as often as they were queued; what is left is queued once. *)
Theorem C12_conserves : forall k ops q rs l, Z.of_nat (length ops) <= U64_MAX -> Forall (gives_priority k) ops -> ~ In NClear ops ->
  nq_run (nq_new k) ops = Some (q, rs) -> spec_run k [] ops rs l ->
  NoDup (items l) /\ Permutation (queued ops rs) (returned rs ++ items l).
Proof. exact queue_conserve. Qed.
Print Assumptions C12_conserves.

Definition ex_ops : list nop :=
  [NPush 1 (Some 30); NPush 2 (Some 10); NTryPush 3 (Some 10); NTryPush 2 (Some 5); NPop; NPush 2 (Some 10); NLen; NPop; NPop; NContains 1; NPop; NPop].
Example C12_priority_case : Forall (gives_priority MinPriority) ex_ops /\
  option_map snd (nq_run (nq_new MinPriority) ex_ops) =
  Some [RUnit; RUnit; RTry None; RTry (Some AlreadyQueued); RPop (Some 2); RUnit; RLen 3; RPop (Some 3); RPop (Some 2); RBool true; RPop (Some 1); RPop None].
Proof. split; [repeat constructor; discriminate|vm_compute; reflexivity]. Qed.
Example C12_fifo_case :
  option_map snd (nq_run (nq_new FirstInFirstOut) [NPush 1 (Some 30); NPush 2 None; NTryPush 3 (Some 1); NPop; NPush 1 None; NPop; NPop; NPop; NPop]) =
  Some [RUnit; RUnit; RTry None; RPop (Some 1); RUnit; RPop (Some 2); RPop (Some 3); RPop (Some 1); RPop None].
Proof. vm_compute. reflexivity. Qed.

(** Finding: [try_push] without a priority on a priority queue reports an error, yet leaves the
    socket registered: it counts as queued, cannot be pushed again, and never comes out. *)
Theorem C12_none_priority_refuted : exists q, nq_run (nq_new MinPriority)
  [NTryPush 7 None; NContains 7; NLen; NTryPush 7 (Some 1); NPop; NContains 7] =
  Some (q, [RTry (Some NonePriority); RBool true; RLen 1; RTry (Some AlreadyQueued); RPop None; RBool true]).
Proof. eexists. vm_compute. reflexivity. Qed.
Print Assumptions C12_none_priority_refuted.

(** C12. The interface: whatever the discipline, sockets send their packets in order, each once, and
    the interface only reports that nothing is left when all sockets are empty. It never panics. *)
Theorem C12_interface_complete : forall kindof k ops, Z.of_nat (length ops) <= U64_MAX ->
  exists st out g, i_run kindof (i_new k) ops = Some (st, out) /\ fair_run (fun _ => []) ops out g.
Proof. exact interface_fair. Qed.
Print Assumptions C12_interface_complete.

(** C12. With the first-in-first-out discipline and UDP sockets, packets leave the interface in the
    order in which they were sent, across all sockets. *)
Theorem C12_interface_fifo : forall kindof, (forall s, kindof s = SUdp) -> forall ops, Z.of_nat (length ops) <= U64_MAX ->
  rising (sends ops) -> discards ops = [] -> exists st, i_run kindof (i_new MinPriority) ops = Some (st, fifo [] ops).
Proof. exact interface_fifo. Qed.
Print Assumptions C12_interface_fifo.

(** C12. With round robin, while socket [s] has packets no other socket gets more than one packet
    ahead of it. *)
Theorem C12_round_robin : forall kindof s t, s <> t -> forall before ops st0 outs0 st outs,
  Z.of_nat (length before) + Z.of_nat (length ops) <= U64_MAX ->
  i_run kindof (i_new FirstInFirstOut) before = Some (st0, outs0) -> i_run kindof st0 ops = Some (st, outs) ->
  Forall (fun w => 0 < w) (waiting s (Z.of_nat (length (queue_of (snd st0) s))) ops outs) -> from t outs <= from s outs + 1.
Proof. exact round_robin. Qed.
Print Assumptions C12_round_robin.

Definition udp (s : Z) : skind := SUdp.
Definition ex_sends : list iop :=
  [ISend (mkK 1 0 100); ISend (mkK 2 1 200); ISend (mkK 1 2 101); IPop; ISend (mkK 3 3 300); IPop; IPop; IPop; IPop].
Example C12_interface_fifo_case : rising (sends ex_sends) /\ discards ex_sends = [] /\
  option_map snd (i_run udp (i_new MinPriority) ex_sends) = Some [Some (mkK 1 0 100); Some (mkK 2 1 200); Some (mkK 1 2 101); Some (mkK 3 3 300); None].
Proof. split; [repeat constructor; cbn; lia|split; vm_compute; reflexivity]. Qed.
Definition rr_before : list iop := [ISend (mkK 1 0 100); ISend (mkK 1 1 101); ISend (mkK 1 2 102); ISend (mkK 2 3 200); ISend (mkK 2 4 201); ISend (mkK 2 5 202)].
Example C12_round_robin_case :
  match i_run udp (i_new FirstInFirstOut) rr_before with
  | Some (st0, _) => match i_run udp st0 [IPop; IPop; IPop] with
    | Some (_, outs) => outs = [Some (mkK 1 0 100); Some (mkK 2 3 200); Some (mkK 1 1 101)] /\
        waiting 2 (Z.of_nat (length (queue_of (snd st0) 2))) [IPop; IPop; IPop] outs = [3; 3; 2; 2] /\ from 1 outs = 2 /\ from 2 outs = 1
    | None => False end
  | None => False end.
Proof. vm_compute. auto. Qed.

(** Finding: a TCP socket always reports priority 0, so under the first-in-first-out discipline its
    packets overtake every packet other sockets queued before. *)
Definition tcp2 (s : Z) : skind := if s =? 2 then STcp else SUdp.
Theorem C12_tcp_overtakes_refuted : exists ops st out, rising (sends ops) /\ discards ops = [] /\
  i_run tcp2 (i_new MinPriority) ops = Some (st, out) /\ out <> fifo [] ops.
Proof.
  exists [ISend (mkK 1 5 100); ISend (mkK 2 6 200); ISend (mkK 2 7 201); IPop; IPop; IPop]. do 2 eexists.
  split; [repeat constructor; cbn; lia|]. split; [reflexivity|]. split; [vm_compute; reflexivity|vm_compute; discriminate].
Qed.
Print Assumptions C12_tcp_overtakes_refuted.

(* ================================================================== C13 *)
(** C13. After any history of associations and disassociations, a packet arriving at either
    interface is given to the holder of exactly its protocol, port and peer, otherwise to the
    wildcard holder of its protocol and port, otherwise dropped. *)
Theorem C13_delivery : forall debug pub ops ns, ns_run debug (ns_new pub) ops = Some ns -> forall w proto port src,
  if_target (ns_get ns w) proto port src = receiver pub w proto port src (rev ops).
Proof. exact delivery. Qed.
Print Assumptions C13_delivery.

(** C13. Associating a free binding gives its packets to the socket. *)
Theorem C13_associate : forall debug pub ops ns ns' s p b r, ns_run debug (ns_new pub) ops = Some ns ->
  ns_associate debug ns s p b r = Some ns' -> vacant pub p b r (rev ops) -> forall w, covers pub w (fst b) ->
  (r <> (0, 0) -> if_target (ns_get ns' w) p (snd b) r = Some s) /\
  (r = (0, 0) -> forall src, holder pub w p (snd b) src (rev ops) = None -> if_target (ns_get ns' w) p (snd b) src = Some s).
Proof. exact assoc_effect. Qed.
Print Assumptions C13_associate.

(** C13. Associating a free binding and disassociating it restores the previous behaviour for all
    packets. *)
Theorem C13_restores : forall debug pub ops ns ns' s p b r, ns_run debug (ns_new pub) ops = Some ns -> vacant pub p b r (rev ops) ->
  ns_run debug ns [NsAssoc s p b r; NsDis p b r] = Some ns' ->
  forall w proto port src, if_target (ns_get ns' w) proto port src = if_target (ns_get ns w) proto port src.
Proof. exact restore. Qed.
Print Assumptions C13_restores.

(** C13. No call panics, except (in debug builds) associating a binding that is taken. *)
Theorem C13_no_panic : forall debug pub ops ns o, ns_run debug (ns_new pub) ops = Some ns ->
  (debug = true -> forall s p b r, o = NsAssoc s p b r -> vacant pub p b r (rev ops)) -> exists ns', ns_step debug ns o = Some ns'.
Proof. exact history_total. Qed.
Print Assumptions C13_no_panic.

Definition PUB : Z := 184549377.  (* 11.0.0.1 *)
Definition ex_ns : list nsop :=
  [NsAssoc 1 6 (0, 80) (0, 0); NsAssoc 2 6 (PUB, 80) (42, 9000); NsAssoc 3 17 (2130706433, 80) (0, 0); NsAssoc 4 6 (PUB, 81) (0, 0); NsDis 6 (PUB, 81) (0, 0)].
Example C13_case :
  option_map (fun ns => (if_target (ns_inet ns) 6 80 (42, 9000), if_target (ns_inet ns) 6 80 (42, 9001), if_target (ns_lo ns) 6 80 (42, 9000),
                         if_target (ns_lo ns) 17 80 (1, 1), if_target (ns_inet ns) 17 80 (1, 1), if_target (ns_inet ns) 6 81 (1, 1)))
    (ns_run true (ns_new PUB) ex_ns) = Some (Some 2, Some 1, Some 1, Some 3, None, None).
Proof. vm_compute. reflexivity. Qed.
Example C13_vacant_case : vacant PUB 6 (PUB, 82) (0, 0) (rev ex_ns) /\ covers PUB Inet PUB /\ covers PUB Lo 0.
Proof. split; [intros w _; destruct w; vm_compute; reflexivity|]. split; vm_compute; intuition congruence. Qed.

(* ================================================================== C14 *)
(** C14. A port handed out is in the ephemeral range, and no packet from the peer (or from anyone,
    by wildcard) to that port reaches a socket on any interface the address denotes; none is handed
    out only if no port of the range is free. *)
Theorem C14_free_port : forall debug pub ops ns proto ip peer rng, ns_run debug (ns_new pub) ops = Some ns ->
  (forall k, port_range (rng k)) ->
  match get_random_free_port ns proto ip peer rng with
  | Some p => port_range p /\ port_free pub proto ip peer (rev ops) p
  | None => forall p, port_range p -> ~ port_free pub proto ip peer (rev ops) p
  end.
Proof. exact free_port. Qed.
Print Assumptions C14_free_port.

Example C14_case :
  option_map (fun ns => (get_random_free_port ns 6 0 (42, 9000) (fun k => 10080), get_random_free_port ns 6 99 (42, 9000) (fun k => 10080),
                         get_random_free_port ns 6 PUB (0, 0) (fun k => 10080 + Z.of_nat k)))
    (ns_run true (ns_new PUB) [NsAssoc 1 6 (2130706433, 10080) (0, 0); NsAssoc 1 6 (PUB, 10080) (42, 9000); NsAssoc 2 6 (0, 10081) (0, 0)]) =
  Some (Some 10082, None, Some 10080) /\ (forall k : nat, port_range 10080).
Proof. split; [vm_compute; reflexivity|intros _; unfold port_range; lia]. Qed.

(** Finding: for a bind without a peer, a port that another socket uses for a connection to one peer
    counts as free; two sockets then share the port. *)
Theorem C14_shared_port_refuted : exists ops ns p, ns_run true (ns_new PUB) ops = Some ns /\
  get_random_free_port ns 6 0 (0, 0) (fun _ => 30000) = Some p /\ if_target (ns_inet ns) 6 p (42, 9000) = Some 1.
Proof. exists [NsAssoc 1 6 (PUB, 30000) (42, 9000)]. do 2 eexists. split; [vm_compute; reflexivity|]. split; vm_compute; reflexivity. Qed.
Print Assumptions C14_shared_port_refuted.
