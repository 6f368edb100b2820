(** C11: the router's CoDel queue. *)
From Verif Require Import Base TimeModel TimeSpec CodelModel CodelSpec CodelProofs.

(** The increment of the control law is at most the 100 ms interval (it is 100 ms divided by the
    square root of a count). *)
Definition mild (law : Z -> Z) : Prop := forall c, 1 <= c -> 0 <= law c <= 100000000.

(** C11. The queue never panics; the packets pushed are, in order, those dropped or delivered,
    followed by those still queued; the byte count is the total size of the latter. *)
Theorem C11_conserves : forall law, mild law -> forall ops, in_time 946684800000000000 ops -> fits ops ->
  exists q outs, cq_run law cq_new ops = Some (q, outs) /\
    pushes ops = left_queue outs ++ map fst (cq_elements q) /\ cq_bytes q = sizes (map fst (cq_elements q)).
Proof. exact conserve. Qed.
Print Assumptions C11_conserves.

(** C11. Asking for a packet fails only when every packet pushed has left; nothing is dropped then:
    the last packet of a queue is never dropped. *)
Theorem C11_serves : forall law, mild law -> forall ops t q outs q' d, in_time 946684800000000000 (ops ++ [CPop t]) -> fits ops ->
  cq_run law cq_new ops = Some (q, outs) -> cq_step law q (CPop t) = Some (q', [(d, None)]) -> d = [] /\ left_queue outs = pushes ops.
Proof. exact serves. Qed.
Print Assumptions C11_serves.

(** C11. A packet is dropped only at the end of a period of at least 100 ms in which every packet
    that left, the dropped one included, had waited 10 ms or more and left more than 1500 bytes
    behind, and the queue was never found empty. *)
Theorem C11_drop_reason : forall law, mild law -> forall ops q outs pre s post, in_time 946684800000000000 ops -> fits ops ->
  cq_run law cq_new ops = Some (q, outs) -> watch [] ops outs = pre ++ s :: post -> is_drop s = true ->
  exists a s0 b, pre ++ [s] = a ++ s0 :: b /\ when s0 + 100000000 <= when s /\ Forall congested (s0 :: b).
Proof. exact drop_reason. Qed.
Print Assumptions C11_drop_reason.

(** A case with a drop on entering drop mode and two drops in one pop. *)
Definition sq_law (c : Z) : Z := 100000000 / Z.sqrt c.
Lemma sq_law_mild : mild sq_law.
Proof.
  intros c C. unfold sq_law. assert (1 <= Z.sqrt c) by (apply Z.sqrt_le_square; lia). split; [apply Z.div_pos; lia|].
  apply Z.div_le_upper_bound; nia.
Qed.
Definition T0 : Z := 946684800000000000.
Definition ms (n : Z) : Z := T0 + n * 1000000.
Definition ex_pkts : list cop := map (fun i => CPush (mkPkt i 1000) (ms 0)) [1; 2; 3; 4; 5; 6; 7; 8].
Definition ex_pops : list cop := ex_pkts ++ [CPop (ms 1); CPop (ms 20); CPop (ms 130); CPop (ms 400); CPop (ms 401)].
Example C11_case : in_time T0 ex_pops /\ fits ex_pops /\
  option_map snd (cq_run sq_law cq_new ex_pops) =
    Some [([], Some (mkPkt 1 1000)); ([], Some (mkPkt 2 1000)); ([mkPkt 3 1000], Some (mkPkt 4 1000)); ([mkPkt 5 1000; mkPkt 6 1000], Some (mkPkt 7 1000)); ([], Some (mkPkt 8 1000))] /\
  option_map (fun r => map (fun s => (when s - T0, is_drop s)) (watch [] ex_pops (snd r))) (cq_run sq_law cq_new ex_pops) =
    Some [(1000000, false); (20000000, false); (130000000, true); (130000000, false); (400000000, true); (400000000, true); (400000000, false); (401000000, false)].
Proof.
  split; [vm_compute; intuition discriminate|]. split; [|split; vm_compute; reflexivity].
  split; [|split; vm_compute; reflexivity || discriminate]. intros p t H. cbn in H. repeat (destruct H as [H|H]; [try discriminate; injection H as <- <-; cbn; discriminate|]). destruct H.
Qed.
