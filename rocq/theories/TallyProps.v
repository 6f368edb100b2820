(** C62: TCP sends lost packets again, and only those. *)
From Coq Require Import ZArith List Lia.
From Verif Require Import TallyModel TallySpec TallyProofs.
Import ListNotations.
Local Open Scope Z_scope.

(** Whatever packets arrive and whenever the timer expires, no assertion fails,
    and after each event the socket asks for exactly the packets that are due
    (among those not acknowledged), each once. *)
Theorem C62_exactly_lost : forall evs, Forall good_event evs ->
  exists outs t w, run evs tally_init = Some (outs, t) /\ story world0 evs outs w.
Proof. exact story_law. Qed.
Print Assumptions C62_exactly_lost.

(** Packets 0 to 9 have been sent; 2 and 5 are lost.  The third repetition of
    the acknowledgement 2 makes the socket send packet 2 again; the next one does
    not.  After the timeout everything is sent again that the peer does not
    have. *)
Definition evs1 : list event :=
  [Packet (Some (2, false)) [];
   Packet (Some (2, true)) [(3, 4)]; Packet (Some (2, true)) [(3, 5)];
   Packet (Some (2, true)) [(3, 5); (6, 7)]; Packet (Some (2, true)) [(3, 5); (6, 8)];
   Timeout 2 10; Packet (Some (5, false)) [(6, 8)];
   Packet (Some (5, true)) [(6, 9)]; Packet (Some (5, true)) [(6, 10)];
   Packet (Some (5, true)) [(6, 10)];
   Timeout 5 10].

Example C62_exactly_lost_ex :
  Forall good_event evs1
  /\ option_map fst (run evs1 tally_init)
     = Some [[]; []; []; [2]; []; [2; 5; 8; 9]; []; []; []; []; [5]].
Proof.
  split; [|vm_compute; reflexivity].
  repeat (constructor; [simpl; repeat constructor; simpl; lia|]). constructor.
Qed.

(** Between timeouts no packet is sent again twice. *)
Theorem C62_once : forall before evs, Forall good_event before -> Forall good_event evs ->
  Forall (fun ev => ~ is_timeout ev) evs ->
  exists outs1 t1 outs2 t2,
    run before tally_init = Some (outs1, t1) /\ run evs t1 = Some (outs2, t2)
    /\ forall x, highest (before ++ evs) <= x -> (count_occ Z.eq_dec (concat outs2) x <= 1)%nat.
Proof. exact once_law. Qed.
Print Assumptions C62_once.

Definition evs2 : list event :=
  [Packet (Some (2, true)) []; Packet (Some (2, true)) []; Packet (Some (2, true)) [];
   Packet (Some (2, true)) []; Packet (Some (2, true)) [(4, 5)]; Packet (Some (2, true)) []].

Example C62_once_ex :
  Forall good_event evs2 /\ Forall (fun ev => ~ is_timeout ev) evs2
  /\ option_map fst (run evs2 tally_init) = Some [[]; []; []; [2]; []; []].
Proof.
  split; [repeat (constructor; [simpl; repeat constructor; simpl; lia|]); constructor|].
  split; [repeat (constructor; [simpl; tauto|]); constructor|vm_compute; reflexivity].
Qed.

(** The blocks of selective acknowledgements say what the list says: they are
    in order and apart, at most four, contain nothing else, and all of it when
    they are fewer than four. *)
Theorem C62_blocks : forall l, in_order l -> (forall y, In y l -> 0 <= y < 2 ^ 32 - 1) ->
  let bs := selective_acks_from_list l in
  Forall good_block bs /\ apart bs /\ (length bs <= 4)%nat
  /\ (forall x, inside bs x -> In x l)
  /\ ((length bs < 4)%nat -> forall x, In x l -> inside bs x).
Proof. exact blocks_law. Qed.
Print Assumptions C62_blocks.

Example C62_blocks_ex :
  in_order [3; 4; 4; 7; 9; 10]
  /\ selective_acks_from_list [3; 4; 4; 7; 9; 10] = [(3, 5); (7, 8); (9, 11)]
  /\ selective_acks_from_list [1; 3; 5; 7; 9] = [(1, 2); (3, 4); (5, 6); (7, 8)].
Proof. split; [simpl; intuition lia|]. split; vm_compute; reflexivity. Qed.

(** A receiver says to have only packets that it keeps, in blocks that the
    sender accepts. *)
Theorem C62_held : forall l,
  (forall seq n f w, In (seq, n, f, w) l -> 0 <= seq < 2 ^ 32 - 1) ->
  let '(sacks, kept) := receive l [] [] in
  Forall good_block (selective_acks_from_list sacks)
  /\ forall x, inside (selective_acks_from_list sacks) x -> In x kept.
Proof. exact held_law. Qed.
Print Assumptions C62_held.

(** Packets 1, 3, 4, 6 arrive, then 7 without room for it, then 2. *)
Example C62_held_ex :
  let '(sacks, kept) :=
    receive [(1, 1, true, false); (3, 2, true, false); (4, 2, true, false); (6, 2, true, false)] [] [] in
  selective_acks_from_list sacks = [(3, 5); (6, 7)] /\ kept = [6; 4; 3; 1]
  /\ fst (data_processing 2 2 true false sacks) = [6].
Proof. vm_compute. auto. Qed.

(** Finding: numbers below the highest acknowledgement may be asked for again
    (their packets have left the queue, so that nothing is sent). *)
Theorem C62_acked_never_asked_refuted :
  exists evs outs t, Forall good_event evs /\ run evs tally_init = Some (outs, t)
    /\ exists x, x < 9 /\ In (Packet (Some (9, false)) []) (firstn 2 evs) /\ In x (nth 2 outs []).
Proof.
  exists [Timeout 5 10; Packet (Some (9, false)) []; Timeout 9 12].
  eexists; eexists. split; [repeat (constructor; [simpl; repeat constructor; simpl; lia|]); constructor|].
  split; [vm_compute; reflexivity|]. exists 5. split; [lia|]. split; simpl; auto.
Qed.
Print Assumptions C62_acked_never_asked_refuted.

(** Finding: a packet that arrives without room for it makes the receiver forget
    selective acknowledgements of packets that it keeps. *)
Theorem C62_sacks_remembered_refuted :
  exists l seq next sacks kept,
    receive l [] [] = (sacks, kept) /\ snd (data_processing seq next false false sacks) = false
    /\ next < seq /\ In 7 sacks /\ In 7 kept /\ ~ In 7 (fst (data_processing seq next false false sacks)).
Proof.
  exists [(7, 5, true, false); (8, 5, true, false)], 9, 5, [7; 8], [8; 7].
  vm_compute. intuition lia.
Qed.
Print Assumptions C62_sacks_remembered_refuted.
