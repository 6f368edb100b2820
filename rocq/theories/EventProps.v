(** C05: the event queue's order. *)
From Verif Require Import Base EventModel EventSpec EventProofs.

(** C05. Every history of pushes and pops that runs without panic is a history of the reference queue:
    each pop returns the pending event that must come before all other pending ones ([before]), an
    empty result only when nothing is pending; what stays in the queue is what is pending. *)
Theorem C05_history_sound : forall (K T : Type) keqb teqb start ops q' res,
  distinct (pushed ops) -> @q_run K T keqb teqb (q_new start) ops = Some (q', res) ->
  exists pending, ref_run [] ops res pending /\ Permutation pending (q_bag q').
Proof. exact @run_sound. Qed.
Print Assumptions C05_history_sound.

(** C05. No panic: a history whose events carry distinct identities and whose pushes are not in the
    past of the last pop runs to the end with exactly the reference results. *)
Theorem C05_history_complete : forall (K T : Type) keqb teqb start ops res pending,
  distinct (pushed ops) -> ref_run [] ops res pending -> no_past start ops res ->
  exists q', @q_run K T keqb teqb (q_new start) ops = Some (q', res) /\ Permutation pending (q_bag q').
Proof. exact @run_complete. Qed.
Print Assumptions C05_history_complete.

(** C05. Nothing is lost or duplicated. *)
Theorem C05_conserves : forall (K T : Type) keqb teqb start ops q' res,
  distinct (pushed ops) -> @q_run K T keqb teqb (q_new start) ops = Some (q', res) ->
  Permutation (pushed ops) (popped res ++ q_bag q').
Proof. exact @conserve. Qed.
Print Assumptions C05_conserves.

(** C05. Filling then draining gives the events sorted by [before], whatever the insertion order. *)
Theorem C05_drain_sorted : forall (K T : Type) keqb teqb start (l : list (event K T)),
  distinct l -> Forall (fun e => start <= ev_time e) l ->
  exists q' out, @q_run K T keqb teqb (q_new start) (map QPush l ++ pops (length l))
                   = Some (q', map Some out) /\
    Permutation l out /\ StronglySorted before out.
Proof. exact @drain. Qed.
Print Assumptions C05_drain_sorted.

Theorem C05_insertion_order_irrelevant : forall (K T : Type) keqb teqb start (l1 l2 : list (event K T))
    q1 r1 q2 r2,
  distinct l1 -> Forall (fun e => start <= ev_time e) l1 -> Permutation l1 l2 ->
  @q_run K T keqb teqb (q_new start) (map QPush l1 ++ pops (length l1)) = Some (q1, r1) ->
  @q_run K T keqb teqb (q_new start) (map QPush l2 ++ pops (length l2)) = Some (q2, r2) -> r1 = r2.
Proof. exact @drain_order_free. Qed.
Print Assumptions C05_insertion_order_irrelevant.

(** C05. [before] is a strict order, total on events of distinct identity, and the comparison is
    defined on them. *)
Theorem C05_order_total : forall (K T : Type) (keqb : K -> K -> bool) (teqb : T -> T -> bool) (a b : event K T),
  ident_of a <> ident_of b ->
  (before a b \/ before b a) /\ (exists c, ev_partial_cmp keqb teqb a b = Some c).
Proof. exact (fun K T keqb teqb a b N => conj (before_total a b N) (cmp_total keqb teqb a b N)). Qed.
Print Assumptions C05_order_total.

Theorem C05_order_strict : forall (K T : Type) (a b c : event K T),
  ~ before a a /\ (before a b -> before b c -> before a c).
Proof. exact (fun K T a b c => conj (before_irrefl a) (before_trans a b c)). Qed.
Print Assumptions C05_order_strict.

(** C05. Popped times never decrease, on any history at all that does not panic. *)
Theorem C05_times_monotone : forall (K T : Type) keqb teqb ops start q' res,
  @q_run K T keqb teqb (q_new start) ops = Some (q', res) ->
  StronglySorted Z.le (start :: map ev_time (popped res)).
Proof. exact (fun K T keqb teqb ops start q' res H => run_last keqb teqb ops (q_new start) q' res H). Qed.
Print Assumptions C05_times_monotone.

Definition ex_p s i := mkEv 50 (@EPacket Z Z s i (100 + i)).
Definition ex_l t i := mkEv t (@ELocal Z Z i (200 + i)).
Definition ex_events := [ex_l 50 3; ex_p 2 9; ex_l 40 8; ex_p 1 12; ex_p 2 4; ex_l 50 1].
Example C05_ex :
  distinct ex_events /\ Forall (fun e => 10 <= ev_time e) ex_events /\
  option_map snd (q_run Z.eqb Z.eqb (q_new 10) (map QPush ex_events ++ pops 6)) =
    Some (map Some [ex_l 40 8; ex_p 1 12; ex_p 2 4; ex_p 2 9; ex_l 50 1; ex_l 50 3]).
Proof.
  split; [|split].
  - unfold distinct, ex_events. cbn. repeat constructor; cbn; intuition discriminate.
  - unfold ex_events, ex_l, ex_p. repeat constructor; cbn; lia.
  - vm_compute. reflexivity.
Qed.

(** An interleaved history, with a push between two pops and a pop from the empty queue. *)
Example C05_ex_interleaved :
  let ops := [QPop; QPush (ex_l 50 3); QPush (ex_p 2 9); QPop; QPush (ex_p 1 12); QPop; QPop; QPop] in
  let res := [None; Some (ex_p 2 9); Some (ex_p 1 12); Some (ex_l 50 3); None] in
  distinct (pushed ops) /\ ref_run [] ops res [] /\ no_past 10 ops res.
Proof.
  cbv zeta. split; [|split].
  - unfold distinct; cbn. repeat constructor; cbn; intuition discriminate.
  - apply ref_pop_empty, ref_push, ref_push; cbn.
    apply (ref_pop [ex_l 50 3] (ex_p 2 9) []).
    { intros x [<-|[]]. eapply before_kind; reflexivity. }
    apply ref_push; cbn. apply (ref_pop [ex_l 50 3] (ex_p 1 12) []).
    { intros x [<-|[]]. eapply before_kind; reflexivity. }
    apply (ref_pop [] (ex_l 50 3) []); [intros x []|]. apply ref_pop_empty, ref_nil.
  - cbn. lia.
Qed.
