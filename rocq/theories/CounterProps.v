(** C25: counters. *)
From Coq Require Import String.
From Verif Require Import Base FMap CounterModel CounterSpec CounterProofs.
Open Scope string_scope.

Definition demo : chist :=
  HSubCounter (HAddCounter (HOp (HOp HNew "read" CAdd 3) "write" CAdd 1)
                           (HOp (HOp HNew "write" CAdd 4) "open" CSub 2))
              (HOp HNew "read" CSet 3).

(** The value of a key is the sum of everything added minus everything subtracted since it was last set. *)
Theorem C25_value : forall h c, cexec h (Some c) -> forall k, get_value c k = total h k.
Proof. exact value_main. Qed.
Print Assumptions C25_value.

(** Each operation returns the new value. *)
Theorem C25_returned : forall h c id op v c' r, cexec h (Some c) -> operate c id op v = Some (c', r) ->
  r = total (HOp h id op v) id.
Proof. exact returned_main. Qed.
Print Assumptions C25_returned.

(** No panic as long as values fit in 64 bits. *)
Theorem C25_no_panic : forall h, fits h -> ~ cexec h None.
Proof. exact no_panic_main. Qed.
Print Assumptions C25_no_panic.

(** Two counters are equal exactly when all their values are, whatever their histories. *)
Theorem C25_equality : forall h1 h2 c1 c2, cexec h1 (Some c1) -> cexec h2 (Some c2) ->
  (counter_eqb c1 c2 = true <-> forall k, total h1 k = total h2 k).
Proof. exact equality_main. Qed.
Print Assumptions C25_equality.

(** The printed list is sorted by decreasing value then key, and lists exactly the non-zero keys. *)
Theorem C25_display : forall h c it, cexec h (Some c) -> Permutation it c ->
  StronglySorted printed_before (sorted_for_display it) /\
  forall k v, In (k, v) (sorted_for_display it) <-> v = total h k /\ v <> 0.
Proof. exact display_main. Qed.
Print Assumptions C25_display.

(** It depends on the values only, not on the history or on the hash map's iteration order. *)
Theorem C25_display_deterministic : forall h1 h2 c1 c2 it1 it2, cexec h1 (Some c1) -> cexec h2 (Some c2) ->
  Permutation it1 c1 -> Permutation it2 c2 -> (forall k, total h1 k = total h2 k) ->
  sorted_for_display it1 = sorted_for_display it2.
Proof. exact display_order_main. Qed.
Print Assumptions C25_display_deterministic.

Example C25_case : exists c, cexec demo (Some c) /\ get_value c "read" = 0%Z /\ get_value c "write" = 5%Z /\
  sorted_for_display c = [("write", 5%Z); ("open", (-2)%Z)].
Proof.
  pose proof (crun_exec demo) as X. destruct (crun demo) as [c|] eqn:E; [|vm_compute in E; discriminate].
  exists c. split; [exact X|]. vm_compute in E. injection E as <-. vm_compute. auto.
Qed.
