(** C59: the table of thread-local values. *)
From Verif Require Import Base PoolModel TlsModel TlsSpec LazyProofs TlsProofs TlsLaws TlsRun.

(** Every lookup, insertion, removal and use of a reference is what a map from keys to values says, whatever the other
    threads do with their keys. *)
Theorem C59_map : forall n h ls s, (0 < n)%nat -> steps (tls_new n h) ls s -> explained (evs s).
Proof. exact (fun n h ls s P R => i_ex s (inv_run n h ls s P R)). Qed.
Print Assumptions C59_map.

(** A removal panics exactly if the thread still has a reference to the value, and dropping a reference never does. *)
Theorem C59_still_used : forall n h ls s i k j t, (0 < n)%nat -> steps (tls_new n h) ls s -> tpcs s i = TScan k j PRemove -> step s (Look i) t ->
  (tpcs t i = TStillUsed <-> (exists q, In (q, k) (held s i)) /\ keys s (slot s k j) = k /\ (j < size s)%nat).
Proof. exact (fun n h ls s i k j t P R => still_used s i k j t (inv_run n h ls s P R)). Qed.
Print Assumptions C59_still_used.
Theorem C59_panics : forall n h ls s, (0 < n)%nat -> steps (tls_new n h) ls s ->
  (forall i, tpcs s i <> TUnderflow) /\ (forall l t i, step s l t -> tpcs t i = TStillUsed -> tpcs s i = TStillUsed \/ exists k j, tpcs s i = TScan k j PRemove /\ l = Look i).
Proof. exact (fun n h ls s P R => conj (fun i => no_underflow s i (inv_run n h ls s P R)) (fun l t i => step_still_used s l t i)). Qed.
Print Assumptions C59_panics.

(** An insertion panics only if the slots in use when it began, together with those filled since, are as many as the
    table has. *)
Theorem C59_full : forall n h ls0 s i v s1 ls t, (0 < n)%nat -> steps (tls_new n h) ls0 s -> step s (Init i v) s1 -> steps s1 ls t ->
  count (is_init i) ls = 0%nat -> tpcs t i = TFull -> (n <= length (occupied s) + count is_take ls)%nat.
Proof. exact full_law. Qed.
Print Assumptions C59_full.

(** No call waits for another thread: a thread in a call can go on, and a call takes at most 2 N + 4 steps. *)
Theorem C59_wait_free : forall n h ls s i, steps (tls_new n h) ls s ->
  (count (is_work i) ls <= (2 * n + 4) * count (is_begin i) ls)%nat /\ (in_call (tpcs s i) -> exists l t, step s l t /\ is_work i l = true).
Proof. exact (fun n h ls s i R => conj (bounded_new n h ls s i R) (can_go s i)). Qed.
Print Assumptions C59_wait_free.

(** Dropping the table drops the value of every key once. *)
Theorem C59_drop : forall n h ls s, (0 < n)%nat -> steps (tls_new n h) ls s -> (forall i, tpcs s i = TIdle /\ held s i = []) ->
  exists ks, NoDup ks /\ (forall k, In k ks <-> content (evs s) k <> None /\ k <> 0%nat) /\ drop_map s = Some (map (content (evs s)) ks).
Proof. exact (fun n h ls s P R => drop_law s (inv_run n h ls s P R)). Qed.
Print Assumptions C59_drop.

(** Runs of a table with two slots. *)
Definition home2 (k : nat) : nat := (k mod 2)%nat.
Definition lookup_in_vain (i : nat) : list lab := [Look i; Look i; Look i].

(** Thread 0 inserts 20 under key 2, reads it and gives the reference back; thread 1 inserts under key 4, which has the
    same home; thread 0 removes its key and looks it up in vain; thread 1 still finds its value behind the empty slot. *)
Definition run_a : list lab :=
  [Claim 0 2; Claim 1 4; Begin 0 2 PGetOrInsert] ++ lookup_in_vain 0 ++ [Init 0 20; Take 0; Fill 0; ReadRef 0; DropRef 0;
   Begin 1 4 PGetOrInsert] ++ lookup_in_vain 1 ++ [Init 1 40; Miss 1; Take 1; Fill 1;
   Begin 0 2 PRemove; Look 0; Free 0; Begin 0 2 PGet] ++ lookup_in_vain 0 ++ [Begin 1 4 PGet; Look 1; Look 1].
Example C59_run_ex : exists s, steps (tls_new 2 home2) run_a s /\
  evs s = [EGet 4 (Found (Some 40)); EGet 2 Absent; ERemove 2 (Found (Some 20)); EInsert 4 40; ERead 2 (Some 20); EInsert 2 20].
Proof. apply (run_ex evs). vm_compute. reflexivity. Qed.

(** Removing a key with a reference panics; a table of one slot with a key in it is full. *)
Example C59_used_ex : exists s, steps (tls_new 2 home2) ([Claim 0 2; Begin 0 2 PGetOrInsert] ++ lookup_in_vain 0 ++ [Init 0 20; Take 0; Fill 0; Begin 0 2 PRemove; Look 0]) s /\
  tpcs s 0%nat = TStillUsed.
Proof. apply (run_ex (fun s => tpcs s 0%nat)). vm_compute. reflexivity. Qed.
Example C59_full_ex : exists s, steps (tls_new 1 (fun _ => 0%nat)) [Claim 0 2; Begin 0 2 PGetOrInsert; Look 0; Look 0; Init 0 20; Take 0; Claim 1 3; Begin 1 3 PGetOrInsert; Look 1; Look 1; Init 1 30; Miss 1; Miss 1] s /\
  tpcs s 1%nat = TFull.
Proof. apply (run_ex (fun s => tpcs s 1%nat)). vm_compute. reflexivity. Qed.
Example C59_drop_ex : exists s, steps (tls_new 2 home2) ([Claim 0 2; Begin 0 2 PGetOrInsert] ++ lookup_in_vain 0 ++ [Init 0 20; Take 0; Fill 0; DropRef 0]) s /\
  (drop_map s, content (evs s) 2%nat, tpcs s 0%nat, held s 0%nat) = (Some [Some 20], Some 20, TIdle, []).
Proof. apply (run_ex (fun s => (drop_map s, content (evs s) 2%nat, tpcs s 0%nat, held s 0%nat))). vm_compute. reflexivity. Qed.

(** Refuted: an insertion panics only if the table is full at some moment.  Thread 2 finds the first slot taken; its
    key is removed and another one is inserted in the second slot; then thread 2 finds the second slot taken. *)
Definition run_b : list lab :=
  [Claim 0 2; Claim 1 3; Claim 2 4; Begin 0 2 PGetOrInsert] ++ lookup_in_vain 0 ++ [Init 0 20; Take 0; Fill 0; DropRef 0;
   Begin 2 4 PGetOrInsert] ++ lookup_in_vain 2 ++ [Init 2 40; Miss 2;
   Begin 0 2 PRemove; Look 0; Free 0;
   Begin 1 3 PGetOrInsert] ++ lookup_in_vain 1 ++ [Init 1 30; Take 1; Fill 1;
   Miss 2; Miss 2].
Theorem C59_full_refuted : exists ls s, always (fun s => (length (occupied s) < size s)%nat) (tls_new 2 home2) ls s /\ tpcs s 2%nat = TFull.
Proof.
  exists run_b. apply (run_ex_always (fun s => Nat.ltb (length (occupied s)) (size s)) _ (fun s => tpcs s 2%nat)).
  - intros s L. apply Nat.ltb_lt. exact L.
  - vm_compute. reflexivity.
Qed.
Print Assumptions C59_full_refuted.
