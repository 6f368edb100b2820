(** Laws of TlsModel. *)
From Verif Require Import Base PoolModel TlsModel TlsSpec LazyProofs TlsProofs.

Local Arguments to_slot : simpl never.
Local Arguments fupd : simpl never.

Lemma no_underflow s i : inv s -> tpcs s i <> TUnderflow.
Proof. intros V E. pose proof (i_pc s V i) as X. unfold pc_ok in X. rewrite E in X. exact X. Qed.

Lemma to_slot_pos q l : (0 < to_slot q l)%nat -> exists k, In (q, k) l.
Proof.
  induction l as [|[a b] l IH]; [unfold to_slot; cbn; lia|]. rewrite to_slot_cons. destruct (Nat.eqb_spec a q) as [->|]; [intros _; exists b; left; reflexivity|].
  intros H. destruct (IH ltac:(lia)) as [k I]. exists k. right. exact I.
Qed.

(** A removal panics exactly if there is a reference. *)
Lemma still_used s i k j t : inv s -> tpcs s i = TScan k j PRemove -> step s (Look i) t -> (tpcs t i = TStillUsed <-> (exists q, In (q, k) (held s i)) /\ keys s (slot s k j) = k /\ (j < size s)%nat).
Proof.
  intros V E ST. inversion ST; subst; match goal with X : tpcs s i = TScan _ _ _, Y : tpcs s i = TScan _ _ _ |- _ => rewrite X in Y; injection Y as -> -> -> || injection Y as <- <- <- end; try match goal with X : keys s _ = k |- _ => rename X into H3 end.
  - pose proof (i_pc s V i) as PC. unfold pc_ok in PC. rewrite E in PC. destruct PC as [O _].
    pose proof (slot_lt s k j (i_pos s V)) as L. set (q := slot s k j) in *. pose proof (i_own s V _ _ O) as KZ.
    assert (RC : refs s q = to_slot q (held s i)).
    { destruct (i_slot s V q L ltac:(congruence)) as [u [OU X]]. rewrite H3 in *. assert (u = i) by congruence. subst u. destruct X as [([v F] & _)|(_ & v & _ & _ & X)]; [congruence|exact X]. }
    cbn. destruct (refs s q =? 0)%nat eqn:R; cbn; rewrite fupd_eq.
    + apply Nat.eqb_eq in R. split; [discriminate|]. intros [[q' I] _]. destruct (i_held s V i q' k I) as (A & B & _). assert (q' = q) by (apply (i_uniq s V); congruence). subst q'.
      pose proof (to_slot_in _ _ _ I). lia.
    + apply Nat.eqb_neq in R. split; [intros _|reflexivity]. split; [|tauto]. destruct (to_slot_pos q (held s i) ltac:(lia)) as [k' I]. exists q. destruct (i_held s V i q k' I) as (_ & B & _). assert (k' = k) as -> by congruence. exact I.
  - cbn. rewrite fupd_eq. split; [discriminate|]. intros (_ & X & _). contradiction.
  - cbn. rewrite fupd_eq. split; [discriminate|]. intros (_ & _ & X). lia.
Qed.

Lemma step_still_used s l t i : step s l t -> tpcs t i = TStillUsed -> tpcs s i = TStillUsed \/ exists k j, tpcs s i = TScan k j PRemove /\ l = Look i.
Proof.
  intros ST E. destruct ST; try (destruct w); cbn in E; unfold absent, found in E; cbn in E;
    try (destruct (refs s _ =? 0)%nat); cbn in E; unfold fupd in E; try (destruct (Nat.eqb_spec i i0) as [->|]); try discriminate; eauto 6.
Qed.

(** * A full table *)
Definition full_ok (s : tls) : Prop := forall i, tpcs s i = TFull -> (size s <= length (touched s i))%nat.

Lemma size_step s l t : step s l t -> size t = size s.
Proof. intros ST. destruct ST; try reflexivity; try (destruct w; cbn; try destruct (_ =? _)%nat; reflexivity). destruct (_ =? _)%nat; reflexivity. Qed.

Lemma touched_step s l t i : step s l t -> is_init i l = false -> length (touched t i) = (length (touched s i) + (if is_take l then 1 else 0))%nat.
Proof.
  intros ST N. destruct ST; cbn [is_take]; try (cbn; lia); try (destruct w; cbn; try destruct (_ =? _)%nat; cbn; lia).
  - cbn in N. cbn. rewrite fupd_ne; [lia|]. intros ->. rewrite Nat.eqb_refl in N. discriminate.
  - destruct (_ =? _)%nat; cbn; lia.
Qed.

Lemma full_step s l t : inv s -> full_ok s -> step s l t -> full_ok t.
Proof.
  intros V F ST i E. rewrite (size_step _ _ _ ST).
  assert (C : tpcs s i = TFull \/ exists k v j, tpcs s i = TInsert k v j /\ (size s <= j)%nat /\ l = Miss i).
  { destruct ST; try (destruct w); cbn in E; unfold absent, found in E; cbn in E;
      try (destruct (refs s _ =? 0)%nat); cbn in E; unfold fupd in E; try (destruct (Nat.eqb i i0) eqn:Q; [apply Nat.eqb_eq in Q; subst i|]); try discriminate; try (left; assumption); eauto 14. }
  destruct C as [C|(k & v & j & C & L & ->)].
  - destruct (is_init i l) eqn:Q.
    + exfalso. destruct ST; cbn in Q; try discriminate. apply Nat.eqb_eq in Q. subst. congruence.
    + rewrite (touched_step _ _ _ _ ST Q). specialize (F i C). lia.
  - rewrite (touched_step _ _ _ _ ST eq_refl). pose proof (i_pc s V i) as PC. unfold pc_ok in PC. rewrite C in PC. destruct PC as (_ & _ & _ & PO).
    assert (size s <= length (touched s i))%nat; [|lia]. rewrite <- (seq_length (size s) 0). apply NoDup_incl_length; [apply seq_NoDup|].
    intros q IN. apply in_seq in IN. destruct (slot_onto s k q ltac:(lia)) as [j' [LJ <-]]. apply PO; lia.
Qed.
Lemma full_steps s ls t : inv s -> full_ok s -> steps s ls t -> full_ok t.
Proof. intros V F R. induction R; [exact F|]. apply IHR; [exact (inv_step _ _ _ V H)|exact (full_step _ _ _ V F H)]. Qed.
Lemma full_new n h : full_ok (tls_new n h).
Proof. intros i E. discriminate. Qed.

Lemma touched_steps s ls t i : steps s ls t -> count (is_init i) ls = 0%nat -> length (touched t i) = (length (touched s i) + count is_take ls)%nat /\ size t = size s.
Proof.
  intros R N. induction R as [|s l t ls u ST R IH]; [unfold count; cbn; lia|]. unfold count in *. cbn in N |- *. destruct (is_init i l) eqn:Q; [discriminate|].
  destruct (IH N) as [A B]. rewrite A, B, (touched_step _ _ _ _ ST Q), (size_step _ _ _ ST). destruct (is_take l); cbn; lia.
Qed.

Lemma full_law n h ls0 s i v s1 ls t : (0 < n)%nat -> steps (tls_new n h) ls0 s -> step s (Init i v) s1 -> steps s1 ls t -> count (is_init i) ls = 0%nat -> tpcs t i = TFull ->
  (n <= length (occupied s) + count is_take ls)%nat.
Proof.
  intros P R0 ST R N E. pose proof (inv_run _ _ _ _ P R0) as V. pose proof (full_steps _ _ _ (inv_new n h P) (full_new n h) R0) as F0.
  pose proof (full_step _ _ _ V F0 ST) as F1. pose proof (full_steps _ _ _ (inv_step _ _ _ V ST) F1 R i E) as F2.
  destruct (touched_steps _ _ _ _ R N) as [A B]. rewrite A, B, (size_step _ _ _ ST) in F2.
  assert (SZ : size s = n). { clear - R0. assert (H : forall a l b, steps a l b -> size b = size a) by (intros a l b R; induction R; [reflexivity|rewrite IHR; exact (size_step _ _ _ H)]). rewrite (H _ _ _ R0). reflexivity. }
  assert (T1 : touched s1 i = occupied s). { inversion ST; subst. cbn. apply fupd_eq. }
  rewrite T1, SZ in F2. exact F2.
Qed.

(** * Steps of a call *)
Definition weight (s : tls) (i : nat) : nat :=
  match tpcs s i with
  | TIdle | TFull | TStillUsed | TUnderflow => 0
  | TFill _ _ _ | TStore _ _ _ => 1
  | TInsert _ _ j => (size s - j) + 2
  | TInit _ => size s + 3
  | TScan _ j _ => (size s - j) + size s + 4
  end%nat.

Lemma weight_other s l t i : step s l t -> is_work i l = false -> is_begin i l = false -> (weight t i <= weight s i)%nat.
Proof.
  intros ST A B. unfold weight. destruct ST; cbn in A, B; try (destruct w); cbn; unfold absent, found; cbn; try (destruct (refs s _ =? 0)%nat); cbn;
    try (rewrite fupd_ne by (intros ->; rewrite Nat.eqb_refl in *; discriminate)); try lia.
  all: unfold fupd; destruct (Nat.eqb_spec i i0) as [->|]; lia.
Qed.

Lemma weight_work s l t i : step s l t -> is_work i l = true -> (weight t i < weight s i)%nat.
Proof.
  intros ST A. unfold weight. destruct ST; cbn in A; try discriminate; apply Nat.eqb_eq in A; subst; rewrite H;
    try (destruct w); cbn; unfold absent, found; cbn; try (destruct (refs s _ =? 0)%nat); cbn; rewrite ?fupd_eq; try lia.
Qed.

Lemma weight_begin s l t i : step s l t -> is_begin i l = true -> (weight t i = 2 * size s + 4)%nat.
Proof. intros ST A. unfold weight. destruct ST; cbn in A; try discriminate; apply Nat.eqb_eq in A; subst. cbn. rewrite fupd_eq. lia. Qed.

Lemma bounded s ls t i : steps s ls t -> (count (is_work i) ls + weight t i <= weight s i + (2 * size s + 4) * count (is_begin i) ls)%nat.
Proof.
  intros R. induction R as [|s l t ls u ST R IH]; [unfold count; cbn; lia|]. rewrite (size_step _ _ _ ST) in IH. unfold count in *. cbn [filter].
  destruct (is_work i l) eqn:W.
  - assert (is_begin i l = false) as -> by (destruct l; cbn in W |- *; try discriminate; reflexivity). pose proof (weight_work _ _ _ _ ST W). cbn [length]. lia.
  - destruct (is_begin i l) eqn:B.
    + pose proof (weight_begin _ _ _ _ ST B). cbn [length]. nia.
    + pose proof (weight_other _ _ _ _ ST W B). lia.
Qed.
Lemma bounded_new n h ls s i : steps (tls_new n h) ls s -> (count (is_work i) ls <= (2 * n + 4) * count (is_begin i) ls)%nat.
Proof. intros R. pose proof (bounded _ _ _ i R) as B. change (weight (tls_new n h) i) with 0%nat in B. cbn [size tls_new] in B. lia. Qed.

Lemma can_go s i : in_call (tpcs s i) -> exists l t, step s l t /\ is_work i l = true.
Proof.
  intros IN. destruct (tpcs s i) eqn:E; try (destruct IN; fail).
  - destruct (Nat.lt_ge_cases j (size s)).
    + destruct (Nat.eq_dec (keys s (slot s k j)) k).
      * do 2 eexists. split; [eapply S_here; eassumption|apply Nat.eqb_refl].
      * do 2 eexists. split; [eapply S_next; eassumption|apply Nat.eqb_refl].
    + do 2 eexists. split; [eapply S_nowhere; eassumption|apply Nat.eqb_refl].
  - do 2 eexists. split; [eapply S_init with (v := 0); eassumption|apply Nat.eqb_refl].
  - destruct (Nat.lt_ge_cases j (size s)).
    + destruct (Nat.eq_dec (keys s (slot s k j)) 0).
      * do 2 eexists. split; [eapply S_take; eassumption|apply Nat.eqb_refl].
      * do 2 eexists. split; [eapply S_miss; eassumption|apply Nat.eqb_refl].
    + do 2 eexists. split; [eapply S_full; eassumption|apply Nat.eqb_refl].
  - do 2 eexists. split; [eapply S_fill; eassumption|apply Nat.eqb_refl].
  - do 2 eexists. split; [eapply S_free; eassumption|apply Nat.eqb_refl].
Qed.

(** * Dropping the table *)
Lemma occupied_in s q : In q (occupied s) <-> (q < size s)%nat /\ keys s q <> 0%nat.
Proof. unfold occupied. rewrite filter_In, in_seq, negb_true_iff, Nat.eqb_neq. split; intros [A B]; split; try assumption; lia. Qed.

Lemma drop_law s : inv s -> (forall i, tpcs s i = TIdle /\ held s i = []) ->
  exists ks, NoDup ks /\ (forall k, In k ks <-> content (evs s) k <> None /\ k <> 0%nat) /\ drop_map s = Some (map (content (evs s)) ks).
Proof.
  intros V ID. exists (map (keys s) (occupied s)).
  assert (SL : forall q, In q (occupied s) -> exists v, vals s q = Some v /\ content (evs s) (keys s q) = Some v /\ refs s q = 0%nat).
  { intros q I. apply occupied_in in I. destruct (i_slot s V q (proj1 I) (proj2 I)) as [i [O [([v F] & _)|(_ & v & A & B & C)]]]; [rewrite (proj1 (ID i)) in F; discriminate|].
    rewrite (proj2 (ID i)) in C. exists v. tauto. }
  split; [|split].
  - assert (G : forall l, NoDup l -> (forall q, In q l -> In q (occupied s)) -> NoDup (map (keys s) l)).
    { induction l as [|q l IH]; intros N S; [constructor|]. inversion N; subst. cbn. constructor; [|apply IH; [assumption|intros; apply S; right; assumption]].
      intros I. apply in_map_iff in I. destruct I as [q' [E I]]. pose proof (proj1 (occupied_in s q) (S q (or_introl eq_refl))). pose proof (proj1 (occupied_in s q') (S q' (or_intror I))).
      assert (q' = q) by (apply (i_uniq s V); tauto). congruence. }
    apply G; [|tauto]. unfold occupied. apply NoDup_filter, seq_NoDup.
  - intros k. rewrite in_map_iff. split.
    + intros [q [<- I]]. destruct (SL q I) as [v (_ & B & _)]. split; [congruence|]. apply occupied_in in I. tauto.
    + intros [C Z]. destruct (existsb (fun q => Nat.eqb (keys s q) k) (seq 0 (size s))) eqn:X.
      * apply existsb_exists in X. destruct X as [q [I E]]. apply Nat.eqb_eq in E. exists q. split; [exact E|]. apply occupied_in. apply in_seq in I. split; [lia|congruence].
      * destruct C. apply (i_none s V k Z). intros q L E. assert (Y : existsb (fun q => Nat.eqb (keys s q) k) (seq 0 (size s)) = true); [|congruence].
        apply existsb_exists. exists q. split; [apply in_seq; lia|apply Nat.eqb_eq; exact E].
  - unfold drop_map. replace (forallb (fun q => (refs s q =? 0)%nat) (occupied s)) with true.
    + f_equal. rewrite map_map. apply map_ext_in. intros q I. destruct (SL q I) as [v (A & B & _)]. congruence.
    + symmetry. apply forallb_forall. intros q I. destruct (SL q I) as [v (_ & _ & C)]. apply Nat.eqb_eq. exact C.
Qed.
