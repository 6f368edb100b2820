(** Facts on signal sets. *)
From Verif Require Import Base FMap BTree ProcModel.

Lemma sbit_bit sig n : 0 <= n -> Z.testbit (sbit sig) n = (n =? sig - 1).
Proof.
  intros N. unfold sbit. destruct (Z.leb_spec 1 sig) as [P|P].
  - rewrite Z.shiftl_spec by exact N. destruct (Z.eqb_spec n (sig - 1)) as [->|D].
    + now rewrite Z.sub_diag.
    + destruct (Z.ltb_spec n (sig - 1)) as [L|L]; [apply Z.testbit_neg_r; lia|].
      replace (n - (sig - 1)) with (Z.succ (n - sig)) by lia. rewrite Z.bit0_odd || idtac.
      change 1 with (2 * 0 + 1). rewrite Z.testbit_odd_succ by lia. apply Z.testbit_0_l.
  - rewrite Z.shiftl_spec by exact N. destruct (Z.eqb_spec n (sig - 1)) as [E|D]; [lia|].
    replace (n - (sig - 1)) with (Z.succ (n - sig)) by lia.
    change 1 with (2 * 0 + 1). rewrite Z.testbit_odd_succ by lia. apply Z.testbit_0_l.
Qed.

Lemma shas_bit s sig : shas s sig = (1 <=? sig) && Z.testbit s (sig - 1).
Proof.
  unfold shas. destruct (Z.leb_spec 1 sig) as [P|P]; cbn [andb].
  - destruct (Z.testbit s (sig - 1)) eqn:T.
    + destruct (Z.eqb_spec (Z.land s (sbit sig)) 0) as [E|E]; [|reflexivity].
      exfalso. assert (X : Z.testbit (Z.land s (sbit sig)) (sig - 1) = true).
      { rewrite Z.land_spec, sbit_bit, T, Z.eqb_refl by lia. reflexivity. }
      rewrite E, Z.testbit_0_l in X. discriminate X.
    + replace (Z.land s (sbit sig)) with 0; [reflexivity|]. symmetry. apply Z.bits_inj'. intros n N.
      rewrite Z.land_spec, sbit_bit, Z.testbit_0_l by lia. destruct (Z.eqb_spec n (sig - 1)) as [->|]; [now rewrite T|].
      now rewrite Bool.andb_false_r.
  - replace (Z.land s (sbit sig)) with 0; [reflexivity|]. symmetry. apply Z.bits_inj'. intros n N.
    rewrite Z.land_spec, sbit_bit, Z.testbit_0_l by lia. destruct (Z.eqb_spec n (sig - 1)); [lia|].
    now rewrite Bool.andb_false_r.
Qed.

Lemma shas_0 sig : shas 0 sig = false.
Proof. rewrite shas_bit, Z.testbit_0_l. apply Bool.andb_false_r. Qed.
Lemma shas_pos s sig : shas s sig = true -> 1 <= sig.
Proof. rewrite shas_bit. intros H. apply Bool.andb_true_iff in H. lia. Qed.
Lemma shas_sadd s a b : 1 <= a -> shas (sadd s a) b = (b =? a) || shas s b.
Proof.
  intros P. rewrite !shas_bit. unfold sadd. destruct (Z.leb_spec 1 b) as [Q|Q]; cbn [andb].
  - rewrite Z.lor_spec, sbit_bit by lia. destruct (Z.eqb_spec b a) as [->|D].
    + rewrite Z.eqb_refl. now rewrite Bool.orb_true_r.
    + destruct (Z.eqb_spec (b - 1) (a - 1)); [lia|]. now rewrite Bool.orb_false_r.
  - destruct (Z.eqb_spec b a); [lia|reflexivity].
Qed.
Lemma shas_sdrop s a b : shas (sdrop s a) b = negb (b =? a) && shas s b.
Proof.
  rewrite !shas_bit. unfold sdrop. destruct (Z.leb_spec 1 b) as [Q|Q]; cbn [andb]; [|now rewrite Bool.andb_false_r].
  rewrite Z.ldiff_spec, sbit_bit by lia. destruct (Z.eqb_spec b a) as [->|D].
  - rewrite Z.eqb_refl. now rewrite Bool.andb_false_r.
  - destruct (Z.eqb_spec (b - 1) (a - 1)); [lia|]. now rewrite Bool.andb_true_r.
Qed.
Lemma shas_lor a b sig : shas (Z.lor a b) sig = shas a sig || shas b sig.
Proof. rewrite !shas_bit, Z.lor_spec. destruct (1 <=? sig); reflexivity. Qed.
Lemma shas_sminus a b sig : shas (sminus a b) sig = shas a sig && negb (shas b sig).
Proof.
  rewrite !shas_bit. unfold sminus. destruct (Z.leb_spec 1 sig) as [Q|Q]; cbn [andb]; [|reflexivity].
  now rewrite Z.ldiff_spec.
Qed.

(** Sets of pending signals: standard signals only. *)
Definition std_set (s : Z) : Prop := 0 <= s /\ forall sig, shas s sig = true -> sig <= STD_MAX.

Lemma std_empty : std_set 0.
Proof. split; [lia|]. intros sig. rewrite shas_0. discriminate. Qed.
Lemma sbit_nonneg sig : 0 <= sbit sig.
Proof. unfold sbit. apply Z.shiftl_nonneg. lia. Qed.
Lemma std_add s sig : std_set s -> 1 <= sig <= STD_MAX -> std_set (sadd s sig).
Proof.
  intros [N B] S. split.
  - unfold sadd. apply Z.lor_nonneg. split; [exact N|apply sbit_nonneg].
  - intros x. rewrite shas_sadd by lia. intros H. apply Bool.orb_true_iff in H as [H|H]; [lia|auto].
Qed.
Lemma std_drop s sig : std_set s -> std_set (sdrop s sig).
Proof.
  intros [N B]. split.
  - unfold sdrop. apply Z.ldiff_nonneg. auto.
  - intros x. rewrite shas_sdrop. intros H. apply Bool.andb_true_iff in H as [_ H]. auto.
Qed.
Lemma std_minus s m : std_set s -> std_set (sminus s m).
Proof.
  intros [N B]. split.
  - unfold sminus. apply Z.ldiff_nonneg. auto.
  - intros x. rewrite shas_sminus. intros H. apply Bool.andb_true_iff in H as [H _]. auto.
Qed.
Lemma std_lor a b : std_set a -> std_set b -> std_set (Z.lor a b).
Proof.
  intros [N B] [N' B']. split; [apply Z.lor_nonneg; auto|]. intros x. rewrite shas_lor. intros H.
  apply Bool.orb_true_iff in H as [H|H]; auto.
Qed.

Lemma set_ext_0 s : 0 <= s -> (forall sig, shas s sig = false) -> s = 0.
Proof.
  intros N H. apply Z.bits_inj'. intros n P. rewrite Z.testbit_0_l. specialize (H (n + 1)).
  rewrite shas_bit in H. replace (n + 1 - 1) with n in H by lia.
  destruct (Z.leb_spec 1 (n + 1)); [exact H|lia].
Qed.

Lemma std_zero s : std_set s -> (s = 0 <-> forall sig, shas s sig = false).
Proof.
  intros [N B]. split; [intros -> sig; apply shas_0|]. now apply set_ext_0.
Qed.

Lemma std_nonzero s : std_set s -> s <> 0 -> exists sig, shas s sig = true /\ 1 <= sig <= STD_MAX.
Proof.
  intros S D. destruct (existsb (shas s) all_sigs) eqn:E.
  - apply existsb_exists in E as (x & _ & X). exists x. split; [exact X|]. split; [eapply shas_pos; eauto|now apply S].
  - exfalso. apply D. apply std_zero; [exact S|]. intros sig. destruct (shas s sig) eqn:H; [|reflexivity].
    exfalso. assert (I : In sig all_sigs).
    { unfold all_sigs. apply in_map_iff. exists (Z.to_nat sig). pose proof (shas_pos _ _ H).
      destruct S as [_ B]. specialize (B sig H). unfold STD_MAX in B. split; [lia|]. apply in_seq. lia. }
    assert (X : existsb (shas s) all_sigs = true) by (apply existsb_exists; eauto). congruence.
Qed.

(** The lowest signal of a set. *)
Lemma find_first {A} (f : A -> bool) l x : find f l = Some x ->
  exists l1 l2, l = l1 ++ x :: l2 /\ f x = true /\ forall y, In y l1 -> f y = false.
Proof.
  induction l as [|y l IH]; cbn; [discriminate|]. destruct (f y) eqn:E.
  - intros [= ->]. exists [], l. repeat split; auto. intros z [].
  - intros H. destruct (IH H) as (l1 & l2 & -> & X & N). exists (y :: l1), l2. repeat split; auto.
    intros z [->|I]; auto.
Qed.

Lemma all_sigs_in x : In x all_sigs <-> 1 <= x <= 64.
Proof.
  unfold all_sigs. rewrite in_map_iff. split.
  - intros (n & <- & I). apply in_seq in I. lia.
  - intros H. exists (Z.to_nat x). split; [lia|]. apply in_seq. lia.
Qed.

Lemma all_sigs_sorted : ssorted all_sigs.
Proof.
  unfold all_sigs, ssorted.
  assert (H : forall n k, Sorted.StronglySorted Z.lt (map Z.of_nat (seq k n))).
  { induction n as [|n IH]; intros k; cbn; [constructor|]. constructor; [apply IH|]. apply Forall_forall.
    intros x I. apply in_map_iff in I as (m & <- & I). apply in_seq in I. lia. }
  apply H.
Qed.

Lemma sorted_before l1 : forall x l2 y, ssorted (l1 ++ x :: l2) -> In y (l1 ++ x :: l2) -> y < x -> In y l1.
Proof.
  induction l1 as [|z l1 IH]; intros x l2 y S I L; cbn in *.
  - destruct I as [->|I]; [lia|]. inversion S as [|? ? _ F]; subst. rewrite Forall_forall in F. specialize (F y I). lia.
  - inversion S as [|? ? S' F]; subst. destruct I as [->|I]; [auto|]. right. eapply IH; eauto.
Qed.

Lemma slowest_some s sig : slowest s = Some sig ->
  shas s sig = true /\ 1 <= sig <= 64 /\ forall x, x < sig -> shas s x = false.
Proof.
  unfold slowest. destruct (Z.eqb_spec s 0); [discriminate|]. intros H.
  destruct (find_first _ _ _ H) as (l1 & l2 & E & X & N). split; [exact X|].
  assert (I : In sig all_sigs) by (rewrite E; apply in_or_app; right; left; reflexivity).
  split; [now apply all_sigs_in|]. intros x L. destruct (shas s x) eqn:Y; [|reflexivity].
  assert (P : 1 <= x) by (eapply shas_pos; eauto). rewrite <- Y. apply N.
  apply all_sigs_in in I. eapply sorted_before; [rewrite <- E; apply all_sigs_sorted| |exact L].
  rewrite <- E. apply all_sigs_in. lia.
Qed.

Lemma slowest_ok s : std_set s -> s <> 0 -> exists sig, slowest s = Some sig.
Proof.
  intros S D. unfold slowest. destruct (Z.eqb_spec s 0); [contradiction|].
  destruct (find (shas s) all_sigs) as [x|] eqn:F; [eauto|]. exfalso.
  destruct (std_nonzero s S D) as (x & X & R). unfold STD_MAX in R. pose proof (find_none _ _ F x) as H.
  rewrite H in X; [discriminate X|]. apply all_sigs_in. lia.
Qed.

Lemma is_sig_range s : is_sig s = true <-> 1 <= s <= 64.
Proof. unfold is_sig. rewrite Bool.andb_true_iff. lia. Qed.
