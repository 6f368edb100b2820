(** Proofs about the CPU model. *)
From Verif Require Import Base CpuModel CpuSpec.

Definition cpu_do (c : cpu) (u : cpu_use) : option cpu :=
  match u with UWork n => cpu_add_delay c n | UTime t => Some (cpu_update_time c t) end.
Fixpoint cpu_run (c : cpu) (l : list cpu_use) : option cpu :=
  match l with [] => Some c | u :: r => do c' <- cpu_do c u; cpu_run c' r end.

(** Sum of the delays charged for the work in a history. *)
Fixpoint charged (simf natf : Z) (prec : option Z) (l : list cpu_use) : Z :=
  match l with
  | [] => 0
  | UWork n :: r =>
      match cpu_charge (mkCpu simf natf None prec 0 0) n with Some d => d | None => 0 end + charged simf natf prec r
  | UTime _ :: r => charged simf natf prec r
  end.
Fixpoint clock_of (t : Z) (l : list cpu_use) : Z :=
  match l with [] => t | UTime t' :: r => clock_of t' r | _ :: r => clock_of t r end.

Lemma charge_exact : forall c n, cpu_sim_freq c <> 0 -> cpu_precision c = None ->
  cpu_charge c n = Some (n * cpu_native_freq c / cpu_sim_freq c).
Proof. intros c n F P. unfold cpu_charge. rewrite P, assert_true by lia. reflexivity. Qed.

Lemma charge_rounded : forall c n p, cpu_sim_freq c <> 0 -> cpu_precision c = Some p -> 0 < p -> Z.even p = true ->
  exists r, cpu_charge c n = Some r /\ rounds_to p (n * cpu_native_freq c / cpu_sim_freq c) r.
Proof.
  intros c n p F P L E. unfold cpu_charge. rewrite P, assert_true by lia.
  set (x := n * cpu_native_freq c / cpu_sim_freq c). eexists. split; [reflexivity|].
  pose proof (Z.mod_pos_bound x p L) as B.
  assert (E2 : p = 2 * (p / 2)).
  { apply Z.even_spec in E as [k ->]. rewrite Z.mul_comm, Z.div_mul by lia. lia. }
  assert (DV : (p | x - x mod p)).
  { exists (x / p). pose proof (Z.div_mod x p). lia. }
  unfold rounds_to. destruct (Z.leb_spec (p / 2) (x mod p)).
  - split; [apply Z.divide_add_r; [assumption|apply Z.divide_refl]|]. lia.
  - split; [assumption|]. lia.
Qed.

(** For any precision the rounded value is within one unit of the precision. *)
Lemma charge_near : forall c n p, cpu_sim_freq c <> 0 -> cpu_precision c = Some p -> 0 < p ->
  exists r, cpu_charge c n = Some r /\ (p | r) /\ Z.abs (r - n * cpu_native_freq c / cpu_sim_freq c) <= p.
Proof.
  intros c n p F P L. unfold cpu_charge. rewrite P, assert_true by lia.
  set (x := n * cpu_native_freq c / cpu_sim_freq c). eexists. split; [reflexivity|].
  pose proof (Z.mod_pos_bound x p L) as B.
  assert (DV : (p | x - x mod p)).
  { exists (x / p). pose proof (Z.div_mod x p). lia. }
  pose proof (Z.div_pos p 2 ltac:(lia) ltac:(lia)).
  destruct (Z.leb_spec (p / 2) (x mod p)).
  - split; [apply Z.divide_add_r; [assumption|apply Z.divide_refl]|]. lia.
  - split; [assumption|]. lia.
Qed.

Lemma odd_precision : exists n p r, 0 < p /\ cpu_charge (mkCpu 1 1 None (Some p) 0 0) n = Some r /\ ~ rounds_to p n r.
Proof.
  exists 2, 5, 5. split; [lia|]. split; [reflexivity|]. intros (_ & _ & H). lia.
Qed.

Lemma run_avail : forall l c c', cpu_run c l = Some c' ->
  cpu_avail c' = cpu_avail c + charged (cpu_sim_freq c) (cpu_native_freq c) (cpu_precision c) l /\
  cpu_now c' = clock_of (cpu_now c) l /\ cpu_threshold c' = cpu_threshold c /\
  cpu_precision c' = cpu_precision c /\ cpu_sim_freq c' = cpu_sim_freq c /\ cpu_native_freq c' = cpu_native_freq c.
Proof.
  induction l as [|u l IH]; intros c c' H; cbn [cpu_run] in H.
  - injection H as <-. cbn. repeat split; lia.
  - destruct (cpu_do c u) as [c1|] eqn:D; ob_in H; [|discriminate].
    apply IH in H as (A & B & C & E & F & G). destruct u as [n|t]; cbn [cpu_do] in D.
    + unfold cpu_add_delay in D. destruct (cpu_charge c n) as [d|] eqn:CH; ob_in D; [|discriminate].
      injection D as <-. cbn [cpu_avail cpu_now cpu_threshold cpu_precision cpu_sim_freq cpu_native_freq charged clock_of] in *.
      assert (CE : cpu_charge (mkCpu (cpu_sim_freq c) (cpu_native_freq c) None (cpu_precision c) 0 0) n = Some d) by exact CH.
      rewrite CE. repeat split; auto; lia.
    + injection D as <-. cbn [cpu_update_time cpu_avail cpu_now cpu_threshold cpu_precision cpu_sim_freq cpu_native_freq charged clock_of] in *.
      repeat split; auto; lia.
Qed.

(** The delay is exactly the charged work that reaches beyond the clock, if above the threshold. *)
Lemma delay_spec : forall simf natf th prec l c0 c, cpu_new simf natf (Some th) prec = Some c0 -> 0 <= th ->
  cpu_run c0 l = Some c ->
  cpu_delay c = let b := charged simf natf prec l - clock_of 0 l in if th <? b then b else 0.
Proof.
  intros simf natf th prec l c0 c N TH R. unfold cpu_new, assert_then in N.
  destruct (match prec with Some p => 0 <? p | None => true end); [|discriminate]. injection N as <-.
  apply run_avail in R as (A & B & C & _). cbn [cpu_avail cpu_now cpu_threshold cpu_precision cpu_sim_freq cpu_native_freq] in A, B, C. rewrite Z.add_0_l in A.
  unfold cpu_delay. rewrite A, B, C. cbn zeta.
  destruct (Z.leb_spec (clock_of 0 l) (charged simf natf prec l)); [reflexivity|].
  destruct (Z.ltb_spec th (charged simf natf prec l - clock_of 0 l)); [lia|reflexivity].
Qed.

Lemma no_threshold : forall simf natf prec l c0 c, cpu_new simf natf None prec = Some c0 ->
  cpu_run c0 l = Some c -> cpu_delay c = 0.
Proof.
  intros simf natf prec l c0 c N R. unfold cpu_new, assert_then in N.
  destruct (match prec with Some p => 0 <? p | None => true end); [|discriminate]. injection N as <-.
  apply run_avail in R as (_ & _ & C & _). cbn in C. unfold cpu_delay. now rewrite C.
Qed.

(** Clocks in a simulation are at least [start]; then nothing is ever delayed before [start]
    nanoseconds of work have accumulated. *)
Lemma inert : forall simf natf th prec l c0 c start, cpu_new simf natf th prec = Some c0 ->
  (forall t, th = Some t -> 0 <= t) -> cpu_run c0 l = Some c ->
  start <= clock_of 0 l -> charged simf natf prec l <= start -> cpu_delay c = 0.
Proof.
  intros simf natf [th|] prec l c0 c start N TH R C W; [|eapply no_threshold; eauto].
  erewrite delay_spec; [|exact N|apply TH; reflexivity|exact R]. cbn.
  destruct (Z.ltb_spec th (charged simf natf prec l - clock_of 0 l)); [|reflexivity].
  specialize (TH _ eq_refl). lia.
Qed.

Lemma run_no_panic : forall l c, cpu_sim_freq c <> 0 -> exists c', cpu_run c l = Some c'.
Proof.
  induction l as [|u l IH]; intros c F; cbn [cpu_run]; [eauto|]. destruct u as [n|t]; cbn [cpu_do]; ob.
  - unfold cpu_add_delay, cpu_charge. rewrite assert_true by lia. ob. apply IH. exact F.
  - apply IH. exact F.
Qed.
