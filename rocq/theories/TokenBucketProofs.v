From Verif Require Import Base TimeModel TimeSpec TimeProofs TokenBucketModel TokenBucketSpec.

(** Invariant: parameters fixed; balance within capacity; last refill on the schedule. *)
Record tb_inv (cap inc interval : Z) (b : bucket) : Prop := {
  inv_cap : tb_capacity b = cap;
  inv_inc : tb_increment b = inc;
  inv_int : tb_interval b = interval;
  inv_bal : 0 <= tb_balance b <= cap;
  inv_last : exists k, 0 <= k /\ tb_last_refill b = START + interval * k;
}.

Lemma START_eq : EMUTIME_SIMULATION_START = START.
Proof. reflexivity. Qed.

Lemma ticks_closed cap inc n : 0 <= inc -> forall bal, bal <= cap ->
  ticks cap inc n bal = Z.min cap (bal + inc * Z.of_nat n).
Proof.
  intros Hi. induction n; intros bal Hb.
  - cbn. lia.
  - change (ticks cap inc (S n) bal) with (Z.min cap (ticks cap inc n bal + inc)).
    rewrite IHn by auto. nia.
Qed.

Lemma boundaries_of_last interval k t : 0 < interval ->
  START + interval * k <= t -> t < START + interval * k + interval ->
  boundaries interval t = k.
Proof.
  intros. unfold boundaries. symmetry. apply Z.div_unique with (t - START - interval * k); lia.
Qed.

Definition k_of (b : bucket) : Z := (tb_last_refill b - START) / tb_interval b.

Lemma k_of_eq cap inc interval b k : 0 < interval -> tb_inv cap inc interval b ->
  tb_last_refill b = START + interval * k -> k_of b = k.
Proof.
  intros Hi I E. unfold k_of. rewrite (inv_int _ _ _ _ I), E.
  replace (START + interval * k - START) with (k * interval) by lia. apply Z.div_mul. lia.
Qed.

Lemma dur_ok now la : valid_emu now -> START <= la <= now ->
  emu_duration_since now la = Some (now - la).
Proof.
  intros V H. destruct (emu_checked_duration_exact now la) as [A _]; auto.
  - unfold valid_emu, START in *. lia.
  - apply A. unfold valid_sim, valid_emu, SIM_LIMIT, EMU_LIMIT, START in *. lia.
Qed.

Lemma sub_ok a b : valid_sim a -> 0 <= b <= a -> sim_checked_sub a b = Some (a - b).
Proof.
  intros V H. destruct (sim_checked_sub_exact a b) as [A _]; auto.
  - unfold valid_sim in *. lia.
  - apply A. unfold valid_sim in *. lia.
Qed.

Lemma satadd_ok la x now : START <= la -> 0 <= x -> la + x <= now -> valid_emu now ->
  emu_saturating_add la x = la + x.
Proof.
  intros. rewrite emu_saturating_add_clamp.
  - unfold clamp, valid_emu, EMU_LIMIT, START in *. lia.
  - unfold valid_emu, EMU_LIMIT, START in *. lia.
  - unfold valid_sim, SIM_LIMIT, valid_emu, EMU_LIMIT, START in *. lia.
Qed.

Lemma satmul_ok a k : valid_sim a -> 0 < a -> 0 <= k -> a * k <= SIM_LIMIT -> sim_saturating_mul a k = Some (a * k).
Proof.
  intros V A K H. destruct (sim_saturating_mul_cases a k V) as [M _]; auto.
  unfold is_u64, U64_MAX, SIM_LIMIT in *. nia.
Qed.

Lemma refill_balance cap inc bal n : 0 <= bal <= cap -> cap <= U64_MAX -> 0 < inc -> 1 <= n ->
  Z.max 0 (Z.min (u64_saturating_add bal (u64_saturating_mul inc n)) cap) =
  ticks cap inc (Z.to_nat n) bal.
Proof.
  intros. rewrite ticks_closed by lia. rewrite Z2Nat.id by lia.
  unfold u64_saturating_add, u64_saturating_mul. nia.
Qed.

Lemma lazy_refill_spec cap inc interval b now :
  params_ok cap inc interval -> tb_inv cap inc interval b ->
  valid_emu now -> tb_last_refill b <= now ->
  exists b',
    tb_lazy_refill b now = Some (b', tb_last_refill b' + interval - now) /\
    tb_inv cap inc interval b' /\
    tb_last_refill b' = START + interval * boundaries interval now /\
    tb_balance b' = ticks cap inc (Z.to_nat (boundaries interval now - k_of b)) (tb_balance b) /\
    k_of b <= boundaries interval now /\
    tb_last_refill b' <= now < tb_last_refill b' + interval.
Proof.
  intros (Hcap & Hinc & Hint & Vint) I Vnow Hle.
  destruct (inv_last _ _ _ _ I) as (k & Hk & EL).
  pose proof (k_of_eq _ _ _ _ _ Hint I EL) as EK. rewrite EK. clear EK.
  destruct b as [c bal i iv la]; destruct I as [I1 I2 I3 I4 I5];
    cbn [tb_capacity tb_balance tb_increment tb_interval tb_last_refill] in *; subst c i iv.
  unfold tb_lazy_refill; cbn [tb_last_refill tb_interval tb_increment tb_balance tb_capacity].
  assert (Hla : START <= la) by nia.
  rewrite (dur_ok now la Vnow) by lia. ob.
  destruct (now - la >=? interval) eqn:E.
  - unfold u64_checked_div, sim_as_nanos, SIMTIME_ONE_NANOSECOND. rewrite !Z.div_1_r.
    destruct (interval =? 0) eqn:E0; [lia|]. ob.
    pose proof (Z.div_mod (now - la) interval ltac:(lia)) as DM.
    pose proof (Z.mod_pos_bound (now - la) interval ltac:(lia)) as MB.
    set (n := (now - la) / interval) in *. set (r := (now - la) mod interval) in *. clearbody n r.
    assert (Hn1 : 1 <= n) by nia.
    assert (EB : boundaries interval now = k + n).
    { apply boundaries_of_last; try lia; nia. }
    assert (Hprod : interval * n <= SIM_LIMIT).
    { unfold valid_emu, EMU_LIMIT, SIM_LIMIT, START in *. lia. }
    rewrite (assert_true (u64_saturating_mul inc n >? 0)) by (unfold u64_saturating_mul, U64_MAX; nia).
    rewrite (satmul_ok interval n) by (auto; lia). ob.
    rewrite (satadd_ok la (interval * n) now) by (auto; nia).
    rewrite (dur_ok now (la + interval * n)) by (auto; nia). ob. cbn [tb_interval].
    rewrite assert_true by lia.
    rewrite sub_ok by (auto; lia). ob.
    rewrite refill_balance by lia. rewrite EB.
    replace (k + n - k) with n by lia.
    eexists; split; [|split; [|split; [|split; [|split]]]].
    + do 2 f_equal. cbn [tb_last_refill]. lia.
    + constructor; cbn [tb_capacity tb_balance tb_increment tb_interval tb_last_refill]; auto.
      * rewrite ticks_closed by lia. nia.
      * exists (k + n). split; lia.
    + cbn [tb_last_refill]. lia.
    + reflexivity.
    + lia.
    + cbn [tb_last_refill]. lia.
  - ob. cbn [tb_interval].
    rewrite assert_true by lia.
    rewrite sub_ok by (auto; lia). ob.
    assert (EB : boundaries interval now = k) by (apply boundaries_of_last; lia).
    rewrite EB. replace (k - k) with 0 by lia.
    eexists; split; [|split; [|split; [|split; [|split]]]].
    + do 2 f_equal. cbn [tb_last_refill]. lia.
    + constructor; cbn [tb_capacity tb_balance tb_increment tb_interval tb_last_refill]; auto.
    + cbn [tb_last_refill]. lia.
    + reflexivity.
    + lia.
    + cbn [tb_last_refill]. lia.
Qed.

Lemma conforming_duration_spec cap inc interval b d span :
  params_ok cap inc interval -> tb_inv cap inc interval b ->
  is_u64 d -> tb_balance b < d -> 0 < span <= interval ->
  wait_fits inc interval d ->
  exists n, 1 <= n /\
    tb_compute_conforming_duration b d span = Some (span + interval * (n - 1)) /\
    tb_balance b + inc * (n - 1) < d <= tb_balance b + inc * n.
Proof.
  intros (Hcap & Hinc & Hint & Vint) I Hd Hlt Hspan Hfit.
  unfold tb_compute_conforming_duration.
  rewrite (inv_inc _ _ _ _ I), (inv_int _ _ _ _ I).
  pose proof (inv_bal _ _ _ _ I) as HB.
  set (bal := tb_balance b) in *.
  replace (u64_saturating_sub d bal) with (d - bal) by (unfold u64_saturating_sub; lia).
  pose proof (Z.div_mod (d - bal) inc ltac:(lia)) as DM.
  pose proof (Z.mod_pos_bound (d - bal) inc ltac:(lia)) as MB.
  set (q := (d - bal) / inc) in *. set (r := (d - bal) mod inc) in *.
  set (n := if r >? 0 then q + 1 else q).
  assert (Hn : bal + inc * (n - 1) < d <= bal + inc * n).
  { unfold n. destruct (r >? 0) eqn:E; nia. }
  assert (Hn1 : 1 <= n) by nia.
  assert (Hq : q <= d / inc) by (apply Z.div_le_mono; lia).
  assert (Hnq : n <= d / inc + 1) by (unfold n; destruct (r >? 0); lia).
  exists n. split; [auto|]. split; [|auto].
  destruct (n =? 0) eqn:E0; [lia|].
  destruct (n =? 1) eqn:E1. { assert (n = 1) by lia. f_equal. nia. }
  unfold u64_checked_sub. destruct (1 <=? n) eqn:E2; [|lia]. ob.
  unfold wait_fits in Hfit.
  assert (K1 : interval * (n + 1) <= interval * (d / inc + 2)) by (apply Z.mul_le_mono_nonneg_l; lia).
  assert (K2 : interval * (n + 1) = interval * (n - 1) + interval + interval) by lia.
  assert (K3 : 0 <= interval * (n - 1)) by (apply Z.mul_nonneg_nonneg; lia).
  clear Hn DM MB Hq Hnq.
  rewrite satmul_ok by (auto; lia). ob.
  destruct (sim_saturating_add_cases span (interval * (n - 1))) as [S _].
  { unfold valid_sim in *. lia. }
  { unfold valid_sim in *. lia. }
  rewrite S by lia. reflexivity.
Qed.

Lemma remove_spec cap inc interval b d now :
  params_ok cap inc interval -> tb_inv cap inc interval b ->
  valid_emu now -> tb_last_refill b <= now -> is_u64 d -> wait_fits inc interval d ->
  let bal' := ticks cap inc (Z.to_nat (boundaries interval now - k_of b)) (tb_balance b) in
  exists b',
    tb_inv cap inc interval b' /\ k_of b <= boundaries interval now /\
    tb_last_refill b' = START + interval * boundaries interval now /\
    tb_last_refill b' <= now < tb_last_refill b' + interval /\
    ((d <= bal' /\ tb_conforming_remove b d now = Some (b', TbOk (bal' - d)) /\ tb_balance b' = bal' - d) \/
     (bal' < d /\ tb_balance b' = bal' /\
      exists n, 1 <= n /\ bal' + inc * (n - 1) < d <= bal' + inc * n /\
        tb_conforming_remove b d now =
          Some (b', TbWait (tb_last_refill b' + interval - now + interval * (n - 1))))).
Proof.
  intros P I Vnow Hle Hd Hfit bal'.
  destruct (lazy_refill_spec _ _ _ _ _ P I Vnow Hle) as (b' & E & I' & L & B & K & T).
  unfold tb_conforming_remove. rewrite E. ob.
  unfold u64_checked_sub. fold bal' in B. rewrite B.
  pose proof (inv_bal _ _ _ _ I') as HB. rewrite B in HB.
  destruct (d <=? bal') eqn:Ed.
  - eexists. split; [|split; [|split; [|split]]]. 5:{ left. split; [lia|]. split; [reflexivity|]. reflexivity. }
    + destruct I' as [J1 J2 J3 J4 J5]. constructor; cbn; auto. unfold is_u64 in Hd. lia.
    + auto.
    + auto.
    + auto.
  - destruct (conforming_duration_spec cap inc interval b' d (tb_last_refill b' + interval - now) P I' Hd)
      as (n & Hn & EC & HI); try lia; auto.
    exists b'. split; [auto|]. split; [auto|]. split; [auto|]. split; [auto|].
    right. split; [lia|]. split; [auto|]. exists n. rewrite EC. ob.
    split; [auto|]. split; [lia|]. reflexivity.
Qed.

Lemma k_of_after cap inc interval b k : params_ok cap inc interval -> tb_inv cap inc interval b ->
  tb_last_refill b = START + interval * k -> k_of b = k.
Proof. intros (?&?&?&?) I E. eapply k_of_eq; eauto. Qed.

(** ** Refinement to the ideal bucket *)
Lemma run_refines cap inc interval : params_ok cap inc interval ->
  forall reqs b t0, tb_inv cap inc interval b -> tb_last_refill b <= t0 ->
  times_ok t0 reqs -> (forall d t, In (d, t) reqs -> wait_fits inc interval d) ->
  exists b' res, tb_run b reqs = Some (b', res) /\
    tb_inv cap inc interval b' /\ tb_last_refill b' <= last_time t0 reqs /\
    ideal cap inc interval (tb_balance b) (k_of b) reqs = (tb_balance b', map accepted res).
Proof.
  intros P. induction reqs as [|(d, t) rest IH]; intros b t0 I L T F.
  - cbn. exists b, []. auto.
  - cbn [times_ok] in T. destruct T as (T1 & T2 & T3 & T4).
    destruct (remove_spec cap inc interval b d t P I T2) as (b1 & I1 & K1 & L1 & B1 & C); auto; try lia.
    { eapply F; left; reflexivity. }
    assert (KK : k_of b1 = boundaries interval t) by (eapply k_of_after; eauto).
    destruct (IH b1 t I1) as (b2 & res & R & I2 & L2 & ID); auto; try lia.
    { intros; eapply F; right; eauto. }
    assert (LT : last_time t0 ((d, t) :: rest) = last_time t rest).
    { unfold last_time. cbn [map snd]. clear. revert t. induction rest as [|[x y] r IHr]; intros t.
      reflexivity. cbn [map snd] in *. destruct r; [reflexivity|]. cbn [map] in *. cbn [last] in *. auto. }
    rewrite LT. cbn [tb_run ideal].
    destruct C as [(C1 & C2 & C3)|(C1 & C2 & n & C3 & C4 & C5)].
    + rewrite C2. ob. rewrite R. ob.
      eexists _, _. split; [reflexivity|]. split; [auto|]. split; [auto|].
      destruct (d <=? _) eqn:E; [|lia].
      rewrite <- C3, <- KK. rewrite ID. reflexivity.
    + rewrite C5. ob. rewrite R. ob.
      eexists _, _. split; [reflexivity|]. split; [auto|]. split; [auto|].
      destruct (d <=? _) eqn:E; [lia|].
      rewrite <- C2, <- KK. rewrite ID. reflexivity.
Qed.

Lemma new_inv cap inc interval b : params_ok cap inc interval -> tb_new cap inc interval = Some b ->
  tb_inv cap inc interval b /\ tb_balance b = cap /\ tb_last_refill b = START /\ k_of b = 0.
Proof.
  intros (A & B & C & D). unfold tb_new, tb_new_inner.
  destruct ((cap >? 0) && (inc >? 0) && negb (interval =? 0)) eqn:E; [|lia].
  intros Q; inversion Q; subst; clear Q. cbn.
  split; [|split; [reflexivity|split; [reflexivity|]]].
  - constructor; cbn; auto; try lia. exists 0. split; [lia|]. unfold EMUTIME_SIMULATION_START, START. lia.
  - unfold k_of; cbn. unfold EMUTIME_SIMULATION_START, START. apply Z.div_small. lia.
Qed.

Lemma new_some cap inc interval : params_ok cap inc interval ->
  exists b, tb_new cap inc interval = Some b.
Proof.
  intros (A & B & C & D). unfold tb_new, tb_new_inner.
  destruct ((cap >? 0) && (inc >? 0) && negb (interval =? 0)) eqn:E; [eauto|lia].
Qed.

Lemma new_refines cap inc interval reqs b : params_ok cap inc interval ->
  tb_new cap inc interval = Some b -> times_ok START reqs ->
  (forall d t, In (d, t) reqs -> wait_fits inc interval d) ->
  exists b' res, tb_run b reqs = Some (b', res) /\
    0 <= tb_balance b' <= cap /\
    ideal cap inc interval cap 0 reqs = (tb_balance b', map accepted res).
Proof.
  intros P N T F. destruct (new_inv _ _ _ _ P N) as (I & B & L & K).
  destruct (run_refines cap inc interval P reqs b START I) as (b' & res & R & I' & _ & ID); auto; try lia.
  rewrite B, K in ID.
  exists b', res. split; auto. split; auto. apply (inv_bal _ _ _ _ I').
Qed.

(** ** Rate bound *)
Lemma ticks_le cap inc n bal : 0 <= inc -> bal <= cap ->
  ticks cap inc n bal <= cap /\ ticks cap inc n bal <= bal + inc * Z.of_nat n.
Proof. intros. rewrite ticks_closed by auto. lia. Qed.

Lemma ideal_rate cap inc interval : 0 <= inc -> 0 < interval ->
  forall reqs bal k t0 bal' acc, 0 <= bal <= cap -> k = boundaries interval t0 ->
  times_ok t0 reqs -> ideal cap inc interval bal k reqs = (bal', acc) ->
  forall res, map accepted res = acc ->
  0 <= bal' /\
  removed reqs res + bal' <= bal + inc * (boundaries interval (last_time t0 reqs) - k).
Proof.
  intros Hi Hint. induction reqs as [|(d, t) rest IH]; intros bal k t0 bal' acc HB Hk T ID res ER.
  - cbn in *. inversion ID; subst. split; [lia|]. unfold last_time; cbn. lia.
  - cbn [times_ok] in T. destruct T as (T1 & T2 & T3 & T4).
    assert (LT : last_time t0 ((d, t) :: rest) = last_time t rest).
    { unfold last_time. cbn [map snd]. clear. revert t. induction rest as [|[x y] r IHr]; intros t.
      reflexivity. cbn [map snd] in *. destruct r; [reflexivity|]. cbn [map] in *. cbn [last] in *. auto. }
    rewrite LT. cbn [ideal] in ID.
    assert (Kle : k <= boundaries interval t).
    { subst k. unfold boundaries. apply Z.div_le_mono; lia. }
    destruct (ticks_le cap inc (Z.to_nat (boundaries interval t - k)) bal Hi ltac:(lia)) as [TL1 TL2].
    assert (TL0 : 0 <= ticks cap inc (Z.to_nat (boundaries interval t - k)) bal).
    { rewrite ticks_closed by lia. nia. }
    rewrite Z2Nat.id in TL2 by lia.
    set (bt := ticks cap inc (Z.to_nat (boundaries interval t - k)) bal) in *.
    unfold is_u64 in T3.
    destruct (d <=? bt) eqn:E.
    + destruct (ideal cap inc interval (bt - d) (boundaries interval t) rest) as [b1 l1] eqn:ID1.
      injection ID as <- EA; rewrite <- EA in ER; clear EA.
      destruct res as [|r rs]; [discriminate|]. cbn [map] in ER. inversion ER as [[R1 R2]].
      destruct (IH (bt - d) (boundaries interval t) t b1 l1) with (res := rs) as [A B]; auto; try lia.
      cbn [removed]. rewrite R1. split; [auto|]. nia.
    + destruct (ideal cap inc interval bt (boundaries interval t) rest) as [b1 l1] eqn:ID1.
      injection ID as <- EA; rewrite <- EA in ER; clear EA.
      destruct res as [|r rs]; [discriminate|]. cbn [map] in ER. inversion ER as [[R1 R2]].
      destruct (IH bt (boundaries interval t) t b1 l1) with (res := rs) as [A B]; auto; try lia.
      cbn [removed]. rewrite R1. split; [auto|]. nia.
Qed.

Lemma run_app b l1 l2 : tb_run b (l1 ++ l2) =
  (do r1 <- tb_run b l1; let '(b1, x1) := r1 in
   do r2 <- tb_run b1 l2; let '(b2, x2) := r2 in Some (b2, x1 ++ x2)).
Proof.
  revert b. induction l1 as [|(d, t) l1 IH]; intros b; cbn [app tb_run obind].
  - destruct (tb_run b l2) as [[? ?]|]; reflexivity.
  - destruct (tb_conforming_remove b d t) as [[b1 x]|]; ob; [|reflexivity].
    rewrite IH. destruct (tb_run b1 l1) as [[b2 xs]|]; ob; [|reflexivity].
    destruct (tb_run b2 l2) as [[b3 ys]|]; ob; reflexivity.
Qed.

Lemma times_ok_app t0 l1 l2 : times_ok t0 (l1 ++ l2) ->
  times_ok t0 l1 /\ times_ok (last_time t0 l1) l2.
Proof.
  revert t0. induction l1 as [|(d, t) l1 IH]; intros t0 H; cbn [app times_ok] in *.
  - split; [exact I|]. exact H.
  - destruct H as (A & B & C & D). destruct (IH t D) as [E F]. split; [auto|].
    replace (last_time t0 ((d, t) :: l1)) with (last_time t l1); auto.
    unfold last_time. cbn [map snd]. clear. revert t. induction l1 as [|[x y] r IHr]; intros t.
    reflexivity. cbn [map snd] in *. destruct r; [reflexivity|]. cbn [map] in *. cbn [last] in *. auto.
Qed.

(** Window bound: [pre] any history, [mid] any further stretch of requests starting at time [t1]. *)
Lemma rate_window cap inc interval b pre d1 t1 mid b' res1 res2 b1 :
  params_ok cap inc interval -> tb_new cap inc interval = Some b ->
  times_ok START (pre ++ (d1, t1) :: mid) ->
  (forall d t, In (d, t) (pre ++ (d1, t1) :: mid) -> wait_fits inc interval d) ->
  tb_run b pre = Some (b1, res1) ->
  tb_run b1 ((d1, t1) :: mid) = Some (b', res2) ->
  removed ((d1, t1) :: mid) res2 <=
    cap + inc * (boundaries interval (last_time t1 mid) - boundaries interval t1).
Proof.
  intros P N T F R1 R2.
  destruct (new_inv _ _ _ _ P N) as (I & B & L & K).
  destruct (times_ok_app _ _ _ T) as [Tp Tm].
  destruct (run_refines cap inc interval P pre b START I) as (b1' & res' & R1' & I1 & L1 & _); auto; try lia.
  { intros; eapply F. apply in_or_app; left; eauto. }
  rewrite R1 in R1'. inversion R1'; subst b1' res'; clear R1'.
  cbn [times_ok] in Tm. destruct Tm as (A & VB & C & D).
  destruct (remove_spec cap inc interval b1 d1 t1 P I1 VB) as (b2 & I2 & K2 & L2 & T2 & X); auto; try lia.
  { eapply F. apply in_or_app; right; left; reflexivity. }
  cbn [tb_run] in R2.
  pose proof (inv_bal _ _ _ _ I1) as HB1. pose proof (inv_bal _ _ _ _ I2) as HB2.
  destruct P as (P1 & P2 & P3 & P4).
  assert (HT : ticks cap inc (Z.to_nat (boundaries interval t1 - k_of b1)) (tb_balance b1) <= cap).
  { apply ticks_le; lia. }
  destruct (run_refines cap inc interval (conj P1 (conj P2 (conj P3 P4))) mid b2 t1 I2) as (b3 & res3 & R3 & I3 & L3 & ID); auto; try lia.
  { intros; eapply F. apply in_or_app; right; right; eauto. }
  pose proof (k_of_after _ _ _ _ _ (conj P1 (conj P2 (conj P3 P4))) I2 L2) as KK.
  destruct (ideal_rate cap inc interval ltac:(lia) P3 mid (tb_balance b2) (k_of b2) t1 (tb_balance b3) (map accepted res3)) with (res := res3) as [Z1 Z2]; auto; try lia.
  destruct X as [(C1 & C2 & C3)|(C1 & C2 & n & C3 & C4 & C5)].
  - rewrite C2 in R2. ob_in R2. rewrite R3 in R2. ob_in R2. inversion R2; subst.
    cbn [removed accepted]. lia.
  - rewrite C5 in R2. ob_in R2. rewrite R3 in R2. ob_in R2. inversion R2; subst.
    cbn [removed accepted]. lia.
Qed.

(** ** Exact waiting time *)
Lemma wait_exact cap inc interval b d now b' w :
  params_ok cap inc interval -> tb_inv cap inc interval b ->
  valid_emu now -> tb_last_refill b <= now -> is_u64 d -> wait_fits inc interval d ->
  tb_conforming_remove b d now = Some (b', TbWait w) ->
  0 < w /\
  (forall t, now <= t < now + w -> valid_emu t ->
     exists b2, tb_conforming_remove b' d t = Some (b2, TbWait (now + w - t))
                \/ (cap < d /\ exists w', tb_conforming_remove b' d t = Some (b2, TbWait w'))) /\
  (d <= cap -> valid_emu (now + w) ->
     exists b2 bal, tb_conforming_remove b' d (now + w) = Some (b2, TbOk bal)) /\
  (cap < d -> forall t, now <= t -> valid_emu t ->
     exists b2 w', tb_conforming_remove b' d t = Some (b2, TbWait w')).
Proof.
  intros P I Vn Hle Hd Hf E.
  destruct (remove_spec cap inc interval b d now P I Vn Hle Hd Hf) as (b1 & I1 & K1 & L1 & T1 & X).
  destruct X as [(C1 & C2 & C3)|(C1 & C2 & n & C3 & C4 & C5)]; [congruence|].
  rewrite C5 in E. inversion E; subst b1 w; clear E.
  pose proof P as (P1 & P2 & P3 & P4).
  pose proof (k_of_after _ _ _ _ _ P I1 L1) as KK.
  pose proof (inv_bal _ _ _ _ I1) as HB.
  assert (Hnow : forall t, now <= t -> valid_emu t ->
    (d <= cap -> t < tb_last_refill b' + interval + interval * (n - 1) ->
      exists b2, tb_conforming_remove b' d t = Some (b2, TbWait (tb_last_refill b' + interval + interval * (n - 1) - t))) /\
    (d <= cap -> t = tb_last_refill b' + interval + interval * (n - 1) ->
      exists b2 bal, tb_conforming_remove b' d t = Some (b2, TbOk bal)) /\
    (cap < d -> exists b2 w', tb_conforming_remove b' d t = Some (b2, TbWait w'))).
  { intros t Ht Vt.
    destruct (remove_spec cap inc interval b' d t P I1 Vt ltac:(lia) Hd Hf) as (b2 & I2 & K2 & L2 & T2 & Y).
    rewrite KK in *. set (k0 := boundaries interval now) in *. set (k1 := boundaries interval t) in *.
    rewrite ticks_closed in Y by lia. rewrite Z2Nat.id in Y by lia. rewrite C2 in *.
    set (bal := ticks cap inc (Z.to_nat (k0 - k_of b)) (tb_balance b)) in *.
    split; [|split].
    - intros Hdc Hlt.
      assert (HK : k1 - k0 <= n - 1) by nia.
      destruct Y as [(D1 & D2 & D3)|(D1 & D2 & m & D3 & D4 & D5)].
      + exfalso. nia.
      + assert (EM : m - 1 + (k1 - k0) = n - 1) by nia.
        exists b2. rewrite D5. do 3 f_equal. nia.
    - intros Hdc Heq.
      assert (HK : k1 - k0 = n) by nia.
      destruct Y as [(D1 & D2 & D3)|(D1 & D2 & m & D3 & D4 & D5)].
      + eauto.
      + exfalso. nia.
    - intros Hdc. destruct Y as [(D1 & D2 & D3)|(D1 & D2 & m & D3 & D4 & D5)].
      + exfalso. lia.
      + eauto. }
  split; [nia|]. split; [|split].
  - intros t Ht Vt. destruct (Hnow t ltac:(lia) Vt) as (A & B & C).
    destruct (Z_le_gt_dec d cap) as [Hc|Hc].
    + destruct (A Hc ltac:(lia)) as (b2 & E2). exists b2. left. rewrite E2. do 3 f_equal. lia.
    + destruct (C ltac:(lia)) as (b2 & w' & E2). exists b2. right. split; [lia|eauto].
  - intros Hc Vt.
    assert (Hge : now <= now + (tb_last_refill b' + interval - now + interval * (n - 1))) by nia.
    destruct (Hnow _ Hge Vt) as (A & B & C). apply B; auto. lia.
  - intros Hc t Ht Vt. destruct (Hnow t Ht Vt) as (A & B & C). auto.
Qed.

(** Same for any bucket reached from [tb_new] by any history. *)
Lemma wait_exact_reachable cap inc interval b0 pre b res d now b' w :
  params_ok cap inc interval -> tb_new cap inc interval = Some b0 ->
  times_ok START (pre ++ [(d, now)]) ->
  (forall d' t, In (d', t) (pre ++ [(d, now)]) -> wait_fits inc interval d') ->
  tb_run b0 pre = Some (b, res) ->
  tb_conforming_remove b d now = Some (b', TbWait w) ->
  0 < w /\
  (forall t, now <= t < now + w -> valid_emu t ->
     exists b2 w', tb_conforming_remove b' d t = Some (b2, TbWait w') /\
                   (d <= cap -> t + w' = now + w)) /\
  (d <= cap -> valid_emu (now + w) ->
     exists b2 bal, tb_conforming_remove b' d (now + w) = Some (b2, TbOk bal)) /\
  (cap < d -> forall t, now <= t -> valid_emu t ->
     exists b2 w', tb_conforming_remove b' d t = Some (b2, TbWait w')).
Proof.
  intros P N T F R E.
  destruct (new_inv _ _ _ _ P N) as (I & B & L & K).
  destruct (times_ok_app _ _ _ T) as [Tp Tm]. cbn [times_ok] in Tm. destruct Tm as (A & VB & C & _).
  destruct (run_refines cap inc interval P pre b0 START I) as (b1 & res' & R1 & I1 & L1 & _); auto; try lia.
  { intros; eapply F. apply in_or_app; left; eauto. }
  rewrite R in R1. inversion R1; subst b1 res'; clear R1.
  destruct (wait_exact cap inc interval b d now b' w P I1 VB) as (W0 & W1 & W2 & W3); auto; try lia.
  { eapply F. apply in_or_app; right; left; reflexivity. }
  split; [auto|]. split; [|split]; auto.
  intros t Ht Vt. destruct (W1 t Ht Vt) as (b2 & [E2|(Hc & w' & E2)]).
  - exists b2, (now + w - t). split; [auto|lia].
  - exists b2, w'. split; [auto|lia].
Qed.
