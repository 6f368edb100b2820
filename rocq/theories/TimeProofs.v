From Verif Require Import Base TimeModel TimeSpec.
Local Ltac Zify.zify_post_hook ::= Z.div_mod_to_equations.

Ltac tunf := unfold exact_or_none, valid_sim, valid_emu, SIM_LIMIT, EMU_LIMIT, is_u64, is_i64,
  sim_checked_add, sim_checked_sub, sim_checked_mul, sim_checked_div, sim_checked_rem,
  sim_saturating_add, sim_saturating_sub, sim_saturating_mul,
  emu_saturating_add, emu_saturating_sub, emu_from_abs_simtime, emu_to_abs_simtime,
  emu_saturating_duration_since, emu_checked_add, emu_checked_sub,
  emu_duration_since, emu_checked_duration_since, obind,
  u64_checked_add, u64_checked_sub, u64_checked_mul, u64_checked_div, u64_checked_rem,
  from_c_simtime, to_c_simtime, from_c_emutime, to_c_emutime,
  SIMTIME_INVALID, SIMTIME_MAX, SIMTIME_MIN, SIMTIME_ONE_NANOSECOND, SIMTIME_ONE_SECOND,
  SIMTIME_ONE_MILLISECOND, SIMTIME_ONE_MICROSECOND,
  EMUTIME_INVALID, EMUTIME_MAX, EMUTIME_SIMULATION_START, U64_MAX, I64_MAX, clamp in *.

Ltac brk := repeat match goal with
  | |- context [if ?b then _ else _] => let E := fresh "E" in destruct b eqn:E; cbv beta iota
  | H : context [if ?b then _ else _] |- _ => let E := fresh "E" in destruct b eqn:E; cbv beta iota in H
  end.

Ltac tsolve := tunf; brk; rewrite ?Z.div_1_r; try (repeat split; intros); try congruence; try lia;
  try (f_equal; lia).

Lemma sim_checked_add_exact a b : valid_sim a -> valid_sim b ->
  exact_or_none valid_sim (a + b) (sim_checked_add a b).
Proof. intros. tsolve. Qed.

Lemma sim_checked_sub_exact a b : valid_sim a -> valid_sim b ->
  exact_or_none valid_sim (a - b) (sim_checked_sub a b).
Proof. intros. tsolve. Qed.

Lemma sim_checked_mul_exact a k : valid_sim a -> is_u64 k ->
  exact_or_none valid_sim (a * k) (sim_checked_mul a k).
Proof. intros. assert (0 <= a * k) by (unfold valid_sim, is_u64 in *; nia). 
  remember (a * k) as p eqn:E. unfold sim_checked_mul, u64_checked_mul. rewrite <- E. clear E.
  tsolve. Qed.

Lemma sim_checked_div_exact a k : valid_sim a -> is_u64 k ->
  (0 < k -> sim_checked_div a k = Some (a / k)) /\ (k = 0 -> sim_checked_div a k = None).
Proof.
  intros Ha Hk. split; intros; [|subst; reflexivity].
  assert (0 <= a / k <= a).
  { split. apply Z.div_pos; unfold valid_sim in *; lia.
    apply Z.div_le_upper_bound; unfold valid_sim in *; try lia. nia. }
  unfold sim_checked_div, u64_checked_div. destruct (k =? 0) eqn:E; [lia|].
  remember (a / k) as q. clear Heqq. tsolve.
Qed.

Lemma sim_checked_rem_exact a b : valid_sim a -> valid_sim b ->
  (0 < b -> sim_checked_rem a b = Some (a mod b)) /\ (b = 0 -> sim_checked_rem a b = None).
Proof.
  intros Ha Hk. split; intros; [|subst; reflexivity].
  assert (0 <= a mod b < b) by (apply Z.mod_pos_bound; lia).
  unfold sim_checked_rem, u64_checked_rem. destruct (b =? 0) eqn:E; [lia|].
  remember (a mod b) as q. clear Heqq. tsolve.
Qed.

Lemma sim_saturating_sub_clamp a b : valid_sim a -> valid_sim b ->
  sim_saturating_sub a b = Some (clamp 0 SIM_LIMIT (a - b)).
Proof. intros. tsolve. Qed.

(** saturating_add and saturating_mul saturate only on u64 overflow; in the gap
    between SIMTIME_MAX and u64::MAX they panic. *)
Lemma sim_saturating_add_cases a b : valid_sim a -> valid_sim b ->
  (a + b <= SIM_LIMIT -> sim_saturating_add a b = Some (a + b)) /\
  (SIM_LIMIT < a + b <= 2^64 - 1 -> sim_saturating_add a b = None) /\
  (2^64 - 1 < a + b -> sim_saturating_add a b = Some SIM_LIMIT).
Proof. intros. tsolve. Qed.

Lemma sim_saturating_mul_cases a k : valid_sim a -> is_u64 k ->
  (a * k <= SIM_LIMIT -> sim_saturating_mul a k = Some (a * k)) /\
  (SIM_LIMIT < a * k <= 2^64 - 1 -> sim_saturating_mul a k = None) /\
  (2^64 - 1 < a * k -> sim_saturating_mul a k = Some SIM_LIMIT).
Proof.
  intros. assert (0 <= a * k) by (unfold valid_sim, is_u64 in *; nia).
  unfold sim_saturating_mul, u64_checked_mul. remember (a * k) as p eqn:E. clear E. tsolve.
Qed.

Lemma emu_checked_add_exact t d : valid_emu t -> valid_sim d ->
  exact_or_none valid_emu (t + d) (emu_checked_add t d).
Proof. intros. tsolve. Qed.

Lemma emu_checked_sub_exact t d : valid_emu t -> valid_sim d ->
  exact_or_none valid_emu (t - d) (emu_checked_sub t d).
Proof. intros. tsolve. Qed.

Lemma emu_checked_duration_exact t e : valid_emu t -> valid_emu e ->
  exact_or_none valid_sim (t - e) (emu_checked_duration_since t e).
Proof. intros. tsolve. Qed.

Lemma emu_saturating_add_clamp t d : valid_emu t -> valid_sim d ->
  emu_saturating_add t d = clamp 0 EMU_LIMIT (t + d).
Proof. intros. tsolve. Qed.

Lemma sim_emu_roundtrip d : valid_sim d ->
  exists t, emu_from_abs_simtime d = Some t /\ valid_emu t /\ emu_to_abs_simtime t = Some d.
Proof. intros. exists (EMUTIME_SIMULATION_START + d). tsolve. Qed.

Lemma emu_sim_roundtrip t : valid_emu t -> EMUTIME_SIMULATION_START <= t ->
  exists d, emu_to_abs_simtime t = Some d /\ valid_sim d /\ emu_from_abs_simtime d = Some t.
Proof. intros. exists (t - EMUTIME_SIMULATION_START). tsolve. Qed.

Lemma emu_to_abs_before_start t : valid_emu t -> t < EMUTIME_SIMULATION_START ->
  emu_to_abs_simtime t = None.
Proof. intros. tsolve. Qed.

Lemma c_simtime_roundtrip v : is_u64 v ->
  (valid_sim v -> from_c_simtime v = Some v /\ to_c_simtime (from_c_simtime v) = v) /\
  (~ valid_sim v -> from_c_simtime v = None /\ to_c_simtime (from_c_simtime v) = 2^64 - 1).
Proof. intros. tsolve. Qed.

Lemma c_emutime_roundtrip v : is_u64 v ->
  (valid_emu v -> from_c_emutime v = Some v /\ to_c_emutime (from_c_emutime v) = v) /\
  (~ valid_emu v -> from_c_emutime v = None /\ to_c_emutime (from_c_emutime v) = 2^64 - 1).
Proof. intros. tsolve. Qed.

Lemma timespec_roundtrip_sim t : valid_sim t ->
  exists ts, timespec_try_from_sim t = Some ts /\
    0 <= tv_nsec ts < 10^9 /\ tv_sec ts * 10^9 + tv_nsec ts = t /\
    sim_try_from_timespec ts = Some t.
Proof.
  intros H. unfold timespec_try_from_sim.
  destruct (t / 1000000000 >? I64_MAX) eqn:E.
  { tunf. lia. }
  eexists; split; [reflexivity|]. cbn [tv_sec tv_nsec].
  unfold sim_try_from_timespec, sim_try_from_duration. cbn [tv_sec tv_nsec].
  repeat split; try lia.
  destruct ((t / 1000000000 <? 0) || (t mod 1000000000 <? 0) || (t mod 1000000000 >? 999999999)) eqn:E1.
  { tunf; lia. }
  destruct (t / 1000000000 * 1000000000 + t mod 1000000000 >? SIMTIME_MAX) eqn:E2.
  { tunf; lia. }
  f_equal. lia.
Qed.

Lemma timespec_decode ts t : is_i64 (tv_sec ts) -> is_i64 (tv_nsec ts) ->
  (sim_try_from_timespec ts = Some t <->
   0 <= tv_sec ts /\ 0 <= tv_nsec ts < 10^9 /\ t = tv_sec ts * 10^9 + tv_nsec ts /\ valid_sim t).
Proof.
  destruct ts as [s n]; cbn [tv_sec tv_nsec]. intros Hs Hn.
  unfold sim_try_from_timespec, sim_try_from_duration; cbn [tv_sec tv_nsec].
  split.
  - tunf. brk; intros Q; inversion Q; subst. lia.
  - intros (A & B & C & D). subst t. tunf. brk; try lia. reflexivity.
Qed.

Lemma timeval_roundtrip_sim t : valid_sim t ->
  exists tv, timeval_try_from_sim t = Some tv /\
    0 <= tvv_usec tv < 10^6 /\ tvv_sec tv * 10^6 + tvv_usec tv = t / 1000 /\
    sim_try_from_timeval tv = Some (t / 1000 * 1000).
Proof.
  intros H. unfold timeval_try_from_sim.
  destruct (t / 1000000000 >? I64_MAX) eqn:E.
  { tunf. lia. }
  eexists; split; [reflexivity|]. cbn [tvv_sec tvv_usec].
  unfold sim_try_from_timeval, sim_try_from_duration. cbn [tvv_sec tvv_usec].
  assert (K: t / 1000000000 * 1000000 + t mod 1000000000 / 1000 = t / 1000) by lia.
  repeat split; try lia.
  destruct ((t / 1000000000 <? 0) || (t mod 1000000000 / 1000 <? 0) || (t mod 1000000000 / 1000 >? 999999)) eqn:E1.
  { tunf; lia. }
  destruct (t / 1000000000 * 1000000000 + t mod 1000000000 / 1000 * 1000 >? SIMTIME_MAX) eqn:E2.
  { tunf; lia. }
  f_equal. lia.
Qed.

Lemma timeval_decode tv t : is_i64 (tvv_sec tv) -> is_i64 (tvv_usec tv) ->
  (sim_try_from_timeval tv = Some t <->
   0 <= tvv_sec tv /\ 0 <= tvv_usec tv < 10^6 /\ t = tvv_sec tv * 10^9 + tvv_usec tv * 1000 /\ valid_sim t).
Proof.
  destruct tv as [s n]; cbn [tvv_sec tvv_usec]. intros Hs Hn.
  unfold sim_try_from_timeval, sim_try_from_duration; cbn [tvv_sec tvv_usec].
  split.
  - tunf. brk; intros Q; inversion Q; subst. lia.
  - intros (A & B & C & D). subst t. tunf. brk; try lia. reflexivity.
Qed.

Lemma subsec_decompose t : valid_sim t ->
  t = sim_as_secs t * 10^9 + sim_subsec_nanos t /\
  sim_as_micros t = sim_as_secs t * 10^6 + sim_subsec_micros t /\
  sim_as_millis t = sim_as_secs t * 10^3 + sim_subsec_millis t /\
  0 <= sim_subsec_nanos t < 10^9 /\ 0 <= sim_subsec_micros t < 10^6 /\ 0 <= sim_subsec_millis t < 10^3.
Proof.
  unfold sim_as_secs, sim_subsec_nanos, sim_subsec_micros, sim_subsec_millis, sim_as_nanos,
    sim_as_micros, sim_as_millis. intros. tunf. rewrite Z.div_1_r. lia.
Qed.

Lemma sim_checked_all : forall a b k,
  valid_sim a -> valid_sim b -> is_u64 k ->
  exact_or_none valid_sim (a + b) (sim_checked_add a b) /\
  exact_or_none valid_sim (a - b) (sim_checked_sub a b) /\
  exact_or_none valid_sim (a * k) (sim_checked_mul a k) /\
  (0 < k -> sim_checked_div a k = Some (a / k)) /\ (k = 0 -> sim_checked_div a k = None) /\
  (0 < b -> sim_checked_rem a b = Some (a mod b)) /\ (b = 0 -> sim_checked_rem a b = None).
Proof.
  intros a b k Ha Hb Hk.
  destruct (sim_checked_div_exact a k Ha Hk). destruct (sim_checked_rem_exact a b Ha Hb).
  auto 10 using sim_checked_add_exact, sim_checked_sub_exact, sim_checked_mul_exact.
Qed.

Lemma emu_checked_all : forall t e d,
  valid_emu t -> valid_emu e -> valid_sim d ->
  exact_or_none valid_emu (t + d) (emu_checked_add t d) /\
  exact_or_none valid_emu (t - d) (emu_checked_sub t d) /\
  exact_or_none valid_sim (t - e) (emu_checked_duration_since t e) /\
  emu_saturating_add t d = clamp 0 EMU_LIMIT (t + d).
Proof.
  intros; auto using emu_checked_add_exact, emu_checked_sub_exact, emu_checked_duration_exact,
    emu_saturating_add_clamp.
Qed.

Lemma sim_emu_roundtrip_strong d : valid_sim d ->
  exists t, emu_from_abs_simtime d = Some t /\ t = 946684800 * 10^9 + d /\ valid_emu t /\
            emu_to_abs_simtime t = Some d.
Proof. intros. exists (EMUTIME_SIMULATION_START + d). tsolve. Qed.

Lemma emu_sim_roundtrip_strong t : valid_emu t ->
  (946684800 * 10^9 <= t -> exists d, emu_to_abs_simtime t = Some d /\ valid_sim d /\
                            emu_from_abs_simtime d = Some t) /\
  (t < 946684800 * 10^9 -> emu_to_abs_simtime t = None).
Proof.
  split; intros. apply emu_sim_roundtrip; auto. apply emu_to_abs_before_start; auto.
Qed.

Lemma c_repr_roundtrip v : is_u64 v ->
  (valid_sim v -> from_c_simtime v = Some v /\ to_c_simtime (from_c_simtime v) = v) /\
  (~ valid_sim v -> from_c_simtime v = None /\ to_c_simtime (from_c_simtime v) = 2^64 - 1) /\
  (valid_emu v -> from_c_emutime v = Some v /\ to_c_emutime (from_c_emutime v) = v) /\
  (~ valid_emu v -> from_c_emutime v = None /\ to_c_emutime (from_c_emutime v) = 2^64 - 1).
Proof. intros. destruct (c_simtime_roundtrip v), (c_emutime_roundtrip v); auto. Qed.

Lemma sim_saturating_all a b k : valid_sim a -> valid_sim b -> is_u64 k ->
  sim_saturating_sub a b = Some (clamp 0 SIM_LIMIT (a - b)) /\
  ((a + b <= SIM_LIMIT -> sim_saturating_add a b = Some (a + b)) /\
   (SIM_LIMIT < a + b <= 2^64 - 1 -> sim_saturating_add a b = None) /\
   (2^64 - 1 < a + b -> sim_saturating_add a b = Some SIM_LIMIT)) /\
  ((a * k <= SIM_LIMIT -> sim_saturating_mul a k = Some (a * k)) /\
   (SIM_LIMIT < a * k <= 2^64 - 1 -> sim_saturating_mul a k = None) /\
   (2^64 - 1 < a * k -> sim_saturating_mul a k = Some SIM_LIMIT)).
Proof.
  intros; auto using sim_saturating_sub_clamp, sim_saturating_add_cases, sim_saturating_mul_cases.
Qed.

Lemma sim_saturating_add_panics :
  exists a b, valid_sim a /\ valid_sim b /\ sim_saturating_add a b = None.
Proof. exists SIMTIME_MAX, 1. vm_compute. intuition congruence. Qed.

Lemma emu_saturating_sub_not_monotone :
  exists t d1 d2, valid_emu t /\ valid_sim d1 /\ valid_sim d2 /\ d1 <= d2 /\
    emu_saturating_sub t d1 < emu_saturating_sub t d2.
Proof. exists 5, 0, 6. vm_compute. intuition congruence. Qed.

Lemma emu_saturating_duration t e : valid_emu t -> valid_emu e ->
  (e <= t <= e + SIM_LIMIT -> emu_saturating_duration_since t e = t - e) /\
  (t < e -> emu_saturating_duration_since t e = 0) /\
  (e + SIM_LIMIT < t -> emu_saturating_duration_since t e = 0) /\
  (e <= t <= e + SIM_LIMIT <-> emu_duration_since t e <> None).
Proof.
  intros Ht He. destruct (emu_checked_all t e 0 Ht He ltac:(unfold valid_sim, SIM_LIMIT; lia)) as (_ & _ & (A & B) & _).
  unfold emu_saturating_duration_since, emu_duration_since. unfold valid_sim in *.
  split; [intros H; rewrite A by lia; reflexivity|].
  split; [intros H; rewrite B by lia; reflexivity|].
  split; [intros H; rewrite B by (unfold SIM_LIMIT in *; lia); reflexivity|].
  split.
  - intros H. rewrite A by lia. discriminate.
  - intros H. destruct (Z.le_gt_cases e t); [|rewrite B in H by lia; congruence].
    destruct (Z.le_gt_cases t (e + SIM_LIMIT)); [lia|]. rewrite B in H by lia. congruence.
Qed.
Lemma emu_saturating_duration_zero :
  exists t e, valid_emu t /\ valid_emu e /\ e < t /\ emu_saturating_duration_since t e = 0.
Proof. exists EMU_LIMIT, 0. unfold valid_emu, EMU_LIMIT. repeat split; try lia. Qed.
