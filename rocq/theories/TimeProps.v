(** C26: simulation and emulation time convert faithfully. *)
From Verif Require Import Base TimeModel TimeSpec TimeProofs.

(** Checked arithmetic: the exact mathematical result, or nothing when it is out of range. *)
Theorem C26_sim_checked_arith_exact : forall a b k,
  valid_sim a -> valid_sim b -> is_u64 k ->
  exact_or_none valid_sim (a + b) (sim_checked_add a b) /\
  exact_or_none valid_sim (a - b) (sim_checked_sub a b) /\
  exact_or_none valid_sim (a * k) (sim_checked_mul a k) /\
  (0 < k -> sim_checked_div a k = Some (a / k)) /\ (k = 0 -> sim_checked_div a k = None) /\
  (0 < b -> sim_checked_rem a b = Some (a mod b)) /\ (b = 0 -> sim_checked_rem a b = None).
Proof. exact sim_checked_all. Qed.
Print Assumptions C26_sim_checked_arith_exact.

Example C26_sim_checked_arith_ex :
  sim_checked_add 17500059273709551613 1 = Some 17500059273709551614 /\
  sim_checked_add 17500059273709551614 1 = None /\
  sim_checked_mul 5000000000 4000000000 = None /\
  sim_checked_sub 3 4 = None /\ sim_checked_rem 17 5 = Some 2.
Proof. vm_compute. repeat split. Qed.

Theorem C26_emu_checked_arith_exact : forall t e d,
  valid_emu t -> valid_emu e -> valid_sim d ->
  exact_or_none valid_emu (t + d) (emu_checked_add t d) /\
  exact_or_none valid_emu (t - d) (emu_checked_sub t d) /\
  exact_or_none valid_sim (t - e) (emu_checked_duration_since t e) /\
  emu_saturating_add t d = clamp 0 EMU_LIMIT (t + d).
Proof. exact emu_checked_all. Qed.
Print Assumptions C26_emu_checked_arith_exact.

Example C26_emu_checked_arith_ex :
  emu_checked_add 946684800000000000 17500059273709551614 = Some 18446744073709551614 /\
  emu_checked_add 946684800000000001 17500059273709551614 = None /\
  emu_saturating_add 946684800000000001 17500059273709551614 = 18446744073709551614.
Proof. vm_compute. repeat split. Qed.

(** Conversions round-trip on their domain. *)
Theorem C26_sim_emu_roundtrip : forall d, valid_sim d ->
  exists t, emu_from_abs_simtime d = Some t /\ t = 946684800 * 10^9 + d /\ valid_emu t /\
            emu_to_abs_simtime t = Some d.
Proof. exact sim_emu_roundtrip_strong. Qed.
Print Assumptions C26_sim_emu_roundtrip.

Theorem C26_emu_sim_roundtrip : forall t, valid_emu t ->
  (946684800 * 10^9 <= t -> exists d, emu_to_abs_simtime t = Some d /\ valid_sim d /\
                            emu_from_abs_simtime d = Some t) /\
  (t < 946684800 * 10^9 -> emu_to_abs_simtime t = None).
Proof. exact emu_sim_roundtrip_strong. Qed.
Print Assumptions C26_emu_sim_roundtrip.

Theorem C26_c_repr_roundtrip : forall v, is_u64 v ->
  (valid_sim v -> from_c_simtime v = Some v /\ to_c_simtime (from_c_simtime v) = v) /\
  (~ valid_sim v -> from_c_simtime v = None /\ to_c_simtime (from_c_simtime v) = 2^64 - 1) /\
  (valid_emu v -> from_c_emutime v = Some v /\ to_c_emutime (from_c_emutime v) = v) /\
  (~ valid_emu v -> from_c_emutime v = None /\ to_c_emutime (from_c_emutime v) = 2^64 - 1).
Proof. exact c_repr_roundtrip. Qed.
Print Assumptions C26_c_repr_roundtrip.

(** Encoding as timespec never fails, is canonical, and decodes to the same time; decoding
    accepts exactly the canonical in-range structures. *)
Theorem C26_timespec_roundtrip : forall t, valid_sim t ->
  exists ts, timespec_try_from_sim t = Some ts /\
    0 <= tv_nsec ts < 10^9 /\ tv_sec ts * 10^9 + tv_nsec ts = t /\
    sim_try_from_timespec ts = Some t.
Proof. exact timespec_roundtrip_sim. Qed.
Print Assumptions C26_timespec_roundtrip.

Theorem C26_timespec_decode : forall ts t, is_i64 (tv_sec ts) -> is_i64 (tv_nsec ts) ->
  (sim_try_from_timespec ts = Some t <->
   0 <= tv_sec ts /\ 0 <= tv_nsec ts < 10^9 /\ t = tv_sec ts * 10^9 + tv_nsec ts /\ valid_sim t).
Proof. exact timespec_decode. Qed.
Print Assumptions C26_timespec_decode.

Example C26_timespec_ex :
  timespec_try_from_sim 12345678901 = Some {| tv_sec := 12; tv_nsec := 345678901 |} /\
  sim_try_from_timespec {| tv_sec := 12; tv_nsec := 1000000000 |} = None.
Proof. vm_compute. repeat split. Qed.

Theorem C26_timeval_roundtrip : forall t, valid_sim t ->
  exists tv, timeval_try_from_sim t = Some tv /\
    0 <= tvv_usec tv < 10^6 /\ tvv_sec tv * 10^6 + tvv_usec tv = t / 1000 /\
    sim_try_from_timeval tv = Some (t / 1000 * 1000).
Proof. exact timeval_roundtrip_sim. Qed.
Print Assumptions C26_timeval_roundtrip.

Theorem C26_timeval_decode : forall tv t, is_i64 (tvv_sec tv) -> is_i64 (tvv_usec tv) ->
  (sim_try_from_timeval tv = Some t <->
   0 <= tvv_sec tv /\ 0 <= tvv_usec tv < 10^6 /\
   t = tvv_sec tv * 10^9 + tvv_usec tv * 1000 /\ valid_sim t).
Proof. exact timeval_decode. Qed.
Print Assumptions C26_timeval_decode.

(** Seconds, milli-, micro- and nanosecond views are consistent. *)
Theorem C26_subsec_decompose : forall t, valid_sim t ->
  t = sim_as_secs t * 10^9 + sim_subsec_nanos t /\
  sim_as_micros t = sim_as_secs t * 10^6 + sim_subsec_micros t /\
  sim_as_millis t = sim_as_secs t * 10^3 + sim_subsec_millis t /\
  0 <= sim_subsec_nanos t < 10^9 /\ 0 <= sim_subsec_micros t < 10^6 /\ 0 <= sim_subsec_millis t < 10^3.
Proof. exact subsec_decompose. Qed.
Print Assumptions C26_subsec_decompose.

(** Saturating arithmetic on simulation times: subtraction saturates at zero; addition and
    multiplication are exact up to the maximum, saturate on 64-bit overflow, but panic in the
    gap between the maximum and 2^64-1 (finding F1). *)
Theorem C26_sim_saturating_partial : forall a b k, valid_sim a -> valid_sim b -> is_u64 k ->
  sim_saturating_sub a b = Some (clamp 0 SIM_LIMIT (a - b)) /\
  ((a + b <= SIM_LIMIT -> sim_saturating_add a b = Some (a + b)) /\
   (SIM_LIMIT < a + b <= 2^64 - 1 -> sim_saturating_add a b = None) /\
   (2^64 - 1 < a + b -> sim_saturating_add a b = Some SIM_LIMIT)) /\
  ((a * k <= SIM_LIMIT -> sim_saturating_mul a k = Some (a * k)) /\
   (SIM_LIMIT < a * k <= 2^64 - 1 -> sim_saturating_mul a k = None) /\
   (2^64 - 1 < a * k -> sim_saturating_mul a k = Some SIM_LIMIT)).
Proof. exact sim_saturating_all. Qed.
Print Assumptions C26_sim_saturating_partial.

(** F1: "saturating addition never panics" is false of the code. *)
Theorem C26_sim_saturating_add_total_refuted :
  exists a b, valid_sim a /\ valid_sim b /\ sim_saturating_add a b = None.
Proof. exact sim_saturating_add_panics. Qed.
Print Assumptions C26_sim_saturating_add_total_refuted.

(** F2: "saturating subtraction of an emulated time is monotone in the duration" is false:
    subtracting more can give a later instant. *)
Theorem C26_emu_saturating_sub_monotone_refuted :
  exists t d1 d2, valid_emu t /\ valid_sim d1 /\ valid_sim d2 /\ d1 <= d2 /\
    emu_saturating_sub t d1 < emu_saturating_sub t d2.
Proof. exact emu_saturating_sub_not_monotone. Qed.
Print Assumptions C26_emu_saturating_sub_monotone_refuted.

(** The saturating difference of emulated times is exact when representable, zero when negative,
    and also zero when it is too large to represent; the panicking one succeeds exactly in the
    first case. *)
Theorem C26_emu_saturating_duration : forall t e, valid_emu t -> valid_emu e ->
  (e <= t <= e + SIM_LIMIT -> emu_saturating_duration_since t e = t - e) /\
  (t < e -> emu_saturating_duration_since t e = 0) /\
  (e + SIM_LIMIT < t -> emu_saturating_duration_since t e = 0) /\
  (e <= t <= e + SIM_LIMIT <-> emu_duration_since t e <> None).
Proof. exact emu_saturating_duration. Qed.
Print Assumptions C26_emu_saturating_duration.

(** F3: "the difference is 0 only if [earlier] is not before the time" is false. *)
Theorem C26_emu_saturating_duration_refuted :
  exists t e, valid_emu t /\ valid_emu e /\ e < t /\ emu_saturating_duration_since t e = 0.
Proof. exact emu_saturating_duration_zero. Qed.
Print Assumptions C26_emu_saturating_duration_refuted.
Example C26_emu_saturating_duration_ex :
  emu_saturating_duration_since 946684800000000005 946684800000000002 = 3 /\
  emu_saturating_duration_since 946684800000000002 946684800000000005 = 0.
Proof. split; reflexivity. Qed.
