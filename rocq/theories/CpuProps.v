(** C07, the CPU model by itself. *)
From Verif Require Import Base CpuModel CpuSpec CpuProofs.

(** C07. Without a precision the work charged is the native work scaled by the frequencies. *)
Theorem C07_charge_exact : forall c n, cpu_sim_freq c <> 0 -> cpu_precision c = None ->
  cpu_charge c n = Some (n * cpu_native_freq c / cpu_sim_freq c).
Proof. exact charge_exact. Qed.
Print Assumptions C07_charge_exact.
Example C07_charge_exact_case : cpu_charge (mkCpu 2000 3000 None None 0 0) 100 = Some 150.
Proof. reflexivity. Qed.

(** C07. With an even precision it is rounded to the nearest multiple, up from the midpoint. *)
Theorem C07_charge_rounded : forall c n p, cpu_sim_freq c <> 0 -> cpu_precision c = Some p -> 0 < p -> Z.even p = true ->
  exists r, cpu_charge c n = Some r /\ rounds_to p (n * cpu_native_freq c / cpu_sim_freq c) r.
Proof. exact charge_rounded. Qed.
Print Assumptions C07_charge_rounded.
Example C07_charge_rounded_case : cpu_charge (mkCpu 1 1 None (Some 200) 0 0) 1100 = Some 1200 /\
  cpu_charge (mkCpu 1 1 None (Some 200) 0 0) 1099 = Some 1000.
Proof. split; reflexivity. Qed.

(** C07. With any precision it is a multiple, off by at most one multiple. *)
Theorem C07_charge_near : forall c n p, cpu_sim_freq c <> 0 -> cpu_precision c = Some p -> 0 < p ->
  exists r, cpu_charge c n = Some r /\ (p | r) /\ Z.abs (r - n * cpu_native_freq c / cpu_sim_freq c) <= p.
Proof. exact charge_near. Qed.
Print Assumptions C07_charge_near.
Example C07_charge_near_case : cpu_charge (mkCpu 1 1 None (Some 1) 0 0) 7 = Some 8.
Proof. reflexivity. Qed.

(** C07, finding: with an odd precision the charge is not the nearest multiple (2 of 5 becomes 5). *)
Theorem C07_charge_nearest_refuted : exists n p r, 0 < p /\
  cpu_charge (mkCpu 1 1 None (Some p) 0 0) n = Some r /\ ~ rounds_to p n r.
Proof. exact odd_precision. Qed.
Print Assumptions C07_charge_nearest_refuted.

(** C07. After any history of work and clock changes the delay is exactly the part of the total
    charged work lying beyond the clock (counted from the Unix epoch), when above the threshold. *)
Theorem C07_delay : forall simf natf th prec l c0 c, cpu_new simf natf (Some th) prec = Some c0 -> 0 <= th ->
  cpu_run c0 l = Some c ->
  cpu_delay c = let b := charged simf natf prec l - clock_of 0 l in if th <? b then b else 0.
Proof. exact delay_spec. Qed.
Print Assumptions C07_delay.
Example C07_delay_case : exists c0 c, cpu_new 1 1 (Some 10) None = Some c0 /\
  cpu_run c0 [UWork 5; UTime 3; UWork 20] = Some c /\ cpu_delay c = 22.
Proof. eexists _, _. split; [reflexivity|]. split; reflexivity. Qed.

(** C07. With a non-zero frequency no history panics. *)
Theorem C07_cpu_no_panic : forall l c, cpu_sim_freq c <> 0 -> exists c', cpu_run c l = Some c'.
Proof. exact run_no_panic. Qed.
Print Assumptions C07_cpu_no_panic.

(** C07. Without a threshold there is never a delay. *)
Theorem C07_no_threshold : forall simf natf prec l c0 c, cpu_new simf natf None prec = Some c0 ->
  cpu_run c0 l = Some c -> cpu_delay c = 0.
Proof. exact no_threshold. Qed.
Print Assumptions C07_no_threshold.

(** C07, finding: the busy period starts at the Unix epoch, while clocks of a simulation start at
    1 January 2000. Until 30 years of work have been charged the CPU never causes any delay. *)
Theorem C07_inert : forall simf natf th prec l c0 c start, cpu_new simf natf th prec = Some c0 ->
  (forall t, th = Some t -> 0 <= t) -> cpu_run c0 l = Some c ->
  start <= clock_of 0 l -> charged simf natf prec l <= start -> cpu_delay c = 0.
Proof. exact inert. Qed.
Print Assumptions C07_inert.

(** C07, finding: so the delay is not bounded below by the accumulated work (here one hour of work at
    the start of the simulation leaves the processor busy for an hour, the delay reported is 0). *)
Theorem C07_delay_covers_work_refuted : exists c0 c start work,
  start = 946684800000000000 /\ cpu_new 1 1 (Some 0) None = Some c0 /\
  cpu_run c0 [UTime start; UWork work] = Some c /\
  fst (busy_until 1 1 0 0 [UTime start; UWork work]) - start = 3600000000000 /\ cpu_delay c = 0.
Proof.
  eexists _, _, 946684800000000000, 3600000000000. split; [reflexivity|]. split; [reflexivity|].
  split; [vm_compute; reflexivity|]. split; vm_compute; reflexivity.
Qed.
Print Assumptions C07_delay_covers_work_refuted.
