(** Model of src/main/host/cpu.rs (whole file but tests).
    Times are nanoseconds. Simplification: [u128] products and the [u64]/EmulatedTime additions are
    exact integers; the code panics instead when a total exceeds about 500 years. *)
From Verif Require Import Base.

(** cpu.rs:8-15 *)
Record cpu : Type := mkCpu {
  cpu_sim_freq : Z; cpu_native_freq : Z;
  cpu_threshold : option Z; cpu_precision : option Z;
  cpu_now : Z; cpu_avail : Z }.

(** cpu.rs:23-41; EmulatedTime::MIN is 0 (the Unix epoch) *)
Definition cpu_new (simf natf : Z) (threshold precision : option Z) : option cpu :=
  check (match precision with Some p => 0 <? p | None => true end);
  Some (mkCpu simf natf threshold precision 0 0).

(** cpu.rs:44-46 *)
Definition cpu_update_time (c : cpu) (now : Z) : cpu :=
  mkCpu (cpu_sim_freq c) (cpu_native_freq c) (cpu_threshold c) (cpu_precision c) now (cpu_avail c).

(** cpu.rs:52-75: the delay charged for [native] nanoseconds of native execution.
    [None]: division by a zero frequency. *)
Definition cpu_charge (c : cpu) (native : Z) : option Z :=
  check (negb (cpu_sim_freq c =? 0));
  let adj := native * cpu_native_freq c / cpu_sim_freq c in
  Some match cpu_precision c with
       | None => adj
       | Some p =>
           let remainder := adj mod p in
           let adj1 := adj - remainder in
           if p / 2 <=? remainder then adj1 + p else adj1
       end.

(** cpu.rs:49-78 *)
Definition cpu_add_delay (c : cpu) (native : Z) : option cpu :=
  do d <- cpu_charge c native;
  Some (mkCpu (cpu_sim_freq c) (cpu_native_freq c) (cpu_threshold c) (cpu_precision c)
              (cpu_now c) (cpu_avail c + d)).

(** cpu.rs:81-93 *)
Definition cpu_delay (c : cpu) : Z :=
  match cpu_threshold c with
  | None => 0
  | Some th =>
      if cpu_now c <=? cpu_avail c
      then let built_up := cpu_avail c - cpu_now c in
           if th <? built_up then built_up else 0
      else 0
  end.
