(** Model of src/lib/shadow-shim-helper-rs/src/simulation_time.rs and emulated_time.rs.
    A SimulationTime / EmulatedTime is its inner u64, as a [Z].
    [None] in a function named after a panicking Rust function is the panic;
    in a function returning Option/Result in Rust it is None/Err. *)
From Verif Require Import Base.

(* simulation_time.rs:532 *)
Definition SIMTIME_INVALID : Z := U64_MAX.
(* simulation_time.rs:538 *)
Definition SIMTIME_MAX : Z := 17500059273709551614.
(* simulation_time.rs:542 *)
Definition SIMTIME_MIN : Z := 0.
(* simulation_time.rs:545-554 *)
Definition SIMTIME_ONE_NANOSECOND : Z := 1.
Definition SIMTIME_ONE_MICROSECOND : Z := 1000.
Definition SIMTIME_ONE_MILLISECOND : Z := 1000000.
Definition SIMTIME_ONE_SECOND : Z := 1000000000.
(* emulated_time.rs:29-37 *)
Definition EMUTIME_INVALID : Z := U64_MAX.
Definition EMUTIME_MAX : Z := U64_MAX - 1.
Definition EMUTIME_SIMULATION_START : Z := 946684800 * 1000000000.

(* simulation_time.rs:38-48 *)
Definition from_c_simtime (v : Z) : option Z :=
  if v =? SIMTIME_INVALID then None
  else if v >? SIMTIME_MAX then None
  else Some (v / SIMTIME_ONE_NANOSECOND).

(* simulation_time.rs:50-52 *)
Definition to_c_simtime (v : option Z) : Z :=
  match v with None => SIMTIME_INVALID | Some x => x end.

(* simulation_time.rs:77-91 *)
Definition sim_as_secs (t : Z) : Z := t / SIMTIME_ONE_SECOND.
Definition sim_as_millis (t : Z) : Z := t / SIMTIME_ONE_MILLISECOND.
Definition sim_as_micros (t : Z) : Z := t / SIMTIME_ONE_MICROSECOND.
Definition sim_as_nanos (t : Z) : Z := t / SIMTIME_ONE_NANOSECOND.

(* simulation_time.rs:97-102 *)
Definition sim_checked_add (a b : Z) : option Z :=
  match u64_checked_add a b with Some s => from_c_simtime s | None => None end.
(* simulation_time.rs:104-109 *)
Definition sim_checked_sub (a b : Z) : option Z :=
  match u64_checked_sub a b with Some s => from_c_simtime s | None => None end.
(* simulation_time.rs:111-116 *)
Definition sim_checked_mul (a b : Z) : option Z :=
  match u64_checked_mul a b with Some s => from_c_simtime s | None => None end.
(* simulation_time.rs:118-123 *)
Definition sim_checked_div (a b : Z) : option Z :=
  match u64_checked_div a b with Some s => from_c_simtime s | None => None end.
(* simulation_time.rs:125-130 *)
Definition sim_checked_rem (a b : Z) : option Z :=
  match u64_checked_rem a b with Some s => from_c_simtime s | None => None end.

(* simulation_time.rs:132-135; [None] = the unwrap panics *)
Definition sim_saturating_add (a b : Z) : option Z :=
  from_c_simtime (match u64_checked_add a b with Some s => s | None => SIMTIME_MAX end).
(* simulation_time.rs:137-140 *)
Definition sim_saturating_sub (a b : Z) : option Z :=
  from_c_simtime (match u64_checked_sub a b with Some s => s | None => SIMTIME_MIN end).
(* simulation_time.rs:142-145 *)
Definition sim_saturating_mul (a b : Z) : option Z :=
  from_c_simtime (match u64_checked_mul a b with Some s => s | None => SIMTIME_MAX end).

(* simulation_time.rs:147-177: try_from_secs / millis / micros / nanos *)
Definition sim_try_from_secs (s : Z) := sim_checked_mul SIMTIME_ONE_SECOND s.
Definition sim_try_from_millis (s : Z) := sim_checked_mul SIMTIME_ONE_MILLISECOND s.
Definition sim_try_from_micros (s : Z) := sim_checked_mul SIMTIME_ONE_MICROSECOND s.
Definition sim_try_from_nanos (s : Z) := sim_checked_mul SIMTIME_ONE_NANOSECOND s.

(* simulation_time.rs:179-189 *)
Definition sim_subsec_millis (t : Z) : Z := sim_as_millis t mod 1000.
Definition sim_subsec_micros (t : Z) : Z := sim_as_micros t mod 1000000.
Definition sim_subsec_nanos (t : Z) : Z := sim_as_nanos t mod 1000000000.

(** A std Duration is its number of nanoseconds. *)
(* simulation_time.rs:256-268 *)
Definition sim_try_from_duration (d : Z) : option Z :=
  if d >? SIMTIME_MAX then None else Some d.

(** i64 fields of a C timespec / timeval *)
Record timespec := { tv_sec : Z; tv_nsec : Z }.
Record timeval := { tvv_sec : Z; tvv_usec : Z }.
Definition I64_MAX : Z := 9223372036854775807.
Definition is_i64 (x : Z) : Prop := - I64_MAX - 1 <= x <= I64_MAX.

(* simulation_time.rs:283-294 (and 307-318, 331-342, which are the same) *)
Definition sim_try_from_timespec (ts : timespec) : option Z :=
  if (tv_sec ts <? 0) || (tv_nsec ts <? 0) || (tv_nsec ts >? 999999999) then None
  else sim_try_from_duration (tv_sec ts * 1000000000 + tv_nsec ts).

(* simulation_time.rs:296-305 (and 320-329, 344-353) *)
Definition timespec_try_from_sim (t : Z) : option timespec :=
  let s := t / 1000000000 in
  if s >? I64_MAX then None else Some {| tv_sec := s; tv_nsec := t mod 1000000000 |}.

(* simulation_time.rs:355-366 (and 379-403) *)
Definition sim_try_from_timeval (tv : timeval) : option Z :=
  if (tvv_sec tv <? 0) || (tvv_usec tv <? 0) || (tvv_usec tv >? 999999) then None
  else sim_try_from_duration (tvv_sec tv * 1000000000 + tvv_usec tv * 1000).

(* simulation_time.rs:368-377 (and 405-425); subsec_micros = (nanos mod 10^9) / 1000 *)
Definition timeval_try_from_sim (t : Z) : option timeval :=
  let s := t / 1000000000 in
  if s >? I64_MAX then None
  else Some {| tvv_sec := s; tvv_usec := (t mod 1000000000) / 1000 |}.

(* emulated_time.rs:54-60 *)
Definition from_c_emutime (v : Z) : option Z :=
  if (v =? EMUTIME_INVALID) || (v >? EMUTIME_MAX) then None else Some v.
(* emulated_time.rs:63-68 *)
Definition to_c_emutime (v : option Z) : Z :=
  match v with Some x => x | None => EMUTIME_INVALID end.

(* emulated_time.rs:87-90 *)
Definition emu_checked_duration_since (t earlier : Z) : option Z :=
  do d <- u64_checked_sub t earlier; from_c_simtime d.
(* emulated_time.rs:82-84; [None] = panic *)
Definition emu_duration_since (t earlier : Z) : option Z :=
  emu_checked_duration_since t earlier.
(* emulated_time.rs:93-96 *)
Definition emu_saturating_duration_since (t earlier : Z) : Z :=
  match emu_checked_duration_since t earlier with Some d => d | None => 0 end.
(* emulated_time.rs:98-100 *)
Definition emu_checked_add (t d : Z) : option Z :=
  do s <- u64_checked_add t d; from_c_emutime s.
(* emulated_time.rs:102-104 *)
Definition emu_checked_sub (t d : Z) : option Z :=
  do s <- u64_checked_sub t d; from_c_emutime s.
(* emulated_time.rs:106-111 *)
Definition emu_saturating_add (t d : Z) : Z :=
  match emu_checked_add t d with Some x => x | None => EMUTIME_MAX end.
(* emulated_time.rs:113-118 *)
Definition emu_saturating_sub (t d : Z) : Z :=
  match emu_checked_sub t d with Some x => x | None => EMUTIME_SIMULATION_START end.
(* emulated_time.rs:71-73; [None] = panic *)
Definition emu_from_abs_simtime (d : Z) : option Z :=
  emu_checked_add EMUTIME_SIMULATION_START d.
(* emulated_time.rs:76-78; [None] = panic *)
Definition emu_to_abs_simtime (t : Z) : option Z :=
  emu_duration_since t EMUTIME_SIMULATION_START.
