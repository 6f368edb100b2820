(** Vocabulary for stating the simulation properties. *)
From Verif Require Import Base EventModel EventSpec RunaheadModel CpuModel SimModel.

Definition SIM_START : Z := 946684800000000000.   (* 1 January 2000, in ns since the Unix epoch *)
Definition TIME_LIMIT : Z := 18446744073709551614.

Section Spec.
Context {S K T : Type}.
Notation event := (event K T).

(** A sane configuration: stop time after the start, positive latencies between existing hosts. *)
Record config_ok (P : params S K T) : Prop := {
  co_end : SIM_START < p_sim_end P <= TIME_LIMIT;
  co_lat : forall a b, (a < p_nhosts P)%nat -> (b < p_nhosts P)%nat -> 0 < p_lat P a b;
}.

(** A sane start: CPU frequencies non-zero, no start-up task before the simulation starts. *)
Record boot_ok (P : params S K T) (c : nat -> cpu) (boot : nat -> list (Z * T)) : Prop := {
  bo_cpu : forall h, cpu_sim_freq (c h) <> 0;
  bo_time : forall h t task, In (t, task) (boot h) -> SIM_START <= t;
}.

(** Events executed by host [h], in order, in an execution. *)
Fixpoint executed (h : nat) (tr : list (label K T)) : list event :=
  match tr with
  | [] => []
  | LHost h' (FExec e) :: r => if Nat.eqb h' h then e :: executed h r else executed h r
  | _ :: r => executed h r
  end.

(** All that is observable of host [h]: the effects of its steps, in order. *)
Fixpoint effects (h : nat) (tr : list (label K T)) : list (effect K T) :=
  match tr with
  | [] => []
  | LHost h' f :: r => if Nat.eqb h' h then f :: effects h r else effects h r
  | _ :: r => effects h r
  end.

(** The windows opened after the first one, in order. *)
Fixpoint windows (tr : list (label K T)) : list (option (Z * Z)) :=
  match tr with
  | [] => []
  | LWindow w :: r => w :: windows r
  | _ :: r => windows r
  end.

(** Events put into the queue of host [h] (its own, or packets from any host). *)
Fixpoint enqueued (h : nat) (tr : list (label K T)) : list event :=
  match tr with
  | [] => []
  | LHost h' (FLocal e) :: r => if Nat.eqb h' h then e :: enqueued h r else enqueued h r
  | LHost _ (FSend d _ _ e) :: r => if Nat.eqb d h then e :: enqueued h r else enqueued h r
  | _ :: r => enqueued h r
  end.

(** Events that a busy CPU moved past the stop time. *)
Fixpoint expired (h : nat) (tr : list (label K T)) : list event :=
  match tr with
  | [] => []
  | LHost h' (FExpire e _) :: r => if Nat.eqb h' h then e :: expired h r else expired h r
  | _ :: r => expired h r
  end.

(** Postponements of events by a busy CPU. *)
Fixpoint deferred (h : nat) (tr : list (label K T)) : list event :=
  match tr with
  | [] => []
  | LHost h' (FDefer e _) :: r => if Nat.eqb h' h then e :: deferred h r else deferred h r
  | _ :: r => deferred h r
  end.

(** [e'] is [e], possibly moved to a later time by one of the postponements [ds]. *)
Definition postponed (ds : list event) (e e' : event) : Prop :=
  e' = e \/
  ev_data e' = ev_data e /\ ev_time e < ev_time e' /\ exists d, In d ds /\ ev_data d = ev_data e.

(** Latencies used by packets sent so far. *)
Fixpoint used (tr : list (label K T)) : list Z :=
  match tr with
  | [] => []
  | LHost _ (FLat l) :: r => l :: used r
  | _ :: r => used r
  end.

Definition first_window : option (Z * Z) := Some (SIM_START, SIM_START + 1).
(** The window in force after [tr]. *)
Definition window_after (tr : list (label K T)) : option (Z * Z) := last (windows tr) first_window.

(** Windows from time [lo] on: non-empty, increasing, disjoint, not past the stop time; nothing after
    the end. *)
Fixpoint windows_ok (stop lo : Z) (l : list (option (Z * Z))) : Prop :=
  match l with
  | [] => True
  | Some (a, b) :: r => lo <= a < b /\ b <= stop /\ windows_ok stop b r
  | None :: r => r = []
  end.

(** Times never decrease along a list of events. *)
Fixpoint times_sorted (l : list event) : Prop :=
  match l with [] => True | e :: r => (forall e', In e' r -> ev_time e <= ev_time e') /\ times_sorted r end.

Definition is_prefix {A} (l l' : list A) : Prop := exists r, l' = l ++ r.
Definition comparable_lists {A} (l l' : list A) : Prop := is_prefix l l' \/ is_prefix l' l.
End Spec.

(** A well-formed simulation: configuration, start-up tasks, CPUs, runahead policy. *)
Record setup {S K T} (P : params S K T) (c : nat -> cpu) (boot : nat -> list (Z * T))
    (dyn : bool) (mp : Z) (cfg : option Z) (ra : runahead) : Prop := {
  su_config : config_ok P;
  su_boot : boot_ok P c boot;
  su_mp : 0 < mp;
  su_ra : ra_new dyn mp cfg = Some ra;
}.

(** Everything that entered the queue of [h]: the start-up tasks below the stop time, and the events
    enqueued during the execution. *)
Definition arrived {S K T} (P : params S K T) (boot : nat -> list (Z * T)) (h : nat) (tr : list (label K T))
  : list (event K T) := boot_queue P (boot h) ++ enqueued h tr.
