(** Model of src/main/core/runahead.rs and of the worker-local cache in front of it
    (src/main/core/worker.rs:291-302). *)
From Verif Require Import Base.

(** runahead.rs:10-25; [ra_min_used] is the content of the RwLock *)
Record runahead : Type := mkRa {
  ra_min_used : option Z; ra_min_possible : Z; ra_config : option Z; ra_dynamic : bool }.

(** runahead.rs:28-41 *)
Definition ra_new (dynamic : bool) (min_possible : Z) (config : option Z) : option runahead :=
  check (negb (min_possible =? 0));
  Some (mkRa None min_possible config dynamic).

(** runahead.rs:44-57 *)
Definition ra_get (r : runahead) : Z :=
  let runahead := match ra_min_used r with Some m => m | None => ra_min_possible r end in
  let config := match ra_config r with Some c => c | None => 0 end in
  Z.max runahead config.

Definition ra_set_min (r : runahead) (m : Z) : runahead :=
  mkRa (Some m) (ra_min_possible r) (ra_config r) (ra_dynamic r).

(** runahead.rs:70-79 *)
Definition ra_should_update (min_used : option Z) (latency : Z) : bool :=
  match min_used with Some m => negb (m <=? latency) | None => true end.

(** runahead.rs:61-88: the part up to and including the check under the read lock. Returns whether to
    go on to the write lock. *)
Definition ra_update_read (r : runahead) (latency : Z) : option bool :=
  check (0 <? latency);
  Some (ra_dynamic r && ra_should_update (ra_min_used r) latency).

(** runahead.rs:93-107: the part under the write lock *)
Definition ra_update_write (r : runahead) (latency : Z) : runahead :=
  if ra_should_update (ra_min_used r) latency then ra_set_min r latency else r.

(** runahead.rs:61-117, executed without interference *)
Definition ra_update (r : runahead) (latency : Z) : option runahead :=
  do go <- ra_update_read r latency;
  Some (if go : bool then ra_update_write r latency else r).

(** worker.rs:291-302: the worker's cache; [true] when the shared runahead is to be updated *)
Definition cache_update (cache : option Z) (latency : Z) : option (option Z * bool) :=
  check (negb (latency =? 0));
  Some match cache with
  | Some m => if latency <? m then (Some latency, true) else (cache, false)
  | None => (Some latency, true)
  end.

(** Concurrent use. Each worker is idle, or holds a latency for which it passed the check under the
    read lock and still has to take the write lock. *)
Record rworld : Type := mkRw {
  rw_ra : runahead;
  rw_cache : nat -> option Z;         (* min_latency_cache of each worker *)
  rw_pc : nat -> option (Z * bool);   (* latency being reported; passed the read check? *)
}.
Definition upd {A} (f : nat -> A) (i : nat) (a : A) : nat -> A :=
  fun j => if Nat.eqb j i then a else f j.

(** One atomic step of worker [w]; reports are the latencies handed to
    Worker::update_lowest_used_latency. *)
Inductive rstep : rworld -> option (nat * Z) -> option rworld -> Prop :=
| RReport s w lat : rw_pc s w = None ->
    rstep s (Some (w, lat))
      (do (c, go) <- cache_update (rw_cache s w) lat;
       Some (mkRw (rw_ra s) (upd (rw_cache s) w c)
                  (if go : bool then upd (rw_pc s) w (Some (lat, false)) else rw_pc s)))
| RRead s w lat : rw_pc s w = Some (lat, false) ->
    rstep s None
      (do go <- ra_update_read (rw_ra s) lat;
       Some (mkRw (rw_ra s) (rw_cache s)
                  (upd (rw_pc s) w (if go : bool then Some (lat, true) else None))))
| RWrite s w lat : rw_pc s w = Some (lat, true) ->
    rstep s None
      (Some (mkRw (ra_update_write (rw_ra s) lat) (rw_cache s) (upd (rw_pc s) w None))).

(** Executions and the latencies reported in them. *)
Inductive rrun : rworld -> list Z -> option rworld -> Prop :=
| rrun_nil s : rrun s [] (Some s)
| rrun_report s w lat o l r : rrun s l (Some r) -> rstep r (Some (w, lat)) o -> rrun s (l ++ [lat]) o
| rrun_tau s o l r : rrun s l (Some r) -> rstep r None o -> rrun s l o.
