(** C06: the runahead policy. *)
From Verif Require Import Base RunaheadModel RunaheadSpec RunaheadProofs.

(** C06. Whatever the interleaving of the workers' reports, once no report is in progress the window
    length is the larger of the configured bound and the smallest latency reported (dynamic) or
    possible (static, or nothing reported yet). In particular it does not depend on the order. *)
Theorem C06_policy : forall dyn mp cfg r l s, ra_new dyn mp cfg = Some r ->
  rrun (init_world r) l (Some s) -> (forall w, rw_pc s w = None) ->
  ra_get (rw_ra s) = policy dyn mp cfg l.
Proof. exact quiescent_policy. Qed.
Print Assumptions C06_policy.

Example C06_policy_case : rrun (init_world ex_r) [20; 10] (Some ex_final) /\
  (forall w, rw_pc ex_final w = None) /\ ra_get (rw_ra ex_final) = 10 /\ policy true 5 (Some 3) [20; 10] = 10.
Proof. split; [apply race|]. split; [apply race|]. split; reflexivity. Qed.

(** C06. Even in the middle of reports the length is positive and at least the configured bound. *)
Theorem C06_bounds : forall dyn mp cfg r l s, ra_new dyn mp cfg = Some r -> 0 < mp ->
  Forall (fun x => 0 < x) l -> rrun (init_world r) l (Some s) ->
  0 < ra_get (rw_ra s) /\ bound_of cfg <= ra_get (rw_ra s).
Proof. exact get_bounds. Qed.
Print Assumptions C06_bounds.

(** C06. The only panic is the report of a zero latency. *)
Theorem C06_no_panic : forall dyn mp cfg r l s ev, ra_new dyn mp cfg = Some r ->
  rrun (init_world r) l (Some s) -> Forall (fun x => 0 < x) l ->
  rstep s ev None -> exists w lat, ev = Some (w, lat) /\ lat = 0.
Proof. exact no_panic. Qed.
Print Assumptions C06_no_panic.

(** C06. From the first recorded latency on, the length never grows. *)
Theorem C06_never_grows_partial : forall s l s', rsteps s l s' -> ra_min_used (rw_ra s) <> None ->
  ra_get (rw_ra s') <= ra_get (rw_ra s).
Proof. exact steps_shrink. Qed.
Print Assumptions C06_never_grows_partial.

Example C06_never_grows_case : exists s s', rsteps s [7] s' /\ ra_min_used (rw_ra s) <> None /\
  ra_get (rw_ra s) = 10 /\ ra_get (rw_ra s') = 7.
Proof.
  set (s := mkRw (mkRa (Some 10) 5 None true) (fun _ => None) (fun _ => None)).
  set (s1 := mkRw (rw_ra s) (upd (rw_cache s) 0 (Some 7)) (upd (rw_pc s) 0 (Some (7, false)))).
  set (s2 := mkRw (rw_ra s) (rw_cache s1) (upd (rw_pc s1) 0 (Some (7, true)))).
  exists s, (mkRw (ra_update_write (rw_ra s2) 7) (rw_cache s2) (upd (rw_pc s2) 0 None)).
  split; [|split; [discriminate|split; reflexivity]].
  eapply (rsteps_report s 0 7 s1); [exact (RReport s 0 7 eq_refl)|].
  apply (rsteps_tau s1 s2); [exact (RRead s1 0 7 eq_refl)|].
  eapply (rsteps_tau s2); [exact (RWrite s2 0 7 eq_refl)|]. constructor.
Qed.

(** C06, finding: without a recorded latency the smallest possible latency is used, and the first
    report can only be larger: the window length then grows. *)
Theorem C06_never_grows_refuted : exists s l s', ra_new true 10 None = Some (rw_ra s) /\
  rsteps s l s' /\ (forall w, rw_pc s w = None) /\ (forall w, rw_pc s' w = None) /\
  Forall (fun x => 10 <= x) l /\ ra_get (rw_ra s) < ra_get (rw_ra s').
Proof. exact growth. Qed.
Print Assumptions C06_never_grows_refuted.
