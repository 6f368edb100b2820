(** C58: a lazily initialised value shared by threads. *)
From Verif Require Import Base PoolModel LazyModel LazyProofs LazySpec LazyLaws.

(** The initializer runs at most once, and what anybody reads is its result. *)
Theorem C58_once : forall ls s, steps lazy_new ls s -> (length (runs s) <= 1)%nat.
Proof. exact (fun ls s R => once s (inv_run ls s R)). Qed.
Print Assumptions C58_once.
Theorem C58_same_value : forall ls s i r, steps lazy_new ls s -> In (i, r) (got s) -> exists w v, runs s = [(w, v)] /\ r = Some v.
Proof. exact (fun ls s i r R => got_ok s i r (inv_run ls s R)). Qed.
Print Assumptions C58_same_value.

(** Who has a reference knows that the value was written; the value is written once, when nobody has a reference. *)
Theorem C58_no_race : forall ls s, steps lazy_new ls s ->
  (forall i, lpcs s i = LRef -> knows s i = true /\ exists w v, runs s = [(w, v)] /\ value s = Some v) /\
  (forall l t, step s l t -> value t <> value s -> value s = None /\ got s = [] /\ forall k, lpcs s k <> LRef).
Proof. exact (fun ls s R => conj (fun i => ref_ok s i (inv_run ls s R)) (fun l t => write_alone s l t (inv_run ls s R))). Qed.
Print Assumptions C58_no_race.

(** The lock itself never panics. *)
Theorem C58_no_panic : forall ls s i, steps lazy_new ls s -> lpcs s i <> LBug.
Proof. exact (fun ls s i R => no_bug s i (inv_run ls s R)). Qed.
Print Assumptions C58_no_panic.

(** A thread takes at most eleven steps for each call, and four more whenever it is woken for no reason. *)
Theorem C58_bounded : forall ls s i, steps lazy_new ls s -> (count (is_work i) ls <= 11 * count (is_call i) ls + 4 * count (is_spurious i) ls)%nat.
Proof. exact bounded_new. Qed.
Print Assumptions C58_bounded.

(** No wakeup is lost: a thread inside of a call can go on, or it sleeps while another one that can go on is going to
    initialize or to wake it, or the initializer has panicked. *)
Theorem C58_progress : forall ls s i, steps lazy_new ls s -> inside (lpcs s i) ->
  can_work s i \/ (lpcs s i = LAsleep /\ exists w, (can_work s w /\ (initializes (lpcs s w) \/ lpcs s w = LWake)) \/ lpcs s w = LDead).
Proof. exact (fun ls s i R => progress s i (inv_run ls s R)). Qed.
Print Assumptions C58_progress.
(** So when nobody can go on, all calls have returned. *)
Theorem C58_all_return : forall ls s, steps lazy_new ls s -> (forall i, ~ can_work s i) -> (forall i, lpcs s i <> LDead) -> forall i, lpcs s i = LOut \/ lpcs s i = LRef.
Proof. exact (fun ls s R => quiet s (inv_run ls s R)). Qed.
Print Assumptions C58_all_return.

(** If the initializer panics, no call ever returns. *)
Theorem C58_panicked : forall ls s w ls' t, steps lazy_new ls s -> lpcs s w = LDead -> steps s ls' t -> got t = [] /\ forall i, lpcs t i <> LRef.
Proof. exact (fun ls s w ls' t R D R' => proj2 (dead_forever s ls' t w (inv_run ls s R) R' D)). Qed.
Print Assumptions C58_panicked.

(** initd() tells the truth, and is true in a thread whose call has returned. *)
Theorem C58_initd : forall ls s, steps lazy_new ls s ->
  (forall i t, step s (Probe i true) t -> exists w v, runs s = [(w, v)]) /\
  (forall ls' t u i r, lpcs s i = LRef -> steps s ls' t -> step t (Probe i r) u -> r = true).
Proof.
  exact (fun ls s R => conj (fun i t => probe_ok s i t (inv_run ls s R)) (fun ls' t u i r => probe_after s ls' t u i r (inv_run ls s R) (known_steps _ _ _ inv_new known_new R))).
Qed.
Print Assumptions C58_initd.

(** Dropping the lock drops the value exactly if there is one. *)
Theorem C58_drop : forall ls s v, steps lazy_new ls s -> (forall i, lpcs s i = LOut \/ lpcs s i = LDead) -> (drop_lock s = Some v <-> exists w, runs s = [(w, v)]).
Proof. exact (fun ls s v R => drop_ok s v (inv_run ls s R)). Qed.
Print Assumptions C58_drop.

(** Thread 0 initializes with 7 while thread 1, which has read the old state, falls asleep; it is woken, still reads
    the old state, is refused by the kernel, and then gets the value.  After that initd() is true for thread 1, and may
    be false for thread 2, which has seen nothing of it. *)
Definition lazy_run : list lab :=
  [Call 0; Call 1; Work 0; Work 0; Work 1; Work 1; Work 1; Work 0; Work 1; Work 0; Work 0; Work 1; Work 1; Work 1; Work 1; Use 0; Use 1; Use 1; Probe 1 true; Probe 2 false].
Tactic Notation "go" uconstr(c) := eapply Steps_cons; [eapply c; try reflexivity; try (split; [|reflexivity]; cbn; lia); try discriminate; try (cbn; lia)|].
Example C58_run_ex : exists s, steps lazy_new lazy_run s /\ runs s = [(0%nat, 7)] /\ got s = [(1%nat, Some 7); (0%nat, Some 7)].
Proof.
  eexists. split.
  { unfold lazy_run. go S_call. go S_call. 
    go (S_enter _ 0%nat 0%nat (Uninitd, false)). go (S_lock _ 0%nat false).
    go (S_enter _ 1%nat 0%nat (Uninitd, false)). go (S_nolock _ 1%nat 1%nat (Initializing, false)). go (S_announce _ 1%nat false).
    go (S_produce _ 0%nat 7).
    go (S_wait _ 1%nat 2%nat (Sleepers, false)).
    go (S_publish _ 0%nat (Sleepers, false)). go (S_wake _ 0%nat).
    go (S_reload _ 1%nat 2%nat (Sleepers, false)).
    go (S_wait _ 1%nat 3%nat (Initd, true)).
    go (S_reload _ 1%nat 3%nat (Initd, true)). go (S_break _ 1%nat).
    go S_use. go S_use. go S_back.
    change (Probe 1 true) with (Probe 1 (match fst (Initd, true) with Initd => true | _ => false end)). go (S_probe _ 1%nat 3%nat (Initd, true)).
    change (Probe 2 false) with (Probe 2 (match fst (Uninitd, false) with Initd => true | _ => false end)). go (S_probe _ 2%nat 0%nat (Uninitd, false)).
    apply Steps_nil. }
  split; reflexivity.
Qed.
Example C58_dead_ex : exists s, steps lazy_new [Call 0; Work 0; Work 0; Fail 0] s /\ lpcs s 0%nat = LDead.
Proof.
  eexists. split.
  { go S_call. go (S_enter _ 0%nat 0%nat (Uninitd, false)). go (S_lock _ 0%nat false). go S_fail. apply Steps_nil. }
  reflexivity.
Qed.
