(** Scheduling rounds (C27). *)
From Verif Require Import Base SchedModel SchedSpec SchedProofs.

(** Whatever the interleaving of the threads' queue operations, any number of scopes later each
    round has executed every host exactly once, on one thread, and no host is lost: the hosts of a
    round are the results of the round before, and the scheduler holds the results of the last. *)
Theorem C27_once (H : Type) n hosts s ts s' ls : (0 < n)%nat -> hosts <> [] ->
  sched_new H n hosts = Some s -> scopes H s ts = Some (Some (s', ls)) ->
  rounds H n hosts ts ls (hosts_of H s').
Proof.
  intros N HN E S. destruct (sched_new_ok H n hosts N HN) as (s0 & E0 & I0).
  rewrite E in E0. injection E0 as <-. destruct (scopes_ok H n N ts hosts s I0) as (x & Ex & X).
  rewrite S in Ex. injection Ex as <-. exact X.
Qed.
Print Assumptions C27_once.

(** No queue overflows and no assertion fails. *)
Theorem C27_no_panic (H : Type) n hosts ts : (0 < n)%nat -> hosts <> [] ->
  exists s x, sched_new H n hosts = Some s /\ scopes H s ts = Some x.
Proof.
  intros N HN. destruct (sched_new_ok H n hosts N HN) as (s & E & I). exists s.
  destruct (scopes_ok H n N ts hosts s I) as (x & Ex & _). eauto.
Qed.
Print Assumptions C27_no_panic.

(** A round ends: after any schedule of n*n + 2*hosts blocks in each of which every thread gets at
    least one step. *)
Theorem C27_terminates (H : Type) n hosts s ts s' ls f blocks : (0 < n)%nat -> hosts <> [] ->
  sched_new H n hosts = Some s -> scopes H s ts = Some (Some (s', ls)) ->
  Forall (fun b => forall i, (i < n)%nat -> In i b) blocks ->
  (n * n + 2 * length hosts <= length blocks)%nat ->
  exists y, scope H s' (RunHosts H f (concat blocks)) = Some (Some y).
Proof.
  intros N HN E S B L. destruct (sched_new_ok H n hosts N HN) as (s0 & E0 & I0).
  rewrite E in E0. injection E0 as <-.
  destruct (scopes_inv H n N ts hosts s s' ls I0 S) as (hs' & I' & L').
  apply (scope_terminates H n hs' s' f blocks I' B). rewrite L'. exact L.
Qed.
Print Assumptions C27_terminates.

(** At every moment of a round each host is in exactly one place: still queued, being run by one
    thread, or done. *)
Theorem C27_exclusive (H : Type) n hosts s ts s' ls f order : (0 < n)%nat -> hosts <> [] ->
  sched_new H n hosts = Some s -> scopes H s ts = Some (Some (s', ls)) ->
  exists hs s1 r, scope_begin H s' = Some s1 /\ rounds H n hosts ts ls hs /\
    tsteps H n (capacity H s1) f order (round_begin H s1) = Some r /\
    Permutation (inputs H (log H r) ++ running H (pcs H r) ++ concat (from H r)) hs /\
    Permutation (outputs H (log H r)) (concat (to H r)).
Proof.
  intros N HN E S. destruct (sched_new_ok H n hosts N HN) as (s0 & E0 & I0).
  rewrite E in E0. injection E0 as <-.
  destruct (scopes_inv H n N ts hosts s s' ls I0 S) as (hs' & I' & L').
  destruct (ownership H n hs' s' f order N I') as (s1 & r & A & B & C & D).
  exists (hosts_of H s'), s1, r. split; [exact A|].
  split; [exact (C27_once H n hosts s ts s' ls N HN E S)|]. split; [exact B|].
  split; [|exact D]. etransitivity; [exact C|]. symmetry. apply I'.
Qed.
Print Assumptions C27_exclusive.

(** Thread per host: whatever the order of the threads, thread i runs host i, once, and keeps it. *)
Theorem C27_thread_per_host (H : Type) f (hosts : list H) order :
  Permutation order (seq 0 (length hosts)) ->
  exists st' l, tph_round H f order (tph_new H hosts) = Some (st', l) /\
    threads H l = order /\
    Forall (fun x => nth_error hosts (fst (fst x)) = Some (snd (fst x)) /\
                     snd x = f (fst (fst x)) (snd (fst x))) l /\
    st' = tph_new H (map (fun p => f (fst p) (snd p)) (combine (seq 0 (length hosts)) hosts)).
Proof. exact (tph_round_ok H f hosts order). Qed.
Print Assumptions C27_thread_per_host.

(** Two threads, three hosts, two rounds; thread 1 steals host 2 in the first round. *)
Example C27_case :
  match sched_new Z 2 [10; 20; 30] with
  | Some s =>
      match scopes Z s [RunHosts Z (fun _ h => h + 1) [0;1;1;1;1;1;0;0;0;0;1;1;1]%nat;
                        RunPlain Z;
                        RunHosts Z (fun i h => h + 100 * Z.of_nat i) [1;1;1;1;1;1;1;0;0;1;0;0]%nat] with
      | Some (Some (s', ls)) =>
          ls = [[(1%nat, 20, 21); (1%nat, 30, 31); (0%nat, 10, 11)]; [];
                [(1%nat, 21, 121); (1%nat, 31, 131); (1%nat, 11, 111)]] /\
          hosts_of Z s' = [121; 131; 111]
      | _ => False
      end
  | None => False
  end.
Proof. vm_compute. auto. Qed.
Example C27_tph_case :
  tph_round Z (fun i h => h + Z.of_nat i) [2; 0; 1]%nat (tph_new Z [5; 6; 7]) =
  Some (tph_new Z [5; 7; 9], [(2%nat, 7, 9); (0%nat, 5, 5); (1%nat, 6, 7)]).
Proof. reflexivity. Qed.
