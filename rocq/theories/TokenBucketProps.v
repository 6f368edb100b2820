(** C08, C09: the bandwidth token bucket. *)
From Verif Require Import Base TimeModel TimeSpec TokenBucketModel TokenBucketSpec TokenBucketProofs.

(** C08. The bucket behaves exactly as an ideal bucket of the same parameters that starts full,
    gains [inc] tokens (capped at [cap]) at each multiple of [interval] after the simulation start,
    and accepts a request iff it holds that many tokens; nothing panics; the balance stays in
    [0, cap]. *)
Theorem C08_refines_ideal_bucket : forall cap inc interval reqs b,
  params_ok cap inc interval -> tb_new cap inc interval = Some b -> times_ok START reqs ->
  (forall d t, In (d, t) reqs -> wait_fits inc interval d) ->
  exists b' res, tb_run b reqs = Some (b', res) /\
    0 <= tb_balance b' <= cap /\
    ideal cap inc interval cap 0 reqs = (tb_balance b', map accepted res).
Proof. exact new_refines. Qed.
Print Assumptions C08_refines_ideal_bucket.

(** C08. Rate bound: over any stretch [t1 .. last] of any history, what is removed is at most the
    capacity plus the refill for the boundaries crossed. *)
Theorem C08_rate_bound : forall cap inc interval b pre d1 t1 mid b' res1 res2 b1,
  params_ok cap inc interval -> tb_new cap inc interval = Some b ->
  times_ok START (pre ++ (d1, t1) :: mid) ->
  (forall d t, In (d, t) (pre ++ (d1, t1) :: mid) -> wait_fits inc interval d) ->
  tb_run b pre = Some (b1, res1) ->
  tb_run b1 ((d1, t1) :: mid) = Some (b', res2) ->
  removed ((d1, t1) :: mid) res2 <=
    cap + inc * (boundaries interval (last_time t1 mid) - boundaries interval t1).
Proof. exact rate_window. Qed.
Print Assumptions C08_rate_bound.

(** Every valid parameter triple does give a bucket. *)
Theorem C08_new_total : forall cap inc interval, params_ok cap inc interval ->
  exists b, tb_new cap inc interval = Some b.
Proof. exact new_some. Qed.
Print Assumptions C08_new_total.

Definition ex_reqs : list (Z * Z) :=
  [(1000, START + 10); (2000, START + 500000); (1500, START + 3100000); (700, START + 3100001)].
Example C08_ex :
  params_ok 2750 1250 1000000 /\ times_ok START ex_reqs /\
  (forall d t, In (d, t) ex_reqs -> wait_fits 1250 1000000 d) /\
  option_map (fun p => (tb_balance (fst p), snd p))
    (obind (tb_new 2750 1250 1000000) (fun b => tb_run b ex_reqs)) =
  Some (550, [TbOk 1750; TbWait 500000; TbOk 1250; TbOk 550]).
Proof.
  split; [|split; [|split]].
  - vm_compute. intuition congruence.
  - vm_compute. intuition congruence.
  - cbn. intros d t H. repeat destruct H as [H|H]; inversion H; subst; vm_compute; congruence.
  - vm_compute. reflexivity.
Qed.

(** C09. When refused, the same request is refused at every earlier instant than [now + w] (and the
    remaining wait reported then is exactly what is left), succeeds at [now + w] if it fits the
    capacity, and is never accepted if it does not. *)
Theorem C09_wait_exact : forall cap inc interval b0 pre b res d now b' w,
  params_ok cap inc interval -> tb_new cap inc interval = Some b0 ->
  times_ok START (pre ++ [(d, now)]) ->
  (forall d' t, In (d', t) (pre ++ [(d, now)]) -> wait_fits inc interval d') ->
  tb_run b0 pre = Some (b, res) ->
  tb_conforming_remove b d now = Some (b', TbWait w) ->
  0 < w /\
  (forall t, now <= t < now + w -> valid_emu t ->
     exists b2 w', tb_conforming_remove b' d t = Some (b2, TbWait w') /\
                   (d <= cap -> t + w' = now + w)) /\
  (d <= cap -> valid_emu (now + w) ->
     exists b2 bal, tb_conforming_remove b' d (now + w) = Some (b2, TbOk bal)) /\
  (cap < d -> forall t, now <= t -> valid_emu t ->
     exists b2 w', tb_conforming_remove b' d t = Some (b2, TbWait w')).
Proof. exact wait_exact_reachable. Qed.
Print Assumptions C09_wait_exact.

Example C09_ex :
  option_map snd
    (do b0 <- tb_new 2750 1250 1000000;
     do r <- tb_run b0 [(1000, START + 10); (1700, START + 20)];
     tb_conforming_remove (fst r) 2600 (START + 500000)) = Some (TbWait 2500000).
Proof. vm_compute. reflexivity. Qed.
