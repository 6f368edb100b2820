From Verif Require Import Base TimeModel TimerModel TimerSpec.

Local Opaque EMUTIME_SIMULATION_START EMUTIME_MAX SIMTIME_MAX SIMTIME_ONE_SECOND U64_MAX.

Lemma c_max : EMUTIME_MAX = EMUTIME_SIMULATION_START + SIMTIME_MAX. Proof. reflexivity. Qed.
Lemma c_u64 : EMUTIME_MAX = U64_MAX - 1. Proof. reflexivity. Qed.
Lemma c_sec : SIMTIME_ONE_SECOND = 1000000000. Proof. reflexivity. Qed.
Lemma c_start : 0 < EMUTIME_SIMULATION_START. Proof. reflexivity. Qed.
Lemma c_sim : 0 < SIMTIME_MAX < U64_MAX. Proof. split; reflexivity. Qed.
Lemma c_two : 2000000000 < SIMTIME_MAX. Proof. reflexivity. Qed.

Lemma emu_add_some a b c : emu_checked_add a b = Some c -> c = a + b /\ c <= EMUTIME_MAX.
Proof.
  unfold emu_checked_add, u64_checked_add. destruct (Z.leb_spec (a + b) U64_MAX); ob; [|discriminate].
  unfold from_c_emutime. destruct ((a + b =? EMUTIME_INVALID) || (a + b >? EMUTIME_MAX)) eqn:E; [discriminate|].
  intros [= <-]. apply orb_false_iff in E as [_ E]. lia.
Qed.
Lemma emu_add_ok a b : a + b <= EMUTIME_MAX -> emu_checked_add a b = Some (a + b).
Proof.
  intros H. unfold emu_checked_add, u64_checked_add. pose proof c_u64.
  destruct (Z.leb_spec (a + b) U64_MAX); ob; [|lia]. unfold from_c_emutime.
  destruct ((a + b =? EMUTIME_INVALID) || (a + b >? EMUTIME_MAX)) eqn:E; [|reflexivity].
  assert (EMUTIME_INVALID = U64_MAX) by reflexivity. apply orb_true_iff in E. lia.
Qed.
Lemma simtime_ok v : v <= SIMTIME_MAX -> from_c_simtime v = Some v.
Proof.
  intros H. unfold from_c_simtime. pose proof c_sim. assert (SIMTIME_INVALID = U64_MAX) by reflexivity.
  destruct (Z.eqb_spec v SIMTIME_INVALID); [lia|]. destruct (v >? SIMTIME_MAX) eqn:E; [lia|].
  f_equal. unfold SIMTIME_ONE_NANOSECOND. apply Z.div_1_r.
Qed.
Lemma simtime_some v c : from_c_simtime v = Some c -> c = v.
Proof.
  unfold from_c_simtime. destruct (v =? SIMTIME_INVALID); [discriminate|]. destruct (v >? SIMTIME_MAX); [discriminate|].
  intros [= <-]. unfold SIMTIME_ONE_NANOSECOND. apply Z.div_1_r.
Qed.
Lemma emu_since_ok a b : b <= a -> a - b <= SIMTIME_MAX -> emu_checked_duration_since a b = Some (a - b).
Proof.
  intros H K. unfold emu_checked_duration_since, u64_checked_sub. destruct (Z.leb_spec b a); ob; [|lia]. now apply simtime_ok.
Qed.
Lemma emu_since_some a b c : emu_checked_duration_since a b = Some c -> b <= a /\ c = a - b.
Proof.
  unfold emu_checked_duration_since, u64_checked_sub. destruct (Z.leb_spec b a); ob; [|discriminate].
  intros E. apply simtime_some in E. lia.
Qed.
Lemma sim_add_some a b c : sim_checked_add a b = Some c -> c = a + b.
Proof. unfold sim_checked_add, u64_checked_add. destruct (_ <=? _); [|discriminate]. apply simtime_some. Qed.
Lemma sim_add_ok a b : a + b <= SIMTIME_MAX -> sim_checked_add a b = Some (a + b).
Proof.
  intros H. unfold sim_checked_add, u64_checked_add. pose proof c_sim. destruct (Z.leb_spec (a + b) U64_MAX); [|lia]. now apply simtime_ok.
Qed.
Lemma sim_mul_some a b c : sim_checked_mul a b = Some c -> c = a * b.
Proof. unfold sim_checked_mul, u64_checked_mul. destruct (_ <=? _); [|discriminate]. apply simtime_some. Qed.
Lemma sim_mul_ok a b : a * b <= SIMTIME_MAX -> sim_checked_mul a b = Some (a * b).
Proof.
  intros H. unfold sim_checked_mul, u64_checked_mul. pose proof c_sim. destruct (Z.leb_spec (a * b) U64_MAX); [|lia]. now apply simtime_ok.
Qed.

Definition bumped (t : timer) : timer :=
  {| next_expire_time := next_expire_time t; expire_interval := expire_interval t;
     expiration_count := expiration_count t; next_expire_id := next_expire_id t + 1;
     min_valid_expire_id := min_valid_expire_id t |}.

Lemma floor_sec x : 0 <= x -> x < 1000000000 * (x / 1000000000) + 2000000000 <= x + 2000000000.
Proof. intros H. Z.to_euclidean_division_equations. lia. Qed.

Lemma schedule_some now t t' ev : schedule now t = Some (t', ev) ->
  exists e tv, next_expire_time t = Some e /\ ev = (tv, next_expire_id t) /\ t' = bumped t /\ tv <= e /\
    (now <= e -> now <= tv) /\ (now < e -> now < tv).
Proof.
  unfold schedule, emu_duration_since. destruct (emu_checked_duration_since _ _) as [since|] eqn:E1; ob; [|discriminate].
  apply emu_since_some in E1 as [G1 ->].
  unfold sim_try_from_secs, sim_as_secs. destruct (sim_checked_mul _ _) as [secs|] eqn:E2; ob; [|discriminate].
  apply sim_mul_some in E2.
  destruct (sim_checked_mul _ 2) as [two|] eqn:E3; ob; [|discriminate]. apply sim_mul_some in E3.
  destruct (sim_checked_add _ _) as [early|] eqn:E4; ob; [|discriminate]. apply sim_add_some in E4.
  destruct (next_expire_time t) as [e|] eqn:E5; ob; [|discriminate].
  destruct (emu_checked_add _ _) as [lim|] eqn:E6; ob; [|discriminate]. apply emu_add_some in E6 as [E6 _].
  intros H. injection H as <- <-. rewrite c_sec in *.
  pose proof (floor_sec (now - EMUTIME_SIMULATION_START) ltac:(lia)) as F.
  exists e, (Z.min e lim). split; [reflexivity|]. split; [reflexivity|]. split; [unfold bumped; now rewrite E5|]. split; [lia|]. lia.
Qed.
Lemma schedule_ok now t e : next_expire_time t = Some e -> EMUTIME_SIMULATION_START <= now ->
  now + 2000000000 <= EMUTIME_MAX -> exists r, schedule now t = Some r.
Proof.
  intros En G L. pose proof c_max. pose proof c_two. unfold schedule, emu_duration_since.
  rewrite emu_since_ok by lia. ob.
  pose proof (floor_sec (now - EMUTIME_SIMULATION_START) ltac:(lia)) as F.
  unfold sim_try_from_secs, sim_as_secs. rewrite c_sec. rewrite sim_mul_ok by lia. ob.
  rewrite sim_mul_ok by lia. ob. rewrite sim_add_ok by lia. ob. rewrite En. ob. rewrite emu_add_ok by lia. ob. eauto.
Qed.

(** ** The invariant *)
Definition valid (t : timer) (ev : Z * Z) : bool := min_valid_expire_id t <=? snd ev.

Definition vps (t : timer) (p : list (Z * Z)) := filter (valid t) p.

(** The live task of an armed timer, or the fact that it falls after the end. *)
Definition live (stop nw : Z) (t : timer) (p : list (Z * Z)) : Prop :=
  match next_expire_time t with
  | None => vps t p = []
  | Some e => e <= EMUTIME_MAX /\
      exists tv, nw <= tv <= e /\ ((exists id, vps t p = [(tv, id)]) \/ vps t p = [] /\ stop <= tv)
  end.

(** [k] expirations have happened. *)
Definition progress (nw : Z) (t : timer) (s : option sched) (k : Z) : Prop :=
  0 <= k /\
  match s with
  | None => next_expire_time t = None /\ k = 0 /\ expire_interval t = None
  | Some (first, i) => expire_interval t = i /\
      match i with
      | Some d => 0 < d /\ next_expire_time t = Some (first + k * d) /\ (k = 0 \/ first + (k - 1) * d <= nw)
      | None => k = 0 /\ next_expire_time t = Some first \/ k = 1 /\ next_expire_time t = None /\ first <= nw
      end
  end.

Record inv (stop : Z) (w : world) (v : view) : Prop := {
  v_now : EMUTIME_SIMULATION_START <= now w < stop;
  v_ids : forall ev, In ev (pending w) -> snd ev < next_expire_id (tm w);
  v_min : min_valid_expire_id (tm w) <= next_expire_id (tm w);
  v_fut : forall ev, In ev (pending w) -> now w <= fst ev < stop;
  v_cnt : expiration_count (tm w) + snd (fst v) = snd v;
  v_live : live stop (now w) (tm w) (pending w);
  v_prog : progress (now w) (tm w) (fst (fst v)) (snd v) }.

Lemma inv_new stop start : EMUTIME_SIMULATION_START <= start < stop -> inv stop (world_new start) (None, 0, 0).
Proof.
  intros H. constructor; cbn; try tauto; try lia. split; [lia|]. cbn. auto.
Qed.

Lemma vps_app t a b : vps t (a ++ b) = vps t a ++ vps t b.
Proof. apply filter_app. Qed.
Lemma vps_none t p : (forall ev, In ev p -> snd ev < min_valid_expire_id t) -> vps t p = [].
Proof.
  intros H. unfold vps. induction p as [|x p IH]; [reflexivity|]. cbn. unfold valid at 1.
  destruct (Z.leb_spec (min_valid_expire_id t) (snd x)) as [L|L].
  - specialize (H x (or_introl eq_refl)). lia.
  - apply IH. intros ev I. apply H. now right.
Qed.
Lemma vps_same t t' p : min_valid_expire_id t = min_valid_expire_id t' -> vps t p = vps t' p.
Proof. intros E. unfold vps, valid. now rewrite E. Qed.
Lemma in_vps t p ev : In ev (vps t p) <-> In ev p /\ min_valid_expire_id t <= snd ev.
Proof. unfold vps. rewrite filter_In. unfold valid. rewrite Z.leb_le. tauto. Qed.
Lemma remove_in ev x p : In x (remove_ev ev p) <-> In x p /\ x <> ev.
Proof.
  unfold remove_ev. rewrite filter_In. destruct x as [a b], ev as [c d]. cbn.
  destruct (Z.eqb_spec a c), (Z.eqb_spec b d); cbn; split; intros [H K]; split; try exact H; try congruence; discriminate.
Qed.
Lemma filter_filter {A} (f g : A -> bool) l : filter f (filter g l) = filter g (filter f l).
Proof.
  induction l as [|x l IH]; [reflexivity|]. cbn. destruct (f x) eqn:F, (g x) eqn:G; cbn; rewrite ?F, ?G, IH; reflexivity.
Qed.
Lemma vps_remove t ev p : vps t (remove_ev ev p) = remove_ev ev (vps t p).
Proof. apply filter_filter. Qed.
Lemma remove_notin ev p : ~ In ev p -> remove_ev ev p = p.
Proof.
  intros N. unfold remove_ev. induction p as [|x p IH]; [reflexivity|]. cbn.
  destruct ((fst x =? fst ev) && (snd x =? snd ev)) eqn:E; cbn.
  - apply andb_true_iff in E as [E1 E2]. apply Z.eqb_eq in E1, E2. exfalso. apply N. left. destruct x, ev. cbn in *. congruence.
  - f_equal. apply IH. intros I. apply N. now right.
Qed.

Lemma enq_in stop p ev x : In x (enqueue stop p [ev]) -> In x p \/ x = ev /\ fst ev < stop.
Proof.
  unfold enqueue. cbn. destruct (Z.ltb_spec (fst ev) stop) as [L|L]; rewrite in_app_iff; cbn; intuition subst; auto.
Qed.

Lemma enq_nil stop p : enqueue stop p [] = p.
Proof. unfold enqueue. cbn. apply app_nil_r. Qed.

(** Scheduling on a state with no live task. *)
Lemma live_sched stop nw t t' ev p e : schedule nw t = Some (t', ev) -> next_expire_time t = Some e ->
  nw <= e <= EMUTIME_MAX -> min_valid_expire_id t <= next_expire_id t -> vps t p = [] -> live stop nw t' (enqueue stop p [ev]).
Proof.
  intros E En L M V. apply schedule_some in E as (e' & tv & E1 & -> & -> & T1 & T2 & _).
  rewrite En in E1. injection E1 as <-. unfold live. cbn [bumped next_expire_time]. rewrite En. split; [lia|].
  exists tv. split; [lia|]. unfold enqueue. rewrite vps_app. rewrite (vps_same (bumped t) t) by reflexivity. rewrite V.
  cbn [filter fst app]. destruct (Z.ltb_spec tv stop) as [S|S].
  - left. exists (next_expire_id t). cbn. unfold valid. cbn. destruct (Z.leb_spec (min_valid_expire_id t) (next_expire_id t)); [reflexivity|lia].
  - right. split; [reflexivity|exact S].
Qed.

Lemma step_inv stop w v o w' x : inv stop w v -> legal stop w o -> tstep stop w o = Some (w', x) -> inv stop w' (see v (o, x)).
Proof.
  intros [Vn Vi Vm Vf Vc Vl Vp] L E. destruct v as [[s r] c]. cbn [fst snd] in *.
  destruct o as [e i| | |ev|t]; cbn [tstep legal] in *.
  - destruct (arm (now w) (tm w) e i) as [[t ev]|] eqn:A; ob_in E; [|discriminate]. injection E as <- <-.
    unfold arm in A. unfold assert_then in A. destruct (Z.leb_spec (now w) e) as [Le|Le]; [|discriminate].
    destruct (match i with Some d => 0 <? d | None => true end) eqn:P; [|discriminate].
    pose proof A as A'. apply schedule_some in A' as (e' & tv & E1 & E2 & E3 & T1 & T2 & T3).
    cbn [reset next_expire_time next_expire_id] in E1, E2. injection E1 as <-.
    constructor; cbn [now tm pending see fst snd].
    + exact Vn.
    + intros y I. apply enq_in in I as [I|[-> _]]; subst t; cbn [bumped reset next_expire_id].
      * specialize (Vi _ I). lia.
      * subst ev. cbn. lia.
    + subst t. cbn. lia.
    + intros y I. apply enq_in in I as [I|[-> I]]; [auto|]. subst ev. cbn [fst] in *. lia.
    + subst t. reflexivity.
    + assert (B : now w <= e <= EMUTIME_MAX) by (split; [exact Le|exact L]). eapply live_sched; [exact A|reflexivity|exact B|cbn; lia|]. apply vps_none. intros y I. cbn. now apply Vi.
    + split; [lia|]. subst t. cbn [bumped reset expire_interval next_expire_time]. split; [reflexivity|].
      destruct i as [d|]; [|left; auto]. split; [lia|]. split; [f_equal; lia|]. now left.
  - injection E as <- <-. constructor; cbn [now tm pending see fst snd]; try assumption.
    + cbn. lia.
    + reflexivity.
    + unfold live. cbn. apply vps_none. exact Vi.
    + split; [lia|]. cbn. auto.
  - injection E as <- <-. constructor; cbn [now tm pending see fst snd consume]; try assumption.
    + cbn. lia.
  - destruct L as [Lin Lmin]. rewrite Forall_forall in Lmin.
    destruct (expire (fst ev) (tm w) (snd ev)) as [[[t evs] called]|] eqn:X; ob_in E; [|discriminate]. injection E as <- <-.
    pose proof (Vf _ Lin) as Vev. unfold expire in X.
    assert (FUT : forall y, In y (remove_ev ev (pending w)) -> fst ev <= fst y < stop).
    { intros y I. apply remove_in in I as [I _]. specialize (Vf _ I). specialize (Lmin _ I). lia. }
    assert (IDS : forall y, In y (remove_ev ev (pending w)) -> snd y < next_expire_id (tm w)).
    { intros y I. apply remove_in in I as [I _]. auto. }
    destruct (Z.ltb_spec (snd ev) (min_valid_expire_id (tm w))) as [St|St].
    + injection X as <- <- <-.
      assert (VP : vps (tm w) (remove_ev ev (pending w)) = vps (tm w) (pending w)).
      { rewrite vps_remove. apply remove_notin. rewrite in_vps. lia. }
      constructor; cbn [now tm pending see fst snd]; rewrite ?enq_nil; try assumption.
      * lia.
      * unfold live in *. rewrite VP. destruct (next_expire_time (tm w)) as [e|]; [|exact Vl].
        destruct Vl as (Le & tv & T & D). split; [exact Le|]. exists tv. split; [|exact D].
        destruct D as [(id & D)|[D S]]; [|lia].
        assert (I : In (tv, id) (vps (tm w) (pending w))) by (rewrite D; now left). apply in_vps in I as [I _].
        specialize (Lmin _ I). cbn in Lmin. lia.
      * destruct Vp as [K Vp]. split; [exact K|]. destruct s as [[first i]|]; [|exact Vp]. destruct Vp as [P1 P2]. split; [exact P1|].
        destruct i as [d|].
        -- destruct P2 as (P2 & P3 & P4). split; [exact P2|]. split; [exact P3|]. destruct P4; [now left|right; lia].
        -- destruct P2 as [P2|(P2 & P3 & P4)]; [now left|right]. split; [exact P2|]. split; [exact P3|lia].
    + (* the live task *)
      assert (IV : In ev (vps (tm w) (pending w))) by (rewrite in_vps; split; [exact Lin|exact St]).
      destruct (next_expire_time (tm w)) as [e|] eqn:En; ob_in X; [|discriminate].
      unfold live in Vl. rewrite En in Vl. destruct Vl as (Le & tv & T & D).
      assert (VP : vps (tm w) (pending w) = [ev] /\ tv = fst ev).
      { destruct D as [(id & D)|[D _]]; rewrite D in IV; [|destruct IV]. destruct IV as [<-|[]]. split; [exact D|reflexivity]. }
      destruct VP as [VP ->]. clear D.
      assert (VR : vps (tm w) (remove_ev ev (pending w)) = []).
      { rewrite vps_remove, VP. unfold remove_ev. cbn. rewrite !Z.eqb_refl. reflexivity. }
      destruct (Z.ltb_spec (fst ev) e) as [Early|Due].
      * destruct (schedule (fst ev) (tm w)) as [[t1 ev1]|] eqn:S; ob_in X; [|discriminate]. injection X as <- <- <-.
        pose proof S as S'. apply schedule_some in S' as (e' & tv & E1 & E2 & E3 & T1 & T2 & T3).
        rewrite En in E1. injection E1 as <-.
        constructor; cbn [now tm pending see fst snd].
        -- lia.
        -- intros y I. subst t1. cbn [bumped next_expire_id]. apply enq_in in I as [I|[-> _]]; [specialize (IDS _ I); lia|subst ev1; cbn; lia].
        -- subst t1. cbn. lia.
        -- intros y I. apply enq_in in I as [I|[-> I]]; [auto|]. subst ev1. cbn [fst] in *. lia.
        -- subst t1. exact Vc.
        -- eapply live_sched; [exact S|exact En|lia|exact Vm|exact VR].
        -- destruct Vp as [K Vp]. split; [exact K|]. subst t1. cbn [bumped next_expire_time expire_interval].
           destruct s as [[first i]|]; [|exact Vp]. destruct Vp as [P1 P2]. split; [exact P1|].
           destruct i as [d|].
           ++ destruct P2 as (P2 & P3 & P4). split; [exact P2|]. split; [exact P3|]. destruct P4; [now left|right; lia].
           ++ destruct P2 as [P2|(P2 & P3 & P4)]; [now left|right]. split; [exact P2|]. split; [exact P3|lia].
      * destruct s as [[first i]|]; [|destruct Vp as (_ & Q & _); congruence].
        destruct Vp as [K [P1 P2]]. rewrite P1 in X. destruct i as [d|].
        -- destruct P2 as (P2 & P3 & P4). unfold assert_then in X. destruct (Z.ltb_spec 0 d) as [_|]; [|lia].
           destruct (emu_checked_add e d) as [e2|] eqn:A; ob_in X; [|discriminate]. apply emu_add_some in A as [-> A].
           destruct (schedule _ _) as [[t1 ev1]|] eqn:S in X; ob_in X; [|discriminate]. injection X as <- <- <-.
           pose proof S as S'. apply schedule_some in S' as (e' & tv & E1 & E2 & E3 & T1 & T2 & T3).
           cbn [next_expire_time next_expire_id] in E1, E2. injection E1 as <-.
           rewrite En in P3. injection P3 as P3.
           constructor; cbn [now tm pending see fst snd].
           ++ lia.
           ++ intros y I. subst t1. cbn [bumped next_expire_id]. apply enq_in in I as [I|[-> _]]; [specialize (IDS _ I); lia|subst ev1; cbn; lia].
           ++ subst t1. cbn. lia.
           ++ intros y I. apply enq_in in I as [I|[-> I]]; [auto|]. subst ev1. cbn [fst] in *. lia.
           ++ subst t1. cbn. lia.
           ++ eapply live_sched; [exact S|reflexivity|lia|exact Vm|exact VR].
           ++ split; [lia|]. subst t1. cbn [bumped next_expire_time expire_interval]. split; [reflexivity|]. split; [exact P2|].
              split; [f_equal; lia|]. right. lia.
        -- injection X as <- <- <-. rewrite En in P2. destruct P2 as [(-> & P2)|(_ & P2 & _)]; [|discriminate]. injection P2 as ->.
           constructor; cbn [now tm pending see fst snd]; rewrite ?enq_nil.
           ++ lia.
           ++ exact IDS.
           ++ exact Vm.
           ++ exact FUT.
           ++ cbn. lia.
           ++ unfold live. cbn. rewrite (vps_same _ (tm w)) by reflexivity. exact VR.
           ++ split; [lia|]. cbn. split; [reflexivity|]. right. split; [lia|]. split; [reflexivity|lia].
  - injection E as <- <-. destruct L as [L1 L2]. rewrite Forall_forall in L2.
    constructor; cbn [now tm pending see fst snd]; try assumption.
    + lia.
    + intros y I. specialize (Vf _ I). specialize (L2 _ I). lia.
    + unfold live in *. destruct (next_expire_time (tm w)) as [e|]; [|exact Vl].
      destruct Vl as (Le & tv & T & D). split; [exact Le|]. exists tv. split; [|exact D].
      destruct D as [(id & D)|[D S]]; [|lia].
      assert (I : In (tv, id) (vps (tm w) (pending w))) by (rewrite D; now left). apply in_vps in I as [I _].
      specialize (L2 _ I). cbn in L2. lia.
    + destruct Vp as [K Vp]. split; [exact K|]. destruct s as [[first i]|]; [|exact Vp]. destruct Vp as [P1 P2]. split; [exact P1|].
      destruct i as [d|].
      * destruct P2 as (P2 & P3 & P4). split; [exact P2|]. split; [exact P3|]. destruct P4; [now left|right; lia].
      * destruct P2 as [P2|(P2 & P3 & P4)]; [now left|right]. split; [exact P2|]. split; [exact P3|lia].
Qed.

Lemma reach_inv stop start h w : EMUTIME_SIMULATION_START <= start < stop -> truns stop start h w -> inv stop w (seen h).
Proof.
  intros H R. induction R as [|h w o x w' R IH L E]; [now apply inv_new|].
  unfold seen. rewrite fold_left_app. cbn [fold_left]. eapply step_inv; eauto.
Qed.

(** ** From the invariant to the schedule *)
Lemma count_periodic first d k t : 0 < d -> 0 <= k -> t < first + k * d -> (k = 0 \/ first + (k - 1) * d <= t) ->
  expirations (Some (first, Some d)) t = k /\ next_after (Some (first, Some d)) t = Some (first + k * d).
Proof.
  intros D K U W. cbn. destruct (Z.ltb_spec t first) as [L|L].
  - assert (k = 0) by (destruct W as [W|W]; [exact W|nia]). subst. split; [reflexivity|]. f_equal. lia.
  - assert (k <> 0) by (intros ->; lia). destruct W as [W|W]; [contradiction|].
    assert (Q : (t - first) / d = k - 1). { symmetry. apply (Z.div_unique_pos _ _ _ (t - first - d * (k - 1))); nia. }
    rewrite Q. split; [lia|]. f_equal. lia.
Qed.

Lemma settled_next stop w v e : inv stop w v -> settled w -> next_expire_time (tm w) = Some e -> now w < e.
Proof.
  intros I S En. destruct I as [Vn Vi Vm Vf Vc Vl Vp]. unfold live in Vl. rewrite En in Vl. destruct Vl as (_ & tv & T & D).
  destruct D as [(id & D)|[D Q]]; [|lia].
  assert (J : In (tv, id) (vps (tm w) (pending w))) by (rewrite D; now left). apply in_vps in J as [J _].
  unfold settled in S. rewrite Forall_forall in S. specialize (S _ J). cbn in S. lia.
Qed.

Lemma exp_le s t t' : (forall f d, s = Some (f, Some d) -> 0 < d) -> t <= t' -> expirations s t <= expirations s t'.
Proof.
  intros P L. destruct s as [[f [d|]]|]; cbn; [|destruct (Z.ltb_spec t f), (Z.ltb_spec t' f); lia|lia].
  specialize (P _ _ eq_refl). destruct (Z.ltb_spec t f), (Z.ltb_spec t' f); try lia.
  - pose proof (Z.div_pos (t' - f) d). lia.
  - pose proof (Z.div_le_mono (t - f) (t' - f) d). lia.
Qed.

Section Main.
Variables (stop start : Z) (h : list (top * tres)) (w : world).
Hypotheses (S0 : EMUTIME_SIMULATION_START <= start < stop) (R0 : truns stop start h w).

Lemma called_main : settled w -> called_since h = expirations (set_sched h) (now w).
Proof using All.
  intros S. pose proof (reach_inv _ _ _ _ S0 R0) as I. unfold called_since, set_sched.
  destruct (v_prog _ _ _ I) as [K P]. destruct (fst (fst (seen h))) as [[f [d|]]|] eqn:Es.
  - destruct P as (_ & D & N & Q). pose proof (settled_next _ _ _ _ I S N). symmetry. apply count_periodic; auto.
  - destruct P as (_ & [(Q & N)|(Q & N & L)]); cbn.
    + pose proof (settled_next _ _ _ _ I S N). destruct (Z.ltb_spec (now w) f); lia.
    + destruct (Z.ltb_spec (now w) f); lia.
  - destruct P as (_ & -> & _). reflexivity.
Qed.
(** Without waiting for the tasks due now: all expirations before now, none after. *)
Lemma called_bounds : expirations (set_sched h) (now w - 1) <= called_since h <= expirations (set_sched h) (now w).
Proof using All.
  pose proof (reach_inv _ _ _ _ S0 R0) as I. unfold called_since, set_sched.
  pose proof (v_live _ _ _ I) as VL. destruct (v_prog _ _ _ I) as [K P].
  destruct (fst (fst (seen h))) as [[f [d|]]|] eqn:Es.
  - destruct P as (_ & D & N & Q). unfold live in VL. rewrite N in VL. destruct VL as (_ & tv & T & _).
    destruct (Z.eq_dec (now w) (f + snd (seen h) * d)) as [E|E].
    + destruct (count_periodic f d (snd (seen h)) (now w - 1)) as [C1 _]; [exact D|exact K|lia|destruct Q; [now left|right; nia]|].
      destruct (count_periodic f d (snd (seen h) + 1) (now w)) as [C2 _]; [exact D|lia|nia|right; replace (snd (seen h) + 1 - 1) with (snd (seen h)) by lia; lia|]. 
      split; [apply Z.eq_le_incl; exact C1|]. apply Z.le_trans with (snd (seen h) + 1); [lia|]. apply Z.eq_le_incl. symmetry. exact C2.
    + destruct (count_periodic f d (snd (seen h)) (now w)) as [C2 _]; [exact D|exact K|lia|exact Q|].
      assert (M : expirations (Some (f, Some d)) (now w - 1) <= expirations (Some (f, Some d)) (now w)) by (apply exp_le; [|lia]; intros f' d' [= <- <-]; exact D).
      split; [eapply Z.le_trans; [exact M|]|]; apply Z.eq_le_incl; [|symmetry]; exact C2.
  - destruct P as (_ & [(Q & N)|(Q & N & L)]); cbn.
    + unfold live in VL. rewrite N in VL. destruct VL as (_ & tv & T & _).
      destruct (Z.ltb_spec (now w - 1) f), (Z.ltb_spec (now w) f); lia.
    + destruct (Z.ltb_spec (now w - 1) f), (Z.ltb_spec (now w) f); lia.
  - destruct P as (_ & -> & _). cbn. lia.
Qed.
Lemma count_main : expiration_count (tm w) = called_since h - read_since h.
Proof using All. pose proof (v_cnt _ _ _ (reach_inv _ _ _ _ S0 R0)). unfold called_since, read_since. lia. Qed.

Lemma remaining_main : settled w ->
  remaining (now w) (tm w) = match next_after (set_sched h) (now w) with Some e => Some (e - now w) | None => None end.
Proof using All.
  intros S. pose proof (reach_inv _ _ _ _ S0 R0) as I. unfold set_sched, remaining.
  pose proof (v_live _ _ _ I) as VL. pose proof (v_now _ _ _ I) as VN. destruct (v_prog _ _ _ I) as [K P].
  assert (SUB : forall e, next_expire_time (tm w) = Some e -> emu_saturating_duration_since e (now w) = e - now w).
  { intros e N. unfold live in VL. rewrite N in VL. destruct VL as (L & tv & T & _).
    unfold emu_saturating_duration_since. pose proof c_max. rewrite emu_since_ok by lia. reflexivity. }
  destruct (fst (fst (seen h))) as [[f [d|]]|] eqn:Es.
  - destruct P as (_ & D & N & Q). pose proof (settled_next _ _ _ _ I S N).
    destruct (count_periodic f d (snd (seen h)) (now w)) as [_ C]; [exact D|exact K|lia|exact Q|]. match goal with |- context [next_after ?a ?b] => change (next_after a b) with (next_after (Some (f, Some d)) (now w)) end. rewrite C, N. f_equal. now apply SUB.
  - destruct P as (_ & [(Q & N)|(Q & N & L)]); rewrite N; cbn.
    + pose proof (settled_next _ _ _ _ I S N). destruct (Z.ltb_spec (now w) f); [|lia]. f_equal. now apply SUB.
    + destruct (Z.ltb_spec (now w) f); [lia|reflexivity].
  - destruct P as [N _]. rewrite N. reflexivity.
Qed.
Lemma interval_main s : set_sched h = Some s -> expire_interval (tm w) = snd s.
Proof using All.
  intros E. destruct (v_prog _ _ _ (reach_inv _ _ _ _ S0 R0)) as [_ P]. unfold set_sched in E. rewrite E in P. destruct s. apply P.
Qed.
Lemma interval_none : set_sched h = None -> expire_interval (tm w) = None.
Proof using All.
  intros E. destruct (v_prog _ _ _ (reach_inv _ _ _ _ S0 R0)) as [_ P]. unfold set_sched in E. rewrite E in P. apply P.
Qed.
(** Tasks queued before an arming or disarming do nothing afterwards. *)
Lemma stale_main o x w1 ev : (match o with Arm _ _ | Disarm => True | _ => False end) ->
  legal stop w o -> tstep stop w o = Some (w1, x) -> In ev (pending w) ->
  forall h2 w2, truns stop start (h ++ (o, x) :: h2) w2 -> expire (fst ev) (tm w2) (snd ev) = Some (tm w2, [], false).
Proof using All.
  intros A L E Iev.
  assert (M1 : snd ev < min_valid_expire_id (tm w1)).
  { pose proof (v_ids _ _ _ (reach_inv _ _ _ _ S0 R0) _ Iev) as B. destruct o; try contradiction; cbn in E.
    - destruct (arm _ _ _ _) as [[t e1]|] eqn:Ar; ob_in E; [|discriminate]. injection E as <- _. unfold arm, assert_then in Ar.
      destruct (now w <=? e); [|discriminate]. destruct (match i with Some d => 0 <? d | None => true end); [|discriminate].
      apply schedule_some in Ar as (? & ? & _ & _ & -> & _). exact B.
    - injection E as <- _. exact B. }
  assert (STEP : forall w a b o x, inv stop a w -> tstep stop a o = Some (b, x) -> min_valid_expire_id (tm a) <= min_valid_expire_id (tm b)).
  { clear. intros v a b o x I E. destruct o as [e i| | |ev|t]; cbn in E.
    - destruct (arm _ _ _ _) as [[t e1]|] eqn:Ar; ob_in E; [|discriminate]. injection E as <- _. unfold arm, assert_then in Ar.
      destruct (now a <=? e); [|discriminate]. destruct (match i with Some d => 0 <? d | None => true end); [|discriminate].
      apply schedule_some in Ar as (? & ? & _ & _ & -> & _). cbn. apply (v_min _ _ _ I).
    - injection E as <- _. cbn. apply (v_min _ _ _ I).
    - injection E as <- _. cbn. lia.
    - destruct (expire _ _ _) as [[[t evs] cl]|] eqn:X; ob_in E; [|discriminate]. injection E as <- _. cbn.
      unfold expire in X. destruct (_ <? _) in X; [injection X as <- _ _; lia|].
      destruct (next_expire_time (tm a)) as [e|]; ob_in X; [|discriminate]. destruct (_ <? _) in X.
      + destruct (schedule _ _) as [[t1 e1]|] eqn:Sc; ob_in X; [|discriminate]. injection X as <- _ _.
        apply schedule_some in Sc as (? & ? & _ & _ & -> & _). cbn. lia.
      + destruct (expire_interval (tm a)) as [d|]; [|injection X as <- _ _; cbn; lia].
        unfold assert_then in X. destruct (0 <? d); [|discriminate]. destruct (emu_checked_add e d) as [e2|]; ob_in X; [|discriminate].
        destruct (schedule _ _) as [[t1 e1]|] eqn:Sc in X; ob_in X; [|discriminate]. injection X as <- _ _.
        apply schedule_some in Sc as (? & ? & _ & _ & -> & _). cbn. lia.
    - injection E as <- _. cbn. lia. }
  assert (DET : forall h' w', truns stop start h' w' -> forall w'', truns stop start h' w'' -> w' = w'').
  { clear. intros h' w' R. induction R as [|h' w' o x w1 R IH L E]; intros w2 R2.
    - inversion R2; [reflexivity|]. destruct h; discriminate.
    - inversion R2 as [Q|h3 w3 o3 x3 w4 R3 L3 E3 Q]; [destruct h'; discriminate|]. apply app_inj_tail in Q as [-> Q].
      injection Q as -> ->. rewrite (IH _ R3) in E. congruence. }
  intros h2. induction h2 as [|[o2 x2] h2 IH] using rev_ind; intros w2 R2.
  - assert (w2 = w1) as ->. { eapply DET; [exact R2|]. econstructor; eauto. }
    unfold expire. destruct (Z.ltb_spec (snd ev) (min_valid_expire_id (tm w1))); [reflexivity|lia].
  - rewrite app_comm_cons, app_assoc in R2. inversion R2 as [Q|h3 w3 o3 x3 w4 R3 L3 E3 Q]; [destruct (h ++ (o, x) :: h2); discriminate|].
    apply app_inj_tail in Q as [-> Q]. injection Q as -> ->. subst w4. specialize (IH _ R3).
    pose proof (STEP _ _ _ _ _ (reach_inv _ _ _ _ S0 R3) E3) as M.
    unfold expire in IH |- *. destruct (Z.ltb_spec (snd ev) (min_valid_expire_id (tm w2))) as [_|B]; [reflexivity|].
    destruct (Z.ltb_spec (snd ev) (min_valid_expire_id (tm w3))) as [B3|B3]; [lia|].
    exfalso. destruct (next_expire_time (tm w3)) as [e|]; ob_in IH; [|discriminate]. destruct (_ <? _) in IH.
    + destruct (schedule _ _) as [[t1 e1]|] in IH; ob_in IH; discriminate.
    + destruct (expire_interval (tm w3)); [|discriminate]. unfold assert_then in IH. destruct (0 <? z); [|discriminate].
      destruct (emu_checked_add e z); ob_in IH; [|discriminate]. destruct (schedule _ _) as [[t1 e1]|] in IH; ob_in IH; discriminate.
Qed.
End Main.

Lemma sched_sane stop h : forall v0, (forall f d, fst (fst v0) = Some (f, Some d) -> stop + d <= EMUTIME_MAX) ->
  Forall (fun ox => sane_interval stop (fst ox)) h ->
  forall f d, fst (fst (fold_left see h v0)) = Some (f, Some d) -> stop + d <= EMUTIME_MAX.
Proof.
  induction h as [|[o x] h IH]; intros v0 B F f d; cbn [fold_left]; [apply B|].
  inversion F as [|? ? F1 F2]; subst. apply IH; [|exact F2]. intros f' d'. destruct v0 as [[s r] c]. cbn [fst] in B.
  destruct o as [e i| | |ev|t]; cbn [see fst].
  - intros [= -> ->]. exact F1.
  - discriminate.
  - destruct x; cbn; apply B.
  - destruct x as [| |[]]; cbn; apply B.
  - cbn. apply B.
Qed.

Lemma no_panic_main stop start h w o : sane_times stop start -> truns stop start h w ->
  Forall (fun ox => sane_interval stop (fst ox)) h -> legal stop w o -> documented w o ->
  exists w' x, tstep stop w o = Some (w', x).
Proof.
  intros [S0 S1] R F L D. pose proof (reach_inv _ _ _ _ S0 R) as I. pose proof (v_now _ _ _ I) as VN.
  destruct o as [e i| | |ev|t]; cbn [tstep documented legal] in *; try (do 2 eexists; reflexivity).
  - destruct D as [D1 D2]. unfold arm. rewrite assert_true by lia. rewrite assert_true.
    2: { destruct i as [d|]; [|reflexivity]. specialize (D2 _ eq_refl). lia. }
    destruct (schedule_ok (now w) (reset (tm w) (Some e) i) e) as [[t ev] E]; [reflexivity|lia|lia|]. rewrite E. ob. eauto.
  - destruct L as [Lin _]. unfold expire. destruct (Z.ltb_spec (snd ev) (min_valid_expire_id (tm w))) as [St|St]; [ob; eauto|].
    pose proof (v_fut _ _ _ I _ Lin) as VF. pose proof (v_live _ _ _ I) as VL. unfold live in VL.
    assert (IV : In ev (vps (tm w) (pending w))) by (rewrite in_vps; auto).
    destruct (next_expire_time (tm w)) as [e|] eqn:En; [|rewrite VL in IV; destruct IV]. ob.
    destruct (Z.ltb_spec (fst ev) e) as [Early|Due].
    + destruct (schedule_ok (fst ev) (tm w) e) as [[t1 ev1] E]; [exact En|lia|lia|]. rewrite E. ob. eauto.
    + destruct (v_prog _ _ _ I) as [_ P]. destruct (fst (fst (seen h))) as [[f i]|] eqn:Es; [|destruct P; congruence].
      destruct P as [P1 P2]. rewrite P1. destruct i as [d|]; [|ob; eauto].
      destruct P2 as [P2 _]. rewrite assert_true by lia.
      assert (SI : stop + d <= EMUTIME_MAX).
      { eapply (sched_sane stop h (None, 0, 0)); [discriminate|exact F|exact Es]. }
      rewrite emu_add_ok by lia. ob.
      destruct (schedule_ok (fst ev) {| next_expire_time := Some (e + d); expire_interval := Some d;
        expiration_count := expiration_count (tm w) + 1; next_expire_id := next_expire_id (tm w);
        min_valid_expire_id := min_valid_expire_id (tm w) |} (e + d)) as [[t1 ev1] E]; [reflexivity|lia|lia|].
      rewrite E. ob. eauto.
Qed.

(** ** Timer descriptors *)
Lemma timespec_some v x : sim_try_from_timespec v = Some x -> x = nanos v /\ 0 <= x.
Proof.
  unfold sim_try_from_timespec, sim_try_from_duration, nanos.
  destruct ((tv_sec v <? 0) || (tv_nsec v <? 0) || (tv_nsec v >? 999999999)) eqn:E; [discriminate|].
  apply orb_false_iff in E as [E1 E3]. apply orb_false_iff in E1 as [E1 E2].
  destruct (tv_sec v * 1000000000 + tv_nsec v >? SIMTIME_MAX); [discriminate|]. intros H. injection H as H. subst x. split; [reflexivity|lia].
Qed.

(** The world of a timer descriptor is that of a timer with a matching history. *)
Record sim (stop start : Z) (h : list (fop * fres)) (f : timerfd) (th : list (top * tres)) : Prop := {
  s_run : truns stop start th (td_world f);
  s_now : now (td_world f) = f_now start h;
  s_sched : set_sched th = f_sched start h;
  s_read : read_since th = f_read start h;
  s_closed : td_closed f = false -> td_readable f = (0 <? expiration_count (tm (td_world f))) }.

Lemma seen_snoc th ox : seen (th ++ [ox]) = see (seen th) ox.
Proof. unfold seen. rewrite fold_left_app. reflexivity. Qed.
Lemma fseen_snoc start h ox : fseen start (h ++ [ox]) = fsee (fseen start h) ox.
Proof. unfold fseen. rewrite fold_left_app. reflexivity. Qed.

Lemma ran_false stop w ev w' : tstep stop w (Run ev) = Some (w', Ran false) -> expiration_count (tm w') = expiration_count (tm w).
Proof.
  cbn [tstep]. destruct (expire _ _ _) as [[[t evs] c]|] eqn:X; ob; [|discriminate]. intros [= <- ->]. cbn [tm].
  unfold expire in X. destruct (_ <? _) in X; [injection X as <- _; reflexivity|].
  destruct (next_expire_time (tm w)) as [e|]; ob_in X; [|discriminate]. destruct (_ <? _) in X.
  - destruct (schedule _ _) as [[t1 e1]|] eqn:Sc; ob_in X; [|discriminate]. injection X as <- _.
    apply schedule_some in Sc as (? & ? & _ & _ & -> & _). reflexivity.
  - destruct (expire_interval (tm w)) as [d|]; [|discriminate]. unfold assert_then in X. destruct (0 <? d); [|discriminate].
    destruct (emu_checked_add e d); ob_in X; [|discriminate]. destruct (schedule _ _) as [[t1 e1]|] in X; ob_in X; discriminate.
Qed.

Lemma run_res stop w ev w' x : tstep stop w (Run ev) = Some (w', x) -> exists c, x = Ran c /\ now w' = fst ev.
Proof.
  cbn [tstep]. destruct (expire _ _ _) as [[[t evs] c]|] eqn:X; ob; [|discriminate]. intros [= <- <-]. exists c. auto.
Qed.

Lemma fsim stop start h f : EMUTIME_SIMULATION_START <= start < stop -> stop <= EMUTIME_MAX -> fruns stop start h f ->
  Forall no_fault h -> exists th, sim stop start h f th.
Proof.
  intros S0 S1 R. induction R as [|h f o x f' R IH L E]; intros NF.
  - exists []. constructor; try reflexivity. constructor.
  - apply Forall_app in NF as [NF NF1]. inversion NF1 as [|? ? NF2 _]; subst. clear NF1. destruct (IH NF) as [th [H1 H2 H3 H4 H5]]. clear IH.
    pose proof (reach_inv _ _ _ _ S0 H1) as I. pose proof (v_now _ _ _ I) as VN.
    unfold f_now, f_sched, f_read, set_sched, read_since in *.
    destruct (fseen start h) as [[n s] r] eqn:Ef. destruct (seen th) as [[s' r'] c'] eqn:Et. cbn [fst snd] in *. subst n s' r'.
    destruct o as [abs v i|off len acc| |ev|t]; cbn [fstep flegal] in *.
    + unfold fd_settime in E.
      destruct (sim_try_from_timespec v) as [vn|] eqn:Ev; [destruct (sim_try_from_timespec i) as [inn|] eqn:Ei|].
      * apply timespec_some in Ev as [-> Vp]. apply timespec_some in Ei as [-> Ip].
        destruct (Z.eqb_spec (nanos v) 0) as [Z0|Z0].
        -- cbn [tstep] in E. ob_in E. injection E as <- <-. exists (th ++ [(Disarm, Unit)]).
           constructor; unfold f_now, f_sched, f_read, set_sched, read_since; rewrite ?seen_snoc, ?fseen_snoc, ?Et, ?Ef; cbn [see fsee fst snd];
             rewrite ?(proj2 (Z.eqb_eq _ _) Z0); cbn [fst snd refresh td_world td_closed td_readable now]; try reflexivity.
           ++ eapply tr_snoc; [exact H1|exact Logic.I|reflexivity].
           ++ intros C. rewrite C. reflexivity.
        -- destruct (emu_checked_add _ _) as [e|] eqn:A; ob_in E; [|discriminate]. apply emu_add_some in A as [-> A].
           set (ar := Arm _ _) in E. destruct (tstep stop (td_world f) ar) as [[w y]|] eqn:T; ob_in E; [|discriminate]. injection E as <- <-.
           exists (th ++ [(ar, y)]).
           assert (Nw : now w = now (td_world f)).
           { cbn in T. destruct (arm _ _ _ _) as [[t1 e1]|]; ob_in T; [|discriminate]. now injection T as <- _. }
           constructor; unfold f_now, f_sched, f_read, set_sched, read_since; rewrite ?seen_snoc, ?fseen_snoc, ?Et, ?Ef; cbn [see fsee fst snd];
             rewrite ?(proj2 (Z.eqb_neq _ _) Z0); cbn [fst snd refresh td_world td_closed td_readable now]; try reflexivity.
           ++ eapply tr_snoc; [exact H1| |exact T]. cbn. lia.
           ++ exact Nw.
           ++ intros C. rewrite C. reflexivity.
      * ob_in E. injection E as <- <-. exists th. constructor; unfold f_now, f_sched, f_read, set_sched, read_since; rewrite ?fseen_snoc, ?Et, ?Ef; cbn [fsee fst snd]; auto.
      * ob_in E. injection E as <- <-. exists th. constructor; unfold f_now, f_sched, f_read, set_sched, read_since; rewrite ?fseen_snoc, ?Et, ?Ef; cbn [fsee fst snd]; auto.
    + cbn in NF2. subst acc. unfold fd_read in E. destruct off; [|destruct (len <? 8)].
      * injection E as <- <-. exists th. constructor; unfold f_now, f_sched, f_read, set_sched, read_since; rewrite ?fseen_snoc, ?Et, ?Ef; cbn [fsee fst snd]; auto.
      * injection E as <- <-. exists th. constructor; unfold f_now, f_sched, f_read, set_sched, read_since; rewrite ?fseen_snoc, ?Et, ?Ef; cbn [fsee fst snd]; auto.
      * destruct (consume (tm (td_world f))) as [t1 k] eqn:Co.
        set (w := {| now := _; tm := t1; pending := _ |}) in E.
        assert (T : tstep stop (td_world f) Consume = Some (w, Count k)) by (cbn [tstep]; rewrite Co; reflexivity).
        assert (Kc : k = expiration_count (tm (td_world f)) /\ expiration_count t1 = 0) by (unfold consume in Co; injection Co as <- <-; auto).
        destruct Kc as [Kc K0]. exists (th ++ [(Consume, Count k)]).
        assert (TR : truns stop start (th ++ [(Consume, Count k)]) w) by (eapply tr_snoc; [exact H1|exact Logic.I|exact T]).
        assert (K1 : expiration_count (tm w) = 0) by exact K0.
        destruct (Z.eqb_spec k 0) as [Ez|Nz]; cbn [negb] in E; injection E as <- <-.
        -- constructor; unfold f_now, f_sched, f_read, set_sched, read_since; rewrite ?seen_snoc, ?fseen_snoc, ?Et, ?Ef;
             cbn [see fsee fst snd refresh td_world td_closed td_readable]; [exact TR|reflexivity|reflexivity|lia|].
           intros C. rewrite (H5 C), <- Kc, Ez, K1. reflexivity.
        -- constructor; unfold f_now, f_sched, f_read, set_sched, read_since; rewrite ?seen_snoc, ?fseen_snoc, ?Et, ?Ef;
             cbn [see fsee fst snd refresh td_world td_closed td_readable]; [exact TR|reflexivity|reflexivity|reflexivity|].
           intros C. rewrite C. reflexivity.
    + injection E as <- <-. exists th. constructor; unfold f_now, f_sched, f_read, set_sched, read_since; rewrite ?fseen_snoc, ?Et, ?Ef; cbn [fsee fst snd fd_close td_world td_closed]; auto. discriminate.
    + unfold fd_run in E. destruct (tstep stop (td_world f) (Run ev)) as [[w y]|] eqn:T; ob_in E; [|discriminate]. injection E as <- <-.
      destruct (run_res _ _ _ _ _ T) as (c & -> & Nw). exists (th ++ [(Run ev, Ran c)]).
      assert (TR : truns stop start (th ++ [(Run ev, Ran c)]) w) by (eapply tr_snoc; [exact H1|exact L|exact T]).
      destruct c; constructor; unfold f_now, f_sched, f_read, set_sched, read_since; rewrite ?seen_snoc, ?fseen_snoc, ?Et, ?Ef;
        cbn [see fsee fst snd refresh td_world td_closed td_readable]; auto.
      * intros C. rewrite C. reflexivity.
      * intros C. rewrite (H5 C). now rewrite (ran_false _ _ _ _ T).
    + injection E as <- <-. exists (th ++ [(Wait t, Unit)]).
      constructor; unfold f_now, f_sched, f_read, set_sched, read_since; rewrite ?seen_snoc, ?fseen_snoc, ?Et, ?Ef; cbn [see fsee fst snd td_world td_closed td_readable now tm]; auto.
      eapply tr_snoc; [exact H1|exact L|reflexivity].
Qed.

Lemma not_closed stop start h f : fruns stop start h f -> Forall no_close h -> td_closed f = false.
Proof.
  intros R. induction R as [|h f o x f' R IH L E]; intros NC; [reflexivity|].
  apply Forall_app in NC as [NC NC1]. inversion NC1 as [|? ? NC2 _]; subst. specialize (IH NC).
  destruct o as [abs v i|off len acc| |ev|t]; cbn [fstep] in E.
  - unfold fd_settime in E. destruct (sim_try_from_timespec v) as [vn|]; [destruct (sim_try_from_timespec i) as [inn|]|]; [destruct (vn =? 0)|..].
    + cbn [tstep] in E. ob_in E. now injection E as <- _.
    + destruct (emu_checked_add _ _); ob_in E; [|discriminate]. destruct (tstep _ _ _) as [[w y]|]; ob_in E; [|discriminate]. now injection E as <- _.
    + ob_in E. now injection E as <- _.
    + ob_in E. now injection E as <- _.
  - unfold fd_read in E. destruct off; [now injection E as <- _|]. destruct (len <? 8); [now injection E as <- _|].
    destruct (consume _) as [t1 k]. destruct (k =? 0); [now injection E as <- _|]. destruct acc; cbn in E; now injection E as <- _.
  - exfalso. now apply NC2.
  - unfold fd_run in E. destruct (tstep _ _ _) as [[w y]|]; ob_in E; [|discriminate]. injection E as <- _. now destruct y as [| |[]].
  - now injection E as <- _.
Qed.

Section FdMain.
Variables (stop start : Z) (h : list (fop * fres)) (f : timerfd).
Hypotheses (S0 : EMUTIME_SIMULATION_START <= start < stop) (S1 : stop <= EMUTIME_MAX) (R0 : fruns stop start h f) (NF : Forall no_fault h)
  (ST : settled (td_world f)).
Lemma fd_count : expiration_count (tm (td_world f)) = f_count start h.
Proof using All.
  destruct (fsim _ _ _ _ S0 S1 R0 NF) as [th [H1 H2 H3 H4 H5]]. unfold f_count. rewrite <- H2, <- H3, <- H4.
  rewrite (count_main _ _ _ _ S0 H1), (called_main _ _ _ _ S0 H1 ST). reflexivity.
Qed.
Lemma fd_readable_main : Forall no_close h -> td_readable f = (0 <? f_count start h).
Proof using All.
  intros NC. rewrite <- fd_count. destruct (fsim _ _ _ _ S0 S1 R0 NF) as [th [H1 H2 H3 H4 H5]]. apply H5. eapply not_closed; eauto.
Qed.
Lemma fd_read_main len : 8 <= len -> exists f', fstep stop f (FRead false len true) =
  Some (f', if f_count start h =? 0 then FErr EWOULDBLOCK else FCount (f_count start h)).
Proof using All.
  intros L. rewrite <- fd_count. cbn [fstep fd_read]. unfold fd_read. destruct (Z.ltb_spec len 8); [lia|]. unfold consume.
  cbn [negb]. destruct (expiration_count (tm (td_world f)) =? 0); eexists; reflexivity.
Qed.
Lemma fd_gettime_main : fd_gettime f =
  (match next_after (f_sched start h) (f_now start h) with Some e => e - f_now start h | None => 0 end, interval_of (f_sched start h)).
Proof using All.
  destruct (fsim _ _ _ _ S0 S1 R0 NF) as [th [H1 H2 H3 H4 H5]]. unfold fd_gettime.
  rewrite (remaining_main _ _ _ _ S0 H1 ST). rewrite H2, H3. f_equal.
  - now destruct (next_after _ _).
  - destruct (f_sched start h) as [[a i]|] eqn:E.
    + rewrite (interval_main _ _ _ _ S0 H1 _ H3). destruct i; reflexivity.
    + rewrite (interval_none _ _ _ _ S0 H1 H3). reflexivity.
Qed.
End FdMain.

(** Executing a history, for examples. *)
Definition flegalb (stop : Z) (f : timerfd) (o : fop) : bool :=
  match o with
  | FRun ev => existsb (fun x => (fst x =? fst ev) && (snd x =? snd ev)) (pending (td_world f)) &&
      forallb (fun x => fst ev <=? fst x) (pending (td_world f))
  | FWait t => (now (td_world f) <=? t) && (t <? stop) && forallb (fun x => t <=? fst x) (pending (td_world f))
  | _ => true
  end.
Lemma flegalb_ok stop f o : flegalb stop f o = true -> flegal stop f o.
Proof.
  destruct o; cbn; try tauto; intros H.
  - apply andb_true_iff in H as [H1 H2]. split.
    + apply existsb_exists in H1 as (x & I & E). apply andb_true_iff in E as [E1 E2]. apply Z.eqb_eq in E1, E2.
      destruct x, ev. cbn in *. congruence.
    + apply Forall_forall. intros x I. rewrite forallb_forall in H2. apply H2 in I. lia.
  - apply andb_true_iff in H as [H1 H2]. split; [lia|]. apply Forall_forall. intros x I. rewrite forallb_forall in H2. apply H2 in I. lia.
Qed.
Fixpoint fexec (stop : Z) (f : timerfd) (l : list fop) : option (list (fop * fres) * timerfd) :=
  match l with
  | [] => Some ([], f)
  | o :: r =>
      if flegalb stop f o then
        do (f', x) <- fstep stop f o; do (h, f2) <- fexec stop f' r; Some ((o, x) :: h, f2)
      else None
  end.
Lemma fexec_ok stop start l h0 f h f' : fruns stop start h0 f -> fexec stop f l = Some (h, f') -> fruns stop start (h0 ++ h) f'.
Proof.
  revert h0 f h. induction l as [|o l IH]; intros h0 f h R; cbn [fexec].
  - intros [= <- <-]. now rewrite app_nil_r.
  - destruct (flegalb stop f o) eqn:L; [|discriminate]. destruct (fstep stop f o) as [[f1 x]|] eqn:E; ob; [|discriminate].
    destruct (fexec stop f1 l) as [[h1 f2]|] eqn:X; ob; [|discriminate]. intros [= <- <-].
    replace (h0 ++ (o, x) :: h1) with ((h0 ++ [(o, x)]) ++ h1) by (rewrite <- app_assoc; reflexivity).
    eapply IH; [|exact X]. eapply fr_snoc; [exact R|now apply flegalb_ok|exact E].
Qed.
Lemma fexec_new stop start l h f : fexec stop (timerfd_new start) l = Some (h, f) -> fruns stop start h f.
Proof. intros E. apply (fexec_ok stop start l [] (timerfd_new start)); [constructor|exact E]. Qed.
