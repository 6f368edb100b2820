(** Determinism of the simulation loop. *)
From Verif Require Import Base TimeModel TimeProofs EventModel EventSpec EventProofs CpuModel RunaheadModel
  RunaheadProofs SimModel SimSpec SimProofs SimInv.

Section P.
Context {S K T : Type} (keqb : K -> K -> bool) (teqb : T -> T -> bool) (P : params S K T).
Notation event := (event K T).
Notation hstate := (hstate S K T).
Notation gstate := (gstate S K T).
Notation effect := (effect K T).
Notation label := (label K T).
Notation pop_min := (pop_min keqb teqb).
Notation host_step := (host_step keqb teqb P).
Notation step := (step keqb teqb P).
Notation run := (run keqb teqb P).
Notation apply_effect := (apply_effect keqb teqb P).
Notation q_push := (q_push keqb teqb).
Notation bag x := (q_bag (h_q x)).
Notation last x := (q_last (h_q x)).
Notation HW := (HW P).
Notation effect_ok := (effect_ok P).
Notation GW := (GW P).

Hypothesis CFG : config_ok P.

(** [x] is [y] with the additional queued events [ex]. *)
Record simx (ex : list event) (x y : hstate) : Prop := {
  sx_priv : h_priv x = h_priv y;
  sx_phase : h_phase x = h_phase y;
  sx_ctr : h_ctr x = h_ctr y;
  sx_cpu : h_cpu x = h_cpu y;
  sx_clock : h_clock x = h_clock y;
  sx_last : last x = last y;
  sx_bag : Permutation (bag x) (bag y ++ ex);
}.

Lemma simx_HW : forall ex h ws we x y, simx ex x y -> HW h ws we x -> HW h ws we y.
Proof.
  intros ex h ws we x y S0 W.
  assert (IN : forall e, In e (bag y) -> In e (bag x)).
  { intros e I. eapply Permutation_in; [symmetry; apply S0|]. apply in_app_iff. now left. }
  constructor.
  - pose proof (distinct_perm _ _ (sx_bag _ _ _ S0) (hw_distinct _ _ _ _ _ W)) as D.
    unfold distinct in *. rewrite map_app in D. now apply nodup_app_l in D.
  - intros e I. rewrite <- (sx_last _ _ _ S0), <- (sx_clock _ _ _ S0). apply W. auto.
  - intros t i k I. rewrite <- (sx_ctr _ _ _ S0). eapply hw_ctr; eauto.
  - rewrite <- (sx_last _ _ _ S0). apply W.
  - rewrite <- (sx_clock _ _ _ S0). apply W.
  - rewrite <- (sx_phase _ _ _ S0), <- (sx_last _ _ _ S0), <- (sx_clock _ _ _ S0). apply W.
  - rewrite <- (sx_phase _ _ _ S0). apply W.
  - rewrite <- (sx_cpu _ _ _ S0). apply W.
Qed.

Lemma low_pop : forall we (lx ly ex : list event), Permutation lx (ly ++ ex) -> distinct lx ->
  (forall e, In e ex -> we <= ev_time e) ->
  (exists m rx ry, pop_min lx = Some (m, rx) /\ pop_min ly = Some (m, ry) /\ ev_time m < we /\
     Permutation rx (ry ++ ex)) \/
  (forall m r, pop_min lx = Some (m, r) -> we <= ev_time m) /\
  (forall m r, pop_min ly = Some (m, r) -> we <= ev_time m).
Proof.
  intros we lx ly ex PM D HI.
  assert (DY : distinct ly).
  { pose proof (distinct_perm _ _ PM D) as D2. unfold distinct in *. rewrite map_app in D2. now apply nodup_app_l in D2. }
  destruct (pop_min ly) as [[m ry]|] eqn:PY.
  - pose proof (pop_min_perm _ _ _ _ _ PY) as P1.
    destruct (Z.lt_ge_cases (ev_time m) we) as [L|G].
    + left. exists m.
      assert (PX : Permutation (m :: (ry ++ ex)) lx).
      { rewrite PM. rewrite P1. reflexivity. }
      assert (PMX : pop_min (m :: (ry ++ ex)) = Some (m, match pop_min (ry ++ ex) with Some (m', r') => m' :: r' | None => [] end)).
      { cbn [EventModel.pop_min]. destruct (pop_min (ry ++ ex)) as [[m' r']|] eqn:E; [|reflexivity].
        assert (I : In m' (ry ++ ex)).
        { eapply Permutation_in; [symmetry; eapply pop_min_perm; exact E|now left]. }
        destruct (ev_ltb keqb teqb m' m) eqn:LT; [|reflexivity].
        exfalso. apply ltb_before in LT. apply in_app_iff in I as [I|I].
        - apply (before_irrefl m). eapply before_trans; [|exact LT]. eapply pop_min_least; eauto.
        - apply before_le in LT. specialize (HI _ I). lia. }
      destruct (pop_min_perm_some keqb teqb _ lx _ _ (distinct_perm _ _ (Permutation_sym PX) D) PX PMX) as (rx & E & PR).
      exists rx, ry. repeat split; auto.
      rewrite <- PR. symmetry.
      destruct (pop_min (ry ++ ex)) as [[m' r']|] eqn:E2.
      * eapply pop_min_perm; eauto.
      * apply pop_min_none in E2. now rewrite E2.
    + right. split.
      * intros mx rx PX. destruct (Z.lt_ge_cases (ev_time mx) we) as [L|]; [|assumption]. exfalso.
        assert (I : In mx (ly ++ ex)).
        { eapply Permutation_in; [exact PM|]. eapply Permutation_in; [symmetry; eapply pop_min_perm; exact PX|now left]. }
        apply in_app_iff in I as [I|I].
        -- eapply Permutation_in in I; [|exact P1]. destruct I as [<-|I]; [lia|].
           pose proof (pop_min_least _ _ _ _ _ DY PY _ I) as B. apply before_le in B. lia.
        -- specialize (HI _ I). lia.
      * intros m0 r0 E. injection E as <- <-. assumption.
  - right. split.
    + intros mx rx PX. apply pop_min_none in PY. subst ly. cbn in PM. apply HI.
      eapply Permutation_in; [exact PM|]. eapply Permutation_in; [symmetry; eapply pop_min_perm; exact PX|now left].
    + intros m r E. discriminate.
Qed.

Lemma next_frame : forall we ex (qx qy : equeue K T), Permutation (q_bag qx) (q_bag qy ++ ex) -> distinct (q_bag qx) ->
  (forall e, In e ex -> we <= ev_time e) ->
  max_runahead keqb teqb we qx = max_runahead keqb teqb we qy.
Proof.
  intros we ex qx qy PM D HI. unfold max_runahead, q_next_event_time.
  destruct (low_pop we _ _ _ PM D HI) as [(m & rx & ry & -> & -> & _ & _)|[A B]]; [reflexivity|].
  destruct (pop_min (q_bag qx)) as [[m r]|]; [specialize (A _ _ eq_refl)|];
    (destruct (pop_min (q_bag qy)) as [[m' r']|]; [specialize (B _ _ eq_refl)|]); lia.
Qed.

Lemma push_frame : forall ex (bx by' : list event) lst e x2,
  Permutation bx (by' ++ ex) -> push_local keqb teqb P (mkQ bx lst) e = Some x2 ->
  distinct (e :: bx) \/ p_sim_end P <= ev_time e -> lst <= ev_time e ->
  exists y2, push_local keqb teqb P (mkQ by' lst) e = Some y2 /\ fst y2 = fst x2 /\
    q_last (snd y2) = q_last (snd x2) /\ Permutation (q_bag (snd x2)) (q_bag (snd y2) ++ ex).
Proof.
  intros ex bx by' lst e x2 PM H D L. unfold push_local in *.
  destruct (Z.leb_spec (p_sim_end P) (ev_time e)) as [G|L2].
  - injection H as <-. exists (false, mkQ by' lst). repeat split; auto.
  - destruct D as [D|D]; [|lia].
    rewrite q_push_ok in H by auto. ob_in H. injection H as <-.
    rewrite q_push_ok; cbn [q_last q_bag]; auto.
    + ob. eexists. split; [reflexivity|]. repeat split. cbn. now rewrite PM.
    + assert (D2 : distinct ((e :: by') ++ ex)) by (eapply distinct_perm; [|exact D]; cbn; now rewrite PM).
      unfold distinct in *. rewrite map_app in D2. now apply nodup_app_l in D2.
Qed.

Lemma host_step_frame : forall ex h ws we x y x' f, HW h ws we x -> we <= p_sim_end P -> simx ex x y ->
  (forall e, In e ex -> we <= ev_time e) -> host_step h we x = Some (x', f) ->
  exists y', host_step h we y = Some (y', f) /\ simx ex x' y'.
Proof.
  intros ex h ws we x y x' f W WE SX HI HS.
  assert (WY := simx_HW _ _ _ _ _ _ SX W).
  assert (NF := next_frame we ex _ _ (sx_bag _ _ _ SX) (hw_distinct _ _ _ _ _ W) HI).
  unfold SimModel.host_step in *. rewrite <- (sx_phase _ _ _ SX).
  destruct (h_phase x) as [| |d k delay|d k delay] eqn:PH.
  - (* pop *)
    unfold pop_step in *. unfold q_next_event_time, q_pop in *.
    destruct (low_pop we _ _ _ (sx_bag _ _ _ SX) (hw_distinct _ _ _ _ _ W) HI)
      as [(m & rx & ry & PX & PY & LT & PR)|[A B]].
    + rewrite PX in HS. rewrite PY. destruct (Z.ltb_spec (ev_time m) we) as [_|]; [|lia].
      rewrite <- (sx_last _ _ _ SX). destruct (last x <=? ev_time m); cbn [assert_then] in *; [|discriminate].
      ob. ob_in HS. rewrite <- (sx_cpu _ _ _ SX).
      pose proof (pop_min_perm _ _ _ _ _ PX) as PP.
      assert (DM : distinct (m :: rx)) by (eapply distinct_perm; [exact PP|apply W]).
      destruct (Z.ltb_spec 0 (cpu_delay (cpu_update_time (h_cpu x) (ev_time m)))) as [DP|DZ].
      * set (e' := ev_set_time m (ev_time m + cpu_delay (cpu_update_time (h_cpu x) (ev_time m)))) in *.
        destruct (push_local keqb teqb P {| q_bag := rx; q_last := ev_time m |} e') as [[ok q2]|] eqn:PL; ob_in HS; [|discriminate].
        injection HS as <- <-.
        destruct (push_frame ex rx ry (ev_time m) e' (ok, q2) PR PL) as (y2 & EY & E1 & E2 & E3).
        { left. unfold distinct in *. cbn [map] in *. exact DM. }
        { cbn. lia. }
        destruct y2 as [ok2 q3]. cbn [fst snd] in *. subst ok2. rewrite EY. ob.
        eexists. split; [reflexivity|].
        constructor; cbn [h_priv h_phase h_q h_ctr h_cpu h_clock]; try apply SX; auto.
      * injection HS as <- <-. rewrite <- (sx_priv _ _ _ SX). eexists. split; [reflexivity|].
        constructor; cbn [h_priv h_phase h_q h_ctr h_cpu h_clock q_last q_bag]; try apply SX; auto.
    + assert (HX : (x', f) = (x, FReturn)).
      { destruct (pop_min (bag x)) as [[m r]|]; [|injection HS as <- <-; reflexivity].
        specialize (A _ _ eq_refl). destruct (Z.ltb_spec (ev_time m) we); [lia|]. injection HS as <- <-; reflexivity. }
      injection HX as -> ->. exists y. split; [|assumption].
      destruct (pop_min (bag y)) as [[m r]|]; [|reflexivity].
      specialize (B _ _ eq_refl). destruct (Z.ltb_spec (ev_time m) we); [lia|]. reflexivity.
  - (* action *)
    assert (NI : h_phase x <> PIdle) by (rewrite PH; discriminate).
    destruct (hw_exec _ _ _ _ _ W NI) as [LC WC].
    unfold do_action in *. rewrite <- (sx_priv _ _ _ SX). rewrite <- (sx_clock _ _ _ SX).
    rewrite <- (sx_ctr _ _ _ SX), <- (sx_cpu _ _ _ SX), <- NF.
    destruct (p_next P h (h_priv x)) as [|d task|dst chance payload k|t| | |native].
    + injection HS as <- <-. eexists. split; [reflexivity|]. constructor; cbn; try apply SX; auto.
    + set (e := mkEv (h_clock x + Z.of_N d) (@ELocal K T (h_ctr x) task)) in *.
      destruct (push_local keqb teqb P (h_q x) e) as [[ok q2]|] eqn:PL; ob_in HS; [|discriminate].
      injection HS as <- <-.
      destruct (h_q x) as [bx lx] eqn:EQX. destruct (h_q y) as [by' ly] eqn:EQY.
      pose proof (sx_last _ _ _ SX) as SL. rewrite EQX, EQY in SL. cbn in SL. subst ly.
      pose proof (sx_bag _ _ _ SX) as SB. rewrite EQX, EQY in SB. cbn in SB.
      destruct (push_frame ex bx by' lx e (ok, q2) SB PL) as (y2 & EY & E1 & E2 & E3).
      { left. apply fresh_local.
        - pose proof (hw_distinct _ _ _ _ _ W) as D. now rewrite EQX in D.
        - pose proof (hw_ctr _ _ _ _ _ W) as D. now rewrite EQX in D. }
      { cbn in LC. cbn. lia. }
      destruct y2 as [ok2 q3]. cbn [fst snd] in *. subst ok2. rewrite EY. ob.
      eexists. split; [reflexivity|]. constructor; cbn [h_priv h_phase h_q h_ctr h_cpu h_clock]; auto.
    + destruct (p_sim_end P <=? h_clock x).
      { injection HS as <- <-. eexists. split; [reflexivity|]. constructor; cbn; try apply SX; auto. }
      destruct (negb (Nat.ltb dst (p_nhosts P))).
      { injection HS as <- <-. eexists. split; [reflexivity|]. constructor; cbn; try apply SX; auto. }
      destruct (negb (h_clock x <? p_boot_end P) && (p_rel P h dst <=? chance) && payload).
      { injection HS as <- <-. eexists. split; [reflexivity|]. constructor; cbn; try apply SX; auto. }
      injection HS as <- <-. eexists. split; [reflexivity|]. constructor; cbn; try apply SX; auto.
    + destruct ((h_clock x <=? t) && (t <=? max_runahead keqb teqb we (h_q x)));
        injection HS as <- <-; eexists; (split; [reflexivity|]); constructor; cbn; try apply SX; auto.
    + injection HS as <- <-. eexists. split; [reflexivity|]. constructor; cbn; try apply SX; auto.
    + injection HS as <- <-. eexists. split; [reflexivity|]. constructor; cbn; try apply SX; auto.
    + destruct (cpu_add_delay (h_cpu x) (Z.of_N native)) as [c'|]; ob_in HS; [|discriminate]. ob.
      injection HS as <- <-. eexists. split; [reflexivity|]. constructor; cbn; try apply SX; auto.
  - injection HS as <- <-. rewrite <- (sx_priv _ _ _ SX), <- (sx_ctr _ _ _ SX), <- (sx_cpu _ _ _ SX), <- (sx_clock _ _ _ SX).
    eexists. split; [reflexivity|]. constructor; cbn; try apply SX; auto.
  - injection HS as <- <-. rewrite <- (sx_priv _ _ _ SX), <- (sx_ctr _ _ _ SX), <- (sx_cpu _ _ _ SX), <- (sx_clock _ _ _ SX).
    eexists. split; [reflexivity|]. constructor; cbn; try apply SX; auto.
Qed.

(** *** A host alone, in one round *)

Fixpoint liter (h : nat) (we : Z) (n : nat) (y : hstate) : option (hstate * list effect) :=
  match n with
  | O => Some (y, [])
  | Datatypes.S n =>
      match liter h we n y with
      | None => None
      | Some (y1, fs) =>
          match host_step h we y1 with
          | None | Some (_, FReturn) => None
          | Some (y2, f) => Some (y2, fs ++ [f])
          end
      end
  end.

Definition returned (h : nat) (we : Z) (y : hstate) : Prop := host_step h we y = Some (y, FReturn).

Lemma liter_HW : forall h ws we n y y' fs, HW h ws we y -> we <= p_sim_end P ->
  liter h we n y = Some (y', fs) -> HW h ws we y' /\ length fs = n.
Proof.
  induction n as [|n IH]; intros y y' fs W WE H; cbn in H.
  - injection H as <- <-. auto.
  - destruct (liter h we n y) as [[y1 fs1]|] eqn:E; [|discriminate].
    destruct (IH _ _ _ W WE E) as [W1 L].
    destruct (host_step_ok keqb teqb P h ws we y1 W1 WE) as (x' & f & HS & W' & _).
    rewrite HS in H. destruct f; try discriminate; injection H as <- <-; split; auto;
      rewrite app_length; cbn; lia.
Qed.

Lemma liter_frame : forall h ws we n y1 y2 z1 fs, HW h ws we y1 -> we <= p_sim_end P ->
  simx [] y1 y2 -> liter h we n y1 = Some (z1, fs) ->
  exists z2, liter h we n y2 = Some (z2, fs) /\ simx [] z1 z2.
Proof.
  induction n as [|n IH]; intros y1 y2 z1 fs W WE SX H; cbn [liter] in *.
  - injection H as <- <-. eauto.
  - destruct (liter h we n y1) as [[w1 fs1]|] eqn:E; [|discriminate].
    destruct (IH _ _ _ _ W WE SX E) as (w2 & E2 & SW). rewrite E2.
    destruct (liter_HW _ _ _ _ _ _ _ W WE E) as [W1 _].
    destruct (host_step h we w1) as [[v1 f]|] eqn:HS; [|discriminate].
    destruct (host_step_frame [] h ws we w1 w2 v1 f W1 WE SW) as (v2 & HS2 & SV); auto; [intros e []|].
    rewrite HS2. destruct f; try discriminate; injection H as <- <-; eauto.
Qed.

Lemma liter_mono : forall h we n m y z1 fs1 z2 fs2, liter h we n y = Some (z1, fs1) ->
  liter h we m y = Some (z2, fs2) -> (n <= m)%nat -> exists r, fs2 = fs1 ++ r.
Proof.
  intros h we n m. induction m as [|m IH]; intros y z1 fs1 z2 fs2 H1 H2 L.
  - assert (n = 0)%nat by lia. subst. rewrite H1 in H2. injection H2 as -> ->. exists []. now rewrite app_nil_r.
  - destruct (Nat.eq_dec n (Datatypes.S m)) as [->|N].
    + rewrite H1 in H2. injection H2 as -> ->. exists []. now rewrite app_nil_r.
    + cbn [liter] in H2. destruct (liter h we m y) as [[w fs]|] eqn:E; [|discriminate].
      destruct (IH _ _ _ _ _ H1 E ltac:(lia)) as (r & ->).
      destruct (host_step h we w) as [[v f]|]; [|discriminate].
      destruct f; try discriminate; injection H2 as <- <-; rewrite <- app_assoc; eauto.
Qed.

Lemma liter_le : forall h we n m y z2 fs2, liter h we m y = Some (z2, fs2) -> (n <= m)%nat ->
  exists z1 fs1, liter h we n y = Some (z1, fs1).
Proof.
  intros h we n m. induction m as [|m IH]; intros y z2 fs2 H L.
  - assert (n = 0)%nat by lia. subst. eauto.
  - destruct (Nat.eq_dec n (Datatypes.S m)) as [->|N]; [eauto|].
    cbn [liter] in H. destruct (liter h we m y) as [[w fs]|] eqn:E; [|discriminate].
    eapply IH; eauto. lia.
Qed.

(** A host that has returned cannot have been run further. *)
Lemma liter_returned : forall h we n m y z1 fs1 z2 fs2, liter h we n y = Some (z1, fs1) ->
  returned h we z1 -> liter h we m y = Some (z2, fs2) -> (m <= n)%nat.
Proof.
  intros h we n m y z1 fs1 z2 fs2 H1 R H2. destruct (Nat.le_gt_cases m n) as [|L]; [assumption|]. exfalso.
  destruct (liter_le h we (Datatypes.S n) m y z2 fs2 H2 ltac:(lia)) as (z3 & fs3 & H3).
  cbn [liter] in H3. rewrite H1 in H3. unfold returned in R. rewrite R in H3. discriminate.
Qed.

(** *** All hosts, in one round *)

Fixpoint sent_to (d : nat) (E : nat -> list effect) (n : nat) : list event :=
  match n with
  | O => []
  | Datatypes.S n => flat_map (fun f => recv f d) (E n) ++ sent_to d E n
  end.

Definition lats (fs : list effect) : list Z :=
  flat_map (fun f => match f with FLat l => [l] | _ => [] end) fs.

Lemma sent_to_upd : forall d E h f n, (h < n)%nat ->
  Permutation (sent_to d (upd E h (E h ++ [f])) n) (recv f d ++ sent_to d E n).
Proof.
  intros d E h f n. induction n as [|n IH]; intros L; [lia|]. cbn [sent_to].
  destruct (Nat.eq_dec n h) as [->|N].
  - rewrite upd_same, flat_map_app. cbn [flat_map]. rewrite app_nil_r.
    assert (EQ : forall m, (m <= h)%nat -> sent_to d (upd E h (E h ++ [f])) m = sent_to d E m).
    { induction m as [|m IHm]; intros Lm; [reflexivity|]. cbn [sent_to].
      rewrite upd_other by lia. rewrite IHm by lia. reflexivity. }
    rewrite EQ by lia. rewrite <- app_assoc. apply Permutation_app_swap_app.
  - rewrite upd_other by auto. rewrite IH by lia. apply Permutation_app_swap_app.
Qed.

Lemma sent_to_ext : forall d E E' n, (forall h, (h < n)%nat -> E h = E' h) -> sent_to d E n = sent_to d E' n.
Proof.
  induction n as [|n IH]; intros H; [reflexivity|]. cbn. rewrite H by lia. f_equal. apply IH. intros; apply H; lia.
Qed.

(** Effect of latency reports on the shared minimum, independent of their order. *)
Record ra_after (r0 r : runahead) (ls : Z -> Prop) : Prop := {
  rf_dyn : ra_dynamic r = ra_dynamic r0;
  rf_mp : ra_min_possible r = ra_min_possible r0;
  rf_cfg : ra_config r = ra_config r0;
  rf_static : ra_dynamic r0 = false -> ra_min_used r = ra_min_used r0;
  rf_from : forall m, ra_min_used r = Some m -> ra_min_used r0 = Some m \/ ls m;
  rf_le0 : forall m, ra_min_used r0 = Some m -> exists m', ra_min_used r = Some m' /\ m' <= m;
  rf_le : ra_dynamic r0 = true -> forall l, ls l -> exists m', ra_min_used r = Some m' /\ m' <= l;
}.

Lemma ra_after_unique : forall r0 r1 r2 l1 l2, (forall x, l1 x <-> l2 x) -> ra_after r0 r1 l1 -> ra_after r0 r2 l2 -> r1 = r2.
Proof.
  intros r0 r1 r2 l1 l2 EX A1 A2.
  assert (E : ra_min_used r1 = ra_min_used r2).
  { destruct (ra_dynamic r0) eqn:D.
    2:{ rewrite (rf_static _ _ _ A1 D), (rf_static _ _ _ A2 D). reflexivity. }
    assert (X : forall ra rb la lb, (forall x, la x <-> lb x) -> ra_after r0 ra la -> ra_after r0 rb lb ->
       forall m, ra_min_used ra = Some m -> exists m', ra_min_used rb = Some m' /\ m' <= m).
    { intros ra rb la lb EX' Aa Ab m E. destruct (rf_from _ _ _ Aa _ E) as [E0|L].
      - apply (rf_le0 _ _ _ Ab _ E0).
      - apply (rf_le _ _ _ Ab D). now apply EX'. }
    assert (EX' : forall x, l2 x <-> l1 x) by (intros; symmetry; auto).
    destruct (ra_min_used r1) as [m1|] eqn:E1; destruct (ra_min_used r2) as [m2|] eqn:E2; auto.
    - destruct (X _ _ _ _ EX A1 A2 _ E1) as (m & Em & L). rewrite E2 in Em. injection Em as <-.
      destruct (X _ _ _ _ EX' A2 A1 _ E2) as (m & Em & L'). rewrite E1 in Em. injection Em as <-. f_equal; lia.
    - destruct (X _ _ _ _ EX A1 A2 _ E1) as (m & Em & L). congruence.
    - destruct (X _ _ _ _ EX' A2 A1 _ E2) as (m & Em & L). congruence. }
  pose proof (rf_dyn _ _ _ A1). pose proof (rf_dyn _ _ _ A2). pose proof (rf_mp _ _ _ A1). pose proof (rf_mp _ _ _ A2).
  pose proof (rf_cfg _ _ _ A1). pose proof (rf_cfg _ _ _ A2).
  destruct r1, r2; cbn in *; congruence.
Qed.

Definition cache_ok (s : gstate) : Prop :=
  ra_dynamic (g_ra s) = true -> forall w c, w_cache (g_worker s w) = Some c ->
    exists m, ra_min_used (g_ra s) = Some m /\ m <= c.

(** [s] was reached inside the round that began in [r0]. *)
Record RI (r0 s : gstate) (ws we : Z) (cnt : nat -> nat) (Y : nat -> hstate) (E : nat -> list effect) : Prop := {
  ri_win0 : g_window r0 = Some (ws, we);
  ri_win : g_window s = Some (ws, we);
  ri_iter : forall h, (h < p_nhosts P)%nat -> liter h we (cnt h) (g_host r0 h) = Some (Y h, E h);
  ri_sim : forall h, (h < p_nhosts P)%nat -> simx (sent_to h E (p_nhosts P)) (g_host s h) (Y h);
  ri_high : forall h e, (h < p_nhosts P)%nat -> In e (sent_to h E (p_nhosts P)) -> we <= ev_time e;
  ri_status : forall h, (h < p_nhosts P)%nat -> match g_status s h with
     | RWait => cnt h = 0%nat
     | RActive _ => True
     | RReading _ | RDone => returned h we (Y h) end;
  ri_ra : ra_after (g_ra r0) (g_ra s) (fun x => exists h, (h < p_nhosts P)%nat /\ In x (lats (E h)));
  ri_cache' : cache_ok s;
}.

Definition round_start (s : gstate) : Prop := forall h, g_status s h = RWait.

Lemma RI_start : forall r0 ws we, g_window r0 = Some (ws, we) -> round_start r0 -> cache_ok r0 ->
  RI r0 r0 ws we (fun _ => 0%nat) (g_host r0) (fun _ => []).
Proof.
  intros r0 ws we W R C. 
  assert (SE : forall h n, sent_to h (fun _ : nat => @nil effect) n = []).
  { intros h n. induction n; cbn; auto. }
  constructor; auto.
  - intros h _. rewrite SE. constructor; auto. now rewrite app_nil_r.
  - intros h e _. rewrite SE. intros [].
  - intros h _. now rewrite R.
  - constructor; auto; try (intros m E; exists m; split; [assumption|lia]).
    intros _ l (h & _ & []).
Qed.

Lemma RI_start_host : forall r0 s ws we cnt Y E h w, RI r0 s ws we cnt Y E ->
  RI r0 (mkG (g_host s) (upd (g_status s) h (RActive w)) (g_worker s) (g_ra s) (g_window s)) ws we cnt Y E.
Proof.
  intros r0 s ws we cnt Y E h w R. constructor; try apply R.
  intros d LD. cbn. destruct (Nat.eq_dec d h) as [->|N]; [now rewrite upd_same|].
  rewrite upd_other by auto. now apply (ri_status _ _ _ _ _ _ _ R).
Qed.

Lemma RI_finish : forall r0 s ws we cnt Y E h w, RI r0 s ws we cnt Y E -> (h < p_nhosts P)%nat ->
  g_status s h = RReading w -> RI r0 (finish_host keqb teqb s h w) ws we cnt Y E.
Proof.
  intros r0 s ws we cnt Y E h w R LH ST. constructor; try apply R.
  - intros d LD. cbn. pose proof (ri_status _ _ _ _ _ _ _ R d LD) as X.
    destruct (Nat.eq_dec d h) as [->|N]; [rewrite upd_same; now rewrite ST in X|now rewrite upd_other by auto].
  - intros D w' c. cbn. destruct (Nat.eq_dec w' w) as [->|N]; [rewrite upd_same; cbn|rewrite upd_other by auto];
      apply (ri_cache' _ _ _ _ _ _ _ R D).
Qed.

Lemma ra_update_after : forall r d r', 0 < d -> ra_update r d = Some r' ->
  ra_dynamic r' = ra_dynamic r /\ ra_min_possible r' = ra_min_possible r /\ ra_config r' = ra_config r /\
  (ra_dynamic r = false -> ra_min_used r' = ra_min_used r) /\
  (forall m, ra_min_used r' = Some m -> ra_min_used r = Some m \/ m = d) /\
  (forall m, ra_min_used r = Some m -> exists m', ra_min_used r' = Some m' /\ m' <= m) /\
  (ra_dynamic r = true -> exists m', ra_min_used r' = Some m' /\ m' <= d).
Proof.
  intros r d r' L H. unfold ra_update, ra_update_read in H. rewrite assert_true in H by lia. ob_in H.
  injection H as <-. unfold ra_update_write, ra_should_update.
  destruct (ra_dynamic r) eqn:D; cbn [andb].
  - destruct (ra_min_used r) as [m|] eqn:M.
    + destruct (negb (m <=? d)) eqn:C; cbn [ra_set_min ra_min_used ra_dynamic ra_min_possible ra_config]; rewrite ?M, ?D;
        repeat split; try congruence.
      * intros m0 X. injection X as <-. auto.
      * intros m0 X. injection X as <-. exists d. split; auto. lia.
      * intros _. exists d. split; auto; lia.
      * intros m0 X. auto.
      * intros m0 X. exists m0. split; auto; lia.
      * intros _. exists m. split; auto; lia.
    + cbn [ra_set_min ra_min_used ra_dynamic ra_min_possible ra_config]; rewrite ?D; repeat split; try congruence.
      * intros m0 X. injection X as <-. auto.
      * intros _. exists d. split; auto; lia.
  - rewrite ?D. repeat split; try congruence; auto.
    intros m X. exists m. split; auto; lia.
Qed.

Lemma lats_app : forall a b, lats (a ++ b) = lats a ++ lats b.
Proof. intros. apply flat_map_app. Qed.

(** Reporting one more latency, through the worker's cache. *)
Lemma report_after : forall s w delay c go ra',
  0 < delay -> cache_ok s -> cache_update (w_cache (g_worker s w)) delay = Some (c, go) ->
  (if go : bool then ra_update (g_ra s) delay = Some ra' else ra' = g_ra s) ->
  ra_dynamic ra' = ra_dynamic (g_ra s) /\ ra_min_possible ra' = ra_min_possible (g_ra s) /\ ra_config ra' = ra_config (g_ra s) /\
  (ra_dynamic (g_ra s) = false -> ra_min_used ra' = ra_min_used (g_ra s)) /\
  (forall m, ra_min_used ra' = Some m -> ra_min_used (g_ra s) = Some m \/ m = delay) /\
  (forall m, ra_min_used (g_ra s) = Some m -> exists m', ra_min_used ra' = Some m' /\ m' <= m) /\
  (ra_dynamic (g_ra s) = true -> exists m', ra_min_used ra' = Some m' /\ m' <= delay) /\
  (forall c', c = Some c' -> c' = delay \/ w_cache (g_worker s w) = Some c').
Proof.
  intros s w delay c go ra' L CO CU RU. unfold cache_update in CU. rewrite assert_true in CU by lia.
  destruct go.
  - destruct (ra_update_after _ _ _ L RU) as (A1 & A2 & A3 & A4 & A5 & A6 & A7).
    do 7 (split; [assumption|]).
    intros c' ->. destruct (w_cache (g_worker s w)) as [m|]; [destruct (delay <? m)|]; injection CU as <-; auto.
  - subst ra'. destruct (w_cache (g_worker s w)) as [m|] eqn:CW; [|discriminate].
    destruct (Z.ltb_spec delay m); [discriminate|]. injection CU as <-.
    do 4 (split; [auto|]). split; [auto|]. split; [intros m0 E; exists m0; split; [auto|lia]|]. split; [|auto].
    intros D. destruct (CO D _ _ CW) as (m' & E & L'). exists m'. split; [auto|lia].
Qed.

Lemma RI_host_step : forall n r0 s ws we cnt Y E h w x' f s', GW n r0 -> GW n s -> RI r0 s ws we cnt Y E ->
  g_status s h = RActive w -> host_step h we (g_host s h) = Some (x', f) ->
  apply_effect s h w x' f = Some s' ->
  exists cnt' Y' E', RI r0 s' ws we cnt' Y' E' /\
    (forall d, E' d = E d ++ (if Nat.eqb d h then match f with FReturn => [] | _ => [f] end else [])).
Proof.
  intros n r0 s ws we cnt Y E h w x' f s' G0 G R ST HS AE.
  destruct (host_step_global keqb teqb P CFG n s h w ws we G (ri_win _ _ _ _ _ _ _ R) ST)
    as (x2 & f2 & s2 & HS2 & AE2 & AP & W' & EO & PM & CT & CK & LA & LH & UW & RC).
  rewrite HS in HS2. injection HS2 as <- <-. rewrite AE in AE2. injection AE2 as <-.
  destruct (gw_win _ _ _ G _ _ (ri_win _ _ _ _ _ _ _ R)) as [WS WE].
  pose proof (gw_host _ _ _ G _ _ _ (ri_win _ _ _ _ _ _ _ R) LH) as W.
  destruct (host_step_frame (sent_to h E (p_nhosts P)) h ws we (g_host s h) (Y h) x' f W WE
              (ri_sim _ _ _ _ _ _ _ R h LH) ltac:(intros; eapply (ri_high _ _ _ _ _ _ _ R); eauto) HS)
    as (y' & HY & SY).
  destruct (match f with FReturn => true | _ => false end) eqn:FR.
  { destruct f; try discriminate. cbn in EO. destruct EO as (-> & _ & _).
    exists cnt, Y, E. split.
    2:{ intros d. destruct (Nat.eqb d h); now rewrite app_nil_r. }
    assert (YR : returned h we (Y h)).
    { unfold returned. rewrite HY. f_equal. f_equal.
      destruct (host_step_ok keqb teqb P h ws we (Y h) (simx_HW _ _ _ _ _ _ (ri_sim _ _ _ _ _ _ _ R h LH) W) WE) as (z & g & HZ & _ & _ & _ & _ & EZ & _).
      rewrite HY in HZ. injection HZ as <- <-. now destruct EZ. }
    constructor; try apply R.
    - rewrite (ap_win _ _ _ _ _ _ AP). apply R.
    - intros d LD. rewrite (ap_host _ _ _ _ _ _ AP). rewrite with_recv_nil by reflexivity.
      destruct (Nat.eq_dec d h) as [->|N]; [rewrite upd_same|rewrite upd_other by auto]; now apply R.
    - intros d LD. rewrite (ap_status _ _ _ _ _ _ AP). destruct (Nat.eq_dec d h) as [->|N].
      + now rewrite upd_same.
      + rewrite upd_other by auto. now apply R.
    - rewrite (ap_ra _ _ _ _ _ _ AP). apply R.
    - intros D w' c. rewrite (ap_ra _ _ _ _ _ _ AP) in *. rewrite (ap_cache _ _ _ _ _ _ AP) by (right; discriminate).
      now apply (ri_cache' _ _ _ _ _ _ _ R). }
  assert (IT : liter h we (Datatypes.S (cnt h)) (g_host r0 h) = Some (y', E h ++ [f])).
  { cbn [liter]. rewrite (ri_iter _ _ _ _ _ _ _ R h LH), HY. destruct f; try reflexivity. discriminate. }
  set (E' := upd E h (E h ++ [f])).
  assert (SE : forall d, Permutation (sent_to d E' (p_nhosts P)) (recv f d ++ sent_to d E (p_nhosts P))).
  { intros d. now apply sent_to_upd. }
  exists (upd cnt h (Datatypes.S (cnt h))), (upd Y h y'), E'. split.
  2:{ intros d. unfold E'. destruct (Nat.eqb_spec d h) as [->|N].
      - rewrite upd_same. f_equal. destruct f; try reflexivity. discriminate.
      - rewrite upd_other by auto. now rewrite app_nil_r. }
  constructor.
  - apply R.
  - rewrite (ap_win _ _ _ _ _ _ AP). apply R.
  - intros d LD. unfold E'. destruct (Nat.eq_dec d h) as [->|N].
    + rewrite !upd_same. exact IT.
    + rewrite !upd_other by auto. now apply R.
  - intros d LD. rewrite (ap_host _ _ _ _ _ _ AP). unfold with_recv.
    assert (SB : simx (sent_to d E (p_nhosts P)) (upd (g_host s) h x' d) (upd Y h y' d)).
    { destruct (Nat.eq_dec d h) as [->|N]; [now rewrite !upd_same|rewrite !upd_other by auto; now apply R]. }
    constructor; cbn [set_q h_priv h_phase h_q h_ctr h_cpu h_clock q_bag q_last]; try apply SB.
    rewrite SE. rewrite (sx_bag _ _ _ SB). rewrite !app_assoc. apply Permutation_app_tail, Permutation_app_comm.
  - intros d e LD I. eapply Permutation_in in I; [|apply SE]. apply in_app_iff in I as [I|I].
    + now apply (RC d).
    + eapply (ri_high _ _ _ _ _ _ _ R); eauto.
  - intros d LD. rewrite (ap_status _ _ _ _ _ _ AP). destruct (Nat.eq_dec d h) as [->|N].
    + rewrite !upd_same. assert (X : match f with FReturn => upd (g_status s) h (RReading w) | _ => g_status s end h = RActive w).
      { destruct f; auto. discriminate. }
      now rewrite X.
    + rewrite !upd_other by auto.
      assert (X : match f with FReturn => upd (g_status s) h (RReading w) | _ => g_status s end d = g_status s d).
      { destruct f; auto. now rewrite upd_other by auto. }
      rewrite X. now apply R.
  - pose proof (ap_ra _ _ _ _ _ _ AP) as RA. pose proof (ri_ra _ _ _ _ _ _ _ R) as R0.
    assert (LE : forall x, (exists d, (d < p_nhosts P)%nat /\ In x (lats (E' d))) <->
                 ((exists d, (d < p_nhosts P)%nat /\ In x (lats (E d))) \/ f = FLat x)).
    { intros x. unfold E'. split.
      - intros (d & LD & I). destruct (Nat.eq_dec d h) as [->|N].
        + rewrite upd_same, lats_app in I. apply in_app_iff in I as [I|I]; [left; eauto|right].
          destruct f; cbn in I; try contradiction. destruct I as [->|[]]; auto.
        + rewrite upd_other in I by auto. left; eauto.
      - intros [(d & LD & I)|EF].
        + exists d. split; auto. destruct (Nat.eq_dec d h) as [->|N].
          * rewrite upd_same, lats_app. apply in_app_iff. now left.
          * now rewrite upd_other by auto.
        + exists h. split; auto. rewrite upd_same, lats_app. apply in_app_iff. right. subst f. now left. }
    destruct (match f with FLat _ => true | _ => false end) eqn:FL.
    + destruct f as [| | | | | | |delay| |]; try discriminate. destruct RA as (c & go & CU & GW' & RU).
      assert (DP : 0 < delay) by (cbn in EO; destruct EO as (d & LD & ->); now apply (co_lat _ CFG)).
      destruct (report_after _ _ _ _ _ _ DP (ri_cache' _ _ _ _ _ _ _ R) CU RU) as (A1 & A2 & A3 & A4 & A5 & A6 & A7 & _).
      constructor.
      * rewrite A1. apply R0.
      * rewrite A2. apply R0.
      * rewrite A3. apply R0.
      * intros D. rewrite A4; [now apply R0|]. rewrite (rf_dyn _ _ _ R0). exact D.
      * intros m Em. destruct (A5 _ Em) as [E0| ->].
        -- destruct (rf_from _ _ _ R0 _ E0) as [X|X]; [auto|right; apply LE; auto].
        -- right. apply LE. auto.
      * intros m Em. destruct (rf_le0 _ _ _ R0 _ Em) as (m1 & E1 & L1). destruct (A6 _ E1) as (m2 & E2 & L2). exists m2. split; [auto|lia].
      * intros D l IL. apply LE in IL as [IL|EF].
        -- destruct (rf_le _ _ _ R0 D _ IL) as (m1 & E1 & L1). destruct (A6 _ E1) as (m2 & E2 & L2). exists m2. split; [auto|lia].
        -- injection EF as ->. apply A7. rewrite (rf_dyn _ _ _ R0). exact D.
    + assert (RE : g_ra s' = g_ra s) by (destruct f; try exact RA; discriminate).
      rewrite RE. constructor; try apply R0.
      * intros m Em. destruct (rf_from _ _ _ R0 _ Em) as [X|X]; [auto|right; apply LE; auto].
      * intros D l IL. apply LE in IL as [IL|EF]; [now apply (rf_le _ _ _ R0 D)|]. subst f. discriminate.
  - pose proof (ap_ra _ _ _ _ _ _ AP) as RA.
    destruct (match f with FLat _ => true | _ => false end) eqn:FL.
    + destruct f as [| | | | | | |delay| |]; try discriminate. destruct RA as (c & go & CU & GW' & RU).
      assert (DP : 0 < delay) by (cbn in EO; destruct EO as (d & LD & ->); now apply (co_lat _ CFG)).
      destruct (report_after _ _ _ _ _ _ DP (ri_cache' _ _ _ _ _ _ _ R) CU RU) as (A1 & A2 & A3 & A4 & A5 & A6 & A7 & A8).
      intros D w' c' EC. rewrite A1 in D. destruct (Nat.eq_dec w' w) as [->|N].
      * rewrite GW' in EC. cbn in EC. destruct (A8 _ EC) as [->|CW]; [auto|].
        destruct (ri_cache' _ _ _ _ _ _ _ R D _ _ CW) as (m & Em & L). destruct (A6 _ Em) as (m2 & E2 & L2). exists m2. split; [auto|lia].
      * rewrite (ap_cache _ _ _ _ _ _ AP) in EC by auto.
        destruct (ri_cache' _ _ _ _ _ _ _ R D _ _ EC) as (m & Em & L). destruct (A6 _ Em) as (m2 & E2 & L2). exists m2. split; [auto|lia].
    + assert (RE : g_ra s' = g_ra s) by (destruct f; try exact RA; discriminate).
      intros D w' c EC. rewrite RE in *. rewrite (ap_cache _ _ _ _ _ _ AP) in EC.
      * now apply (ri_cache' _ _ _ _ _ _ _ R D w').
      * right. intros d ->. discriminate.
Qed.

End P.
