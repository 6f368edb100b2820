(** The global invariant of the simulation loop and the absence of panics. *)
From Verif Require Import Base TimeModel TimeProofs EventModel EventSpec EventProofs CpuModel RunaheadModel
  RunaheadProofs SimModel SimSpec SimProofs.

Section P.
Context {S K T : Type} (keqb : K -> K -> bool) (teqb : T -> T -> bool) (P : params S K T).
Notation event := (event K T).
Notation hstate := (hstate S K T).
Notation gstate := (gstate S K T).
Notation effect := (effect K T).
Notation label := (label K T).
Notation pop_min := (pop_min keqb teqb).
Notation host_step := (host_step keqb teqb P).
Notation step := (step keqb teqb P).
Notation apply_effect := (apply_effect keqb teqb P).
Notation q_push := (q_push keqb teqb).
Notation bag x := (q_bag (h_q x)).
Notation last x := (q_last (h_q x)).
Notation HW := (HW P).
Notation effect_ok := (effect_ok P).

Hypothesis CFG : config_ok P.

Definition recorded (s : gstate) (w : nat) (t : Z) : Prop :=
  w_next (g_worker s w) = Some t \/ w_pkt (g_worker s w) = Some t.

Record RAok (r : runahead) : Prop := {
  rk_mp : 0 < ra_min_possible r;
  rk_used : forall m, ra_min_used r = Some m -> 0 < m;
}.

Definition idle_high (we : Z) (x : hstate) : Prop :=
  h_phase x = PIdle /\ forall e, In e (bag x) -> we <= ev_time e.

Record GW (n : nat) (s : gstate) : Prop := {
  gw_win : forall ws we, g_window s = Some (ws, we) -> SIM_START <= ws < we /\ we <= p_sim_end P;
  gw_host : forall ws we h, g_window s = Some (ws, we) -> (h < p_nhosts P)%nat -> HW h ws we (g_host s h);
  gw_pkt : forall d src t i k, (d < p_nhosts P)%nat ->
     In (mkEv t (EPacket src i k)) (bag (g_host s d)) -> i < h_ctr (g_host s src);
  gw_status : forall ws we h, g_window s = Some (ws, we) -> (h < p_nhosts P)%nat ->
     match g_status s h with
     | RWait => h_phase (g_host s h) = PIdle
     | RActive w => (w < n)%nat
     | RReading w => (w < n)%nat /\ idle_high we (g_host s h)
     | RDone => idle_high we (g_host s h)
     end;
  gw_dom : forall h, g_status s h <> RWait -> (h < p_nhosts P)%nat;
  gw_sound : forall ws we w t, g_window s = Some (ws, we) -> recorded s w t ->
     we <= t /\ exists h e, (h < p_nhosts P)%nat /\ In e (bag (g_host s h)) /\ ev_time e = t;
  gw_complete : forall h e, g_status s h = RDone -> In e (bag (g_host s h)) ->
     exists w t, (w < n)%nat /\ recorded s w t /\ t <= ev_time e;
  gw_ra : RAok (g_ra s);
  gw_end : g_window s = None -> forall h e, (h < p_nhosts P)%nat -> In e (bag (g_host s h)) ->
     p_sim_end P <= ev_time e;
}.

(** Events a micro-step's effect delivers to host [d] from outside. *)
Definition recv (f : effect) (d : nat) : list event :=
  match f with FSend d' _ _ e => if Nat.eqb d' d then [e] else [] | _ => [] end.

Definition with_recv (f : effect) (d : nat) (y : hstate) : hstate :=
  set_q y (mkQ (recv f d ++ bag y) (last y)).

Lemma with_recv_nil : forall f d y, recv f d = [] -> with_recv f d y = y.
Proof. intros f d [? ? [? ?] ? ? ?] E. unfold with_recv. now rewrite E. Qed.

Lemma omin_some_r : forall a t, exists t', omin a (Some t) = Some t' /\ t' <= t /\
  (t' = t \/ a = Some t').
Proof.
  intros [x|] t; cbn.
  - exists (Z.min x t). repeat split; try lia. destruct (Z.min_spec x t) as [[_ ->]|[_ ->]]; auto.
  - exists t. repeat split; auto; lia.
Qed.

Lemma omin_some : forall a b t, omin a b = Some t -> a = Some t \/ b = Some t.
Proof.
  intros [x|] [y|] t; cbn; intros E; auto.
  injection E as <-. destruct (Z.min_spec x y) as [[_ ->]|[_ ->]]; auto.
Qed.

Lemma omin_le_l : forall a b x, a = Some x -> exists t, omin a b = Some t /\ t <= x.
Proof. intros [x|] [y|] z E; inversion E; subst; cbn; eexists; split; eauto; lia. Qed.
Lemma omin_le_r : forall a b x, b = Some x -> exists t, omin a b = Some t /\ t <= x.
Proof. intros [x|] [y|] z E; inversion E; subst; cbn; eexists; split; eauto; lia. Qed.

(** What [apply_effect] produces. *)
Record applied (s s' : gstate) (h w : nat) (x' : hstate) (f : effect) : Prop := {
  ap_host : forall d, g_host s' d = with_recv f d (upd (g_host s) h x' d);
  ap_status : g_status s' = match f with FReturn => upd (g_status s) h (RReading w) | _ => g_status s end;
  ap_win : g_window s' = g_window s;
  ap_next : forall w', w_next (g_worker s' w') = w_next (g_worker s w');
  ap_pkt1 : forall w' t, w_pkt (g_worker s' w') = Some t ->
    w_pkt (g_worker s w') = Some t \/ exists d now delay e, f = FSend d now delay e /\ t = ev_time e;
  ap_pkt2 : forall w' t, w_pkt (g_worker s w') = Some t ->
    exists t', w_pkt (g_worker s' w') = Some t' /\ t' <= t;
  ap_pkt3 : forall d now delay e, f = FSend d now delay e ->
    exists t', w_pkt (g_worker s' w) = Some t' /\ t' <= ev_time e;
  ap_ra : match f with
          | FLat delay => exists c go, cache_update (w_cache (g_worker s w)) delay = Some (c, go) /\
               g_worker s' w = mkW (w_next (g_worker s w)) (w_pkt (g_worker s w)) c /\
               (if go then ra_update (g_ra s) delay = Some (g_ra s') else g_ra s' = g_ra s)
          | _ => g_ra s' = g_ra s end;
  ap_cache : forall w', w' <> w \/ (forall d, f <> FLat d) ->
    w_cache (g_worker s' w') = w_cache (g_worker s w');
}.

Lemma ra_update_ok : forall r d, 0 < d -> exists r', ra_update r d = Some r'.
Proof.
  intros r d L. unfold ra_update, ra_update_read. rewrite assert_true by lia. ob. eauto.
Qed.

Lemma ra_update_RAok : forall r d r', RAok r -> 0 < d -> ra_update r d = Some r' -> RAok r'.
Proof.
  intros r d r' [A B] L H. unfold ra_update, ra_update_read in H. rewrite assert_true in H by lia. ob_in H.
  injection H as <-. destruct (ra_dynamic r && ra_should_update (ra_min_used r) d); [|now constructor].
  unfold ra_update_write. destruct (ra_should_update (ra_min_used r) d); [|now constructor].
  constructor; cbn; auto. intros m E. now injection E as <-.
Qed.

Lemma worker_upd_other : forall (f : nat -> wstate) w W w', w' <> w -> upd f w W w' = f w'.
Proof. intros. now apply upd_other. Qed.

Lemma apply_plain : forall s h w x' f s',
  (forall d now delay e, f <> FSend d now delay e) -> (forall d, f <> FLat d) ->
  s' = mkG (upd (g_host s) h x')
           (match f with FReturn => upd (g_status s) h (RReading w) | _ => g_status s end)
           (g_worker s) (g_ra s) (g_window s) ->
  applied s s' h w x' f.
Proof.
  intros s h w x' f s' NS NL ->. constructor; cbn [g_host g_status g_window g_worker g_ra]; auto.
  - intros d. symmetry. apply with_recv_nil. destruct f; try reflexivity. exfalso. eapply NS; eauto.
  - intros w' t E. exists t. split; [assumption|lia].
  - intros d now delay e E. exfalso. eapply NS; eauto.
  - destruct f; auto. exfalso. eapply NL; eauto.
Qed.

Lemma apply_ok : forall s h w x' f,
  (forall d, f = FLat d -> 0 < d) ->
  (forall d now delay e, f = FSend d now delay e -> (d < p_nhosts P)%nat /\
     last (upd (g_host s) h x' d) <= ev_time e /\ distinct (e :: bag (upd (g_host s) h x' d))) ->
  exists s', apply_effect s h w x' f = Some s' /\ applied s s' h w x' f.
Proof.
  intros s h w x' f HL HS. destruct f; cbn [SimModel.apply_effect];
    try (eexists; split; [reflexivity|]; apply apply_plain; [discriminate|discriminate|reflexivity]).
  - (* FLat *)
    specialize (HL _ eq_refl). unfold cache_update. rewrite assert_true by lia. ob.
    set (cg := match w_cache (g_worker s w) with
               | Some m => if delay <? m then (Some delay, true) else (w_cache (g_worker s w), false)
               | None => (Some delay, true) end).
    assert (CU : cache_update (w_cache (g_worker s w)) delay = Some cg).
    { unfold cache_update. now rewrite assert_true by lia. }
    destruct cg as [c go] eqn:CG.
    destruct (ra_update_ok (g_ra s) delay HL) as (r' & RU).
    assert (EX : exists ra', (if go then ra_update (g_ra s) delay else Some (g_ra s)) = Some ra' /\
               (if go then ra_update (g_ra s) delay = Some ra' else ra' = g_ra s)).
    { destruct go; [exists r'; auto|exists (g_ra s); auto]. }
    destruct EX as (ra' & -> & RS). ob. eexists. split; [reflexivity|].
    constructor; cbn [g_host g_status g_window g_worker g_ra]; auto.
    + intros d. symmetry. now apply with_recv_nil.
    + intros w'. destruct (Nat.eq_dec w' w) as [->|N]; [rewrite upd_same|rewrite upd_other by auto]; reflexivity.
    + intros w' t. destruct (Nat.eq_dec w' w) as [->|N]; [rewrite upd_same|rewrite upd_other by auto]; auto.
    + intros w' t E. exists t. split; [|lia].
      destruct (Nat.eq_dec w' w) as [->|N]; [rewrite upd_same|rewrite upd_other by auto]; auto.
    + discriminate.
    + exists c, go. rewrite upd_same. auto.
    + intros w' [N|N]; [now rewrite upd_other by auto|]. exfalso. eapply N; eauto.
  - (* FSend *)
    destruct (HS _ _ _ _ eq_refl) as (LD & LT & D).
    rewrite assert_true by (now apply Nat.ltb_lt).
    rewrite (q_push_ok keqb teqb) by assumption. ob. eexists. split; [reflexivity|].
    constructor; cbn [g_host g_status g_window g_worker g_ra]; auto.
    + intros d. unfold with_recv, recv. destruct (Nat.eqb_spec dst d) as [->|N].
      * now rewrite upd_same.
      * rewrite upd_other by auto. cbn [app]. destruct (upd (g_host s) h x' d) as [? ? [? ?] ? ? ?]. reflexivity.
    + intros w'. destruct (Nat.eq_dec w' w) as [->|N]; [rewrite upd_same|rewrite upd_other by auto]; reflexivity.
    + intros w' t. destruct (Nat.eq_dec w' w) as [->|N]; [rewrite upd_same|rewrite upd_other by auto; auto].
      cbn [w_pkt]. intros E. apply omin_some in E as [E|E]; [auto|]. right. injection E as <-.
      now exists dst, now, delay, e.
    + intros w' t E. destruct (Nat.eq_dec w' w) as [->|N].
      * rewrite upd_same. cbn [w_pkt]. now apply omin_le_l.
      * rewrite upd_other by auto. exists t. split; [auto|lia].
    + intros d now0 delay0 e0 E. injection E as <- <- <- <-. rewrite upd_same. cbn [w_pkt].
      destruct (omin_some_r (w_pkt (g_worker s w)) (ev_time e)) as (t' & ? & ? & _). eauto.
    + intros w' [N|_]; [now rewrite upd_other by auto|].
      destruct (Nat.eq_dec w' w) as [->|N]; [rewrite upd_same|rewrite upd_other by auto]; reflexivity.
Qed.

(** Receiving a packet at or after the window end keeps the host's invariant. *)
Lemma HW_recv : forall d ws we y (e : event), HW d ws we y -> ws <= we -> we <= ev_time e ->
  distinct (e :: bag y) -> (forall i k, ev_data e <> ELocal i k) ->
  HW d ws we (set_q y (mkQ (e :: bag y) (last y))).
Proof.
  intros d ws we y e W WS LE D NL. constructor; cbn [set_q h_q q_bag q_last h_ctr h_clock h_phase h_cpu].
  - assumption.
  - intros e' [<-|I]; [|now apply W]. pose proof (hw_last _ _ _ _ _ W). pose proof (hw_clock _ _ _ _ _ W). lia.
  - intros t i k [E|I]; [|eapply hw_ctr; eauto]. subst e. exfalso. eapply NL; reflexivity.
  - apply W.
  - apply W.
  - apply W.
  - apply W.
  - apply W.
Qed.

(** The next state after a host micro-step. *)
Lemma host_step_global : forall n s h w ws we, GW n s -> g_window s = Some (ws, we) ->
  g_status s h = RActive w ->
  exists x' f s', host_step h we (g_host s h) = Some (x', f) /\
    apply_effect s h w x' f = Some s' /\ applied s s' h w x' f /\
    HW h ws we x' /\ effect_ok h ws we (g_host s h) x' f /\
    Permutation (removed f ++ bag x') (added f ++ bag (g_host s h)) /\
    h_ctr (g_host s h) <= h_ctr x' /\ h_clock (g_host s h) <= h_clock x' /\ last (g_host s h) <= last x' /\
    (h < p_nhosts P)%nat /\
    (forall d, (d < p_nhosts P)%nat -> HW d ws we (upd (g_host s) h x' d)) /\
    (forall d e, (d < p_nhosts P)%nat -> In e (recv f d) -> we <= ev_time e /\
        distinct (e :: bag (upd (g_host s) h x' d)) /\ exists k, ev_data e = EPacket h (h_ctr (g_host s h)) k).
Proof.
  intros n s h w ws we G WIN ST.
  assert (LH : (h < p_nhosts P)%nat) by (apply (gw_dom _ _ G); congruence).
  destruct (gw_win _ _ G _ _ WIN) as [WS WE].
  pose proof (gw_host _ _ G _ _ _ WIN LH) as W.
  destruct (host_step_ok keqb teqb P h ws we _ W WE) as (x' & f & HS & W' & PM & CT & CK & EO & LA).
  assert (UW : forall d, (d < p_nhosts P)%nat -> HW d ws we (upd (g_host s) h x' d)).
  { intros d LD. destruct (Nat.eq_dec d h) as [->|N]; [now rewrite upd_same|].
    rewrite upd_other by auto. now apply (gw_host _ _ G). }
  assert (RC : forall d e, (d < p_nhosts P)%nat -> In e (recv f d) -> we <= ev_time e /\
        distinct (e :: bag (upd (g_host s) h x' d)) /\ exists k, ev_data e = EPacket h (h_ctr (g_host s h)) k).
  { intros d e LD I. destruct f as [| | | | | | | |dst now delay e0|]; cbn [recv] in I; try destruct I.
    destruct (Nat.eqb_spec dst d) as [->|]; [|destruct I]. destruct I as [->|[]].
    cbn in EO. destruct EO as (_ & _ & _ & ET & _ & (k & EK) & EC).
    split; [lia|]. split; [|eauto]. destruct e as [te de]. cbn in EK. subst de.
    apply fresh_packet; [apply UW; auto|]. intros t i k0 I.
    destruct (Nat.eq_dec d h) as [->|N].
    - rewrite upd_same in I. assert (I' : In (mkEv t (EPacket h i k0)) (bag (g_host s h))).
      { cbn in PM. eapply Permutation_in; [exact PM|exact I]. }
      eapply (gw_pkt _ _ G h); eauto.
    - rewrite upd_other in I by auto. eapply (gw_pkt _ _ G d); eauto. }
  destruct (apply_ok s h w x' f) as (s' & AE & AP).
  - intros d ->. cbn in EO. destruct EO as (d' & LD & ->). now apply (co_lat _ CFG).
  - intros d now delay e ->. cbn in EO. destruct EO as (LD & _ & _ & ET & _).
    split; [assumption|]. assert (IR : In e (recv (FSend d now delay e) d)).
    { cbn. rewrite Nat.eqb_refl. now left. }
    destruct (RC d e LD IR) as (L & D & _). split; [|assumption].
    pose proof (hw_last _ _ _ _ _ (UW d LD)). lia.
  - exists x', f, s'. repeat (split; [assumption|]). assumption.
Qed.

Lemma GW_host_step : forall n s h w ws we x' f s', GW n s -> g_window s = Some (ws, we) ->
  g_status s h = RActive w -> host_step h we (g_host s h) = Some (x', f) ->
  apply_effect s h w x' f = Some s' -> GW n s'.
Proof.
  intros n s h w ws we x' f s' G WIN ST HS AE.
  destruct (host_step_global n s h w ws we G WIN ST)
    as (x2 & f2 & s2 & HS2 & AE2 & AP & W' & EO & PM & CT & CK & LA & LH & UW & RC).
  rewrite HS in HS2. injection HS2 as <- <-. rewrite AE in AE2. injection AE2 as <-.
  destruct (gw_win _ _ G _ _ WIN) as [WS WE].
  assert (WI : forall ws0 we0, g_window s' = Some (ws0, we0) -> ws0 = ws /\ we0 = we).
  { intros ws0 we0. rewrite (ap_win _ _ _ _ _ _ AP), WIN. intros E. injection E as <- <-. auto. }
  (* every event of the new bags *)
  assert (NB : forall d e, In e (bag (g_host s' d)) ->
             In e (recv f d) \/ In e (bag (upd (g_host s) h x' d))).
  { intros d e. rewrite (ap_host _ _ _ _ _ _ AP). cbn. rewrite in_app_iff. auto. }
  assert (OB : forall d e, In e (bag (upd (g_host s) h x' d)) -> In e (bag (g_host s' d))).
  { intros d e I. rewrite (ap_host _ _ _ _ _ _ AP). cbn. rewrite in_app_iff. auto. }
  (* events of the host itself that are not popped *)
  assert (KEEP : forall d e, In e (bag (g_host s d)) -> we <= ev_time e -> In e (bag (g_host s' d))).
  { intros d e I L. apply OB. destruct (Nat.eq_dec d h) as [->|N]; [|now rewrite upd_other by auto].
    rewrite upd_same. assert (J : In e (removed f ++ bag x')).
    { eapply Permutation_in; [symmetry; exact PM|]. apply in_app_iff. now right. }
    apply in_app_iff in J as [J|J]; [|assumption]. exfalso.
    destruct f; cbn in J; try destruct J as [J|[]]; try destruct J; subst; cbn in EO; try lia. }
  constructor.
  - intros ws0 we0 E. apply WI in E as [-> ->]. auto.
  - intros ws0 we0 d E LD. apply WI in E as [-> ->]. rewrite (ap_host _ _ _ _ _ _ AP).
    unfold with_recv. destruct (recv f d) as [|e l] eqn:ER.
    + cbn [app]. specialize (UW d LD). destruct (upd (g_host s) h x' d) as [? ? [? ?] ? ? ?]. exact UW.
    + assert (EL : l = []).
      { destruct f; cbn in ER; try discriminate. destruct (Nat.eqb dst d); [|discriminate]. now injection ER as _ <-. }
      subst l. cbn [app]. destruct (RC d e LD) as (L & D & k & EK); [rewrite ER; now left|].
      apply HW_recv; auto; [lia|]. intros i k' C. congruence.
  - intros d src t i k LD I. apply NB in I as [I|I].
    + destruct (RC d _ LD I) as (_ & _ & k' & EK). cbn in EK. injection EK as -> -> _.
      rewrite (ap_host _ _ _ _ _ _ AP). cbn. rewrite upd_same.
      destruct f; cbn in I; try destruct I. cbn in EO. lia.
    + assert (LT : i < h_ctr (g_host s src)).
      { destruct (Nat.eq_dec d h) as [->|N].
        - rewrite upd_same in I. assert (J : In (mkEv t (EPacket src i k)) (added f ++ bag (g_host s h))).
          { eapply Permutation_in; [exact PM|]. apply in_app_iff. now right. }
          apply in_app_iff in J as [J|J]; [|eapply (gw_pkt _ _ G h); eauto].
          destruct f; cbn in J; try (now destruct J); destruct J as [J|[]]; cbn in EO.
          + subst e. destruct EO as (_ & _ & (k' & C) & _). discriminate.
          + destruct e as [te de]. unfold ev_set_time in J. cbn in J. injection J as -> ->.
            assert (I2 : In (mkEv te (EPacket src i k)) (bag (g_host s h))).
            { assert (J2 : In (mkEv te (EPacket src i k)) (added (FDefer (mkEv te (EPacket src i k)) t) ++ bag (g_host s h))).
              { eapply Permutation_in; [exact PM|]. cbn. now left. }
              cbn in J2. destruct J2 as [J2|J2]; [|assumption].
              injection J2 as E. cbn in EO. lia. }
            eapply (gw_pkt _ _ G h); eauto.
        - rewrite upd_other in I by auto. eapply (gw_pkt _ _ G d); eauto. }
      rewrite (ap_host _ _ _ _ _ _ AP). cbn. destruct (Nat.eq_dec src h) as [->|N].
      * rewrite upd_same. lia.
      * now rewrite upd_other by auto.
  - intros ws0 we0 d E LD. apply WI in E as [-> ->].
    pose proof (gw_status _ _ G _ _ _ WIN LD) as SD.
    assert (OTHER : d <> h -> match g_status s d with
     | RWait => h_phase (g_host s' d) = PIdle
     | RActive w => (w < n)%nat
     | RReading w => (w < n)%nat /\ idle_high we (g_host s' d)
     | RDone => idle_high we (g_host s' d)
     end).
    { intros N. assert (IH : idle_high we (g_host s d) -> idle_high we (g_host s' d)).
      { intros [A B]. split.
        - rewrite (ap_host _ _ _ _ _ _ AP). cbn. now rewrite upd_other by auto.
        - intros e I. apply NB in I as [I|I]; [now apply (RC d)|]. rewrite upd_other in I by auto. auto. }
      destruct (g_status s d); auto.
      - rewrite (ap_host _ _ _ _ _ _ AP). cbn. now rewrite upd_other by auto.
      - destruct SD; auto. }
    rewrite (ap_status _ _ _ _ _ _ AP). destruct (Nat.eq_dec d h) as [->|N].
    + rewrite ST in SD. destruct f; try (rewrite ST; assumption).
      rewrite upd_same. split; [assumption|]. cbn in EO. destruct EO as (-> & A & B).
      assert (EQ : g_host s' h = g_host s h).
      { rewrite (ap_host _ _ _ _ _ _ AP), upd_same. apply with_recv_nil. reflexivity. }
      rewrite EQ. now split.
    + specialize (OTHER N). destruct f; auto. now rewrite upd_other by auto.
  - intros d. rewrite (ap_status _ _ _ _ _ _ AP). destruct f; try apply (gw_dom _ _ G).
    destruct (Nat.eq_dec d h) as [->|N]; [auto|]. rewrite upd_other by auto. apply (gw_dom _ _ G).
  - intros ws0 we0 w' t E R. apply WI in E as [-> ->].
    assert (CASES : recorded s w' t \/ exists d now delay e, f = FSend d now delay e /\ t = ev_time e).
    { destruct R as [R|R].
      - left. left. now rewrite (ap_next _ _ _ _ _ _ AP) in R.
      - apply (ap_pkt1 _ _ _ _ _ _ AP) in R as [R|R]; [left; now right|now right]. }
    destruct CASES as [R'|(d & now & delay & e & -> & ->)].
    + destruct (gw_sound _ _ G _ _ _ _ WIN R') as (L & d & e & LD & I & TE).
      split; [assumption|]. exists d, e. repeat split; auto. apply KEEP; auto. lia.
    + cbn in EO. destruct EO as (LD & _ & _ & ET & _). split; [lia|].
      exists d, e. repeat split; auto. rewrite (ap_host _ _ _ _ _ _ AP). cbn. rewrite Nat.eqb_refl. now left.
  - intros d e SD I.
    assert (SD' : g_status s d = RDone /\ d <> h).
    { rewrite (ap_status _ _ _ _ _ _ AP) in SD. destruct (Nat.eq_dec d h) as [->|N].
      - exfalso. destruct f; try congruence. rewrite upd_same in SD. discriminate.
      - split; auto. destruct f; auto. now rewrite upd_other in SD by auto. }
    destruct SD' as [SD' N]. apply NB in I as [I|I].
    + destruct f; cbn in I; try destruct I. destruct (Nat.eqb dst d); [|destruct I]. destruct I as [<-|[]].
      destruct (ap_pkt3 _ _ _ _ _ _ AP _ _ _ _ eq_refl) as (t' & E & L).
      exists w, t'. repeat split; auto; [|now right].
      pose proof (gw_status _ _ G _ _ _ WIN LH) as SH. now rewrite ST in SH.
    + rewrite upd_other in I by auto.
      destruct (gw_complete _ _ G _ _ SD' I) as (w' & t & LW & R & L).
      destruct R as [R|R].
      * exists w', t. repeat split; auto. left. now rewrite (ap_next _ _ _ _ _ _ AP).
      * destruct (ap_pkt2 _ _ _ _ _ _ AP _ _ R) as (t' & E & L'). exists w', t'. repeat split; auto; [now right|lia].
  - pose proof (ap_ra _ _ _ _ _ _ AP) as RA. destruct f; try (rewrite RA; apply G).
    destruct RA as (c & go & _ & _ & RA). destruct go; [|rewrite RA; apply G].
    eapply ra_update_RAok; [apply G| |exact RA]. cbn in EO. destruct EO as (d & LD & ->). now apply (co_lat _ CFG).
  - rewrite (ap_win _ _ _ _ _ _ AP), WIN. discriminate.
Qed.

Lemma GW_start : forall n s h w ws we, GW n s -> g_window s = Some (ws, we) -> (h < p_nhosts P)%nat ->
  (w < n)%nat -> g_status s h = RWait ->
  GW n (mkG (g_host s) (upd (g_status s) h (RActive w)) (g_worker s) (g_ra s) (g_window s)).
Proof.
  intros n s h w ws we G WIN LH LW ST. constructor; cbn [g_host g_status g_window g_worker g_ra]; try apply G.
  - intros ws0 we0 d E LD. destruct (Nat.eq_dec d h) as [->|N]; [now rewrite upd_same|].
    rewrite upd_other by auto. eapply gw_status; eauto.
  - intros d. destruct (Nat.eq_dec d h) as [->|N]; [auto|]. rewrite upd_other by auto. apply G.
  - intros d e SD I. destruct (Nat.eq_dec d h) as [->|N]; [rewrite upd_same in SD; discriminate|].
    rewrite upd_other in SD by auto. destruct (gw_complete _ _ G _ _ SD I) as (w' & t & A & B & C).
    exists w', t. auto.
Qed.

Lemma GW_finish : forall n s h w ws we, GW n s -> g_window s = Some (ws, we) -> g_status s h = RReading w ->
  GW n (finish_host keqb teqb s h w).
Proof.
  intros n s h w ws we G WIN ST.
  assert (LH : (h < p_nhosts P)%nat) by (apply (gw_dom _ _ G); congruence).
  pose proof (gw_status _ _ G _ _ _ WIN LH) as SH. rewrite ST in SH. destruct SH as [LW [PH HI]].
  pose proof (gw_host _ _ G _ _ _ WIN LH) as W.
  set (s' := finish_host keqb teqb s h w).
  assert (RB : forall w' t, recorded s' w' t -> recorded s w' t \/
            q_next_event_time keqb teqb (h_q (g_host s h)) = Some t).
  { intros w' t. unfold recorded, s', finish_host; cbn [g_worker].
    destruct (Nat.eq_dec w' w) as [->|N]; [rewrite upd_same; cbn|rewrite upd_other by auto; auto].
    intros [E|E]; [|auto]. apply omin_some in E as [E|E]; auto. }
  assert (RF : forall w' t, recorded s w' t -> exists t', recorded s' w' t' /\ t' <= t).
  { intros w' t R. unfold recorded, s', finish_host; cbn [g_worker].
    destruct (Nat.eq_dec w' w) as [->|N]; [rewrite upd_same; cbn|rewrite upd_other by auto; exists t; split; [auto|lia]].
    destruct R as [R|R]; [|exists t; split; [auto|lia]].
    destruct (omin_le_l _ (q_next_event_time keqb teqb (h_q (g_host s h))) _ R) as (t' & E & L). eauto. }
  constructor.
  - apply (gw_win _ _ G).
  - apply (gw_host _ _ G).
  - apply (gw_pkt _ _ G).
  - intros ws0 we0 d E LD. cbn [s' finish_host g_window g_status g_host] in *.
    destruct (Nat.eq_dec d h) as [->|N].
    + rewrite upd_same. rewrite WIN in E. injection E as <- <-. now split.
    + rewrite upd_other by auto. eapply gw_status; eauto.
  - intros d. cbn [s' finish_host g_status]. destruct (Nat.eq_dec d h) as [->|N]; [auto|].
    rewrite upd_other by auto. apply G.
  - intros ws0 we0 w' t E R. cbn [s' finish_host g_window g_host] in *.
    destruct (RB _ _ R) as [R'|NE]; [eapply gw_sound; eauto|].
    rewrite WIN in E. injection E as <- <-.
    destruct (next_time_le keqb teqb _ _ NE (hw_distinct _ _ _ _ _ W)) as [_ (e & I & TE)].
    split; [rewrite <- TE; now apply HI|]. exists h, e. auto.
  - intros d e SD I. cbn [s' finish_host g_status g_host] in *.
    destruct (Nat.eq_dec d h) as [->|N].
    + destruct (q_next_event_time keqb teqb (h_q (g_host s h))) as [t|] eqn:NE.
      * destruct (next_time_le keqb teqb _ _ NE (hw_distinct _ _ _ _ _ W)) as [LE _].
        assert (EX : exists t', recorded s' w t' /\ t' <= t).
        { unfold recorded, s', finish_host; cbn [g_worker]. rewrite upd_same. cbn. rewrite NE.
          destruct (omin_some_r (w_next (g_worker s w)) t) as (t' & E & L & _). eauto. }
        destruct EX as (t' & R & L). exists w, t'. repeat split; auto. specialize (LE _ I). lia.
      * rewrite (next_time_none keqb teqb _ NE) in I. destruct I.
    + rewrite upd_other in SD by auto. destruct (gw_complete _ _ G _ _ SD I) as (w' & t & A & B & C).
      destruct (RF _ _ B) as (t' & R & L). exists w', t'. repeat split; auto. lia.
  - apply (gw_ra _ _ G).
  - apply (gw_end _ _ G).
Qed.

(** *** The end of a round *)

Lemma min_next_spec : forall s n, match min_next s n with
  | Some t => (exists w, (w < n)%nat /\ recorded s w t) /\ (forall w t', (w < n)%nat -> recorded s w t' -> t <= t')
  | None => forall w t', (w < n)%nat -> ~ recorded s w t'
  end.
Proof.
  intros s. induction n as [|n IH]; cbn [min_next].
  - intros w t' L. lia.
  - assert (R : forall t, omin (w_next (g_worker s n)) (w_pkt (g_worker s n)) = Some t -> recorded s n t).
    { intros t E. apply omin_some in E as [E|E]; [now left|now right]. }
    assert (R2 : forall t, recorded s n t -> exists t', omin (w_next (g_worker s n)) (w_pkt (g_worker s n)) = Some t' /\ t' <= t).
    { intros t [E|E]; [now apply omin_le_l|now apply omin_le_r]. }
    destruct (omin (min_next s n) (omin (w_next (g_worker s n)) (w_pkt (g_worker s n)))) as [t|] eqn:E.
    + split.
      * apply omin_some in E as [E|E].
        -- rewrite E in IH. destruct IH as [(w & L & X) _]. exists w. split; [lia|assumption].
        -- exists n. split; [lia|auto].
      * intros w t' L X. destruct (Nat.eq_dec w n) as [->|N].
        -- destruct (R2 _ X) as (t2 & E2 & L2). destruct (omin_le_r (min_next s n) _ _ E2) as (t3 & E3 & L3).
           rewrite E in E3. injection E3 as <-. lia.
        -- destruct (min_next s n) as [m|] eqn:M.
           ++ destruct IH as [_ IH]. specialize (IH w t' ltac:(lia) X).
              destruct (omin_le_l _ (omin (w_next (g_worker s n)) (w_pkt (g_worker s n))) _ (eq_refl (Some m))) as (t3 & E3 & L3).
              rewrite E in E3. injection E3 as <-. lia.
           ++ exfalso. apply (IH w t'); [lia|assumption].
    + intros w t' L X. destruct (Nat.eq_dec w n) as [->|N].
      * destruct (R2 _ X) as (t2 & E2 & L2). destruct (omin_le_r (min_next s n) _ _ E2) as (t3 & E3 & L3). congruence.
      * destruct (min_next s n) as [m|] eqn:M.
        -- destruct (omin_le_l _ (omin (w_next (g_worker s n)) (w_pkt (g_worker s n))) _ (eq_refl (Some m))) as (t3 & E3 & L3). congruence.
        -- apply (IH w t'); [lia|assumption].
Qed.

Lemma ra_get_pos : forall r, RAok r -> 0 < ra_get r.
Proof.
  intros r [A B]. unfold ra_get. destruct (ra_min_used r) as [m|]; [specialize (B _ eq_refl)|];
    destruct (ra_config r); lia.
Qed.

(** What the controller decides. *)
Lemma next_window_spec : forall ra m, RAok ra -> 0 <= m <= TIME_LIMIT ->
  exists win, next_window P ra m = Some win /\
    match win with
    | Some (a, b) => a = m /\ m < p_sim_end P /\ b = Z.min (m + ra_get ra) (p_sim_end P)
    | None => p_sim_end P <= m
    end.
Proof.
  intros ra m RA M. pose proof (ra_get_pos _ RA) as RP. unfold next_window.
  pose proof (co_end _ CFG) as CE. unfold TIME_LIMIT in *.
  rewrite assert_true by lia. eexists. split; [reflexivity|].
  assert (NE : (match emu_checked_add m (ra_get ra) with Some t => t | None => EMUTIME_MAX end) = Z.min (m + ra_get ra) EMUTIME_MAX).
  { unfold emu_checked_add, u64_checked_add, from_c_emutime, EMUTIME_INVALID, EMUTIME_MAX, U64_MAX. cbn [obind].
    destruct (Z.leb_spec (m + ra_get ra) 18446744073709551615) as [L|L]; cbn [obind].
    - destruct ((m + ra_get ra =? 18446744073709551615) || (m + ra_get ra >? 18446744073709551615 - 1)) eqn:B; lia.
    - lia. }
  rewrite NE. rewrite EM_val. unfold TIME_LIMIT.
  destruct (Z.ltb_spec m (Z.min (Z.min (m + ra_get ra) 18446744073709551614) (p_sim_end P))) as [L|L]; lia.
Qed.

Lemma GW_round : forall n s ws we, GW n s -> g_window s = Some (ws, we) ->
  (forall h, (h < p_nhosts P)%nat -> g_status s h = RDone) ->
  exists s', end_round P s n = Some s' /\ GW n s' /\
    g_host s' = g_host s /\ g_ra s' = g_ra s /\ (forall w, w_cache (g_worker s' w) = w_cache (g_worker s w)) /\
    (forall h, g_status s' h = RWait) /\
    (forall w, w_next (g_worker s' w) = None /\ w_pkt (g_worker s' w) = None) /\
    match g_window s' with
    | Some (a, b) => we <= a /\ a < p_sim_end P /\ b = Z.min (a + ra_get (g_ra s)) (p_sim_end P) /\
        (forall h e, (h < p_nhosts P)%nat -> In e (bag (g_host s h)) -> a <= ev_time e) /\
        (exists h e, (h < p_nhosts P)%nat /\ In e (bag (g_host s h)) /\ ev_time e = a)
    | None => forall h e, (h < p_nhosts P)%nat -> In e (bag (g_host s h)) -> p_sim_end P <= ev_time e
    end.
Proof.
  intros n s ws we G WIN DONE.
  destruct (gw_win _ _ G _ _ WIN) as [WS WE].
  pose proof (min_next_spec s n) as MS.
  set (m := match min_next s n with Some t => t | None => EMUTIME_MAX end).
  assert (ML : forall h e, (h < p_nhosts P)%nat -> In e (bag (g_host s h)) -> m <= ev_time e).
  { intros h e LH I. destruct (gw_complete _ _ G h e (DONE h LH) I) as (w & t & LW & R & L).
    unfold m. destruct (min_next s n) as [t'|].
    - destruct MS as [_ MS]. specialize (MS _ _ LW R). lia.
    - exfalso. eapply MS; eauto. }
  assert (MX : m <= TIME_LIMIT -> we <= m).
  { unfold m. destruct (min_next s n) as [t|].
    - destruct MS as [(w & LW & R) _]. destruct (gw_sound _ _ G _ _ _ _ WIN R). auto.
    - rewrite EM_val. pose proof (co_end _ CFG). unfold TIME_LIMIT in *. lia. }
  (* times beyond the representable range do not occur below the stop time *)
  destruct (Z.le_gt_cases m TIME_LIMIT) as [LM|GM].
  - destruct (next_window_spec (g_ra s) m (gw_ra _ _ G)) as (win & NW & SP).
    { specialize (MX LM). unfold SIM_START in *. lia. }
    unfold end_round. fold m. rewrite NW. ob. eexists. split; [reflexivity|].
    assert (FACT : match win with
    | Some (a, b) => we <= a /\ a < p_sim_end P /\ b = Z.min (a + ra_get (g_ra s)) (p_sim_end P) /\
        (forall h e, (h < p_nhosts P)%nat -> In e (bag (g_host s h)) -> a <= ev_time e) /\
        (exists h e, (h < p_nhosts P)%nat /\ In e (bag (g_host s h)) /\ ev_time e = a)
    | None => forall h e, (h < p_nhosts P)%nat -> In e (bag (g_host s h)) -> p_sim_end P <= ev_time e
    end).
    { destruct win as [[a b]|].
      - destruct SP as (-> & L & ->). repeat split; auto.
        unfold m in *. destruct (min_next s n) as [t|].
        + destruct MS as [(w & LW & R) _]. destruct (gw_sound _ _ G _ _ _ _ WIN R) as [_ X]. exact X.
        + exfalso. rewrite EM_val in *. pose proof (co_end _ CFG). lia.
      - intros h e LH I. specialize (ML h e LH I). lia. }
    split; [|repeat split; auto].
    pose proof (ra_get_pos _ (gw_ra _ _ G)) as RP.
    constructor; cbn [g_host g_status g_window g_worker g_ra].
    + intros a b ->. destruct FACT as (A & B & -> & _). pose proof (co_end _ CFG). lia.
    + intros a b h -> LH. destruct FACT as (A & B & -> & C & _).
      pose proof (gw_host _ _ G _ _ _ WIN LH) as W.
      pose proof (gw_status _ _ G _ _ _ WIN LH) as SD. rewrite (DONE h LH) in SD. destruct SD as [PH HI].
      constructor.
      * apply W.
      * intros e I. specialize (C h e LH I). pose proof (hw_times _ _ _ _ _ W _ I). lia.
      * apply (hw_ctr _ _ _ _ _ W).
      * pose proof (hw_last _ _ _ _ _ W). lia.
      * pose proof (hw_clock _ _ _ _ _ W). lia.
      * congruence.
      * apply (hw_phase _ _ _ _ _ W).
      * apply W.
    + apply (gw_pkt _ _ G).
    + intros a b h -> LH. pose proof (gw_status _ _ G _ _ _ WIN LH) as SD. rewrite (DONE h LH) in SD. apply SD.
    + congruence.
    + intros a b w t _ [R|R]; discriminate R.
    + discriminate.
    + apply (gw_ra _ _ G).
    + intros ->. exact FACT.
  - (* all pending events lie beyond the largest representable time *)
    destruct (min_next s n) as [t|] eqn:MN.
    2:{ exfalso. unfold m in GM. rewrite EM_val in GM. lia. }
    assert (EM : m = t) by reflexivity.
    unfold end_round. rewrite MN. unfold next_window.
    pose proof (ra_get_pos _ (gw_ra _ _ G)) as RP. rewrite assert_true by lia. ob.
    pose proof (co_end _ CFG) as CE.
    assert (NB : (t <? Z.min match emu_checked_add t (ra_get (g_ra s)) with Some x => x | None => EMUTIME_MAX end (p_sim_end P)) = false).
    { apply Z.ltb_ge. lia. }
    rewrite NB. eexists. split; [reflexivity|]. cbn [g_host g_status g_window g_worker g_ra].
    assert (FACT : forall h e, (h < p_nhosts P)%nat -> In e (bag (g_host s h)) -> p_sim_end P <= ev_time e).
    { intros h e LH I. specialize (ML h e LH I). lia. }
    split; [|repeat split; auto].
    constructor; cbn [g_host g_status g_window g_worker g_ra]; try discriminate.
    + apply (gw_pkt _ _ G).
    + congruence.
    + apply (gw_ra _ _ G).
    + intros _. exact FACT.
Qed.

(** The four kinds of step, made explicit. *)
Inductive step_case (n : nat) (s : gstate) : option (gstate * label) -> Prop :=
| SC_start h w ws we : g_window s = Some (ws, we) -> (h < p_nhosts P)%nat -> (w < n)%nat ->
    g_status s h = RWait ->
    step_case n s (Some (mkG (g_host s) (upd (g_status s) h (RActive w)) (g_worker s) (g_ra s) (g_window s), LTau))
| SC_host h w ws we x' f s' : g_window s = Some (ws, we) -> g_status s h = RActive w ->
    host_step h we (g_host s h) = Some (x', f) -> apply_effect s h w x' f = Some s' ->
    step_case n s (Some (s', LHost h f))
| SC_finish h w ws we : g_window s = Some (ws, we) -> g_status s h = RReading w ->
    step_case n s (Some (finish_host keqb teqb s h w, LTau))
| SC_round ws we s' : g_window s = Some (ws, we) ->
    (forall h, (h < p_nhosts P)%nat -> g_status s h = RDone) ->
    end_round P s n = Some s' -> step_case n s (Some (s', LWindow (g_window s'))).

Lemma step_cases : forall n s r, GW n s -> step n s r -> step_case n s r.
Proof.
  intros n s r G H. destruct H.
  - econstructor; eauto.
  - destruct (host_step_global n s h w ws we G H H0) as (x' & f & s' & HS & AE & _).
    rewrite HS. ob. rewrite AE. ob. econstructor; eauto.
  - econstructor; eauto.
  - destruct (GW_round n s ws we G H H0) as (s' & ER & _). rewrite ER. ob. econstructor; eauto.
Qed.

Lemma step_GW : forall n s r, GW n s -> step n s r -> exists s' l, r = Some (s', l) /\ GW n s'.
Proof.
  intros n s r G H. apply step_cases in H; [|assumption]. destruct H.
  - eexists _, _. split; [reflexivity|]. eapply GW_start; eauto.
  - eexists _, _. split; [reflexivity|]. eapply GW_host_step; eauto.
  - eexists _, _. split; [reflexivity|]. eapply GW_finish; eauto.
  - eexists _, _. split; [reflexivity|]. destruct (GW_round n s ws we G H H0) as (s2 & ER & G2 & _).
    rewrite H1 in ER. injection ER as <-. exact G2.
Qed.

(** Initial states. *)
Lemma boot_in : forall (l : list (Z * T)) e, In e (boot_queue P l) ->
  exists i t task, e = mkEv t (ELocal (Z.of_nat i) task) /\ (i < length l)%nat /\ In (t, task) l /\ t < p_sim_end P.
Proof.
  intros l e I. unfold boot_queue in I. apply filter_In in I as [I F].
  apply in_map_iff in I as ([i [t task]] & <- & I).
  exists i, t, task. pose proof (in_combine_l _ _ _ _ I) as I1. apply in_combine_r in I.
  apply in_seq in I1. cbn in F. repeat split; auto; lia.
Qed.

Lemma boot_distinct : forall l : list (Z * T), distinct (boot_queue P l).
Proof.
  intros l. unfold boot_queue, distinct.
  generalize (fun e : event => ev_time e <? p_sim_end P) as g. intros g.
  generalize 0%nat as a. induction l as [|[t task] l IH]; intros a; cbn [length seq combine map filter].
  - constructor.
  - assert (F : ~ In (ILocal (Z.of_nat a)) (map ident_of (filter g
        (map (fun '(i, (t0, task0)) => mkEv t0 (@ELocal K T (Z.of_nat i) task0)) (combine (seq (Datatypes.S a) (length l)) l))))).
    { intros I. apply in_map_iff in I as (e & E & I). apply filter_In in I as [I _].
      apply in_map_iff in I as ([i [t' task']] & <- & I). cbn in E. injection E as E.
      apply in_combine_l in I. apply in_seq in I. lia. }
    destruct (g _); cbn [map]; [constructor; [exact F|]|]; apply IH.
Qed.

Lemma GW_init : forall n priv c boot dyn mp cfg ra, boot_ok P c boot -> 0 < mp ->
  ra_new dyn mp cfg = Some ra -> GW n (init_state P priv c boot ra).
Proof.
  intros n priv c boot dyn mp cfg ra [BC BT] MP RN.
  unfold ra_new, assert_then in RN. destruct (negb (mp =? 0)); [|discriminate]. injection RN as <-.
  pose proof (co_end _ CFG) as CE.
  constructor; cbn [init_state g_host g_status g_window g_worker g_ra init_host h_q q_bag h_ctr h_phase]; try congruence.
  - intros ws we E. injection E as <- <-. rewrite ES_val. lia.
  - intros ws we h E LH. injection E as <- <-. rewrite ES_val.
    constructor; cbn [init_host h_q q_bag q_last h_ctr h_clock h_phase h_cpu]; auto; try lia; try congruence.
    + apply boot_distinct.
    + intros e I. apply boot_in in I as (i & t & task & -> & _ & I & _). apply BT in I. cbn. rewrite ES_val. lia.
    + intros t i k I. apply boot_in in I as (j & t' & task & E & L & _). injection E as _ -> _. lia.
    + rewrite ES_val. lia.
    + rewrite ES_val. lia.
  - intros d src t i k LD I. apply boot_in in I as (j & t' & task & E & _). discriminate.
  - intros ws we w t _ [R|R]; discriminate R.
  - constructor; cbn; [assumption|discriminate].
Qed.

Lemma run_GW : forall n s0 tr o, GW n s0 -> run keqb teqb P n s0 tr o -> exists s, o = Some s /\ GW n s.
Proof.
  intros n s0 tr o G H. induction H.
  - eauto.
  - destruct IHrun as (s1 & E & G1). injection E as <-.
    destruct (step_GW _ _ _ G1 H0) as (s2 & l2 & E & G2). injection E as <- <-. eauto.
  - destruct IHrun as (s1 & E & G1). injection E as <-.
    destruct (step_GW _ _ _ G1 H0) as (s2 & l2 & E & G2). discriminate.
Qed.

End P.
