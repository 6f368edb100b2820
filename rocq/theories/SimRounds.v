(** Determinism across rounds: two executions of the same configuration, with any numbers of workers
    and any schedules, agree. *)
From Verif Require Import Base TimeModel TimeProofs EventModel EventSpec EventProofs CpuModel RunaheadModel
  RunaheadProofs SimModel SimSpec SimProofs SimInv SimDet.

Section P.
Context {S K T : Type} (keqb : K -> K -> bool) (teqb : T -> T -> bool) (P : params S K T).
Notation event := (event K T).
Notation hstate := (hstate S K T).
Notation gstate := (gstate S K T).
Notation effect := (effect K T).
Notation label := (label K T).
Notation host_step := (host_step keqb teqb P).
Notation step := (step keqb teqb P).
Notation run := (run keqb teqb P).
Notation apply_effect := (apply_effect keqb teqb P).
Notation bag x := (q_bag (h_q x)).
Notation last x := (q_last (h_q x)).
Notation HW := (HW P).
Notation GW := (GW P).
Notation RI := (RI keqb teqb P).
Notation liter := (liter keqb teqb P).
Notation returned := (returned keqb teqb P).

Hypothesis CFG : config_ok P.

Lemma simx_refl : forall x : hstate, simx [] x x.
Proof. intros x. constructor; auto. now rewrite app_nil_r. Qed.

Lemma simx_sym : forall x y : hstate, simx [] x y -> simx [] y x.
Proof.
  intros x y X. constructor; try (symmetry; apply X). rewrite app_nil_r. symmetry.
  pose proof (sx_bag _ _ _ X) as Y. now rewrite app_nil_r in Y.
Qed.

Lemma simx_trans : forall ex (x y z : hstate), simx ex x y -> simx [] y z -> simx ex x z.
Proof.
  intros ex x y z A B. pose proof (sx_bag _ _ _ B) as Y. rewrite app_nil_r in Y.
  constructor; try (etransitivity; [apply A|apply B]). now rewrite (sx_bag _ _ _ A), Y.
Qed.

Lemma simx_common : forall ex (x x' y : hstate), simx ex x y -> simx ex x' y -> simx [] x x'.
Proof.
  intros ex x x' y A B. constructor; try (etransitivity; [apply A|symmetry; apply B]).
  rewrite app_nil_r. rewrite (sx_bag _ _ _ A). symmetry. apply B.
Qed.

(** Same state at a round boundary, up to the internal order of the queues and the workers' caches. *)
Record eqv (a b : gstate) : Prop := {
  eq_win : g_window a = g_window b;
  eq_host : forall h, (h < p_nhosts P)%nat -> simx [] (g_host a h) (g_host b h);
  eq_ra : g_ra a = g_ra b;
}.

Lemma eqv_refl : forall a, eqv a a.
Proof. intros a. constructor; auto. intros. apply simx_refl. Qed.

Definition ret (s : gstate) (h : nat) : list effect :=
  match g_status s h with RReading _ | RDone => [FReturn] | _ => [] end.

Lemma effects_app : forall h (a b : list label), effects h (a ++ b) = effects h a ++ effects h b.
Proof.
  induction a as [|l a IH]; intros b; [reflexivity|]. cbn. destruct l as [|h' f|w]; auto.
  destruct (Nat.eqb h' h); cbn; now rewrite IH.
Qed.
Lemma windows_app : forall a b : list label, windows (a ++ b) = windows a ++ windows b.
Proof.
  induction a as [|l a IH]; intros b; [reflexivity|]. cbn. destruct l; cbn; now rewrite ?IH.
Qed.

Lemma prefix_refl : forall {A} (l : list A), is_prefix l l.
Proof. intros. exists []. now rewrite app_nil_r. Qed.
Lemma prefix_app : forall {A} (l r : list A), is_prefix l (l ++ r).
Proof. intros. now exists r. Qed.
Lemma prefix_trans : forall {A} (a b c : list A), is_prefix a b -> is_prefix b c -> is_prefix a c.
Proof. intros A a b c [x ->] [y ->]. exists (x ++ y). now rewrite app_assoc. Qed.
Lemma prefix_app2 : forall {A} (a b c : list A), is_prefix b c -> is_prefix (a ++ b) (a ++ c).
Proof. intros A a b c [x ->]. exists x. now rewrite app_assoc. Qed.

(** *** Comparing two executions of one round *)

Lemma round_host : forall n1 n2 r1 s1 r2 s2 ws1 we1 ws we c1 c2 Y1 Y2 E1 E2 h,
  GW n1 r1 -> GW n2 r2 -> eqv r1 r2 -> (h < p_nhosts P)%nat ->
  RI r1 s1 ws1 we1 c1 Y1 E1 -> RI r2 s2 ws we c2 Y2 E2 ->
  exists Z, liter h we (c1 h) (g_host r2 h) = Some (Z, E1 h) /\ simx [] (Y1 h) Z /\
    (returned h we1 (Y1 h) -> returned h we Z) /\ ws1 = ws /\ we1 = we.
Proof.
  intros n1 n2 r1 s1 r2 s2 ws1 we1 ws we c1 c2 Y1 Y2 E1 E2 h G1 G2 EV LH R1 R2.
  pose proof (ri_win0 _ _ _ _ _ _ _ _ _ _ R1) as A. pose proof (ri_win0 _ _ _ _ _ _ _ _ _ _ R2) as B.
  rewrite (eq_win _ _ EV), B in A. injection A as -> ->.
  assert (A : g_window r1 = Some (ws1, we1)) by apply R1.
  destruct (gw_win _ _ _ G1 _ _ A) as [_ WE].
  pose proof (gw_host _ _ _ G1 _ _ _ A LH) as W.
  pose proof (ri_iter _ _ _ _ _ _ _ _ _ _ R1 h LH) as IT.
  destruct (liter_frame _ _ P h ws1 we1 _ _ _ _ _ W WE (eq_host _ _ EV h LH) IT) as (z & E & SX).
  exists z. split; [exact E|]. split; [exact SX|]. split; [|auto].
  intros RT. unfold SimDet.returned in *.
  destruct (liter_HW _ _ P h ws1 we1 _ _ _ _ W WE IT) as [WY _].
  destruct (host_step_frame _ _ P [] h ws1 we1 (Y1 h) z _ _ WY WE SX ltac:(intros e []) RT) as (z' & HZ & _).
  rewrite HZ. f_equal. f_equal.
  destruct (host_step_ok keqb teqb P h ws1 we1 z (simx_HW _ _ _ _ _ _ _ SX WY) WE) as (z2 & g & HZ2 & _ & _ & _ & _ & EZ & _).
  rewrite HZ in HZ2. injection HZ2 as <- <-. now destruct EZ.
Qed.

Lemma status_ret : forall r s ws we c Y E h, (h < p_nhosts P)%nat -> RI r s ws we c Y E ->
  ret s h = [] \/ ret s h = [FReturn] /\ returned h we (Y h).
Proof.
  intros r s ws we c Y E h LH R. pose proof (ri_status _ _ _ _ _ _ _ _ _ _ R h LH) as X.
  unfold ret. destruct (g_status s h); auto.
Qed.

(** A host that has gone further has the same history. *)
Lemma round_prefix : forall h we c1 c2 (y : hstate) Z1 Z2 E1 E2 t1 t2,
  liter h we c1 y = Some (Z1, E1) -> liter h we c2 y = Some (Z2, E2) ->
  (t1 = [] \/ t1 = [FReturn] /\ returned h we Z1) ->
  (t2 = [] \/ t2 = [FReturn] /\ returned h we Z2) ->
  comparable_lists (E1 ++ t1) (E2 ++ t2) /\
  (returned h we Z2 -> t2 = [FReturn] -> is_prefix (E1 ++ t1) (E2 ++ t2)).
Proof.
  intros h we c1 c2 y Z1 Z2 E1 E2 t1 t2 L1 L2 T1 T2.
  assert (X : (c1 <= c2)%nat -> is_prefix (E1 ++ t1) (E2 ++ t2) \/ is_prefix (E2 ++ t2) (E1 ++ t1) /\ t2 = []).
  { intros L. destruct (liter_mono _ _ P h we _ _ _ _ _ _ _ L1 L2 L) as (r & ->).
    destruct T1 as [->|[-> RT]].
    - rewrite app_nil_r. left. rewrite <- app_assoc. apply prefix_app.
    - pose proof (liter_returned _ _ P h we _ _ _ _ _ _ _ L1 RT L2) as L'.
      assert (c1 = c2) by lia. subst c2. rewrite L1 in L2. injection L2 as <- EQ.
      assert (r = []) as -> by (apply (app_inv_head E1); now rewrite app_nil_r).
      rewrite app_nil_r in *. destruct T2 as [->|[-> _]].
      + right. rewrite app_nil_r. split; [apply prefix_app|reflexivity].
      + left. apply prefix_refl. }
  assert (Y : (c2 <= c1)%nat -> returned h we Z2 -> c1 = c2 /\ E1 = E2 /\ Z1 = Z2).
  { intros L RT. pose proof (liter_returned _ _ P h we _ _ _ _ _ _ _ L2 RT L1). assert (c1 = c2) by lia. subst.
    rewrite L1 in L2. injection L2 as -> ->. auto. }
  split.
  - destruct (Nat.le_ge_cases c1 c2) as [L|L].
    + destruct (X L) as [?|[? _]]; [left|right]; assumption.
    + destruct T2 as [->|[-> RT]].
      * right. destruct (liter_mono _ _ P h we _ _ _ _ _ _ _ L2 L1 L) as (r & ->). rewrite app_nil_r, <- app_assoc. apply prefix_app.
      * destruct (Y L RT) as (-> & -> & ->). left. destruct T1 as [->|[-> _]]; [rewrite app_nil_r; apply prefix_app|apply prefix_refl].
  - intros RT ->. destruct (Nat.le_ge_cases c1 c2) as [L|L].
    + destruct (X L) as [?|[_ D]]; [assumption|discriminate].
    + destruct (Y L RT) as (-> & -> & ->). destruct T1 as [->|[-> _]]; [rewrite app_nil_r; apply prefix_app|apply prefix_refl].
Qed.

Definition all_done (s : gstate) : Prop := forall h, (h < p_nhosts P)%nat -> g_status s h = RDone.

Lemma round_complete : forall n1 n2 r1 s1 r2 s2 ws1 we1 ws we c1 c2 Y1 Y2 E1 E2,
  GW n1 r1 -> GW n2 r2 -> eqv r1 r2 -> RI r1 s1 ws1 we1 c1 Y1 E1 -> RI r2 s2 ws we c2 Y2 E2 ->
  all_done s1 -> all_done s2 ->
  (forall h, (h < p_nhosts P)%nat -> E1 h = E2 h) /\ eqv s1 s2.
Proof.
  intros n1 n2 r1 s1 r2 s2 ws1 we1 ws we c1 c2 Y1 Y2 E1 E2 G1 G2 EV R1 R2 D1 D2.
  assert (H : forall h, (h < p_nhosts P)%nat -> E1 h = E2 h /\ simx [] (Y1 h) (Y2 h)).
  { intros h LH. destruct (round_host _ _ _ _ _ _ _ _ _ _ _ _ _ _ _ _ h G1 G2 EV LH R1 R2) as (z & IT & SX & RT & -> & ->).
    pose proof (ri_status _ _ _ _ _ _ _ _ _ _ R1 h LH) as ST1. rewrite (D1 h LH) in ST1.
    pose proof (ri_status _ _ _ _ _ _ _ _ _ _ R2 h LH) as ST2. rewrite (D2 h LH) in ST2.
    specialize (RT ST1). pose proof (ri_iter _ _ _ _ _ _ _ _ _ _ R2 h LH) as IT2.
    pose proof (liter_returned _ _ P h we _ _ _ _ _ _ _ IT RT IT2).
    pose proof (liter_returned _ _ P h we _ _ _ _ _ _ _ IT2 ST2 IT).
    assert (EC : c1 h = c2 h) by lia. rewrite EC, IT2 in IT. injection IT as <- <-. auto. }
  split; [intros; now apply H|].
  assert (ES : forall h, sent_to h E1 (p_nhosts P) = sent_to h E2 (p_nhosts P)).
  { intros h. apply sent_to_ext. intros d LD. now apply H. }
  constructor.
  - rewrite (ri_win _ _ _ _ _ _ _ _ _ _ R1), (ri_win _ _ _ _ _ _ _ _ _ _ R2).
    pose proof (ri_win0 _ _ _ _ _ _ _ _ _ _ R1) as A. pose proof (ri_win0 _ _ _ _ _ _ _ _ _ _ R2) as B.
    now rewrite <- A, <- B, (eq_win _ _ EV).
  - intros h LH. destruct (H h LH) as [_ SY].
    pose proof (ri_sim _ _ _ _ _ _ _ _ _ _ R1 h LH) as A. pose proof (ri_sim _ _ _ _ _ _ _ _ _ _ R2 h LH) as B.
    rewrite <- ES in B. eapply simx_common; [eapply simx_trans; eauto|exact B].
  - pose proof (ri_ra _ _ _ _ _ _ _ _ _ _ R1) as A. pose proof (ri_ra _ _ _ _ _ _ _ _ _ _ R2) as B.
    rewrite <- (eq_ra _ _ EV) in B. eapply ra_after_unique; [|exact A|exact B].
    intros x. split; intros (h & LH & I); exists h; split; auto.
    + now rewrite <- (proj1 (H h LH)).
    + now rewrite (proj1 (H h LH)).
Qed.

Lemma end_round_eqv : forall n1 n2 s1 s2 s1' s2' ws we, GW n1 s1 -> GW n2 s2 -> eqv s1 s2 ->
  g_window s1 = Some (ws, we) -> all_done s1 -> all_done s2 ->
  end_round P s1 n1 = Some s1' -> end_round P s2 n2 = Some s2' -> eqv s1' s2'.
Proof.
  intros n1 n2 s1 s2 s1' s2' ws we G1 G2 EV W1 D1 D2 ER1 ER2.
  assert (W2 : g_window s2 = Some (ws, we)) by (now rewrite <- (eq_win _ _ EV)).
  destruct (GW_round P CFG n1 s1 ws we G1 W1 D1) as (x1 & X1 & _ & H1 & RA1 & _ & _ & _ & F1).
  destruct (GW_round P CFG n2 s2 ws we G2 W2 D2) as (x2 & X2 & _ & H2 & RA2 & _ & _ & _ & F2).
  rewrite ER1 in X1. injection X1 as <-. rewrite ER2 in X2. injection X2 as <-.
  assert (IN : forall h e, (h < p_nhosts P)%nat -> In e (bag (g_host s1 h)) <-> In e (bag (g_host s2 h))).
  { intros h e LH. pose proof (sx_bag _ _ _ (eq_host _ _ EV h LH)) as PM. rewrite app_nil_r in PM.
    split; intros I; [eapply Permutation_in; eauto|eapply Permutation_in; [symmetry; exact PM|exact I]]. }
  constructor.
  - rewrite (eq_ra _ _ EV) in F1.
    destruct (g_window s1') as [[a1 b1]|], (g_window s2') as [[a2 b2]|]; auto.
    + destruct F1 as (_ & _ & -> & L1 & (h1 & e1 & LH1 & I1 & <-)).
      destruct F2 as (_ & _ & -> & L2 & (h2 & e2 & LH2 & I2 & <-)).
      pose proof (L1 h2 e2 LH2 (proj2 (IN _ _ LH2) I2)). pose proof (L2 h1 e1 LH1 (proj1 (IN _ _ LH1) I1)).
      assert (ev_time e1 = ev_time e2) as -> by lia. reflexivity.
    + destruct F1 as (_ & L & -> & _ & (h1 & e1 & LH1 & I1 & <-)).
      specialize (F2 _ _ LH1 (proj1 (IN _ _ LH1) I1)). lia.
    + destruct F2 as (_ & L & -> & _ & (h1 & e1 & LH1 & I1 & <-)).
      specialize (F1 _ _ LH1 (proj2 (IN _ _ LH1) I1)). lia.
  - intros h LH. rewrite H1, H2. now apply EV.
  - rewrite RA1, RA2. apply EV.
Qed.

(** *** Splitting an execution into rounds *)

Definition boundary (n : nat) (s0 : gstate) (tr : list label) (r : gstate) : Prop :=
  tr = [] /\ r = s0 \/
  exists tr' p ws we, tr = tr' ++ [LWindow (g_window r)] /\ run n s0 tr' (Some p) /\ GW n p /\
    g_window p = Some (ws, we) /\ all_done p /\ end_round P p n = Some r.

Definition good_start (n : nat) (s : gstate) : Prop := GW n s /\ round_start s /\ cache_ok s.

Inductive in_round (n : nat) (s0 : gstate) (tr : list label) (s : gstate) : Prop :=
| IR a r b ws we cnt Y E : tr = a ++ b -> run n s0 a (Some r) -> boundary n s0 a r -> good_start n r ->
    windows b = [] -> GW n s -> RI r s ws we cnt Y E ->
    (forall h, effects h b = E h ++ ret s h) -> in_round n s0 tr s
| IR_end : run n s0 tr (Some s) -> boundary n s0 tr s -> good_start n s -> g_window s = None -> in_round n s0 tr s.

Lemma in_round_start : forall n s0 tr s, run n s0 tr (Some s) -> boundary n s0 tr s -> good_start n s -> in_round n s0 tr s.
Proof.
  intros n s0 tr s R B (G & RS & C). destruct (g_window s) as [[ws we]|] eqn:W.
  - eapply (IR n s0 tr s tr s []); eauto.
    + now rewrite app_nil_r.
    + split; auto.
    + apply RI_start; eauto.
    + intros h. unfold ret. now rewrite RS.
  - apply IR_end; auto. split; auto.
Qed.

Lemma run_in_round : forall n s0 tr o, good_start n s0 -> run n s0 tr o -> exists s, o = Some s /\ in_round n s0 tr s.
Proof.
  intros n s0 tr o GS H. induction H as [|tr s s' l H IH ST|tr s H IH ST].
  - eexists; split; [reflexivity|]. apply in_round_start; auto; [constructor|left; auto].
  - destruct IH as (s1 & E & IR0). injection E as <-.
    assert (G : GW n s) by (destruct IR0 as [| ? ? (? & _) ?]; auto).
    eexists; split; [reflexivity|].
    pose proof (step_cases keqb teqb P CFG n s _ G ST) as SC.
    remember (Some (s', l)) as o eqn:EO.
    destruct IR0 as [a r b ws we cnt Y E0 TR RA BD GR WB GS' RI0 EF|R B GS1 W].
    2:{ exfalso. destruct SC; congruence. }
    destruct SC as [h w ws' we' W LH LW STA|h w ws' we' x' f s2 W STA HS AE|h w ws' we' W STA|ws' we' s2 W DONE ER];
      rewrite (ri_win _ _ _ _ _ _ _ _ _ _ RI0) in W; injection W as <- <-; injection EO as <- <-.
    + eapply (IR n s0 _ _ a r (b ++ [LTau])); eauto.
      * rewrite TR, app_assoc. reflexivity.
      * rewrite windows_app, WB. reflexivity.
      * eapply GW_start; eauto. apply RI0.
      * eapply RI_start_host; eauto.
      * intros d. rewrite effects_app, EF. cbn. rewrite app_nil_r. f_equal. unfold ret. cbn.
        destruct (Nat.eq_dec d h) as [->|N]; [rewrite upd_same, STA; reflexivity|now rewrite upd_other by auto].
    + destruct GR as (GR1 & GR2 & GR3).
      destruct (RI_host_step keqb teqb P CFG n r s ws we cnt Y E0 h w x' f s2 GR1 G RI0 STA HS AE)
        as (cnt' & Y' & E' & RI' & EE).
      assert (LH : (h < p_nhosts P)%nat) by (apply (gw_dom _ _ _ G); congruence).
      destruct (host_step_global keqb teqb P CFG n s h w ws we G (ri_win _ _ _ _ _ _ _ _ _ _ RI0) STA)
        as (x2 & f2 & s3 & HS2 & AE2 & AP & _).
      rewrite HS in HS2. injection HS2 as <- <-. rewrite AE in AE2. injection AE2 as <-.
      eapply (IR n s0 _ _ a r (b ++ [LHost h f])); eauto.
      * rewrite TR, app_assoc. reflexivity.
      * split; auto.
      * rewrite windows_app, WB. reflexivity.
      * eapply GW_host_step; eauto. apply RI0.
      * intros d. rewrite effects_app, EF, EE. cbn [effects].
        unfold ret at 2. rewrite (ap_status _ _ _ _ _ _ AP).
        destruct (Nat.eqb_spec h d) as [->|N].
        -- rewrite Nat.eqb_refl. unfold ret. rewrite STA, app_nil_r.
           destruct f; rewrite ?upd_same, ?STA, ?app_nil_r; reflexivity.
        -- destruct (Nat.eqb_spec d h); [congruence|]. rewrite !app_nil_r. f_equal. unfold ret.
           destruct f; rewrite ?upd_other by auto; reflexivity.
    + eapply (IR n s0 _ _ a r (b ++ [LTau])); eauto.
      * rewrite TR, app_assoc. reflexivity.
      * rewrite windows_app, WB. reflexivity.
      * eapply GW_finish; eauto. apply RI0.
      * eapply RI_finish; eauto. apply (gw_dom _ _ _ G). congruence.
      * intros d. rewrite effects_app, EF. cbn. rewrite app_nil_r. f_equal. unfold ret. cbn.
        destruct (Nat.eq_dec d h) as [->|N]; [rewrite upd_same, STA; reflexivity|now rewrite upd_other by auto].
    + destruct (GW_round P CFG n s ws we G (ri_win _ _ _ _ _ _ _ _ _ _ RI0) DONE)
        as (x & X & GX & HX & RAX & CX & SX & _ & _).
      rewrite ER in X. injection X as <-.
      apply in_round_start.
      * econstructor; [exact H|exact ST].
      * right. exists tr, s, ws, we. split; [reflexivity|]. split; [exact H|]. split; [exact G|]. split; [apply RI0|]. split; [exact DONE|exact ER].
      * split; [exact GX|]. split; [exact SX|]. intros D w c EC. rewrite RAX in *. rewrite CX in EC.
        eapply (ri_cache' _ _ _ _ _ _ _ _ _ _ RI0); eauto.
  - destruct IH as (s1 & E & IR0). injection E as <-.
    assert (G : GW n s) by (destruct IR0 as [| ? ? (? & _) ?]; auto).
    pose proof (step_cases keqb teqb P CFG n s _ G ST) as SC. inversion SC.
Qed.

(** *** Determinism *)

Section Two.
Context (n1 n2 : nat) (s0 : gstate) (GS1 : good_start n1 s0) (GS2 : good_start n2 s0).

Lemma boundary_det : forall k tr1 r1 tr2 r2,
  boundary n1 s0 tr1 r1 -> boundary n2 s0 tr2 r2 ->
  length (windows tr1) = k -> length (windows tr2) = k ->
  eqv r1 r2 /\ windows tr1 = windows tr2 /\
  forall h, (h < p_nhosts P)%nat -> effects h tr1 = effects h tr2.
Proof.
  induction k as [|k IH]; intros tr1 r1 tr2 r2 B1 B2 K1 K2.
  - destruct B1 as [[-> ->]|(a & p & ws & we & -> & _)].
    2:{ rewrite windows_app, app_length in K1. cbn in K1. lia. }
    destruct B2 as [[-> ->]|(a & p & ws & we & -> & _)].
    2:{ rewrite windows_app, app_length in K2. cbn in K2. lia. }
    split; [apply eqv_refl|]. auto.
  - destruct B1 as [[-> ->]|(a1 & p1 & ws1 & we1 & -> & RN1 & G1 & W1 & D1 & ER1)]; [discriminate|].
    destruct B2 as [[-> ->]|(a2 & p2 & ws2 & we2 & -> & RN2 & G2 & W2 & D2 & ER2)]; [discriminate|].
    rewrite windows_app, app_length in K1, K2. cbn in K1, K2.
    destruct (run_in_round _ _ _ _ GS1 RN1) as (x & E & I1). injection E as <-.
    destruct (run_in_round _ _ _ _ GS2 RN2) as (x & E & I2). injection E as <-.
    destruct I1 as [c1 q1 b1 ws1' we1' cn1 Y1 E1 -> RC1 BD1 GR1 WB1 GS1' RI1 EF1|]; [|congruence].
    destruct I2 as [c2 q2 b2 ws2' we2' cn2 Y2 E2 -> RC2 BD2 GR2 WB2 GS2' RI2 EF2|]; [|congruence].
    rewrite windows_app, WB1, app_nil_r in K1. rewrite windows_app, WB2, app_nil_r in K2.
    destruct (IH c1 q1 c2 q2 BD1 BD2 ltac:(lia) ltac:(lia)) as (EQ & WW & EE).
    destruct (round_complete _ _ _ _ _ _ _ _ _ _ _ _ _ _ _ _ (proj1 GR1) (proj1 GR2) EQ RI1 RI2 D1 D2) as [HE EV].
    assert (EVR : eqv r1 r2) by (eapply (end_round_eqv n1 n2 p1 p2); eauto).
    split; [exact EVR|]. split.
    + rewrite !windows_app, WB1, WB2, WW, (eq_win _ _ EVR). reflexivity.
    + intros h LH. rewrite !effects_app, EF1, EF2, (EE h LH), (HE h LH). unfold ret. rewrite (D1 h LH), (D2 h LH). reflexivity.
Qed.

(** Inside one round. *)
Lemma same_round : forall c1 q1 c2 q2 b1 b2 s1 s2 ws1 we1 ws2 we2 cn1 cn2 Y1 Y2 E1 E2,
  boundary n1 s0 c1 q1 -> boundary n2 s0 c2 q2 -> good_start n1 q1 -> good_start n2 q2 ->
  length (windows c1) = length (windows c2) ->
  RI q1 s1 ws1 we1 cn1 Y1 E1 -> RI q2 s2 ws2 we2 cn2 Y2 E2 ->
  (forall h, effects h b1 = E1 h ++ ret s1 h) -> (forall h, effects h b2 = E2 h ++ ret s2 h) ->
  forall h, (h < p_nhosts P)%nat ->
    comparable_lists (effects h (c1 ++ b1)) (effects h (c2 ++ b2)) /\
    (all_done s2 -> is_prefix (effects h (c1 ++ b1)) (effects h (c2 ++ b2))).
Proof.
  intros c1 q1 c2 q2 b1 b2 s1 s2 ws1 we1 ws2 we2 cn1 cn2 Y1 Y2 E1 E2 B1 B2 G1 G2 LE R1 R2 EF1 EF2 h LH.
  destruct (boundary_det _ _ _ _ _ B1 B2 LE eq_refl) as (EQ & _ & EE).
  rewrite !effects_app, (EE h LH), EF1, EF2.
  destruct (round_host _ _ _ _ _ _ _ _ _ _ _ _ _ _ _ _ h (proj1 G1) (proj1 G2) EQ LH R1 R2) as (z & IT & SX & RT & -> & ->).
  pose proof (ri_iter _ _ _ _ _ _ _ _ _ _ R2 h LH) as IT2.
  destruct (round_prefix h we2 _ _ _ _ _ _ _ (ret s1 h) (ret s2 h) IT IT2) as [A B].
  - destruct (status_ret _ _ _ _ _ _ _ h LH R1) as [X|[X Y]]; auto.
  - apply (status_ret _ _ _ _ _ _ _ h LH R2).
  - split.
    + destruct A as [A|A]; [left|right]; now apply prefix_app2.
    + intros D. apply prefix_app2. apply B.
      * pose proof (ri_status _ _ _ _ _ _ _ _ _ _ R2 h LH) as ST. now rewrite (D h LH) in ST.
      * unfold ret. now rewrite (D h LH).
Qed.
End Two.

(** The prefix of an execution that ends with a given window. *)
Lemma run_prefix : forall n s0 tr s k, run n s0 tr (Some s) -> good_start n s0 -> (k < length (windows tr))%nat ->
  exists tr' p rest ws we, tr = tr' ++ rest /\ run n s0 tr' (Some p) /\ length (windows tr') = k /\
    g_window p = Some (ws, we) /\ all_done p.
Proof.
  intros n s0 tr s k H GS. remember (Some s) as o eqn:EO. revert s EO.
  induction H as [|tr s1 s' l H IH ST|tr s1 H IH ST]; intros s EO L.
  - cbn in L. lia.
  - rewrite windows_app, app_length in L.
    destruct (Nat.lt_ge_cases k (length (windows tr))) as [LT|GE].
    + destruct (IH _ eq_refl LT) as (tr' & p & rest & ws & we & -> & R & K1 & W & D).
      exists tr', p, (rest ++ [l]), ws, we. repeat split; auto. now rewrite app_assoc.
    + destruct (run_in_round _ _ _ _ GS H) as (x & E & IR0). injection E as <-.
      assert (G : GW n s1) by (destruct IR0 as [| ? ? (? & _) ?]; auto).
      pose proof (step_cases keqb teqb P CFG n s1 _ G ST) as SC.
      remember (Some (s', l)) as o2 eqn:EO2.
      destruct SC; injection EO2 as <- <-; cbn in L; try lia.
      exists tr, s1, [LWindow (g_window s'0)], ws, we. repeat split; auto. lia.
  - discriminate.
Qed.

Lemma in_round_boundary : forall n s0 tr s, in_round n s0 tr s -> exists a r, is_prefix a tr /\ boundary n s0 a r /\ windows a = windows tr /\ good_start n r.
Proof.
  intros n s0 tr s [a r b ws we cnt Y E -> R B GR WB G RI0 EF|R B GS W].
  - exists a, r. split; [apply prefix_app|]. rewrite windows_app, WB, app_nil_r. auto.
  - exists tr, s. split; [apply prefix_refl|]. auto.
Qed.

(** An execution with fewer windows is a prefix, host by host. *)
Lemma fewer_windows : forall n1 n2 s0 tr1 s1 tr2 s2, good_start n1 s0 -> good_start n2 s0 ->
  run n1 s0 tr1 (Some s1) -> run n2 s0 tr2 (Some s2) ->
  (length (windows tr1) < length (windows tr2))%nat ->
  g_window s1 <> None /\ is_prefix (windows tr1) (windows tr2) /\
  forall h, (h < p_nhosts P)%nat -> is_prefix (effects h tr1) (effects h tr2).
Proof.
  intros n1 n2 s0 tr1 s1 tr2 s2 GS1 GS2 R1 R2 LT.
  destruct (run_prefix _ _ _ _ _ R2 GS2 LT) as (tr2' & p & rest & ws & we & -> & RP & KK & W & D).
  destruct (run_in_round _ _ _ _ GS1 R1) as (x & E & I1). injection E as <-.
  destruct (run_in_round _ _ _ _ GS2 RP) as (x & E & I2). injection E as <-.
  destruct I2 as [c2 q2 b2 ws2 we2 cn2 Y2 E2 -> RC2 BD2 GR2 WB2 GS2' RI2 EF2|]; [|congruence].
  rewrite windows_app, WB2, app_nil_r in KK.
  destruct I1 as [c1 q1 b1 ws1 we1 cn1 Y1 E1 -> RC1 BD1 GR1 WB1 GS1' RI1 EF1|RR BD1 GR1 W1].
  - rewrite (windows_app c1), WB1, app_nil_r in *.
    destruct (boundary_det n1 n2 s0 GS1 GS2 _ _ _ _ _ BD1 BD2 eq_refl KK) as (_ & WW & _).
    split; [rewrite (ri_win _ _ _ _ _ _ _ _ _ _ RI1); discriminate|]. split.
    + rewrite WW, windows_app, (windows_app c2), <- app_assoc. apply prefix_app.
    + intros h LH. rewrite (effects_app h (c2 ++ b2)).
      destruct (same_round n1 n2 s0 GS1 GS2 c1 q1 c2 q2 b1 b2 _ _ _ _ _ _ _ _ _ _ _ _ BD1 BD2 GR1 GR2 (eq_sym KK) RI1 RI2 EF1 EF2 h LH) as [_ X].
      eapply prefix_trans; [apply (X D)|apply prefix_app].
  - exfalso. destruct (boundary_det n1 n2 s0 GS1 GS2 _ _ _ _ _ BD1 BD2 eq_refl KK) as (EQ & _ & _).
    rewrite (eq_win _ _ EQ), (ri_win0 _ _ _ _ _ _ _ _ _ _ RI2) in W1. discriminate.
Qed.

Lemma same_windows : forall n1 n2 s0 tr1 s1 tr2 s2, good_start n1 s0 -> good_start n2 s0 ->
  run n1 s0 tr1 (Some s1) -> run n2 s0 tr2 (Some s2) ->
  length (windows tr1) = length (windows tr2) ->
  windows tr1 = windows tr2 /\
  (forall h, (h < p_nhosts P)%nat -> comparable_lists (effects h tr1) (effects h tr2)) /\
  (all_done s1 -> all_done s2 -> eqv s1 s2 /\ forall h, (h < p_nhosts P)%nat -> effects h tr1 = effects h tr2) /\
  (g_window s2 = None -> eqv s1 s2 /\ round_start s1 /\ round_start s2 /\ forall h, (h < p_nhosts P)%nat -> effects h tr1 = effects h tr2).
Proof.
  intros n1 n2 s0 tr1 s1 tr2 s2 GS1 GS2 R1 R2 LE.
  destruct (run_in_round _ _ _ _ GS1 R1) as (x & E & I1). injection E as <-.
  destruct (run_in_round _ _ _ _ GS2 R2) as (x & E & I2). injection E as <-.
  destruct I1 as [c1 q1 b1 ws1 we1 cn1 Y1 E1 -> RC1 BD1 GR1 WB1 GS1' RI1 EF1|RR BD1 GR1 W1];
  destruct I2 as [c2 q2 b2 ws2 we2 cn2 Y2 E2 -> RC2 BD2 GR2 WB2 GS2' RI2 EF2|RR2 BD2 GR2 W2];
  rewrite ?windows_app, ?WB1, ?WB2, ?app_nil_r in *;
  destruct (boundary_det n1 n2 s0 GS1 GS2 _ _ _ _ _ BD1 BD2 LE eq_refl) as (EQ & WW & EE).
  - split; [exact WW|]. split; [|split].
    + intros h LH. destruct (same_round n1 n2 s0 GS1 GS2 c1 q1 c2 q2 b1 b2 _ _ _ _ _ _ _ _ _ _ _ _ BD1 BD2 GR1 GR2 LE RI1 RI2 EF1 EF2 h LH) as [X _]. exact X.
    + intros D1 D2. destruct (round_complete _ _ _ _ _ _ _ _ _ _ _ _ _ _ _ _ (proj1 GR1) (proj1 GR2) EQ RI1 RI2 D1 D2) as [HE EV].
      split; [exact EV|]. intros h LH. rewrite !effects_app, EF1, EF2, (EE h LH), (HE h LH). unfold ret. now rewrite (D1 h LH), (D2 h LH).
    + intros W. rewrite (ri_win _ _ _ _ _ _ _ _ _ _ RI2) in W. discriminate.
  - exfalso. rewrite <- (eq_win _ _ EQ), (ri_win0 _ _ _ _ _ _ _ _ _ _ RI1) in W2. discriminate.
  - exfalso. rewrite (eq_win _ _ EQ), (ri_win0 _ _ _ _ _ _ _ _ _ _ RI2) in W1. discriminate.
  - split; [exact WW|]. split; [|split].
    + intros h LH. left. rewrite (EE h LH). apply prefix_refl.
    + auto.
    + intros _. split; [exact EQ|]. split; [apply GR1|]. split; [apply GR2|]. exact EE.
Qed.

(** *** Counting steps *)

Definition weight (r : rstatus) : nat := match r with RWait => 0 | RActive _ | RReading _ => 1 | RDone => 2 end.
Fixpoint sumn (f : nat -> nat) (n : nat) : nat := match n with O => 0 | Datatypes.S n => f n + sumn f n end.
Fixpoint taus (tr : list label) : nat := match tr with [] => 0 | LTau :: r => 1 + taus r | _ :: r => taus r end.

Lemma sumn_ext : forall f g n, (forall h, (h < n)%nat -> f h = g h) -> sumn f n = sumn g n.
Proof. induction n as [|n IH]; intros H; [reflexivity|]. cbn. rewrite H by lia. f_equal. apply IH. intros; apply H; lia. Qed.
Lemma sumn_le : forall f g n, (forall h, (h < n)%nat -> f h <= g h)%nat -> (sumn f n <= sumn g n)%nat.
Proof. induction n as [|n IH]; intros H; [reflexivity|]. cbn. pose proof (H n ltac:(lia)). pose proof (IH ltac:(intros; apply H; lia)). lia. Qed.
Lemma sumn_add1 : forall f g n h, (h < n)%nat -> g h = Datatypes.S (f h) -> (forall d, d <> h -> g d = f d) -> sumn g n = Datatypes.S (sumn f n).
Proof.
  induction n as [|n IH]; intros h L E O; [lia|]. cbn. destruct (Nat.eq_dec n h) as [->|N].
  - rewrite E. rewrite (sumn_ext g f) by (intros; apply O; lia). lia.
  - rewrite (O n N), (IH h) by (auto; lia). lia.
Qed.
Lemma sumn_const : forall c n, sumn (fun _ => c) n = (c * n)%nat.
Proof. induction n; cbn; lia. Qed.
Lemma taus_app : forall a b : list label, taus (a ++ b) = (taus a + taus b)%nat.
Proof. induction a as [|l a IH]; intros b; [reflexivity|]. destruct l; cbn; now rewrite ?IH. Qed.

Definition counted (tr : list label) (s : gstate) : Prop :=
  length tr = (sumn (fun h => length (effects h tr)) (p_nhosts P) + length (windows tr) + taus tr)%nat /\
  taus tr = (2 * p_nhosts P * length (windows tr) + sumn (fun h => weight (g_status s h)) (p_nhosts P))%nat.

Lemma run_counted : forall n s0 tr s, good_start n s0 -> run n s0 tr (Some s) -> counted tr s.
Proof.
  intros n s0 tr s GS H. remember (Some s) as o eqn:EO. revert s EO.
  induction H as [|tr s1 s' l H IH ST|tr s1 H IH ST]; intros s EO.
  - injection EO as <-. destruct GS as (_ & RS & _). split; cbn.
    + rewrite sumn_const. lia.
    + rewrite (sumn_ext _ (fun _ => 0%nat)) by (intros; now rewrite RS). rewrite sumn_const. lia.
  - injection EO as <-. destruct (IH _ eq_refl) as [A B].
    destruct (run_in_round _ _ _ _ GS H) as (x & E & IR0). injection E as <-.
    assert (G : GW n s1) by (destruct IR0 as [| ? ? (? & _) ?]; auto).
    pose proof (step_cases keqb teqb P CFG n s1 _ G ST) as SC.
    remember (Some (s', l)) as o2 eqn:EO2.
    unfold counted. rewrite app_length, windows_app, taus_app, app_length.
    destruct SC as [h w ws' we' W LH LW STA|h w ws' we' x' f s2 W STA HS AE|h w ws' we' W STA|ws' we' s2 W DONE ER];
      injection EO2 as <- <-.
    + rewrite (sumn_ext (fun h0 => length (effects h0 (tr ++ [LTau]))) (fun h0 => length (effects h0 tr)))
        by (intros; rewrite effects_app; cbn; now rewrite app_nil_r).
      cbn [length windows taus g_status]. split; [lia|].
      rewrite (sumn_add1 (fun h0 => weight (g_status s1 h0)) _ _ h LH); [lia|..].
      * now rewrite upd_same, STA.
      * intros d N. now rewrite upd_other by auto.
    + assert (LH : (h < p_nhosts P)%nat) by (apply (gw_dom _ _ _ G); congruence).
      destruct (host_step_global keqb teqb P CFG n s1 h w ws' we' G W STA) as (x2 & f2 & s3 & HS2 & AE2 & AP & _).
      rewrite HS in HS2. injection HS2 as <- <-. rewrite AE in AE2. injection AE2 as <-.
      cbn [length windows taus].
      rewrite (sumn_add1 (fun h0 => length (effects h0 tr)) _ _ h LH).
      * split; [lia|]. rewrite (sumn_ext (fun h0 => weight (g_status s2 h0)) (fun h0 => weight (g_status s1 h0))); [lia|].
        intros d LD. rewrite (ap_status _ _ _ _ _ _ AP). destruct f; auto.
        destruct (Nat.eq_dec d h) as [->|N]; [now rewrite upd_same, STA|now rewrite upd_other by auto].
      * rewrite effects_app, app_length. cbn. rewrite Nat.eqb_refl. cbn. lia.
      * intros d N. rewrite effects_app, app_length. cbn. destruct (Nat.eqb_spec h d); [congruence|]. cbn. lia.
    + assert (LH : (h < p_nhosts P)%nat) by (apply (gw_dom _ _ _ G); congruence).
      rewrite (sumn_ext (fun h0 => length (effects h0 (tr ++ [LTau]))) (fun h0 => length (effects h0 tr)))
        by (intros; rewrite effects_app; cbn; now rewrite app_nil_r).
      cbn [length windows taus g_status finish_host]. split; [lia|].
      rewrite (sumn_add1 (fun h0 => weight (g_status s1 h0)) _ _ h LH); [lia|..].
      * now rewrite upd_same, STA.
      * intros d N. now rewrite upd_other by auto.
    + destruct (GW_round P CFG n s1 ws' we' G W DONE) as (x & X & _ & _ & _ & _ & SX & _ & _).
      rewrite ER in X. injection X as <-.
      rewrite (sumn_ext (fun h0 => length (effects h0 (tr ++ [LWindow (g_window s2)]))) (fun h0 => length (effects h0 tr)))
        by (intros; rewrite effects_app; cbn; now rewrite app_nil_r).
      rewrite (sumn_ext (fun h0 => weight (g_status s2 h0)) (fun _ => 0%nat)) by (intros; now rewrite SX).
      rewrite (sumn_ext (fun h0 => weight (g_status s1 h0)) (fun _ => 2%nat)) in B by (intros; now rewrite DONE).
      rewrite sumn_const in *. cbn [length windows taus]. split; lia.
  - discriminate.
Qed.

(** A finished execution bounds every other one. *)
Lemma finished_bound : forall n1 n2 s0 tr1 s1 tr2 s2, good_start n1 s0 -> good_start n2 s0 ->
  run n1 s0 tr1 (Some s1) -> run n2 s0 tr2 (Some s2) -> g_window s2 = None ->
  is_prefix (windows tr1) (windows tr2) /\
  (forall h, (h < p_nhosts P)%nat -> is_prefix (effects h tr1) (effects h tr2)) /\
  (length tr1 <= length tr2)%nat.
Proof.
  intros n1 n2 s0 tr1 s1 tr2 s2 GS1 GS2 R1 R2 W2.
  destruct (run_counted _ _ _ _ GS1 R1) as [A1 B1]. destruct (run_counted _ _ _ _ GS2 R2) as [A2 B2].
  destruct (Nat.lt_trichotomy (length (windows tr1)) (length (windows tr2))) as [L|[L|L]].
  - destruct (fewer_windows _ _ _ _ _ _ _ GS1 GS2 R1 R2 L) as (_ & WW & EE). split; [exact WW|]. split; [exact EE|].
    assert (X : (sumn (fun h => length (effects h tr1)) (p_nhosts P) <= sumn (fun h => length (effects h tr2)) (p_nhosts P))%nat).
    { apply sumn_le. intros h LH. destruct (EE h LH) as [r ->]. rewrite app_length. lia. }
    assert (Y : (sumn (fun h => weight (g_status s1 h)) (p_nhosts P) <= 2 * p_nhosts P)%nat).
    { rewrite <- sumn_const. apply sumn_le. intros h LH. destruct (g_status s1 h); cbn; lia. }
    nia.
  - destruct (same_windows _ _ _ _ _ _ _ GS1 GS2 R1 R2 L) as (WW & _ & _ & F). destruct (F W2) as (EQ & RS1 & RS2 & EE).
    split; [rewrite WW; apply prefix_refl|]. split.
    + intros h LH. rewrite (EE h LH). apply prefix_refl.
    + rewrite (sumn_ext (fun h => length (effects h tr1)) (fun h => length (effects h tr2))) in A1 by (intros; now rewrite EE).
      rewrite (sumn_ext (fun h => weight (g_status s1 h)) (fun _ => 0%nat)) in B1 by (intros; now rewrite RS1).
      rewrite (sumn_ext (fun h => weight (g_status s2 h)) (fun _ => 0%nat)) in B2 by (intros; now rewrite RS2).
      rewrite L in *. lia.
  - exfalso. now destruct (fewer_windows _ _ _ _ _ _ _ GS2 GS1 R2 R1 L) as (N & _).
Qed.

(** A worker is never stuck: as long as the loop has not ended some step is possible. *)
Lemma progress : forall n s, GW n s -> (0 < n)%nat -> g_window s <> None -> exists s' l, step n s (Some (s', l)).
Proof.
  intros n s G N W. destruct (g_window s) as [[ws we]|] eqn:EW; [|congruence].
  assert (D : (exists h, (h < p_nhosts P)%nat /\ g_status s h <> RDone) \/ all_done s).
  { unfold all_done. clear. induction (p_nhosts P) as [|m IH]; [right; intros; lia|].
    destruct IH as [(h & L & X)|IH]; [left; exists h; split; [lia|auto]|].
    destruct (g_status s m) eqn:E; try (left; exists m; split; [lia|congruence]).
    right. intros h L. destruct (Nat.eq_dec h m) as [->|]; auto. apply IH. lia. }
  destruct D as [(h & L & X)|D].
  - assert (FIN : forall h0 w, g_status s h0 = RActive w \/ g_status s h0 = RReading w -> exists s' l, step n s (Some (s', l))).
    { intros h0 w [E|E].
      - destruct (host_step_global keqb teqb P CFG n s h0 w ws we G EW E) as (x & f & s' & HS & AE & _).
        exists s', (LHost h0 f). pose proof (St_host keqb teqb P n s h0 w ws we EW E) as ST.
        rewrite HS in ST. cbn [obind] in ST. rewrite AE in ST. exact ST.
      - eexists _, _. eapply St_finish; eauto. }
    destruct (g_status s h) as [|w|w|] eqn:E; [|eapply (FIN h); eauto..|congruence].
    assert (B : (exists h0, (h0 < p_nhosts P)%nat /\ (g_status s h0 = RActive 0 \/ g_status s h0 = RReading 0)) \/
                (forall h0, g_status s h0 <> RActive 0 /\ g_status s h0 <> RReading 0)).
    { assert (B : forall m, (exists h0, (h0 < m)%nat /\ (g_status s h0 = RActive 0 \/ g_status s h0 = RReading 0)) \/
                (forall h0, (h0 < m)%nat -> g_status s h0 <> RActive 0 /\ g_status s h0 <> RReading 0)).
      { induction m as [|m IH]; [right; intros; lia|]. destruct IH as [(h0 & L0 & X0)|IH]; [left; exists h0; split; [lia|auto]|].
        destruct (g_status s m) as [|[|w]|[|w]|] eqn:Em; try (left; exists m; split; [lia|auto]; fail);
          right; intros h0 L0; (destruct (Nat.eq_dec h0 m) as [->|]; [rewrite Em; split; discriminate|apply IH; lia]). }
      destruct (B (p_nhosts P)) as [|B']; [left; assumption|right].
      intros h0. destruct (Nat.lt_ge_cases h0 (p_nhosts P)) as [L0|L0]; [auto|].
      split; intros E0; pose proof (gw_dom _ _ _ G h0 ltac:(congruence)); lia. }
    destruct B as [(h0 & L0 & X0)|B]; [eapply FIN; eauto|].
    eexists _, _. eapply (St_start keqb teqb P n s h 0); eauto; apply B.
  - destruct (GW_round P CFG n s ws we G EW D) as (s' & ER & _).
    pose proof (St_round keqb teqb P n s ws we EW D) as ST. rewrite ER in ST. eauto.
Qed.

Lemma complete_run : forall n1 n2 s0 tr1 s1 tr2 s2, good_start n1 s0 -> good_start n2 s0 -> (0 < n1)%nat ->
  run n1 s0 tr1 (Some s1) -> run n2 s0 tr2 (Some s2) -> g_window s2 = None ->
  exists more s1', run n1 s0 (tr1 ++ more) (Some s1') /\ g_window s1' = None.
Proof.
  intros n1 n2 s0 tr1 s1 tr2 s2 GS1 GS2 N R1 R2 W2.
  remember (length tr2 - length tr1)%nat as k eqn:EK. revert tr1 s1 R1 EK.
  induction k as [|k IH]; intros tr1 s1 R1 EK.
  - destruct (run_GW keqb teqb P CFG _ _ _ _ (proj1 GS1) R1) as (x & E & G). injection E as <-.
    destruct (g_window s1) eqn:W; [|exists [], s1; rewrite app_nil_r; auto].
    exfalso. destruct (progress n1 s1 G N ltac:(congruence)) as (s' & l & ST).
    pose proof (run_step _ _ _ _ _ _ _ _ _ R1 ST) as R'.
    destruct (finished_bound _ _ _ _ _ _ _ GS1 GS2 R' R2 W2) as (_ & _ & L). rewrite app_length in L. cbn in L. lia.
  - destruct (run_GW keqb teqb P CFG _ _ _ _ (proj1 GS1) R1) as (x & E & G). injection E as <-.
    destruct (g_window s1) eqn:W; [|exists [], s1; rewrite app_nil_r; auto].
    destruct (progress n1 s1 G N ltac:(congruence)) as (s' & l & ST).
    pose proof (run_step _ _ _ _ _ _ _ _ _ R1 ST) as R'.
    destruct (IH (tr1 ++ [l]) s' R') as (more & s2' & R'' & W'').
    { rewrite app_length. cbn. lia. }
    exists (l :: more), s2'. rewrite <- app_assoc in R''. auto.
Qed.

Lemma init_good : forall n priv c boot dyn mp cfg ra, boot_ok P c boot -> 0 < mp ->
  ra_new dyn mp cfg = Some ra -> good_start n (init_state P priv c boot ra).
Proof.
  intros n priv c boot dyn mp cfg ra B M R. split; [eapply GW_init; eauto|]. split; [intros h; reflexivity|].
  intros D w c0. discriminate.
Qed.
End P.
