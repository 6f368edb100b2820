(** The congestion window: proofs for [RenoProps]. *)
From Verif Require Import Base RenoModel RenoSpec.

Lemma u32_small x : 0 <= x < 4294967296 -> u32 x = x.
Proof. apply Z.mod_small. Qed.

Lemma windows_snoc : forall k c0, windows c0 (S k) = windows c0 k + (c0 + Z.of_nat k).
Proof.
  induction k as [|k IH]; intros c0; [simpl; lia|].
  change (windows c0 (S (S k))) with (c0 + windows (c0 + 1) (S k)). rewrite IH.
  change (windows c0 (S k)) with (c0 + windows (c0 + 1) k). lia.
Qed.

Lemma windows_app : forall j k c0, windows c0 (j + k) = windows c0 j + windows (c0 + Z.of_nat j) k.
Proof.
  induction j as [|j IH]; intros k c0; [simpl; rewrite Z.add_0_r; reflexivity|].
  change (windows c0 (S j + k)) with (c0 + windows (c0 + 1) (j + k)). rewrite IH.
  change (windows c0 (S j)) with (c0 + windows (c0 + 1) j).
  replace (c0 + 1 + Z.of_nat j) with (c0 + Z.of_nat (S j)) by lia. lia.
Qed.

Lemma windows_pos k : forall c0, 0 <= c0 -> 0 <= windows c0 k.
Proof. induction k as [|k IH]; intros c0 H; simpl; [lia|]. specialize (IH (c0 + 1)). lia. Qed.

Lemma windows_grow k c0 : 1 <= c0 -> Z.of_nat k <= windows c0 k.
Proof.
  revert c0. induction k as [|k IH]; intros c0 H; [simpl; lia|].
  change (windows c0 (S k)) with (c0 + windows (c0 + 1) k). specialize (IH (c0 + 1)). lia.
Qed.

(** The window after [n] packets is determined. *)
Lemma one_per_window_fun c0 n c r c' r' :
  one_per_window c0 n c r -> one_per_window c0 n c' r' -> 1 <= c0 -> c = c' /\ r = r'.
Proof.
  intros (k & -> & E & R) (k' & -> & E' & R') H0.
  assert (Main : forall a b ra rb, (a < b)%nat -> windows c0 a + ra = windows c0 b + rb ->
            0 <= ra < c0 + Z.of_nat a -> 0 <= rb -> False).
  { intros a b ra rb L Eq Ra Rb. replace b with (S a + (b - S a))%nat in Eq by lia.
    rewrite windows_app, windows_snoc in Eq.
    pose proof (windows_pos (b - S a) (c0 + Z.of_nat (S a))). lia. }
  destruct (lt_eq_lt_dec k k') as [[L|L]|L].
  - exfalso. eapply (Main k k' r r'); eauto; lia.
  - subst k'. lia.
  - exfalso. eapply (Main k' k r' r); eauto; lia.
Qed.

Lemma one_per_window_trans c0 n c r m c' r' : 1 <= c0 ->
  one_per_window c0 n c r -> one_per_window c (r + m) c' r' -> one_per_window c0 (n + m) c' r'.
Proof.
  intros H0 (k & -> & E & R) (k' & -> & E' & R').
  exists (k + k')%nat. rewrite windows_app. split; [lia|]. split; lia.
Qed.

Lemma one_per_window_bound c0 n c r : 1 <= c0 -> one_per_window c0 n c r -> c0 <= c <= c0 + n.
Proof.
  intros H0 (k & -> & E & R). pose proof (windows_grow k c0 H0). lia.
Qed.

(** The loop does just that. *)
Lemma avoid_loop_law : forall fuel na cw, 1 <= cw -> 0 <= na -> na + cw < 4294967296 ->
  na <= Z.of_nat fuel ->
  exists na' cw', avoid_loop fuel na cw = Some (na', cw') /\ one_per_window cw na cw' na'.
Proof.
  induction fuel as [|fuel IH]; intros na cw Hc Hn Hb Hf; simpl.
  - replace (cw <=? na) with false by lia. exists na, cw. split; [reflexivity|].
    exists 0%nat. simpl. lia.
  - destruct (cw <=? na) eqn:E.
    + rewrite !u32_small by lia.
      destruct (IH (na - cw) (cw + 1)) as (na' & cw' & E' & k & Hk1 & Hk2 & Hk3); try lia.
      exists na', cw'. split; [exact E'|]. exists (S k).
      change (windows cw (S k)) with (cw + windows (cw + 1) k). lia.
    + exists na, cw. split; [reflexivity|]. exists 0%nat. simpl. lia.
Qed.

Lemma avoid_loop_stop fuel na cw : na < cw -> avoid_loop fuel na cw = Some (na, cw).
Proof. intros H. destruct fuel; simpl; replace (cw <=? na) with false by lia; reflexivity. Qed.

(** ** The invariant: [w] bounds the window *)
Record inv (w : Z) (s : reno) : Prop := Inv {
  i_cwnd : 1 <= cwnd s <= w;
  i_th : 1 <= ssthresh s < 4294967296;
  i_dups : 0 <= dups s;
  i_avoid : phase_of s = CongAvoid -> 0 <= nacked s < cwnd s;
  i_rec : phase_of s = FastRecovery -> ssthresh s <= cwnd s;
  i_before : phase_of s <> FastRecovery -> dups s <= 2
}.

Lemma avoid_ack_law w n s : inv w s -> phase_of s = CongAvoid -> 0 <= n ->
  w + n < 4294967296 ->
  exists s', avoid_ack n s = Some s' /\ inv (w + n) s'
    /\ phase_of s' = CongAvoid /\ ssthresh s' = ssthresh s /\ dups s' = dups s
    /\ one_per_window (cwnd s) (nacked s + n) (cwnd s') (nacked s').
Proof.
  intros [C T D A R B] P Hn Hw. specialize (A P). unfold avoid_ack. cbv zeta.
  assert (Hsum : nacked s + n < 4294967296) by lia.
  rewrite u32_small by lia.
  destruct (Z_le_gt_dec (cwnd s) (nacked s + n)) as [L|L].
  - (* one iteration by hand keeps the numbers small *)
    destruct (Z.to_nat (nacked s + n)) as [|f] eqn:Ef; [lia|]. cbn [avoid_loop].
    replace (cwnd s <=? nacked s + n) with true by lia.
    rewrite !u32_small by lia.
    destruct (avoid_loop_law f (nacked s + n - cwnd s) (cwnd s + 1))
      as (na' & cw' & -> & k & K1 & K2 & K3); try lia.
    ob. eexists. split; [reflexivity|]. simpl.
    assert (O : one_per_window (cwnd s) (nacked s + n) cw' na').
    { exists (S k). change (windows (cwnd s) (S k)) with (cwnd s + windows (cwnd s + 1) k). lia. }
    split; [|auto]. 
    assert (Hb : cw' <= w + n).
    { pose proof (windows_grow k (cwnd s + 1)). lia. }
    constructor; simpl; auto; try congruence; try lia.
  - rewrite avoid_loop_stop by lia. ob. eexists. split; [reflexivity|]. simpl. split.
    + constructor; simpl; auto; try congruence; try lia.
    + split; [exact P|]. split; [reflexivity|]. split; [reflexivity|]. exists 0%nat. simpl. lia.
Qed.

Lemma to_avoid_law w n s : inv w s -> phase_of s <> FastRecovery \/ dups s <= 2 ->
  0 <= n -> w + n < 4294967296 ->
  exists s', to_avoid n s = Some s' /\ inv (w + n) s'
    /\ phase_of s' = CongAvoid /\ ssthresh s' = ssthresh s /\ dups s' = dups s
    /\ one_per_window (cwnd s) n (cwnd s') (nacked s').
Proof.
  intros I Hd Hn Hw. unfold to_avoid.
  set (s0 := Reno (cwnd s) (ssthresh s) 0 (dups s) CongAvoid).
  assert (I0 : inv w s0).
  { destruct I as [C T D A R B]. constructor; simpl; auto; try congruence; try lia.
    intros _. destruct Hd as [Hd|Hd]; auto. }
  destruct (avoid_ack_law w n s0 I0 eq_refl Hn Hw) as (s' & E & I' & P' & T' & D' & O).
  exists s'. auto 10.
Qed.

Lemma start_ack_law w n s : inv w s -> phase_of s = SlowStart -> 0 <= n ->
  w + n < 4294967296 ->
  exists s', start_ack n s = Some s' /\ inv (w + n) s' /\ ssthresh s' = ssthresh s /\ dups s' = 0
    /\ (cwnd s + n < ssthresh s /\ phase_of s' = SlowStart /\ cwnd s' = cwnd s + n
        /\ nacked s' = nacked s
        \/ ssthresh s <= cwnd s + n /\ phase_of s' = CongAvoid
           /\ one_per_window (ssthresh s) (cwnd s + n - ssthresh s) (cwnd s') (nacked s')).
Proof.
  intros I P Hn Hw. pose proof I as [C T D A R B]. unfold start_ack. cbv zeta.
  rewrite u32_small by lia. destruct (ssthresh s <=? cwnd s + n) eqn:E.
  - rewrite u32_small by lia.
    set (s0 := Reno (ssthresh s) (ssthresh s) (nacked s) 0 (phase_of s)).
    assert (I0 : inv (ssthresh s) s0).
    { constructor; simpl; auto; try congruence; try lia. }
    destruct (to_avoid_law (ssthresh s) (cwnd s + n - ssthresh s) s0 I0) as (s' & E' & I' & P' & T' & D' & O);
      [right; simpl; lia|lia|lia|].
    exists s'. split; [exact E'|].
    split; [|split; [exact T'|]; split; [exact D'|]; right; split; [lia|auto]].
    destruct I' as [C' X1 X2 X3 X4 X5]. constructor; auto. lia.
  - eexists. split; [reflexivity|]. simpl. rewrite P. split.
    + constructor; simpl; auto; try congruence; lia.
    + split; [reflexivity|]. split; [reflexivity|]. left. split; [lia|auto].
Qed.

Lemma recovery_ack_law w n s : inv w s -> phase_of s = FastRecovery -> 0 <= n ->
  w + n < 4294967296 ->
  exists s', recovery_ack n s = Some s' /\ inv (w + n) s' /\ ssthresh s' = ssthresh s /\ dups s' = 0
    /\ phase_of s' = CongAvoid /\ one_per_window (ssthresh s) n (cwnd s') (nacked s').
Proof.
  intros I P Hn Hw. pose proof I as [C T D A R B]. specialize (R P). unfold recovery_ack.
  set (s0 := Reno (ssthresh s) (ssthresh s) (nacked s) 0 (phase_of s)).
  assert (I0 : inv w s0).
  { constructor; simpl; auto; try congruence; try lia. }
  destruct (to_avoid_law w n s0 I0 ltac:(right; simpl; lia) Hn Hw) as (s' & E' & I' & P' & T' & D' & O).
  exists s'. auto 10.
Qed.

Lemma halve_ok w s : inv w s -> w < 4294967296 ->
  halve s = cwnd s / 2 + 1 /\ 1 <= halve s <= w.
Proof.
  intros [C T D A R B] Hw. unfold halve.
  assert (0 <= cwnd s / 2 <= cwnd s / 1).
  { split; [apply Z.div_pos; lia|]. apply Z.div_le_compat_l; lia. }
  rewrite Z.div_1_r in H.
  assert (H2 : cwnd s / 2 < cwnd s) by (apply Z.div_lt; lia).
  rewrite u32_small by lia. lia.
Qed.

Lemma step_law w ev s : inv w s -> 10 <= w -> 0 <= weight ev -> w + weight ev < 4294967296 ->
  exists s', step ev s = Some s' /\ inv (w + weight ev) s'.
Proof.
  intros I H10 H0 Hw. destruct ev as [n| |]; simpl in *.
  - unfold new_ack. destruct (phase_of s) eqn:P.
    + destruct (start_ack_law w n s I P H0 Hw) as (s' & -> & I' & _). eauto.
    + destruct (recovery_ack_law w n s I P H0 Hw) as (s' & -> & I' & _). eauto.
    + destruct (avoid_ack_law w n s I P H0 Hw) as (s' & -> & I' & _). eauto.
  - eexists. split; [reflexivity|]. unfold dup_ack.
    pose proof (halve_ok w s I ltac:(lia)) as [_ Hh]. pose proof I as [C T D A R B].
    destruct (phase_of s) eqn:P; [destruct (dups s + 1 =? 3) eqn:E| |destruct (dups s + 1 =? 3) eqn:E];
      constructor; simpl; rewrite ?u32_small by lia; auto; try congruence; try lia.
    all: intros _; first [specialize (R eq_refl); lia | specialize (B ltac:(congruence)); lia].
  - eexists. split; [reflexivity|]. unfold timeout.
    pose proof (halve_ok w s I ltac:(lia)) as [_ Hh].
    constructor; simpl; auto; try congruence; lia.
Qed.

Lemma init_inv : inv 10 init.
Proof. constructor; simpl; try congruence; lia. Qed.

Lemma run_law : forall evs w s, inv w s -> 10 <= w -> Forall (fun ev => 0 <= weight ev) evs ->
  w + weights evs < 4294967296 ->
  exists s', run evs s = Some s' /\ inv (w + weights evs) s'.
Proof.
  induction evs as [|ev evs IH]; intros w s I H10 F Hw; unfold weights in *; simpl in *.
  - exists s. rewrite Z.add_0_r. auto.
  - inversion F as [|? ? F1 F2]; subst.
    assert (Hs : 0 <= zsum (map weight evs)).
    { clear -F2. induction F2; simpl; lia. }
    destruct (step_law w ev s I H10 F1 ltac:(lia)) as (s1 & -> & I1). ob.
    destruct (IH (w + weight ev) s1 I1 ltac:(lia) F2 ltac:(lia)) as (s2 & E & I2).
    exists s2. split; [exact E|]. rewrite Z.add_assoc. exact I2.
Qed.

Lemma reach_law evs : small evs ->
  exists s, run evs init = Some s /\ inv (10 + weights evs) s.
Proof. intros [F H]. apply run_law; [exact init_inv|lia|exact F|lia]. Qed.

Lemma bounds_law evs : small evs ->
  exists s, run evs init = Some s /\ 1 <= cwnd s <= 10 + weights evs.
Proof.
  intros H. destruct (reach_law evs H) as (s & E & I). exists s. split; [exact E|apply (i_cwnd _ _ I)].
Qed.

Lemma run_app : forall a b s s1, run a s = Some s1 -> run (a ++ b) s = run b s1.
Proof.
  induction a as [|ev a IH]; intros b s s1 E; simpl in *; [injection E as ->; reflexivity|].
  destruct (step ev s) as [s0|]; ob_in E; [|discriminate]. ob. apply IH, E.
Qed.

Lemma weights_app a b : weights (a ++ b) = weights a + weights b.
Proof. unfold weights. induction a as [|x a IH]; simpl; lia. Qed.

Lemma small_app a b : small (a ++ b) -> small a /\ Forall (fun ev => 0 <= weight ev) b
  /\ 10 + weights a + weights b < 4294967296 /\ 0 <= weights b /\ 0 <= weights a.
Proof.
  assert (Pos : forall l, Forall (fun ev => 0 <= weight ev) l -> 0 <= weights l).
  { intros l F. unfold weights. induction F; simpl; lia. }
  intros [F H]. apply Forall_app in F as [F1 F2]. rewrite weights_app in H.
  pose proof (Pos _ F1). pose proof (Pos _ F2).
  unfold small. split; [split; [assumption|lia]|]. split; [assumption|]. lia.
Qed.

(** Acknowledging at once or in parts makes no difference. *)
Lemma reno_eq s s' : cwnd s = cwnd s' -> ssthresh s = ssthresh s' -> nacked s = nacked s' ->
  dups s = dups s' -> phase_of s = phase_of s' -> s = s'.
Proof. destruct s, s'; simpl. intros; subst; reflexivity. Qed.

Lemma batching_inv w s a b : inv w s -> 0 <= a -> 0 <= b -> w + (a + b) < 4294967296 ->
  exists s', run [Acked a; Acked b] s = Some s' /\ run [Acked (a + b)] s = Some s'.
Proof.
  intros I Ha Hb Hw. pose proof I as [C T D A R B]. simpl. unfold new_ack at 1 3.
  destruct (phase_of s) eqn:P.
  - destruct (start_ack_law w a s I P Ha ltac:(lia)) as (s1 & -> & I1 & T1 & D1 & H1).
    destruct (start_ack_law w (a + b) s I P ltac:(lia) Hw) as (s2 & -> & I2 & T2 & D2 & H2).
    ob. exists s2. split; [|reflexivity]. unfold new_ack.
    destruct H1 as [(L1 & P1 & C1 & N1)|(L1 & P1 & O1)]; rewrite P1.
    + destruct (start_ack_law _ b s1 I1 P1 Hb ltac:(lia)) as (s3 & -> & I3 & T3 & D3 & H3). ob.
      f_equal. rewrite C1, T1 in H3.
      destruct H2 as [(L2 & P2 & C2 & N2)|(L2 & P2 & O2)];
        destruct H3 as [(L3 & P3 & C3 & N3)|(L3 & P3 & O3)]; try lia.
      * apply reno_eq; congruence || lia.
      * replace (cwnd s + a + b - ssthresh s) with (cwnd s + (a + b) - ssthresh s) in O3 by lia.
        destruct (one_per_window_fun _ _ _ _ _ _ O2 O3 ltac:(lia)).
        apply reno_eq; congruence.
    + destruct (avoid_ack_law _ b s1 I1 P1 Hb ltac:(lia)) as (s3 & -> & I3 & P3 & T3 & D3 & O3). ob.
      f_equal. destruct H2 as [(L2 & P2 & C2 & N2)|(L2 & P2 & O2)]; [lia|].
      assert (O4 : one_per_window (ssthresh s) (cwnd s + (a + b) - ssthresh s) (cwnd s3) (nacked s3)).
      { replace (cwnd s + (a + b) - ssthresh s) with (cwnd s + a - ssthresh s + b) by lia.
        eapply one_per_window_trans; [lia|exact O1|exact O3]. }
      destruct (one_per_window_fun _ _ _ _ _ _ O2 O4 ltac:(lia)). apply reno_eq; congruence.
  - destruct (recovery_ack_law w a s I P Ha ltac:(lia)) as (s1 & -> & I1 & T1 & D1 & P1 & O1).
    destruct (recovery_ack_law w (a + b) s I P ltac:(lia) Hw) as (s2 & -> & I2 & T2 & D2 & P2 & O2).
    ob. exists s2. split; [|reflexivity]. unfold new_ack. rewrite P1.
    destruct (avoid_ack_law _ b s1 I1 P1 Hb ltac:(lia)) as (s3 & -> & I3 & P3 & T3 & D3 & O3). ob.
    f_equal.
    assert (O4 : one_per_window (ssthresh s) (a + b) (cwnd s3) (nacked s3)).
    { eapply one_per_window_trans; [lia|exact O1|exact O3]. }
    destruct (one_per_window_fun _ _ _ _ _ _ O2 O4 ltac:(lia)). apply reno_eq; congruence.
  - destruct (avoid_ack_law w a s I P Ha ltac:(lia)) as (s1 & -> & I1 & P1 & T1 & D1 & O1).
    destruct (avoid_ack_law w (a + b) s I P ltac:(lia) Hw) as (s2 & -> & I2 & P2 & T2 & D2 & O2).
    ob. exists s2. split; [|reflexivity]. unfold new_ack. rewrite P1.
    destruct (avoid_ack_law _ b s1 I1 P1 Hb ltac:(lia)) as (s3 & -> & I3 & P3 & T3 & D3 & O3). ob.
    f_equal.
    assert (O4 : one_per_window (cwnd s) (nacked s + (a + b)) (cwnd s3) (nacked s3)).
    { rewrite Z.add_assoc. eapply one_per_window_trans; [lia|exact O1|exact O3]. }
    destruct (one_per_window_fun _ _ _ _ _ _ O2 O4 ltac:(lia)). apply reno_eq; congruence.
Qed.

Lemma batching_law evs a b : 0 <= a -> 0 <= b -> small (evs ++ [Acked (a + b)]) ->
  exists s, run (evs ++ [Acked a; Acked b]) init = Some s
            /\ run (evs ++ [Acked (a + b)]) init = Some s.
Proof.
  intros Ha Hb H. apply small_app in H as (S1 & _ & Hw & _).
  destruct (reach_law evs S1) as (s & E & I). rewrite !(run_app _ _ _ _ E).
  apply (batching_inv _ _ _ _ I); auto. unfold weights in Hw at 2. simpl in Hw. lia.
Qed.

(** Growth in the two regimes. *)
Lemma acked_weights ns : weights (acked ns) = zsum ns.
Proof. unfold weights, acked. induction ns as [|n ns IH]; simpl in *; lia. Qed.

Lemma acked_nonneg ns : Forall (fun ev => 0 <= weight ev) (acked ns) -> Forall (Z.le 0) ns.
Proof.
  unfold acked. induction ns as [|n ns IH]; intros F; simpl in *; [constructor|].
  inversion F; subst. constructor; auto.
Qed.

Lemma avoid_run : forall ns w s, inv w s -> phase_of s = CongAvoid -> Forall (Z.le 0) ns ->
  w + zsum ns < 4294967296 ->
  exists s', run (acked ns) s = Some s' /\ phase_of s' = CongAvoid
    /\ one_per_window (cwnd s) (nacked s + zsum ns) (cwnd s') (nacked s').
Proof.
  induction ns as [|n ns IH]; intros w s I P F Hw; simpl in *.
  - exists s. split; [reflexivity|]. split; [exact P|]. exists 0%nat.
    pose proof (i_avoid _ _ I P). simpl. lia.
  - inversion F as [|? ? F1 F2]; subst.
    assert (0 <= zsum ns) by (clear -F2; induction F2; simpl; lia).
    unfold new_ack. rewrite P.
    destruct (avoid_ack_law w n s I P F1 ltac:(lia)) as (s1 & -> & I1 & P1 & T1 & D1 & O1). ob.
    destruct (IH _ s1 I1 P1 F2 ltac:(lia)) as (s2 & E & P2 & O2).
    exists s2. split; [exact E|]. split; [exact P2|]. rewrite Z.add_assoc.
    eapply one_per_window_trans; [pose proof (i_cwnd _ _ I); lia|exact O1|exact O2].
Qed.

Lemma avoid_growth_law evs ns s : small (evs ++ acked ns) -> run evs init = Some s ->
  phase_of s = CongAvoid ->
  exists s' r0, run (evs ++ acked ns) init = Some s' /\ phase_of s' = CongAvoid
    /\ 0 <= r0 < cwnd s
    /\ exists r, one_per_window (cwnd s) (r0 + zsum ns) (cwnd s') r.
Proof.
  intros H E P. apply small_app in H as (S1 & F & Hw & _).
  destruct (reach_law evs S1) as (s0 & E0 & I). rewrite E in E0. injection E0 as <-.
  rewrite (run_app _ _ _ _ E). rewrite acked_weights in Hw.
  destruct (avoid_run ns _ s I P (acked_nonneg _ F) Hw) as (s' & E' & P' & O).
  exists s', (nacked s). split; [exact E'|]. split; [exact P'|].
  split; [apply (i_avoid _ _ I P)|eauto].
Qed.

Lemma start_run : forall ns w s, inv w s -> phase_of s = SlowStart -> Forall (Z.le 0) ns ->
  w + zsum ns < 4294967296 -> cwnd s + zsum ns < ssthresh s ->
  exists s', run (acked ns) s = Some s' /\ phase_of s' = SlowStart
    /\ cwnd s' = cwnd s + zsum ns /\ ssthresh s' = ssthresh s.
Proof.
  induction ns as [|n ns IH]; intros w s I P F Hw Ht; simpl in *.
  - exists s. split; [reflexivity|]. split; [exact P|]. split; [lia|reflexivity].
  - inversion F as [|? ? F1 F2]; subst.
    assert (0 <= zsum ns) by (clear -F2; induction F2; simpl; lia).
    unfold new_ack. rewrite P.
    destruct (start_ack_law w n s I P F1 ltac:(lia)) as (s1 & -> & I1 & T1 & D1 & H1). ob.
    destruct H1 as [(L1 & P1 & C1 & _)|(L1 & _)]; [|lia].
    destruct (IH _ s1 I1 P1 F2 ltac:(lia) ltac:(lia)) as (s2 & E & P2 & C2 & T2).
    exists s2. split; [exact E|]. split; [exact P2|]. split; [lia|congruence].
Qed.

Lemma start_growth_law evs ns s : small (evs ++ acked ns) -> run evs init = Some s ->
  phase_of s = SlowStart -> cwnd s + zsum ns < ssthresh s ->
  exists s', run (evs ++ acked ns) init = Some s' /\ phase_of s' = SlowStart
    /\ cwnd s' = cwnd s + zsum ns.
Proof.
  intros H E P Ht. apply small_app in H as (S1 & F & Hw & _).
  destruct (reach_law evs S1) as (s0 & E0 & I). rewrite E in E0. injection E0 as <-.
  rewrite (run_app _ _ _ _ E). rewrite acked_weights in Hw.
  destruct (start_run ns _ s I P (acked_nonneg _ F) Hw Ht) as (s' & E' & P' & C' & _).
  eauto.
Qed.

(** Fast recovery. *)
Lemma recovery_dups : forall k w s, inv w s -> phase_of s = FastRecovery ->
  w + 4 * Z.of_nat k < 4294967296 ->
  exists s', run (repeat Dup k) s = Some s' /\ inv (w + 4 * Z.of_nat k) s'
    /\ phase_of s' = FastRecovery /\ cwnd s' = cwnd s + Z.of_nat k /\ ssthresh s' = ssthresh s.
Proof.
  induction k as [|k IH]; intros w s I P Hw; simpl.
  - exists s. split; [reflexivity|]. rewrite Z.add_0_r. split; [exact I|].
    split; [exact P|]. split; [lia|reflexivity].
  - ob. assert (I1 : inv (w + 4) (dup_ack s)).
    { pose proof I as [C T D A R B]. specialize (R P). unfold dup_ack. rewrite P.
      constructor; simpl; rewrite ?u32_small by lia; auto; try congruence; lia. }
    assert (H1 : phase_of (dup_ack s) = FastRecovery /\ cwnd (dup_ack s) = cwnd s + 1
                 /\ ssthresh (dup_ack s) = ssthresh s).
    { unfold dup_ack. rewrite P. simpl. rewrite u32_small; [auto|].
      pose proof (i_cwnd _ _ I). lia. }
    destruct H1 as (P1 & C1 & T1).
    destruct (IH (w + 4) _ I1 P1 ltac:(lia)) as (s' & E & I' & P' & C' & T').
    exists s'. split; [exact E|].
    split; [replace (w + 4 * Z.of_nat (S k)) with (w + 4 + 4 * Z.of_nat k) by lia; exact I'|].
    split; [exact P'|]. split; [lia|congruence].
Qed.

Lemma repeat_weights k : weights (repeat Dup k) = 4 * Z.of_nat k.
Proof. unfold weights. induction k as [|k IH]; simpl in *; lia. Qed.

Lemma recovery_law evs s k n :
  small (evs ++ [Dup; Dup; Dup] ++ repeat Dup k ++ [Acked n]) ->
  run evs init = Some s -> phase_of s <> FastRecovery -> dups s = 0 ->
  exists s1 s2, run (evs ++ [Dup; Dup; Dup] ++ repeat Dup k) init = Some s1
    /\ cwnd s1 = cwnd s / 2 + 4 + Z.of_nat k
    /\ run (evs ++ [Dup; Dup; Dup] ++ repeat Dup k ++ [Acked n]) init = Some s2
    /\ exists r, one_per_window (cwnd s / 2 + 1) n (cwnd s2) r.
Proof.
  intros H E P D0. apply small_app in H as (S1 & F & Hw & _).
  destruct (reach_law evs S1) as (s0 & E0 & I). rewrite E in E0. injection E0 as <-.
  rewrite !(run_app _ _ _ _ E). rewrite !weights_app, repeat_weights in Hw.
  change (weights [Dup; Dup; Dup]) with 12 in Hw.
  assert (Hn : 0 <= n).
  { rewrite !Forall_app in F. destruct F as (_ & _ & F). inversion F. assumption. }
  replace (weights [Acked n]) with n in Hw by (unfold weights; simpl; lia).
  pose proof (weights_app [] evs) as _.
  destruct (halve_ok _ _ I ltac:(lia)) as [Hh Hh2].
  set (s3 := Reno (halve s + 3) (halve s) (nacked s) 3 FastRecovery).
  assert (E3 : run [Dup; Dup; Dup] s = Some s3).
  { simpl. ob. unfold dup_ack. destruct s as [c t na d p]. simpl in *. subst d. unfold s3.
    destruct p; try congruence; simpl; unfold halve in *; simpl in *;
      rewrite (u32_small (u32 (c / 2 + 1) + 3)) by lia; reflexivity. }
  rewrite !(run_app _ _ _ _ E3).
  assert (I3 : inv (10 + weights evs + 12) s3).
  { constructor; simpl; try congruence; lia. }
  destruct (recovery_dups k _ s3 I3 eq_refl ltac:(lia)) as (s4 & E4 & I4 & P4 & C4 & T4).
  rewrite (run_app _ _ _ _ E4). exists s4.
  destruct (recovery_ack_law _ n s4 I4 P4 Hn ltac:(lia)) as (s5 & E5 & I5 & T5 & D5 & P5 & O5).
  exists s5. split; [exact E4|]. split; [rewrite C4; simpl; lia|].
  split; [simpl; unfold new_ack; rewrite P4, E5; reflexivity|].
  exists (nacked s5). rewrite T4 in O5. simpl in O5. rewrite Hh in O5. exact O5.
Qed.

(** Slow start, across the threshold. *)
Lemma start_cross : forall ns w s, inv w s -> phase_of s = SlowStart -> Forall (Z.le 0) ns ->
  w + zsum ns < 4294967296 -> ns <> [] -> ssthresh s <= cwnd s + zsum ns ->
  exists s' r, run (acked ns) s = Some s' /\ phase_of s' = CongAvoid
    /\ one_per_window (ssthresh s) (cwnd s + zsum ns - ssthresh s) (cwnd s') r.
Proof.
  induction ns as [|n ns IH]; intros w s I P F Hw Hne Ht; [congruence|]. clear Hne. simpl in *.
  inversion F as [|? ? F1 F2]; subst.
  assert (0 <= zsum ns) by (clear -F2; induction F2; simpl; lia).
  unfold new_ack. rewrite P.
  destruct (start_ack_law w n s I P F1 ltac:(lia)) as (s1 & -> & I1 & T1 & D1 & H1). ob.
  destruct H1 as [(L1 & P1 & C1 & _)|(L1 & P1 & O1)].
  - assert (Hne : ns <> []) by (intros ->; simpl in *; lia).
    destruct (IH _ s1 I1 P1 F2 ltac:(lia) Hne ltac:(lia)) as (s2 & r & E & P2 & O2).
    exists s2, r. split; [exact E|]. split; [exact P2|]. rewrite T1, C1 in O2.
    rewrite Z.add_assoc. exact O2.
  - destruct (avoid_run ns _ s1 I1 P1 F2 ltac:(lia)) as (s2 & E & P2 & O2).
    exists s2, (nacked s2). split; [exact E|]. split; [exact P2|].
    replace (cwnd s + (n + zsum ns) - ssthresh s) with (cwnd s + n - ssthresh s + zsum ns) by lia.
    eapply one_per_window_trans; [pose proof (i_th _ _ I); lia|exact O1|exact O2].
Qed.

Lemma start_cross_law evs ns s : small (evs ++ acked ns) -> run evs init = Some s ->
  phase_of s = SlowStart -> ns <> [] -> ssthresh s <= cwnd s + zsum ns ->
  exists s' r, run (evs ++ acked ns) init = Some s' /\ phase_of s' = CongAvoid
    /\ one_per_window (ssthresh s) (cwnd s + zsum ns - ssthresh s) (cwnd s') r.
Proof.
  intros H E P Hne Ht. apply small_app in H as (S1 & F & Hw & _).
  destruct (reach_law evs S1) as (s0 & E0 & I). rewrite E in E0. injection E0 as <-.
  rewrite (run_app _ _ _ _ E). rewrite acked_weights in Hw.
  exact (start_cross ns _ s I P (acked_nonneg _ F) Hw Hne Ht).
Qed.

(** After a timeout. *)
Lemma timeout_law evs ns s : small (evs ++ [Timeout] ++ acked ns) -> run evs init = Some s ->
  exists s', run (evs ++ [Timeout] ++ acked ns) init = Some s'
    /\ (10 + zsum ns < cwnd s / 2 + 1 -> cwnd s' = 10 + zsum ns)
    /\ (ns <> [] -> cwnd s / 2 + 1 <= 10 + zsum ns ->
        exists r, one_per_window (cwnd s / 2 + 1) (10 + zsum ns - (cwnd s / 2 + 1)) (cwnd s') r).
Proof.
  intros H E. pose proof H as H0. apply small_app in H as (S1 & F & Hw & _).
  destruct (reach_law evs S1) as (s0 & E0 & I). rewrite E in E0. injection E0 as <-.
  rewrite weights_app, acked_weights in Hw.
  destruct (halve_ok _ _ I ltac:(apply small_app in H0; lia)) as [Hh Hh2].
  assert (E1 : run (evs ++ [Timeout]) init = Some (timeout s)).
  { rewrite (run_app _ _ _ _ E). reflexivity. }
  rewrite app_assoc in *.
  change (weights [Timeout]) with 0 in Hw.
  destruct (Z_lt_ge_dec (10 + zsum ns) (cwnd s / 2 + 1)) as [L|L].
  - destruct (start_growth_law (evs ++ [Timeout]) ns _ H0 E1 eq_refl) as (s' & E' & P' & C').
    { simpl. rewrite Hh. exact L. }
    exists s'. split; [exact E'|]. split; [intros _; exact C'|]. intros. lia.
  - destruct ns as [|n ns].
    + exists (timeout s). simpl. rewrite app_nil_r. split; [exact E1|]. simpl in L.
      split; [intros; lia|congruence].
    + destruct (start_cross_law (evs ++ [Timeout]) (n :: ns) _ H0 E1 eq_refl ltac:(congruence))
        as (s' & r & E' & P' & O').
      { simpl in *. rewrite Hh. lia. }
      exists s'. split; [exact E'|]. split; [intros; lia|]. intros _ _. exists r.
      simpl in O'. rewrite Hh in O'. exact O'.
Qed.

(** New acknowledgements do not count as duplicates. *)
Lemma acked_keeps : forall ns w s, inv w s -> Forall (Z.le 0) ns -> w + zsum ns < 4294967296 ->
  phase_of s <> FastRecovery -> dups s = 0 ->
  exists s', run (acked ns) s = Some s' /\ phase_of s' <> FastRecovery /\ dups s' = 0.
Proof.
  induction ns as [|n ns IH]; intros w s I F Hw P D; simpl in *; [eauto|].
  inversion F as [|? ? F1 F2]; subst.
  assert (0 <= zsum ns) by (clear -F2; induction F2; simpl; lia).
  unfold new_ack. destruct (phase_of s) eqn:Ps; [|congruence|].
  - destruct (start_ack_law w n s I Ps F1 ltac:(lia)) as (s1 & -> & I1 & T1 & D1 & H1). ob.
    apply (IH (w + n)); auto; [lia|]. destruct H1 as [(_ & -> & _)|(_ & -> & _)]; congruence.
  - destruct (avoid_ack_law w n s I Ps F1 ltac:(lia)) as (s1 & -> & I1 & P1 & T1 & D1 & O1). ob.
    apply (IH (w + n)); auto; [lia|congruence|congruence].
Qed.

Lemma no_dups_law evs : small evs -> no_dups evs ->
  exists s, run evs init = Some s /\ phase_of s <> FastRecovery /\ dups s = 0.
Proof.
  intros H [(ns & ->)|[(bf & ns & ->)|(bf & s & n & ns & -> & E & P)]].
  - destruct H as [F H]. rewrite acked_weights in H.
    apply (acked_keeps ns 10); [exact init_inv|exact (acked_nonneg _ F)|lia|discriminate|reflexivity].
  - rewrite app_assoc in *. apply small_app in H as (S1 & F & Hw & _).
    rewrite acked_weights in Hw.
    destruct (reach_law _ S1) as (s1 & E1 & I1). rewrite (run_app _ _ _ _ E1).
    assert (s1 = s1 /\ phase_of s1 = SlowStart /\ dups s1 = 0) as (_ & P1 & D1).
    { apply small_app in S1 as (S0 & _). destruct (reach_law _ S0) as (s0 & E0 & _).
      rewrite (run_app _ _ _ _ E0) in E1. injection E1 as <-. auto. }
    apply (acked_keeps ns _ s1 I1 (acked_nonneg _ F) Hw); congruence.
  - rewrite app_assoc in *. apply small_app in H as (S1 & F & Hw & _).
    rewrite acked_weights in Hw.
    destruct (reach_law _ S1) as (s1 & E1 & I1). rewrite (run_app _ _ _ _ E1).
    assert (phase_of s1 <> FastRecovery /\ dups s1 = 0) as (P1 & D1).
    { apply small_app in S1 as (S0 & F0 & Hw0 & _). destruct (reach_law _ S0) as (s0 & E0 & I0).
      rewrite E in E0. injection E0 as <-. rewrite (run_app _ _ _ _ E) in E1.
      inversion F0 as [|? ? Fn _]; subst. unfold weights in Hw0 at 2. simpl in Fn, Hw0, E1. unfold new_ack in E1.
      destruct (phase_of s) eqn:Ps; [| |congruence].
      - destruct (start_ack_law _ n s I0 Ps Fn ltac:(lia)) as (s2 & E2 & _ & _ & D2 & H2).
        rewrite E2 in E1. ob_in E1. injection E1 as <-. split; [|exact D2].
        destruct H2 as [(_ & -> & _)|(_ & -> & _)]; congruence.
      - destruct (recovery_ack_law _ n s I0 Ps Fn ltac:(lia)) as (s2 & E2 & _ & _ & D2 & P2 & _).
        rewrite E2 in E1. ob_in E1. injection E1 as <-. split; [congruence|exact D2]. }
    apply (acked_keeps ns _ s1 I1 (acked_nonneg _ F) Hw); assumption.
Qed.

Lemma three_dups_law evs k n :
  small (evs ++ [Dup; Dup; Dup] ++ repeat Dup k ++ [Acked n]) -> no_dups evs ->
  exists s s1 s2, run evs init = Some s
    /\ option_map cwnd (run (evs ++ [Dup]) init) = Some (cwnd s)
    /\ option_map cwnd (run (evs ++ [Dup; Dup]) init) = Some (cwnd s)
    /\ run (evs ++ [Dup; Dup; Dup] ++ repeat Dup k) init = Some s1
    /\ cwnd s1 = cwnd s / 2 + 4 + Z.of_nat k
    /\ run (evs ++ [Dup; Dup; Dup] ++ repeat Dup k ++ [Acked n]) init = Some s2
    /\ exists r, one_per_window (cwnd s / 2 + 1) n (cwnd s2) r.
Proof.
  intros H N. destruct (no_dups_law evs (proj1 (small_app _ _ H)) N) as (s & E & P & D).
  destruct (recovery_law evs s k n H E P D) as (s1 & s2 & E1 & C1 & E2 & O).
  exists s, s1, s2. split; [exact E|]. rewrite (run_app _ [Dup] _ _ E), (run_app _ [Dup; Dup] _ _ E).
  split; [|split; [|auto 10]]; simpl; ob; destruct s as [c t na d p]; simpl in *; subst d;
    unfold dup_ack; simpl; destruct p; try congruence; reflexivity.
Qed.

(** Two duplicates do not change how packets count: with new acknowledgements
    in between nothing else is different. *)
Lemma two_dups_law evs m ns :
  (m <= 2)%nat -> small (evs ++ repeat Dup m ++ acked ns) -> no_dups evs ->
  option_map cwnd (run (evs ++ repeat Dup m ++ acked ns) init)
  = option_map cwnd (run (evs ++ acked ns) init).
Proof.
  intros Hm H N. pose proof H as H0. apply small_app in H0 as (S1 & F & Hw & _).
  rewrite weights_app, repeat_weights, acked_weights in Hw.
  apply Forall_app in F as [_ F]. apply acked_nonneg in F.
  destruct (no_dups_law evs S1 N) as (s & E & P & D).
  destruct (reach_law evs S1) as (s0 & E0 & I). rewrite E in E0. injection E0 as <-.
  rewrite !(run_app _ _ _ _ E).
  assert (E1 : run (repeat Dup m) s = Some (Reno (cwnd s) (ssthresh s) (nacked s) (Z.of_nat m) (phase_of s))).
  { destruct s as [c t na d p]. simpl in *. subst d.
    destruct m as [|[|[|m]]]; [| | |lia]; simpl; ob; unfold dup_ack; simpl;
      destruct p; try congruence; reflexivity. }
  rewrite (run_app _ _ _ _ E1). clear E1 E H N S1 D.
  set (w := 10 + weights evs) in *. clearbody w. generalize (Z.of_nat m). revert w s I P Hw F.
  intros w s I P Hw F. assert (Hw' : w + zsum ns < 4294967296) by lia. clear Hw Hm m evs.
  revert w s I P F Hw'. induction ns as [|x ns IH]; intros w s I P F Hw d; [reflexivity|].
  inversion F as [|? ? F1 F2]; subst. simpl in Hw.
  assert (0 <= zsum ns) by (clear -F2; induction F2; simpl; lia).
  simpl. unfold new_ack. simpl. destruct (phase_of s) eqn:Ps; [|congruence|].
  - replace (start_ack x (Reno (cwnd s) (ssthresh s) (nacked s) d SlowStart)) with (start_ack x s);
      [reflexivity|]. unfold start_ack. simpl. rewrite Ps. reflexivity.
  - destruct (avoid_ack_law w x s I Ps F1 ltac:(lia)) as (s1 & E1 & I1 & P1 & T1 & D1 & O1).
    rewrite E1. unfold avoid_ack in *. simpl.
    destruct (avoid_loop _ _ _) as [[na cw]|]; [|discriminate]. ob_in E1. ob.
    injection E1 as <-. rewrite Ps. simpl in *.
    specialize (IH (w + x) _ I1 ltac:(simpl; congruence) F2 ltac:(lia) d). simpl in IH. rewrite Ps in IH. exact IH.
Qed.
