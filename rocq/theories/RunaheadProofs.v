(** Proofs about the runahead policy under concurrent reports. *)
From Verif Require Import Base RunaheadModel RunaheadSpec.

Lemma upd_same {A} (f : nat -> A) i a : upd f i a i = a.
Proof. unfold upd. now rewrite Nat.eqb_refl. Qed.
Lemma upd_other {A} (f : nat -> A) i a j : j <> i -> upd f i a j = f j.
Proof. unfold upd. intros. destruct (Nat.eqb_spec j i); congruence. Qed.

Lemma least_spec : forall l d, (forall x, In x l -> least d l <= x) /\ least d l <= d /\
  (least d l = d \/ In (least d l) l).
Proof.
  induction l as [|x l IH]; intros d; cbn.
  - repeat split; auto; [tauto|lia].
  - destruct (IH (Z.min d x)) as (A & B & C). repeat split.
    + intros y [<-|I]; [lia|auto].
    + lia.
    + destruct C as [C|C]; [|auto]. destruct (Z.min_spec d x) as [[? E]|[? E]]; rewrite E in *; auto.
Qed.

Lemma smallest_spec : forall d l m, l <> [] -> In m l -> (forall x, In x l -> m <= x) ->
  smallest_or d l = m.
Proof.
  intros d [|y l] m N I LE; [congruence|]. cbn.
  destruct (least_spec l y) as (A & B & C).
  assert (m <= least y l). { destruct C as [->|C]; [apply LE; now left|apply LE; now right]. }
  assert (least y l <= m). { destruct I as [->|I]; auto. }
  lia.
Qed.

(** [lat] is accounted for: stored, or being carried to the lock by some worker. *)
Definition covered (s : rworld) (lat : Z) : Prop :=
  (exists m, ra_min_used (rw_ra s) = Some m /\ m <= lat) \/
  (exists w l b, rw_pc s w = Some (l, b) /\ l <= lat).

Record RInv (dyn : bool) (mp : Z) (cfg : option Z) (s : rworld) (l : list Z) : Prop := {
  ri_dyn : ra_dynamic (rw_ra s) = dyn;
  ri_mp : ra_min_possible (rw_ra s) = mp;
  ri_cfg : ra_config (rw_ra s) = cfg;
  ri_used : forall m, ra_min_used (rw_ra s) = Some m -> In m l;
  ri_pc : forall w x b, rw_pc s w = Some (x, b) -> In x l;
  ri_pcs : forall w x, rw_pc s w = Some (x, true) -> dyn = true;
  ri_cache : forall w c, rw_cache s w = Some c -> In c l;
  ri_cov : dyn = true -> forall x, In x l -> covered s x;
  ri_static : dyn = false -> ra_min_used (rw_ra s) = None;
}.

Definition init_world (r : runahead) : rworld := mkRw r (fun _ => None) (fun _ => None).

Lemma rinv_init : forall dyn mp cfg r, ra_new dyn mp cfg = Some r -> RInv dyn mp cfg (init_world r) [].
Proof.
  intros dyn mp cfg r H. unfold ra_new, assert_then in H.
  destruct (negb (mp =? 0)); [|discriminate]. injection H as <-.
  constructor; cbn; auto; try discriminate; tauto.
Qed.

Lemma should_update_false : forall m lat, ra_should_update m lat = false ->
  exists x, m = Some x /\ x <= lat.
Proof. intros [m|] lat; cbn; [|discriminate]. intros. exists m. split; auto. lia. Qed.

Lemma covered_mono_report : forall s lat c pc' x,
  (forall w l b, rw_pc s w = Some (l, b) -> exists b', pc' w = Some (l, b')) ->
  covered s x -> covered (mkRw (rw_ra s) (upd (rw_cache s) lat c) pc') x.
Proof.
  intros s lat c pc' x M [C|(w & l & b & E & L)]; [left; exact C|right].
  destruct (M _ _ _ E) as (b' & E'). now exists w, l, b'.
Qed.

Lemma rinv_step : forall dyn mp cfg s l ev s', RInv dyn mp cfg s l -> rstep s ev (Some s') ->
  RInv dyn mp cfg s' (match ev with Some (_, lat) => l ++ [lat] | None => l end).
Proof.
  intros dyn mp cfg s l ev s' I H.
  remember (Some s') as o eqn:EO. destruct H as [s w lat PC|s w lat PC|s w lat PC].
  - (* report *)
    unfold cache_update, assert_then in EO. destruct (negb (lat =? 0)); [|discriminate]. ob_in EO.
    destruct (match rw_cache s w with Some m => if lat <? m then (Some lat, true) else (rw_cache s w, false)
                     | None => (Some lat, true) end) as [c go] eqn:CU.
    ob_in EO. injection EO as <-.
    assert (CIN : forall x, c = Some x -> In x (l ++ [lat])).
    { intros x ->. apply in_app_iff. destruct (rw_cache s w) as [m|] eqn:CW.
      - destruct (lat <? m); injection CU as <- <-; [right; now left|left]. eapply ri_cache; eauto.
      - injection CU as <- <-. right; now left. }
    assert (PCI : forall w' x b, (if go then upd (rw_pc s) w (Some (lat, false)) else rw_pc s) w' = Some (x, b) ->
              rw_pc s w' = Some (x, b) \/ (x = lat /\ b = false)).
    { intros w' x b. destruct go; auto. destruct (Nat.eq_dec w' w) as [->|N].
      - rewrite upd_same. intros E. right. now injection E as <- <-.
      - rewrite upd_other by auto. auto. }
    constructor; cbn [rw_ra rw_cache rw_pc].
    + apply (ri_dyn _ _ _ _ _ I).
    + apply (ri_mp _ _ _ _ _ I).
    + apply (ri_cfg _ _ _ _ _ I).
    + intros m E. apply in_app_iff. left. eapply ri_used; eauto.
    + intros w' x b E. apply in_app_iff. destruct (PCI _ _ _ E) as [E'|[-> _]]; [left|right; now left].
      eapply ri_pc; eauto.
    + intros w' x E. destruct (PCI _ _ _ E) as [E'|[_ E']]; [eapply ri_pcs; eauto|discriminate].
    + intros w' x. destruct (Nat.eq_dec w' w) as [->|N].
      * rewrite upd_same. auto.
      * rewrite upd_other by auto. intros E. apply in_app_iff. left. eapply ri_cache; eauto.
    + intros D x IX.
      assert (M : forall w0 l0 b, rw_pc s w0 = Some (l0, b) -> exists b',
                 (if go then upd (rw_pc s) w (Some (lat, false)) else rw_pc s) w0 = Some (l0, b')).
      { intros w0 l0 b E. destruct go; [|eauto]. destruct (Nat.eq_dec w0 w) as [->|N]; [congruence|].
        rewrite upd_other by auto. eauto. }
      apply in_app_iff in IX as [IX|[<-|[]]].
      * apply covered_mono_report; [exact M|]. eapply ri_cov; eauto.
      * destruct go eqn:G.
        -- right. exists w, lat, false. cbn. rewrite upd_same. split; [reflexivity|lia].
        -- destruct (rw_cache s w) as [m|] eqn:CW; [|discriminate].
           destruct (Z.ltb_spec lat m); [discriminate|].
           pose proof (ri_cov _ _ _ _ _ I D m (ri_cache _ _ _ _ _ I _ _ CW)) as CV.
           destruct CV as [(m' & E & L)|(w' & l' & b & E & L)].
           ++ left. exists m'. split; [exact E|lia].
           ++ right. exists w', l', b. split; [exact E|lia].
    + apply (ri_static _ _ _ _ _ I).
  - (* read *)
    unfold ra_update_read, assert_then in EO. destruct (0 <? lat); [|discriminate]. ob_in EO.
    injection EO as <-.
    set (go := ra_dynamic (rw_ra s) && ra_should_update (ra_min_used (rw_ra s)) lat) in *.
    assert (PCI : forall w' x b, upd (rw_pc s) w (if go then Some (lat, true) else None) w' = Some (x, b) ->
              rw_pc s w' = Some (x, b) \/ (x = lat /\ b = true /\ go = true)).
    { intros w' x b. destruct (Nat.eq_dec w' w) as [->|N].
      - rewrite upd_same. destruct go; intros E; [|discriminate]. right. now injection E as <- <-.
      - rewrite upd_other by auto. auto. }
    constructor; cbn [rw_ra rw_cache rw_pc].
    + apply (ri_dyn _ _ _ _ _ I).
    + apply (ri_mp _ _ _ _ _ I).
    + apply (ri_cfg _ _ _ _ _ I).
    + apply (ri_used _ _ _ _ _ I).
    + intros w' x b E. destruct (PCI _ _ _ E) as [E'|[-> _]]; eapply ri_pc; eauto.
    + intros w' x E. destruct (PCI _ _ _ E) as [E'|(_ & _ & G)]; [eapply ri_pcs; eauto|].
      unfold go in G. apply andb_prop in G as [G _]. now rewrite <- (ri_dyn _ _ _ _ _ I).
    + apply (ri_cache _ _ _ _ _ I).
    + intros D x IX. pose proof (ri_cov _ _ _ _ _ I D x IX) as [(m & E & L)|(w' & l' & b & E & L)].
      * left. exists m. auto.
      * destruct (Nat.eq_dec w' w) as [->|N].
        -- rewrite E in PC. injection PC as -> ->. destruct go eqn:G.
           ++ right. exists w, lat, true. cbn. rewrite upd_same. auto.
           ++ unfold go in G. rewrite (ri_dyn _ _ _ _ _ I), D in G. cbn in G.
              destruct (should_update_false _ _ G) as (m & EM & LM). left. exists m. cbn. split; [exact EM|lia].
        -- right. exists w', l', b. cbn. rewrite upd_other by auto. auto.
    + apply (ri_static _ _ _ _ _ I).
  - (* write *)
    injection EO as <-.
    assert (D : dyn = true) by (eapply ri_pcs; eauto).
    assert (IL : In lat l) by (eapply ri_pc; eauto).
    assert (NEW : exists m, ra_min_used (ra_update_write (rw_ra s) lat) = Some m /\ m <= lat /\ In m l /\
              (forall m0, ra_min_used (rw_ra s) = Some m0 -> m <= m0)).
    { unfold ra_update_write. destruct (ra_should_update (ra_min_used (rw_ra s)) lat) eqn:SU.
      - exists lat. cbn. repeat split; auto; [lia|]. intros m0 E. rewrite E in SU. cbn in SU. lia.
      - destruct (should_update_false _ _ SU) as (m & EM & LM). exists m. repeat split; auto.
        + eapply ri_used; eauto.
        + intros m0 E. rewrite EM in E. injection E as ->. lia. }
    destruct NEW as (m & EM & LM & IM & MON).
    assert (PCI : forall w' x b, upd (rw_pc s) w None w' = Some (x, b) -> rw_pc s w' = Some (x, b)).
    { intros w' x b. destruct (Nat.eq_dec w' w) as [->|N].
      - rewrite upd_same. discriminate.
      - now rewrite upd_other by auto. }
    assert (FX : ra_dynamic (ra_update_write (rw_ra s) lat) = ra_dynamic (rw_ra s) /\
                 ra_min_possible (ra_update_write (rw_ra s) lat) = ra_min_possible (rw_ra s) /\
                 ra_config (ra_update_write (rw_ra s) lat) = ra_config (rw_ra s)).
    { unfold ra_update_write. destruct (ra_should_update _ _); auto. }
    destruct FX as (F1 & F2 & F3).
    constructor; cbn [rw_ra rw_cache rw_pc].
    + rewrite F1. apply (ri_dyn _ _ _ _ _ I).
    + rewrite F2. apply (ri_mp _ _ _ _ _ I).
    + rewrite F3. apply (ri_cfg _ _ _ _ _ I).
    + intros m' E. rewrite EM in E. now injection E as <-.
    + intros w' x b E. eapply ri_pc; eauto.
    + intros w' x E. auto.
    + apply (ri_cache _ _ _ _ _ I).
    + intros _ x IX. pose proof (ri_cov _ _ _ _ _ I D x IX) as [(m0 & E & L)|(w' & l' & b & E & L)].
      * left. exists m. cbn. split; [exact EM|]. specialize (MON _ E). lia.
      * destruct (Nat.eq_dec w' w) as [->|N].
        -- rewrite E in PC. injection PC as -> ->. left. exists m. cbn. split; [exact EM|lia].
        -- right. exists w', l', b. cbn. rewrite upd_other by auto. auto.
    + intros; congruence.
Qed.

Lemma rrun_inv : forall dyn mp cfg r l s, ra_new dyn mp cfg = Some r ->
  rrun (init_world r) l (Some s) -> RInv dyn mp cfg s l.
Proof.
  intros dyn mp cfg r l s N H.
  remember (init_world r) as s0 eqn:E0. remember (Some s) as o eqn:EO. revert s EO.
  induction H; intros s' EO; subst.
  - injection EO as <-. now apply rinv_init.
  - specialize (IHrrun eq_refl _ eq_refl). apply (rinv_step _ _ _ _ _ _ _ IHrrun H0).
  - specialize (IHrrun eq_refl _ eq_refl). apply (rinv_step _ _ _ _ _ _ _ IHrrun H0).
Qed.

Lemma quiescent_policy : forall dyn mp cfg r l s, ra_new dyn mp cfg = Some r ->
  rrun (init_world r) l (Some s) -> (forall w, rw_pc s w = None) ->
  ra_get (rw_ra s) = policy dyn mp cfg l.
Proof.
  intros dyn mp cfg r l s N H Q. pose proof (rrun_inv _ _ _ _ _ _ N H) as I.
  unfold ra_get, policy, bound_of. rewrite (ri_cfg _ _ _ _ _ I), (ri_mp _ _ _ _ _ I), Z.max_comm.
  f_equal. destruct dyn.
  - destruct (ra_min_used (rw_ra s)) as [m|] eqn:E.
    + symmetry. pose proof (ri_used _ _ _ _ _ I _ E) as IM. apply smallest_spec; auto.
      * intros ->; destruct IM.
      * intros x IX. destruct (ri_cov _ _ _ _ _ I eq_refl x IX) as [(m' & E' & L)|(w & l' & b & E' & _)].
        -- rewrite E in E'. injection E' as <-. exact L.
        -- rewrite Q in E'. discriminate.
    + destruct l as [|x l]; [reflexivity|]. exfalso.
      destruct (ri_cov _ _ _ _ _ I eq_refl x (or_introl eq_refl)) as [(m' & E' & L)|(w & l' & b & E' & _)].
      * congruence.
      * rewrite Q in E'. discriminate.
  - now rewrite (ri_static _ _ _ _ _ I eq_refl).
Qed.

Lemma no_panic : forall dyn mp cfg r l s ev, ra_new dyn mp cfg = Some r ->
  rrun (init_world r) l (Some s) -> Forall (fun x => 0 < x) l ->
  rstep s ev None -> exists w lat, ev = Some (w, lat) /\ lat = 0.
Proof.
  intros dyn mp cfg r l s ev N H F ST. pose proof (rrun_inv _ _ _ _ _ _ N H) as I.
  remember None as o eqn:EO in ST. destruct ST as [s w lat PC|s w lat PC|s w lat PC].
  - unfold cache_update, assert_then in EO. destruct (negb (lat =? 0)) eqn:E; ob_in EO.
    + destruct (match rw_cache s w with Some m => if lat <? m then (Some lat, true) else (rw_cache s w, false)
                     | None => (Some lat, true) end). discriminate.
    + exists w, lat. split; auto. lia.
  - exfalso. pose proof (ri_pc _ _ _ _ _ I _ _ _ PC) as IL. rewrite Forall_forall in F.
    specialize (F _ IL). unfold ra_update_read in EO. rewrite assert_true in EO by lia. discriminate.
  - discriminate.
Qed.

Lemma get_bounds : forall dyn mp cfg r l s, ra_new dyn mp cfg = Some r -> 0 < mp ->
  Forall (fun x => 0 < x) l -> rrun (init_world r) l (Some s) ->
  0 < ra_get (rw_ra s) /\ bound_of cfg <= ra_get (rw_ra s).
Proof.
  intros dyn mp cfg r l s N MP F H. pose proof (rrun_inv _ _ _ _ _ _ N H) as I.
  unfold ra_get, bound_of. rewrite (ri_cfg _ _ _ _ _ I), (ri_mp _ _ _ _ _ I).
  split; [|lia]. destruct (ra_min_used (rw_ra s)) as [m|] eqn:E; [|lia].
  pose proof (ri_used _ _ _ _ _ I _ E) as IM. rewrite Forall_forall in F. specialize (F _ IM). lia.
Qed.

(** One step never raises the minimum once it exists. *)
Lemma step_shrinks : forall s ev s', rstep s ev (Some s') -> ra_min_used (rw_ra s) <> None ->
  ra_get (rw_ra s') <= ra_get (rw_ra s) /\ ra_min_used (rw_ra s') <> None.
Proof.
  intros s ev s' H NN. remember (Some s') as o eqn:EO. destruct H as [s w lat PC|s w lat PC|s w lat PC].
  - unfold cache_update, assert_then in EO. destruct (negb (lat =? 0)); [|discriminate]. ob_in EO.
    destruct (match rw_cache s w with Some m => if lat <? m then (Some lat, true) else (rw_cache s w, false)
                     | None => (Some lat, true) end).
    ob_in EO. injection EO as <-. cbn. split; [lia|assumption].
  - unfold ra_update_read, assert_then in EO. destruct (0 <? lat); [|discriminate]. ob_in EO.
    injection EO as <-. cbn. split; [lia|assumption].
  - injection EO as <-. cbn. unfold ra_update_write, ra_get.
    destruct (ra_min_used (rw_ra s)) as [m|] eqn:E; [|congruence].
    destruct (ra_should_update (Some m) lat) eqn:SU; cbn in *.
    + split; [|discriminate]. lia.
    + rewrite E. split; [lia|discriminate].
Qed.

(** Several steps in a row. *)
Inductive rsteps : rworld -> list Z -> rworld -> Prop :=
| rsteps_nil s : rsteps s [] s
| rsteps_report s w lat r l s' : rstep s (Some (w, lat)) (Some r) -> rsteps r l s' -> rsteps s (lat :: l) s'
| rsteps_tau s r l s' : rstep s None (Some r) -> rsteps r l s' -> rsteps s l s'.

Lemma steps_shrink : forall s l s', rsteps s l s' -> ra_min_used (rw_ra s) <> None ->
  ra_get (rw_ra s') <= ra_get (rw_ra s).
Proof.
  induction 1; intros NN; [lia| |];
    destruct (step_shrinks _ _ _ H NN) as [L NN']; specialize (IHrsteps NN'); lia.
Qed.

(** A worker, by itself, reports one latency. *)
Lemma growth : exists s l s', ra_new true 10 None = Some (rw_ra s) /\
  rsteps s l s' /\ (forall w, rw_pc s w = None) /\ (forall w, rw_pc s' w = None) /\
  Forall (fun x => 10 <= x) l /\ ra_get (rw_ra s) < ra_get (rw_ra s').
Proof.
  set (r := mkRa None 10 None true).
  exists (init_world r), [25].
  exists (mkRw (mkRa (Some 25) 10 None true) (upd (fun _ => None) 0 (Some 25))
     (upd (upd (upd (fun _ => None) 0 (Some (25, false))) 0 (Some (25, true))) 0 None)).
  repeat split.
  - eapply (rsteps_report _ 0 25).
    + exact (RReport (init_world r) 0 25 eq_refl).
    + eapply rsteps_tau.
      * exact (RRead (mkRw r (upd (fun _ => None) 0 (Some 25)) (upd (fun _ => None) 0 (Some (25, false)))) 0 25 eq_refl).
      * eapply rsteps_tau; [|constructor].
        exact (RWrite (mkRw r (upd (fun _ => None) 0 (Some 25)) (upd (upd (fun _ => None) 0 (Some (25, false))) 0 (Some (25, true)))) 0 25 eq_refl).
  - intros w. cbn. unfold upd. destruct (Nat.eqb w 0); reflexivity.
  - repeat constructor. lia.
Qed.

(** Two workers report 20 and 10; the larger value passes its read check first but is written last. *)
Definition ex_r := mkRa None 5 (Some 3) true.
Definition ex_final : rworld :=
  mkRw (mkRa (Some 10) 5 (Some 3) true)
    (upd (upd (fun _ => None) 0 (Some 20)) 1 (Some 10))
    (upd (upd (upd (upd (upd (upd (fun _ => None) 0 (Some (20, false))) 0 (Some (20, true))) 1 (Some (10, false))) 1 (Some (10, true))) 1 None) 0 None).
Lemma race : rrun (init_world ex_r) [20; 10] (Some ex_final) /\ forall w, rw_pc ex_final w = None.
Proof.
  split; [|intros [|[|w]]; reflexivity].
  pose proof (rrun_nil (init_world ex_r)) as H.
  pose proof (rrun_report _ 0%nat 20 _ _ _ H ltac:(apply RReport; reflexivity)) as H1; clear H.
  pose proof (rrun_tau _ _ _ _ H1 ltac:(apply (RRead _ 0 20); reflexivity)) as H; clear H1.
  pose proof (rrun_report _ 1%nat 10 _ _ _ H ltac:(apply RReport; reflexivity)) as H1; clear H.
  pose proof (rrun_tau _ _ _ _ H1 ltac:(apply (RRead _ 1 10); reflexivity)) as H; clear H1.
  pose proof (rrun_tau _ _ _ _ H ltac:(apply (RWrite _ 1 10); reflexivity)) as H1; clear H.
  pose proof (rrun_tau _ _ _ _ H1 ltac:(apply (RWrite _ 0 20); reflexivity)) as H; clear H1.
  exact H.
Qed.
