(** Invariants of the simulation loop. *)
From Verif Require Import Base TimeModel EventModel EventSpec EventProofs CpuModel RunaheadModel
  RunaheadProofs SimModel SimSpec.

Lemma EM_val : EMUTIME_MAX = TIME_LIMIT.
Proof. reflexivity. Qed.
Lemma ES_val : EMUTIME_SIMULATION_START = SIM_START.
Proof. reflexivity. Qed.

Section F.
Context {K T : Type}.
Notation event := (event K T).
Lemma fresh_local : forall (l : list event) c t k, distinct l ->
  (forall t i k, In (mkEv t (ELocal i k)) l -> i < c) -> distinct (mkEv t (ELocal c k) :: l).
Proof.
  intros l c t k D H. unfold distinct in *. cbn [map]. constructor; [|assumption].
  unfold ident_of at 1; cbn. intros I. apply in_map_iff in I as ([t' d] & E & I).
  unfold ident_of in E; cbn in E. destruct d; [discriminate|]. injection E as ->.
  specialize (H _ _ _ I). lia.
Qed.

Lemma fresh_packet : forall (l : list event) src c t k, distinct l ->
  (forall t i k, In (mkEv t (EPacket src i k)) l -> i < c) -> distinct (mkEv t (EPacket src c k) :: l).
Proof.
  intros l src c t k D H. unfold distinct in *. cbn [map]. constructor; [|assumption].
  unfold ident_of at 1; cbn. intros I. apply in_map_iff in I as ([t' d] & E & I).
  unfold ident_of in E; cbn in E. destruct d; [|discriminate]. injection E as -> ->.
  specialize (H _ _ _ I). lia.
Qed.

End F.

Section P.
Context {S K T : Type} (keqb : K -> K -> bool) (teqb : T -> T -> bool) (P : params S K T).
Notation event := (event K T).
Notation hstate := (hstate S K T).
Notation gstate := (gstate S K T).
Notation effect := (effect K T).
Notation label := (label K T).
Notation pop_min := (pop_min keqb teqb).
Notation host_step := (host_step keqb teqb P).
Notation step := (step keqb teqb P).
Notation q_push := (q_push keqb teqb).
Notation bag x := (q_bag (h_q x)).
Notation last x := (q_last (h_q x)).

(** *** One host *)

Record HW (h : nat) (ws we : Z) (x : hstate) : Prop := {
  hw_distinct : distinct (bag x);
  hw_times : forall e, In e (bag x) -> last x <= ev_time e /\ h_clock x <= ev_time e /\ ws <= ev_time e;
  hw_ctr : forall t i k, In (mkEv t (ELocal i k)) (bag x) -> i < h_ctr x;
  hw_last : last x <= we;
  hw_clock : h_clock x <= we;
  hw_exec : h_phase x <> PIdle -> last x <= h_clock x /\ ws <= h_clock x;
  hw_phase : match h_phase x with
             | PLat d _ delay | PPush d _ delay => (d < p_nhosts P)%nat /\ delay = p_lat P h d
             | _ => True end;
  hw_cpu : cpu_sim_freq (h_cpu x) <> 0;
}.

Definition removed (f : effect) : list event :=
  match f with FExec e | FDefer e _ | FExpire e _ => [e] | _ => [] end.
Definition added (f : effect) : list event :=
  match f with FLocal e => [e] | FDefer e t => [ev_set_time e t] | _ => [] end.

Definition effect_ok (h : nat) (ws we : Z) (x x' : hstate) (f : effect) : Prop :=
  match f with
  | FNone => True
  | FExec e => h_clock x <= ev_time e /\ h_clock x' = ev_time e /\ ws <= ev_time e < we /\ last x <= ev_time e
  | FLocal e => h_clock x <= ev_time e /\ ev_time e < p_sim_end P /\
                (exists k, ev_data e = ELocal (h_ctr x) k) /\ h_ctr x' = h_ctr x + 1
  | FRefused e => p_sim_end P <= ev_time e
  | FDefer e t => ev_time e < t < p_sim_end P /\ ws <= ev_time e < we
  | FExpire e t => ev_time e < t /\ p_sim_end P <= t /\ ws <= ev_time e < we
  | FLost _ => True
  | FLat delay => exists d, (d < p_nhosts P)%nat /\ delay = p_lat P h d
  | FSend d now delay e => (d < p_nhosts P)%nat /\ now = h_clock x /\ delay = p_lat P h d /\
        ev_time e = Z.max (now + delay) we /\ ws <= now <= we /\
        (exists k, ev_data e = EPacket h (h_ctr x) k) /\ h_ctr x' = h_ctr x + 1
  | FReturn => x' = x /\ h_phase x = PIdle /\ forall e, In e (bag x) -> we <= ev_time e
  end.

Lemma q_push_ok : forall q e, q_last q <= ev_time e -> distinct (e :: q_bag q) ->
  q_push q e = Some (mkQ (e :: q_bag q) (q_last q)).
Proof.
  intros q e L D. unfold EventModel.q_push. rewrite assert_true by lia.
  now rewrite assert_true by (now apply comparable_distinct).
Qed.

Lemma next_time_le : forall q t, q_next_event_time keqb teqb q = Some t -> distinct (q_bag q) ->
  (forall e, In e (q_bag q) -> t <= ev_time e) /\ exists e, In e (q_bag q) /\ ev_time e = t.
Proof.
  intros q t H D. unfold q_next_event_time in H.
  destruct (pop_min (q_bag q)) as [[m r]|] eqn:E; [|discriminate]. injection H as <-.
  pose proof (pop_min_perm _ _ _ _ _ E) as PM. split.
  - intros e I. eapply Permutation_in in I; [|exact PM]. destruct I as [<-|I]; [lia|].
    apply before_le. eapply pop_min_least; eauto.
  - exists m. split; [|reflexivity]. eapply Permutation_in; [symmetry; exact PM|now left].
Qed.

Lemma next_time_none : forall q, q_next_event_time keqb teqb q = None -> q_bag q = [].
Proof.
  intros q H. unfold q_next_event_time in H.
  destruct (pop_min (q_bag q)) as [[m r]|] eqn:E; [discriminate|]. now apply pop_min_none in E.
Qed.

Lemma max_runahead_le : forall we q, distinct (q_bag q) ->
  max_runahead keqb teqb we q <= we /\
  forall e, In e (q_bag q) -> max_runahead keqb teqb we q <= ev_time e.
Proof.
  intros we q D. unfold max_runahead. destruct (q_next_event_time keqb teqb q) as [t|] eqn:E.
  - destruct (next_time_le _ _ E D) as [A _]. split; [lia|]. intros e I. specialize (A _ I). lia.
  - split; [lia|]. rewrite (next_time_none _ E). intros e [].
Qed.

Lemma same_ident : forall (e : event) t, ident_of (ev_set_time e t) = ident_of e.
Proof. reflexivity. Qed.

Lemma pop_step_ok : forall h ws we x, HW h ws we x -> we <= p_sim_end P -> h_phase x = PIdle ->
  exists x' f, pop_step keqb teqb P h we x = Some (x', f) /\ HW h ws we x' /\
    Permutation (removed f ++ bag x') (added f ++ bag x) /\ h_ctr x <= h_ctr x' /\
    h_clock x <= h_clock x' /\ effect_ok h ws we x x' f /\ last x <= last x'.
Proof.
  intros h ws we x W WE PH. unfold pop_step.
  destruct (q_next_event_time keqb teqb (h_q x)) as [t|] eqn:NE.
  2:{ exists x, FReturn. do 2 (split; [auto|]). cbn. do 3 (split; [auto; lia|]). split; [|lia].
      do 2 (split; [auto|]).
      rewrite (next_time_none _ NE). intros e []. }
  destruct (next_time_le _ _ NE (hw_distinct _ _ _ _ W)) as [LE _].
  destruct (Z.ltb_spec t we) as [LT|GE].
  2:{ exists x, FReturn. do 2 (split; [auto|]). cbn. do 3 (split; [auto; lia|]). split; [|lia].
      do 2 (split; [auto|]).
      intros e I. specialize (LE _ I). lia. }
  unfold q_next_event_time in NE. unfold q_pop.
  destruct (pop_min (bag x)) as [[m r]|] eqn:PM; [|discriminate]. injection NE as <-.
  pose proof (pop_min_perm _ _ _ _ _ PM) as PP.
  assert (IM : In m (bag x)) by (eapply Permutation_in; [symmetry; exact PP|now left]).
  assert (IR : forall e, In e r -> In e (bag x)).
  { intros e I. eapply Permutation_in; [symmetry; exact PP|now right]. }
  destruct (hw_times _ _ _ _ W _ IM) as (L1 & L2 & L3).
  assert (DM : distinct (m :: r)) by (eapply distinct_perm; [exact PP|apply W]).
  rewrite assert_true by lia. ob.
  assert (TR : forall e, In e r -> ev_time m <= ev_time e) by (intros; auto).
  destruct (Z.ltb_spec 0 (cpu_delay (cpu_update_time (h_cpu x) (ev_time m)))) as [DP|DZ].
  - set (d := cpu_delay (cpu_update_time (h_cpu x) (ev_time m))) in *.
    unfold push_local. cbn [ev_time ev_set_time].
    destruct (Z.leb_spec (p_sim_end P) (ev_time m + d)) as [GE|LTE].
    + ob. eexists _, _. split; [reflexivity|]. cbn [removed added h_q q_bag h_ctr h_clock q_last app].
      split; [|split; [|split; [|split; [|split]]]]; try lia; cbn; try lia.
      2:{ symmetry. exact PP. }
      constructor; cbn [h_q q_bag q_last h_ctr h_clock h_phase h_cpu].
      * eapply distinct_cons; eauto.
      * intros e I. specialize (TR _ I). pose proof (hw_times _ _ _ _ W _ (IR _ I)). lia.
      * intros t i k I. eapply hw_ctr; eauto.
      * lia.
      * apply W.
      * congruence.
      * exact Logic.I.
      * apply W.
    + rewrite q_push_ok.
      2:{ cbn. lia. }
      2:{ unfold distinct in *. cbn [q_bag map] in *. now rewrite same_ident. }
      ob. eexists _, _. split; [reflexivity|]. cbn [removed added h_q q_bag h_ctr h_clock q_last app ev_time ev_set_time].
      split; [|split; [|split; [|split; [|split]]]]; try lia; cbn; try lia.
      2:{ etransitivity; [apply perm_swap|]. constructor. symmetry. exact PP. }
      constructor; cbn [h_q q_bag q_last h_ctr h_clock h_phase h_cpu].
      * unfold distinct in *. cbn [map] in *. exact DM.
      * intros e [<-|I]; [cbn; lia|]. specialize (TR _ I). pose proof (hw_times _ _ _ _ W _ (IR _ I)). lia.
      * intros t i k [E|I]; [|eapply hw_ctr; eauto]. destruct m as [tm dm]. cbn in E. injection E as _ ->.
        eapply hw_ctr; eauto.
      * lia.
      * apply W.
      * congruence.
      * exact Logic.I.
      * apply W.
  - eexists _, _. split; [reflexivity|]. cbn [removed added h_q q_bag h_ctr h_clock q_last app].
    split; [|split; [|split; [|split; [|split]]]]; try lia.
    2:{ cbn. symmetry. exact PP. }
    2:{ cbn. lia. }
    constructor; cbn [h_q q_bag q_last h_ctr h_clock h_phase h_cpu].
    + eapply distinct_cons; eauto.
    + intros e I. specialize (TR _ I). pose proof (hw_times _ _ _ _ W _ (IR _ I)). lia.
    + intros t i k I. eapply hw_ctr; eauto.
    + lia.
    + lia.
    + lia.
    + exact Logic.I.
    + apply W.
Qed.

Lemma HW_priv : forall h ws we x priv ph, HW h ws we x ->
  h_phase x <> PIdle \/ ph = PIdle ->
  (match ph with PLat d _ delay | PPush d _ delay => (d < p_nhosts P)%nat /\ delay = p_lat P h d
             | _ => True end) ->
  HW h ws we (mkH priv ph (h_q x) (h_ctr x) (h_cpu x) (h_clock x)).
Proof.
  intros h ws we x priv ph W D PHS.
  constructor; cbn; try apply W; auto.
  intros NI. destruct D as [D|D]; [now apply W|congruence].
Qed.

Lemma HW_ctr : forall h ws we x priv ph c, HW h ws we x ->
  h_phase x <> PIdle -> ph = PExec -> h_ctr x <= c ->
  HW h ws we (mkH priv ph (h_q x) c (h_cpu x) (h_clock x)).
Proof.
  intros h ws we x priv ph c W D -> LE.
  constructor; cbn [h_q q_bag q_last h_ctr h_clock h_phase h_cpu].
  - apply W.
  - apply W.
  - intros t i k I. pose proof (hw_ctr _ _ _ _ W _ _ _ I). lia.
  - apply W.
  - apply W.
  - intros _. now apply W.
  - exact Logic.I.
  - apply W.
Qed.

Lemma action_ok : forall h ws we x a, HW h ws we x -> we <= p_sim_end P -> h_phase x = PExec ->
  exists x' f, do_action keqb teqb P h we x a = Some (x', f) /\ HW h ws we x' /\
    Permutation (removed f ++ bag x') (added f ++ bag x) /\ h_ctr x <= h_ctr x' /\
    h_clock x <= h_clock x' /\ effect_ok h ws we x x' f /\ last x <= last x'.
Proof.
  intros h ws we x a W WE PH.
  assert (NI : h_phase x <> PIdle) by (rewrite PH; discriminate).
  destruct (hw_exec _ _ _ _ W NI) as [LC WC].
  destruct a as [|d task|dst chance payload k|t| | |native]; cbn [do_action].
  - eexists _, _. split; [reflexivity|]. cbn. split; [|repeat split; auto; try lia]. apply HW_priv; auto.
  - unfold push_local. cbn [ev_time]. destruct (Z.leb_spec (p_sim_end P) (h_clock x + Z.of_N d)).
    + ob. eexists _, _. split; [reflexivity|]. cbn. split; [|repeat split; auto; try lia].
      apply HW_ctr with (c := h_ctr x + 1) (priv := p_resume P h (h_priv x) (RBool false)) (ph := PExec) in W;
        auto; lia.
    + rewrite q_push_ok.
      2:{ cbn. lia. }
      2:{ apply fresh_local; [apply W|]. apply (hw_ctr _ _ _ _ W). }
      ob. eexists _, _. split; [reflexivity|]. cbn. split; [|repeat split; auto; try lia; eauto].
      constructor; cbn [h_q q_bag q_last h_ctr h_clock h_phase h_cpu].
      * apply fresh_local; [apply W|]. apply (hw_ctr _ _ _ _ W).
      * intros e [<-|I]; [cbn; lia|]. now apply W.
      * intros t i k0 [E|I]; [injection E as _ <- _; lia|]. pose proof (hw_ctr _ _ _ _ W _ _ _ I). lia.
      * apply W.
      * apply W.
      * auto.
      * exact Logic.I.
      * apply W.
  - destruct (p_sim_end P <=? h_clock x).
    { eexists _, _. split; [reflexivity|]. cbn. split; [|repeat split; auto; try lia]. apply HW_priv; auto. }
    destruct (Nat.ltb_spec dst (p_nhosts P)) as [LD|GD].
    2:{ eexists _, _. split; [reflexivity|]. cbn. split; [|repeat split; auto; try lia]. apply HW_priv; auto. }
    cbn [negb].
    destruct (negb (h_clock x <? p_boot_end P) && (p_rel P h dst <=? chance) && payload).
    { eexists _, _. split; [reflexivity|]. cbn. split; [|repeat split; auto; try lia]. apply HW_priv; auto. }
    eexists _, _. split; [reflexivity|]. cbn. split; [|repeat split; auto; try lia]. apply HW_priv; auto.
  - destruct (Z.leb_spec (h_clock x) t) as [A|A]; cbn [andb].
    + destruct (Z.leb_spec t (max_runahead keqb teqb we (h_q x))) as [B|B]; cbn [andb].
      * destruct (max_runahead_le we _ (hw_distinct _ _ _ _ W)) as [M1 M2].
        eexists _, _. split; [reflexivity|]. cbn. split; [|repeat split; auto; try lia].
        constructor; cbn [h_q q_bag q_last h_ctr h_clock h_phase h_cpu].
        -- apply W.
        -- intros e I. specialize (M2 _ I). pose proof (hw_times _ _ _ _ W _ I). lia.
        -- apply W.
        -- apply W.
        -- lia.
        -- lia.
        -- exact Logic.I.
        -- apply W.
      * eexists _, _. split; [reflexivity|]. cbn. split; [|repeat split; auto; try lia]. apply HW_priv; auto.
    + eexists _, _. split; [reflexivity|]. cbn. split; [|repeat split; auto; try lia]. apply HW_priv; auto.
  - eexists _, _. split; [reflexivity|]. cbn. split; [|repeat split; auto; try lia]. apply HW_priv; auto.
  - eexists _, _. split; [reflexivity|]. cbn. split; [|repeat split; auto; try lia]. apply HW_priv; auto.
  - unfold cpu_add_delay, cpu_charge. rewrite assert_true by (pose proof (hw_cpu _ _ _ _ W); lia). ob.
    eexists _, _. split; [reflexivity|]. cbn. split; [|repeat split; auto; try lia].
    constructor; cbn [h_q q_bag q_last h_ctr h_clock h_phase h_cpu cpu_sim_freq]; try apply W; auto.
Qed.

Lemma host_step_ok : forall h ws we x, HW h ws we x -> we <= p_sim_end P ->
  exists x' f, host_step h we x = Some (x', f) /\ HW h ws we x' /\
    Permutation (removed f ++ bag x') (added f ++ bag x) /\ h_ctr x <= h_ctr x' /\
    h_clock x <= h_clock x' /\ effect_ok h ws we x x' f /\ last x <= last x'.
Proof.
  intros h ws we x W WE. unfold SimModel.host_step. destruct (h_phase x) as [| |d k delay|d k delay] eqn:PH.
  - now apply pop_step_ok.
  - now apply action_ok.
  - pose proof (hw_phase _ _ _ _ W) as HP. rewrite PH in HP.
    assert (NI : h_phase x <> PIdle) by (rewrite PH; discriminate).
    eexists _, _. split; [reflexivity|]. cbn. split; [|repeat split; auto; try lia].
    + apply HW_priv; auto.
    + exists d. exact HP.
  - pose proof (hw_phase _ _ _ _ W) as HP. rewrite PH in HP. destruct HP as [LD ->].
    assert (NI : h_phase x <> PIdle) by (rewrite PH; discriminate).
    destruct (hw_exec _ _ _ _ W NI) as [LC WC].
    eexists _, _. split; [reflexivity|]. cbn. split; [|repeat split; auto; try lia; eauto].
    + apply HW_ctr; auto. lia.
    + apply W.
Qed.

End P.
