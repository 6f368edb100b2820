(** Facts about complete executions: conservation of events, clocks, windows, latencies. *)
From Verif Require Import Base TimeModel TimeProofs EventModel EventSpec EventProofs CpuModel RunaheadModel
  RunaheadSpec RunaheadProofs SimModel SimSpec SimProofs SimInv SimDet SimRounds.

Lemma Forall2_split : forall A B (R : A -> B -> Prop) l l1 b l2, Forall2 R l (l1 ++ b :: l2) ->
  exists m1 a m2, l = m1 ++ a :: m2 /\ R a b /\ Forall2 R m1 l1 /\ Forall2 R m2 l2.
Proof.
  intros A B R l l1 b l2 H. apply Forall2_app_inv_r in H as (m1 & m & H1 & H2 & ->).
  inversion H2; subst. eauto 10.
Qed.
Lemma Forall2_impl2 : forall A B (R R' : A -> B -> Prop) l l', (forall a b, R a b -> R' a b) ->
  Forall2 R l l' -> Forall2 R' l l'.
Proof. induction 2; constructor; auto. Qed.

Lemma Forall2_same : forall A (R : A -> A -> Prop) l, (forall a, R a a) -> Forall2 R l l.
Proof. induction l; constructor; auto. Qed.

Section L.
Context {K T : Type}.
Notation event := (event K T).
Notation label := (label K T).

Lemma executed_app : forall h (a b : list label), executed h (a ++ b) = executed h a ++ executed h b.
Proof.
  induction a as [|l a IH]; intros b; [reflexivity|]. destruct l as [|h' f|w]; cbn; auto.
  destruct f; auto. destruct (Nat.eqb h' h); cbn; now rewrite IH.
Qed.
Lemma enqueued_app : forall h (a b : list label), enqueued h (a ++ b) = enqueued h a ++ enqueued h b.
Proof.
  induction a as [|l a IH]; intros b; [reflexivity|]. destruct l as [|h' f|w]; cbn; auto.
  destruct f; auto; [destruct (Nat.eqb h' h)|destruct (Nat.eqb dst h)]; cbn; now rewrite IH.
Qed.
Lemma expired_app : forall h (a b : list label), expired h (a ++ b) = expired h a ++ expired h b.
Proof.
  induction a as [|l a IH]; intros b; [reflexivity|]. destruct l as [|h' f|w]; cbn; auto.
  destruct f; auto. destruct (Nat.eqb h' h); cbn; now rewrite IH.
Qed.
Lemma deferred_app : forall h (a b : list label), deferred h (a ++ b) = deferred h a ++ deferred h b.
Proof.
  induction a as [|l a IH]; intros b; [reflexivity|]. destruct l as [|h' f|w]; cbn; auto.
  destruct f; auto. destruct (Nat.eqb h' h); cbn; now rewrite IH.
Qed.
Lemma used_app : forall (a b : list label), used (a ++ b) = used a ++ used b.
Proof.
  induction a as [|l a IH]; intros b; [reflexivity|]. destruct l as [|h' f|w]; cbn; auto.
  destruct f; auto. cbn. now rewrite IH.
Qed.

Lemma window_after_snoc : forall (a : list label) w, window_after (a ++ [LWindow w]) = w.
Proof. intros a w. unfold window_after. rewrite windows_app. cbn. apply last_last. Qed.
Lemma window_after_other : forall (a : list label) l, (forall w, l <> LWindow w) -> window_after (a ++ [l]) = window_after a.
Proof.
  intros a l H. unfold window_after. rewrite windows_app. destruct l; cbn; try (now rewrite app_nil_r).
  exfalso. eapply H; reflexivity.
Qed.

Lemma postponed_more : forall ds (d : event) e e', postponed ds e e' -> postponed (ds ++ [d]) e e'.
Proof.
  intros ds d e e' [->|(A & B & x & I & C)]; [left; reflexivity|right].
  repeat split; auto. exists x. rewrite in_app_iff. auto.
Qed.

Lemma times_sorted_snoc : forall (l : list event) e, times_sorted l -> (forall x, In x l -> ev_time x <= ev_time e) ->
  times_sorted (l ++ [e]).
Proof.
  induction l as [|x l IH]; intros e S H; cbn in *; [auto; tauto|].
  destruct S as [A B]. split; [|apply IH; auto].
  intros y I. apply in_app_iff in I as [I|[<-|[]]]; auto.
Qed.

Lemma windows_ok_snoc : forall stop l lo w, windows_ok stop lo l ->
  match last l (Some (lo, lo)) with
  | None => False
  | Some (_, b) => match w with None => True | Some (a', b') => b <= a' < b' /\ b' <= stop end
  end -> windows_ok stop lo (l ++ [w]).
Proof.
  induction l as [|x l IH]; intros lo w A B.
  - cbn in *. destruct w as [[a' b']|]; [|reflexivity]. repeat split; tauto.
  - cbn [app windows_ok] in *. destruct x as [[a b]|].
    + destruct A as (A1 & A2 & A3). repeat split; try tauto; try lia. apply IH; auto.
      cbn [last] in B. destruct l; [cbn; exact B|].
      assert (X : forall d d', last (o :: l) d = last (o :: l) d').
      { clear. revert o. induction l as [|y l IH]; intros o d d'; [reflexivity|]. cbn in *. apply IH. }
      rewrite (X _ (Some (lo, lo))). exact B.
    + subst l. cbn in B. destruct B.
Qed.
End L.

Section P.
Context {S K T : Type} (keqb : K -> K -> bool) (teqb : T -> T -> bool) (P : params S K T).
Notation event := (event K T).
Notation hstate := (hstate S K T).
Notation gstate := (gstate S K T).
Notation effect := (effect K T).
Notation label := (label K T).
Notation host_step := (host_step keqb teqb P).
Notation step := (step keqb teqb P).
Notation run := (run keqb teqb P).
Notation apply_effect := (apply_effect keqb teqb P).
Notation bag x := (q_bag (h_q x)).
Notation HW := (HW P).
Notation GW := (GW P).

Hypothesis CFG : config_ok P.

Section R.
Context (n : nat) (s0 : gstate) (GS : good_start P n s0).
Context (W0 : g_window s0 = first_window).

Definition seen (h : nat) (tr : list label) : list event := bag (g_host s0 h) ++ enqueued h tr.

Record TI (tr : list label) (s : gstate) : Prop := {
  ti_cons : forall h, (h < p_nhosts P)%nat -> exists l, Forall2 (postponed (deferred h tr)) (seen h tr) l /\
     Permutation l (executed h tr ++ expired h tr ++ bag (g_host s h));
  ti_distinct : forall h, (h < p_nhosts P)%nat -> distinct (seen h tr);
  ti_local : forall h t i k, (h < p_nhosts P)%nat -> In (mkEv t (ELocal i k)) (seen h tr) -> i < h_ctr (g_host s h);
  ti_packet : forall h t src i k, (h < p_nhosts P)%nat -> In (mkEv t (EPacket src i k)) (seen h tr) -> i < h_ctr (g_host s src);
  ti_clock : forall h e, (h < p_nhosts P)%nat -> In e (executed h tr) -> ev_time e <= h_clock (g_host s h);
  ti_past : forall h e ws we, (h < p_nhosts P)%nat -> g_window s = Some (ws, we) -> In e (executed h tr) -> ev_time e < we;
  ti_sorted : forall h, (h < p_nhosts P)%nat -> times_sorted (executed h tr);
  ti_window : g_window s = window_after tr;
  ti_windows : windows_ok (p_sim_end P) (SIM_START + 1) (windows tr);
  ti_end : g_window s = None -> exists a, windows tr = a ++ [None];
}.

Lemma windows_last : forall (tr : list label) w, window_after tr = Some w ->
  windows_ok (p_sim_end P) (SIM_START + 1) (windows tr) ->
  match last (windows tr) (Some (SIM_START + 1, SIM_START + 1)) with None => False | Some (_, b) => b = snd w end.
Proof.
  intros tr [a b] E _. unfold window_after, first_window in E. destruct (windows tr) as [|x l].
  - cbn in *. injection E as <- <-. reflexivity.
  - assert (X : forall d d', last (x :: l) d = last (x :: l) d').
    { clear. revert x. induction l as [|y l IH]; intros x d d'; [reflexivity|]. cbn in *. apply IH. }
    rewrite (X _ (Some (SIM_START, SIM_START + 1))). rewrite E. reflexivity.
Qed.

Lemma plain_step : forall tr s s' l, TI tr s -> (forall w, l <> LWindow w) -> (forall h f, l <> LHost h f) ->
  (g_host s' = g_host s) -> g_window s' = g_window s -> TI (tr ++ [l]) s'.
Proof.
  intros tr s s' l I NW NH EH EW.
  assert (L : l = LTau) by (destruct l; auto; [exfalso; eapply NH; eauto|exfalso; eapply NW; eauto]). subst l.
  assert (SN : forall h, seen h (tr ++ [LTau]) = seen h tr).
  { intros h. unfold seen. rewrite enqueued_app. cbn. now rewrite app_nil_r. }
  constructor; intros; rewrite ?SN, ?EH, ?EW, ?executed_app, ?expired_app, ?deferred_app, ?windows_app in *;
    cbn [executed expired deferred windows] in *; rewrite ?app_nil_r in *.
  - now apply (ti_cons _ _ I).
  - now apply (ti_distinct _ _ I).
  - eapply (ti_local _ _ I); eauto.
  - eapply (ti_packet _ _ I); eauto.
  - now apply (ti_clock _ _ I).
  - eapply (ti_past _ _ I); eauto.
  - now apply (ti_sorted _ _ I).
  - rewrite window_after_other by discriminate. apply (ti_window _ _ I).
  - apply (ti_windows _ _ I).
  - now apply (ti_end _ _ I).
Qed.

Lemma host_step_TI : forall tr s s' h w ws we x' f, TI tr s -> GW n s -> g_window s = Some (ws, we) ->
  g_status s h = RActive w -> host_step h we (g_host s h) = Some (x', f) ->
  apply_effect s h w x' f = Some s' -> TI (tr ++ [LHost h f]) s'.
Proof.
  intros tr s s' h w ws we x' f I G WIN STA HS AE.
  destruct (host_step_global keqb teqb P CFG n s h w ws we G WIN STA)
    as (x2 & f2 & s3 & HS2 & AE2 & AP & W' & EO & PM & CT & CK & LA & LH & UW & RC).
  rewrite HS in HS2. injection HS2 as <- <-. rewrite AE in AE2. injection AE2 as <-.
  assert (CTR : forall d, h_ctr (g_host s d) <= h_ctr (g_host s' d)).
  { intros d. rewrite (ap_host _ _ _ _ _ _ AP). unfold with_recv. cbn.
    destruct (Nat.eq_dec d h) as [->|N]; [rewrite upd_same; lia|rewrite upd_other by auto; lia]. }
  assert (CLK : forall d, h_clock (g_host s d) <= h_clock (g_host s' d)).
  { intros d. rewrite (ap_host _ _ _ _ _ _ AP). unfold with_recv. cbn.
    destruct (Nat.eq_dec d h) as [->|N]; [rewrite upd_same; lia|rewrite upd_other by auto; lia]. }
  assert (HX : h_ctr (g_host s' h) = h_ctr x' /\ h_clock (g_host s' h) = h_clock x').
  { rewrite (ap_host _ _ _ _ _ _ AP). unfold with_recv. cbn. now rewrite upd_same. }
  assert (BG : forall d, Permutation ((if Nat.eqb d h then removed f else []) ++ bag (g_host s' d))
                 ((if Nat.eqb d h then added f else []) ++ recv f d ++ bag (g_host s d))).
  { intros d. rewrite (ap_host _ _ _ _ _ _ AP). unfold with_recv. cbn.
    destruct (Nat.eqb_spec d h) as [->|N].
    - rewrite upd_same. rewrite (Permutation_app_swap_app (removed f)), PM. apply Permutation_app_swap_app.
    - rewrite upd_other by auto. reflexivity. }
  assert (EXE : forall d, executed d (tr ++ [LHost h f]) = executed d tr ++
            (if Nat.eqb d h then match f with FExec e => [e] | _ => [] end else [])).
  { intros d. rewrite executed_app. f_equal. cbn. rewrite (Nat.eqb_sym h d). destruct f; destruct (Nat.eqb d h); reflexivity. }
  assert (SEEN : forall d, seen d (tr ++ [LHost h f]) = seen d tr ++
            ((if Nat.eqb d h then match f with FLocal e => [e] | _ => [] end else []) ++ recv f d)).
  { intros d. unfold seen. rewrite enqueued_app, app_assoc. f_equal. cbn. rewrite (Nat.eqb_sym h d).
    destruct f; destruct (Nat.eqb d h); reflexivity. }
  constructor.
  - (* conservation *)
    intros d LD. destruct (ti_cons _ _ I d LD) as (l & F & PL).
    rewrite SEEN, EXE, expired_app, deferred_app. cbn [expired deferred].
    rewrite (Nat.eqb_sym h d). pose proof (BG d) as BD.
    destruct (Nat.eqb_spec d h) as [->|N].
    + destruct f as [|e|e|e|e t|e t|k0|dl|dst now delay e|]; cbn [removed added recv app expired deferred] in *;
        rewrite ?app_nil_r in *.
      all: try (exists l; split; [exact F|]; rewrite PL, BD; reflexivity).
      * exists l. split; [exact F|]. rewrite PL. rewrite <- BD.
        rewrite <- !app_assoc. apply Permutation_app_head. rewrite !app_assoc. cbn.
        rewrite (Permutation_app_comm _ (e :: _)). cbn. constructor. apply Permutation_app_comm.
      * exists (l ++ [e]). split; [apply Forall2_app; [exact F|constructor; [left; reflexivity|constructor]]|].
        rewrite BD, PL. rewrite <- !app_assoc. do 2 apply Permutation_app_head.
        rewrite (Permutation_app_comm _ [e]). reflexivity.
      * (* deferral *)
        assert (IE : In e l).
        { eapply Permutation_in; [symmetry; exact PL|]. do 2 (apply in_app_iff; right).
          assert (In e (e :: bag (g_host s' h))) by (now left).
          eapply Permutation_in in H; [|exact BD]. destruct H as [H|H]; [|exact H].
          exfalso. unfold effect_ok in EO. assert (t = ev_time e) by (now rewrite <- H). lia. }
        apply in_split in IE as (l1 & l2 & ->).
        apply Forall2_split in F as (m1 & a & m2 & -> & RA & F1 & F2).
        exists (l1 ++ ev_set_time e t :: l2). split.
        -- apply Forall2_app; [eapply Forall2_impl2; [|exact F1]; intros; now apply postponed_more|].
           constructor; [|eapply Forall2_impl2; [|exact F2]; intros; now apply postponed_more].
           right. cbn in EO. cbn. destruct RA as [->|(A & B & _)].
           ++ repeat split; auto; try lia. exists a. rewrite in_app_iff. cbn. auto.
           ++ repeat split; auto; try lia. exists e. rewrite in_app_iff. cbn. auto.
        -- apply (Permutation_cons_inv (a := e)).
           transitivity (ev_set_time e t :: l1 ++ e :: l2).
           { rewrite <- !Permutation_middle. apply perm_swap. }
           rewrite PL. rewrite Permutation_middle. rewrite Permutation_middle.
           rewrite (Permutation_middle (executed h tr)), (Permutation_middle (expired h tr)).
           do 2 apply Permutation_app_head. symmetry. exact BD.
      * exists l. split; [exact F|]. rewrite PL. rewrite <- BD. rewrite <- !app_assoc. reflexivity.
      * destruct (Nat.eqb dst h); rewrite ?app_nil_r in *; cbn [app] in *.
        -- exists (l ++ [e]). split; [apply Forall2_app; [exact F|constructor; [left; reflexivity|constructor]]|].
           rewrite BD, PL. rewrite <- !app_assoc. do 2 apply Permutation_app_head.
           rewrite (Permutation_app_comm _ [e]). reflexivity.
        -- exists l. split; [exact F|]. rewrite PL, BD. reflexivity.
    + cbn [app] in *. rewrite !app_nil_r.
      exists (l ++ recv f d). split.
      * apply Forall2_app; [|apply Forall2_same; left; reflexivity].
        eapply Forall2_impl2; [|exact F]. intros a b X. destruct f; rewrite ?app_nil_r; exact X.
      * rewrite PL. 
        destruct f; rewrite ?app_nil_r in *; rewrite BD; cbn [recv app]; rewrite ?app_nil_r; try reflexivity.
        rewrite <- !app_assoc. do 2 apply Permutation_app_head. apply Permutation_app_comm.
  - (* distinct *)
    intros d LD. rewrite SEEN.
    pose proof (ti_distinct _ _ I d LD) as D.
    destruct (Nat.eqb_spec d h) as [->|N].
    + destruct f as [|e|e|e|e t|e t|k0|dl|dst now delay e|]; cbn [recv app] in *; rewrite ?app_nil_r; auto.
      * destruct EO as (_ & _ & (k & ED) & _). destruct e as [t dt]. cbn in ED. subst dt.
        eapply distinct_perm; [apply Permutation_app_comm|]. apply fresh_local; auto.
        intros t' i k' II. eapply (ti_local _ _ I); eauto.
      * destruct EO as (_ & _ & _ & _ & _ & (k & ED) & _). destruct (Nat.eqb dst h); rewrite ?app_nil_r; auto.
        destruct e as [t dt]. cbn in ED. subst dt.
        eapply distinct_perm; [apply Permutation_app_comm|]. apply fresh_packet; auto.
        intros t' i k' II. eapply (ti_packet _ _ I h); eauto.
    + cbn [app]. destruct f as [|e|e|e|e t|e t|k0|dl|dst now delay e|]; cbn [recv] in *; rewrite ?app_nil_r; auto.
      destruct EO as (_ & _ & _ & _ & _ & (k & ED) & _). destruct (Nat.eqb dst d); rewrite ?app_nil_r; auto.
      destruct e as [t dt]. cbn in ED. subst dt.
      eapply distinct_perm; [apply Permutation_app_comm|]. apply fresh_packet; auto.
      intros t' i k' II. eapply (ti_packet _ _ I d); eauto.
  - intros d t i k LD II. rewrite SEEN in II. apply in_app_iff in II as [II|II].
    { pose proof (ti_local _ _ I d _ _ _ LD II). specialize (CTR d). lia. }
    apply in_app_iff in II as [II|II].
    + destruct (Nat.eqb_spec d h) as [->|N]; [|destruct II]. destruct f; try contradiction II; destruct II as [II|[]].
      subst. cbn in EO. destruct EO as (_ & _ & (k1 & ED) & EC). injection ED as -> _. destruct HX as [-> _]. lia.
    + destruct f; cbn in II; try contradiction II. destruct (Nat.eqb dst d); [|destruct II]. destruct II as [->|[]].
      cbn in EO. destruct EO as (_ & _ & _ & _ & _ & (k1 & ED) & _). discriminate.
  - intros d t src i k LD II. rewrite SEEN in II. apply in_app_iff in II as [II|II].
    { pose proof (ti_packet _ _ I d _ _ _ _ LD II). specialize (CTR src). lia. }
    apply in_app_iff in II as [II|II].
    + destruct (Nat.eqb_spec d h) as [->|N]; [|destruct II]. destruct f; try contradiction II; destruct II as [II|[]].
      subst. cbn in EO. destruct EO as (_ & _ & (k1 & ED) & EC). discriminate.
    + destruct f; cbn in II; try contradiction II. destruct (Nat.eqb dst d); [|destruct II]. destruct II as [->|[]].
      cbn in EO. destruct EO as (_ & _ & _ & _ & _ & (k1 & ED) & EC). injection ED as -> -> _. destruct HX as [-> _]. lia.
  - intros d e LD II. rewrite EXE in II. apply in_app_iff in II as [II|II].
    { pose proof (ti_clock _ _ I d _ LD II). specialize (CLK d). lia. }
    destruct (Nat.eqb_spec d h) as [->|N]; [|destruct II]. destruct f; try contradiction II; destruct II as [II|[]].
    subst. cbn in EO. destruct HX as [_ ->]. lia.
  - intros d e ws' we' LD E II. rewrite (ap_win _ _ _ _ _ _ AP), WIN in E. injection E as <- <-.
    rewrite EXE in II. apply in_app_iff in II as [II|II]; [eapply (ti_past _ _ I); eauto|].
    destruct (Nat.eqb_spec d h) as [->|N]; [|destruct II]. destruct f; try contradiction II; destruct II as [II|[]].
    subst. cbn in EO. lia.
  - intros d LD. rewrite EXE. pose proof (ti_sorted _ _ I d LD) as SO.
    destruct (Nat.eqb_spec d h) as [->|N]; [|now rewrite app_nil_r]. destruct f; rewrite ?app_nil_r; auto.
    apply times_sorted_snoc; auto. intros x II. pose proof (ti_clock _ _ I h _ LD II). cbn in EO. lia.
  - rewrite (ap_win _ _ _ _ _ _ AP), window_after_other by discriminate. apply (ti_window _ _ I).
  - rewrite windows_app. cbn. rewrite app_nil_r. apply (ti_windows _ _ I).
  - rewrite windows_app. cbn. rewrite app_nil_r, (ap_win _ _ _ _ _ _ AP). apply (ti_end _ _ I).
Qed.

Lemma round_TI : forall tr s s' ws we, TI tr s -> GW n s -> g_window s = Some (ws, we) -> all_done P s ->
  end_round P s n = Some s' -> TI (tr ++ [LWindow (g_window s')]) s'.
Proof.
  intros tr s s' ws we I G WIN D ER.
  destruct (GW_round P CFG n s ws we G WIN D) as (x & X & GX & HX & RAX & CX & SX & _ & WX).
  rewrite ER in X. injection X as <-.
  assert (SN : forall h w, seen h (tr ++ [LWindow w]) = seen h tr).
  { intros h w. unfold seen. rewrite enqueued_app. cbn. now rewrite app_nil_r. }
  constructor; intros; rewrite ?SN, ?HX, ?executed_app, ?expired_app, ?deferred_app in *;
    cbn [executed expired deferred] in *; rewrite ?app_nil_r in *.
  - now apply (ti_cons _ _ I).
  - now apply (ti_distinct _ _ I).
  - eapply (ti_local _ _ I); eauto.
  - eapply (ti_packet _ _ I); eauto.
  - now apply (ti_clock _ _ I).
  - rewrite H0 in WX. pose proof (ti_past _ _ I h e ws we H WIN H1).
    destruct (gw_win _ _ _ GX _ _ H0). lia.
  - now apply (ti_sorted _ _ I).
  - now rewrite window_after_snoc.
  - rewrite windows_app. cbn [windows]. apply windows_ok_snoc; [apply (ti_windows _ _ I)|].
    pose proof (windows_last tr (ws, we)) as WL. rewrite <- (ti_window _ _ I) in WL. specialize (WL WIN (ti_windows _ _ I)).
    destruct (last (windows tr) (Some (SIM_START + 1, SIM_START + 1))) as [[a b]|]; [|destruct WL]. cbn in WL. subst b.
    destruct (g_window s') as [[a' b']|] eqn:EW; [|exact Logic.I]. destruct (gw_win _ _ _ GX _ _ EW). lia.
  - rewrite windows_app, H. eexists; reflexivity.
Qed.

Lemma run_TI : forall tr o, run n s0 tr o -> exists s, o = Some s /\ TI tr s /\ GW n s.
Proof.
  intros tr o H. induction H as [|tr s s' l H IH ST|tr s H IH ST].
  - exists s0. split; [reflexivity|]. destruct GS as (G & RS & CO). split; [|exact G].
    assert (SN : forall h, seen h [] = bag (g_host s0 h)) by (intros; unfold seen; cbn; now rewrite app_nil_r).
    constructor; intros; rewrite ?SN in *; cbn [executed] in *; try tauto.
    + exists (bag (g_host s0 h)). split; [|reflexivity].
      induction (bag (g_host s0 h)); constructor; auto. left; reflexivity.
    + apply (gw_host _ _ _ G _ _ _ W0 H).
    + apply (hw_ctr _ _ _ _ _ (gw_host _ _ _ G _ _ _ W0 H) _ _ _ H0).
    + eapply (gw_pkt _ _ _ G); eauto.
    + destruct H0.
    + destruct H1.
    + exact Logic.I.
    + exact Logic.I.
    + rewrite W0 in H. discriminate.
  - destruct IH as (s1 & E & I & G). injection E as <-.
    exists s'. split; [reflexivity|].
    destruct (step_GW keqb teqb P CFG n s _ G ST) as (s2 & l2 & E2 & G2). injection E2 as <- <-. split; [|exact G2].
    pose proof (step_cases keqb teqb P CFG n s _ G ST) as SC. remember (Some (s', l)) as o2 eqn:EO2.
    destruct SC as [h w ws' we' W LH LW STA|h w ws' we' x' f s2 W STA HS AE|h w ws' we' W STA|ws' we' s2 W DONE ER];
      injection EO2 as <- <-.
    + eapply plain_step; eauto; discriminate.
    + eapply host_step_TI; eauto.
    + eapply plain_step; eauto; discriminate.
    + eapply round_TI; eauto.
  - destruct IH as (s1 & E & I & G). injection E as <-.
    destruct (step_GW keqb teqb P CFG n s _ G ST) as (s2 & l2 & E2 & G2). discriminate.
Qed.

(** Looking at one label inside an execution. *)
Lemma run_at : forall a l b o, run n s0 (a ++ l :: b) o -> exists s s', run n s0 a (Some s) /\ step n s (Some (s', l)) /\ run n s0 (a ++ [l]) (Some s').
Proof.
  intros a l b o H. remember (a ++ l :: b) as tr eqn:E. revert b E.
  induction H as [|tr s s' l' H IH ST|tr s H IH ST]; intros b E.
  - destruct a; discriminate.
  - destruct b as [|y b] using rev_ind.
    + apply app_inj_tail in E as [-> ->]. exists s, s'. split; [exact H|]. split; [exact ST|]. econstructor; eauto.
    + assert (E' : a ++ l :: b ++ [y] = (a ++ l :: b) ++ [y]) by (rewrite <- app_assoc; reflexivity).
      rewrite E' in E. apply app_inj_tail in E as [-> ->]. eapply IH. reflexivity.
  - eapply IH; eauto.
Qed.

Lemma label_effect : forall a h f b o, run n s0 (a ++ LHost h f :: b) o ->
  exists s s' w ws we x', run n s0 a (Some s) /\ run n s0 (a ++ [LHost h f]) (Some s') /\
    GW n s /\ TI a s /\ g_window s = Some (ws, we) /\ window_after a = Some (ws, we) /\
    g_status s h = RActive w /\ host_step h we (g_host s h) = Some (x', f) /\
    apply_effect s h w x' f = Some s' /\ effect_ok P h ws we (g_host s h) x' f /\ (h < p_nhosts P)%nat.
Proof.
  intros a h f b o H. apply run_at in H as (s & s' & RA & ST & R2).
  destruct (run_TI _ _ RA) as (x & E & I & G). injection E as <-.
  pose proof (step_cases keqb teqb P CFG n s _ G ST) as SC. remember (Some (s', LHost h f)) as o2 eqn:EO2.
  destruct SC as [h0 w ws' we' W LH LW STA|h0 w ws' we' x' f0 s2 W STA HS AE|h0 w ws' we' W STA|ws' we' s2 W DONE ER];
    try discriminate.
  injection EO2 as <- <- <-.
  destruct (host_step_global keqb teqb P CFG n s h0 w ws' we' G W STA)
    as (x2 & f2 & s3 & HS2 & AE2 & AP & W' & EO & PM & CT & CK & LA & LH & _).
  rewrite HS in HS2. injection HS2 as <- <-.
  exists s, s2, w, ws', we', x'. rewrite <- (ti_window _ _ I). auto 15.
Qed.

(** The shared runahead follows the policy of the latencies used so far. *)
Record RP (tr : list label) (s : gstate) (dyn : bool) (mp : Z) (cfg : option Z) : Prop := {
  rp_dyn : ra_dynamic (g_ra s) = dyn;
  rp_mp : ra_min_possible (g_ra s) = mp;
  rp_cfg : ra_config (g_ra s) = cfg;
  rp_static : dyn = false -> ra_min_used (g_ra s) = None;
  rp_in : forall m, ra_min_used (g_ra s) = Some m -> In m (used tr);
  rp_le : dyn = true -> forall l, In l (used tr) -> exists m, ra_min_used (g_ra s) = Some m /\ m <= l;
  rp_cache : cache_ok s;
}.

Lemma RP_policy : forall tr s dyn mp cfg, RP tr s dyn mp cfg -> ra_get (g_ra s) = policy dyn mp cfg (used tr).
Proof.
  intros tr s dyn mp cfg R. unfold ra_get, policy, bound_of. rewrite (rp_cfg _ _ _ _ _ R), (rp_mp _ _ _ _ _ R), Z.max_comm.
  f_equal. destruct dyn.
  - destruct (ra_min_used (g_ra s)) as [m|] eqn:E.
    + symmetry. apply smallest_spec.
      * intros X. pose proof (rp_in _ _ _ _ _ R m E) as I. rewrite X in I. destruct I.
      * now apply (rp_in _ _ _ _ _ R).
      * intros x I. destruct (rp_le _ _ _ _ _ R eq_refl x I) as (m' & E' & L). rewrite E in E'. injection E' as <-. exact L.
    + destruct (used tr) as [|x l] eqn:U; [reflexivity|].
      destruct (rp_le _ _ _ _ _ R eq_refl x) as (m' & E' & L); [rewrite U; now left|congruence].
  - now rewrite (rp_static _ _ _ _ _ R eq_refl).
Qed.

Lemma run_RP : forall dyn mp cfg tr s, RP [] s0 dyn mp cfg -> run n s0 tr (Some s) -> RP tr s dyn mp cfg.
Proof.
  intros dyn mp cfg tr s R0 H. remember (Some s) as o eqn:EO. revert s EO.
  induction H as [|tr s1 s' l H IH ST|tr s1 H IH ST]; intros s EO; [|injection EO as <-|discriminate].
  { injection EO as <-. exact R0. }
  specialize (IH _ eq_refl).
  destruct (run_TI _ _ H) as (x & E & I & G). injection E as <-.
  pose proof (step_cases keqb teqb P CFG n s1 _ G ST) as SC. remember (Some (s', l)) as o2 eqn:EO2.
  assert (PL : forall l', used [l'] = [] -> g_ra s' = g_ra s1 -> (forall w, w_cache (g_worker s' w) = w_cache (g_worker s1 w)) -> RP (tr ++ [l']) s' dyn mp cfg).
  { intros l' U ER EC. constructor; rewrite ?used_app, ?U, ?app_nil_r, ?ER; try apply IH.
    intros D w c. rewrite ER, EC in *. now apply (rp_cache _ _ _ _ _ IH). }
  destruct SC as [h w ws' we' W LH LW STA|h w ws' we' x' f s2 W STA HS AE|h w ws' we' W STA|ws' we' s2 W DONE ER];
    injection EO2 as <- <-.
  - apply PL; auto.
  - destruct (host_step_global keqb teqb P CFG n s1 h w ws' we' G W STA)
      as (x2 & f2 & s3 & HS2 & AE2 & AP & W' & EO & _).
    rewrite HS in HS2. injection HS2 as <- <-. rewrite AE in AE2. injection AE2 as <-.
    pose proof (ap_ra _ _ _ _ _ _ AP) as RA.
    destruct (match f with FLat _ => true | _ => false end) eqn:FL.
    + destruct f as [| | | | | | |delay| |]; try discriminate. destruct RA as (c & go & CU & GW' & RU).
      assert (DP : 0 < delay).
      { cbn in EO. destruct EO as (d & LD & ->). apply (co_lat _ CFG); auto. apply (gw_dom _ _ _ G). congruence. }
      destruct (report_after _ _ _ _ _ _ DP (rp_cache _ _ _ _ _ IH) CU RU) as (A1 & A2 & A3 & A4 & A5 & A6 & A7 & A8).
      pose proof (rp_dyn _ _ _ _ _ IH) as DY.
      constructor; rewrite ?used_app; cbn [used].
      * congruence.
      * rewrite A2. apply IH.
      * rewrite A3. apply IH.
      * intros D. rewrite A4 by congruence. now apply IH.
      * intros m Em. rewrite in_app_iff. destruct (A5 _ Em) as [X| ->]; [left; now apply (rp_in _ _ _ _ _ IH)|right; now left].
      * intros D l. rewrite in_app_iff. intros [X|[<-|[]]]; [|apply A7; congruence].
        destruct (rp_le _ _ _ _ _ IH D _ X) as (m1 & E1 & L1). destruct (A6 _ E1) as (m2 & E2 & L2). exists m2. split; [auto|lia].
      * intros D w' c' EC. rewrite A1 in D. destruct (Nat.eq_dec w' w) as [->|N].
        -- rewrite GW' in EC. cbn in EC. destruct (A8 _ EC) as [->|CW]; [auto|].
           destruct (rp_cache _ _ _ _ _ IH D _ _ CW) as (m & Em & L). destruct (A6 _ Em) as (m2 & E2 & L2). exists m2. split; [auto|lia].
        -- rewrite (ap_cache _ _ _ _ _ _ AP) in EC by auto.
           destruct (rp_cache _ _ _ _ _ IH D _ _ EC) as (m & Em & L). destruct (A6 _ Em) as (m2 & E2 & L2). exists m2. split; [auto|lia].
    + apply PL.
      * destruct f; auto; discriminate.
      * destruct f; try exact RA; discriminate.
      * intros w'. apply (ap_cache _ _ _ _ _ _ AP). right. intros d ->. discriminate.
  - apply PL; auto. intros w'. cbn. destruct (Nat.eq_dec w' w) as [->|N]; [now rewrite upd_same|now rewrite upd_other by auto].
  - destruct (GW_round P CFG n s1 ws' we' G W DONE) as (x & X & GX & HX & RAX & CX & SX & _ & WX).
    rewrite ER in X. injection X as <-. apply PL; auto.
Qed.

(** Each window starts at the earliest pending event and is as long as the policy allows. *)
Lemma window_policy : forall dyn mp cfg a w b o, RP [] s0 dyn mp cfg -> run n s0 (a ++ LWindow w :: b) o ->
  exists s s', run n s0 a (Some s) /\ run n s0 (a ++ [LWindow w]) (Some s') /\ GW n s /\ g_host s' = g_host s /\
  match w with
  | Some (x, y) => y = Z.min (x + policy dyn mp cfg (used a)) (p_sim_end P) /\ x < p_sim_end P /\
       (forall h e, (h < p_nhosts P)%nat -> In e (bag (g_host s h)) -> x <= ev_time e) /\
       (exists h e, (h < p_nhosts P)%nat /\ In e (bag (g_host s h)) /\ ev_time e = x)
  | None => forall h e, (h < p_nhosts P)%nat -> In e (bag (g_host s h)) -> p_sim_end P <= ev_time e
  end.
Proof.
  intros dyn mp cfg a w b o R0 H. apply run_at in H as (s & s' & RA & ST & R2).
  destruct (run_TI _ _ RA) as (x & E & I & G). injection E as <-.
  pose proof (step_cases keqb teqb P CFG n s _ G ST) as SC. remember (Some (s', LWindow w)) as o2 eqn:EO2.
  destruct SC as [h0 w0 ws' we' W LH LW STA|h0 w0 ws' we' x' f0 s2 W STA HS AE|h0 w0 ws' we' W STA|ws' we' s2 W DONE ER];
    try discriminate.
  injection EO2 as EQ1 EQ2. subst s2 w.
  destruct (GW_round P CFG n s ws' we' G W DONE) as (x & X & GX & HX & RAX & CX & SX & _ & WX).
  rewrite ER in X. injection X as <-. exists s, s'. do 4 (split; [assumption|]).
  destruct (g_window s') as [[p q]|]; [|exact WX].
  rewrite <- (RP_policy _ _ _ _ _ (run_RP _ _ _ _ _ R0 RA)). tauto.
Qed.

(** Windows are no longer than the policy allows, including the first one. *)
Lemma window_length : forall dyn mp cfg a s ws we, RP [] s0 dyn mp cfg -> 0 < mp ->
  run n s0 a (Some s) -> g_window s = Some (ws, we) ->
  exists a0, is_prefix a0 a /\ we - ws <= policy dyn mp cfg (used a0) /\ (windows a = [] -> we - ws = 1).
Proof.
  intros dyn mp cfg a s ws we R0 MP H W.
  remember (Some s) as o eqn:EO. revert s EO W.
  induction H as [|tr s1 s' l H IH ST|tr s1 H IH ST]; intros s EO W; [|injection EO as <-|discriminate].
  - injection EO as <-. rewrite W0 in W. unfold first_window in W. injection W as <- <-.
    exists []. split; [apply prefix_refl|]. split; [|lia].
    unfold policy, bound_of, smallest_or. cbn. destruct dyn, cfg; lia.
  - destruct (run_TI _ _ H) as (x & E & I & G). injection E as <-.
    pose proof (step_cases keqb teqb P CFG n s1 _ G ST) as SC. remember (Some (s', l)) as o2 eqn:EO2.
    assert (PL : forall l', g_window s' = g_window s1 -> windows [l'] = [] -> exists a0, is_prefix a0 (tr ++ [l']) /\ we - ws <= policy dyn mp cfg (used a0) /\ (windows (tr ++ [l']) = [] -> we - ws = 1)).
    { intros l' EW WL. rewrite EW in W. destruct (IH _ eq_refl W) as (a0 & PR & L & F). exists a0. split.
      - eapply prefix_trans; [exact PR|apply prefix_app].
      - split; [exact L|]. rewrite windows_app, WL, app_nil_r. exact F. }
    destruct SC as [h w ws' we' WW LH LW STA|h w ws' we' x' f s2 WW STA HS AE|h w ws' we' WW STA|ws' we' s2 WW DONE ER];
      injection EO2 as <- <-.
    + apply PL; auto.
    + apply PL; auto. destruct (host_step_global keqb teqb P CFG n s1 h w ws' we' G WW STA)
        as (x2 & f2 & s3 & HS2 & AE2 & AP & _).
      rewrite HS in HS2. injection HS2 as <- <-. rewrite AE in AE2. injection AE2 as <-. apply AP.
    + apply PL; auto.
    + destruct (GW_round P CFG n s1 ws' we' G WW DONE) as (x & X & GX & HX & RAX & CX & SX & _ & WX).
      rewrite ER in X. injection X as <-. rewrite W in WX. destruct WX as (A & B & -> & _).
      exists tr. split; [apply prefix_app|]. split.
      * rewrite <- (RP_policy _ _ _ _ _ (run_RP _ _ _ _ _ R0 H)). lia.
      * rewrite windows_app. cbn. intros X. apply app_eq_nil in X as [_ X]. discriminate.
Qed.

End R.
End P.
