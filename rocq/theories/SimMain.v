(** The simulation properties in their final form. *)
From Verif Require Import Base TimeModel TimeProofs EventModel EventSpec EventProofs CpuModel RunaheadModel
  RunaheadSpec RunaheadProofs SimModel SimSpec SimProofs SimInv SimDet SimRounds SimTrace.

Lemma executed_effects : forall K T h (tr : list (label K T)),
  executed h tr = flat_map (fun f => match f with FExec e => [e] | _ => [] end) (effects h tr).
Proof.
  induction tr as [|l tr IH]; [reflexivity|]. destruct l as [|h' f|w]; cbn; auto.
  destruct (Nat.eqb h' h) eqn:E; destruct f; cbn; rewrite ?E, ?IH; reflexivity.
Qed.

Section P.
Context {S K T : Type} (keqb : K -> K -> bool) (teqb : T -> T -> bool) (P : params S K T).
Context (priv : nat -> S) (c : nat -> cpu) (boot : nat -> list (Z * T)) (dyn : bool) (mp : Z) (cfg : option Z) (ra : runahead).
Hypothesis SU : setup P c boot dyn mp cfg ra.
Notation init := (init_state P priv c boot ra).
Notation run := (run keqb teqb P).
Notation bag x := (q_bag (h_q x)).
Notation event := (event K T).

Let CFG := su_config _ _ _ _ _ _ _ SU.
Lemma GS : forall n, good_start P n init.
Proof. intros n. eapply (init_good teqb P CFG); [apply (su_boot _ _ _ _ _ _ _ SU)|apply (su_mp _ _ _ _ _ _ _ SU)|apply (su_ra _ _ _ _ _ _ _ SU)]. Qed.
Lemma W0 : g_window init = first_window.
Proof. reflexivity. Qed.

Lemma det_prefix : forall n1 n2 tr1 tr2 s1 s2, run n1 init tr1 (Some s1) -> run n2 init tr2 (Some s2) ->
  comparable_lists (windows tr1) (windows tr2) /\
  forall h, (h < p_nhosts P)%nat -> comparable_lists (effects h tr1) (effects h tr2) /\
    comparable_lists (executed h tr1) (executed h tr2).
Proof.
  intros n1 n2 tr1 tr2 s1 s2 R1 R2.
  assert (X : comparable_lists (windows tr1) (windows tr2) /\
    forall h, (h < p_nhosts P)%nat -> comparable_lists (effects h tr1) (effects h tr2)).
  { destruct (Nat.lt_trichotomy (length (windows tr1)) (length (windows tr2))) as [L|[L|L]].
    - destruct (fewer_windows _ _ P CFG _ _ _ _ _ _ _ (GS n1) (GS n2) R1 R2 L) as (_ & A & B). split; [left; auto|]. intros; left; auto.
    - destruct (same_windows _ _ P CFG _ _ _ _ _ _ _ (GS n1) (GS n2) R1 R2 L) as (A & B & _). split; [left; rewrite A; apply prefix_refl|exact B].
    - destruct (fewer_windows _ _ P CFG _ _ _ _ _ _ _ (GS n2) (GS n1) R2 R1 L) as (_ & A & B). split; [right; auto|]. intros; right; auto. }
  destruct X as [A B]. split; [exact A|]. intros h LH. split; [auto|].
  rewrite !executed_effects. destruct (B h LH) as [[r ->]|[r ->]]; [left|right]; rewrite flat_map_app; apply prefix_app.
Qed.

Lemma det_final : forall n1 n2 tr1 tr2 s1 s2, run n1 init tr1 (Some s1) -> run n2 init tr2 (Some s2) ->
  g_window s1 = None -> g_window s2 = None ->
  windows tr1 = windows tr2 /\ length tr1 = length tr2 /\ g_ra s1 = g_ra s2 /\
  forall h, (h < p_nhosts P)%nat ->
    effects h tr1 = effects h tr2 /\ executed h tr1 = executed h tr2 /\
    h_priv (g_host s1 h) = h_priv (g_host s2 h) /\ h_ctr (g_host s1 h) = h_ctr (g_host s2 h) /\
    h_clock (g_host s1 h) = h_clock (g_host s2 h) /\ h_cpu (g_host s1 h) = h_cpu (g_host s2 h) /\
    Permutation (bag (g_host s1 h)) (bag (g_host s2 h)).
Proof.
  intros n1 n2 tr1 tr2 s1 s2 R1 R2 E1 E2.
  destruct (finished_bound _ _ P CFG _ _ _ _ _ _ _ (GS n1) (GS n2) R1 R2 E2) as (A1 & B1 & L1).
  destruct (finished_bound _ _ P CFG _ _ _ _ _ _ _ (GS n2) (GS n1) R2 R1 E1) as (A2 & B2 & L2).
  assert (L : length (windows tr1) = length (windows tr2)).
  { destruct A1 as [x X], A2 as [y Y]. rewrite Y in X. rewrite <- app_assoc in X.
    assert (length (y ++ x) = 0)%nat by (apply (f_equal (@length _)) in X; rewrite app_length in X; lia).
    rewrite Y, app_length. rewrite app_length in H. lia. }
  destruct (same_windows _ _ P CFG _ _ _ _ _ _ _ (GS n1) (GS n2) R1 R2 L) as (WW & _ & _ & F).
  destruct (F E2) as (EQ & _ & _ & EE).
  split; [exact WW|]. split; [lia|]. split; [apply EQ|]. intros h LH.
  pose proof (eq_host _ _ _ EQ h LH) as SX. pose proof (sx_bag _ _ _ SX) as PB. rewrite app_nil_r in PB.
  rewrite !executed_effects, (EE h LH). repeat split; auto; apply SX.
Qed.

Lemma det_complete : forall n1 n2 tr1 tr2 s1 s2, (0 < n1)%nat -> run n1 init tr1 (Some s1) -> run n2 init tr2 (Some s2) ->
  g_window s2 = None ->
  (length tr1 <= length tr2)%nat /\
  exists more s1', run n1 init (tr1 ++ more) (Some s1') /\ g_window s1' = None.
Proof.
  intros n1 n2 tr1 tr2 s1 s2 N R1 R2 E2.
  destruct (finished_bound _ _ P CFG _ _ _ _ _ _ _ (GS n1) (GS n2) R1 R2 E2) as (A1 & B1 & L1).
  split; [exact L1|]. eapply complete_run; eauto; apply GS.
Qed.

Lemma main_progress : forall n tr s, (0 < n)%nat -> run n init tr (Some s) -> g_window s <> None ->
  exists s' l, step keqb teqb P n s (Some (s', l)).
Proof.
  intros n tr s N R W. destruct (run_GW keqb teqb P CFG n _ _ _ (proj1 (GS n)) R) as (x & E & G). injection E as <-.
  eapply progress; eauto.
Qed.

Lemma main_no_panic : forall n tr, ~ run n init tr None.
Proof. intros n tr R. destruct (run_GW keqb teqb P CFG n _ _ _ (proj1 (GS n)) R) as (x & E & _). discriminate. Qed.

Lemma main_TI : forall n tr s, run n init tr (Some s) -> TI P init tr s /\ GW P n s.
Proof.
  intros n tr s R. destruct (run_TI keqb teqb P CFG n _ (GS n) W0 _ _ R) as (x & E & I & G). injection E as <-. auto.
Qed.

Lemma main_sorted : forall n tr s h, run n init tr (Some s) -> (h < p_nhosts P)%nat -> times_sorted (executed h tr).
Proof. intros n tr s h R LH. destruct (main_TI _ _ _ R) as [I _]. now apply (ti_sorted _ _ _ _ I). Qed.

Lemma main_arrivals : forall n a h f b o d e e', run n init (a ++ LHost h f :: b) o ->
  (f = FLocal e /\ d = h \/ exists now delay, f = FSend d now delay e) ->
  In e' (executed d a) -> ev_time e' <= ev_time e.
Proof.
  intros n a h f b o d e e' R F IN.
  destruct (label_effect keqb teqb P CFG n _ (GS n) W0 a h f b o R)
    as (s & s' & w & ws & we & x' & R1 & R2 & G & I & WIN & WA & STA & HS & AE & EO & LH).
  destruct F as [[-> ->]|(now & delay & ->)].
  - cbn in EO. pose proof (ti_clock _ _ _ _ I h e' LH IN). lia.
  - cbn in EO. destruct EO as (LD & _ & _ & -> & _).
    pose proof (ti_past _ _ _ _ I d e' ws we LD WIN IN). lia.
Qed.

Lemma main_latency : forall n a h b o d now delay e, run n init (a ++ LHost h (FSend d now delay e) :: b) o ->
  exists ws we, window_after a = Some (ws, we) /\ ws <= now <= we /\ delay = p_lat P h d /\
    ev_time e = Z.max (now + p_lat P h d) we /\ (we - ws <= p_lat P h d -> ev_time e = now + p_lat P h d).
Proof.
  intros n a h b o d now delay e R.
  destruct (label_effect keqb teqb P CFG n _ (GS n) W0 a h _ b o R)
    as (s & s' & w & ws & we & x' & R1 & R2 & G & I & WIN & WA & STA & HS & AE & EO & LH).
  exists ws, we. cbn in EO. destruct EO as (LD & _ & -> & -> & N & _).
  split; [exact WA|]. split; [lia|]. split; [reflexivity|]. split; [reflexivity|]. lia.
Qed.

Lemma RP0 : RP [] init dyn mp cfg.
Proof.
  pose proof (su_ra _ _ _ _ _ _ _ SU) as RN. unfold ra_new, assert_then in RN.
  destruct (negb (mp =? 0)); [|discriminate]. injection RN as <-.
  constructor; cbn; auto; try discriminate; try tauto.
Qed.

Lemma main_window_length : forall n a s ws we, run n init a (Some s) -> window_after a = Some (ws, we) ->
  exists a0, is_prefix a0 a /\ we - ws <= policy dyn mp cfg (used a0).
Proof.
  intros n a s ws we R W. destruct (main_TI _ _ _ R) as [I _]. rewrite <- (ti_window _ _ _ _ I) in W.
  destruct (window_length keqb teqb P CFG n _ (GS n) W0 dyn mp cfg a s ws we RP0 (su_mp _ _ _ _ _ _ _ SU) R W) as (a0 & A & B & _). eauto.
Qed.

Lemma main_static : forall n a h b o d now delay e, run n init (a ++ LHost h (FSend d now delay e) :: b) o ->
  dyn = false -> (h < p_nhosts P)%nat -> (d < p_nhosts P)%nat ->
  mp <= p_lat P h d -> bound_of cfg <= p_lat P h d -> ev_time e = now + p_lat P h d.
Proof.
  intros n a h b o d now delay e R D LH LD M B.
  destruct (main_latency _ _ _ _ _ _ _ _ _ R) as (ws & we & WA & NW & _ & _ & X). apply X.
  destruct (run_at keqb teqb P n _ _ _ _ _ R) as (s & s' & RA & _ & _).
  destruct (main_window_length n a s ws we RA WA) as (a0 & _ & L). unfold policy in L. rewrite D in L. lia.
Qed.

Lemma main_dynamic : forall n a h b o d now delay e, run n init (a ++ LHost h (FSend d now delay e) :: b) o ->
  bound_of cfg <= p_lat P h d -> mp <= p_lat P h d ->
  (forall l, In l (used a) -> l <= p_lat P h d) -> ev_time e = now + p_lat P h d.
Proof.
  intros n a h b o d now delay e R B M U.
  destruct (main_latency _ _ _ _ _ _ _ _ _ R) as (ws & we & WA & NW & _ & _ & X). apply X.
  destruct (run_at keqb teqb P n _ _ _ _ _ R) as (s & s' & RA & _ & _).
  destruct (main_window_length n a s ws we RA WA) as (a0 & [r E] & L). unfold policy in L.
  assert (X2 : smallest_or mp (used a0) <= p_lat P h d).
  { destruct (used a0) as [|x l] eqn:UA; [cbn; lia|]. cbn.
    pose proof (least_spec l x) as (_ & LE & _).
    assert (In x (used a)) by (rewrite E, used_app, UA; now left). specialize (U _ H). lia. }
  destruct dyn; lia.
Qed.

Lemma main_windows : forall n tr s, run n init tr (Some s) -> windows_ok (p_sim_end P) (SIM_START + 1) (windows tr).
Proof. intros n tr s R. destruct (main_TI _ _ _ R) as [I _]. apply I. Qed.

Lemma main_window_policy : forall n a w b o, run n init (a ++ LWindow w :: b) o ->
  exists s, run n init a (Some s) /\
  match w with
  | Some (x, y) => y = Z.min (x + policy dyn mp cfg (used a)) (p_sim_end P) /\ x < p_sim_end P /\
       (forall h e, (h < p_nhosts P)%nat -> In e (bag (g_host s h)) -> x <= ev_time e) /\
       (exists h e, (h < p_nhosts P)%nat /\ In e (bag (g_host s h)) /\ ev_time e = x)
  | None => forall h e, (h < p_nhosts P)%nat -> In e (bag (g_host s h)) -> p_sim_end P <= ev_time e
  end.
Proof.
  intros n a w b o R. destruct (window_policy keqb teqb P CFG n _ (GS n) W0 dyn mp cfg a w b o RP0 R)
    as (s & s' & A & _ & _ & _ & B). exists s. split; [exact A|exact B].
Qed.

Lemma main_exec_window : forall n a h e b o, run n init (a ++ LHost h (FExec e) :: b) o ->
  exists ws we, window_after a = Some (ws, we) /\ ws <= ev_time e < we.
Proof.
  intros n a h e b o R.
  destruct (label_effect keqb teqb P CFG n _ (GS n) W0 a h _ b o R)
    as (s & s' & w & ws & we & x' & R1 & R2 & G & I & WIN & WA & STA & HS & AE & EO & LH).
  exists ws, we. split; auto. cbn in EO. lia.
Qed.

(** Without a CPU threshold nothing is ever postponed. *)
Lemma host_step_cpu : forall h we (x x' : hstate S K T) f, host_step keqb teqb P h we x = Some (x', f) ->
  cpu_threshold (h_cpu x) = None -> cpu_threshold (h_cpu x') = None /\
  match f with FDefer _ _ | FExpire _ _ => False | _ => True end.
Proof.
  intros h we x x' f H TH. unfold host_step in H. destruct (h_phase x).
  - unfold pop_step in H. destruct (q_next_event_time keqb teqb (h_q x)) as [t|]; [|injection H as <- <-; auto].
    destruct (t <? we); [|injection H as <- <-; auto].
    destruct (q_pop keqb teqb (h_q x)) as [[r q']|]; ob_in H; [|discriminate]. destruct r as [e|]; ob_in H; [|discriminate].
    assert (D : cpu_delay (cpu_update_time (h_cpu x) (ev_time e)) = 0) by (unfold cpu_delay; cbn; now rewrite TH).
    rewrite D in H. cbn [Z.ltb Z.compare] in H. injection H as <- <-. cbn. auto.
  - unfold do_action in H. destruct (p_next P h (h_priv x)).
    + injection H as <- <-. auto.
    + destruct (push_local keqb teqb P (h_q x) _) as [[ok q]|]; ob_in H; [|discriminate]. injection H as <- <-. destruct ok; auto.
    + destruct (p_sim_end P <=? h_clock x); [injection H as <- <-; auto|].
      destruct (negb (Nat.ltb dst (p_nhosts P))); [injection H as <- <-; auto|].
      destruct (negb (h_clock x <? p_boot_end P) && (p_rel P h dst <=? chance) && payload); injection H as <- <-; auto.
    + destruct ((h_clock x <=? t) && (t <=? max_runahead keqb teqb we (h_q x))); injection H as <- <-; auto.
    + injection H as <- <-; auto.
    + injection H as <- <-; auto.
    + destruct (cpu_add_delay (h_cpu x) (Z.of_N native)) as [c'|] eqn:E; ob_in H; [|discriminate]. injection H as <- <-.
      unfold cpu_add_delay in E. destruct (cpu_charge (h_cpu x) (Z.of_N native)); ob_in E; [|discriminate]. injection E as <-. auto.
  - injection H as <- <-; auto.
  - injection H as <- <-; auto.
Qed.

Lemma main_no_defer : forall n tr s, (forall h, cpu_threshold (c h) = None) -> run n init tr (Some s) ->
  (forall h, cpu_threshold (h_cpu (g_host s h)) = None) /\ forall h, deferred h tr = [] /\ expired h tr = [].
Proof.
  intros n tr s TH R. remember (Some s) as o eqn:EO. revert s EO.
  induction R as [|tr s1 s' l H IH ST|tr s1 H IH ST]; intros s EO; [|injection EO as <-|discriminate].
  { injection EO as <-. split; [exact TH|]. auto. }
  destruct (IH _ eq_refl) as [A B]. destruct (main_TI _ _ _ H) as [I G].
  pose proof (step_cases keqb teqb P CFG n s1 _ G ST) as SC. remember (Some (s', l)) as o2 eqn:EO2.
  assert (PL : deferred 0 [l] = [] -> (forall h, deferred h [l] = []) -> (forall h, expired h [l] = []) ->
     forall h, deferred h (tr ++ [l]) = [] /\ expired h (tr ++ [l]) = []).
  { intros _ X Y h. rewrite deferred_app, expired_app, X, Y. destruct (B h) as [-> ->]. auto. }
  destruct SC as [h w ws' we' W LH LW STA|h w ws' we' x' f s2 W STA HS AE|h w ws' we' W STA|ws' we' s2 W DONE ER];
    injection EO2 as <- <-.
  - split; [exact A|]. apply PL; reflexivity.
  - destruct (host_step_global keqb teqb P CFG n s1 h w ws' we' G W STA) as (x2 & f2 & s3 & HS2 & AE2 & AP & _).
    rewrite HS in HS2. injection HS2 as <- <-. rewrite AE in AE2. injection AE2 as <-.
    destruct (host_step_cpu _ _ _ _ _ HS (A h)) as [C1 C2]. split.
    + intros d. rewrite (ap_host _ _ _ _ _ _ AP). unfold with_recv. cbn.
      destruct (Nat.eq_dec d h) as [->|N]; [now rewrite upd_same|rewrite upd_other by auto; apply A].
    + apply PL; intros; cbn; destruct f; try reflexivity; destruct C2.
  - split; [exact A|]. apply PL; reflexivity.
  - destruct (GW_round P CFG n s1 ws' we' G W DONE) as (x & X & GX & HX & _). rewrite ER in X. injection X as <-.
    split; [rewrite HX; exact A|]. apply PL; reflexivity.
Qed.

Lemma postponed_nil : forall l l' : list event, Forall2 (postponed []) l l' -> l = l'.
Proof.
  induction 1 as [|a b l l' R F IH]; [reflexivity|]. subst. destruct R as [->|(_ & _ & d & [] & _)]. reflexivity.
Qed.

Lemma main_conserved : forall n tr s h, run n init tr (Some s) -> (h < p_nhosts P)%nat ->
  NoDup (map ident_of (arrived P boot h tr)) /\
  exists l, Forall2 (postponed (deferred h tr)) (arrived P boot h tr) l /\
    Permutation l (executed h tr ++ expired h tr ++ bag (g_host s h)) /\ NoDup (map ident_of (executed h tr)).
Proof.
  intros n tr s h R LH. destruct (main_TI _ _ _ R) as [I _].
  pose proof (ti_distinct _ _ _ _ I h LH) as D. split; [exact D|].
  destruct (ti_cons _ _ _ _ I h LH) as (l & F & PM). exists l. split; [exact F|]. split; [exact PM|].
  assert (E : map ident_of l = map ident_of (seen init h tr)).
  { clear -F. induction F as [|a b l l' R F IH]; [reflexivity|]. cbn. f_equal; [|exact IH].
    destruct R as [->|(A & _)]; [reflexivity|]. unfold ident_of. now rewrite A. }
  apply (Permutation_map ident_of) in PM. rewrite E in PM. rewrite map_app in PM.
  eapply Permutation_NoDup in PM; [|exact D]. now apply nodup_app_l in PM.
Qed.

Lemma main_end_queue : forall n tr s h e, run n init tr (Some s) -> g_window s = None -> (h < p_nhosts P)%nat ->
  In e (bag (g_host s h)) -> p_sim_end P <= ev_time e.
Proof. intros n tr s h e R W LH IN. destruct (main_TI _ _ _ R) as [_ G]. eapply (gw_end _ _ _ G W); eauto. Qed.

Lemma exec_below_stop : forall n tr s h e, run n init tr (Some s) -> (h < p_nhosts P)%nat -> In e (executed h tr) ->
  ev_time e < p_sim_end P.
Proof.
  intros n tr s h e R LH. remember (Some s) as o eqn:EO. revert s EO.
  induction R as [|tr s1 s' l H IH ST|tr s1 H IH ST]; intros s EO IN; [destruct IN|injection EO as <-|discriminate].
  rewrite executed_app in IN. apply in_app_iff in IN as [IN|IN]; [eapply IH; eauto|].
  destruct l as [|h' f|w]; cbn in IN; try contradiction. destruct f; try contradiction. destruct (Nat.eqb_spec h' h); [|destruct IN].
  subst h'. destruct IN as [IN|[]]; subst e0.
  assert (RR : run n init (tr ++ LHost h (FExec e) :: []) (Some s')) by (econstructor; eauto).
  destruct (label_effect keqb teqb P CFG n _ (GS n) W0 _ h _ _ _ RR)
    as (s & s2 & w & ws & we & x' & R1 & R2 & G & I & WIN & WA & STA & HS & AE & EO & _).
  cbn in EO. pose proof (gw_win _ _ _ G _ _ WIN). lia.
Qed.

Lemma filter_all : forall A (f : A -> bool) l, (forall x, In x l -> f x = true) -> filter f l = l.
Proof. induction l as [|x l IH]; intros H; [reflexivity|]. cbn. rewrite H by (now left). f_equal. apply IH. intros; apply H; now right. Qed.
Lemma filter_none : forall A (f : A -> bool) l, (forall x, In x l -> f x = false) -> filter f l = [].
Proof. induction l as [|x l IH]; intros H; [reflexivity|]. cbn. rewrite H by (now left). apply IH. intros; apply H; now right. Qed.
Lemma filter_perm : forall A (f : A -> bool) l l', Permutation l l' -> Permutation (filter f l) (filter f l').
Proof.
  induction 1; cbn; auto.
  - destruct (f x); auto.
  - destruct (f x), (f y); auto. apply perm_swap.
  - etransitivity; eauto.
Qed.

Lemma main_all_executed : forall n tr s h, (forall h, cpu_threshold (c h) = None) ->
  run n init tr (Some s) -> g_window s = None -> (h < p_nhosts P)%nat ->
  Permutation (executed h tr) (filter (fun e => ev_time e <? p_sim_end P) (arrived P boot h tr)).
Proof.
  intros n tr s h TH R W LH. destruct (main_no_defer _ _ _ TH R) as [_ ND]. destruct (ND h) as [D1 D2].
  destruct (main_conserved _ _ _ _ R LH) as (_ & l & F & PM & _). rewrite D1 in F. apply postponed_nil in F. subst l.
  rewrite D2 in PM. cbn [app] in PM. rewrite (filter_perm _ _ _ _ PM), filter_app.
  rewrite (filter_all _ _ (executed h tr)), filter_none, app_nil_r; [reflexivity|..].
  - intros e I. pose proof (main_end_queue _ _ _ _ _ R W LH I). lia.
  - intros e I. pose proof (exec_below_stop _ _ _ _ _ R LH I). lia.
Qed.

Lemma main_defer : forall n a h e t b o, run n init (a ++ LHost h (FDefer e t) :: b) o ->
  ev_time e < t < p_sim_end P /\ exists ws we, window_after a = Some (ws, we) /\ ws <= ev_time e < we.
Proof.
  intros n a h e t b o R.
  destruct (label_effect keqb teqb P CFG n _ (GS n) W0 a h _ b o R)
    as (s & s' & w & ws & we & x' & R1 & R2 & G & I & WIN & WA & STA & HS & AE & EO & LH).
  cbn in EO. split; [lia|]. exists ws, we. split; auto. lia.
Qed.
Lemma main_expire : forall n a h e t b o, run n init (a ++ LHost h (FExpire e t) :: b) o ->
  ev_time e < t /\ p_sim_end P <= t.
Proof.
  intros n a h e t b o R.
  destruct (label_effect keqb teqb P CFG n _ (GS n) W0 a h _ b o R)
    as (s & s' & w & ws & we & x' & R1 & R2 & G & I & WIN & WA & STA & HS & AE & EO & LH).
  cbn in EO. lia.
Qed.

Lemma main_never_early : forall n tr s h e, run n init tr (Some s) -> (h < p_nhosts P)%nat -> In e (executed h tr) ->
  exists e0, In e0 (arrived P boot h tr) /\ ev_data e0 = ev_data e /\ ev_time e0 <= ev_time e.
Proof.
  intros n tr s h e R LH IN. destruct (main_conserved _ _ _ _ R LH) as (_ & l & F & PM & _).
  assert (IL : In e l) by (eapply Permutation_in; [symmetry; exact PM|]; apply in_app_iff; now left).
  clear PM IN. induction F as [|a b l l' RA F IH]; [destruct IL|]. destruct IL as [->|IL].
  - exists a. split; [now left|]. destruct RA as [->|(A & B & _)]; split; auto; lia.
  - destruct (IH IL) as (e0 & I0 & X). exists e0. split; [now right|exact X].
Qed.
End P.
