(** From every state the network can bring everything across: proofs for
    [LtcpProps]. *)
From Verif Require Import Base LtcpModel LtcpSpec LtcpProofs.

Lemma helpful_good ev : helpful ev -> good_event ev.
Proof. destruct ev; simpl; tauto. Qed.

Lemma run_app : forall a b y outs1 y1 outs2 y2,
  run a y = Some (outs1, y1) -> run b y1 = Some (outs2, y2) ->
  run (a ++ b) y = Some (outs1 ++ outs2, y2).
Proof.
  induction a as [|ev a IH]; intros b y o1 y1 o2 y2 E1 E2; simpl in *.
  - injection E1 as <- <-. exact E2.
  - destruct (step ev y) as [[res y']|]; ob_in E1; [|discriminate].
    destruct (run a y') as [[o' y'']|] eqn:E; ob_in E1; [|discriminate].
    injection E1 as <- <-. ob. rewrite (IH b _ _ _ _ _ E E2). ob. reflexivity.
Qed.

Lemma got_app a b : got (a ++ b) = got a ++ got b.
Proof.
  induction a as [|x a IH]; [reflexivity|]. change ((x :: a) ++ b) with (x :: (a ++ b)).
  rewrite !got_cons, IH, app_assoc. reflexivity.
Qed.

Lemma written_app : forall e1 o1 e2 o2, length e1 = length o1 ->
  written (e1 ++ e2) (o1 ++ o2) = written e1 o1 ++ written e2 o2.
Proof.
  induction e1 as [|ev e1 IH]; intros [|o o1] e2 o2 L; try discriminate; [reflexivity|].
  change ((ev :: e1) ++ e2) with (ev :: (e1 ++ e2)). change ((o :: o1) ++ o2) with (o :: (o1 ++ o2)).
  rewrite written_cons, (written_cons ev e1), IH, app_assoc by (simpl in L; lia). reflexivity.
Qed.

Lemma run_length : forall evs y outs y', run evs y = Some (outs, y') -> length evs = length outs.
Proof.
  induction evs as [|ev evs IH]; intros y outs y' E; simpl in E; [injection E as <- <-; reflexivity|].
  destruct (step ev y) as [[res y1]|]; ob_in E; [|discriminate].
  destruct (run evs y1) as [[o y2]|] eqn:E2; ob_in E; [|discriminate].
  injection E as <- <-. simpl. f_equal. eapply IH; eauto.
Qed.

Lemma written_helpful : forall evs outs, Forall helpful evs -> written evs outs = [].
Proof.
  induction evs as [|ev evs IH]; intros outs H; [destruct outs; reflexivity|].
  inversion H; subst. destruct outs as [|o outs]; [destruct ev; reflexivity|].
  rewrite written_cons, IH by assumption. destruct ev; simpl in *; tauto.
Qed.

(** [y] can get to [y'] without a write. *)
Definition leads (ps : list pkt) (g : list Z) (y : sys) (g' : list Z) (y' : sys) : Prop :=
  exists evs outs, Forall helpful evs /\ run evs y = Some (outs, y') /\ g' = g ++ got outs
    /\ inv ps g' y'.

Lemma leads_refl ps g y : inv ps g y -> leads ps g y g y.
Proof. intros H. exists [], []. simpl. rewrite app_nil_r. auto. Qed.

Lemma leads_trans ps g y g1 y1 g2 y2 :
  leads ps g y g1 y1 -> leads ps g1 y1 g2 y2 -> leads ps g y g2 y2.
Proof.
  intros (e1 & o1 & H1 & R1 & -> & _) (e2 & o2 & H2 & R2 & -> & I2).
  exists (e1 ++ e2), (o1 ++ o2). split; [apply Forall_app; auto|].
  split; [eapply run_app; eauto|]. rewrite got_app, app_assoc. auto.
Qed.

Lemma leads_step ps g y ev : inv ps g y -> helpful ev ->
  exists res y', step ev y = Some (res, y') /\ leads ps g y (g ++ bytes_of res) y'.
Proof.
  intros I H. destruct (step_law ps g ev y I (helpful_good _ H)) as (res & y' & more & E & I' & C & _).
  exists res, y'. split; [exact E|].
  assert (more = []).
  { rewrite (written_helpful [ev] [res]) in C by (constructor; auto).
    apply (no_bytes (ps ++ more)); [exact (si_whole _ _ (iv_s _ _ _ I'))|apply incl_appr, incl_refl|].
    rewrite <- cut_length, C. reflexivity. }
  subst more. rewrite app_nil_r in I'.
  exists [ev], [res]. split; [constructor; auto|]. simpl. rewrite E. ob.
  split; [reflexivity|]. split; [destruct res; simpl; rewrite ?app_nil_r; reflexivity|exact I'].
Qed.

Lemma leads_inv ps g y g' y' : leads ps g y g' y' -> inv ps g' y'.
Proof. intros (evs & outs & _ & _ & _ & I). exact I. Qed.

Definition adv (k : Z) (ps : list pkt) (g : list Z) (y : sys) : Prop :=
  exists g' y', leads ps g y g' y' /\ k < r_next (y_r y').

Lemma adv_by k ps g y g1 y1 : leads ps g y g1 y1 -> adv k ps g1 y1 -> adv k ps g y.
Proof.
  intros L (g' & y' & L' & H). exists g', y'. split; [eapply leads_trans; eauto|exact H].
Qed.

Lemma adv_now k ps g y : inv ps g y -> k < r_next (y_r y) -> adv k ps g y.
Proof. intros I H. exists g, y. split; [apply leads_refl, I|exact H]. Qed.

(** ** The receiver *)
Lemma flush_in_first ps b p h u next rd : numbered ps -> Forall whole ps ->
  incl (h :: u) ps -> ordered (h :: u) -> buf_ok b 0 -> In p (h :: u) -> p_seq p = next ->
  2 <= next <= 2 + Z.of_nat (length ps) ->
  exists next' rd' u' inp', flush_in b next rd (h :: u) [] = Some (next', rd', u', inp')
    /\ (next < next'
        \/ next' = next /\ u' = u /\ inp' = [] /\ In p u).
Proof.
  intros N W Hu O B Hp Es Hn. simpl.
  destruct (p_seq h <? next) eqn:E1.
  { exists next, rd, u, []. split; [reflexivity|]. right. split; [reflexivity|].
    split; [reflexivity|]. split; [reflexivity|]. destruct Hp as [->|Hp]; [lia|exact Hp]. }
  assert (Eh : p_seq h = next).
  { destruct Hp as [->|Hp]; [exact Es|]. inversion O as [|? ? O1 O2]; subst.
    rewrite Forall_forall in O2. specialize (O2 _ Hp). lia. }
  replace (p_seq h =? next) with true by lia.
  destruct (buf_space_ok _ _ B) as (sp & -> & S0 & S1 & S2). ob. specialize (S2 eq_refl).
  assert (Hh : In h ps) by (apply Hu; simpl; auto).
  assert (Wh : whole h) by (rewrite Forall_forall in W; auto). unfold whole in Wh.
  replace (plen h <=? sp) with true by lia.
  pose proof (numbered_seq _ _ N Hh).
  destruct (flush_in_law ps b N u ([] ++ [h]) (next + 1) (rd || (0 <? total ([] ++ [h]))))
    as (n' & r' & u' & i' & E & _ & _ & L & _).
  - intros x Hx. apply Hu. simpl. auto.
  - intros x [<-|[]]. exact Hh.
  - lia.
  - simpl. replace (plen h + 0) with (0 + plen h) by lia. apply buf_add; auto; lia.
  - exists n', r', u', i'. split; [exact E|]. left. lia.
Qed.

Lemma update_window_open r r' : update_window r = Some r' -> r_in r = [] ->
  buf_ok (r_buf r) 0 -> 1 <= r_win r'.
Proof.
  intros E Hi B. unfold update_window in E. rewrite Hi in E. simpl in E.
  destruct (buf_space_ok _ _ B) as (sp & Es & S0 & S1 & S2). rewrite Es in E. ob_in E.
  cbv zeta in E. destruct (negb _ || _); simpl in E; [|discriminate].
  injection E as <-. simpl. specialize (S2 eq_refl). apply Z.div_le_lower_bound; unfold MSS in *; lia.
Qed.

(** The receiver waits for packet [k] with empty buffers. *)
Record ready (k : Z) (r : receiver) : Prop := Ready {
  rd_next : r_next r = k;
  rd_in : r_in r = [];
  rd_part : r_part r = None
}.

Lemma flush_first ps g p r : numbered ps -> Forall whole ps -> rinv ps g r ->
  ready (p_seq p) r -> In p (r_unord r) ->
  exists r', flush_r r = Some r'
    /\ (p_seq p < r_next r'
        \/ ready (p_seq p) r' /\ In p (r_unord r')
           /\ (length (r_unord r') < length (r_unord r))%nat).
Proof.
  intros N W R [E1 E2 E3] Hp. unfold flush_r.
  destruct (update_window_law _ _ _ R) as (r1 & -> & R1 & En & Ew & Eu & Ei & Ep & Er & Eb). ob.
  destruct (r_unord r) as [|h u] eqn:Eq; [destruct Hp|].
  rewrite Eu, Ei, E2, En, E1.
  pose proof (ri_buf _ _ _ R) as B. rewrite E2 in B. simpl in B.
  destruct (flush_in_first ps (r_buf r1) p h u (p_seq p) (r_readable r1) N W)
    as (n' & rd' & u' & i' & -> & Hc); auto.
  - rewrite <- Eq. exact (ri_unord _ _ _ R).
  - rewrite <- Eq. exact (ri_ord _ _ _ R).
  - rewrite Eb. exact B.
  - pose proof (ri_next _ _ _ R). lia.
  - ob. eexists. split; [reflexivity|]. simpl.
    destruct Hc as [Hc|(-> & -> & -> & Hin)]; [left; exact Hc|right].
    split; [constructor; simpl; auto; congruence|]. split; [exact Hin|lia].
Qed.

Lemma adv_flush ps p : forall n g y, (length (r_unord (y_r y)) <= n)%nat -> inv ps g y ->
  ready (p_seq p) (y_r y) -> In p (r_unord (y_r y)) -> adv (p_seq p) ps g y.
Proof.
  induction n as [|n IH]; intros g y L I R Hp.
  - destruct (r_unord (y_r y)); [destruct Hp|simpl in L; lia].
  - destruct (flush_first ps g p (y_r y) (si_num _ _ (iv_s _ _ _ I)) (si_whole _ _ (iv_s _ _ _ I))
                (iv_r _ _ _ I) R Hp) as (r' & E & Hc).
    destruct (leads_step ps g y EFlush I Logic.I) as (res & y' & Es & Ls).
    cbn [step] in Es. rewrite E in Es. ob_in Es. injection Es as <- <-.
    eapply adv_by; [exact Ls|]. pose proof (leads_inv _ _ _ _ _ Ls) as I'.
    destruct Hc as [Hc|(R' & Hin & Ll)]; [apply adv_now; auto|].
    apply IH; auto. simpl. lia.
Qed.

Lemma adv_deliver ps g y p : inv ps g y -> ready (p_seq p) (y_r y) ->
  r_readable (y_r y) = false -> 1 <= r_win (y_r y) -> In p (y_net y) -> adv (p_seq p) ps g y.
Proof.
  intros I R Hr Hw Hp. destruct (In_nth_error _ _ Hp) as [i Hi].
  destruct (leads_step ps g y (EDeliver false i) I Logic.I) as (res & y' & Es & Ls).
  eapply adv_by; [exact Ls|]. pose proof (leads_inv _ _ _ _ _ Ls) as I'.
  simpl in Es. rewrite Hi in Es.
  assert (Hin : In p ps) by (apply (iv_net _ _ _ I); exact Hp).
  pose proof (iv_r _ _ _ I) as RI.
  assert (Ed : data_in false p (y_r y) = Some (packet_in false p (y_r y))).
  { unfold data_in. rewrite (rd_next _ _ R).
    replace (p_seq p + r_win (y_r y) <=? p_seq p) with false by lia.
    replace (p_seq p <=? p_seq p) with true by lia.
    destruct (buf_space_ok _ _ (ri_buf _ _ _ RI)) as (sp & -> & _). ob. cbv zeta.
    rewrite Z.eqb_refl, Hr. reflexivity. }
  destruct (data_in_law _ _ false p _ RI Hin) as (r1 & Ed1 & R1 & En1).
  rewrite Ed in Ed1. injection Ed1 as Ed1.
  assert (Er1 : r1 = Rcv (r_next (y_r y)) (r_win (y_r y)) (pq_push p (r_unord (y_r y)))
                         (r_in (y_r y)) (r_part (y_r y)) (r_buf (y_r y)) (r_readable (y_r y))).
  { rewrite <- Ed1. unfold packet_in. rewrite (rd_next _ _ R), Z.ltb_irrefl. reflexivity. }
  assert (Rd1 : ready (p_seq p) r1) by (rewrite Er1; destruct R; constructor; auto).
  assert (Hp1 : In p (r_unord r1)) by (rewrite Er1; apply in_pq_push; auto).
  destruct (flush_first ps g p r1 (si_num _ _ (iv_s _ _ _ I)) (si_whole _ _ (iv_s _ _ _ I))
              R1 Rd1 Hp1) as (r' & E & Hc).
  unfold arrive in Es. rewrite Ed in Es. ob_in Es. rewrite Ed1 in Es.
  rewrite (rd_next _ _ Rd1), Z.ltb_irrefl in Es. simpl andb in Es. ob_in Es.
  rewrite E in Es. ob_in Es. rewrite E in Es. ob_in Es. injection Es as <- <-.
  destruct Hc as [Hc|(R' & Hin' & Ll)]; [apply adv_now; auto|].
  eapply (adv_flush ps p); [apply le_n|exact I'|exact R'|exact Hin'].
Qed.

(** ** The sender *)
Record open_to (k : Z) (s : sender) : Prop := Open {
  op_unacked : s_unacked s = k;
  op_win : 1 <= s_lastwin s;
  op_cwnd : 1 <= s_cwnd s
}.

Record listens (k : Z) (r : receiver) : Prop := Listens {
  li_ready : ready k r;
  li_readable : r_readable r = false;
  li_win : 1 <= r_win r
}.

Lemma adv_out ps p : forall n g y, (length (s_out (y_s y)) <= n)%nat -> inv ps g y ->
  listens (p_seq p) (y_r y) -> In p (s_out (y_s y)) -> adv (p_seq p) ps g y.
Proof.
  induction n as [|n IH]; intros g y L I R Hp.
  - destruct (s_out (y_s y)); [destruct Hp|simpl in L; lia].
  - destruct (leads_step ps g y EPull I Logic.I) as (res & y' & Es & Ls).
    eapply adv_by; [exact Ls|]. pose proof (leads_inv _ _ _ _ _ Ls) as I'.
    simpl in Es. unfold pull in Es. destruct (s_out (y_s y)) as [|h r] eqn:Eo; [destruct Hp|].
    injection Es as <- <-. destruct Hp as [<-|Hp].
    + destruct R as [R1 R2 R3]. apply adv_deliver; simpl; auto. apply in_or_app. simpl. auto.
    + apply IH; simpl; auto. simpl in L. lia.
Qed.

Lemma pull_all ps : forall n g y, (length (s_out (y_s y)) <= n)%nat -> inv ps g y ->
  exists g' y', leads ps g y g' y' /\ s_out (y_s y') = [] /\ s_thr (y_s y') = s_thr (y_s y)
    /\ y_r y' = y_r y /\ s_unacked (y_s y') = s_unacked (y_s y)
    /\ s_lastwin (y_s y') = s_lastwin (y_s y) /\ s_cwnd (y_s y') = s_cwnd (y_s y).
Proof.
  induction n as [|n IH]; intros g y L I.
  - exists g, y. split; [apply leads_refl, I|].
    destruct (s_out (y_s y)); [auto 10|simpl in L; lia].
  - destruct (leads_step ps g y EPull I Logic.I) as (res & y' & Es & Ls).
    pose proof (leads_inv _ _ _ _ _ Ls) as I'.
    simpl in Es. unfold pull in Es. destruct (s_out (y_s y)) as [|h r] eqn:Eo.
    + exists g, y. split; [apply leads_refl, I|]. auto 10.
    + injection Es as <- <-.
      edestruct (fun HL => IH _ _ HL I') as (g2 & y2 & L2 & H);
        [cbn [y_s s_out length] in *; lia|].
      exists g2, y2. split; [eapply leads_trans; eauto|]. exact H.
Qed.

Lemma retransmit_fields n s :
  s_lastwin (retransmit n s) = s_lastwin s /\ s_cwnd (retransmit n s) = s_cwnd s.
Proof.
  unfold retransmit. destruct (find _ _); [|auto]. unfold packet_out. destruct (has_seq _ _); auto.
Qed.

Lemma flush_s_fields lost s s' : flush_s lost s = Some s' ->
  s_lastwin s' = s_lastwin s /\ s_cwnd s' = s_cwnd s.
Proof.
  unfold flush_s. cbv zeta. intros E.
  assert (H : s_lastwin (fold_left (fun s n => retransmit n s) lost s) = s_lastwin s
              /\ s_cwnd (fold_left (fun s n => retransmit n s) lost s) = s_cwnd s).
  { clear E. revert s. induction lost as [|n lost IH]; intros s; simpl; [auto|].
    destruct (IH (retransmit n s)) as [-> ->]. apply retransmit_fields. }
  destruct (flush_out _ _ _ _) as [[t o]|]; ob_in E; [|discriminate].
  injection E as <-. exact H.
Qed.

Lemma adv_thr ps p : forall n g y, (length (s_thr (y_s y)) <= n)%nat -> inv ps g y ->
  listens (p_seq p) (y_r y) -> open_to (p_seq p) (y_s y) -> In p (s_thr (y_s y)) ->
  adv (p_seq p) ps g y.
Proof.
  induction n as [|n IH]; intros g y L I R O Hp.
  - destruct (s_thr (y_s y)); [destruct Hp|simpl in L; lia].
  - destruct (pull_all ps _ g y (le_n _) I) as (g1 & y1 & L1 & Eo & Et & Er & Eu & Ew & Ec).
    eapply adv_by; [exact L1|]. pose proof (leads_inv _ _ _ _ _ L1) as I1.
    destruct (leads_step ps g1 y1 (ETimer []) I1 Logic.I) as (res & y2 & Es & L2).
    eapply adv_by; [exact L2|]. pose proof (leads_inv _ _ _ _ _ L2) as I2.
    pose proof (iv_s _ _ _ I1) as S1.
    simpl in Es. destruct (flush_s [] (y_s y1)) as [s2|] eqn:Ef; ob_in Es; [|discriminate].
    injection Es as <- <-. destruct (flush_s_fields _ _ _ Ef) as [Fw Fc].
    unfold flush_s in Ef. simpl in Ef. rewrite Eo, Et in Ef.
    destruct (s_thr (y_s y)) as [|h t] eqn:Eh; [destruct Hp|].
    assert (Hh : In h ps).
    { apply (si_from _ _ S1), in_kept. rewrite Et. simpl. auto. }
    assert (Wh : whole h).
    { pose proof (si_whole _ _ S1) as W. rewrite Forall_forall in W. auto. }
    assert (Oh : p_seq h <= p_seq p).
    { destruct Hp as [->|Hp]; [lia|]. pose proof (si_ord _ _ S1) as Od. rewrite Et in Od.
      inversion Od as [|? ? O1 O2]; subst. rewrite Forall_forall in O2. apply O2, Hp. }
    pose proof (si_buf _ _ S1) as B. rewrite Eo in B. simpl in B.
    destruct O as [O1 O2 O3]. unfold whole in Wh.
    cbn [flush_out] in Ef. 
    destruct (buf_space_ok _ _ B) as (sp & Esp & P0 & P1 & P2).
    change (total []) with 0 in Ef. rewrite Esp in Ef. ob_in Ef. specialize (P2 eq_refl).
    replace ((0 <? plen h) && _) with false in Ef by lia.
    rewrite assert_true in Ef by lia.
    assert (B' : buf_ok (s_buf (y_s y1)) (total ([] ++ [h]))).
    { simpl. replace (plen h + 0) with (0 + plen h) by lia. apply buf_add; auto; lia. }
    destruct (flush_out_law (s_unacked (y_s y1) + Z.min (s_cwnd (y_s y1)) (s_lastwin (y_s y1)))
                (s_buf (y_s y1)) t _ B') as (t' & o' & E' & _ & moved & M1 & M2).
    rewrite E' in Ef. ob_in Ef. injection Ef as <-.
    assert (Hin : In p t' \/ In p o').
    { rewrite M2. rewrite M1 in Hp. destruct Hp as [<-|Hp]; [right; simpl; auto|].
      apply in_app_or in Hp as [Hp|Hp]; [right; apply in_or_app; auto|auto]. }
    destruct Hin as [Hin|Hin].
    + apply IH; simpl; auto.
      * rewrite M1 in L. simpl in L. rewrite app_length in L. lia.
      * rewrite Er. exact R.
      * constructor; simpl; lia.
    + eapply adv_out; [apply le_n|exact I2|simpl; rewrite Er; exact R|exact Hin].
Qed.

Lemma adv_kept ps g y p : inv ps g y -> listens (p_seq p) (y_r y) -> open_to (p_seq p) (y_s y) ->
  In p ps -> adv (p_seq p) ps g y.
Proof.
  intros I R O Hp. pose proof (iv_s _ _ _ I) as S.
  assert (Hk : In p (kept (y_s y))).
  { apply (si_kept _ _ S _ Hp). rewrite (op_unacked _ _ O). lia. }
  destruct (leads_step ps g y (ETimer [p_seq p]) I Logic.I) as (res & y2 & Es & L2).
  eapply adv_by; [exact L2|]. pose proof (leads_inv _ _ _ _ _ L2) as I2.
  simpl in Es. destruct (flush_s [p_seq p] (y_s y)) as [s2|] eqn:Ef; ob_in Es; [|discriminate].
  injection Es as <- <-. destruct (flush_s_fields _ _ _ Ef) as [Fw Fc].
  destruct (flush_s_law ps [p_seq p] _ S) as (s3 & E3 & S3 & U3).
  rewrite Ef in E3. injection E3 as <-.
  assert (Hk2 : In p (kept s2)).
  { apply (si_kept _ _ S3 _ Hp). rewrite U3, (op_unacked _ _ O). lia. }
  assert (Hq : ~ In p (s_q s2)).
  { unfold flush_s in Ef. cbv zeta in Ef. simpl fold_left in Ef.
    destruct (flush_out _ _ _ _) as [[t o]|]; ob_in Ef; [|discriminate].
    injection Ef as <-. simpl. intros Hq. unfold retransmit in Hq.
    destruct (find (fun x => p_seq x =? p_seq p) (s_q (y_s y))) as [p'|] eqn:Ep.
    - rewrite packet_out_q in Hq. simpl in Hq. apply filter_In in Hq as [_ Hq]. lia.
    - eapply find_none in Ep; [|exact Hq]. simpl in Ep. lia. }
  assert (O2 : open_to (p_seq p) s2).
  { destruct O. constructor; lia. }
  apply in_kept in Hk2 as [H|[H|H]]; [| |contradiction].
  - eapply adv_thr; [apply le_n|exact I2|exact R|exact O2|exact H].
  - eapply adv_out; [apply le_n|exact I2|exact R|exact H].
Qed.

Lemma adv_listens ps g y p : inv ps g y -> listens (p_seq p) (y_r y) -> In p ps ->
  adv (p_seq p) ps g y.
Proof.
  intros I R Hp.
  destruct (leads_step ps g y (ECwnd 1) I ltac:(simpl; lia)) as (res1 & y1 & E1 & L1).
  eapply adv_by; [exact L1|]. pose proof (leads_inv _ _ _ _ _ L1) as I1.
  simpl in E1. injection E1 as <- <-.
  match goal with |- adv _ _ _ ?y => set (y1 := y) in * end.
  destruct (leads_step ps _ y1 ESendAck I1 Logic.I) as (res2 & y2 & E2 & L2).
  eapply adv_by; [exact L2|]. pose proof (leads_inv _ _ _ _ _ L2) as I2.
  simpl in E2. injection E2 as <- <-.
  match goal with |- adv _ _ _ ?y => set (y2 := y) in * end.
  destruct (leads_step ps _ y2 (EAck (length (y_acks y)) []) I2 Logic.I) as (res3 & y3 & E3 & L3).
  eapply adv_by; [exact L3|]. pose proof (leads_inv _ _ _ _ _ L3) as I3.
  cbn [step] in E3.
  assert (En : nth_error (y_acks y2) (length (y_acks y)) = Some (p_seq p, r_win (y_r y))).
  { unfold y2, y1. simpl. rewrite nth_error_app2, Nat.sub_diag by lia. simpl.
    rewrite (rd_next _ _ (li_ready _ _ R)). reflexivity. }
  rewrite En in E3.
  destruct (ack_in (p_seq p) (r_win (y_r y)) [] (y_s y2)) as [s3|] eqn:Ea; ob_in E3; [|discriminate].
  injection E3 as <- <-.
  assert (O : open_to (p_seq p) s3).
  { pose proof (iv_s _ _ _ I2) as S2. pose proof (iv_unacked _ _ _ I2) as U2.
    change (y_r y2) with (y_r y) in U2. rewrite (rd_next _ _ (li_ready _ _ R)) in U2.
    pose proof (numbered_seq _ _ (si_num _ _ S2) Hp) as Hs.
    pose proof (si_next _ _ S2) as X2. pose proof (si_ack _ _ S2) as A2.
    pose proof (li_win _ _ R) as Hw.
    assert (Ec : s_cwnd (y_s y2) = 1) by reflexivity.
    clear - Ec S2 U2 Hs X2 A2 Hw Ea. clearbody y2. revert Ec S2 U2 X2 A2 Ea.
    generalize (y_s y2) as s. clear y2. intros s Ec S2 U2 X2 A2 Ea.
    destruct (ack_in_law ps (p_seq p) (r_win (y_r y)) [] _ S2) as (s3' & Ea' & S3 & _).
    rewrite Ea in Ea'. injection Ea' as <-.
    unfold ack_in in Ea. cbv zeta in Ea.
    match type of Ea with flush_s _ ?sx = _ => set (s4 := sx) in * end.
    destruct (flush_s_fields _ _ _ Ea) as [Fw Fc].
    assert (H4 : s_unacked s4 = p_seq p /\ 1 <= s_lastwin s4 /\ s_cwnd s4 = 1).
    { unfold s4. destruct ((s_unacked s <? p_seq p) && (p_seq p <=? s_next s)) eqn:Ev;
        destruct (_ || _) eqn:Ew; simpl; lia. }
    assert (S4 : sinv ps s4).
    { clear -S2 X2. unfold s4.
      destruct ((s_unacked s <? p_seq p) && (p_seq p <=? s_next s)) eqn:Ev;
        destruct (_ || _) eqn:Ew; auto;
        destruct S2 as [N W X F A K B Od]; constructor; simpl; auto.
      - intros x Hx. apply F. rewrite in_kept in *. simpl in Hx. rewrite filter_In in Hx. tauto.
      - intros x Hx L. specialize (K x Hx ltac:(lia)). rewrite in_kept in *. simpl.
        rewrite filter_In. destruct ((_ <=? p_seq x) && (p_seq x <? _)) eqn:E2; [lia|tauto].
      - intros x Hx. apply F. rewrite in_kept in *. simpl in Hx. rewrite filter_In in Hx. tauto.
      - intros x Hx L. specialize (K x Hx ltac:(lia)). rewrite in_kept in *. simpl.
        rewrite filter_In. destruct ((_ <=? p_seq x) && (p_seq x <? _)) eqn:E2; [lia|tauto]. }
    destruct (flush_s_law ps [] s4 S4) as (s5 & E5 & _ & U5).
    rewrite Ea in E5. injection E5 as <-. constructor; lia. }
  apply adv_kept; auto.
Qed.

Lemma nothing_waits ps g r : Forall whole ps -> rinv ps g r -> waiting r = [] ->
  r_in r = [] /\ r_part r = None.
Proof.
  intros W R E. rewrite waiting_eq in E. apply app_eq_nil in E as [E1 E2]. split.
  - apply (no_bytes ps); [exact W|exact (ri_in _ _ _ R)|]. rewrite <- cut_length, E2. reflexivity.
  - pose proof (ri_part _ _ _ R) as P. destruct (r_part r) as [[p off]|]; [|reflexivity].
    simpl in E1. apply (f_equal (@length Z)) in E1. rewrite skipn_length in E1.
    unfold plen in P. simpl in E1. lia.
Qed.

Lemma drain ps g y : inv ps g y ->
  exists g' y', leads ps g y g' y' /\ waiting (y_r y') = [] /\ r_next (y_r y) <= r_next (y_r y').
Proof.
  intros I. pose proof (iv_s _ _ _ I) as S.
  set (n := Z.of_nat (length (cut ps)) + 1).
  destruct (leads_step ps g y (ERead n) I ltac:(unfold n; simpl; lia)) as (res & y' & E & L).
  exists (g ++ bytes_of res), y'. split; [exact L|].
  pose proof (leads_inv _ _ _ _ _ L) as I'.
  destruct (read_law ps g n (y_r y) (si_num _ _ S) (si_whole _ _ S) (iv_r _ _ _ I)
              ltac:(unfold n; lia)) as (res' & r' & Er & R' & Hn & _ & _ & _ & _ & Hs).
  simpl in E. rewrite Er in E. ob_in E. injection E as <- <-. simpl. split; [|exact Hn].
  apply Hs. pose proof (ri_stream _ _ _ R') as St.
  apply (f_equal (@length Z)) in St. rewrite !app_length in St.
  assert (length (cut (firstn (Z.to_nat (r_next r' - 2)) ps)) <= length (cut ps))%nat.
  { rewrite <- (firstn_skipn (Z.to_nat (r_next r' - 2)) ps) at 2.
    rewrite cut_app, app_length. lia. }
  unfold n. lia.
Qed.

Lemma adv_any ps g y : inv ps g y -> r_next (y_r y) < 2 + Z.of_nat (length ps) ->
  adv (r_next (y_r y)) ps g y.
Proof.
  intros I Hk. set (k := r_next (y_r y)) in *.
  destruct (drain ps g y I) as (g1 & y1 & L1 & Hw & Hn).
  eapply adv_by; [exact L1|]. pose proof (leads_inv _ _ _ _ _ L1) as I1.
  destruct (Z.eq_dec (r_next (y_r y1)) k) as [E1|E1]; [|apply adv_now; [exact I1|lia]].
  pose proof (iv_s _ _ _ I1) as S1. pose proof (iv_r _ _ _ I1) as R1.
  destruct (nothing_waits _ _ _ (si_whole _ _ S1) R1 Hw) as [Ei Ep].
  destruct (leads_step ps g1 y1 EFlush I1 Logic.I) as (res & y2 & E2 & L2).
  eapply adv_by; [exact L2|]. pose proof (leads_inv _ _ _ _ _ L2) as I2.
  simpl in E2. unfold flush_r in E2.
  destruct (update_window_law _ _ _ R1) as (r2 & Eu & R2 & En & Ew & Eq & Ein & Epa & Erd & Eb).
  rewrite Eu in E2. ob_in E2.
  pose proof (ri_buf _ _ _ R1) as B1. rewrite Ei in B1. simpl in B1.
  pose proof (update_window_open _ _ Eu Ei B1) as Hwin.
  destruct (flush_in_law ps (r_buf r2) (si_num _ _ S1) (r_unord r2) (r_in r2) (r_next r2)
              (r_readable r2) (ri_unord _ _ _ R2) (ri_in _ _ _ R2) (ri_next _ _ _ R2)
              (ri_buf _ _ _ R2))
    as (n' & rd' & u' & i' & Ef & _ & _ & Ln & _ & Hrd & new & H6 & H7).
  rewrite Ef in E2. ob_in E2. injection E2 as <- <-.
  destruct (Z.eq_dec n' k) as [En'|En']; [|apply adv_now; [exact I2|simpl; lia]].
  assert (Hnew : new = []).
  { rewrite En', En, E1 in H7. apply (f_equal (@length pkt)) in H7. rewrite app_length in H7.
    destruct new; [reflexivity|simpl in H7; lia]. }
  subst new. rewrite app_nil_r in H6. rewrite Ein, Ei in H6. subst i'.
  assert (Hr : rd' = false).
  { destruct rd' eqn:Erd'; [|reflexivity]. destruct (Hrd eq_refl) as [Hx|Hx]; [|simpl in Hx; lia].
    exfalso. apply (ri_readable _ _ _ R2 Hx). rewrite Ew. exact Hw. }
  assert (Hk0 : 2 <= k) by (pose proof (ri_next _ _ _ R1); lia).
  destruct (nth_error ps (Z.to_nat (k - 2))) as [p|] eqn:Enth.
  2:{ apply nth_error_None in Enth. lia. }
  assert (Es : p_seq p = k).
  { rewrite (si_num _ _ S1 _ _ Enth). lia. }
  rewrite <- Es in *. apply adv_listens; [exact I2| |eapply nth_error_In; eauto].
  constructor; simpl; auto. constructor; simpl; auto. rewrite Epa. exact Ep.
Qed.

Lemma all_across ps : forall n g y, inv ps g y ->
  (Z.to_nat (2 + Z.of_nat (length ps) - r_next (y_r y)) <= n)%nat ->
  exists g' y', leads ps g y g' y' /\ g' = cut ps.
Proof.
  induction n as [|n IH]; intros g y I L.
  - destruct (drain ps g y I) as (g1 & y1 & L1 & Hw & Hn). exists g1, y1. split; [exact L1|].
    pose proof (leads_inv _ _ _ _ _ L1) as I1.
    pose proof (ri_stream _ _ _ (iv_r _ _ _ I1)) as St. rewrite Hw, app_nil_r in St.
    rewrite St, firstn_all2; [reflexivity|lia].
  - destruct (Z_lt_le_dec (r_next (y_r y)) (2 + Z.of_nat (length ps))) as [Hk|Hk].
    + destruct (adv_any ps g y I Hk) as (g1 & y1 & L1 & H1).
      pose proof (leads_inv _ _ _ _ _ L1) as I1.
      destruct (IH g1 y1 I1 ltac:(lia)) as (g2 & y2 & L2 & E2).
      exists g2, y2. split; [eapply leads_trans; eauto|exact E2].
    + apply IH; [exact I|lia].
Qed.

Lemma never_stuck_law sb rb evs : Forall good_event evs ->
  exists evs' outs y, Forall helpful evs' /\ run (evs ++ evs') (start sb rb) = Some (outs, y)
    /\ got outs = written (evs ++ evs') outs.
Proof.
  intros G. destruct (reach_law sb rb evs G) as (outs & y & ps & E & I & C).
  destruct (all_across ps _ _ y I (le_n _)) as (g' & y' & (evs' & outs' & H & R & Eg & _) & Ec).
  exists evs', (outs ++ outs'), y'. split; [exact H|]. split; [eapply run_app; eauto|].
  rewrite got_app, written_app by (eapply run_length; eauto).
  rewrite (written_helpful evs'), app_nil_r by exact H. congruence.
Qed.
