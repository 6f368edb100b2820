(** What follows from the invariant of a TCP socket. *)
From Verif Require Import Base SeqModel SeqSpec SeqProofs TcpBufModel TcpBufSpec TcpBufProofs TcpQueueProofs TcpConnModel TcpConnSpec TcpConnProofs TcpNetProofs TcpSoloSpec TcpSoloProofs TcpStateModel TcpStateSpec TcpStateProofs.

(** * Beginnings *)
Lemma push_segment_first c h p c' n q : push_segment c h p = Some (c', n) -> c_reset c = false -> c_recv c = Some (q, false) -> rsyn q = false -> c_rst_if_payload c = false -> c_reset c' = false.
Proof.
  unfold push_segment. destruct (recv_window c) as [w|]; [ob|discriminate]. destruct (trim_segment h p w) as [[(h1, p1)|]|]; [ob|ob|discriminate].
  - intros E NR CR RS RP. rewrite CR, RP in E. cbn [andb] in E.
    destruct (take_segment q false h1 p1) as [[((q', cl'), m)|]|] eqn:TS; [ob_in E|exfalso|discriminate E].
    + match type of E with context [obind (if h_syn h then ?a else ?b) _] => set (u := if h_syn h then a else b) in E end.
      destruct u as [c2|] eqn:U; [ob_in E|discriminate E]. destruct (take_ack c2 h1) as [c3|] eqn:TA; [ob_in E|discriminate E]. injection E as <- _. destruct (take_ack_kept _ _ _ TA) as (_ & -> & _).
      subst u. destruct (h_syn h); [injection U as <-; cbn; destruct (negb _); exact NR|]. destruct (send_shift _); [|discriminate U]. ob_in U. injection U as <-. cbn. destruct (negb _); exact NR.
    + unfold take_segment in TS. rewrite RS, andb_false_r in TS. destruct (if h_syn h1 then _ else _); [ob_in TS|discriminate TS]. destruct (pay_len p1); [ob_in TS|discriminate TS].
      match type of TS with obind ?u _ = _ => destruct u as [(q1, pu)|]; [ob_in TS|discriminate TS] end. match type of TS with (if ?b then _ else _) = _ => destruct b; [|discriminate TS] end.
      destruct (add_fin_r q1); [ob_in TS; discriminate TS|discriminate TS].
  - intros E NR. injection E as <- _. auto.
Qed.
Lemma fresh_push l r sc h p c c' n : conn_new l r 0 sc = Some c -> h_syn h = true -> h_rst h = false -> push_packet c h p = Some (c', n) ->
  c_reset c' = false /\ c_need_rst c' = false /\ c_recv c' <> None /\ c_local c' = l /\ c_remote c' = r.
Proof.
  intros CN HS HR E. destruct (conn_new_facts _ _ _ _ _ CN) as (F1 & F2 & F3 & F4 & F5).
  destruct (push_kept _ _ _ _ _ F4 E) as (KP & _ & N0 & _).
  assert (RS : c_reset c' = false /\ c_recv c' <> None).
  { assert (RP : c_rst_if_payload c = false).
    { unfold conn_new in CN. repeat match type of CN with context [assert_then ?b _] => destruct b; [cbn [assert_then] in CN|discriminate CN] | context [obind ?u _] => destruct u; [cbn [obind] in CN|discriminate CN] end. now injection CN as <-. }
    unfold push_packet in E. rewrite F3, HR in E. cbn [negb] in E. rewrite assert_true in E by reflexivity. unfold take_syn in E. rewrite F5, HS in E. cbn [is_none andb] in E.
    destruct (received_syn (c_ws c) (h_scale h)) as [w|]; [|discriminate E]. ob_in E. destruct (push_segment_kept _ _ _ _ _ E) as (K & _). split; [|apply (kp_recv _ _ K); discriminate].
    eapply push_segment_first; [exact E|exact F3|reflexivity|reflexivity|exact RP]. }
  destruct RS as (R1 & R2). split; [exact R1|]. split; [now apply N0|]. split; [exact R2|]. rewrite (kp_local _ _ KP), (kp_remote _ _ KP). auto.
Qed.
Lemma child_ok sc now h p t : wire h p -> child_new now sc h p = Some t ->
  sock_ok sc (born now h p t (syn_taken sc h p)) (t_sock t) /\ phase_of t = PConn SynReceived /\ t_timers t = [(SynReceived, now + TIMEOUT)] /\ h_syn h = true /\ h_rst h = false.
Proof.
  intros W. unfold child_new, syn_taken. destruct (h_syn h) eqn:HS; [|discriminate]. destruct (h_rst h) eqn:HR; [discriminate|]. cbn [assert_then negb]. destruct (conn_new (h_dst h) (h_src h) 0 sc) as [c|] eqn:CN; [ob|discriminate].
  destruct (push_packet c h p) as [(c', n)|] eqn:PP; [ob|discriminate]. cbn [fst]. intros E. injection E as <-. split; [|auto]. destruct (fresh_push _ _ _ _ _ _ _ _ CN HS HR PP) as (A1 & A2 & A3 & A4 & A5).
  cbn [enter t_sock sock_ok]. constructor; auto; cbn [born s_addr s_shut shut_in]; try congruence.
  - apply (AStep 0 sc _ (XPush h p) _ (AStart 0 sc _ _ _ CN) W). cbn [sact o_conn]. rewrite PP. ob. reflexivity.
  - cbn. split; [exact A3|]. split; [reflexivity|]. intros e [<- |[]]. reflexivity.
Qed.

(** * The invariant holds *)
Lemma life_ok pu sc s : life pu sc s -> sock_ok sc s (t_sock (s_tcp s)).
Proof.
  induction 1 as [now|now h p t W E|s e s' L IH AL E].
  - cbn. auto 10.
  - apply (child_ok sc now h p t W E).
  - apply (vstep pu sc s e s' IH AL E).
Qed.
Lemma edges_main pu sc s e s' : life pu sc s -> allows pu s e -> vact s e = Some s' -> phase_of (s_tcp s') = phase_of (s_tcp s) \/ edge (phase_of (s_tcp s)) e (phase_of (s_tcp s')).
Proof. intros L AL E. destruct (vstep pu sc s e s' (life_ok _ _ _ L) AL E) as (_ & [(M & _)|(M & _)]); auto. Qed.

(** * Time *)
Definition rank (k : kind) : Z := match k with SynSent => 0 | SynReceived => 1 | Established => 2 | FinWaitOne | CloseWait => 3 | FinWaitTwo | Closing | LastAck => 4 | TimeWait => 5 end.
Lemma edge_rank k e k' : edge (PConn k) e (PConn k') -> rank k < rank k'.
Proof. intros E. inversion E; subst; cbn; lia. Qed.
Lemma edge_not_init p e : ~ edge p e PInit. Proof. intros E. inversion E. Qed.
Lemma edge_moves p e p' : edge p e p' -> p <> p'.
Proof. intros E. inversion E; subst; congruence. Qed.
Lemma is_kind_eq k k' : is_kind k k' = true <-> k = k'.
Proof. destruct k, k'; cbn; split; congruence. Qed.
Lemma same_phase_eq t t' : same_phase t t' = true <-> phase_of t' = phase_of t.
Proof. unfold same_phase. destruct (phase_of t), (phase_of t'); try (split; congruence). rewrite is_kind_eq. split; congruence. Qed.
Lemma vact_time s e s' : vact s e = Some s' -> s_now s' = s_now s + (match e with VWait d => d | _ => 0 end) /\ s_since s' = (if same_phase (s_tcp s) (s_tcp s') then s_since s else s_now s).
Proof.
  assert (RF : same_phase (s_tcp s) (s_tcp s) = true) by (now apply same_phase_eq).
  destruct e; cbn [vact]; intros E;
    try (match type of E with obind ?u _ = _ => destruct u as [r|]; [ob_in E|discriminate E] end);
    injection E as <-; cbn [s_now s_since s_tcp put_tcp put_shut]; rewrite ?RF; (split; [lia|reflexivity]).
Qed.
Record time_ok (pu : bool) (s : sess) : Prop := {
  tm_since : s_since s <= s_now s;
  tm_punctual : pu = true -> forall k x, In (k, x) (t_timers (s_tcp s)) -> s_now s <= x;
  tm_phase : match phase_of (s_tcp s) with
             | PInit => t_timers (s_tcp s) = []
             | PConn k => (has_timer k = true -> In (k, s_since s + TIMEOUT) (t_timers (s_tcp s))) /\
                          (forall k' x, In (k', x) (t_timers (s_tcp s)) -> rank k' <= rank k /\ (k' = k -> x = s_since s + TIMEOUT))
             | _ => True
             end }.
Lemma in_drop {A} i (l : list A) x : In x (drop_nth i l) -> In x l.
Proof. unfold drop_nth. intros H. apply in_app_iff in H. destruct H as [H|H]; [rewrite <- (firstn_skipn i l)|rewrite <- (firstn_skipn (S i) l)]; apply in_or_app; auto. Qed.
Lemma drop_keeps {A} : forall i (l : list A) x y, In x l -> nth_error l i = Some y -> x <> y -> In x (drop_nth i l).
Proof.
  induction i as [|i IH]; intros [|a l] x y I N D; try discriminate N; unfold drop_nth in *; cbn in *.
  - injection N as ->. destruct I as [I|I]; [congruence|exact I].
  - destruct I as [I|I]; [auto|]. right. eapply IH; eauto.
Qed.
Lemma fire_leaves t i t' k x : t_fire t i = Some t' -> nth_error (t_timers t) i = Some (k, x) -> phase_of t = PConn k -> has_timer k = true -> phase_of t' <> PConn k.
Proof.
  unfold t_fire. intros E N P H. rewrite N in E. unfold callback in E. cbn [t_sock] in E. unfold phase_of in P. destruct (t_sock t) as [|k' c| |]; try discriminate P. injection P as ->.
  rewrite (proj2 (is_kind_eq k k) eq_refl) in E. unfold phase_of. destruct k; try discriminate H.
  - unfold t_rst_close, set_err in E. cbn [t_sock] in E. destruct (negb (recv_has_data c)); [rewrite assert_true in E by reflexivity|discriminate E]. destruct (closed_new _ _ _) as [t1|] eqn:CN; [|discriminate E]. ob_in E.
    cbn [snd fst assert_then] in E. injection E as <-. destruct (closed_cases _ _ _ _ CN) as (-> & _). discriminate.
  - unfold t_rst_close, set_err in E. cbn [t_sock] in E. destruct (reset_connection _ _) as [t1|] eqn:RC; [|discriminate E]. ob_in E.
    cbn [snd fst assert_then] in E. injection E as <-. destruct (reset_cases _ _ _ RC) as (h & -> & _). discriminate.
  - destruct (closed_cases _ _ _ _ E) as (-> & _). discriminate.
Qed.
Lemma time_step pu sc s e s' : sock_ok sc s (t_sock (s_tcp s)) -> allows pu s e -> vact s e = Some s' -> time_ok pu s -> time_ok pu s'.
Proof.
  intros OK AL E [T1 T2 T3]. destruct (vact_time _ _ _ E) as (N & S). destruct (vstep pu sc s e s' OK AL E) as (_ & M).
  assert (W0 : 0 <= match e with VWait d => d | _ => 0 end) by (destruct e; try lia; exact (proj1 AL)).
  assert (BT : forall y, In y (base_timers (s_tcp s) e) -> In y (t_timers (s_tcp s))) by (intros y I; destruct e; try exact I; eapply in_drop; exact I).
  assert (PB : pu = true -> forall k x, In (k, x) (base_timers (s_tcp s) e) -> s_now s' <= x).
  { intros P k x I. rewrite N. destruct e; try (rewrite Z.add_0_r; eapply T2; eauto; fail). apply (proj2 AL P k x I). }
  destruct M as [(P & T)|(P & T)].
  - rewrite (proj2 (same_phase_eq _ _) P) in S. constructor.
    + lia.
    + rewrite T. exact PB.
    + rewrite P, T, S. destruct (phase_of (s_tcp s)) eqn:PH; auto.
      * assert (forall i, drop_nth i (@nil (kind * Z)) = []) as DN by (intros []; reflexivity). destruct e; cbn [base_timers]; rewrite ?T3; auto.
      * destruct T3 as (T3 & T4). split; [|intros k' x I; apply T4, BT, I]. intros H. specialize (T3 H). destruct e as [|? |? ?|? |? |? ?| | |i|d]; try exact T3. cbn [base_timers].
        destruct (nth_error (t_timers (s_tcp s)) i) as [(k', x)|] eqn:NE; [|rewrite drop_nth_none; auto]. eapply drop_keeps; [exact T3|exact NE|]. intros X. injection X as -> <-.
        cbn [vact] in E. destruct (t_fire (s_tcp s) i) as [t|] eqn:F; [|discriminate E]. ob_in E. injection E as <-. cbn [put_tcp s_tcp] in P. exact (fire_leaves _ _ _ _ _ F NE PH H P).
  - assert (SP : same_phase (s_tcp s) (s_tcp s') = false) by (destruct (same_phase (s_tcp s) (s_tcp s')) eqn:SP; [apply same_phase_eq in SP; apply edge_moves in P; congruence|reflexivity]). rewrite SP in S.
    assert (N0 : s_now s' = s_now s) by (rewrite N; destruct e; try lia; inversion P; discriminate). constructor.
    + lia.
    + intros PU k x I. rewrite T in I. apply in_app_iff in I. destruct I as [I|I]; [eauto|]. unfold timer_of in I. destruct (phase_of (s_tcp s')) as [|k'| |]; try contradiction. destruct (has_timer k'); [|contradiction].
      destruct I as [I|[]]. injection I as _ <-. unfold TIMEOUT. lia.
    + rewrite T, S. destruct (phase_of (s_tcp s')) as [|k'| |] eqn:PH; auto.
      { exfalso. eapply edge_not_init; eauto. }
      unfold timer_of. split.
      * intros ->. apply in_or_app. right. now left.
      * intros k1 x I. apply in_app_iff in I. destruct I as [I|I].
        -- apply BT in I. destruct (phase_of (s_tcp s)) as [|k| |] eqn:PH0.
           ++ rewrite T3 in I. contradiction.
           ++ destruct (proj2 T3 k1 x I) as (R & _). apply edge_rank in P. split; [lia|]. intros ->. lia.
           ++ inversion P.
           ++ inversion P.
        -- destruct (has_timer k'); [|contradiction]. destruct I as [I|[]]. injection I as <- <-. split; [lia|auto].
Qed.
Lemma life_time pu sc s : life pu sc s -> time_ok pu s.
Proof.
  induction 1 as [now|now h p t W E|s e s' L IH AL E].
  - constructor; cbn; auto; lia.
  - destruct (child_ok sc now h p t W E) as (_ & P & T & _). constructor; cbn [born s_since s_now s_tcp]; rewrite ?T, ?P.
    + lia.
    + intros _ k x [I|[]]. injection I as _ <-. unfold TIMEOUT. lia.
    + split; [intros _; now left|]. intros k' x [I|[]]. injection I as <- <-. split; [lia|auto].
  - eapply time_step; eauto using life_ok.
Qed.
(** Timeouts: not late if timers are punctual, and never early. *)
Lemma late_main pu sc s k : life pu sc s -> pu = true -> phase_of (s_tcp s) = PConn k -> has_timer k = true -> s_now s <= s_since s + 60000000000.
Proof. intros L P PH H. destruct (life_time _ _ _ L) as [T1 T2 T3]. rewrite PH in T3. exact (T2 P _ _ (proj1 T3 H)). Qed.
Lemma early_main pu sc s i s' : life pu sc s -> allows pu s (VFire i) -> vact s (VFire i) = Some s' -> phase_of (s_tcp s') <> phase_of (s_tcp s) -> s_since s + 60000000000 <= s_now s.
Proof.
  intros L AL E D. destruct (life_time _ _ _ L) as [T1 T2 T3]. cbn [vact] in E. destruct (t_fire (s_tcp s) i) as [t|] eqn:F; [|discriminate E]. ob_in E. injection E as <-. cbn [put_tcp s_tcp] in D. unfold t_fire in F.
  destruct (nth_error (t_timers (s_tcp s)) i) as [(k, x)|] eqn:NE; [|injection F as <-; now destruct D]. specialize (AL k x NE). unfold callback in F. cbn [t_sock] in F.
  assert (phase_of (s_tcp s) = PConn k) as PH.
  { unfold phase_of in *. destruct (t_sock (s_tcp s)) as [|k' c| |] eqn:TS; try (injection F as <-; cbn [t_sock] in D; now destruct D).
    destruct (is_kind k k') eqn:IK; [apply is_kind_eq in IK; congruence|]. injection F as <-. cbn [t_sock] in D. now destruct D. }
  rewrite PH in T3. apply nth_error_In in NE. destruct (proj2 T3 _ _ NE) as (_ & X). specialize (X eq_refl). subst x. exact AL.
Qed.

(** * What the states mean *)
Lemma conn_life pu sc s k : life pu sc s -> phase_of (s_tcp s) = PConn k -> exists c, t_sock (s_tcp s) = Conn k c /\ conn_ok sc s k c.
Proof.
  intros L P. pose proof (life_ok _ _ _ L) as OK. unfold phase_of in P. destruct (t_sock (s_tcp s)) as [|k' c| |]; try discriminate P. injection P as ->. eauto.
Qed.
Lemma heard_conn sc s k c : conn_ok sc s k c -> c_recv c <> None -> syn_heard s.
Proof.
  intros CO NN. destruct (zok_of _ _ _ _ CO) as (i & r & buf & Z). pose proof (z_rcv _ _ _ _ _ _ Z) as R. cbn [solo_of o_conn o_in] in R. unfold syn_heard.
  destruct (c_recv c) as [(q, cl)|]; [|congruence]. destruct R as (h0 & O & _). congruence.
Qed.
Lemma acked_conn sc s k c : conn_ok sc s k c -> c_syn_acked c = true -> syn_acked s.
Proof.
  intros CO SA. destruct (zok_of _ _ _ _ CO) as (i & r & buf & Z). pose proof (z_acked _ _ _ _ _ _ Z) as ZA. cbn [solo_of o_conn] in ZA. rewrite SA in ZA. symmetry in ZA. apply Z.ltb_lt in ZA.
  pose proof (so_k _ _ _ _ (z_sq _ _ _ _ _ _ Z)) as KB. rewrite stream_len in KB. cbn [solo_of o_wrote o_shut] in KB. destruct (z_k _ _ _ _ _ _ Z) as [?|(h & p & I & A & N)]; [lia|]. exists h, p, i. cbn [solo_of o_in] in I. unfold pos in N. rewrite Z.add_0_l in N.
  split; [exact I|]. split; [exact A|]. split; [exact N|]. unfold b2z. lia.
Qed.
Lemma fin_conn sc s k c : conn_ok sc s k c -> fin_was_acked c = true -> syn_acked s /\ fin_acked s.
Proof.
  intros CO FA. destruct (zok_of _ _ _ _ CO) as (i & r & buf & Z). pose proof (fin_acked_zok _ _ _ _ _ _ Z) as F. cbn [solo_of o_conn o_shut o_wrote] in F. rewrite FA in F. symmetry in F. apply andb_true_iff in F.
  destruct F as (SH & F). apply Z.eqb_eq in F. rewrite stream_len, SH in F. pose proof (zlen_nonneg (s_wrote s)).
  destruct (z_k _ _ _ _ _ _ Z) as [?|(h & p & I & A & N)]; [lia|]. cbn [solo_of o_in] in I. unfold pos in N. rewrite Z.add_0_l in N. split.
  - exists h, p, i. rewrite SH. unfold b2z. split; [exact I|]. split; [exact A|]. split; [exact N|lia].
  - split; [exact SH|]. exists h, p. split; [exact I|]. split; [exact A|]. rewrite N. f_equal. lia.
Qed.
Lemma fin_heard_conn sc s k c : conn_ok sc s k c -> received_fin c = true -> fin_heard s /\ syn_heard s.
Proof.
  intros CO RF. split; [exact (fin_main 0 sc _ seq0 (co_alone _ _ _ _ CO) RF)|]. eapply heard_conn; [exact CO|]. intros X. unfold received_fin in RF. rewrite X in RF. discriminate RF.
Qed.
Lemma means_main pu sc s k : life pu sc s -> phase_of (s_tcp s) = PConn k -> means s k.
Proof.
  intros L P. destruct (conn_life _ _ _ _ L P) as (c & TS & CO). pose proof (co_kind _ _ _ _ CO) as K. pose proof (co_shut _ _ _ _ CO) as SH. unfold means. split; [|split].
  - destruct k; cbn [kind_ok] in K.
    + unfold pkts. destruct K as (-> & _). reflexivity.
    + eapply heard_conn; [exact CO|tauto].
    + split; [eapply heard_conn; [exact CO|tauto]|eapply acked_conn; [exact CO|tauto]].
    + eapply heard_conn; [exact CO|tauto].
    + split; [eapply heard_conn; [exact CO|tauto]|eapply fin_conn; [exact CO|tauto]].
    + eapply fin_heard_conn; [exact CO|tauto].
    + split; [eapply fin_heard_conn; [exact CO|tauto]|eapply fin_conn; [exact CO|tauto]].
    + split; [eapply fin_heard_conn; [exact CO|tauto]|eapply acked_conn; [exact CO|tauto]].
    + split; [eapply fin_heard_conn; [exact CO|tauto]|eapply acked_conn; [exact CO|tauto]].
  - rewrite SH. destruct k; reflexivity.
  - destruct k; cbn [kind_ok] in K; auto; eapply fin_heard_conn; try exact CO; tauto.
Qed.
(** Once the FIN was taken, the end of the stream is reported, unless it came too early. *)
Lemma got_life pu sc s : life pu sc s -> got_ok s.
Proof.
  intros L. pose proof (life_ok _ _ _ L) as OK. destruct (t_sock (s_tcp s)) as [sc'|k c|l was|q was].
  - intros i b N. destruct OK as (_ & _ & _ & _ & G & _). rewrite G in N. destruct i; discriminate N.
  - eapply conn_got; exact OK.
  - exact (proj2 (proj2 OK)).
  - exact (proj1 OK).
Qed.

(** * What is sent *)
Lemma silent_main pu sc s e s' : life pu sc s -> allows pu s e -> vact s e = Some s' ->
  match phase_of (s_tcp s) with
  | PInit => s_out s' = []
  | PConn k => s_out s' = s_out s \/ e = VPop /\ exists h p, s_out s' = s_out s ++ [(h, p)] /\ h_rst h = false /\ s_addr s = Some (h_src h, h_dst h)
  | PRst => s_out s' = s_out s /\ phase_of (s_tcp s') = PRst \/
            e = VPop /\ phase_of (s_tcp s') = PClosed /\ exists h, s_out s' = s_out s ++ [(h, [])] /\ h_rst h = true /\ s_addr s = Some (h_src h, h_dst h)
  | PClosed => s_out s' = s_out s /\ phase_of (s_tcp s') = PClosed
  end.
Proof.
  intros L AL E. pose proof (life_ok _ _ _ L) as OK. pose proof (edges_main _ _ _ _ _ L AL E) as ED.
  assert (OUT : e <> VPop -> s_out s' = s_out s).
  { intros N. destruct e; cbn [vact] in E; try congruence;
      try (match type of E with obind ?u _ = _ => destruct u as [r|]; [ob_in E|discriminate E] end); injection E as <-; reflexivity. }
  assert (POP : e = VPop \/ e <> VPop) by (destruct e; auto; right; discriminate).
  unfold phase_of in *. destruct (t_sock (s_tcp s)) as [sc'|k c|l was|q was] eqn:TS.
  - destruct OK as (_ & _ & _ & _ & _ & _ & _ & O). destruct POP as [-> |POP]; [|now rewrite OUT]. cbn [vact] in E. unfold t_pop in E. rewrite TS in E. ob_in E. injection E as <-. cbn. now rewrite app_nil_r.
  - destruct POP as [-> |POP]; [|auto]. cbn [vact] in E. unfold t_pop in E. rewrite TS in E. destruct (pop_packet c) as [(c', o)|] eqn:PP; [|discriminate E]. ob_in E. injection E as <-. cbn [fst snd s_out put_tcp].
    destruct o as [(h, p)|]; [|left; apply app_nil_r]. right. split; [reflexivity|]. exists h, p. split; [reflexivity|]. cbn [sock_ok] in OK. destruct (pop_kept _ _ _ PP) as (_ & _ & _ & _ & _ & _ & R & _ & _ & A1 & A2).
    rewrite R, A1, A2. split; [exact (co_need _ _ _ _ OK)|exact (co_addr _ _ _ _ OK)].
  - destruct POP as [-> |POP].
    + right. split; [reflexivity|]. destruct OK as (-> & (h & -> & HR & AD) & _). cbn [vact] in E. unfold t_pop in E. rewrite TS, HR in E. rewrite assert_true in E by reflexivity. destruct (closed_new _ _ _) as [t|] eqn:CN; [|discriminate E].
      ob_in E. injection E as <-. cbn [fst snd s_out put_tcp s_tcp]. destruct (closed_cases _ _ _ _ CN) as (-> & _). split; [reflexivity|]. eauto.
    + left. split; [auto|]. destruct ED as [ED|ED]; [exact ED|]. inversion ED; subst; congruence.
  - split.
    + destruct POP as [-> |POP]; [|auto]. cbn [vact] in E. unfold t_pop in E. rewrite TS in E. ob_in E. injection E as <-. cbn. now rewrite app_nil_r.
    + destruct ED as [ED|ED]; [exact ED|]. inversion ED.
Qed.

(** * Polling *)
Lemma set_same t so : t_sock t = so -> set_sock t so = t.
Proof. intros <-. now destruct t. Qed.
Lemma recv_data sc s k c n : conn_ok sc s k c -> early k = false -> 0 <= n <= U32_MAX ->
  exists q cl buf, c_recv c = Some (q, cl) /\ recv_has_data c = negb (zlen buf =? 0) /\ s_taken s = zlen (s_got s) + zlen buf /\
    (zlen buf = 0 -> conn_recv c None n = Some (c, REmpty)) /\
    (0 < zlen buf -> exists c', conn_recv c None n = Some (c', ROk (zfirst n buf))).
Proof.
  intros CO EK N. destruct (zok_of _ _ _ _ CO) as (i & r & buf & Z). pose proof (z_rcv _ _ _ _ _ _ Z) as R. cbn [solo_of o_conn o_in o_taken o_got] in R.
  assert (NN : c_recv c <> None).
  { pose proof (co_kind _ _ _ _ CO) as K. destruct k; try discriminate EK; cbn [kind_ok] in K; try tauto; destruct K as (K & _); unfold received_fin in K; intros X; rewrite X in K; discriminate K. }
  unfold recv_has_data, conn_recv. destruct (c_recv c) as [(q, cl)|]; [|congruence]. destruct R as (h0 & O & _ & _ & RQ & TK & _). exists q, cl, buf. unfold rq_is_empty. rewrite (rq_len_ok _ _ _ _ RQ).
  split; [reflexivity|]. split; [reflexivity|]. split; [exact TK|]. destruct (rq_read_ok _ _ _ _ n RQ N) as (q' & E & _).
  split; intros B.
  - now rewrite B.
  - destruct (Z.eqb_spec (zlen buf) 0); [lia|]. rewrite E. ob. eauto.
Qed.
Lemma send_data sc s k c data : conn_ok sc s k c -> shut_in k = false -> if has_space c then data <> [] -> exists c' n, conn_send c data (zlen data) = Some (c', SOk n) /\ 0 < n <= zlen data else conn_send c data (zlen data) = Some (c, SFull).
Proof.
  intros CO SH. destruct (zok_of _ _ _ _ CO) as (i & r & buf & Z). assert (OS : o_shut (solo_of s c) = false) by (cbn; rewrite (co_shut _ _ _ _ CO); exact SH).
  destruct (x_write 0 sc _ i r buf seq0 Z data OS) as (x' & E & _ & W). cbn [sact solo_of o_conn o_wrote o_shut] in *. unfold conn_send in *.
  assert (SL : sq_len (c_sq c) = zlen (stream (s_wrote s) (s_shut s)) - i).
  { pose proof (z_sq _ _ _ _ _ _ Z) as Q. cbn [solo_of o_conn o_wrote o_shut] in Q. unfold sq_len. rewrite (so_end _ _ _ _ Q), (so_start _ _ _ _ Q). pose proof (so_k _ _ _ _ Q). pose proof (so_small _ _ _ _ Q). apply pos_diff; lia. }
  destruct (has_space c) eqn:HS; cbn [negb] in *; [|reflexivity]. intros ND. unfold has_space, SEND_BUF_MAX in HS. apply Z.ltb_lt in HS.
  assert (0 < zlen data) as DL by (destruct data; [congruence|rewrite zlen_cons; pose proof (zlen_nonneg data); lia]).
  destruct (add_data _ _ _ _) as [(q, ok)|]; [|discriminate E]. cbn in E |- *. injection E as <-. cbn [o_wrote] in W. destruct ok.
  - eexists _, _. split; [reflexivity|]. unfold SEND_BUF_MAX. lia.
  - exfalso. apply app_inv_head in W. apply (f_equal zlen) in W. rewrite zlen_zfirst in W. change (zlen (@nil BinNums.Z)) with 0 in W. rewrite <- SL in W. lia.
Qed.
Lemma poll_main pu sc s : life pu sc s -> let t := s_tcp s in
  (p_readable (t_poll t) = true -> forall n, 0 < n <= U32_MAX -> exists t' bytes, t_recv t None n = Some (t', Ok tt, bytes) /\ bytes <> []) /\
  (p_readable (t_poll t) = false -> forall n, 0 <= n <= U32_MAX ->
     t_recv t None n = Some (t, Err (if negb (p_connected (t_poll t)) then ENotConnected else if p_recv_closed (t_poll t) then EStreamClosed else EEmpty), [])) /\
  (p_writable (t_poll t) = true -> forall data, data <> [] -> exists t' n, t_send t data (zlen data) = Some (t', Ok n) /\ 0 < n <= zlen data) /\
  (p_writable (t_poll t) = false -> forall data,
     t_send t data (zlen data) = Some (t, Err (if negb (p_connected (t_poll t)) then ENotConnected else if p_send_closed (t_poll t) then EStreamClosed else EFull))).
Proof.
  intros L t. pose proof (life_ok _ _ _ L) as OK. fold t in OK. unfold t_poll, t_recv, t_send. destruct (t_sock t) as [sc'|k c|l was|q was] eqn:TS.
  - cbn. repeat split; intros; try discriminate; reflexivity.
  - cbn [sock_ok] in OK. destruct (early k) eqn:EK.
    { destruct k; try discriminate EK; cbn; repeat split; intros; try discriminate; reflexivity. }
    assert (RD : recv_has_data c = true -> forall n, 0 < n <= U32_MAX -> exists c' bytes, conn_recv c None n = Some (c', ROk bytes) /\ bytes <> []).
    { intros D n N. destruct (recv_data sc s k c n OK EK) as (q & cl & buf & CR & HD & TK & _ & R2); [lia|]. rewrite D in HD. symmetry in HD. apply negb_true_iff in HD. apply Z.eqb_neq in HD. pose proof (zlen_nonneg buf).
      destruct R2 as (c' & E); [lia|]. exists c', (zfirst n buf). split; [exact E|]. intros X. apply (f_equal zlen) in X. rewrite zlen_zfirst in X. change (zlen (@nil BinNums.Z)) with 0 in X. lia. }
    assert (RE : recv_has_data c = false -> forall n, 0 <= n <= U32_MAX -> conn_recv c None n = Some (c, REmpty)).
    { intros D n N. destruct (recv_data sc s k c n OK EK N) as (q & cl & buf & CR & HD & TK & R1 & _). rewrite D in HD. symmetry in HD. apply negb_false_iff in HD. apply Z.eqb_eq in HD. auto. }
    assert (PR : p_readable (match k with
      | SynSent | SynReceived => {| p_readable := false; p_writable := false; p_error := has_err t; p_recv_closed := false; p_send_closed := false; p_listening := false; p_ready := false; p_connecting := true; p_connected := false; p_closed := false |}
      | _ => t_poll t end) = recv_has_data c) by (unfold t_poll; rewrite TS; destruct k; try discriminate EK; reflexivity).
    assert (WR : forall d, has_space c = true -> shut_in k = false -> d <> [] -> exists c' n, conn_send c d (zlen d) = Some (c', SOk n) /\ 0 < n <= zlen d).
    { intros d HS SH ND. pose proof (send_data sc s k c d OK SH) as X. rewrite HS in X. auto. }
    assert (WF : forall d, has_space c = false -> shut_in k = false -> conn_send c d (zlen d) = Some (c, SFull)).
    { intros d HS SH. pose proof (send_data sc s k c d OK SH) as X. rewrite HS in X. auto. }
    destruct k; try discriminate EK; cbn [p_readable p_writable p_connected p_recv_closed p_send_closed negb eof_at_end];
      (split; [intros D n N; destruct (RD D n N) as (c' & b & -> & NB); ob; eauto|]);
      (split; [intros D n N; rewrite (RE D n N); ob; rewrite (set_same _ _ TS); reflexivity|]);
      (split; [first [discriminate|intros HS d ND; destruct (WR d HS eq_refl ND) as (c' & n & -> & B); ob; eauto]|]);
      intros HS d; first [reflexivity|rewrite (WF d HS eq_refl); ob; rewrite (set_same _ _ TS); reflexivity].
  - cbn. destruct was; repeat split; intros; try discriminate; reflexivity.
  - cbn. destruct OK as (_ & OK). assert (FW : was = false -> rq_is_empty q = true) by (intros ->; destruct OK as [OK|(OK & _)]; [exact OK|discriminate OK]).
    split; [|split; [|split]]; try (intros; discriminate).
    + intros NE n N. apply negb_true_iff in NE. destruct was; [cbn [negb]|rewrite FW in NE by reflexivity; discriminate NE]. rewrite NE. destruct OK as [OK|(_ & h0 & r & buf & O & RQ & TK & P)]; [congruence|].
      destruct (rq_read_ok _ _ _ _ n RQ) as (q' & E & _); [lia|]. rewrite E. ob. eexists _, _. split; [reflexivity|]. unfold rq_is_empty in NE. rewrite (rq_len_ok _ _ _ _ RQ) in NE. apply Z.eqb_neq in NE. pose proof (zlen_nonneg buf).
      intros X. apply (f_equal zlen) in X. rewrite zlen_zfirst in X. change (zlen (@nil BinNums.Z)) with 0 in X. lia.
    + intros NE n N. apply negb_false_iff in NE. destruct was; cbn [negb]; [rewrite NE|]; reflexivity.
    + intros _ d. destruct was; reflexivity.
Qed.
Lemma sticky_main pu sc s e s' : life pu sc s -> allows pu s e -> vact s e = Some s' -> let p := t_poll (s_tcp s) in let p' := t_poll (s_tcp s') in
  (p_recv_closed p = true -> p_recv_closed p' = true) /\ (p_send_closed p = true -> p_send_closed p' = true) /\ (p_closed p = true -> p_closed p' = true).
Proof.
  intros L AL E. pose proof (edges_main _ _ _ _ _ L AL E) as ED. unfold phase_of in ED. cbv zeta. unfold t_poll.
  destruct (t_sock (s_tcp s)) as [sc'|k c|l was|q was]; destruct (t_sock (s_tcp s')) as [sc''|k' c'|l' was'|q' was']; (destruct ED as [ED|ED]; [try discriminate ED|]); try (inversion ED; subst; cbn; auto; fail);
    try (injection ED as ->; destruct k; cbn; auto; fail); cbn; auto.
  - destruct k; cbn; auto.
Qed.

(** * Reading everything *)
Lemma reads_conn pu sc s k n : life pu sc s -> phase_of (s_tcp s) = PConn k -> early k = false -> 0 <= n <= U32_MAX ->
  exists s2, vact s (VRecv n) = Some s2 /\ zlen (s_got s2) = Z.min (zlen (s_got s) + n) (s_taken s).
Proof.
  intros L P EK N. destruct (conn_life _ _ _ _ L P) as (c & TS & CO). destruct (recv_data sc s k c n CO EK N) as (q & cl & buf & CR & HD & TK & R1 & R2). cbn [vact]. unfold t_recv. rewrite TS. pose proof (zlen_nonneg buf).
  assert (exists t' r b, (do r <- conn_recv c None n; let '(c, r) := r in Some (match r with
            | ROk bytes => (set_sock (s_tcp s) (Conn k c), Ok tt, bytes)
            | REmpty => (set_sock (s_tcp s) (Conn k c), Err (if eof_at_end k then EStreamClosed else EEmpty), [])
            | RIo bytes => (set_sock (s_tcp s) (Conn k c), Err EIo, bytes)
            end)) = Some (t', r, b) /\ zlen b = Z.min n (zlen buf)) as (t' & r & b & E & ZB).
  { destruct (Z.eq_dec (zlen buf) 0) as [Z0|Z0].
    - rewrite (R1 Z0). ob. eexists _, _, _. split; [reflexivity|]. change (zlen (@nil BinNums.Z)) with 0. lia.
    - destruct R2 as (c' & ->); [lia|]. ob. eexists _, _, _. split; [reflexivity|]. rewrite zlen_zfirst. lia. }
  destruct k; try discriminate EK; rewrite E; ob; eexists; (split; [reflexivity|]); cbn [s_got put_tcp fst snd]; rewrite zlen_app, ZB, TK; lia.
Qed.
Lemma unread_main pu sc s e s' k n : life pu sc s -> allows pu s e -> vact s e = Some s' -> phase_of (s_tcp s) = PConn k -> k = TimeWait \/ k = LastAck ->
  phase_of (s_tcp s') = PClosed -> (forall h p, e = VPush h p -> h_rst h = false) -> 0 <= n <= U32_MAX ->
  exists s2, vact s' (VRecv n) = Some s2 /\ zlen (s_got s2) = Z.min (zlen (s_got s') + n) (s_taken s').
Proof.
  intros L AL E P KK PC NR N. destruct (conn_life _ _ _ _ L P) as (c & TS & CO).
  assert (LF : exists q, t_sock (s_tcp s') = Closed q true /\ left_ok s' q).
  { pose proof (edges_main _ _ _ _ _ L AL E) as ED. rewrite P, PC in ED. destruct ED as [ED|ED]; [discriminate ED|].
    assert (VP : forall h p, e = VPush h p -> k = LastAck -> exists q, t_sock (s_tcp s') = Closed q true /\ left_ok s' q).
    { intros h p -> ->. specialize (NR h p eq_refl). cbn [vact] in E. destruct (t_push (s_now s) (s_tcp s) h p) as [(t', r)|] eqn:TP; [|discriminate E]. ob_in E. injection E as <-. cbn [fst snd s_tcp put_tcp] in *. unfold arrived. rewrite P.
      unfold t_push in TP. rewrite TS in TP. unfold concerns. rewrite (co_addr _ _ _ _ CO). cbv iota beta. unfold addrs_match in TP. destruct ((h_src h =? c_remote c) && (h_dst h =? c_local c)); cbn [negb] in TP.
      2:{ injection TP as <- _. unfold phase_of in PC. rewrite TS in PC. discriminate PC. }
      destruct (push_packet c h p) as [(c', m)|] eqn:PP; [|discriminate TP]. ob_in TP. destruct (settle _ _ _ _ _) as [t1|] eqn:ST; [|discriminate TP]. ob_in TP. injection TP as <- <-.
      destruct (push_facts _ _ _ _ _ _ _ _ CO AL PP) as (A & _). destruct (push_kept _ _ _ _ _ (co_need _ _ _ _ CO) PP) as (KP & R0 & N0 & N1 & RS). unfold settle in ST.
      destruct (c_reset c') eqn:CR.
      - exfalso. destruct (was_reset_cases _ _ _ ST) as (_ & _ & Y). rewrite N1, NR in Y by reflexivity. cbn [negb] in Y. destruct Y as (h1 & Y & _). unfold phase_of in PC. rewrite Y in PC. discriminate PC.
      - destruct (fin_was_acked c'); [|injection ST as <-; discriminate PC]. destruct (closed_cases _ _ _ _ ST) as (-> & _).
        destruct (alone_left sc _ c' A) as (q & Q & LO).
        { apply (kp_recv _ _ KP). pose proof (co_kind _ _ _ _ CO) as (RF & _). intros X. unfold received_fin in RF. rewrite X in RF. discriminate RF. }
        rewrite Q. exists q. split; [reflexivity|exact LO]. }
    destruct KK as [-> | ->].
    - inversion ED; subst; try (cbn in *; discriminate); try (specialize (NR _ _ eq_refl); congruence).
      cbn [vact] in E. destruct (t_fire (s_tcp s) i) as [t|] eqn:F; [|discriminate E]. ob_in E. injection E as <-. cbn [put_tcp s_tcp] in *. unfold t_fire in F.
      destruct (nth_error (t_timers (s_tcp s)) i) as [(k', x)|]; [|injection F as <-; congruence]. unfold callback in F. cbn [t_sock] in F. rewrite TS in F.
      destruct (is_kind k' TimeWait) eqn:IK; [apply is_kind_eq in IK; subst k'|injection F as <-; unfold phase_of in PC; cbn [t_sock] in PC; discriminate PC].
      destruct (closed_cases _ _ _ _ F) as (-> & _). destruct (alone_left sc s c (co_alone _ _ _ _ CO)) as (q & Q & LO).
      { pose proof (co_kind _ _ _ _ CO) as (RF & _). intros X. unfold received_fin in RF. rewrite X in RF. discriminate RF. }
      rewrite Q. exists q. split; [reflexivity|exact LO].
    - destruct e as [|? |? ?|? |? |h p| | |i|d]; try (inversion ED; cbn in *; discriminate). eauto. }
  destruct LF as (q & TS' & h0 & r & buf & O & RQ & TK & PL). cbn [vact]. unfold t_recv. rewrite TS'. cbn [negb]. pose proof (zlen_nonneg buf). unfold rq_is_empty. rewrite (rq_len_ok _ _ _ _ RQ).
  destruct (Z.eqb_spec (zlen buf) 0) as [Z0|Z0].
  - ob. eexists. split; [reflexivity|]. cbn [s_got put_tcp snd]. rewrite app_nil_r, TK, Z0. lia.
  - destruct (rq_read_ok _ _ _ _ n RQ N) as (q' & Y & _). rewrite Y. ob. eexists. split; [reflexivity|]. cbn [s_got put_tcp snd]. rewrite zlen_app, zlen_zfirst, TK. lia.
Qed.

(** * No panics *)
Lemma pop_done c : c_reset c = true -> c_need_rst c = false -> pop_packet c = Some (c, None).
Proof. intros A B. unfold pop_packet, next_segment. rewrite A, B. reflexivity. Qed.
Lemma was_reset_total sc s c t : alone 0 sc (solo_of s c) -> c_reset c = true -> c_need_rst c = false \/ sc = false \/ syn_heard s /\ syn_sent s -> was_reset t c <> None.
Proof.
  intros A CR G. unfold was_reset. rewrite CR, assert_true by reflexivity. destruct (c_need_rst c) eqn:CN; [|rewrite pop_done by assumption; ob; unfold closed_new; cbn; discriminate].
  destruct G as [G|G]; [discriminate G|]. assert (PT : sact (solo_of s c) XPop <> None) by (apply (pop_main 0 sc _ seq0 A); left; exact G). cbn [sact solo_of o_conn] in PT.
  destruct (pop_packet c) as [(c1, o)|] eqn:PP; [ob|now destruct PT]. destruct (pop_kept _ _ _ PP) as (_ & _ & K1 & _ & _ & _ & O). destruct o as [(h, p)|]; [|destruct O; congruence].
  destruct O as (O1 & O2 & O3 & _). rewrite CN in O1. rewrite (O3 O1). rewrite assert_true by reflexivity. rewrite pop_done by congruence. ob. cbn [snd is_none]. rewrite assert_true by reflexivity.
  unfold rst_new. cbn [forallb]. rewrite O1. cbn. discriminate.
Qed.
Lemma reset_total sc s k c t : conn_ok sc s k c -> sc = false \/ syn_heard s /\ syn_sent s -> reset_connection t c <> None.
Proof.
  intros CO G. unfold reset_connection. assert (A : alone 0 sc (solo_of s (send_rst c))) by exact (AStep 0 sc _ XAbort _ (co_alone _ _ _ _ CO) I eq_refl).
  destruct (was_reset t (send_rst c)) as [t1|] eqn:E; [ob|exfalso; revert E; eapply was_reset_total; [exact A|reflexivity|auto]].
  destruct (was_reset_cases _ _ _ E) as (_ & _ & Y). cbn [send_rst set_rst c_need_rst] in Y. destruct Y as (h & -> & _). cbn. discriminate.
Qed.
Lemma fin_total sc s k c : conn_ok sc s k c -> shut_in k = false -> send_fin c <> None.
Proof.
  intros CO SH. destruct (user_main 0 sc _ seq0 (co_alone _ _ _ _ CO)) as (_ & U & _). cbn [sact solo_of o_conn o_shut] in U. rewrite (co_shut _ _ _ _ CO) in U. specialize (U SH). intros X. rewrite X in U. now destruct U.
Qed.
Lemma conn_heard sc s k c : conn_ok sc s k c -> k <> SynSent -> c_recv c <> None.
Proof.
  intros CO NS. pose proof (co_kind _ _ _ _ CO) as K. destruct k; try congruence; cbn [kind_ok] in K; try tauto; destruct K as (K & _); unfold received_fin in K; intros X; rewrite X in K; discriminate K.
Qed.
Lemma closed_total t q : closed_new t q true <> None. Proof. unfold closed_new. cbn. discriminate. Qed.
Lemma closed_none t was : closed_new t None was <> None. Proof. unfold closed_new. destruct was; cbn; discriminate. Qed.
Lemma opt_bind {A B} (x : option A) (f : A -> option B) : x <> None -> (forall a, x = Some a -> f a <> None) -> obind x f <> None.
Proof. destruct x; cbn; [auto|congruence]. Qed.
Lemma safe_main pu sc s e : life pu sc s -> allows pu s e -> sane sc s e -> vact s e <> None.
Proof.
  intros L AL SN. pose proof (life_ok _ _ _ L) as OK. unfold sane, phase_of in SN.
  assert (HR : forall k c, t_sock (s_tcp s) = Conn k c -> k <> SynSent -> conn_ok sc s k c -> sc = false \/ syn_heard s /\ syn_sent s).
  { intros k c TS NS CO. rewrite TS in SN. assert (HD : syn_heard s) by (eapply heard_conn; [exact CO|eapply conn_heard; eauto]). destruct k; try congruence; destruct SN; auto. }
  destruct e as [|h|r a|data|n|h p| | |i|d]; cbn [vact]; try discriminate; (apply opt_bind; [|discriminate]).
  - unfold t_close. destruct (t_sock (s_tcp s)) as [sc'|k c|l was|q was] eqn:TS; try discriminate; cbn [sock_ok] in OK.
    assert (CK : k <> SynSent -> reset_connection (s_tcp s) c <> None) by (intros NS; eapply reset_total; [exact OK|]; eauto).
    assert (FT : forall k' t1, shut_in k = false -> (do c <- send_fin c; Some (enter t1 (s_now s) k' (rst_if_recv_payload c))) <> None) by (intros k' t1 SH; apply opt_bind; [eapply fin_total; eauto|discriminate]).
    destruct k; try (destruct (recv_has_data c); [apply CK; discriminate|first [apply FT; reflexivity|discriminate]]; fail); try discriminate.
    pose proof (co_kind _ _ _ _ OK) as (_ & R0 & _). unfold recv_has_data. rewrite R0. cbn [negb]. rewrite assert_true by reflexivity. apply closed_total.
  - unfold t_shutdown. destruct (t_sock (s_tcp s)) as [sc'|k c|l was|q was] eqn:TS; try discriminate; cbn [sock_ok] in OK. cbv zeta. set (c0 := if shuts_read h then rst_if_recv_payload c else c).
    assert (CO : conn_ok sc s k c0) by (subst c0; destruct (shuts_read h); [now apply quiet_ok|exact OK]). clearbody c0.
    destruct (shuts_write h); [|discriminate].
    assert (FT : forall k' t1, shut_in k = false -> (do c <- send_fin c0; Some (enter t1 (s_now s) k' c, @Ok unit tt)) <> None) by (intros k' t1 SH; apply opt_bind; [eapply fin_total; eauto|discriminate]).
    destruct k; try discriminate; try (apply FT; reflexivity).
    pose proof (co_kind _ _ _ _ CO) as (_ & R0 & _). unfold recv_has_data. rewrite R0. cbn [negb]. rewrite assert_true by reflexivity. apply opt_bind; [apply closed_total|discriminate].
  - unfold t_connect. destruct (t_sock (s_tcp s)) as [sc'|k c|l was|q was]; try discriminate; [|destruct k; discriminate]. destruct a as [local|]; [|discriminate]. rewrite (proj2 (Z.leb_le _ _) SN), assert_true by reflexivity.
    apply opt_bind; [|discriminate]. unfold conn_new. destruct sc'; vm_compute; discriminate.
  - unfold t_send. destruct (t_sock (s_tcp s)) as [sc'|k c|l was|q was]; try discriminate. cbn [sock_ok] in OK. destruct (user_main 0 sc _ seq0 (co_alone _ _ _ _ OK)) as (U & _). specialize (U data). cbn [sact solo_of o_conn o_shut] in U. rewrite (co_shut _ _ _ _ OK) in U.
    destruct k; try discriminate; specialize (U eq_refl); (destruct (conn_send c data (zlen data)) as [(c', r)|]; [ob; discriminate|now destruct U]).
  - unfold t_recv. destruct (t_sock (s_tcp s)) as [sc'|k c|l was|q was]; try discriminate; cbn [sock_ok] in OK.
    + destruct (early k) eqn:EK; [destruct k; try discriminate EK; discriminate|]. destruct (recv_data sc s k c n OK EK AL) as (q & cl & buf & _ & _ & _ & R1 & R2). pose proof (zlen_nonneg buf).
      assert (exists x, conn_recv c None n = Some x) as (x & E) by (destruct (Z.eq_dec (zlen buf) 0) as [Z0|Z0]; [eauto|destruct R2 as (c' & R2); [lia|eauto]]).
      destruct k; try discriminate EK; rewrite E; ob; destruct x; discriminate.
    + destruct was; [|discriminate]. cbn [negb]. destruct (rq_is_empty q) eqn:EM; [discriminate|]. destruct OK as (_ & [OK|(_ & h0 & r & buf & O & RQ & _)]); [congruence|].
      destruct (rq_read_ok _ _ _ _ n RQ AL) as (q' & E & _). rewrite E. ob. discriminate.
  - unfold t_push. destruct (t_sock (s_tcp s)) as [sc'|k c|l was|q was] eqn:TS; try discriminate; cbn [sock_ok] in OK. destruct (addrs_match c h); [|discriminate]. cbn [negb].
    assert (G : h_rst h = true \/ h_syn h = true /\ (sc = false \/ syn_sent s) \/ syn_heard s /\ (sc = false \/ syn_sent s)).
    { destruct k; try (right; right; split; [eapply heard_conn; [exact OK|eapply conn_heard; [exact OK|discriminate]]|exact SN]). destruct SN as [SN|SN]; auto. }
    apply opt_bind.
    + assert (PT : sact (solo_of s c) (XPush h p) <> None).
      { apply (push_total 0 sc _ h p seq0 (co_alone _ _ _ _ OK) AL); [exact (co_reset _ _ _ _ OK)|]. destruct G as [G|[(G & _)|(G1 & G2)]]; [auto|auto|]. right. right. split; [exact G1|exact G2]. }
      cbn [sact solo_of o_conn] in PT. intros X. rewrite X in PT. now destruct PT.
    + intros (c', m) PP. apply opt_bind; [|discriminate]. destruct (push_facts _ _ _ _ _ _ _ _ OK AL PP) as (A & _). destruct (push_kept _ _ _ _ _ (co_need _ _ _ _ OK) PP) as (KP & R0 & N0 & N1 & RS).
      unfold settle. destruct (c_reset c') eqn:CR.
      * eapply was_reset_total; [exact A|exact CR|]. rewrite N1 by reflexivity. destruct G as [-> |G]; [left; reflexivity|]. destruct (h_rst h) eqn:HRS; [left; reflexivity|]. right.
        destruct G as [(G1 & [G2|G2])|(G1 & [G2|G2])]; [auto| |auto|]; right; (split; [|exact G2]); unfold syn_heard; rewrite pkts_push.
        -- rewrite opening_snoc, G1, HRS. destruct (opening (pkts s)); discriminate.
        -- rewrite opening_app; exact G1.
      * destruct k; repeat match goal with |- context [if ?b then _ else _] => destruct b end; try discriminate; apply closed_total.
  - unfold t_pop. destruct (t_sock (s_tcp s)) as [sc'|k c|l was|q was] eqn:TS; try discriminate; cbn [sock_ok] in OK.
    + apply opt_bind; [|intros (c', o) _; discriminate]. assert (PT : sact (solo_of s c) XPop <> None).
      { apply (pop_main 0 sc _ seq0 (co_alone _ _ _ _ OK)). destruct k; try (left; eapply HR; eauto; discriminate). right. split; [exact (co_need _ _ _ _ OK)|]. left. intros X. apply X. cbn [solo_of o_in]. unfold pkts.
        pose proof (co_kind _ _ _ _ OK) as (-> & _). reflexivity. }
      cbn [sact solo_of o_conn] in PT. intros X. rewrite X in PT. now destruct PT.
    + destruct OK as (_ & (h & -> & HRS & _) & _). rewrite HRS, assert_true by reflexivity. apply opt_bind; [apply closed_none|discriminate].
  - unfold t_fire. destruct (nth_error (t_timers (s_tcp s)) i) as [(k', x)|]; [|discriminate]. unfold callback. cbn [t_sock]. destruct (t_sock (s_tcp s)) as [sc'|k c|l was|q was] eqn:TS; try discriminate; cbn [sock_ok] in OK.
    destruct (is_kind k' k) eqn:IK; [apply is_kind_eq in IK; subst k'|discriminate]. destruct k; try discriminate; try apply closed_total.
    + unfold t_rst_close, set_err. cbn [t_sock]. pose proof (co_kind _ _ _ _ OK) as (_ & C0 & _). unfold recv_has_data. rewrite C0. cbn [negb]. rewrite assert_true by reflexivity. apply opt_bind; [apply opt_bind; [apply closed_total|discriminate]|].
      intros (t1, r1) E. destruct (closed_new _ _ _); [|discriminate E]. ob_in E. injection E as <- <-. cbn. discriminate.
    + unfold t_rst_close, set_err. cbn [t_sock]. apply opt_bind; [apply opt_bind; [eapply reset_total; [exact OK|eapply HR; eauto; discriminate]|discriminate]|].
      intros (t1, r1) E. destruct (reset_connection _ _); [|discriminate E]. ob_in E. injection E as <- <-. cbn. discriminate.
Qed.

(** * Progress *)
Lemma eof_conn sc s k c : conn_ok sc s k c -> k <> SynSent -> ~ fin_early s -> received_fin c = peer_done k.
Proof.
  intros CO NS NE. pose proof (co_kind _ _ _ _ CO) as KO. destruct k; cbn [kind_ok peer_done] in *; try tauto.
  - destruct KO as (_ & _ & E1). destruct (received_fin c) eqn:F; [|reflexivity]. exfalso. apply NE. destruct (fin_main 0 sc _ seq0 (co_alone _ _ _ _ CO) F) as (h1 & h2 & p2 & j & _ & I & N & _).
    cbn [solo_of o_in] in I. unfold pkts in I. apply in_map_iff in I. destruct I as ((k1, (h3, p3)) & X & I). injection X as -> ->. exists k1, h2, p2. split; [exact I|]. split; [exact (E1 _ I)|].
    unfold pkt_syms, syms in N. destruct (h_fin h2); [reflexivity|]. exfalso. apply nth_error_In in N. rewrite app_nil_r in N. apply in_app_iff in N. destruct N as [N|N].
    + destruct (h_syn h2); [destruct N as [N|[]]; discriminate N|exact N].
    + apply in_map_iff in N. destruct N as (b & N & _). discriminate N.
  - destruct KO as (_ & _ & K). destruct (received_fin c); [exfalso; auto|reflexivity].
  - destruct KO as (_ & _ & K). destruct (received_fin c); [exfalso; auto|reflexivity].
Qed.
Lemma progress_main pu sc s k h p s' h0 : life pu sc s -> phase_of (s_tcp s) = PConn k -> k <> SynSent -> wire h p -> vact s (VPush h p) = Some s' -> concerns s h = true ->
  h_rst h = false -> h_syn h = false -> h_ack h = true -> concat p = [] -> opening (pkts s) = Some h0 -> ~ fin_early s -> (k = SynReceived -> ~ syn_acked s) ->
  h_seq h = (h_seq h0 + 1 + s_taken s + b2z (peer_done k)) mod 4294967296 ->
  (h_fin h = true -> peer_done k = false /\ s_taken s - zlen (s_got s) < 100000) ->
  phase_of (s_tcp s') = next_phase k (h_fin h) (h_acknum h =? (1 + zlen (s_wrote s) + b2z (s_shut s)) mod 4294967296).
Proof.
  intros L PH NS W E CN HR HS HA PN O NE SA SQ FN. destruct (conn_life _ _ _ _ L PH) as (c & TS & CO).
  pose proof (eof_conn _ _ _ _ CO NS NE) as RF.
  destruct (zok_of _ _ _ _ CO) as (i & r & buf & Z).
  cbn [vact] in E. unfold t_push in E. rewrite TS in E.
  assert (AM : addrs_match c h = true).
  { unfold concerns in CN. rewrite (co_addr _ _ _ _ CO) in CN. unfold addrs_match. exact CN. }
  rewrite AM in E. cbn [negb] in E. destruct (push_packet c h p) as [(c', n)|] eqn:P; [|discriminate E]. ob_in E.
  destruct (settle (s_now s) (s_tcp s) k h c') as [t|] eqn:ST; [|discriminate E]. ob_in E. injection E as <-. cbn [s_tcp put_tcp fst snd].
  assert (SAC : sact (solo_of s c) (XPush h p) = Some (solo_of (with_push s k h p n) c')).
  { cbn [sact solo_of o_conn]. rewrite P. ob. cbn [fst snd o_wrote o_shut o_got o_taken o_in o_out]. unfold solo_of. rewrite pkts_push. reflexivity. }
  assert (PS : pkt_syms h p = if h_fin h then [SFin] else []) by (unfold pkt_syms, syms; rewrite HS, PN; reflexivity).
  pose proof (z_rcv _ _ _ _ _ _ Z) as ZR. cbn [solo_of o_conn o_taken o_got] in ZR. pose proof (conn_heard _ _ _ _ CO NS) as NN.
  assert (TG : 0 <= s_taken s - zlen (s_got s) <= 100000).
  { destruct (c_recv c) as [(q, cl)|]; [|congruence]. destruct ZR as (h1 & _ & _ & _ & RQ & TK & _). pose proof (ro_small _ _ _ _ RQ). pose proof (zlen_nonneg buf). clear - TK H H0. lia. }
  destruct (x_inorder 0 sc (solo_of s c) i r buf h0 h p (solo_of (with_push s k h p n) c') seq0 Z W O) as (R1 & R2 & R3 & i' & r' & buf' & Z' & LE & K1 & K2).
  { exact (co_reset _ _ _ _ CO). } { exact HR. } { exact HS. }
  { cbn [solo_of o_conn o_taken]. rewrite RF. exact SQ. }
  { cbn [solo_of o_conn]. rewrite RF, PS. intros X. destruct (h_fin h); [destruct (FN eq_refl); congruence|reflexivity]. }
  { intros _. exact PN. }
  { cbn [solo_of o_taken o_got]. rewrite PS. destruct (h_fin h); [destruct (FN eq_refl) as (_ & FN')|]; [change (zlen [SFin]) with 1; clear - FN' TG|change (zlen (@nil sym)) with 0; clear - TG]; lia. }
  { exact SAC. }
  cbn [solo_of o_conn o_taken o_wrote o_shut] in *. rewrite RF in R3.
  pose proof (fin_acked_zok _ _ _ _ _ _ Z) as F1. pose proof (fin_acked_zok _ _ _ _ _ _ Z') as F2. cbn [solo_of o_conn o_shut o_wrote with_push s_wrote s_shut] in F1, F2.
  pose proof (z_acked _ _ _ _ _ _ Z) as A1. pose proof (z_acked _ _ _ _ _ _ Z') as A2. cbn [solo_of o_conn] in A1, A2.
  pose proof (so_k _ _ _ _ (z_sq _ _ _ _ _ _ Z')) as KB. pose proof (so_k _ _ _ _ (z_sq _ _ _ _ _ _ Z)) as KB0. cbn [solo_of o_shut o_wrote with_push s_wrote s_shut] in KB, KB0.
  pose proof (so_small _ _ _ _ (z_sq _ _ _ _ _ _ Z)) as KS. cbn [solo_of o_shut o_wrote] in KS.
  rewrite stream_len in *. change (if s_shut s then 1 else 0) with (b2z (s_shut s)) in *. set (N := 1 + zlen (s_wrote s) + b2z (s_shut s)) in *.
  set (all := h_acknum h =? N mod 4294967296).
  assert (ALL : i <> N -> (i' =? N) = all).
  { intros IN. subst all. destruct (Z.eqb_spec (h_acknum h) (N mod 4294967296)) as [X|X].
    - apply Z.eqb_eq. apply K2; [exact HA|]. rewrite X. unfold pos. f_equal.
    - apply Z.eqb_neq. intros ->. destruct K1 as [K1|(_ & K1)]; [congruence|]. apply X. rewrite K1. unfold pos. f_equal. }
  pose proof (co_shut _ _ _ _ CO) as SH. unfold settle in ST. rewrite R1 in ST. rewrite R3, F2, A2 in ST.
  pose proof (co_kind _ _ _ _ CO) as KO.
  assert (NF : fin_was_acked c = false -> s_shut s = true -> i <> N) by (intros X Y; rewrite F1 in X; apply andb_false_iff in X; destruct X as [X|X]; [congruence|apply Z.eqb_neq; exact X]).
  destruct k; cbn [kind_ok peer_done shut_in orb] in *; rewrite ?SH in ST; cbn [andb] in ST; try congruence.
  - (* SynReceived *) destruct KO as (_ & W0 & _). assert (N = 1) as N1 by (subst N; rewrite W0, SH; reflexivity).
    assert (i = 0) as I0.
    { destruct (Z.eq_dec i 0) as [X|X]; [exact X|exfalso]. apply (SA eq_refl). apply (acked_conn sc s SynReceived c CO). rewrite A1. apply Z.ltb_lt. clear - X KB0. lia. }
    specialize (ALL ltac:(clear - N1 I0; lia)). replace (0 <? i') with (i' =? N) in ST by (clear - N1 KB; destruct (Z.eqb_spec i' N); destruct (Z.ltb_spec 0 i'); auto; exfalso; lia).
    rewrite ALL in ST. destruct all; injection ST as <-; destruct (h_fin h); reflexivity.
  - destruct (h_fin h); injection ST as <-; destruct all; reflexivity.
  - destruct KO as (_ & FA & _). rewrite (ALL (NF FA SH)) in ST. destruct (h_fin h), all; cbn [andb] in ST; injection ST as <-; reflexivity.
  - destruct (h_fin h); injection ST as <-; destruct all; reflexivity.
  - destruct KO as (_ & FA). rewrite (ALL (NF FA SH)) in ST. destruct all; injection ST as <-; destruct (h_fin h); reflexivity.
  - injection ST as <-; destruct (h_fin h), all; reflexivity.
  - injection ST as <-; destruct (h_fin h), all; reflexivity.
  - destruct KO as (_ & FA & _). rewrite (ALL (NF FA SH)) in ST. destruct all.
    + destruct (closed_cases _ _ _ _ ST) as (TS' & _). unfold phase_of. rewrite TS'. destruct (h_fin h); reflexivity.
    + injection ST as <-. destruct (h_fin h); reflexivity.
Qed.
Lemma progress_total pu sc s k h p h0 : life pu sc s -> phase_of (s_tcp s) = PConn k -> k <> SynSent -> sc = false \/ syn_sent s -> wire h p -> concerns s h = true ->
  h_rst h = false -> h_syn h = false -> h_ack h = true -> concat p = [] -> opening (pkts s) = Some h0 -> ~ fin_early s -> (k = SynReceived -> ~ syn_acked s) ->
  h_seq h = (h_seq h0 + 1 + s_taken s + b2z (peer_done k)) mod 4294967296 ->
  (h_fin h = true -> peer_done k = false /\ s_taken s - zlen (s_got s) < 100000) ->
  exists s', vact s (VPush h p) = Some s' /\ phase_of (s_tcp s') = next_phase k (h_fin h) (h_acknum h =? (1 + zlen (s_wrote s) + b2z (s_shut s)) mod 4294967296).
Proof.
  intros L PH NS SP W CN HR HS HA PN O NE SA SQ FN. destruct (vact s (VPush h p)) as [s'|] eqn:E.
  - exists s'. split; [reflexivity|]. eapply progress_main; eauto.
  - exfalso. revert E. apply (safe_main pu sc s (VPush h p) L W). unfold sane. rewrite PH. destruct k; auto.
Qed.
Lemma timeouts_main pu sc s : life pu sc s ->
  (forall k, pu = true -> phase_of (s_tcp s) = PConn k -> has_timer k = true -> s_now s <= s_since s + 60000000000) /\ (forall i s', allows pu s (VFire i) -> vact s (VFire i) = Some s' -> phase_of (s_tcp s') <> phase_of (s_tcp s) -> s_since s + 60000000000 <= s_now s).
Proof. intros L. split; [intros k; now apply late_main with (sc := sc)|intros i s'; now apply early_main with (sc := sc)]. Qed.

(** * Running *)
Lemma wireb_ok h p : wireb h p = true -> wire h p.
Proof.
  unfold wireb. rewrite !andb_true_iff, !Z.leb_le, !Z.ltb_lt. intros ((((A & B) & C) & D) & E). unfold wire, is_seq. split; [exact A|]. split; [exact B|]. split; [exact C|]. split; [|exact E].
  intros s X. rewrite X in D. apply andb_true_iff in D. rewrite !Z.leb_le in D. exact D.
Qed.
Lemma allowsb_ok pu s e : allowsb pu s e = true -> allows pu s e.
Proof.
  destruct e as [|h|r a|data|n|h p| | |i|d]; cbn [allowsb allows]; auto.
  - rewrite andb_true_iff, !Z.leb_le. auto.
  - apply wireb_ok.
  - intros H k d E. rewrite E in H. now apply Z.leb_le.
  - rewrite andb_true_iff, Z.leb_le. intros (A & B). split; [exact A|]. intros -> k x I. cbn [negb orb] in B. rewrite forallb_forall in B. apply Z.leb_le. exact (B _ I).
Qed.
Lemma vexec_life pu sc : forall l s s', life pu sc s -> vexec pu s l = Some s' -> life pu sc s'.
Proof.
  induction l as [|e l IH]; intros s s' H E; cbn in E; [injection E as <-; exact H|].
  destruct (allowsb pu s e) eqn:P; [rewrite assert_true in E by reflexivity|discriminate E]. destruct (vact s e) as [s1|] eqn:V; [ob_in E|discriminate E]. eapply IH; [|exact E]. eapply LStep; eauto. now apply allowsb_ok.
Qed.
Lemma vrun_case sc l (P : sess -> Prop) : match vrun sc l with Some s => P s | None => False end -> exists s, life true sc s /\ P s.
Proof. destruct (vrun sc l) as [s|] eqn:E; [|contradiction]. intros H. exists s. split; [|exact H]. eapply vexec_life; [|exact E]. apply LStart. Qed.
Lemma vchild_case sc h p l (P : sess -> Prop) : match vchild sc h p l with Some s => P s | None => False end -> exists s, life true sc s /\ P s.
Proof.
  destruct (vchild sc h p l) as [s|] eqn:E; [|contradiction]. intros H. exists s. split; [|exact H]. unfold vchild in E. destruct (wireb h p) eqn:WB; [rewrite assert_true in E by reflexivity|discriminate E].
  destruct (child_new 0 sc h p) as [t|] eqn:C; [|discriminate E]. ob_in E. eapply vexec_life; [|exact E]. apply LChild; [now apply wireb_ok|exact C].
Qed.
