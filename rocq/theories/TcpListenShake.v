(** Proofs about the listening socket: how a connection is made. *)
From Verif Require Import Base FMap SeqModel SeqSpec TcpBufModel TcpBufSpec TcpConnModel TcpConnSpec TcpSoloSpec TcpStateModel TcpStateSpec TcpStateProofs TcpStateFacts TcpListenSpec TcpListenProofs TcpListenFacts.

Ltac mlia := unfold is_empty, contains, len, seq_diff, seq_sub, seq_add, M32 in *; cbn [start end_] in *; Z.div_mod_to_equations; lia.
Lemma syn_inter s : is_seq s -> intersection {| start := s; end_ := seq_add (seq_add (seq_add s 1) 0) 0 |} {| start := s; end_ := seq_add s 65535 |} = Some {| start := s; end_ := seq_add s 1 |}.
Proof.
  intros S. unfold is_seq in S. assert (E : seq_add (seq_add (seq_add s 1) 0) 0 = seq_add s 1) by mlia. rewrite E. unfold intersection.
  assert (A : is_empty {| start := s; end_ := seq_add s 1 |} = false) by (apply Z.eqb_neq; mlia). assert (B : is_empty {| start := s; end_ := seq_add s 65535 |} = false) by (apply Z.eqb_neq; mlia).
  rewrite A, B. cbn [start end_].
  assert (C : contains {| start := s; end_ := seq_add s 65535 |} s = true) by (apply Z.ltb_lt; mlia).
  assert (D : contains {| start := s; end_ := seq_add s 65535 |} (seq_sub (seq_add s 1) 1) = true) by (apply Z.ltb_lt; mlia).
  rewrite C, D. assert (F : seq_diff s s <? seq_diff (seq_add s 1) s = true) by (apply Z.ltb_lt; mlia). now rewrite F.
Qed.
Lemma child_answers now sc h t : wire h [] -> child_new now sc h [] = Some t -> h_ack h = false -> h_fin h = false -> 0 < h_win h ->
  exists t' h', t_pop t = Some (t', Ok (h', [])) /\ h_syn h' = true /\ h_ack h' = true /\ h_rst h' = false /\ h_fin h' = false /\ h_seq h' = 0 /\ h_acknum h' = (h_seq h + 1) mod 4294967296 /\
    h_src h' = h_dst h /\ h_dst h' = h_src h.
Proof.
  intros (SQ & _ & WN & _ & _). destruct h as [src dst syn fin rst ack seq an win scale]. cbn in SQ, WN. unfold child_new. cbn [h_syn h_rst h_ack h_fin h_win h_seq h_src h_dst]. destruct syn; [rewrite assert_true by reflexivity|discriminate]. destruct rst; [discriminate|]. cbn [negb]. rewrite assert_true by reflexivity. intros E -> -> W0.
  set (h := {| h_src := src; h_dst := dst; h_syn := true; h_fin := false; h_rst := false; h_ack := false; h_seq := seq; h_acknum := an; h_win := win; h_scale := scale |}) in *.
  set (sq0 := {| segs := [Syn]; tx := 0; sstart := 0; send_ := 1; sfin := false; unused := 0 |}).
  set (sv := match scale with Some s => Some (if 14 <? s then 14 else s) | None => None end).
  set (q0 := rq_new seq). 
  set (cn := fun q need win => {| c_local := dst; c_remote := src; c_sq := sq0; c_win := win; c_sclosed := false; c_syn_acked := false; c_recv := Some (q, false); c_need_ack := need; c_last_adv := None;
     c_ws := {| w_sent := false; w_received := true; w_recv := None; w_send := sv; w_disabled := negb sc |}; c_rst_if_payload := false; c_reset := false; c_need_rst := false |}).
  set (q1 := {| rsegs := []; rstart := seq_add seq 1; rend := seq_add seq 1; rsyn := true; rfin := false |}).
  assert (C1 : (do c <- conn_new dst src 0 sc; do c <- take_syn c h; Some c) = Some (cn q0 true 2048)).
  { destruct sc; unfold cn, h; cbn; reflexivity. }
  assert (Q1 : add_syn_r q0 = Some q1) by reflexivity.
  assert (RM : recv_window_max {| w_sent := false; w_received := true; w_recv := None; w_send := sv; w_disabled := negb sc |} = 65535) by (destruct sc, sv; reflexivity).
  assert (L0 : rq_len q0 = 0) by (unfold rq_len, q0, rq_new; cbn; unfold is_seq in SQ; mlia).
  assert (L1 : rq_len q1 = 0) by (unfold rq_len, q1; cbn; unfold is_seq in SQ; mlia).
  assert (C2 : push_segment (cn q0 true 2048) h [] = Some (cn q1 true win, 0)).
  { unfold push_segment, recv_window, cn, h, trim_segment. cbn [h_syn h_fin h_seq c_recv c_ws].
    rewrite RM. rewrite L0. change (pay_len []) with (Some 0). ob. cbn [b2z]. change (rend q0) with seq. change (Z.min (Z.max 0 (RECV_BUF_MAX - 0)) 65535) with 65535. ob. cbn [b2z].
    rewrite (syn_inter seq SQ). assert (RE : range_eqb {| start := seq; end_ := seq_add seq 1 |} {| start := seq; end_ := seq_add (seq_add (seq_add seq 1) 0) 0 |} = true).
    { unfold range_eqb. cbn [start end_]. rewrite Z.eqb_refl. apply Z.eqb_eq. unfold is_seq in SQ. mlia. }
    rewrite RE. ob. cbn [c_rst_if_payload andb]. unfold take_segment. cbn [h_syn]. change (rsyn q0) with false. cbn [andb]. rewrite Q1. ob. change (pay_len []) with (Some 0). ob. cbn [negb Z.eqb andb h_fin]. ob. cbn [andb]. ob.
    change (rend q1) with (seq_add seq 1). change (rend q0) with seq. assert (NE : seq_add seq 1 =? seq = false) by (apply Z.eqb_neq; unfold is_seq in SQ; mlia). change (negb (0 =? 0)) with false. cbn [andb]. ob. change (rend q1) with (seq_add seq 1). rewrite NE. cbn [negb]. ob. unfold take_ack. cbn [h_ack]. ob. reflexivity. }
  assert (TT : t = enter {| t_sock := Init sc; t_err := None; t_timers := [] |} now SynReceived (cn q1 true win)).
  { destruct (conn_new dst src 0 sc) as [c|] eqn:CN; [ob_in E; ob_in C1|discriminate C1]. unfold push_packet in E. assert (R0 : c_reset c = false) by (destruct sc; vm_compute in CN; injection CN as <-; reflexivity). rewrite R0 in E. cbn [negb] in E. rewrite assert_true in E by reflexivity. cbn [h h_rst] in E.
    destruct (take_syn c h) as [c1|]; [ob_in E; ob_in C1|discriminate C1]. injection C1 as ->. rewrite C2 in E. ob_in E. injection E as <-. reflexivity. }
  clear E C1 C2. subst t. unfold t_pop, enter. cbn [t_sock]. unfold pop_packet.
  assert (NS : next_segment (cn q1 true win) = Some (Some {| o_range := {| start := 0; end_ := 1 |}; o_syn := true; o_fin := false; o_rst := false; o_pay := [] |})).
  { unfold next_segment, cn. cbn [c_need_rst c_reset]. unfold next_data_segment, send_window. cbn [c_sq c_win]. change (sstart sq0) with 0. change (length (segs sq0)) with 1%nat. cbn [data_loop]. cbn [acc0 a_len]. change (next_not_transmitted sq0 0) with (Some (Some (0, Syn))). ob.
    assert (CO : contains {| start := 0; end_ := seq_add 0 win |} 0 = true) by (apply Z.ltb_lt; mlia). rewrite CO. cbn [negb a_bytes acc0]. change (0 =? MSS) with false. cbn [a_start a_chunks a_syn a_fin a_len a_bytes]. change (0 <=? MSS) with true. rewrite assert_true by reflexivity. change (next_not_transmitted sq0 (0 + 1)) with (Some (@None (Z * segment))). ob. reflexivity. }
  rewrite NS. ob. unfold cn at 1. cbn [c_recv o_syn c_ws].
  assert (RW : recv_window_len (cn q1 true win) = 65535).
  { unfold recv_window_len, recv_window, cn. cbn [c_recv c_ws]. rewrite RM. rewrite L1. change (Z.min (Z.max 0 (RECV_BUF_MAX - 0)) 65535) with 65535. unfold q1. cbn [rend]. unfold is_seq in SQ. mlia. }
  rewrite RW. change (65535 <=? U16_MAX) with true. rewrite assert_true by reflexivity.
  match goal with |- context [sent_syn ?w ?s] => assert (SS : exists w', sent_syn w s = Some w') end.
  { unfold cn, sent_syn, can_send_scale. cbn [c_ws w_sent w_received w_recv w_send w_disabled negb]. destruct sc, sv; cbn; eexists; reflexivity. }
  destruct SS as (w' & ->). ob. rewrite assert_true by reflexivity. cbn [o_range end_ c_sq set_need_ack set_ws set_last_adv]. change (c_sq (cn q1 true win)) with sq0. change (mark_as_transmitted sq0 1) with (Some (set_tx sq0 1)). ob. cbn [o_rst]. ob.
  eexists. eexists. split; [reflexivity|]. cbn. repeat split; reflexivity.
Qed.

Lemma answers_main pu sc g h : hears pu sc g -> wire h [] -> h_syn h = true -> h_rst h = false -> h_ack h = false -> h_fin h = false -> 0 < h_win h ->
  who (g_l g) (h_src h, h_dst h) = None -> l_full (g_l g) = false -> q_full (g_l g) = false ->
  exists g' k t t' h', lact g (LPush h []) = Some g' /\ adds (g_l g) k t (h_src h, h_dst h) (g_l g') /\ half_open t = true /\ t_pop t = Some (t', Ok (h', [])) /\
    h_syn h' = true /\ h_ack h' = true /\ h_rst h' = false /\ h_fin h' = false /\ h_seq h' = 0 /\ h_acknum h' = (h_seq h + 1) mod 4294967296 /\ h_src h' = h_dst h /\ h_dst h' = h_src h.
Proof.
  intros H W HS HR HA HF HW WH LF QF. pose proof (hears_inv _ _ _ H) as GI. destruct (l_push (g_now g) (g_l g) h []) as [(l', r)|] eqn:E; [|exfalso; revert E; eapply new_total; eauto].
  pose proof (push_main _ _ _ _ _ _ _ H E) as (_ & _ & HD). rewrite LF, QF, andb_false_r, WH, HS in HD. destruct HD as (_ & k & t & CN & HO & AD). rewrite (gi_sc _ _ _ _ GI) in CN.
  destruct (child_answers _ _ _ _ W CN HA HF HW) as (t' & h' & A). destruct (lact g (LPush h [])) as [g'|] eqn:LA; cbn [lact] in LA; rewrite E in LA; ob_in LA; [|discriminate LA]. injection LA as LA.
  exists g', k, t, t', h'. split; [reflexivity|]. split; [rewrite <- LA; exact AD|]. split; [exact HO|exact A].
Qed.
Lemma made_by pu sc g k t a s h p h0 : hears pu sc g -> kid (g_l g) k = Some (t, a) -> own pu sc g k t a s -> half_open t = true -> sc = false \/ In k (g_spoke g) -> l_full (g_l g) = false ->
  wire h p -> (h_src h, h_dst h) = a -> h_rst h = false -> h_syn h = false -> h_fin h = false -> h_ack h = true -> concat p = [] ->
  opening (pkts s) = Some h0 -> ~ fin_early s -> ~ syn_acked s -> h_seq h = (h_seq h0 + 1 + s_taken s) mod 4294967296 -> h_acknum h = 1 ->
  exists g', lact g (LPush h p) = Some g' /\ waiting g' = waiting g ++ [k] /\ g_given g' = g_given g /\ forall j, j <> k -> kid (g_l g') j = kid (g_l g) j.
Proof.
  intros H K OW HO SP LF W AD HR HS HF HA PN OP NE NA SQ AN. pose proof (hears_inv _ _ _ H) as GI. pose proof (gi_ok _ _ _ _ GI) as OK. subst a. pose proof (proj2 (who_kid _ _ _ _ _ OK) K) as WH.
  assert (SS : sc = false \/ syn_sent s) by (destruct SP as [X|X]; [now left|right; exact (ow_spoke _ _ _ _ _ _ _ OW X)]). assert (SD : sound sc s) by (unfold sound; tauto).
  assert (PH : phase_of (s_tcp s) = PConn SynReceived) by (rewrite (ow_tcp _ _ _ _ _ _ _ OW); unfold half_open in HO; destruct (phase_of t) as [|[]| |]; try discriminate HO; reflexivity).
  assert (KN : kin (phase_of t) = true) by (rewrite <- (ow_tcp _ _ _ _ _ _ _ OW), PH; reflexivity).
  destruct (l_push (g_now g) (g_l g) h p) as [(l', r)|] eqn:E; [|exfalso; revert E; eapply known_total; eauto].
  pose proof (push_cases _ _ _ _ _ _ OK E) as C. unfold pushes in C. rewrite HS, WH, LF, andb_false_r in C. cbn [andb] in C. destruct C as (t' & TP & SY).
  assert (M : made t' = true).
  { destruct (progress_total pu sc s SynReceived h p h0 (ow_life _ _ _ _ _ _ _ OW) PH) as (s' & VA & PH'); auto; try discriminate.
    - unfold concerns. rewrite (ow_addr _ _ _ _ _ _ _ OW). cbn [fst snd]. now rewrite !Z.eqb_refl.
    - cbn [peer_done b2z]. rewrite SQ. f_equal. lia.
    - congruence.
    - cbn [vact] in VA. rewrite (ow_tcp _ _ _ _ _ _ _ OW), (ow_now _ _ _ _ _ _ _ OW), TP in VA. ob_in VA. injection VA as <-. cbn [s_tcp put_tcp] in PH'. destruct (ow_idle _ _ _ _ _ _ _ OW) as (I1 & _ & I3). rewrite I1, I3, HF, AN in PH'. change (1 =? (1 + zlen (@nil Z) + b2z false) mod 4294967296) with true in PH'. cbn [next_phase] in PH'. unfold made. now rewrite PH'. }
  destruct (lact g (LPush h p)) as [g'|] eqn:LA; [|cbn [lact] in LA; rewrite E in LA; ob_in LA; discriminate LA]. assert (H' : hears pu sc g') by exact (HStep pu sc g (LPush h p) g' H W LA).
  cbn [lact] in LA. rewrite E in LA. ob_in LA. injection LA as LA. assert (GL : g_l g' = l') by (rewrite <- LA; reflexivity). exists g'. split; [reflexivity|].
  split; [|split; [rewrite <- LA; reflexivity|]].
  - rewrite (waiting_accept _ _ _ _ (hears_inv _ _ _ H')), (waiting_accept _ _ _ _ GI), GL, (sy_acc _ _ _ _ SY). unfold acc_after. rewrite M.
    assert (NI : contains_key k (l_accept (g_l g)) = false).
    { destruct (contains_key k (l_accept (g_l g))) eqn:X; [|reflexivity]. apply contains_in in X. apply (lk_acc _ _ OK k) in X; [|discriminate]. unfold made_at in X. rewrite K in X. unfold made in X. rewrite <- (ow_tcp _ _ _ _ _ _ _ OW), PH in X. discriminate X. }
    now rewrite NI.
  - intros j J. rewrite GL, (sy_kid _ _ _ _ SY j). apply Z.eqb_neq in J. now rewrite J.
Qed.
Lemma listen_main pu sc g n : hears pu sc g -> exists g', lact g (LListen n) = Some g' /\ l_max (g_l g') = Z.min (n + 1) 4294967295 /\ l_err (g_l g') = l_err (g_l g) /\ g_made g' = g_made g /\ g_given g' = g_given g /\ waiting g' = waiting g /\
  l_poll (g_l g') = l_poll (g_l g) /\ l_wants (g_l g') = l_wants (g_l g) /\ forall k, kid (g_l g') k = kid (g_l g) k.
Proof.
  intros H. eexists. split; [reflexivity|]. split; [reflexivity|]. split; [reflexivity|]. assert (N : newly (g_l g) (l_listen (g_l g) n) = []) by (apply newly_none; auto). 
  split; [cbn [go g_made]; rewrite N; apply app_nil_r|]. split; [reflexivity|]. split; [unfold waiting; cbn [go g_made g_l]; rewrite N, app_nil_r; reflexivity|]. repeat split; reflexivity.
Qed.
