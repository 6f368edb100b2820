From Verif Require Import Base SeqModel SeqSpec SeqProofs TcpBufModel TcpBufSpec TcpBufProofs TcpQueueProofs TcpConnModel TcpConnSpec TcpConnProofs TcpNetSpec TcpNetProofs TcpFlowSpec.

(** * Positions as functions of the state *)
Definition una (x : endp) : Z := zlen (str_of x) - sq_len (c_sq (e_conn x)).
Definition nxt (x : endp) : Z := una x + seq_diff (tx (c_sq (e_conn x))) (sstart (c_sq (e_conn x))).
Definition rcvd (y : endp) : Z :=
  match c_recv (e_conn y) with None => 0 | Some (q, _) => b2z (rsyn q) + zlen (e_got y) + zlen (concat (rsegs q)) + b2z (rfin q) end.
Definition wl (y : endp) : Z := wlen (e_conn y) (match c_recv (e_conn y) with None => [] | Some (q, _) => concat (rsegs q) end).
Definition edge (y : endp) : Z := rcvd y + wl y.

Lemma una_ok iss x k : sq_ok iss (str_of x) k (c_sq (e_conn x)) -> una x = k.
Proof. intros S. unfold una. rewrite (sq_len_pos _ _ _ _ S). lia. Qed.
Lemma nxt_ok iss x k t : sq_ok iss (str_of x) k (c_sq (e_conn x)) -> tx (c_sq (e_conn x)) = pos iss t -> k <= t <= zlen (str_of x) -> nxt x = t.
Proof. intros S T B. unfold nxt. rewrite (una_ok _ _ _ S), T, (so_start _ _ _ _ S). pose proof (so_small _ _ _ _ S). rewrite pos_diff by lia. lia. Qed.
Lemma rcvd_ok iss str r y : rcv_ok iss str r y -> rcvd y = r.
Proof.
  intros (B & H). unfold rcvd. destruct (c_recv (e_conn y)) as [(q, cl)|]; [|now destruct H]. destruct H as (_ & _ & buf & R & E).
  apply (f_equal zlen) in E. rewrite syms_len, zlen_app, zlen_zfirst in E. rewrite (ro_buf _ _ _ _ R). lia.
Qed.
Lemma half_pos iss sc x y : half iss sc x y -> snd_ok iss sc x (una x) (nxt x) /\ rcv_ok iss (str_of x) (rcvd y) y /\ una x <= rcvd y <= nxt x /\
  Forall (pkt_ok iss x (nxt x)) (e_out x) /\ Forall (ack_ok iss (rcvd y) x) (e_out y) /\ (is_none (c_recv (e_conn y)) = false -> 0 < nxt x).
Proof.
  intros (k & t & r & S & R & B & P & A & N). pose proof (una_ok _ _ _ (sn_sq _ _ _ _ _ S)) as E1. pose proof (nxt_ok _ _ _ _ (sn_sq _ _ _ _ _ S) (sn_tx _ _ _ _ _ S) (sn_t _ _ _ _ _ S)) as E2.
  pose proof (rcvd_ok _ _ _ _ R) as E3. rewrite E1, E2, E3. auto 10.
Qed.

(** * What each operation changes *)
Record quiet (x x' : endp) : Prop := {
  qu_una : una x' = una x; qu_nxt : nxt x' = nxt x; qu_win : c_win (e_conn x') = c_win (e_conn x); qu_ws : c_ws (e_conn x') = c_ws (e_conn x);
  qu_rcvd : rcvd x' = rcvd x; qu_edge : edge x <= edge x'; qu_out : e_out x' = e_out x; qu_recv : is_none (c_recv (e_conn x')) = is_none (c_recv (e_conn x));
  qu_wrote : exists w, e_wrote x' = e_wrote x ++ w; qu_str : exists s, str_of x' = str_of x ++ s }.
Lemma quiet_refl x : quiet x x.
Proof. constructor; auto; try lia; exists []; now rewrite app_nil_r. Qed.

Lemma b2z_nonneg b : 0 <= b2z b. Proof. destruct b; cbn; lia. Qed.
Definition sym_bytes (l : list sym) : list Z := flat_map (fun s => match s with SByte b => [b] | _ => [] end) l.
Lemma sym_bytes_syms s b f : sym_bytes (syms s b f) = b.
Proof.
  unfold sym_bytes, syms. rewrite !flat_map_app. replace (flat_map _ (if s then [SSyn] else [])) with (@nil Z) by (destruct s; reflexivity).
  replace (flat_map _ (if f then [SFin] else [])) with (@nil Z) by (destruct f; reflexivity). rewrite app_nil_r. cbn [app]. induction b as [|z b IH]; [reflexivity|]. cbn. now rewrite IH.
Qed.

Section Effects.
Variables (ix iy : Z) (sx sy : bool) (x y : endp).
Hypothesis (IX : is_seq ix) (IY : is_seq iy) (HX : half ix sx x y) (HY : half iy sy y x).

Lemma quiet_eff o x' : allowed x y o -> act x y o = Some x' -> match o with OPush _ | OPop => False | _ => True end -> quiet x x'.
Proof using All.
  pose proof (half_pos _ _ _ _ HX) as (S & RO & B & P & A & NZ). pose proof S as [S1 S2 S3 S4 S5 S6 S7 S8 S9 S10 S11].
  destruct o as [data| |n| |s| |]; intros AL E T; try destruct T; cbn [act] in E.
  - cbn in AL. unfold conn_send, has_space in E. rewrite (sq_len_pos _ _ _ _ S1) in E. unfold SEND_BUF_MAX in E. rewrite AL in S11. cbn [b2z] in S11.
    destruct (Z.ltb_spec (zlen (str_of x) - una x) 100000) as [SP|FU]; cbn [negb] in E.
    2: { ob_in E. injection E as <-. rewrite app_nil_r. destruct x. apply quiet_refl. }
    set (n := Z.min (zlen data) (Z.max 0 (100000 - (zlen (str_of x) - una x)))) in *. pose proof (zlen_nonneg data).
    destruct (add_data_ok ix (una x) (Datatypes.S (Z.to_nat n)) (str_of x) (c_sq (e_conn x)) data n S1) as (q' & ok & m & E' & M1 & M2 & OK1 & OK2 & SQ & TX & SF); [now rewrite S2|blia|blia|blia|].
    rewrite E' in E. ob_in E. injection E as <-. rewrite OK2 by blia. assert (m = n) as -> by (apply OK1, OK2; blia).
    set (x' := {| e_conn := _; e_wrote := _; e_shut := _; e_got := _; e_out := _ |}).
    assert (ST : str_of x' = str_of x ++ map SByte (zfirst n data)).
    { unfold x', str_of, stream. cbn [e_wrote e_shut]. rewrite AL. rewrite map_app, !app_nil_r. reflexivity. }
    assert (SQ' : sq_ok ix (str_of x') (una x) (c_sq (e_conn x'))) by (rewrite ST; exact SQ).
    assert (U : una x' = una x) by (apply (una_ok ix); exact SQ'). constructor; auto; try reflexivity.
    + apply (nxt_ok ix x' (una x)); [exact SQ'|rewrite <- S3; exact TX|]. rewrite ST, zlen_app, zlen_map. pose proof (zlen_nonneg (zfirst n data)). blia.
    + eexists. reflexivity.
    + eexists. exact ST.
  - cbn in AL. unfold send_fin, add_fin_s in E. rewrite AL in S11. cbn [b2z] in S11.
    destruct (add_segment_ok ix (str_of x) (una x) (c_sq (e_conn x)) Fin S1) as (q' & E' & SQ & TX & SF & _); [congruence|cbn; blia|cbn; blia|].
    rewrite E' in E. ob_in E. injection E as <-. set (x' := {| e_conn := _; e_wrote := _; e_shut := _; e_got := _; e_out := _ |}).
    assert (ST : str_of x' = str_of x ++ [SFin]).
    { unfold x', str_of, stream. cbn [e_wrote e_shut]. rewrite AL. rewrite app_nil_r. reflexivity. }
    assert (SQ' : sq_ok ix (str_of x') (una x) (c_sq (e_conn x'))) by (rewrite ST; exact SQ).
    assert (U : una x' = una x) by (apply (una_ok ix); exact SQ'). constructor; auto; try reflexivity.
    + apply (nxt_ok ix x' (una x)); [exact SQ'|rewrite <- S3; exact TX|]. rewrite ST, zlen_app. change (zlen [SFin]) with 1. blia.
    + exists []. now rewrite app_nil_r.
    + eexists. exact ST.
  - cbn in AL. unfold conn_recv in E. destruct (c_recv (e_conn x)) as [(q, cl)|] eqn:CR; [|discriminate E].
    pose proof (half_pos _ _ _ _ HY) as (_ & (RB & RO') & _). rewrite CR in RO'. destruct RO' as (-> & RR & buf & RQ & ZF).
    destruct (rq_is_empty q) eqn:EM.
    { ob_in E. injection E as <-. rewrite app_nil_r. destruct x. apply quiet_refl. }
    destruct (rq_read_ok iy (rcvd x) buf q n RQ AL) as (q' & E' & RQ' & RS & RF). rewrite E' in E. ob_in E. injection E as <-.
    pose proof (ro_buf _ _ _ _ RQ) as B1. pose proof (ro_buf _ _ _ _ RQ') as B2. pose proof (zlen_zskip n buf). pose proof (zlen_zfirst n buf). pose proof (zlen_nonneg buf).
    assert (RV : rcvd {| e_conn := set_recv (e_conn x) (Some (q', rfin q)); e_wrote := e_wrote x; e_shut := e_shut x; e_got := e_got x ++ zfirst n buf; e_out := e_out x |} = rcvd x).
    { unfold rcvd. cbn [e_conn set_recv c_recv e_got]. rewrite CR, RS, RF, B1, B2, zlen_app. blia. }
    constructor; auto; try reflexivity.
    + unfold edge. rewrite RV. unfold wl, wlen. cbn [e_conn set_recv c_recv c_ws]. rewrite CR, B1, B2. blia.
    + cbn [e_conn set_recv c_recv]. now rewrite CR.
    + exists []. now rewrite app_nil_r.
    + exists []. rewrite app_nil_r. reflexivity.
  - injection E as <-. constructor; auto; try reflexivity; try (exists []; now rewrite app_nil_r).
  - injection E as <-. constructor; auto; try reflexivity; try (exists []; now rewrite app_nil_r).
Qed.

Lemma wl_eq : recv_window_len (e_conn x) = wl x.
Proof using All.
  pose proof (half_pos _ _ _ _ HY) as (_ & (_ & RO) & _). unfold recv_window_len, wl. destruct (c_recv (e_conn x)) as [(q, cl)|] eqn:CR.
  - destruct RO as (_ & _ & buf & Q & _). rewrite (recv_window_rng _ iy (rcvd x) buf q cl CR Q), (ro_buf _ _ _ _ Q). pose proof (wlen_bounds (e_conn x) buf (ro_small _ _ _ _ Q)). pose proof (zlen_nonneg buf). rewrite len_rng; lia.
  - unfold recv_window. rewrite CR. reflexivity.
Qed.

(** A packet is sent. *)
Record emitted (x' : endp) (s : sent) : Prop := {
  em_out : e_out x' = e_out x ++ [s]; em_same : e_wrote x' = e_wrote x /\ e_shut x' = e_shut x /\ e_got x' = e_got x;
  em_una : una x' = una x; em_nxt : nxt x' = nxt x + zlen (pkt_syms (s_h s) (s_p s));
  em_seq : h_seq (s_h s) = pos ix (nxt x); em_syms : pkt_syms (s_h s) (s_p s) = cut 0 (nxt x) (nxt x') (str_of x);
  em_win : nxt x < nxt x' -> nxt x' <= una x + c_win (e_conn x);
  em_mss : zlen (concat (s_p s)) <= 1500;
  em_cwin : c_win (e_conn x') = c_win (e_conn x); em_recv : c_recv (e_conn x') = c_recv (e_conn x);
  em_ack : h_ack (s_h s) = negb (is_none (c_recv (e_conn x))); em_acknum : c_recv (e_conn x) <> None -> h_acknum (s_h s) = pos iy (rcvd x);
  em_size : h_win (s_h s) = if h_syn (s_h s) then wl x else Z.shiftr (wl x) (recv_shift0 (c_ws (e_conn x)));
  em_conf : h_syn (s_h s) = false -> is_configured (c_ws (e_conn x)) = true;
  em_scale : h_scale (s_h s) = if h_syn (s_h s) then scale_of (c_ws (e_conn x)) else None;
  em_ws : if h_syn (s_h s) then sent_syn (c_ws (e_conn x)) (scale_of (c_ws (e_conn x))) = Some (c_ws (e_conn x')) else c_ws (e_conn x') = c_ws (e_conn x);
  em_rst : h_rst (s_h s) = c_need_rst (e_conn x);
  em_mine : s_mine s = zlen (e_wrote x); em_peer : s_peer s = zlen (e_wrote y) }.
Lemma pop_eff x' : act x y OPop = Some x' -> x' = x \/ exists s, emitted x' s.
Proof using All.
  cbn [act]. destruct (pop_packet (e_conn x)) as [(c', o)|] eqn:PE; [|discriminate]. ob. intros E. injection E as <-.
  pose proof (half_pos _ _ _ _ HX) as (S & RO & B & P & A & NZ). pose proof S as [S1 S2 S3 S4 S5 S6 S7 S8 S9 S10 S11].
  pose proof (half_pos _ _ _ _ HY) as (Sy & ROy & By & Py & Ay & NZy).
  assert (RQ : forall q cl, c_recv (e_conn x) = Some (q, cl) -> exists irs r buf, rq_ok irs r buf q).
  { intros q cl CR. destruct ROy as (_ & ROy). rewrite CR in ROy. destruct ROy as (_ & _ & buf & Q & _). eauto. }
  pose proof (pop_inv ix (e_wrote x) (e_shut x) (una x) (nxt x) (e_conn x) S1 S3 S4 S5 c' o RQ PE) as PI. destruct o as [(h, p)|].
  2: { destruct PI as (-> & _). left. rewrite app_nil_r. now destruct x. }
  right. destruct PI as (l & [P1 P2 P3 P4 P4z P5 P6 P7 P8 P9 P10 P11 P12 P13 P14 P15 P16 (last & ws & -> & WS)]). fold (str_of x) in *.
  exists {| s_h := h; s_p := p; s_mine := zlen (e_wrote x); s_peer := zlen (e_wrote y) |}. set (x' := {| e_conn := _; e_wrote := _; e_shut := _; e_got := _; e_out := _ |}).
  pose proof (so_k _ _ _ _ S1) as KB.
  assert (L : zlen (pkt_syms h p) = l) by (rewrite P5, cut_len; blia).
  assert (SQ' : sq_ok ix (str_of x') (una x) (c_sq (e_conn x'))) by (unfold x'; cbn [e_conn after_pop c_sq]; apply sq_ok_tx; exact S1).
  assert (U : una x' = una x) by (apply (una_ok ix); exact SQ').
  assert (N : nxt x' = nxt x + l) by (apply (nxt_ok ix x' (una x)); [exact SQ'|reflexivity|change (str_of x') with (str_of x); blia]).
  constructor; cbn [s_h s_p s_mine s_peer]; auto; try reflexivity.
  - rewrite N, L. reflexivity.
  - rewrite N. exact P5.
  - rewrite N. intros X. apply P9. blia.
  - intros CR. destruct (c_recv (e_conn x)) as [(q, cl)|] eqn:CE; [|congruence]. rewrite (P4 q cl eq_refl). destruct ROy as (_ & ROy). rewrite CE in ROy. destruct ROy as (_ & _ & buf & Q & _). exact (ro_end _ _ _ _ Q).
  - rewrite <- wl_eq. exact P14.
Qed.

(** The first packet is the SYN. *)
Lemma pop_syn x' s : act x y OPop = Some x' -> e_out x' = e_out x ++ [s] -> nxt x = 0 -> 0 < c_win (e_conn x) -> h_rst (s_h s) = false -> h_syn (s_h s) = true.
Proof using All.
  cbn [act]. unfold pop_packet. pose proof (half_pos _ _ _ _ HX) as ([S1 S2 S3 S4 S5 S6 S7 S8 S9 S10 S11] & _). intros E O N0 W HR.
  destruct (next_segment (e_conn x)) as [[o|]|] eqn:NS; [| |discriminate E]; ob_in E.
  2: { injection E as <-. cbn [e_out] in O. apply app_inv_head in O. discriminate O. }
  match type of E with (do r <- ?u; _) = _ => destruct u as [(c', r)|] eqn:PO; [|discriminate E] end. ob_in E. injection E as <-. cbn [e_out] in O. apply app_inv_head in O.
  assert (OO : o_rst o = h_rst (s_h s) /\ o_syn o = h_syn (s_h s)).
  { destruct (match c_recv (e_conn x) with Some (q, _) => (true, rend q) | None => (false, 0) end) as (af, an).
    match type of PO with (do r <- ?u; _) = _ => destruct u as [((c1, size), scale)|]; [|discriminate PO] end. ob_in PO. destruct (size <=? U16_MAX); [|discriminate PO]. rewrite assert_true in PO by reflexivity.
    destruct (mark_as_transmitted _ _) as [q1|]; [|discriminate PO]. ob_in PO. destruct (o_rst o); [destruct (c_need_rst _); [rewrite assert_true in PO by reflexivity|discriminate PO]|]; ob_in PO; injection PO as _ <-; injection O as <-; auto. }
  destruct OO as (OR & <-). rewrite HR in OR. unfold next_segment in NS. destruct (c_need_rst (e_conn x)).
  { destruct (unsent_seq _); [|discriminate NS]. ob_in NS. injection NS as <-. discriminate OR. }
  destruct (c_reset (e_conn x)); [discriminate NS|]. pose proof (so_k _ _ _ _ S1) as K0. pose proof (stream_len (e_wrote x) (e_shut x)) as SL. fold (str_of x) in SL. pose proof (zlen_nonneg (e_wrote x)) as WN.
  destruct (next_data_ok ix (e_wrote x) (e_shut x) (una x) (nxt x) (c_win (e_conn x)) (c_sq (e_conn x)) S1 S3 S4 S5 (e_conn x) eq_refl eq_refl) as (d & ND & D). rewrite ND in NS. ob_in NS. fold (str_of x) in D. destruct d as [d|].
  2: { exfalso. destruct D as [D|D]; [destruct (e_shut x); blia|blia]. }
  ob_in NS. assert (d = o) as ->. { destruct (negb (o_syn d) && negb (is_configured (c_ws (e_conn x)))); [discriminate NS|]. now injection NS as <-. }
  destruct D as (l & L0 & L1 & _ & _ & SY & _). rewrite N0 in SY. apply cut_syn_conv in SY; [exact SY|apply Z.le_refl|blia].
Qed.

(** A packet with the symbols from position [p] on arrives; [n] bytes of payload are accepted. *)
Record took (s : sent) (p a : Z) (x' : endp) (n : Z) : Prop := {
  to_same : e_wrote x' = e_wrote x /\ e_shut x' = e_shut x /\ e_got x' = e_got x /\ e_out x' = e_out x;
  to_nxt : nxt x' = nxt x;
  to_ws : c_ws (e_conn x') = c_ws (e_conn x) \/ c_recv (e_conn x) = None /\ h_syn (s_h s) = true /\ received_syn (c_ws (e_conn x)) (h_scale (s_h s)) = Some (c_ws (e_conn x'));
  to_snd : una x' = una x /\ c_win (e_conn x') = c_win (e_conn x) \/
           h_rst (s_h s) = false /\ c_win (e_conn x') = new_win (e_conn x') (s_h s) /\ una x' = if h_ack (s_h s) && (una x <? a) then a else una x;
  to_rcvd : rcvd x <= rcvd x' <= Z.max (rcvd x) (p + zlen (pkt_syms (s_h s) (s_p s)));
  to_edge : edge x <= edge x';
  to_all : h_rst (s_h s) = false -> c_reset (e_conn x') = false -> p = rcvd x -> p + zlen (pkt_syms (s_h s) (s_p s)) <= edge x ->
           (rcvd x' = p + zlen (pkt_syms (s_h s) (s_p s)) /\ n = zlen (concat (s_p s))) /\ c_win (e_conn x') = new_win (e_conn x') (s_h s) /\ una x' = if h_ack (s_h s) && (una x <? a) then a else una x;
  to_recv : if h_rst (s_h s) then c_recv (e_conn x') = c_recv (e_conn x) else c_recv (e_conn x') <> None }.

Lemma rst_eff s p a c' n : push_packet (e_conn x) (s_h s) (s_p s) = Some (c', n) -> h_rst (s_h s) = true ->
  took s p a {| e_conn := c'; e_wrote := e_wrote x; e_shut := e_shut x; e_got := e_got x; e_out := e_out x |} n.
Proof using All.
  unfold push_packet. destruct (c_reset (e_conn x)) eqn:NRS; [discriminate|]. cbn [negb]. rewrite assert_true by reflexivity. intros U HR. rewrite HR in U.
  assert (c' = set_rst (e_conn x) true (c_need_rst (e_conn x)) \/ c' = set_need_ack (e_conn x) true \/ c' = e_conn x) as D.
  { destruct (recv_window (e_conn x)); [|injection U as <- _; auto]. destruct (h_seq (s_h s) =? start r); [injection U as <- _; auto|]. destruct (contains r (h_seq (s_h s))); injection U as <- _; auto. }
  assert (D' : c_sq c' = c_sq (e_conn x) /\ c_ws c' = c_ws (e_conn x) /\ c_win c' = c_win (e_conn x) /\ c_recv c' = c_recv (e_conn x)) by (destruct D as [-> | [-> | ->]]; auto).
  destruct D' as (D1 & D2 & D3 & D4). set (x' := {| e_conn := c'; e_wrote := _; e_shut := _; e_got := _; e_out := _ |}).
  assert (U1 : una x' = una x) by (unfold una, x'; cbn [e_conn]; rewrite D1; reflexivity).
  assert (R1 : rcvd x' = rcvd x) by (unfold rcvd, x'; cbn [e_conn e_got]; rewrite D4; reflexivity).
  assert (W1 : wl x' = wl x) by (unfold wl, wlen, x'; cbn [e_conn]; rewrite D2, D4; reflexivity).
  constructor; auto.
  - unfold nxt. rewrite U1. unfold x'. cbn [e_conn]. now rewrite D1.
  - rewrite R1. lia.
  - unfold edge. lia.
  - congruence.
  - rewrite HR. exact D4.
Qed.

Lemma push_eff s p a c' n : In s (e_out y) -> fresh x y s ->
  h_seq (s_h s) = pos iy p -> 0 <= p -> p + zlen (pkt_syms (s_h s) (s_p s)) <= nxt y ->
  pkt_syms (s_h s) (s_p s) = cut 0 p (p + zlen (pkt_syms (s_h s) (s_p s))) (str_of y) -> s_mine s - 100001 <= p ->
  (h_ack (s_h s) = true -> h_acknum (s_h s) = pos ix a /\ s_peer s - 100001 <= a <= rcvd y) ->
  push_packet (e_conn x) (s_h s) (s_p s) = Some (c', n) ->
  took s p a {| e_conn := c'; e_wrote := e_wrote x; e_shut := e_shut x; e_got := e_got x; e_out := e_out x |} n.
Proof using All.
  intros IN (FM & FP) H1 H2 H4 H5 H6 HA0 PE. destruct (h_rst (s_h s)) eqn:HR; [now apply rst_eff|].
  unfold push_packet in PE. destruct (c_reset (e_conn x)) eqn:NRS; [discriminate|]. cbn [negb] in PE. rewrite assert_true in PE by reflexivity. rewrite HR in PE.
  pose proof (half_pos _ _ _ _ HX) as (S & RO & B & P & A & NZ). pose proof S as [S1 S2 S3 S4 S5 S6 S7 S8 S9 S10 S11].
  pose proof (half_pos _ _ _ _ HY) as (Sy & ROy & By & Py & Ay & NZy).
  pose proof (proj1 (Forall_forall _ _) Py s IN) as [(p' & l' & _ & _ & L1 & _ & L2 & _) Q2 Q3 Q4 Q5 Q6].
  pose proof (proj1 (Forall_forall _ _) A s IN) as (A1 & _). set (l := zlen (pkt_syms (s_h s) (s_p s))) in *.
  assert (LB : 0 <= l <= 1502) by (unfold l; rewrite L2, zlen_cut; pose proof (zlen_nonneg (str_of y)); blia). clear L2.
  destruct (take_syn (e_conn x) (s_h s)) as [c1|] eqn:TS; [|discriminate PE]. ob_in PE. rename PE into PS.
  pose proof (pos_0 iy IY) as P0. pose proof (sn_t _ _ _ _ _ Sy) as TB.
  assert (SYNP : h_syn (s_h s) = true -> p = 0 /\ 0 < l).
  { intros X. split; [|unfold l, pkt_syms; rewrite syms_len, X; cbn [b2z]; pose proof (zlen_nonneg (concat (s_p s))); destruct (h_fin (s_h s)); cbn [b2z]; blia].
    unfold pkt_syms in H5. rewrite X in H5. symmetry in H5. eapply cut_syn; [|exact H5]. exact H2. }
  assert (C1 : exists q buf, c_sq c1 = c_sq (e_conn x) /\ c_reset c1 = false /\ c_win c1 = c_win (e_conn x) /\
     (c_ws c1 = c_ws (e_conn x) \/ c_recv (e_conn x) = None /\ h_syn (s_h s) = true /\ received_syn (c_ws (e_conn x)) (h_scale (s_h s)) = Some (c_ws c1)) /\
     recv_window_max (c_ws (e_conn x)) <= recv_window_max (c_ws c1) /\ ws_ok (c_ws c1) /\
     c_recv c1 = Some (q, rfin q) /\ rq_ok iy (rcvd x) buf q /\ zfirst (rcvd x) (str_of y) = syms (rsyn q) (e_got x ++ buf) (rfin q) /\
     wl x <= wlen c1 buf /\
     (rsyn q = true \/ p = rcvd x /\ h_syn (s_h s) = true /\ 0 < wlen c1 buf /\ rcvd x = 0 /\ rfin q = false /\ e_got x = [] /\ buf = [])).
  { unfold take_syn in TS. destruct ROy as (RB & ROy). destruct (c_recv (e_conn x)) as [(q, cl)|] eqn:CR; cbn [is_none andb] in TS.
    - injection TS as <-. destruct ROy as (-> & [X|RS] & buf & RQ & ZF); [congruence|]. exists q, buf. rewrite CR. split; [reflexivity|]. split; [exact NRS|]. split; [reflexivity|]. split; [left; reflexivity|]. split; [apply Z.le_refl|]. split; [exact S6|]. split; [reflexivity|]. split; [exact RQ|]. split; [exact ZF|].
      split; [|auto]. unfold wl. rewrite CR, (ro_buf _ _ _ _ RQ). apply Z.le_refl.
    - destruct (h_syn (s_h s)) eqn:HSY.
      2: { injection TS as <-. unfold push_segment, recv_window in PS. rewrite CR in PS. discriminate PS. }
      destruct ROy as (R0 & G). destruct (SYNP eq_refl) as (P00 & _). pose proof TS as TS'. unfold received_syn in TS. rewrite S8 in TS. cbn [is_none negb] in TS. rewrite assert_true in TS by reflexivity. ob_in TS. injection TS as <-.
      rewrite H1, P00, P0. exists (rq_new iy), []. rewrite R0. cbn [set_ws set_recv c_sq c_sclosed c_reset c_need_rst c_rst_if_payload c_win c_ws c_recv w_sent w_received w_disabled].
      assert (WK : ws_ok {| w_sent := w_sent (c_ws (e_conn x)); w_received := true; w_recv := w_recv (c_ws (e_conn x));
                 w_send := match h_scale (s_h s) with Some s0 => Some (if 14 <? s0 then 14 else s0) | None => None end; w_disabled := w_disabled (c_ws (e_conn x)) |}).
      { split; [apply S6|]. split; [|split; [apply S6|discriminate]]. cbn. destruct Q4 as [-> | ->]; [auto|]. change (14 <? 1) with false. auto. }
      assert (RM : recv_window_max (c_ws (e_conn x)) <= recv_window_max {| w_sent := w_sent (c_ws (e_conn x)); w_received := true; w_recv := w_recv (c_ws (e_conn x));
                 w_send := match h_scale (s_h s) with Some s0 => Some (if 14 <? s0 then 14 else s0) | None => None end; w_disabled := w_disabled (c_ws (e_conn x)) |}).
      { pose proof (wmax_pos _ WK) as WM. destruct S6 as (_ & _ & _ & W4). rewrite S8 in W4. specialize (W4 eq_refl). unfold recv_window_max at 1, recv_shift0. rewrite W4.
        replace (if w_disabled (c_ws (e_conn x)) then 0 else match w_recv (c_ws (e_conn x)) with Some _ | _ => 0 end) with 0 by (destruct (w_disabled (c_ws (e_conn x))), (w_recv (c_ws (e_conn x))); reflexivity).
        change (Z.shiftl 65535 0) with 65535. apply WM. }
      do 3 (split; [auto; fail|]). split.
      { right. split; [reflexivity|]. split; [reflexivity|]. unfold received_syn. rewrite S8. reflexivity. }
      split; [exact RM|]. split; [exact WK|]. split; [reflexivity|]. split; [now apply rq_new_ok|]. rewrite G. split; [reflexivity|].
      pose proof (wmax_pos _ WK).
      split; [unfold wl; rewrite CR; unfold wlen; cbn [c_ws set_ws set_recv]; blia|]. right. split; [reflexivity|]. split; [reflexivity|]. split; [|auto].
      unfold wlen. cbn [c_ws set_ws set_recv]. change (zlen (@nil Z)) with 0. blia. }
  destruct C1 as (q & buf & D1 & D3 & D6 & D7 & D8 & D9 & CR & RQ & ZF & WL & SY). clear TS.
  assert (exists a', h_acknum (s_h s) = pos ix a' /\ (h_ack (s_h s) = true -> a' = a) /\ zlen (str_of x) + 1 - 4294967296 <= a' < una x + 1 + 4294967296) as (a' & HA & AR & AB).
  { pose proof (stream_len (e_wrote x) (e_shut x)) as SL. fold (str_of x) in SL. pose proof (so_small _ _ _ _ S1) as SM. destruct (h_ack (s_h s)).
    - destruct (HA0 eq_refl) as (HA & AB). exists a. split; [exact HA|]. split; [reflexivity|]. destruct (e_shut x); blia.
    - destruct (pos_near ix (una x) _ Q5) as (a' & HA & AB). exists a'. split; [exact HA|]. split; [discriminate|blia]. }
  pose proof (ro_small _ _ _ _ RQ) as BS. pose proof (wlen_bounds c1 buf BS) as WB. pose proof (zlen_nonneg buf) as BN. pose proof (so_small _ _ _ _ (sn_sq _ _ _ _ _ Sy)) as SMy.
  assert (SQ1 : sq_ok ix (str_of x) (una x) (c_sq c1)) by now rewrite D1.
  assert (PSP : p + l - rcvd x < 4294967296 /\ rcvd x + 100000 - p < 4294967296).
  { pose proof (stream_len (e_wrote y) (e_shut y)) as SL. fold (str_of y) in SL. destruct ROy as (RB & _). destruct (e_shut y); blia. }
  assert (SYq : rsyn q = true \/ p = rcvd x /\ h_syn (s_h s) = true /\ 0 < wlen c1 buf) by (destruct SY as [?|(?&?&?&_)]; auto).
  destruct (push_segment_ok c1 (s_h s) (s_p s) ix (str_of x) (una x) iy (rcvd x) buf q p a' CR RQ SQ1 H1 HA AB) as [(X1 & X2 & X3)|(c0 & n0 & E & PU)];
    [fold l; blia|apply PSP|apply PSP|exact SYq|congruence|].
  rewrite E in PS. injection PS as -> ->. clear E. fold l in PU.
  set (w := wlen c1 buf) in *.
  assert (RCV : forall c2 q2 buf2, c_recv c2 = Some (q2, rfin q2) -> c_ws c2 = c_ws c1 -> concat (rsegs q2) = buf2 ->
     let x2 := {| e_conn := c2; e_wrote := e_wrote x; e_shut := e_shut x; e_got := e_got x; e_out := e_out x |} in
     rcvd x2 = b2z (rsyn q2) + zlen (e_got x) + zlen buf2 + b2z (rfin q2) /\ wl x2 = wlen c1 buf2).
  { intros c2 q2 buf2 X1 X2 <-. cbv zeta. unfold rcvd, wl, wlen. cbn [e_conn e_got]. rewrite X1, X2. auto. }
  assert (RX : rcvd x = b2z (rsyn q) + zlen (e_got x) + zlen buf + b2z (rfin q)).
  { pose proof (f_equal zlen ZF) as ZL. rewrite syms_len, zlen_app, zlen_zfirst in ZL. destruct ROy as (RB & _). blia. }
  assert (SND : forall c2 sq2 k2, c_sq c2 = sq2 -> sq_ok ix (str_of x) k2 sq2 -> tx sq2 = tx (c_sq (e_conn x)) -> k2 <= nxt x ->
     let x2 := {| e_conn := c2; e_wrote := e_wrote x; e_shut := e_shut x; e_got := e_got x; e_out := e_out x |} in una x2 = k2 /\ nxt x2 = nxt x).
  { intros c2 sq2 k2 <- X1 X2 X3. cbv zeta. split; [apply (una_ok ix); exact X1|]. apply (nxt_ok ix _ k2); [exact X1|cbn [e_conn]; congruence|change (str_of _) with (str_of x); blia]. }
  assert (MT : p = rcvd x -> p + l <= rcvd x + w -> meets p (p + l) (rcvd x) (rcvd x + w) = true).
  { intros -> LE. unfold meets. destruct (Z.eqb_spec (rcvd x) (rcvd x + l)), (Z.eqb_spec (rcvd x) (rcvd x + w)); apply Z.eqb_eq || (apply andb_true_iff; split; [apply Z.leb_le|apply Z.ltb_lt]) || apply Z.ltb_lt; blia. }
  rewrite H5, cut_cut in PU by exact H2. pose proof (ro_buf _ _ _ _ RQ) as BQ. set (p1 := Z.max p (rcvd x)) in *. set (p2 := Z.min (p + l) (rcvd x + w)) in *.
  assert (EDX : edge x = rcvd x + wl x) by reflexivity.
  inversion PU as [OV X1 X2|OV WHY X1 X2|q' sq' acked n' OV NRP NCL TK AK X1 X2]; subst c'.
  - (* outside the window *)
    destruct (SND (set_need_ack c1 true) _ (una x) eq_refl) as (U1 & N1); [cbn [set_need_ack c_sq]; exact SQ1|cbn [set_need_ack c_sq]; now rewrite D1|blia|].
    destruct (RCV (set_need_ack c1 true) q buf) as (R1 & W1); [exact CR|reflexivity|exact BQ|].
    constructor; cbn [e_conn e_wrote e_shut e_got e_out set_need_ack c_ws c_win c_reset c_recv]; auto.
    + blia.
    + unfold edge. rewrite R1, W1. fold w. blia.
    + intros _ _ PR LE. exfalso. fold l in LE. rewrite MT in OV; [discriminate|exact PR|blia].
    + rewrite HR, CR. discriminate.
  - (* reset *)
    destruct (SND (send_rst c1) _ (una x) eq_refl) as (U1 & N1); [exact SQ1|cbn [send_rst set_rst c_sq]; now rewrite D1|blia|].
    destruct (RCV (send_rst c1) q buf) as (R1 & W1); [exact CR|reflexivity|exact BQ|].
    constructor.
    + auto.
    + exact N1.
    + exact D7.
    + left. auto.
    + rewrite R1. blia.
    + unfold edge at 2. rewrite R1, W1. fold w. blia.
    + intros _ X. discriminate X.
    + rewrite HR. cbn [e_conn send_rst set_rst c_recv]. rewrite CR. discriminate.
  - (* accepted *)
    set (need := (p1 =? rcvd x) && negb (rfin q) && (0 <? zlen (cut 0 p1 p2 (str_of y))) || c_need_ack c1) in *.
    set (c2 := after_push c1 q' sq' acked need (new_win c1 (s_h s))) in *.
    assert (UN : exists k2, sq_ok ix (str_of x) k2 sq' /\ tx sq' = tx (c_sq (e_conn x)) /\ k2 <= nxt x /\ k2 = if h_ack (s_h s) && (una x <? a) then a else una x).
    { destruct (h_ack (s_h s)) eqn:HAK; cbn [andb] in *.
      - destruct (HA0 eq_refl) as (_ & AB0). rewrite (AR eq_refl) in AK. assert (a <=? zlen (str_of x) = true) as AL by (apply Z.leb_le; blia). rewrite AL, andb_true_r in AK. destruct (una x <? a).
        + destruct AK as (K1 & K2 & _). exists a. rewrite <- D1. split; [exact K1|]. split; [exact K2|]. split; [blia|reflexivity].
        + destruct AK as (-> & _). exists (una x). rewrite D1. split; [exact S1|]. split; [reflexivity|]. split; [blia|reflexivity].
      - destruct AK as (-> & _). exists (una x). rewrite D1. split; [exact S1|]. split; [reflexivity|]. split; [blia|reflexivity]. }
    destruct UN as (k2 & K1 & K2 & K3 & K4). destruct (SND c2 sq' k2 eq_refl K1 K2 K3) as (U1 & N1).
    assert (TL : zlen (cut 0 p1 p2 (str_of y)) = Z.max 0 (p2 - p1)) by (rewrite zlen_cut; clear - H2 TB H4 LB; unfold p2, p1; lia).
    assert (RV : exists r2, rcvd {| e_conn := c2; e_wrote := e_wrote x; e_shut := e_shut x; e_got := e_got x; e_out := e_out x |} = r2 /\ rcvd x <= r2 <= Z.max (rcvd x) (p + l) /\
       edge x <= r2 + wl {| e_conn := c2; e_wrote := e_wrote x; e_shut := e_shut x; e_got := e_got x; e_out := e_out x |} /\
       (p = rcvd x -> p + l <= rcvd x + wl x -> r2 = p + l /\ n = zlen (concat (s_p s)))).
    { eexists. split; [reflexivity|]. destruct ((p1 =? rcvd x) && negb (rfin q)) eqn:AT.
      - apply andb_true_iff in AT. destruct AT as (PR & NF). apply Z.eqb_eq in PR. apply negb_true_iff in NF.
        destruct TK as (sb & b & f & TE & NB & RQ' & RS' & RF' & SB). rewrite PR in *.
        destruct (RCV c2 q' (buf ++ b)) as (R1 & W1); [reflexivity|reflexivity|exact (ro_buf _ _ _ _ RQ')|]. rewrite R1, W1, RS', RF', zlen_app.
        assert (SYB : b2z (rsyn q) + b2z sb = 1).
        { destruct SY as [SY|(PQ & HSY & W0 & R0 & _)].
          - rewrite SY. destruct sb; [specialize (SB eq_refl); congruence|reflexivity].
          - destruct (SYNP HSY) as (PZ & L0). assert (sb = true) as ->.
            { rewrite R0 in TE. symmetry in TE. apply cut_syn_conv in TE; [exact TE|blia|unfold p2; blia]. }
            rewrite (SB eq_refl). reflexivity. }
        pose proof (f_equal zlen TE) as TZ. rewrite TL, syms_len in TZ. pose proof (zlen_nonneg b) as BB. cbn [b2z]. rewrite NF in RX. cbn [b2z] in RX.
        assert (R2 : 1 + zlen (e_got x) + (zlen buf + zlen b) + b2z f = rcvd x + Z.max 0 (p2 - rcvd x)) by blia. rewrite R2.
        assert (WE : w + rcvd x <= rcvd x + Z.max 0 (p2 - rcvd x) + wlen c1 (buf ++ b)).
        { unfold w, wlen. rewrite zlen_app. pose proof (b2z_nonneg sb) as Z1. pose proof (b2z_nonneg f) as Z2. clear - TZ BB Z1 Z2 BN. lia. }
        split; [unfold p2; blia|]. split; [blia|]. intros PE LE.
        assert (P2E : p2 = p + l) by (unfold p2; blia). split; [blia|].
        assert (TP : cut 0 (rcvd x) p2 (str_of y) = pkt_syms (s_h s) (s_p s)) by (rewrite P2E, <- PE; symmetry; exact H5).
        rewrite TP in TE. apply (f_equal sym_bytes) in TE. unfold pkt_syms in TE. rewrite !sym_bytes_syms in TE. now rewrite TE.
      - destruct TK as (-> & ->). destruct (RCV c2 q buf) as (R1 & W1); [reflexivity|reflexivity|exact BQ|]. rewrite R1, W1, <- RX. fold w. split; [blia|]. split; [blia|]. intros PE LE.
        assert (P1E : p1 = rcvd x) by (unfold p1; blia). rewrite P1E, Z.eqb_refl in AT. cbn [andb] in AT. apply negb_false_iff in AT. specialize (NCL AT).
        rewrite NCL in TL. change (zlen (@nil sym)) with 0 in TL. assert (L0 : l = 0) by (unfold p2 in TL; blia). split; [blia|].
        unfold l in L0. unfold pkt_syms in L0. rewrite syms_len in L0. pose proof (zlen_nonneg (concat (s_p s))). destruct (h_syn (s_h s)), (h_fin (s_h s)); cbn [b2z] in L0; blia. }
    destruct RV as (r2 & RV1 & RV2 & RV3 & RV4).
    constructor; cbn [e_conn e_wrote e_shut e_got e_out]; auto.
    + right. split; [exact HR|]. split; [reflexivity|]. rewrite U1. exact K4.
    + rewrite RV1. exact RV2.
    + unfold edge at 2. rewrite RV1. exact RV3.
    + intros _ _ PE LE. rewrite RV1. split; [apply RV4; [exact PE|exact LE]|]. split; [reflexivity|]. rewrite U1. exact K4.
    + rewrite HR. discriminate.
Qed.
End Effects.

(** * What the handshake settles *)
(** [x] sends its options to [y]. *)
Record link (x y : endp) : Prop := {
  lk_syn : forall s, In s (e_out x) -> h_syn (s_h s) = true -> w_sent (c_ws (e_conn x)) = true /\ h_scale (s_h s) = w_recv (c_ws (e_conn x));
  lk_opt : w_received (c_ws (e_conn y)) = true -> w_sent (c_ws (e_conn x)) = true /\ w_send (c_ws (e_conn y)) = w_recv (c_ws (e_conn x));
  lk_dis : w_recv (c_ws (e_conn x)) <> None -> w_disabled (c_ws (e_conn x)) = false;
  lk_noack : c_recv (e_conn x) = None -> forall s, In s (e_out x) -> h_ack (s_h s) = false;
  lk_first : forall s, In s (e_out x) -> h_ack (s_h s) = false -> h_win (s_h s) = 65535;
  lk_win : nxt x = 0 -> 0 < c_win (e_conn x) }.

Lemma sent_syn_inv w sc w' : sent_syn w sc = Some w' -> w_sent w = false /\ w_sent w' = true /\ w_received w' = w_received w /\ w_recv w' = sc /\ w_send w' = w_send w /\ w_disabled w' = w_disabled w.
Proof.
  unfold sent_syn. intros WS. destruct (w_sent w); [discriminate WS|]. repeat match type of WS with (check ?b; _) = _ => destruct b; [rewrite assert_true in WS by reflexivity|discriminate WS] end. injection WS as <-. cbn. auto 10.
Qed.
Lemma received_syn_inv w sc w' : received_syn w sc = Some w' -> w_received w = false /\ w_received w' = true /\ w_sent w' = w_sent w /\ w_recv w' = w_recv w /\ w_disabled w' = w_disabled w /\
  w_send w' = match sc with Some s => Some (if 14 <? s then 14 else s) | None => None end.
Proof.
  unfold received_syn. intros WS. destruct (w_received w); [discriminate WS|]. cbn [negb] in WS. rewrite assert_true in WS by reflexivity. injection WS as <-. cbn. auto 10.
Qed.
Lemma shift_agree x y : link x y -> link y x -> ws_ok (c_ws (e_conn x)) -> ws_ok (c_ws (e_conn y)) -> is_configured (c_ws (e_conn y)) = true -> send_shift0 (c_ws (e_conn x)) <= recv_shift0 (c_ws (e_conn y)).
Proof.
  intros LX LY OX OY CF. pose proof (shift_ok _ OY) as (RY & _). unfold send_shift0. destruct (w_disabled (c_ws (e_conn x))) eqn:DX; [lia|].
  destruct (w_send (c_ws (e_conn x))) as [s|] eqn:SX; [|lia]. destruct (w_recv (c_ws (e_conn x))) as [r|] eqn:RX; [|lia].
  destruct OX as (X1 & X2 & X3 & X4). assert (WR : w_received (c_ws (e_conn x)) = true) by (destruct (w_received (c_ws (e_conn x))); [reflexivity|]; rewrite X4 in SX by reflexivity; discriminate SX).
  destruct (lk_opt _ _ LY WR) as (SY & EY). rewrite SX in EY. assert (DY : w_disabled (c_ws (e_conn y)) = false) by (apply (lk_dis _ _ LY); congruence).
  unfold is_configured in CF. rewrite DY in CF. cbn [orb] in CF. apply andb_true_iff in CF. destruct CF as (_ & CF). destruct (lk_opt _ _ LX CF) as (_ & EX). rewrite RX in EX.
  unfold recv_shift0. rewrite DY, <- EY, EX. lia.
Qed.
Lemma wl_none x : ws_ok (c_ws (e_conn x)) -> w_received (c_ws (e_conn x)) = false -> c_recv (e_conn x) = None -> wl x = 65535 /\ recv_shift0 (c_ws (e_conn x)) = 0.
Proof.
  intros (_ & _ & _ & W4) WR CR. specialize (W4 WR). assert (R0 : recv_shift0 (c_ws (e_conn x)) = 0) by (unfold recv_shift0; rewrite W4; destruct (w_disabled (c_ws (e_conn x))), (w_recv (c_ws (e_conn x))); reflexivity).
  split; [|exact R0]. unfold wl, wlen, recv_window_max. rewrite CR, R0. reflexivity.
Qed.

Section Link.
Variables (ix iy : Z) (sx sy : bool) (x y : endp).
Hypothesis (IX : is_seq ix) (IY : is_seq iy) (HX : half ix sx x y) (HY : half iy sy y x) (LX : link x y) (LY : link y x).

Lemma link_quiet x' : quiet x x' -> link x' y /\ link y x'.
Proof using All.
  intros [Q1 Q2 Q3 Q4 Q5 Q6 Q7 Q8 Q9 Q10]. destruct LX as [A1 A2 A3 A4 A5 A6], LY as [B1 B2 B3 B4 B5 B6]. split; constructor; rewrite ?Q7, ?Q4, ?Q3, ?Q2; auto.
  intros X. apply A4. rewrite X in Q8. destruct (c_recv (e_conn x)); [discriminate Q8|reflexivity].
Qed.
Lemma link_pop x' s : emitted ix iy x y x' s -> link x' y /\ link y x'.
Proof using All.
  intros [E1 E2 E3 E4 E5 E6 E7 E8 E9 E10 E11 E12 E13 E14 E15 E16 E17 E18 E19]. destruct LX as [A1 A2 A3 A4 A5 A6], LY as [B1 B2 B3 B4 B5 B6].
  pose proof (half_pos _ _ _ _ HX) as ([S1 S2 S3 S4 S5 S6 S7 S8 S9 S10 S11] & _).
  assert (SAME : w_received (c_ws (e_conn x')) = w_received (c_ws (e_conn x)) /\ w_send (c_ws (e_conn x')) = w_send (c_ws (e_conn x))).
  { destruct (h_syn (s_h s)); [|now rewrite E16]. apply sent_syn_inv in E16. tauto. }
  destruct SAME as (M1 & M2). split; constructor.
  - intros s0 I H. rewrite E1 in I. apply in_app_iff in I. destruct (h_syn (s_h s)) eqn:HS.
    + apply sent_syn_inv in E16. destruct E16 as (N1 & N2 & _ & N3 & _). destruct I as [I|[<-|[]]]; [destruct (A1 s0 I H); congruence|]. split; [exact N2|]. now rewrite N3.
    + rewrite E16. destruct I as [I|[<-|[]]]; [auto|congruence].
  - intros H. destruct (A2 H) as (N1 & N2). destruct (h_syn (s_h s)); [apply sent_syn_inv in E16; destruct E16; congruence|]. rewrite E16. auto.
  - destruct (h_syn (s_h s)); [|rewrite E16; exact A3]. apply sent_syn_inv in E16. destruct E16 as (_ & _ & _ & -> & _ & ->). unfold scale_of, can_send_scale. destruct (w_disabled (c_ws (e_conn x))); [cbn; congruence|auto].
  - rewrite E10. intros H s0 I. rewrite E1 in I. apply in_app_iff in I. destruct I as [I|[<-|[]]]; [auto|]. rewrite E11, H. reflexivity.
  - intros s0 I H. rewrite E1 in I. apply in_app_iff in I. destruct I as [I|[<-|[]]]; [auto|]. rewrite E11 in H. destruct (c_recv (e_conn x)) eqn:CR; [discriminate H|].
    destruct (wl_none x S6 S8 CR) as (W & R). rewrite E13, W, R. destruct (h_syn (s_h s)); reflexivity.
  - rewrite E4, E9. pose proof (zlen_nonneg (pkt_syms (s_h s) (s_p s))). pose proof (so_k _ _ _ _ S1) as K0. intros. apply A6. blia.
  - auto.
  - rewrite M1, M2. auto.
  - auto.
  - auto.
  - auto.
  - auto.
Qed.
Lemma link_push s p a x' n : In s (e_out y) -> took x s p a x' n -> link x' y /\ link y x'.
Proof using All.
  intros IN [(T1 & T2 & T3 & T4) T5 T6 T7 T8 T9 T10 T11]. pose proof LX as [A1 A2 A3 A4 A5 A6]. pose proof LY as [B1 B2 B3 B4 B5 B6].
  pose proof (half_pos _ _ _ _ HX) as (_ & _ & _ & _ & _ & NZ). pose proof (half_pos _ _ _ _ HY) as ([S1 S2 S3 S4 S5 S6 S7 S8 S9 S10 S11] & _).
  assert (SAME : w_sent (c_ws (e_conn x')) = w_sent (c_ws (e_conn x)) /\ w_recv (c_ws (e_conn x')) = w_recv (c_ws (e_conn x)) /\ w_disabled (c_ws (e_conn x')) = w_disabled (c_ws (e_conn x))).
  { destruct T6 as [->|(_ & _ & T6)]; [auto|]. apply received_syn_inv in T6. tauto. }
  destruct SAME as (M1 & M2 & M3). split; constructor; rewrite ?T4, ?M1, ?M2, ?M3; auto.
  - intros H. apply A4. destruct (h_rst (s_h s)); congruence.
  - rewrite T5. intros N0. destruct T7 as [(_ & ->)|(_ & -> & _)]; [auto|].
    assert (CR : c_recv (e_conn y) = None) by (destruct (c_recv (e_conn y)); [exfalso; specialize (NZ eq_refl); clear - NZ N0; lia|reflexivity]).
    pose proof (B5 s IN (B4 CR s IN)) as W. unfold new_win. rewrite W. destruct (h_syn (s_h s)); [reflexivity|]. apply Z.lt_le_trans with 65535; [reflexivity|].
    destruct (Z.le_gt_cases 0 (send_shift0 (c_ws (e_conn x')))) as [G|G].
    + rewrite Z.shiftl_mul_pow2 by exact G. pose proof (Z.pow_pos_nonneg 2 (send_shift0 (c_ws (e_conn x'))) ltac:(reflexivity) G) as PP. clear - PP. lia.
    + exfalso. assert (0 <= send_shift0 (c_ws (e_conn x'))); [|clear - G H; lia]. unfold send_shift0. destruct (w_disabled (c_ws (e_conn x'))); [apply Z.le_refl|]. destruct (w_send (c_ws (e_conn x'))) as [z|] eqn:WS; [|apply Z.le_refl].
      destruct (w_recv (c_ws (e_conn x'))); [|apply Z.le_refl]. destruct T6 as [T6|(_ & HS & T6)].
      * rewrite T6 in WS. pose proof (half_pos _ _ _ _ HX) as ([_ _ _ _ _ (_ & Z2 & _) _ _ _ _ _] & _). destruct Z2; [congruence|]. rewrite WS in H. injection H as ->. discriminate.
      * discriminate HS.
  - intros WR. destruct T6 as [T6|(_ & HS & T6)]; [rewrite T6 in *; auto|]. apply received_syn_inv in T6. destruct T6 as (_ & _ & _ & _ & _ & X). destruct (B1 s IN HS) as (N1 & SC). split; [exact N1|].
    rewrite X, SC. destruct S6 as ([R|R] & _); rewrite R; reflexivity.
Qed.
End Link.

Lemma start_link x y ix iy sx sy : is_seq ix -> started x ix sx -> started y iy sy -> link x y.
Proof.
  intros IX ST SY. pose proof ST as (l1 & r1 & E1 & _ & _ & _ & O1). destruct SY as (l2 & r2 & E2 & _ & _ & _ & O2).
  assert (W : forall l r i s c, conn_new l r i s = Some c -> w_received (c_ws c) = false /\ w_recv (c_ws c) = None /\ c_win c = 2048).
  { intros l r i s c E. unfold conn_new in E. destruct (sq_new i); [|discriminate E]. ob_in E. destruct s; cbn in E; injection E as <-; auto. }
  apply W in E1, E2. destruct E1 as (A1 & A2 & A3), E2 as (B1 & B2 & B3). constructor; rewrite ?O1; try (intros s []; fail); try congruence.
  - intros _ s [].
  - rewrite A3. lia.
Qed.

(** * Flow control *)
Definition ann (y : endp) (s : sent) : Z := if h_syn (s_h s) then h_win (s_h s) else Z.shiftl (h_win (s_h s)) (recv_shift0 (c_ws (e_conn y))).
Definition acks_ok (ix : Z) (x y : endp) (n : nat) (l : list Z) : Prop :=
  length l = length (e_out y) /\ (forall i j a b, (i <= j)%nat -> nth_error l i = Some a -> nth_error l j = Some b -> a <= b) /\
  forall i s a, nth_error (e_out y) i = Some s -> nth_error l i = Some a ->
    (h_ack (s_h s) = true -> h_acknum (s_h s) = pos ix a) /\ (h_ack (s_h s) = false -> a = 0) /\ 0 <= a <= rcvd y /\ a + ann y s <= edge y /\
    s_peer s - 100001 <= a <= s_peer s + 2 /\ ((n <= i)%nat -> una x <= a).
(** The stream from [x] to [y]: [n] packets of [y] and [m] packets of [x] are through. *)
Record flow (ix : Z) (exact : bool) (n m : nat) (x y : endp) : Prop := {
  fl_n : (n <= length (e_out y))%nat; fl_m : (m <= length (e_out x))%nat;
  fl_win : una x + c_win (e_conn x) <= edge y; fl_nxt : nxt x <= edge y;
  fl_last : first_pos x (length (e_out x)) = nxt x;
  fl_seq : forall i s, nth_error (e_out x) i = Some s -> h_seq (s_h s) = pos ix (first_pos x i) /\
     pkt_syms (s_h s) (s_p s) = cut 0 (first_pos x i) (first_pos x (Datatypes.S i)) (str_of x) /\ s_mine s - 100001 <= first_pos x i <= s_mine s + 2;
  fl_rcvd : rcvd y <= first_pos x m; fl_exact : exact = true -> rcvd y = first_pos x m;
  fl_acks : exists l, acks_ok ix x y n l }.

Lemma first_pos_out x x' i : e_out x' = e_out x -> first_pos x' i = first_pos x i.
Proof. unfold first_pos. now intros ->. Qed.
Lemma first_pos_step x i s : nth_error (e_out x) i = Some s -> first_pos x (S i) = first_pos x i + zlen (pkt_syms (s_h s) (s_p s)).
Proof.
  intros E. unfold first_pos. assert (firstn (S i) (e_out x) = firstn i (e_out x) ++ [s]) as ->.
  { revert i E. induction (e_out x) as [|a l IH]; intros i E; [destruct i; discriminate E|]. destruct i; [injection E as <-; reflexivity|]. change (firstn (S (S i)) (a :: l)) with (a :: firstn (S i) l). rewrite (IH i E). reflexivity. }
  rewrite flat_map_app. cbn [flat_map]. rewrite app_nil_r, zlen_app. reflexivity.
Qed.
Lemma first_pos_ext x x' s i : e_out x' = e_out x ++ [s] -> (i <= length (e_out x))%nat -> first_pos x' i = first_pos x i.
Proof. unfold first_pos. intros -> L. rewrite firstn_app. replace (i - length (e_out x))%nat with 0%nat by lia. cbn [firstn]. now rewrite app_nil_r. Qed.
Lemma first_pos_mono x i j : (i <= j)%nat -> first_pos x i <= first_pos x j.
Proof.
  intros L. unfold first_pos. replace j with (i + (j - i))%nat by lia. generalize (j - i)%nat as d. intros d. clear L.
  assert (exists r, firstn (i + d) (e_out x) = firstn i (e_out x) ++ r) as (r & ->).
  { exists (firstn d (skipn i (e_out x))). revert i. induction (e_out x) as [|a l IH]; intros i; [destruct i, d; reflexivity|]. destruct i; [reflexivity|]. cbn. now rewrite <- IH. }
  rewrite flat_map_app, zlen_app. pose proof (zlen_nonneg (flat_map (fun s => pkt_syms (s_h s) (s_p s)) r)). lia.
Qed.
Lemma nth_last {A} (l : list A) a i v : nth_error (l ++ [a]) i = Some v -> nth_error l i = Some v \/ i = length l /\ v = a.
Proof.
  intros E. destruct (Nat.lt_ge_cases i (length l)) as [L|L]; [rewrite nth_error_app1 in E by exact L; auto|]. right. rewrite nth_error_app2 in E by exact L.
  destruct (i - length l)%nat as [|k] eqn:D; [injection E as <-; split; [lia|reflexivity]|destruct k; discriminate E].
Qed.

Section Flow.
Variables (ix iy : Z) (sx sy ex ey : bool) (n m : nat) (x y : endp).
Hypothesis (IX : is_seq ix) (IY : is_seq iy) (HX : half ix sx x y) (HY : half iy sy y x) (LX : link x y) (LY : link y x) (FX : flow ix ex n m x y) (FY : flow iy ey m n y x).

Lemma flow_quiet x' : quiet x x' -> flow ix ex n m x' y /\ flow iy ey m n y x'.
Proof using All.
  intros [Q1 Q2 Q3 Q4 Q5 Q6 Q7 Q8 (w & Q9) (st & Q10)]. split.
  - destruct FX as [A1 A2 A3 A4 A5 A6 A7 A8 (l & A9 & A10 & A11)]. constructor; rewrite ?Q1, ?Q2, ?Q3, ?Q7, ?(first_pos_out x x' _ Q7); auto.
    + intros i s E. rewrite !(first_pos_out x x' _ Q7). destruct (A6 i s E) as (B1 & B2 & B3). split; [exact B1|]. split; [|exact B3]. rewrite B2, Q10. symmetry. apply cut_ext.
      * unfold first_pos. apply zlen_nonneg.
      * pose proof (half_pos _ _ _ _ HX) as ([_ _ _ S4 _ _ _ _ _ _ _] & _). assert (first_pos x (Datatypes.S i) <= first_pos x (length (e_out x))) as FP; [|rewrite A5 in FP; clear - FP S4; lia]. apply first_pos_mono. assert (nth_error (e_out x) i <> None) as N by congruence. apply nth_error_Some in N. clear - N. lia.
    + exists l. split; [exact A9|]. split; [exact A10|]. intros i s a. rewrite Q1. apply A11.
  - destruct FY as [A1 A2 A3 A4 A5 A6 A7 A8 (l & A9 & A10 & A11)]. constructor; rewrite ?Q7, ?Q5; auto; try blia.
    exists l. split; [now rewrite Q7|]. split; [exact A10|]. intros i s a. unfold ann. rewrite Q7, Q4, Q5. intros E1 E2. destruct (A11 i s a E1 E2) as (C1 & C2 & C3 & C4 & C5 & C6). unfold ann in C4. repeat split; auto; blia.
Qed.

Lemma ann_same x' : (forall s, In s (e_out x) -> h_syn (s_h s) = false -> recv_shift0 (c_ws (e_conn x')) = recv_shift0 (c_ws (e_conn x))) -> forall s, In s (e_out x) -> ann x' s = ann x s.
Proof using. clear. intros H s I. unfold ann. destruct (h_syn (s_h s)) eqn:E; [reflexivity|]. now rewrite (H s I E). Qed.
Lemma conf_of s : In s (e_out x) -> h_syn (s_h s) = false -> is_configured (c_ws (e_conn x)) = true.
Proof using All.
  intros I E. pose proof (half_pos _ _ _ _ HX) as (_ & _ & _ & P & _). pose proof (proj1 (Forall_forall _ _) P s I) as [_ _ _ _ _ [C|C]]; [congruence|exact C].
Qed.

Lemma flow_pop x' s : emitted ix iy x y x' s -> flow ix ex n m x' y /\ flow iy ey m n y x'.
Proof using All.
  intros EM. destruct EM as [E1 (E2a & E2b & E2c) E3 E4 E5 E6 E7 E8 E9 E10 E11 E12 E13 E14 E15 E16 E17 E18 E19].
  pose proof (half_pos _ _ _ _ HX) as ([S1 S2 S3 S4 S5 S6 S7 S8 S9 S10 S11] & RO & B & P & A & NZ). pose proof (half_pos _ _ _ _ HY) as (Sy & ROy & By & _).
  assert (STR : str_of x' = str_of x) by (unfold str_of; now rewrite E2a, E2b).
  pose proof (zlen_nonneg (pkt_syms (s_h s) (s_p s))) as LN.
  assert (EDG : rcvd x' = rcvd x /\ edge x <= edge x' /\ (forall s0, In s0 (e_out x) -> ann x' s0 = ann x s0) /\ rcvd x + ann x' s <= edge x').
  { assert (R1 : rcvd x' = rcvd x) by (unfold rcvd; now rewrite E10, E2c).
    destruct (h_syn (s_h s)) eqn:HS.
    - apply sent_syn_inv in E16. destruct E16 as (N1 & N2 & N3 & N4 & N5 & N6). pose proof (wmax_pos _ S6) as W0.
      assert (R0 : recv_shift0 (c_ws (e_conn x)) = 0).
      { destruct S6 as (_ & _ & W3 & _). unfold recv_shift0. rewrite (W3 N1). now destruct (w_disabled (c_ws (e_conn x))). }
      assert (RP : 0 <= recv_shift0 (c_ws (e_conn x')) /\ (w_disabled (c_ws (e_conn x)) = true -> recv_shift0 (c_ws (e_conn x')) = 0)).
      { unfold recv_shift0. rewrite N6, N4. destruct (w_disabled (c_ws (e_conn x))); [split; [apply Z.le_refl|reflexivity]|]. split; [|discriminate]. unfold scale_of. destruct (can_send_scale (c_ws (e_conn x))); [|apply Z.le_refl]. destruct (w_send (c_ws (e_conn x'))); discriminate. }
      destruct RP as (RP & RD).
      assert (WM : wl x <= wl x').
      { unfold wl. rewrite E10. unfold wlen, recv_window_max. rewrite R0. change (Z.shiftl 65535 0) with 65535. rewrite Z.shiftl_mul_pow2 by exact RP. pose proof (Z.pow_pos_nonneg 2 (recv_shift0 (c_ws (e_conn x'))) ltac:(reflexivity) RP) as PP. clear - PP. nia. }
      split; [exact R1|]. split; [unfold edge; blia|]. split.
      + apply ann_same. intros s0 I H. pose proof (conf_of s0 I H) as CF. unfold is_configured in CF. rewrite N1 in CF. cbn [andb] in CF. rewrite orb_false_r in CF. now rewrite (RD CF), R0.
      + unfold ann. rewrite HS, E13. unfold edge. blia.
    - assert (W1 : wl x' = wl x) by (unfold wl, wlen; now rewrite E10, E16).
      split; [exact R1|]. split; [unfold edge; blia|]. split; [apply ann_same; intros; now rewrite E16|].
      unfold ann. rewrite HS, E13, E16. pose proof (shift_ok _ S6) as (SH & _). unfold edge. rewrite R1, W1. assert (WN : 0 <= wl x) by (unfold wl, wlen; pose proof (max_nonneg (c_ws (e_conn x))) as MN; clear - MN; lia).
      assert (recv_shift0 (c_ws (e_conn x)) = 0 \/ recv_shift0 (c_ws (e_conn x)) = 1) as [-> | ->] by blia.
      + rewrite Z.shiftl_0_r, Z.shiftr_0_r. blia.
      + rewrite Z.shiftl_mul_pow2, Z.shiftr_div_pow2 by blia. change (2 ^ 1) with 2. pose proof (Z.mul_div_le (wl x) 2 ltac:(reflexivity)) as DV. clear - DV. lia. }
  destruct EDG as (R1 & EDG & AS & AN). split.
  - destruct FX as [A1 A2 A3 A4 A5 A6 A7 A8 (l & A9 & A10 & A11)].
    assert (LEN : length (e_out x') = Datatypes.S (length (e_out x))) by (rewrite E1, app_length; cbn; clear; lia).
    assert (LST : first_pos x' (Datatypes.S (length (e_out x))) = nxt x').
    { rewrite (first_pos_step x' (length (e_out x)) s); [|rewrite E1, nth_error_app2 by apply Nat.le_refl; rewrite Nat.sub_diag; reflexivity]. rewrite (first_pos_ext x x' s) by auto. blia. }
    constructor; rewrite ?E3, ?E9, ?LEN; auto.
    + destruct (Z.eq_dec (nxt x) (nxt x')) as [Z0|Z0]; [rewrite <- Z0; exact A4|]. assert (nxt x < nxt x') as LT by blia. specialize (E7 LT). blia.
    + intros i s0 E. rewrite E1 in E. apply nth_last in E. rewrite STR. destruct E as [E|(-> & ->)].
      * assert (nth_error (e_out x) i <> None) as N by congruence. apply nth_error_Some in N. rewrite !(first_pos_ext x x' s) by (auto; clear - N; lia). exact (A6 i s0 E).
      * rewrite LST, (first_pos_ext x x' s) by auto. rewrite A5. split; [exact E5|]. split; [exact E6|]. rewrite E18. pose proof (stream_len (e_wrote x) (e_shut x)) as SL. fold (str_of x) in SL. destruct (e_shut x); cbn [b2z] in S11; blia.
    + rewrite (first_pos_ext x x' s) by auto. exact A7.
    + rewrite (first_pos_ext x x' s) by auto. exact A8.
    + exists l. split; [exact A9|]. split; [exact A10|]. intros i s0 a. rewrite E3. apply A11.
  - destruct FY as [A1 A2 A3 A4 A5 A6 A7 A8 (l & A9 & A10 & A11)].
    assert (LEN : length (e_out x') = Datatypes.S (length (e_out x))) by (rewrite E1, app_length; cbn; clear; lia).
    assert (LE : forall i a, nth_error l i = Some a -> a <= rcvd x).
    { intros i a E. destruct (nth_error (e_out x) i) as [s0|] eqn:N; [destruct (A11 i s0 a N E); tauto|]. apply nth_error_None in N. assert (nth_error l i <> None) as M by congruence. apply nth_error_Some in M. rewrite A9 in M. exfalso. clear - N M. lia. }
    constructor; rewrite ?R1, ?LEN; auto; try blia.
    exists (l ++ [rcvd x]). split; [rewrite LEN, app_length, A9; cbn; clear; lia|]. split.
    + intros i j a b L I J. apply nth_last in I, J. destruct J as [J|(-> & ->)].
      * destruct I as [I|(-> & ->)]; [eapply A10; eauto|]. assert (nth_error l j <> None) as M by congruence. apply nth_error_Some in M. exfalso. clear - L M. lia.
      * destruct I as [I|(-> & ->)]; [eauto|apply Z.le_refl].
    + intros i s0 a I J. rewrite E1 in I. apply nth_last in I, J.
      assert (CASE : nth_error (e_out x) i = Some s0 /\ nth_error l i = Some a \/ s0 = s /\ a = rcvd x).
      { destruct I as [I|(I & ->)]; destruct J as [J|(J & ->)]; auto.
        - assert (nth_error (e_out x) i <> None) as M by congruence. apply nth_error_Some in M. exfalso. clear - M J A9. lia.
        - assert (nth_error l i <> None) as M by congruence. apply nth_error_Some in M. exfalso. clear - M I A9. lia. }
      destruct CASE as [(N1 & N2)|(-> & ->)].
      * destruct (A11 i s0 a N1 N2) as (C1 & C2 & C3 & C4 & C5 & C6). rewrite AS by (eapply nth_error_In; eauto). rewrite R1. repeat split; auto; try blia.
      * rewrite R1. destruct ROy as (RB & ROy). split; [intros X; apply E12; intros CR; rewrite E11, CR in X; discriminate X|]. split.
        { rewrite E11. unfold rcvd. destruct (c_recv (e_conn x)); [discriminate|reflexivity]. }
        split; [blia|]. split; [exact AN|]. split; [|intros _; blia]. rewrite E19. pose proof (stream_len (e_wrote y) (e_shut y)) as SL. fold (str_of y) in SL. pose proof (sn_small _ _ _ _ _ Sy) as SMy. destruct (e_shut y); cbn [b2z] in SMy; blia.
Qed.

(** Packet [i] of [y], not older than the ones that are through, is fresh and its place is known. *)
Lemma flow_pkt i s : nth_error (e_out y) i = Some s -> (n <= i)%nat -> exists a, fresh x y s /\
  h_seq (s_h s) = pos iy (first_pos y i) /\ 0 <= first_pos y i /\ first_pos y i + zlen (pkt_syms (s_h s) (s_p s)) = first_pos y (Datatypes.S i) /\
  first_pos y (Datatypes.S i) <= nxt y /\ pkt_syms (s_h s) (s_p s) = cut 0 (first_pos y i) (first_pos y (Datatypes.S i)) (str_of y) /\ s_mine s - 100001 <= first_pos y i /\
  (h_ack (s_h s) = true -> h_acknum (s_h s) = pos ix a /\ s_peer s - 100001 <= a <= rcvd y) /\ (h_ack (s_h s) = false -> a = 0) /\
  una x <= a /\ a + ann y s <= edge y /\ exists l, acks_ok ix x y n l /\ nth_error l i = Some a.
Proof using All.
  intros E L. destruct FX as [A1 A2 A3 A4 A5 A6 A7 A8 (l & A9 & A10 & A11)]. destruct FY as [B1 B2 B3 B4 B5 B6 B7 B8 _].
  assert (nth_error (e_out y) i <> None) as N by congruence. apply nth_error_Some in N.
  destruct (nth_error l i) as [a|] eqn:LA; [|exfalso; apply nth_error_None in LA; clear - LA N A9; lia].
  destruct (A11 i s a E LA) as (C1 & C2 & C3 & C4 & C5 & C6). destruct (B6 i s E) as (D1 & D2 & D3). specialize (C6 L).
  pose proof (half_pos _ _ _ _ HX) as ([S1 S2 S3 S4 S5 S6 S7 S8 S9 S10 S11] & RO & B & P & A & NZ). pose proof (half_pos _ _ _ _ HY) as (Sy & ROy & By & _).
  exists a. split.
  { pose proof (stream_len (e_wrote y) (e_shut y)) as SLy. fold (str_of y) in SLy. pose proof (sn_small _ _ _ _ _ Sy) as SMy. pose proof (stream_len (e_wrote x) (e_shut x)) as SLx. fold (str_of x) in SLx.
    pose proof (first_pos_mono y n i L) as MO. unfold fresh. destruct (e_shut y), (e_shut x); cbn [b2z] in *; split; blia. }
  split; [exact D1|]. split; [unfold first_pos; apply zlen_nonneg|]. split; [symmetry; now apply first_pos_step|]. split; [rewrite <- B5; apply first_pos_mono; clear - N; lia|].
  split; [exact D2|]. split; [apply D3|]. split; [intros X; split; [auto|blia]|]. split; [auto|]. split; [exact C6|]. split; [exact C4|]. exists l. split; [|exact LA]. split; [exact A9|]. split; [exact A10|exact A11].
Qed.

Lemma flow_push i s a x' nb : nth_error (e_out y) i = Some s -> (n <= i)%nat -> (ey = true -> i = n /\ h_rst (s_h s) = false /\ c_reset (e_conn x') = false) ->
  una x <= a -> a + ann y s <= edge y -> (h_ack (s_h s) = false -> a = 0) -> (exists l, acks_ok ix x y n l /\ nth_error l i = Some a) ->
  took x s (first_pos y i) a x' nb -> flow ix ex (Datatypes.S i) m x' y /\ flow iy ey m (Datatypes.S i) y x' /\ (ey = true -> nb = zlen (concat (s_p s)) /\ c_win (e_conn x') = new_win (e_conn x') (s_h s) /\ una x' = a).
Proof using All.
  intros E L EXA UA AE A0 (l & (A9 & A10 & A11) & LA) TK. pose proof TK as [(T1 & T2 & T3 & T4) T5 T6 T7 T8 T9 T10 T11].
  assert (nth_error (e_out y) i <> None) as N by congruence. apply nth_error_Some in N. assert (IN : In s (e_out y)) by (eapply nth_error_In; eauto).
  pose proof (half_pos _ _ _ _ HX) as ([S1 S2 S3 S4 S5 S6 S7 S8 S9 S10 S11] & RO & B & P & A & NZ). pose proof (half_pos _ _ _ _ HY) as (Sy & ROy & By & _).
  assert (STR : str_of x' = str_of x) by (unfold str_of; now rewrite T1, T2).
  assert (UN : una x <= una x' <= a).
  { destruct T7 as [(-> & _)|(_ & _ & ->)]; [clear - UA; lia|]. destruct (h_ack (s_h s) && (una x <? a)) eqn:C; [apply andb_true_iff in C; destruct C as (_ & C); apply Z.ltb_lt in C; clear - C; lia|clear - UA; lia]. }
  assert (WIN : una x' + c_win (e_conn x') <= edge y).
  { destruct T7 as [(-> & ->)|(_ & -> & U)]; [apply FX|]. apply Z.le_trans with (a + ann y s); [|exact AE]. apply Z.add_le_mono; [apply UN|].
    unfold new_win, ann. destruct (h_syn (s_h s)) eqn:HS; [apply Z.le_refl|].
    pose proof (half_pos _ _ _ _ HY) as ([_ _ _ _ _ Y6 _ _ _ _ _] & _ & _ & PY & _). pose proof (proj1 (Forall_forall _ _) PY s IN) as [_ _ PW _ _ [C|C]]; [congruence|].
    assert (link x' y /\ link y x') as (LX' & LY') by (apply (link_push ix iy sx sy x y IX IY HX HY LX LY s (first_pos y i) a x' nb); [assumption|exact TK]).
    assert (WX' : ws_ok (c_ws (e_conn x'))).
    { destruct T6 as [->|(_ & HS' & _)]; [exact S6|congruence]. }
    pose proof (shift_agree x' y LX' LY' WX' Y6 C) as SA. pose proof (shift_ok _ WX') as (_ & SP). rewrite !Z.shiftl_mul_pow2 by (clear - SA SP; lia). apply Z.mul_le_mono_nonneg_l; [apply PW|]. apply Z.pow_le_mono_r; [reflexivity|exact SA]. }
  split; [|split].
  - destruct FX as [C1 C2 C3 C4 C5 C6 C7 C8 _]. constructor; rewrite ?T4, ?T5, ?(first_pos_out x x' _ T4); auto.
    + intros j s0 J. rewrite !(first_pos_out x x' _ T4), STR. exact (C6 j s0 J).
    + exists l. split; [exact A9|]. split; [exact A10|]. intros j s0 b J1 J2. destruct (A11 j s0 b J1 J2) as (D1 & D2 & D3 & D4 & D5 & D6). repeat (split; [assumption|]).
      intros LJ. apply Z.le_trans with a; [apply UN|]. eapply A10; [|exact LA|exact J2]. clear - LJ. lia.
  - destruct FY as [C1 C2 C3 C4 C5 C6 C7 C8 (k & K1 & K2 & K3)]. constructor; rewrite ?T4; auto; try blia.
    + pose proof (first_pos_step y i s E) as ST. pose proof (first_pos_mono y n (Datatypes.S i) ltac:(clear - L; lia)) as MO. blia.
    + intros EY. destruct (EXA EY) as (IE & HR & CR). rewrite (first_pos_step y i s E). apply T10; auto.
      * rewrite (C8 EY). now rewrite IE.
      * rewrite <- (first_pos_step y i s E). pose proof (first_pos_mono y (Datatypes.S i) (length (e_out y)) ltac:(clear - N; lia)) as MO. blia.
    + exists k. split; [now rewrite T4|]. split; [exact K2|]. rewrite T4. intros j s0 b J1 J2. destruct (K3 j s0 b J1 J2) as (D1 & D2 & D3 & D4 & D5 & D6).
      assert (AN : ann x' s0 = ann x s0).
      { apply ann_same; [|eapply nth_error_In; eauto]. intros s1 I1 H1. destruct T6 as [->|(CR & _ & T6)]; [reflexivity|]. pose proof (conf_of s1 I1 H1) as CF. apply received_syn_inv in T6. destruct T6 as (R1 & R2 & R3 & R4 & R5 & R6).
        unfold is_configured in CF. rewrite R1, andb_false_r, orb_false_r in CF. unfold recv_shift0. now rewrite R5, CF. }
      rewrite AN. repeat split; auto; blia.
  - intros EY. destruct (EXA EY) as (IE & HR & CR). destruct FY as [C1 C2 C3 C4 C5 C6 C7 C8 _]. destruct T10 as ((_ & ->) & -> & ->); auto.
    + rewrite (C8 EY). now rewrite IE.
    + rewrite <- (first_pos_step y i s E). pose proof (first_pos_mono y (Datatypes.S i) (length (e_out y)) ltac:(clear - N; lia)) as MO. blia.
    + split; [reflexivity|]. split; [reflexivity|]. destruct (h_ack (s_h s)); cbn [andb]; [|rewrite (A0 eq_refl) in *; pose proof (so_k _ _ _ _ S1) as K0; clear - UA K0; lia]. destruct (Z.ltb_spec (una x) a) as [LT|LT]; [reflexivity|clear - LT UA; lia].
Qed.
End Flow.

(** With scaling on both sides both SYN packets carry the option. *)
Definition both (x y : endp) : Prop := w_disabled (c_ws (e_conn x)) = false -> w_disabled (c_ws (e_conn y)) = false -> w_sent (c_ws (e_conn x)) = true -> w_recv (c_ws (e_conn x)) = Some 1.
Lemma both_same x y x' : w_disabled (c_ws (e_conn x')) = w_disabled (c_ws (e_conn x)) -> w_sent (c_ws (e_conn x')) = w_sent (c_ws (e_conn x)) -> w_recv (c_ws (e_conn x')) = w_recv (c_ws (e_conn x)) ->
  both x y -> both y x -> both x' y /\ both y x'.
Proof. unfold both. intros -> -> ->. auto. Qed.
Lemma both_pop ix iy x y x' s : emitted ix iy x y x' s -> link y x -> both x y -> both y x -> both x' y /\ both y x'.
Proof.
  intros EM LY BX BY. pose proof (em_ws _ _ _ _ _ _ EM) as E. destruct (h_syn (s_h s)); [|apply (both_same x); auto; now rewrite E]. apply sent_syn_inv in E. destruct E as (N1 & N2 & N3 & N4 & N5 & N6).
  split; unfold both; rewrite ?N2, ?N4, ?N6; [|exact BY]. intros DX DY _. unfold scale_of, can_send_scale. rewrite DX. cbn [orb]. destruct (w_received (c_ws (e_conn x))) eqn:WR; [|reflexivity].
  destruct (lk_opt _ _ LY WR) as (K1 & K2). rewrite K2, (BY DY DX K1). reflexivity.
Qed.
Lemma both_took x y s p a x' n : took x s p a x' n -> both x y -> both y x -> both x' y /\ both y x'.
Proof.
  intros TK. destruct (to_ws _ _ _ _ _ _ TK) as [E|(_ & _ & E)]; [apply both_same; now rewrite E|]. apply received_syn_inv in E. apply both_same; tauto.
Qed.
(** The window that the most recent packet announces. *)
Definition recent (ix : Z) (scaled : bool) (n : nat) (x y : endp) : Prop :=
  match n with
  | O => una x = 0 /\ c_win (e_conn x) = 2048
  | Datatypes.S k => exists s, nth_error (e_out y) k = Some s /\ ack_from ix s = pos ix (una x) /\ c_win (e_conn x) = window_of scaled s
  end.
Lemma window_agree ix iy sx sy x y s : half ix sx x y -> half iy sy y x -> link x y -> link y x -> both x y -> both y x -> In s (e_out y) -> c_recv (e_conn x) <> None ->
  new_win (e_conn x) (s_h s) = window_of (sx && sy) s.
Proof.
  intros HX HY LX LY BX BY IN RX. pose proof (half_pos _ _ _ _ HX) as ([S1 S2 S3 S4 S5 S6 S7 S8 S9 S10 S11] & _). pose proof (half_pos _ _ _ _ HY) as ([T1 T2 T3 T4 T5 T6 T7 T8 T9 T10 T11] & _ & _ & PY & _).
  pose proof (proj1 (Forall_forall _ _) PY s IN) as [_ _ _ _ _ CF]. unfold new_win, window_of. destruct (h_syn (s_h s)) eqn:HS; [symmetry; apply Z.mul_1_r|]. destruct CF as [CF|CF]; [congruence|].
  assert (WR : w_received (c_ws (e_conn x)) = true) by (rewrite S8; destruct (c_recv (e_conn x)); [reflexivity|congruence]). destruct (lk_opt _ _ LY WR) as (K1 & K2).
  assert (send_shift0 (c_ws (e_conn x)) = if sx && sy then 1 else 0) as ->; [|destruct (sx && sy); rewrite Z.shiftl_mul_pow2 by discriminate; reflexivity].
  unfold send_shift0. rewrite S9. destruct sx; [|reflexivity]. cbn [negb andb]. rewrite K2. destruct sy.
  - unfold is_configured in CF. rewrite T9 in CF. cbn [negb orb] in CF. apply andb_true_iff in CF. destruct CF as (C1 & C2). destruct (lk_opt _ _ LX C2) as (K3 & K4). rewrite (BY T9 S9 K1), (BX S9 T9 K3). reflexivity.
  - destruct (w_recv (c_ws (e_conn y))) eqn:W; [|destruct (w_recv (c_ws (e_conn x))); reflexivity]. assert (w_disabled (c_ws (e_conn y)) = false) by (apply (lk_dis _ _ LY); congruence). rewrite T9 in H. discriminate H.
Qed.

Lemma start_flow x y ix iy sx sy : is_seq ix -> is_seq iy -> started x ix sx -> started y iy sy -> half ix sx x y -> half iy sy y x -> flow ix true 0 0 x y.
Proof.
  intros IX IY SX SY HX HY. pose proof SX as (l1 & r1 & E1 & W1 & SH1 & G1 & O1). pose proof SY as (l2 & r2 & E2 & W2 & SH2 & G2 & O2).
  assert (W : forall l r i s c, conn_new l r i s = Some c -> c_recv c = None /\ c_win c = 2048 /\ sstart (c_sq c) = i /\ tx (c_sq c) = i).
  { intros l r i s c E. unfold conn_new in E. destruct (sq_new i) as [q|] eqn:Q; [|discriminate E]. ob_in E. unfold sq_new, add_segment in Q. cbn in Q. injection Q as <-. destruct s; cbn in E; injection E as <-; auto. }
  apply W in E1, E2. destruct E1 as (A1 & A2 & A3 & A4), E2 as (B1 & B2 & B3 & B4).
  pose proof (half_pos _ _ _ _ HX) as ([S1 S2 S3 S4 S5 S6 S7 S8 S9 S10 S11] & RO & B & P & A & NZ). pose proof (half_pos _ _ _ _ HY) as ([T1 T2 T3 T4 T5 T6 T7 T8 T9 T10 T11] & _).
  assert (R0 : rcvd y = 0) by (unfold rcvd; now rewrite B1).
  rewrite B1 in T8. destruct (wl_none y T6 T8 B1) as (W0 & _).
  assert (U0 : una x = 0).
  { pose proof (so_start _ _ _ _ S1) as K1. rewrite A3 in K1. pose proof (so_k _ _ _ _ S1) as K2. clear - B R0 K2. lia. }
  assert (N0 : nxt x = 0).
  { rewrite A4 in S3. rewrite <- (pos_0 ix IX) in S3 at 1. apply pos_inj in S3; [clear - S3; lia|]. pose proof (so_small _ _ _ _ S1) as SM. clear - SM S4 U0. lia. }
  constructor; rewrite ?O1, ?O2; try (apply Nat.le_refl).
  - unfold edge. rewrite W0, U0, A2, R0. discriminate.
  - unfold edge. rewrite W0, R0, N0. discriminate.
  - rewrite N0. unfold first_pos. rewrite O1. reflexivity.
  - intros i s E. destruct i; discriminate E.
  - rewrite R0. unfold first_pos. rewrite O1. discriminate.
  - rewrite R0. unfold first_pos. rewrite O1. reflexivity.
  - exists []. split; [now rewrite O2|]. split; [intros i j a b _ E; destruct i; discriminate E|]. rewrite O2. intros i s a E. destruct i; discriminate E.
Qed.

(** * All in-order histories *)
Definition syn_first (x : endp) : Prop := (nxt x = 0 -> forall s, In s (e_out x) -> h_rst (s_h s) = true) /\ forall s, nth_error (e_out x) 0 = Some s -> h_rst (s_h s) = false -> h_syn (s_h s) = true.
Definition opened (b : bool) (n : nat) (x : endp) : Prop := b = false -> n <> O -> c_recv (e_conn x) <> None.
Lemma opened_same b b' n x x' : is_none (c_recv (e_conn x')) = is_none (c_recv (e_conn x)) -> (b' = false -> b = false) -> opened b n x -> opened b' n x'.
Proof. unfold opened. intros E I H B N X. rewrite X in E. apply (H (I B) N). destruct (c_recv (e_conn x)); [discriminate E|reflexivity]. Qed.
Record good (ix iy : Z) (sx sy lossy b : bool) (n m : nat) (x y : endp) : Prop := {
  go_hx : half ix sx x y; go_hy : half iy sy y x; go_lx : link x y; go_ly : link y x;
  go_fx : flow ix (negb lossy && negb b) n m x y; go_fy : flow iy (negb lossy && negb b) m n y x; go_calm : b = false -> calm x /\ calm y;
  go_bx : both x y; go_by : both y x; go_rx : lossy = false -> b = false -> recent ix (sx && sy) n x y; go_ry : lossy = false -> b = false -> recent iy (sx && sy) m y x;
  go_sx : syn_first x; go_sy : syn_first y; go_ox : opened b n x; go_oy : opened b m y }.
Lemma good_swap ix iy sx sy lossy b n m x y : good ix iy sx sy lossy b n m x y -> good iy ix sy sx lossy b m n y x.
Proof. intros [A1 A2 A3 A4 A5 A6 A7 A8 A9 A10 A11 A12 A13 A14 A15]. constructor; auto; rewrite 1?andb_comm; auto. intros B. destruct (A7 B). auto. Qed.
Lemma flow_weak ix e e' n m x y : (e' = true -> e = true) -> flow ix e n m x y -> flow ix e' n m x y.
Proof. intros I [A1 A2 A3 A4 A5 A6 A7 A8 A9]. constructor; auto. Qed.

Lemma recent_self ix sc n x y x' : una x' = una x -> c_win (e_conn x') = c_win (e_conn x) -> recent ix sc n x y -> recent ix sc n x' y.
Proof. unfold recent. intros -> ->. auto. Qed.
Lemma recent_other ix sc n x y y' l : e_out y' = e_out y ++ l -> recent ix sc n x y -> recent ix sc n x y'.
Proof. unfold recent. intros ->. destruct n; [auto|]. intros (s & A & B). exists s. split; [|exact B]. rewrite nth_error_app1; [exact A|]. apply nth_error_Some. congruence. Qed.
Lemma good_step ix iy sx sy lossy b n m x y o x' : is_seq ix -> is_seq iy -> good ix iy sx sy lossy b n m x y -> (forall s, o <> OPush s) -> allowed x y o -> act x y o = Some x' ->
  good ix iy sx sy lossy (b || rude o) n m x' y.
Proof.
  intros IX IY [G1 G2 G3 G4 G5 G6 G7 G8 G9 G10 G11 G12 G13 G14 G15] NP AL E. destruct (act_ok ix iy sx sy x y o x' IX IY G1 G2 AL E) as (H1 & H2 & CA).
  assert (CM : b || rude o = false -> calm x' /\ calm y).
  { intros B. apply orb_false_iff in B. destruct B as (B1 & B2). destruct (G7 B1). auto. }
  assert (BB : b || rude o = false -> b = false) by (intros B; now apply orb_false_iff in B).
  assert (WK : forall a c d e, flow a (negb lossy && negb b) c d e x' -> flow a (negb lossy && negb (b || rude o)) c d e x') by (intros a c d e; apply flow_weak; destruct lossy, b, (rude o); auto).
  assert (WK' : forall a c d e, flow a (negb lossy && negb b) c d x' e -> flow a (negb lossy && negb (b || rude o)) c d x' e) by (intros a c d e; apply flow_weak; destruct lossy, b, (rude o); auto).
  assert (QC : quiet x x' -> good ix iy sx sy lossy (b || rude o) n m x' y).
  { intros Q. destruct (link_quiet ix iy sx sy x y IX IY G1 G2 G3 G4 x' Q). destruct (flow_quiet ix iy sx sy _ _ n m x y IX IY G1 G2 G3 G4 G5 G6 x' Q). destruct Q as [Q1 Q2 Q3 Q4 Q5 Q6 Q7 Q8 Q9 Q10].
    destruct (both_same x y x'); [now rewrite Q4|now rewrite Q4|now rewrite Q4|exact G8|exact G9|].
    constructor; auto.
    - intros L0 B0. apply (recent_self ix _ n x); auto.
    - intros L0 B0. apply (recent_other iy _ m y x x' []); [rewrite app_nil_r; exact Q7|auto].
    - unfold syn_first. rewrite Q2, Q7. exact G12.
    - apply (opened_same b _ n x); auto.
    - apply (opened_same b _ m y); auto. }
  assert (QO : (o = OPop \/ o <> OPop)) by (destruct o; auto; right; discriminate). destruct QO as [->|NO].
  - destruct (pop_eff ix iy sx sy x y IX IY G1 G2 x' E) as [->|(s & EM)]; [apply QC, quiet_refl|].
    destruct (link_pop ix iy sx sy x y IX IY G1 G2 G3 G4 x' s EM). destruct (flow_pop ix iy sx sy _ _ n m x y IX IY G1 G2 G3 G4 G5 G6 x' s EM). destruct (both_pop ix iy x y x' s EM G4 G8 G9). constructor; auto.
    + intros L0 B0. apply (recent_self ix _ n x); [apply (em_una _ _ _ _ _ _ EM)|apply (em_cwin _ _ _ _ _ _ EM)|auto].
    + intros L0 B0. apply (recent_other iy _ m y x x' [s]); [apply (em_out _ _ _ _ _ _ EM)|auto].
    + destruct G12 as (K1 & K2). pose proof (em_nxt _ _ _ _ _ _ EM) as N1. pose proof (em_out _ _ _ _ _ _ EM) as O1. pose proof (half_pos _ _ _ _ G1) as (T & _). pose proof (sn_t _ _ _ _ _ T) as TB. pose proof (so_k _ _ _ _ (sn_sq _ _ _ _ _ T)) as K0. pose proof (zlen_nonneg (pkt_syms (s_h s) (s_p s))) as LN.
      assert (SY : nxt x = 0 -> h_rst (s_h s) = false -> h_syn (s_h s) = true) by (intros N0; apply (pop_syn ix iy sx sy x y IX IY G1 G2 x' s E O1 N0); now apply (lk_win _ _ G3)).
      split.
      * intros N0 s0 I. assert (nxt x = 0 /\ zlen (pkt_syms (s_h s) (s_p s)) = 0) as (N2 & Z0) by blia. rewrite O1 in I. apply in_app_iff in I. destruct I as [I|[<-|[]]]; [auto|]. destruct (h_rst (s_h s)) eqn:HR; [reflexivity|].
        specialize (SY N2 eq_refl). unfold pkt_syms in Z0. rewrite syms_len, SY in Z0. pose proof (zlen_nonneg (concat (s_p s))) as PN. pose proof (b2z_nonneg (h_fin (s_h s))) as FN. cbn [b2z] in Z0. blia.
      * intros s0 I HR. rewrite O1 in I. destruct (e_out x) as [|s1 l] eqn:OX; [|exact (K2 s0 I HR)]. injection I as <-. apply SY; [|exact HR].
        rewrite <- (fl_last _ _ _ _ _ _ G5), OX. reflexivity.
    + apply (opened_same b _ n x); auto. now rewrite (em_recv _ _ _ _ _ _ EM).
    + apply (opened_same b _ m y); auto.
  - apply QC. eapply quiet_eff; [exact IX|exact IY|exact G1|exact G2|exact AL|exact E|]. destruct o; auto. now destruct (NP s).
Qed.

Lemma good_push ix iy sx sy lossy b n m x y i s c' nb : is_seq ix -> is_seq iy -> good ix iy sx sy lossy b n m x y ->
  nth_error (e_out y) i = Some s -> (n <= i)%nat -> (lossy = false -> i = n) -> push_packet (e_conn x) (s_h s) (s_p s) = Some (c', nb) ->
  good ix iy sx sy lossy b (S i) m {| e_conn := c'; e_wrote := e_wrote x; e_shut := e_shut x; e_got := e_got x; e_out := e_out x |} y /\
  (lossy = false -> b = false -> nb = zlen (concat (s_p s))) /\ fresh x y s.
Proof.
  intros IX IY [G1 G2 G3 G4 G5 G6 G7 G8 G9 G10 G11 G12 G13 G14 G15] E L LO PU. assert (IN : In s (e_out y)) by (eapply nth_error_In; eauto).
  destruct (flow_pkt ix iy sx sy _ _ n m x y IX IY G1 G2 G3 G4 G5 G6 i s E L) as (a & F & Q1 & Q2 & Q3 & Q4 & Q5 & Q6 & Q7 & Q8 & Q9 & Q10 & Q11).
  set (x' := {| e_conn := c'; e_wrote := _; e_shut := _; e_got := _; e_out := _ |}).
  assert (AC : act x y (OPush s) = Some x') by (cbn [act]; rewrite PU; reflexivity).
  destruct (act_ok ix iy sx sy x y (OPush s) x' IX IY G1 G2 (conj IN F) AC) as (H1 & H2 & CA).
  assert (TO : took x s (first_pos y i) a x' nb).
  { apply (push_eff ix iy sx sy x y IX IY G1 G2); auto; rewrite ?Q3; auto. }
  destruct (link_push ix iy sx sy x y IX IY G1 G2 G3 G4 s _ _ x' nb IN TO) as (L1 & L2). destruct (both_took x y s _ _ x' nb TO G8 G9) as (B1 & B2).
  assert (CLM : b = false -> calm x' /\ calm y) by (intros B; destruct (G7 B); split; auto).
  assert (NR : b = false -> h_rst (s_h s) = false).
  { intros B. destruct (G7 B) as (_ & (_ & _ & _ & C2)). rewrite Forall_forall in C2. auto. }
  destruct (flow_push ix iy sx sy _ _ n m x y IX IY G1 G2 G3 G4 G5 G6 i s a x' nb E L) as (F1 & F2 & F3); auto.
  { intros X. apply andb_true_iff in X. destruct X as (X1 & X2). apply negb_true_iff in X1, X2. split; [auto|]. split; [auto|]. apply (CLM X2). }
  assert (OP : opened b (Datatypes.S i) x').
  { intros B _. pose proof (to_recv _ _ _ _ _ _ TO) as TR. rewrite (NR B) in TR. exact TR. }
  split; [|split; [intros -> ->; apply F3; reflexivity|exact F]]. constructor; auto.
  - intros -> ->. cbn [negb andb] in F3. destruct (F3 eq_refl) as (_ & W & U). unfold recent. exists s. split; [exact E|]. rewrite U, W. split.
    + unfold ack_from. destruct (h_ack (s_h s)); [apply Q7; reflexivity|]. rewrite (Q8 eq_refl). symmetry. now apply pos_0.
    + apply (window_agree ix iy sx sy x' y s); auto; apply OP; auto.
  - unfold syn_first. rewrite (to_nxt _ _ _ _ _ _ TO). exact G12.
Qed.

Lemma inorder_good ix iy sx sy lossy b n m x y : is_seq ix -> is_seq iy -> inorder ix iy sx sy lossy b n m x y -> good ix iy sx sy lossy b n m x y.
Proof.
  intros IX IY H. induction H as [x y SX SY|b n m x y o x' H IH NP AL AC|b n m x y o y' H IH NP AL AC|b n m x y i s x' H IH E L LO AC|b n m x y i s y' H IH E L LO AC].
  - pose proof (start_half _ _ _ _ _ _ IX SX SY) as HX. pose proof (start_half _ _ _ _ _ _ IY SY SX) as HY.
    assert (NB : forall l r i s c, conn_new l r i s = Some c -> w_sent (c_ws c) = false /\ c_win c = 2048).
    { intros l r i s c E. unfold conn_new in E. destruct (sq_new i); [|discriminate E]. ob_in E. destruct s; cbn in E; injection E as <-; auto. }
    pose proof SX as (l1 & r1 & E1 & _ & _ & _ & O1). pose proof SY as (l2 & r2 & E2 & _ & _ & _ & O2). apply NB in E1, E2. destruct E1 as (E1 & W1), E2 as (E2 & W2).
    pose proof (start_flow x y ix iy sx sy IX IY SX SY HX HY) as F1. pose proof (start_flow y x iy ix sy sx IY IX SY SX HY HX) as F2.
    assert (UN : forall i s u v, half i s u v -> flow i true 0 0 u v -> una u = 0).
    { intros i s u v H F. pose proof (fl_rcvd _ _ _ _ _ _ F) as R. unfold first_pos in R. cbn in R. pose proof (half_pos _ _ _ _ H) as (T & _ & B & _). pose proof (so_k _ _ _ _ (sn_sq _ _ _ _ _ T)) as K0. change (zlen []) with 0 in R. clear - R B K0. lia. }
    constructor; auto; try (eapply start_link; [|eauto|eauto]; eauto; fail); try (unfold both; congruence); try (intros _ _; split; [eapply UN; eauto|assumption]); try (intros _ N; now destruct N).
    + now apply flow_weak with true.
    + now apply flow_weak with true.
    + intros _. split; eapply start_calm; eauto.
    + unfold syn_first. rewrite O1. split; [intros _ s []|discriminate].
    + unfold syn_first. rewrite O2. split; [intros _ s []|discriminate].
  - eapply good_step; eauto.
  - apply good_swap. apply good_swap in IH. eapply good_step; eauto.
  - cbn [act] in AC. destruct (push_packet (e_conn x) (s_h s) (s_p s)) as [(c', nb)|] eqn:PU; [|discriminate AC]. ob_in AC. injection AC as <-. eapply good_push; eauto.
  - cbn [act] in AC. destruct (push_packet (e_conn y) (s_h s) (s_p s)) as [(c', nb)|] eqn:PU; [|discriminate AC]. ob_in AC. injection AC as <-. apply good_swap. apply good_swap in IH. eapply good_push; eauto.
Qed.
Lemma inorder_history ix iy sx sy lossy b n m x y : is_seq ix -> is_seq iy -> inorder ix iy sx sy lossy b n m x y -> history ix iy sx sy b x y.
Proof.
  intros IX IY H. induction H as [x y SX SY|b n m x y o x' H IH NP AL AC|b n m x y o y' H IH NP AL AC|b n m x y i s x' H IH E L LO AC|b n m x y i s y' H IH E L LO AC].
  - now apply HStart.
  - eapply HLeft; eauto.
  - eapply HRight; eauto.
  - apply inorder_good in H; auto. replace b with (b || rude (OPush s)) by (cbn; apply orb_false_r). eapply HLeft; [eauto| |eauto]. split; [eapply nth_error_In; eauto|].
    cbn [act] in AC. destruct (push_packet (e_conn x) (s_h s) (s_p s)) as [(c', nb)|] eqn:PU; [|discriminate AC]. destruct (good_push _ _ _ _ _ _ _ _ _ _ _ _ _ _ IX IY H E L LO PU) as (_ & _ & F). exact F.
  - apply inorder_good in H; auto. apply good_swap in H. replace b with (b || rude (OPush s)) by (cbn; apply orb_false_r). eapply HRight; [eauto| |eauto]. split; [eapply nth_error_In; eauto|].
    cbn [act] in AC. destruct (push_packet (e_conn y) (s_h s) (s_p s)) as [(c', nb)|] eqn:PU; [|discriminate AC]. destruct (good_push _ _ _ _ _ _ _ _ _ _ _ _ _ _ IY IX H E L LO PU) as (_ & _ & F). exact F.
Qed.

(** * The property *)
Lemma out_syms iss e n m x y : flow iss e n m x y -> nxt x <= zlen (str_of x) -> forall i, (i <= length (e_out x))%nat -> flat_map (fun s => pkt_syms (s_h s) (s_p s)) (firstn i (e_out x)) = zfirst (first_pos x i) (str_of x).
Proof.
  intros F NB. induction i as [|i IH]; intros L; [reflexivity|]. destruct (nth_error (e_out x) i) as [s|] eqn:E; [|apply nth_error_None in E; lia].
  assert (firstn (S i) (e_out x) = firstn i (e_out x) ++ [s]) as ->.
  { clear - E. revert i E. induction (e_out x) as [|a l IH]; intros i E; [destruct i; discriminate E|]. destruct i; [injection E as <-; reflexivity|]. change (firstn (S (S i)) (a :: l)) with (a :: firstn (S i) l). rewrite (IH i E). reflexivity. }
  rewrite flat_map_app, IH by lia. cbn [flat_map]. rewrite app_nil_r. destruct (fl_seq _ _ _ _ _ _ F i s E) as (_ & -> & _). rewrite <- !cut_zfirst. symmetry. apply cut_split; [split; [apply Z.le_refl|unfold first_pos; apply zlen_nonneg]|apply first_pos_mono; lia].
Qed.
Lemma sym_bytes_app a b : sym_bytes (a ++ b) = sym_bytes a ++ sym_bytes b.
Proof. apply flat_map_app. Qed.
Lemma sent_syms x : sent_bytes x = sym_bytes (flat_map (fun s => pkt_syms (s_h s) (s_p s)) (e_out x)).
Proof. unfold sent_bytes. induction (e_out x) as [|s l IH]; [reflexivity|]. cbn [flat_map]. rewrite sym_bytes_app, <- IH. unfold pkt_syms. now rewrite sym_bytes_syms. Qed.
Lemma sym_bytes_first w sh n : 0 <= n -> sym_bytes (zfirst n (stream w sh)) = zfirst (n - 1) w.
Proof.
  intros N. unfold zfirst, stream, sym_bytes. destruct (Z.to_nat n) as [|k] eqn:E; [replace (Z.to_nat (n - 1)) with O by lia; reflexivity|]. replace (Z.to_nat (n - 1)) with k by lia. clear. cbn [firstn flat_map app].
  revert w. induction k as [|k IH]; intros w; [reflexivity|]. destruct w as [|z w]; [destruct sh; destruct k; reflexivity|]. cbn [map app firstn flat_map]. now rewrite IH.
Qed.
Lemma sent_main iss e n m x y sc : flow iss e n m x y -> half iss sc x y -> sent_bytes x = zfirst (nxt x - 1) (e_wrote x).
Proof.
  intros F H. pose proof (half_pos _ _ _ _ H) as (T & _). pose proof (sn_t _ _ _ _ _ T) as TB. pose proof (so_k _ _ _ _ (sn_sq _ _ _ _ _ T)) as K0. rewrite sent_syms. rewrite <- (firstn_all (e_out x)) at 1. rewrite (out_syms _ _ _ _ _ _ F), (fl_last _ _ _ _ _ _ F) by lia. apply sym_bytes_first. lia.
Qed.
Lemma flow_main ix iy sx sy lossy b n m x y : is_seq ix -> is_seq iy -> inorder ix iy sx sy lossy b n m x y ->
  zlen (sent_bytes x) <= zlen (e_got y) + 100000 /\ exists rest, e_wrote x = sent_bytes x ++ rest.
Proof.
  intros IX IY H. destruct (inorder_good _ _ _ _ _ _ _ _ _ _ IX IY H) as [G1 _ _ _ G5 _ _ _ _ _ _ _ _ _ _]. pose proof (sent_main _ _ _ _ _ _ _ G5 G1) as SE. split.
  2: { rewrite SE. exists (zskip (nxt x - 1) (e_wrote x)). symmetry. apply firstn_skipn. }
  pose proof (fl_nxt _ _ _ _ _ _ G5) as E. pose proof (half_pos _ _ _ _ G1) as (T & (RB & RO) & _). pose proof (sn_t _ _ _ _ _ T) as TB. pose proof (stream_len (e_wrote x) (e_shut x)) as SL. fold (str_of x) in SL.
  pose proof (zlen_nonneg (e_got y)) as GN. pose proof (zlen_nonneg (e_wrote x)) as WN. rewrite SE, zlen_zfirst. unfold edge, wl, wlen in E. destruct (c_recv (e_conn y)) as [(q, cl)|] eqn:CR.
  - destruct RO as (_ & _ & buf & RQ & ZF). pose proof (ro_small _ _ _ _ RQ) as BS. pose proof (ro_buf _ _ _ _ RQ) as BB. rewrite BB in E. pose proof (zlen_nonneg buf) as BN.
    assert (RX : rcvd y = b2z (rsyn q) + zlen (e_got y) + zlen buf + b2z (rfin q)) by (unfold rcvd; now rewrite CR, BB). destruct (rfin q) eqn:RF.
    + apply zfirst_all_fin in ZF; [|apply RB]. destruct ZF as (ZF & SH). fold (str_of x) in ZF. rewrite SH in SL. destruct (rsyn q); cbn [b2z] in RX; lia.
    + destruct (rsyn q); cbn [b2z] in RX; lia.
  - destruct RO as (R0 & _). unfold rcvd in E. rewrite CR in E. change (zlen []) with 0 in E. lia.
Qed.

Lemma lossless_main ix iy s b' n m x y k : is_seq ix -> is_seq iy -> inorder ix iy s s false b' n m x y -> b' = false -> nth_error (e_out y) n = Some k ->
  exists c', push_packet (e_conn x) (s_h k) (s_p k) = Some (c', zlen (concat (s_p k))).
Proof.
  intros IX IY H -> E. pose proof (inorder_good _ _ _ _ _ _ _ _ _ _ IX IY H) as G. destruct G as [G1 G2 G3 G4 G5 G6 G7 G8 G9 G10 G11 G12 G13 G14 G15]. destruct (G7 eq_refl) as ((C1 & _) & (_ & _ & _ & C2)).
  destruct (flow_pkt ix iy s s _ _ n m x y IX IY G1 G2 G3 G4 G5 G6 n k E (Nat.le_refl _)) as (a & F & _). assert (IN : In k (e_out y)) by (eapply nth_error_In; eauto). rewrite Forall_forall in C2. pose proof (C2 k IN) as HR.
  assert (PT : act x y (OPush k) <> None).
  { apply (push_total ix iy s s x y IX IY G1 G2 k); auto. destruct n as [|n']; [right; left; apply G13; auto|left; apply G14; auto]. }
  cbn [act] in PT. destruct (push_packet (e_conn x) (s_h k) (s_p k)) as [(c', nb)|] eqn:PU; [|now destruct PT]. exists c'.
  destruct (good_push ix iy s s false false n m x y n k c' nb IX IY) as (_ & NB & _); auto; [constructor; auto|]. now rewrite (NB eq_refl eq_refl).
Qed.

Lemma window_main ix iy sx sy n m x y x' k s : is_seq ix -> is_seq iy -> inorder ix iy sx sy false false (S n) m x y -> nth_error (e_out y) n = Some k ->
  act x y OPop = Some x' -> e_out x' = e_out x ++ [s] -> pkt_syms (s_h s) (s_p s) <> [] ->
  (h_seq (s_h s) - ack_from ix k) mod 4294967296 + zlen (pkt_syms (s_h s) (s_p s)) <= window_of (sx && sy) k.
Proof.
  intros IX IY H E AC O NE. pose proof (inorder_good _ _ _ _ _ _ _ _ _ _ IX IY H) as G. destruct G as [G1 G2 G3 G4 G5 G6 G7 G8 G9 G10 G11 G12 G13 G14 G15].
  destruct (G10 eq_refl eq_refl) as (k' & K1 & K2 & K3). rewrite E in K1. injection K1 as <-.
  destruct (pop_eff ix iy sx sy x y IX IY G1 G2 x' AC) as [->|(s' & EM)]; [exfalso; apply (f_equal (@length _)) in O; rewrite app_length in O; cbn in O; lia|].
  pose proof (em_out _ _ _ _ _ _ EM) as O2. rewrite O in O2. apply app_inv_head in O2. injection O2 as ->. rewrite K2, (em_seq _ _ _ _ _ _ EM), <- K3.
  pose proof (half_pos _ _ _ _ G1) as (T & _). pose proof (sn_t _ _ _ _ _ T) as TB. pose proof (so_small _ _ _ _ (sn_sq _ _ _ _ _ T)) as SM. pose proof (so_k _ _ _ _ (sn_sq _ _ _ _ _ T)) as K0.
  assert (L : 0 < zlen (pkt_syms (s_h s') (s_p s'))) by (destruct (pkt_syms (s_h s') (s_p s')); [congruence|unfold zlen; cbn [length]; lia]).
  pose proof (em_nxt _ _ _ _ _ _ EM) as N. pose proof (em_win _ _ _ _ _ _ EM) as W. specialize (W ltac:(lia)).
  assert ((pos ix (nxt x) - pos ix (una x)) mod 4294967296 = nxt x - una x) as ->; [|lia].
  unfold pos. rewrite Zminus_mod_idemp_l, Zminus_mod_idemp_r. replace (ix + nxt x - (ix + una x)) with (nxt x - una x) by lia. apply Z.mod_small. lia.
Qed.

(** * Histories with any network *)
Lemma step_link ix iy sx sy x y o x' : is_seq ix -> is_seq iy -> half ix sx x y -> half iy sy y x -> link x y -> link y x -> allowed x y o -> act x y o = Some x' -> link x' y /\ link y x'.
Proof.
  intros IX IY H1 H2 L1 L2 AL AC. assert (D : (exists s, o = OPush s) \/ o = OPop \/ match o with OPush _ | OPop => False | _ => True end) by (destruct o; eauto). destruct D as [(s & ->)|[->|D]].
  - destruct AL as (IN & F). cbn [act] in AC. destruct (push_packet (e_conn x) (s_h s) (s_p s)) as [(c', nb)|] eqn:PU; [|discriminate AC]. ob_in AC. injection AC as <-.
    pose proof (half_pos _ _ _ _ H2) as (_ & _ & _ & PY & _). pose proof (proj1 (Forall_forall _ _) PY s IN) as [(p & l & K1 & K2 & K3 & K4 & K5 & K6) _ _ _ _ _].
    pose proof (half_pos _ _ _ _ H1) as (_ & _ & _ & _ & AY & _). pose proof (proj1 (Forall_forall _ _) AY s IN) as (K7 & K8). pose proof (half_pos _ _ _ _ H2) as (T & _). pose proof (sn_t _ _ _ _ _ T) as TB.
    assert (SPL : zlen (pkt_syms (s_h s) (s_p s)) = l) by (rewrite K5, cut_len; lia).
    assert (exists a, h_ack (s_h s) = true -> h_acknum (s_h s) = pos ix a /\ s_peer s - 100001 <= a <= rcvd y) as (a & A).
    { destruct (h_ack (s_h s)); [|exists 0; discriminate]. destruct (K8 eq_refl) as (a & ? & ?). exists a. auto. }
    eapply (link_push ix iy sx sy x y IX IY H1 H2 L1 L2 s p a _ nb IN). apply (push_eff ix iy sx sy x y IX IY H1 H2); auto; rewrite SPL; auto.
  - destruct (pop_eff ix iy sx sy x y IX IY H1 H2 x' AC) as [->|(s & EM)]; [auto|]. eapply (link_pop ix iy sx sy); eauto.
  - eapply (link_quiet ix iy sx sy); eauto. eapply (quiet_eff ix iy sx sy); eauto.
Qed.
Lemma history_link ix iy sx sy b x y : is_seq ix -> is_seq iy -> history ix iy sx sy b x y -> half ix sx x y /\ half iy sy y x /\ link x y /\ link y x.
Proof.
  intros IX IY H. induction H as [x y SX SY|b x y o x' H (H1 & H2 & L1 & L2) AL AC|b x y o y' H (H1 & H2 & L1 & L2) AL AC].
  - split; [exact (start_half _ _ _ _ _ _ IX SX SY)|]. split; [exact (start_half _ _ _ _ _ _ IY SY SX)|]. split; [exact (start_link x y ix iy sx sy IX SX SY)|exact (start_link y x iy ix sy sx IY SY SX)].
  - destruct (step_link ix iy sx sy x y o x' IX IY H1 H2 L1 L2 AL AC). destruct (act_ok ix iy sx sy x y o x' IX IY H1 H2 AL AC) as (? & ? & _). auto.
  - destruct (step_link iy ix sy sx y x o y' IY IX H2 H1 L2 L1 AL AC). destruct (act_ok iy ix sy sx y x o y' IY IX H2 H1 AL AC) as (? & ? & _). auto.
Qed.

Lemma no_panic_all ix iy s b x y o : is_seq ix -> is_seq iy -> history ix iy s s b x y -> allowed x y o ->
  match o with
  | ORead _ => c_recv (e_conn x) <> None
  | OPop => c_need_rst (e_conn x) = true -> is_configured (c_ws (e_conn x)) = true
  | OPush s => c_reset (e_conn x) = false /\ (c_recv (e_conn x) <> None \/ h_syn (s_h s) = true \/ h_rst (s_h s) = true)
  | _ => True
  end -> act x y o <> None.
Proof.
  intros IX IY H AL G. apply (no_panic_main ix iy s b x y o IX IY H AL). destruct o as [d| |n| |s0| |]; auto. split; [exact G|]. intros CR.
  destruct (history_link _ _ _ _ _ _ _ IX IY H) as (H1 & _ & L1 & _). pose proof (half_pos _ _ _ _ H1) as ([S1 S2 S3 S4 S5 S6 S7 S8 S9 S10 S11] & _). destruct (is_configured (c_ws (e_conn x))) eqn:CF; [auto|right].
  apply (lk_win _ _ L1). unfold is_configured in CF. apply orb_false_iff in CF. destruct CF as (_ & CF). rewrite S8 in CF. destruct (c_recv (e_conn x)); [|congruence]. cbn [is_none negb] in CF. rewrite andb_true_r, S7 in CF. apply Z.ltb_ge in CF. pose proof (so_k _ _ _ _ S1). lia.
Qed.

(** * Running commands *)
Lemma exec_inorder ix iy sx sy lossy : forall l b n m x y b' n' m' x' y', inorder ix iy sx sy lossy b n m x y -> exec_in lossy b n m x y l = Some (b', n', m', x', y') -> inorder ix iy sx sy lossy b' n' m' x' y'.
Proof.
  induction l as [|(sd, c) l IH]; intros b n m x y b' n' m' x' y' H E.
  - cbn in E. injection E as <- <- <- <- <-. exact H.
  - destruct sd.
    + assert (D : (exists i, c = CPush i) \/ forall i, c <> CPush i) by (destruct c; eauto; right; discriminate). destruct D as [(i & ->)|NP].
      * cbn [exec_in] in E. destruct (nth_error (e_out y) i) as [s|] eqn:N; [|discriminate E]. ob_in E. destruct (n <=? i)%nat eqn:L1; [|discriminate E]. rewrite assert_true in E by reflexivity.
        destruct (lossy || (i =? n)%nat) eqn:L2; [|discriminate E]. rewrite assert_true in E by reflexivity. destruct (act x y (OPush s)) as [x1|] eqn:A; [|discriminate E]. ob_in E.
        eapply IH; [|exact E]. apply Nat.leb_le in L1. eapply ILeftPush; eauto. intros ->. now apply Nat.eqb_eq.
      * assert (exec_in lossy b n m x y ((true, c) :: l) = (do o <- op_of y c; check (allowedb x y o); do x' <- act x y o; exec_in lossy (b || rude o) n m x' y l)) as X by (destruct c; try reflexivity; now destruct (NP i)).
        rewrite X in E. destruct (op_of y c) as [o|] eqn:O; [|discriminate E]. ob_in E. destruct (allowedb x y o) eqn:AL; [|discriminate E]. rewrite assert_true in E by reflexivity. destruct (act x y o) as [x1|] eqn:A; [|discriminate E]. ob_in E.
        eapply IH; [|exact E]. eapply ILeft; eauto; [|eapply op_allowed; eauto]. intros s ->. destruct c; try discriminate O. now destruct (NP i).
    + assert (D : (exists i, c = CPush i) \/ forall i, c <> CPush i) by (destruct c; eauto; right; discriminate). destruct D as [(i & ->)|NP].
      * cbn [exec_in] in E. destruct (nth_error (e_out x) i) as [s|] eqn:N; [|discriminate E]. ob_in E. destruct (m <=? i)%nat eqn:L1; [|discriminate E]. rewrite assert_true in E by reflexivity.
        destruct (lossy || (i =? m)%nat) eqn:L2; [|discriminate E]. rewrite assert_true in E by reflexivity. destruct (act y x (OPush s)) as [y1|] eqn:A; [|discriminate E]. ob_in E.
        eapply IH; [|exact E]. apply Nat.leb_le in L1. eapply IRightPush; eauto. intros ->. now apply Nat.eqb_eq.
      * assert (exec_in lossy b n m x y ((false, c) :: l) = (do o <- op_of x c; check (allowedb y x o); do y' <- act y x o; exec_in lossy (b || rude o) n m x y' l)) as X by (destruct c; try reflexivity; now destruct (NP i)).
        rewrite X in E. destruct (op_of x c) as [o|] eqn:O; [|discriminate E]. ob_in E. destruct (allowedb y x o) eqn:AL; [|discriminate E]. rewrite assert_true in E by reflexivity. destruct (act y x o) as [y1|] eqn:A; [|discriminate E]. ob_in E.
        eapply IH; [|exact E]. eapply IRight; eauto; [|eapply op_allowed; eauto]. intros s ->. destruct c; try discriminate O. now destruct (NP i).
Qed.
Lemma run_in_case ix iy sx sy lossy l (P : bool -> nat -> nat -> endp -> endp -> Prop) :
  match run_in ix iy sx sy lossy l with Some (b, n, m, x, y) => P b n m x y | None => False end -> exists b n m x y, inorder ix iy sx sy lossy b n m x y /\ P b n m x y.
Proof.
  destruct (run_in ix iy sx sy lossy l) as [((((b, n), m), x), y)|] eqn:E; [|easy]. intros H. exists b, n, m, x, y. split; [|exact H].
  unfold run_in, start_of in E. destruct (conn_new 1 2 ix sx) as [cx|] eqn:CX; [|discriminate E]. ob_in E. destruct (conn_new 2 1 iy sy) as [cy|] eqn:CY; [|discriminate E]. ob_in E.
  eapply exec_inorder; [|exact E]. apply IStart; [exists 1, 2|exists 2, 1]; cbn; auto.
Qed.
