From Verif Require Import Base SeqModel SeqSpec SeqProofs TcpBufModel TcpBufSpec TcpBufProofs TcpQueueProofs TcpConnModel TcpConnSpec TcpConnProofs TcpNetSpec.

Definition str_of (x : endp) : list sym := stream (e_wrote x) (e_shut x).

Definition ws_ok (w : scaling) : Prop :=
  (w_recv w = None \/ w_recv w = Some 1) /\ (w_send w = None \/ w_send w = Some 1) /\ (w_sent w = false -> w_recv w = None) /\ (w_received w = false -> w_send w = None).
Record snd_ok (iss : Z) (scaled : bool) (x : endp) (k t : Z) : Prop := {
  sn_sq : sq_ok iss (str_of x) k (c_sq (e_conn x));
  sn_fin : sfin (c_sq (e_conn x)) = e_shut x;
  sn_tx : tx (c_sq (e_conn x)) = pos iss t;
  sn_t : k <= t <= zlen (str_of x);
  sn_win : 0 <= c_win (e_conn x) < 2147483648;
  sn_ws : ws_ok (c_ws (e_conn x));
  sn_sent : w_sent (c_ws (e_conn x)) = (0 <? t);
  sn_recd : w_received (c_ws (e_conn x)) = negb (is_none (c_recv (e_conn x)));
  sn_scaled : w_disabled (c_ws (e_conn x)) = negb scaled;
  sn_closed : c_sclosed (e_conn x) = e_shut x;
  sn_small : zlen (str_of x) - k <= 100000 + b2z (e_shut x) }.
Definition rcv_ok (iss : Z) (str : list sym) (r : Z) (y : endp) : Prop :=
  0 <= r <= zlen str /\
  match c_recv (e_conn y) with
  | None => r = 0 /\ e_got y = []
  | Some (q, closed) => closed = rfin q /\ (c_reset (e_conn y) = true \/ rsyn q = true) /\
      exists buf, rq_ok iss r buf q /\ zfirst r str = syms (rsyn q) (e_got y ++ buf) (rfin q)
  end.
Record pkt_ok (iss : Z) (x : endp) (t : Z) (s : sent) : Prop := {
  pk_slice : exists p l, h_seq (s_h s) = pos iss p /\ 0 <= p /\ 0 <= l <= 1502 /\ p + l <= t /\
      pkt_syms (s_h s) (s_p s) = cut 0 p (p + l) (str_of x) /\ s_mine s - 100001 <= p;
  pk_mine : 0 <= s_mine s <= zlen (e_wrote x);
  pk_win : 0 <= h_win (s_h s) <= 65535;
  pk_scale : h_scale (s_h s) = None \/ h_scale (s_h s) = Some 1;
  pk_ack : is_seq (h_acknum (s_h s));
  pk_conf : h_syn (s_h s) = true \/ is_configured (c_ws (e_conn x)) = true }.
Definition ack_ok (iss r : Z) (x : endp) (s : sent) : Prop :=
  0 <= s_peer s <= zlen (e_wrote x) /\
  (h_ack (s_h s) = true -> exists a, h_acknum (s_h s) = pos iss a /\ s_peer s - 100001 <= a <= r).

(** The stream from [x] to [y]: [k] symbols are acknowledged, [r] were received, [t] were sent. *)
Definition half (iss : Z) (scaled : bool) (x y : endp) : Prop := exists k t r,
  snd_ok iss scaled x k t /\ rcv_ok iss (str_of x) r y /\ k <= r <= t /\ Forall (pkt_ok iss x t) (e_out x) /\ Forall (ack_ok iss r x) (e_out y) /\
  (is_none (c_recv (e_conn y)) = false -> 0 < t).

Definition calm (x : endp) : Prop :=
  c_reset (e_conn x) = false /\ c_need_rst (e_conn x) = false /\ c_rst_if_payload (e_conn x) = false /\ Forall (fun s => h_rst (s_h s) = false) (e_out x).

Lemma shift_ok w : ws_ok w -> 0 <= recv_shift0 w <= 1 /\ 0 <= send_shift0 w <= 1.
Proof.
  intros (R & S & _). unfold recv_shift0, send_shift0. destruct (w_disabled w); [lia|]. destruct R as [->| ->], S as [->| ->]; lia.
Qed.
Lemma wmax_pos w : ws_ok w -> 65535 <= recv_window_max w <= 131070.
Proof. intros W. apply shift_ok in W. destruct W as (R & _). unfold recv_window_max. assert (recv_shift0 w = 0 \/ recv_shift0 w = 1) as [-> | ->] by lia; cbn; lia. Qed.

(** Parts of an endpoint that do not matter to one direction. *)
Lemma half_rcv_irrel iss sc x y y' : c_recv (e_conn y') = c_recv (e_conn y) -> (c_reset (e_conn y) = true -> c_reset (e_conn y') = true) ->
  e_got y' = e_got y -> e_out y' = e_out y -> half iss sc x y -> half iss sc x y'.
Proof.
  intros R RS G O (k & t & r & S & RO & B & P & A & NZ). exists k, t, r. rewrite O, R. split; [exact S|]. split; [|auto].
  unfold rcv_ok in *. rewrite R, G. destruct RO as (RB & RO). split; [exact RB|]. destruct (c_recv (e_conn y)) as [(q, cl)|]; [|exact RO].
  destruct RO as (CL & RR & RO). split; [exact CL|]. split; [|exact RO]. destruct RR; auto.
Qed.
Lemma half_snd_irrel iss sc x x' y : c_sq (e_conn x') = c_sq (e_conn x) -> c_win (e_conn x') = c_win (e_conn x) -> c_ws (e_conn x') = c_ws (e_conn x) ->
  c_sclosed (e_conn x') = c_sclosed (e_conn x) ->
  is_none (c_recv (e_conn x')) = is_none (c_recv (e_conn x)) -> e_wrote x' = e_wrote x -> e_shut x' = e_shut x -> e_out x' = e_out x -> half iss sc x y -> half iss sc x' y.
Proof.
  intros Q W WS SC RC WR SH O (k & t & r & S & RO & B & P & A & NZ). exists k, t, r. assert (ST : str_of x' = str_of x) by (unfold str_of; now rewrite WR, SH).
  rewrite ST, O. split; [|split; [exact RO|split; [exact B|split; [|split; [|exact NZ]]]]].
  - destruct S as [S1 S2 S3 S4 S5 S6 S7 S8 S9 S10 S11]. constructor; rewrite ?ST, ?Q, ?W, ?WS, ?RC, ?SH, ?SC; assumption.
  - eapply Forall_impl; [|exact P]. intros s [P1 P2 P3 P4 P5 P6]. constructor; rewrite ?ST, ?WR, ?WS; assumption.
  - eapply Forall_impl; [|exact A]. intros s (A1 & A2). split; [now rewrite WR|exact A2].
Qed.
(** The writer adds symbols to its stream. *)
Lemma half_ext iss sc x x' y ext k t r :
  snd_ok iss sc x k t -> rcv_ok iss (str_of x) r y -> k <= r <= t -> Forall (pkt_ok iss x t) (e_out x) -> Forall (ack_ok iss r x) (e_out y) -> (is_none (c_recv (e_conn y)) = false -> 0 < t) ->
  str_of x' = str_of x ++ ext -> zlen (e_wrote x) <= zlen (e_wrote x') -> c_ws (e_conn x') = c_ws (e_conn x) -> e_out x' = e_out x ->
  snd_ok iss sc x' k t -> half iss sc x' y.
Proof.
  intros S RO B P A NZ ST WR WS O S'. exists k, t, r. rewrite O. split; [exact S'|]. pose proof (sn_t _ _ _ _ _ S) as ST0. pose proof (zlen_nonneg ext) as EN. split.
  - unfold rcv_ok in *. destruct RO as (RB & RO). rewrite ST, zlen_app. split; [lia|]. destruct (c_recv (e_conn y)) as [(q, cl)|]; [|exact RO].
    destruct RO as (CL & RR & buf & RQ & ZF). split; [exact CL|]. split; [exact RR|]. exists buf. split; [exact RQ|]. rewrite zfirst_ext by lia. exact ZF.
  - split; [exact B|]. split; [|split; [|exact NZ]].
    + eapply Forall_impl; [|exact P]. intros s [(p & l & H1 & H2 & H3 & H4 & H5 & H6) P2 P3 P4 P5 P6]. constructor; [|lia|exact P3|exact P4|exact P5|now rewrite WS].
      exists p, l. rewrite ST. rewrite cut_ext by lia. auto 10.
    + eapply Forall_impl; [|exact A]. intros s (A1 & A2). split; [lia|exact A2].
Qed.

(** [lia] without the hypotheses about booleans, which slow it down. *)
Ltac blia :=
  repeat match goal with
         | H : @eq bool _ _ |- _ => clear H
         | H : @eq sendq _ _ |- _ => clear H
         | H : _ -> _ |- _ => clear H
         | H : _ \/ _ |- _ => clear H
         | H : _ <-> _ |- _ => clear H
         | x := _ : endp |- _ => clearbody x
         end; lia.
(** * Each operation *)
Section Ops.
Variables (ix iy : Z) (sx sy : bool) (x y : endp).
Hypothesis (IX : is_seq ix) (IY : is_seq iy) (HX : half ix sx x y) (HY : half iy sy y x).

Definition keeps (x' : endp) : Prop := half ix sx x' y /\ half iy sy y x'.
Definition calmly (x' : endp) : Prop := calm x -> calm y -> calm x'.
Lemma keeps_same x' : x' = x -> keeps x' /\ calmly x'.
Proof using All. intros ->. split; [split; assumption|]. now intros C _. Qed.

Lemma write_ok data : e_shut x = false -> exists x', act x y (OWrite data) = Some x' /\ keeps x' /\ calmly x'.
Proof using All.
  intros NS. destruct HX as (k & t & r & S & RO & B & P & A & NZ). pose proof S as [S1 S2 S3 S4 S5 S6 S7 S8 S9 S10 S11]. cbn [act]. unfold conn_send, has_space.
  rewrite (sq_len_pos _ _ _ _ S1). unfold SEND_BUF_MAX. rewrite NS in S11. cbn [b2z] in S11. destruct (Z.ltb_spec (zlen (str_of x) - k) 100000) as [SP|FU]; cbn [negb].
  2: { ob. eexists. split; [reflexivity|]. apply keeps_same. rewrite app_nil_r. now destruct x. }
  set (n := Z.min (zlen data) (Z.max 0 (100000 - (zlen (str_of x) - k)))). pose proof (zlen_nonneg data).
  destruct (add_data_ok ix k (Datatypes.S (Z.to_nat n)) (str_of x) (c_sq (e_conn x)) data n S1) as (q' & ok & m & E & M1 & M2 & OK1 & OK2 & SQ & TX & SF); [now rewrite S2|blia|blia|blia|].
  rewrite E. ob. eexists. split; [reflexivity|]. rewrite OK2 by blia. assert (m = n) as -> by (apply OK1, OK2; blia).
  set (x' := {| e_conn := _; e_wrote := _; e_shut := _; e_got := _; e_out := _ |}).
  assert (ST : str_of x' = str_of x ++ map SByte (zfirst n data)).
  { unfold x', str_of, stream. cbn [e_wrote e_shut]. rewrite NS. rewrite map_app, !app_nil_r. reflexivity. }
  assert (ZN : zlen (str_of x') = zlen (str_of x) + n) by (rewrite ST, zlen_app, zlen_map, zlen_zfirst; blia).
  split; [split|].
  - eapply (half_ext ix sx x x' y _ k t r); eauto; [unfold x'; cbn [e_wrote]; rewrite zlen_app; pose proof (zlen_nonneg (zfirst n data)); blia|].
    constructor; rewrite ?ZN; rewrite ?ST; unfold x'; cbn [e_conn e_shut set_sq c_sq c_win c_ws c_recv c_sclosed]; auto; try congruence; try blia.
    rewrite NS. cbn [b2z]. blia.
  - eapply half_rcv_irrel; [..|exact HY]; try reflexivity. auto.
  - intros (C1 & C2 & C3 & C4) _. split; [exact C1|]. split; [exact C2|]. split; [exact C3|exact C4].
Qed.

Lemma shut_ok : e_shut x = false -> exists x', act x y OShut = Some x' /\ keeps x' /\ calmly x'.
Proof using All.
  intros NS. destruct HX as (k & t & r & S & RO & B & P & A & NZ). pose proof S as [S1 S2 S3 S4 S5 S6 S7 S8 S9 S10 S11]. cbn [act]. unfold send_fin, add_fin_s.
  rewrite NS in S11. cbn [b2z] in S11.
  destruct (add_segment_ok ix (str_of x) k (c_sq (e_conn x)) Fin S1) as (q' & E & SQ & TX & SF & _); [congruence|cbn; blia|cbn; blia|].
  rewrite E. ob. eexists. split; [reflexivity|]. set (x' := {| e_conn := _; e_wrote := _; e_shut := _; e_got := _; e_out := _ |}).
  assert (ST : str_of x' = str_of x ++ [SFin]).
  { unfold x', str_of, stream. cbn [e_wrote e_shut]. rewrite NS. rewrite app_nil_r. reflexivity. }
  assert (ZN : zlen (str_of x') = zlen (str_of x) + 1) by (rewrite ST, zlen_app; reflexivity).
  split; [split|].
  - eapply (half_ext ix sx x x' y _ k t r); eauto; [unfold x'; cbn [e_wrote]; blia|].
    constructor; rewrite ?ZN; rewrite ?ST; unfold x'; cbn [e_conn e_shut set_sclosed set_sq c_sq c_win c_ws c_recv c_sclosed]; auto; try congruence; try blia.
    cbn [b2z]. blia.
  - eapply half_rcv_irrel; [..|exact HY]; try reflexivity. auto.
  - intros (C1 & C2 & C3 & C4) _. split; [exact C1|]. split; [exact C2|]. split; [exact C3|exact C4].
Qed.

Lemma read_ok n : 0 <= n <= U32_MAX -> c_recv (e_conn x) <> None -> exists x', act x y (ORead n) = Some x' /\ keeps x' /\ calmly x'.
Proof using All.
  intros N NR. cbn [act]. unfold conn_recv. destruct (c_recv (e_conn x)) as [(q, cl)|] eqn:CR; [clear NR|congruence].
  destruct HY as (k & t & r & S & (RB & RO) & B & P & A & NZ). rewrite CR in RO. destruct RO as (-> & RR & buf & RQ & ZF).
  destruct (rq_is_empty q) eqn:EM.
  { ob. eexists. split; [reflexivity|]. apply keeps_same. rewrite app_nil_r. now destruct x. }
  destruct (rq_read_ok iy r buf q n RQ N) as (q' & E & RQ' & RS & RF). rewrite E. ob. eexists. split; [reflexivity|].
  split; [split|].
  - eapply half_snd_irrel; [..|exact HX]; try reflexivity. cbn [e_conn set_recv c_recv]. now rewrite CR.
  - exists k, t, r. split; [exact S|]. split; [|split; [exact B|split; [exact P|split; [exact A|]]]]; [|intros _; apply NZ; now rewrite CR]. split; [exact RB|]. cbn [e_conn e_got set_recv c_recv c_reset].
    split; [now rewrite RF|]. split; [now rewrite RS|]. exists (zskip n buf). split; [exact RQ'|]. rewrite RS, RF, ZF, <- app_assoc. unfold zfirst, zskip. now rewrite firstn_skipn.
  - intros (C1 & C2 & C3 & C4) _. split; [exact C1|]. split; [exact C2|]. split; [exact C3|exact C4].
Qed.

Lemma cut_syn_conv w s a b syn bytes fin : 0 <= a -> syms syn bytes fin = cut 0 a b (stream w s) -> a < b -> syn = (a =? 0).
Proof using.
  clear. intros P E L. destruct syn.
  - symmetry in E. apply cut_syn in E; [|exact P]. now subst.
  - destruct (Z.eqb_spec a 0) as [->|]; [|reflexivity]. exfalso. unfold cut, stream in E. change (Z.to_nat (0 - 0)) with 0%nat in E. rewrite Z.sub_0_r in E.
    replace (Z.to_nat b) with (S (Z.to_nat (b - 1))) in E by blia. cbn in E. unfold syms in E. cbn [app] in E. destruct bytes; cbn in E; [destruct fin|]; discriminate E.
Qed.

Lemma pop_ok x' : act x y OPop = Some x' -> keeps x' /\ calmly x'.
Proof using All.
  cbn [act]. destruct (pop_packet (e_conn x)) as [(c', o)|] eqn:PE; [|discriminate]. ob. intros E. injection E as <-.
  destruct HX as (k & t & r & S & RO & B & P & A & NZ). pose proof S as [S1 S2 S3 S4 S5 S6 S7 S8 S9 S10 S11].
  destruct HY as (ky & ty & ry & Sy & ROy & By & Py & Ay & NZy).
  assert (RQ : forall q cl, c_recv (e_conn x) = Some (q, cl) -> exists irs r buf, rq_ok irs r buf q).
  { intros q cl CR. destruct ROy as (_ & ROy). rewrite CR in ROy. destruct ROy as (_ & _ & buf & Q & _). eauto. }
  pose proof (pop_inv ix (e_wrote x) (e_shut x) k t (e_conn x) S1 S3 S4 S5 c' o RQ PE) as PI. destruct o as [(h, p)|].
  2: { destruct PI as (-> & _). apply keeps_same. rewrite app_nil_r. now destruct x. }
  destruct PI as (l & [P1 P2 P3 P4 P4z P5 P6 P7 P8 P9 P10 P11 P12 P13 P14 P15 P16 (last & ws & -> & WS)]). fold (str_of x) in *.
  set (x' := {| e_conn := _; e_wrote := _; e_shut := _; e_got := _; e_out := _ |}).
  pose proof (so_k _ _ _ _ S1) as KB. pose proof (so_small _ _ _ _ S1) as SM.
  assert (SL : zlen (str_of x) = 1 + zlen (e_wrote x) + (if e_shut x then 1 else 0)) by apply stream_len.
  assert (SYN : 0 < l -> h_syn h = (t =? 0)).
  { intros L. eapply cut_syn_conv; [|exact P5|]; blia. }
  assert (NSYN : l = 0 -> h_syn h = false).
  { intros ->. rewrite Z.add_0_r, cut_none in P5 by blia. apply (f_equal zlen) in P5. unfold pkt_syms in P5. rewrite syms_len in P5. pose proof (zlen_nonneg (concat p)). change (zlen (@nil sym)) with 0 in P5.
    destruct (h_syn h), (h_fin h); cbn [b2z] in P5; try reflexivity; blia. }
  assert (LL : l <= 1502).
  { apply (f_equal zlen) in P5. unfold pkt_syms in P5. rewrite syms_len, cut_len in P5 by blia. destruct (h_syn h), (h_fin h); cbn [b2z] in P5; blia. }
  assert (CFM : is_configured (c_ws (e_conn x)) = true -> is_configured ws = true).
  { destruct (h_syn h); [|now rewrite WS]. unfold sent_syn in WS. intros CF.
    repeat match type of WS with (check ?b; _) = _ => destruct b; [rewrite assert_true in WS by reflexivity|discriminate WS] end. injection WS as <-.
    unfold is_configured in *. cbn. apply orb_true_iff in CF. destruct CF as [->|CF]; [reflexivity|]. apply andb_true_iff in CF. destruct CF as (_ & ->). apply orb_true_r. }
  assert (WSF : ws_ok ws /\ w_sent ws = (0 <? t + l) /\ w_received ws = w_received (c_ws (e_conn x)) /\ w_disabled ws = w_disabled (c_ws (e_conn x))).
  { destruct (Z.eq_dec l 0) as [L0|LN].
    - rewrite NSYN in WS by exact L0. subst ws. rewrite L0, Z.add_0_r. auto.
    - rewrite SYN in WS by blia. destruct (Z.eqb_spec t 0) as [T0|TN].
      + unfold sent_syn in WS. repeat match type of WS with (check ?b; _) = _ => destruct b; [rewrite assert_true in WS by reflexivity|discriminate WS] end. injection WS as <-. cbn.
        split; [|split; [symmetry; apply Z.ltb_lt; blia|auto]]. split; [cbn; unfold scale_of; destruct (can_send_scale (c_ws (e_conn x))); auto|]. split; [apply S6|]. split; [discriminate|apply S6].
      + subst ws. split; [exact S6|]. split; [|auto]. rewrite S7. destruct (Z.ltb_spec 0 t), (Z.ltb_spec 0 (t + l)); try reflexivity; blia. }
  destruct WSF as (W1 & W2 & W3 & W4).
  split; [split|].
  - exists k, (t + l), r. split.
    + constructor; unfold x'; cbn [e_conn e_shut after_pop c_sq c_win c_ws c_recv c_sclosed]; auto; try congruence; try (now apply sq_ok_tx).
      change (str_of _) with (str_of x). blia.
    + split; [exact RO|]. split; [blia|]. split; [|split; [exact A|intros X; specialize (NZ X); blia]]. unfold x'. cbn [e_out]. apply Forall_app. split.
      * eapply Forall_impl; [|exact P]. intros s [(pp & ll & H1 & H2 & H3 & H4 & H5 & H6) Q2 Q3 Q4 Q5 Q6]. constructor; auto.
        -- exists pp, ll. repeat split; auto; blia.
        -- cbn [e_conn after_pop c_ws]. destruct Q6; auto.
      * constructor; [|constructor]. constructor; cbn [s_h s_p s_mine e_wrote e_conn after_pop c_ws].
        -- exists t, l. split; [exact P1|]. split; [blia|]. split; [blia|]. split; [blia|]. split; [exact P5|]. destruct (e_shut x); blia.
        -- pose proof (zlen_nonneg (e_wrote x)). blia.
        -- exact P13.
        -- rewrite P16. destruct (h_syn h); [|auto]. unfold scale_of. destruct (can_send_scale (c_ws (e_conn x))); auto.
        -- destruct (c_recv (e_conn x)) as [(q, cl)|] eqn:CR.
           ++ rewrite (P4 q cl eq_refl). destruct (RQ q cl eq_refl) as (irs & rr & buf & Q). rewrite (ro_end _ _ _ _ Q). apply pos_seq.
           ++ rewrite (P4z eq_refl). unfold is_seq. blia.
        -- destruct (h_syn h); [auto|]. right. apply CFM, P15. reflexivity.
  - exists ky, ty, ry. split; [exact Sy|]. split; [exact ROy|]. split; [exact By|]. split; [exact Py|]. unfold x'. cbn [e_out]. split; [|exact NZy]. apply Forall_app. split; [exact Ay|].
    constructor; [|constructor]. split; cbn [s_h s_peer]; [pose proof (zlen_nonneg (e_wrote y)); blia|]. rewrite P3. intros AK. destruct (c_recv (e_conn x)) as [(q, cl)|] eqn:CR; [|discriminate AK].
    rewrite (P4 q cl eq_refl). destruct ROy as (_ & ROy). rewrite CR in ROy. destruct ROy as (_ & _ & buf & Q & _). exists ry. rewrite (ro_end _ _ _ _ Q).
    pose proof (so_small _ _ _ _ (sn_sq _ _ _ _ _ Sy)). pose proof (stream_len (e_wrote y) (e_shut y)). unfold str_of in *. split; [reflexivity|]. destruct (e_shut y); blia.
  - intros (C1 & C2 & C3 & C4) _. unfold calm, x'. cbn [e_conn after_pop c_reset c_need_rst c_rst_if_payload e_out]. rewrite C1, C2. repeat split; auto. apply Forall_app. split; [exact C4|].
    constructor; [|constructor]. cbn [s_h]. now rewrite P10.
Qed.

Lemma syms_app s b1 b2 f : syms s b1 false ++ syms false b2 f = syms s (b1 ++ b2) f.
Proof using. clear. unfold syms. cbn [app]. rewrite app_nil_r, map_app, <- !app_assoc. reflexivity. Qed.
Lemma syms_fin_in s b f : In SFin (syms s b f) -> f = true.
Proof using.
  clear. unfold syms. rewrite !in_app_iff. intros [I0|[I0|I0]].
  - destruct s; cbn in I0; [destruct I0 as [I0|[]]; discriminate I0|destruct I0].
  - apply in_map_iff in I0. destruct I0 as (? & X & _). discriminate X.
  - destruct f; [reflexivity|destruct I0].
Qed.
Lemma zfirst_all_fin r w s syn bytes : 0 <= r -> zfirst r (stream w s) = syms syn bytes true -> r >= zlen (stream w s) /\ s = true.
Proof using.
  clear. intros R E. rewrite <- cut_zfirst in E. unfold syms in E. rewrite app_assoc in E. pose proof E as E'. apply cut_fin in E; [|lia].
  destruct E as (-> & E). split; [|reflexivity]. apply (f_equal zlen) in E'. rewrite zlen_cut, !zlen_app, zlen_one in E'. rewrite !zlen_app in E. lia.
Qed.

Lemma push_ok s x' : In s (e_out y) -> fresh x y s -> act x y (OPush s) = Some x' -> keeps x' /\ calmly x'.
Proof using All.
  intros IN (FM & FP). cbn [act]. unfold push_packet. destruct (c_reset (e_conn x)) eqn:NRS; [discriminate|]. cbn [negb]. rewrite assert_true by reflexivity.
  destruct HX as (k & t & r & S & RO & B & P & A & NZ). pose proof S as [S1 S2 S3 S4 S5 S6 S7 S8 S9 S10 S11].
  destruct HY as (ky & ty & ry & Sy & ROy & By & Py & Ay & NZy).
  pose proof (proj1 (Forall_forall _ _) Py s IN) as [(p & l & H1 & H2 & H3 & H4 & H5 & H6) Q2 Q3 Q4 Q5 Q6].
  pose proof (proj1 (Forall_forall _ _) A s IN) as (A1 & A2).
  destruct (h_rst (s_h s)) eqn:HR.
  { assert (CM : forall c', calmly {| e_conn := c'; e_wrote := e_wrote x; e_shut := e_shut x; e_got := e_got x; e_out := e_out x |}).
    { intros c' _ (_ & _ & _ & C4). rewrite Forall_forall in C4. specialize (C4 s IN). congruence. }
    intros E. match type of E with (do q <- ?u; _) = _ => destruct u as [(c', n)|] eqn:U; [|discriminate E] end. ob_in E. injection E as <-. split; [|apply CM]. cbn [fst].
    assert (c' = set_rst (e_conn x) true (c_need_rst (e_conn x)) \/ c' = set_need_ack (e_conn x) true \/ c' = e_conn x) as [-> | [-> | ->]].
    { destruct (recv_window (e_conn x)); [|injection U as <- _; auto]. destruct (h_seq (s_h s) =? start r0); [injection U as <- _; auto|]. destruct (contains r0 (h_seq (s_h s))); injection U as <- _; auto. }
    all: split; [eapply half_snd_irrel; [..|exact HX]; reflexivity|eapply half_rcv_irrel; [..|exact HY]; try reflexivity; cbn; auto]. }
  intros E. destruct (take_syn (e_conn x) (s_h s)) as [c1|] eqn:TS; [|discriminate E]. ob_in E.
  destruct (push_segment c1 (s_h s) (s_p s)) as [(c', n)|] eqn:PS; [|discriminate E]. ob_in E. injection E as <-. cbn [fst].
  pose proof (pos_0 iy IY) as P0. pose proof (sn_t _ _ _ _ _ Sy) as TB.
  assert (SPL : zlen (pkt_syms (s_h s) (s_p s)) = l) by (rewrite H5, cut_len by blia; blia).
  assert (SYNP : h_syn (s_h s) = true -> p = 0 /\ 0 < l).
  { intros X. rewrite <- SPL. split; [|unfold pkt_syms; rewrite syms_len, X; cbn [b2z]; pose proof (zlen_nonneg (concat (s_p s))); destruct (h_fin (s_h s)); cbn [b2z]; blia].
    unfold pkt_syms in H5. rewrite X in H5. symmetry in H5. eapply cut_syn; [|exact H5]. exact H2. }
  assert (C1 : exists q buf, c_sq c1 = c_sq (e_conn x) /\ c_sclosed c1 = c_sclosed (e_conn x) /\ c_reset c1 = false /\ c_need_rst c1 = c_need_rst (e_conn x) /\
     c_rst_if_payload c1 = c_rst_if_payload (e_conn x) /\ c_win c1 = c_win (e_conn x) /\ ws_ok (c_ws c1) /\ w_sent (c_ws c1) = (0 <? t) /\ w_received (c_ws c1) = true /\ w_disabled (c_ws c1) = negb sx /\
     (is_configured (c_ws (e_conn x)) = true -> is_configured (c_ws c1) = true) /\
     c_recv c1 = Some (q, rfin q) /\ rq_ok iy ry buf q /\ zfirst ry (str_of y) = syms (rsyn q) (e_got x ++ buf) (rfin q) /\
     (rsyn q = true \/ p = ry /\ h_syn (s_h s) = true /\ 0 < wlen c1 buf /\ ry = 0 /\ rfin q = false /\ e_got x ++ buf = [])).
  { unfold take_syn in TS. destruct ROy as (RB & ROy). destruct (c_recv (e_conn x)) as [(q, cl)|] eqn:CR; cbn [is_none andb] in TS.
    - injection TS as <-. destruct ROy as (-> & [X|RS] & buf & RQ & ZF); [congruence|]. exists q, buf. rewrite CR. rewrite S8. repeat (split; [auto; fail|]). auto.
    - destruct (h_syn (s_h s)) eqn:HSY.
      2: { injection TS as <-. unfold push_segment, recv_window in PS. rewrite CR in PS. discriminate PS. }
      destruct ROy as (-> & G). destruct (SYNP eq_refl) as (-> & _). unfold received_syn in TS. rewrite S8 in TS. cbn [is_none negb] in TS. rewrite assert_true in TS by reflexivity. ob_in TS. injection TS as <-.
      rewrite H1, P0. exists (rq_new iy), []. cbn [set_ws set_recv c_sq c_sclosed c_reset c_need_rst c_rst_if_payload c_win c_ws c_recv w_sent w_received w_disabled].
      assert (WK : ws_ok {| w_sent := w_sent (c_ws (e_conn x)); w_received := true; w_recv := w_recv (c_ws (e_conn x));
                 w_send := match h_scale (s_h s) with Some s0 => Some (if 14 <? s0 then 14 else s0) | None => None end; w_disabled := w_disabled (c_ws (e_conn x)) |}).
      { split; [apply S6|]. split; [|split; [apply S6|discriminate]]. cbn. destruct Q4 as [-> | ->]; [auto|]. change (14 <? 1) with false. auto. }
      do 6 (split; [auto; fail|]). split; [exact WK|]. split; [exact S7|]. split; [reflexivity|]. split; [exact S9|]. split.
      { unfold is_configured. cbn. intros X. apply orb_true_iff in X. destruct X as [->|X]; [reflexivity|]. apply andb_true_iff in X. destruct X as (-> & _). apply orb_true_r. }
      split; [reflexivity|]. split; [now apply rq_new_ok|]. rewrite G. split; [reflexivity|]. right. split; [reflexivity|]. split; [reflexivity|]. split; [|auto].
      unfold wlen. cbn [c_ws]. change (zlen (@nil Z)) with 0. match goal with |- context [recv_window_max ?u] => pose proof (wmax_pos u WK) end. blia. }
  destruct C1 as (q & buf & D1 & D2 & D3 & D4 & D5 & D6 & D7 & D8 & D9 & D10 & D11 & CR & RQ & ZF & SY).
  clear TS. destruct ROy as (RB & _).
  assert (exists a, h_acknum (s_h s) = pos ix a /\ (h_ack (s_h s) = true -> a <= r) /\ zlen (str_of x) + 1 - 4294967296 <= a < k + 1 + 4294967296) as (a & HA & AR & AB).
  { pose proof (stream_len (e_wrote x) (e_shut x)) as SL. fold (str_of x) in SL. pose proof (so_small _ _ _ _ S1) as SM. destruct (h_ack (s_h s)).
    - destruct (A2 eq_refl) as (a & HA & AB). exists a. split; [exact HA|]. split; [blia|]. destruct (e_shut x); blia.
    - destruct (pos_near ix k _ Q5) as (a & HA & AB). exists a. split; [exact HA|]. split; [discriminate|blia]. }
  pose proof (ro_small _ _ _ _ RQ) as BS. pose proof (wlen_bounds c1 buf BS) as WB. pose proof (zlen_nonneg buf) as BN. pose proof (so_small _ _ _ _ (sn_sq _ _ _ _ _ Sy)) as SMy.
  assert (SQ1 : sq_ok ix (str_of x) k (c_sq c1)) by now rewrite D1.
  assert (PSP : p + l - ry < 4294967296 /\ ry + 100000 - p < 4294967296).
  { pose proof (stream_len (e_wrote y) (e_shut y)) as SL. fold (str_of y) in SL. destruct (e_shut y); blia. }
  assert (SYq : rsyn q = true \/ p = ry /\ h_syn (s_h s) = true /\ 0 < wlen c1 buf) by (destruct SY as [?|(?&?&?&_)]; auto).
  destruct (push_segment_ok c1 (s_h s) (s_p s) ix (str_of x) k iy ry buf q p a CR RQ SQ1 H1 HA AB) as [(X1 & X2 & X3)|(c0 & n0 & E & PU)];
    [rewrite SPL; blia|rewrite SPL; apply PSP|apply PSP|exact SYq|congruence|].
  rewrite E in PS. injection PS as -> ->. clear E. rewrite SPL in PU. rewrite H5, cut_cut in PU by exact H2.
  set (w := wlen c1 buf) in *. set (p1 := Z.max p ry) in *. set (p2 := Z.min (p + l) (ry + w)) in *.
  assert (CALM : c_reset c' = false -> c_need_rst c' = c_need_rst (e_conn x) -> c_rst_if_payload c' = c_rst_if_payload (e_conn x) ->
     calmly {| e_conn := c'; e_wrote := e_wrote x; e_shut := e_shut x; e_got := e_got x; e_out := e_out x |}).
  { intros X1 X2 X3 (C1 & C2 & C3 & C4) _. unfold calm. cbn [e_conn e_out]. rewrite X1, X2, X3. auto. }
  assert (SND : forall c2 k2, sq_ok ix (str_of x) k2 (c_sq c2) -> tx (c_sq c2) = pos ix t -> sfin (c_sq c2) = e_shut x -> k <= k2 <= r -> 0 <= c_win c2 < 2147483648 -> c_ws c2 = c_ws c1 ->
      c_sclosed c2 = c_sclosed (e_conn x) -> is_none (c_recv c2) = false ->
      half ix sx {| e_conn := c2; e_wrote := e_wrote x; e_shut := e_shut x; e_got := e_got x; e_out := e_out x |} y).
  { intros c2 k2 X1 X2 X3 X4 X5 X6 X7 X8. exists k2, t, r. change (str_of {| e_conn := c2; e_wrote := e_wrote x; e_shut := e_shut x; e_got := e_got x; e_out := e_out x |}) with (str_of x).
    split; [|split; [exact RO|split; [blia|split; [|split; [|exact NZ]]]]].
    - constructor; cbn [e_conn e_shut]; rewrite ?X6, ?X7, ?X8; auto; change (str_of {| e_conn := c2; e_wrote := e_wrote x; e_shut := e_shut x; e_got := e_got x; e_out := e_out x |}) with (str_of x); blia.
    - cbn [e_out]. eapply Forall_impl; [|exact P]. intros s0 [R1 R2 R3 R4 R5 R6]. constructor; auto. cbn [e_conn]. rewrite X6. destruct R6; auto.
    - eapply Forall_impl; [|exact A]. auto. }
  assert (TY : 0 < ty).
  { destruct SY as [SY|(_ & HSY & _)]; [|destruct (SYNP HSY); blia]. rewrite SY in ZF. destruct (Z.eq_dec ry 0) as [R0|]; [|blia]. rewrite R0 in ZF. discriminate ZF. }
  assert (RCV : forall c2 r2 q2 buf2, c_recv c2 = Some (q2, rfin q2) -> (c_reset c2 = true \/ rsyn q2 = true) -> ry <= r2 <= ty -> rq_ok iy r2 buf2 q2 ->
      zfirst r2 (str_of y) = syms (rsyn q2) (e_got x ++ buf2) (rfin q2) ->
      half iy sy y {| e_conn := c2; e_wrote := e_wrote x; e_shut := e_shut x; e_got := e_got x; e_out := e_out x |}).
  { intros c2 r2 q2 buf2 X1 X2 X3 X4 X5. exists ky, ty, r2. split; [exact Sy|]. split; [|split; [blia|split; [exact Py|split; [|intros _; exact TY]]]].
    - split; [blia|]. cbn [e_conn e_got]. rewrite X1. split; [reflexivity|]. split; [exact X2|]. exists buf2. auto.
    - cbn [e_out]. eapply Forall_impl; [|exact Ay]. intros s0 (R1 & R2). split; [exact R1|]. intros X. destruct (R2 X) as (a0 & R3 & R4). exists a0. split; [exact R3|blia]. }
  clear SPL. inversion PU as [OV X1 X2|OV WHY X1 X2|q' sq' acked n' OV NRP NCL TK AK X1 X2]; subst c'.
  - (* outside the window *)
    split; [split|].
    + apply (SND _ k); cbn [set_need_ack c_sq c_win c_ws c_sclosed c_recv]; auto; try congruence; first [blia | now rewrite CR | rewrite D6; exact S5].
    + apply (RCV _ ry q buf); cbn [set_need_ack c_recv c_reset]; auto; [|blia]. destruct SY as [?|(-> & HSY & W0 & Y0 & _)]; [auto|]. exfalso. destruct (SYNP HSY) as (_ & L0).
      unfold meets in OV. destruct (Z.eqb_spec ry (ry + l)); [blia|]. destruct (Z.eqb_spec ry (ry + w)); [blia|]. apply Z.ltb_ge in OV. blia.
    + apply CALM; cbn; auto.
  - (* reset *)
    split; [split|].
    + apply (SND _ k); cbn [send_rst set_rst c_sq c_win c_ws c_sclosed c_recv]; auto; try congruence; first [blia | now rewrite CR | rewrite D6; exact S5].
    + apply (RCV _ ry q buf); cbn [send_rst set_rst c_recv c_reset]; auto. blia.
    + intros (C1 & C2 & C3 & C4) _. exfalso. destruct WHY as [(X & _)|[(X & NE)|(X & IS)]].
      * rewrite D5, C3 in X. discriminate X.
      * apply NE. rewrite X in ZF. apply zfirst_all_fin in ZF; [|blia]. destruct ZF as (ZF & _). apply cut_none. right. left. unfold str_of, p1. blia.
      * apply In_nth_error in IS. destruct IS as (i & IS). apply cut_nth in IS; [|unfold p1; blia]. apply stream_nth_syn in IS. assert (p1 = 0) by blia. assert (ry = 0) as R0 by (unfold p1 in *; blia).
        rewrite R0, X in ZF. discriminate ZF.
  - (* accepted *)
    split; [split|].
    + assert (WIN : 0 <= new_win c1 (s_h s) < 2147483648).
      { unfold new_win. destruct (h_syn (s_h s)); [blia|]. apply shift_ok in D7. destruct D7 as (_ & D7). assert (send_shift0 (c_ws c1) = 0 \/ send_shift0 (c_ws c1) = 1) as [-> | ->] by blia.
        - rewrite Z.shiftl_0_r. blia.
        - rewrite Z.shiftl_mul_pow2 by blia. change (2 ^ 1) with 2. blia. }
      destruct (h_ack (s_h s) && ((k <? a) && (a <=? zlen (str_of x)))) eqn:AC.
      * destruct AK as (SQ' & TX' & SF' & _). apply andb_true_iff in AC. destruct AC as (AC1 & AC2). apply andb_true_iff in AC2. destruct AC2 as (AC2 & _). apply Z.ltb_lt in AC2.
        specialize (AR AC1). apply (SND _ a); cbn [after_push c_sq c_win c_ws c_sclosed c_recv]; auto; try congruence. blia.
      * destruct AK as (-> & _). apply (SND _ k); cbn [after_push c_sq c_win c_ws c_sclosed c_recv]; auto; try congruence. blia.
    + destruct ((p1 =? ry) && negb (rfin q)) eqn:AT.
      * apply andb_true_iff in AT. destruct AT as (P1 & NF). apply Z.eqb_eq in P1. apply negb_true_iff in NF.
        destruct TK as (sb & b & f & TE & _ & RQ' & RS' & RF' & SB). rewrite P1 in *.
        assert (TL : zlen (cut 0 ry p2 (str_of y)) = Z.max 0 (p2 - ry)) by (rewrite zlen_cut; unfold p2; blia).
        apply (RCV _ (ry + zlen (cut 0 ry p2 (str_of y))) q' (buf ++ b)); cbn [after_push c_recv c_reset]; auto.
        -- rewrite TL. unfold p2. blia.
        -- rewrite (zfirst_cut ry) by (rewrite TL; blia). rewrite TL.
           assert (cut 0 ry (ry + Z.max 0 (p2 - ry)) (str_of y) = cut 0 ry p2 (str_of y)) as ->.
           { destruct (Z.le_gt_cases ry p2); [f_equal; blia|]. rewrite !cut_none by blia. reflexivity. }
           rewrite ZF, TE, RS', RF', NF, app_assoc. destruct SY as [SY|(PR & HSY & W0 & R0 & _ & GE)].
           ++ rewrite SY. destruct sb; [specialize (SB eq_refl); congruence|]. apply syms_app.
           ++ destruct (SYNP HSY) as (PZ & L0). assert (sb = true) as ->.
              { rewrite R0 in TE. symmetry in TE. apply cut_syn_conv in TE; [|blia|unfold p2; blia]. exact TE. }
              rewrite GE. specialize (SB eq_refl). rewrite SB. reflexivity.
      * destruct TK as (-> & _). apply (RCV _ ry q buf); cbn [after_push c_recv c_reset]; auto; [|blia]. destruct SY as [?|(PR & HSY & W0 & R0 & NF & _)]; [auto|]. exfalso.
        rewrite NF in AT. cbn [negb] in AT. rewrite andb_true_r in AT. apply Z.eqb_neq in AT. apply AT. unfold p1. blia.
    + apply CALM; cbn [after_push c_reset c_need_rst c_rst_if_payload]; auto.
Qed.
End Ops.

(** * Panics *)
Lemma recv_window_len_le x : (forall q cl, c_recv (e_conn x) = Some (q, cl) -> exists irs r buf, rq_ok irs r buf q) ->
  0 <= recv_window_len (e_conn x) <= recv_window_max (c_ws (e_conn x)).
Proof.
  intros RQ. pose proof (max_nonneg (c_ws (e_conn x))). unfold recv_window_len. destruct (c_recv (e_conn x)) as [(q, cl)|] eqn:CR.
  - destruct (RQ q cl eq_refl) as (irs & r & buf & RO). rewrite (recv_window_rng _ irs r buf q cl CR RO). pose proof (wlen_bounds (e_conn x) buf (ro_small _ _ _ _ RO)). pose proof (zlen_nonneg buf).
    rewrite len_rng by lia. unfold wlen. lia.
  - unfold recv_window. rewrite CR. unfold RECV_BUF_MAX. lia.
Qed.

Section Total.
Variables (ix iy : Z) (sx sy : bool) (x y : endp).
Hypothesis (IX : is_seq ix) (IY : is_seq iy) (HX : half ix sx x y) (HY : half iy sy y x).

Lemma pop_total : (c_need_rst (e_conn x) = true -> is_configured (c_ws (e_conn x)) = true) ->
  (c_recv (e_conn x) <> None -> is_configured (c_ws (e_conn x)) = true \/ 0 < c_win (e_conn x)) -> act x y OPop <> None.
Proof using All.
  intros G1 G2. destruct HX as (k & t & r & S & RO & B & P & A & NZ). pose proof S as [S1 S2 S3 S4 S5 S6 S7 S8 S9 S10 S11].
  destruct HY as (ky & ty & ry & Sy & ROy & By & Py & Ay & NZy).
  assert (RQ : forall q cl, c_recv (e_conn x) = Some (q, cl) -> exists irs r buf, rq_ok irs r buf q).
  { intros q cl CR. destruct ROy as (_ & ROy). rewrite CR in ROy. destruct ROy as (_ & _ & buf & Q & _). eauto. }
  pose proof (recv_window_len_le x RQ) as WL.
  assert (exists o, next_segment (e_conn x) = Some o) as (o & N).
  { unfold next_segment. destruct (c_need_rst (e_conn x)).
    - rewrite (unsent_ok ix (e_wrote x) (e_shut x) k t (e_conn x) S1 S3 S4 S5). ob. eauto.
    - destruct (c_reset (e_conn x)); [eauto|].
      destruct (next_data_ok ix (e_wrote x) (e_shut x) k t (c_win (e_conn x)) (c_sq (e_conn x)) S1 S3 S4 S5 (e_conn x) eq_refl eq_refl) as (d & E & D). rewrite E. ob. destruct d as [d|].
      + ob. destruct (negb (o_syn d) && negb (is_configured (c_ws (e_conn x)))); eauto.
      + assert (exists u, match recv_window (e_conn x) with None => Some false | Some w => do s <- recv_shift (c_ws (e_conn x)); Some (negb (match c_last_adv (e_conn x) with Some x0 => x0 =? Z.shiftl (Z.shiftr (len w) s) s | None => false end)) end = Some u) as (u & ->).
        { unfold recv_window. destruct (c_recv (e_conn x)) as [(q, cl)|] eqn:CR; [|eauto]. assert (is_configured (c_ws (e_conn x)) = true) as CF.
          { destruct (is_configured (c_ws (e_conn x))) eqn:CF; [reflexivity|]. destruct G2 as [G2|G2]; [discriminate|discriminate G2|]. exfalso.
            unfold is_configured in CF. rewrite S7, S8 in CF. cbn [is_none negb] in CF. apply orb_false_iff in CF. destruct CF as (_ & CF). rewrite andb_true_r in CF. apply Z.ltb_ge in CF.
            pose proof (so_k _ _ _ _ S1) as KB. pose proof (stream_len (e_wrote x) (e_shut x)). pose proof (zlen_nonneg (e_wrote x)). destruct D as [D|D]; [|blia]. destruct (e_shut x); blia. }
          unfold recv_shift. rewrite CF. rewrite assert_true by reflexivity. ob. eauto. }
        ob. destruct (c_need_ack (e_conn x) || u); [|ob; eauto]. rewrite (unsent_ok ix (e_wrote x) (e_shut x) k t (e_conn x) S1 S3 S4 S5). ob.
        match goal with |- context [if ?b then _ else _] => destruct b end; eauto. }
  cbn [act]. unfold pop_packet. rewrite N. ob. destruct o as [o|]; [|ob; discriminate].
  destruct (next_segment_inv ix (e_wrote x) (e_shut x) k t (e_conn x) S1 S3 S4 S5 o N) as (l & L0 & L1 & L2 & RG & SY & MS & RN & R0 & RR & CF). fold (str_of x) in *.
  destruct (match c_recv (e_conn x) with Some (q, _) => (true, rend q) | None => (false, 0) end) as (af, an).
  match goal with |- (do r0 <- (do r1 <- ?u; _); _) <> None => assert (exists c1 size scale, u = Some (c1, size, scale) /\ size <= 65535 /\ c_sq c1 = c_sq (e_conn x) /\ c_need_rst c1 = c_need_rst (e_conn x)) as (c1 & size & scale & -> & SZ & C1 & C2) end.
  { destruct (o_syn o) eqn:OS.
    - assert (t = 0) as T0 by (unfold syms in SY; cbn [app] in SY; symmetry in SY; eapply cut_syn; [|exact SY]; pose proof (so_k _ _ _ _ S1); blia).
      rewrite T0 in S7. change (0 <? 0) with false in S7. assert (WR : w_recv (c_ws (e_conn x)) = None) by now apply S6.
      assert (RM : recv_window_max (c_ws (e_conn x)) = 65535) by (unfold recv_window_max, recv_shift0; rewrite WR; destruct (w_disabled (c_ws (e_conn x))); reflexivity).
      rewrite assert_true by (apply Z.leb_le; unfold U16_MAX; blia). change (if can_send_scale (c_ws (e_conn x)) then Some (scale_shift RECV_BUF_MAX) else None) with (scale_of (c_ws (e_conn x))).
      unfold sent_syn. rewrite S7. cbn [negb]. rewrite assert_true by reflexivity.
      unfold scale_of, can_send_scale. destruct (w_disabled (c_ws (e_conn x))) eqn:WD; cbn [orb negb is_none]; [|destruct (w_received (c_ws (e_conn x)) && is_none (w_send (c_ws (e_conn x)))); cbn [orb negb is_none]];
        rewrite !assert_true by (rewrite ?orb_true_r; reflexivity); ob; do 3 eexists; (split; [reflexivity|]); cbn; repeat split; blia.
    - assert (is_configured (c_ws (e_conn x)) = true) as CC by (destruct (o_rst o) eqn:OR; [apply G1; congruence|now apply CF]).
      unfold recv_shift. rewrite CC. rewrite assert_true by reflexivity. ob. do 3 eexists. split; [reflexivity|]. split; [|split; reflexivity].
      pose proof (shift_ok _ S6) as (SH & _). unfold recv_window_max in WL. assert (recv_shift0 (c_ws (e_conn x)) = 0 \/ recv_shift0 (c_ws (e_conn x)) = 1) as [E | E] by blia; rewrite E in *.
      + rewrite Z.shiftl_0_r in WL. rewrite Z.shiftr_0_r. blia.
      + rewrite Z.shiftr_div_pow2 by blia. change (Z.shiftl 65535 1) with 131070 in WL. change (2 ^ 1) with 2. apply Z.div_le_upper_bound; blia. }
  ob. rewrite assert_true by (apply Z.leb_le; unfold U16_MAX; blia). cbn [set_need_ack c_sq]. rewrite C1, RG. cbn [end_ rng]. rewrite (mark_ok ix (str_of x) k (c_sq (e_conn x)) (t + l) S1) by blia. ob.
  cbn [set_sq set_need_ack c_need_rst]. destruct (o_rst o) eqn:OR; [rewrite assert_true by congruence|]; ob; discriminate.
Qed.

Lemma push_total s : sx = sy -> In s (e_out y) -> fresh x y s -> c_reset (e_conn x) = false ->
  c_recv (e_conn x) <> None \/ h_syn (s_h s) = true \/ h_rst (s_h s) = true -> act x y (OPush s) <> None.
Proof using All.
  intros SC IN (FM & FP) NRS G. cbn [act]. unfold push_packet. rewrite NRS. cbn [negb]. rewrite assert_true by reflexivity.
  destruct HX as (k & t & r & S & RO & B & P & A & NZ). pose proof S as [S1 S2 S3 S4 S5 S6 S7 S8 S9 S10 S11].
  destruct HY as (ky & ty & ry & Sy & ROy & By & Py & Ay & NZy).
  pose proof (proj1 (Forall_forall _ _) Py s IN) as [(p & l & H1 & H2 & H3 & H4 & H5 & H6) Q2 Q3 Q4 Q5 Q6].
  pose proof (proj1 (Forall_forall _ _) A s IN) as (A1 & A2).
  destruct (h_rst (s_h s)) eqn:HR.
  { destruct (recv_window (e_conn x)) as [w|]; [destruct (h_seq (s_h s) =? start w); [ob; discriminate|destruct (contains w (h_seq (s_h s))); ob; discriminate]|ob; discriminate]. }
  assert (TB := sn_t _ _ _ _ _ Sy). assert (SPL : zlen (pkt_syms (s_h s) (s_p s)) = l) by (rewrite H5, cut_len by blia; blia).
  assert (SYNP : h_syn (s_h s) = true -> p = 0).
  { intros X. unfold pkt_syms in H5. rewrite X in H5. symmetry in H5. eapply cut_syn; [|exact H5]. exact H2. }
  assert (CFY : h_syn (s_h s) = false -> c_recv (e_conn x) <> None -> is_configured (c_ws (e_conn x)) = true).
  { intros HSY CN. destruct Q6 as [X|CFy]; [congruence|]. unfold is_configured in *. rewrite (sn_scaled _ _ _ _ _ Sy), (sn_recd _ _ _ _ _ Sy) in CFy. rewrite S9, S8, S7, SC.
    apply orb_true_iff in CFy. destruct CFy as [->|CFy]; [reflexivity|]. apply andb_true_iff in CFy. destruct CFy as (_ & CFy). apply negb_true_iff in CFy. specialize (NZ CFy).
    rewrite (proj2 (Z.ltb_lt 0 t)) by exact NZ. destruct (c_recv (e_conn x)); [|congruence]. apply orb_true_r. }
  assert (C1 : exists c1 q buf, take_syn (e_conn x) (s_h s) = Some c1 /\ c_sq c1 = c_sq (e_conn x) /\ (h_syn (s_h s) = true \/ is_configured (c_ws c1) = true) /\
     c_recv c1 = Some (q, rfin q) /\ rq_ok iy ry buf q /\ (rsyn q = true \/ p = ry /\ h_syn (s_h s) = true /\ 0 < wlen c1 buf)).
  { unfold take_syn. destruct ROy as (RB & ROy). destruct (c_recv (e_conn x)) as [(q, cl)|] eqn:CR; cbn [is_none andb].
    - destruct ROy as (-> & [X|RS] & buf & RQ & ZF); [congruence|]. exists (e_conn x), q, buf. split; [reflexivity|]. split; [reflexivity|]. split; [|auto].
      destruct (h_syn (s_h s)) eqn:HSY; [auto|]. right. apply CFY; [reflexivity|discriminate].
    - destruct ROy as (-> & _). assert (h_syn (s_h s) = true) as HSY by (destruct G as [G|[G|G]]; congruence). rewrite HSY. specialize (SYNP HSY). subst p. rewrite H1, (pos_0 iy IY).
      unfold received_syn. rewrite S8. cbn [is_none negb]. rewrite assert_true by reflexivity. ob. eexists _, (rq_new iy), []. split; [reflexivity|]. split; [reflexivity|]. split; [auto|].
      cbn [c_recv set_ws set_recv]. split; [reflexivity|]. split; [now apply rq_new_ok|]. right. split; [reflexivity|]. split; [reflexivity|].
      unfold wlen. cbn [c_ws set_ws]. change (zlen (@nil Z)) with 0. match goal with |- context [recv_window_max ?u] => assert (ws_ok u) as WK end.
      { split; [apply S6|]. split; [|split; [apply S6|discriminate]]. cbn. destruct Q4 as [-> | ->]; [auto|]. change (14 <? 1) with false. auto. }
      pose proof (wmax_pos _ WK). blia. }
  destruct C1 as (c1 & q & buf & -> & D1 & CF & CR & RQ & SYq). ob.
  assert (exists a, h_acknum (s_h s) = pos ix a /\ zlen (str_of x) + 1 - 4294967296 <= a < k + 1 + 4294967296) as (a & HA & AB).
  { pose proof (stream_len (e_wrote x) (e_shut x)) as SL. fold (str_of x) in SL. pose proof (so_small _ _ _ _ S1) as SM. destruct (h_ack (s_h s)).
    - destruct (A2 eq_refl) as (a & HA & AB). exists a. split; [exact HA|]. destruct (e_shut x); blia.
    - destruct (pos_near ix k _ Q5) as (a & HA & AB). exists a. split; [exact HA|blia]. }
  pose proof (ro_small _ _ _ _ RQ) as BS. pose proof (wlen_bounds c1 buf BS) as WB. pose proof (zlen_nonneg buf) as BN. pose proof (so_small _ _ _ _ (sn_sq _ _ _ _ _ Sy)) as SMy.
  assert (SQ1 : sq_ok ix (str_of x) k (c_sq c1)) by now rewrite D1.
  assert (PSP : p + l - ry < 4294967296 /\ ry + 100000 - p < 4294967296).
  { pose proof (stream_len (e_wrote y) (e_shut y)) as SL. fold (str_of y) in SL. destruct ROy as (RB & _). destruct (e_shut y); blia. }
  destruct (push_segment_ok c1 (s_h s) (s_p s) ix (str_of x) k iy ry buf q p a CR RQ SQ1 H1 HA AB) as [(X1 & X2 & X3)|(c0 & n0 & E & PU)];
    [rewrite SPL; blia|rewrite SPL; apply PSP|apply PSP|exact SYq|destruct CF; congruence|]. rewrite E. ob. discriminate.
Qed.
End Total.

(** * All histories *)
Lemma start_half ix sx x iy sy y : is_seq ix -> started x ix sx -> started y iy sy -> half ix sx x y.
Proof.
  intros IX (l & rm & E & W & SH & G & O) (l' & rm' & E' & _ & _ & G' & O'). unfold conn_new in *. destruct (sq_new_ok ix IX) as (q & Q & SQ & TX & SF). rewrite Q in E. ob_in E.
  destruct (if sx then Some ws_new else ws_disable ws_new) as [w|] eqn:WE; [|discriminate E]. ob_in E. injection E as E.
  assert (CR' : c_recv (e_conn y) = None).
  { destruct (sq_new iy) as [q'|]; [|discriminate E']. ob_in E'. destruct (if sy then Some ws_new else ws_disable ws_new) as [w'|]; [|discriminate E']. ob_in E'. injection E' as <-. reflexivity. }
  assert (ST : str_of x = [SSyn]) by (unfold str_of; rewrite W, SH; reflexivity).
  exists 0, 0, 0. rewrite O, O', CR'. split; [|split; [|split; [lia|split; [constructor|split; [constructor|discriminate]]]]].
  - constructor; rewrite ?ST, <- ?E; cbn [c_sq c_win c_ws c_recv c_sclosed is_none negb]; auto; try congruence.
    + unfold zlen; cbn [length]; lia.
    + lia.
    + destruct sx; [injection WE as <-|]; [repeat split; cbn; auto|]. unfold ws_disable in WE. cbn [ws_new w_sent negb] in WE. rewrite assert_true in WE by reflexivity. injection WE as <-. repeat split; cbn; auto.
    + destruct sx; [injection WE as <-; reflexivity|]. unfold ws_disable in WE. cbn [ws_new w_sent negb] in WE. rewrite assert_true in WE by reflexivity. injection WE as <-. reflexivity.
    + destruct sx; [injection WE as <-; reflexivity|]. unfold ws_disable in WE. cbn [ws_new w_sent negb] in WE. rewrite assert_true in WE by reflexivity. injection WE as <-. reflexivity.
    + destruct sx; [injection WE as <-; reflexivity|]. unfold ws_disable in WE. cbn [ws_new w_sent negb] in WE. rewrite assert_true in WE by reflexivity. injection WE as <-. reflexivity.
    + rewrite SH. unfold zlen; cbn [length b2z]; lia.
  - unfold rcv_ok. rewrite CR', ST. split; [unfold zlen; cbn [length]; lia|auto].
Qed.
Lemma start_calm x i s : started x i s -> calm x.
Proof.
  intros (l & rm & E & _ & _ & _ & O). unfold conn_new in E. destruct (sq_new i) as [q|]; [|discriminate E]. ob_in E. destruct (if s then Some ws_new else ws_disable ws_new) as [w|]; [|discriminate E]. ob_in E.
  injection E as E. unfold calm. rewrite O, <- E. cbn. auto.
Qed.

Lemma act_ok ix iy sx sy x y o x' : is_seq ix -> is_seq iy -> half ix sx x y -> half iy sy y x -> allowed x y o -> act x y o = Some x' ->
  half ix sx x' y /\ half iy sy y x' /\ (rude o = false -> calm x -> calm y -> calm x').
Proof.
  intros IX IY HX HY AL E.
  assert (D : forall P, (exists x0, act x y o = Some x0 /\ P x0) -> P x') by (intros P (x0 & E0 & H); congruence).
  enough (keeps ix iy sx sy y x' /\ (rude o = false -> calmly x y x')) as ((K1 & K2) & C) by auto.
  destruct o as [d| |n| |s| |].
  - apply D. destruct (write_ok ix iy sx sy x y IX IY HX HY d AL) as (x0 & ? & ? & ?). exists x0. auto.
  - apply D. destruct (shut_ok ix iy sx sy x y IX IY HX HY AL) as (x0 & ? & ? & ?). exists x0. auto.
  - apply D. assert (c_recv (e_conn x) <> None) as NR by (intros X; cbn [act] in E; unfold conn_recv in E; rewrite X in E; discriminate E).
    destruct (read_ok ix iy sx sy x y IX IY HX HY n AL NR) as (x0 & ? & ? & ?). exists x0. auto.
  - destruct (pop_ok ix iy sx sy x y IX IY HX HY x' E). auto.
  - destruct AL as (IN & FR). destruct (push_ok ix iy sx sy x y IX IY HX HY s x' IN FR E). auto.
  - cbn [act] in E. injection E as <-. split; [|discriminate]. split; [eapply half_snd_irrel; [..|exact HX]; reflexivity|eapply half_rcv_irrel; [..|exact HY]; try reflexivity; cbn; auto].
  - cbn [act] in E. injection E as <-. split; [|discriminate]. split; [eapply half_snd_irrel; [..|exact HX]; reflexivity|eapply half_rcv_irrel; [..|exact HY]; try reflexivity; cbn; auto].
Qed.

Lemma history_ok ix iy sx sy b x y : is_seq ix -> is_seq iy -> history ix iy sx sy b x y -> half ix sx x y /\ half iy sy y x /\ (b = false -> calm x /\ calm y).
Proof.
  intros IX IY H. induction H as [x y SX SY|b x y o x' H (H1 & H2 & H3) AL E|b x y o y' H (H1 & H2 & H3) AL E].
  - split; [eapply start_half; eauto|]. split; [eapply start_half; eauto|]. intros _. split; eapply start_calm; eauto.
  - destruct (act_ok ix iy sx sy x y o x' IX IY H1 H2 AL E) as (K1 & K2 & K3). split; [exact K1|]. split; [exact K2|]. intros X. apply orb_false_iff in X. destruct X as (X1 & X2).
    destruct (H3 X1). auto.
  - destruct (act_ok iy ix sy sx y x o y' IY IX H2 H1 AL E) as (K1 & K2 & K3). split; [exact K2|]. split; [exact K1|]. intros X. apply orb_false_iff in X. destruct X as (X1 & X2).
    destruct (H3 X1). auto.
Qed.
Lemma history_swap ix iy sx sy b x y : history ix iy sx sy b x y -> history iy ix sy sx b y x.
Proof. intros H. induction H; [now constructor|now eapply HRight; eauto|now eapply HLeft; eauto]. Qed.

(** The bytes received so far are a prefix of the bytes written. *)
Lemma syms_prefix r w s syn bytes fin : 0 <= r <= zlen (stream w s) -> zfirst r (stream w s) = syms syn bytes fin -> exists rest, w = bytes ++ rest /\ (fin = true -> s = true /\ rest = []) /\ (r = zlen (stream w s) -> rest = [] /\ fin = s).
Proof.
  intros R E. unfold stream in E. destruct (Z.eq_dec r 0) as [->|N].
  { change (zfirst 0 (SSyn :: map SByte w ++ (if s then [SFin] else []))) with (@nil sym) in E. apply (f_equal zlen) in E. rewrite syms_len in E. pose proof (zlen_nonneg bytes). change (zlen (@nil sym)) with 0 in E.
    destruct syn, fin; cbn [b2z] in E; try lia. assert (bytes = []) as -> by (apply zlen_0; lia). exists w. split; [reflexivity|]. split; [discriminate|]. rewrite stream_len. pose proof (zlen_nonneg w). destruct s; lia. }
  unfold zfirst in E. replace (Z.to_nat r) with (S (Z.to_nat (r - 1))) in E by lia. cbn [firstn] in E.
  destruct syn; [|unfold syms in E; cbn [app] in E; destruct bytes; cbn in E; [destruct fin|]; discriminate E]. unfold syms in E. cbn [app] in E. injection E as E.
  rewrite stream_len in *. rewrite firstn_app in E. rewrite map_length in E. rewrite firstn_map in E.
  set (n := Z.to_nat (r - 1)) in *. assert (LN : Z.of_nat n = r - 1) by lia. clearbody n.
  assert (G : forall l1 l2 (f1 f2 : list sym), map SByte l1 ++ f1 = map SByte l2 ++ f2 -> (f1 = [] \/ f1 = [SFin]) -> (f2 = [] \/ f2 = [SFin]) -> l1 = l2 /\ f1 = f2).
  { clear. induction l1 as [|a l1 IH]; intros [|b l2] f1 f2 X F1 F2; cbn in X.
    - auto.
    - destruct F1 as [-> | ->]; discriminate X.
    - destruct F2 as [-> | ->]; discriminate X.
    - injection X as -> X. destruct (IH _ _ _ X F1 F2) as (-> & ->). auto. }
  assert (F1 : firstn (n - length w) (if s then [SFin] else []) = [] \/ firstn (n - length w) (if s then [SFin] else []) = [SFin]) by (destruct s; [destruct (n - length w)%nat; cbn; [auto|rewrite firstn_nil; auto]|rewrite firstn_nil; auto]).
  destruct (G _ _ _ _ E F1) as (E1 & E2); [destruct fin; auto|]. exists (skipn n w). rewrite <- E1, firstn_skipn. split; [reflexivity|]. split.
  - intros ->. destruct s; [|rewrite firstn_nil in E2; discriminate E2]. split; [reflexivity|]. destruct (n - length w)%nat eqn:D; [discriminate E2|]. apply skipn_all2. lia.
  - intros RE. unfold zlen in RE. destruct s.
    + split; [apply skipn_all2; lia|]. replace (n - length w)%nat with 1%nat in E2 by lia. cbn in E2. destruct fin; [reflexivity|discriminate E2].
    + split; [apply skipn_all2; lia|]. rewrite firstn_nil in E2. destruct fin; [discriminate E2|reflexivity].
Qed.

Lemma half_prefix iss sc x y : half iss sc x y -> exists rest, e_wrote x = e_got y ++ rest.
Proof.
  intros (k & t & r & S & (RB & RO) & _). destruct (c_recv (e_conn y)) as [(q, cl)|].
  - destruct RO as (_ & _ & buf & RQ & ZF). destruct (syms_prefix _ _ _ _ _ _ RB ZF) as (rest & E & _). exists (buf ++ rest). rewrite E, <- app_assoc. reflexivity.
  - destruct RO as (_ & ->). exists (e_wrote x). reflexivity.
Qed.
Lemma half_fin iss sc x y : half iss sc x y -> received_fin (e_conn y) = true -> e_shut x = true /\ (recv_has_data (e_conn y) = false -> e_got y = e_wrote x).
Proof.
  intros (k & t & r & S & (RB & RO) & _) RF. unfold received_fin, recv_has_data in *. destruct (c_recv (e_conn y)) as [(q, cl)|]; [|discriminate RF]. subst cl.
  destruct RO as (RF' & _ & buf & RQ & ZF). rewrite <- RF' in ZF. destruct (syms_prefix _ _ _ _ _ _ RB ZF) as (rest & E & F & _). destruct (F eq_refl) as (-> & ->). split; [reflexivity|].
  unfold rq_is_empty. rewrite (rq_len_ok _ _ _ _ RQ). intros X. apply negb_false_iff, Z.eqb_eq, zlen_0 in X. subst buf. rewrite E, !app_nil_r. reflexivity.
Qed.
Lemma half_acked iss sc x y : half iss sc x y -> fin_was_acked (e_conn x) = true -> received_fin (e_conn y) = true.
Proof.
  intros (k & t & r & S & (RB & RO) & B & _) FA. unfold fin_was_acked in FA. apply andb_true_iff in FA. destruct FA as (SC & FA). apply Z.eqb_eq in FA.
  pose proof S as [S1 S2 S3 S4 S5 S6 S7 S8 S9 S10 S11]. pose proof S1 as [K SM ST EN FL PO UN]. rewrite ST, EN in FA. apply pos_inj in FA; [|lia]. rewrite S10 in SC.
  unfold received_fin. assert (R : r = zlen (str_of x)) by lia. destruct (c_recv (e_conn y)) as [(q, cl)|].
  - destruct RO as (-> & _ & buf & RQ & ZF). destruct (syms_prefix _ _ _ _ _ _ RB ZF) as (rest & E & _ & F). destruct (F R) as (_ & ->). exact SC.
  - destruct RO as (R0 & _). unfold str_of in R. rewrite stream_len in R. pose proof (zlen_nonneg (e_wrote x)). destruct (e_shut x); lia.
Qed.

(** In streams shorter than the sequence space every packet is fresh. *)
Lemma short_fresh ix iy sx sy b x y s : is_seq ix -> is_seq iy -> history ix iy sx sy b x y -> In s (e_out y) ->
  zlen (e_wrote x) <= 4294967296 - 300000 -> zlen (e_wrote y) <= 4294967296 - 300000 -> fresh x y s.
Proof.
  intros IX IY H IN LX LY. destruct (history_ok _ _ _ _ _ _ _ IX IY H) as ((k & t & r & _ & _ & _ & _ & A & _) & (ky & ty & ry & _ & _ & _ & P & _) & _).
  pose proof (proj1 (Forall_forall _ _) P s IN) as [_ Q2 _ _ _ _]. pose proof (proj1 (Forall_forall _ _) A s IN) as (A1 & _). unfold fresh. lia.
Qed.

(** * Runs are histories *)
Lemma op_allowed x y c o : op_of y c = Some o -> allowedb x y o = true -> allowed x y o.
Proof.
  destruct c; cbn; intros E A; try (injection E as <-; cbn in *; auto; fail).
  - injection E as <-. cbn in *. now apply negb_true_iff in A.
  - injection E as <-. cbn in *. now apply negb_true_iff in A.
  - injection E as <-. cbn in *. lia.
  - destruct (nth_error (e_out y) i) as [s|] eqn:N; [|discriminate E]. ob_in E. injection E as <-. cbn in *. split; [eapply nth_error_In; eauto|]. unfold fresh. lia.
Qed.
Lemma exec_history ix iy sx sy : forall l b x y b' x' y', history ix iy sx sy b x y -> exec b x y l = Some (b', x', y') -> history ix iy sx sy b' x' y'.
Proof.
  induction l as [|(sd, c) l IH]; [|destruct sd]; intros b x y b' x' y' H E; cbn [exec] in E.
  - injection E as <- <- <-. exact H.
  - destruct (op_of y c) as [o|] eqn:O; [|discriminate E]. ob_in E. destruct (allowedb x y o) eqn:A; [|discriminate E]. rewrite assert_true in E by reflexivity.
    destruct (act x y o) as [x1|] eqn:AC; [|discriminate E]. ob_in E. eapply IH; [|exact E]. eapply HLeft; eauto. eapply op_allowed; eauto.
  - destruct (op_of x c) as [o|] eqn:O; [|discriminate E]. ob_in E. destruct (allowedb y x o) eqn:A; [|discriminate E]. rewrite assert_true in E by reflexivity.
    destruct (act y x o) as [y1|] eqn:AC; [|discriminate E]. ob_in E. eapply IH; [|exact E]. eapply HRight; eauto. eapply op_allowed; eauto.
Qed.
Lemma run_history ix iy sx sy l b x y : run ix iy sx sy l = Some (b, x, y) -> history ix iy sx sy b x y.
Proof.
  unfold run, start_of. intros E. destruct (conn_new 1 2 ix sx) as [cx|] eqn:CX; [|discriminate E]. ob_in E. destruct (conn_new 2 1 iy sy) as [cy|] eqn:CY; [|discriminate E]. ob_in E.
  eapply exec_history; [|exact E]. apply HStart; [exists 1, 2|exists 2, 1]; cbn; auto.
Qed.

(** * The property *)
Lemma prefix_main ix iy sx sy b x y : is_seq ix -> is_seq iy -> history ix iy sx sy b x y ->
  (exists rest, e_wrote x = e_got y ++ rest) /\ (exists rest, e_wrote y = e_got x ++ rest).
Proof. intros IX IY H. destruct (history_ok _ _ _ _ _ _ _ IX IY H) as (H1 & H2 & _). split; eapply half_prefix; eauto. Qed.
Lemma fin_main ix iy sx sy b x y : is_seq ix -> is_seq iy -> history ix iy sx sy b x y -> received_fin (e_conn y) = true ->
  e_shut x = true /\ (recv_has_data (e_conn y) = false -> e_got y = e_wrote x).
Proof. intros IX IY H. destruct (history_ok _ _ _ _ _ _ _ IX IY H) as (H1 & H2 & _). eapply half_fin; eauto. Qed.
Lemma acked_main ix iy sx sy b x y : is_seq ix -> is_seq iy -> history ix iy sx sy b x y -> fin_was_acked (e_conn x) = true -> received_fin (e_conn y) = true.
Proof. intros IX IY H. destruct (history_ok _ _ _ _ _ _ _ IX IY H) as (H1 & H2 & _). eapply half_acked; eauto. Qed.
Lemma no_reset_main ix iy sx sy x y : is_seq ix -> is_seq iy -> history ix iy sx sy false x y -> c_reset (e_conn x) = false /\ forall s, In s (e_out x) -> h_rst (s_h s) = false.
Proof.
  intros IX IY H. destruct (history_ok _ _ _ _ _ _ _ IX IY H) as (_ & _ & C). destruct (C eq_refl) as ((C1 & _ & _ & C4) & _). split; [exact C1|]. now apply Forall_forall.
Qed.
Lemma no_panic_main ix iy s b x y o : is_seq ix -> is_seq iy -> history ix iy s s b x y -> allowed x y o ->
  match o with
  | ORead _ => c_recv (e_conn x) <> None
  | OPop => (c_need_rst (e_conn x) = true -> is_configured (c_ws (e_conn x)) = true) /\ (c_recv (e_conn x) <> None -> is_configured (c_ws (e_conn x)) = true \/ 0 < c_win (e_conn x))
  | OPush s => c_reset (e_conn x) = false /\ (c_recv (e_conn x) <> None \/ h_syn (s_h s) = true \/ h_rst (s_h s) = true)
  | _ => True
  end -> act x y o <> None.
Proof.
  intros IX IY H AL G. destruct (history_ok _ _ _ _ _ _ _ IX IY H) as (HX & HY & _).
  assert (D : forall P, (exists x0, act x y o = Some x0 /\ P x0) -> act x y o <> None) by (intros P (x0 & E0 & _); congruence).
  destruct o as [d| |n| |s0| |].
  - eapply D, (write_ok ix iy s s x y); eauto.
  - eapply D, (shut_ok ix iy s s x y); eauto.
  - eapply D, (read_ok ix iy s s x y); eauto.
  - destruct G. eapply (pop_total ix iy); eauto.
  - destruct AL, G. eapply (push_total ix iy); eauto.
  - discriminate.
  - discriminate.
Qed.
(** For the examples: a computed run and what holds of its end. *)
Lemma run_case ix iy sx sy l (b : bool) (P : endp -> endp -> Prop) :
  match run ix iy sx sy l with Some (b', x, y) => b' = b /\ P x y | None => False end -> exists x y, history ix iy sx sy b x y /\ P x y.
Proof. destruct (run ix iy sx sy l) as [((b', x), y)|] eqn:E; [|easy]. intros (-> & H). exists x, y. split; [exact (run_history _ _ _ _ _ _ _ _ E)|exact H]. Qed.
Lemma run_push_case ix iy sx sy l (b : bool) i (P : endp -> endp -> Prop) :
  match run ix iy sx sy l with
  | Some (b', x, y) => b' = b /\ P x y /\ match nth_error (e_out y) i with Some s => allowedb x y (OPush s) = true /\ act x y (OPush s) = None | None => False end
  | None => False
  end -> exists x y s, history ix iy sx sy b x y /\ allowed x y (OPush s) /\ P x y /\ act x y (OPush s) = None.
Proof.
  destruct (run ix iy sx sy l) as [((b', x), y)|] eqn:E; [|easy]. intros (-> & H & K). destruct (nth_error (e_out y) i) as [s|] eqn:N; [|easy]. destruct K as (K1 & K2).
  exists x, y, s. split; [exact (run_history _ _ _ _ _ _ _ _ E)|]. split; [|auto]. apply (op_allowed x y (CPush i)); [cbn [op_of]; rewrite N; reflexivity|exact K1].
Qed.
