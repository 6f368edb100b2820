From Verif Require Import Base SeqModel SeqSpec SeqProofs TcpBufModel TcpBufSpec TcpBufProofs TcpQueueProofs TcpConnModel TcpConnSpec TcpConnProofs TcpNetProofs TcpSoloSpec.

(** * Packets that arrived *)
Lemma find_app {A} (f : A -> bool) l m : find f (l ++ m) = match find f l with Some x => Some x | None => find f m end.
Proof. induction l as [|a l IH]; cbn; [reflexivity|]. destruct (f a); [reflexivity|exact IH]. Qed.
Lemma opening_app l m : opening l <> None -> opening (l ++ m) = opening l.
Proof. unfold opening. rewrite find_app. destruct (find _ l) as [(h, p)|]; [reflexivity|congruence]. Qed.
Lemma opening_snoc l h p : opening (l ++ [(h, p)]) = match opening l with Some x => Some x | None => if h_syn h && negb (h_rst h) then Some h else None end.
Proof. unfold opening. rewrite find_app. destruct (find _ l) as [(x, y)|]; [reflexivity|]. cbn. destruct (h_syn h && negb (h_rst h)); reflexivity. Qed.
Lemma offered_snoc l h p : offered (l ++ [(h, p)]) = match opening l with Some _ => offered l | None => if h_syn h && negb (h_rst h) then match h_scale h with Some s => Some (Z.min 14 s) | None => None end else None end.
Proof. unfold offered. rewrite opening_snoc. destruct (opening l); [reflexivity|]. destruct (h_syn h && negb (h_rst h)); reflexivity. Qed.
Lemma offered_app l m : opening l <> None -> offered (l ++ m) = offered l.
Proof. intros O. unfold offered. now rewrite opening_app. Qed.
Lemma grant_app sc l m h : h_syn h = true \/ opening l <> None -> grant sc (l ++ m) h = grant sc l h.
Proof. intros [S|O]; unfold grant; [now rewrite S|]. now rewrite offered_app. Qed.

Definition placed (irs : Z) (l : list (header * payload)) (bytes : list Z) (fin : bool) : Prop := forall i b, nth_error (syms false bytes fin) i = Some b ->
  exists h p j, In (h, p) l /\ nth_error (pkt_syms h p) j = Some b /\ (h_seq h + Z.of_nat j) mod 4294967296 = pos irs (1 + Z.of_nat i).
Lemma placed_in irs l m bytes fin : placed irs l bytes fin -> placed irs (l ++ m) bytes fin.
Proof. intros P i b E. destruct (P i b E) as (h & p & j & I & R). exists h, p, j. rewrite in_app_iff. auto. Qed.
Lemma nth_cut {A} s a b (l : list A) i v : s <= a -> nth_error (cut s a b l) i = Some v -> nth_error l (Z.to_nat (a - s) + i) = Some v.
Proof.
  intros P E. unfold cut in E.
  assert (G : forall n (m : list A) j, nth_error (skipn n m) j = nth_error m (n + j)) by (induction n; intros [|x m] j; cbn; auto; now destruct j).
  rewrite G in E. rewrite <- (firstn_skipn (Z.to_nat (b - s)) l). rewrite nth_error_app1; [exact E|]. apply nth_error_Some. congruence.
Qed.
Lemma nth_syms s b f i v : nth_error (syms false b f) i = Some v -> nth_error (syms s b f) ((if s then 1 else 0) + i) = Some v.
Proof. unfold syms. destruct s; cbn [app Nat.add nth_error]; auto. Qed.

Lemma syms_cat a b f : syms false (a ++ b) f = map SByte a ++ syms false b f.
Proof. unfold syms. cbn [app]. now rewrite map_app, app_assoc. Qed.

(** * The invariant *)
Record ws_x (sc : bool) (op : option header) (off : option Z) (w : scaling) : Prop := {
  x_dis : w_disabled w = negb sc;
  x_recd : w_received w = negb (is_none op);
  x_send : w_send w = off;
  x_recv : w_recv w = None \/ w_recv w = Some 1;
  x_unsent : w_sent w = false -> w_recv w = None;
  x_off : sc = false -> w_recv w = None;
  x_sent : w_sent w = true -> sc = true -> w_recv w = Some 1 \/ op <> None /\ off = None;
  x_b : forall s, off = Some s -> 0 <= s <= 14 }.
Record zok (iss : Z) (sc : bool) (x : solo) (k r : Z) (buf : list Z) : Prop := {
  z_sq : sq_ok iss (stream (o_wrote x) (o_shut x)) k (c_sq (o_conn x));
  z_fin : sfin (c_sq (o_conn x)) = o_shut x;
  z_closed : c_sclosed (o_conn x) = o_shut x;
  z_small : zlen (stream (o_wrote x) (o_shut x)) - k <= 100000 + b2z (o_shut x);
  z_tx : is_seq (tx (c_sq (o_conn x)));
  z_k0 : k = 0 -> exists t, tx (c_sq (o_conn x)) = pos iss t /\ 0 <= t <= zlen (stream (o_wrote x) (o_shut x)) /\ w_sent (c_ws (o_conn x)) = (0 <? t);
  z_acked : c_syn_acked (o_conn x) = (0 <? k);
  z_k : k = 0 \/ exists h p, In (h, p) (o_in x) /\ h_ack h = true /\ h_acknum h = pos iss k;
  z_win : c_win (o_conn x) = 2048 \/ exists h p, In (h, p) (o_in x) /\ c_win (o_conn x) = grant sc (o_in x) h /\ (h_syn h = true \/ opening (o_in x) <> None);
  z_winb : 0 <= c_win (o_conn x) < 2147483648;
  z_ws : ws_x sc (opening (o_in x)) (offered (o_in x)) (c_ws (o_conn x));
  z_spoke : w_sent (c_ws (o_conn x)) = true <-> spoke x;
  z_rcv : match c_recv (o_conn x) with
          | None => opening (o_in x) = None /\ o_got x = [] /\ o_taken x = 0 /\ r = 0 /\ buf = []
          | Some (q, cl) => exists h0, opening (o_in x) = Some h0 /\ cl = rfin q /\ (c_reset (o_conn x) = true \/ rsyn q = true) /\ rq_ok (h_seq h0) r buf q /\
              o_taken x = zlen (o_got x) + zlen buf /\ r = b2z (rsyn q) + o_taken x + b2z (rfin q) /\ placed (h_seq h0) (o_in x) (o_got x ++ buf) (rfin q)
          end }.

Lemma x_shifts sc op off w : ws_x sc op off w -> is_configured w = true ->
  send_shift0 w = (if sc then match off with Some s => s | None => 0 end else 0) /\
  recv_shift0 w = (if sc then match off with Some _ => 1 | None => 0 end else 0).
Proof.
  intros [D R S RC U O ST B] C. unfold is_configured in C. unfold send_shift0, recv_shift0. rewrite D, S in *. destruct sc; cbn [negb] in *; [|auto].
  cbn [orb] in C. apply andb_true_iff in C. destruct C as (C & _). destruct (ST C eq_refl) as [-> |(_ & ->)].
  - destruct off; auto.
  - destruct (w_recv w); auto.
Qed.
Lemma x_rshift sc op off w : ws_x sc op off w -> recv_shift0 w = 0 \/ recv_shift0 w = 1.
Proof. intros [D R S RC U O ST B]. unfold recv_shift0. destruct (w_disabled w); [auto|]. destruct RC as [-> | ->]; [auto|]. destruct (w_send w); auto. Qed.
Lemma x_sshift sc op off w : ws_x sc op off w -> 0 <= send_shift0 w <= 14.
Proof.
  intros [D R S RC U O ST B]. unfold send_shift0. destruct (w_disabled w); [lia|]. rewrite S. destruct off as [s|]; [|lia]. specialize (B s eq_refl). destruct (w_recv w); lia.
Qed.
Lemma x_wmax sc op off w : ws_x sc op off w -> 65535 <= recv_window_max w <= 131070.
Proof. intros W. apply x_rshift in W. unfold recv_window_max. destruct W as [-> | ->]; cbn; lia. Qed.
Lemma x_conf sc op off w : ws_x sc op off w -> is_configured w = negb sc || (w_sent w && negb (is_none op)).
Proof. intros [D R S RC U O ST B]. unfold is_configured. now rewrite D, R. Qed.

Lemma pos_from i c s : is_seq s -> exists p, s = pos i p /\ c <= p < c + 4294967296.
Proof. intros S. destruct (pos_near i (c + 2147483648) s S) as (p & E & B). exists p. split; [exact E|lia]. Qed.

(** * Popping with any transmit mark *)
Definition retx (c : conn) (t : Z) : conn := set_sq c (set_tx (c_sq c) t).
Lemma retx_id c : retx c (tx (c_sq c)) = c.
Proof. unfold retx, set_sq, set_tx. destruct c as [? ? []]. reflexivity. Qed.
Lemma sq_none iss str k q t : sq_ok iss str k q -> tx q = pos iss t -> zlen str <= t < k + 4294967296 -> next_not_transmitted q 0 = Some None.
Proof.
  intros OK T B. unfold next_not_transmitted. rewrite T, pos_add, Z.add_0_r. pose proof (so_k _ _ _ _ OK). rewrite (sq_contains_pos iss str k) by (assumption || lia).
  rewrite (proj2 (Z.ltb_ge t (zlen str))) by lia. rewrite andb_false_r. reflexivity.
Qed.
Lemma pop_retx iss str k c t : sq_ok iss str k (c_sq c) -> tx (c_sq c) = pos iss t -> zlen str <= t < k + 4294967296 ->
  next_segment (retx c (pos iss (zlen str))) = next_segment c /\
  pop_packet c = match pop_packet (retx c (pos iss (zlen str))) with Some (_, None) => Some (c, None) | u => u end.
Proof.
  intros OK T B. pose proof (so_k _ _ _ _ OK) as K. pose proof (so_small _ _ _ _ OK) as SM.
  assert (N1 : next_not_transmitted (c_sq c) 0 = Some None) by (eapply sq_none; eauto).
  assert (N2 : next_not_transmitted (c_sq (retx c (pos iss (zlen str)))) 0 = Some None).
  { eapply (sq_none iss str k _ (zlen str)); [apply sq_ok_tx, OK|reflexivity|lia]. }
  assert (D1 : next_data_segment c = Some None).
  { unfold next_data_segment. cbn [data_loop a_len acc0]. rewrite N1. ob. reflexivity. }
  assert (D2 : next_data_segment (retx c (pos iss (zlen str))) = Some None).
  { unfold next_data_segment. cbn [data_loop a_len acc0]. rewrite N2. ob. reflexivity. }
  assert (NS : next_segment (retx c (pos iss (zlen str))) = next_segment c).
  { unfold next_segment. rewrite D1, D2. unfold unsent_seq. rewrite N1, N2. reflexivity. }
  split; [exact NS|]. unfold pop_packet. rewrite NS. destruct (next_segment c) as [[o|]|]; [|reflexivity|reflexivity].
  ob. set (u := match c_recv (retx c _) with Some _ => _ | None => _ end). change (match c_recv c with Some (q, _) => (true, rend q) | None => (false, 0) end) with u. destruct u as (af, an).
  change (recv_window_len (retx c (pos iss (zlen str)))) with (recv_window_len c). change (c_ws (retx c (pos iss (zlen str)))) with (c_ws c).
  destruct (o_syn o).
  - destruct (recv_window_len c <=? U16_MAX); [rewrite !assert_true by reflexivity|reflexivity].
    destruct (sent_syn (c_ws c) _) as [w|]; [ob|reflexivity].
    destruct (recv_window_len c <=? U16_MAX); [rewrite !assert_true by reflexivity|reflexivity].
    unfold mark_as_transmitted. cbn [retx set_sq set_need_ack set_last_adv set_ws c_sq].
    change (sq_contains (set_tx (c_sq c) (pos iss (zlen str))) (end_ (o_range o))) with (sq_contains (c_sq c) (end_ (o_range o))). change (send_ (set_tx (c_sq c) (pos iss (zlen str)))) with (send_ (c_sq c)).
    destruct (sq_contains (c_sq c) (end_ (o_range o)) || (end_ (o_range o) =? send_ (c_sq c))); [rewrite !assert_true by reflexivity|reflexivity]. ob.
    destruct (o_rst o); [|reflexivity]. cbn. destruct (c_need_rst c); reflexivity.
  - destruct (recv_shift (c_ws c)) as [s|]; [ob|reflexivity]. destruct (Z.shiftr (recv_window_len c) s <=? U16_MAX); [rewrite !assert_true by reflexivity|reflexivity].
    unfold mark_as_transmitted. cbn [retx set_sq set_need_ack set_last_adv set_ws c_sq].
    change (sq_contains (set_tx (c_sq c) (pos iss (zlen str))) (end_ (o_range o))) with (sq_contains (c_sq c) (end_ (o_range o))). change (send_ (set_tx (c_sq c) (pos iss (zlen str)))) with (send_ (c_sq c)).
    destruct (sq_contains (c_sq c) (end_ (o_range o)) || (end_ (o_range o) =? send_ (c_sq c))); [rewrite !assert_true by reflexivity|reflexivity]. ob.
    destruct (o_rst o); [|reflexivity]. cbn. destruct (c_need_rst c); reflexivity.
Qed.
Lemma pop_none c c' : pop_packet c = Some (c', None) -> c' = c.
Proof.
  unfold pop_packet. destruct (next_segment c) as [[o|]|]; ob; [|congruence|discriminate]. destruct (match c_recv c with Some (q, _) => (true, rend q) | None => (false, 0) end) as (af, an).
  match goal with |- (do r <- ?u; _) = _ -> _ => destruct u as [((c1, size), scale)|]; [ob|discriminate] end.
  destruct (size <=? U16_MAX); [rewrite assert_true by reflexivity|discriminate]. cbv zeta. destruct (mark_as_transmitted _ _); [ob|discriminate].
  match goal with |- (do r <- ?u; _) = _ -> _ => destruct u; [ob|discriminate] end. discriminate.
Qed.
(** Whatever the transmit mark is, the connection behaves as if it were at a position [t] of the
    queue. *)
Lemma pop_any iss str k c : sq_ok iss str k (c_sq c) -> is_seq (tx (c_sq c)) -> exists t, k <= t <= zlen str /\
  next_segment (retx c (pos iss t)) = next_segment c /\
  pop_packet c = match pop_packet (retx c (pos iss t)) with Some (_, None) => Some (c, None) | u => u end /\
  (forall t0, tx (c_sq c) = pos iss t0 -> k <= t0 <= zlen str -> t = t0).
Proof.
  intros OK T. pose proof (so_k _ _ _ _ OK) as K. pose proof (so_small _ _ _ _ OK) as SM. destruct (pos_from iss k _ T) as (t & E & B). destruct (Z.le_gt_cases t (zlen str)) as [L|G].
  - exists t. rewrite <- E, retx_id. split; [lia|]. split; [reflexivity|]. split.
    + destruct (pop_packet c) as [(c', [o|])|] eqn:P; auto. now rewrite (pop_none c c' P).
    + intros t0 E0 B0. rewrite E in E0. eapply pos_inj in E0; lia.
  - exists (zlen str). split; [lia|]. destruct (pop_retx iss str k c t OK E ltac:(lia)) as (P1 & P2). split; [exact P1|]. split; [exact P2|].
    intros t0 E0 B0. rewrite E in E0. eapply pos_inj in E0; lia.
Qed.

(** * Each operation keeps the invariant *)
Definition upd (x : solo) (c : conn) : solo :=
  {| o_conn := c; o_wrote := o_wrote x; o_shut := o_shut x; o_got := o_got x; o_taken := o_taken x; o_in := o_in x; o_out := o_out x |}.
Lemma upd_id x : upd x (o_conn x) = x. Proof. now destruct x. Qed.
Lemma zok_same iss sc x k r buf c : c_sq c = c_sq (o_conn x) -> c_win c = c_win (o_conn x) -> c_ws c = c_ws (o_conn x) -> c_recv c = c_recv (o_conn x) ->
  c_sclosed c = c_sclosed (o_conn x) -> c_syn_acked c = c_syn_acked (o_conn x) -> (c_reset (o_conn x) = true -> c_reset c = true) ->
  zok iss sc x k r buf -> zok iss sc (upd x c) k r buf.
Proof.
  intros E1 E2 E3 E4 E5 E6 E7 [Z1 Z2 Z3 Z4 Z5 Z6 Z7 Z8 Z9 Z10 Z11 Z12 Z13].
  constructor; cbn [upd o_conn o_wrote o_shut o_got o_taken o_in o_out]; rewrite ?E1, ?E2, ?E3, ?E4, ?E5, ?E6; auto.
  destruct (c_recv (o_conn x)) as [(q, cl)|]; [|exact Z13]. destruct Z13 as (h0 & A1 & A2 & A3 & A4). exists h0. split; [exact A1|]. split; [exact A2|]. split; [tauto|exact A4].
Qed.
(** A packet that changes nothing else. *)
Definition heed (x : solo) (h : header) (p : payload) : solo :=
  {| o_conn := o_conn x; o_wrote := o_wrote x; o_shut := o_shut x; o_got := o_got x; o_taken := o_taken x; o_in := o_in x ++ [(h, p)]; o_out := o_out x |}.
Lemma zok_heed iss sc x k r buf h p : opening (o_in x) <> None \/ h_syn h && negb (h_rst h) = false ->
  zok iss sc x k r buf -> zok iss sc (heed x h p) k r buf.
Proof.
  intros OP [Z1 Z2 Z3 Z4 Z5 Z6 Z7 Z8 Z9 Z10 Z11 Z12 Z13].
  assert (O1 : opening (o_in x ++ [(h, p)]) = opening (o_in x)) by (rewrite opening_snoc; destruct (opening (o_in x)); [reflexivity|]; destruct OP as [OP| ->]; [congruence|reflexivity]).
  assert (O2 : offered (o_in x ++ [(h, p)]) = offered (o_in x)) by (unfold offered; now rewrite O1).
  constructor; cbn [heed o_conn o_wrote o_shut o_got o_taken o_in o_out]; rewrite ?O1, ?O2; auto.
  - destruct Z8 as [?|(h1 & p1 & I & R)]; [auto|]. right. exists h1, p1. rewrite in_app_iff. auto.
  - destruct Z9 as [?|(h1 & p1 & I & R & S)]; [auto|]. right. exists h1, p1. rewrite in_app_iff. split; [auto|]. split; [now rewrite grant_app|exact S].
  - destruct (c_recv (o_conn x)) as [(q, cl)|]; [|exact Z13]. destruct Z13 as (h0 & A1 & A2 & A3 & A4 & A5 & A6 & A7). exists h0. do 6 (split; [assumption|]). now apply placed_in.
Qed.

Section Steps.
Variables (iss : Z) (sc : bool) (x : solo) (k r : Z) (buf : list Z).
Hypothesis (IS : is_seq iss) (HX : zok iss sc x k r buf).

Lemma x_write data : o_shut x = false -> exists x', sact x (XWrite data) = Some x' /\ zok iss sc x' k r buf /\ o_wrote x' = o_wrote x ++ zfirst (Z.min (zlen data) (100000 - (zlen (stream (o_wrote x) (o_shut x)) - k))) data.
Proof using All.
  intros NS. destruct HX as [Z1 Z2 Z3 Z4 Z5 Z6 Z7 Z8 Z9 Z10 Z11 Z12 Z13]. cbn [sact]. unfold conn_send, has_space.
  rewrite (sq_len_pos _ _ _ _ Z1). unfold SEND_BUF_MAX. rewrite NS in *. cbn [b2z] in Z4. set (str := stream (o_wrote x) false) in *. pose proof (zlen_nonneg data).
  destruct (Z.ltb_spec (zlen str - k) 100000) as [SP|FU]; cbn [negb].
  2: { ob. eexists. split; [reflexivity|]. assert (zfirst (Z.min (zlen data) (100000 - (zlen str - k))) data = []) as -> by (apply zlen_0; rewrite zlen_zfirst; blia). rewrite app_nil_r.
    replace {| o_conn := _; o_wrote := _; o_shut := _; o_got := _; o_taken := _; o_in := _; o_out := _ |} with x by (destruct x; cbn in *; subst; reflexivity). auto. }
  set (n := Z.min (zlen data) (Z.max 0 (100000 - (zlen str - k)))).
  destruct (add_data_ok iss k (Datatypes.S (Z.to_nat n)) str (c_sq (o_conn x)) data n Z1) as (q' & ok & m & E & M1 & M2 & OK1 & OK2 & SQ & TX & SF); [congruence|blia|blia|blia|].
  rewrite E. ob. eexists. split; [reflexivity|]. rewrite OK2 by blia. assert (m = n) as -> by (apply OK1, OK2; blia).
  replace (Z.min (zlen data) (100000 - (zlen str - k))) with n by blia. split; [|reflexivity].
  assert (ST : stream (o_wrote x ++ zfirst n data) false = str ++ map SByte (zfirst n data)).
  { unfold str, stream. rewrite map_app, !app_nil_r. reflexivity. }
  assert (ZN : zlen (str ++ map SByte (zfirst n data)) = zlen str + n) by (rewrite zlen_app, zlen_map, zlen_zfirst; blia).
  constructor; cbn [o_conn o_wrote o_shut o_got o_taken o_in o_out set_sq c_sq c_win c_ws c_recv c_sclosed c_syn_acked c_reset]; rewrite ?ST; auto.
  - rewrite ZN. cbn [b2z]. blia.
  - now rewrite TX.
  - intros K0. destruct (Z6 K0) as (t & T1 & T2 & T3). exists t. rewrite TX, ZN. split; [exact T1|]. split; [blia|exact T3].
Qed.
Lemma x_shut : o_shut x = false -> exists x', sact x XShut = Some x' /\ zok iss sc x' k r buf.
Proof using All.
  intros NS. destruct HX as [Z1 Z2 Z3 Z4 Z5 Z6 Z7 Z8 Z9 Z10 Z11 Z12 Z13]. cbn [sact]. unfold send_fin, add_fin_s. rewrite NS in *. cbn [b2z] in Z4. set (str := stream (o_wrote x) false) in *.
  destruct (add_segment_ok iss str k (c_sq (o_conn x)) Fin Z1) as (q' & E & SQ & TX & SF & _); [congruence|cbn; blia|cbn; blia|].
  rewrite E. ob. eexists. split; [reflexivity|].
  assert (ST : stream (o_wrote x) true = str ++ [SFin]) by (unfold str, stream; rewrite app_nil_r; reflexivity).
  assert (ZN : zlen (str ++ [SFin]) = zlen str + 1) by (rewrite zlen_app; reflexivity).
  constructor; cbn [o_conn o_wrote o_shut o_got o_taken o_in o_out set_sclosed set_sq c_sq c_win c_ws c_recv c_sclosed c_syn_acked c_reset]; rewrite ?ST; auto.
  - rewrite ZN. cbn [b2z]. blia.
  - now rewrite TX.
  - intros K0. destruct (Z6 K0) as (t & T1 & T2 & T3). exists t. rewrite TX, ZN. split; [exact T1|]. split; [blia|exact T3].
Qed.
Lemma x_read n : 0 <= n <= U32_MAX -> c_recv (o_conn x) <> None -> exists x', sact x (XRead n) = Some x' /\ zok iss sc x' k r (zskip n buf).
Proof using All.
  intros N NR. cbn [sact]. unfold conn_recv. destruct (c_recv (o_conn x)) as [(q, cl)|] eqn:CR; [clear NR|congruence]. pose proof (z_rcv _ _ _ _ _ _ HX) as RO.
  rewrite CR in RO. destruct RO as (h0 & A1 & A2 & A3 & A4 & A5 & A6 & A7). subst cl.
  destruct (rq_is_empty q) eqn:EM.
  { ob. eexists. split; [reflexivity|]. unfold rq_is_empty in EM. rewrite (rq_len_ok _ _ _ _ A4) in EM. apply Z.eqb_eq in EM. apply zlen_0 in EM.
    assert (zskip n buf = buf) as -> by (rewrite EM; unfold zskip; apply skipn_nil). rewrite app_nil_r. destruct x. exact HX. }
  destruct (rq_read_ok (h_seq h0) r buf q n A4 N) as (q' & E & RQ' & RS & RF). rewrite E. ob. eexists. split; [reflexivity|].
  destruct HX as [Z1 Z2 Z3 Z4 Z5 Z6 Z7 Z8 Z9 Z10 Z11 Z12 Z13].
  constructor; cbn [o_conn o_wrote o_shut o_got o_taken o_in o_out set_recv c_sq c_win c_ws c_recv c_sclosed c_syn_acked c_reset]; auto.
  exists h0. rewrite RS, RF, <- app_assoc, zfirst_zskip. do 4 (split; [auto; fail|]). split; [|auto].
  rewrite zlen_app, zlen_zfirst, zlen_zskip. pose proof (zlen_nonneg buf). blia.
Qed.

Lemma x_recvq q cl : c_recv (o_conn x) = Some (q, cl) -> exists h0, opening (o_in x) = Some h0 /\ rq_ok (h_seq h0) r buf q.
Proof using All. intros CR. pose proof (z_rcv _ _ _ _ _ _ HX) as RO. rewrite CR in RO. destruct RO as (h0 & A1 & _ & _ & A4 & _). eauto. Qed.

(** What a popped packet looks like, and the state after it. *)
Lemma x_pop c' o : pop_packet (o_conn x) = Some (c', o) ->
  match o with
  | None => c' = o_conn x
  | Some (h, p) => exists t l, k <= t /\ popped (o_conn x) iss (stream (o_wrote x) (o_shut x)) k t c' h p l /\
      (0 < l -> h_syn h = (t =? 0)) /\ (l = 0 -> h_syn h = false) /\
      zok iss sc {| o_conn := c'; o_wrote := o_wrote x; o_shut := o_shut x; o_got := o_got x; o_taken := o_taken x; o_in := o_in x; o_out := o_out x ++ [(h, p)] |} k r buf
  end.
Proof using All.
  intros PE. destruct HX as [Z1 Z2 Z3 Z4 Z5 Z6 Z7 Z8 Z9 Z10 Z11 Z12 Z13]. set (str := stream (o_wrote x) (o_shut x)) in *.
  destruct (pop_any iss str k (o_conn x) Z1 Z5) as (t & TB & NS & PP & TU).
  assert (RQ : forall q cl, c_recv (o_conn x) = Some (q, cl) -> exists irs r buf, rq_ok irs r buf q) by (intros q cl CR; destruct (x_recvq q cl CR) as (h0 & _ & R); eauto).
  destruct o as [(h, p)|].
  2: { now apply pop_none in PE. }
  assert (PE' : pop_packet (retx (o_conn x) (pos iss t)) = Some (c', Some (h, p))).
  { rewrite PE in PP. destruct (pop_packet (retx (o_conn x) (pos iss t))) as [(c1, [o1|])|]; congruence. }
  pose proof (pop_inv iss (o_wrote x) (o_shut x) k t (retx (o_conn x) (pos iss t)) (sq_ok_tx _ _ _ _ _ Z1) eq_refl TB Z10 c' (Some (h, p)) RQ PE') as (l & PI). fold str in PI.
  destruct PI as [P1 P2 P3 P4 P4z P5 P6 P7 P8 P9 P10 P11 P12 P13 P13b P14 P15 (last & ws & P16 & WS)].
  cbn [retx set_sq c_local c_remote c_recv c_win c_need_rst c_reset c_ws] in *.
  assert (C' : c' = after_pop (o_conn x) (pos iss (t + l)) last ws (h_rst h)) by (rewrite P16; reflexivity). clear P16.
  exists t, l. split; [blia|]. split.
  { constructor; auto. exists last, ws. auto. }
  pose proof (so_k _ _ _ _ Z1) as KB. pose proof (so_small _ _ _ _ Z1) as SM.
  assert (SYN : 0 < l -> h_syn h = (t =? 0)).
  { intros L. eapply cut_syn_conv; [|exact P5|]; blia. }
  assert (NSYN : l = 0 -> h_syn h = false).
  { intros ->. rewrite Z.add_0_r, cut_none in P5 by blia. apply (f_equal zlen) in P5. unfold pkt_syms in P5. rewrite syms_len in P5. pose proof (zlen_nonneg (concat p)). change (zlen (@nil sym)) with 0 in P5.
    destruct (h_syn h), (h_fin h); cbn [b2z] in P5; try reflexivity; blia. }
  split; [exact SYN|]. split; [exact NSYN|].
  assert (WF : ws_x sc (opening (o_in x)) (offered (o_in x)) ws /\ (h_syn h = false -> ws = c_ws (o_conn x)) /\ (h_syn h = true -> w_sent ws = true)).
  { destruct (h_syn h) eqn:HS; [|subst ws; split; [exact Z11|split; [reflexivity|discriminate]]]. split; [|split; [discriminate|]].
    - unfold sent_syn in WS. repeat match type of WS with (check ?b; _) = _ => destruct b; [rewrite assert_true in WS by reflexivity|discriminate WS] end. injection WS as <-.
      destruct Z11 as [D R S RC U O ST B]. constructor; cbn [w_sent w_received w_recv w_send w_disabled]; auto.
      + unfold scale_of. destruct (can_send_scale (c_ws (o_conn x))); auto.
      + discriminate.
      + intros ->. unfold scale_of, can_send_scale. rewrite D. reflexivity.
      + intros _ ->. unfold scale_of, can_send_scale. rewrite D, R, S. cbn [negb orb]. destruct (opening (o_in x)); cbn [is_none negb andb]; [|auto]. destruct (offered (o_in x)); cbn [is_none negb]; [auto|]. right. split; [discriminate|reflexivity].
    - unfold sent_syn in WS. repeat match type of WS with (check ?b; _) = _ => destruct b; [rewrite assert_true in WS by reflexivity|discriminate WS] end. now injection WS as <-. }
  destruct WF as (WF & W1 & W2). rewrite C'.
  constructor; cbn [o_conn o_wrote o_shut o_got o_taken o_in o_out after_pop set_tx c_sq c_win c_ws c_recv c_sclosed c_syn_acked c_reset sfin tx]; fold str; auto.
  - now apply sq_ok_tx.
  - apply pos_seq.
  - intros K0. exists (t + l). split; [reflexivity|]. split; [blia|]. destruct (Z6 K0) as (t0 & T1 & T2 & T3). assert (t = t0) as -> by (apply TU; [exact T1|blia]).
    destruct (Z.eq_dec l 0) as [L0|LN]; [rewrite (W1 (NSYN L0)), L0, Z.add_0_r; exact T3|].
    specialize (SYN ltac:(blia)). destruct (Z.eqb_spec t0 0) as [T0|TN].
    + rewrite (W2 SYN). symmetry. apply Z.ltb_lt. blia.
    + rewrite (W1 SYN), T3. destruct (Z.ltb_spec 0 t0), (Z.ltb_spec 0 (t0 + l)); blia.
  - destruct (h_syn h) eqn:HS.
    + rewrite (W2 eq_refl). split; [intros _|reflexivity]. exists h, p. split; [apply in_or_app; right; now left|exact HS].
    + rewrite (W1 eq_refl), Z12. unfold spoke. cbn [o_out]. split; intros (h1 & p1 & I & S1); exists h1, p1; (split; [|exact S1]).
      * apply in_or_app. auto.
      * apply in_app_iff in I. destruct I as [I|[I|[]]]; [exact I|]. injection I as <- <-. congruence.
Qed.
End Steps.

Lemma push_unconf c h p c' n : h_syn h = false -> is_configured (c_ws c) = false -> push_segment c h p = Some (c', n) -> n = 0 /\ (c' = set_need_ack c true \/ c' = send_rst c).
Proof.
  intros HS NC. unfold push_segment. destruct (recv_window c) as [w|]; [ob|discriminate]. destruct (trim_segment h p w) as [[(h', p')|]|]; [ob|ob; intros E; injection E as <- <-; auto|discriminate].
  destruct (c_recv c) as [(q, cl)|]; [|intros E; injection E as <- <-; auto]. destruct (c_rst_if_payload c && negb (pay_empty p')); [intros E; injection E as <- <-; auto|].
  destruct (cl && (negb (pay_empty p') || h_syn h' || h_fin h')); [intros E; injection E as <- <-; auto|]. destruct (take_segment q cl h' p') as [[((q', cl'), pu)|]|]; [ob|ob; intros E; injection E as <- <-; auto|discriminate].
  rewrite HS. unfold send_shift. destruct (negb (rend q' =? rend q)); cbn [set_need_ack set_recv c_ws]; rewrite NC; discriminate.
Qed.

Section Push.
Variables (iss : Z) (sc : bool) (x : solo) (k r : Z) (buf : list Z) (h : header) (p : payload).
Hypothesis (IS : is_seq iss) (HX : zok iss sc x k r buf) (WI : wire h p) (NR : c_reset (o_conn x) = false) (NT : h_rst h = false).
Let inn := o_in x ++ [(h, p)].

Record taken_syn (c1 : conn) (q : recvq) (h0 : header) : Prop := {
  y_sq : c_sq c1 = c_sq (o_conn x); y_closed : c_sclosed c1 = c_sclosed (o_conn x); y_acked : c_syn_acked c1 = c_syn_acked (o_conn x); y_win : c_win c1 = c_win (o_conn x);
  y_reset : c_reset c1 = false; y_need : c_need_rst c1 = c_need_rst (o_conn x); y_rst : c_rst_if_payload c1 = c_rst_if_payload (o_conn x);
  y_ws : ws_x sc (opening inn) (offered inn) (c_ws c1);
  y_sent : w_sent (c_ws c1) = w_sent (c_ws (o_conn x));
  y_open : opening inn = Some h0;
  y_recv : c_recv c1 = Some (q, rfin q);
  y_rq : rq_ok (h_seq h0) r buf q;
  y_seq : is_seq (h_seq h0) \/ rsyn q = true;
  y_taken : o_taken x = zlen (o_got x) + zlen buf;
  y_r : r = b2z (rsyn q) + o_taken x + b2z (rfin q);
  y_placed : placed (h_seq h0) (o_in x) (o_got x ++ buf) (rfin q);
  y_syn : rsyn q = true \/ h0 = h /\ h_syn h = true /\ 0 < wlen c1 buf /\ r = 0 /\ rfin q = false }.
Lemma take_syn_ok : c_recv (o_conn x) <> None \/ h_syn h = true -> exists c1 q h0, take_syn (o_conn x) h = Some c1 /\ taken_syn c1 q h0.
Proof using All.
  intros G. destruct HX as [Z1 Z2 Z3 Z4 Z5 Z6 Z7 Z8 Z9 Z10 Z11 Z12 Z13]. unfold take_syn. destruct (c_recv (o_conn x)) as [(q, cl)|] eqn:CR; cbn [is_none andb].
  - destruct Z13 as (h0 & A1 & A2 & A3 & A4 & A5 & A6 & A7). subst cl. exists (o_conn x), q, h0. split; [reflexivity|].
    assert (O1 : opening inn = opening (o_in x)) by (apply opening_app; congruence). assert (O2 : offered inn = offered (o_in x)) by (apply offered_app; congruence).
    destruct A3 as [X|RS]; [congruence|]. constructor; rewrite ?O1, ?O2; auto.
  - destruct G as [G|HS]; [congruence|]. destruct Z13 as (A1 & A2 & A3 & A4 & A5). rewrite HS. unfold received_syn. rewrite (x_recd _ _ _ _ Z11), A1. cbn [is_none negb]. rewrite assert_true by reflexivity. ob.
    assert (O1 : opening inn = Some h) by (unfold inn; rewrite opening_snoc, A1, HS, NT; reflexivity).
    assert (O2 : offered inn = match h_scale h with Some s => Some (Z.min 14 s) | None => None end) by (unfold inn; rewrite offered_snoc, A1, HS, NT; reflexivity).
    eexists _, (rq_new (h_seq h)), h. split; [reflexivity|]. destruct WI as (W1 & W2 & W3 & W4 & W5).
    set (c1 := set_ws _ _). assert (WX : ws_x sc (opening inn) (offered inn) (c_ws c1)).
    { rewrite O1, O2. destruct Z11 as [D R S RC U O ST B]. unfold c1. constructor; cbn [set_ws set_recv c_ws w_sent w_received w_recv w_send w_disabled is_none negb]; auto.
      - destruct (h_scale h) as [s|]; [|reflexivity]. f_equal. destruct (Z.ltb_spec 14 s); blia.
      - intros X Y. destruct (ST X Y) as [?|(? & _)]; [auto|congruence].
      - intros s E. destruct (h_scale h) as [s0|]; [|discriminate E]. injection E as <-. specialize (W4 s0 eq_refl). blia. }
    constructor; auto.
    + rewrite A4, A5. now apply rq_new_ok.
    + rewrite A2, A3, A5. reflexivity.
    + rewrite A3, A4. reflexivity.
    + rewrite A2, A5. intros [|i] b E; discriminate E.
    + right. split; [reflexivity|]. split; [exact HS|]. split; [|split; [exact A4|reflexivity]]. unfold wlen. rewrite A5. change (zlen (@nil Z)) with 0. pose proof (x_wmax _ _ _ _ WX). blia.
Qed.

Lemma syms_inj_len T s b f : T = syms s b f -> zlen T = b2z s + zlen b + b2z f.
Proof using. clear. intros ->. apply syms_len. Qed.

(** The heart: pushing after the SYN was taken. *)
Lemma push_rest c1 q h0 : taken_syn c1 q h0 -> (h_syn h = true \/ is_configured (c_ws c1) = true) ->
  exists c' n k' r' buf', push_segment c1 h p = Some (c', n) /\ k <= k' /\
    zok iss sc {| o_conn := c'; o_wrote := o_wrote x; o_shut := o_shut x; o_got := o_got x; o_taken := o_taken x + n; o_in := inn; o_out := o_out x |} k' r' buf'.
Proof using All.
  intros Y G. destruct HX as [Z1 Z2 Z3 Z4 Z5 Z6 Z7 Z8 Z9 Z10 Z11 Z12 Z13]. set (str := stream (o_wrote x) (o_shut x)) in *. destruct Y as [D1 D2 D3 D4 D5 D6 D7 D8 D9 D10 CR RQ SEQ TK RR PL SY].
  destruct WI as (W1 & W2 & W3 & W4 & W5). pose proof (so_k _ _ _ _ Z1) as KB. pose proof (so_small _ _ _ _ Z1) as SM.
  destruct (pos_from iss (zlen str + 1 - 4294967296) (h_acknum h) W2) as (a & HA & AB).
  assert (SPL : zlen (pkt_syms h p) <= 65537) by (unfold pkt_syms; rewrite syms_len; destruct (h_syn h), (h_fin h); cbn [b2z]; blia).
  pose proof (zlen_nonneg (pkt_syms h p)) as SPN.
  assert (exists p0, h_seq h = pos (h_seq h0) p0 /\ r + 100001 - 4294967296 <= p0 <= r + 100000 /\ (rsyn q = true \/ p0 = r)) as (p0 & HS & PB & PR).
  { destruct (rsyn q) eqn:RS.
    - destruct (pos_from (h_seq h0) (r + 100001 - 4294967296) (h_seq h) W1) as (p0 & E & B). exists p0. split; [exact E|]. split; [blia|auto].
    - destruct SY as [SY|(-> & _ & _ & R0 & _)]; [discriminate SY|]. exists 0. rewrite R0. split; [now rewrite pos_0|]. split; [blia|auto]. }
  assert (SQ1 : sq_ok iss str k (c_sq c1)) by now rewrite D1.
  assert (SYq : rsyn q = true \/ p0 = r /\ h_syn h = true /\ 0 < wlen c1 buf) by (destruct PR as [?|PR]; [auto|]; destruct SY as [?|(? & ? & ? & _)]; auto).
  destruct (push_segment_ok c1 h p iss str k (h_seq h0) r buf q p0 a CR RQ SQ1 HS HA) as [(X1 & X2 & X3)|(c' & n & E & PU)]; [blia|blia|blia|blia|exact SYq|destruct G; congruence|].
  pose proof (ro_small _ _ _ _ RQ) as BS. pose proof (wlen_bounds c1 buf BS) as WB. pose proof (zlen_nonneg buf) as BN.
  assert (Z8' : k = 0 \/ exists h1 p1, In (h1, p1) inn /\ h_ack h1 = true /\ h_acknum h1 = pos iss k).
  { destruct Z8 as [?|(h1 & p1 & I & R)]; [auto|]. right. exists h1, p1. unfold inn. rewrite in_app_iff. auto. }
  assert (Z9' : c_win (o_conn x) = 2048 \/ exists h1 p1, In (h1, p1) inn /\ c_win (o_conn x) = grant sc inn h1 /\ (h_syn h1 = true \/ opening inn <> None)).
  { destruct Z9 as [?|(h1 & p1 & I & R & S)]; [auto|]. right. exists h1, p1. unfold inn. rewrite in_app_iff. split; [auto|]. split; [now rewrite grant_app|]. destruct S as [S|S]; [auto|]. right. now rewrite opening_app. }
  assert (SP : forall c2 n2, w_sent (c_ws c2) = w_sent (c_ws (o_conn x)) ->
     (w_sent (c_ws c2) = true <-> spoke {| o_conn := c2; o_wrote := o_wrote x; o_shut := o_shut x; o_got := o_got x; o_taken := o_taken x + n2; o_in := inn; o_out := o_out x |})) by (intros c2 n2 ->; exact Z12).
  assert (PL' : placed (h_seq h0) inn (o_got x ++ buf) (rfin q)) by now apply placed_in.
  exists c', n. inversion PU as [OV X1 X2|OV WHY X1 X2|q' sq' acked n' OV NRP NCL TA AK X1 X2]; subst c'; [subst n..|subst n'].
  - (* outside the window *)
    exists k, r, buf. split; [exact E|]. split; [blia|].
    constructor; cbn [o_conn o_wrote o_shut o_got o_taken o_in o_out set_need_ack c_sq c_win c_ws c_recv c_sclosed c_syn_acked c_reset]; fold str; rewrite ?D1, ?D2, ?D3, ?D4, ?D9; auto.
    rewrite CR, Z.add_0_r. exists h0. split; [exact D10|]. split; [reflexivity|]. split; [|auto]. destruct SY as [?|(_ & HSY & W0 & Y0 & _)]; [auto|]. exfalso.
      destruct SYq as [SYq|(P0 & _)]; [apply (f_equal b2z) in SYq; cbn in SYq; unfold meets in OV|].
      * clear - SYq RR Y0 TK BN. pose proof (zlen_nonneg (o_got x)). destruct (rfin q); cbn [b2z] in RR; blia.
      * rewrite P0 in OV. assert (0 < zlen (pkt_syms h p)) by (unfold pkt_syms; rewrite syms_len, HSY; cbn [b2z]; pose proof (zlen_nonneg (concat p)); destruct (h_fin h); cbn [b2z]; blia).
        unfold meets in OV. destruct (Z.eqb_spec r (r + zlen (pkt_syms h p))); [blia|]. destruct (Z.eqb_spec r (r + wlen c1 buf)); [blia|]. apply Z.ltb_ge in OV. blia.
  - (* reset *)
    exists k, r, buf. split; [exact E|]. split; [blia|].
    constructor; cbn [o_conn o_wrote o_shut o_got o_taken o_in o_out send_rst set_rst c_sq c_win c_ws c_recv c_sclosed c_syn_acked c_reset]; fold str; rewrite ?D1, ?D2, ?D3, ?D4, ?D9; auto.
    rewrite CR, Z.add_0_r. exists h0. auto 10.
  - (* accepted *)
    assert (exists k', k <= k' /\ sq_ok iss str k' sq' /\ tx sq' = tx (c_sq (o_conn x)) /\ sfin sq' = o_shut x /\ acked = (0 <? k') /\ (k' = k \/ k < k' /\ h_ack h = true /\ h_acknum h = pos iss k')) as (k' & K1 & K2 & K3 & K4 & K5 & K6).
    { destruct (h_ack h && ((k <? a) && (a <=? zlen str))) eqn:AC.
      - apply andb_true_iff in AC. destruct AC as (AC1 & AC2). apply andb_true_iff in AC2. destruct AC2 as (AC2 & _). apply Z.ltb_lt in AC2. destruct AK as (B1 & B2 & B3 & B4). exists a.
        split; [blia|]. split; [exact B1|]. split; [congruence|]. split; [congruence|]. split; [rewrite B4; symmetry; apply Z.ltb_lt; blia|auto].
      - destruct AK as (-> & ->). exists k. split; [blia|]. split; [exact SQ1|]. split; [congruence|]. split; [congruence|]. split; [congruence|auto]. }
    assert (WIN : 0 <= new_win c1 h < 2147483648 /\ new_win c1 h = grant sc inn h).
    { unfold new_win, grant. destruct (h_syn h) eqn:HSY; [blia|]. destruct G as [G|G]; [discriminate G|]. pose proof (x_sshift _ _ _ _ D8) as SB. destruct (x_shifts _ _ _ _ D8 G) as (SS & _).
      rewrite Z.shiftl_mul_pow2 by blia. split.
      - assert (0 < 2 ^ send_shift0 (c_ws c1) <= 2 ^ 14) by (split; [apply Z.pow_pos_nonneg; blia|apply Z.pow_le_mono_r; blia]). change (2 ^ 14) with 16384 in *. clear - H W3. nia.
      - rewrite SS. destruct sc; [|cbn; blia]. destruct (offered inn); [reflexivity|cbn; blia]. }
    assert (RCV : exists r' buf', rq_ok (h_seq h0) r' buf' q' /\ rsyn q' = true /\ o_taken x + n = zlen (o_got x) + zlen buf' /\ r' = b2z (rsyn q') + (o_taken x + n) + b2z (rfin q') /\ placed (h_seq h0) inn (o_got x ++ buf') (rfin q')).
    { destruct ((Z.max p0 r =? r) && negb (rfin q)) eqn:AT.
      - apply andb_true_iff in AT. destruct AT as (P1 & NF). apply Z.eqb_eq in P1. apply negb_true_iff in NF. destruct TA as (sb & b & f & TE & NB & RQ' & RS' & RF' & SB).
        assert (SBV : b2z sb + b2z (rsyn q) = 1).
        { destruct sb; [rewrite SB by reflexivity; reflexivity|]. cbn [b2z]. destruct SYq as [-> |(P0 & HSY & W0)]; [reflexivity|]. exfalso.
          unfold pkt_syms in TE. rewrite HSY in TE. unfold syms at 1 in TE. cbn [app] in TE. unfold cut in TE. rewrite P0, Z.sub_diag in TE. cbn [Z.to_nat skipn] in TE.
          replace (Z.to_nat (r + wlen c1 buf - r)) with (S (Z.to_nat (wlen c1 buf - 1))) in TE by blia. cbn [firstn] in TE. unfold syms in TE. cbn [app] in TE. destruct b; [|discriminate TE]. destruct f; discriminate TE. }
        exists (r + zlen (cut p0 r (r + wlen c1 buf) (pkt_syms h p))), (buf ++ b). split; [exact RQ'|]. split; [exact RS'|]. rewrite zlen_app. split; [blia|]. split.
        { rewrite RS', RF'. cbn [b2z]. rewrite NB. apply syms_inj_len in TE. rewrite TE, RR, NF. cbn [b2z]. blia. }
        rewrite app_assoc. intros i v EV. rewrite RF', syms_cat in EV. destruct (Nat.lt_ge_cases i (length (o_got x ++ buf))) as [L|L].
        { rewrite nth_error_app1 in EV by (now rewrite map_length). apply PL'. rewrite NF. unfold syms. cbn [app]. now rewrite app_nil_r. }
        rewrite nth_error_app2, map_length in EV by (now rewrite map_length). apply (nth_syms sb b f) in EV. rewrite <- TE in EV. apply nth_cut in EV; [|blia].
        eexists h, p, _. split; [unfold inn; apply in_or_app; right; now left|]. split; [exact EV|]. rewrite HS. unfold pos. rewrite Zplus_mod_idemp_l. f_equal.
        assert (Z.of_nat (length (o_got x ++ buf)) = o_taken x) as LT by (rewrite TK, app_length; unfold zlen; blia). rewrite NF in RR. cbn [b2z] in RR.
        destruct sb; cbn [b2z] in SBV; blia.
      - destruct TA as (-> & ->). exists r, buf. rewrite Z.add_0_r. split; [exact RQ|]. split; [|auto]. destruct SY as [?|(_ & HSY & W0 & R0 & NF)]; [auto|]. destruct SYq as [?|(P0 & _)]; [auto|]. exfalso.
        rewrite NF in AT. cbn [negb] in AT. rewrite andb_true_r in AT. apply Z.eqb_neq in AT. blia. }
    destruct RCV as (r' & buf' & R1 & R2 & R3 & R4 & R5). exists k', r', buf'. split; [congruence|]. split; [exact K1|].
    constructor; cbn [o_conn o_wrote o_shut o_got o_taken o_in o_out after_push c_sq c_win c_ws c_recv c_sclosed c_syn_acked c_reset]; fold str; auto.
    + congruence.
    + blia.
    + now rewrite K3.
    + intros K0. rewrite K3, D9. apply Z6. destruct K6 as [<- |(K7 & _)]; [exact K0|clear - K0 K7 KB; lia].
    + destruct K6 as [-> |(K7 & K8 & K9)]; [exact Z8'|]. right. exists h, p. split; [unfold inn; apply in_or_app; right; now left|auto].
    + right. exists h, p. split; [unfold inn; apply in_or_app; right; now left|]. split; [exact (proj2 WIN)|]. right. congruence.
    + exact (proj1 WIN).
    + rewrite D9. exact Z12.
    + exists h0. split; [exact D10|]. split; [reflexivity|]. split; [auto|]. split; [exact R1|]. split; [exact R3|]. split; [exact R4|exact R5].
Qed.
End Push.

(** * All histories *)
Lemma x_push iss sc x k r buf h p x' : is_seq iss -> zok iss sc x k r buf -> wire h p -> sact x (XPush h p) = Some x' -> exists k' r' buf', k <= k' /\ zok iss sc x' k' r' buf'.
Proof.
  intros IS HX WI. cbn [sact]. unfold push_packet. destruct (c_reset (o_conn x)) eqn:NRS; [discriminate|]. cbn [negb]. rewrite assert_true by reflexivity. destruct (h_rst h) eqn:HR.
  { intros E. match type of E with (do q <- ?u; _) = _ => destruct u as [(c', n)|] eqn:U; [|discriminate E] end. ob_in E. injection E as <-. cbn [fst snd].
    assert (n = 0 /\ (c' = set_rst (o_conn x) true (c_need_rst (o_conn x)) \/ c' = set_need_ack (o_conn x) true \/ c' = o_conn x)) as (-> & C).
    { destruct (recv_window (o_conn x)) as [w|]; [|injection U as <- <-; auto]. destruct (h_seq h =? start w); [injection U as <- <-; auto|]. destruct (contains w (h_seq h)); injection U as <- <-; auto. }
    exists k, r, buf. rewrite Z.add_0_r. split; [lia|]. apply (zok_heed iss sc (upd x c') k r buf h p); [right; rewrite HR; apply andb_false_r|].
    destruct C as [-> | [-> | ->]]; apply zok_same; auto. }
  destruct (take_syn (o_conn x) h) as [c1|] eqn:TS; [|discriminate]. ob. destruct (push_segment c1 h p) as [(c', n)|] eqn:PS; [|discriminate]. ob. intros E. injection E as <-. cbn [fst snd].
  destruct (h_syn h) eqn:HS.
  - destruct (take_syn_ok iss sc x k r buf h p IS HX WI NRS HR) as (c1' & q & h0 & E & Y); [auto|]. rewrite TS in E. injection E as <-.
    destruct (push_rest iss sc x k r buf h p IS HX WI NRS HR c1 q h0 Y) as (c2 & n2 & k' & r' & buf' & E & KK & Z); [auto|]. rewrite PS in E. injection E as <- <-. eauto.
  - assert (c1 = o_conn x) as -> by (unfold take_syn in TS; rewrite HS, andb_false_r in TS; congruence).
    assert (CN : c_recv (o_conn x) <> None) by (intros X; unfold push_segment, recv_window in PS; rewrite X in PS; discriminate PS).
    destruct (take_syn_ok iss sc x k r buf h p IS HX WI NRS HR) as (c1' & q & h0 & E & Y); [auto|]. rewrite TS in E. injection E as <-.
    destruct (is_configured (c_ws (o_conn x))) eqn:CF.
    + destruct (push_rest iss sc x k r buf h p IS HX WI NRS HR (o_conn x) q h0 Y) as (c2 & n2 & k' & r' & buf' & E & KK & Z); [auto|]. rewrite PS in E. injection E as <- <-. eauto.
    + destruct (push_unconf _ _ _ _ _ HS CF PS) as (-> & C). exists k, r, buf. rewrite Z.add_0_r. split; [lia|]. apply (zok_heed iss sc (upd x c') k r buf h p); [right; now rewrite HS|].
      destruct C as [-> | ->]; apply zok_same; auto.
Qed.
Lemma x_start iss sc local remote c : is_seq iss -> conn_new local remote iss sc = Some c ->
  zok iss sc {| o_conn := c; o_wrote := []; o_shut := false; o_got := []; o_taken := 0; o_in := []; o_out := [] |} 0 0 [].
Proof.
  intros IS E. unfold conn_new in E. destruct (sq_new_ok iss IS) as (q & Q & SQ & TX & SF). rewrite Q in E. ob_in E.
  destruct (if sc then Some ws_new else ws_disable ws_new) as [w|] eqn:WE; [|discriminate E]. ob_in E. injection E as E.
  assert (W : w = {| w_sent := false; w_received := false; w_recv := None; w_send := None; w_disabled := negb sc |}).
  { destruct sc; [injection WE as <-; reflexivity|]. unfold ws_disable in WE. cbn [ws_new w_sent negb] in WE. rewrite assert_true in WE by reflexivity. injection WE as <-. reflexivity. }
  subst c w. constructor; cbn [o_conn o_wrote o_shut o_got o_taken o_in o_out c_sq c_win c_ws c_recv c_sclosed c_syn_acked c_reset w_sent]; auto.
  - change (stream [] false) with [SSyn]. cbn. unfold zlen; cbn; lia.
  - rewrite TX. apply pos_seq.
  - intros _. exists 0. split; [exact TX|]. split; [|reflexivity]. change (stream [] false) with [SSyn]. unfold zlen; cbn; lia.
  - lia.
  - constructor; cbn; auto; discriminate.
  - split; [discriminate|]. intros (h & p & [] & _).
Qed.
Lemma x_step iss sc x k r buf o x' : is_seq iss -> zok iss sc x k r buf -> permits x o -> sact x o = Some x' -> exists k' r' buf', k <= k' /\ zok iss sc x' k' r' buf'.
Proof.
  intros IS HX PM E. destruct o as [d| |n| |h p| |].
  - destruct (x_write iss sc x k r buf IS HX d PM) as (x0 & E0 & Z & _). replace x' with x0 by congruence. exists k, r, buf. split; [lia|exact Z].
  - destruct (x_shut iss sc x k r buf IS HX PM) as (x0 & E0 & Z). replace x' with x0 by congruence. exists k, r, buf. split; [lia|exact Z].
  - assert (c_recv (o_conn x) <> None) as NR by (intros X; cbn [sact] in E; unfold conn_recv in E; rewrite X in E; discriminate E).
    destruct (x_read iss sc x k r buf IS HX n PM NR) as (x0 & E0 & Z). replace x' with x0 by congruence. exists k, r, (zskip n buf). split; [lia|exact Z].
  - cbn [sact] in E. destruct (pop_packet (o_conn x)) as [(c', o)|] eqn:P; [|discriminate E]. ob_in E. injection E as <-. pose proof (x_pop iss sc x k r buf IS HX c' o P) as X.
    exists k, r, buf. split; [lia|]. destruct o as [(h, p)|].
    + destruct X as (t & l & _ & _ & _ & _ & Z). exact Z.
    + subst c'. rewrite app_nil_r. destruct x. exact HX.
  - eapply x_push; eauto.
  - cbn [sact] in E. injection E as <-. exists k, r, buf. split; [lia|]. apply (zok_same iss sc x); auto.
  - cbn [sact] in E. injection E as <-. exists k, r, buf. split; [lia|]. apply (zok_same iss sc x); auto.
Qed.
Lemma alone_ok iss sc x : is_seq iss -> alone iss sc x -> exists k r buf, zok iss sc x k r buf.
Proof.
  intros IS H. induction H as [local remote c E|x o x' H (k & r & buf & Z) PM E].
  - exists 0, 0, []. now apply x_start in E.
  - destruct (x_step iss sc x k r buf o x' IS Z PM E) as (k' & r' & buf' & _ & Z'). eauto.
Qed.

(** * The theorems *)
Lemma seg_main iss sc x x' h p : is_seq iss -> alone iss sc x -> sact x XPop = Some x' -> o_out x' = o_out x ++ [(h, p)] ->
  zlen (concat p) <= 1500 /\ 0 <= h_win h <= 65535 /\
  (pkt_syms h p <> [] -> exists a w, (a = iss \/ exists h' p', In (h', p') (o_in x) /\ h_ack h' = true /\ h_acknum h' = a) /\
     (w = 2048 \/ exists h' p', In (h', p') (o_in x) /\ w = grant sc (o_in x) h') /\
     (h_seq h - a) mod 4294967296 + zlen (pkt_syms h p) <= w).
Proof.
  intros IS H E OE. destruct (alone_ok iss sc x IS H) as (k & r & buf & Z). cbn [sact] in E. destruct (pop_packet (o_conn x)) as [(c', o)|] eqn:P; [|discriminate E]. ob_in E. injection E as <-.
  cbn [o_out] in OE. apply app_inv_head in OE. destruct o as [hp|]; [|discriminate OE]. injection OE as ->. destruct (x_pop iss sc x k r buf IS Z c' _ P) as (t & l & KT & [P1 P2 P3 P4 P4z P5 P6 P7 P8 P9 P10 P11 P12 P13 P13b P14 P15 _] & _).
  split; [exact P8|]. split; [exact P13|]. intros NE. destruct Z as [Z1 Z2 Z3 Z4 Z5 Z6 Z7 Z8 Z9 Z10 Z11 Z12 Z13]. pose proof (so_k _ _ _ _ Z1) as KB. pose proof (so_small _ _ _ _ Z1) as SM.
  assert (L : zlen (pkt_syms h p) = l) by (rewrite P5, cut_len; blia).
  assert (LN : 0 < l) by (destruct (Z.eq_dec l 0) as [L0|]; [|blia]; exfalso; apply NE, zlen_0; blia).
  exists (pos iss k), (c_win (o_conn x)). split.
  { destruct Z8 as [-> |(h1 & p1 & I & A & N)]; [left; now apply pos_0|right; eauto]. }
  split.
  { destruct Z9 as [?|(h1 & p1 & I & A & N)]; [auto|right; eauto]. }
  specialize (P9 LN). rewrite L, P1. unfold pos. rewrite <- Zminus_mod. replace (iss + t - (iss + k)) with (t - k) by blia. rewrite Z.mod_small; blia.
Qed.

Lemma ack_main iss sc x x' h p : is_seq iss -> alone iss sc x -> sact x XPop = Some x' -> o_out x' = o_out x ++ [(h, p)] ->
  h_ack h = negb (is_none (opening (o_in x))) /\
  (forall h0, opening (o_in x) = Some h0 -> c_reset (o_conn x) = false -> h_acknum h = (h_seq h0 + 1 + o_taken x + b2z (received_fin (o_conn x))) mod 4294967296) /\
  0 <= announced sc (o_in x) h /\ announced sc (o_in x) h + (o_taken x - zlen (o_got x)) <= 100000.
Proof.
  intros IS H E OE. destruct (alone_ok iss sc x IS H) as (k & r & buf & Z). cbn [sact] in E. destruct (pop_packet (o_conn x)) as [(c', o)|] eqn:P; [|discriminate E]. ob_in E. injection E as <-.
  cbn [o_out] in OE. apply app_inv_head in OE. destruct o as [hp|]; [|discriminate OE]. injection OE as ->. destruct (x_pop iss sc x k r buf IS Z c' _ P) as (t & l & KT & [P1 P2 P3 P4 P4z P5 P6 P7 P8 P9 P10 P11 P12 P13 P13b P14 P15 _] & _).
  destruct Z as [Z1 Z2 Z3 Z4 Z5 Z6 Z7 Z8 Z9 Z10 Z11 Z12 Z13].
  assert (WL : 0 <= recv_window_len (o_conn x) /\ recv_window_len (o_conn x) + (o_taken x - zlen (o_got x)) <= 100000).
  { pose proof (x_wmax _ _ _ _ Z11). unfold recv_window_len. destruct (c_recv (o_conn x)) as [(q, cl)|] eqn:CR.
    - destruct Z13 as (h0 & A1 & A2 & A3 & A4 & A5 & A6 & A7). rewrite (recv_window_rng _ _ r buf q cl CR A4). pose proof (wlen_bounds (o_conn x) buf (ro_small _ _ _ _ A4)). pose proof (zlen_nonneg buf).
      rewrite len_rng by blia. blia.
    - destruct Z13 as (_ & -> & -> & _). unfold recv_window. rewrite CR. unfold RECV_BUF_MAX, zlen. cbn. blia. }
  split.
  { rewrite P3. destruct (c_recv (o_conn x)) as [(q, cl)|]; [destruct Z13 as (h0 & -> & _); reflexivity|destruct Z13 as (-> & _); reflexivity]. }
  split.
  { intros h0 O NR. unfold received_fin. destruct (c_recv (o_conn x)) as [(q, cl)|]; [|destruct Z13 as (X & _); congruence].
    destruct Z13 as (h1 & A1 & A2 & A3 & A4 & A5 & A6 & A7). assert (h1 = h0) as -> by congruence. rewrite (P4 q cl eq_refl), (ro_end _ _ _ _ A4), A6. destruct A3 as [?| ->]; [congruence|]. subst cl. unfold pos. f_equal. cbn [b2z]. blia. }
  unfold announced. rewrite P13b in *. destruct (h_syn h) eqn:HS; [blia|]. destruct (x_shifts _ _ _ _ Z11 (P14 eq_refl)) as (_ & RS). rewrite RS in *.
  assert (D : 0 <= Z.shiftr (recv_window_len (o_conn x)) 1 * 2 <= recv_window_len (o_conn x)).
  { rewrite Z.shiftr_div_pow2 by blia. change (2 ^ 1) with 2. pose proof (Z.div_mod (recv_window_len (o_conn x)) 2 ltac:(blia)). pose proof (Z.mod_pos_bound (recv_window_len (o_conn x)) 2 ltac:(blia)). blia. }
  destruct sc; [destruct (offered (o_in x))|]; rewrite ?Z.shiftr_0_r; blia.
Qed.
Lemma buffer_main iss sc x : is_seq iss -> alone iss sc x -> 0 <= o_taken x - zlen (o_got x) <= 100000.
Proof.
  intros IS H. destruct (alone_ok iss sc x IS H) as (k & r & buf & Z). pose proof (z_rcv _ _ _ _ _ _ Z) as R. destruct (c_recv (o_conn x)) as [(q, cl)|].
  - destruct R as (h0 & A1 & A2 & A3 & A4 & A5 & _). pose proof (ro_small _ _ _ _ A4). pose proof (zlen_nonneg buf). blia.
  - destruct R as (_ & -> & -> & _). unfold zlen. cbn. blia.
Qed.
Lemma place_main iss sc x i b : is_seq iss -> alone iss sc x -> nth_error (o_got x) i = Some b ->
  exists h0 h p j, opening (o_in x) = Some h0 /\ In (h, p) (o_in x) /\ nth_error (pkt_syms h p) j = Some (SByte b) /\
    (h_seq h + Z.of_nat j) mod 4294967296 = (h_seq h0 + 1 + Z.of_nat i) mod 4294967296.
Proof.
  intros IS H E. destruct (alone_ok iss sc x IS H) as (k & r & buf & Z). pose proof (z_rcv _ _ _ _ _ _ Z) as R. destruct (c_recv (o_conn x)) as [(q, cl)|].
  - destruct R as (h0 & A1 & A2 & A3 & A4 & A5 & A6 & A7). destruct (A7 i (SByte b)) as (h & p & j & I & N & S).
    { rewrite syms_cat, nth_error_app1 by (rewrite map_length; apply nth_error_Some; congruence). now rewrite nth_error_map, E. }
    exists h0, h, p, j. rewrite S. unfold pos. rewrite Z.add_assoc. auto.
  - destruct R as (_ & G & _). rewrite G in E. destruct i; discriminate E.
Qed.
Lemma fin_main iss sc x : is_seq iss -> alone iss sc x -> received_fin (o_conn x) = true ->
  exists h0 h p j, opening (o_in x) = Some h0 /\ In (h, p) (o_in x) /\ nth_error (pkt_syms h p) j = Some SFin /\
    (h_seq h + Z.of_nat j) mod 4294967296 = (h_seq h0 + 1 + o_taken x) mod 4294967296.
Proof.
  intros IS H E. destruct (alone_ok iss sc x IS H) as (k & r & buf & Z). pose proof (z_rcv _ _ _ _ _ _ Z) as R. unfold received_fin in E. destruct (c_recv (o_conn x)) as [(q, cl)|]; [|discriminate E]. subst cl.
  destruct R as (h0 & A1 & A2 & A3 & A4 & A5 & A6 & A7). rewrite <- A2 in A7. destruct (A7 (length (o_got x ++ buf)) SFin) as (h & p & j & I & N & S).
  { unfold syms. cbn [app]. rewrite nth_error_app2 by (now rewrite map_length). now rewrite map_length, Nat.sub_diag. }
  exists h0, h, p, j. rewrite S. unfold pos. replace (Z.of_nat (length (o_got x ++ buf))) with (o_taken x) by (rewrite A5, app_length; unfold zlen; lia). rewrite Z.add_assoc. auto.
Qed.

Lemma push_total iss sc x h p : is_seq iss -> alone iss sc x -> wire h p -> c_reset (o_conn x) = false ->
  h_rst h = true \/ h_syn h = true \/ heard x /\ (sc = false \/ spoke x) -> sact x (XPush h p) <> None.
Proof.
  intros IS H WI NR G. destruct (alone_ok iss sc x IS H) as (k & r & buf & Z). cbn [sact]. unfold push_packet. rewrite NR. cbn [negb]. rewrite assert_true by reflexivity. destruct (h_rst h) eqn:HR.
  { destruct (recv_window (o_conn x)) as [w|]; [destruct (h_seq h =? start w); [ob; discriminate|destruct (contains w (h_seq h)); ob; discriminate]|ob; discriminate]. }
  destruct (take_syn_ok iss sc x k r buf h p IS Z WI NR HR) as (c1 & q & h0 & E & Y).
  { destruct G as [G|[G|(G & _)]]; [congruence|auto|]. left. intros X. pose proof (z_rcv _ _ _ _ _ _ Z) as R. rewrite X in R. destruct R as (R & _). contradiction. }
  rewrite E. ob. destruct (push_rest iss sc x k r buf h p IS Z WI NR HR c1 q h0 Y) as (c2 & n2 & k' & r' & buf' & E2 & _); [|rewrite E2; ob; discriminate].
  destruct (h_syn h) eqn:HS; [auto|]. right. destruct G as [G|[G|(G1 & G2)]]; try discriminate. rewrite (x_conf _ _ _ _ (y_ws _ _ _ _ _ _ _ _ _ Y)), (y_open _ _ _ _ _ _ _ _ _ Y). cbn [is_none negb]. rewrite andb_true_r.
  destruct G2 as [-> |G2]; [reflexivity|]. rewrite (y_sent _ _ _ _ _ _ _ _ _ Y). rewrite (proj2 (z_spoke _ _ _ _ _ _ Z) G2). apply orb_true_r.
Qed.

(** Popping, and asking whether there is something to pop, do not panic. *)
Lemma next_total iss sc x k r buf : is_seq iss -> zok iss sc x k r buf ->
  is_configured (c_ws (o_conn x)) = true \/ c_need_rst (o_conn x) = false /\ (c_recv (o_conn x) = None \/ k = 0 /\ 0 < c_win (o_conn x)) ->
  exists o, next_segment (o_conn x) = Some o.
Proof.
  intros IS Z G. destruct Z as [Z1 Z2 Z3 Z4 Z5 Z6 Z7 Z8 Z9 Z10 Z11 Z12 Z13]. set (str := stream (o_wrote x) (o_shut x)) in *. destruct (pop_any iss str k (o_conn x) Z1 Z5) as (t & TB & NS & PP & TU).
  rewrite <- NS. set (c := retx (o_conn x) (pos iss t)) in *. pose proof (so_k _ _ _ _ Z1) as KB.
  assert (Z1' : sq_ok iss (stream (o_wrote x) (o_shut x)) k (c_sq c)) by now apply sq_ok_tx. assert (S3 : tx (c_sq c) = pos iss t) by reflexivity.
  change (c_win (o_conn x)) with (c_win c) in *. change (c_ws (o_conn x)) with (c_ws c) in *. change (c_recv (o_conn x)) with (c_recv c) in *. change (c_need_rst (o_conn x)) with (c_need_rst c) in *.
  unfold next_segment. destruct (c_need_rst c).
  - rewrite (unsent_ok iss (o_wrote x) (o_shut x) k t c Z1' S3 TB Z10). ob. eauto.
  - destruct (c_reset c); [eauto|].
    destruct (next_data_ok iss (o_wrote x) (o_shut x) k t (c_win c) (c_sq c) Z1' S3 TB Z10 c eq_refl eq_refl) as (d & E & D). rewrite E. ob. destruct d as [d|].
    + ob. destruct (negb (o_syn d) && negb (is_configured (c_ws c))); eauto.
    + assert (exists u, match recv_window c with None => Some false | Some w => do s <- recv_shift (c_ws c); Some (negb (match c_last_adv c with Some x0 => x0 =? Z.shiftl (Z.shiftr (len w) s) s | None => false end)) end = Some u) as (u & ->).
      { unfold recv_window. destruct (c_recv c) as [(q, cl)|] eqn:CR; [|eauto]. assert (is_configured (c_ws c) = true) as CF.
        { destruct (is_configured (c_ws c)) eqn:CF; [reflexivity|]. destruct G as [G|(_ & [G|(K0 & W0)])]; [discriminate G|discriminate G|]. exfalso.
          destruct Z13 as (h0 & A1 & _). rewrite (x_conf _ _ _ _ Z11), A1 in CF. cbn [is_none negb] in CF. rewrite andb_true_r in CF. apply orb_false_iff in CF. destruct CF as (_ & CF).
          destruct (Z6 K0) as (t0 & T1 & T2 & T3). assert (t = t0) as -> by (apply TU; [exact T1|blia]). rewrite T3 in CF. apply Z.ltb_ge in CF.
          pose proof (stream_len (o_wrote x) (o_shut x)). pose proof (zlen_nonneg (o_wrote x)). fold str in D. destruct D as [D|D]; [|blia]. fold str in H. destruct (o_shut x); blia. }
        unfold recv_shift. rewrite CF. rewrite assert_true by reflexivity. ob. eauto. }
      ob. destruct (c_need_ack c || u); [|ob; eauto]. rewrite (unsent_ok iss (o_wrote x) (o_shut x) k t c Z1' S3 TB Z10). ob.
      match goal with |- context [if ?b then _ else _] => destruct b end; eauto.
Qed.
Lemma pop_total iss sc x k r buf : is_seq iss -> zok iss sc x k r buf ->
  is_configured (c_ws (o_conn x)) = true \/ c_need_rst (o_conn x) = false /\ (c_recv (o_conn x) = None \/ k = 0 /\ 0 < c_win (o_conn x)) ->
  exists c' o, pop_packet (o_conn x) = Some (c', o).
Proof.
  intros IS Z G. destruct (next_total iss sc x k r buf IS Z G) as (o & N). destruct Z as [Z1 Z2 Z3 Z4 Z5 Z6 Z7 Z8 Z9 Z10 Z11 Z12 Z13]. set (str := stream (o_wrote x) (o_shut x)) in *.
  destruct (pop_any iss str k (o_conn x) Z1 Z5) as (t & TB & NS & PP & TU). rewrite <- NS in N. rewrite PP. clear PP NS. set (c := retx (o_conn x) (pos iss t)) in *. pose proof (so_k _ _ _ _ Z1) as KB.
  assert (Z1' : sq_ok iss (stream (o_wrote x) (o_shut x)) k (c_sq c)) by now apply sq_ok_tx. assert (S3 : tx (c_sq c) = pos iss t) by reflexivity.
  change (c_win (o_conn x)) with (c_win c) in *. change (c_ws (o_conn x)) with (c_ws c) in *. change (c_recv (o_conn x)) with (c_recv c) in *. change (c_need_rst (o_conn x)) with (c_need_rst c) in *.
  unfold pop_packet. rewrite N. ob. destruct o as [o|]; [|ob; eauto].
  destruct (next_segment_inv iss (o_wrote x) (o_shut x) k t c Z1' S3 TB Z10 o N) as (l & L0 & L1 & L2 & RG & SY & MS & RN & R0 & RR & CF).
  assert (WL : 0 <= recv_window_len c <= recv_window_max (c_ws c)).
  { pose proof (max_nonneg (c_ws c)). unfold recv_window_len. destruct (c_recv c) as [(q, cl)|] eqn:CR.
    - destruct Z13 as (h0 & _ & _ & _ & RO & _). rewrite (recv_window_rng _ _ r buf q cl CR RO). pose proof (wlen_bounds c buf (ro_small _ _ _ _ RO)). pose proof (zlen_nonneg buf). rewrite len_rng by blia. unfold wlen in *. blia.
    - unfold recv_window. rewrite CR. unfold RECV_BUF_MAX. blia. }
  destruct (match c_recv c with Some (q, _) => (true, rend q) | None => (false, 0) end) as (af, an).
  match goal with |- exists c' o0, match (do r1 <- ?u; _) with _ => _ end = _ => assert (exists c1 size scale, u = Some (c1, size, scale) /\ size <= 65535 /\ c_sq c1 = c_sq c /\ c_need_rst c1 = c_need_rst c) as (c1 & size & scale & -> & SZ & C1 & C2) end.
  { destruct (o_syn o) eqn:OS.
    - assert (t = 0) as T0 by (unfold syms in SY; cbn [app] in SY; symmetry in SY; eapply cut_syn; [|exact SY]; blia).
      assert (k = 0) as K0 by blia. destruct (Z6 K0) as (t0 & T1 & T2 & T3). assert (t0 = 0) as -> by (symmetry; rewrite <- T0; apply TU; [exact T1|blia]).
      change (0 <? 0) with false in T3. pose proof (x_unsent _ _ _ _ Z11 T3) as WR.
      assert (RM : recv_window_max (c_ws c) = 65535) by (unfold recv_window_max, recv_shift0; rewrite WR; destruct (w_disabled (c_ws c)); reflexivity).
      rewrite assert_true by (apply Z.leb_le; unfold U16_MAX; blia). change (if can_send_scale (c_ws c) then Some (scale_shift RECV_BUF_MAX) else None) with (scale_of (c_ws c)).
      unfold sent_syn. rewrite T3. cbn [negb]. rewrite assert_true by reflexivity.
      unfold scale_of, can_send_scale. destruct (w_disabled (c_ws c)) eqn:WD; cbn [orb negb is_none]; [|destruct (w_received (c_ws c) && is_none (w_send (c_ws c))); cbn [orb negb is_none]];
        rewrite !assert_true by (rewrite ?orb_true_r; reflexivity); ob; do 3 eexists; (split; [reflexivity|]); cbn; repeat split; blia.
    - assert (is_configured (c_ws c) = true) as CC by (destruct (o_rst o) eqn:OR; [destruct G as [G|(G & _)]; congruence|now apply CF]).
      unfold recv_shift. rewrite CC. rewrite assert_true by reflexivity. ob. do 3 eexists. split; [reflexivity|]. split; [|split; reflexivity].
      pose proof (x_rshift _ _ _ _ Z11) as SH. unfold recv_window_max in WL. destruct SH as [E | E]; rewrite E in *.
      + rewrite Z.shiftl_0_r in WL. rewrite Z.shiftr_0_r. blia.
      + rewrite Z.shiftr_div_pow2 by blia. change (Z.shiftl 65535 1) with 131070 in WL. change (2 ^ 1) with 2. apply Z.div_le_upper_bound; blia. }
  ob. rewrite assert_true by (apply Z.leb_le; unfold U16_MAX; blia). cbn [set_need_ack c_sq]. rewrite C1, RG. cbn [end_ rng]. rewrite (mark_ok iss (stream (o_wrote x) (o_shut x)) k (c_sq c) (t + l) Z1') by blia. ob.
  cbn [set_sq set_need_ack c_need_rst]. destruct (o_rst o) eqn:OR; [rewrite assert_true by congruence|]; ob; eauto.
Qed.
Lemma pop_main iss sc x : is_seq iss -> alone iss sc x ->
  (sc = false \/ heard x /\ spoke x) \/ c_need_rst (o_conn x) = false /\ (~ heard x \/ forall h p, In (h, p) (o_in x) -> h_ack h = false /\ 0 < h_win h) ->
  sact x XPop <> None.
Proof.
  intros IS H G. destruct (alone_ok iss sc x IS H) as (k & r & buf & Z). cbn [sact].
  enough (exists c' o, pop_packet (o_conn x) = Some (c', o)) as (c' & o & ->) by (ob; discriminate).
  apply (pop_total iss sc x k r buf IS Z). destruct Z as [Z1 Z2 Z3 Z4 Z5 Z6 Z7 Z8 Z9 Z10 Z11 Z12 Z13]. destruct G as [G|(NR & G)]; [left|right].
  - rewrite (x_conf _ _ _ _ Z11). destruct G as [-> |(G1 & G2)]; [reflexivity|]. rewrite (proj2 Z12 G2). unfold heard in G1. destruct (opening (o_in x)); [apply orb_true_r|congruence].
  - split; [exact NR|]. destruct G as [G|G].
    + left. destruct (c_recv (o_conn x)) as [(q, cl)|]; [|reflexivity]. destruct Z13 as (h0 & O & _). exfalso. apply G. unfold heard. congruence.
    + right. split.
      * destruct Z8 as [?|(h & p & I & A & _)]; [assumption|]. destruct (G h p I). congruence.
      * destruct Z9 as [-> |(h & p & I & -> & _)]; [reflexivity|]. destruct (G h p I) as (_ & W). unfold grant. apply Z.mul_pos_pos; [exact W|]. pose proof (x_b _ _ _ _ Z11) as B.
        destruct (h_syn h); [lia|]. destruct sc; [|lia]. destruct (offered (o_in x)) as [s|]; [|lia]. apply Z.pow_pos_nonneg; [lia|]. specialize (B s eq_refl). lia.
Qed.
Lemma user_main iss sc x : is_seq iss -> alone iss sc x ->
  (forall data, o_shut x = false -> sact x (XWrite data) <> None) /\ (o_shut x = false -> sact x XShut <> None) /\ (forall n, 0 <= n <= U32_MAX -> heard x -> sact x (XRead n) <> None).
Proof.
  intros IS H. destruct (alone_ok iss sc x IS H) as (k & r & buf & Z). split; [|split].
  - intros data NS. destruct (x_write iss sc x k r buf IS Z data NS) as (x' & E & _). congruence.
  - intros NS. destruct (x_shut iss sc x k r buf IS Z NS) as (x' & E & _). congruence.
  - intros n N HE. destruct (x_read iss sc x k r buf IS Z n N) as (x' & E & _); [|congruence]. pose proof (z_rcv _ _ _ _ _ _ Z) as R. intros X. rewrite X in R. destruct R as (R & _). contradiction.
Qed.

(** * Running a list of operations *)
Lemma permitsb_ok x o : permitsb x o = true -> permits x o.
Proof.
  destruct o as [d| |n| |h p| |]; cbn [permitsb permits]; auto.
  - now destruct (o_shut x).
  - now destruct (o_shut x).
  - rewrite andb_true_iff, !Z.leb_le. auto.
  - rewrite !andb_true_iff, !Z.leb_le, !Z.ltb_lt. intros ((((A & B) & C) & D) & E). unfold wire, is_seq. split; [exact A|]. split; [exact B|]. split; [exact C|]. split; [|exact E].
    intros s X. rewrite X in D. apply andb_true_iff in D. rewrite !Z.leb_le in D. exact D.
Qed.
Lemma sexec_alone iss sc : forall l x x', alone iss sc x -> sexec x l = Some x' -> alone iss sc x'.
Proof.
  induction l as [|o l IH]; intros x x' H E; cbn in E; [injection E as <-; exact H|].
  destruct (permitsb x o) eqn:P; [rewrite assert_true in E by reflexivity|discriminate E]. destruct (sact x o) as [x1|] eqn:S; [ob_in E|discriminate E]. eapply IH; [|exact E]. eapply AStep; eauto. now apply permitsb_ok.
Qed.
Lemma srun_case iss sc l (P : solo -> Prop) : match srun iss sc l with Some x => P x | None => False end -> exists x, alone iss sc x /\ P x.
Proof.
  destruct (srun iss sc l) as [x|] eqn:E; [|contradiction]. intros H. exists x. split; [|exact H]. unfold srun in E. destruct (conn_new 1 2 iss sc) as [c|] eqn:C; [|discriminate E]. ob_in E.
  eapply sexec_alone; [|exact E]. eapply AStart; eauto.
Qed.
Lemma reset_main iss sc x h p x' h0 : is_seq iss -> alone iss sc x -> opening (o_in x) = Some h0 -> h_rst h = true -> sact x (XPush h p) = Some x' ->
  c_reset (o_conn x) = false /\ (c_reset (o_conn x') = true <-> h_seq h = (h_seq h0 + 1 + o_taken x + b2z (received_fin (o_conn x))) mod 4294967296) /\ o_taken x' = o_taken x /\ o_wrote x' = o_wrote x /\ c_sq (o_conn x') = c_sq (o_conn x).
Proof.
  intros IS H O HR E. destruct (alone_ok iss sc x IS H) as (k & r & buf & Z). pose proof (z_rcv _ _ _ _ _ _ Z) as R. cbn [sact] in E. unfold push_packet in E. destruct (c_reset (o_conn x)) eqn:NRS; [discriminate E|]. cbn [negb] in E. rewrite assert_true in E by reflexivity.
  rewrite HR in E. split; [reflexivity|]. unfold received_fin. destruct (c_recv (o_conn x)) as [(q, cl)|] eqn:CR; [|destruct R as (R & _); congruence]. destruct R as (h1 & A1 & A2 & A3 & A4 & A5 & A6 & A7). assert (h1 = h0) as -> by congruence.
  destruct A3 as [A3|A3]; [congruence|]. rewrite (recv_window_rng _ _ r buf q cl CR A4) in E. cbn [start rng] in E.
  assert (PR : pos (h_seq h0) r = (h_seq h0 + 1 + o_taken x + b2z cl) mod 4294967296) by (rewrite A6, A3, A2; unfold pos; f_equal; cbn [b2z]; lia). rewrite <- PR.
  destruct (Z.eqb_spec (h_seq h) (pos (h_seq h0) r)) as [Q|Q].
  - ob_in E. injection E as <-. cbn. rewrite Z.add_0_r. tauto.
  - destruct (contains _ _); ob_in E; injection E as <-; cbn; rewrite Z.add_0_r, NRS; (split; [|auto]); split; [discriminate|contradiction|discriminate|contradiction].
Qed.

(** * A packet in order *)
Lemma syms_eq s b f s' b' f' : syms s b f = syms s' b' f' -> s = s' /\ b = b' /\ f = f'.
Proof.
  unfold syms. assert (T : forall l l' : list Z, forall g g' : bool, map SByte l ++ (if g then [SFin] else []) = map SByte l' ++ (if g' then [SFin] else []) -> l = l' /\ g = g').
  { induction l as [|y l IH]; intros [|y' l'] g g' E; cbn in E.
    - destruct g, g'; try discriminate E; auto.
    - destruct g; discriminate E.
    - destruct g'; discriminate E.
    - injection E as -> E. destruct (IH _ _ _ E) as (-> & ->). auto. }
  destruct s, s'; cbn [app]; intros E; [injection E as E|destruct b'; [destruct f'|]; discriminate E|destruct b; [destruct f|]; discriminate E|]; destruct (T _ _ _ _ E); auto.
Qed.
Lemma x_inorder iss sc x k r buf h0 h p x' : is_seq iss -> zok iss sc x k r buf -> wire h p -> opening (o_in x) = Some h0 -> c_reset (o_conn x) = false -> h_rst h = false -> h_syn h = false ->
  h_seq h = (h_seq h0 + 1 + o_taken x + b2z (received_fin (o_conn x))) mod 4294967296 ->
  (received_fin (o_conn x) = true -> pkt_syms h p = []) -> (c_rst_if_payload (o_conn x) = true -> concat p = []) ->
  zlen (pkt_syms h p) <= Z.min 65535 (100000 - (o_taken x - zlen (o_got x))) -> sact x (XPush h p) = Some x' ->
  c_reset (o_conn x') = false /\ o_taken x' = o_taken x + zlen (concat p) /\ received_fin (o_conn x') = received_fin (o_conn x) || h_fin h /\
  exists k' r' buf', zok iss sc x' k' r' buf' /\ k <= k' /\ (k' = k \/ h_ack h = true /\ h_acknum h = pos iss k') /\
    (h_ack h = true -> h_acknum h = pos iss (zlen (stream (o_wrote x) (o_shut x))) -> k' = zlen (stream (o_wrote x) (o_shut x))).
Proof.
  intros IS Z WI O NR HR HS SQ RF RP FIT E. destruct (x_push iss sc x k r buf h p x' IS Z WI E) as (k' & r' & buf' & KK & Z'). set (str := stream (o_wrote x) (o_shut x)) in *.
  pose proof (z_rcv _ _ _ _ _ _ Z) as R. unfold received_fin in SQ, RF |- *. destruct (c_recv (o_conn x)) as [(q, cl)|] eqn:CR; [|destruct R; congruence]. destruct R as (h1 & A1 & A2 & A3 & A4 & A5 & A6 & A7). assert (h1 = h0) as -> by congruence. destruct A3 as [A3|A3]; [congruence|].
  pose proof (z_sq _ _ _ _ _ _ Z) as Q. fold str in Q. pose proof (so_k _ _ _ _ Q) as KB. pose proof (so_small _ _ _ _ Q) as KS.
  cbn [sact] in E. unfold push_packet in E. rewrite NR, HR in E. cbn [negb] in E. rewrite assert_true in E by reflexivity. unfold take_syn in E. rewrite CR in E. cbn [is_none andb obind] in E.
  destruct (push_segment (o_conn x) h p) as [(c', n)|] eqn:PS; [|discriminate E]. ob_in E. injection E as <-. cbn [fst snd o_conn o_taken o_wrote o_shut o_got] in *.
  destruct WI as (W1 & W2 & W3 & W4 & W5). destruct (pos_from iss (zlen str + 1 - 4294967296) (h_acknum h) W2) as (a & HA & AB).
  assert (HSQ : h_seq h = pos (h_seq h0) r) by (rewrite SQ; unfold pos; f_equal; rewrite A6, A3, A2; cbn [b2z]; lia).
  pose proof (ro_small _ _ _ _ A4) as BS. pose proof (wlen_bounds (o_conn x) buf BS) as WB. pose proof (zlen_nonneg (pkt_syms h p)) as SN. pose proof (zlen_nonneg buf) as BN.
  assert (WL : zlen (pkt_syms h p) <= wlen (o_conn x) buf) by (unfold wlen; pose proof (x_wmax _ _ _ _ (z_ws _ _ _ _ _ _ Z)); lia).
  subst cl. destruct (push_segment_ok (o_conn x) h p iss str k (h_seq h0) r buf q r a CR A4 Q HSQ HA) as [(_ & _ & X)|(c2 & n2 & X & PU)]; [lia|lia|lia|lia|auto|congruence|]. rewrite PS in X. injection X as <- <-.
  rewrite cut_all in PU by lia. rewrite Z.max_id in PU.
  assert (OV : meets r (r + zlen (pkt_syms h p)) r (r + wlen (o_conn x) buf) = true).
  { unfold meets. destruct (Z.eqb_spec r (r + zlen (pkt_syms h p))); destruct (Z.eqb_spec r (r + wlen (o_conn x) buf)).
    - apply Z.eqb_refl.
    - apply andb_true_iff. rewrite Z.leb_le, Z.ltb_lt. lia.
    - lia.
    - apply Z.ltb_lt. lia. }
  inversion PU as [Y|Y WHY X1 X2|q' sq' acked n' Y NRP NCL TA AK X1 X2]; [congruence| |rewrite Z.eqb_refl in *; cbn [andb] in *].
  { exfalso. destruct WHY as [(B1 & b & B2)|[(B1 & B2)|(B1 & B2)]].
    - unfold pkt_syms, syms in B2. rewrite (RP B1), HS in B2. cbn in B2. destruct (h_fin h); [destruct B2 as [B2|[]]; discriminate B2|exact B2].
    - auto.
    - unfold pkt_syms, syms in B2. rewrite HS in B2. cbn [app] in B2. apply in_app_iff in B2. destruct B2 as [B2|B2]; [apply in_map_iff in B2; destruct B2 as (b & B2 & _); discriminate B2|].
      destruct (h_fin h); [destruct B2 as [B2|[]]; discriminate B2|exact B2]. }
  subst c' n'. cbn [after_push c_reset c_recv] in *. split; [exact NR|].
  assert (TF : n = zlen (concat p) /\ rfin q' = rfin q || h_fin h).
  { destruct (rfin q) eqn:RQ; cbn [negb orb] in *.
    - destruct TA as (-> & ->). specialize (RF eq_refl). unfold pkt_syms in RF. change (@nil sym) with (syms false [] false) in RF. apply syms_eq in RF. destruct RF as (_ & -> & _). split; [reflexivity|exact RQ].
    - destruct TA as (s1 & b & f & T1 & -> & _ & _ & RF' & _). unfold pkt_syms in T1. apply syms_eq in T1. destruct T1 as (_ & -> & ->). auto. }
  destruct TF as (-> & ->). split; [reflexivity|]. split; [reflexivity|]. exists k', r', buf'. split; [exact Z'|]. split; [exact KK|].
  pose proof (z_sq _ _ _ _ _ _ Z') as Q'. cbn [o_conn after_push c_sq o_wrote o_shut] in Q'. fold str in Q'. pose proof (so_k _ _ _ _ Q') as KB'.
  assert (UN : forall j, k <= j -> sq_ok iss str j sq' -> k' = j).
  { intros j J QJ. pose proof (so_k _ _ _ _ QJ) as KJ. pose proof (so_start _ _ _ _ QJ) as S1. pose proof (so_start _ _ _ _ Q') as S2. rewrite S1 in S2. symmetry. apply (pos_inj iss); [lia|exact S2]. }
  destruct (h_ack h && ((k <? a) && (a <=? zlen str))) eqn:AC.
  - apply andb_true_iff in AC. destruct AC as (AC1 & AC2). apply andb_true_iff in AC2. destruct AC2 as (AC2 & AC3). apply Z.ltb_lt in AC2. apply Z.leb_le in AC3. destruct AK as (B1 & _). assert (k' = a) as -> by (apply UN; [lia|exact B1]).
    split; [right; auto|]. intros _ X. apply (pos_inj iss); [lia|congruence].
  - destruct AK as (-> & _). assert (k' = k) as -> by (apply UN; [lia|exact Q]). split; [auto|]. intros H1 X. rewrite H1 in AC. cbn [andb] in AC. rewrite HA in X.
    destruct (Z.ltb_spec k a) as [L1|L1]; destruct (Z.leb_spec a (zlen str)) as [L2|L2]; try discriminate AC.
    + apply (pos_inj iss) in X; [|lia]. lia.
    + apply (pos_inj iss) in X; [|lia]. lia.
    + lia.
Qed.
Lemma accepts_main iss sc x h p x' h0 : is_seq iss -> alone iss sc x -> wire h p -> opening (o_in x) = Some h0 -> c_reset (o_conn x) = false -> h_rst h = false -> h_syn h = false ->
  h_seq h = (h_seq h0 + 1 + o_taken x) mod 4294967296 -> received_fin (o_conn x) = false -> c_rst_if_payload (o_conn x) = false ->
  zlen (concat p) + b2z (h_fin h) <= Z.min 65535 (100000 - (o_taken x - zlen (o_got x))) -> sact x (XPush h p) = Some x' ->
  c_reset (o_conn x') = false /\ o_taken x' = o_taken x + zlen (concat p) /\ received_fin (o_conn x') = h_fin h.
Proof.
  intros IS A W O NR HR HS SQ RF RP FIT E. destruct (alone_ok iss sc x IS A) as (k & r & buf & Z).
  destruct (x_inorder iss sc x k r buf h0 h p x' IS Z W O NR HR HS) as (R1 & R2 & R3 & _); auto; try congruence.
  - rewrite RF. cbn [b2z]. rewrite SQ. f_equal. lia.
  - unfold pkt_syms. rewrite syms_len, HS. cbn [b2z]. lia.
  - rewrite RF in R3. auto.
Qed.
