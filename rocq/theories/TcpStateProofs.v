From Verif Require Import Base SeqModel SeqSpec SeqProofs TcpBufModel TcpBufSpec TcpBufProofs TcpQueueProofs TcpConnModel TcpConnSpec TcpConnProofs TcpNetProofs TcpSoloSpec TcpSoloProofs TcpStateModel TcpStateSpec.

(** * Packets and the flags of a connection *)
Ltac ifs E := match type of E with context [if ?b then _ else _] => destruct b eqn:?; try discriminate E; cbn [assert_then obind] in E end.
Record kept (c c' : conn) : Prop := {
  kp_local : c_local c' = c_local c; kp_remote : c_remote c' = c_remote c; kp_sclosed : c_sclosed c' = c_sclosed c;
  kp_fin : received_fin c = true -> received_fin c' = true;
  kp_recv : c_recv c <> None -> c_recv c' <> None;
  kp_rst : c_rst_if_payload c' = c_rst_if_payload c }.
Lemma kept_refl c : kept c c. Proof. constructor; auto. Qed.
Lemma kept_trans a b c : kept a b -> kept b c -> kept a c.
Proof. intros [] []. constructor; auto; congruence. Qed.
Lemma take_syn_kept c h c' : take_syn c h = Some c' -> kept c c' /\ c_reset c' = c_reset c /\ c_need_rst c' = c_need_rst c /\ (c_recv c = None -> h_syn h = false -> c_recv c' = None) /\ c_sq c' = c_sq c /\ c_syn_acked c' = c_syn_acked c.
Proof.
  unfold take_syn. destruct (c_recv c) as [(q, cl)|] eqn:R; cbn [is_none andb].
  - intros E. injection E as <-. rewrite R. repeat split; auto; try discriminate.
  - destruct (h_syn h) eqn:S; [|intros E; injection E as <-; rewrite R; repeat split; auto].
    destruct (received_syn (c_ws c) (h_scale h)); [|discriminate]. ob. intros E. injection E as <-.
    split; [constructor; unfold received_fin; cbn; rewrite ?R; auto; discriminate|]. repeat split; auto. discriminate.
Qed.
Lemma take_ack_kept c h c' : take_ack c h = Some c' -> kept c c' /\ c_reset c' = c_reset c /\ c_need_rst c' = c_need_rst c /\ c_recv c' = c_recv c.
Proof.
  unfold take_ack. destruct (h_ack h); [|intros E; injection E as <-; auto using kept_refl].
  match goal with |- context [contains ?a ?b] => destruct (contains a b) end; [|intros E; injection E as <-; auto using kept_refl].
  match goal with |- context [if ?b then _ else _] => destruct b end; (match goal with |- context [advance_start ?a ?b] => destruct (advance_start a b) end; [|discriminate]); ob; intros E; injection E as <-; repeat split; auto.
Qed.
Lemma take_segment_closed q h p q' cl n : take_segment q true h p = Some (Some (q', cl, n)) -> cl = true.
Proof. unfold take_segment. intros E. injection E as _ <- _. reflexivity. Qed.
Lemma push_segment_kept c h p c' n : push_segment c h p = Some (c', n) ->
  kept c c' /\ (c_reset c' = false -> c_need_rst c' = c_need_rst c) /\ (c_reset c' = true -> c_reset c = false -> c_need_rst c' = true) /\ (c_reset c' = false -> c_reset c = false) /\ c_recv c <> None.
Proof.
  unfold push_segment. destruct (recv_window c) as [w|] eqn:RW; [ob|discriminate].
  assert (NN : c_recv c <> None) by (unfold recv_window in RW; destruct (c_recv c); [discriminate|discriminate RW]).
  destruct (trim_segment h p w) as [[(h1, p1)|]|]; [ob|ob|discriminate].
  - destruct (c_recv c) as [(q, cl)|] eqn:CR; [|congruence].
    destruct (c_rst_if_payload c && negb (pay_empty p1)); [intros E; injection E as <- _; rewrite <- CR; repeat split; cbn; auto; congruence|].
    destruct (cl && (negb (pay_empty p1) || h_syn h1 || h_fin h1)); [intros E; injection E as <- _; rewrite <- CR; repeat split; cbn; auto; congruence|].
    destruct (take_segment q cl h1 p1) as [[((q', cl'), m)|]|] eqn:TS; [ob|ob|discriminate].
    + set (c1 := if negb (rend q' =? rend q) then _ else _).
      assert (K1 : kept c c1 /\ c_reset c1 = c_reset c /\ c_need_rst c1 = c_need_rst c).
      { subst c1. unfold received_fin in *. destruct (negb (rend q' =? rend q)); cbn; (split; [|auto]); constructor; unfold received_fin; cbn; auto; try discriminate;
          rewrite CR; intros ->; exact (take_segment_closed q h1 p1 q' cl' m TS). }
      match goal with |- context [obind (if h_syn h then ?a else ?b) _] => set (u := if h_syn h then a else b) end.
      destruct u as [c2|] eqn:U; [ob|discriminate].
      assert (K2 : kept c1 c2 /\ c_reset c2 = c_reset c1 /\ c_need_rst c2 = c_need_rst c1).
      { subst u. destruct (h_syn h); [injection U as <-; repeat split; auto|]. destruct (send_shift (c_ws c1)); [|discriminate U]. ob_in U. injection U as <-. repeat split; auto. }
      destruct (take_ack c2 h1) as [c3|] eqn:TA; [ob|discriminate]. intros E. injection E as <- _. destruct (take_ack_kept _ _ _ TA) as (K3 & R3 & N3 & _).
      destruct K1 as (K1 & R1 & N1). destruct K2 as (K2 & R2 & N2). split; [eauto using kept_trans|]. split; [congruence|]. split; [congruence|]. split; [congruence|congruence].
    + intros E. injection E as <- _. rewrite <- CR. repeat split; cbn; auto; congruence.
  - intros E. injection E as <- _. repeat split; cbn; auto; congruence.
Qed.
Lemma push_kept c h p c' n : c_need_rst c = false -> push_packet c h p = Some (c', n) ->
  kept c c' /\ c_reset c = false /\ (c_reset c' = false -> c_need_rst c' = false) /\ (c_reset c' = true -> c_need_rst c' = negb (h_rst h)) /\
  (c_recv c = None -> h_rst h = true /\ c_reset c' = true \/ h_rst h = false /\ h_syn h = true).
Proof.
  intros NN. unfold push_packet. destruct (c_reset c) eqn:CR; [discriminate|]. cbn [negb]. rewrite assert_true by reflexivity. destruct (h_rst h) eqn:HR.
  - intros E. split; [|split; [reflexivity|]].
    + destruct (recv_window c) as [w|]; [|injection E as <- _; repeat split; auto]. destruct (h_seq h =? start w); [injection E as <- _; repeat split; auto|]. destruct (contains w (h_seq h)); injection E as <- _; repeat split; auto.
    + unfold recv_window in E. destruct (c_recv c) as [(q, cl)|]; [|injection E as <- _; cbn; auto].
      match type of E with context [h_seq h =? ?a] => destruct (h_seq h =? a) end; [injection E as <- _; cbn; auto with *|].
      match type of E with context [contains ?a ?b] => destruct (contains a b) end; injection E as <- _; cbn; (split; [auto|]); split; congruence.
  - destruct (take_syn c h) as [c1|] eqn:TS; [ob|discriminate]. destruct (take_syn_kept _ _ _ TS) as (K1 & R1 & N1 & S1 & _). intros E. destruct (push_segment_kept _ _ _ _ _ E) as (K2 & A1 & A2 & A3 & A4).
    split; [eauto using kept_trans|]. split; [reflexivity|]. split; [intros X; rewrite A1 by exact X; congruence|]. split; [intros X; apply A2; congruence|].
    intros X. right. split; [reflexivity|]. destruct (h_syn h) eqn:HS; [reflexivity|]. exfalso. apply A4. auto.
Qed.

(** Popping changes no addresses, nothing received, and tells resets. *)
Lemma pop_kept c c' o : pop_packet c = Some (c', o) -> kept c c' /\ c_recv c' = c_recv c /\ c_reset c' = c_reset c /\ c_syn_acked c' = c_syn_acked c /\ sstart (c_sq c') = sstart (c_sq c) /\ send_ (c_sq c') = send_ (c_sq c) /\
  match o with
  | Some (h, p) => h_rst h = c_need_rst c /\ c_need_rst c' = false /\ (h_rst h = true -> p = []) /\ h_src h = c_local c /\ h_dst h = c_remote c
  | None => c' = c /\ c_need_rst c = false
  end.
Proof.
  unfold pop_packet. destruct (next_segment c) as [[o'|]|] eqn:NS; [ob|ob|discriminate].
  2:{ intros E. injection E as <- <-. repeat split; auto. unfold next_segment in NS. destruct (c_need_rst c); [|reflexivity]. destruct (unsent_seq (c_sq c)); discriminate NS. }
  assert (RS : o_rst o' = c_need_rst c /\ (o_rst o' = true -> o_pay o' = [])).
  { unfold next_segment in NS. destruct (c_need_rst c).
    - destruct (unsent_seq (c_sq c)); [|discriminate NS]. ob_in NS. injection NS as <-. auto.
    - destruct (c_reset c); [discriminate NS|]. destruct (next_data_segment c) as [d|] eqn:ND; [|discriminate NS]. ob_in NS.
      match type of NS with (do o <- ?u; _) = _ => destruct u as [[o1|]|] eqn:U; [ob_in NS|discriminate NS|discriminate NS] end.
      assert (o1 = o') as -> by (destruct (negb (o_syn o1) && negb (is_configured (c_ws c))); [discriminate NS|congruence]). destruct d as [d|].
      + injection U as ->. unfold next_data_segment in ND. destruct (data_loop _ _ _ _) as [a|]; [ob_in ND|discriminate ND].
        match type of ND with (if ?b then _ else _) = _ => destruct b; [|discriminate ND] end. destruct (a_start a); [|discriminate ND]. ob_in ND. injection ND as <-. cbn. split; [reflexivity|discriminate].
      + match type of U with (do o <- ?u; _) = _ => destruct u as [b|]; [ob_in U|discriminate U] end. destruct (c_need_ack c || b); [|discriminate U]. destruct (unsent_seq (c_sq c)); [|discriminate U]. ob_in U. injection U as <-. auto. }
  destruct RS as (RS & RP). destruct (match c_recv c with Some (q, _) => (true, rend q) | None => (false, 0) end) as (af, an).
  match goal with |- (do r <- ?u; _) = _ -> _ => destruct u as [((c1, size), scale)|] eqn:U; [ob|discriminate] end.
  assert (exists a w, c1 = set_ws (set_last_adv c a) w) as (a & w & ->).
  { destruct (o_syn o').
    - destruct (recv_window_len c <=? U16_MAX); [|discriminate U]. rewrite assert_true in U by reflexivity. match type of U with (do w <- ?v; _) = _ => destruct v as [w|]; [ob_in U|discriminate U] end. injection U as <- _ _. eauto.
    - destruct (recv_shift (c_ws c)); [|discriminate U]. ob_in U. injection U as <- _ _. eexists _, (c_ws c). reflexivity. }
  destruct (size <=? U16_MAX); [rewrite assert_true by reflexivity|discriminate]. cbv zeta. destruct (mark_as_transmitted _ _) as [q|] eqn:M; [ob|discriminate].
  assert (sstart q = sstart (c_sq c) /\ send_ q = send_ (c_sq c)) as (Q1 & Q2).
  { unfold mark_as_transmitted in M. match type of M with assert_then ?b _ = _ => destruct b; [|discriminate M] end. cbn in M. injection M as <-. auto. }
  rewrite RS. destruct (c_need_rst c) eqn:CN; cbn [assert_then set_sq set_need_ack set_ws set_last_adv c_need_rst]; rewrite ?CN; cbn [assert_then]; ob; intros E; injection E as <- <-; cbn; rewrite ?Q1, ?Q2, ?CN; repeat split; auto. discriminate.
Qed.

(** * The invariant *)
Definition solo_of (s : sess) (c : conn) : solo :=
  {| o_conn := c; o_wrote := s_wrote s; o_shut := s_shut s; o_got := s_got s; o_taken := s_taken s; o_in := pkts s; o_out := s_out s |}.
Definition shut_in (k : kind) : bool := match k with SynSent | SynReceived | Established | CloseWait => false | _ => true end.
Definition kind_ok (s : sess) (k : kind) (c : conn) : Prop :=
  match k with
  | SynSent => s_in s = [] /\ c_recv c = None /\ s_wrote s = []
  | SynReceived => c_recv c <> None /\ s_wrote s = [] /\ (forall e, In e (s_in s) -> early (fst e) = true)
  | Established => c_recv c <> None /\ c_syn_acked c = true /\ (received_fin c = true -> fin_early s)
  | CloseWait => received_fin c = true /\ c_syn_acked c = true
  | FinWaitOne => c_recv c <> None /\ fin_was_acked c = false /\ (received_fin c = true -> fin_early s)
  | FinWaitTwo => c_recv c <> None /\ fin_was_acked c = true /\ received_fin c = false
  | Closing => received_fin c = true /\ fin_was_acked c = false
  | TimeWait => received_fin c = true /\ fin_was_acked c = true
  | LastAck => received_fin c = true /\ fin_was_acked c = false /\ c_syn_acked c = true
  end.
Record conn_ok (sc : bool) (s : sess) (k : kind) (c : conn) : Prop := {
  co_alone : alone 0 sc (solo_of s c);
  co_reset : c_reset c = false;
  co_need : c_need_rst c = false;
  co_addr : s_addr s = Some (c_local c, c_remote c);
  co_shut : s_shut s = shut_in k;
  co_kind : kind_ok s k c }.
Definition got_ok (s : sess) : Prop := forall i b, nth_error (s_got s) i = Some b ->
  exists h0 h p j, opening (pkts s) = Some h0 /\ In (h, p) (pkts s) /\ nth_error (pkt_syms h p) j = Some (SByte b) /\
    (h_seq h + Z.of_nat j) mod 4294967296 = (h_seq h0 + 1 + Z.of_nat i) mod 4294967296.
(** The bytes that were accepted and not read yet. *)
Definition left_ok (s : sess) (q : recvq) : Prop := exists h0 r buf, opening (pkts s) = Some h0 /\ rq_ok (h_seq h0) r buf q /\ s_taken s = zlen (s_got s) + zlen buf /\ placed (h_seq h0) (pkts s) (s_got s ++ buf) false.
Definition sock_ok (sc : bool) (s : sess) (so : sock) : Prop :=
  match so with
  | Init sc' => sc' = sc /\ s_addr s = None /\ s_wrote s = [] /\ s_shut s = false /\ s_got s = [] /\ s_taken s = 0 /\ s_in s = [] /\ s_out s = []
  | Conn k c => conn_ok sc s k c
  | Rst l was => was = true /\ (exists h, l = [h] /\ h_rst h = true /\ s_addr s = Some (h_src h, h_dst h)) /\ got_ok s
  | Closed q was => got_ok s /\ (rq_is_empty q = true \/ was = true /\ left_ok s q)
  end.
(** The same history. *)
Record alike (s s' : sess) : Prop := {
  al_addr : s_addr s' = s_addr s; al_wrote : s_wrote s' = s_wrote s; al_shut : s_shut s' = s_shut s; al_got : s_got s' = s_got s;
  al_taken : s_taken s' = s_taken s; al_in : s_in s' = s_in s; al_out : s_out s' = s_out s }.
Lemma conn_alike sc s s' k c : alike s s' -> conn_ok sc s k c -> conn_ok sc s' k c.
Proof.
  intros [E1 E2 E3 E4 E5 E6 E7] [A B C D E F]. constructor; auto; try congruence.
  - replace (solo_of s' c) with (solo_of s c); [exact A|]. unfold solo_of, pkts. congruence.
  - unfold kind_ok, fin_early in *. rewrite E2, E6. exact F.
Qed.
Lemma got_alike s s' : s_in s' = s_in s -> s_got s' = s_got s -> got_ok s -> got_ok s'.
Proof. intros E1 E2. unfold got_ok, pkts. now rewrite E1, E2. Qed.
Lemma sock_alike sc s s' so : alike s s' -> sock_ok sc s so -> sock_ok sc s' so.
Proof.
  intros AL. destruct so; cbn [sock_ok].
  - destruct AL as [-> -> -> -> -> -> ->]. auto.
  - now apply conn_alike.
  - intros (A & B & C). split; [exact A|]. destruct AL as [E1 E2 E3 E4 E5 E6 E7]. rewrite E1. split; [exact B|]. eapply got_alike; eauto.
  - destruct AL as [E1 E2 E3 E4 E5 E6 E7]. unfold got_ok, left_ok, pkts. now rewrite E4, E5, E6.
Qed.
Lemma got_in s l : got_ok s -> forall s', s_got s' = s_got s -> s_in s' = s_in s ++ l -> got_ok s'.
Proof.
  intros G s' E1 E2 i b N. rewrite E1 in N. destruct (G i b N) as (h0 & h & p & j & O & I & R). exists h0, h, p, j. unfold pkts in *. rewrite E2, map_app. split.
  - rewrite opening_app; [exact O|congruence].
  - split; [apply in_or_app; auto|exact R].
Qed.
Lemma seq0 : is_seq 0. Proof. unfold is_seq. lia. Qed.

Lemma fin_acked_zok iss sc x k r buf : zok iss sc x k r buf -> fin_was_acked (o_conn x) = o_shut x && (k =? zlen (stream (o_wrote x) (o_shut x))).
Proof.
  intros [Z1 Z2 Z3 Z4 Z5 Z6 Z7 Z8 Z9 Z10 Z11 Z12 Z13]. unfold fin_was_acked. rewrite Z3. f_equal. pose proof (so_k _ _ _ _ Z1). pose proof (so_small _ _ _ _ Z1).
  rewrite (so_start _ _ _ _ Z1), (so_end _ _ _ _ Z1).
  destruct (Z.eqb_spec k (zlen (stream (o_wrote x) (o_shut x)))) as [<- |N]; [apply Z.eqb_refl|]. apply Z.eqb_neq. intros E. apply pos_inj in E; lia.
Qed.

Lemma zok_of sc s k c : conn_ok sc s k c -> exists i r buf, zok 0 sc (solo_of s c) i r buf.
Proof. intros [A _ _ _ _ _]. exact (alone_ok 0 sc _ seq0 A). Qed.
Lemma conn_got sc s k c : conn_ok sc s k c -> got_ok s.
Proof. intros [A _ _ _ _ _] i b E. exact (place_main 0 sc (solo_of s c) i b seq0 A E). Qed.

Lemma alone_left sc s c : alone 0 sc (solo_of s c) -> c_recv c <> None -> exists q, into_recv_buffer c = Some q /\ left_ok s q.
Proof.
  intros A NN. destruct (alone_ok 0 sc _ seq0 A) as (i & r & buf & Z). pose proof (z_rcv _ _ _ _ _ _ Z) as ZR. cbn [solo_of o_conn] in ZR. unfold into_recv_buffer.
  destruct (c_recv c) as [(q, cl)|]; [|congruence]. destruct ZR as (h0 & O & _ & _ & RQ & TK & _ & PLC). exists q. split; [reflexivity|]. exists h0, r, buf. cbn [solo_of o_in o_got o_taken] in *.
  split; [exact O|]. split; [exact RQ|]. split; [exact TK|]. intros j b N. apply (PLC j b). unfold syms in N |- *. cbn [app] in N |- *. rewrite app_nil_r in N. rewrite nth_error_app1; [exact N|]. apply nth_error_Some. congruence.
Qed.
Definition with_push (s : sess) (k : kind) (h : header) (p : payload) (n : Z) : sess :=
  {| s_tcp := s_tcp s; s_now := s_now s; s_since := s_since s; s_addr := s_addr s; s_wrote := s_wrote s; s_shut := s_shut s; s_got := s_got s; s_taken := s_taken s + n; s_in := s_in s ++ [(k, (h, p))]; s_out := s_out s |}.
Lemma pkts_push s k h p n : pkts (with_push s k h p n) = pkts s ++ [(h, p)].
Proof. unfold pkts. cbn [with_push s_in]. now rewrite map_app. Qed.
Lemma push_facts sc s k c h p c' n : conn_ok sc s k c -> wire h p -> push_packet c h p = Some (c', n) ->
  alone 0 sc (solo_of (with_push s k h p n) c') /\ (c_syn_acked c = true -> c_syn_acked c' = true) /\ (fin_was_acked c = true -> fin_was_acked c' = true) /\
  (s_wrote s = [] -> s_shut s = false -> s_in s = [] -> c_syn_acked c' = true -> h_ack h = true /\ h_acknum h = 1).
Proof.
  intros CO W E. destruct (zok_of _ _ _ _ CO) as (i & r & buf & Z). destruct CO as [A B C D E0 F].
  assert (SA : sact (solo_of s c) (XPush h p) = Some (solo_of (with_push s k h p n) c')).
  { cbn [sact solo_of o_conn]. rewrite E. ob. cbn [fst snd o_wrote o_shut o_got o_taken o_in o_out]. unfold solo_of. rewrite pkts_push. reflexivity. }
  destruct (x_push 0 sc _ i r buf h p _ seq0 Z W SA) as (i' & r' & buf' & LE & Z'). split; [exact (AStep 0 sc _ (XPush h p) _ A W SA)|].
  pose proof (z_acked _ _ _ _ _ _ Z) as K1. pose proof (z_acked _ _ _ _ _ _ Z') as K2. cbn [solo_of o_conn] in K1, K2.
  pose proof (fin_acked_zok _ _ _ _ _ _ Z) as F1. pose proof (fin_acked_zok _ _ _ _ _ _ Z') as F2. cbn [solo_of o_conn o_shut o_wrote with_push s_wrote s_shut] in F1, F2.
  pose proof (so_k _ _ _ _ (z_sq _ _ _ _ _ _ Z')) as KB. cbn [solo_of o_shut o_wrote with_push s_wrote s_shut] in KB.
  split; [|split].
  - rewrite K1, K2, !Z.ltb_lt. lia.
  - rewrite F1, F2, !andb_true_iff, !Z.eqb_eq. intros (S & L). split; [exact S|lia].
  - intros W0 S0 I0 N2. rewrite K2 in N2. apply Z.ltb_lt in N2. rewrite W0, S0 in KB. change (zlen (stream [] false)) with 1 in KB.
    assert (i' = 1) as -> by lia. pose proof (z_k _ _ _ _ _ _ Z') as ZK. cbn [solo_of o_in] in ZK. rewrite pkts_push in ZK. unfold pkts in ZK. rewrite I0 in ZK. cbn [map app] in ZK.
    destruct ZK as [ZK|(h1 & p1 & [X|[]] & R1 & R2)]; [discriminate ZK|]. injection X as <- <-. auto.
Qed.

(** * Resets *)
Lemma was_reset_cases t c t' : was_reset t c = Some t' -> c_reset c = true /\ t_timers t' = t_timers t /\
  if c_need_rst c then exists h, t_sock t' = Rst [h] true /\ h_rst h = true /\ h_src h = c_local c /\ h_dst h = c_remote c else t_sock t' = Closed (rq_new 0) true.
Proof.
  unfold was_reset. destruct (c_reset c); [rewrite assert_true by reflexivity|discriminate]. destruct (pop_packet c) as [(c1, o)|] eqn:P; [ob|discriminate].
  destruct (pop_kept _ _ _ P) as (_ & _ & _ & _ & _ & _ & O). destruct o as [(h, p)|].
  - destruct O as (O1 & O2 & O3 & O4 & O5). destruct (pay_empty p); [rewrite assert_true by reflexivity|discriminate]. destruct (pop_packet c1) as [r|]; [ob|discriminate].
    destruct (is_none (snd r)); [rewrite assert_true by reflexivity|discriminate]. unfold rst_new. cbn [forallb andb]. destruct (h_rst h) eqn:HR; [|discriminate]. cbn.
    intros E. injection E as <-. rewrite <- O1. cbn. split; [reflexivity|]. split; [reflexivity|]. exists h. auto.
  - destruct O as (_ & ->). unfold closed_new. cbn. intros E. injection E as <-. auto.
Qed.
Lemma reset_cases t c t' : reset_connection t c = Some t' -> exists h, t_sock t' = Rst [h] true /\ h_rst h = true /\ h_src h = c_local c /\ h_dst h = c_remote c /\ t_timers t' = t_timers t.
Proof.
  unfold reset_connection. destruct (was_reset t (send_rst c)) as [t1|] eqn:W; [ob|discriminate]. destruct (was_reset_cases _ _ _ W) as (_ & T & (h & S & R & R1 & R2)).
  rewrite S. cbn. intros E. injection E as <-. exists h. auto.
Qed.
Lemma closed_cases t q was t' : closed_new t q was = Some t' -> t_sock t' = Closed (match q with Some q => q | None => rq_new 0 end) was /\ t_timers t' = t_timers t.
Proof. unfold closed_new. match goal with |- context [assert_then ?b] => destruct b end; [|discriminate]. cbn. intros E. injection E as <-. auto. Qed.

(** * A packet arrives *)
Definition stays (t t' : tcp) (k : kind) : Prop := phase_of t' = PConn k /\ t_timers t' = t_timers t.
Lemma fin_early_push s k h p n : fin_early s -> fin_early (with_push s k h p n).
Proof. intros (k0 & h0 & p0 & I & R). exists k0, h0, p0. cbn [with_push s_in]. rewrite in_app_iff. auto. Qed.
Lemma received_fin_early sc s k c h p c' n : conn_ok sc s k c -> early k = true -> (forall e, In e (s_in s) -> early (fst e) = true) ->
  alone 0 sc (solo_of (with_push s k h p n) c') -> received_fin c' = true -> fin_early (with_push s k h p n).
Proof.
  intros CO EK EA A F. destruct (fin_main 0 sc _ seq0 A F) as (h0 & h1 & p1 & j & _ & I & N & _). cbn [solo_of o_in pkts] in I. unfold pkts in I. apply in_map_iff in I. destruct I as ((k1, (h2, p2)) & X & I).
  injection X as -> ->. exists k1, h1, p1. split; [exact I|]. split.
  - cbn [with_push s_in] in I. apply in_app_iff in I. destruct I as [I|[I|[]]]; [exact (EA _ I)|]. injection I as <- _ _. exact EK.
  - unfold pkt_syms, syms in N. destruct (h_fin h1); [reflexivity|]. exfalso. apply nth_error_In in N. rewrite app_nil_r in N. apply in_app_iff in N. destruct N as [N|N].
    + destruct (h_syn h1); [destruct N as [N|[]]; discriminate N|exact N].
    + apply in_map_iff in N. destruct N as (b & N & _). discriminate N.
Qed.
Lemma push_rst c h p c' n : h_rst h = true -> push_packet c h p = Some (c', n) -> c_reset c' = false -> received_fin c' = received_fin c /\ fin_was_acked c' = fin_was_acked c.
Proof.
  intros HR. unfold push_packet. destruct (c_reset c) eqn:CR; [discriminate|]. cbn [negb]. rewrite assert_true by reflexivity. rewrite HR.
  destruct (recv_window c) as [w|]; [|intros E; injection E as <- _; discriminate]. destruct (h_seq h =? start w); [intros E; injection E as <- _; discriminate|].
  destruct (contains w (h_seq h)); intros E; injection E as <- _; auto.
Qed.
Lemma settle_ok sc s k c h p c' n now t t' : conn_ok sc s k c -> wire h p -> push_packet c h p = Some (c', n) -> settle now t k h c' = Some t' ->
  sock_ok sc (with_push s k h p n) (t_sock t') /\
  (stays t t' k \/
   edge (PConn k) (VPush h p) (phase_of t') /\ t_timers t' = t_timers t ++ match phase_of t' with PConn k' => if has_timer k' then [(k', now + TIMEOUT)] else [] | _ => [] end).
Proof.
  intros CO W E. destruct (push_facts _ _ _ _ _ _ _ _ CO W E) as (A & M1 & M2 & M3). destruct (push_kept _ _ _ _ _ (co_need _ _ _ _ CO) E) as (KP & R0 & N0 & N1 & RS).
  assert (GO : got_ok (with_push s k h p n)) by (eapply got_in; [exact (conn_got _ _ _ _ CO)|reflexivity|reflexivity]).
  unfold settle. destruct (c_reset c') eqn:CR.
  { intros X. destruct (was_reset_cases _ _ _ X) as (_ & T & Y). rewrite N1 in Y by reflexivity. destruct (h_rst h) eqn:HR; cbn [negb] in Y.
    - rewrite Y. split; [split; [exact GO|left; reflexivity]|]. right. unfold phase_of. rewrite Y. split; [now apply G_reset|]. rewrite T. cbn. now rewrite app_nil_r.
    - destruct Y as (h1 & Y & HR1 & Y1 & Y2). rewrite Y. split; [split; [reflexivity|]; split; [|exact GO]; exists h1; cbn [with_push s_addr]; rewrite (co_addr _ _ _ _ CO), Y1, Y2, (kp_local _ _ KP), (kp_remote _ _ KP); auto|]. right. unfold phase_of. rewrite Y. split; [apply G_refuse; cbn; now rewrite HR|]. rewrite T. now rewrite app_nil_r. }
  specialize (N0 eq_refl).
  assert (HR : h_rst h = true -> c_recv c <> None) by (intros X Y; destruct (RS Y) as [(_ & Z)|(Z & _)]; congruence).
  assert (CK : forall k', shut_in k' = shut_in k -> kind_ok (with_push s k h p n) k' c' -> conn_ok sc (with_push s k h p n) k' c').
  { intros k' SH KO. destruct CO as [B1 B2 B3 B4 B5 B6]. destruct KP. constructor; auto; cbn [with_push s_addr s_shut]; congruence. }
  assert (ST : forall u, t_sock u = Conn k c' -> t_timers u = t_timers t -> kind_ok (with_push s k h p n) k c' -> sock_ok sc (with_push s k h p n) (t_sock u) /\ (stays t u k \/
     edge (PConn k) (VPush h p) (phase_of u) /\ t_timers u = t_timers t ++ match phase_of u with PConn k' => if has_timer k' then [(k', now + TIMEOUT)] else [] | _ => [] end)).
  { intros u U1 U2 KO. rewrite U1. split; [apply CK; auto|]. left. split; [unfold phase_of; now rewrite U1|exact U2]. }
  assert (EN : forall k', shut_in k' = shut_in k -> kind_ok (with_push s k h p n) k' c' -> edge (PConn k) (VPush h p) (PConn k') ->
     sock_ok sc (with_push s k h p n) (t_sock (enter t now k' c')) /\ (stays t (enter t now k' c') k \/
     edge (PConn k) (VPush h p) (phase_of (enter t now k' c')) /\ t_timers (enter t now k' c') = t_timers t ++ match phase_of (enter t now k' c') with PConn k' => if has_timer k' then [(k', now + TIMEOUT)] else [] | _ => [] end)).
  { intros k' SH KO ED. split; [apply CK; auto|]. right. split; [exact ED|reflexivity]. }
  assert (PL : received_fin c' <> received_fin c \/ fin_was_acked c' <> fin_was_acked c -> plain (VPush h p) = true).
  { intros D. cbn [plain]. destruct (h_rst h) eqn:HR1; [|reflexivity]. destruct (push_rst _ _ _ _ _ HR1 E CR). destruct D; congruence. }
  assert (RF : received_fin c' = true -> c_recv c' <> None) by (unfold received_fin; destruct (c_recv c'); discriminate).
  pose proof (co_kind _ _ _ _ CO) as KO. pose proof (kp_fin _ _ KP) as KF. pose proof (kp_recv _ _ KP) as KR. pose proof (co_shut _ _ _ _ CO) as SH. destruct k; cbn [kind_ok] in KO; cbn [shut_in] in SH.
  - (* SynSent *) destruct KO as (I0 & C0 & W0). destruct (RS C0) as [(X & Y)|(X & Y)]; [congruence|].
    assert (E1 : forall e, In e (s_in s) -> early (fst e) = true) by (rewrite I0; intros e []).
    destruct (c_recv c') as [(q, cl)|] eqn:CR'; cbn [is_none negb andb].
    + assert (NN : c_recv c' <> None) by congruence. destruct (c_syn_acked c') eqn:AK; intros X1; injection X1 as <-.
      * apply EN; [reflexivity| |]. { cbn [kind_ok]. split; [exact NN|]. split; [exact AK|]. intros F. eapply received_fin_early; eauto. }
        destruct (M3 W0 SH I0 eq_refl). now apply G_syn_ack.
      * apply EN; [reflexivity| |]. { cbn [kind_ok with_push s_wrote s_in]. split; [exact NN|]. split; [exact W0|]. rewrite I0. intros e [<- |[]]. reflexivity. }
        now apply G_syn.
    + exfalso. unfold push_packet in E. rewrite X, R0 in E. cbn [negb] in E. rewrite assert_true in E by reflexivity. unfold take_syn in E. rewrite C0, Y in E. cbn [is_none andb] in E.
      destruct (received_syn (c_ws c) (h_scale h)); [|discriminate E]. ob_in E. apply push_segment_kept in E. destruct E as (K2 & _). apply (kp_recv _ _ K2); [discriminate|exact CR'].
  - (* SynReceived *) destruct KO as (C0 & W0 & E1). specialize (KR C0). destruct (c_syn_acked c') eqn:AK; intros X; injection X as <-.
    + apply EN; [reflexivity| |now apply G_ack]. cbn [kind_ok]. split; [exact KR|]. split; [exact AK|]. intros F. eapply received_fin_early; eauto.
    + apply ST; [reflexivity|reflexivity|]. cbn [kind_ok with_push s_wrote s_in]. split; [exact KR|]. split; [exact W0|]. intros e I. apply in_app_iff in I. destruct I as [I|[<- |[]]]; [auto|reflexivity].
  - (* Established *) destruct KO as (C0 & A0 & F0). destruct (received_fin c') eqn:F'; intros X; injection X as <-.
    + apply EN; [reflexivity| |now apply G_passive]. cbn [kind_ok]. auto.
    + apply ST; [reflexivity|reflexivity|]. cbn [kind_ok]. split; [auto|]. split; [auto|congruence].
  - (* FinWaitOne *) destruct KO as (C0 & A0 & F0). destruct (received_fin c') eqn:F'; cbn [andb]; [destruct (fin_was_acked c') eqn:AK|destruct (fin_was_acked c') eqn:AK]; intros X; injection X as <-.
    + apply EN; [reflexivity|cbn [kind_ok]; auto|]. apply G_both_acked, PL. right. congruence.
    + apply EN; [reflexivity|cbn [kind_ok]; auto|]. now apply G_both.
    + apply EN; [reflexivity|cbn [kind_ok]; auto|]. apply G_fin_acked, PL. right. congruence.
    + apply ST; [reflexivity|reflexivity|]. cbn [kind_ok]. split; [auto|]. split; [auto|congruence].
  - (* FinWaitTwo *) destruct KO as (C0 & A0 & F0). destruct (received_fin c') eqn:F'; intros X; injection X as <-.
    + apply EN; [reflexivity|cbn [kind_ok]; auto|]. apply G_second, PL. left. congruence.
    + apply ST; [reflexivity|reflexivity|]. cbn [kind_ok]. auto.
  - (* Closing *) destruct KO as (F0 & A0). specialize (KF F0). destruct (fin_was_acked c') eqn:AK; intros X; injection X as <-.
    + apply EN; [reflexivity|cbn [kind_ok]; auto|]. apply G_closing, PL. right. congruence.
    + apply ST; [reflexivity|reflexivity|]. cbn [kind_ok]. auto.
  - (* TimeWait *) destruct KO as (F0 & A0). intros X; injection X as <-. apply ST; [reflexivity|reflexivity|]. cbn [kind_ok]. auto.
  - (* CloseWait *) destruct KO as (F0 & A0). intros X; injection X as <-. apply ST; [reflexivity|reflexivity|]. cbn [kind_ok]. auto.
  - (* LastAck *) destruct KO as (F0 & A0 & A1). specialize (KF F0). destruct (fin_was_acked c') eqn:AK.
    + intros X. destruct (closed_cases _ _ _ _ X) as (TS & TT). rewrite TS. split.
      * split; [exact GO|]. right. split; [reflexivity|]. destruct (alone_left sc _ c' A) as (q & Q & L); [intros NN; unfold received_fin in KF; rewrite NN in KF; discriminate KF|]. now rewrite Q.
      * right. unfold phase_of. rewrite TS. split; [|rewrite TT; now rewrite app_nil_r]. apply G_done, PL. right. congruence.
    + intros X; injection X as <-. apply ST; [reflexivity|reflexivity|]. cbn [kind_ok]. auto.
Qed.

(** * The other calls *)
Lemma quiet_alone sc s c : alone 0 sc (solo_of s c) -> alone 0 sc (solo_of s (rst_if_recv_payload c)).
Proof. intros A. exact (AStep 0 sc _ XRstIfPayload _ A I eq_refl). Qed.
Lemma quiet_ok sc s k c : conn_ok sc s k c -> conn_ok sc s k (rst_if_recv_payload c).
Proof. intros [A B C D E F]. constructor; auto. now apply quiet_alone. Qed.
Lemma shut_ok sc s c c1 : alone 0 sc (solo_of s c) -> s_shut s = false -> send_fin c = Some c1 ->
  alone 0 sc (solo_of (put_shut s true) c1) /\ fin_was_acked c1 = false /\ c_recv c1 = c_recv c /\ c_reset c1 = c_reset c /\ c_need_rst c1 = c_need_rst c /\
  c_local c1 = c_local c /\ c_remote c1 = c_remote c /\ c_syn_acked c1 = c_syn_acked c.
Proof.
  intros A SH E. destruct (alone_ok 0 sc _ seq0 A) as (i & r & buf & Z).
  assert (SA : sact (solo_of s c) XShut = Some (solo_of (put_shut s true) c1)).
  { cbn [sact solo_of o_conn]. rewrite E. ob. unfold solo_of, put_shut, pkts. cbn. rewrite SH. reflexivity. }
  destruct (x_shut 0 sc _ i r buf seq0 Z SH) as (x' & E1 & Z'). rewrite SA in E1. injection E1 as <-.
  split; [exact (AStep 0 sc _ XShut _ A SH SA)|]. split.
  { pose proof (fin_acked_zok _ _ _ _ _ _ Z') as F. cbn [solo_of o_conn] in F. rewrite F. pose proof (so_k _ _ _ _ (z_sq _ _ _ _ _ _ Z)) as K. cbn [solo_of o_wrote o_shut put_shut s_wrote s_shut] in *. rewrite SH in *.
    cbn [orb andb]. apply Z.eqb_neq. unfold stream in *. cbn in K |- *. rewrite ?zlen_cons, ?zlen_app in *. change (zlen [SFin]) with 1. change (zlen (@nil sym)) with 0 in K. lia. }
  unfold send_fin in E. destruct (add_fin_s (c_sq c)); [|discriminate E]. ob_in E. injection E as <-. auto 10.
Qed.
Definition base_timers (t : tcp) (e : ev) : list (kind * Z) := match e with VFire i => drop_nth i (t_timers t) | _ => t_timers t end.
Definition timer_of (now : Z) (ph : phase) : list (kind * Z) := match ph with PConn k' => if has_timer k' then [(k', now + TIMEOUT)] else [] | _ => [] end.
Definition moved (now : Z) (t : tcp) (e : ev) (t' : tcp) : Prop :=
  phase_of t' = phase_of t /\ t_timers t' = base_timers t e \/
  edge (phase_of t) e (phase_of t') /\ t_timers t' = base_timers t e ++ timer_of now (phase_of t').
Lemma put_alike s t : alike s (put_tcp s t). Proof. constructor; reflexivity. Qed.
Lemma shut_alike s b : b = false -> alike s (put_shut s b). Proof. intros ->. constructor; try reflexivity. cbn. apply orb_false_r. Qed.
Lemma alike_trans a b c : alike a b -> alike b c -> alike a c.
Proof. intros [] []. constructor; congruence. Qed.
Lemma rst_ok sc s k c h : conn_ok sc s k c -> h_rst h = true -> h_src h = c_local c -> h_dst h = c_remote c -> sock_ok sc s (Rst [h] true).
Proof. intros CO H H1 H2. split; [reflexivity|]. split; [|exact (conn_got _ _ _ _ CO)]. exists h. rewrite H1, H2. split; [reflexivity|]. split; [exact H|exact (co_addr _ _ _ _ CO)]. Qed.
Lemma none_ok sc s was : got_ok s -> sock_ok sc s (Closed (rq_new 0) was).
Proof. intros G. split; [exact G|left; reflexivity]. Qed.
Lemma fin_wait_ok sc s k c c1 : conn_ok sc s k c -> shut_in k = false -> k <> SynSent -> send_fin c = Some c1 ->
  forall k', k' = (if is_kind k CloseWait then LastAck else FinWaitOne) -> conn_ok sc (put_shut s true) k' c1 /\ conn_ok sc (put_shut s true) k' (rst_if_recv_payload c1).
Proof.
  intros CO SK NS E k' ->. destruct CO as [A B C D E0 F]. rewrite SK in E0. destruct (shut_ok sc s c c1 A E0 E) as (A1 & F1 & R1 & X1 & X2 & X3 & X4 & X5).
  assert (conn_ok sc (put_shut s true) (if is_kind k CloseWait then LastAck else FinWaitOne) c1) as CK; [|split; [exact CK|now apply quiet_ok]].
  constructor; auto; cbn [put_shut s_addr s_shut]; try congruence.
  - rewrite E0. destruct k; try discriminate SK; reflexivity.
  - unfold kind_ok, received_fin in *. rewrite R1, X5. destruct k; try discriminate SK; try congruence; cbn [is_kind].
    + destruct F as (F2 & F3 & F4). split; [exact F2|]. split; [exact F1|]. intros FF.
      destruct (fin_main 0 sc _ seq0 A FF) as (h0 & h1 & p1 & j & _ & I & N & _). cbn [solo_of o_in] in I. unfold pkts in I. apply in_map_iff in I. destruct I as ((k1 & h2 & p2) & X & I). injection X as -> ->.
      exists k1, h1, p1. split; [exact I|]. split; [exact (F4 _ I)|].
      unfold pkt_syms, syms in N. destruct (h_fin h1); [reflexivity|]. exfalso. apply nth_error_In in N. rewrite app_nil_r in N. apply in_app_iff in N. destruct N as [N|N].
      * destruct (h_syn h1); [destruct N as [N|[]]; discriminate N|exact N].
      * apply in_map_iff in N. destruct N as (b & N & _). discriminate N.
    + destruct F as (F2 & F3 & F4). split; [exact F2|]. split; [exact F1|exact F4].
    + destruct F as (F2 & F3). auto.
Qed.
Lemma close_ok sc s t' : sock_ok sc s (t_sock (s_tcp s)) -> t_close (s_now s) (s_tcp s) = Some t' ->
  sock_ok sc (put_shut (put_tcp s t') (open_now t')) (t_sock t') /\ moved (s_now s) (s_tcp s) VClose t'.
Proof.
  intros OK E. unfold moved, t_close in *. cbn [base_timers].
  assert (OK1 : forall b so, b = false -> sock_ok sc s so -> sock_ok sc (put_shut (put_tcp s t') b) so).
  { intros b so B. apply sock_alike. eapply alike_trans; [apply put_alike|now apply shut_alike]. }
  assert (OK2 : forall k c, conn_ok sc (put_shut s true) k c -> conn_ok sc (put_shut (put_tcp s t') true) k c).
  { intros k c. apply conn_alike. constructor; reflexivity. }
  assert (OK3 : s_shut s = true -> forall k c, conn_ok sc s k c -> conn_ok sc (put_shut (put_tcp s t') true) k c).
  { intros SH k c. apply conn_alike. constructor; try reflexivity. cbn. rewrite SH. reflexivity. }
  destruct (t_sock (s_tcp s)) as [sc'|k c|l was|q was] eqn:TS; cbn [sock_ok] in OK.
  - destruct (closed_cases _ _ _ _ E) as (T1 & T2). unfold open_now, phase_of. rewrite T1, TS. split; [|right; split; [apply G_unused|cbn; now rewrite app_nil_r]].
    apply OK1; [reflexivity|]. apply none_ok. intros i b N. destruct OK as (_ & _ & _ & _ & G & _). rewrite G in N. destruct i; discriminate N.
  - pose proof (conn_got _ _ _ _ OK) as GO.
    assert (RC : k <> SynSent -> k <> TimeWait -> reset_connection (s_tcp s) c = Some t' -> sock_ok sc (put_shut (put_tcp s t') (open_now t')) (t_sock t') /\
      (phase_of t' = phase_of (s_tcp s) /\ t_timers t' = t_timers (s_tcp s) \/ edge (phase_of (s_tcp s)) VClose (phase_of t') /\ t_timers t' = t_timers (s_tcp s) ++ timer_of (s_now s) (phase_of t'))).
    { intros N1 N2 X. destruct (reset_cases _ _ _ X) as (h & T1 & HR & HA1 & HA2 & T2). unfold open_now, phase_of. rewrite T1, TS. split; [apply OK1; [reflexivity|]; eapply rst_ok; eauto|]. right.
      split; [now apply G_unread|]. cbn. now rewrite app_nil_r. }
    assert (QT : s_shut s = true -> Some (set_sock (s_tcp s) (Conn k (rst_if_recv_payload c))) = Some t' -> sock_ok sc (put_shut (put_tcp s t') (open_now t')) (t_sock t') /\
      (phase_of t' = phase_of (s_tcp s) /\ t_timers t' = t_timers (s_tcp s) \/ edge (phase_of (s_tcp s)) VClose (phase_of t') /\ t_timers t' = t_timers (s_tcp s) ++ timer_of (s_now s) (phase_of t'))).
    { intros SH X. injection X as <-. unfold open_now, phase_of. rewrite TS. cbn [set_sock t_sock t_timers sock_ok]. split; [apply OK3; [exact SH|]; now apply quiet_ok|]. left. auto. }
    assert (FW : forall t1, t_timers t1 = t_timers (s_tcp s) -> shut_in k = false -> k <> SynSent ->
      (do c <- send_fin c; Some (enter t1 (s_now s) (if is_kind k CloseWait then LastAck else FinWaitOne) (rst_if_recv_payload c))) = Some t' -> sock_ok sc (put_shut (put_tcp s t') (open_now t')) (t_sock t') /\
      (phase_of t' = phase_of (s_tcp s) /\ t_timers t' = t_timers (s_tcp s) \/ edge (phase_of (s_tcp s)) VClose (phase_of t') /\ t_timers t' = t_timers (s_tcp s) ++ timer_of (s_now s) (phase_of t'))).
    { intros t1 TM SK NS X. destruct (send_fin c) as [c1|] eqn:SF; [|discriminate X]. ob_in X. injection X as <-.
      unfold open_now, phase_of. rewrite TS. cbn [enter t_sock t_timers sock_ok timer_of]. split; [apply OK2, (fin_wait_ok sc s k c c1 OK SK NS SF _ eq_refl)|]. right. rewrite TM. split; [|reflexivity].
      destruct k; try discriminate SK; try congruence; cbn [is_kind]; constructor; reflexivity. }
    pose proof (co_shut _ _ _ _ OK) as SH.
    destruct k; cbn [shut_in] in SH.
    + destruct (negb (recv_has_data c)); [rewrite assert_true in E by reflexivity|discriminate E]. destruct (closed_cases _ _ _ _ E) as (T1 & T2). unfold open_now, phase_of. rewrite T1, TS.
      split; [apply OK1; [reflexivity|]; now apply none_ok|]. right. split; [now apply G_give_up|]. rewrite T2. cbn. now rewrite app_nil_r.
    + destruct (recv_has_data c); [apply RC; congruence|]. now apply (FW (err_if_unset (s_tcp s) ClosedWhileConnecting)).
    + destruct (recv_has_data c); [apply RC; congruence|]. now apply (FW (s_tcp s)).
    + destruct (recv_has_data c); [apply RC; congruence|auto].
    + destruct (recv_has_data c); [apply RC; congruence|auto].
    + destruct (recv_has_data c); [apply RC; congruence|auto].
    + auto.
    + destruct (recv_has_data c); [apply RC; congruence|]. now apply (FW (s_tcp s)).
    + destruct (recv_has_data c); [apply RC; congruence|auto].
  - injection E as <-. split; [|auto]. unfold open_now. rewrite TS. apply OK1; [reflexivity|exact OK].
  - injection E as <-. split; [|auto]. unfold open_now. rewrite TS. apply OK1; [reflexivity|exact OK].
Qed.
Lemma fin_wait_shut sc s k c c1 : conn_ok sc s k c -> shut_in k = false -> k <> SynSent -> send_fin c = Some c1 ->
  conn_ok sc (put_shut s true) (if is_kind k CloseWait then LastAck else FinWaitOne) c1.
Proof. intros A B C D. exact (proj1 (fin_wait_ok sc s k c c1 A B C D _ eq_refl)). Qed.
Lemma shutdown_ok sc s h t' r : sock_ok sc s (t_sock (s_tcp s)) -> t_shutdown (s_now s) (s_tcp s) h = Some (t', r) ->
  sock_ok sc (put_shut (put_tcp s t') (shuts_write h && open_now t')) (t_sock t') /\ moved (s_now s) (s_tcp s) (VShutdown h) t'.
Proof.
  intros OK E. unfold moved, t_shutdown in *. cbn [base_timers].
  assert (OK1 : forall b so, b = false -> sock_ok sc s so -> sock_ok sc (put_shut (put_tcp s t') b) so).
  { intros b so B. apply sock_alike. eapply alike_trans; [apply put_alike|now apply shut_alike]. }
  assert (OK2 : forall k c, conn_ok sc (put_shut s true) k c -> conn_ok sc (put_shut (put_tcp s t') true) k c).
  { intros k c. apply conn_alike. constructor; reflexivity. }
  assert (OK3 : s_shut s = true -> forall k c, conn_ok sc s k c -> conn_ok sc (put_shut (put_tcp s t') true) k c).
  { intros SH k c. apply conn_alike. constructor; try reflexivity. cbn. rewrite SH. reflexivity. }
  destruct (t_sock (s_tcp s)) as [sc'|k c|l was|q was] eqn:TS.
  - injection E as <- <-. split; [|auto]. unfold open_now. rewrite TS, andb_false_r. now apply OK1.
  - cbn [sock_ok] in OK. pose proof (conn_got _ _ _ _ OK) as GO. pose proof (co_shut _ _ _ _ OK) as SH. revert E. cbv zeta.
    set (c0 := if shuts_read h then rst_if_recv_payload c else c).
    assert (CO : conn_ok sc s k c0) by (subst c0; destruct (shuts_read h); [now apply quiet_ok|exact OK]). clearbody c0.
    destruct (shuts_write h) eqn:SW.
    2:{ intros E. injection E as <- <-. unfold open_now, phase_of. rewrite TS. cbn [set_sock t_sock t_timers andb]. split; [|left; auto]. apply OK1; [reflexivity|exact CO]. }
    cbn [andb].
    assert (FW : forall t1, t_timers t1 = t_timers (s_tcp s) -> shut_in k = false -> k <> SynSent ->
      (do c <- send_fin c0; Some (enter t1 (s_now s) (if is_kind k CloseWait then LastAck else FinWaitOne) c, @Ok unit tt)) = Some (t', r) -> sock_ok sc (put_shut (put_tcp s t') (open_now t')) (t_sock t') /\
      (phase_of t' = phase_of (s_tcp s) /\ t_timers t' = t_timers (s_tcp s) \/ edge (phase_of (s_tcp s)) (VShutdown h) (phase_of t') /\ t_timers t' = t_timers (s_tcp s) ++ timer_of (s_now s) (phase_of t'))).
    { intros t1 TM SK NS X. destruct (send_fin c0) as [c1|] eqn:SF; [|discriminate X]. ob_in X. injection X as <- <-.
      unfold open_now, phase_of. rewrite TS. cbn [enter t_sock t_timers sock_ok timer_of]. split; [apply OK2, (fin_wait_shut sc s k c0 c1 CO SK NS SF)|]. right. rewrite TM. split; [|reflexivity].
      destruct k; try discriminate SK; try congruence; cbn [is_kind]; constructor; exact SW. }
    assert (QT : s_shut s = true -> Some (set_sock (s_tcp s) (Conn k c0), @Ok unit tt) = Some (t', r) -> sock_ok sc (put_shut (put_tcp s t') (open_now t')) (t_sock t') /\
      (phase_of t' = phase_of (s_tcp s) /\ t_timers t' = t_timers (s_tcp s) \/ edge (phase_of (s_tcp s)) (VShutdown h) (phase_of t') /\ t_timers t' = t_timers (s_tcp s) ++ timer_of (s_now s) (phase_of t'))).
    { intros S1 X. injection X as <- _. unfold open_now, phase_of. rewrite TS. cbn [set_sock t_sock t_timers sock_ok]. split; [apply OK3; [exact S1|exact CO]|]. left. auto. }
    intros E. destruct k; cbn [shut_in] in SH; auto.
    + destruct (negb (recv_has_data c0)); [rewrite assert_true in E by reflexivity|discriminate E]. destruct (closed_new _ _ _) as [t1|] eqn:CN; [|discriminate E]. ob_in E. injection E as <- <-.
      destruct (closed_cases _ _ _ _ CN) as (T1 & T2). unfold open_now, phase_of. rewrite T1, TS.
      split; [apply OK1; [reflexivity|]; now apply none_ok|]. right. split; [now apply G_give_up|]. rewrite T2. cbn. now rewrite app_nil_r.
    + now apply (FW (err_if_unset (s_tcp s) ClosedWhileConnecting)).
    + now apply (FW (s_tcp s)).
    + now apply (FW (s_tcp s)).
  - injection E as <- _. split; [|auto]. unfold open_now. rewrite TS, andb_false_r. apply OK1; [reflexivity|exact OK].
  - injection E as <- _. split; [|auto]. unfold open_now. rewrite TS, andb_false_r. apply OK1; [reflexivity|exact OK].
Qed.
Lemma conn_new_facts l r i sc c : conn_new l r i sc = Some c -> c_local c = l /\ c_remote c = r /\ c_reset c = false /\ c_need_rst c = false /\ c_recv c = None.
Proof. unfold conn_new. intros E. repeat match type of E with context [assert_then ?b _] => destruct b; [cbn [assert_then] in E|discriminate E] | context [obind ?u _] => destruct u; [cbn [obind] in E|discriminate E] end. injection E as <-. auto. Qed.
Lemma connect_ok sc s remote assoc s' : sock_ok sc s (t_sock (s_tcp s)) -> vact s (VConnect remote assoc) = Some s' ->
  sock_ok sc s' (t_sock (s_tcp s')) /\ moved (s_now s) (s_tcp s) (VConnect remote assoc) (s_tcp s').
Proof.
  intros OK. cbn [vact]. destruct (t_connect (s_now s) (s_tcp s) remote assoc) as [(t', r)|] eqn:E; [ob|discriminate]. cbn [fst snd]. intros X. injection X as <-. unfold moved. cbn [s_tcp put_tcp base_timers].
  assert (SAME : t' = s_tcp s -> (forall x, r <> Ok x) -> forall s', s_addr s' = match r with Ok _ => match assoc with Some l => Some (l, remote) | None => s_addr s end | Err _ => s_addr s end ->
      s_wrote s' = s_wrote s -> s_shut s' = s_shut s -> s_got s' = s_got s -> s_taken s' = s_taken s -> s_in s' = s_in s -> s_out s' = s_out s -> sock_ok sc s' (t_sock t')).
  { intros -> NR s' E1 E2 E3 E4 E5 E6 E7. eapply sock_alike; [|exact OK]. constructor; auto. rewrite E1. destruct r as [a|]; [now destruct (NR a)|reflexivity]. }
  unfold t_connect in E. destruct (t_sock (s_tcp s)) as [sc'|k c|l was|q was] eqn:TS.
  - destruct assoc as [local|]; [|injection E as <- <-; split; [apply SAME; auto; discriminate|auto]].
    destruct (65536 <=? local); [rewrite assert_true in E by reflexivity|discriminate E]. destruct (conn_new local remote 0 sc') as [c|] eqn:CN; [|discriminate E]. ob_in E. injection E as <- <-.
    destruct OK as (-> & A1 & A2 & A3 & A4 & A5 & A6 & A7). destruct (conn_new_facts _ _ _ _ _ CN) as (F1 & F2 & F3 & F4 & F5). split.
    + cbn [enter t_sock sock_ok]. constructor; auto; cbn [s_addr s_shut]; try congruence.
      * unfold solo_of, pkts. cbn. rewrite A2, A3, A4, A5, A6, A7. exact (AStart 0 sc local remote c CN).
      * cbn. auto.
    + right. unfold phase_of. rewrite TS. cbn [enter t_sock t_timers timer_of]. split; [constructor|reflexivity].
  - assert (t' = s_tcp s /\ forall x, r <> Ok x) as (-> & NR) by (destruct k; injection E as <- <-; (split; [reflexivity|discriminate])). split; [apply SAME; auto|auto].
  - injection E as <- <-. split; [apply SAME; auto; discriminate|auto].
  - injection E as <- <-. split; [apply SAME; auto; discriminate|auto].
Qed.
Lemma send_keeps c data n c' r : conn_send c data n = Some (c', r) -> kept c c' /\ c_reset c' = c_reset c /\ c_need_rst c' = c_need_rst c /\ c_recv c' = c_recv c /\ c_syn_acked c' = c_syn_acked c.
Proof.
  unfold conn_send. intros E. repeat match type of E with
    | context [assert_then ?b _] => destruct b; [cbn [assert_then] in E|discriminate E]
    | context [obind ?u _] => destruct u; [cbn [obind] in E|discriminate E]
    | context [if ?b then _ else _] => destruct b
    | context [let '(a, b) := ?u in _] => destruct u
    | context [match ?u with Some _ => _ | None => _ end] => destruct u
    end; try discriminate E; injection E as <- _; repeat split; auto.
Qed.

Lemma send_ok sc s data s' : sock_ok sc s (t_sock (s_tcp s)) -> vact s (VSend data) = Some s' ->
  sock_ok sc s' (t_sock (s_tcp s')) /\ moved (s_now s) (s_tcp s) (VSend data) (s_tcp s').
Proof.
  intros OK. cbn [vact]. destruct (t_send (s_tcp s) data (zlen data)) as [(t', r)|] eqn:E; [ob|discriminate]. cbn [fst snd]. intros X. injection X as <-. unfold moved. cbn [s_tcp put_tcp base_timers].
  assert (SAME : t' = s_tcp s -> (forall x, r <> Ok x) -> forall s', s_wrote s' = s_wrote s ++ match r with Ok n => zfirst n data | Err _ => [] end -> s_addr s' = s_addr s ->
      s_shut s' = s_shut s -> s_got s' = s_got s -> s_taken s' = s_taken s -> s_in s' = s_in s -> s_out s' = s_out s -> sock_ok sc s' (t_sock t')).
  { intros -> NR s' E1 E2 E3 E4 E5 E6 E7. eapply sock_alike; [|exact OK]. constructor; auto. rewrite E1. destruct r as [a|]; [now destruct (NR a)|apply app_nil_r]. }
  unfold t_send in E. destruct (t_sock (s_tcp s)) as [sc'|k c|l was|q was] eqn:TS.
  - injection E as <- <-. split; [apply SAME; auto; discriminate|auto].
  - destruct k; try (injection E as <- <-; split; [apply SAME; auto; discriminate|auto]; fail).
    all: destruct (conn_send c data (zlen data)) as [(c', r')|] eqn:CS; [|discriminate E]; ob_in E; injection E as <- <-; cbn [sock_ok] in OK; destruct (send_keeps _ _ _ _ _ CS) as (KP & K1 & K2 & K3 & K4);
      (split; [|left; unfold phase_of; rewrite TS; auto]); cbn [set_sock t_sock sock_ok]; destruct OK as [A B C D E0 F]; destruct KP;
      (constructor; cbn [s_addr s_shut]; [|congruence|congruence|congruence|exact E0|]).
    1,3: apply (AStep 0 sc _ (XWrite data) _ A E0); cbn [sact solo_of o_conn]; rewrite CS; ob; unfold solo_of, pkts; cbn; destruct r'; reflexivity.
    all: unfold kind_ok, received_fin in *; rewrite K3, K4; exact F.
  - injection E as <- <-. split; [apply SAME; auto; discriminate|auto].
  - injection E as <- <-. split; [apply SAME; auto; discriminate|auto].
Qed.
Lemma recv_keeps c room n c' r : conn_recv c room n = Some (c', r) -> kept c c' /\ c_reset c' = c_reset c /\ c_need_rst c' = c_need_rst c /\ received_fin c' = received_fin c /\ c_recv c <> None /\ c_recv c' <> None /\
  c_syn_acked c' = c_syn_acked c /\ fin_was_acked c' = fin_was_acked c.
Proof.
  unfold conn_recv. destruct (c_recv c) as [(q, cl)|] eqn:CR; [|discriminate]. destruct (rq_is_empty q); [intros E; injection E as <- _|].
  - rewrite CR. repeat split; auto; discriminate.
  - destruct (rq_read q room n) as [((q', bytes), ok)|]; [|discriminate]. cbn. intros E. injection E as <- _. unfold received_fin. cbn. rewrite CR. repeat split; auto; try discriminate. unfold received_fin. cbn. now rewrite CR.
Qed.
Lemma recv_ok sc s n s' : sock_ok sc s (t_sock (s_tcp s)) -> 0 <= n <= U32_MAX -> vact s (VRecv n) = Some s' ->
  sock_ok sc s' (t_sock (s_tcp s')) /\ moved (s_now s) (s_tcp s) (VRecv n) (s_tcp s').
Proof.
  intros OK N. cbn [vact]. destruct (t_recv (s_tcp s) None n) as [((t', r), bytes)|] eqn:E; [ob|discriminate]. cbn [fst snd]. intros X. injection X as <-. unfold moved. cbn [s_tcp put_tcp base_timers].
  assert (SAME : t' = s_tcp s -> bytes = [] -> forall s', s_got s' = s_got s ++ bytes -> s_addr s' = s_addr s -> s_wrote s' = s_wrote s ->
      s_shut s' = s_shut s -> s_taken s' = s_taken s -> s_in s' = s_in s -> s_out s' = s_out s -> sock_ok sc s' (t_sock t')).
  { intros -> -> s' E1 E2 E3 E4 E5 E6 E7. eapply sock_alike; [|exact OK]. rewrite app_nil_r in E1. constructor; auto. }
  unfold t_recv in E. destruct (t_sock (s_tcp s)) as [sc'|k c|l was|q was] eqn:TS.
  - injection E as <- _ <-. split; [apply SAME; auto|auto].
  - assert (CASE : early k = false -> (do r0 <- conn_recv c None n; let '(c0, r1) := r0 in Some (match r1 with
            | ROk bytes => (set_sock (s_tcp s) (Conn k c0), Ok tt, bytes)
            | REmpty => (set_sock (s_tcp s) (Conn k c0), Err (if eof_at_end k then EStreamClosed else EEmpty), [])
            | RIo bytes => (set_sock (s_tcp s) (Conn k c0), Err EIo, bytes)
            end)) = Some (t', r, bytes) -> sock_ok sc
  {| s_tcp := t'; s_now := s_now s; s_since := if same_phase (s_tcp s) t' then s_since s else s_now s; s_addr := s_addr s; s_wrote := s_wrote s; s_shut := s_shut s; s_got := s_got s ++ bytes; s_taken := s_taken s; s_in := s_in s; s_out := s_out s |} (t_sock t') /\
  (phase_of t' = phase_of (s_tcp s) /\ t_timers t' = t_timers (s_tcp s) \/ edge (phase_of (s_tcp s)) (VRecv n) (phase_of t') /\ t_timers t' = t_timers (s_tcp s) ++ timer_of (s_now s) (phase_of t'))).
    { clear E. intros EK E. destruct (conn_recv c None n) as [(c', r')|] eqn:CR; [|discriminate E]. ob_in E. cbn [sock_ok] in OK. destruct (zok_of _ _ _ _ OK) as (i & r0 & buf & Z).
      destruct (recv_keeps _ _ _ _ _ CR) as (KP & K1 & K2 & K3 & K4 & K5 & K6 & K7).
      assert (t' = set_sock (s_tcp s) (Conn k c') /\ sact (solo_of s c) (XRead n) = Some {| o_conn := c'; o_wrote := s_wrote s; o_shut := s_shut s; o_got := s_got s ++ bytes; o_taken := s_taken s; o_in := pkts s; o_out := s_out s |}) as (-> & SA').
      { cbn [sact solo_of o_conn]. rewrite CR. ob. destruct r'; injection E as <- _ <-; auto. split; [reflexivity|]. exfalso.
        (* the buffer of the caller has room *)
        unfold conn_recv in CR. pose proof (z_rcv _ _ _ _ _ _ Z) as RO. cbn [solo_of o_conn] in RO. destruct (c_recv c) as [(q, cl)|] eqn:CQ; [|discriminate CR]. destruct (rq_is_empty q); [discriminate CR|].
        destruct RO as (h0 & _ & _ & _ & RQ & _). destruct (rq_read_ok _ _ _ _ n RQ N) as (q' & Y & _). rewrite Y in CR. cbn in CR. discriminate CR. }
      cbn [set_sock t_sock]. split; [|left; unfold phase_of; rewrite TS; auto]. cbn [sock_ok]. destruct OK as [A B C D E0 F]. destruct KP. constructor; cbn [s_addr s_shut]; [|congruence|congruence|congruence|exact E0|].
      - exact (AStep 0 sc _ (XRead n) _ A N SA').
      - unfold kind_ok, fin_early in *. cbn [s_in s_wrote]. rewrite K3, K6, K7. destruct k; try discriminate EK; try exact F; destruct F as (F1 & F2); auto. }
    destruct k; try (now apply CASE); injection E as <- _ <-; (split; [apply SAME; auto|auto]).
  - injection E as <- _ <-. split; [apply SAME; auto|auto].
  - destruct was; cbn [negb] in E; [|injection E as <- _ <-; split; [apply SAME; auto|auto]]. destruct (rq_is_empty q) eqn:EM; [injection E as <- _ <-; split; [apply SAME; auto|auto]|].
    destruct OK as (G & [OK|(_ & h0 & r0 & buf & O & RQ & TK & P)]); [congruence|]. destruct (rq_read_ok _ _ _ _ n RQ N) as (q' & Y & RQ' & _). rewrite Y in E. cbn in E. injection E as <- _ <-. cbn [set_sock t_sock].
    assert (P' : placed (h_seq h0) (pkts s) ((s_got s ++ zfirst n buf) ++ zskip n buf) false) by (rewrite <- app_assoc, zfirst_zskip; exact P).
    split; [|left; unfold phase_of; rewrite TS; auto]. split.
    + intros i b X. cbn [s_got] in X. destruct (P' i (SByte b)) as (h & p & j & I & NJ & S).
      { rewrite syms_cat, nth_error_app1 by (rewrite map_length; apply nth_error_Some; congruence). now rewrite nth_error_map, X. }
      exists h0, h, p, j. rewrite S. unfold pos. rewrite Z.add_assoc. unfold pkts in *. cbn [s_in]. auto.
    + right. split; [reflexivity|]. exists h0, r0, (zskip n buf). unfold pkts in *. cbn [s_in s_got s_taken]. split; [exact O|]. split; [exact RQ'|]. split; [|exact P'].
      rewrite zlen_app, zlen_zfirst, zlen_zskip. pose proof (zlen_nonneg buf). lia.
Qed.
Lemma push_ok sc s h p s' : sock_ok sc s (t_sock (s_tcp s)) -> wire h p -> vact s (VPush h p) = Some s' ->
  sock_ok sc s' (t_sock (s_tcp s')) /\ moved (s_now s) (s_tcp s) (VPush h p) (s_tcp s').
Proof.
  intros OK W. cbn [vact]. destruct (t_push (s_now s) (s_tcp s) h p) as [(t', r)|] eqn:E; [ob|discriminate]. cbn [fst snd]. intros X. injection X as <-. unfold moved. cbn [s_tcp put_tcp base_timers].
  unfold arrived.
  assert (SAME : t' = s_tcp s -> (match r with Ok n => n | Err _ => 0 end) = 0 -> forall s', s_taken s' = s_taken s + match r with Ok n => n | Err _ => 0 end -> s_addr s' = s_addr s -> s_wrote s' = s_wrote s ->
      s_shut s' = s_shut s -> s_got s' = s_got s -> s_in s' = s_in s ++ [] -> s_out s' = s_out s -> sock_ok sc s' (t_sock t')).
  { intros -> R0 s' E1 E2 E3 E4 E5 E6 E7. eapply sock_alike; [|exact OK]. rewrite app_nil_r in E6. rewrite R0, Z.add_0_r in E1. constructor; auto. }
  unfold t_push in E. unfold phase_of at 1. destruct (t_sock (s_tcp s)) as [sc'|k c|l was|q was] eqn:TS.
  - injection E as <- <-. split; [apply SAME; auto|auto].
  - cbn [sock_ok] in OK. unfold concerns. rewrite (co_addr _ _ _ _ OK). cbv iota beta. unfold addrs_match in E.
    destruct ((h_src h =? c_remote c) && (h_dst h =? c_local c)) eqn:AM; cbn [negb] in E.
    2:{ injection E as <- <-. split; [apply SAME; auto; symmetry; exact (co_addr _ _ _ _ OK)|auto]. }
    destruct (push_packet c h p) as [(c', n)|] eqn:PP; [|discriminate E]. ob_in E. destruct (settle (s_now s) (s_tcp s) k h c') as [t1|] eqn:ST; [|discriminate E]. ob_in E. injection E as <- <-.
    destruct (settle_ok _ _ _ _ _ _ _ _ _ _ _ OK W PP ST) as (A & B). split.
    + eapply sock_alike; [|exact A]. constructor; try reflexivity. symmetry. exact (co_addr _ _ _ _ OK).
    + destruct B as [(B1 & B2)|(B1 & B2)].
      * left. split; [|exact B2]. unfold phase_of at 2. now rewrite TS.
      * right. split; [|exact B2]. unfold phase_of at 1. now rewrite TS.
  - injection E as <- <-. split; [apply SAME; auto|auto].
  - injection E as <- <-. split; [apply SAME; auto|auto].
Qed.
Lemma pop_ok sc s s' : sock_ok sc s (t_sock (s_tcp s)) -> vact s VPop = Some s' ->
  sock_ok sc s' (t_sock (s_tcp s')) /\ moved (s_now s) (s_tcp s) VPop (s_tcp s').
Proof.
  intros OK. cbn [vact]. destruct (t_pop (s_tcp s)) as [(t', r)|] eqn:E; [ob|discriminate]. cbn [fst snd]. intros X. injection X as <-. unfold moved. cbn [s_tcp put_tcp base_timers].
  assert (SAME : t' = s_tcp s -> (match r with Ok n => [n] | Err _ => [] end) = [] -> forall s', s_taken s' = s_taken s -> s_addr s' = s_addr s -> s_wrote s' = s_wrote s ->
      s_shut s' = s_shut s -> s_got s' = s_got s -> s_in s' = s_in s -> s_out s' = s_out s ++ match r with Ok n => [n] | Err _ => [] end -> sock_ok sc s' (t_sock t')).
  { intros -> R0 s' E1 E2 E3 E4 E5 E6 E7. eapply sock_alike; [|exact OK]. rewrite R0, app_nil_r in E7. constructor; auto. }
  unfold t_pop in E. destruct (t_sock (s_tcp s)) as [sc'|k c|l was|q was] eqn:TS.
  - injection E as <- <-. split; [apply SAME; auto|auto].
  - destruct (pop_packet c) as [(c', o)|] eqn:PP; [|discriminate E]. ob_in E. injection E as <- <-. cbn [sock_ok] in OK. destruct (pop_kept _ _ _ PP) as (KP & K1 & K2 & K3 & K4 & K5 & K6).
    cbn [set_sock t_sock]. split; [|left; unfold phase_of; rewrite TS; auto]. cbn [sock_ok].
    assert (FA : fin_was_acked c' = fin_was_acked c) by (destruct KP; unfold fin_was_acked; congruence).
    destruct OK as [A B C D E0 F]. constructor; cbn [s_addr s_shut]; [|congruence| |destruct KP; congruence|exact E0|].
    + apply (AStep 0 sc _ XPop _ A I). cbn [sact solo_of o_conn]. rewrite PP. ob. unfold solo_of, pkts. cbn. destruct o; reflexivity.
    + destruct o as [(h, p)|]; [tauto|]. destruct K6 as (-> & _). exact C.
    + unfold kind_ok, fin_early, received_fin in *. cbn [s_in s_wrote]. rewrite K1, K3, FA. exact F.
  - destruct OK as (A & (h & -> & B1 & B2) & C). rewrite B1 in E. rewrite assert_true in E by reflexivity.
    destruct (closed_new _ _ _) as [t1|] eqn:CN; [|discriminate E]. ob_in E. injection E as <- <-. destruct (closed_cases _ _ _ _ CN) as (T1 & T2). rewrite T1.
    split; [split; [eapply got_alike; [reflexivity|reflexivity|exact C]|left; reflexivity]|]. right. unfold phase_of. rewrite TS, T1. split; [constructor|]. rewrite T2. cbn. now rewrite app_nil_r.
  - injection E as <- <-. split; [apply SAME; auto|auto].
Qed.
Lemma drop_nth_none {A} i (l : list A) : nth_error l i = None -> drop_nth i l = l.
Proof. intros N. apply nth_error_None in N. unfold drop_nth. rewrite firstn_all2 by lia. rewrite skipn_all2 by lia. apply app_nil_r. Qed.
Lemma fire_ok sc s i s' : sock_ok sc s (t_sock (s_tcp s)) -> vact s (VFire i) = Some s' ->
  sock_ok sc s' (t_sock (s_tcp s')) /\ moved (s_now s) (s_tcp s) (VFire i) (s_tcp s').
Proof.
  intros OK. cbn [vact]. destruct (t_fire (s_tcp s) i) as [t'|] eqn:E; [ob|discriminate]. intros X. injection X as <-. unfold moved. cbn [s_tcp put_tcp base_timers].
  assert (AL : sock_ok sc s (t_sock t') -> sock_ok sc (put_tcp s t') (t_sock t')) by (apply sock_alike, put_alike).
  unfold t_fire in E. destruct (nth_error (t_timers (s_tcp s)) i) as [(k, d)|] eqn:NE; [|injection E as <-; rewrite (drop_nth_none _ _ NE); auto].
  unfold callback in E. cbn [t_sock] in E. destruct (t_sock (s_tcp s)) as [sc'|k' c|l was|q was] eqn:TS; try (injection E as <-; unfold phase_of; cbn [t_sock t_timers]; rewrite TS; auto; fail).
  destruct (is_kind k k') eqn:IK; [|injection E as <-; unfold phase_of; cbn [t_sock t_timers]; rewrite TS; auto]. cbn [sock_ok] in OK. pose proof (conn_got _ _ _ _ OK) as GO.
  destruct k; destruct k'; try discriminate IK; try (injection E as <-; unfold phase_of; cbn [t_sock t_timers]; rewrite TS; auto; fail).
  - unfold t_rst_close, set_err in E. cbn [t_sock] in E. destruct (negb (recv_has_data c)); [rewrite assert_true in E by reflexivity|discriminate E]. destruct (closed_new _ _ _) as [t1|] eqn:CN; [|discriminate E]. ob_in E.
    cbn [snd fst assert_then] in E. injection E as <-. destruct (closed_cases _ _ _ _ CN) as (T1 & T2). split; [apply AL; rewrite T1; now apply none_ok|]. right. unfold phase_of. rewrite T1, T2, TS. split; [apply G_no_answer|]. cbn [timer_of]. now rewrite app_nil_r.
  - unfold t_rst_close, set_err in E. cbn [t_sock] in E. destruct (reset_connection _ _) as [t1|] eqn:RC; [|discriminate E]. ob_in E.
    cbn [snd fst assert_then] in E. injection E as <-. destruct (reset_cases _ _ _ RC) as (h & T1 & HR & HA1 & HA2 & T2). split; [apply AL; rewrite T1; eapply rst_ok; eauto|]. right. unfold phase_of. rewrite T1, T2, TS. split; [first [apply G_no_ack|apply G_waited]|]. cbn [timer_of]. now rewrite app_nil_r.
  - destruct (closed_cases _ _ _ _ E) as (T1 & T2). split.
    + apply AL. rewrite T1. split; [exact GO|]. right. split; [reflexivity|]. destruct (alone_left sc s c (co_alone _ _ _ _ OK)) as (q & Q & L); [|now rewrite Q].
      intros NN. pose proof (co_kind _ _ _ _ OK) as (F & _). unfold received_fin in F. rewrite NN in F. discriminate F.
    + right. unfold phase_of. rewrite T1, T2, TS. split; [first [apply G_no_ack|apply G_waited]|]. cbn [timer_of]. now rewrite app_nil_r.
Qed.
Lemma vstep pu sc s e s' : sock_ok sc s (t_sock (s_tcp s)) -> allows pu s e -> vact s e = Some s' -> sock_ok sc s' (t_sock (s_tcp s')) /\ moved (s_now s) (s_tcp s) e (s_tcp s').
Proof.
  intros OK AL E. destruct e as [|h|r a|data|n|h p| | |i|d].
  - cbn [vact] in E. destruct (t_close (s_now s) (s_tcp s)) as [t|] eqn:T; [|discriminate E]. ob_in E. injection E as <-. now apply close_ok.
  - cbn [vact] in E. destruct (t_shutdown (s_now s) (s_tcp s) h) as [(t, r)|] eqn:T; [|discriminate E]. ob_in E. injection E as <-. eapply shutdown_ok; eauto.
  - now apply connect_ok.
  - now apply send_ok.
  - now apply recv_ok.
  - now apply push_ok.
  - now apply pop_ok.
  - injection E as <-. split; [|left; auto]. eapply sock_alike; [apply put_alike|]. exact OK.
  - now apply fire_ok.
  - injection E as <-. split; [|left; auto]. eapply sock_alike; [|exact OK]. constructor; reflexivity.
Qed.
