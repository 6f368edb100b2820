(** The poll state of UDP sockets and what their listeners are told. *)
From Verif Require Import Base FMap NetqModel NetqSpec NetqProofs IfaceModel IfaceSpec IfaceProofs UdpModel UdpSpec.

(** The bits of an open socket say what its buffers hold; writability too if [w]. *)
Definition bits_ok (w : Prop) (u : udp) : Prop :=
  b_closed (u_st u) = false -> b_active (u_st u) = true /\ b_readable (u_st u) = negb (mb_is_empty (u_recv u)) /\ (w -> b_writable (u_st u) = mb_has_space (u_send u)).
Definition polled (w : Prop) (h : host) : Prop := forall s u, get s (h_socks h) = Some u -> bits_ok w u.
(** From [h] to [h'] listeners were told [e]: the last thing they heard is the state now, and they
    heard of any new datagram. *)
Record evolves (h h' : host) (e : list uevent) : Prop := {
  ev_old : forall s u, get s (h_socks h) = Some u -> exists u', get s (h_socks h') = Some u' /\ u_st u' = last (map fst (told s e)) (u_st u) /\
    ((length (mb_msgs (u_recv u)) < length (mb_msgs (u_recv u')))%nat -> exists b, In (b, true) (told s e) /\ b_readable b = true);
  ev_none : forall s, get s (h_socks h) = None -> get s (h_socks h') = None /\ told s e = [] }.

Lemma told_app s a b : told s (a ++ b) = told s a ++ told s b.
Proof. apply flat_map_app. Qed.
Lemma told_notes s n : told s (notes s n) = n.
Proof. unfold told, notes. induction n as [|[b g] n IH]; [reflexivity|]. cbn. rewrite Z.eqb_refl, IH. reflexivity. Qed.
Lemma told_other s s' n : s' <> s -> told s (notes s' n) = [].
Proof. intros D. unfold told, notes. induction n as [|[b g] n IH]; [reflexivity|]. cbn. destruct (Z.eqb_spec s' s); [congruence|exact IH]. Qed.
Lemma last_app {A} (a b : list A) d : last (a ++ b) d = last b (last a d).
Proof.
  revert d. induction a as [|x a IH]; intros d; [reflexivity|]. destruct a as [|y a]; [cbn; destruct b as [|z b]; [reflexivity|]|].
  - clear IH. revert z. induction b as [|z' b IH]; intros z; [reflexivity|]. cbn in *. apply IH.
  - change (last ((x :: y :: a) ++ b) d) with (last ((y :: a) ++ b) d). rewrite IH. reflexivity.
Qed.
Lemma evolves_refl h h' : h_socks h' = h_socks h -> evolves h h' [].
Proof. intros E. split; rewrite E; intros; [exists u; split; [assumption|]; split; [reflexivity|lia]|auto]. Qed.
Lemma evolves_trans h1 h2 h3 e1 e2 : evolves h1 h2 e1 -> evolves h2 h3 e2 -> evolves h1 h3 (e1 ++ e2).
Proof.
  intros A B. split.
  - intros s u G. destruct (ev_old _ _ _ A s u G) as (u2 & G2 & S2 & L2). destruct (ev_old _ _ _ B s u2 G2) as (u3 & G3 & S3 & L3). exists u3. split; [exact G3|].
    rewrite told_app, map_app, last_app, <- S2. split; [exact S3|]. intros L. destruct (Nat.lt_ge_cases (length (mb_msgs (u_recv u))) (length (mb_msgs (u_recv u2)))) as [Q|Q].
    + destruct (L2 Q) as (b & I & BR). exists b. split; [apply in_or_app; now left|exact BR].
    + destruct L3 as (b & I & BR); [lia|]. exists b. split; [apply in_or_app; now right|exact BR].
  - intros s G. destruct (ev_none _ _ _ A s G) as [G2 T2]. destruct (ev_none _ _ _ B s G2) as [G3 T3]. rewrite told_app, T2, T3. auto.
Qed.
Lemma evolves_put h s u u1 n h' : get s (h_socks h) = Some u -> h_socks h' = put s u1 (h_socks h) -> u_st u1 = last (map fst n) (u_st u) ->
  ((length (mb_msgs (u_recv u)) < length (mb_msgs (u_recv u1)))%nat -> exists b, In (b, true) n /\ b_readable b = true) -> evolves h h' (notes s n).
Proof.
  intros G E S L. split; rewrite E.
  - intros s' u' G'. rewrite get_put. cbn [FMap.eqb Eqb_Z]. destruct (Z.eqb_spec s' s) as [-> |D].
    + rewrite G in G'. injection G' as <-. exists u1. rewrite told_notes. auto.
    + exists u'. rewrite told_other by congruence. split; [exact G'|]. split; [reflexivity|lia].
  - intros s' G'. rewrite get_put. cbn [FMap.eqb Eqb_Z]. destruct (Z.eqb_spec s' s) as [-> |D]; [congruence|]. rewrite told_other by congruence. auto.
Qed.
Lemma evolves_wire h h' p : h_socks h' = h_socks h -> evolves h h' [EWire p].
Proof. intros E. split; rewrite E; intros; [exists u; split; [assumption|]; split; [reflexivity|lia]|auto]. Qed.
Lemma polled_put w h h' s u1 : polled w h -> h_socks h' = put s u1 (h_socks h) -> bits_ok w u1 -> polled w h'.
Proof.
  intros P E B s' u' G. rewrite E, get_put in G. cbn [FMap.eqb Eqb_Z] in G. destruct (s' =? s); [injection G as <-; exact B|eapply P; exact G].
Qed.
Lemma bits_eqb_true a b : bits_eqb a b = true -> a = b.
Proof. destruct a as [[] [] [] []], b as [[] [] [] []]; cbn; congruence. Qed.
Lemma update_last u b g : u_st (fst (u_update u b g)) = last (map fst (snd (u_update u b g))) (u_st u).
Proof. unfold u_update. cbn. destruct (bits_eqb b (u_st u)) eqn:E; cbn; [|reflexivity]. destruct g; cbn; [reflexivity|]. symmetry. apply bits_eqb_true in E. congruence. Qed.
Lemma refresh_last u g : u_st (fst (u_refresh u g)) = last (map fst (snd (u_refresh u g))) (u_st u).
Proof. apply update_last. Qed.
Lemma refresh_recv u g : u_recv (fst (u_refresh u g)) = u_recv u.
Proof. reflexivity. Qed.
Lemma refresh_grew u : mb_msgs (u_recv u) <> [] -> exists b, In (b, true) (snd (u_refresh u true)) /\ b_readable b = true.
Proof. intros N. unfold u_refresh, u_update. cbn. rewrite andb_false_r. eexists. split; [now left|]. cbn. unfold mb_is_empty. destruct (mb_msgs (u_recv u)); [congruence|reflexivity]. Qed.
Lemma refresh_bits (w : Prop) u u0 g : bits_ok w u0 -> u_st u = u_st u0 -> bits_ok w (fst (u_refresh u g)).
Proof. intros B E C. cbn in *. rewrite E in *. destruct (B C) as (A & _ & _). auto. Qed.

(* ------------------------------------------------------------------ the pieces *)
(** What an operation on one socket does to its bits. *)
Record fine (w : Prop) (u u1 : udp) (n : list unote) : Prop := {
  fi_bits : bits_ok w u -> bits_ok w u1;
  fi_last : u_st u1 = last (map fst n) (u_st u);
  fi_grew : (length (mb_msgs (u_recv u)) < length (mb_msgs (u_recv u1)))%nat -> exists b, In (b, true) n /\ b_readable b = true }.
Lemma fine_same w u u1 : u_st u1 = u_st u -> u_recv u1 = u_recv u -> u_send u1 = u_send u -> fine w u u1 [].
Proof. intros E1 E2 E3. split; [|exact E1|rewrite E2; lia]. unfold bits_ok. rewrite E1, E2, E3. auto. Qed.
Lemma fine_refresh (w : Prop) u u0 g : u_st u = u_st u0 -> (length (mb_msgs (u_recv u)) <= length (mb_msgs (u_recv u0)))%nat \/ g = true ->
  fine w u0 (fst (u_refresh u g)) (snd (u_refresh u g)).
Proof.
  intros E L. split; [intros B; exact (refresh_bits w u u0 g B E)| |].
  - rewrite refresh_last, E. reflexivity.
  - rewrite refresh_recv. intros Q. destruct L as [L| ->]; [lia|]. apply refresh_grew. intros N. rewrite N in Q. cbn in Q. lia.
Qed.
Lemma push_in_fine w u p now u1 n : u_push_in u p now = Some (u1, n) -> fine w u u1 n.
Proof.
  unfold u_push_in. destruct (match u_peer u with Some a => negb (addr_eqb a (up_src p)) | None => false end); [intros [= <- <-]; now apply fine_same|].
  destruct (negb (mb_has_space (u_recv u))); [intros [= <- <-]; now apply fine_same|].
  destruct (mb_push _ _ _) as [r|]; [|discriminate]. ob. pose proof (fine_refresh w (u_set_recv u r) u true eq_refl (or_intror eq_refl)) as F.
  destruct (u_refresh (u_set_recv u r) true) as [u' n']. intros [= <- <-]. exact F.
Qed.
Lemma pull_out_fine w u u1 p n : u_pull_out u = Some (u1, p, n) -> fine w u u1 n.
Proof.
  unfold u_pull_out. destruct (mb_pop (u_send u)) as [[m b]|]; [|discriminate]. ob. destruct m as [[d hd]|]; [|intros [= <- _ <-]; now apply fine_same].
  intros E. pose proof (fine_refresh w (u_set_send u b) u false eq_refl ltac:(left; cbn; lia)) as F. destruct (u_refresh (u_set_send u b) false) as [u' n']. injection E as <- _ <-. exact F.
Qed.
Lemma recvmsg_fine w u x u1 r n : u_recvmsg u x = Some (u1, r, n) -> fine w u u1 n.
Proof.
  unfold u_recvmsg. destruct (ra_flags x) as [[[dw pk] tr]|]; [|intros [= <- _ <-]; now apply fine_same].
  assert (L : forall m b, (if pk then Some (mb_peek (u_recv u), u_recv u) else mb_pop (u_recv u)) = Some (m, b) -> (length (mb_msgs b) <= length (mb_msgs (u_recv u)))%nat).
  { intros m b. destruct pk; [intros [= _ <-]; lia|]. unfold mb_pop. destruct (mb_msgs (u_recv u)) as [|[m0 h0] r0] eqn:Q; [intros [= _ <-]; rewrite Q; lia|].
    unfold assert_then. destruct (blen m0 <=? _); [|discriminate]. intros [= _ <-]. cbn. lia. }
  destruct (if pk then _ else _) as [[m b]|]; [|discriminate]. specialize (L m b eq_refl). ob. cbv zeta.
  destruct m as [[d hd]|].
  - destruct (_ && _).
    + pose proof (fine_refresh w (u_set_recv u b) u false eq_refl ltac:(left; cbn; exact L)) as F. destruct (u_refresh (u_set_recv u b) false) as [u' n']. intros [= <- _ <-]. exact F.
    + pose proof (fine_refresh w (u_set_last (u_set_recv u b) (Some (rh_time hd))) u false eq_refl ltac:(left; cbn; exact L)) as F.
      destruct (u_refresh (u_set_last _ _) false) as [u' n']. intros [= <- _ <-]. exact F.
  - pose proof (fine_refresh w (u_set_recv u b) u false eq_refl ltac:(left; cbn; exact L)) as F. destruct (u_refresh (u_set_recv u b) false) as [u' n']. intros [= <- _ <-]. exact F.
Qed.
Definition alike (u u1 : udp) : Prop := u_st u1 = u_st u /\ u_recv u1 = u_recv u /\ u_send u1 = u_send u.
Lemma alike_fine w u u1 : alike u u1 -> fine w u u1 [].
Proof. intros (A & B & C). now apply fine_same. Qed.
Lemma ensure_alike debug ns s u dst local rng ns1 u1 e : u_ensure_bound debug ns s u dst local rng = Some (ns1, u1, e) -> alike u u1.
Proof.
  unfold u_ensure_bound, assert_then. destruct (u_bound u); [destruct (match u_assoc u with Some _ => true | None => false end); [|discriminate]; intros [= _ <- _]; repeat split|].
  destruct (match u_peer u with None => true | Some _ => false end); [|discriminate]. destruct (match u_assoc u with None => true | Some _ => false end); [|discriminate].
  destruct (associate_socket _ _ _ _ _ _ _) as [[ns' [l|er]]|]; [| |discriminate]; ob; intros [= _ <- _]; repeat split.
Qed.
Lemma bind_alike debug ns s u a rng ns1 u1 r : u_bind debug ns s u a rng = Some (ns1, u1, r) -> alike u u1.
Proof.
  unfold u_bind, assert_then. destruct a as [[a|]|]; try (intros [= _ <- _]; repeat split; fail). destruct (u_bound u); [intros [= _ <- _]; repeat split|].
  destruct (match u_peer u with None => true | Some _ => false end); [|discriminate]. destruct (match u_assoc u with None => true | Some _ => false end); [|discriminate].
  destruct (associate_socket _ _ _ _ _ _ _) as [[ns' [l|er]]|]; [| |discriminate]; ob; intros [= _ <- _]; repeat split.
Qed.
Lemma connect_alike debug known ns s u a rng ns1 u1 r : u_connect debug known ns s u a rng = Some (ns1, u1, r) -> alike u u1.
Proof.
  unfold u_connect. destruct a as [a|]; [|intros [= _ <- _]; repeat split]. cbv zeta. destruct (_ && _); [intros [= _ <- _]; repeat split|].
  destruct (u_ensure_bound _ _ _ _ _ _ _) as [[[ns' u'] [er|]]|] eqn:E; [| |discriminate]; ob; intros [= _ <- _]; apply ensure_alike in E; exact E.
Qed.
Lemma sendmsg_fine w debug ns pri s u x rng ns1 pri1 u1 r n ip : u_sendmsg debug ns pri s u x rng = Some (ns1, pri1, u1, r, n, ip) -> fine w u u1 n.
Proof.
  unfold u_sendmsg. destruct (u_shw u); [intros [= _ _ <- _ <- _]; now apply fine_same|]. destruct (sa_flags x) as [dw|]; [|intros [= _ _ <- _ <- _]; now apply fine_same].
  destruct (match sa_addr x with Some (Some a) => inl a | Some None => inr EAFNOSUPPORT | None => match u_peer u with Some a => inl a | None => inr EDESTADDRREQ end end) as [dst|er]; [|intros [= _ _ <- _ <- _]; now apply fine_same].
  destruct (DATAGRAM_MAX <? _); [intros [= _ _ <- _ <- _]; now apply fine_same|].
  destruct (u_ensure_bound _ _ _ _ _ _ _) as [[[ns' u'] er]|] eqn:E; [|discriminate]. ob. apply ensure_alike in E. destruct er as [er|]; [intros [= _ _ <- _ <- _]; now apply alike_fine|].
  destruct E as (A & B & C). assert (F : forall q, u_st q = u_st u' -> u_recv q = u_recv u' -> fine w u (fst (u_refresh q false)) (snd (u_refresh q false))).
  { intros q Q1 Q2. apply fine_refresh; [congruence|left; rewrite Q2, B; lia]. }
  destruct (negb (mb_has_space (u_send u'))).
  - specialize (F u' eq_refl eq_refl). destruct (u_refresh u' false) as [u2 n2]. intros [= _ _ <- _ <- _]. exact F.
  - destruct (_ && _).
    + specialize (F u' eq_refl eq_refl). destruct (u_refresh u' false) as [u2 n2]. intros [= _ _ <- _ <- _]. exact F.
    + unfold assert_then. destruct (pri + 1 <=? U64_MAX); [|discriminate]. destruct (u_bound u') as [b|]; [|discriminate]. ob. cbv zeta.
      destruct (mb_push _ _ _) as [q|]; [|discriminate]. ob. specialize (F (u_set_send u' q) eq_refl eq_refl). destruct (u_refresh (u_set_send u' q) false) as [u2 n2]. intros [= _ _ <- _ <- _]. exact F.
Qed.
Lemma close_fine w u : fine w u (fst (u_close u)) (snd (u_close u)).
Proof.
  split.
  - intros _ C. cbn in C. discriminate.
  - unfold u_close. rewrite update_last. reflexivity.
  - cbn. lia.
Qed.

(* ------------------------------------------------------------------ the host *)
Definition good (w : Prop) (h h' : host) (e : list uevent) : Prop := (polled w h -> polled w h') /\ evolves h h' e.
Lemma good_put w h s u u1 n h' : get s (h_socks h) = Some u -> h_socks h' = put s u1 (h_socks h) -> fine w u u1 n -> good w h h' (notes s n).
Proof.
  intros G E F. split; [|eapply evolves_put; [exact G|exact E|exact (fi_last _ _ _ _ F)|exact (fi_grew _ _ _ _ F)]].
  intros P. eapply polled_put; [exact P|exact E|]. exact (fi_bits _ _ _ _ F (P s u G)).
Qed.
Lemma good_refl w h h' : h_socks h' = h_socks h -> good w h h' [].
Proof. intros E. split; [unfold polled; rewrite E; auto|now apply evolves_refl]. Qed.
Lemma good_trans w h1 h2 h3 e1 e2 : good w h1 h2 e1 -> good w h2 h3 e2 -> good w h1 h3 (e1 ++ e2).
Proof. intros [P1 E1] [P2 E2]. split; [auto|eapply evolves_trans; eassumption]. Qed.
Lemma add_source_socks h w s u h' : h_add_source h w s u = Some h' -> h_socks h' = h_socks h.
Proof.
  unfold h_add_source, assert_then. destruct (u_has_data u); [|discriminate]. destruct (negb _); [|intros [= <-]; reflexivity]. destruct (nq_push _ _ _); [|discriminate]. ob. intros [= <-]. now destruct w.
Qed.
Lemma notify_socks h ip s h' : h_notify h ip s = Some h' -> h_socks h' = h_socks h.
Proof.
  unfold h_notify. destruct (ns_interface _ _) as [w|]; [|intros [= <-]; reflexivity]. destruct (get s (h_socks h)) as [u|]; [|discriminate]. ob.
  destruct (h_add_source h w s u) as [h1|] eqn:A; [|discriminate]. ob. intros [= <-]. apply add_source_socks in A. destruct (ip =? LOCALHOST); exact A.
Qed.
Lemma set_q_socks h w q : h_socks (h_set_q h w q) = h_socks h.
Proof. now destruct w. Qed.
Lemma set_due_socks h w d : h_socks (h_set_due h w d) = h_socks h.
Proof. now destruct w. Qed.
Lemma pop_good w fuel : forall h i h' p e, h_pop_loop fuel h i = Some (h', p, e) -> good w h h' e.
Proof.
  induction fuel as [|fuel IH]; intros h i h' p e E; [discriminate|]. cbn [h_pop_loop] in E.
  destruct (nq_pop (h_q h i)) as [[q r]|]; [|discriminate]. ob_in E. cbv zeta in E. destruct r as [s|]; [|injection E as <- _ <-; apply good_refl; apply set_q_socks].
  destruct (get s (h_socks h)) as [u|] eqn:G; [|discriminate]. ob_in E. destruct (u_pull_out u) as [[[u1 p1] n]|] eqn:PO; [|discriminate]. ob_in E.
  pose proof (pull_out_fine w _ _ _ _ PO) as F.
  assert (GP : good w h (h_put (h_set_q h i q) s u1) (notes s n)). { eapply good_put; [exact G|cbn [h_put h_socks]; rewrite set_q_socks; reflexivity|exact F]. }
  destruct p1 as [p1|].
  - destruct (if u_has_data u1 then _ else _) as [h3|] eqn:A; [|discriminate]. ob_in E. injection E as <- _ <-.
    assert (h_socks h3 = h_socks (h_put (h_set_q h i q) s u1)) as EQ. { destruct (u_has_data u1); [eapply add_source_socks; exact A|congruence]. }
    rewrite <- (app_nil_r (notes s n)). eapply good_trans; [exact GP|apply good_refl; exact EQ].
  - assert (n = []) as ->. { unfold u_pull_out in PO. destruct (mb_pop (u_send u)) as [[m b]|]; [|discriminate]. ob_in PO. destruct m as [[d hd]|]; [destruct (u_refresh _ _) in PO; discriminate|congruence]. }
    apply IH in E. change e with ([] ++ e). eapply good_trans; [exact GP|exact E].
Qed.
Lemma receive_good w h i p now h' e : h_receive h i p now = Some (h', e) -> good w h h' e.
Proof.
  unfold h_receive. destruct (if_target _ _ _ _) as [s|]; [|intros [= <- <-]; now apply good_refl]. destruct (get s (h_socks h)) as [u|] eqn:G; [|discriminate]. ob.
  destruct (u_push_in u p now) as [[u1 n]|] eqn:PI; [|discriminate]. ob. intros [= <- <-]. eapply good_put; [exact G|reflexivity|eapply push_in_fine; exact PI].
Qed.
Lemma route_good w known h p now h' e : h_route known h p now = Some (h', e) -> good w h h' e.
Proof.
  unfold h_route. destruct (_ =? LOCALHOST); [apply receive_good|]. destruct (_ =? _); [apply receive_good|]. unfold send_packet, assert_then.
  destruct (known (fst (up_dst p))); [destruct (known (fst (up_src p)))|]; ob; try discriminate; intros [= <- <-]; [split; [auto|now apply evolves_wire]|now apply good_refl].
Qed.
Lemma step_good (w : Prop) debug known h o h' r e : h_step debug known h o = Some (h', r, e) -> (w -> ~ resizes o) ->
  (forall nb a b, o <> USocket nb a b) -> good w h h' e.
Proof.
  intros E W NS. destruct o; cbn [h_step] in E; try (now destruct (NS nb snd rcv));
    unfold on_socket, h_open in E.
  all: try (destruct (get s (h_socks h)) as [u|] eqn:G; [destruct (b_closed (u_st u)) eqn:CL|]; try (injection E as <- _ <-; now apply good_refl)).
  - destruct (u_bind _ _ _ _ _ _) as [[[ns1 u1] r1]|] eqn:B; [|discriminate]. ob_in E. injection E as <- _ <-. change (@nil uevent) with (notes s []).
    eapply good_put; [exact G|reflexivity|apply alike_fine; eapply bind_alike; exact B].
  - destruct (u_connect _ _ _ _ _ _ _) as [[[ns1 u1] r1]|] eqn:B; [|discriminate]. ob_in E. injection E as <- _ <-. change (@nil uevent) with (notes s []).
    eapply good_put; [exact G|reflexivity|apply alike_fine; eapply connect_alike; exact B].
  - destruct (u_sendmsg _ _ _ _ _ _ _) as [[[[[[ns1 pri1] u1] r1] n] ip]|] eqn:B; [|discriminate]. ob_in E. cbv zeta in E.
    destruct (match ip with Some _ => _ | None => _ end) as [h2|] eqn:N; [|discriminate]. ob_in E. injection E as <- _ <-.
    eapply good_put; [exact G| |eapply sendmsg_fine; exact B]. destruct ip as [ip|]; [apply notify_socks in N; rewrite N; reflexivity|injection N as <-; reflexivity].
  - destruct (u_recvmsg u x) as [[[u1 r1] n]|] eqn:B; [|discriminate]. ob_in E. injection E as <- _ <-. eapply good_put; [exact G|reflexivity|eapply recvmsg_fine; exact B].
  - unfold u_shutdown in E. destruct (u_peer u); injection E as <- _ <-; change (@nil uevent) with (notes s []); (eapply good_put; [exact G|reflexivity|now apply fine_same]).
  - unfold u_sndbuf in E. assert (NW : ~ w) by (intros Q; apply (W Q); exact I). destruct (v <? 0); injection E as <- _ <-; change (@nil uevent) with (notes s []); (eapply good_put; [exact G|reflexivity|]); [now apply fine_same|].
    split; [|reflexivity|cbn; lia]. intros B C. cbn in *. destruct (B C) as (X & Y & _). split; [exact X|]. split; [exact Y|tauto].
  - unfold u_rcvbuf in E. destruct (v <? 0); injection E as <- _ <-; change (@nil uevent) with (notes s []); (eapply good_put; [exact G|reflexivity|]); [now apply fine_same|].
    split; [|reflexivity|cbn; lia]. intros B C. cbn in *. exact (B C).
  - injection E as <- _ <-. change (@nil uevent) with (notes s []). eapply good_put; [exact G|reflexivity|now apply fine_same].
  - pose proof (close_fine w u) as F. destruct (u_close u) as [u1 n]. injection E as <- _ <-. eapply good_put; [exact G|reflexivity|exact F].
  - destruct (h_due h w0); [|injection E as <- _ <-; now apply good_refl]. destruct (h_pop h w0) as [[[h1 p] e1]|] eqn:P; [|discriminate]. ob_in E. apply (pop_good w) in P.
    destruct p as [p|].
    + destruct (h_route known h1 p now) as [[h2 e2]|] eqn:RO; [|discriminate]. ob_in E. injection E as <- _ <-. eapply good_trans; [exact P|eapply route_good; exact RO].
    + injection E as <- _ <-. rewrite <- (app_nil_r e1). eapply good_trans; [exact P|apply good_refl; apply set_due_socks].
  - destruct (h_route known h p now) as [[h1 e1]|] eqn:RO; [|discriminate]. ob_in E. injection E as <- _ <-. eapply route_good; exact RO.
Qed.
(** Every change since [h] reached the listeners of the sockets there were then. *)
Definition heard (h h' : host) (e : list uevent) : Prop :=
  forall s u, get s (h_socks h) = Some u -> exists u', get s (h_socks h') = Some u' /\ u_st u' = last (map fst (told s e)) (u_st u) /\
    ((length (mb_msgs (u_recv u)) < length (mb_msgs (u_recv u')))%nat -> exists b, In (b, true) (told s e) /\ b_readable b = true).
Lemma heard_trans h1 h2 h3 e1 e2 : heard h1 h2 e1 -> heard h2 h3 e2 -> heard h1 h3 (e1 ++ e2).
Proof.
  intros A B s u G. destruct (A s u G) as (u2 & G2 & S2 & L2). destruct (B s u2 G2) as (u3 & G3 & S3 & L3). exists u3. split; [exact G3|].
  rewrite told_app, map_app, last_app, <- S2. split; [exact S3|]. intros L. destruct (Nat.lt_ge_cases (length (mb_msgs (u_recv u))) (length (mb_msgs (u_recv u2)))) as [Q|Q].
  - destruct (L2 Q) as (b & I & BR). exists b. split; [apply in_or_app; now left|exact BR].
  - destruct L3 as (b & I & BR); [lia|]. exists b. split; [apply in_or_app; now right|exact BR].
Qed.
Lemma step_heard debug known h o h' r e : (forall s, h_next h <= s -> get s (h_socks h) = None) -> h_step debug known h o = Some (h', r, e) -> heard h h' e.
Proof.
  intros F E. destruct o; try exact (ev_old _ _ _ (proj2 (step_good False _ _ _ _ _ _ _ E (fun f => match f with end) ltac:(congruence)))).
  injection E as <- _ <-. intros s u G. exists u. cbn [h_socks]. rewrite get_put. cbn [FMap.eqb Eqb_Z]. destruct (Z.eqb_spec s (h_next h)) as [-> |N]; [rewrite F in G by lia; discriminate|].
  split; [exact G|]. split; [reflexivity|lia].
Qed.
Lemma new_bits w nb a b : bits_ok w (u_new nb a b).
Proof. intros _. cbn. auto. Qed.
Lemma step_polled (w : Prop) debug known h o h' r e : h_step debug known h o = Some (h', r, e) -> (w -> ~ resizes o) -> polled w h -> polled w h'.
Proof.
  intros E W P. destruct o; try (eapply (proj1 (step_good w _ _ _ _ _ _ _ E W ltac:(congruence))); exact P).
  injection E as <- _ _. eapply polled_put; [exact P|reflexivity|apply new_bits].
Qed.
Lemma run_polled (w : Prop) debug known ops : forall h h' rs, h_run debug known h ops = Some (h', rs) -> (w -> Forall (fun o => ~ resizes o) ops) -> polled w h -> polled w h'.
Proof.
  induction ops as [|o ops IH]; intros h h' rs E W P; cbn [h_run] in E; [now injection E as <- _|].
  destruct (h_step debug known h o) as [[[h1 r] e]|] eqn:ST; [|discriminate]. ob_in E. destruct (h_run debug known h1 ops) as [[h2 rs2]|] eqn:R; [|discriminate]. ob_in E. injection E as <- _.
  eapply IH; [exact R|intros q; specialize (W q); now inversion W|]. eapply step_polled; [exact ST|intros q; specialize (W q); now inversion W|exact P].
Qed.
Lemma new_polled w k ip : polled w (h_new k ip).
Proof. intros s u G. discriminate. Qed.
