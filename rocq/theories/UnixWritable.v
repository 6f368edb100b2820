(** A datagram socket whose writable bit is right keeps it right. *)
From Verif Require Import Base FMap UnixModel UnixSpec UnixFacts UnixInv UnixOps UnixLink UnixCall UnixSend UnixWorld UnixNotes UnixReady UnixTraces UnixDeliver UnixWaits.

Definition okw (s : usock) : Prop :=
  match us_proto s with PDgram _ _ _ _ => f_writable (us_bits s) = (us_sent s <? send_limit) | _ => True end.
Definition stays (w w' : world) : Prop :=
  fresh w -> fresh w' /\ forall x s, sock w x = Some s -> okw s -> exists s', sock w' x = Some s' /\ okw s'.
Lemma stays_refl w : stays w w. Proof. intro F. split; eauto. Qed.
Lemma stays_trans w w1 w2 : stays w w1 -> stays w1 w2 -> stays w w2.
Proof.
  intros A B F. destruct (A F) as (F1 & A1), (B F1) as (F2 & B1). split; auto. intros x s X O. destruct (A1 x s X O) as (s1 & X1 & O1). eauto.
Qed.
Lemma stays_upd w x s s' : sock w x = Some s -> (okw s -> okw s') -> stays w (upd w x s').
Proof.
  intros X O F. split; [eapply fresh_upd; eauto|]. intros z t Z T. rewrite sock_upd. destruct (Z.eqb_spec z x) as [->|]; [|eauto].
  exists s'. split; auto. apply O. congruence.
Qed.
(** All but [x]. *)
Definition stays_but (x : Z) (w w' : world) : Prop :=
  fresh w -> fresh w' /\ (exists s', sock w' x = Some s') /\ forall z s, z <> x -> sock w z = Some s -> okw s -> exists s', sock w' z = Some s' /\ okw s'.
Lemma refresh_okw w x g w' cs : refresh w x g = Some (w', cs) -> exists s b, sock w x = Some s /\ w' = upd w x (set_bits s b) /\ okw (set_bits s b).
Proof.
  unfold refresh. destruct (sock w x) as [s|] eqn:X; [|discriminate]. ob. intro H. exists s.
  assert (U : forall b, Some (update_state w x s b g) = Some (w', cs) -> w' = upd w x (set_bits s b)).
  { intros b E. unfold update_state in E. congruence. }
  destruct (us_proto s) eqn:P.
  - destruct g; [discriminate|]. eexists. split; auto. split; [exact (U _ H)|]. unfold okw. cbn. rewrite P. exact Logic.I.
  - eexists. split; auto. split; [exact (U _ H)|]. unfold okw. cbn. rewrite P. exact Logic.I.
  - destruct (sock w peer) as [p|]; [|discriminate]. ob_in H. eexists. split; auto. split; [exact (U _ H)|]. unfold okw. cbn. rewrite P. exact Logic.I.
  - destruct g; [discriminate|]. eexists. split; auto. split; [exact (U _ H)|]. unfold okw. cbn. rewrite P. exact Logic.I.
  - eexists. split; auto. split; [exact (U _ H)|]. unfold okw. cbn. rewrite P. reflexivity.
  - destruct g; [discriminate|]. eexists. split; auto. split; [exact (U _ H)|]. unfold okw. cbn. rewrite P. exact Logic.I.
Qed.
Lemma refresh_stays w x g w' cs : refresh w x g = Some (w', cs) -> stays w w'.
Proof. intro H. destruct (refresh_okw _ _ _ _ _ H) as (s & b & X & -> & O). eapply stays_upd; eauto. Qed.
Lemma but_refresh x w w1 g w' cs : stays_but x w w1 -> refresh w1 x g = Some (w', cs) -> stays w w'.
Proof.
  intros B H F. destruct (B F) as (F1 & _ & B1). destruct (refresh_okw _ _ _ _ _ H) as (s & b & X & -> & O). split; [eapply fresh_upd; eauto|].
  intros z t Z T. rewrite sock_upd. destruct (Z.eqb_spec z x) as [->|N]; eauto.
Qed.
Lemma okw_buf s b : okw s -> okw (set_buf s b). Proof. auto. Qed.
Lemma on_buf_stays w x f w' cs : on_buf w x f = Some (w', cs) -> stays w w'.
Proof.
  unfold on_buf. intro H. destruct (sock w x) as [s|] eqn:X; [|discriminate]. ob_in H. destruct (f (us_buf s)) as [[b c]|]; [|discriminate]. ob_in H.
  injection H as <- <-. eapply stays_upd; eauto.
Qed.
Lemma new_sock_stays w t nb fd w' x : new_sock w t nb fd = Some (w', x) -> stays w w'.
Proof.
  intros H. assert (E : exists s, w' = mkW (put (w_next w) s (w_socks w)) (w_names w) (w_next w + 1)).
  { unfold new_sock in H. destruct t; cbn in H; bi; eauto. }
  destruct E as (s & ->). intro F. split.
  - intros z Z. cbn [w_next] in Z. rewrite sock_put, eqb_neq by lia. apply F. lia.
  - intros z u Z O. rewrite sock_put. destruct (Z.eqb_spec z (w_next w)) as [->|]; [|eauto]. rewrite F in Z by lia. discriminate.
Qed.
Lemma listen_stays w x k y w' cs : listen_on w x k y = Some (w', cs) -> stays w w'. Proof. apply on_buf_stays. Qed.
Lemma unlisten_stays w x k y w' cs : unlisten w x k y = Some (w', cs) -> stays w w'. Proof. apply on_buf_stays. Qed.
Ltac st_facts := repeat match goal with
  | H : refresh _ _ _ = Some _ |- _ => apply refresh_stays in H
  | H : listen_on _ _ _ _ = Some _ |- _ => apply listen_stays in H
  | H : unlisten _ _ _ _ = Some _ |- _ => apply unlisten_stays in H
  | H : on_buf _ _ _ = Some _ |- _ => apply on_buf_stays in H
  | H : new_sock _ _ _ _ = Some _ |- _ => apply new_sock_stays in H
  end.
Ltac st_up := match goal with
  | X : sock ?a ?x = Some ?s |- stays ?a (upd ?a ?x ?s1) =>
      eapply (stays_upd a x s s1 X); unfold okw; cbn [us_proto us_bits us_sent set_proto set_buf set_fd set_nonblock]; try (intros _; exact Logic.I);
      repeat match goal with P : us_proto s = _ |- _ => rewrite P end; auto
  end.
Ltac st_go := first [ assumption | apply stays_refl
  | match goal with H : stays ?a _ |- stays ?a _ => eapply stays_trans; [exact H|]; clear H; st_go end
  | match goal with E : stays (upd ?a ?x ?s1) _ |- stays ?a _ => eapply (stays_trans a (upd a x s1)); [st_up|]; st_go end
  | match goal with E : stays (upd (upd ?a ?x ?s1) _ _) _ |- stays ?a _ => eapply (stays_trans a (upd a x s1)); [st_up|]; st_go end
  | st_up ].
Lemma connect_unnamed_stays w x y w' cs : connect_unnamed w x y = Some (w', cs) -> stays w w'.
Proof.
  unfold connect_unnamed. destruct (sock w x) as [s|] eqn:X; [|discriminate]. ob. intro H.
  destruct (us_proto s) as [[]|b q lim|b pa y'| |[] [] peer r|] eqn:P; try discriminate H; bi; st_facts; st_go.
Qed.
Lemma queue_incoming_stays w y srv b q lim from x w' cs c : queue_incoming w y srv b q lim from x = Some (w', cs, c) -> stays w w'.
Proof. unfold queue_incoming. intro H. bi. st_facts. st_go. Qed.
Definition still (w : world) (a : answer) : Prop := forall w' cs r, a = Some (w', cs, r) -> stays w w'.
Lemma connect_stays w x s a : sock w x = Some s -> still w (u_connect w x s a).
Proof.
  intros X w' cs r. unfold u_connect. intro H.
  destruct (us_proto s) as [bound|b q lim|b pa y'| |b pa peer rr|] eqn:P; bi; try apply stays_refl.
  - destruct a as [p|]; [|bi; apply stays_refl]. destruct (lookup_address w (us_type s) p) as [y|e]; [|bi; apply stays_refl].
    bi. match goal with u : usock |- _ => destruct (us_proto u) as [|sb q lim| | | |]; try (bi; apply stays_refl) end.
    destruct (queue_full q lim); bi; [apply stays_refl|].
    match goal with H : queue_incoming _ _ _ _ _ _ _ _ = Some _ |- _ => apply queue_incoming_stays in H end. st_facts. st_go.
  - destruct a as [p|]; [|bi; apply stays_refl]. destruct (lookup_address w (us_type s) p) as [y|e]; [|bi; apply stays_refl].
    bi. st_facts. st_go.
Qed.
Lemma pair_stays w t nb : still w (u_pair w t nb).
Proof.
  intros w' cs r H. unfold u_pair in H. bi.
  repeat match goal with H : connect_unnamed _ _ _ = Some _ |- _ => apply connect_unnamed_stays in H end. st_facts. st_go.
Qed.
Lemma accept_stays w x s nb : sock w x = Some s -> still w (u_accept w x s nb).
Proof.
  intros X w' cs r. unfold u_accept. intro H.
  destruct (us_proto s) as [bound|b [|c q] lim|b pa y'| |b pa peer rr|] eqn:P; bi; try apply stays_refl.
  match goal with H : context[u_peername ?u] |- _ => destruct (u_peername u) end; bi; subst. st_facts.
  eapply (stays_trans w (upd w x (set_proto s (PListening b q lim)))); [st_up|]. eapply stays_trans; [eassumption|].
  eapply stays_upd; eauto. destruct nb; auto.
Qed.
Lemma ns_bind_stays w x s n w' : sock w x = Some s -> ns_bind w x s n = Some w' -> stays w w' /\ sock w' x = Some (set_claim s (Some n)).
Proof.
  intros X H. unfold ns_bind in H. destruct (mem _ _); [discriminate|]. injection H as <-. split; [intro F; split|].
  - intros z Z. rewrite sock_put. destruct (Z.eqb_spec z x) as [->|]; [|apply F; exact Z]. rewrite (F x Z) in X. discriminate X.
  - intros z u Z O. rewrite sock_put. destruct (Z.eqb_spec z x) as [->|]; [|eauto]. assert (u = s) by congruence. subst. eauto.
  - rewrite sock_put, Z.eqb_refl. reflexivity.
Qed.
Lemma common_bind_stays w x s a d w' r : sock w x = Some s -> common_bind w x s a d = (w', r) ->
  stays w w' /\ exists s', sock w' x = Some s' /\ us_proto s' = us_proto s.
Proof.
  intros X H. unfold common_bind in H. assert (R : stays w w /\ exists s', sock w x = Some s' /\ us_proto s' = us_proto s) by (split; [apply stays_refl|eauto]).
  destruct a as [p|]; [|injection H as <- <-; exact R].
  assert (G : forall n w1, ns_bind w x s n = Some w1 -> stays w w1 /\ exists s', sock w1 x = Some s' /\ us_proto s' = us_proto s).
  { intros n w1 E. destruct (ns_bind_stays _ _ _ _ _ X E) as (A & B). split; auto. eexists. split; [exact B|]. reflexivity. }
  destruct (as_abstract p) as [n|].
  - destruct (ns_bind w x s n) as [w1|] eqn:E; injection H as <- <-; [eapply G; eauto|exact R].
  - destruct (is_unnamed p); [|injection H as <- <-; exact R].
    destruct (autobind_name _ d) as [n|]; [|injection H as <- <-; exact R].
    destruct (ns_bind w x s n) as [w1|] eqn:E; injection H as <- <-; [eapply G; eauto|exact R].
Qed.
Lemma bind_stays w x s a d : sock w x = Some s -> still w (u_bind w x s a d).
Proof.
  intros X w' cs r. unfold u_bind. destruct (common_bind w x s a d) as [w1 [p|e]] eqn:E; apply common_bind_stays in E as (E & s' & S' & PS); auto;
    destruct (us_proto s) as [[]|b q lim|b pa y'| |[] pa peer rr|] eqn:P; intro H; bi; try apply stays_refl; try assumption;
    (eapply stays_trans; [exact E|]); subst; st_up.
Qed.
Lemma listen_op_stays w x s n : sock w x = Some s -> still w (u_listen w x s n).
Proof.
  intros X w' cs r. unfold u_listen. intro H.
  destruct (us_proto s) as [[]|b q lim|b pa y'| |b pa peer rr|] eqn:P; bi; try apply stays_refl; st_facts; st_go.
Qed.
Lemma close_basic_stays held w x w' cs : close_basic held w x = Some (w', cs) -> stays w w'.
Proof.
  unfold close_basic. intro H. destruct (sock w x) as [s|] eqn:X; [|discriminate]. ob_in H.
  destruct (us_proto s) as [b|b q lim|b pa y'| |b pa peer rr|] eqn:P; bi; st_facts; st_go.
Qed.
Lemma close_all_stays held l : forall w w' cs, close_all held w l = Some (w', cs) -> stays w w'.
Proof.
  induction l as [|x l IH]; intros w w' cs H; cbn [close_all] in H; bi; [apply stays_refl|].
  eapply stays_trans; [eapply close_basic_stays; eauto|]. eapply IH. eauto.
Qed.
Lemma close_sock_stays w x w' cs : close_sock w x = Some (w', cs) -> stays w w'.
Proof.
  unfold close_sock. intro H. destruct (sock w x) as [s|] eqn:X; [|discriminate]. ob_in H.
  destruct (us_proto s); try (eapply close_basic_stays; eauto; fail). bi.
  match goal with H : close_all _ _ _ = Some _ |- _ => apply close_all_stays in H end. st_facts. st_go.
Qed.
Lemma close_files_stays l : forall w w' cs, close_files w l = Some (w', cs) -> stays w w'.
Proof.
  induction l as [|x l IH]; intros w w' cs H; cbn [close_files] in H; [bi; apply stays_refl|].
  destruct (sock w x) as [s|] eqn:X; [|eauto]. destruct (us_fd s); [|eauto]. bi.
  eapply stays_trans; [|eapply stays_trans; [eapply close_sock_stays; eauto|eauto]]. st_up.
Qed.
Lemma common_send_stays w x y f dw data fault w' cs r : common_send w x y f dw data fault = Some (w', cs, r) ->
  match r with inl _ => stays_but x w w' | inr _ => stays w w' end.
Proof.
  unfold common_send. intro H. destruct (sock w x) as [s|] eqn:X; [|discriminate]. ob_in H.
  destruct (negb f); [bi; apply stays_refl|]. destruct (Z.eqb_spec x y) as [|NE]; [discriminate H|]. cbn [negb assert_then] in H. bi.
  destruct (sock w y) as [p|] eqn:Y; [|discriminate].
  match goal with H : Some p = Some ?u |- _ => assert (u = p) by congruence; subst; clear H end.
  destruct (ub_readers (us_buf p) =? 0); [bi; apply stays_refl|].
  destruct (Z.max _ 0 =? 0); [bi; apply stays_refl|].
  assert (G : forall b, stays w (upd w y (set_buf p b))) by (intro b; eapply stays_upd; eauto).
  assert (G0 : stays_but x w w).
  { intro F. split; auto. split; eauto. }
  assert (G1 : forall b u n, sock (upd w y (set_buf p b)) x = Some u -> stays_but x w (upd (upd w y (set_buf p b)) x (set_sent u n))).
  { intros b u n U F. destruct (G b F) as (F1 & A). split; [eapply fresh_upd; eauto|]. split; [rewrite sock_upd, Z.eqb_refl; eauto|].
    intros z t N Z O. rewrite sock_upd, eqb_neq by auto. eauto. }
  destruct (us_type s).
  - destruct (Z.min _ _ =? 0); [bi; auto|]. destruct (write_stream _ _ _) as [[b c] [n|e]] eqn:E; bi; auto.
  - destruct (_ <=? _); [|destruct (_ <=? _); bi; apply stays_refl]. destruct (write_packet _ _ _) as [[b c] [n|e]] eqn:E; bi; auto.
  - destruct (_ <=? _); [|destruct (_ <=? _); bi; apply stays_refl]. destruct (write_packet _ _ _) as [[b c] [n|e]] eqn:E; bi; auto.
Qed.
Lemma but_upd x w w1 y p p' : stays_but x w w1 -> sock w1 y = Some p -> (okw p -> okw p') -> stays_but x w (upd w1 y p').
Proof.
  intros B Y O F. destruct (B F) as (F1 & (s & X) & B1). split; [eapply fresh_upd; eauto|]. split.
  - rewrite sock_upd. destruct (x =? y); eauto.
  - intros z t N Z T. rewrite sock_upd. destruct (B1 z t N Z T) as (t1 & Z1 & T1). destruct (Z.eqb_spec z y) as [->|]; eauto.
    exists p'. split; auto. apply O. congruence.
Qed.
Lemma send_stays w x s a c f dw data fault : still w (u_send w x s a c f dw data fault).
Proof.
  intros w' cs r. unfold u_send. intro H. destruct (us_proto s) as [b|b q lim|b pa y'| |b pa peer rr|] eqn:P; bi; try apply stays_refl.
  - destruct (us_type s), a; bi; apply stays_refl.
  - destruct c; [bi; apply stays_refl|]. destruct (resolve _ _ _ _) as [y|e]; [|bi; apply stays_refl]. bi.
    match goal with H : common_send _ _ _ _ _ _ _ = Some _ |- _ => apply common_send_stays in H end.
    destruct s0 as [n|[e|]]; bi; auto. eapply but_refresh; eauto.
  - destruct c; [bi; apply stays_refl|]. destruct (resolve _ _ _ _) as [y|e]; [|bi; apply stays_refl]. bi.
    match goal with H : common_send _ _ _ _ _ _ _ = Some _ |- _ => apply common_send_stays in H end.
    destruct s0 as [n|[e|]]; bi; try assumption.
    match goal with H : match us_proto ?u with _ => _ end = Some _ |- _ => destruct (us_proto u) eqn:PU; bi end. subst.
    eapply but_refresh; [|eassumption]. eapply but_upd; eauto. unfold okw. cbn. rewrite PU. auto.
Qed.
Lemma common_recv_stays w x f dw tr cap fault w' cs r : common_recv w x f dw tr cap fault = Some (w', cs, r) -> stays w w'.
Proof.
  unfold common_recv. intro H. destruct (sock w x) as [s|] eqn:X; [|discriminate]. ob_in H.
  destruct (negb f); [bi; apply stays_refl|]. destruct (_ && _); [bi; apply stays_refl|].
  destruct (buf_read _ _ _) as [[b c] [[out n]|e]] eqn:E; [destruct (_ && _)|]; bi; st_up.
Qed.
Lemma recv_stays w x s c f dw tr cap fault : still w (u_recv w x s c f dw tr cap fault).
Proof.
  intros w' cs r. unfold u_recv. intro H. destruct (us_proto s) as [b|b q lim|b pa y'| |b pa peer rr|] eqn:P; bi; try apply stays_refl.
  - destruct (us_type s); bi; apply stays_refl.
  - destruct c; [bi; apply stays_refl|]. bi.
    match goal with H : common_recv _ _ _ _ _ _ _ = Some _ |- _ => apply common_recv_stays in H end.
    destruct s0 as [[[[n out] removed] t]|[e|]]; bi; try assumption. st_facts. st_go.
  - destruct c; [bi; apply stays_refl|]. bi.
    match goal with H : common_recv _ _ _ _ _ _ _ = Some _ |- _ => apply common_recv_stays in H end.
    destruct s0 as [[[[n out] removed] t]|[e|]]; bi; try assumption.
    match goal with H : match us_proto ?u with _ => _ end = Some _ |- _ => destruct (us_proto u) as [| | | |? ? ? [|[[? ?] ?] ?]|] eqn:PU; bi end.
    st_facts. st_go.
Qed.
Lemma syscall_stays w o : still w (syscall w o).
Proof.
  assert (W : forall x f, (forall s, sock w x = Some s -> still w (f s)) -> still w (with_fd w x f)).
  { intros x f H w' cs r. unfold with_fd. destruct (sock w x) as [s|]; [|intro; bi; apply stays_refl].
    destruct (us_fd s); [|intro; bi; apply stays_refl]. apply H. reflexivity. }
  destruct o; cbn [syscall]; try (apply W; intros s X).
  - intros w' cs r H. bi. eapply new_sock_stays; eauto.
  - apply pair_stays.
  - apply bind_stays; auto.
  - apply listen_op_stays; auto.
  - apply connect_stays; auto.
  - apply accept_stays; auto.
  - apply send_stays.
  - apply recv_stays.
  - intros w' cs r H. bi. eapply close_files_stays; eauto.
  - intros w' cs r H. bi. apply stays_refl.
  - intros w' cs r H. bi. apply stays_refl.
  - intros w' cs r H. bi. st_up.
Qed.
Lemma inform_stays w x n w' cs : inform w x n = Some (w', cs) -> stays w w'.
Proof.
  unfold inform. intro H. destruct (sock w x) as [s|] eqn:X; [|discriminate]. ob_in H.
  assert (B : forall n, stays_but x w (upd w x (set_sent s n))).
  { intros m F. split; [eapply fresh_upd; eauto|]. split; [rewrite sock_upd, Z.eqb_refl; eauto|]. intros z t N Z O. rewrite sock_upd, eqb_neq by auto. eauto. }
  destruct (us_proto s); bi; try apply stays_refl; eapply but_refresh; eauto.
Qed.
Lemma run_cb_stays w c w' cs ns : run_cb w c = Some (w', cs, ns) -> stays w w'.
Proof.
  unfold run_cb. intro H. destruct c as [[] x ch g|x|x n|x o n g].
  - destruct (bs_nr ch); bi; [eapply refresh_stays; eauto|apply stays_refl].
  - destruct (_ || _); bi; [eapply refresh_stays; eauto|apply stays_refl].
  - destruct (_ || _); bi; [eapply refresh_stays; eauto|apply stays_refl].
  - bi; eapply refresh_stays; eauto.
  - bi; eapply inform_stays; eauto.
  - bi. destruct (_ && _); [|bi; subst; apply stays_refl].
    destruct (us_claim _); [|bi; subst; apply stays_refl]. unfold unbind in *. bi. subst. intro F. split; auto. intros z t Z O. exists t. auto.
Qed.
Lemma run_cbs_stays fuel : forall w Q w' ns, run_cbs fuel w Q = Some (w', ns) -> stays w w'.
Proof.
  induction fuel as [|fuel IH]; intros w [|c Q] w' ns H; cbn [run_cbs] in H; try discriminate H; bi; try apply stays_refl.
  eapply stays_trans; [eapply run_cb_stays; eauto|eauto].
Qed.
Lemma step_stays w o w' r ns : step w o = Some (w', r, ns) -> stays w w'.
Proof.
  unfold step. intro H. bi. eapply stays_trans; [eapply syscall_stays; eauto|]. eapply run_cbs_stays. eauto.
Qed.
Lemma run_stays ops : forall w w' outs, run w ops = Some (w', outs) -> stays w w'.
Proof.
  induction ops as [|o ops IH]; intros w w' outs H; cbn [run] in H; bi; [apply stays_refl|]. eapply stays_trans; [eapply step_stays; eauto|eauto].
Qed.

(* ------------------------------------------------------------------ blocked senders of datagrams *)
Lemma okw_said w S x s : Inv w [] -> sim w S -> sock w x = Some s -> okw s -> k_type (abs s) = UDgram -> f_writable (us_bits s) = says_writable S x (abs s).
Proof.
  intros I A X O T. destruct (bits_say w S x s I A X) as (_ & _ & _ & [B|(U & B)]); [exact B|]. exfalso.
  pose proof (i_sock _ _ I x s X) as So. unfold sock_ok in So. unfold untouched in U. change (k_role (abs s)) with (role_of (us_proto s)) in U.
  unfold okw in O. destruct (us_proto s) as [| | | |b pa peer r|] eqn:P; try discriminate U.
  destruct So as (TD & RD & W0 & Li & IT & FO & SE & SG & PE & FR & BB).
  assert (FL : in_flight S x = us_sent s) by (rewrite (flight_gram w S x s), SG; auto; cbn; lia).
  destruct (k_in (abs s)); [|discriminate U]. apply Z.eqb_eq in U. rewrite FL in U. rewrite U, B in O. discriminate O.
Qed.
Lemma said_okw w S x s : Inv w [] -> sim w S -> sock w x = Some s -> k_role (abs s) <> KGone -> f_writable (us_bits s) = says_writable S x (abs s) -> okw s.
Proof.
  intros I A X G O. unfold okw. destruct (us_proto s) as [| | | |b pa peer r|] eqn:P; try exact Logic.I.
  pose proof (i_sock _ _ I x s X) as So. unfold sock_ok in So. rewrite P in So. destruct So as (TD & RD & W0 & Li & IT & FO & SE & SG & PE & FR & BB).
  assert (FL : in_flight S x = us_sent s) by (rewrite (flight_gram w S x s), SG; auto; cbn; lia).
  rewrite O. unfold says_writable. change (k_role (abs s)) with (role_of (us_proto s)). rewrite P. cbn [role_of]. unfold room. rewrite FL.
  destruct (Z.ltb_spec (us_sent s) send_limit), (Z.ltb_spec 0 (send_limit - us_sent s)); auto; lia.
Qed.
(** Every call that blocks waits for a bit that is off, but a message that does not fit yet. *)
Lemma blocks_off_all w S o w1 z on ns : Inv w [] -> sim w S -> clean o -> step w o = Some (w1, RBlock z on, ns) ->
  bit on (bits_at w1 z) = false \/
  exists x a c f dw data fault k, o = Send x a c f dw data fault /\ ks S x = Some k /\ k_type k <> UStream /\ 0 < room S x < blen data.
Proof.
  intros I A C E. destruct o; try (left; apply (blocks_off w S _ w1 z on ns I A C E); exact Logic.I).
  pose proof (step_ok w S _ I A C) as H. destruct (s_step S _) as [[S1 r]|] eqn:ST; [|congruence].
  destruct H as (w2 & ns2 & E2 & I2 & A2). rewrite E in E2. injection E2 as <- <- <-.
  destruct (blocked _ _ _ _ _ ST) as (-> & -> & -> & k & y & K & DE & G & AC). destruct (sim_back w S x k A K) as (s & X & EK).
  destruct (us_type s) eqn:TS; [left; apply (blocks_off w S _ w1 x WWritable ns I A C E); exists s; auto| |].
  all: assert (TK : k_type k = us_type s) by (rewrite EK; reflexivity); rewrite TS in TK.
  all: destruct (Z.leb_spec (room S x) 0) as [L|L];
    [left|right; exists x, a, control, flags_ok, dontwait, data, fault, k; split; auto; split; auto; split; [rewrite TK; discriminate|]; split; auto;
          unfold accepted in AC; rewrite TK in AC; destruct (Z.leb_spec (room S x) 0); [lia|]; destruct (Z.leb_spec (blen data) (room S x)); [discriminate AC|lia]].
  all: destruct (sim_back w1 S x k A2 K) as (s1 & X1 & EK1); rewrite (bits_at_sock _ _ _ X1);
    pose proof (ki_kind S (kinv w S I A) x k K) as KD; rewrite TK in KD;
    destruct (bits_say w1 S x s1 I2 A2 X1) as (_ & _ & _ & [B|(U & B)]); cbn [bit]; [|exact B]; rewrite B, <- EK1;
    unfold says_writable; unfold destination in DE.
  - destruct (k_role k) as [| |z' pn|t|]; auto; try (exfalso; apply KD; reflexivity). apply Z.ltb_ge. lia.
  - destruct (k_role k) as [| |z' pn|t|]; auto; try discriminate KD.
    assert (z' = y). { rewrite TK in DE. destruct a as [[p|]|]; try discriminate DE; congruence. }
    subst. rewrite G. apply Z.ltb_ge. lia.
Qed.
(** If the bit was off when the call blocked and the call would go on now, the bit was announced to go on. *)
Lemma wakes_all w S o wb z on ns ops w' outs w2 r ns2 : Inv w [] -> sim w S -> fresh w -> clean o -> Forall clean ops ->
  step w o = Some (wb, RBlock z on, ns) -> bit on (bits_at wb z) = false -> run wb ops = Some (w', outs) ->
  step w' o = Some (w2, r, ns2) -> goes o r -> exists old new g, In (z, old, new, g) (notes outs) /\ bit on old = false /\ bit on new = true.
Proof.
  intros I A FR C CO E OFF RN E2 GO.
  assert (D : gram_send w o \/ ~ gram_send w o).
  { destruct o; cbn; auto. destruct (sock w x) as [s|]; [|right; intros (? & ? & _); discriminate].
    destruct (us_type s) eqn:T; [right|left; eauto|right]; intros (s1 & Es & T1); injection Es as <-; congruence. }
  destruct D as [G|NG]; [|eapply wakes; eauto]. destruct o; try contradiction. destruct G as (s & X & T).
  pose proof (step_ok w S _ I A C) as H. destruct (s_step S _) as [[S1 rb]|] eqn:ST; [|congruence].
  destruct H as (wb' & nb & Eb & Ib & Ab). rewrite E in Eb. injection Eb as <- <- <-. destruct (blocked _ _ _ _ _ ST) as (-> & -> & -> & k & y & K & DE & GY & AC).
  destruct (run_onward ops wb S w' outs Ib Ab CO RN) as (S' & SR & I' & A' & ON).
  pose proof (step_ok w' S' _ I' A' C) as H'. destruct (s_step S' _) as [[S2 r2]|] eqn:ST2; [|congruence].
  destruct H' as (w3 & n3 & E3 & _ & _). rewrite E2 in E3. injection E3 as <- <- <-.
  pose proof (kinv w' S' I' A') as KI'. destruct (went S' _ S2 r KI' ST2 GO) as (k' & K' & W).
  assert (FB : fresh wb) by (eapply step_tells; eauto).
  destruct (sim_back w S x k A K) as (s0 & X0 & EK). assert (s0 = s) by congruence. subst s0.
  assert (TK : k_type k = UDgram) by (rewrite EK; exact T).
  destruct (sim_back wb S x k Ab K) as (sb & Xb & EKb).
  assert (OB : okw sb).
  { destruct (bits_say wb S x sb Ib Ab Xb) as (_ & _ & _ & [B|(U & B)]).
    - unfold okw. destruct (us_proto sb) eqn:P; try exact Logic.I.
      assert (GN : k_role (abs sb) <> KGone) by (change (role_of (us_proto sb) <> KGone); rewrite P; discriminate).
      pose proof (said_okw wb S x sb Ib Ab Xb GN B) as O. unfold okw in O. rewrite P in O. exact O.
    - exfalso. rewrite <- EKb in U. unfold untouched in U. destruct (k_role k); try discriminate U. destruct (k_in k); [|discriminate U]. apply Z.eqb_eq in U.
      rewrite TK in AC. unfold accepted, room in AC. rewrite U in AC. rewrite Z.sub_0_r in AC.
      destruct (send_limit <=? 0) eqn:SL; [discriminate SL|]. destruct (blen data <=? send_limit); discriminate AC. }
  destruct (run_stays _ _ _ _ RN FB) as (_ & ST'). destruct (ST' x sb Xb OB) as (s' & X' & O').
  assert (k' = abs s'). { destruct (sim_back w' S' x k' A' K') as (s2 & X2 & ->). congruence. } subst k'.
  assert (T' : k_type (abs s') = UDgram).
  { destruct ON as (O1 & _). destruct (O1 x k K) as (k1 & K1 & T1 & _). assert (k1 = abs s') by congruence. subst. congruence. }
  pose proof (okw_said w' S' x s' I' A' X' O' T') as B.
  destruct (run_tells _ _ _ _ RN FB) as (_ & CH). specialize (CH x).
  assert (ONN : bit WWritable (bits_at w' x) = true) by (rewrite (bits_at_sock _ _ _ X'); cbn [bit]; congruence).
  destruct (chain_on (bit WWritable) _ _ _ CH OFF ONN) as (o1 & n1 & IN & Q1 & Q2). apply said_in in IN as (g & IN). eauto 10.
Qed.
