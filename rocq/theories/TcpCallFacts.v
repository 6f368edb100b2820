(** Proofs about what a TCP socket tells its application. *)
From Verif Require Import Base SeqModel SeqSpec SeqProofs TcpBufModel TcpBufSpec TcpBufProofs TcpQueueProofs TcpConnModel TcpConnSpec TcpConnProofs TcpNetProofs TcpSoloSpec TcpSoloProofs TcpStateModel TcpStateSpec TcpStateProofs TcpStateFacts TcpCallSpec.

(** * Errors *)
Lemma was_reset_err t c t' : was_reset t c = Some t' -> t_err t' = if c_need_rst c then (match t_err t with None => Some ResetSent | x => x end) else t_err t.
Proof.
  unfold was_reset. destruct (c_reset c); [rewrite assert_true by reflexivity|discriminate]. destruct (pop_packet c) as [(c1, o)|] eqn:P; [ob|discriminate].
  destruct (pop_kept _ _ _ P) as (_ & _ & _ & _ & _ & _ & O). destruct o as [(h, p)|].
  - destruct O as (O1 & O2 & O3 & O4 & O5). destruct (pay_empty p); [rewrite assert_true by reflexivity|discriminate]. destruct (pop_packet c1) as [r|]; [ob|discriminate].
    destruct (is_none (snd r)); [rewrite assert_true by reflexivity|discriminate]. unfold rst_new. cbn [forallb andb]. destruct (h_rst h) eqn:HR; [|discriminate]. cbn.
    intros E. injection E as <-. rewrite <- O1. unfold err_if_unset. destruct (t_err t) eqn:TE; cbn; rewrite ?TE; reflexivity.
  - destruct O as (_ & ->). unfold closed_new. cbn. intros E. injection E as <-. reflexivity.
Qed.
Lemma reset_err t c t' : reset_connection t c = Some t' -> t_err t' = match t_err t with None => Some ResetSent | x => x end.
Proof.
  unfold reset_connection. destruct (was_reset t (send_rst c)) as [t1|] eqn:W; [ob|discriminate]. apply was_reset_err in W. cbn [send_rst c_need_rst set_rst] in W.
  destruct (is_rst (t_sock t1)); [|discriminate]. cbn. intros E. injection E as <-. exact W.
Qed.
Lemma closed_err t q was t' : closed_new t q was = Some t' -> t_err t' = t_err t.
Proof. unfold closed_new. match goal with |- context [assert_then ?b] => destruct b end; [|discriminate]. cbn. intros E. injection E as <-. reflexivity. Qed.
Lemma unset_err t x : t_err (err_if_unset t x) = match t_err t with None => Some x | y => y end.
Proof. unfold err_if_unset. destruct (t_err t) eqn:E; cbn; rewrite ?E; reflexivity. Qed.
Lemma kept_none x : keeps_error x None = x. Proof. destruct x; reflexivity. Qed.
Lemma blames_same k e : blames (PConn k) e (PConn k) = None.
Proof. destruct k, e; reflexivity. Qed.

Lemma close_err sc s t' : sock_ok sc s (t_sock (s_tcp s)) -> t_close (s_now s) (s_tcp s) = Some t' -> t_err t' = keeps_error (t_err (s_tcp s)) (blames (phase_of (s_tcp s)) VClose (phase_of t')).
Proof.
  intros OK. unfold t_close. unfold phase_of at 1. destruct (t_sock (s_tcp s)) as [sc'|k c|l was|q was] eqn:TS.
  - intros E. rewrite (closed_err _ _ _ _ E). destruct (closed_cases _ _ _ _ E) as (X & _). unfold phase_of. rewrite X. cbn. now rewrite kept_none.
  - destruct k;
      try (destruct (recv_has_data c);
        [intros E; pose proof (reset_err _ _ _ E) as R; destruct (reset_cases _ _ _ E) as (h & X & _); rewrite R; unfold phase_of; rewrite X; cbn; destruct (t_err (s_tcp s)); reflexivity|]).
    + destruct (recv_has_data c); [discriminate|]. cbn [negb]. rewrite assert_true by reflexivity. intros E. rewrite (closed_err _ _ _ _ E), unset_err. destruct (closed_cases _ _ _ _ E) as (X & _). unfold phase_of. rewrite X. cbn. destruct (t_err (s_tcp s)); reflexivity.
    + destruct (send_fin c); [ob|discriminate]. intros E. injection E as <-. change (phase_of (enter ?t ?n ?k ?c)) with (PConn k). cbn [enter t_err]. rewrite unset_err. cbn. destruct (t_err (s_tcp s)); reflexivity.
    + destruct (send_fin c); [ob|discriminate]. intros E. injection E as <-. cbn. now rewrite kept_none.
    + intros E. injection E as <-. cbn. now rewrite kept_none.
    + intros E. injection E as <-. cbn. now rewrite kept_none.
    + intros E. injection E as <-. cbn. now rewrite kept_none.
    + intros E. injection E as <-. cbn. now rewrite kept_none.
    + destruct (send_fin c); [ob|discriminate]. intros E. injection E as <-. cbn. now rewrite kept_none.
    + intros E. injection E as <-. cbn. now rewrite kept_none.
  - intros E. injection E as <-. cbn. now rewrite kept_none.
  - intros E. injection E as <-. cbn. now rewrite kept_none.
Qed.

Lemma shutdown_err s h t' r : t_shutdown (s_now s) (s_tcp s) h = Some (t', r) -> t_err t' = keeps_error (t_err (s_tcp s)) (blames (phase_of (s_tcp s)) (VShutdown h) (phase_of t')).
Proof.
  unfold t_shutdown. unfold phase_of at 1. destruct (t_sock (s_tcp s)) as [sc'|k c|l was|q was] eqn:TS; try (intros E; injection E as <- _; cbn; now rewrite kept_none).
  set (c1 := if shuts_read h then rst_if_recv_payload c else c). clearbody c1. destruct (shuts_write h).
  2: { intros E. injection E as <- _. change (phase_of (set_sock ?t (Conn ?k ?c))) with (PConn k). rewrite blames_same, kept_none. reflexivity. }
  destruct k; try (intros E; injection E as <- _; cbn; now rewrite kept_none).
  - destruct (recv_has_data c1); [discriminate|]. cbn [negb]. rewrite assert_true by reflexivity. destruct (closed_new _ _ _) as [t1|] eqn:C; [ob|discriminate]. intros E. injection E as <- _. rewrite (closed_err _ _ _ _ C), unset_err.
    destruct (closed_cases _ _ _ _ C) as (X & _). unfold phase_of. rewrite X. cbn. destruct (t_err (s_tcp s)); reflexivity.
  - destruct (send_fin c1); [ob|discriminate]. intros E. injection E as <- _. change (phase_of (enter ?t ?n ?k ?c)) with (PConn k). cbn [enter t_err]. rewrite unset_err. cbn. destruct (t_err (s_tcp s)); reflexivity.
  - destruct (send_fin c1); [ob|discriminate]. intros E. injection E as <- _. cbn. now rewrite kept_none.
  - destruct (send_fin c1); [ob|discriminate]. intros E. injection E as <- _. cbn. now rewrite kept_none.
Qed.
Lemma settle_err sc s k c h p c' n now t t' : conn_ok sc s k c -> push_packet c h p = Some (c', n) -> settle now t k h c' = Some t' -> t_err t' = keeps_error (t_err t) (blames (PConn k) (VPush h p) (phase_of t')).
Proof.
  intros CO E. destruct (push_kept _ _ _ _ _ (co_need _ _ _ _ CO) E) as (KP & R0 & N0 & N1 & RS). unfold settle. destruct (c_reset c') eqn:CR.
  - intros X. destruct (was_reset_cases _ _ _ X) as (_ & _ & Y). apply was_reset_err in X. rewrite N1 in X, Y by reflexivity. rewrite X. clear X. destruct (h_rst h) eqn:HR; cbn [negb] in *.
    + unfold phase_of. rewrite Y, unset_err. cbn. rewrite HR. destruct k, (t_err t); reflexivity.
    + destruct Y as (h1 & Y & _). unfold phase_of. rewrite Y. destruct k; cbn; destruct (t_err t); reflexivity.
  - assert (EN : forall k', k' <> k -> t_err (enter t now k' c') = keeps_error (t_err t) (blames (PConn k) (VPush h p) (PConn k'))) by (intros k' _; destruct k, k'; cbn; now rewrite kept_none).
    assert (ST : t_err (set_sock t (Conn k c')) = keeps_error (t_err t) (blames (PConn k) (VPush h p) (PConn k))) by (rewrite blames_same, kept_none; reflexivity).
    destruct k; repeat match goal with |- (if ?b then _ else _) = _ -> _ => destruct b eqn:? end; try (intros X; injection X as <-; first [exact ST|apply EN; discriminate]).
    intros X. rewrite (closed_err _ _ _ _ X). destruct (closed_cases _ _ _ _ X) as (Y & _). unfold phase_of. rewrite Y. cbn.
    destruct (h_rst h) eqn:HR; [|now rewrite kept_none]. exfalso. destruct (push_rst _ _ _ _ _ HR E CR) as (_ & F). pose proof (co_kind _ _ _ _ CO) as KO. cbn in KO. destruct KO as (_ & KO & _). congruence.
Qed.
Lemma fire_err s i t' : t_fire (s_tcp s) i = Some t' -> t_err t' = keeps_error (t_err (s_tcp s)) (blames (phase_of (s_tcp s)) (VFire i) (phase_of t')).
Proof.
  unfold t_fire. destruct (nth_error (t_timers (s_tcp s)) i) as [(k, d)|].
  2: { intros E. injection E as <-. destruct (phase_of (s_tcp s)) as [|[]| |]; cbn; now rewrite kept_none. }
  unfold callback. cbn [t_sock]. set (t := {| t_sock := _; t_err := _; t_timers := _ |}). assert (T : t_err t = t_err (s_tcp s)) by reflexivity. assert (TP : phase_of t = phase_of (s_tcp s)) by reflexivity.
  assert (SAME : Some t = Some t' -> t_err t' = keeps_error (t_err (s_tcp s)) (blames (phase_of (s_tcp s)) (VFire i) (phase_of t'))).
  { intros E. injection E as <-. rewrite TP, T. destruct (phase_of (s_tcp s)) as [|[]| |]; cbn; now rewrite kept_none. }
  destruct (t_sock (s_tcp s)) as [sc'|k' c|l was|q was] eqn:TS; try exact SAME. destruct (is_kind k k') eqn:IK; [|exact SAME]. apply is_kind_eq in IK. subst k'.
  assert (TS' : forall e, t_sock (set_err t e) = Conn k c) by (intros e; reflexivity).
  destruct k; try exact SAME; unfold t_rst_close; rewrite ?TS'; unfold phase_of at 1; rewrite TS.
  - destruct (recv_has_data c); [discriminate|]. cbn [negb]. rewrite assert_true by reflexivity. destruct (closed_new _ _ _) as [t1|] eqn:C; [ob|discriminate]. cbn [fst snd]. rewrite assert_true by reflexivity. intros E. injection E as <-.
    rewrite (closed_err _ _ _ _ C), unset_err. destruct (closed_cases _ _ _ _ C) as (X & _). unfold phase_of. rewrite X. cbn. destruct (t_err (s_tcp s)); reflexivity.
  - destruct (reset_connection _ _) as [t1|] eqn:C; [ob|discriminate]. cbn [fst snd]. rewrite assert_true by reflexivity. intros E. injection E as <-. rewrite (reset_err _ _ _ C).
    destruct (reset_cases _ _ _ C) as (h & X & _). unfold phase_of. rewrite X. cbn. destruct (t_err (s_tcp s)); reflexivity.
  - intros C. rewrite (closed_err _ _ _ _ C). destruct (closed_cases _ _ _ _ C) as (X & _). unfold phase_of. rewrite X. cbn. now rewrite kept_none.
Qed.
Lemma errors_main pu sc s e s' : life pu sc s -> allows pu s e -> vact s e = Some s' ->
  t_err (s_tcp s') = match e with VClear => None | _ => keeps_error (t_err (s_tcp s)) (blames (phase_of (s_tcp s)) e (phase_of (s_tcp s'))) end.
Proof.
  intros L AL. pose proof (life_ok _ _ _ L) as OK. destruct e; cbn [vact].
  - destruct (t_close _ _) as [t|] eqn:C; [ob|discriminate]. intros E. injection E as <-. cbn [put_shut put_tcp s_tcp]. eapply close_err; eauto.
  - destruct (t_shutdown _ _ _) as [(t, r)|] eqn:C; [ob|discriminate]. intros E. injection E as <-. cbn [put_shut put_tcp s_tcp fst]. eapply shutdown_err; eauto.
  - destruct (t_connect _ _ _ _) as [(t, r)|] eqn:C; [ob|discriminate]. intros E. injection E as <-. cbn [put_tcp s_tcp fst]. unfold t_connect in C. unfold phase_of at 1. destruct (t_sock (s_tcp s)) as [sc'|k c|l was|q was] eqn:TS.
    + destruct assoc as [l|]; [|injection C as <- _; now rewrite kept_none]. destruct (65536 <=? l); [|discriminate C]. cbn [assert_then] in C. destruct (conn_new _ _ _ _); [|discriminate C]. ob_in C. injection C as <- _. cbn. now rewrite kept_none.
    + destruct k; injection C as <- _; unfold phase_of; rewrite TS; cbn; now rewrite kept_none.
    + injection C as <- _. now rewrite kept_none.
    + injection C as <- _. now rewrite kept_none.
  - destruct (t_send _ _ _) as [(t, r)|] eqn:C; [ob|discriminate]. intros E. injection E as <-. cbn [put_tcp s_tcp fst]. unfold t_send in C. unfold phase_of at 1. destruct (t_sock (s_tcp s)) as [sc'|k c|l was|q was] eqn:TS;
      try (injection C as <- _; unfold phase_of; rewrite ?TS; cbn; now rewrite kept_none).
    destruct k; try (injection C as <- _; unfold phase_of; rewrite ?TS; cbn; now rewrite kept_none); (destruct (conn_send _ _ _) as [(c1, r1)|]; [ob_in C|discriminate C]); injection C as <- _; cbn; now rewrite kept_none.
  - destruct (t_recv _ _ _) as [((t, r), b)|] eqn:C; [ob|discriminate]. intros E. injection E as <-. cbn [put_tcp s_tcp fst]. unfold t_recv in C. unfold phase_of at 1. destruct (t_sock (s_tcp s)) as [sc'|k c|l was|q was] eqn:TS.
    + injection C as <- _. now rewrite kept_none.
    + assert (Q : t_err t = t_err (s_tcp s) /\ phase_of t = PConn k).
      { destruct k; [injection C as <- _; unfold phase_of; rewrite TS; auto|injection C as <- _; unfold phase_of; rewrite TS; auto| | | | | | |];
          (destruct (conn_recv _ _ _) as [(c1, r1)|]; [ob_in C|discriminate C]); destruct r1; injection C as <- _; auto. }
      destruct Q as (-> & ->). now rewrite blames_same, kept_none.
    + injection C as <- _. now rewrite kept_none.
    + assert (t_err t = t_err (s_tcp s)) as ->; [|destruct (phase_of t) as [|[]| |]; now rewrite kept_none].
      destruct (negb was); [injection C as <- _; reflexivity|]. destruct (rq_is_empty q); [injection C as <- _; reflexivity|]. destruct (rq_read _ _ _) as [((q1, b1), ok)|]; [ob_in C|discriminate C]. injection C as <- _. reflexivity.
  - destruct (t_push _ _ _ _) as [(t, r)|] eqn:C; [ob|discriminate]. intros E. injection E as <-. cbn [put_tcp s_tcp fst]. unfold t_push in C. unfold phase_of at 1. destruct (t_sock (s_tcp s)) as [sc'|k c|l was|q was] eqn:TS;
      try (injection C as <- _; now rewrite kept_none).
    destruct (negb (addrs_match c h)). { injection C as <- _. unfold phase_of. rewrite TS, blames_same. now rewrite kept_none. }
    destruct (push_packet c h p) as [(c1, n)|] eqn:PP; [ob_in C|discriminate C]. destruct (settle _ _ _ _ _) as [t1|] eqn:ST; [ob_in C|discriminate C]. injection C as <- _. eapply settle_err; eauto.
  - destruct (t_pop _) as [(t, r)|] eqn:C; [ob|discriminate]. intros E. injection E as <-. cbn [put_tcp s_tcp fst]. unfold t_pop in C. unfold phase_of at 1. destruct (t_sock (s_tcp s)) as [sc'|k c|[|h l] was|q was] eqn:TS;
      try (injection C as <- _; now rewrite kept_none); try discriminate C.
    + destruct (pop_packet c) as [(c1, o)|]; [ob_in C|discriminate C]. injection C as <- _. change (phase_of (set_sock ?t (Conn ?k ?c))) with (PConn k). rewrite blames_same. now rewrite kept_none.
    + destruct (h_rst h); [|discriminate C]. cbn [assert_then] in C. destruct l.
      * destruct (closed_new _ _ _) as [t1|] eqn:CN; [ob_in C|discriminate C]. injection C as <- _. rewrite (closed_err _ _ _ _ CN). now rewrite kept_none.
      * injection C as <- _. now rewrite kept_none.
  - intros E. injection E as <-. reflexivity.
  - destruct (t_fire _ _) as [t|] eqn:C; [ob|discriminate]. intros E. injection E as <-. cbn [put_tcp s_tcp]. now apply fire_err.
  - intros E. injection E as <-. cbn [s_tcp]. destruct (phase_of (s_tcp s)) as [|[]| |]; cbn; now rewrite kept_none.
Qed.

(** * Calls *)
Definition wasb (so : sock) : bool := match so with Init _ => false | Conn _ _ => true | Rst _ was | Closed _ was => was end.
Lemma close_was now t t' : t_close now t = Some t' -> wasb (t_sock t') = wasb (t_sock t).
Proof.
  unfold t_close. destruct (t_sock t) as [sc'|k c|l was|q was] eqn:TS.
  - intros E. destruct (closed_cases _ _ _ _ E) as (X & _). now rewrite X.
  - destruct k; try (destruct (recv_has_data c); [intros E; destruct (reset_cases _ _ _ E) as (h & X & _); now rewrite X|]);
      try (destruct (send_fin c); [ob|discriminate]); try (intros E; injection E as <-; reflexivity).
    destruct (negb _); [|discriminate]. cbn [assert_then]. intros E. destruct (closed_cases _ _ _ _ E) as (X & _). now rewrite X.
  - intros E. injection E as <-. now rewrite TS.
  - intros E. injection E as <-. now rewrite TS.
Qed.
Lemma shutdown_was now t h t' r : t_shutdown now t h = Some (t', r) -> wasb (t_sock t') = wasb (t_sock t).
Proof.
  unfold t_shutdown. destruct (t_sock t) as [sc'|k c|l was|q was] eqn:TS; try (intros E; injection E as <- _; now rewrite TS).
  set (c1 := if shuts_read h then rst_if_recv_payload c else c). clearbody c1. destruct (shuts_write h); [|intros E; injection E as <- _; reflexivity].
  destruct k; try (intros E; injection E as <- _; reflexivity); try (destruct (send_fin c1); [ob|discriminate]; intros E; injection E as <- _; reflexivity).
  destruct (negb _); [|discriminate]. cbn [assert_then]. destruct (closed_new _ _ _) as [t1|] eqn:C; [ob|discriminate]. intros E. injection E as <- _. destruct (closed_cases _ _ _ _ C) as (X & _). now rewrite X.
Qed.
Lemma reset_was t c t' : was_reset t c = Some t' -> wasb (t_sock t') = true.
Proof. intros E. destruct (was_reset_cases _ _ _ E) as (_ & _ & X). destruct (c_need_rst c); [destruct X as (h & -> & _)|rewrite X]; reflexivity. Qed.
Lemma push_was now t h p t' r : t_push now t h p = Some (t', r) -> wasb (t_sock t') = wasb (t_sock t).
Proof.
  unfold t_push. destruct (t_sock t) as [sc'|k c|l was|q was] eqn:TS; try (intros E; injection E as <- _; now rewrite TS).
  destruct (negb _); [intros E; injection E as <- _; now rewrite TS|]. destruct (push_packet _ _ _) as [(c1, n)|]; [ob|discriminate]. destruct (settle _ _ _ _ _) as [t1|] eqn:ST; [ob|discriminate]. intros E. injection E as <- _.
  unfold settle in ST. destruct (c_reset c1). { now rewrite (reset_was _ _ _ ST). }
  destruct k; repeat match type of ST with (if ?b then _ else _) = _ => destruct b end; first [injection ST as <-; reflexivity|destruct (closed_cases _ _ _ _ ST) as (X & _); now rewrite X].
Qed.
Lemma pop_was t t' r : t_pop t = Some (t', r) -> wasb (t_sock t') = wasb (t_sock t).
Proof.
  unfold t_pop. destruct (t_sock t) as [sc'|k c|[|h l] was|q was] eqn:TS; try (intros E; injection E as <- _; now rewrite TS); [|discriminate|].
  - destruct (pop_packet c) as [(c1, o)|]; [ob|discriminate]. intros E. injection E as <- _. reflexivity.
  - destruct (h_rst h); [|discriminate]. cbn [assert_then]. destruct l; [|intros E; injection E as <- _; reflexivity]. destruct (closed_new _ _ _) as [t1|] eqn:C; [ob|discriminate]. intros E. injection E as <- _. destruct (closed_cases _ _ _ _ C) as (X & _). now rewrite X.
Qed.
Lemma fire_was t i t' : t_fire t i = Some t' -> wasb (t_sock t') = wasb (t_sock t).
Proof.
  unfold t_fire. destruct (nth_error _ _) as [(k, d)|]; [|intros E; injection E as <-; reflexivity]. unfold callback. cbn [t_sock]. set (t0 := {| t_sock := _; t_err := _; t_timers := _ |}).
  assert (SAME : Some t0 = Some t' -> wasb (t_sock t') = wasb (t_sock t)) by (intros E; injection E as <-; reflexivity).
  destruct (t_sock t) as [sc'|k' c|l was|q was] eqn:TS; try exact SAME. destruct (is_kind k k') eqn:IK; [|exact SAME]. apply is_kind_eq in IK. subst k'.
  destruct k; try exact SAME; unfold t_rst_close; cbn [t_sock set_err t0].
  - destruct (negb _); [|discriminate]. cbn [assert_then]. destruct (closed_new _ _ _) as [t1|] eqn:C; [ob|discriminate]. cbn. intros E. injection E as <-. destruct (closed_cases _ _ _ _ C) as (X & _). now rewrite X.
  - destruct (reset_connection _ _) as [t1|] eqn:C; [ob|discriminate]. cbn. intros E. injection E as <-. destruct (reset_cases _ _ _ C) as (h & X & _). now rewrite X.
  - intros C. destruct (closed_cases _ _ _ _ C) as (X & _). now rewrite X.
Qed.
Lemma life_was pu sc s : life pu sc s -> wasb (t_sock (s_tcp s)) = has_addr s.
Proof.
  induction 1 as [now|now h p t W E|s e s' L IH AL E]; [reflexivity| |].
  - destruct (child_ok sc now h p t W E) as (_ & P & _). unfold phase_of in P. cbn [born s_tcp has_addr s_addr]. destruct (t_sock t); try discriminate P. reflexivity.
  - destruct e; cbn [vact] in E.
    + destruct (t_close _ _) as [t|] eqn:C; [ob_in E|discriminate E]. injection E as <-. cbn. now rewrite (close_was _ _ _ C).
    + destruct (t_shutdown _ _ _) as [(t, r)|] eqn:C; [ob_in E|discriminate E]. injection E as <-. cbn. now rewrite (shutdown_was _ _ _ _ _ C).
    + destruct (t_connect _ _ _ _) as [(t, r)|] eqn:C; [ob_in E|discriminate E]. injection E as <-. cbn. unfold t_connect in C. destruct (t_sock (s_tcp s)) as [sc'|k c|l was|q was] eqn:TS.
      * destruct assoc as [l|]; [|injection C as <- <-; rewrite TS; exact IH]. destruct (65536 <=? l); [|discriminate C]. cbn [assert_then] in C. destruct (conn_new _ _ _ _); [|discriminate C]. ob_in C. injection C as <- <-. reflexivity.
      * destruct k; injection C as <- <-; rewrite TS; exact IH.
      * injection C as <- <-. rewrite TS. exact IH.
      * injection C as <- <-. rewrite TS. exact IH.
    + destruct (t_send _ _ _) as [(t, r)|] eqn:C; [ob_in E|discriminate E]. injection E as <-. cbn. unfold t_send in C. destruct (t_sock (s_tcp s)) as [sc'|k c|l was|q was] eqn:TS; try (injection C as <- _; rewrite TS; exact IH).
      destruct k; try (injection C as <- _; rewrite TS; exact IH); (destruct (conn_send _ _ _) as [(c1, r1)|]; [ob_in C|discriminate C]); injection C as <- _; exact IH.
    + destruct (t_recv _ _ _) as [((t, r), b)|] eqn:C; [ob_in E|discriminate E]. injection E as <-. cbn. unfold t_recv in C. destruct (t_sock (s_tcp s)) as [sc'|k c|l was|q was] eqn:TS; try (injection C as <- _; rewrite TS; exact IH).
      * destruct k; try (injection C as <- _; rewrite TS; exact IH); (destruct (conn_recv _ _ _) as [(c1, r1)|]; [ob_in C|discriminate C]); destruct r1; injection C as <- _; exact IH.
      * destruct (negb was); [injection C as <- _; rewrite TS; exact IH|]. destruct (rq_is_empty q); [injection C as <- _; rewrite TS; exact IH|]. destruct (rq_read _ _ _) as [((q1, b1), ok)|]; [ob_in C|discriminate C]. injection C as <- _. exact IH.
    + destruct (t_push _ _ _ _) as [(t, r)|] eqn:C; [ob_in E|discriminate E]. injection E as <-. cbn. now rewrite (push_was _ _ _ _ _ _ C).
    + destruct (t_pop _) as [(t, r)|] eqn:C; [ob_in E|discriminate E]. injection E as <-. cbn. now rewrite (pop_was _ _ _ C).
    + injection E as <-. exact IH.
    + destruct (t_fire _ _) as [t|] eqn:C; [ob_in E|discriminate E]. injection E as <-. cbn. now rewrite (fire_was _ _ _ C).
    + injection E as <-. exact IH.
Qed.
Lemma calls_main pu sc s : life pu sc s ->
  (forall remote assoc t r, t_connect (s_now s) (s_tcp s) remote assoc = Some (t, r) -> r = connect_says s assoc /\ (r <> Ok tt -> t = s_tcp s)) /\
  (forall h t r, t_shutdown (s_now s) (s_tcp s) h = Some (t, r) -> r = shutdown_says s /\ (r <> Ok tt -> t = s_tcp s)) /\
  (forall data n, match send_error s with
                  | Some x => t_send (s_tcp s) data n = Some (s_tcp s, Err x)
                  | None => forall t x, t_send (s_tcp s) data n = Some (t, Err x) -> x = EFull \/ x = EIo
                  end).
Proof.
  intros L. pose proof (life_was _ _ _ L) as WA. unfold connect_says, shutdown_says, send_error, phase_of, t_connect, t_shutdown, t_send. rewrite <- WA. clear WA. destruct (t_sock (s_tcp s)) as [sc'|k c|l was|q was] eqn:TS; cbn [wasb].
  - split; [|split].
    + intros remote assoc t r E. destruct assoc as [l|]; [|injection E as <- <-; auto]. destruct (65536 <=? l); [|discriminate E]. cbn [assert_then] in E. destruct (conn_new _ _ _ _); [|discriminate E]. ob_in E. injection E as <- <-. split; [reflexivity|congruence].
    + intros h t r E. injection E as <- <-. auto.
    + reflexivity.
  - split; [|split].
    + intros remote assoc t r E. destruct k; injection E as <- <-; auto.
    + intros h t r E. assert (r = Ok tt) as ->; [|split; congruence]. cbv zeta in E. destruct (shuts_write h); [|injection E as _ <-; reflexivity]. destruct k; try (injection E as _ <-; reflexivity).
      * destruct (negb _); [|discriminate E]. cbn [assert_then] in E. destruct (closed_new _ _ _); [ob_in E|discriminate E]. injection E as _ <-. reflexivity.
      * destruct (send_fin _); [ob_in E|discriminate E]. injection E as _ <-. reflexivity.
      * destruct (send_fin _); [ob_in E|discriminate E]. injection E as _ <-. reflexivity.
      * destruct (send_fin _); [ob_in E|discriminate E]. injection E as _ <-. reflexivity.
    + intros data n. destruct k; try reflexivity; intros t x E; (destruct (conn_send _ _ _) as [(c1, [m| |])|]; [| | |discriminate E]; ob_in E; [discriminate E| |]; injection E as _ <-; auto).
  - split; [|split]; try reflexivity; [intros remote assoc t r E|intros h t r E]; injection E as <- <-; auto.
  - split; [|split]; try reflexivity; [intros remote assoc t r E|intros h t r E]; injection E as <- <-; auto.
Qed.

(** * Challenges *)
Lemma next_owed c : c_need_ack c = true -> is_configured (c_ws c) = true -> c_reset c = false -> next_segment c <> Some None.
Proof.
  intros NA CF NR. unfold next_segment. destruct (c_need_rst c). { destruct (unsent_seq (c_sq c)); discriminate. }
  rewrite NR, NA, CF. destruct (next_data_segment c) as [[d|]|]; [ob|ob|discriminate].
  - cbn [negb]. rewrite andb_false_r. discriminate.
  - match goal with |- (do o <- (do update <- ?u; _); _) <> _ => destruct u as [b|]; [|discriminate] end. ob. cbn [orb]. destruct (unsent_seq (c_sq c)); [|discriminate]. ob. rewrite andb_false_r. discriminate.
Qed.
Lemma pop_acks c c' h p q cl : pop_packet c = Some (c', Some (h, p)) -> c_recv c = Some (q, cl) -> h_ack h = true /\ h_acknum h = rend q.
Proof.
  unfold pop_packet. intros E CR. rewrite CR in E. destruct (next_segment c) as [[o|]|]; [ob_in E|discriminate E|discriminate E].
  match type of E with (do r <- ?u; _) = _ => destruct u as [((c1, size), scale)|]; [ob_in E|discriminate E] end. destruct (size <=? U16_MAX); [|discriminate E]. cbn [assert_then] in E. cbv zeta in E.
  destruct (mark_as_transmitted _ _); [ob_in E|discriminate E]. match type of E with (do r <- ?u; _) = _ => destruct u; [ob_in E|discriminate E] end. injection E as _ <- _. auto.
Qed.
Lemma challenge_main iss sc x h p h0 : is_seq iss -> alone iss sc x -> opening (o_in x) = Some h0 -> c_reset (o_conn x) = false -> wire h p -> h_rst h = true ->
  let next := (h_seq h0 + 1 + o_taken x + b2z (received_fin (o_conn x))) mod 4294967296 in h_seq h <> next ->
  exists x', sact x (XPush h p) = Some x' /\
    if (h_seq h - next) mod 4294967296 <? recv_window_len (o_conn x)
    then sc = false \/ spoke x -> exists x2 h2 p2, sact x' XPop = Some x2 /\ o_out x2 = o_out x ++ [(h2, p2)] /\ h_ack h2 = true /\ h_acknum h2 = next
    else o_conn x' = o_conn x.
Proof.
  intros IS H O NRS W HR next NE. destruct (alone_ok iss sc x IS H) as (k & r & buf & ZK). pose proof (z_rcv _ _ _ _ _ _ ZK) as R. unfold received_fin in next.
  destruct (c_recv (o_conn x)) as [(q, cl)|] eqn:CR; [|destruct R as (R & _); congruence]. destruct R as (h1 & A1 & A2 & A3 & A4 & A5 & A6 & A7). assert (h1 = h0) as -> by congruence.
  destruct A3 as [A3|A3]; [congruence|]. pose proof (recv_window_rng _ _ r buf q cl CR A4) as RW.
  assert (PR : pos (h_seq h0) r = next) by (unfold next; rewrite A6, A3, A2; unfold pos; f_equal; cbn [b2z]; lia).
  assert (CT : contains (rng (h_seq h0) r (r + wlen (o_conn x) buf)) (h_seq h) = ((h_seq h - next) mod 4294967296 <? recv_window_len (o_conn x))).
  { unfold recv_window_len. rewrite RW. unfold contains. cbn [start rng]. rewrite PR. f_equal. }
  assert (exists c', push_packet (o_conn x) h p = Some (c', 0) /\ c' = if (h_seq h - next) mod 4294967296 <? recv_window_len (o_conn x) then set_need_ack (o_conn x) true else o_conn x) as (c' & PP & C').
  { unfold push_packet. rewrite NRS, HR, RW. cbn [negb]. rewrite assert_true by reflexivity. cbn [start rng]. rewrite PR. destruct (Z.eqb_spec (h_seq h) next); [contradiction|]. rewrite CT. destruct (_ <? _); eauto. }
  set (x' := {| o_conn := c'; o_wrote := o_wrote x; o_shut := o_shut x; o_got := o_got x; o_taken := o_taken x + 0; o_in := o_in x ++ [(h, p)]; o_out := o_out x |}).
  assert (SX : sact x (XPush h p) = Some x') by (cbn [sact]; rewrite PP; ob; reflexivity). exists x'. split; [exact SX|].
  destruct ((h_seq h - next) mod 4294967296 <? recv_window_len (o_conn x)) eqn:IN; [|exact C']. intros SPK.
  assert (H' : alone iss sc x') by (eapply AStep; [exact H| |exact SX]; exact W). destruct (alone_ok iss sc x' IS H') as (k' & r' & buf' & ZK').
  assert (CF : is_configured (c_ws (o_conn x')) = true).
  { cbn [o_conn x']. rewrite C'. cbn. rewrite (x_conf _ _ _ _ (z_ws _ _ _ _ _ _ ZK)), O. cbn. destruct SPK as [-> |SPK]; [reflexivity|]. apply (z_spoke _ _ _ _ _ _ ZK) in SPK. rewrite SPK. apply orb_true_r. }
  destruct (pop_total iss sc x' k' r' buf' IS ZK' (or_introl CF)) as (c2 & o & PO). cbn [o_conn x'] in PO, CF.
  assert (NA : next_segment c' <> Some None) by (apply next_owed; [now rewrite C'|exact CF|now rewrite C']).
  destruct o as [(h2, p2)|]. 2: { exfalso. apply NA. unfold pop_packet in PO. destruct (next_segment c') as [[o|]|]; [ob_in PO|reflexivity|discriminate PO].
    destruct (match c_recv c' with Some (q0, _) => (true, rend q0) | None => (false, 0) end).
    match type of PO with (do r <- ?u; _) = _ => destruct u as [((c1, size), scale)|]; [ob_in PO|discriminate PO] end. destruct (size <=? U16_MAX); [|discriminate PO]. cbn [assert_then] in PO. cbv zeta in PO.
    destruct (mark_as_transmitted _ _); [ob_in PO|discriminate PO]. match type of PO with (do r <- ?u; _) = _ => destruct u; [ob_in PO|discriminate PO] end. discriminate PO. }
  destruct (pop_acks c' c2 h2 p2 q cl PO) as (B1 & B2); [now rewrite C'|]. eexists _, h2, p2. cbn [sact o_conn x']. rewrite PO. ob. split; [reflexivity|]. cbn. split; [reflexivity|]. split; [exact B1|].
  rewrite B2, (ro_end _ _ _ _ A4). exact PR.
Qed.
