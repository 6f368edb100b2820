(** Whoever watches a unix socket is told about every change of its bits, in order, and about new data. *)
From Verif Require Import Base FMap UnixModel UnixSpec UnixFacts UnixInv UnixOps UnixLink UnixCall UnixClose.

(** [l] leads from [b] to [b'], each step starting where the one before ended. *)
Fixpoint chain (b : ubits) (l : list (ubits * ubits)) (b' : ubits) : Prop :=
  match l with [] => b = b' | (o, n) :: l => o = b /\ chain n l b' end.
Lemma chain_app l1 : forall b l2 b2, chain b (l1 ++ l2) b2 <-> exists b1, chain b l1 b1 /\ chain b1 l2 b2.
Proof.
  induction l1 as [|[o n] l1 IH]; intros b l2 b2; cbn.
  - split; [eauto|intros (b1 & -> & H); exact H].
  - rewrite IH. split; [intros (E & b1 & H1 & H2); eauto|intros (b1 & (E & H1) & H2); eauto].
Qed.
Definition files (x : Z) (Q : list cb) : list (ubits * ubits) :=
  flat_map (fun c => match c with CFile z o n _ => if z =? x then [(o, n)] else [] | _ => [] end) Q.
Definition said (x : Z) (ns : list note) : list (ubits * ubits) :=
  flat_map (fun m : note => let '(z, o, n, _) := m in if z =? x then [(o, n)] else []) ns.
Lemma files_app x a b : files x (a ++ b) = files x a ++ files x b. Proof. apply flat_map_app. Qed.
Lemma said_app x a b : said x (a ++ b) = said x a ++ said x b. Proof. apply flat_map_app. Qed.
(** A socket that does not exist yet has the bits it will be made with. *)
Definition bits_at (w : world) (x : Z) : ubits := match sock w x with Some s => us_bits s | None => active end.
(** Numbers not given out are not used. *)
Definition fresh (w : world) : Prop := forall z, w_next w <= z -> sock w z = None.
Definition tells (w w' : world) (cs : list cb) : Prop :=
  fresh w -> fresh w' /\ forall x, chain (bits_at w x) (files x cs) (bits_at w' x).

Lemma tells_refl w : tells w w []. Proof. intro F. split; auto. reflexivity. Qed.
Lemma tells_app w w1 w2 a b : tells w w1 a -> tells w1 w2 b -> tells w w2 (a ++ b).
Proof.
  intros H1 H2 F. destruct (H1 F) as (F1 & C1), (H2 F1) as (F2 & C2). split; auto. intro x. rewrite files_app. apply chain_app. eauto.
Qed.
Lemma tells_skip w w1 w2 b : tells w w1 [] -> tells w1 w2 b -> tells w w2 b.
Proof. apply (tells_app w w1 w2 [] b). Qed.
Lemma tells_last w w1 w2 b : tells w w1 b -> tells w1 w2 [] -> tells w w2 b.
Proof. intros H1 H2. rewrite <- (app_nil_r b). eapply tells_app; eauto. Qed.
Lemma tells_quiet w cs : (forall x, files x cs = []) -> tells w w cs.
Proof. intros H F. split; auto. intro x. rewrite H. reflexivity. Qed.
Lemma fresh_upd w x s s' : sock w x = Some s -> fresh w -> fresh (upd w x s').
Proof.
  intros X F z Z. rewrite sock_upd. destruct (Z.eqb_spec z x) as [->|]; [|apply F; exact Z]. rewrite (F x Z) in X. discriminate X.
Qed.
Lemma tells_upd w x s s' : sock w x = Some s -> us_bits s' = us_bits s -> tells w (upd w x s') [].
Proof.
  intros X B F. split; [eapply fresh_upd; eauto|]. intro z. unfold bits_at. cbn [files flat_map chain]. rewrite sock_upd.
  destruct (Z.eqb_spec z x) as [->|]; [|reflexivity]. rewrite X. congruence.
Qed.
Lemma tells_new w s : us_bits s = active -> tells w (mkW (put (w_next w) s (w_socks w)) (w_names w) (w_next w + 1)) [].
Proof.
  intros B F. split.
  - intros z Z. cbn [w_next] in Z. rewrite sock_put, eqb_neq by lia. apply F. lia.
  - intro z. unfold bits_at. cbn [files flat_map chain]. rewrite sock_put. destruct (Z.eqb_spec z (w_next w)) as [->|]; [|reflexivity].
    rewrite F by lia. congruence.
Qed.
Lemma tells_state w x s b g : sock w x = Some s -> tells w (fst (update_state w x s b g)) (snd (update_state w x s b g)).
Proof.
  intros X F. unfold update_state. cbn [fst snd]. split; [eapply fresh_upd; eauto|]. intro z. unfold bits_at. rewrite sock_upd.
  assert (BE : bits_eqb b (us_bits s) = true -> b = us_bits s).
  { unfold bits_eqb. intro H. destruct b as [a1 a2 a3 a4 a5], (us_bits s) as [c1 c2 c3 c4 c5]. cbn in H.
    rewrite !Bool.andb_true_iff in H. destruct H as ((((H1 & H2) & H3) & H4) & H5).
    apply Bool.eqb_prop in H1, H2, H3, H4, H5. congruence. }
  destruct (Z.eqb_spec z x) as [->|NZ].
  - rewrite X. cbn [set_bits us_bits]. destruct (bits_eqb b (us_bits s) && negb g) eqn:E.
    + apply Bool.andb_true_iff in E as (E & _). rewrite (BE E). reflexivity.
    + cbn. rewrite Z.eqb_refl. cbn. auto.
  - destruct (bits_eqb b (us_bits s) && negb g); [reflexivity|]. cbn [files flat_map]. rewrite (eqb_neq x z) by auto. reflexivity.
Qed.
Lemma some_inj {A} (a b : A) : Some a = Some b -> a = b. Proof. congruence. Qed.
Ltac bi := repeat match goal with
  | H : obind ?e _ = Some _ |- _ =>
      let E := fresh "E" in destruct e as [] eqn:E; [rewrite obind_some in H; cbv beta iota in H|discriminate H]
  | H : (let '(_, _) := ?p in _) = Some _ |- _ => destruct p
  | H : assert_then ?b _ = Some _ |- _ => let E := fresh "C" in destruct b eqn:E; [cbn [assert_then] in H|discriminate H]
  | H : None = Some _ |- _ => discriminate H
  | H : Some (_, _) = Some _ |- _ => injection H; clear H; intros; subst
  | H : Some _ = Some _ |- _ => apply some_inj in H
  end.
Lemma refresh_tells w x g w' cs : refresh w x g = Some (w', cs) -> tells w w' cs.
Proof.
  unfold refresh. destruct (sock w x) as [s|] eqn:X; [|discriminate]. ob.
  assert (U : forall b, Some (update_state w x s b g) = Some (w', cs) -> tells w w' cs).
  { intros b E. pose proof (tells_state w x s b g X) as T. assert (E1 : update_state w x s b g = (w', cs)) by congruence. rewrite E1 in T. exact T. }
  destruct (us_proto s); intro H.
  - destruct g; [discriminate|]. exact (U _ H).
  - exact (U _ H).
  - destruct (sock w peer) as [p|]; [|discriminate]. ob_in H. exact (U _ H).
  - destruct g; [discriminate|]. exact (U _ H).
  - exact (U _ H).
  - destruct g; [discriminate|]. exact (U _ H).
Qed.
Definition no_files (cs : list cb) : Prop := forall x, files x cs = [].
Lemma calls_no_files f L : (forall l : lkind * Z, match f l with CFile _ _ _ _ => False | _ => True end) -> no_files (map f L).
Proof. intros H x. induction L as [|l L IH]; cbn; auto. specialize (H l). destruct (f l); auto. contradiction. Qed.
Lemma buf_refresh_quiet b g : no_files (snd (buf_refresh b g)).
Proof. unfold buf_refresh. cbn [snd]. destruct (_ && _); [intro; reflexivity|]. apply calls_no_files. cbn. auto. Qed.
Definition quiet_op (f : ubuf -> option (ubuf * list cb)) : Prop := forall b b' cs, f b = Some (b', cs) -> no_files cs.
Lemma quiet_refresh b g b' cs : buf_refresh b g = (b', cs) -> no_files cs.
Proof. intros H. pose proof (buf_refresh_quiet b g) as Q. rewrite H in Q. exact Q. Qed.
Lemma quiet_ops : quiet_op add_reader /\ quiet_op add_writer /\ quiet_op remove_reader /\ quiet_op remove_writer.
Proof.
  repeat split; intros b b' cs; unfold add_reader, add_writer, remove_reader, remove_writer; intro H; bi; eapply quiet_refresh; eauto.
Qed.
Lemma on_buf_tells w x f w' cs : quiet_op f -> on_buf w x f = Some (w', cs) -> tells w w' cs.
Proof.
  unfold on_buf. intros Qf H. destruct (sock w x) as [s|] eqn:X; [|discriminate]. ob_in H.
  destruct (f (us_buf s)) as [[b c]|] eqn:F; [|discriminate]. ob_in H. bi.
  eapply tells_skip; [exact (tells_upd w x s (set_buf s b) X eq_refl)|]. apply tells_quiet. exact (Qf _ _ _ F).
Qed.
Lemma on_buf_nil w x g w' cs : on_buf w x (fun b => Some (g b, [])) = Some (w', cs) -> tells w w' [].
Proof.
  unfold on_buf. intros H. destruct (sock w x) as [s|] eqn:X; [|discriminate]. ob_in H. bi.
  exact (tells_upd w x s (set_buf s _) X eq_refl).
Qed.
Lemma new_sock_tells w t nb fd w' x : new_sock w t nb fd = Some (w', x) -> tells w w' [].
Proof. intros H. unfold new_sock in H. destruct t; cbn in H; bi; apply tells_new; auto. Qed.

(* ------------------------------------------------------------------ system calls *)
Lemma listen_tells w x k y w' cs : listen_on w x k y = Some (w', cs) -> tells w w' [].
Proof. apply on_buf_nil. Qed.
Lemma unlisten_tells w x k y w' cs : unlisten w x k y = Some (w', cs) -> tells w w' [].
Proof. apply on_buf_nil. Qed.
Lemma sock_in w x s : sock w x = Some s -> forall s', us_bits s' = us_bits s -> tells w (upd w x s') [].
Proof. intros. eapply tells_upd; eauto. Qed.
Ltac tells_facts := repeat match goal with
  | H : refresh _ _ _ = Some _ |- _ => apply refresh_tells in H
  | H : listen_on _ _ _ _ = Some _ |- _ => apply listen_tells in H
  | H : unlisten _ _ _ _ = Some _ |- _ => apply unlisten_tells in H
  | H : on_buf _ _ add_reader = Some _ |- _ => apply (on_buf_tells _ _ _ _ _ (proj1 quiet_ops)) in H
  | H : on_buf _ _ add_writer = Some _ |- _ => apply (on_buf_tells _ _ _ _ _ (proj1 (proj2 quiet_ops))) in H
  | H : on_buf _ _ remove_reader = Some _ |- _ => apply (on_buf_tells _ _ _ _ _ (proj1 (proj2 (proj2 quiet_ops)))) in H
  | H : on_buf _ _ remove_writer = Some _ |- _ => apply (on_buf_tells _ _ _ _ _ (proj2 (proj2 (proj2 quiet_ops)))) in H
  | H : new_sock _ _ _ _ = Some _ |- _ => apply new_sock_tells in H
  | H : sock ?w ?x = Some ?s |- _ => pose proof (sock_in w x s H); clear H
  end.

Ltac tells_go := first [ assumption | apply tells_refl
  | match goal with |- tells ?a ?a [] => apply tells_refl end
  | match goal with |- tells ?a _ (CRefresh ?k :: ?l) =>
      apply (tells_app a a _ [CRefresh k] l); [apply tells_quiet; reflexivity|]; tells_go end
  | match goal with |- tells ?a _ (CInform ?k ?n :: ?l) =>
      apply (tells_app a a _ [CInform k n] l); [apply tells_quiet; reflexivity|]; tells_go end
  | match goal with |- tells ?a _ ([?k] ++ ?l) => change ([k] ++ l) with (k :: l); tells_go end
  | match goal with H : no_files ?c |- tells ?a _ (?c ++ _) => eapply tells_app; [apply (tells_quiet a c H)|]; clear H; tells_go end
  | match goal with H : no_files ?c |- tells ?a ?a ?c => apply (tells_quiet a c H) end
  | match goal with H : tells ?a _ [] |- tells ?a _ _ => eapply tells_skip; [exact H|]; clear H; tells_go end
  | match goal with H : tells ?a _ ?c |- tells ?a _ (?c ++ _) => eapply tells_app; [exact H|]; clear H; tells_go end
  | match goal with H : forall s', _ -> tells ?a (upd ?a ?x s') [], E : tells (upd ?a ?x ?s1) _ _ |- tells ?a _ _ =>
      eapply tells_skip; [apply (H s1); reflexivity|]; clear H; tells_go end
  | match goal with H : forall s', _ -> tells ?a (upd ?a ?x s') [], E : tells (upd (upd ?a ?x ?s1) _ _) _ _ |- tells ?a _ _ =>
      eapply tells_skip; [apply (H s1); reflexivity|]; clear H; tells_go end
  | match goal with H : forall s', _ -> tells ?a (upd ?a ?x s') [] |- tells ?a (upd ?a ?x ?s1) _ =>
      apply (H s1); reflexivity end ].
Lemma connect_unnamed_tells w x y w' cs : connect_unnamed w x y = Some (w', cs) -> tells w w' cs.
Proof.
  unfold connect_unnamed. destruct (sock w x) as [s|] eqn:X; [|discriminate]. ob. intro H.
  destruct (us_proto s) as [[]|b q lim|b pa y'| |[] [] peer r|]; try discriminate H; bi; tells_facts.
  - tells_go.
  - tells_go.
Qed.
Lemma queue_incoming_tells w y srv b q lim from x w' cs c : queue_incoming w y srv b q lim from x = Some (w', cs, c) -> tells w w' cs.
Proof.
  unfold queue_incoming. intro H. bi. tells_facts.
  tells_go.
Qed.
Definition answers (w : world) (a : answer) : Prop := forall w' cs r, a = Some (w', cs, r) -> tells w w' cs.
Lemma connect_tells w x s a : sock w x = Some s -> answers w (u_connect w x s a).
Proof.
  intros X w' cs r. unfold u_connect. intro H.
  destruct (us_proto s) as [bound|b q lim|b pa y'| |b pa peer rr|] eqn:P; bi; try apply tells_refl.
  - destruct a as [p|]; [|bi; apply tells_refl]. destruct (lookup_address w (us_type s) p) as [y|e]; [|bi; apply tells_refl].
    bi. match goal with u : usock |- _ => destruct (us_proto u) as [|sb q lim| | | |]; try (bi; apply tells_refl) end.
    destruct (queue_full q lim); bi; [apply tells_refl|].
    match goal with H : queue_incoming _ _ _ _ _ _ _ _ = Some _ |- _ => apply queue_incoming_tells in H end. tells_facts. tells_go.
  - destruct a as [p|]; [|bi; apply tells_refl]. destruct (lookup_address w (us_type s) p) as [y|e]; [|bi; apply tells_refl].
    bi. tells_facts. tells_go.
Qed.
Lemma pair_tells w t nb : answers w (u_pair w t nb).
Proof.
  intros w' cs r H. unfold u_pair in H. bi.
  repeat match goal with H : connect_unnamed _ _ _ = Some _ |- _ => apply connect_unnamed_tells in H end. tells_facts. tells_go.
Qed.
Lemma accept_tells w x s nb : sock w x = Some s -> answers w (u_accept w x s nb).
Proof.
  intros X w' cs r. unfold u_accept. intro H.
  destruct (us_proto s) as [bound|b [|c q] lim|b pa y'| |b pa peer rr|] eqn:P; bi; try apply tells_refl.
  destruct (u_peername u); bi. eapply tells_last; [eapply tells_skip; [|eapply refresh_tells; eassumption]|].
  - eapply tells_upd; eauto.
  - eapply tells_upd; eauto. destruct nb; reflexivity.
Qed.
Lemma ns_bind_tells w x s n w' : sock w x = Some s -> ns_bind w x s n = Some w' -> tells w w' [].
Proof.
  intros X H. unfold ns_bind in H. destruct (mem _ _); [discriminate|]. injection H as <-. intro F. split.
  - intros z Z. rewrite sock_put. destruct (Z.eqb_spec z x) as [->|]; [|apply F; exact Z]. rewrite (F x Z) in X. discriminate X.
  - intro z. unfold bits_at. cbn [files flat_map chain]. rewrite sock_put. destruct (Z.eqb_spec z x) as [->|]; [|reflexivity]. rewrite X. reflexivity.
Qed.
Lemma common_bind_tells w x s a d w' r : sock w x = Some s -> common_bind w x s a d = (w', r) -> tells w w' [].
Proof.
  intros X H. unfold common_bind in H. destruct a as [p|]; [|injection H as <- <-; apply tells_refl].
  destruct (as_abstract p) as [n|].
  - destruct (ns_bind w x s n) as [w1|] eqn:E; injection H as <- <-; [eapply ns_bind_tells; eauto|apply tells_refl].
  - destruct (is_unnamed p); [|injection H as <- <-; apply tells_refl].
    destruct (autobind_name _ d) as [n|]; [|injection H as <- <-; apply tells_refl].
    destruct (ns_bind w x s n) as [w1|] eqn:E; injection H as <- <-; [eapply ns_bind_tells; eauto|apply tells_refl].
Qed.
Lemma bind_tells w x s a d : sock w x = Some s -> answers w (u_bind w x s a d).
Proof.
  intros X w' cs r. unfold u_bind. intro H. destruct (common_bind w x s a d) as [w1 [p|e]] eqn:E; apply common_bind_tells in E; auto;
    destruct (us_proto s) as [[]|b q lim|b pa y'| |[] pa peer rr|] eqn:P; bi; try apply tells_refl; try assumption;
    (eapply tells_skip; [exact E|]; eapply tells_upd; eauto).
Qed.
Lemma listen_op_tells w x s n : sock w x = Some s -> answers w (u_listen w x s n).
Proof.
  intros X w' cs r. unfold u_listen. intro H.
  destruct (us_proto s) as [[]|b q lim|b pa y'| |b pa peer rr|] eqn:P; bi; try apply tells_refl; tells_facts; tells_go.
Qed.
Lemma close_basic_tells held w x w' cs : close_basic held w x = Some (w', cs) -> tells w w' cs.
Proof.
  unfold close_basic. intro H. destruct (sock w x) as [s|] eqn:X; [|discriminate]. ob_in H.
  destruct (us_proto s) as [b|b q lim|b pa y'| |b pa peer rr|] eqn:P; bi; tells_facts.
  - tells_go.
  - rewrite <- (app_nil_r (_ ++ _)), <- !app_assoc. tells_go.
  - assert (NF : no_files (map (fun e : Z * option (list Z) * Z => CInform (fst (fst e)) (snd e)) rr)).
    { clear. intro z. induction rr as [|e l IH]; [reflexivity|exact IH]. }
    rewrite <- (app_nil_r (_ ++ _)), <- !app_assoc. tells_go.
Qed.
Lemma close_all_tells held l : forall w w' cs, close_all held w l = Some (w', cs) -> tells w w' cs.
Proof.
  induction l as [|x l IH]; intros w w' cs H; cbn [close_all] in H; bi; [apply tells_refl|].
  eapply tells_app; [eapply close_basic_tells; eauto|]. eapply IH. eauto.
Qed.
Lemma close_sock_tells w x w' cs : close_sock w x = Some (w', cs) -> tells w w' cs.
Proof.
  unfold close_sock. intro H. destruct (sock w x) as [s|] eqn:X; [|discriminate]. ob_in H.
  destruct (us_proto s); try (eapply close_basic_tells; eauto; fail). bi.
  match goal with H : close_all _ _ _ = Some _ |- _ => apply close_all_tells in H end. tells_facts. tells_go.
Qed.
Lemma close_files_tells l : forall w w' cs, close_files w l = Some (w', cs) -> tells w w' cs.
Proof.
  induction l as [|x l IH]; intros w w' cs H; cbn [close_files] in H; [bi; apply tells_refl|].
  destruct (sock w x) as [s|] eqn:X; [|eauto]. destruct (us_fd s); [|eauto]. bi.
  eapply tells_skip; [exact (tells_upd w x s (set_fd s false) X eq_refl)|].
  eapply tells_app; [eapply close_sock_tells; eauto|eauto].
Qed.
Lemma write_quiet b d f b' cs r : write_stream b d f = (b', cs, r) -> no_files cs.
Proof.
  unfold write_stream. destruct (faulty f (blen d)); [intro H; injection H as <- <- <-; intro; reflexivity|].
  destruct (buf_refresh _ _) as [b1 c1] eqn:E. intro H. injection H as <- <- <-. eapply quiet_refresh; eauto.
Qed.
Lemma packet_quiet b d f b' cs r : write_packet b d f = (b', cs, r) -> no_files cs.
Proof.
  unfold write_packet. destruct (faulty f (blen d)); [intro H; injection H as <- <- <-; intro; reflexivity|].
  destruct (buf_refresh _ _) as [b1 c1] eqn:E. intro H. injection H as <- <- <-. eapply quiet_refresh; eauto.
Qed.
Lemma read_quiet b cap f b' cs r : buf_read b cap f = (b', cs, r) -> no_files cs.
Proof.
  unfold buf_read. destruct (ub_items b) as [|[x|m] l].
  - destruct (buf_refresh _ _) as [b1 c1] eqn:E. intro H. injection H as <- <- <-. eapply quiet_refresh; eauto.
  - destruct (faulty _ _); [intro H; injection H as <- <- <-; intro; reflexivity|].
    destruct (buf_refresh _ _) as [b1 c1] eqn:E. intro H. injection H as <- <- <-. eapply quiet_refresh; eauto.
  - destruct (faulty _ _); [intro H; injection H as <- <- <-; intro; reflexivity|].
    destruct (buf_refresh _ _) as [b1 c1] eqn:E. intro H. injection H as <- <- <-. eapply quiet_refresh; eauto.
Qed.
Lemma common_send_tells w x y f dw data fault w' cs r : common_send w x y f dw data fault = Some (w', cs, r) -> tells w w' cs.
Proof.
  unfold common_send. intro H. destruct (sock w x) as [s|] eqn:X; [|discriminate]. ob_in H.
  destruct (negb f); [bi; apply tells_refl|]. bi.
  destruct (sock w y) as [p|] eqn:Y; [|discriminate].
  match goal with H : Some p = Some ?u |- _ => assert (u = p) by congruence; subst; clear H end.
  destruct (ub_readers (us_buf p) =? 0); [bi; apply tells_refl|].
  destruct (Z.max _ 0 =? 0); [bi; apply tells_refl|].
  assert (G : forall b c, no_files c -> tells w (upd w y (set_buf p b)) c).
  { intros b c NF. eapply tells_skip; [exact (tells_upd w y p (set_buf p b) Y eq_refl)|]. apply tells_quiet. exact NF. }
  destruct (us_type s).
  - destruct (Z.min _ _ =? 0); [bi; apply tells_refl|]. destruct (write_stream _ _ _) as [[b c] [n|e]] eqn:E; apply write_quiet in E; bi; [|apply G; auto].
    eapply tells_last; [apply G; auto|]. eapply tells_upd; eauto.
  - destruct (_ <=? _); [|destruct (_ <=? _); bi; apply tells_refl]. destruct (write_packet _ _ _) as [[b c] [n|e]] eqn:E; apply packet_quiet in E; bi; [|apply G; auto].
    eapply tells_last; [apply G; auto|]. eapply tells_upd; eauto.
  - destruct (_ <=? _); [|destruct (_ <=? _); bi; apply tells_refl]. destruct (write_packet _ _ _) as [[b c] [n|e]] eqn:E; apply packet_quiet in E; bi; [|apply G; auto].
    eapply tells_last; [apply G; auto|]. eapply tells_upd; eauto.
Qed.
Lemma send_tells w x s a c f dw data fault : answers w (u_send w x s a c f dw data fault).
Proof.
  intros w' cs r. unfold u_send. intro H. destruct (us_proto s) as [b|b q lim|b pa y'| |b pa peer rr|] eqn:P; bi; try apply tells_refl.
  - destruct (us_type s), a; bi; apply tells_refl.
  - destruct c; [bi; apply tells_refl|]. destruct (resolve _ _ _ _) as [y|e]; [|bi; apply tells_refl]. bi.
    match goal with H : common_send _ _ _ _ _ _ _ = Some _ |- _ => apply common_send_tells in H end.
    destruct s0 as [n|[e|]]; bi; tells_facts; tells_go.
  - destruct c; [bi; apply tells_refl|]. destruct (resolve _ _ _ _) as [y|e]; [|bi; apply tells_refl]. bi.
    match goal with H : common_send _ _ _ _ _ _ _ = Some _ |- _ => apply common_send_tells in H end.
    destruct s0 as [n|[e|]]; bi; try assumption.
    match goal with H : match us_proto ?u with _ => _ end = Some _ |- _ => destruct (us_proto u); bi end. tells_facts. subst. tells_facts. tells_go.
Qed.
Lemma common_recv_tells w x f dw tr cap fault w' cs r : common_recv w x f dw tr cap fault = Some (w', cs, r) -> tells w w' cs.
Proof.
  unfold common_recv. intro H. destruct (sock w x) as [s|] eqn:X; [|discriminate]. ob_in H.
  destruct (negb f); [bi; apply tells_refl|]. destruct (_ && _); [bi; apply tells_refl|].
  destruct (buf_read _ _ _) as [[b c] [[out n]|e]] eqn:E; apply read_quiet in E;
    assert (G : tells w (upd w x (set_buf s b)) c)
      by (eapply tells_skip; [exact (tells_upd w x s (set_buf s b) X eq_refl)|]; apply tells_quiet; exact E).
  - destruct (_ && _); bi; exact G.
  - bi. exact G.
Qed.
Lemma recv_tells w x s c f dw tr cap fault : answers w (u_recv w x s c f dw tr cap fault).
Proof.
  intros w' cs r. unfold u_recv. intro H. destruct (us_proto s) as [b|b q lim|b pa y'| |b pa peer rr|] eqn:P; bi; try apply tells_refl.
  - destruct (us_type s); bi; apply tells_refl.
  - destruct c; [bi; apply tells_refl|]. bi.
    match goal with H : common_recv _ _ _ _ _ _ _ = Some _ |- _ => apply common_recv_tells in H end.
    destruct s0 as [[[[n out] removed] t]|[e|]]; bi; try assumption. tells_facts.
    assert (NF : no_files (if 0 <? removed then [CInform y' removed] else [])) by (intro; destruct (0 <? removed); reflexivity).
    tells_go.
  - destruct c; [bi; apply tells_refl|]. bi.
    match goal with H : common_recv _ _ _ _ _ _ _ = Some _ |- _ => apply common_recv_tells in H end.
    destruct s0 as [[[[n out] removed] t]|[e|]]; bi; try assumption.
    match goal with H : match us_proto ?u with _ => _ end = Some _ |- _ => destruct (us_proto u) as [| | | |? ? ? [|[[? ?] ?] ?]|]; bi end.
    tells_facts. tells_go.
Qed.
Lemma syscall_tells w o : answers w (syscall w o).
Proof.
  assert (W : forall x f, (forall s, sock w x = Some s -> answers w (f s)) -> answers w (with_fd w x f)).
  { intros x f H w' cs r. unfold with_fd. destruct (sock w x) as [s|]; [|intro; bi; apply tells_refl].
    destruct (us_fd s); [|intro; bi; apply tells_refl]. apply H. reflexivity. }
  destruct o; cbn [syscall]; try (apply W; intros s X).
  - intros w' cs r H. bi. eapply new_sock_tells; eauto.
  - apply pair_tells.
  - apply bind_tells; auto.
  - apply listen_op_tells; auto.
  - apply connect_tells; auto.
  - apply accept_tells; auto.
  - apply send_tells.
  - apply recv_tells.
  - intros w' cs r H. bi. eapply close_files_tells; eauto.
  - intros w' cs r H. bi. apply tells_refl.
  - intros w' cs r H. bi. apply tells_refl.
  - intros w' cs r H. bi. eapply tells_upd; eauto.
Qed.

(* ------------------------------------------------------------------ the queue *)
Lemma unbind_tells w t n w' : unbind w t n = Some w' -> tells w w' [].
Proof. unfold unbind. intro H. bi. subst. intro F. split; auto. intro x. reflexivity. Qed.
Lemma inform_tells w x n w' cs : inform w x n = Some (w', cs) -> tells w w' cs.
Proof.
  unfold inform. intro H. destruct (sock w x) as [s|] eqn:X; [|discriminate]. ob_in H.
  destruct (us_proto s); bi; try apply tells_refl; tells_facts; tells_go.
Qed.
Definition file_of (c : cb) : list note := match c with CFile x o n g => [(x, o, n, g)] | _ => [] end.
Lemma run_cb_tells w c w' cs ns : run_cb w c = Some (w', cs, ns) -> tells w w' cs /\ ns = file_of c.
Proof.
  unfold run_cb. intro H. destruct c as [[] x ch g|x|x n|x o n g].
  - destruct (bs_nr ch); bi; (split; [|reflexivity]); [eapply refresh_tells; eauto|apply tells_refl].
  - destruct (_ || _); bi; (split; [|reflexivity]); [eapply refresh_tells; eauto|apply tells_refl].
  - destruct (_ || _); bi; (split; [|reflexivity]); [eapply refresh_tells; eauto|apply tells_refl].
  - bi; (split; [|reflexivity]); eapply refresh_tells; eauto.
  - bi; (split; [|reflexivity]); eapply inform_tells; eauto.
  - bi. split; [|reflexivity]. destruct (_ && _); [|bi; subst; apply tells_refl].
    destruct (us_claim _); [eapply unbind_tells; eauto|bi; subst; apply tells_refl].
Qed.
Lemma said_file x c : said x (file_of c) = files x [c].
Proof. destruct c; cbn; auto. Qed.
Lemma run_cbs_tells fuel : forall w Q w' ns, run_cbs fuel w Q = Some (w', ns) -> fresh w ->
  fresh w' /\ forall x b, chain b (files x Q) (bits_at w x) -> chain b (said x ns) (bits_at w' x).
Proof.
  induction fuel as [|fuel IH]; intros w [|c Q] w' ns H F; cbn [run_cbs] in H; try discriminate H; bi; try (split; auto; fail).
  destruct (run_cb_tells _ _ _ _ _ E) as (T & ->). destruct (T F) as (F1 & C1). destruct (IH _ _ _ _ E0 F1) as (F2 & C2).
  split; auto. intros x b C. change (c :: Q) with ([c] ++ Q) in C. rewrite files_app in C. apply chain_app in C as (b1 & C3 & C4).
  rewrite said_app, said_file. apply chain_app. exists b1. split; auto. apply C2. rewrite files_app. apply chain_app. eauto.
Qed.
Lemma step_tells w o w' r ns : step w o = Some (w', r, ns) -> fresh w ->
  fresh w' /\ forall x, chain (bits_at w x) (said x ns) (bits_at w' x).
Proof.
  unfold step. intros H F. bi. destruct (syscall_tells w o _ _ _ E F) as (F1 & C1).
  unfold run_queue in E0. destruct (run_cbs_tells _ _ _ _ _ E0 F1) as (F2 & C2). split; auto.
Qed.
Definition notes (outs : list (ures * list note)) : list note := concat (map snd outs).
Lemma run_tells ops : forall w w' outs, run w ops = Some (w', outs) -> fresh w ->
  fresh w' /\ forall x, chain (bits_at w x) (said x (notes outs)) (bits_at w' x).
Proof.
  induction ops as [|o ops IH]; intros w w' outs H F; cbn [run] in H; bi; [split; auto; reflexivity|].
  destruct (step_tells _ _ _ _ _ E F) as (F1 & C1). destruct (IH _ _ _ E0 F1) as (F2 & C2). split; auto.
  intro x. cbn [notes map snd concat]. rewrite said_app. apply chain_app. eauto.
Qed.
Lemma fresh_init : fresh init. Proof. intros z _. reflexivity. Qed.
(** A bit that went on was told to go on. *)
Lemma chain_on (f : ubits -> bool) l : forall b b', chain b l b' -> f b = false -> f b' = true ->
  exists o n, In (o, n) l /\ f o = false /\ f n = true.
Proof.
  induction l as [|[o n] l IH]; intros b b' C B B'; cbn in C; [congruence|]. destruct C as (-> & C). destruct (f n) eqn:E.
  - exists b, n. cbn. auto.
  - destruct (IH n b' C E B') as (o1 & n1 & I1 & H1). exists o1, n1. cbn. auto.
Qed.
Lemma said_in x o n ns : In (o, n) (said x ns) -> exists g, In (x, o, n, g) ns.
Proof.
  unfold said. intro H. apply in_flat_map in H as ([[[z o1] n1] g] & I1 & H). destruct (Z.eqb_spec z x) as [->|]; [|contradiction].
  destruct H as [H|[]]. injection H as -> ->. eauto.
Qed.
