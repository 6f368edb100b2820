(** Running the queued callbacks of unix sockets keeps the invariant and changes nothing that the
    specification sees. *)
From Verif Require Import Base FMap UnixModel UnixSpec UnixFacts.

Definition same_abs (w w' : world) : Prop :=
  w_next w' = w_next w /\ forall z, option_map abs (sock w' z) = option_map abs (sock w z).
Lemma same_abs_refl w : same_abs w w. Proof. split; auto. Qed.
Lemma same_abs_trans a b c : same_abs a b -> same_abs b c -> same_abs a c.
Proof. intros (N & E) (N' & E'). split; [congruence|]. intro z. rewrite E'. apply E. Qed.
Lemma open_gone s : is_open s = negb (gone (abs s)).
Proof. unfold is_open, gone, abs. cbn [k_role]. destruct (us_proto s); reflexivity. Qed.
Lemma same_abs_open w w' z : same_abs w w' ->
  (exists s, sock w' z = Some s /\ is_open s = true) <-> (exists s, sock w z = Some s /\ is_open s = true).
Proof.
  intros (_ & E). specialize (E z). split; intros (s & H & O); rewrite H in E;
    [destruct (sock w z) as [s'|]|destruct (sock w' z) as [s'|]]; try discriminate E;
    exists s'; (split; [reflexivity|]); cbn [option_map] in E; assert (E' : abs s' = abs s) by congruence;
    rewrite open_gone in *; congruence.
Qed.
Lemma sim_same w w' S : sim w S -> same_abs w w' -> (forall t n, lookup w' t n = lookup w t n) -> sim w' S.
Proof.
  intros (A & N & M) E L. destruct (E) as (N' & E'). split; [|split].
  - intro z. rewrite A, E'. reflexivity.
  - congruence.
  - intros t n x. rewrite M, L, (same_abs_open _ _ x E). reflexivity.
Qed.

Definition good_bits (w : world) (s : usock) (b : ubits) : Prop :=
  match us_proto s with
  | PInitial _ => b = active
  | PListening _ q lim => b = lbits q lim
  | PConnected _ _ y => exists p, sock w y = Some p /\ b = cbits s p
  | PDgram _ _ _ _ => b = gbits s
  | PConnClosed | PDgramClosed => b = us_bits s
  end.
(* ------------------------------------------------------------------ changing one socket *)
Definition active_kind (p : proto) : Prop := match p with PConnected _ _ _ | PDgram _ _ _ _ => True | _ => False end.
Definition told_kind (p : proto) : Prop := match p with PInitial _ | PListening _ _ _ => False | _ => True end.
Lemma cb_ok_upd w x s s' c : sock w x = Some s -> cb_ok w c ->
  (active_kind (us_proto s) -> active_kind (us_proto s')) -> (told_kind (us_proto s) -> told_kind (us_proto s')) ->
  (is_open s = false -> is_open s' = false) -> cb_ok (upd w x s') c.
Proof.
  intros X H A T O. unfold cb_ok in *.
  assert (E : forall z t, sock w z = Some t -> exists t', sock (upd w x s') z = Some t' /\
     (active_kind (us_proto t) -> active_kind (us_proto t')) /\ (told_kind (us_proto t) -> told_kind (us_proto t')) /\
     (is_open t = false -> is_open t' = false)).
  { intros z t Z. rewrite sock_upd. destruct (Z.eqb_spec z x) as [->|]; [|eauto 6].
    assert (t = s) by congruence. subst. eauto. }
  destruct c as [k z ch g|z|z n|z o n g].
  - destruct H as (t & Z & K). destruct (E _ _ Z) as (t' & Z' & A' & _). exists t'. split; [exact Z'|]. intros G N. apply A', K; auto.
  - destruct H as (t & Z). destruct (E _ _ Z) as (t' & Z' & _). eauto.
  - destruct H as (Hn & t & Z & K). destruct (E _ _ Z) as (t' & Z' & _ & T' & _). split; [exact Hn|]. exists t'. split; [exact Z'|]. apply T', K.
  - destruct H as (t & Z & K). destruct (E _ _ Z) as (t' & Z' & _ & _ & O'). exists t'. split; [exact Z'|]. intro C. apply O', K, C.
Qed.
Lemma upd_inv w Q Q' x s s' : Inv w Q -> sock w x = Some s ->
  us_type s' = us_type s -> us_claim s' = us_claim s -> is_open s' = is_open s ->
  (forall z t b q lim, z <> x -> sock w z = Some t -> us_proto t = PListening b q lim -> In x q ->
     us_fd s' = false /\ exists y, view (us_proto s') = VConn y) ->
  (forall z t b pa, z <> x -> sock w z = Some t -> us_proto t = PConnected b pa x -> link_ok Q z t x s -> link_ok Q' z t x s') ->
  (forall z t, z <> x -> sock w z = Some t -> is_open t = true -> us_type t <> UDgram -> view (us_proto t) <> VConn x -> informs Q' z = informs Q z) ->
  (forall z t, z <> x -> sock w z = Some t -> is_open t = true -> due Q z -> due Q' z) ->
  (forall z t, z <> x -> sock w z = Some t -> is_open t = true -> us_type t = UDgram ->
     gsum (upd w x s') z + informs Q' z = gsum w z + informs Q z) ->
  sock_ok (upd w x s') Q' x s' -> base_ok w x s' ->
  Forall (cb_ok (upd w x s')) Q' -> closers Q' = closers Q ->
  (forall b q lim, us_proto s' = PListening b q lim -> forall c, In c q ->
     (exists b' q' lim', us_proto s = PListening b' q' lim' /\ In c q') \/
     (forall z t b' q' lim', sock w z = Some t -> us_proto t = PListening b' q' lim' -> ~ In c q')) ->
  Inv (upd w x s') Q'.
Proof.
  intros [Ba N A So Cb Na Cl Ap] X TY CLM OP CH LX IN DU GS SX BX CB CLO AP.
  assert (SU : forall z t, sock (upd w x s') z = Some t -> (z <> x /\ sock w z = Some t) \/ (z = x /\ t = s')).
  { intros z t. rewrite sock_upd. destruct (Z.eqb_spec z x); intro E; [right|left]; split; auto; congruence. }
  assert (SO : forall z, z <> x -> sock (upd w x s') z = sock w z) by (intros; rewrite sock_upd, eqb_neq; auto).
  assert (SX' : sock (upd w x s') x = Some s') by (rewrite sock_upd, Z.eqb_refl; auto).
  constructor; auto.
  - intros z t Z. destruct (SU _ _ Z) as [(NZ & Z')|(-> & ->)]; [exact (Ba z t Z')|exact BX].
  - intros z Z. rewrite sock_upd. destruct (z =? x); eauto.
  - intros z t Z. destruct (SU _ _ Z) as [(NZ & Z')|(-> & ->)]; [|exact SX].
    apply (sock_frame w _ Q); auto.
    + intros k (u & K & T). unfold is_gram. destruct (Z.eq_dec k x) as [->|NK].
      * exists s'. split; auto. congruence.
      * exists u. rewrite SO; auto.
    + intros b q lim PL. rewrite !Forall_forall. intros FA c Hc. destruct (FA c Hc) as (u & C & F & P). unfold child_ok.
      destruct (Z.eq_dec c x) as [->|NC]; [|exists u; rewrite SO; auto].
      destruct (CH z t b q lim NZ Z' PL Hc) as (F' & y & V'). exists s'. split; auto. split; auto.
      destruct (us_proto s'); try discriminate V'. auto.
    + intros b pa y p P Y L. destruct (Z.eq_dec y x) as [->|NY].
      * exists s'. split; auto. assert (p = s) by congruence. subst. eapply LX; eauto.
      * exists p. rewrite SO by auto. split; auto. apply (link_frame Q _ _ _ _ p); auto; [apply same_end_refl| |].
        -- eapply IN; eauto; [unfold is_open; rewrite P; auto| |rewrite P; cbn; congruence].
           specialize (So z t Z'). unfold sock_ok in So. rewrite P in So. apply So.
        -- eapply DU; eauto. unfold is_open. rewrite P. auto.
    + intros T O. eapply GS; eauto.
    + eapply DU; eauto.
  - destruct Na as (N1 & N2). unfold names_ok. rewrite CLO. split.
    + intros t n z L. destruct (N1 t n z L) as (u & Z & T & K & O).
      destruct (Z.eq_dec z x) as [->|NZ]; [|exists u; rewrite SO; auto].
      assert (u = s) by congruence. subst u. exists s'. repeat split; auto; congruence.
    + intros z t n Z K O. destruct (SU _ _ Z) as [(NZ & Z')|(-> & ->)]; [exact (N2 z t n Z' K O)|].
      rewrite TY. change (lookup w (us_type s) n = Some x). apply (N2 x s n X); congruence.
  - rewrite CLO. exact Cl.
  - intros z1 s1 b1 q1 l1 z2 s2 b2 q2 l2 c Z1 P1 Z2 P2 C1 C2.
    destruct (SU _ _ Z1) as [(NZ1 & Z1')|(-> & ->)], (SU _ _ Z2) as [(NZ2 & Z2')|(-> & ->)]; auto.
    + eapply Ap; [exact Z1'|exact P1|exact Z2'|exact P2|exact C1|exact C2].
    + destruct (AP _ _ _ P2 c C2) as [(b' & q' & l' & P' & C')|F]; [|elim (F z1 s1 b1 q1 l1 Z1' P1 C1)].
      exact (Ap z1 s1 b1 q1 l1 x s b' q' l' c Z1' P1 X P' C1 C').
    + destruct (AP _ _ _ P1 c C1) as [(b' & q' & l' & P' & C')|F]; [|elim (F z2 s2 b2 q2 l2 Z2' P2 C2)].
      exact (Ap x s b' q' l' z2 s2 b2 q2 l2 c X P' Z2' P2 C' C2).
Qed.
Lemma child_same w Q x s s' : Inv w Q -> sock w x = Some s -> (us_fd s = false -> us_fd s' = false) ->
  (forall y, view (us_proto s) = VConn y -> view (us_proto s') = VConn y) ->
  forall z t b q lim, z <> x -> sock w z = Some t -> us_proto t = PListening b q lim -> In x q ->
     us_fd s' = false /\ exists y, view (us_proto s') = VConn y.
Proof.
  intros I X F V z t b q lim _ Z P C. pose proof (i_sock _ _ I z t Z) as So. unfold sock_ok in So. rewrite P in So.
  destruct So as (_ & _ & _ & _ & _ & FA). rewrite Forall_forall in FA. destruct (FA x C) as (u & U & Fu & Pu).
  assert (u = s) by congruence. subst u. split; auto. destruct (us_proto s); try contradiction. exists peer. apply V. reflexivity.
Qed.
(** The queue may be exchanged for one that promises as much. *)
Lemma Inv_q w Q Q' : Inv w Q -> Forall (cb_ok w) Q' -> Permutation (closers Q) (closers Q') ->
  (forall z t, sock w z = Some t -> is_open t = true -> informs Q' z = informs Q z) ->
  (forall z t, sock w z = Some t -> is_open t = true -> due Q z -> due Q' z) -> Inv w Q'.
Proof.
  intros [Ba N A So Cb Na Cl Ap] CB CL IN DU. constructor; auto.
  - intros z t Z. apply (sock_frame w _ Q); auto.
    + intros b pa y p P Y L. exists p. split; auto. assert (O : is_open t = true) by (unfold is_open; rewrite P; auto).
      apply (link_frame Q _ _ _ _ p); eauto. apply same_end_refl.
    + intros T O. rewrite (IN _ _ Z O). reflexivity.
    + eauto.
  - assert (P : forall z, In z (closers Q') <-> In z (closers Q)).
    { intro z. split; apply Permutation_in; [symmetry|]; exact CL. }
    destruct Na as (N1 & N2). split.
    + intros t n z L. destruct (N1 t n z L) as (s & Z & T & C & O). exists s. rewrite P. auto.
    + intros z s n Z C O. rewrite P in O. apply (N2 z s n Z C O).
  - eapply Permutation_NoDup; eauto.
Qed.

Lemma sock_bits w x s b z : sock w x = Some s ->
  forall s', sock (upd w x (set_bits s b)) z = Some s' ->
  (z <> x /\ sock w z = Some s') \/ (z = x /\ s' = set_bits s b).
Proof. intros H s'. rewrite sock_upd. destruct (Z.eqb_spec z x); intro E; [right|left]; split; auto; congruence. Qed.
Lemma child_bits w x s b c : sock w x = Some s -> child_ok w c -> child_ok (upd w x (set_bits s b)) c.
Proof.
  intros H (s' & C & F & P). unfold child_ok. rewrite sock_upd. destruct (Z.eqb_spec c x) as [->|N].
  - assert (s' = s) by congruence. subst. exists (set_bits s b). auto.
  - eauto.
Qed.
Lemma set_bits_inv w Q x s b cs : Inv w (CRefresh x :: Q) -> sock w x = Some s -> good_bits w s b ->
  cs = [] \/ (exists g, cs = [CFile x (us_bits s) b g]) -> Inv (upd w x (set_bits s b)) (cs ++ Q).
Proof.
  intros I X G C. destruct I as [Ba N A So Cb Na Cl Ap].
  assert (FC : f_closed b && negb (f_closed (us_bits s)) = false).
  { unfold good_bits in G. destruct (us_proto s) eqn:P; try (subst b; reflexivity).
    - destruct G as (p & _ & ->). reflexivity.
    - subst b. apply Bool.andb_negb_r.
    - subst b. apply Bool.andb_negb_r. }
  assert (IN : forall z, informs (cs ++ Q) z = informs (CRefresh x :: Q) z).
  { intro z. destruct C as [-> |(g & ->)]; reflexivity. }
  assert (CL : closers (cs ++ Q) = closers Q).
  { destruct C as [-> |(g & ->)]; [reflexivity|]. unfold closers. cbn [app flat_map closes]. rewrite FC. reflexivity. }
  assert (DU : forall z, z <> x -> due (CRefresh x :: Q) z -> due (cs ++ Q) z).
  { intros z Z D. apply due_app. apply due_cons in D as [D|D]; [cbn in D; congruence|auto]. }
  assert (GS : forall z, gsum (upd w x (set_bits s b)) z = gsum w z).
  { intro z. apply gsum_ext; [reflexivity|]. intro k. rewrite sock_upd. destruct (Z.eqb_spec k x) as [->|]; [|auto]. rewrite X. reflexivity. }
  assert (GR : forall k, is_gram w k -> is_gram (upd w x (set_bits s b)) k).
  { intros k (s' & K & T). unfold is_gram. rewrite sock_upd. destruct (Z.eqb_spec k x) as [->|]; [|eauto].
    assert (s' = s) by congruence. subst. eexists. split; [reflexivity|]. auto. }
  assert (OP : is_open (set_bits s b) = is_open s) by reflexivity.
  constructor; auto.
  - intros z s' Z. apply (sock_bits _ _ _ _ _ X) in Z as [(NZ & Z)|(-> & ->)]; [exact (Ba z s' Z)|].
    specialize (Ba x s X) as (B1 & B2 & B3 & B4 & B5). repeat split; auto; try apply B1.
    intro O. cbn [us_bits set_bits]. specialize (B4 O). rewrite B4 in FC. rewrite Bool.andb_true_r in FC. exact FC.
  - intros z Z. rewrite sock_upd. destruct (z =? x); eauto.
  - intros z s' Z. apply (sock_bits _ _ _ _ _ X) in Z as [(NZ & Z)|(-> & ->)].
    + apply (sock_frame w _ (CRefresh x :: Q)); auto.
      * intros _ q _ _. apply Forall_impl. intro c. apply child_bits. exact X.
      * intros bb pa y p P Y L. rewrite sock_upd. destruct (Z.eqb_spec y x) as [->|NY].
        -- assert (p = s) by congruence. subst. eexists. split; [reflexivity|].
           apply (link_frame (CRefresh x :: Q) _ _ _ _ s); auto. repeat split.
        -- exists p. split; auto. apply (link_frame (CRefresh x :: Q) _ _ _ _ p); auto. apply same_end_refl.
      * intros _ _. rewrite GS, IN. reflexivity.
    + specialize (So x s X). unfold sock_ok, good_bits in *. cbn [us_proto set_bits us_type us_buf us_sent us_bits].
      destruct (us_proto s) as [bb|bb q lim|bb pa y| |bb pa peer r|] eqn:P.
      * subst b. intuition.
      * destruct So as (T & Bf & Se & Bi & ND & F). repeat split; auto.
        eapply Forall_impl; [|exact F]. intro c. apply child_bits. exact X.
      * destruct So as (T & R & It & Se & p & Y & L). destruct G as (p' & Y' & ->).
        assert (p' = p) by congruence. subst p'. repeat split; auto; try lia.
        destruct L as (L1 & L2 & L3 & L4 & L5).
        exists p. split; [rewrite sock_upd, eqb_neq by auto; exact Y|].
        unfold link_ok. rewrite IN. repeat split; auto.
      * subst b. auto.
      * destruct So as (T & R & W & Li & It & F & Se & SE & PE & FR & Bi). subst b.
        rewrite <- GS, <- IN in SE. repeat split; auto; try lia.
        eapply Forall_impl; [|exact FR]. cbn. auto.
      * subst b. auto.
  - apply Forall_app. inversion Cb; subst. split.
    + destruct C as [-> |(g & ->)]; constructor; auto. exists (set_bits s b).
      rewrite sock_upd, Z.eqb_refl. split; auto. cbn [closes]. rewrite FC. congruence.
    + eapply Forall_impl; [|eassumption]. intros c. unfold cb_ok.
      assert (E : forall z s', sock w z = Some s' -> exists s'', sock (upd w x (set_bits s b)) z = Some s'' /\ us_proto s'' = us_proto s').
      { intros z s' Z. rewrite sock_upd. destruct (Z.eqb_spec z x) as [->|]; [|eauto].
        assert (s' = s) by congruence. subst. eexists; split; reflexivity. }
      destruct c as [k z ch g|z|z n|z o n g].
      * intros (s' & Z & K). destruct (E _ _ Z) as (s'' & Z' & P). exists s''. split; auto. rewrite P. exact K.
      * intros (s' & Z). destruct (E _ _ Z) as (s'' & Z' & P). eauto.
      * intros (Hn & s' & Z & K). destruct (E _ _ Z) as (s'' & Z' & P). split; auto. exists s''. rewrite P. auto.
      * intros (s' & Z & K). destruct (E _ _ Z) as (s'' & Z' & P). exists s''. split; auto. unfold is_open in *. rewrite P. exact K.
  - destruct Na as (N1 & N2). unfold names_ok. rewrite CL. change (closers (CRefresh x :: Q)) with (closers Q) in *. split.
    + intros t n z L. destruct (N1 t n z L) as (s' & Z & T & K & O). rewrite sock_upd.
      destruct (Z.eqb_spec z x) as [->|]; [|eauto 6]. assert (s' = s) by congruence. subst. eexists. split; [reflexivity|]. auto.
    + intros z s' n Z K O. apply (sock_bits _ _ _ _ _ X) in Z as [(NZ & Z)|(-> & ->)]; [exact (N2 z s' n Z K O)|].
      exact (N2 x s n X K O).
  - rewrite CL. exact Cl.
  - unfold queues_apart in *. intros z1 s1 b1 q1 l1 z2 s2 b2 q2 l2 c Z1 P1 Z2 P2.
    assert (E : forall z s', sock (upd w x (set_bits s b)) z = Some s' -> exists s'', sock w z = Some s'' /\ us_proto s'' = us_proto s').
    { intros z s' Z. apply (sock_bits _ _ _ _ _ X) in Z as [(NZ & Z)|(-> & ->)]; eauto. }
    destruct (E _ _ Z1) as (t1 & Y1 & R1), (E _ _ Z2) as (t2 & Y2 & R2).
    eapply Ap; [exact Y1|rewrite R1; exact P1|exact Y2|rewrite R2; exact P2].
Qed.
Lemma same_abs_upd w x s s' : sock w x = Some s -> abs s' = abs s -> same_abs w (upd w x s').
Proof.
  intros X E. split; [reflexivity|]. intro z. rewrite sock_upd. destruct (Z.eqb_spec z x) as [->|]; [|auto]. rewrite X.
  cbn [option_map]. congruence.
Qed.
Lemma same_abs_bits w x s b : sock w x = Some s -> same_abs w (upd w x (set_bits s b)).
Proof.
  intro X. split; [reflexivity|]. intro z. rewrite sock_upd. destruct (Z.eqb_spec z x) as [->|]; [|auto]. rewrite X. reflexivity.
Qed.
Definition files_only (cs : list cb) : Prop := Forall (fun c => weight c = 1%nat) cs.
Lemma update_state_ok w Q x s b g : Inv w (CRefresh x :: Q) -> sock w x = Some s -> good_bits w s b ->
  exists w' cs, update_state w x s b g = (w', cs) /\ Inv w' (cs ++ Q) /\ same_abs w w' /\ w_names w' = w_names w /\
                (length cs <= 1)%nat /\ files_only cs.
Proof.
  intros I X G. unfold update_state. eexists _, _. split; [reflexivity|].
  assert (C : forall c : bool, (if c then [] else [CFile x (us_bits s) b g]) = [] \/
              (exists g', (if c then [] else [CFile x (us_bits s) b g]) = [CFile x (us_bits s) b g'])) by (intros []; eauto).
  split; [|split; [|split; [reflexivity|split]]].
  - apply set_bits_inv; auto.
  - apply same_abs_bits. exact X.
  - destruct (bits_eqb b (us_bits s) && negb g); cbn; lia.
  - destruct (bits_eqb b (us_bits s) && negb g); repeat constructor.
Qed.
Lemma refresh_ok w Q x s g : Inv w (CRefresh x :: Q) -> sock w x = Some s -> (g = true -> active_kind (us_proto s)) ->
  exists w' cs, refresh w x g = Some (w', cs) /\ Inv w' (cs ++ Q) /\ same_abs w w' /\ w_names w' = w_names w /\
                (length cs <= 1)%nat /\ files_only cs.
Proof.
  intros I X G. unfold refresh. rewrite X. ob.
  pose proof (i_sock _ _ I x s X) as So. unfold sock_ok in So.
  assert (U : forall b, good_bits w s b -> exists w' cs, Some (update_state w x s b g) = Some (w', cs) /\ Inv w' (cs ++ Q) /\
     same_abs w w' /\ w_names w' = w_names w /\ (length cs <= 1)%nat /\ files_only cs).
  { intros b B. destruct (update_state_ok w Q x s b g I X B) as (w' & cs & E & R). exists w', cs. rewrite E. auto. }
  assert (NG : ~ active_kind (us_proto s) -> negb g = true) by (destruct g; intuition).
  unfold good_bits in U.
  destruct (us_proto s) as [b|b q lim|b pa y| |b pa peer r|] eqn:P.
  - rewrite assert_true by (apply NG; auto). apply U. reflexivity.
  - apply U. reflexivity.
  - destruct So as (_ & _ & _ & _ & p & Y & _). rewrite Y. ob. apply U. eauto.
  - rewrite assert_true by (apply NG; auto). apply U. symmetry. apply So.
  - apply U. reflexivity.
  - rewrite assert_true by (apply NG; auto). apply U. symmetry. apply So.
Qed.
Lemma inform_ok w Q x n : Inv w (CInform x n :: Q) ->
  exists w' cs, inform w x n = Some (w', cs) /\ Inv w' (cs ++ Q) /\ same_abs w w' /\ w_names w' = w_names w /\
                (length cs <= 1)%nat /\ files_only cs.
Proof.
  intro I. pose proof (i_cbs _ _ I) as CB. inversion CB as [|? ? CX CB']; subst. destruct CX as (Hn & s & X & K).
  unfold inform. rewrite X. ob.
  pose proof (i_sock _ _ I x s X) as So. pose proof (i_base _ _ I x s X) as Bx.
  pose proof (informs_nonneg w Q x CB') as PQ.
  assert (IX : informs (CInform x n :: Q) x = n + informs Q x).
  { unfold informs. cbn [map zsum fold_right]. rewrite Z.eqb_refl. reflexivity. }
  assert (IO : forall z, z <> x -> informs (CRefresh x :: Q) z = informs (CInform x n :: Q) z).
  { intros z NZ. unfold informs. cbn [map zsum fold_right]. rewrite eqb_neq by auto. reflexivity. }
  assert (IR : informs (CRefresh x :: Q) x = informs Q x) by reflexivity.
  assert (DU : forall z, due (CInform x n :: Q) z -> due (CRefresh x :: Q) z).
  { intros z D. apply due_cons in D. apply due_cons. exact D. }
  assert (UPD : forall s', s' = set_sent s (us_sent s - n) ->
     active_kind (us_proto s) -> sock_ok (upd w x s') (CRefresh x :: Q) x s' -> Inv (upd w x s') (CRefresh x :: Q)).
  { intros s' -> AK OK. apply (upd_inv w (CInform x n :: Q) _ x s); auto.
    - apply (child_same w (CInform x n :: Q) x s); auto.
    - intros z t b pa NZ Z P L. apply (link_frame (CInform x n :: Q) _ _ _ _ s); auto. repeat split.
    - intros z t NZ Z _ _. rewrite IO by auto. f_equal. apply gsum_ext; [reflexivity|]. intro k. rewrite sock_upd.
      destruct (Z.eqb_spec k x) as [->|]; [rewrite X|]; reflexivity.
    - constructor; [exists (set_sent s (us_sent s - n)); rewrite sock_upd, Z.eqb_refl; auto|].
      eapply Forall_impl; [|exact CB']. intros c. intro C. apply (cb_ok_upd w x s); auto.
    - intros b q lim P c C. cbn [us_proto set_sent] in P. left. eauto. }
  assert (GE : gsum (upd w x (set_sent s (us_sent s - n))) x = gsum w x).
  { apply gsum_ext; [reflexivity|]. intro k. rewrite sock_upd. destruct (Z.eqb_spec k x) as [->|]; [rewrite X|]; reflexivity. }
  assert (SU : forall s', sock (upd w x s') x = Some s') by (intro; rewrite sock_upd, Z.eqb_refl; auto).
  assert (DX : due (CRefresh x :: Q) x) by (apply due_cons; auto).
  unfold sock_ok in So. specialize (UPD _ eq_refl). unfold sock_ok in UPD. cbn [us_proto set_sent us_type us_buf us_sent us_bits] in UPD.
  destruct (us_proto s) as [b|b q lim|b pa y| |b pa peer r|] eqn:P; cbn [told_kind] in K; try contradiction.
  - destruct So as (T & R & It & Se & p & Y & L). destruct L as (L1 & L2 & L3 & L4 & L5). rewrite IX in L4.
    assert (n <= us_sent s /\ informs Q x <= us_sent s - n).
    { pose proof (bytes_nonneg (ub_items (us_buf p))). destruct (us_proto p); try contradiction; lia. }
    rewrite assert_true by (apply Z.leb_le; lia).
    assert (I' : Inv (upd w x (set_sent s (us_sent s - n))) (CRefresh x :: Q)).
    { apply UPD; [cbn; auto|]. repeat split; auto; try lia. exists p. split; [rewrite sock_upd, eqb_neq by auto; exact Y|].
      unfold link_ok. cbn [us_type us_buf us_sent us_bits set_sent]. repeat split; auto. rewrite IR.
      destruct (us_proto p); try contradiction; intuition lia. }
    destruct (refresh_ok _ Q x _ false I' (SU _) ltac:(discriminate)) as (w' & cs & E & I2 & A2 & N2 & R2).
    exists w', cs. split; [exact E|]. split; [exact I2|]. split; [|split; [exact N2|exact R2]].
    eapply same_abs_trans; [|exact A2]. apply same_abs_upd with (s := s); auto.
  - exists w, []. split; [reflexivity|]. split; [|split; [apply same_abs_refl|split; [reflexivity|split; [cbn; lia|constructor]]]].
    apply (Inv_q w (CInform x n :: Q)); auto.
    + intros z t Z O. destruct (Z.eq_dec z x) as [->|NZ]; [|rewrite <- IO; auto].
      assert (t = s) by congruence. subst. unfold is_open in O. rewrite P in O. discriminate.
    + intros z t Z O D. apply due_cons in D as [D|D]; [|exact D]. injection D as <-.
      assert (t = s) by congruence. subst. unfold is_open in O. rewrite P in O. discriminate.
  - destruct So as (T & R & W & Li & It & F & Se & SE & PE & FR & B). rewrite IX in SE.
    assert (0 <= gsum w x).
    { unfold gsum. apply zsum_nonneg, Forall_map, Forall_forall. intros i _.
      destruct (sock w (Z.of_nat i)) as [t|] eqn:Zi; [|lia]. pose proof (i_sock _ _ I _ _ Zi) as Si. unfold sock_ok in Si.
      destruct (us_proto t) as [| | | |b' pa' pe' r'|]; try lia. destruct Si as (_ & _ & _ & _ & _ & F' & _).
      unfold from_r. apply zsum_nonneg, Forall_map. clear -F'. induction F' as [|e it r it' E F' IH]; constructor; auto.
      unfold entry_ok in E. rewrite E. pose proof (blen_nonneg (payload it)). destruct (_ =? _); lia. }
    rewrite assert_true by (apply Z.leb_le; lia).
    assert (I' : Inv (upd w x (set_sent s (us_sent s - n))) (CRefresh x :: Q)).
    { apply UPD; [cbn; auto|].
      assert (SE' : us_sent s - n = gsum (upd w x (set_sent s (us_sent s - n))) x + informs (CRefresh x :: Q) x) by (rewrite GE, IR; lia).
      assert (GR : forall k, is_gram w k -> is_gram (upd w x (set_sent s (us_sent s - n))) k).
      { intros k (u & Ku & Tu). unfold is_gram. rewrite sock_upd. destruct (Z.eqb_spec k x) as [->|]; [|eauto].
        assert (u = s) by congruence. subst. eexists. split; [reflexivity|]. exact Tu. }
      repeat split; auto; try lia. eapply Forall_impl; [|exact FR]. cbn. auto. }
    destruct (refresh_ok _ Q x _ false I' (SU _) ltac:(discriminate)) as (w' & cs & E & I2 & A2 & N2 & R2).
    exists w', cs. split; [exact E|]. split; [exact I2|]. split; [|split; [exact N2|exact R2]].
    eapply same_abs_trans; [|exact A2]. apply same_abs_upd with (s := s); auto.
  - exists w, []. split; [reflexivity|]. split; [|split; [apply same_abs_refl|split; [reflexivity|split; [cbn; lia|constructor]]]].
    apply (Inv_q w (CInform x n :: Q)); auto.
    + intros z t Z O. destruct (Z.eq_dec z x) as [->|NZ]; [|rewrite <- IO; auto].
      assert (t = s) by congruence. subst. unfold is_open in O. rewrite P in O. discriminate.
    + intros z t Z O D. apply due_cons in D as [D|D]; [|exact D]. injection D as <-.
      assert (t = s) by congruence. subst. unfold is_open in O. rewrite P in O. discriminate.
Qed.

(* ------------------------------------------------------------------ the queue *)
Lemma run_cb_ok w Q c S : Inv w (c :: Q) -> sim w S ->
  exists w' cs ns, run_cb w c = Some (w', cs, ns) /\ Inv w' (Q ++ cs) /\ sim w' S /\
                   (list_sum (map weight cs) < weight c)%nat.
Proof.
  intros I SI. pose proof (i_cbs _ _ I) as CB. inversion CB as [|? ? CX CB']; subst.
  assert (PERM : forall w' cs, Inv w' (cs ++ Q) -> (length cs <= 1)%nat -> Inv w' (Q ++ cs)).
  { intros w' cs I' L. apply (Inv_q w' (cs ++ Q)); auto.
    - apply Forall_app. pose proof (i_cbs _ _ I') as F. apply Forall_app in F. tauto.
    - rewrite !closers_app. apply Permutation_app_comm.
    - intros z t _ _. rewrite !informs_app. lia.
    - intros z t _ _. rewrite !due_app. tauto. }
  assert (RF : forall x g k, refreshes c = Some x -> (forall z n, c <> CInform z n) ->
     (exists s, sock w x = Some s /\ (g = true -> active_kind (us_proto s))) ->
     (do (w, cs) <- refresh w x g; Some (w, cs, [] : list note)) = k ->
     closes c = [] -> weight c = 2%nat ->
     exists w' cs ns, k = Some (w', cs, ns) /\ Inv w' (Q ++ cs) /\ sim w' S /\ (list_sum (map weight cs) < weight c)%nat).
  { intros x g k R NI (s & X & AK) <- CL WT. 
    assert (I' : Inv w (CRefresh x :: Q)).
    { apply (Inv_q w (c :: Q)); auto.
      - constructor; eauto. exists s. exact X.
      - unfold closers. cbn [flat_map]. rewrite CL. apply Permutation_refl.
      - intros z t _ _. unfold informs. destruct c; try reflexivity. elim (NI x0 n). reflexivity.
      - intros z t _ _ D. apply due_cons in D. apply due_cons. cbn [refreshes]. rewrite R in D. exact D. }
    destruct (refresh_ok w Q x s g I' X AK) as (w' & cs & E & I2 & A2 & N2 & L2 & F2).
    rewrite E. ob. exists w', cs, []. split; [reflexivity|]. split; [apply PERM; auto|]. split.
    - apply (sim_same w); auto. intros t n. unfold lookup. rewrite N2. reflexivity.
    - rewrite WT. destruct cs as [|c1 [|]]; cbn in L2 |- *; [lia| |lia]. inversion F2; subst. lia. }
  assert (ID : refreshes c = None -> (forall z n, c <> CInform z n) -> closes c = [] -> Inv w (Q ++ []) /\ sim w S).
  { intros R NI CL. split; auto. rewrite app_nil_r. apply (Inv_q w (c :: Q)); auto.
    - unfold closers. cbn [flat_map]. rewrite CL. apply Permutation_refl.
    - intros z t _ _. unfold informs. destruct c; try reflexivity. elim (NI x n). reflexivity.
    - intros z t _ _ D. apply due_cons in D as [D|D]; auto. congruence. }
  destruct c as [k x ch g|x|x n|x o n g].
  - destruct CX as (s & X & G).
    assert (G' : forall g', (g' = true -> g = true /\ k <> LSend) -> exists s, sock w x = Some s /\ (g' = true -> active_kind (us_proto s))).
    { intros g' H. exists s. split; auto. intro T. destruct (H T). apply G; auto. }
    destruct k; cbn [run_cb refreshes] in *.
    + destruct (bs_nr ch).
      * apply (RF x false); auto; [discriminate|apply G'; discriminate].
      * exists w, [], []. split; [reflexivity|]. destruct (ID eq_refl) as (I1 & S1); [discriminate|reflexivity|]. split; [exact I1|split; [exact S1|cbn; lia]].
    + destruct (bs_r ch || bs_nw ch || g).
      * apply (RF x g); auto; [discriminate|apply G'; split; congruence].
      * exists w, [], []. split; [reflexivity|]. destruct (ID eq_refl) as (I1 & S1); [discriminate|reflexivity|]. split; [exact I1|split; [exact S1|cbn; lia]].
    + destruct (bs_r ch || g).
      * apply (RF x g); auto; [discriminate|apply G'; split; congruence].
      * exists w, [], []. split; [reflexivity|]. destruct (ID eq_refl) as (I1 & S1); [discriminate|reflexivity|]. split; [exact I1|split; [exact S1|cbn; lia]].
  - destruct CX as (s & X). cbn [run_cb]. apply (RF x false); auto; [discriminate|]. exists s. split; auto. discriminate.
  - cbn [run_cb]. destruct (inform_ok w Q x n I) as (w' & cs & E & I2 & A2 & N2 & L2 & F2).
    rewrite E. ob. exists w', cs, []. split; [reflexivity|]. split; [apply PERM; auto|]. split.
    + apply (sim_same w); auto. intros t m. unfold lookup. rewrite N2. reflexivity.
    + destruct cs as [|c1 [|]]; cbn in L2 |- *; [lia| |lia]. inversion F2; subst. lia.
  - destruct CX as (s & X & K). cbn [run_cb]. rewrite X. ob.
    assert (SQ : forall z t, sock w z = Some t -> sock_ok w Q z t).
    { assert (DU : forall z, due (CFile x o n g :: Q) z -> due Q z).
      { intros z D. apply due_cons in D as [D|D]; [discriminate|exact D]. }
      intros z t Z. apply (sock_frame w _ (CFile x o n g :: Q)); auto; [exact (i_sock _ _ I z t Z)|].
      intros b pa y p P Y L. exists p. split; auto. apply (link_frame (CFile x o n g :: Q) _ _ _ _ p); auto. apply same_end_refl. }
    destruct (f_closed n && negb (f_closed o)) eqn:FC.
    + assert (CL : closes (CFile x o n g) = [x]) by (cbn [closes]; rewrite FC; reflexivity).
      specialize (K ltac:(congruence)). pose proof (i_closers _ _ I) as ND. unfold closers in ND. cbn [flat_map] in ND. rewrite CL in ND.
      inversion ND as [|? ? NX ND']; subst. fold (closers Q) in NX, ND'.
      destruct (us_claim s) as [nm|] eqn:CLM.
      * pose proof (i_names _ _ I) as (N1 & N2).
        assert (INX : In x (closers (CFile x o n g :: Q))) by (unfold closers; cbn [flat_map]; rewrite CL; left; reflexivity).
        pose proof (N2 x s nm X CLM (or_intror INX)) as LK.
        unfold unbind. rewrite assert_true by (unfold mem; unfold lookup in LK; rewrite LK; reflexivity). ob.
        eexists _, [], _. split; [reflexivity|].
        set (w' := mkW (w_socks w) (del (us_type s, nm) (w_names w)) (w_next w)).
        assert (SK : forall z, sock w' z = sock w z) by reflexivity.
        assert (LKs : forall t m, lookup w' t m = if FMap.eqb (t, m) (us_type s, nm) then None else lookup w t m).
        { intros. unfold lookup, w'. cbn [w_names]. apply get_del. }
        rewrite app_nil_r. split; [|split; [|cbn; lia]].
        -- destruct I as [Ba N A So Cb Na Cl Ap]. constructor; auto.
           ++ split.
              ** intros t m z L. rewrite LKs in L. destruct (FMap.eqb_ok (t, m) (us_type s, nm)) as [E|E]; [discriminate|].
                 destruct (N1 t m z L) as (u & Zu & Tu & Ku & [O|O]); exists u; repeat split; auto.
                 unfold closers in O. cbn [flat_map] in O. rewrite CL in O. destruct O as [<- |O]; [|auto].
                 assert (u = s) by congruence. subst u. congruence.
              ** intros z u m Zu Ku O. rewrite LKs.
                 assert (O' : is_open u = true \/ In z (closers (CFile x o n g :: Q))).
                 { destruct O as [O|O]; [auto|right]. unfold closers. cbn [flat_map]. apply in_or_app. right. exact O. }
                 pose proof (N2 z u m Zu Ku O') as L. destruct (FMap.eqb_ok (us_type u, m) (us_type s, nm)) as [E|E]; [|exact L].
                 injection E as E1 E2. rewrite E1, E2 in L. assert (z = x) by congruence. subst z.
                 assert (u = s) by (rewrite SK in Zu; congruence). subst u. destruct O as [O|O]; [congruence|contradiction].
        -- destruct SI as (A1 & A2 & A3). split; [exact A1|]. split; [exact A2|]. intros t m z. rewrite A3, LKs.
           destruct (FMap.eqb_ok (t, m) (us_type s, nm)) as [E|E]; [|reflexivity].
           injection E as -> ->. split; [|intros (? & _); discriminate]. intros (L & u & Zu & O). rewrite LK in L. injection L as <-.
           assert (u = s) by congruence. subst. congruence.
      * ob. eexists w, [], _. split; [reflexivity|]. split; [|split; [exact SI|cbn; lia]]. rewrite app_nil_r.
        destruct I as [Ba N A So Cb Na Cl Ap]. constructor; auto.
        -- destruct Na as (N1 & N2). split.
           ++ intros t m z L. destruct (N1 t m z L) as (u & Zu & Tu & Ku & [O|O]); exists u; repeat split; auto.
              unfold closers in O. cbn [flat_map] in O. rewrite CL in O. destruct O as [<- |O]; [|auto].
              assert (u = s) by congruence. subst u. congruence.
           ++ intros z u m Zu Ku O. apply (N2 z u m Zu Ku). destruct O as [O|O]; [auto|right].
              unfold closers. cbn [flat_map]. apply in_or_app. right. exact O.
    + ob. eexists w, [], _. split; [reflexivity|]. destruct (ID eq_refl) as (I1 & S1); [discriminate|cbn [closes]; rewrite FC; reflexivity|].
      split; [exact I1|]. split; [exact S1|]. cbn. lia.
Qed.

Lemma run_cbs_ok S fuel : forall w Q, (list_sum (map weight Q) <= fuel)%nat -> Inv w Q -> sim w S ->
  exists w' ns, run_cbs fuel w Q = Some (w', ns) /\ Inv w' [] /\ sim w' S.
Proof.
  induction fuel as [|fuel IH]; intros w [|c Q] L I SI; cbn [run_cbs].
  - eauto.
  - cbn in L. destruct c; cbn in L; lia.
  - eauto.
  - destruct (run_cb_ok w Q c S I SI) as (w1 & cs & ns & E & I1 & S1 & W). rewrite E. ob.
    destruct (IH w1 (Q ++ cs)) as (w2 & ns2 & E2 & I2 & S2); auto.
    + cbn [map list_sum] in L. rewrite map_app, list_sum_app. cbn [map list_sum fold_right] in L. unfold list_sum in *. lia.
    + rewrite E2. ob. eauto.
Qed.
Lemma run_queue_ok w Q S : Inv w Q -> sim w S -> exists w' ns, run_queue w Q = Some (w', ns) /\ Inv w' [] /\ sim w' S.
Proof. intros. apply run_cbs_ok; auto. Qed.
