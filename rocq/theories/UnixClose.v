(** Closing unix sockets does what the specification says. *)
From Verif Require Import Base FMap UnixModel UnixSpec UnixFacts UnixInv UnixOps UnixLink UnixCall UnixSend UnixRecv.

Definition closed_bits : ubits := mkBits false false false true false.
Definition closed_proto (t : utype) : proto := match t with UDgram => PDgramClosed | _ => PConnClosed end.
Definition no_grew (c : cb) : Prop := match c with CBuf _ _ _ g => g = false | _ => True end.
Lemma closers_closed w Q x : Inv w Q -> In x (closers Q) -> exists s, sock w x = Some s /\ is_open s = false.
Proof.
  intros I C. unfold closers in C. apply in_flat_map in C as (c & C & X). pose proof (i_cbs _ _ I) as F.
  rewrite Forall_forall in F. specialize (F c C). destruct c as [| | |z o n g]; try contradiction. cbn [cb_ok] in F.
  destruct F as (s & S & H). cbn [closes] in *. destruct (f_closed n && negb (f_closed o)); [|contradiction].
  destruct X as [<- |[]]. exists s. split; auto. apply H. discriminate.
Qed.
Lemma open_not_closer w Q x s : Inv w Q -> sock w x = Some s -> is_open s = true -> ~ In x (closers Q).
Proof. intros I X O C. destruct (closers_closed w Q x I C) as (u & U & OU). congruence. Qed.
Lemma cb_ok_shut w w' c : cb_ok w c -> no_grew c ->
  (forall z t, sock w z = Some t -> exists t', sock w' z = Some t' /\ (told_kind (us_proto t) -> told_kind (us_proto t')) /\
     (is_open t = false -> is_open t' = false)) -> cb_ok w' c.
Proof.
  intros H N E. destruct c as [k z ch g|z|z n|z o n g]; cbn [cb_ok no_grew] in *.
  - destruct H as (t & Z & _). destruct (E z t Z) as (t' & Z' & _). exists t'. split; auto. subst g. discriminate.
  - destruct H as (t & Z). destruct (E z t Z) as (t' & Z' & _). eauto.
  - destruct H as (H & t & Z & K). destruct (E z t Z) as (t' & Z' & T & _). split; auto. exists t'. split; auto. apply T. exact K.
  - destruct H as (t & Z & K). destruct (E z t Z) as (t' & Z' & _ & O). exists t'. split; auto.
Qed.

(** A socket without a peer is closed. *)
Lemma shut_inv w Q Q' x s s' : Inv w Q -> sock w x = Some s -> is_open s = true -> view (us_proto s) = VOther ->
  us_type s' = us_type s -> us_claim s' = us_claim s -> us_fd s' = false -> us_proto s' = closed_proto (us_type s) ->
  ub_readers (us_buf s') = 0 -> us_bits s' = closed_bits -> ub_state (us_buf s') = bst_of (us_buf s') ->
  (forall z t, z <> x -> sock w z = Some t -> is_open t = true -> us_type t <> UDgram -> informs Q' z = informs Q z) ->
  (forall z t, z <> x -> sock w z = Some t -> is_open t = true -> due Q z -> due Q' z) ->
  (forall z t, z <> x -> sock w z = Some t -> is_open t = true -> us_type t = UDgram ->
     gsum (upd w x s') z + informs Q' z = gsum w z + informs Q z) ->
  Forall (cb_ok (upd w x s')) Q' -> Permutation (closers Q') (x :: closers Q) -> Inv (upd w x s') Q'.
Proof.
  intros I X O V TY CLM FD P RD BI ST IN DU GS CB CL.
  pose proof (open_not_closer w Q x s I X O) as NX.
  assert (CO : is_open s' = false) by (unfold is_open; rewrite P; destruct (us_type s); reflexivity).
  assert (CI : forall z, In z (closers Q') <-> z = x \/ In z (closers Q)).
  { intro z. split.
    - intro H. apply (Permutation_in _ CL) in H. destruct H; auto.
    - intro H. apply (Permutation_in _ (Permutation_sym CL)). cbn. destruct H; auto. }
  assert (SU : forall z t, sock (upd w x s') z = Some t -> (z <> x /\ sock w z = Some t) \/ (z = x /\ t = s')).
  { intros z t. rewrite sock_upd. destruct (Z.eqb_spec z x) as [->|]; intro E; [right; split; congruence|left; auto]. }
  assert (UN : forall z t b pa, sock w z = Some t -> us_proto t = PConnected b pa x -> False).
  { intros z t b pa Z PZ. pose proof (inv_unlinked w Q x s z t b pa I X Z PZ) as H. destruct (us_proto s) eqn:PS; try discriminate V; contradiction. }
  assert (NCH : ~ child_ok w x).
  { intros (u & U & _ & PU). assert (u = s) by congruence. subst u. destruct (us_proto s); try discriminate V; contradiction. }
  destruct I as [Ba N A So Cb Na Cl Ap]. constructor.
  - intros z t Z. destruct (SU z t Z) as [(NZ & Z0)|(-> & ->)]; [exact (Ba z t Z0)|]. destruct (Ba x s X) as (B1 & _).
    unfold base_ok. rewrite CO, FD. repeat split; auto; try apply B1; discriminate.
  - exact N.
  - intros z Z. rewrite sock_upd. destruct (z =? x); eauto.
  - intros z t Z. destruct (SU z t Z) as [(NZ & Z0)|(-> & ->)].
    + apply (sock_frame w _ Q); auto.
      * intros k. apply is_gram_upd with (s := s); auto.
      * intros b q lim PZ. apply Forall_impl. intros c C. destruct (Z.eq_dec c x) as [->|NC]; [contradiction|].
        destruct C as (u & U & R). exists u. rewrite sock_upd, eqb_neq by auto. auto.
      * intros b pa y p PZ Y L. assert (NY : y <> x) by (intros ->; eauto). exists p. rewrite sock_upd, eqb_neq by auto. split; auto.
        assert (OT : is_open t = true) by (unfold is_open; rewrite PZ; reflexivity).
        pose proof (So z t Z0) as Sz. unfold sock_ok in Sz. rewrite PZ in Sz. destruct Sz as (TZ & _).
        apply (link_frame Q _ _ _ _ p); eauto. apply same_end_refl.
      * intros TZ OZ. eauto.
      * eauto.
    + unfold sock_ok. rewrite P, TY. destruct (us_type s); cbn [closed_proto]; repeat split; auto; discriminate.
  - exact CB.
  - destruct Na as (N1 & N2). split.
    + intros t n z L. destruct (N1 t n z L) as (u & U & TU & CU & OU). rewrite sock_upd. destruct (Z.eqb_spec z x) as [->|NZ].
      * assert (u = s) by congruence. subst u. exists s'. repeat split; try congruence. right. apply CI. auto.
      * exists u. repeat split; auto. destruct OU as [OU|OU]; [auto|]. right. apply CI. auto.
    + intros z u n U C OU. unfold lookup. rewrite names_upd. fold (lookup w (us_type u) n). destruct (SU z u U) as [(NZ & U0)|(-> & ->)].
      * apply (N2 z u n U0 C). destruct OU as [OU|OU]; [auto|]. apply CI in OU as [OU|OU]; [contradiction|auto].
      * rewrite TY. apply (N2 x s n X); [congruence|auto].
  - apply (Permutation_NoDup (Permutation_sym CL)). constructor; auto.
  - intros z1 s1 b1 q1 l1 z2 s2 b2 q2 l2 c Z1 P1 Z2 P2.
    destruct (SU _ _ Z1) as [(N1 & Z1')|(-> & ->)]; [|rewrite P in P1; destruct (us_type s); discriminate P1].
    destruct (SU _ _ Z2) as [(N2 & Z2')|(-> & ->)]; [|rewrite P in P2; destruct (us_type s); discriminate P2].
    eapply Ap; eauto.
Qed.

(* ------------------------------------------------------------------ what closing computes *)
Definition left_reader (b : ubuf) (L : list (lkind * Z)) : ubuf :=
  mkBuf (ub_items b) (mkBst (has_data b) true (ub_writers b =? 0)) 0 (ub_writers b) L.
Definition left_writer (b : ubuf) (L : list (lkind * Z)) : ubuf :=
  mkBuf (ub_items b) (mkBst (has_data b) (ub_readers b =? 0) true) (ub_readers b) 0 L.
Lemma remove_reader_eq b : ub_state b = bst_of b -> ub_readers b = 1 ->
  remove_reader b = Some (left_reader b (ub_listeners b), calls nr_only (ub_listeners b)).
Proof.
  intros ST R. unfold remove_reader. rewrite R. cbn [Z.leb Z.compare Pos.compare Pos.compare_cont assert_then]. f_equal.
  unfold buf_refresh, bst_of, has_data. cbn [set_counts ub_items ub_state ub_readers ub_writers ub_listeners].
  rewrite ST. unfold bst_of, has_data. rewrite R. cbn [bs_r bs_nr bs_nw]. rewrite !Bool.xorb_nilpotent. reflexivity.
Qed.
Lemma remove_writer_eq b : ub_state b = bst_of b -> ub_writers b = 1 ->
  remove_writer b = Some (left_writer b (ub_listeners b), calls nw_only (ub_listeners b)).
Proof.
  intros ST R. unfold remove_writer. rewrite R. cbn [Z.leb Z.compare Pos.compare Pos.compare_cont assert_then]. f_equal.
  unfold buf_refresh, bst_of, has_data. cbn [set_counts ub_items ub_state ub_readers ub_writers ub_listeners].
  rewrite ST. unfold bst_of, has_data. rewrite R. cbn [bs_r bs_nr bs_nw]. rewrite !Bool.xorb_nilpotent. reflexivity.
Qed.
Definition shut (s : usock) (b : ubuf) (p : proto) : usock :=
  mkS (us_type s) (us_nonblock s) (us_sent s) closed_bits b (us_claim s) (us_fd s) p.
Lemma refresh_shut w x s p : (p = PConnClosed \/ p = PDgramClosed) -> f_closed (us_bits s) = false ->
  refresh (upd w x (set_proto s p)) x false =
  Some (upd (upd w x (set_proto s p)) x (shut s (us_buf s) p), [CFile x (us_bits s) closed_bits false]).
Proof.
  intros P F. unfold refresh. sk. ob. cbn [set_proto us_proto].
  assert (E : bits_eqb closed_bits (us_bits s) = false).
  { unfold bits_eqb, closed_bits. cbn. rewrite F. rewrite !Bool.andb_false_r. reflexivity. }
  destruct P as [-> | ->]; cbn [negb assert_then]; unfold update_state; fold closed_bits; cbn [set_proto us_bits]; rewrite E; reflexivity.
Qed.
Definition conn_close_cbs (x : Z) (s p : usock) : list cb :=
  calls nr_only (ub_listeners (us_buf s)) ++ calls nw_only (ub_listeners (us_buf p)) ++ [CFile x (us_bits s) closed_bits false].
Definition shut_conn (x : Z) (s : usock) : usock :=
  shut s (left_reader (us_buf s) (drop_first LRecv x (ub_listeners (us_buf s)))) PConnClosed.
Definition cut (x : Z) (p : usock) : usock :=
  set_buf p (left_writer (us_buf p) (drop_first LSend x (ub_listeners (us_buf p)))).
Lemma close_conn_run held w x s b pa y p : sock w x = Some s -> us_proto s = PConnected b pa y -> x <> y -> ~ In y held ->
  sock w y = Some p -> ub_readers (us_buf s) = 1 -> ub_writers (us_buf p) = 1 -> ub_state (us_buf s) = bst_of (us_buf s) ->
  ub_state (us_buf p) = bst_of (us_buf p) -> f_closed (us_bits s) = false ->
  exists w', close_basic held w x = Some (w', conn_close_cbs x s p) /\
    (forall z, sock w' z = if z =? x then Some (shut_conn x s) else if z =? y then Some (cut x p) else sock w z) /\
    w_names w' = w_names w /\ w_next w' = w_next w.
Proof.
  intros X P N NH Y R W ST1 ST2 FC. unfold close_basic. rewrite X. ob. rewrite P.
  rewrite (on_buf_some w x s _ _ _ X (remove_reader_eq _ ST1 R)). ob.
  set (s1 := set_buf s _).
  assert (H : negb (existsb (Z.eqb y) (x :: held)) = true).
  { apply Bool.negb_true_iff. apply Bool.not_true_iff_false. intro E. apply existsb_exists in E as (k & [<- |K] & E);
      apply Z.eqb_eq in E; subst; auto. }
  rewrite H. cbn [assert_then].
  assert (Y1 : sock (upd w x s1) y = Some p) by (sk; auto).
  rewrite (on_buf_some _ y p _ _ _ Y1 (remove_writer_eq _ ST2 W)). ob. set (p1 := set_buf p _).
  assert (X2 : sock (upd (upd w x s1) y p1) x = Some s1) by (sk; auto). rewrite X2. ob.
  rewrite refresh_shut by auto. ob. unfold unlisten.
  set (w3 := upd (upd _ x _) x _). set (s3 := shut s1 (us_buf s1) PConnClosed) in *.
  assert (X3 : sock w3 x = Some s3) by (unfold w3; sk; auto).
  rewrite (on_buf_some w3 x s3 _ _ _ X3 eq_refl). ob. set (s4 := set_buf s3 _).
  assert (Y4 : sock (upd w3 x s4) y = Some p1) by (unfold w3; sk; auto).
  rewrite (on_buf_some _ y p1 _ _ _ Y4 eq_refl). ob.
  eexists. split; [reflexivity|]. split; [|split; reflexivity].
  intro z. rewrite !sock_upd. destruct (Z.eqb_spec z y) as [->|NY]; [rewrite (eqb_neq y x) by auto; reflexivity|].
  destruct (Z.eqb_spec z x) as [->|NX]; [reflexivity|]. unfold w3. sk. reflexivity.
Qed.
Lemma calls_informs ch L z : informs (calls ch L) z = 0.
Proof. apply inv_sent_nil. unfold calls. apply Forall_map, Forall_forall. cbn. auto. Qed.
Lemma calls_closers ch L : closers (calls ch L) = [].
Proof. unfold closers, calls. induction L; cbn; auto. Qed.
Lemma calls_ok w ch L : Forall (fun l => exists s, sock w (snd l) = Some s) L -> Forall (cb_ok w) (calls ch L).
Proof. intro F. apply Forall_map. eapply Forall_impl; [|exact F]. intros l (s & E). exists s. split; auto. discriminate. Qed.
Lemma calls_no_grew ch L : Forall no_grew (calls ch L).
Proof. apply Forall_map, Forall_forall. intros. reflexivity. Qed.
Lemma due_l Q Q' x : due Q x -> due (Q ++ Q') x. Proof. intro. apply due_app. auto. Qed.
Lemma sim_gone_one w w' S x s s' : sim w S -> sock w x = Some s -> us_fd s' = false -> us_type s' = us_type s -> us_nonblock s' = us_nonblock s ->
  us_proto s' = PConnClosed \/ us_proto s' = PDgramClosed ->
  (forall z, z <> x -> option_map abs (sock w' z) = option_map abs (sock w z)) -> sock w' x = Some s' -> w_names w' = w_names w -> w_next w' = w_next w ->
  sim w' (bury S x).
Proof.
  intros (A & N & M) X FD T NB P O X' WN WX. unfold bury. rewrite A, X. cbn [option_map]. split; [|split].
  - intro z. cbn [ks]. destruct (Z.eqb_spec z x) as [->|NZ].
    + rewrite X'. cbn. unfold abs. rewrite T, NB, FD. destruct P as [-> | ->]; reflexivity.
    + rewrite O by auto. apply A.
  - cbn [ks_next]. congruence.
  - intros t n k. cbn [ks_names]. unfold lookup. rewrite WN. fold (lookup w t n).
    assert (OP : forall k, k <> x -> (exists s, sock w' k = Some s /\ is_open s = true) <-> exists s, sock w k = Some s /\ is_open s = true).
    { intros j NJ. specialize (O j NJ). destruct (sock w' j) as [a|], (sock w j) as [c|]; cbn in O; try discriminate O; [|tauto].
      injection O as O1 O2 O3 O4 O5. assert (EO : is_open a = is_open c) by (rewrite !open_gone; unfold gone, abs; cbn; rewrite O5; reflexivity).
      split; intros (u & U & OU); injection U as <-; eexists; split; try reflexivity; congruence. }
    split.
    + destruct (ks_names S t n) as [j|] eqn:E; [|discriminate]. destruct (Z.eqb_spec j x) as [|NJ]; [discriminate|].
      intro H. injection H as <-. apply M in E as (L & U). split; auto. apply OP; auto.
    + intros (L & U). destruct (Z.eq_dec k x) as [->|NK].
      * destruct U as (u & U & OU). assert (u = s') by congruence. subst u. unfold is_open in OU. destruct P as [P|P]; rewrite P in OU; discriminate OU.
      * assert (E : ks_names S t n = Some k) by (apply M; split; auto; apply OP; auto). rewrite E, eqb_neq by auto. reflexivity.
Qed.

(* ------------------------------------------------------------------ closing a connected socket *)
Lemma shut_conn_inv w w' Q x s b pa y p : Inv w Q -> sock w x = Some s -> us_proto s = PConnected b pa y -> us_fd s = false ->
  sock w y = Some p -> link_ok Q x s y p -> Forall no_grew Q ->
  (forall z t b q lim, sock w z = Some t -> us_proto t = PListening b q lim -> ~ In x q) ->
  (forall z, sock w' z = if z =? x then Some (shut_conn x s) else if z =? y then Some (cut x p) else sock w z) ->
  w_names w' = w_names w -> w_next w' = w_next w -> Inv w' (Q ++ conn_close_cbs x s p).
Proof.
  intros I X P FD Y L NG NQ SK WN WX. set (Q' := Q ++ conn_close_cbs x s p).
  assert (O : is_open s = true) by (unfold is_open; rewrite P; reflexivity).
  pose proof (open_not_closer w Q x s I X O) as NX.
  pose proof L as L0. destruct L as (N & TY & WP & M & BI).
  assert (SX : sock w' x = Some (shut_conn x s)) by (rewrite SK, Z.eqb_refl; reflexivity).
  assert (SY : sock w' y = Some (cut x p)) by (rewrite SK, (eqb_neq y x), Z.eqb_refl by auto; reflexivity).
  assert (SO : forall z, z <> x -> z <> y -> sock w' z = sock w z) by (intros; rewrite SK, !eqb_neq by auto; reflexivity).
  assert (PO : (exists b' pa', us_proto p = PConnected b' pa' x) \/ us_proto p = PConnClosed).
  { destruct (us_proto p); try contradiction; auto. left. destruct M as (-> & _). eauto. }
  assert (TS : us_type s <> UDgram) by (pose proof (i_sock _ _ I x s X) as So; unfold sock_ok in So; rewrite P in So; apply So).
  assert (INF : forall z, informs Q' z = informs Q z).
  { intro z. unfold Q', conn_close_cbs. rewrite !informs_app, !calls_informs. cbn. lia. }
  assert (CLO : closers Q' = closers Q ++ [x]).
  { unfold Q', conn_close_cbs. rewrite !closers_app, !calls_closers. cbn [app closers flat_map closes closed_bits f_closed].
    destruct (i_base _ _ I x s X) as (_ & _ & _ & B4 & _). rewrite (B4 O). reflexivity. }
  assert (DUE : forall z, due Q z -> due Q' z) by (intro z; apply due_l).
  assert (OX : forall z t, z <> x -> sock w' z = Some t -> exists t0, sock w z = Some t0 /\ us_type t = us_type t0 /\ us_claim t = us_claim t0 /\
     us_fd t = us_fd t0 /\ us_proto t = us_proto t0 /\ us_bits t = us_bits t0 /\ is_open t = is_open t0).
  { intros z t NZ Z. destruct (Z.eq_dec z y) as [->|NY].
    - exists p. rewrite SY in Z. injection Z as <-. repeat split; auto.
    - rewrite SO in Z by auto. exists t. repeat split; auto. }
  assert (XO : forall z t, z <> x -> sock w z = Some t -> exists t0, sock w' z = Some t0 /\ us_type t = us_type t0 /\ us_claim t = us_claim t0 /\
     us_fd t = us_fd t0 /\ us_proto t = us_proto t0 /\ is_open t = is_open t0).
  { intros z t NZ Z. destruct (Z.eq_dec z y) as [->|NY].
    - exists (cut x p). assert (t = p) by congruence. subst t. repeat split; auto.
    - exists t. rewrite SO by auto. repeat split; auto. }
  assert (GS : forall z, gsum w' z = gsum w z).
  { intro z. unfold gsum. rewrite WX. apply zsum_ext. intros i _. rewrite SK.
    destruct (Z.eqb_spec (Z.of_nat i) x) as [->|]; [rewrite X, P; reflexivity|].
    destruct (Z.eqb_spec (Z.of_nat i) y) as [->|]; [rewrite Y; cbn [cut set_buf us_proto]; reflexivity|]. reflexivity. }
  assert (GM : forall k, is_gram w k -> is_gram w' k).
  { intros k (u & U & TU). destruct (Z.eq_dec k x) as [->|NK]; [assert (u = s) by congruence; subst; contradiction|].
    destruct (XO k u NK U) as (u0 & U0 & E & _). exists u0. split; auto. congruence. }
  assert (LK : forall t n, lookup w' t n = lookup w t n) by (intros; unfold lookup; rewrite WN; reflexivity).
  assert (NX1 : forall z t b pa, sock w z = Some t -> us_proto t = PConnected b pa x -> z = y).
  { intros z t b1 pa1 Z PZ. pose proof (i_sock _ _ I z t Z) as So. unfold sock_ok in So. rewrite PZ in So.
    destruct So as (_ & _ & _ & _ & u & U & LU). assert (u = s) by congruence. subst u. destruct LU as (_ & _ & _ & MU & _).
    rewrite P in MU. symmetry. apply MU. }
  assert (NY1 : forall z t b pa, sock w z = Some t -> us_proto t = PConnected b pa y -> z = x).
  { intros z t b1 pa1 Z PZ. pose proof (i_sock _ _ I z t Z) as So. unfold sock_ok in So. rewrite PZ in So.
    destruct So as (_ & _ & _ & _ & u & U & LU). assert (u = p) by congruence. subst u. destruct LU as (_ & _ & _ & MU & _).
    destruct PO as [(b2 & pa2 & PP)|PP]; rewrite PP in M, MU; [symmetry; apply MU|].
    destruct M as (_ & _ & M3 & _), MU as (_ & _ & U3 & _). rewrite M3 in U3. injection U3. auto. }
  destruct I as [Ba Nn A So Cb Na Cl Ap]. constructor.
  - intros z t Z. destruct (Z.eq_dec z x) as [->|NZ].
    + rewrite SX in Z. injection Z as <-. destruct (Ba x s X) as (B1 & B2 & _). unfold base_ok. rewrite WX.
      split; [exact B1|]. split; [reflexivity|]. cbn. rewrite FD. repeat split; discriminate.
    + destruct (OX z t NZ Z) as (t0 & Z0 & E1 & E2 & E3 & E4 & E5 & E6). destruct (Ba z t0 Z0) as (B1 & B2 & B3 & B4 & B5).
      unfold base_ok. rewrite WX, E2, E3, E4, E5, E6. split; [exact B1|]. split; [|auto].
      destruct (Z.eq_dec z y) as [->|NY]; [rewrite SY in Z; injection Z as <-; reflexivity|].
      rewrite SO in Z by auto. assert (t0 = t) by congruence. subst. exact B2.
  - rewrite WX. exact Nn.
  - intros z Z. rewrite WX in Z. destruct (A z Z) as (t & Zt). destruct (Z.eq_dec z x) as [->|NZ]; [eauto|].
    destruct (XO z t NZ Zt) as (t0 & Z0 & _). eauto.
  - intros z t Z. destruct (Z.eq_dec z x) as [->|NZ]; [|destruct (Z.eq_dec z y) as [->|NY]].
    + rewrite SX in Z. injection Z as <-. unfold sock_ok. cbn. auto.
    + rewrite SY in Z. injection Z as <-. pose proof (So y p Y) as Sy. unfold sock_ok in *. cbn [cut set_buf us_proto].
      destruct PO as [(b2 & pa2 & PP)|PP]; rewrite PP in *.
      * cbn [us_type us_buf us_sent left_writer ub_readers ub_items]. destruct Sy as (Y1 & Y2 & Y3 & Y4 & u & U & LU).
        split; [exact Y1|]. split; [exact Y2|]. split; [exact Y3|]. split; [exact Y4|]. exists (shut_conn x s). split; [exact SX|].
        assert (u = s) by congruence. subst u. destruct LU as (L1 & L2 & L3 & L4 & L5). rewrite P in L4. destruct L4 as (_ & L4 & L6 & L7).
        unfold link_ok. cbn [shut_conn shut cut set_buf us_type us_buf us_proto us_sent us_bits left_reader left_writer ub_writers ub_readers ub_listeners ub_items].
        destruct M as (_ & M1 & M2 & M3).
        repeat split; auto; try congruence.
        -- destruct L6 as [-> | ->]; cbn [drop_first fst snd lkind_eqb andb]; rewrite ?Z.eqb_refl; reflexivity.
        -- destruct M2 as [-> | ->]; cbn [drop_first fst snd lkind_eqb andb]; rewrite ?Z.eqb_refl; reflexivity.
        -- rewrite INF, L7. pose proof (bytes_nonneg (ub_items (us_buf s))). lia.
        -- right. unfold Q', conn_close_cbs. apply due_app. right. apply due_app. left.
           exists (CBuf LSend y nr_only false). split; [|reflexivity].
           unfold calls. apply in_map_iff. exists (LSend, y). split; [reflexivity|]. destruct M2 as [-> | ->]; cbn; auto.
      * cbn [us_type us_buf us_bits left_writer ub_readers]. exact Sy.
    + rewrite SO in Z by auto. apply (sock_frame w _ Q); auto.
      * intros b1 q lim PZ. rewrite !Forall_forall. intros FA c Hc. destruct (FA c Hc) as (u & U & Fu & Pu).
        assert (NC : c <> x) by (intros ->; exact (NQ z t b1 q lim Z PZ Hc)).
        destruct (XO c u NC U) as (u0 & U0 & _ & _ & E3 & E4 & _). exists u0. split; [exact U0|]. rewrite <- E3, <- E4. auto.
      * intros b1 pa1 k u PZ K LO. exists u. rewrite SO.
        -- split; auto. apply (link_frame Q _ _ _ _ u); auto. apply same_end_refl.
        -- intros ->. apply NY. exact (NX1 z t b1 pa1 Z PZ).
        -- intros ->. apply NZ. exact (NY1 z t b1 pa1 Z PZ).
      * intros _ _. rewrite GS, INF. reflexivity.
  - unfold Q'. apply Forall_app. split.
    + rewrite Forall_forall in *. intros c C. apply (cb_ok_shut w w' c (Cb c C) (NG c C)).
      intros z t Z. destruct (Z.eq_dec z x) as [->|NZ].
      * exists (shut_conn x s). split; [exact SX|]. assert (t = s) by congruence. subst t. cbn. auto.
      * destruct (XO z t NZ Z) as (t0 & Z0 & _ & _ & _ & E4 & E5). exists t0. rewrite <- E4, <- E5. auto.
    + unfold conn_close_cbs. rewrite !Forall_app. split; [|split].
      * apply calls_ok. assert (H : forall L, L = [(LRecv, x); (LSend, y)] \/ L = [(LSend, y); (LRecv, x)] \/ L = [(LRecv, x)] ->
          Forall (fun l : lkind * Z => exists s0, sock w' (snd l) = Some s0) L).
        { intros K [-> |[-> | ->]]; repeat constructor; cbn; eauto. }
        apply H. destruct PO as [(b2 & pa2 & PP)|PP]; rewrite PP in M; [|tauto]. destruct M as (_ & _ & [->| ->] & _); auto.
      * apply calls_ok. assert (H : forall L, L = [(LRecv, y); (LSend, x)] \/ L = [(LSend, x); (LRecv, y)] \/ L = [(LSend, x)] ->
          Forall (fun l : lkind * Z => exists s0, sock w' (snd l) = Some s0) L).
        { intros K [-> |[-> | ->]]; repeat constructor; cbn; eauto. }
        apply H. destruct PO as [(b2 & pa2 & PP)|PP]; [|rewrite PP in M; tauto].
        pose proof (So y p Y) as Sy. unfold sock_ok in Sy. rewrite PP in Sy. destruct Sy as (_ & _ & _ & _ & u & U & LU).
        assert (u = s) by congruence. subst u. destruct LU as (_ & _ & _ & LU & _). rewrite P in LU. destruct LU as (_ & _ & [->| ->] & _); auto.
      * repeat constructor. exists (shut_conn x s). split; [exact SX|]. reflexivity.
  - destruct Na as (N1 & N2). unfold names_ok. rewrite CLO. split.
    + intros t n z LZ. rewrite LK in LZ. destruct (N1 t n z LZ) as (u & U & TU & CU & OU). destruct (Z.eq_dec z x) as [->|NZ].
      * exists (shut_conn x s). assert (u = s) by congruence. subst u. repeat split; auto. right. apply in_or_app. cbn. auto.
      * destruct (XO z u NZ U) as (u0 & U0 & E1 & E2 & _ & _ & E5). exists u0. repeat split; auto; try congruence.
        destruct OU as [OU|OU]; [left; congruence|right; apply in_or_app; auto].
    + intros z u n U C OU. rewrite LK. destruct (Z.eq_dec z x) as [->|NZ].
      * rewrite SX in U. injection U as <-. apply (N2 x s n X); auto.
      * destruct (OX z u NZ U) as (u0 & U0 & E1 & E2 & _ & _ & _ & E5). rewrite E1. apply (N2 z u0 n U0); [congruence|].
        destruct OU as [OU|OU]; [left; congruence|]. apply in_app_or in OU as [OU|[OU|[]]]; auto.
  - rewrite CLO. apply (Permutation_NoDup (Permutation_cons_append (closers Q) x)). constructor; auto.
  - intros z1 s1 b1 q1 l1 z2 s2 b2 q2 l2 c Z1 P1 Z2 P2.
    assert (H : forall z t b q l, sock w' z = Some t -> us_proto t = PListening b q l -> exists t0, sock w z = Some t0 /\ us_proto t0 = PListening b q l).
    { intros z t b3 q3 l3 Z PZ. destruct (Z.eq_dec z x) as [->|NZ]; [rewrite SX in Z; injection Z as <-; discriminate PZ|].
      destruct (OX z t NZ Z) as (t0 & Z0 & _ & _ & _ & E4 & _). exists t0. split; congruence. }
    destruct (H _ _ _ _ _ Z1 P1) as (u1 & U1 & V1), (H _ _ _ _ _ Z2 P2) as (u2 & U2 & V2). eapply Ap; eauto.
Qed.

(* ------------------------------------------------------------------ closing a socket without a peer *)
Lemma shut_plain w Q x s : Inv w Q -> sock w x = Some s -> us_fd s = false -> Forall no_grew Q ->
  match us_proto s with PInitial _ | PListening _ _ _ => True | _ => False end ->
  Inv (upd w x (shut s (us_buf s) PConnClosed)) (Q ++ [CFile x (us_bits s) closed_bits false]).
Proof.
  intros I X FD NG P.
  assert (O : is_open s = true) by (unfold is_open; destruct (us_proto s); auto; contradiction).
  assert (SO : us_type s <> UDgram /\ us_buf s = buf_new).
  { pose proof (i_sock _ _ I x s X) as So. unfold sock_ok in So. destruct (us_proto s); try contradiction; tauto. }
  destruct SO as (T & BF). pose proof (i_base _ _ I x s X) as (B1 & B2 & B3 & B4 & B5).
  apply (shut_inv w Q _ x s); auto.
  - destruct (us_proto s); auto; contradiction.
  - cbn. destruct (us_type s); auto. congruence.
  - cbn. rewrite BF. reflexivity.
  - intros z t _ _ _ _. rewrite informs_app. cbn. lia.
  - intros z t _ _ _. apply due_l.
  - intros z t NZ Z OZ TZ. rewrite informs_app. rewrite (gsum_upd_same w x s); auto; [cbn; lia|].
    cbn. destruct (us_proto s); auto; contradiction.
  - apply Forall_app. split.
    + rewrite Forall_forall in *. intros c C. apply (cb_ok_shut w _ c); auto; [exact (proj1 (Forall_forall _ _) (i_cbs _ _ I) c C)|].
      intros z t Z. rewrite sock_upd. destruct (Z.eqb_spec z x) as [->|]; [|eauto]. eexists. split; [reflexivity|]. split; [|auto].
      cbn. auto.
    + repeat constructor. eexists. split; [sk; reflexivity|]. reflexivity.
  - rewrite closers_app. cbn [closers flat_map closes closed_bits f_closed app]. rewrite (B4 O). cbn.
    symmetry. apply Permutation_cons_append.
Qed.
Lemma gram_kind w Q x : Inv w Q -> is_gram w x -> exists s, sock w x = Some s /\ us_type s = UDgram /\ told_kind (us_proto s).
Proof.
  intros I (s & X & T). exists s. repeat split; auto. pose proof (i_sock _ _ I x s X) as So. unfold sock_ok in So.
  destruct (us_proto s); cbn; auto; tauto.
Qed.
Definition told (r : list (Z * option (list Z) * Z)) : list cb := map (fun e => CInform (fst (fst e)) (snd e)) r.
Lemma told_informs r z : informs (told r) z = from_r z r.
Proof. unfold informs, from_r, told. rewrite map_map. reflexivity. Qed.
Lemma told_closers r : closers (told r) = []. Proof. unfold closers, told. induction r; cbn; auto. Qed.
Definition gram_close_cbs (x : Z) (s : usock) (r : list (Z * option (list Z) * Z)) : list cb :=
  calls nr_only (ub_listeners (us_buf s)) ++ told r ++ [CFile x (us_bits s) closed_bits false].
Lemma shut_gram w Q x s b pa peer r : Inv w Q -> sock w x = Some s -> us_fd s = false -> Forall no_grew Q ->
  us_proto s = PDgram b pa peer r ->
  Inv (upd w x (shut s (left_reader (us_buf s) (drop_first LDgram x (ub_listeners (us_buf s)))) PDgramClosed)) (Q ++ gram_close_cbs x s r).
Proof.
  intros I X FD NG P. set (s' := shut s _ _).
  assert (O : is_open s = true) by (unfold is_open; rewrite P; auto).
  pose proof (i_sock _ _ I x s X) as So. unfold sock_ok in So. rewrite P in So.
  destruct So as (T & R & W & Li & It & Fo & Se & SE & PE & FR & Bi).
  pose proof (i_base _ _ I x s X) as (B1 & B2 & B3 & B4 & B5).
  assert (INF : forall z, informs (Q ++ gram_close_cbs x s r) z = informs Q z + from_r z r).
  { intro z. unfold gram_close_cbs. rewrite !informs_app, calls_informs, told_informs. cbn. lia. }
  apply (shut_inv w Q _ x s); auto.
  - rewrite P. reflexivity.
  - cbn. rewrite T. reflexivity.
  - intros z t NZ Z OZ TZ. rewrite INF. enough (from_r z r = 0) by lia. unfold from_r. apply zsum_zero. intros e E.
    rewrite Forall_forall in FR. destruct (FR e E) as (u & U & TU). destruct (Z.eqb_spec (fst (fst e)) z) as [<-|]; auto. congruence.
  - intros z t _ _ _. apply due_l.
  - intros z t NZ Z OZ TZ. rewrite INF. rewrite (gsum_point w (upd w x s') z x); auto; [|intros k NK; sk; reflexivity].
    sk. rewrite X. cbn [gpart s' shut us_proto]. rewrite P. lia.
  - apply Forall_app. split.
    + pose proof (i_cbs _ _ I) as CB. rewrite Forall_forall in *. intros c C. apply (cb_ok_shut w _ c); auto.
      intros z t Z. rewrite sock_upd. destruct (Z.eqb_spec z x) as [->|]; [|eauto]. eexists. split; [reflexivity|]. split; [|auto].
      cbn. auto.
    + unfold gram_close_cbs. rewrite !Forall_app. split; [|split].
      * apply calls_ok. rewrite Li. repeat constructor. cbn. eexists. sk. reflexivity.
      * unfold told. apply Forall_map. pose proof (Forall_and FR (proj2 (Forall_forall (fun e => 0 <= snd e) r)
          (fun e E => ltac:(destruct (In_nth_error _ _ E) as (i & Hi); clear - Fo Hi; revert i Hi; induction Fo as [|a c r l H _ IH]; intros [|i] Hi; cbn in Hi; try discriminate Hi; [injection Hi as <-; rewrite H; apply blen_nonneg|eauto])))) as FA.
        eapply Forall_impl; [|exact FA]. cbn beta. intros e (G & NN). cbn [cb_ok]. split; [exact NN|].
        destruct (gram_kind w Q _ I G) as (u & U & TU & K). rewrite sock_upd. destruct (Z.eqb_spec (fst (fst e)) x) as [_|]; eexists; split; try reflexivity; eauto.
      * repeat constructor. eexists. split; [sk; reflexivity|]. reflexivity.
  - unfold gram_close_cbs. rewrite !closers_app, calls_closers, told_closers.
    cbn [closers flat_map closes closed_bits f_closed app]. rewrite (B4 O). cbn.
    symmetry. apply Permutation_cons_append.
Qed.

(* ------------------------------------------------------------------ close_basic, close_sock, close_files *)
Definition unqueued (w : world) (x : Z) : Prop :=
  forall z t b q lim, sock w z = Some t -> us_proto t = PListening b q lim -> ~ In x q.
(** No new listening sockets or longer queues. *)
Definition fewer_queues (w w' : world) : Prop :=
  forall z t' b q lim, sock w' z = Some t' -> us_proto t' = PListening b q lim ->
  exists t, sock w z = Some t /\ us_proto t = PListening b q lim.
Lemma fewer_unqueued w w' x : fewer_queues w w' -> unqueued w x -> unqueued w' x.
Proof. intros F U z t b q lim Z P C. destruct (F z t b q lim Z P) as (t0 & Z0 & P0). exact (U z t0 b q lim Z0 P0 C). Qed.
Definition closes_to (w : world) (Q : list cb) (S' : kstate) (a : option (world * list cb)) : Prop :=
  exists w' cs, a = Some (w', cs) /\ Inv w' (Q ++ cs) /\ sim w' S' /\ Forall no_grew cs /\ fewer_queues w w'.

Lemma conn_facts w Q x s b pa y : Inv w Q -> sock w x = Some s -> us_proto s = PConnected b pa y ->
  exists p, sock w y = Some p /\ link_ok Q x s y p /\ x <> y /\ ub_readers (us_buf s) = 1 /\ ub_writers (us_buf p) = 1 /\
    ub_state (us_buf s) = bst_of (us_buf s) /\ ub_state (us_buf p) = bst_of (us_buf p) /\ f_closed (us_bits s) = false /\
    match us_proto p with PConnected _ _ _ | PConnClosed => True | _ => False end.
Proof.
  intros I X P. pose proof (i_sock _ _ I x s X) as So. unfold sock_ok in So. rewrite P in So.
  destruct So as (T & R & It & Se & p & Y & L). exists p.
  destruct (i_base _ _ I x s X) as (_ & B2 & _ & B4 & _), (i_base _ _ I y p Y) as (_ & C2 & _).
  pose proof L as (N & TY & WP & M & BI).
  split; [exact Y|]. split; [exact L|]. repeat split; auto.
  - apply B4. unfold is_open. rewrite P. reflexivity.
  - destruct (us_proto p); auto.
Qed.
Lemma close_conn_ok w Q S x s b pa y : Inv w Q -> sim w S -> sock w x = Some s -> us_proto s = PConnected b pa y ->
  us_fd s = false -> Forall no_grew Q -> unqueued w x -> closes_to w Q (bury S x) (close_basic [] w x).
Proof.
  intros I A X P FD NG NQ. destruct (conn_facts w Q x s b pa y I X P) as (p & Y & L & N & R & W & S1 & S2 & FC & PK).
  destruct (close_conn_run [] w x s b pa y p) as (w' & E & SK & WN & WX); auto.
  exists w', (conn_close_cbs x s p). split; [exact E|]. split; [|split; [|split]].
  - apply (shut_conn_inv w w' Q x s b pa y p); auto.
  - apply (sim_gone_one w w' S x s (shut_conn x s)); auto.
    + intros z NZ. rewrite SK, eqb_neq by auto. destruct (Z.eqb_spec z y) as [->|]; auto. rewrite Y. reflexivity.
    + rewrite SK, Z.eqb_refl. reflexivity.
  - unfold conn_close_cbs. rewrite !Forall_app. repeat split; try apply calls_no_grew. repeat constructor.
  - intros z t' b1 q lim Z PZ. rewrite SK in Z. destruct (z =? x); [injection Z as <-; discriminate PZ|].
    destruct (Z.eqb_spec z y) as [->|]; [injection Z as <-; exists p; auto|eauto].
Qed.
Lemma close_gram_ok w Q S x s b pa peer r : Inv w Q -> sim w S -> sock w x = Some s -> us_proto s = PDgram b pa peer r ->
  us_fd s = false -> Forall no_grew Q -> closes_to w Q (bury S x) (close_basic [] w x).
Proof.
  intros I A X P FD NG. pose proof (i_sock _ _ I x s X) as So. unfold sock_ok in So. rewrite P in So. destruct So as (T & R & _).
  destruct (i_base _ _ I x s X) as (_ & B2 & _ & B4 & _).
  assert (FC : f_closed (us_bits s) = false) by (apply B4; unfold is_open; rewrite P; reflexivity).
  unfold close_basic. rewrite X. ob. rewrite P. rewrite (on_buf_some w x s _ _ _ X (remove_reader_eq _ B2 R)). ob.
  set (s1 := set_buf s _). sk. ob. rewrite refresh_shut by auto. ob. unfold unlisten.
  set (w3 := upd (upd _ x _) x _). set (s3 := shut s1 (us_buf s1) PDgramClosed) in *.
  assert (X3 : sock w3 x = Some s3) by (unfold w3; sk; auto).
  rewrite (on_buf_some w3 x s3 _ _ _ X3 eq_refl). ob. fold (told r).
  set (s' := shut s (left_reader (us_buf s) (drop_first LDgram x (ub_listeners (us_buf s)))) PDgramClosed).
  assert (SW : same_world (upd w x s') (upd w3 x (set_buf s3 (remove_listener (us_buf s3) LDgram x)))).
  { split; [|split; reflexivity]. intro z. rewrite !sock_upd. destruct (Z.eqb_spec z x); [reflexivity|]. unfold w3. sk. reflexivity. }
  eexists _, (gram_close_cbs x s r). split; [reflexivity|]. split; [|split; [|split]].
  - apply (Inv_ext _ _ _ SW). apply (shut_gram w Q x s b pa peer r); auto.
  - apply (sim_ext _ _ _ SW). apply (sim_gone_one w _ S x s s'); auto.
    + intros z NZ. sk. reflexivity.
    + sk. reflexivity.
  - unfold gram_close_cbs. rewrite !Forall_app. repeat split; try apply calls_no_grew; [|repeat constructor].
    apply Forall_map, Forall_forall. cbn. auto.
  - intros z t' b1 q lim Z PZ. destruct SW as (E & _). rewrite E, sock_upd in Z. destruct (z =? x); [injection Z as <-; discriminate PZ|eauto].
Qed.
Lemma close_plain_ok w Q S x s : Inv w Q -> sim w S -> sock w x = Some s -> us_fd s = false -> Forall no_grew Q ->
  match us_proto s with PInitial _ | PListening _ _ _ => True | _ => False end ->
  closes_to w Q (bury S x) (refresh (upd w x (set_proto s PConnClosed)) x false).
Proof.
  intros I A X FD NG P. destruct (i_base _ _ I x s X) as (_ & B2 & _ & B4 & _).
  assert (FC : f_closed (us_bits s) = false) by (apply B4; unfold is_open; destruct (us_proto s); auto; contradiction).
  rewrite refresh_shut by auto. set (s' := shut s _ _).
  assert (SW : same_world (upd w x s') (upd (upd w x (set_proto s PConnClosed)) x s')).
  { split; [|split; reflexivity]. intro z. rewrite !sock_upd. destruct (Z.eqb_spec z x); reflexivity. }
  eexists _, _. split; [reflexivity|]. split; [|split; [|split]].
  - apply (Inv_ext _ _ _ SW). apply shut_plain; auto.
  - apply (sim_ext _ _ _ SW). apply (sim_gone_one w _ S x s s'); auto.
    + intros z NZ. sk. reflexivity.
    + sk. reflexivity.
  - repeat constructor.
  - intros z t' b1 q lim Z PZ. destruct SW as (E & _). rewrite E, sock_upd in Z. destruct (z =? x); [injection Z as <-; discriminate PZ|eauto].
Qed.

(** Burying in another order. *)
Definition keq (S S' : kstate) : Prop :=
  (forall z, ks S' z = ks S z) /\ (forall t n, ks_names S' t n = ks_names S t n) /\ ks_next S' = ks_next S.
Lemma keq_refl S : keq S S. Proof. repeat split. Qed.
Lemma keq_trans a b c : keq a b -> keq b c -> keq a c.
Proof. intros (A & B & C) (D & E & F). repeat split; intros; congruence. Qed.
Lemma bury_keq S S' x : keq S S' -> keq (bury S x) (bury S' x).
Proof.
  intros (A & B & C). unfold bury. rewrite A. destruct (ks S x) as [k|] eqn:E; [|repeat split; auto].
  repeat split; cbn [ks ks_names ks_next]; intros; rewrite ?A, ?B; auto.
Qed.
Lemma bury_comm S x y : keq (bury (bury S x) y) (bury (bury S y) x).
Proof.
  destruct (Z.eq_dec x y) as [->|N]; [apply keq_refl|].
  assert (E : forall a b, a <> b -> ks (bury S a) b = ks S b).
  { intros a b NE. unfold bury. destruct (ks S a); cbn [ks]; rewrite ?eqb_neq by auto; reflexivity. }
  unfold bury at 1 3. rewrite (E x y), (E y x) by auto. unfold bury.
  destruct (ks S y) as [k|] eqn:Y, (ks S x) as [k'|] eqn:X; try apply keq_refl.
  repeat split; cbn [ks ks_names ks_next].
  - intro z. destruct (Z.eqb_spec z x), (Z.eqb_spec z y); try subst; try congruence.
  - intros t n. destruct (ks_names S t n) as [j|]; auto. destruct (Z.eqb_spec j x), (Z.eqb_spec j y); try subst; cbn;
      rewrite ?Z.eqb_refl, ?eqb_neq by auto; congruence.
Qed.
Lemma bury_fold q : forall S x, keq (fold_left bury q (bury S x)) (bury (fold_left bury q S) x).
Proof.
  induction q as [|c q IH]; intros S x; cbn [fold_left]; [apply keq_refl|].
  assert (K : forall q S S', keq S S' -> keq (fold_left bury q S) (fold_left bury q S')).
  { clear. induction q as [|c q IH]; intros S S' H; cbn; auto. apply IH, bury_keq, H. }
  eapply keq_trans; [apply K, bury_comm|apply IH].
Qed.
Lemma sim_keq w S S' : sim w S -> keq S S' -> sim w S'.
Proof. intros A (B & C & D). eapply sim_kext; eauto. Qed.

(** The real world while a listening socket closes its queue, and one where it is closed already. *)
Definition agree_but (x : Z) (w v : world) : Prop :=
  (forall z, z <> x -> sock v z = sock w z) /\ w_names v = w_names w /\ w_next v = w_next w.
Definition unlinked (w : world) (x : Z) : Prop := forall z t b pa, sock w z = Some t -> us_proto t = PConnected b pa x -> False.
Lemma close_queue_ok x : forall q w v Q S, agree_but x w v -> Inv v Q -> sim v S -> Forall no_grew Q -> NoDup q -> ~ In x q ->
  Forall (child_ok v) q -> Forall (unqueued v) q -> unlinked v x ->
  exists w' v' cs, close_all [x] w q = Some (w', cs) /\ agree_but x w' v' /\ sock w' x = sock w x /\ sock v' x = sock v x /\
    Inv v' (Q ++ cs) /\ sim v' (fold_left bury q S) /\ Forall no_grew cs /\ fewer_queues v v'.
Proof.
  induction q as [|c q IH]; intros w v Q S AG I A NG ND NX CH UQ UL.
  - exists w, v, []. rewrite app_nil_r. cbn. split; [reflexivity|]. split; [exact AG|]. split; [reflexivity|]. split; [reflexivity|]. split; [exact I|]. split; [exact A|].
    split; [constructor|]. intros z t' b q lim Z P. eauto.
  - inversion ND as [|? ? NC ND']; subst. inversion CH as [|? ? CC CH']; subst. inversion UQ as [|? ? UC UQ']; subst.
    assert (CX : c <> x) by (intros ->; apply NX; left; auto).
    destruct CC as (t & T & FD & PT). destruct (us_proto t) as [| |b pa y| | |] eqn:P; try contradiction.
    destruct (conn_facts v Q c t b pa y I T P) as (p & Y & L & N & R & W & S1 & S2 & FC & PK).
    assert (YX : y <> x) by (intros ->; exact (UL c t b pa T P)).
    destruct AG as (AG & AN & AX).
    destruct (close_conn_run [] v c t b pa y p) as (v1 & _ & SK & WN & WX); auto.
    destruct (close_conn_run [x] w c t b pa y p) as (w1 & E1 & SK1 & WN1 & WX1); auto.
    { rewrite <- AG; auto. } { intros [H|[]]. congruence. } { rewrite <- AG; auto. }
    cbn [close_all]. rewrite E1. ob.
    assert (KP : forall z u, z <> c -> sock v z = Some u -> exists u', sock v1 z = Some u' /\ us_proto u' = us_proto u /\ us_fd u' = us_fd u).
    { intros z u NZ Z. rewrite SK, eqb_neq by auto. destruct (Z.eqb_spec z y) as [->|]; [|eauto].
      eexists. split; [reflexivity|]. assert (u = p) by congruence. subst u. auto. }
    assert (PK' : forall z u', z <> c -> sock v1 z = Some u' -> exists u, sock v z = Some u /\ us_proto u' = us_proto u).
    { intros z u' NZ Z. rewrite SK, eqb_neq in Z by auto. destruct (Z.eqb_spec z y) as [->|]; [|eauto].
      exists p. injection Z as <-. auto. }
    assert (FQ : fewer_queues v v1).
    { intros z u' b1 q1 lim Z PZ. destruct (Z.eq_dec z c) as [->|NZ]; [rewrite SK, Z.eqb_refl in Z; injection Z as <-; discriminate PZ|].
      destruct (PK' z u' NZ Z) as (u & U & E). exists u. split; congruence. }
    destruct (IH w1 v1 (Q ++ conn_close_cbs c t p) (bury S c)) as (w' & v' & cs & E & AG' & W' & V' & I' & A' & NG' & FQ'); auto.
    + split; [|split; congruence]. intros z NZ. rewrite SK, SK1. rewrite AG by auto. reflexivity.
    + apply (shut_conn_inv v v1 Q c t b pa y p); auto.
    + apply (sim_gone_one v v1 S c t (shut_conn c t)); auto.
      * intros z NZ. rewrite SK, eqb_neq by auto. destruct (Z.eqb_spec z y) as [->|]; auto. rewrite Y. reflexivity.
      * rewrite SK, Z.eqb_refl. reflexivity.
    + apply Forall_app. split; auto. unfold conn_close_cbs. rewrite !Forall_app. repeat split; try apply calls_no_grew. repeat constructor.
    + intro H. apply NX. right. exact H.
    + rewrite Forall_forall in *. intros k K. destruct (CH' k K) as (u & U & FU & PU). assert (NK : k <> c) by (intros ->; contradiction).
      destruct (KP k u NK U) as (u' & U' & E3 & E4). exists u'. rewrite E3, E4. auto.
    + rewrite Forall_forall in *. intros k K. apply (fewer_unqueued v v1 k FQ). auto.
    + intros z u' b1 pa1 Z PZ. destruct (Z.eq_dec z c) as [->|NZ]; [rewrite SK, Z.eqb_refl in Z; injection Z as <-; discriminate PZ|].
      destruct (PK' z u' NZ Z) as (u & U & E). apply (UL z u b1 pa1 U). congruence.
    + rewrite E. ob. exists w', v', (conn_close_cbs c t p ++ cs). split; [reflexivity|]. split; [exact AG'|].
      split; [rewrite W', SK1, !eqb_neq by auto; reflexivity|]. split; [rewrite V', SK, !eqb_neq by auto; reflexivity|].
      split; [rewrite app_assoc; exact I'|]. split; [exact A'|]. split.
      * apply Forall_app. split; auto. unfold conn_close_cbs. rewrite !Forall_app. repeat split; try apply calls_no_grew. repeat constructor.
      * intros z u' b1 q1 lim Z PZ. destruct (FQ' z u' b1 q1 lim Z PZ) as (u & U & PU). exact (FQ z u b1 q1 lim U PU).
Qed.
Lemma close_listen_ok w Q S x s b q lim : Inv w Q -> sim w S -> sock w x = Some s -> us_proto s = PListening b q lim ->
  us_fd s = false -> Forall no_grew Q -> closes_to w Q (bury (fold_left bury q S) x) (close_sock w x).
Proof.
  intros I A X P FD NG. destruct (i_base _ _ I x s X) as (_ & B2 & _ & B4 & _).
  assert (FC : f_closed (us_bits s) = false) by (apply B4; unfold is_open; rewrite P; auto).
  pose proof (i_sock _ _ I x s X) as So. unfold sock_ok in So. rewrite P in So. destruct So as (T & BF & Se & Bi & ND & CH).
  set (s' := shut s (us_buf s) PConnClosed). set (v := upd w x s').
  set (f := CFile x (us_bits s) closed_bits false).
  assert (NX : ~ In x q).
  { intro C. rewrite Forall_forall in CH. destruct (CH x C) as (u & U & _ & PU). assert (u = s) by congruence. subst u. rewrite P in PU. contradiction. }
  destruct (close_queue_ok x q w v (Q ++ [f]) (bury S x)) as (w' & v' & cs & E & (AG & AN & AX) & W' & V' & I' & A' & NG' & FQ'); auto.
  - split; [|split; reflexivity]. intros z NZ. unfold v. sk. reflexivity.
  - apply shut_plain; auto. rewrite P. exact Logic.I.
  - apply (sim_gone_one w v S x s s'); auto.
    + intros z NZ. unfold v. sk. reflexivity.
    + unfold v. sk. reflexivity.
  - apply Forall_app. split; auto. repeat constructor.
  - rewrite Forall_forall in *. intros c C. assert (NC : c <> x) by (intros ->; contradiction).
    destruct (CH c C) as (u & U & R). exists u. unfold v. sk. auto.
  - rewrite Forall_forall in *. intros c C z t b1 q1 lim1 Z PZ C1. unfold v in Z. rewrite sock_upd in Z.
    destruct (Z.eqb_spec z x) as [->|NZ]; [injection Z as <-; discriminate PZ|].
    apply NZ. symmetry. exact (i_apart _ _ I x s b q lim z t b1 q1 lim1 c X P Z PZ C C1).
  - intros z t b1 pa1 Z PZ. unfold v in Z. rewrite sock_upd in Z. destruct (z =? x); [injection Z as <-; discriminate PZ|].
    pose proof (inv_unlinked w Q x s z t b1 pa1 I X Z PZ) as H. rewrite P in H. contradiction.
  - unfold close_sock. rewrite X. ob. rewrite P, E. ob. rewrite W', X. ob. rewrite refresh_shut by auto. ob. fold s' f.
    assert (SW : same_world v' (upd (upd w' x (set_proto s PConnClosed)) x s')).
    { split; [|split].
      - intro z. rewrite !sock_upd. destruct (Z.eqb_spec z x) as [->|NZ]; [rewrite V'; unfold v; sk; reflexivity|rewrite AG by auto; reflexivity].
      - intros t n. unfold lookup. cbn [upd w_names]. rewrite AN. reflexivity.
      - cbn [upd w_next]. symmetry. exact AX. }
    eexists _, (cs ++ [f]). split; [reflexivity|]. split; [|split; [|split]].
    + apply (Inv_ext _ _ _ SW). apply (Inv_perm _ ((Q ++ [f]) ++ cs)); auto. rewrite <- app_assoc. apply Permutation_app_head, Permutation_app_comm.
    + apply (sim_ext _ _ _ SW). apply (sim_keq _ _ _ A'). apply bury_fold.
    + apply Forall_app. split; auto. repeat constructor.
    + intros z t' b1 q1 lim1 Z PZ. destruct SW as (E1 & _). rewrite E1 in Z.
      destruct (FQ' z t' b1 q1 lim1 Z PZ) as (u & U & PU). unfold v in U. rewrite sock_upd in U.
      destruct (z =? x); [injection U as <-; discriminate PU|eauto].
Qed.
Definition no_file (k : ksock) : ksock := mkK (k_type k) (k_nonblock k) false (k_name k) (k_role k) (k_in k).
Lemma keq_sym S S' : keq S S' -> keq S' S. Proof. intros (A & B & C). repeat split; intros; symmetry; auto. Qed.
Lemma bury_no_file S x k : ks S x = Some k -> keq (bury (kput S x (no_file k)) x) (bury S x).
Proof.
  intro E. unfold bury. cbn [kput ks]. rewrite Z.eqb_refl, E. repeat split; cbn [ks ks_names ks_next no_file k_type k_nonblock]; auto.
  intro z. destruct (z =? x); auto.
Qed.
Lemma fold_keq q : forall S S', keq S S' -> keq (fold_left bury q S) (fold_left bury q S').
Proof. induction q as [|c q IH]; intros S S' H; cbn; auto. apply IH, bury_keq, H. Qed.
Lemma close_one_ok w Q S x s : Inv w Q -> sim w S -> sock w x = Some s -> us_fd s = true -> Forall no_grew Q ->
  exists w' cs, close_sock (upd w x (set_fd s false)) x = Some (w', cs) /\ Inv w' (Q ++ cs) /\ sim w' (s_close_one S x) /\ Forall no_grew cs.
Proof.
  intros I A X FD NG. pose proof (inv_fd w Q x s I X FD) as O. set (s1 := set_fd s false). set (w1 := upd w x s1).
  assert (UQ : unqueued w x).
  { intros z t b q lim Z PZ C. pose proof (i_sock _ _ I z t Z) as So. unfold sock_ok in So. rewrite PZ in So.
    destruct So as (_ & _ & _ & _ & _ & F). rewrite Forall_forall in F. destruct (F x C) as (u & U & FU & _). congruence. }
  assert (I1 : Inv w1 Q) by (apply (set_file_inv w Q x s); auto).
  assert (X1 : sock w1 x = Some s1) by (unfold w1; sk; auto).
  assert (A1 : sim w1 (kput S x (no_file (abs s)))) by (apply (sim_upd w S x s); auto).
  assert (UQ1 : unqueued w1 x).
  { intros z t b q lim Z PZ. unfold w1 in Z. rewrite sock_upd in Z. destruct (Z.eqb_spec z x) as [->|]; [injection Z as <-; exact (UQ x s b q lim X PZ)|eauto]. }
  assert (KX : ks S x = Some (abs s)) by (rewrite (sim_get w S x A), X; reflexivity).
  unfold s_close_one. rewrite KX. cbn [abs k_fd k_role]. rewrite FD.
  assert (G : forall S1 S2 a, keq S1 S2 -> closes_to w1 Q S1 a ->
    exists w' cs, a = Some (w', cs) /\ Inv w' (Q ++ cs) /\ sim w' S2 /\ Forall no_grew cs).
  { intros S1 S2 a K (w' & cs & E & I' & A' & N' & _). exists w', cs. split; [exact E|]. split; [exact I'|]. split; [exact (sim_keq _ _ _ A' K)|exact N']. }
  destruct (us_proto s) as [b|b q lim|b pa y| |b pa peer r|] eqn:P; unfold is_open in O; rewrite P in O; try discriminate O; cbn [role_of].
  - apply (G _ _ _ (bury_no_file S x _ KX)). unfold close_sock. rewrite X1. ob. unfold close_basic. cbn [set_fd us_proto s1]. rewrite P, X1. ob.
    unfold s1 at 1. cbn [set_fd us_proto]. rewrite P. apply close_plain_ok; auto. unfold s1. cbn. rewrite P. exact Logic.I.
  - apply (G (bury (fold_left bury q (kput S x (no_file (abs s)))) x)).
    + eapply keq_trans; [apply keq_sym, bury_fold|]. eapply keq_trans; [apply fold_keq, bury_no_file, KX|]. apply bury_fold.
    + apply (close_listen_ok w1 Q _ x s1 b q lim); auto.
  - apply (G _ _ _ (bury_no_file S x _ KX)). unfold close_sock. rewrite X1. ob. unfold s1 at 1. cbn [set_fd us_proto]. rewrite P.
    apply (close_conn_ok w1 Q _ x s1 b pa y); auto.
  - apply (G _ _ _ (bury_no_file S x _ KX)). unfold close_sock. rewrite X1. ob. unfold s1 at 1. cbn [set_fd us_proto]. rewrite P.
    apply (close_gram_ok w1 Q _ x s1 b pa peer r); auto.
Qed.
Lemma close_files_ok l : forall w Q S, Inv w Q -> sim w S -> Forall no_grew Q ->
  exists w' cs, close_files w l = Some (w', cs) /\ Inv w' (Q ++ cs) /\ sim w' (fold_left s_close_one l S) /\ Forall no_grew cs.
Proof.
  induction l as [|x l IH]; intros w Q S I A NG; cbn [close_files fold_left].
  - exists w, []. rewrite app_nil_r. auto.
  - destruct (sock w x) as [s|] eqn:X.
    + destruct (us_fd s) eqn:FD.
      * destruct (close_one_ok w Q S x s I A X FD NG) as (w1 & cs1 & E1 & I1 & A1 & N1). rewrite E1. ob.
        destruct (IH w1 (Q ++ cs1) _ I1 A1) as (w2 & cs2 & E2 & I2 & A2 & N2); [apply Forall_app; auto|]. rewrite E2. ob.
        exists w2, (cs1 ++ cs2). rewrite app_assoc. split; [reflexivity|]. split; [exact I2|]. split; [exact A2|]. apply Forall_app; auto.
      * assert (E : s_close_one S x = S) by (unfold s_close_one; rewrite (sim_get w S x A), X; cbn; rewrite FD; reflexivity).
        rewrite E. auto.
    + assert (E : s_close_one S x = S) by (unfold s_close_one; rewrite (sim_get w S x A), X; reflexivity).
      rewrite E. auto.
Qed.
Lemma close_ok w S l : Inv w [] -> sim w S -> does w (syscall w (Close l)) (s_step S (Close l)).
Proof.
  intros I A. cbn [syscall s_step does]. destruct (close_files_ok l w [] S I A) as (w' & cs & E & I' & A' & _); [constructor|].
  rewrite E. ob. exists w', cs. auto.
Qed.
