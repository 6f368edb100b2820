(** Connecting unix sockets. *)
From Verif Require Import Base FMap UnixModel UnixSpec UnixFacts UnixInv UnixOps.

Definition conn_sock (s : usock) (bits : ubits) (b pa : option (list Z)) (y : Z) (L : list (lkind * Z)) : usock :=
  mkS (us_type s) (us_nonblock s) 0 bits (mkBuf [] (mkBst false false false) 1 1 L) (us_claim s) (us_fd s) (PConnected b pa y).
Definition both (x y : Z) (L : list (lkind * Z)) : Prop := L = [(LRecv, x); (LSend, y)] \/ L = [(LSend, y); (LRecv, x)].
Definition idle : ubits := mkBits true false true false false.
Lemma link_inv w w' Q x y sx sy fx fy bx px by_ by' py Lx Ly :
  Inv w [] -> x <> y -> sock w x = Some sx -> us_proto sx = PInitial bx -> sock w y = Some sy -> us_proto sy = PInitial by_ ->
  (us_claim sy = None \/ by' = by_) -> us_type sy = us_type sx ->
  (forall z, sock w' z = if z =? x then Some (conn_sock sx fx bx px y Lx) else if z =? y then Some (conn_sock sy fy by' py x Ly) else sock w z) ->
  (forall t n, lookup w' t n = lookup w t n) -> w_next w' = w_next w ->
  both x y Lx -> both y x Ly -> Forall (cb_ok w') Q -> closers Q = [] -> (forall z, informs Q z = 0) ->
  f_closed fx = false -> f_closed fy = false -> fx = idle \/ due Q x -> fy = idle \/ due Q y -> Inv w' Q.
Proof.
  intros I N X PX Y PY CY T SK LK NX BX BY CB CL IN FCX FCY DX DY.
  assert (SX : sock w' x = Some (conn_sock sx fx bx px y Lx)) by (rewrite SK, Z.eqb_refl; auto).
  assert (SY : sock w' y = Some (conn_sock sy fy by' py x Ly)) by (rewrite SK, (eqb_neq y x), Z.eqb_refl by auto; auto).
  assert (SO : forall z, z <> x -> z <> y -> sock w' z = sock w z) by (intros; rewrite SK, !eqb_neq by auto; auto).
  assert (FX : us_type sx <> UDgram /\ us_buf sx = buf_new /\ us_sent sx = 0 /\ us_bits sx = active).
  { pose proof (i_sock _ _ I x sx X) as So. unfold sock_ok in So. rewrite PX in So. destruct So as (A1 & A2 & A3 & [A4|(c & [] & _)]); auto. }
  assert (FY : us_buf sy = buf_new /\ us_sent sy = 0 /\ us_bits sy = active).
  { pose proof (i_sock _ _ I y sy Y) as So. unfold sock_ok in So. rewrite PY in So. destruct So as (A1 & A2 & A3 & [A4|(c & [] & _)]); auto. }
  assert (GS : forall z, gsum w' z = gsum w z).
  { intro z. unfold gsum. rewrite NX. apply zsum_ext. intros i _. rewrite SK.
    destruct (Z.eqb_spec (Z.of_nat i) x) as [->|]; [rewrite X, PX; reflexivity|].
    destruct (Z.eqb_spec (Z.of_nat i) y) as [->|]; [rewrite Y, PY; reflexivity|]. reflexivity. }
  assert (LNK : link_ok Q x (conn_sock sx fx bx px y Lx) y (conn_sock sy fy by' py x Ly) /\
                link_ok Q y (conn_sock sy fy by' py x Ly) x (conn_sock sx fx bx px y Lx)).
  { unfold link_ok. cbn [conn_sock us_type us_buf us_proto us_sent us_bits ub_writers ub_readers ub_listeners ub_items].
    rewrite !IN. unfold both in *. repeat split; auto. }
  assert (NOT : forall z t b pa, sock w z = Some t -> us_proto t = PConnected b pa x \/ us_proto t = PConnected b pa y -> False).
  { intros z t b pa Z [P|P]; [pose proof (inv_unlinked w [] x sx z t b pa I X Z P) as H; rewrite PX in H|
                             pose proof (inv_unlinked w [] y sy z t b pa I Y Z P) as H; rewrite PY in H]; contradiction. }
  assert (OX : forall z t, sock w' z = Some t -> exists t0, sock w z = Some t0 /\ us_type t = us_type t0 /\ us_claim t = us_claim t0 /\
     us_fd t = us_fd t0 /\ is_open t = is_open t0).
  { intros z t Z. rewrite SK in Z. destruct (Z.eqb_spec z x) as [->|]; [|destruct (Z.eqb_spec z y) as [->|]; [|eauto 8]];
      injection Z as <-; [exists sx|exists sy]; unfold is_open; rewrite ?PX, ?PY; repeat split; auto. }
  assert (XO : forall z t, sock w z = Some t -> exists t0, sock w' z = Some t0 /\ us_type t = us_type t0 /\ us_claim t = us_claim t0 /\
     us_fd t = us_fd t0 /\ is_open t = is_open t0).
  { intros z t Z. rewrite SK. destruct (Z.eqb_spec z x) as [->|]; [|destruct (Z.eqb_spec z y) as [->|]; [|eauto 8]].
    - assert (t = sx) by congruence. subst t. eexists. split; [reflexivity|]. unfold is_open. rewrite PX. repeat split; auto.
    - assert (t = sy) by congruence. subst t. eexists. split; [reflexivity|]. unfold is_open. rewrite PY. repeat split; auto. }
  destruct I as [Ba Nn A So Cb Na Cl Ap]. constructor; auto.
  - intros z t Z. destruct (OX z t Z) as (t0 & Z0 & ET & EC & EF & EO).
    destruct (Ba z t0 Z0) as (B1 & B2 & B3 & B4 & B5). unfold base_ok. rewrite NX, EO, EF, EC.
    split; [exact B1|]. rewrite SK in Z. destruct (Z.eqb_spec z x) as [->|]; [|destruct (Z.eqb_spec z y) as [->|]].
    + injection Z as <-. assert (t0 = sx) by congruence. subst t0. repeat split; auto.
      intros m C O. specialize (B5 m C O). rewrite PX in B5. exact B5.
    + injection Z as <-. assert (t0 = sy) by congruence. subst t0. repeat split; auto.
      intros m C O. specialize (B5 m C O). rewrite PY in B5. destruct CY as [CY| ->]; [congruence|]. exact B5.
    + assert (t0 = t) by congruence. subst t0. auto.
  - rewrite NX. exact Nn.
  - intros z Z. rewrite NX in Z. destruct (A z Z) as (t & Zt). destruct (XO z t Zt) as (t0 & Z0 & _). eauto.
  - intros z t Z. destruct (Z.eq_dec z x) as [->|NX']; [|destruct (Z.eq_dec z y) as [->|NY']].
    + assert (t = conn_sock sx fx bx px y Lx) by congruence. subst t. unfold sock_ok, conn_sock.
      cbn [us_type us_buf us_proto us_sent us_bits ub_readers ub_items]. unfold send_limit.
      repeat split; try lia; try tauto; try constructor. exists (conn_sock sy fy by' py x Ly). split; [exact SY|]. apply LNK.
    + assert (t = conn_sock sy fy by' py x Ly) by congruence. subst t. unfold sock_ok, conn_sock.
      cbn [us_type us_buf us_proto us_sent us_bits ub_readers ub_items]. unfold send_limit. rewrite T.
      repeat split; try lia; try tauto; try constructor. exists (conn_sock sx fx bx px y Lx). split; [exact SX|].
      destruct LNK as (_ & LNK). unfold conn_sock in LNK |- *. rewrite T in LNK. exact LNK.
    + rewrite SO in Z by auto. apply (sock_frame w _ []); auto.
      * intros k (u & U & TU). destruct (XO k u U) as (u0 & U0 & EU & _). exists u0. split; auto. congruence.
      * intros b q lim P. rewrite !Forall_forall. intros FA c Hc. destruct (FA c Hc) as (u & U & Fu & Pu). exists u.
        rewrite SO; auto; intros ->.
        -- assert (u = sx) by congruence. subst u. rewrite PX in Pu. contradiction.
        -- assert (u = sy) by congruence. subst u. rewrite PY in Pu. contradiction.
      * intros b pa k p P K LO. exists p. rewrite SO by (intros ->; eapply NOT; [exact Z|rewrite P; auto]). split; auto.
        apply (link_frame [] _ _ _ _ p); auto; [apply same_end_refl|]. intros (c & [] & _).
      * intros _ _. rewrite GS, IN. reflexivity.
      * intros _ (c & [] & _).
  - destruct Na as (N1 & N2). unfold names_ok. rewrite CL. split.
    + intros t n z L. rewrite LK in L. destruct (N1 t n z L) as (u & U & TU & CU & [OU|[]]).
      destruct (XO z u U) as (u0 & U0 & E1 & E2 & _ & E4). exists u0. repeat split; auto; try congruence. left. congruence.
    + intros z u n U C [O|[]]. destruct (OX z u U) as (u0 & U0 & E1 & E2 & _ & E4). rewrite LK, E1. apply (N2 z u0 n U0); [congruence|left; congruence].
  - rewrite CL. constructor.
  - intros z1 s1 b1 q1 l1 z2 s2 b2 q2 l2 c Z1 P1 Z2 P2. rewrite SK in Z1, Z2.
    destruct (z1 =? x); [injection Z1 as <-; discriminate P1|]. destruct (z1 =? y); [injection Z1 as <-; discriminate P1|].
    destruct (z2 =? x); [injection Z2 as <-; discriminate P2|]. destruct (z2 =? y); [injection Z2 as <-; discriminate P2|].
    eapply Ap; eauto.
Qed.

Lemma refresh_other w x g w' cs : refresh w x g = Some (w', cs) ->
  (forall z, z <> x -> sock w' z = sock w z) /\ (forall s, sock w x = Some s -> exists b, sock w' x = Some (set_bits s b)) /\
  w_names w' = w_names w /\ w_next w' = w_next w.
Proof.
  unfold refresh. destruct (sock w x) as [s|] eqn:X; [|discriminate]. ob.
  assert (U : forall b, Some (update_state w x s b g) = Some (w', cs) ->
    (forall z, z <> x -> sock w' z = sock w z) /\ (forall s0, Some s = Some s0 -> exists b, sock w' x = Some (set_bits s0 b)) /\
    w_names w' = w_names w /\ w_next w' = w_next w).
  { unfold update_state. intros b E. injection E as <- _. split; [|split; [|auto]].
    - intros z NZ. rewrite sock_upd, eqb_neq by auto. reflexivity.
    - intros s0 E. injection E as <-. exists b. rewrite sock_upd, Z.eqb_refl. reflexivity. }
  destruct (us_proto s); intro H.
  - destruct g; [discriminate|]. exact (U _ H).
  - exact (U _ H).
  - destruct (sock w peer) as [p|]; [|discriminate]. ob_in H. exact (U _ H).
  - destruct g; [discriminate|]. exact (U _ H).
  - exact (U _ H).
  - destruct g; [discriminate|]. exact (U _ H).
Qed.
Lemma gram_peer_inv w Q x s b pa peer r pa' y : Inv w Q -> sock w x = Some s -> us_proto s = PDgram b pa peer r -> is_gram w y ->
  Inv (upd w x (set_proto s (PDgram b pa' (Some y) r))) (CRefresh x :: Q).
Proof.
  intros I X P G. set (s1 := set_proto s (PDgram b pa' (Some y) r)).
  assert (GP : forall z, gpart z (Some s1) = gpart z (Some s)) by (intro; cbn; rewrite P; reflexivity).
  assert (GM : forall k, is_gram w k -> is_gram (upd w x s1) k) by (intro; apply is_gram_upd with (s := s); auto).
  assert (OE : is_open s1 = is_open s) by (unfold is_open; rewrite P; reflexivity).
  apply (upd_inv w Q _ x s); auto.
  - apply (child_same w Q x s); auto. rewrite P. discriminate.
  - intros z t b' pa2 NZ Z PZ _. pose proof (inv_unlinked w Q x s z t b' pa2 I X Z PZ) as H. rewrite P in H. contradiction.
  - intros z t _ _ _ D. apply due_cons. auto.
  - intros z t NZ Z _ _. rewrite (gsum_upd_same w x s); auto.
  - pose proof (i_sock _ _ I x s X) as So. unfold sock_ok in *. rewrite P in So. unfold s1 at 1. cbn [us_proto set_proto].
    destruct So as (T & R & W & Li & It & Fo & Se & SE & PE & FR & Bi).
    rewrite <- (gsum_upd_same w x s s1) in SE; auto. repeat split; auto; try apply Se.
    + intros k E. injection E as <-. auto.
    + eapply Forall_impl; [|exact FR]. intros e. apply GM.
    + right. right. apply due_cons. auto.
  - destruct (i_base _ _ I x s X) as (B1 & B2 & B3 & B4 & B5). unfold base_ok. rewrite OE.
    split; [exact B1|]. split; [exact B2|]. split; [exact B3|]. split; [exact B4|]. intros n C O.
    specialize (B5 n C O). rewrite P in B5. exact B5.
  - constructor.
    + exists s1. rewrite sock_upd, Z.eqb_refl. reflexivity.
    + eapply Forall_impl; [|exact (i_cbs _ _ I)]. intros c C. apply (cb_ok_upd w x s); auto; rewrite ?OE; cbn; auto.
  - intros b' q lim E. discriminate E.
Qed.
Lemma sim_kext w S S' : sim w S -> (forall z, ks S' z = ks S z) -> (forall t n, ks_names S' t n = ks_names S t n) ->
  ks_next S' = ks_next S -> sim w S'.
Proof.
  intros (A & N & M) E1 E2 E3. split; [|split].
  - intro z. rewrite E1. apply A.
  - congruence.
  - intros t n x. rewrite E2. apply M.
Qed.
Lemma zsum_perm a b : Permutation a b -> zsum a = zsum b.
Proof. unfold zsum. induction 1; cbn [fold_right]; lia. Qed.
Lemma Inv_perm w Q Q' : Permutation Q Q' -> Inv w Q -> Inv w Q'.
Proof.
  intros P I. apply (Inv_q w Q); auto.
  - eapply Permutation_Forall; [exact P|exact (i_cbs _ _ I)].
  - unfold closers. apply Permutation_flat_map. exact P.
  - intros z t _ _. unfold informs. apply zsum_perm, Permutation_map. symmetry. exact P.
  - intros z t _ _ (c & C & R). exists c. split; auto. eapply Permutation_in; eauto.
Qed.
