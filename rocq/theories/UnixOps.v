(** The system calls on unix sockets other than closing keep the invariant and do what the
    specification says. *)
From Verif Require Import Base FMap UnixModel UnixSpec UnixFacts UnixInv.

Definition same_world (w w' : world) : Prop :=
  (forall z, sock w' z = sock w z) /\ (forall t n, lookup w' t n = lookup w t n) /\ w_next w' = w_next w.
Lemma Inv_ext w w' Q : same_world w w' -> Inv w Q -> Inv w' Q.
Proof.
  intros (E & L & N) [Ba Nn A So Cb Na Cl Ap].
  assert (GS : forall z, gsum w' z = gsum w z) by (intro z; apply gsum_ext; auto; intro k; rewrite E; auto).
  constructor; auto.
  - intros z s Z. rewrite E in Z. specialize (Ba z s Z). unfold base_ok in *. rewrite N. exact Ba.
  - rewrite N. exact Nn.
  - intros z Z. rewrite E. rewrite N in Z. auto.
  - intros z s Z. rewrite E in Z. apply (sock_frame w _ Q); auto.
    + intros k (u & U & T). exists u. rewrite E. auto.
    + intros b q lim _. apply Forall_impl. intros c (u & U & T). exists u. rewrite E. auto.
    + intros b pa y p P Y K. exists p. rewrite E. auto.
    + intros _ _. rewrite GS. reflexivity.
  - eapply Forall_impl; [|exact Cb]. intros c. unfold cb_ok. destruct c; repeat setoid_rewrite E; auto.
  - destruct Na as (N1 & N2). split.
    + intros t n z K. rewrite L in K. destruct (N1 t n z K) as (s & Z & R). exists s. rewrite E. auto.
    + intros z s n Z K O. rewrite E in Z. rewrite L. eauto.
  - intros z1 s1 b1 q1 l1 z2 s2 b2 q2 l2 c Z1 P1 Z2 P2. rewrite E in Z1, Z2. eapply Ap; eauto.
Qed.
Lemma sim_ext w w' S : same_world w w' -> sim w S -> sim w' S.
Proof.
  intros (E & L & N) (A & M & K). split; [|split].
  - intro z. rewrite E. apply A.
  - congruence.
  - intros t n x. rewrite L, E. apply K.
Qed.
Lemma sim_upd w S x s s' k : sim w S -> sock w x = Some s -> is_open s' = is_open s -> abs s' = k ->
  sim (upd w x s') (kput S x k).
Proof.
  intros (A & N & K) X O <-. split; [|split].
  - intro z. rewrite sock_upd. cbn [kput ks]. rewrite A. destruct (z =? x); reflexivity.
  - exact N.
  - intros t n z. cbn [kput ks_names]. rewrite K. unfold lookup. rewrite names_upd, sock_upd.
    destruct (Z.eqb_spec z x) as [->|]; [|reflexivity].
    split; intros (L & u & U & V); (split; [exact L|]).
    + exists s'. split; [reflexivity|]. congruence.
    + exists s. split; [exact X|]. congruence.
Qed.
Lemma sim_keep w S x s s' : sim w S -> sock w x = Some s -> abs s' = abs s -> sim (upd w x s') S.
Proof.
  intros H X E. apply (sim_same w); auto. apply same_abs_upd with (s := s); auto.
Qed.
Lemma sim_get w S x : sim w S -> ks S x = option_map abs (sock w x). Proof. intros (A & _). apply A. Qed.
Lemma sim_lookup w S t n : Inv w [] -> sim w S -> ks_names S t n = lookup w t n.
Proof.
  intros I (_ & _ & K). destruct (lookup w t n) as [x|] eqn:L.
  - apply K. split; auto. pose proof (i_names _ _ I) as (N1 & _). destruct (N1 t n x L) as (s & X & _ & _ & [O|[]]). eauto.
  - destruct (ks_names S t n) as [x|] eqn:E; auto. apply K in E as (E & _). congruence.
Qed.
Lemma sim_gone w S x : sim w S -> is_gone S x = match sock w x with Some s => negb (is_open s) | None => true end.
Proof.
  intros H. unfold is_gone. rewrite (sim_get _ _ _ H). destruct (sock w x) as [s|]; [|reflexivity]. cbn [option_map].
  rewrite open_gone, Bool.negb_involutive. reflexivity.
Qed.
Lemma inv_sent_nil Q : Forall (fun c => match c with CInform _ _ => False | _ => True end) Q -> forall z, informs Q z = 0.
Proof. intros F z. apply zsum_zero. intros c C. rewrite Forall_forall in F. specialize (F c C). destruct c; auto. contradiction. Qed.

(** What each call must do: nothing is left to the queue but what the invariant knows. *)
Definition does (w : world) (a : answer) (r : option (kstate * ures)) : Prop :=
  match r with
  | None => a = None
  | Some (S', r) => exists w' cs, a = Some (w', cs, r) /\ Inv w' cs /\ sim w' S'
  end.
Lemma does_same w S r : Inv w [] -> sim w S -> does w (Some (w, [], r)) (Some (S, r)).
Proof. intros. cbn. eauto. Qed.
Lemma inv_fd w Q x s : Inv w Q -> sock w x = Some s -> us_fd s = true -> is_open s = true.
Proof. intros I X F. apply (i_base _ _ I x s X). exact F. Qed.

(* ------------------------------------------------------------------ creating *)
Definition fresh_sock (x : Z) (s : usock) : Prop :=
  us_sent s = 0 /\ us_bits s = active /\ us_claim s = None /\
  ((us_proto s = PInitial None /\ us_type s <> UDgram /\ us_buf s = buf_new) \/
   (us_proto s = PDgram None None None [] /\ us_type s = UDgram /\ us_buf s = mkBuf [] (mkBst false false true) 1 0 [(LDgram, x)])).
Lemma fresh_gsum w Q x : Inv w Q -> w_next w <= x -> gsum w x = 0.
Proof.
  intros I X. unfold gsum. apply zsum_zero. intros i Hi. destruct (sock w (Z.of_nat i)) as [s|] eqn:Z; [|auto].
  pose proof (i_sock _ _ I _ _ Z) as So. unfold sock_ok in So. destruct (us_proto s); auto.
  destruct So as (_ & _ & _ & _ & _ & _ & _ & _ & _ & F & _). unfold from_r. apply zsum_zero. intros e He.
  rewrite Forall_forall in F. destruct (F e He) as (u & U & _). destruct (Z.eqb_spec (fst (fst e)) x) as [E|]; auto.
  rewrite E in U. pose proof (i_base _ _ I _ _ U) as (B & _). lia.
Qed.
Lemma new_inv w s : Inv w [] -> fresh_sock (w_next w) s ->
  Inv (mkW (put (w_next w) s (w_socks w)) (w_names w) (w_next w + 1)) [].
Proof.
  intros I (F1 & F2 & F3 & F4). set (x := w_next w) in *.
  set (w' := mkW (put x s (w_socks w)) (w_names w) (x + 1)).
  assert (SK : forall z, sock w' z = if z =? x then Some s else sock w z) by (intro; apply sock_put).
  assert (NO : sock w x = None).
  { destruct (sock w x) as [u|] eqn:U; auto. pose proof (i_base _ _ I _ _ U) as (B & _). unfold x in B. lia. }
  assert (OLD : forall z u, sock w z = Some u -> sock w' z = Some u).
  { intros z u U. rewrite SK. destruct (Z.eqb_spec z x); congruence. }
  assert (GP : forall z, gpart z (Some s) = 0) by (intro z; cbn; destruct F4 as [(P & _)|(P & _)]; rewrite P; reflexivity).
  pose proof (i_next _ _ I) as Nn. fold x in Nn.
  assert (GS : forall z, gsum w' z = gsum w z).
  { intro z. unfold gsum. change (w_next w') with (x + 1). rewrite Z2Nat.inj_add by lia. rewrite Nat.add_comm. cbn [Nat.add Z.to_nat].
    change (Pos.to_nat 1) with 1%nat. cbn [Nat.add]. rewrite seq_S, map_app, zsum_app. cbn [map zsum fold_right plus].
    rewrite Z2Nat.id by lia. fold (gpart z (sock w' x)). rewrite SK, Z.eqb_refl, GP. rewrite !Z.add_0_r.
    fold x. apply zsum_ext. intros i Hi. apply in_seq in Hi. rewrite SK, eqb_neq by lia. reflexivity. }
  destruct I as [Ba N A So Cb Na Cl Ap]. constructor.
  - intros z u U. rewrite SK in U. unfold base_ok. change (w_next w') with (x + 1). destruct (Z.eqb_spec z x) as [->|].
    + injection U as <-. unfold is_open. destruct F4 as [(P & T & B)|(P & T & B)]; rewrite P, F2, F3, B; repeat split; auto; try lia; congruence.
    + specialize (Ba z u U) as (B1 & B2). split; [fold x in B1; lia|exact B2].
  - unfold w'. cbn [w_next]. lia.
  - intros z Z. rewrite SK. destruct (Z.eqb_spec z x); eauto. apply A. unfold w' in Z. cbn [w_next] in Z. fold x. lia.
  - intros z u U. rewrite SK in U. destruct (Z.eqb_spec z x) as [->|NZ].
    + injection U as <-. unfold sock_ok. destruct F4 as [(P & T & B)|(P & T & B)]; rewrite P, B.
      * auto.
      * rewrite GS. assert (G0 : gsum w x = 0) by (apply (fresh_gsum w []); [constructor; auto|unfold x; lia]).
        cbn [ub_readers ub_writers ub_listeners ub_items]. unfold send_limit.
        repeat split; auto; try lia; try constructor; try discriminate; rewrite ?F1, ?G0; auto; try lia; try constructor.
    + apply (sock_frame w _ []); auto.
      * intros k (v & V & T). exists v. split; auto.
      * intros b q lim _. apply Forall_impl. intros c (v & V & R). exists v. split; auto.
      * intros b pa y p P Y L. exists p. split; auto.
      * intros _ _. rewrite GS. reflexivity.
  - constructor.
  - destruct Na as (N1 & N2). split.
    + intros t n z L. destruct (N1 t n z L) as (u & U & R). exists u. split; auto.
    + intros z u n U K O. rewrite SK in U. destruct (Z.eqb_spec z x); [|exact (N2 z u n U K O)]. congruence.
  - exact Cl.
  - intros z1 s1 b1 q1 l1 z2 s2 b2 q2 l2 c Z1 P1 Z2 P2. rewrite SK in Z1, Z2.
    assert (NL : forall b q lim, us_proto s <> PListening b q lim) by (intros; destruct F4 as [(P & _)|(P & _)]; rewrite P; discriminate).
    destruct (Z.eqb_spec z1 x); [injection Z1 as <-; elim (NL _ _ _ P1)|].
    destruct (Z.eqb_spec z2 x); [injection Z2 as <-; elim (NL _ _ _ P2)|]. eapply Ap; eauto.
Qed.
Lemma new_sim w S s k : Inv w [] -> sim w S -> abs s = k ->
  sim (mkW (put (w_next w) s (w_socks w)) (w_names w) (w_next w + 1)) (k_create S k).
Proof.
  intros I (A & N & K) <-. split; [|split].
  - intro z. rewrite sock_put. cbn [k_create ks]. rewrite N. destruct (z =? w_next w); auto.
  - cbn [k_create ks_next w_next]. congruence.
  - intros t n z. cbn [k_create ks_names]. rewrite K. change (lookup (mkW _ (w_names w) _) t n) with (lookup w t n).
    rewrite sock_put. destruct (Z.eqb_spec z (w_next w)) as [->|]; [|reflexivity].
    assert (NO : sock w (w_next w) = None).
    { destruct (sock w (w_next w)) as [u|] eqn:U; auto. pose proof (i_base _ _ I _ _ U) as (B & _). lia. }
    split.
    + intros (_ & u & U & _). congruence.
    + intros (L & _). pose proof (i_names _ _ I) as (N1 & _). destruct (N1 _ _ _ L) as (u & U & _). congruence.
Qed.
Lemma new_sock_ok w S t nb fd : Inv w [] -> sim w S ->
  exists w' s, new_sock w t nb fd = Some (w', w_next w) /\ w' = mkW (put (w_next w) s (w_socks w)) (w_names w) (w_next w + 1) /\
    fresh_sock (w_next w) s /\ us_type s = t /\ us_nonblock s = nb /\ us_fd s = fd /\ Inv w' [] /\
    sim w' (k_create S (mkK t nb fd None (new_role t) [])) /\ sock w' (w_next w) = Some s.
Proof.
  intros I SI. unfold new_sock.
  set (s := mkS t nb 0 active (match t with UDgram => mkBuf [] (mkBst false false true) 1 0 [(LDgram, w_next w)] | _ => buf_new end)
                None fd (match t with UDgram => PDgram None None None [] | _ => PInitial None end)).
  exists (mkW (put (w_next w) s (w_socks w)) (w_names w) (w_next w + 1)), s.
  assert (F : fresh_sock (w_next w) s).
  { unfold fresh_sock, s. cbn [us_sent us_bits us_claim us_proto us_type us_buf]. repeat split; auto.
    destruct t; [left|right|left]; repeat split; auto; discriminate. }
  split; [destruct t; reflexivity|]. split; [reflexivity|]. split; [exact F|]. repeat (split; [reflexivity|]).
  split; [apply new_inv; auto|]. split; [apply new_sim; auto; destruct t; reflexivity|].
  rewrite sock_put, Z.eqb_refl. reflexivity.
Qed.
Lemma socket_ok w S t nb : Inv w [] -> sim w S -> does w (syscall w (Socket t nb)) (s_step S (Socket t nb)).
Proof.
  intros I SI. cbn [syscall s_step does]. destruct (new_sock_ok w S t nb true I SI) as (w' & s & E & _ & _ & _ & _ & _ & I' & S' & _).
  rewrite E. ob. exists w', []. pose proof SI as (_ & N & _). rewrite N. auto.
Qed.

Lemma with_ok w S x f g : Inv w [] -> sim w S ->
  (forall s, sock w x = Some s -> us_fd s = true -> is_open s = true -> does w (f s) (g (abs s))) ->
  does w (with_fd w x f) (s_with S x g).
Proof.
  intros I SI H. unfold with_fd, s_with. rewrite (sim_get _ _ _ SI). destruct (sock w x) as [s|] eqn:X; cbn [option_map].
  - cbn [k_fd abs]. destruct (us_fd s) eqn:F; [|apply does_same; auto]. apply H; auto. eapply inv_fd; eauto.
  - apply does_same; auto.
Qed.

(* ------------------------------------------------------------------ naming *)
Lemma autobind_ext f g d : (forall n, f n = g n) -> autobind_name f d = autobind_name g d.
Proof.
  intro E. unfold autobind_name.
  assert (F : forall l, find (fun n => negb (f n)) l = find (fun n => negb (g n)) l).
  { induction l as [|a l IH]; [reflexivity|]. cbn [find]. rewrite E, IH. reflexivity. }
  assert (L : forall k i, linear_search k i f = linear_search k i g).
  { induction k as [|k IH]; intro i; [reflexivity|]. cbn [linear_search]. rewrite E, IH. reflexivity. }
  rewrite F, L. reflexivity.
Qed.
Lemma linear_free k i f n : linear_search k i f = Some n -> f n = false.
Proof. revert i. induction k as [|k IH]; intro i; cbn [linear_search]; [discriminate|]. destruct (f (incremental_name i)) eqn:F; [apply IH|]. congruence. Qed.
Lemma autobind_free f d n : autobind_name f d = Some n -> f n = false.
Proof.
  unfold autobind_name. destruct (find _ _) as [m|] eqn:F.
  - intro E. injection E as <-. apply find_some in F as (_ & F). destruct (f m); auto; discriminate.
  - apply linear_free.
Qed.
Lemma gsum_upd_same w x s s' z : sock w x = Some s -> gpart z (Some s') = gpart z (Some s) -> gsum (upd w x s') z = gsum w z.
Proof.
  intros X E. unfold gsum. rewrite next_upd. apply zsum_ext. intros i _. rewrite sock_upd.
  destruct (Z.eqb_spec (Z.of_nat i) x) as [->|]; [|reflexivity]. rewrite X. exact E.
Qed.
Lemma is_gram_upd w x s s' k : sock w x = Some s -> us_type s' = us_type s -> is_gram w k -> is_gram (upd w x s') k.
Proof.
  intros X T (u & U & V). unfold is_gram. rewrite sock_upd. destruct (Z.eqb_spec k x) as [->|]; [|eauto].
  exists s'. split; auto. congruence.
Qed.
Lemma claim_inv w x s n : Inv w [] -> sock w x = Some s -> us_claim s = None -> is_open s = true ->
  bound_of (us_proto s) = Some (0 :: n) -> lookup w (us_type s) n = None ->
  Inv (mkW (put x (set_claim s (Some n)) (w_socks w)) (put (us_type s, n) x (w_names w)) (w_next w)) [].
Proof.
  intros I X C O B L.
  assert (I1 : forall w', w' = upd w x (set_claim s (Some n)) ->
     (forall z u, sock w' z = Some u -> base_ok w' z u) /\ (forall z u, sock w' z = Some u -> sock_ok w' [] z u) /\ queues_apart w').
  { intros w' ->.
    assert (SU : forall z u, sock (upd w x (set_claim s (Some n))) z = Some u ->
       exists u0, sock w z = Some u0 /\ ((z <> x /\ u = u0) \/ (z = x /\ u0 = s /\ u = set_claim s (Some n)))).
    { intros z u. rewrite sock_upd. destruct (Z.eqb_spec z x) as [->|NZ]; intro U; [|eauto].
      injection U as <-. exists s. auto 6. }
    assert (GS : forall z, gsum (upd w x (set_claim s (Some n))) z = gsum w z) by (intro; apply gsum_upd_same with (s := s); auto).
    assert (SO : forall z u, sock w z = Some u -> sock_ok (upd w x (set_claim s (Some n))) [] z u).
    { intros z u U. apply (sock_frame w _ []); auto.
      - exact (i_sock _ _ I z u U).
      - intros k. apply is_gram_upd with (s := s); auto.
      - intros b q lim _. apply Forall_impl. intros c (v & V & F & P). unfold child_ok. rewrite sock_upd.
        destruct (Z.eqb_spec c x) as [->|]; [|eauto]. assert (v = s) by congruence. subst v. eexists. split; [reflexivity|]. auto.
      - intros b pa y p P Y K. rewrite sock_upd. destruct (Z.eqb_spec y x) as [->|]; [|eauto].
        assert (p = s) by congruence. subst p. eexists. split; [reflexivity|]. exact K.
      - intros. rewrite GS. reflexivity. }
    split; [|split].
    - intros z u U. destruct (SU z u U) as (u0 & U0 & [(NZ & ->)|(-> & -> & ->)]); [exact (i_base _ _ I z u0 U0)|].
      destruct (i_base _ _ I x s X) as (B1 & B2 & B3 & B4 & B5). repeat split; auto; try apply B1.
      intros m E _. injection E as <-. exact B.
    - intros z u U. destruct (SU z u U) as (u0 & U0 & [(NZ & ->)|(-> & -> & ->)]); [apply SO; exact U0|].
      pose proof (SO x s X) as H. exact H.
    - intros z1 s1 b1 q1 l1 z2 s2 b2 q2 l2 c Z1 P1 Z2 P2.
      destruct (SU _ _ Z1) as (u1 & U1 & D1), (SU _ _ Z2) as (u2 & U2 & D2).
      eapply (i_apart _ _ I); [exact U1| |exact U2|].
      + instantiate (1 := l1). instantiate (1 := b1). destruct D1 as [(_ & <-)|(_ & -> & ->)]; exact P1.
      + instantiate (1 := l2). instantiate (1 := b2). destruct D2 as [(_ & <-)|(_ & -> & ->)]; exact P2. }
  destruct (I1 _ eq_refl) as (H1 & H2 & H3).
  set (w' := mkW (put x (set_claim s (Some n)) (w_socks w)) (put (us_type s, n) x (w_names w)) (w_next w)).
  assert (SK : forall z, sock w' z = if z =? x then Some (set_claim s (Some n)) else sock w z) by (intro; apply sock_put).
  assert (LK : forall t m, lookup w' t m = if FMap.eqb (t, m) (us_type s, n) then Some x else lookup w t m).
  { intros. unfold lookup, w'. cbn [w_names]. apply get_put. }
  pose proof (i_names _ _ I) as (N1 & N2).
  constructor; auto.
  - apply (i_next _ _ I).
  - intros z Z. rewrite SK. destruct (z =? x); eauto. apply (i_all _ _ I). exact Z.
  - split.
    + intros t m z K. rewrite LK in K. destruct (FMap.eqb_ok (t, m) (us_type s, n)) as [E|E].
      * injection K as <-. injection E as -> ->. rewrite SK, Z.eqb_refl. eexists. split; [reflexivity|]. auto.
      * destruct (N1 t m z K) as (u & U & T & Cu & Ou). rewrite SK. destruct (Z.eqb_spec z x) as [->|]; [|eauto 6].
        assert (u = s) by congruence. subst u. congruence.
    + intros z u m U K Ou. rewrite SK in U. rewrite LK. destruct (Z.eqb_spec z x) as [->|NZ].
      * injection U as <-. cbn [us_claim set_claim us_type] in *. injection K as <-.
        destruct (FMap.eqb_ok (us_type s, n) (us_type s, n)); congruence.
      * pose proof (N2 z u m U K Ou) as K2. destruct (FMap.eqb_ok (us_type u, m) (us_type s, n)) as [E|E]; [|exact K2].
        injection E as E1 E2. rewrite E1, E2 in K2. congruence.
  - constructor.
Qed.
Definition rebound (p : proto) (b : list Z) : proto :=
  match p with PInitial _ => PInitial (Some b) | PDgram _ pa peer r => PDgram (Some b) pa peer r | p => p end.
Lemma bind_core w S x s n : Inv w [] -> sim w S -> sock w x = Some s -> bound_of (us_proto s) = None ->
  is_open s = true -> active_kind (us_proto s) \/ us_proto s = PInitial None ->
  (forall b pa y, us_proto s <> PConnected b pa y) -> lookup w (us_type s) n = None ->
  exists w' s', ns_bind w x s n = Some w' /\ sock w' x = Some s' /\ s' = set_claim s (Some n) /\
    Inv (upd w' x (set_proto s' (rebound (us_proto s) (0 :: n)))) [] /\
    sim (upd w' x (set_proto s' (rebound (us_proto s) (0 :: n)))) (k_claim_name S x (abs s) n).
Proof.
  intros I SI X B O K NC L. unfold ns_bind, mem. unfold lookup in L. rewrite L.
  eexists _, _. split; [reflexivity|]. rewrite sock_put, Z.eqb_refl. split; [reflexivity|]. split; [reflexivity|].
  assert (C : us_claim s = None).
  { destruct (us_claim s) as [m|] eqn:C; auto. destruct (i_base _ _ I x s X) as (_ & _ & _ & _ & B5).
    rewrite (B5 m C O) in B. discriminate. }
  set (s1 := set_proto s (rebound (us_proto s) (0 :: n))).
  assert (ND : view (us_proto s1) = view (us_proto s)) by (unfold s1; cbn; destruct (us_proto s); reflexivity).
  assert (GP : forall z, gpart z (Some s1) = gpart z (Some s)) by (intro; unfold s1; cbn; destruct (us_proto s); reflexivity).
  assert (I1 : Inv (upd w x s1) []).
  { apply (upd_inv w [] [] x s); auto.
    - unfold s1, is_open. cbn. destruct (us_proto s); auto.
    - apply (child_same w [] x s); auto. intros y V. rewrite ND. exact V.
    - intros z t b pa NZ Z P LO. apply (link_frame [] _ _ _ _ s); auto. repeat split. exact ND.
    - intros z t NZ Z _ _. rewrite (gsum_upd_same w x s); auto.
    - pose proof (i_sock _ _ I x s X) as So. unfold sock_ok in *. unfold s1 at 1. cbn [us_proto set_proto].
      destruct (us_proto s) as [b|b q lim|b pa y| |b pa peer r|] eqn:P; cbn [rebound]; try contradiction.
      + exact So.
      + destruct K as [K|K]; [contradiction|discriminate].
      + elim (NC _ _ _ eq_refl).
      + unfold is_open in O. rewrite P in O. discriminate O.
      + assert (GSX : gsum (upd w x s1) x = gsum w x) by (apply gsum_upd_same with (s := s); auto; cbn; rewrite P; auto).
        destruct So as (T & R & W & Li & It & F & Se & SE & PE & FR & Bi). unfold s1. cbn [us_type us_buf us_sent us_bits set_proto].
        fold s1. rewrite GSX. repeat split; auto; try lia.
        * intros y Y. apply (is_gram_upd w x s); auto.
        * eapply Forall_impl; [|exact FR]. intros e. apply is_gram_upd with (s := s); auto.
      + unfold is_open in O. rewrite P in O. discriminate O.
    - destruct (i_base _ _ I x s X) as (B1 & B2 & B3 & B4 & B5).
      assert (OE : is_open s1 = is_open s) by (unfold s1, is_open; cbn; destruct (us_proto s); auto).
      split; [exact B1|]. split; [exact B2|]. rewrite OE. split; [exact B3|]. split; [exact B4|].
      unfold s1. cbn [us_claim set_proto]. rewrite C. discriminate.
    - intros b q lim P. unfold s1 in P. cbn in P. destruct (us_proto s); try discriminate P. destruct K as [K|K]; [contradiction|discriminate]. }
  assert (X1 : sock (upd w x s1) x = Some s1) by (rewrite sock_upd, Z.eqb_refl; auto).
  assert (O1 : is_open s1 = true) by (unfold s1, is_open in *; cbn; destruct (us_proto s); auto).
  assert (B1 : bound_of (us_proto s1) = Some (0 :: n)).
  { unfold s1. cbn. destruct (us_proto s); cbn; auto; try contradiction; try discriminate; try (destruct K as [K|K]; [contradiction|discriminate]); elim (NC _ _ _ eq_refl). }
  assert (SW : same_world (mkW (put x (set_claim s1 (Some n)) (w_socks (upd w x s1))) (put (us_type s1, n) x (w_names (upd w x s1))) (w_next (upd w x s1)))
     (upd (mkW (put x (set_claim s (Some n)) (w_socks w)) (put (us_type s, n) x (w_names w)) (w_next w)) x
          (set_proto (set_claim s (Some n)) (rebound (us_proto s) (0 :: n))))).
  { split; [|split; reflexivity]. intro z. rewrite sock_upd, !sock_put, sock_upd. destruct (z =? x); reflexivity. }
  split.
  - apply (Inv_ext _ _ _ SW). apply claim_inv; auto.
  - apply (sim_ext _ _ _ SW). destruct SI as (A & N & M). split; [|split].
    + intro z. rewrite sock_put, sock_upd. cbn [k_claim_name ks]. rewrite A. destruct (Z.eqb_spec z x); [|reflexivity].
      cbn [option_map]. f_equal. unfold abs, s1. cbn. destruct (us_proto s); cbn; auto; try discriminate; try (destruct K as [K|K]; [contradiction|discriminate]); elim (NC _ _ _ eq_refl).
    + exact N.
    + intros t m z. cbn [k_claim_name ks_names]. rewrite sock_put, sock_upd.
      change (lookup (mkW _ _ _) t m) with (get (t, m) (put (us_type s, n) x (w_names w))). rewrite get_put.
      change (FMap.eqb (t, m) (us_type s, n)) with (utype_eqb t (us_type s) && path_eqb m n). cbn [k_type abs].
      assert (OLD : ks_names S t m = Some z <-> get (t, m) (w_names w) = Some z /\
         (exists s0, (if z =? x then Some (set_claim s1 (Some n)) else if z =? x then Some s1 else sock w z) = Some s0 /\ is_open s0 = true)).
      { rewrite M. change (get (t, m) (w_names w)) with (lookup w t m). destruct (Z.eqb_spec z x) as [->|]; [|reflexivity].
        split; intros (L1 & _); pose proof (i_names _ _ I) as (N1 & _); destruct (N1 _ _ _ L1) as (u & U & _ & Cu & _); congruence. }
      destruct (utype_eqb_ok t (us_type s)) as [->|NT], (path_eqb_ok m n) as [->|NM]; cbn [andb]; try exact OLD.
      split.
      * intro E. injection E as <-. split; [reflexivity|]. rewrite Z.eqb_refl. eexists. split; [reflexivity|]. exact O1.
      * intros (E & _). exact E.
Qed.
Lemma taken_mem w S t n : Inv w [] -> sim w S -> taken S t n = mem (t, n) (w_names w).
Proof. intros I SI. unfold taken, mem. rewrite (sim_lookup w S t n I SI). reflexivity. Qed.
Lemma bind_ok w S x a d : Inv w [] -> sim w S -> does w (syscall w (Bind x a d)) (s_step S (Bind x a d)).
Proof.
  intros I SI. cbn [syscall s_step]. apply with_ok; auto. intros s X F O.
  unfold u_bind, s_bind. cbn [k_role k_name k_type abs].
  assert (CORE : us_proto s = PInitial None \/ (exists pa peer r, us_proto s = PDgram None pa peer r) ->
     does w match common_bind w x s a d with
            | (w, inr e) => Some (w, [], RErr e)
            | (w, inl p) => do s <- sock w x; Some (upd w x (set_proto s (rebound (us_proto s) p)), [], ROk)
            end
            (Some (match a with
                   | AOther => (S, RErr EINVAL)
                   | AUnix (0 :: n) => if taken S (us_type s) n then (S, RErr EADDRINUSE) else (k_claim_name S x (abs s) n, ROk)
                   | AUnix [] => match autobind_name (taken S (us_type s)) d with
                                 | Some n => (k_claim_name S x (abs s) n, ROk)
                                 | None => (S, RErr EADDRINUSE)
                                 end
                   | AUnix _ => (S, RErr ENOTSUP)
                   end))).
  { intro K.
    assert (KB : bound_of (us_proto s) = None) by (destruct K as [-> |(pa & pe & r & ->)]; reflexivity).
    assert (KK : active_kind (us_proto s) \/ us_proto s = PInitial None) by (destruct K as [-> |(pa & pe & r & ->)]; cbn; auto).
    assert (KC : forall b pa y, us_proto s <> PConnected b pa y) by (intros; destruct K as [-> |(pa' & pe & r & ->)]; discriminate).
    assert (ONE : forall n, mem (us_type s, n) (w_names w) = false ->
       exists w', ns_bind w x s n = Some w' /\
       exists w'', (do s <- sock w' x; Some (upd w' x (set_proto s (rebound (us_proto s) (0 :: n))), @nil cb, ROk)) = Some (w'', [], ROk) /\
                   Inv w'' [] /\ sim w'' (k_claim_name S x (abs s) n)).
    { intros n M. destruct (bind_core w S x s n I SI X KB O KK KC) as (w' & s' & E & X' & -> & I' & S').
      - unfold mem in M. unfold lookup. destruct (get (us_type s, n) (w_names w)); auto; discriminate.
      - exists w'. split; auto. rewrite X'. ob. cbn [us_proto set_claim]. eexists. split; [reflexivity|]. auto. }
    unfold common_bind. destruct a as [[|h p]|]; cbn [as_abstract is_unnamed].
    - rewrite (autobind_ext (taken S (us_type s)) (fun n => mem (us_type s, n) (w_names w))) by (intro; apply taken_mem; auto).
      destruct (autobind_name _ d) as [n|] eqn:AB; [|apply does_same; auto].
      apply autobind_free in AB. destruct (ONE n AB) as (w' & E & w'' & E' & I' & S'). rewrite E. cbn [new_abstract].
      unfold new_abstract. rewrite E'. cbn. eauto.
    - destruct h as [|h|h]; cbn [as_abstract is_unnamed]; try (apply does_same; auto).
      rewrite (taken_mem w S); auto. destruct (mem (us_type s, p) (w_names w)) eqn:M.
      + unfold ns_bind. rewrite M. apply does_same; auto.
      + destruct (ONE p M) as (w' & E & w'' & E' & I' & S'). rewrite E, E'. cbn. eauto.
    - apply does_same; auto. }
  assert (NS : forall n w', ns_bind w x s n = Some w' -> sock w' x = Some (set_claim s (Some n))).
  { unfold ns_bind. intros n w' H. destruct (mem _ _); [discriminate|]. injection H as <-. rewrite sock_put, Z.eqb_refl. reflexivity. }
  assert (SP : forall p w', common_bind w x s a d = (w', inl p) -> exists s', sock w' x = Some s' /\ us_proto s' = us_proto s).
  { unfold common_bind. intros p w' H. destruct a as [q|]; [|discriminate]. destruct (as_abstract q) as [m|].
    - destruct (ns_bind w x s m) eqn:E; [|discriminate]. injection H as <- <-. rewrite (NS _ _ E). eexists; split; reflexivity.
    - destruct (is_unnamed q); [|discriminate].
      destruct (autobind_name (fun n => mem (us_type s, n) (w_names w)) d) as [m|]; [|discriminate].
      destruct (ns_bind w x s m) eqn:E; [|discriminate]. injection H as <- <-. rewrite (NS _ _ E). eexists; split; reflexivity. }
  destruct (us_proto s) as [[b|]|b q lim|b pa y| |[b|] pa peer r|] eqn:P; cbn [role_of bound_of option_map];
    try (apply does_same; auto; fail).
  - specialize (CORE (or_introl eq_refl)). destruct (common_bind w x s a d) as [w1 [p|e]] eqn:CB; [|exact CORE].
    destruct (SP _ _ eq_refl) as (s' & X' & P'). rewrite X' in CORE |- *. ob. rewrite obind_some in CORE. rewrite P' in CORE. exact CORE.
  - specialize (CORE (or_intror (ex_intro _ pa (ex_intro _ peer (ex_intro _ r eq_refl))))).
    destruct (common_bind w x s a d) as [w1 [p|e]] eqn:CB; [|exact CORE].
    destruct (SP _ _ eq_refl) as (s' & X' & P'). rewrite X' in CORE |- *. ob. rewrite obind_some in CORE. rewrite P' in CORE. exact CORE.
Qed.
Lemma queue_size_eq n : queue_size n = backlog_to_queue_size n.
Proof.
  unfold queue_size, backlog_to_queue_size, U32_MAX. pose proof (Z.mod_pos_bound n 4294967296 ltac:(lia)).
  destruct (Z.leb_spec 0 (n mod 4294967296)), (Z.ltb_spec (n mod 4294967296) 4096); cbn [andb]; lia.
Qed.
Lemma sim_refresh w w' S : sim w S -> same_abs w w' -> w_names w' = w_names w -> sim w' S.
Proof. intros SI A N. apply (sim_same w); auto. intros. unfold lookup. rewrite N. reflexivity. Qed.
Lemma inv_unlinked w Q x s z t b pa : Inv w Q -> sock w x = Some s -> sock w z = Some t -> us_proto t = PConnected b pa x ->
  match us_proto s with PConnected _ _ _ | PConnClosed => True | _ => False end.
Proof.
  intros I X Z P. pose proof (i_sock _ _ I z t Z) as So. unfold sock_ok in So. rewrite P in So.
  destruct So as (_ & _ & _ & _ & p & Y & L). assert (p = s) by congruence. subst p.
  destruct L as (_ & _ & _ & M & _). destruct (us_proto s); auto.
Qed.
Lemma listen_ok w S x n : Inv w [] -> sim w S -> does w (syscall w (Listen x n)) (s_step S (Listen x n)).
Proof.
  intros I SI. cbn [syscall s_step]. apply with_ok; auto. intros s X F O.
  assert (CORE : forall b q, us_proto s = PInitial (Some b) /\ q = [] \/ (exists l, us_proto s = PListening b q l) ->
     does w (do (w, cs) <- refresh (upd w x (set_proto s (PListening b q (backlog_to_queue_size n)))) x false; Some (w, cs, ROk))
            (Some (kput S x (k_set_role (abs s) (KListen q (queue_size n))), ROk))).
  { intros b q K. rewrite queue_size_eq. set (s1 := set_proto s (PListening b q (backlog_to_queue_size n))).
    assert (V : view (us_proto s) = VOther) by (destruct K as [(-> & _)|(l & ->)]; reflexivity).
    assert (BD : bound_of (us_proto s) = Some b) by (destruct K as [(-> & _)|(l & ->)]; reflexivity).
    assert (CH : forall c, child_ok w c -> child_ok (upd w x s1) c).
    { intros c (u & U & Fu & Pu). unfold child_ok. rewrite sock_upd. destruct (Z.eqb_spec c x) as [->|]; [|eauto].
      assert (u = s) by congruence. subst u. destruct K as [(K & _)|(l & K)]; rewrite K in Pu; contradiction. }
    assert (I1 : Inv (upd w x s1) [CRefresh x]).
    { apply (upd_inv w [] _ x s); auto.
      - apply (child_same w [] x s); auto. intros y V'. congruence.
      - intros z t b' pa NZ Z P _. pose proof (inv_unlinked w [] x s z t b' pa I X Z P).
        destruct (us_proto s); try discriminate V; contradiction.
      - intros z t _ _ _ (c & [] & _).
      - intros z t NZ Z _ _. rewrite (gsum_upd_same w x s); auto. cbn. destruct K as [(-> & _)|(l & ->)]; reflexivity.
      - pose proof (i_sock _ _ I x s X) as So. unfold sock_ok in *. unfold s1 at 1. cbn [us_proto set_proto].
        assert (T : us_type s <> UDgram /\ us_buf s = buf_new /\ us_sent s = 0).
        { destruct K as [(K & _)|(l & K)]; rewrite K in So; tauto. }
        destruct T as (T1 & T2 & T3). repeat split; auto.
        + right. apply due_cons. auto.
        + destruct K as [(K & ->)|(l & K)]; [constructor|]. rewrite K in So. apply So.
        + destruct K as [(K & ->)|(l & K)]; [constructor|]. rewrite K in So. eapply Forall_impl; [exact CH|apply So].
      - destruct (i_base _ _ I x s X) as (B1 & B2 & B3 & B4 & B5).
        split; [exact B1|]. split; [exact B2|]. split; [reflexivity|]. split; [intros; apply B4; auto|].
        intros m C _. cbn [us_proto s1 set_proto bound_of]. rewrite <- BD. apply B5; auto.
      - constructor; [|constructor]. exists s1. rewrite sock_upd, Z.eqb_refl. reflexivity.
      - intros b' q' l' P c C. left. cbn in P. injection P as <- <- <-. destruct K as [(_ & ->)|(l & K)]; [contradiction|eauto]. }
    destruct (refresh_ok _ [] x s1 false I1) as (w' & cs & E & I2 & A2 & N2 & _).
    - rewrite sock_upd, Z.eqb_refl. reflexivity.
    - discriminate.
    - rewrite E. ob. exists w', cs. split; [reflexivity|]. rewrite app_nil_r in I2. split; [exact I2|].
      apply (sim_refresh (upd w x s1)); auto. apply (sim_upd w S x s); auto.
      unfold abs, k_set_role, s1. cbn. rewrite BD. destruct K as [(K & _)|(l & K)]; rewrite K; reflexivity. }
  unfold u_listen, s_listen. cbn [k_role k_name abs].
  destruct (us_proto s) as [[b|]|b q lim|b pa y| |b pa peer r|] eqn:P; cbn [role_of bound_of]; try (apply does_same; auto; fail).
  - apply (CORE b []). auto.
  - apply (CORE b q). eauto.
Qed.
Lemma sockname_ok w S x : Inv w [] -> sim w S -> does w (syscall w (SockName x)) (s_step S (SockName x)).
Proof.
  intros I SI. cbn [syscall s_step]. apply with_ok; auto. intros s X F O.
  replace (u_sockname s) with (s_sockname (abs s)); [apply does_same; auto|].
  unfold u_sockname, s_sockname, abs, is_open in *. cbn [k_name]. destruct (us_proto s); cbn; auto; discriminate.
Qed.
Lemma peername_ok w S x : Inv w [] -> sim w S -> does w (syscall w (PeerName x)) (s_step S (PeerName x)).
Proof.
  intros I SI. cbn [syscall s_step]. apply with_ok; auto. intros s X F O.
  replace (u_peername s) with (s_peername (abs s)); [apply does_same; auto|].
  unfold u_peername, s_peername, abs, is_open in *. cbn [k_role]. destruct (us_proto s) as [| | | |b pa [y|] r|]; cbn; auto; discriminate.
Qed.
Lemma nonblock_ok w S x b : Inv w [] -> sim w S -> does w (syscall w (SetNonblock x b)) (s_step S (SetNonblock x b)).
Proof.
  intros I SI. cbn [syscall s_step]. apply with_ok; auto. intros s X F O. cbn [does].
  exists (upd w x (set_nonblock s b)), []. split; [reflexivity|]. split; [|apply (sim_upd w S x s); auto].
  apply (upd_inv w [] [] x s); auto.
  - apply (child_same w [] x s); auto.
  - intros z t NZ Z _ _. rewrite (gsum_upd_same w x s); auto.
  - pose proof (i_sock _ _ I x s X) as So. unfold sock_ok in *. cbn [us_proto set_nonblock us_type us_buf us_sent us_bits].
    destruct (us_proto s) as [|b' q lim|b' pa y| |b' pa peer r|] eqn:P; auto.
    + destruct So as (T & Bf & Se & Bi & ND & Fa). repeat split; auto. eapply Forall_impl; [|exact Fa].
      intros c (u & U & Fu & Pu). unfold child_ok. rewrite sock_upd. destruct (Z.eqb_spec c x) as [->|]; [|eauto].
      assert (u = s) by congruence. subst u. rewrite P in Pu. contradiction.
    + destruct So as (T & R & It & Se & p & Y & L). repeat split; auto; try lia. destruct (L) as (NXY & _).
      exists p. rewrite sock_upd, eqb_neq by auto. split; auto.
    + destruct So as (T & R & W & Li & It & Fo & Se & SE & PE & FR & Bi).
      rewrite <- (gsum_upd_same w x s (set_nonblock s b)) in SE; auto. repeat split; auto; try lia.
      * intros y Y. apply (is_gram_upd w x s); auto.
      * eapply Forall_impl; [|exact FR]. intros e. apply is_gram_upd with (s := s); auto.
  - exact (i_base _ _ I x s X).
  - intros b' q lim P c C. left. cbn in P. eauto.
Qed.
