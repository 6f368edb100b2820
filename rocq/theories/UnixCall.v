(** The system calls that connect and accept unix sockets do what the specification says. *)
From Verif Require Import Base FMap UnixModel UnixSpec UnixFacts UnixInv UnixOps UnixLink.

Ltac sk := repeat (rewrite sock_upd || rewrite sock_put || rewrite Z.eqb_refl || rewrite eqb_neq by (auto; lia)).
Definition nw_only : bst := mkBst false false true.
Definition nr_only : bst := mkBst false true false.
Definition B (r w : Z) (L : list (lkind * Z)) : ubuf := mkBuf [] (mkBst false (r =? 0) (w =? 0)) r w L.
Definition calls (ch : bst) (L : list (lkind * Z)) : list cb := map (fun l => CBuf (fst l) (snd l) ch false) L.
Lemma buf_new_B : buf_new = B 0 0 []. Proof. reflexivity. Qed.
Lemma add_writer_B L r : r = 0 \/ r = 1 -> add_writer (B r 0 L) = Some (B r 1 L, calls nw_only L).
Proof. intros [-> | ->]; reflexivity. Qed.
Lemma add_reader_B L w : w = 0 \/ w = 1 -> add_reader (B 0 w L) = Some (B 1 w L, calls nr_only L).
Proof. intros [-> | ->]; reflexivity. Qed.
Lemma on_buf_some w x s f b cs : sock w x = Some s -> f (us_buf s) = Some (b, cs) -> on_buf w x f = Some (upd w x (set_buf s b), cs).
Proof. intros X F. unfold on_buf. rewrite X. ob. rewrite F. ob. reflexivity. Qed.
Lemma listen_some w x s k y : sock w x = Some s -> listen_on w x k y = Some (upd w x (set_buf s (add_listener (us_buf s) k y)), []).
Proof. intros X. apply on_buf_some with (s := s); auto. Qed.
Lemma refresh_conn w x s b pa y p : sock w x = Some s -> us_proto s = PConnected b pa y -> sock w y = Some p ->
  refresh w x false = Some (update_state w x s (cbits s p) false).
Proof. intros X P Y. unfold refresh. rewrite X. ob. rewrite P, Y. ob. reflexivity. Qed.
Lemma refresh_listen w x s b q lim : sock w x = Some s -> us_proto s = PListening b q lim ->
  refresh w x false = Some (update_state w x s (lbits q lim) false).
Proof. intros X P. unfold refresh. rewrite X. ob. rewrite P. reflexivity. Qed.
Definition moved (x : Z) (old new : ubits) : list cb := if bits_eqb new old then [] else [CFile x old new false].
Lemma update_moved w x s b : update_state w x s b false = (upd w x (set_bits s b), moved x (us_bits s) b).
Proof. unfold update_state, moved. cbn [negb]. rewrite Bool.andb_true_r. reflexivity. Qed.

(** Only one socket differs. *)
Definition changes (w w' : world) (x : Z) (s : usock) : Prop :=
  (forall z, sock w' z = if z =? x then Some s else sock w z) /\ w_names w' = w_names w /\ w_next w' = w_next w.
Lemma join_writer w x s r L k y : sock w x = Some s -> us_buf s = B r 0 L -> r = 0 \/ r = 1 ->
  exists w1 w2, listen_on w x k y = Some (w1, []) /\ on_buf w1 x add_writer = Some (w2, calls nw_only (L ++ [(k, y)])) /\
                changes w w2 x (set_buf s (B r 1 (L ++ [(k, y)]))).
Proof.
  intros X E R. rewrite (listen_some w x s k y X). eexists _, _. split; [reflexivity|]. rewrite E.
  split; [apply on_buf_some with (s := set_buf s (B r 0 (L ++ [(k, y)])))|].
  - sk. reflexivity.
  - apply add_writer_B. exact R.
  - split; [|split; reflexivity]. intro z. rewrite !sock_upd. destruct (z =? x); reflexivity.
Qed.
Lemma join_reader w x s v L k y : sock w x = Some s -> us_buf s = B 0 v L -> v = 0 \/ v = 1 ->
  exists w1 w2, listen_on w x k y = Some (w1, []) /\ on_buf w1 x add_reader = Some (w2, calls nr_only (L ++ [(k, y)])) /\
                changes w w2 x (set_buf s (B 1 v (L ++ [(k, y)]))).
Proof.
  intros X E R. rewrite (listen_some w x s k y X). eexists _, _. split; [reflexivity|]. rewrite E.
  split; [apply on_buf_some with (s := set_buf s (B 0 v (L ++ [(k, y)])))|].
  - sk. reflexivity.
  - apply add_reader_B. exact R.
  - split; [|split; reflexivity]. intro z. rewrite !sock_upd. destruct (z =? x); reflexivity.
Qed.
Lemma connected_refresh w x s b pa y p : us_proto s = PConnected b pa y -> x <> y -> sock w y = Some p ->
  exists w', refresh (upd w x s) x false = Some (w', moved x (us_bits s) (cbits s p)) /\ changes w w' x (set_bits s (cbits s p)).
Proof.
  intros P N Y. rewrite (refresh_conn _ x s b pa y p); auto; [|sk; auto|sk; auto]. rewrite update_moved.
  eexists. split; [reflexivity|]. split; [|split; reflexivity]. intro z. rewrite !sock_upd. destruct (z =? x); reflexivity.
Qed.
Lemma listening_refresh w x s b q lim : us_proto s = PListening b q lim ->
  exists w', refresh (upd w x s) x false = Some (w', moved x (us_bits s) (lbits q lim)) /\ changes w w' x (set_bits s (lbits q lim)).
Proof.
  intros P. rewrite (refresh_listen _ x s b q lim); auto; [|sk; auto]. rewrite update_moved.
  eexists. split; [reflexivity|]. split; [|split; reflexivity]. intro z. rewrite !sock_upd. destruct (z =? x); reflexivity.
Qed.
Definition part_bits : ubits := mkBits true true true false false.
Definition blank (t : utype) (nb fd : bool) (f : ubits) (c : option (list Z)) (p : proto) (r v : Z) (L : list (lkind * Z)) : usock :=
  mkS t nb 0 f (B r v L) c fd p.
(** One half of a connection: [y] has [r] readers. *)
Lemma half_run w x y t nb v r Lx Ly f : x <> y -> v = 0 \/ v = 1 -> r = 0 \/ r = 1 ->
  sock w x = Some (blank t nb true active None (PInitial None) 0 v Lx) ->
  forall p, sock w y = Some (blank t nb true f None p r 0 Ly) ->
  exists w', connect_unnamed w x y =
    Some (w', calls nw_only (Ly ++ [(LSend, x)]) ++ calls nr_only (Lx ++ [(LRecv, x)]) ++
              moved x active (mkBits true (v =? 0) true false false)) /\
    (forall z, sock w' z = if z =? x then Some (blank t nb true (mkBits true (v =? 0) true false false) None (PConnected None None y) 1 v (Lx ++ [(LRecv, x)]))
                           else if z =? y then Some (blank t nb true f None p r 1 (Ly ++ [(LSend, x)])) else sock w z) /\
    w_names w' = w_names w /\ w_next w' = w_next w.
Proof.
  intros N V R X p Y. unfold connect_unnamed. rewrite X. ob. cbn [us_proto blank].
  destruct (join_writer w y _ r Ly LSend x Y eq_refl R) as (w1 & w2 & E1 & E2 & C1 & N1 & M1). rewrite E1. ob. rewrite E2. ob.
  assert (X2 : sock w2 x = Some (blank t nb true active None (PInitial None) 0 v Lx)) by (rewrite C1, eqb_neq by auto; auto).
  destruct (join_reader w2 x _ v Lx LRecv x X2 eq_refl V) as (w3 & w4 & E3 & E4 & C2 & N2 & M2). rewrite E3. ob. rewrite E4. ob.
  rewrite C2, Z.eqb_refl. ob.
  match goal with |- context [refresh (upd w4 x ?s) x false] =>
    destruct (connected_refresh w4 x s None None y (blank t nb true f None p r 1 (Ly ++ [(LSend, x)])) eq_refl N) as (w5 & E5 & C3 & N3 & M3) end.
  { rewrite C2, eqb_neq, C1, Z.eqb_refl by auto. reflexivity. }
  rewrite E5. ob. eexists. split; [reflexivity|]. split; [|split; congruence].
  intro z. rewrite C3, C2, C1. destruct (z =? x); [|destruct (z =? y); reflexivity].
  reflexivity.
Qed.
Lemma sim_two w w' S S' x y a b a' b' : sim w S -> x <> y -> sock w x = Some a -> sock w y = Some b ->
  is_open a' = is_open a -> is_open b' = is_open b ->
  (forall z, sock w' z = if z =? x then Some a' else if z =? y then Some b' else sock w z) -> w_names w' = w_names w -> w_next w' = w_next w ->
  (forall z, ks S' z = if z =? x then Some (abs a') else if z =? y then Some (abs b') else ks S z) ->
  (forall t n, ks_names S' t n = ks_names S t n) -> ks_next S' = ks_next S -> sim w' S'.
Proof.
  intros SI N X Y OA OB SK NA NX KS KN KX.
  apply (sim_kext _ (kput (kput S y (abs b')) x (abs a'))).
  - apply (sim_ext (upd (upd w y b') x a')).
    + split; [|split; [|exact NX]].
      * intro z. rewrite SK, !sock_upd. destruct (z =? x), (z =? y); reflexivity.
      * intros t n. unfold lookup. rewrite NA. reflexivity.
    + apply (sim_upd _ _ x a); auto; [apply (sim_upd _ _ y b); auto|]. rewrite sock_upd, eqb_neq by auto. exact X.
  - intro z. rewrite KS. cbn [kput ks]. destruct (z =? x), (z =? y); reflexivity.
  - exact KN.
  - exact KX.
Qed.
Lemma gram_half w Q S x s y : Inv w Q -> sim w S -> sock w x = Some s -> us_proto s = PDgram None None None [] -> is_gram w y ->
  exists w' cs, connect_unnamed w x y = Some (w', cs) /\ Inv w' (Q ++ cs) /\
    sim w' (kput S x (k_set_role (abs s) (KGram (Some (y, None))))) /\ (forall z, z <> x -> sock w' z = sock w z) /\
    (forall k, is_gram w k -> is_gram w' k).
Proof.
  intros I SI X P G. unfold connect_unnamed. rewrite X. ob. rewrite P.
  pose proof (gram_peer_inv w Q x s None None None [] None y I X P G) as I1.
  set (s1 := set_proto s (PDgram None None (Some y) [])) in *.
  assert (X1 : sock (upd w x s1) x = Some s1) by (rewrite sock_upd, Z.eqb_refl; auto).
  destruct (refresh_ok _ Q x s1 false I1 X1) as (w' & cs & E & I2 & A2 & N2 & _); [discriminate|].
  destruct (refresh_other _ _ _ _ _ E) as (R1 & R2 & _).
  exists w', cs. split; [exact E|]. split; [eapply Inv_perm; [apply Permutation_app_comm|exact I2]|]. split; [|split].
  - apply (sim_refresh (upd w x s1)); auto. apply (sim_upd w S x s); auto.
    + unfold is_open. cbn. rewrite P. reflexivity.
    + unfold abs, k_set_role. cbn. rewrite P. reflexivity.
  - intros z NZ. rewrite R1, sock_upd, eqb_neq by auto. reflexivity.
  - intros k (u & U & T). destruct (Z.eq_dec k x) as [->|NK].
    + destruct (R2 _ X1) as (b & Xb). exists (set_bits s1 b). split; auto. cbn. congruence.
    + exists u. rewrite R1, sock_upd, eqb_neq by auto. auto.
Qed.
Lemma pair_ok w S t nb : Inv w [] -> sim w S -> does w (syscall w (Pair t nb)) (s_step S (Pair t nb)).
Proof.
  intros I SI. cbn [syscall s_step]. unfold u_pair.
  destruct (new_sock_ok w S t nb true I SI) as (w1 & s1 & E1 & D1 & F1 & T1 & B1 & D1' & I1 & S1 & X1). rewrite E1. ob.
  set (x := w_next w) in *. set (S1' := k_create S _) in S1.
  destruct (new_sock_ok w1 S1' t nb true I1 S1) as (w2 & s2 & E2 & D2 & F2 & T2 & B2 & D2' & I2 & S2 & X2). rewrite E2. ob.
  assert (NX : w_next w1 = x + 1) by (rewrite D1; reflexivity). rewrite NX in *. set (y := x + 1) in *.
  assert (N : x <> y) by (unfold y; lia).
  assert (X1' : sock w2 x = Some s1) by (rewrite D2, sock_put, eqb_neq by auto; auto).
  pose proof SI as (_ & NS & _). rewrite NS. fold x.
  assert (C : t = UDgram \/ t <> UDgram) by (destruct t; auto; right; discriminate).
  destruct C as [C|C].
  - (* datagram sockets *)
    destruct F1 as (_ & _ & _ & [(_ & F1 & _)|(P1 & F1 & Bu1)]); [congruence|].
    destruct F2 as (_ & _ & _ & [(_ & F2 & _)|(P2 & F2 & Bu2)]); [congruence|].
    destruct (gram_half w2 [] _ x s1 y I2 S2 X1' P1) as (w3 & cs3 & E3 & I3 & S3 & O3 & G3); [exists s2; auto|].
    rewrite E3. ob. cbn [app] in I3.
    destruct (gram_half w3 cs3 _ y s2 x I3 S3) as (w4 & cs4 & E4 & I4 & S4 & O4 & G4); auto.
    { rewrite O3 by auto. exact X2. }
    { apply G3. exists s1. auto. }
    rewrite E4. ob. exists w4, (cs3 ++ cs4). split; [reflexivity|]. split; [exact I4|].
    apply (sim_kext _ _ _ S4); [|reflexivity|reflexivity].
    intro z. cbn [kput k_create ks ks_next S1']. unfold S1'. cbn [kput k_create ks ks_next]. rewrite NS. fold x. fold y.
    rewrite C. destruct (Z.eqb_spec z y) as [->|]; [f_equal; unfold abs, k_set_role, k_new; cbn; rewrite P2, Bu2, ?T2, ?B2, ?D2'; rewrite ?C; reflexivity|].
    destruct (Z.eqb_spec z x) as [->|]; [|reflexivity].
    f_equal. unfold abs, k_set_role, k_new. cbn. rewrite P1, Bu1. rewrite ?T1, ?B1, ?D1'. rewrite ?C. reflexivity.
  - destruct F1 as (A1 & A2 & A3 & [(A4 & A5 & A6)|(_ & F1 & _)]); [|congruence].
    destruct F2 as (A1' & A2' & A3' & [(A4' & A5' & A6')|(_ & F2 & _)]); [|congruence].
    assert (B1' : s1 = blank t nb true active None (PInitial None) 0 0 []).
    { destruct s1. cbn in *. subst. reflexivity. }
    assert (B2' : s2 = blank t nb true active None (PInitial None) 0 0 []).
    { destruct s2. cbn in *. subst. reflexivity. }
    clear T1 B1 D1' T2 B2 D2' A1 A2 A3 A4 A5 A6 A1' A2' A3' A4' A5' A6'. rewrite B1' in *. rewrite B2' in *. clear B1' B2' s1 s2.
    destruct (half_run w2 x y t nb 0 0 [] [] active N (or_introl eq_refl) (or_introl eq_refl) X1' _ X2) as (w3 & E3 & K3 & N3 & M3).
    rewrite E3. ob.
    assert (X3 : sock w3 x = Some (blank t nb true part_bits None (PConnected None None y) 1 0 [(LRecv, x)])) by (rewrite K3, Z.eqb_refl; reflexivity).
    assert (Y3 : sock w3 y = Some (blank t nb true active None (PInitial None) 0 1 [(LSend, x)])) by (rewrite K3, eqb_neq, Z.eqb_refl by auto; reflexivity).
    destruct (half_run w3 y x t nb 1 1 [(LSend, x)] [(LRecv, x)] part_bits) with (p := PConnected None None y) as (w4 & E4 & K4 & N4 & M4); auto.
    rewrite E4. ob. eexists _, _. split; [reflexivity|].
    assert (K : forall z, sock w4 z = if z =? x then Some (blank t nb true part_bits None (PConnected None None y) 1 1 [(LRecv, x); (LSend, y)])
                                      else if z =? y then Some (blank t nb true idle None (PConnected None None x) 1 1 [(LSend, x); (LRecv, y)])
                                      else sock w2 z).
    { intro z. rewrite K4, K3. destruct (Z.eqb_spec z y) as [->|]; [rewrite (eqb_neq y x) by auto; reflexivity|]. destruct (z =? x); reflexivity. }
    split.
    + eapply (link_inv w2 w4 _ x y _ _ part_bits idle None None None None None [(LRecv, x); (LSend, y)] [(LSend, x); (LRecv, y)] I2 N X1' eq_refl X2 eq_refl); auto.
      * intros. unfold lookup. congruence.
      * congruence.
      * left. reflexivity.
      * right. reflexivity.
      * assert (CX : exists s, sock w4 x = Some s) by (rewrite K, Z.eqb_refl; eauto).
        assert (CY : exists s, sock w4 y = Some s) by (rewrite K, eqb_neq, Z.eqb_refl by auto; eauto).
        destruct CX as (sx & CX), CY as (sy & CY). unfold calls. cbn [app map fst snd].
        repeat (apply Forall_cons; [cbn [cb_ok]; eexists; split; [eassumption|discriminate]|]).
        unfold moved. cbn [bits_eqb active part_bits Bool.eqb f_active f_readable f_writable f_closed f_allow andb idle app map Z.eqb].
        repeat (apply Forall_cons; [cbn [cb_ok]; eexists; split; [eassumption|cbn; congruence]|]). constructor.
      * right. unfold due. eexists. split; [cbn; do 3 right; left; reflexivity|]. reflexivity.
    + eapply (sim_two w2 w4 _ _ x y _ _ _ _ S2 N X1' X2 (eq_refl : is_open (blank t nb true part_bits None (PConnected None None y) 1 1 [(LRecv, x); (LSend, y)]) = _) (eq_refl : is_open (blank t nb true idle None (PConnected None None x) 1 1 [(LSend, x); (LRecv, y)]) = _) K); try congruence.
      * intro z. unfold S1'. cbn [k_create ks ks_next]. rewrite NS. fold x y.
        destruct (Z.eqb_spec z y) as [->|]; [rewrite eqb_neq by auto|]; [|destruct (z =? x)]; [| |reflexivity];
          f_equal; unfold abs, k_set_role, k_new, blank, inbox; cbn; destruct t; try reflexivity; congruence.
      * reflexivity.
      * reflexivity.
Qed.

(* ------------------------------------------------------------------ connecting by name *)
Definition conn_cbs (x y c : Z) (fb lb : ubits) : list cb :=
  ([CBuf LSend c nw_only false; CBuf LRecv c nr_only false; CRefresh c] ++ moved y fb lb) ++
  [CBuf LRecv c nw_only false; CBuf LSend x nw_only false; CBuf LSend c nr_only false; CBuf LRecv x nr_only false] ++ moved x active idle.
Lemma connect_run w x s y srv p bound sb q lim : x <> y -> w_next w <> x -> w_next w <> y ->
  sock w x = Some s -> us_proto s = PInitial bound -> us_buf s = buf_new -> us_sent s = 0 -> us_bits s = active ->
  us_type s <> UDgram -> us_type srv = us_type s -> lookup_address w (us_type s) p = inl y ->
  sock w y = Some srv -> us_proto srv = PListening sb q lim -> queue_full q lim = false -> us_bits srv = lbits q lim ->
  let c := w_next w in
  let child := mkS (us_type s) (us_nonblock srv) 0 active buf_new None false (PInitial None) in
  exists w', u_connect w x s (AUnix p) = Some (w', conn_cbs x y c (us_bits srv) (lbits (q ++ [c]) lim), ROk) /\
    new_sock w (us_type srv) (us_nonblock srv) false = Some (mkW (put c child (w_socks w)) (w_names w) (c + 1), c) /\
    (forall z, sock w' z = if z =? y then Some (set_bits (set_proto srv (PListening sb (q ++ [c]) lim)) (lbits (q ++ [c]) lim))
                           else if z =? x then Some (conn_sock s idle bound (Some p) c [(LSend, c); (LRecv, x)])
                           else if z =? c then Some (conn_sock child active (Some sb) bound x [(LRecv, c); (LSend, x)])
                           else sock w z) /\
    w_names w' = w_names w /\ w_next w' = c + 1.
Proof.
  intros NXY NCX NCY X P BF SE BI TD TT LA Y PY QF BY c child.
  assert (NS : new_sock w (us_type srv) (us_nonblock srv) false = Some (mkW (put c child (w_socks w)) (w_names w) (c + 1), c)).
  { unfold new_sock. rewrite TT. unfold child. destruct (us_type s); try reflexivity. congruence. }
  unfold u_connect. rewrite P, LA. rewrite assert_true by (rewrite eqb_neq; auto). rewrite Y. ob. rewrite PY, QF, BY.
  rewrite assert_true by (unfold lbits; cbn [f_allow]; rewrite QF; reflexivity).
  unfold queue_incoming. rewrite NS. ob. set (w1 := mkW (put c child (w_socks w)) (w_names w) (c + 1)) in *.
  assert (K1 : forall z, sock w1 z = if z =? c then Some child else sock w z) by (intro; apply sock_put).
  assert (X1 : sock w1 x = Some s) by (rewrite K1, eqb_neq by auto; auto).
  destruct (join_writer w1 x s 0 [] LSend c X1 BF (or_introl eq_refl)) as (wa & w2 & Ea & E2 & K2 & N2 & M2). rewrite Ea. ob. rewrite E2. ob.
  assert (C2 : sock w2 c = Some child) by (rewrite K2, eqb_neq, K1, Z.eqb_refl by auto; auto).
  destruct (join_reader w2 c child 0 [] LRecv c C2 eq_refl (or_introl eq_refl)) as (wb & w3 & Eb & E3 & K3 & N3 & M3). rewrite Eb. ob. rewrite E3. ob.
  rewrite (K3 c), Z.eqb_refl. ob. set (ch1 := set_proto _ (PConnected (Some sb) bound x)).
  set (w4 := upd w3 c ch1). assert (K4 : forall z, sock w4 z = if z =? c then Some ch1 else sock w3 z) by (intro; apply sock_upd).
  assert (Y4 : sock w4 y = Some srv) by (rewrite K4, eqb_neq, K3, eqb_neq, K2, eqb_neq, K1, eqb_neq by auto; auto).
  rewrite Y4. ob.
  destruct (listening_refresh w4 y (set_proto srv (PListening sb (q ++ [c]) lim)) sb (q ++ [c]) lim eq_refl) as (w5 & E5 & K5 & N5 & M5).
  rewrite E5. ob.
  assert (C5 : sock w5 c = Some ch1) by (rewrite K5, eqb_neq, K4, Z.eqb_refl by auto; auto).
  destruct (join_writer w5 c ch1 1 [(LRecv, c)] LSend x C5 eq_refl (or_intror eq_refl)) as (wc & w6 & Ec & E6 & K6 & N6 & M6). rewrite Ec. ob. rewrite E6. ob.
  assert (X6 : sock w6 x = Some (set_buf s (B 0 1 [(LSend, c)]))).
  { rewrite K6, eqb_neq, K5, eqb_neq, K4, eqb_neq, K3, eqb_neq, K2, Z.eqb_refl by auto. reflexivity. }
  destruct (join_reader w6 x _ 1 [(LSend, c)] LRecv x X6 eq_refl (or_intror eq_refl)) as (wd & w7 & Ed & E7 & K7 & N7 & M7). rewrite Ed. ob. rewrite E7. ob.
  rewrite (K7 x), Z.eqb_refl. ob.
  match goal with |- context [refresh (upd w7 x ?s) x false] =>
    destruct (connected_refresh w7 x s bound (Some p) c (set_buf ch1 (B 1 1 [(LRecv, c); (LSend, x)])) eq_refl) as (w8 & E8 & K8 & N8 & M8) end.
  { auto. }
  { rewrite K7, eqb_neq, K6, Z.eqb_refl by auto. reflexivity. }
  rewrite E8. ob. eexists. split; [|split; [reflexivity|split; [|split]]].
  - cbn [us_bits set_proto set_buf]. rewrite BI, BY. unfold cbits. cbn [set_proto set_buf us_buf B has_data ub_items ub_writers us_sent ub_readers]. rewrite SE. reflexivity.
  - intro z. rewrite K8, K7, K6, K5, K4, K3, K2, K1.
    destruct (Z.eqb_spec z x) as [->|]; [|destruct (Z.eqb_spec z c) as [->|]; [|destruct (z =? y); reflexivity]].
    + rewrite eqb_neq by auto. f_equal. unfold conn_sock, set_bits, set_proto, set_buf, cbits. cbn. rewrite SE. reflexivity.
    + rewrite (eqb_neq c y) by auto. reflexivity.
  - rewrite N8, N7, N6, N5. change (w_names w4) with (w_names w3). rewrite N3, N2. reflexivity.
  - rewrite M8, M7, M6, M5. change (w_next w4) with (w_next w3). rewrite M3, M2. reflexivity.
Qed.
Lemma moved_ok w x s f g : sock w x = Some s -> f_closed g = false -> Forall (cb_ok w) (moved x f g).
Proof.
  intros X G. unfold moved. destruct (bits_eqb g f); constructor; [|constructor]. exists s. split; auto. cbn. rewrite G. intro H. elim H. reflexivity.
Qed.
Lemma moved_informs x f g z : informs (moved x f g) z = 0.
Proof. unfold moved. destruct (bits_eqb g f); reflexivity. Qed.
Lemma moved_closers x f g : f_closed g = false -> closers (moved x f g) = [].
Proof. intro G. unfold moved. destruct (bits_eqb g f); [reflexivity|]. cbn. rewrite G. reflexivity. Qed.
Lemma owner_eq w S t p : Inv w [] -> sim w S -> owner S t p = lookup_address w t p.
Proof.
  intros I SI. unfold owner, lookup_address. destruct p as [|[|h|h] n]; cbn [as_abstract]; try reflexivity.
  rewrite (sim_lookup w S t n I SI). reflexivity.
Qed.
Lemma owner_sock w t p y : Inv w [] -> lookup_address w t p = inl y -> exists s, sock w y = Some s /\ us_type s = t /\ is_open s = true.
Proof.
  intros I. unfold lookup_address. destruct (as_abstract p) as [n|]; [|discriminate]. destruct (lookup w t n) as [z|] eqn:L; [|discriminate].
  intro E. injection E as <-. destruct (i_names _ _ I) as (N1 & _). destruct (N1 _ _ _ L) as (s & X & T & _ & [O|[]]). eauto.
Qed.
Lemma connect_inv w S x s y srv p bound sb q lim w' : Inv w [] -> sim w S -> x <> y ->
  sock w x = Some s -> us_proto s = PInitial bound ->
  us_type srv = us_type s -> sock w y = Some srv -> us_proto srv = PListening sb q lim ->
  let c := w_next w in
  let child := mkS (us_type s) (us_nonblock srv) 0 active buf_new None false (PInitial None) in
    (forall z, sock w' z = if z =? y then Some (set_bits (set_proto srv (PListening sb (q ++ [c]) lim)) (lbits (q ++ [c]) lim))
                           else if z =? x then Some (conn_sock s idle bound (Some p) c [(LSend, c); (LRecv, x)])
                           else if z =? c then Some (conn_sock child active (Some sb) bound x [(LRecv, c); (LSend, x)])
                           else sock w z) ->
    w_names w' = w_names w -> w_next w' = c + 1 ->
    Inv w' (conn_cbs x y c (us_bits srv) (lbits (q ++ [c]) lim)) /\
    sim w' (kput (kput (k_create S (mkK (us_type s) (us_nonblock srv) false (Some sb) (KConn x bound) [])) y
              (k_set_role (abs srv) (KListen (q ++ [c]) lim))) x (k_set_role (abs s) (KConn c (Some p)))).
Proof.
  intros I SI NXY X P TT Y PY c child K' N' M'.
  assert (FX : us_type s <> UDgram /\ us_buf s = buf_new /\ us_sent s = 0 /\ us_bits s = active).
  { pose proof (i_sock _ _ I x s X) as So. unfold sock_ok in So. rewrite P in So. destruct So as (A1 & A2 & A3 & [A4|(k & [] & _)]); auto. }
  destruct FX as (TD & BF & SE & BI).
  assert (NC : sock w c = None).
  { destruct (sock w c) as [u|] eqn:U; auto. pose proof (i_base _ _ I _ _ U) as (B0 & _). unfold c in B0. lia. }
  assert (NCX : c <> x) by (intro E; rewrite E in NC; congruence).
  assert (NCY : c <> y) by (intro E; rewrite E in NC; congruence).
  set (w1 := mkW (put c child (w_socks w)) (w_names w) (c + 1)).
  assert (K1 : forall z, sock w1 z = if z =? c then Some child else sock w z) by (intro; apply sock_put).
  assert (I1 : Inv w1 []).
  { apply new_inv; auto. unfold fresh_sock, child. cbn. repeat split; auto. }
  assert (S1 : sim w1 (k_create S (abs child))) by (apply new_sim; auto).
  set (xc := conn_sock s idle bound (Some p) c [(LSend, c); (LRecv, x)]) in *.
  set (cc := conn_sock child active (Some sb) bound x [(LRecv, c); (LSend, x)]) in *.
  set (wL := upd (upd w1 c cc) x xc).
  assert (KL : forall z, sock wL z = if z =? x then Some xc else if z =? c then Some cc else sock w z).
  { intro z. unfold wL. rewrite !sock_upd, K1. destruct (z =? x), (z =? c); reflexivity. }
  assert (XL : sock wL x = Some xc) by (rewrite KL, Z.eqb_refl; auto).
  assert (CL : sock wL c = Some cc) by (rewrite KL, eqb_neq, Z.eqb_refl by auto; auto).
  assert (YL : sock wL y = Some srv) by (rewrite KL, !eqb_neq by auto; auto).
  set (Q0 := [CBuf LSend c nw_only false; CBuf LRecv c nr_only false; CRefresh c] ++
    [CBuf LRecv c nw_only false; CBuf LSend x nw_only false; CBuf LSend c nr_only false; CBuf LRecv x nr_only false] ++ moved x active idle).
  assert (IL : Inv wL Q0).
  { apply (link_inv w1 wL Q0 x c s child idle active bound (Some p) None (Some sb) bound [(LSend, c); (LRecv, x)] [(LRecv, c); (LSend, x)]); auto.
    - rewrite K1, eqb_neq by auto. exact X.
    - rewrite K1, Z.eqb_refl. reflexivity.
    - intro z. rewrite KL, K1. destruct (z =? x), (z =? c); reflexivity.
    - right. reflexivity.
    - left. reflexivity.
    - unfold Q0. cbn [app].
      repeat (apply Forall_cons; [cbn [cb_ok]; first [eexists; split; [eassumption|discriminate]|eexists; eassumption]|]).
      eapply moved_ok; [exact XL|reflexivity].
    - right. exists (CRefresh c). split; [cbn; auto|reflexivity]. }
  assert (FY : us_type srv <> UDgram /\ us_buf srv = buf_new /\ us_sent srv = 0 /\ NoDup q /\ Forall (child_ok w) q).
  { pose proof (i_sock _ _ I y srv Y) as So. unfold sock_ok in So. rewrite PY in So. tauto. }
  destruct FY as (TY & BFY & SEY & NDY & FAY).
  set (y1 := set_proto srv (PListening sb (q ++ [c]) lim)) in *.
  assert (CHL : forall k u b' q' l', sock w k = Some u -> us_proto u = PListening b' q' l' -> ~ In c q').
  { intros k u b' q' l' U PU C. pose proof (i_sock _ _ I k u U) as So. unfold sock_ok in So. rewrite PU in So.
    destruct So as (_ & _ & _ & _ & _ & FA). rewrite Forall_forall in FA. destruct (FA c C) as (v & V & _). congruence. }
  assert (UL : forall k u b' q' l', sock wL k = Some u -> us_proto u = PListening b' q' l' -> sock w k = Some u).
  { intros k u b' q' l' U PU. rewrite KL in U. destruct (k =? x); [injection U as <-; discriminate PU|].
    destruct (k =? c); [injection U as <-; discriminate PU|]. exact U. }
  assert (I2 : Inv (upd wL y y1) (CRefresh y :: Q0)).
  { apply (upd_inv wL Q0 _ y srv); auto.
    - unfold is_open. rewrite PY. reflexivity.
    - apply (child_same wL Q0 y srv); auto. rewrite PY. discriminate.
    - intros z t b' pa NZ Z PZ _. pose proof (inv_unlinked wL Q0 y srv z t b' pa IL YL Z PZ) as H. rewrite PY in H. contradiction.
    - intros z t _ _ _ D. apply due_cons. auto.
    - intros z t NZ Z _ _. rewrite (gsum_upd_same wL y srv); auto. cbn. rewrite PY. reflexivity.
    - unfold sock_ok, y1. cbn [us_proto set_proto us_type us_buf us_sent us_bits]. repeat split; auto.
      + right. apply due_cons. auto.
      + apply (Permutation_NoDup (l := c :: q)); [apply Permutation_cons_append|]. constructor; auto. eapply CHL; eauto.
      + apply Forall_app. split.
        * eapply Forall_impl; [|exact FAY]. intros k (u & U & Fu & Pu). unfold child_ok. rewrite sock_upd, KL.
          destruct (Z.eqb_spec k y) as [->|]; [assert (u = srv) by congruence; subst u; rewrite PY in Pu; contradiction|].
          destruct (Z.eqb_spec k x) as [->|]; [assert (u = s) by congruence; subst u; rewrite P in Pu; contradiction|].
          destruct (Z.eqb_spec k c) as [->|]; [congruence|]. eauto.
        * constructor; [|constructor]. exists cc. rewrite sock_upd, eqb_neq by auto. split; [exact CL|]. split; [reflexivity|cbn; auto].
    - destruct (i_base _ _ IL y srv YL) as (B1 & B2 & B3 & B4 & B5).
      assert (O : is_open srv = true) by (unfold is_open; rewrite PY; reflexivity).
      split; [exact B1|]. split; [exact B2|]. split; [reflexivity|]. split; [intros _; apply B4; exact O|].
      intros m C _. specialize (B5 m C O). rewrite PY in B5. exact B5.
    - constructor.
      + exists y1. rewrite sock_upd, Z.eqb_refl. reflexivity.
      + eapply Forall_impl; [|exact (i_cbs _ _ IL)]. intros k CK. apply (cb_ok_upd wL y srv); auto; unfold is_open; rewrite PY; cbn; auto.
    - intros b' q' l' E k C. cbn in E. injection E as <- <- <-. apply in_app_or in C as [C|[<- |[]]].
      + left. eauto.
      + right. intros z t b' q' l' Z PZ. apply (CHL z t b' q' l'); [eapply UL; eauto|exact PZ]. }
  assert (Y2 : sock (upd wL y y1) y = Some y1) by (rewrite sock_upd, Z.eqb_refl; auto).
  assert (I3 : Inv (upd (upd wL y y1) y (set_bits y1 (lbits (q ++ [c]) lim))) (moved y (us_bits srv) (lbits (q ++ [c]) lim) ++ Q0)).
  { apply set_bits_inv; auto.
    - reflexivity.
    - unfold moved. destruct (bits_eqb _ _); auto. right. exists false. reflexivity. }
  assert (SW : same_world (upd (upd wL y y1) y (set_bits y1 (lbits (q ++ [c]) lim))) w').
  { split; [|split].
    - intro z. rewrite K', !sock_upd, KL. destruct (z =? y), (z =? x), (z =? c); reflexivity.
    - intros. unfold lookup. rewrite N'. reflexivity.
    - rewrite M'. reflexivity. }
  split.
  - apply (Inv_ext _ _ _ SW). eapply Inv_perm; [|exact I3]. unfold conn_cbs, Q0. rewrite <- app_assoc, !app_assoc.
    repeat apply Permutation_app_tail. rewrite Permutation_app_comm. reflexivity.
  - apply (sim_ext _ _ _ SW). apply (sim_keep _ _ y y1); [|exact Y2|reflexivity].
    apply (sim_kext _ (kput (kput (kput (k_create S (abs child)) c (abs cc)) x (abs xc)) y (abs y1))).
    + apply (sim_upd _ _ y srv); auto; [|unfold is_open; cbn; rewrite PY; reflexivity].
      apply (sim_upd _ _ x s); auto; [apply (sim_upd _ _ c child); auto; rewrite K1, Z.eqb_refl; reflexivity| |].
      * rewrite sock_upd, eqb_neq, K1, eqb_neq by auto. exact X.
      * unfold is_open. cbn. rewrite P. reflexivity.
    + destruct SI as (_ & NS & _). intro z. cbn [kput k_create ks]. rewrite NS. fold c.
      destruct (Z.eqb_spec z x) as [->|]; [rewrite (eqb_neq x y) by auto; unfold abs, k_set_role, xc, conn_sock; cbn; rewrite P; reflexivity|].
      destruct (Z.eqb_spec z y) as [->|]; [unfold abs, k_set_role, y1; cbn; rewrite PY; reflexivity|].
      destruct (z =? c); [reflexivity|]. reflexivity.
    + reflexivity.
    + reflexivity.
Qed.
Lemma connect_ok w S x a : Inv w [] -> sim w S -> does w (syscall w (Connect x a)) (s_step S (Connect x a)).
Proof.
  intros I SI. cbn [syscall s_step]. apply with_ok; auto. intros s X F O.
  unfold s_connect. cbn [k_role k_type abs].
  pose proof (i_sock _ _ I x s X) as So. unfold sock_ok in So.
  destruct (us_proto s) as [bound|b q lim|b pa y| |b pa peer r|] eqn:P; cbn [role_of];
    try (unfold u_connect; rewrite P; destruct a; apply does_same; auto; fail).
  - destruct So as (TD & BF & SE & [BI|(k & [] & _)]).
    destruct a as [p|]; [|unfold u_connect; rewrite P; apply does_same; auto].
    rewrite (owner_eq w S (us_type s) p I SI). destruct (lookup_address w (us_type s) p) as [y|e] eqn:LA.
    2:{ unfold u_connect. rewrite P, LA. apply does_same; auto. }
    destruct (owner_sock w _ p y I LA) as (srv & Y & TT & OY).
    destruct (Z.eqb_spec y x) as [->|NYX]; [unfold u_connect; rewrite P, LA, Z.eqb_refl; reflexivity|].
    rewrite (sim_get _ _ _ SI), Y. cbn [option_map k_role abs].
    assert (NL : (forall sb q lim, us_proto srv <> PListening sb q lim) ->
       does w (u_connect w x s (AUnix p)) (Some (S, RErr ECONNREFUSED))).
    { intro NL. unfold u_connect. rewrite P, LA. rewrite assert_true by (rewrite eqb_neq; auto). rewrite Y. ob.
      destruct (us_proto srv) as [|b q lim| | | |]; try (apply does_same; auto; fail). elim (NL b q lim eq_refl). }
    destruct (us_proto srv) as [|sb q lim| | | |] eqn:PY; cbn [role_of]; try (apply NL; intros; discriminate).
    clear NL. fold (queue_full q lim).
    assert (BY : us_bits srv = lbits q lim).
    { pose proof (i_sock _ _ I y srv Y) as So. unfold sock_ok in So. rewrite PY in So. destruct So as (_ & _ & _ & [E|(k & [] & _)] & _). exact E. }
    destruct (queue_full q lim) eqn:QF.
    + unfold u_connect. rewrite P, LA. rewrite assert_true by (rewrite eqb_neq; auto). rewrite Y. ob. rewrite PY, QF.
      rewrite assert_true by (rewrite BY; unfold lbits; cbn [f_allow]; rewrite QF; reflexivity).
      unfold would_block. cbn [k_nonblock abs]. rewrite Bool.orb_false_r. apply does_same; auto.
    + assert (NN : forall z t, sock w z = Some t -> w_next w <> z).
      { intros z t Z. pose proof (i_base _ _ I z t Z) as (B0 & _). lia. }
      destruct (connect_run w x s y srv p bound sb q lim) as (w' & E & _ & K' & N' & M'); eauto.
      destruct (connect_inv w S x s y srv p bound sb q lim w' I SI) as (I' & S'); auto.
      cbn [does]. eexists w', _. split; [exact E|]. split; [exact I'|].
      apply (sim_kext _ _ _ S'); [|reflexivity|reflexivity]. destruct SI as (_ & NS & _).
      intro z. cbn [kput k_create ks ks_next k_nonblock k_name abs]. rewrite NS, P, PY. reflexivity.
  - destruct So as (TD & _).
    assert (does w (u_connect w x s a) (match a with AOther => Some (S, RErr EINVAL) | AUnix p =>
       match owner S (us_type s) p with inr e => Some (S, RErr e)
       | inl y => Some (kput S x (k_set_role (abs s) (KGram (Some (y, Some p)))), ROk) end end)) as R.
    { unfold u_connect. rewrite P. destruct a as [p|]; [|apply does_same; auto].
      rewrite (owner_eq w S (us_type s) p I SI). destruct (lookup_address w (us_type s) p) as [y|e] eqn:LA; [|apply does_same; auto].
      destruct (owner_sock w _ p y I LA) as (srv & Y & TT & OY).
      assert (G : is_gram w y) by (exists srv; split; auto; congruence).
      pose proof (gram_peer_inv w [] x s b pa peer r (Some p) y I X P G) as I1.
      set (s1 := set_proto s (PDgram b (Some p) (Some y) r)) in *.
      assert (X1 : sock (upd w x s1) x = Some s1) by (rewrite sock_upd, Z.eqb_refl; auto).
      destruct (refresh_ok _ [] x s1 false I1 X1) as (w' & cs & E & I2 & A2 & N2 & _); [discriminate|].
      rewrite E. ob. rewrite app_nil_r in I2. exists w', cs. split; [reflexivity|]. split; [exact I2|].
      apply (sim_refresh (upd w x s1)); auto. apply (sim_upd w S x s); auto.
      unfold abs, k_set_role. cbn. rewrite P. reflexivity. }
    destruct a; exact R.
Qed.
Lemma set_file_inv w Q c s s' : Inv w Q -> sock w c = Some s -> us_proto s' = us_proto s -> us_buf s' = us_buf s -> us_sent s' = us_sent s ->
  us_bits s' = us_bits s -> us_type s' = us_type s -> us_claim s' = us_claim s -> (us_fd s' = true -> is_open s = true) ->
  (forall z t b q lim, sock w z = Some t -> us_proto t = PListening b q lim -> ~ In c q) -> Inv (upd w c s') Q.
Proof.
  intros I X P BF SE BI T CL FD NQ.
  assert (GP : forall z, gpart z (Some s') = gpart z (Some s)) by (intro z; cbn; rewrite P; reflexivity).
  assert (OE : is_open s' = is_open s) by (unfold is_open; rewrite P; reflexivity).
  assert (GM : forall k, is_gram w k -> is_gram (upd w c s') k) by (intro; apply is_gram_upd with (s := s); auto).
  apply (upd_inv w Q Q c s); auto.
  - intros z t b q lim NZ Z PZ C. elim (NQ z t b q lim Z PZ C).
  - intros z t b pa NZ Z PZ L. apply (link_frame Q _ _ _ _ s); auto. repeat split; auto; rewrite ?BF, ?P; auto.
  - intros z t NZ Z _ _. rewrite (gsum_upd_same w c s); auto.
  - pose proof (i_sock _ _ I c s X) as So. unfold sock_ok in *. rewrite P, T, BF, SE, BI.
    destruct (us_proto s) as [|b' q lim|b' pa y| |b' pa peer r|] eqn:PE; auto.
    + destruct So as (T1 & Bf & Se & Bi & ND & Fa). repeat split; auto. rewrite Forall_forall in *.
      intros k Ck. destruct (Fa k Ck) as (u & U & Fu & Pu). unfold child_ok. rewrite sock_upd. destruct (Z.eqb_spec k c) as [->|]; [|eauto].
      elim (NQ c s b' q lim X PE Ck).
    + destruct So as (T1 & R & It & Se & p & Y & L). repeat split; auto; try lia. destruct (L) as (NXY & _).
      exists p. rewrite sock_upd, eqb_neq by auto. split; auto. unfold link_ok in *. unfold cbits in *. rewrite T, BF, SE, BI. exact L.
    + destruct So as (T1 & R & W & Li & It & Fo & Se & SE2 & PE2 & FR & Bi).
      rewrite <- (gsum_upd_same w c s s') in SE2; auto.
      assert (GB : gbits s' = gbits s) by (unfold gbits; rewrite BF, SE; reflexivity). rewrite GB.
      repeat split; auto; try lia.
      eapply Forall_impl; [|exact FR]. intros e. apply GM.
  - destruct (i_base _ _ I c s X) as (B1 & B2 & B3 & B4 & B5). unfold base_ok. rewrite OE, BF, BI, CL, P. repeat split; auto; try apply B1.
  - eapply Forall_impl; [|exact (i_cbs _ _ I)]. intros k Ck. apply (cb_ok_upd w c s); auto; rewrite ?P, ?OE; auto.
  - intros b q lim PL k Ck. rewrite P in PL. left. eauto.
Qed.
Lemma accept_ok w S x nb : Inv w [] -> sim w S -> does w (syscall w (Accept x nb)) (s_step S (Accept x nb)).
Proof.
  intros I SI. cbn [syscall s_step]. apply with_ok; auto. intros s X F O.
  unfold u_accept, s_accept. cbn [k_role abs].
  destruct (us_proto s) as [bound|b [|c q] lim|b pa y| |b pa peer r|] eqn:P; cbn [role_of]; try (apply does_same; auto; fail).
  { unfold would_block. cbn [k_nonblock abs]. rewrite Bool.orb_false_r. apply does_same; auto. }
  pose proof (i_sock _ _ I x s X) as So. unfold sock_ok in So. rewrite P in So. destruct So as (TD & BF & SE & BI & ND & FA).
  inversion FA as [|? ? CO FA']; subst. inversion ND as [|? ? NI ND']; subst.
  destruct CO as (ch & C & FC & PC). destruct (us_proto ch) as [|? ? ?|cb pn cy| | |] eqn:PCH; try contradiction. clear PC.
  assert (NXC : x <> c) by (intros ->; congruence).
  rewrite (sim_get _ _ _ SI), C. cbn [option_map k_role abs]. rewrite PCH. cbn [role_of].
  set (s1 := set_proto s (PListening b q lim)).
  assert (I1 : Inv (upd w x s1) [CRefresh x]).
  { apply (upd_inv w [] _ x s); auto.
    - apply (child_same w [] x s); auto. rewrite P. discriminate.
    - intros z t b' pa NZ Z PZ _. pose proof (inv_unlinked w [] x s z t b' pa I X Z PZ) as H. rewrite P in H. contradiction.
    - intros z t _ _ _ (k & [] & _).
    - intros z t NZ Z _ _. rewrite (gsum_upd_same w x s); auto. cbn. rewrite P. reflexivity.
    - unfold sock_ok, s1. cbn [us_proto set_proto us_type us_buf us_sent us_bits]. repeat split; auto.
      + right. apply due_cons. auto.
      + rewrite Forall_forall in *. intros k Ck. destruct (FA' k Ck) as (u & U & Fu & Pu). unfold child_ok. rewrite sock_upd.
        destruct (Z.eqb_spec k x) as [->|]; [|eauto]. assert (u = s) by congruence. subst u. rewrite P in Pu. contradiction.
    - destruct (i_base _ _ I x s X) as (B1 & B2 & B3 & B4 & B5).
      split; [exact B1|]. split; [exact B2|]. split; [reflexivity|]. split; [intros _; apply B4; exact O|].
      intros m Cm _. specialize (B5 m Cm O). rewrite P in B5. exact B5.
    - constructor; [|constructor]. exists s1. rewrite sock_upd, Z.eqb_refl. reflexivity.
    - intros b' q' l' E k Ck. cbn in E. injection E as <- <- <-. left. exists b, (c :: q), lim. cbn. auto. }
  assert (X1 : sock (upd w x s1) x = Some s1) by (rewrite sock_upd, Z.eqb_refl; auto).
  destruct (refresh_ok _ [] x s1 false I1 X1) as (w' & cs & E & I2 & A2 & N2 & _); [discriminate|]. rewrite app_nil_r in I2.
  destruct (refresh_other _ _ _ _ _ E) as (R1 & R2 & _). destruct (R2 _ X1) as (f & X2). rewrite E. ob.
  assert (C2 : sock w' c = Some ch) by (rewrite R1, sock_upd, eqb_neq by auto; exact C).
  rewrite C2. ob. unfold u_peername. rewrite PCH. cbn [does].
  set (ch' := set_fd (if nb then set_nonblock ch true else ch) true).
  exists (upd w' c ch'), cs. split; [reflexivity|]. split.
  - apply (set_file_inv w' cs c ch); auto; try (unfold ch'; destruct nb; reflexivity).
    + intros _. unfold is_open. rewrite PCH. reflexivity.
    + intros z t b' q' l' Z PZ Ck. destruct (Z.eq_dec z x) as [->|NZ].
      * assert (t = set_bits s1 f) by congruence. subst t. cbn in PZ. injection PZ as <- <- <-. contradiction.
      * rewrite R1, sock_upd, eqb_neq in Z by auto. apply NZ. eapply (i_apart _ _ I z t _ _ _ x s); eauto. cbn. auto.
  - apply (sim_kext _ (kput (kput S x (abs s1)) c (abs ch'))).
    + apply (sim_upd _ _ c ch); auto; [|unfold ch', is_open; destruct nb; reflexivity].
      apply (sim_refresh (upd w x s1)); auto. apply (sim_upd w S x s); auto.
    + intro z. cbn [kput ks]. destruct (z =? c); [unfold abs, ch'; destruct nb; cbn; rewrite ?PCH; reflexivity|].
      destruct (z =? x); [|reflexivity]. unfold abs, k_set_role. cbn. rewrite P. reflexivity.
    + reflexivity.
    + reflexivity.
Qed.
