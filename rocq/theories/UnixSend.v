(** Sending through unix sockets does what the specification says. *)
From Verif Require Import Base FMap UnixModel UnixSpec UnixFacts UnixInv UnixOps UnixLink UnixCall.

(* ------------------------------------------------------------------ bytes in flight *)
Lemma from_conn x y l : from_x x (map (fun i => (y, @None (list Z), payload i)) l) = if y =? x then bytes l else 0.
Proof.
  unfold from_x, bytes. rewrite map_map. cbn [fst snd]. destruct (y =? x); [reflexivity|]. apply zsum_zero. auto.
Qed.
Lemma from_gram x r l : Forall2 entry_ok r l -> from_x x (map (fun e => (fst (fst e), payload (snd e))) (combine r l)) = from_r x r.
Proof.
  unfold from_x, from_r, zsum. induction 1 as [|e i r l E _ IH]; [reflexivity|]. cbn [combine map fold_right fst snd]. rewrite IH.
  unfold entry_ok in E. rewrite E. reflexivity.
Qed.
Lemma flight_gram w S x s : Inv w [] -> sim w S -> sock w x = Some s -> us_type s = UDgram -> in_flight S x = gsum w x.
Proof.
  intros I (A & N & _) X T. unfold in_flight, gsum. rewrite N. apply zsum_ext. intros i _. rewrite A.
  destruct (sock w (Z.of_nat i)) as [t|] eqn:Z; [|reflexivity]. cbn [option_map abs k_in].
  pose proof (i_sock _ _ I _ _ Z) as So. unfold sock_ok in So. destruct (us_proto t) as [|b q lim|b pa y| |b pa peer r|]; cbn [inbox]; try reflexivity.
  - rewrite from_conn. destruct (Z.eqb_spec y x) as [->|]; auto. destruct So as (TD & _ & _ & _ & p & Y & L).
    destruct L as (_ & TE & _). assert (p = s) by congruence. subst p. congruence.
  - apply from_gram. tauto.
Qed.
Lemma peer_unique w Q x s b pa y z t b' pa' : Inv w Q -> sock w x = Some s -> us_proto s = PConnected b pa y ->
  sock w z = Some t -> us_proto t = PConnected b' pa' x -> z = y.
Proof.
  intros I X P Z PZ. pose proof (i_sock _ _ I z t Z) as So. unfold sock_ok in So. rewrite PZ in So.
  destruct So as (_ & _ & _ & _ & p & Y & L). assert (p = s) by congruence. subst p.
  destruct L as (_ & _ & _ & M & _). rewrite P in M. destruct M as (M & _). auto.
Qed.
Lemma flight_conn w S x s b pa y p : Inv w [] -> sim w S -> sock w x = Some s -> us_proto s = PConnected b pa y ->
  sock w y = Some p -> is_open p = true -> in_flight S x = us_sent s.
Proof.
  intros I (A & N & _) X P Y O.
  pose proof (i_sock _ _ I x s X) as So. unfold sock_ok in So. rewrite P in So. destruct So as (TD & _ & _ & _ & p' & Y' & L).
  assert (p' = p) by congruence. subst p'. destruct L as (NXY & TE & _ & M & _).
  destruct (us_proto p) as [|b1 q1 l1|b1 pa1 x1| |b1 pa1 pe1 r1|] eqn:PP; try contradiction.
  2:{ unfold is_open in O. rewrite PP in O. discriminate O. }
  destruct M as (-> & _ & _ & M). rewrite M. cbn [informs map zsum fold_right]. rewrite Z.add_0_r. unfold in_flight. rewrite N.
  pose proof (i_base _ _ I y p Y) as (BY & _).
  rewrite (zsum_single (fun z => match ks S z with Some k => from_x x (k_in k) | None => 0 end) _ y); [|lia|].
  2:{ intros z NZ. rewrite A. destruct (sock w z) as [t|] eqn:Z; auto. cbn [option_map abs k_in].
      pose proof (i_sock _ _ I z t Z) as So. unfold sock_ok in So.
      destruct (us_proto t) as [|b2 q lim|b2 pa2 y2| |b2 pa2 peer r|] eqn:PZ; cbn [inbox]; auto.
      - rewrite from_conn. destruct (Z.eqb_spec y2 x) as [->|]; auto. elim NZ. exact (peer_unique w [] x s b pa y z t b2 pa2 I X P Z PZ).
      - rewrite from_gram by tauto. unfold from_r. apply zsum_zero. intros e He. destruct (Z.eqb_spec (fst (fst e)) x) as [E|]; auto.
        destruct So as (_ & _ & _ & _ & _ & _ & _ & _ & _ & FR & _). rewrite Forall_forall in FR. destruct (FR e He) as (u & U & TU). congruence. }
  rewrite A, Y. cbn [option_map abs k_in]. rewrite PP. cbn [inbox]. rewrite from_conn, Z.eqb_refl. reflexivity.
Qed.

(* ------------------------------------------------------------------ putting bytes into a buffer *)
Definition grown (b : ubuf) (it : list item) : ubuf :=
  mkBuf (ub_items b ++ it) (bst_of (set_items b (ub_items b ++ it))) (ub_readers b) (ub_writers b) (ub_listeners b).
Lemma grow_eq b it : exists ch, buf_refresh (set_items b (ub_items b ++ it)) true =
  (grown b it, map (fun l => CBuf (fst l) (snd l) ch true) (ub_listeners b)).
Proof. eexists. unfold buf_refresh. rewrite Bool.andb_false_r. reflexivity. Qed.
Lemma grow_informs ch L z : informs (map (fun l : lkind * Z => CBuf (fst l) (snd l) ch true) L) z = 0.
Proof. unfold informs. rewrite map_map. apply zsum_zero. auto. Qed.
Lemma grow_closers ch L : closers (map (fun l : lkind * Z => CBuf (fst l) (snd l) ch true) L) = [].
Proof. unfold closers. induction L as [|l L IH]; auto. Qed.
(** The sender counts the bytes. *)
Lemma sent_inv w x s n : Inv w [] -> sock w x = Some s -> active_kind (us_proto s) -> 0 <= n -> us_sent s + n <= send_limit ->
  Inv (upd w x (set_sent s (us_sent s + n))) [CInform x n; CRefresh x].
Proof.
  intros I X K Hn Hs. set (s1 := set_sent s (us_sent s + n)).
  assert (IX : informs [CInform x n; CRefresh x] x = n).
  { unfold informs. cbn [map zsum fold_right]. rewrite Z.eqb_refl. lia. }
  assert (IO : forall z, z <> x -> informs [CInform x n; CRefresh x] z = 0).
  { intros z NZ. unfold informs. cbn [map zsum fold_right]. rewrite eqb_neq by auto. lia. }
  assert (DX : due [CInform x n; CRefresh x] x) by (apply due_cons; auto).
  assert (GM : forall k, is_gram w k -> is_gram (upd w x s1) k) by (intro; apply is_gram_upd with (s := s); auto).
  apply (upd_inv w [] _ x s); auto.
  - apply (child_same w [] x s); auto.
  - intros z t b pa NZ Z PZ L. apply (link_frame [] _ _ _ _ s); auto; [repeat split|]. intros (k & [] & _).
  - intros z t _ _ _ (k & [] & _).
  - intros z t NZ Z _ _. rewrite (gsum_upd_same w x s), IO by auto. reflexivity.
  - pose proof (i_sock _ _ I x s X) as So. unfold sock_ok in *. unfold s1 at 1. cbn [us_proto set_sent].
    destruct (us_proto s) as [|b q lim|b pa y| |b pa peer r|] eqn:P; try contradiction.
    + destruct So as (T & R & It & Se & p & Y & L). unfold s1. cbn [us_type us_buf us_sent set_sent]. repeat split; auto; try lia. fold s1.
      exists p. destruct (L) as (NXY & TE & W & M & BI). rewrite sock_upd, eqb_neq by auto. split; auto.
      unfold link_ok, s1. cbn [us_type us_buf us_sent set_sent]. rewrite IX. repeat split; auto.
      destruct (us_proto p); auto.
      * destruct M as (M1 & M2 & M3 & M4). repeat split; auto. rewrite M4. cbn. lia.
      * destruct M as (M1 & M2 & M3 & M4). repeat split; auto. lia.
    + destruct So as (T & R & W & Li & It & Fo & Se & SE & PE & FR & Bi).
      rewrite (gsum_upd_same w x s), IX; auto. unfold s1. cbn [us_type us_buf us_sent set_sent us_bits].
      cbn [informs map zsum fold_right] in SE. split; [exact T|]. do 5 (split; [auto|]). split; [lia|]. split; [lia|]. split; [auto|].
      split; [eapply Forall_impl; [|exact FR]; intros e; apply GM|]. auto.
  - exact (i_base _ _ I x s X).
  - constructor; [|constructor; [|constructor]].
    + split; auto. exists s1. rewrite sock_upd, Z.eqb_refl. split; auto. unfold s1. cbn. destruct (us_proto s); auto.
    + exists s1. rewrite sock_upd, Z.eqb_refl. auto.
  - intros b q lim PL k Ck. left. cbn in PL. eauto.
Qed.
(** Connected sockets. *)
Lemma deliver_conn w x s b pa y p it ch : Inv w [CInform x (bytes it); CRefresh x] -> sock w x = Some s -> us_proto s = PConnected b pa y ->
  sock w y = Some p -> is_open p = true -> it <> [] -> items_ok (us_type s) it ->
  Inv (upd w y (set_buf p (grown (us_buf p) it)))
      (CRefresh x :: map (fun l => CBuf (fst l) (snd l) ch true) (ub_listeners (us_buf p))).
Proof.
  intros I X P Y O NE ITS. set (Q := [CInform x (bytes it); CRefresh x]) in *.
  pose proof (i_sock _ _ I x s X) as So. unfold sock_ok in So. rewrite P in So. destruct So as (TD & _ & _ & _ & p' & Y' & L).
  assert (p' = p) by congruence. subst p'. destruct L as (NXY & TE & WP & M & BIX).
  destruct (us_proto p) as [|b1 q1 l1|b1 pa1 x1| |b1 pa1 pe1 r1|] eqn:PP; try contradiction.
  2:{ unfold is_open in O. rewrite PP in O. discriminate O. }
  destruct M as (-> & WX & LX & SX).
  pose proof (i_sock _ _ I y p Y) as Sp. unfold sock_ok in Sp. rewrite PP in Sp. destruct Sp as (TDp & RDp & ITp & SEp & s' & X' & Lp).
  assert (s' = s) by congruence. subst s'. destruct (Lp) as (_ & _ & _ & Mp & BIp). rewrite P in Mp. destruct Mp as (_ & _ & LP & SP).
  set (cs := map _ _). set (p1 := set_buf p (grown (us_buf p) it)).
  assert (IX : informs Q x = bytes it) by (unfold informs, Q; cbn [map zsum fold_right]; rewrite Z.eqb_refl; lia).
  assert (IO : forall z, z <> x -> informs Q z = 0) by (intros z NZ; unfold informs, Q; cbn [map zsum fold_right]; rewrite eqb_neq by auto; lia).
  assert (I' : forall z, informs (CRefresh x :: cs) z = 0) by (intro z; change (informs cs z = 0); apply grow_informs).
  assert (DY : due (CRefresh x :: cs) y).
  { exists (CBuf LRecv y ch true). split; [|cbn; rewrite !Bool.orb_true_r; reflexivity]. right. unfold cs.
    apply in_map_iff. exists (LRecv, y). split; [reflexivity|]. destruct LP as [-> | ->]; cbn; auto. }
  assert (GP : forall z, gpart z (Some p1) = gpart z (Some p)) by reflexivity.
  assert (X1 : sock (upd w y p1) x = Some s) by (rewrite sock_upd, eqb_neq by auto; auto).
  apply (upd_inv w Q _ y p); auto.
  - apply (child_same w Q y p); auto.
  - intros z t b2 pa2 NZ Z PZ Lz. assert (z = x) by (eapply (peer_unique w Q y p); eauto). subst z. assert (t = s) by congruence. subst t.
    unfold link_ok, p1. cbn [set_buf us_type us_buf grown ub_writers us_proto ub_items ub_listeners]. rewrite PP, bytes_app, I'. repeat split; auto.
    + rewrite SX, IX. lia.
    + right. apply due_cons. auto.
  - intros z t NZ Z _ _ V. destruct (Z.eq_dec z x) as [->|NX].
    + assert (t = s) by congruence. subst t. rewrite P in V. elim V. reflexivity.
    + rewrite I', IO; auto.
  - intros z t NZ Z _ (k & [<- |[<- |[]]] & R); apply due_cons; left; injection R as <-; reflexivity.
  - intros z t NZ Z _ TZ. rewrite (gsum_upd_same w y p), I' by auto. destruct (Z.eq_dec z x) as [->|NX]; [congruence|]. rewrite IO by auto. reflexivity.
  - unfold sock_ok, p1. cbn [set_buf us_type us_buf us_proto us_sent]. rewrite PP. fold p1. cbn [grown ub_readers ub_items].
    split; [exact TDp|]. split; [exact RDp|]. split; [apply Forall_app; split; [exact ITp|]; rewrite TE; exact ITS|]. split; [exact SEp|].
    exists s. split; [exact X1|]. unfold link_ok, p1. cbn [set_buf us_type us_buf grown ub_writers us_proto ub_items ub_listeners us_sent us_bits].
    rewrite P. repeat split; auto. rewrite I'. rewrite SP, IO; auto.
  - destruct (i_base _ _ I y p Y) as (B1 & B2 & B3 & B4 & B5). unfold base_ok. repeat split; auto; apply B1.
  - constructor.
    + exists s. exact X1.
    + unfold cs. apply Forall_map, Forall_forall. intros l Hl. assert (LL : l = (LRecv, y) \/ l = (LSend, x)).
      { destruct LP as [E|E]; rewrite E in Hl; cbn in Hl; destruct Hl as [<- |[<- |[]]]; auto. }
      destruct LL as [-> | ->]; cbn [fst snd cb_ok].
      * exists p1. rewrite sock_upd, Z.eqb_refl. split; auto. intros _ _. unfold p1. cbn. rewrite PP. auto.
      * exists s. split; [exact X1|]. congruence.
  - unfold Q. cbn [closers flat_map closes app]. change (flat_map closes cs) with (closers cs). apply grow_closers.
  - intros b2 q lim PL. unfold p1 in PL. cbn in PL. congruence.
Qed.
(** Datagram sockets. *)
Lemma deliver_gram w x s y p b1 pa1 pe1 r1 from m ch : Inv w [CInform x (blen m); CRefresh x] -> sock w x = Some s -> us_type s = UDgram -> x <> y ->
  sock w y = Some p -> us_proto p = PDgram b1 pa1 pe1 r1 ->
  Inv (upd w y (set_proto (set_buf p (grown (us_buf p) [IMsg m])) (PDgram b1 pa1 pe1 (r1 ++ [(x, from, blen m)]))))
      (CRefresh x :: map (fun l => CBuf (fst l) (snd l) ch true) (ub_listeners (us_buf p))).
Proof.
  intros I X TX NXY Y PP. set (Q := [CInform x (blen m); CRefresh x]) in *.
  pose proof (i_sock _ _ I y p Y) as Sp. unfold sock_ok in Sp. rewrite PP in Sp.
  destruct Sp as (T & R & W & Li & It & Fo & Se & SE & PE & FR & Bi).
  set (cs := map _ _). set (p1 := set_proto _ _).
  assert (IX : informs Q x = blen m) by (unfold informs, Q; cbn [map zsum fold_right]; rewrite Z.eqb_refl; lia).
  assert (IO : forall z, z <> x -> informs Q z = 0) by (intros z NZ; unfold informs, Q; cbn [map zsum fold_right]; rewrite eqb_neq by auto; lia).
  assert (I' : forall z, informs (CRefresh x :: cs) z = 0) by (intro z; change (informs cs z = 0); apply grow_informs).
  assert (DY : due (CRefresh x :: cs) y).
  { exists (CBuf LDgram y ch true). split; [|cbn; rewrite !Bool.orb_true_r; reflexivity]. right. unfold cs. rewrite Li. cbn. auto. }
  assert (GP : forall z, gpart z (Some p1) = gpart z (Some p) + if x =? z then blen m else 0).
  { intro z. unfold p1. cbn. rewrite PP. unfold from_r. rewrite map_app, zsum_app. cbn [map zsum fold_right fst snd]. lia. }
  pose proof (i_base _ _ I y p Y) as BY. pose proof (proj1 BY) as By.
  assert (GS : forall z, gsum (upd w y p1) z = gsum w z + if x =? z then blen m else 0).
  { intro z. rewrite (gsum_point w (upd w y p1) z y) by (auto; intros k NK; rewrite sock_upd, eqb_neq by auto; reflexivity).
    rewrite sock_upd, Z.eqb_refl, GP, Y. lia. }
  assert (X1 : sock (upd w y p1) x = Some s) by (rewrite sock_upd, eqb_neq by auto; auto).
  assert (GM : forall k, is_gram w k -> is_gram (upd w y p1) k) by (intro; apply is_gram_upd with (s := p); auto).
  apply (upd_inv w Q _ y p); auto.
  - unfold is_open. rewrite PP. reflexivity.
  - apply (child_same w Q y p); auto. rewrite PP. discriminate.
  - intros z t b2 pa2 NZ Z PZ _. pose proof (inv_unlinked w Q y p z t b2 pa2 I Y Z PZ) as H. rewrite PP in H. contradiction.
  - intros z t NZ Z _ TZ _. destruct (Z.eq_dec z x) as [->|NX]; [congruence|]. rewrite I', IO; auto.
  - intros z t NZ Z _ (k & [<- |[<- |[]]] & Rk); apply due_cons; left; injection Rk as <-; reflexivity.
  - intros z t NZ Z _ TZ. rewrite GS, I'. destruct (Z.eqb_spec x z) as [<-|NX]; [rewrite IX|rewrite IO by auto]; lia.
  - unfold sock_ok, p1. cbn [set_buf set_proto us_type us_buf us_proto us_sent grown ub_readers ub_writers ub_listeners ub_items us_bits]. fold p1.
    rewrite GS, I'. rewrite IO in SE by auto. rewrite eqb_neq by auto.
    do 4 (split; [auto|]). split; [apply Forall_app; split; auto; constructor; [discriminate|constructor]|].
    split; [apply Forall2_app; auto; constructor; [reflexivity|constructor]|]. split; [exact Se|]. split; [lia|]. split; [auto|]. split; [|auto].
    apply Forall_app. split; [eapply Forall_impl; [|exact FR]; intros e; apply GM|]. constructor; [|constructor]. exists s. auto.
  - destruct BY as (B1 & B2 & B3 & B4 & B5).
    assert (O : is_open p = true) by (unfold is_open; rewrite PP; reflexivity).
    unfold base_ok. repeat split; auto; try apply B1. intros n C _. specialize (B5 n C O). rewrite PP in B5. exact B5.
  - constructor.
    + exists s. exact X1.
    + unfold cs. rewrite Li. constructor; [|constructor]. cbn [fst snd cb_ok]. exists p1. rewrite sock_upd, Z.eqb_refl. split; [reflexivity|]. cbn. auto.
  - unfold Q. cbn [closers flat_map closes app]. change (flat_map closes cs) with (closers cs). apply grow_closers.
  - intros b2 q lim PL. discriminate PL.
Qed.

(* ------------------------------------------------------------------ the call *)
Definition wares (t : utype) (data : list Z) : list item := match t with UStream => map IByte data | _ => [IMsg data] end.
Lemma wares_bytes t data : bytes (wares t data) = blen data.
Proof. destruct t; cbn [wares]; [apply bytes_bytes| |]; unfold bytes; cbn [map zsum fold_right payload]; lia. Qed.
Lemma wares_ok t data : items_ok t (wares t data).
Proof.
  destruct t; cbn [wares]; [|repeat constructor; discriminate|repeat constructor; discriminate].
  apply Forall_map, Forall_forall. auto.
Qed.
Definition delivered (w : world) (x : Z) (s : usock) (y : Z) (p : usock) (n : Z) (data : list Z) : world * list cb :=
  if utype_eqb (us_type s) UStream && (n =? 0) then (w, []) else
  let (b, cs) := buf_refresh (set_items (us_buf p) (ub_items (us_buf p) ++ wares (us_type s) (firstn (Z.to_nat n) data))) true in
  (upd (upd w y (set_buf p b)) x (set_sent s (us_sent s + n)), cs).
Lemma firstn_blen data n : 0 <= n <= blen data -> blen (firstn (Z.to_nat n) data) = n.
Proof. unfold blen. intro H. rewrite firstn_length. lia. Qed.
Lemma firstn_whole data : firstn (Z.to_nat (blen data)) data = data.
Proof. unfold blen. rewrite Nat2Z.id. apply firstn_all. Qed.
Lemma common_send_eq w x s y d data : sock w x = Some s -> us_sent s <= send_limit ->
  common_send w x y true d data None =
  if x =? y then None else
  match sock w y with
  | None => None
  | Some p =>
      if ub_readers (us_buf p) =? 0 then Some (w, [], inr (Some (match us_type s with UDgram => ECONNREFUSED | _ => EPIPE end))) else
      match accepted (us_type s) (blen data) (send_limit - us_sent s) with
      | inr e => Some (w, [], inr (Some e))
      | inl None => Some (w, [], inr (if us_nonblock s || d then Some EAGAIN else None))
      | inl (Some n) => let (w, cs) := delivered w x s y p n data in Some (w, cs, inl n)
      end
  end.
Proof.
  intros X LE. unfold common_send. rewrite X. ob. cbn [negb]. destruct (Z.eqb_spec x y) as [->|NXY]; [reflexivity|].
  rewrite assert_true by reflexivity. destruct (sock w y) as [p|]; [|reflexivity]. ob.
  destruct (ub_readers (us_buf p) =? 0); [reflexivity|]. rewrite Z.max_l by lia.
  pose proof (blen_nonneg data) as BN.
  destruct (Z.eqb_spec (send_limit - us_sent s) 0) as [E0|N0].
  { rewrite E0. unfold accepted. destruct (us_type s); cbn; reflexivity. }
  assert (PK : (if blen data <=? send_limit - us_sent s
      then
       let
       '(b, cs, r) := write_packet (us_buf p) data None in
        let w := upd w y (set_buf p b) in
        match r with
        | inl _ => do s <- sock w x; Some (upd w x (set_sent s (us_sent s + blen data)), cs, inl (blen data))
        | inr e => Some (w, cs, inr (Some e))
        end
      else
       if blen data <=? send_limit
       then Some (w, [], inr (if us_nonblock s || d then Some EAGAIN else None))
       else Some (w, [], inr (Some EMSGSIZE))) =
     match (if send_limit - us_sent s <=? 0 then inl None else if blen data <=? send_limit - us_sent s then inl (Some (blen data))
            else if blen data <=? send_limit then inl None else inr EMSGSIZE) with
      | inr e => Some (w, [], inr (Some e))
      | inl None => Some (w, [], inr (if us_nonblock s || d then Some EAGAIN else None))
      | inl (Some n) =>
         let (w, cs) := (let (b, cs) := buf_refresh (set_items (us_buf p) (ub_items (us_buf p) ++ [IMsg (firstn (Z.to_nat n) data)])) true in
              (upd (upd w y (set_buf p b)) x (set_sent s (us_sent s + n)), cs)) in Some (w, cs, inl n)
      end).
  { destruct (Z.leb_spec (send_limit - us_sent s) 0); [lia|]. destruct (blen data <=? send_limit - us_sent s).
    - unfold write_packet. cbn [faulty]. rewrite firstn_whole. destruct (buf_refresh _ true) as [b' cs]. rewrite sock_upd, eqb_neq by auto. rewrite X. ob. reflexivity.
    - destruct (blen data <=? send_limit); reflexivity. }
  unfold accepted, delivered. destruct (us_type s); cbn [utype_eqb andb wares].
  - destruct (Z.leb_spec (send_limit - us_sent s) 0); [lia|].
    destruct (Z.eqb_spec (Z.min (blen data) (send_limit - us_sent s)) 0) as [EM|NM]; [rewrite EM; reflexivity|].
    set (n := Z.min (blen data) (send_limit - us_sent s)) in *. unfold write_stream. cbn [faulty].
    rewrite firstn_blen by lia. assert (GT : (0 <? n) = true) by (apply Z.ltb_lt; lia). rewrite GT.
    destruct (buf_refresh _ true) as [b' cs]. rewrite sock_upd, eqb_neq by auto. rewrite X. ob. reflexivity.
  - exact PK.
  - exact PK.
Qed.
Lemma refresh_any w Q x s : Inv w Q -> sock w x = Some s ->
  exists w' cs, refresh w x false = Some (w', cs) /\ Inv w' (Q ++ cs) /\ same_abs w w' /\ w_names w' = w_names w.
Proof.
  intros I X. assert (I1 : Inv w (CRefresh x :: Q)).
  { apply (Inv_q w Q); auto.
    - constructor; [exists s; auto|exact (i_cbs _ _ I)].
    - intros z t _ _ D. apply due_cons. auto. }
  destruct (refresh_ok w Q x s false I1 X) as (w' & cs & E & I2 & A2 & N2 & _); [discriminate|].
  exists w', cs. split; [exact E|]. split; [eapply Inv_perm; [apply Permutation_app_comm|exact I2]|]. auto.
Qed.
Lemma accepted_bounds t len r n : 0 <= len -> accepted t len r = inl (Some n) -> 0 <= n <= len /\ n <= r /\ (t <> UStream -> n = len).
Proof.
  unfold accepted. intros L. destruct t.
  - destruct (Z.leb_spec r 0); [discriminate|]. intro E. injection E as <-. repeat split; try lia. congruence.
  - destruct (Z.leb_spec r 0); [discriminate|]. destruct (Z.leb_spec len r); [|destruct (len <=? send_limit); discriminate].
    intro E. injection E as <-. repeat split; lia.
  - destruct (Z.leb_spec r 0); [discriminate|]. destruct (Z.leb_spec len r); [|destruct (len <=? send_limit); discriminate].
    intro E. injection E as <-. repeat split; lia.
Qed.
Lemma abs_conn_grown p b pa y t data : us_proto p = PConnected b pa y -> t <> UDgram ->
  abs (set_buf p (grown (us_buf p) (wares t data))) = k_set_in (abs p) (k_in (abs p) ++ parcels t y None data).
Proof.
  intros P T. unfold abs, k_set_in. cbn [us_type us_nonblock us_fd us_proto us_buf set_buf k_type k_nonblock k_fd k_name k_role k_in grown ub_items].
  f_equal. rewrite P. cbn [inbox]. rewrite map_app. f_equal. destruct t; [|congruence|reflexivity]. cbn [wares parcels]. rewrite map_map. reflexivity.
Qed.
Lemma parcels_from t x a b data : t <> UDgram -> parcels t x a data = parcels t x b data.
Proof. destruct t; intro H; [reflexivity|congruence|reflexivity]. Qed.

Lemma send_conn_ok w S x s b pa y dw data : Inv w [] -> sim w S -> sock w x = Some s -> us_proto s = PConnected b pa y ->
  does w (do (w, cs1, r) <- common_send w x y true dw data None;
          match r with
          | inr (Some e) => Some (w, cs1, RErr e)
          | inr None => Some (w, cs1, RBlock x WWritable)
          | inl n => do (w, cs2) <- refresh w x false; Some (w, cs1 ++ cs2, RSent n)
          end)
   (if x =? y then None else
      match ks S y with
      | None => None
      | Some d =>
          if gone d then Some (S, RErr (match us_type s with UDgram => ECONNREFUSED | _ => EPIPE end)) else
          match accepted (us_type s) (blen data) (room S x) with
          | inr e => Some (S, RErr e)
          | inl None => Some (S, would_block (abs s) dw x WWritable)
          | inl (Some n) =>
              Some (kput S y (k_set_in d (k_in d ++ parcels (us_type s) x (k_name (abs s)) (firstn (Z.to_nat n) data))), RSent n)
          end
      end).
Proof.
  intros I SI X P. pose proof (i_sock _ _ I x s X) as So. unfold sock_ok in So. rewrite P in So.
  destruct So as (TD & RD & IT & SE & p & Y & L). pose proof L as (NXY & TE & WP & M & BIX).
  rewrite (common_send_eq w x s y dw data X) by lia. rewrite (eqb_neq x y) by auto. rewrite (sim_get _ _ _ SI), Y. cbn [option_map].
  assert (RG : (ub_readers (us_buf p) =? 0) = gone (abs p)).
  { pose proof (i_sock _ _ I y p Y) as Sp. unfold sock_ok in Sp. unfold gone, abs. cbn [k_role].
    destruct (us_proto p); try contradiction; cbn [role_of]; destruct Sp as (_ & -> & _); reflexivity. }
  rewrite RG. destruct (gone (abs p)) eqn:G; [ob; apply does_same; auto|].
  assert (O : is_open p = true) by (rewrite open_gone, G; reflexivity).
  assert (RM : room S x = send_limit - us_sent s) by (unfold room; rewrite (flight_conn w S x s b pa y p); auto).
  rewrite RM. destruct (accepted (us_type s) (blen data) (send_limit - us_sent s)) as [[n|]|e] eqn:AC.
  - destruct (accepted_bounds _ _ _ _ (blen_nonneg data) AC) as (Hn & Hr & _).
    destruct (us_proto p) as [|b1 q1 l1|b1 pa1 x1| |b1 pa1 pe1 r1|] eqn:PP; try contradiction.
    2:{ unfold is_open in O. rewrite PP in O. discriminate O. }
    destruct M as (-> & _).
    unfold delivered. destruct (utype_eqb (us_type s) UStream && (n =? 0)) eqn:Z0.
    + apply Bool.andb_true_iff in Z0 as (Z1 & Z2). apply Z.eqb_eq in Z2. subst n.
      destruct (utype_eqb_ok (us_type s) UStream) as [TS|]; [|discriminate Z1].
      ob. destruct (refresh_any w [] x s I X) as (w' & cs & E & I' & A' & N'). rewrite E. ob. cbn [app does].
      exists w', cs. split; [reflexivity|]. split; [exact I'|]. apply (sim_refresh w); auto.
      apply (sim_kext _ _ _ SI); try reflexivity. intro z. cbn [kput ks]. destruct (Z.eqb_spec z y) as [->|]; auto.
      rewrite (sim_get _ _ _ SI), Y. cbn [option_map]. f_equal. rewrite TS. cbn [Z.to_nat firstn parcels map]. unfold k_set_in. rewrite app_nil_r. destruct (abs p); reflexivity.
    + set (it := wares (us_type s) (firstn (Z.to_nat n) data)).
      assert (BI : bytes it = n) by (unfold it; rewrite wares_bytes; apply firstn_blen; lia).
      assert (NE : it <> []).
      { intro E. rewrite E in BI. change (bytes []) with 0 in BI. subst n. unfold it in E. destruct (us_type s); [discriminate Z0|congruence|discriminate E]. }
      destruct (grow_eq (us_buf p) it) as (ch & GE). rewrite GE. ob.
      pose proof (sent_inv w x s n I X) as I1. rewrite P in I1. specialize (I1 Logic.I (proj1 Hn) ltac:(lia)).
      set (s1 := set_sent s (us_sent s + n)) in *.
      assert (Y1 : sock (upd w x s1) y = Some p) by (rewrite sock_upd, eqb_neq by auto; auto).
      assert (X1 : sock (upd w x s1) x = Some s1) by (rewrite sock_upd, Z.eqb_refl; auto).
      rewrite <- BI in I1.
      pose proof (deliver_conn (upd w x s1) x s1 b pa y p it ch I1 X1 P Y1 O NE (wares_ok _ _)) as I2.
      set (p1 := set_buf p (grown (us_buf p) it)) in *. set (cs := map _ _) in *.
      set (w2 := upd (upd w y p1) x s1).
      assert (SW : same_world (upd (upd w x s1) y p1) w2).
      { split; [|split; reflexivity]. intro z. unfold w2. rewrite !sock_upd. destruct (Z.eqb_spec z x) as [->|]; [rewrite eqb_neq by auto; reflexivity|reflexivity]. }
      apply (Inv_ext _ _ _ SW) in I2.
      assert (X2 : sock w2 x = Some s1) by (unfold w2; rewrite sock_upd, Z.eqb_refl; auto).
      destruct (refresh_ok w2 cs x s1 false I2 X2) as (w3 & cs3 & E3 & I3 & A3 & N3 & _); [discriminate|].
      rewrite E3. ob. cbn [does]. eexists w3, _. split; [reflexivity|]. split; [eapply Inv_perm; [apply Permutation_app_comm|exact I3]|].
      apply (sim_refresh w2); auto. apply (sim_ext _ _ _ SW). apply (sim_upd _ _ y p); auto.
      * apply (sim_keep w S x s); auto.
      * unfold p1, it. rewrite (abs_conn_grown p b1 pa1 x (us_type s)); auto. f_equal. f_equal. apply parcels_from. exact TD.
  - ob. unfold would_block. cbn [k_nonblock abs]. destruct (us_nonblock s || dw); apply does_same; auto.
  - ob. apply does_same; auto.
Qed.
Lemma gram_states w Q y p : Inv w Q -> sock w y = Some p -> us_type p = UDgram ->
  (exists b pa pe r, us_proto p = PDgram b pa pe r /\ ub_readers (us_buf p) = 1 /\ length r = length (ub_items (us_buf p))) \/
  (us_proto p = PDgramClosed /\ ub_readers (us_buf p) = 0).
Proof.
  intros I Y T. pose proof (i_sock _ _ I y p Y) as Sp. unfold sock_ok in Sp.
  destruct (us_proto p) as [|b q lim|b pa z| |b pa pe r|]; try (destruct Sp as (Sp & _); congruence); try tauto.
  left. exists b, pa, pe, r. split; [reflexivity|]. destruct Sp as (_ & R & _ & _ & _ & F & _). split; [exact R|].
  induction F; cbn; auto.
Qed.
Lemma combine_app {A B} (a a' : list A) (b b' : list B) : length a = length b -> combine (a ++ a') (b ++ b') = combine a b ++ combine a' b'.
Proof. revert b. induction a as [|x a IH]; intros [|y b] E; cbn in *; try lia; auto. rewrite IH by lia. reflexivity. Qed.
Lemma send_gram_ok w S x s b pa pe r y dw data : Inv w [] -> sim w S -> sock w x = Some s -> us_proto s = PDgram b pa pe r -> is_gram w y ->
  does w (do (w, cs1, r) <- common_send w x y true dw data None;
          match r with
          | inr (Some e) => Some (w, cs1, RErr e)
          | inr None => Some (w, cs1, RBlock x WWritable)
          | inl n =>
              do p <- sock w y;
              do w <- match us_proto p with
                      | PDgram b' pa q r => Some (upd w y (set_proto p (PDgram b' pa q (r ++ [(x, b, n)]))))
                      | _ => None
                      end;
              do (w, cs2) <- refresh w x false;
              Some (w, cs1 ++ cs2, RSent n)
          end)
   (if x =? y then None else
      match ks S y with
      | None => None
      | Some d =>
          if gone d then Some (S, RErr (match us_type s with UDgram => ECONNREFUSED | _ => EPIPE end)) else
          match accepted (us_type s) (blen data) (room S x) with
          | inr e => Some (S, RErr e)
          | inl None => Some (S, would_block (abs s) dw x WWritable)
          | inl (Some n) =>
              Some (kput S y (k_set_in d (k_in d ++ parcels (us_type s) x (k_name (abs s)) (firstn (Z.to_nat n) data))), RSent n)
          end
      end).
Proof.
  intros I SI X P (p & Y & TY). pose proof (i_sock _ _ I x s X) as So. unfold sock_ok in So. rewrite P in So.
  destruct So as (TD & _ & _ & _ & _ & _ & SE & SG & _).
  rewrite (common_send_eq w x s y dw data X) by lia. destruct (Z.eqb_spec x y) as [->|NXY]; [reflexivity|].
  rewrite (sim_get _ _ _ SI), Y. cbn [option_map].
  destruct (gram_states w [] y p I Y TY) as [(b1 & pa1 & pe1 & r1 & PP & RP & LR)|(PP & RP)]; rewrite RP; [change (1 =? 0) with false|change (0 =? 0) with true]; cbv iota;
    unfold gone; cbn [k_role abs]; rewrite PP; cbn [role_of].
  2:{ ob. apply does_same; auto. }
  assert (RM : room S x = send_limit - us_sent s).
  { unfold room. rewrite (flight_gram w S x s); auto. rewrite SG. cbn. lia. }
  rewrite RM. destruct (accepted (us_type s) (blen data) (send_limit - us_sent s)) as [[n|]|e] eqn:AC.
  - destruct (accepted_bounds _ _ _ _ (blen_nonneg data) AC) as (Hn & Hr & Hw).
    assert (n = blen data) by (apply Hw; rewrite TD; discriminate). subst n. clear Hw.
    unfold delivered. rewrite TD. cbn [utype_eqb andb wares]. rewrite firstn_whole.
    destruct (grow_eq (us_buf p) [IMsg data]) as (ch & GE). rewrite GE. ob.
    rewrite sock_upd, (eqb_neq y x), sock_upd, Z.eqb_refl by auto. ob. cbn [us_proto set_buf]. rewrite PP. ob.
    pose proof (sent_inv w x s (blen data) I X) as I1. rewrite P in I1. specialize (I1 Logic.I (proj1 Hn) ltac:(lia)).
    set (s1 := set_sent s (us_sent s + blen data)) in *.
    assert (Y1 : sock (upd w x s1) y = Some p) by (rewrite sock_upd, eqb_neq by auto; auto).
    assert (X1 : sock (upd w x s1) x = Some s1) by (rewrite sock_upd, Z.eqb_refl; auto).
    pose proof (deliver_gram (upd w x s1) x s1 y p b1 pa1 pe1 r1 b data ch I1 X1 TD NXY Y1 PP) as I2.
    set (p1 := set_proto _ _) in *. set (cs := map _ _) in *.
    match goal with |- context [refresh ?W x false] => set (w2 := W) end.
    assert (SW : same_world (upd (upd w x s1) y p1) w2).
    { split; [|split; reflexivity]. intro z. unfold w2. rewrite !sock_upd. destruct (z =? x), (z =? y); reflexivity. }
    apply (Inv_ext _ _ _ SW) in I2.
    assert (X2 : sock w2 x = Some s1) by (unfold w2; rewrite sock_upd, eqb_neq, sock_upd, Z.eqb_refl by auto; auto).
    destruct (refresh_ok w2 cs x s1 false I2 X2) as (w3 & cs3 & E3 & I3 & A3 & N3 & _); [discriminate|].
    rewrite E3. ob. cbn [does]. eexists w3, _. split; [reflexivity|]. split; [eapply Inv_perm; [apply Permutation_app_comm|exact I3]|].
    apply (sim_refresh w2); auto. apply (sim_ext _ _ _ SW). apply (sim_upd _ _ y p); auto.
    + apply (sim_keep w S x s); auto.
    + unfold is_open, p1. cbn. rewrite PP. reflexivity.
    + unfold p1, abs, k_set_in.
      cbn [set_proto set_buf us_type us_nonblock us_fd us_proto us_buf set_buf k_type k_nonblock k_fd k_name k_role k_in grown ub_items inbox bound_of role_of parcels].
      rewrite PP, P. cbn [inbox bound_of role_of]. f_equal. rewrite combine_app by exact LR. rewrite map_app. reflexivity.
  - ob. unfold would_block. cbn [k_nonblock abs]. destruct (us_nonblock s || dw); apply does_same; auto.
  - ob. apply does_same; auto.
Qed.
Lemma bad_flags w x y dw data s : sock w x = Some s -> common_send w x y false dw data None = Some (w, [], inr (Some EINVAL)).
Proof. intro X. unfold common_send. rewrite X. reflexivity. Qed.
Lemma send_ok w S x a c f dw data : Inv w [] -> sim w S ->
  does w (syscall w (Send x a c f dw data None)) (s_step S (Send x a c f dw data None)).
Proof.
  intros I SI. cbn [syscall s_step]. apply with_ok; auto. intros s X F O.
  unfold u_send, s_send, unconnected, destination. cbn [k_role k_type abs].
  pose proof (i_sock _ _ I x s X) as So. unfold sock_ok in So.
  destruct (us_proto s) as [bound|b q lim|b pa y| |b pa peer r|] eqn:P; cbn [role_of negb andb].
  - destruct So as (TD & _). destruct (us_type s) eqn:T; [|congruence|].
    + destruct a; apply does_same; auto.
    + destruct a; apply does_same; auto.
  - destruct a; apply does_same; auto.
  - destruct So as (TD & _). destruct c; [apply does_same; auto|].
    assert (R : resolve w (us_type s) (Some y) a =
      match a with Some AOther => inr EINVAL | None => inl y
      | Some (AUnix _) => match us_type s with UStream => inr EISCONN | _ => inl y end end).
    { unfold resolve. destruct a as [[p|]|]; auto. destruct (us_type s); auto. congruence. }
    rewrite R. clear R.
    assert (CORE := send_conn_ok w S x s b pa y dw data I SI X P).
    destruct f.
    + destruct a as [[p|]|]; [destruct (us_type s) eqn:T| |]; try (apply does_same; auto; fail); exact CORE.
    + clear CORE. destruct a as [[p|]|]; [destruct (us_type s) eqn:T| |]; rewrite ?(bad_flags w x y dw data s X); cbn [negb]; try (ob; apply does_same; auto; fail).
  - destruct a; apply does_same; auto.
  - destruct So as (TD & _ & _ & _ & _ & _ & _ & _ & PE & _). destruct c; [apply does_same; auto|].
    set (dest := match a with Some AOther => inr EINVAL | Some (AUnix p) => lookup_address w (us_type s) p
                 | None => match peer with Some y => inl y | None => inr ENOTCONN end end).
    assert (R : resolve w (us_type s) peer a = dest).
    { unfold resolve, dest. destruct a as [[p|]|]; auto; destruct peer; auto; rewrite TD; reflexivity. }
    assert (R2 : (match option_map (fun y => (y, pa)) peer, a with
                  | _, Some AOther => inr EINVAL
                  | _, Some (AUnix p) => owner S (us_type s) p
                  | Some (y, _), None => inl y
                  | None, None => inr ENOTCONN end) = dest).
    { unfold dest. destruct a as [[p|]|]; destruct peer; cbn; auto; apply owner_eq; auto. }
    assert (G : forall y, dest = inl y -> is_gram w y).
    { unfold dest. intros y E. destruct a as [[p|]|]; try discriminate E.
      - destruct (owner_sock w _ p y I E) as (u & U & TU & _). exists u. split; auto. congruence.
      - destruct peer as [z|]; [|discriminate E]. injection E as <-. auto. }
    rewrite R.
    match goal with |- does w _ (match ?D with inl y => _ | inr e => _ end) => replace D with dest by
      (rewrite <- R2; destruct a as [[p|]|]; destruct peer as [z|]; reflexivity) end.
    destruct dest as [y|e]; [|apply does_same; auto]. destruct f; cbn [negb].
    + exact (send_gram_ok w S x s b pa peer r y dw data I SI X P (G y eq_refl)).
    + rewrite (bad_flags w x y dw data s X). ob. apply does_same; auto.
  - destruct a; apply does_same; auto.
Qed.
