(** Receiving from unix sockets does what the specification says. *)
From Verif Require Import Base FMap UnixModel UnixSpec UnixFacts UnixInv UnixOps UnixLink UnixCall UnixSend.

Definition shrunk (b : ubuf) (l : list item) : ubuf :=
  mkBuf l (bst_of (set_items b l)) (ub_readers b) (ub_writers b) (ub_listeners b).
(** The buffer's listeners may be called, without a sign that the buffer grew. *)
Definition quiet (b : ubuf) (cs : list cb) : Prop :=
  cs = [] \/ exists ch, cs = map (fun l => CBuf (fst l) (snd l) ch false) (ub_listeners b).
Lemma shrink_eq b l : exists cs, buf_refresh (set_items b l) false = (shrunk b l, cs) /\ quiet b cs.
Proof.
  eexists. split; [reflexivity|]. unfold quiet. destruct (negb _ && negb false); [auto|]. right. eexists. reflexivity.
Qed.
Lemma stream_items l : items_ok UStream l -> exists d, l = map IByte d.
Proof.
  induction 1 as [|i l H _ (d & ->)]; [exists []; reflexivity|]. destruct i as [b|m]; [|congruence]. exists (b :: d). reflexivity.
Qed.
Lemma stream_part_bytes d : stream_part (map IByte d) = d.
Proof. induction d as [|b d IH]; [reflexivity|]. cbn. rewrite IH. reflexivity. Qed.
Definition goods (t : utype) (cap : Z) (l : list item) : list Z :=
  match t with
  | UStream => concat (map payload (firstn (Z.to_nat cap) l))
  | _ => match l with i :: _ => firstn (Z.to_nat cap) (payload i) | [] => [] end
  end.
Definition rest_of (t : utype) (cap : Z) (l : list item) : list item :=
  match t with UStream => skipn (Z.to_nat cap) l | _ => tl l end.
Definition size_of (t : utype) (cap : Z) (l : list item) : Z :=
  match t with UStream => blen (goods t cap l) | _ => match l with i :: _ => blen (payload i) | [] => 0 end end.
Lemma goods_bytes cap d : goods UStream cap (map IByte d) = firstn (Z.to_nat cap) d.
Proof.
  unfold goods. generalize (Z.to_nat cap). intro n. revert d. induction n as [|n IH]; intros [|b d]; try reflexivity.
  cbn [map firstn concat payload app]. rewrite IH. reflexivity.
Qed.
Lemma size_ok t cap l : items_ok t l -> bytes l = size_of t cap l + bytes (rest_of t cap l) /\ 0 <= size_of t cap l /\ items_ok t (rest_of t cap l).
Proof.
  intro H. unfold rest_of, size_of. destruct t.
  - destruct (stream_items l H) as (d & ->). rewrite goods_bytes. rewrite <- (firstn_skipn (Z.to_nat cap) d) at 1.
    rewrite map_app, bytes_app, !bytes_bytes. rewrite skipn_map, bytes_bytes. repeat split; [apply blen_nonneg|].
    apply Forall_map, Forall_forall. auto.
  - inversion H; subst; cbn [tl]; [repeat split; auto; cbn; lia|]. split; [reflexivity|]. split; [apply blen_nonneg|auto].
  - inversion H; subst; cbn [tl]; [repeat split; auto; cbn; lia|]. split; [reflexivity|]. split; [apply blen_nonneg|auto].
Qed.
Lemma skipn_min {A} n (l : list A) : skipn (Nat.min n (length l)) l = skipn n l.
Proof. revert l. induction n as [|n IH]; intros [|a l]; cbn; auto. Qed.
Lemma buf_read_eq t b cap : items_ok t (ub_items b) ->
  exists cs, buf_read b cap None = (shrunk b (rest_of t cap (ub_items b)), cs, inl (goods t cap (ub_items b), size_of t cap (ub_items b))) /\ quiet b cs.
Proof.
  intro H. unfold buf_read.
  destruct (shrink_eq b (rest_of t cap (ub_items b))) as (cs & E & Qu). exists cs. split; auto.
  destruct (ub_items b) as [|[x|m] r] eqn:L.
  - assert (R : rest_of t cap [] = []) by (unfold rest_of; destruct t; auto; destruct (Z.to_nat cap); reflexivity). rewrite R in *. rewrite E.
    f_equal. f_equal. unfold goods, size_of, goods. destruct t; auto. destruct (Z.to_nat cap); reflexivity.
  - inversion H as [|? ? T H']; subst. destruct (stream_items _ H) as (d & D). rewrite D in *. rewrite stream_part_bytes. cbn [faulty].
    unfold size_of. rewrite goods_bytes. rewrite firstn_length. unfold rest_of in *.
    replace (skipn (Nat.min (Z.to_nat cap) (length d)) (map IByte d)) with (skipn (Z.to_nat cap) (map IByte d))
      by (rewrite <- (map_length IByte d), skipn_min; reflexivity).
    rewrite E. reflexivity.
  - inversion H as [|? ? T H']; subst. cbn [faulty]. unfold rest_of, goods, size_of in *. destruct t; [congruence| |]; cbn [tl] in *; rewrite E; reflexivity.
Qed.

Lemma quiet_informs b cs z : quiet b cs -> informs cs z = 0.
Proof. intros [-> |(ch & ->)]; [reflexivity|]. unfold informs. rewrite map_map. apply zsum_zero. auto. Qed.
Lemma quiet_closers b cs : quiet b cs -> closers cs = [].
Proof. intros [-> |(ch & ->)]; [reflexivity|]. induction (ub_listeners b) as [|l L IH]; auto. Qed.
Lemma quiet_ok w b cs : quiet b cs -> Forall (fun l => exists s, sock w (snd l) = Some s) (ub_listeners b) -> Forall (cb_ok w) cs.
Proof.
  intros [-> |(ch & ->)] F; [constructor|]. apply Forall_map. eapply Forall_impl; [|exact F]. intros l (s & H). exists s. split; auto. discriminate.
Qed.
(** Taking something from the buffer of a connected socket. *)
Lemma take_conn w x s b pa y l n cs : Inv w [] -> sock w x = Some s -> us_proto s = PConnected b pa y ->
  bytes (ub_items (us_buf s)) = n + bytes l -> 0 <= n -> items_ok (us_type s) l -> quiet (us_buf s) cs ->
  Inv (upd w x (set_buf s (shrunk (us_buf s) l))) (CRefresh x :: cs ++ if 0 <? n then [CInform y n] else []).
Proof.
  intros I X P BY Hn IO QU. set (Q' := CRefresh x :: _). set (s1 := set_buf s _).
  pose proof (i_sock _ _ I x s X) as So. unfold sock_ok in So. rewrite P in So. destruct So as (TD & RD & IT & SE & p & Y & L).
  pose proof L as (NXY & TE & WP & M & BIX).
  assert (IZ : forall z, informs Q' z = if z =? y then n else 0).
  { intro z. unfold Q'. change (informs (cs ++ (if 0 <? n then [CInform y n] else [])) z = if z =? y then n else 0).
    rewrite informs_app, (quiet_informs _ _ _ QU). rewrite (Z.eqb_sym z y).
    destruct (Z.ltb_spec 0 n); unfold informs; cbn [map zsum fold_right]; destruct (y =? z); lia. }
  assert (NOX : forall z, z <> y -> informs Q' z = 0) by (intros; rewrite IZ, eqb_neq by auto; reflexivity).
  assert (Y1 : sock (upd w x s1) y = Some p) by (rewrite sock_upd, eqb_neq by auto; auto).
  assert (DX : due Q' x) by (apply due_cons; auto).
  apply (upd_inv w [] _ x s); auto.
  - apply (child_same w [] x s); auto.
  - intros z t b2 pa2 NZ Z PZ Lz. assert (z = y) by exact (peer_unique w [] x s b pa y z t b2 pa2 I X P Z PZ). subst z. assert (t = p) by congruence. subst t.
    destruct Lz as (L1 & L2 & L3 & L4 & L5). rewrite P in L4. destruct L4 as (_ & L6 & L7 & L8).
    unfold link_ok, s1. cbn [set_buf us_type us_buf shrunk ub_writers us_proto ub_items ub_listeners]. rewrite P, IZ, Z.eqb_refl. repeat split; auto.
    + rewrite L8. cbn. lia.
    + destruct L5 as [L5|(k & [] & _)]. left. exact L5.
  - intros z t NZ Z OZ TZ V. rewrite NOX; [reflexivity|]. intros ->. assert (t = p) by congruence. subst t. apply V.
    destruct (us_proto p) eqn:PP; try contradiction; [destruct M as (-> & _); reflexivity|]. unfold is_open in OZ. rewrite PP in OZ. discriminate OZ.
  - intros z t _ _ _ (k & [] & _).
  - intros z t NZ Z _ TZ. rewrite (gsum_upd_same w x s) by auto. rewrite NOX; [reflexivity|]. intros ->. congruence.
  - unfold sock_ok, s1. cbn [set_buf us_type us_buf us_proto us_sent]. rewrite P. fold s1. cbn [shrunk ub_readers ub_items].
    split; [exact TD|]. split; [exact RD|]. split; [exact IO|]. split; [exact SE|]. exists p. split; [exact Y1|].
    unfold link_ok, s1. cbn [set_buf us_type us_buf shrunk ub_writers us_proto ub_items ub_listeners us_sent us_bits]. rewrite (NOX x) by auto. split; [exact NXY|]. split; [exact TE|]. split; [exact WP|]. split; [exact M|right; exact DX].
  - destruct (i_base _ _ I x s X) as (B1 & B2 & B3 & B4 & B5). unfold base_ok. repeat split; auto; apply B1.
  - constructor; [exists s1; rewrite sock_upd, Z.eqb_refl; auto|]. apply Forall_app. split.
    + apply (quiet_ok _ (us_buf s)); auto. destruct (us_proto p); try contradiction; destruct M as (_ & M).
      * destruct M as (_ & [-> | ->] & _); repeat constructor; cbn [snd]; first [exists p; exact Y1|exists s1; rewrite sock_upd, Z.eqb_refl; reflexivity].
      * destruct M as (-> & _); repeat constructor; cbn [snd]. exists s1; rewrite sock_upd, Z.eqb_refl; reflexivity.
    + destruct (0 <? n); [|constructor]. constructor; [|constructor]. split; [exact Hn|]. exists p. split; [exact Y1|].
      destruct (us_proto p); auto.
  - unfold Q'. change (closers (cs ++ (if 0 <? n then [CInform y n] else [])) = []). rewrite closers_app, (quiet_closers _ _ QU). destruct (0 <? n); reflexivity.
  - intros b2 q lim PL. cbn in PL. congruence.
Qed.
Lemma take_gram w x s b pa pe from addr num r i l cs : Inv w [] -> sock w x = Some s -> us_proto s = PDgram b pa pe ((from, addr, num) :: r) ->
  ub_items (us_buf s) = i :: l -> quiet (us_buf s) cs ->
  num = blen (payload i) /\
  Inv (upd w x (set_proto (set_buf s (shrunk (us_buf s) l)) (PDgram b pa pe r))) (CRefresh x :: cs ++ [CInform from num]).
Proof.
  intros I X P IL QU. set (Q' := CRefresh x :: _). set (s1 := set_proto _ _).
  pose proof (i_sock _ _ I x s X) as So. unfold sock_ok in So. rewrite P in So.
  destruct So as (T & R & W & Li & It & Fo & Se & SE & PE & FR & Bi). rewrite IL in *.
  inversion Fo as [|? ? ? ? EO Fo']; subst. inversion FR as [|? ? GF FR']; subst. inversion It as [|? ? II It']; subst.
  unfold entry_ok in EO. cbn [fst snd] in *. split; [exact EO|].
  assert (Hn : 0 <= num) by (rewrite EO; apply blen_nonneg).
  assert (IZ : forall z, informs Q' z = if from =? z then num else 0).
  { intro z. unfold Q'. change (informs (cs ++ [CInform from num]) z = if from =? z then num else 0).
    rewrite informs_app, (quiet_informs _ _ _ QU). unfold informs. cbn [map zsum fold_right]. lia. }
  assert (GP : forall z, gpart z (Some s) = gpart z (Some s1) + if from =? z then num else 0).
  { intro z. unfold s1. cbn. rewrite P. unfold from_r. cbn [map zsum fold_right fst snd]. unfold zsum. lia. }
  pose proof (i_base _ _ I x s X) as BX. pose proof (proj1 BX) as Bx.
  assert (GS : forall z, gsum w z = gsum (upd w x s1) z + if from =? z then num else 0).
  { intro z. rewrite (gsum_point w (upd w x s1) z x) by (auto; intros k NK; rewrite sock_upd, eqb_neq by auto; reflexivity).
    rewrite sock_upd, Z.eqb_refl, X, GP. lia. }
  assert (GM : forall k, is_gram w k -> is_gram (upd w x s1) k) by (intro; apply is_gram_upd with (s := s); auto).
  assert (DX : due Q' x) by (apply due_cons; auto).
  apply (upd_inv w [] _ x s); auto.
  - unfold is_open. rewrite P. reflexivity.
  - apply (child_same w [] x s); auto. rewrite P. discriminate.
  - intros z t b2 pa2 NZ Z PZ _. pose proof (inv_unlinked w [] x s z t b2 pa2 I X Z PZ) as H. rewrite P in H. contradiction.
  - intros z t NZ Z _ TZ _. rewrite IZ. destruct (Z.eqb_spec from z) as [->|]; [|reflexivity]. destruct GF as (u & U & TU). congruence.
  - intros z t _ _ _ (k & [] & _).
  - intros z t NZ Z _ TZ. rewrite GS, IZ. cbn. lia.
  - unfold sock_ok, s1. cbn [set_buf set_proto us_type us_buf us_proto us_sent shrunk ub_readers ub_writers ub_listeners ub_items us_bits]. fold s1.
    do 4 (split; [auto|]). split; [exact It'|]. split; [exact Fo'|]. split; [exact Se|]. split; [rewrite SE, GS, IZ; cbn; lia|]. split; [auto|].
    split; [eapply Forall_impl; [|exact FR']; intros e; apply GM|]. auto.
  - destruct BX as (B1 & B2 & B3 & B4 & B5).
    assert (O : is_open s = true) by (unfold is_open; rewrite P; reflexivity).
    unfold base_ok. repeat split; auto; try apply B1. intros n C _. specialize (B5 n C O). rewrite P in B5. exact B5.
  - constructor; [exists s1; rewrite sock_upd, Z.eqb_refl; auto|]. apply Forall_app. split.
    + apply (quiet_ok _ (us_buf s)); auto. rewrite Li. repeat constructor. cbn [snd]. exists s1; rewrite sock_upd, Z.eqb_refl; reflexivity.
    + constructor; [|constructor]. split; [exact Hn|]. destruct (GM from GF) as (u & U & TU). exists u. split; [exact U|].
      rewrite sock_upd in U. destruct (Z.eqb_spec from x) as [->|]; [injection U as <-; cbn; auto|].
      destruct (gram_states w [] from u I U TU) as [(? & ? & ? & ? & -> & _)|(-> & _)]; auto.
  - unfold Q'. change (closers (cs ++ [CInform from num]) = []). rewrite closers_app, (quiet_closers _ _ QU). reflexivity.
  - intros b2 q lim PL. cbn in PL. discriminate PL.
Qed.

Lemma recv_bad w x s dw tr cap : sock w x = Some s -> common_recv w x false dw tr cap None = Some (w, [], inr (Some EINVAL)).
Proof. intro X. unfold common_recv. rewrite X. reflexivity. Qed.
Lemma recv_eq w x s dw tr cap : sock w x = Some s -> items_ok (us_type s) (ub_items (us_buf s)) ->
  let l := ub_items (us_buf s) in let t := us_type s in
  exists cs, quiet (us_buf s) cs /\
  common_recv w x true dw tr cap None =
  if negb (has_data (us_buf s)) && (utype_eqb t UDgram || (0 <? ub_writers (us_buf s)))
  then Some (w, [], inr (if us_nonblock s || dw then Some EAGAIN else None))
  else Some (upd w x (set_buf s (shrunk (us_buf s) (rest_of t cap l))), cs,
             inl (if tr && negb (utype_eqb t UStream)
                  then (size_of t cap l, goods t cap l, size_of t cap l, blen (goods t cap l) <? size_of t cap l)
                  else (blen (goods t cap l), goods t cap l, size_of t cap l, false))).
Proof.
  intros X IO l t. destruct (buf_read_eq t (us_buf s) cap IO) as (cs & E & QU). exists cs. split; auto.
  unfold common_recv. rewrite X. ob. cbn [negb]. fold t. destruct (negb (has_data (us_buf s)) && _); [reflexivity|].
  rewrite E. cbv beta iota zeta. destruct (tr && negb (utype_eqb t UStream)); reflexivity.
Qed.
Lemma conn_out y l cap : concat (map snd (firstn (Z.to_nat cap) (map (fun i => (y : Z, @None (list Z), payload i)) l))) = goods UStream cap l.
Proof. unfold goods. rewrite firstn_map, map_map. reflexivity. Qed.
Definition recv_rest (S : kstate) (x : Z) (k : ksock) (dw tr : bool) (cap : Z) : kstate * ures :=
  match k_in k, k_role k with
  | [], KConn y pn =>
      if is_gone S y then (S, RRecv 0 [] pn false) else (S, would_block k dw x WReadable)
  | [], _ => (S, would_block k dw x WReadable)
  | (_, from, m) :: rest, r =>
      let src := match r with KConn _ pn => pn | _ => from end in
      match k_type k with
      | UStream =>
          let out := concat (map snd (firstn (Z.to_nat cap) (k_in k))) in
          (kput S x (k_set_in k (skipn (Z.to_nat cap) (k_in k))), RRecv (blen out) out src false)
      | _ =>
          let out := firstn (Z.to_nat cap) m in
          (kput S x (k_set_in k rest),
           if tr then RRecv (blen m) out src (blen out <? blen m) else RRecv (blen out) out src false)
      end
  end.
Lemma recv_conn_ok w S x s b pa y dw tr cap : Inv w [] -> sim w S -> sock w x = Some s -> us_proto s = PConnected b pa y ->
  does w (do (w, cs1, r) <- common_recv w x true dw tr cap None;
          match r with
          | inr (Some e) => Some (w, cs1, RErr e)
          | inr None => Some (w, cs1, RBlock x WReadable)
          | inl (n, out, removed, t) =>
              let cs2 := if 0 <? removed then [CInform y removed] else [] in
              do (w, cs3) <- refresh w x false;
              Some (w, cs1 ++ cs2 ++ cs3, RRecv n out pa t)
          end) (Some (recv_rest S x (abs s) dw tr cap)).
Proof.
  intros I SI X P. pose proof (i_sock _ _ I x s X) as So. unfold sock_ok in So. rewrite P in So.
  destruct So as (TD & RD & IT & SE & p & Y & L). pose proof L as (NXY & TE & WP & M & BIX).
  destruct (recv_eq w x s dw tr cap X IT) as (cs & QU & E). cbn zeta in E. rewrite E. clear E.
  assert (ND : utype_eqb (us_type s) UDgram = false) by (destruct (us_type s); auto; congruence). rewrite ND. cbn [orb].
  assert (WG : (0 <? ub_writers (us_buf s)) = negb (is_gone S y)).
  { rewrite (sim_gone w S y SI), Y, Bool.negb_involutive. unfold is_open.
    destruct (us_proto p); try contradiction; [destruct M as (_ & -> & _)|destruct M as (-> & _)]; reflexivity. }
  rewrite WG. set (l := ub_items (us_buf s)) in *. set (t := us_type s) in *.
  assert (KI : k_in (abs s) = map (fun i => (y, None, payload i)) l) by (unfold abs; cbn [k_in]; rewrite P; reflexivity).
  assert (KR : k_role (abs s) = KConn y pa) by (unfold abs; cbn [k_role]; rewrite P; reflexivity).
  assert (HD : has_data (us_buf s) = match l with [] => false | _ => true end) by reflexivity.
  (* taking what there is *)
  assert (GO : forall n out rtr S', sim (upd w x (set_buf s (shrunk (us_buf s) (rest_of t cap l)))) S' ->
    does w (do (w, cs3) <- refresh (upd w x (set_buf s (shrunk (us_buf s) (rest_of t cap l)))) x false;
            Some (w, cs ++ (if 0 <? size_of t cap l then [CInform y (size_of t cap l)] else []) ++ cs3, RRecv n out pa rtr))
           (Some (S', RRecv n out pa rtr))).
  { intros n out rtr S' S1. destruct (size_ok t cap l IT) as (Z1 & Z2 & Z3).
    pose proof (take_conn w x s b pa y (rest_of t cap l) (size_of t cap l) cs I X P Z1 Z2 Z3 QU) as I1.
    set (s1 := set_buf s (shrunk (us_buf s) (rest_of t cap l))) in *.
    assert (X1 : sock (upd w x s1) x = Some s1) by (rewrite sock_upd, Z.eqb_refl; auto).
    destruct (refresh_ok _ _ x s1 false I1 X1) as (w3 & cs3 & E3 & I3 & A3 & N3 & _); [discriminate|].
    rewrite E3. ob. exists w3. eexists. split; [reflexivity|]. split.
    - eapply Inv_perm; [|exact I3]. rewrite Permutation_app_comm, <- app_assoc. reflexivity.
    - apply (sim_refresh (upd w x s1)); auto. }
  unfold recv_rest. rewrite KI, KR, HD. destruct l as [|i l'] eqn:LE.
  - cbn [map negb andb]. destruct (is_gone S y) eqn:G; cbn [negb].
    + ob. assert (GN : goods t cap [] = []) by (unfold goods; destruct t; auto; destruct (Z.to_nat cap); reflexivity).
      assert (SN : size_of t cap [] = 0) by (unfold size_of; rewrite GN; destruct t; reflexivity).
      assert (RN : rest_of t cap [] = []) by (unfold rest_of; destruct t; auto; destruct (Z.to_nat cap); reflexivity).
      specialize (GO 0 [] false S). rewrite GN, SN in *. rewrite RN in *.
      destruct (tr && negb (utype_eqb t UStream)); apply GO; apply (sim_keep w S x s); auto;
        unfold abs; cbn [set_buf us_buf shrunk ub_items us_type us_nonblock us_fd us_proto]; fold l; rewrite P, LE; reflexivity.
    + ob. unfold would_block. cbn [k_nonblock abs]. destruct (us_nonblock s || dw); apply does_same; auto.
  - cbn [negb andb]. ob.
    assert (SU : forall S', S' = kput S x (k_set_in (abs s) (map (fun i => (y, None, payload i)) (rest_of t cap (i :: l')))) ->
       sim (upd w x (set_buf s (shrunk (us_buf s) (rest_of t cap (i :: l'))))) S').
    { intros S' ->. apply (sim_upd w S x s); auto. unfold abs, k_set_in.
      cbn [set_buf us_buf shrunk ub_items us_type us_nonblock us_fd us_proto k_type k_nonblock k_fd k_name k_role]. rewrite P. reflexivity. }
    change (k_type (abs s)) with t. cbn [map].
    destruct t eqn:TE'; [|congruence|]; cbn [utype_eqb negb].
    + rewrite Bool.andb_false_r. cbv beta iota zeta.
      change ((y, None, payload i) :: map (fun i0 => (y, None, payload i0)) l') with (map (fun i0 => (y, @None (list Z), payload i0)) (i :: l')).
      rewrite conn_out. apply GO. apply SU. unfold rest_of. rewrite skipn_map. reflexivity.
    + rewrite Bool.andb_true_r. destruct tr; cbv beta iota zeta; apply GO; apply SU; reflexivity.
Qed.
Lemma recv_gram_ok w S x s b pa pe r dw tr cap : Inv w [] -> sim w S -> sock w x = Some s -> us_proto s = PDgram b pa pe r ->
  does w (do (w, cs1, r) <- common_recv w x true dw tr cap None;
          match r with
          | inr (Some e) => Some (w, cs1, RErr e)
          | inr None => Some (w, cs1, RBlock x WReadable)
          | inl (n, out, removed, tr) =>
              do s <- sock w x;
              match us_proto s with
              | PDgram b pa peer ((from, addr, num) :: rest) =>
                  check (removed =? num);
                  do (w, cs3) <- refresh (upd w x (set_proto s (PDgram b pa peer rest))) x false;
                  Some (w, cs1 ++ [CInform from num] ++ cs3, RRecv n out addr tr)
              | _ => None
              end
          end) (Some (recv_rest S x (abs s) dw tr cap)).
Proof.
  intros I SI X P. pose proof (i_sock _ _ I x s X) as So. unfold sock_ok in So. rewrite P in So.
  destruct So as (T & R & W & Li & It & Fo & Se & SE & PE & FR & Bi). rewrite <- T in It.
  destruct (recv_eq w x s dw tr cap X It) as (cs & QU & E). cbn zeta in E. rewrite E. clear E. rewrite T. cbn [utype_eqb orb negb].
  rewrite !Bool.andb_true_r. unfold recv_rest.
  assert (KR : k_role (abs s) = role_of (us_proto s)) by reflexivity.
  assert (KI : k_in (abs s) = inbox (us_proto s) (ub_items (us_buf s))) by reflexivity.
  rewrite KI, KR, P. cbn [inbox role_of]. clear KI KR.
  destruct (ub_items (us_buf s)) as [|i l] eqn:IL; inversion Fo as [|e ? r' ? EO Fo']; subst.
  - unfold has_data. rewrite IL. cbn [negb combine map]. ob. unfold would_block. cbn [k_nonblock abs].
    destruct (us_nonblock s || dw); apply does_same; auto.
  - unfold has_data. rewrite IL. cbn [negb combine map fst snd]. ob. destruct e as ((from, addr), num).
    destruct (take_gram w x s b pa pe from addr num r' i l cs I X P IL QU) as (EN & I1).
    change (rest_of UDgram cap (i :: l)) with l. change (goods UDgram cap (i :: l)) with (firstn (Z.to_nat cap) (payload i)).
    change (size_of UDgram cap (i :: l)) with (blen (payload i)). rewrite <- EN.
    change (k_type (abs s)) with (us_type s). rewrite T. cbn [fst snd].
    set (s0 := set_buf s (shrunk (us_buf s) l)) in *. set (s1 := set_proto s0 (PDgram b pa pe r')) in *.
    assert (GO : forall n out rtr S', sim (upd w x s1) S' ->
      does w (do s <- sock (upd w x s0) x;
              match us_proto s with
              | PDgram b pa peer ((from, addr, num') :: rest) =>
                  check (num =? num');
                  do (w, cs3) <- refresh (upd (upd w x s0) x (set_proto s (PDgram b pa peer rest))) x false;
                  Some (w, cs ++ [CInform from num'] ++ cs3, RRecv n out addr rtr)
              | _ => None
              end) (Some (S', RRecv n out addr rtr))).
    { intros n out rtr S' S1. rewrite sock_upd, Z.eqb_refl. ob. change (us_proto s0) with (us_proto s). rewrite P. rewrite Z.eqb_refl.
      rewrite assert_true by reflexivity. fold s1.
      assert (SW : same_world (upd w x s1) (upd (upd w x s0) x s1)).
      { split; [|split; reflexivity]. intro z. rewrite !sock_upd. destruct (z =? x); reflexivity. }
      apply (Inv_ext _ _ _ SW) in I1. apply (sim_ext _ _ _ SW) in S1. set (w2 := upd (upd w x s0) x s1) in *.
      assert (X1 : sock w2 x = Some s1) by (unfold w2; rewrite sock_upd, Z.eqb_refl; auto).
      destruct (refresh_ok _ _ x s1 false I1 X1) as (w3 & cs3 & E3 & I3 & A3 & N3 & _); [discriminate|].
      rewrite E3. ob. exists w3. eexists. split; [reflexivity|]. split.
      - eapply Inv_perm; [|exact I3]. rewrite Permutation_app_comm, <- app_assoc. reflexivity.
      - apply (sim_refresh w2); auto. }
    assert (SU : sim (upd w x s1) (kput S x (k_set_in (abs s) (map (fun e => (fst (fst e), payload (snd e))) (combine r' l))))).
    { apply (sim_upd w S x s); auto.
      - unfold is_open. cbn. rewrite P. reflexivity.
      - unfold abs, k_set_in. cbn. rewrite P. reflexivity. }
    destruct tr; apply GO; exact SU.
Qed.
Lemma recv_ok w S x c f dw tr cap : Inv w [] -> sim w S ->
  does w (syscall w (Recv x c f dw tr cap None)) (s_step S (Recv x c f dw tr cap None)).
Proof.
  intros I SI. cbn [syscall s_step]. apply with_ok; auto. intros s X F O.
  unfold u_recv, s_recv. fold (recv_rest S x (abs s) dw tr cap).
  assert (CORE : active_kind (us_proto s) -> does w match us_proto s with
     | PInitial _ =>
      match us_type s with
      | UStream => Some (w, [], RErr EINVAL)
      | USeqPacket => Some (w, [], RErr ENOTCONN)
      | UDgram => None
      end
  | PConnected _ pa peer =>
      if c then Some (w, [], RErr EINVAL) else
      do (w, cs1, r) <- common_recv w x f dw tr cap None;
      match r with
      | inr (Some e) => Some (w, cs1, RErr e)
      | inr None => Some (w, cs1, RBlock x WReadable)
      | inl (n, out, removed, tr) =>
          let cs2 := if 0 <? removed then [CInform peer removed] else [] in
          do (w, cs3) <- refresh w x false;
          Some (w, cs1 ++ cs2 ++ cs3, RRecv n out pa tr)
      end
  | PDgram _ _ _ _ =>
      if c then Some (w, [], RErr EINVAL) else
      do (w, cs1, r) <- common_recv w x f dw tr cap None;
      match r with
      | inr (Some e) => Some (w, cs1, RErr e)
      | inr None => Some (w, cs1, RBlock x WReadable)
      | inl (n, out, removed, tr) =>
          do s <- sock w x;
          match us_proto s with
          | PDgram b pa peer ((from, addr, num) :: rest) =>
              check (removed =? num);
              do (w, cs3) <- refresh (upd w x (set_proto s (PDgram b pa peer rest))) x false;
              Some (w, cs1 ++ [CInform from num] ++ cs3, RRecv n out addr tr)
          | _ => None
          end
      end
  | _ => Some (w, [], RErr EOPNOTSUPP)
  end (Some (if c || negb f then (S, RErr EINVAL) else recv_rest S x (abs s) dw tr cap))).
  { intro K. destruct (us_proto s) as [|b q lim|b pa y| |b pa pe r|] eqn:P; try contradiction.
    - destruct c; [apply does_same; auto|]. destruct f; cbn [orb negb].
      + exact (recv_conn_ok w S x s b pa y dw tr cap I SI X P).
      + rewrite (recv_bad w x s); auto. ob. apply does_same; auto.
    - destruct c; [apply does_same; auto|]. destruct f; cbn [orb negb].
      + exact (recv_gram_ok w S x s b pa pe r dw tr cap I SI X P).
      + rewrite (recv_bad w x s); auto. ob. apply does_same; auto. }
  change (k_type (abs s)) with (us_type s). change (k_role (abs s)) with (role_of (us_proto s)) at 1.
  pose proof (i_sock _ _ I x s X) as So. unfold sock_ok in So.
  destruct (us_proto s) as [bd|b q lim|b pa y| |b pa pe r|] eqn:P; cbn [role_of] in *; try (apply does_same; auto; fail).
  - destruct So as (TD & _). destruct (us_type s); [|congruence|]; apply does_same; auto.
  - exact (CORE Logic.I).
  - exact (CORE Logic.I).
Qed.
