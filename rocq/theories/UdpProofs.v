(** Proofs that UDP sockets refine the specification. *)
From Verif Require Import Base FMap NetqModel NetqSpec NetqProofs IfaceModel IfaceSpec IfaceProofs UdpModel UdpSpec.

(* ------------------------------------------------------------------ abstraction *)
Definition abs_in (m : list Z * rhdr) : dgram * Z := (mkD (rh_src (snd m)) (rh_dst (snd m)) (fst m), rh_time (snd m)).
Definition abs_out (m : list Z * shdr) : Z * dgram := (sh_pri (snd m), mkD (sh_src (snd m)) (sh_dst (snd m)) (fst m)).
Definition abs (u : udp) : ssock :=
  mkSk (negb (b_closed (u_st u))) (u_nb u) (u_shr u) (u_shw u) (u_bound u) (u_peer u)
    (map abs_in (mb_msgs (u_recv u))) (map abs_out (mb_msgs (u_send u))) (mb_limit (u_recv u)) (mb_limit (u_send u)) (u_last u).

Section Refine.
Variable pub : Z.
Variable known : Z -> bool.
Variable disc : kind.
Variable debug : bool.
Hypothesis PUB : pub_ok pub.

Record sock_ok (u : udp) : Prop := {
  so_send : mb_len (u_send u) = total (map snd (map abs_out (mb_msgs (u_send u))));
  so_recv : mb_len (u_recv u) = total (map fst (map abs_in (mb_msgs (u_recv u))));
  so_slim : 0 <= mb_limit (u_send u) <= U32_MAX;
  so_rlim : 0 <= mb_limit (u_recv u) <= U32_MAX;
  so_assoc : u_assoc u = if b_closed (u_st u) then None else match u_bound u with Some b => Some (b, wildcard) | None => None end;
  so_none : u_bound u = None -> u_peer u = None /\ mb_msgs (u_send u) = [];
  so_local : forall b, u_bound u = Some b -> local_ip pub (fst b);
  so_sizes : Forall (fun m => blen (fst m) <= DATAGRAM_MAX) (mb_msgs (u_send u)) }.

Definition assoc_ok (st : sstate) (ns : netns) : Prop :=
  exists hist, tracks pub hist ns /\ forall w port peer s, holder pub w UDP port peer hist = Some s <-> peer = (0, 0) /\ owner pub st w port s.
Definition queue_ok (n : Z) (st : sstate) (w : which) (q : netq) : Prop :=
  exists l, rep disc n l q /\ forall s p, In (s, p) l <-> exists k d r, ss_sock st s = Some k /\ via k w /\ s_out k = (p, d) :: r.
Record rel (n : Z) (h : host) (st : sstate) : Prop := {
  rl_assoc : assoc_ok st (h_ns h);
  rl_sock : forall s, ss_sock st s = option_map abs (get s (h_socks h));
  rl_wf : forall s u, get s (h_socks h) = Some u -> sock_ok u;
  rl_q : forall w, queue_ok n st w (h_q h w);
  rl_busy : forall w, ss_busy st w = h_due h w;
  rl_seq : ss_seq st = h_pri h;
  rl_pri : 0 <= h_pri h <= n;
  rl_next : ss_next st = h_next h;
  rl_fresh : forall s, h_next h <= s -> get s (h_socks h) = None }.

(* ------------------------------------------------------------------ ports *)
Lemma assoc_ip st ns : assoc_ok st ns -> ns_ip ns = pub.
Proof. intros (hist & T & _). exact (tr_ip _ _ _ T). Qed.
Lemma free_unused st ns hist : tracks pub hist ns ->
  (forall w port peer s, holder pub w UDP port peer hist = Some s <-> peer = (0, 0) /\ owner pub st w port s) ->
  forall ip port, port_free pub UDP ip (0, 0) hist port <-> local_ip pub ip /\ unused pub st ip port.
Proof.
  intros T H ip port. unfold port_free, receiver, local_ip, unused. split; intros [L U]; (split; [exact L|]).
  - intros w s C O. specialize (U w C). pose proof (proj2 (H w port (0, 0) s) (conj eq_refl O)) as E. rewrite E in U. discriminate.
  - intros w C. destruct (holder pub w UDP port (0, 0) hist) as [s|] eqn:E; [|reflexivity]. apply H in E as [_ O]. destruct (U w s C O).
Qed.
Lemma in_use_free ns hist ip port : tracks pub hist ns -> or_true (ns_in_use ns UDP (ip, port) wildcard) = false <-> port_free pub UDP ip (0, 0) hist port.
Proof. intros T. rewrite <- (taken_iff pub hist ns UDP ip (0, 0) port T). unfold port_taken. fold wildcard. destruct (or_true _); cbn; intuition congruence. Qed.
Lemma iface_local ns ip : ns_ip ns = pub -> (is_unspecified ip = false -> ns_interface ns ip <> None) <-> local_ip pub ip.
Proof.
  intros E. unfold local_ip. destruct (is_unspecified ip) eqn:U.
  - split; [intros _; exists Lo; apply coversb_iff, unspec_covers, U|discriminate].
  - pose proof (fun w => interface_covers pub ns ip w E U) as CV. destruct (ns_interface ns ip) as [w0|].
    + split; [intros _; exists w0; apply coversb_iff; rewrite CV; destruct w0; reflexivity|discriminate].
    + split; [intros X; destruct (X eq_refl eq_refl)|]. intros [w C]. apply coversb_iff in C. rewrite CV in C. discriminate.
Qed.
Lemma associate_ok st ns s ip port rng : assoc_ok st ns -> (forall k, port_range (rng k)) -> 0 <= port ->
  exists r, binds pub st (ip, port) r /\
  match r with
  | inr e => associate_socket debug ns s (ip, port) wildcard true rng = Some (ns, inr e)
  | inl l => fst l = ip /\ local_ip pub ip /\ unused pub st ip (snd l) /\
      exists ns', associate_socket debug ns s (ip, port) wildcard true rng = Some (ns', inl l) /\
      exists hist', tracks pub hist' ns' /\
        forall w p peer x, holder pub w UDP p peer hist' = Some x <-> peer = (0, 0) /\ (owner pub st w p x \/ x = s /\ p = snd l /\ covers pub w ip)
  end.
Proof.
  intros (hist & T & H) RNG PP. pose proof (free_unused st ns hist T H) as FU. unfold associate_socket. cbn [fst snd].
  pose proof (iface_local ns ip (tr_ip _ _ _ T)) as IL.
  destruct (negb (is_unspecified ip) && match ns_interface ns ip with Some _ => false | None => true end) eqn:F.
  { exists (inr EINVAL). split; [|reflexivity]. constructor. rewrite <- IL. apply andb_true_iff in F as [A B]. apply negb_true_iff in A.
    intros X. specialize (X A). destruct (ns_interface ns ip); congruence. }
  assert (L : local_ip pub ip).
  { apply IL. intros U. rewrite U in F. cbn in F. destruct (ns_interface ns ip); congruence. }
  assert (SO : forall p, exists b, ns_in_use ns UDP (ip, p) wildcard = Some b).
  { intros p. unfold ns_in_use. cbn [fst snd]. destruct (is_unspecified ip) eqn:U; [eauto|]. destruct (ns_interface ns ip) eqn:I; [eauto|].
    rewrite <- IL in L. destruct (L eq_refl eq_refl). }
  assert (UN : forall p, unused pub st ip p <-> ns_in_use ns UDP (ip, p) wildcard = Some false).
  { intros p. pose proof (in_use_free ns hist ip p T) as X. rewrite FU in X. destruct (SO p) as [b E]. rewrite E in *. cbn [or_true] in X. destruct b; split; try congruence; try tauto.
    intros U. assert (true = false) by tauto. discriminate. }
  assert (DO : forall p, unused pub st ip p -> exists ns', ns_associate debug ns s UDP (ip, p) wildcard = Some ns' /\
      exists hist', tracks pub hist' ns' /\
        forall w q peer x, holder pub w UDP q peer hist' = Some x <-> peer = (0, 0) /\ (owner pub st w q x \/ x = s /\ q = p /\ covers pub w ip)).
  { intros p U. assert (V : vacant pub UDP (ip, p) (0, 0) hist).
    { intros w C. cbn [fst snd] in *. destruct (holder pub w UDP p (0, 0) hist) as [x|] eqn:E; [|reflexivity]. apply H in E as [_ O]. destruct (U w x C O). }
    destruct (associate_total debug pub hist ns s UDP (ip, p) wildcard T (or_intror V)) as [ns' E]. exists ns'. split; [exact E|].
    exists (NsAssoc s UDP (ip, p) wildcard :: hist). split; [exact (step_tracks debug pub hist ns (NsAssoc s UDP (ip, p) wildcard) ns' T E)|].
    intros w q peer x. cbn [holder]. fold (hit pub w UDP q peer UDP (ip, p) wildcard).
    destruct (holder pub w UDP q peer hist) as [y|] eqn:E2.
    - pose proof (proj1 (H _ _ _ _) E2) as [-> O]. split.
      + intros [= <-]. auto.
      + intros [_ [O2|(-> & -> & C)]]; [|destruct (U w y C O)].
        pose proof (proj2 (H w q (0, 0) x) (conj eq_refl O2)). congruence.
    - destruct (hit pub w UDP q peer UDP (ip, p) wildcard) eqn:Hh.
      + apply hit_covers in Hh as (C & _ & <- & <-). cbn [fst snd] in *. split; [intros [= <-]; auto|].
        intros [_ [O|(-> & _)]]; [|reflexivity]. exfalso. apply (U w x C O).
      + split; [discriminate|]. intros [-> [O|(-> & -> & C)]].
        * pose proof (proj2 (H w q (0, 0) x) (conj eq_refl O)). congruence.
        * unfold hit in Hh. cbn [fst snd] in Hh. rewrite (proj2 (coversb_iff _ _ _) C) in Hh. unfold same_addr, wildcard in Hh. cbn [fst snd] in Hh. rewrite !Z.eqb_refl in Hh. discriminate. }
  destruct (Z.eqb_spec port 0) as [->|NZ]; cbn [negb].
  - pose proof (free_port_tracks pub hist ns UDP ip wildcard rng T RNG) as FP.
    destruct (get_random_free_port ns UDP ip wildcard rng) as [p|].
    + destruct FP as [PR FR]. apply FU in FR as [_ U]. exists (inl (ip, p)). split; [now constructor|]. cbn [fst snd]. split; [reflexivity|]. split; [exact L|]. split; [exact U|].
      rewrite (proj1 (UN p) U). destruct (DO p U) as (ns' & E & hist' & T' & H'). exists ns'. rewrite E. ob. split; [reflexivity|]. exists hist'. split; assumption.
    + exists (inr EADDRINUSE). split; [|reflexivity]. constructor; [exact L|]. intros p PR U. apply (FP p PR). apply FU. auto.
  - destruct (SO port) as [b E]. rewrite E. destruct b.
    + exists (inr EADDRINUSE). split; [|reflexivity]. constructor; auto. rewrite UN. congruence.
    + assert (U : unused pub st ip port) by now apply UN. exists (inl (ip, port)). split; [now constructor|]. cbn [fst snd]. split; [reflexivity|]. split; [exact L|]. split; [exact U|].
      destruct (DO port U) as (ns' & E2 & hist' & T' & H'). exists ns'. rewrite E2. ob. split; [reflexivity|]. exists hist'. split; assumption.
Qed.

(* ------------------------------------------------------------------ sockets *)
Lemma abs_refresh u g : abs (fst (u_refresh u g)) = abs u.
Proof. reflexivity. Qed.
Lemma ok_refresh u g : sock_ok u -> sock_ok (fst (u_refresh u g)).
Proof. intros [A B C D E F G O8]. constructor; cbn; assumption. Qed.
Lemma refresh_pair u g : u_refresh u g = (fst (u_refresh u g), snd (u_refresh u g)).
Proof. apply surjective_pairing. Qed.

Lemma rel_more n n' h st : n <= n' -> rel n h st -> rel n' h st.
Proof.
  intros L [A B C D E F G I J]. constructor; auto; [|lia].
  intros w. destruct (D w) as (l & R & X). exists l. split; [eapply rep_more; eassumption|exact X].
Qed.

Lemma owner_ext st st' w port s : (forall x, match ss_sock st x, ss_sock st' x with
    | Some k, Some k' => s_open k = s_open k' /\ s_bound k = s_bound k'
    | None, None => True | _, _ => False end) -> owner pub st w port s -> owner pub st' w port s.
Proof.
  intros X (k & ip & E & O & B & C). specialize (X s). rewrite E in X. destruct (ss_sock st' s) as [k'|] eqn:E'; [|contradiction].
  destruct X as [X1 X2]. exists k', ip. rewrite <- X1, <- X2. auto.
Qed.
(** Changing one socket, but not whether it is open, what it is bound to, nor what it has to send. *)
Lemma rel_put n h st st' s u u' : rel n h st -> get s (h_socks h) = Some u -> sock_ok u' ->
  s_open (abs u') = s_open (abs u) -> u_bound u' = u_bound u -> map abs_out (mb_msgs (u_send u')) = map abs_out (mb_msgs (u_send u)) ->
  (forall x, ss_sock st' x = if x =? s then Some (abs u') else ss_sock st x) ->
  ss_seq st' = ss_seq st -> ss_next st' = ss_next st -> (forall w, ss_busy st' w = ss_busy st w) -> rel n (h_put h s u') st'.
Proof.
  intros [A B C D E F G I J] GU OK EO EB ES X XS XN XB.
  assert (EX : forall x, match ss_sock st x, ss_sock st' x with
    | Some k, Some k' => s_open k = s_open k' /\ s_bound k = s_bound k' /\ s_out k = s_out k'
    | None, None => True | _, _ => False end).
  { intros x. rewrite X. destruct (Z.eqb_spec x s) as [->|N].
    - rewrite B, GU. cbn [option_map]. split; [auto|]. split; [cbn; auto|]. cbn. congruence.
    - destruct (ss_sock st x); auto. }
  constructor; cbn [h_put h_ns h_socks h_q h_due h_pri h_next h_due_lo h_due_in]; try assumption; try congruence.
  - destruct A as (hist & T & H). exists hist. split; [exact T|]. intros w port peer y. rewrite H. split; (intros [Y O]; split; [exact Y|]).
    + eapply owner_ext; [|exact O]. intros x. specialize (EX x). destruct (ss_sock st x), (ss_sock st' x); tauto.
    + eapply owner_ext; [|exact O]. intros x. specialize (EX x). destruct (ss_sock st x), (ss_sock st' x); intuition congruence.
  - intros x. rewrite X, get_put. cbn [FMap.eqb Eqb_Z]. destruct (x =? s); [reflexivity|apply B].
  - intros x v. rewrite get_put. cbn [FMap.eqb Eqb_Z]. destruct (x =? s); [intros [= <-]; exact OK|apply C].
  - intros w. destruct (D w) as (l & R & Y). exists l. split; [destruct w; exact R|]. intros y p. rewrite Y. specialize (EX y). unfold via.
    destruct (ss_sock st y) as [k|], (ss_sock st' y) as [k'|]; try contradiction.
    + destruct EX as (E1 & E2 & E3). split; intros (k0 & d & r & [= <-] & (b & V1 & V2) & Q).
      * exists k', d, r. split; [reflexivity|]. split; [exists b; split; [congruence|exact V2]|congruence].
      * exists k, d, r. split; [reflexivity|]. split; [exists b; split; [congruence|exact V2]|congruence].
    + split; intros (k0 & d & r & W & _); discriminate.
  - intros w. rewrite XB, E. destruct w; reflexivity.
  - intros x L. rewrite get_put. cbn [FMap.eqb Eqb_Z]. destruct (Z.eqb_spec x s) as [->|N]; [|now apply J].
    rewrite (J s L) in GU. discriminate.
Qed.

Lemma upd_sock st s k x : ss_sock (upd st s k) x = if x =? s then Some k else ss_sock st x.
Proof. reflexivity. Qed.
Lemma set_ns_id h : h_set_ns h (h_ns h) = h.
Proof. destruct h; reflexivity. Qed.
Lemma sock_of n h st s u : rel n h st -> get s (h_socks h) = Some u -> ss_sock st s = Some (abs u).
Proof. intros R G. rewrite (rl_sock _ _ _ R), G. reflexivity. Qed.
(** Putting back an unchanged socket. *)
Lemma rel_same n h st s u u' : rel n h st -> get s (h_socks h) = Some u -> sock_ok u' -> abs u' = abs u -> rel n (h_put h s u') st.
Proof.
  intros R G OK E. eapply rel_put; try eassumption; try reflexivity.
  - congruence.
  - exact (f_equal s_bound E).
  - exact (f_equal s_out E).
  - intros x. destruct (Z.eqb_spec x s) as [->|N]; [|reflexivity]. rewrite E. exact (sock_of n h st s u R G).
Qed.
(** A socket becomes bound. *)
Lemma rel_bind n h st s u ns' l hist' : rel n h st -> get s (h_socks h) = Some u -> b_closed (u_st u) = false -> u_bound u = None ->
  tracks pub hist' ns' -> local_ip pub (fst l) ->
  (forall w p peer x, holder pub w UDP p peer hist' = Some x <-> peer = (0, 0) /\ (owner pub st w p x \/ x = s /\ p = snd l /\ covers pub w (fst l))) ->
  rel n (h_put (h_set_ns h ns') s (u_set_bound u (Some l) (Some (l, wildcard)))) (upd st s (s_set_bound (abs u) (Some l))).
Proof.
  intros R GU OP BN T L H. pose proof R as [A B C D E F G I J]. pose proof (C s u GU) as OK. destruct OK as [O1 O2 O3 O4 O5 O6 O7 O8].
  destruct (O6 BN) as [PN SN].
  constructor; cbn [h_put h_set_ns h_ns h_socks h_q h_due h_pri h_next h_due_lo h_due_in upd ss_seq ss_next ss_busy]; try assumption.
  - exists hist'. split; [exact T|]. intros w p peer x. rewrite H. split; (intros [Y O]; split; [exact Y|]).
    + destruct O as [(k & ip & S & Q)|(-> & -> & CV)].
      * exists k, ip. rewrite upd_sock. destruct (Z.eqb_spec x s) as [->|N]; [|tauto]. rewrite (sock_of n h st s u R GU) in S. injection S as <-.
        destruct Q as (_ & Q & _). cbn in Q. congruence.
      * exists (s_set_bound (abs u) (Some l)), (fst l). rewrite upd_sock, Z.eqb_refl. cbn. rewrite OP. split; [reflexivity|]. split; [reflexivity|]. split; [destruct l; reflexivity|exact CV].
    + destruct O as (k & ip & S & Q). rewrite upd_sock in S. destruct (Z.eqb_spec x s) as [->|N].
      * injection S as <-. cbn in Q. destruct Q as (_ & [= ->] & CV). right. auto.
      * left. exists k, ip. auto.
  - intros x. rewrite upd_sock, get_put. cbn [FMap.eqb Eqb_Z]. destruct (x =? s); [reflexivity|apply B].
  - intros x v. rewrite get_put. cbn [FMap.eqb Eqb_Z]. destruct (x =? s); [intros [= <-]|apply C]. constructor; cbn; try assumption; try congruence.
    + rewrite OP. reflexivity.
  - intros w. destruct (D w) as (q & QR & QI). exists q. split; [destruct w; exact QR|]. intros x p. rewrite QI, upd_sock. destruct (Z.eqb_spec x s) as [->|N]; [|reflexivity].
    split; intros (k & d & r & S & V & Q); exfalso.
    + rewrite (sock_of n h st s u R GU) in S. injection S as <-. cbn in Q. rewrite SN in Q. discriminate.
    + injection S as <-. cbn in Q. rewrite SN in Q. discriminate.
  - intros x X. rewrite get_put. cbn [FMap.eqb Eqb_Z]. destruct (Z.eqb_spec x s) as [->|N]; [|now apply J]. rewrite (J s X) in GU. discriminate.
Qed.

Lemma same_side_iff b dst : same_side b dst = true <-> reaches b dst.
Proof.
  unfold same_side, reaches, is_unspecified. rewrite orb_true_iff, Z.eqb_eq, eqb_true_iff.
  split; (intros [X|X]; [now left|right]).
  - rewrite <- !Z.eqb_eq, X. reflexivity.
  - apply Bool.eq_iff_eq_true. rewrite !Z.eqb_eq. exact X.
Qed.
Lemma ensure_ok n h st s u dst ip rng : rel n h st -> get s (h_socks h) = Some u -> b_closed (u_st u) = false -> (forall k, port_range (rng k)) ->
  exists r, prepared pub st (abs u) dst ip r /\
  match r with
  | inr e => u_ensure_bound debug (h_ns h) s u dst (ip, 0) rng = Some (h_ns h, u, Some e)
  | inl k' => exists ns1 u1, u_ensure_bound debug (h_ns h) s u dst (ip, 0) rng = Some (ns1, u1, None) /\ k' = abs u1 /\
      (exists b, u_bound u1 = Some b) /\ u_send u1 = u_send u /\ u_st u1 = u_st u /\ sock_ok u1 /\ rel n (h_put (h_set_ns h ns1) s u1) (upd st s k')
  end.
Proof.
  intros R GU OP RNG. pose proof (rl_wf _ _ _ R s u GU) as OK. pose proof OK as [O1 O2 O3 O4 O5 O6 O7 O8]. rewrite OP in O5. unfold u_ensure_bound.
  destruct (u_bound u) as [b|] eqn:EB.
  - rewrite O5. rewrite assert_true by reflexivity. destruct (same_side b dst) eqn:SS.
    + exists (inl (abs u)). split; [eapply PBound; [exact EB|now apply same_side_iff]|]. exists (h_ns h), u. split; [reflexivity|]. split; [reflexivity|].
      split; [eauto|]. split; [reflexivity|]. split; [reflexivity|]. split; [exact OK|]. rewrite set_ns_id. eapply rel_put; eauto.
    + exists (inr EINVAL). split; [eapply PCannot; [exact EB|]|reflexivity]. rewrite <- same_side_iff, SS. discriminate.
  - destruct (O6 eq_refl) as [PN SN]. rewrite PN, O5, !assert_true by reflexivity.
    destruct (associate_ok st (h_ns h) s ip 0 rng (rl_assoc _ _ _ R) RNG ltac:(lia)) as (r & BD & X). destruct r as [l|e].
    + destruct X as (EI & L & U & ns' & E & hist' & T & H). rewrite E. ob. exists (inl (s_set_bound (abs u) (Some l))).
      split; [apply PBind; [exact EB|exact BD]|]. exists ns', (u_set_bound u (Some l) (Some (l, wildcard))). split; [reflexivity|]. split; [reflexivity|].
      split; [cbn; eauto|]. split; [reflexivity|]. split; [reflexivity|]. rewrite <- EI in *.
      pose proof (rel_bind n h st s u ns' l hist' R GU OP EB T L H) as R'. split; [|exact R'].
      eapply (rl_wf _ _ _ R' s). cbn [h_put h_socks h_set_ns]. rewrite get_put. cbn [FMap.eqb Eqb_Z]. rewrite Z.eqb_refl. reflexivity.
    + rewrite X. ob. exists (inr e). split; [apply PFail; [exact EB|exact BD]|reflexivity].
Qed.

Lemma wires_notes s l : wires (notes s l) = [].
Proof. induction l; [reflexivity|]. exact IHl. Qed.
Lemma wires_app a b : wires (a ++ b) = wires a ++ wires b.
Proof. unfold wires. apply flat_map_app. Qed.
Lemma wired_cons x l : wired (x :: l) = (match x with LWire d => [d] | _ => [] end) ++ wired l.
Proof. reflexivity. Qed.

(** A system call that succeeds at being made: the step of the specification is [TCall]. *)
Lemma open_call n h st s u : rel n h st -> h_open h s = Some u -> get s (h_socks h) = Some u /\ b_closed (u_st u) = false /\ ss_sock st s = Some (abs u) /\ s_open (abs u) = true.
Proof.
  intros R O. unfold h_open in O. destruct (get s (h_socks h)) as [v|] eqn:G; [|discriminate]. destruct (b_closed (u_st v)) eqn:C; [discriminate|]. injection O as ->.
  split; [reflexivity|]. split; [exact C|]. split; [exact (sock_of n h st s u R G)|]. cbn. rewrite C. reflexivity.
Qed.
Lemma closed_call n h st s o : rel n h st -> h_open h s = None -> names o = Some s -> ustep pub known disc st o (UErr EBADF) [] st.
Proof.
  intros R O N. eapply TBad; [exact N|]. intros k E. rewrite (rl_sock _ _ _ R) in E. unfold h_open in O. destruct (get s (h_socks h)) as [v|]; [|discriminate].
  injection E as <-. cbn. destruct (b_closed (u_st v)); [reflexivity|discriminate].
Qed.
Definition done (n : Z) (st : sstate) (o : uop) (x : host * ures * list uevent) : Prop :=
  let '(h', r, e) := x in exists l st', ustep pub known disc st o r l st' /\ wires e = wired l /\ rel (n + 1) h' st'.
Lemma call_done n h st s o (f : udp -> option (host * ures * list uevent)) : rel n h st -> names o = Some s ->
  (forall u, get s (h_socks h) = Some u -> b_closed (u_st u) = false -> exists h' r e l st', f u = Some (h', r, e) /\
     syscall pub known st s (abs u) o r l st' /\ wires e = wired l /\ rel (n + 1) h' st') ->
  exists x, on_socket h s f = Some x /\ done n st o x.
Proof.
  intros R N F. unfold on_socket. destruct (h_open h s) as [u|] eqn:O.
  - destruct (open_call n h st s u R O) as (G & C & S & SO). destruct (F u G C) as (h' & r & e & l & st' & E & SC & W & R'). exists (h', r, e). split; [exact E|].
    exists l, st'. split; [eapply TCall; eassumption|]. split; assumption.
  - exists (h, UErr EBADF, []). split; [reflexivity|]. exists [], st. split; [eapply closed_call; eassumption|]. split; [reflexivity|]. eapply rel_more; [|exact R]. lia.
Qed.

(* ------------------------------------------------------------------ calls on one socket *)
Lemma total_nonneg l : 0 <= total l.
Proof. unfold total, zsum. induction l as [|d l IH]; cbn [map fold_right]; [lia|]. unfold size at 1. lia. Qed.
Lemma total_cons d l : total (d :: l) = size d + total l.
Proof. reflexivity. Qed.
Lemma total_app a b : total (a ++ b) = total a + total b.
Proof. induction a as [|d a IH]; cbn [app]; [reflexivity|]. rewrite !total_cons, IH. lia. Qed.
Lemma take_cut room d : 0 <= room -> take (Z.min room (blen d)) d = cut room d /\ blen (cut room d) = Z.min room (blen d).
Proof.
  intros L. unfold take, cut, blen. split; [|rewrite firstn_length; lia].
  destruct (Z.le_gt_cases room (Z.of_nat (length d))) as [A|A].
  - f_equal. lia.
  - rewrite !firstn_all2 by lia. reflexivity.
Qed.
Lemma blen_zero (l : list Z) : (blen l =? 0) = match l with [] => true | _ => false end.
Proof. unfold blen. destruct l; cbn [length]; lia. Qed.

Ltac call1 R := eapply call_done; [exact R|reflexivity|]; intros u GU OP.
Ltac keep R := split; [reflexivity|]; eapply rel_more; [|exact R]; lia.

Lemma recv_ok n h st s x : rel n h st -> 0 <= ra_len x -> exists y, h_step debug known h (URecv s x) = Some y /\ done n st (URecv s x) y.
Proof.
  intros R LN. call1 R. pose proof (rl_wf _ _ _ R s u GU) as OK. pose proof OK as [O1 O2 O3 O4 O5 O6 O7 O8]. unfold u_recvmsg.
  assert (SAME : u_set_recv u (u_recv u) = u) by (destruct u; reflexivity).
  destruct (ra_flags x) as [[[dw pk] tr]|] eqn:FL.
  2:{ ob. do 5 eexists. split; [reflexivity|]. split; [now apply CRecvFlags|]. split; [reflexivity|].
      eapply rel_same; [eapply rel_more; [|exact R]; lia|exact GU|exact OK|reflexivity]. }
  destruct (mb_msgs (u_recv u)) as [|[d hd] rest] eqn:M.
  - assert (E : (if pk then Some (mb_peek (u_recv u), u_recv u) else mb_pop (u_recv u)) = Some (None, u_recv u)).
    { unfold mb_peek, mb_pop. rewrite M. destruct pk; reflexivity. }
    rewrite E. ob. rewrite SAME, refresh_pair. ob. do 5 eexists. split; [reflexivity|]. split; [eapply CRecvNone; [exact FL|cbn; rewrite M; reflexivity]|].
    split; [rewrite wires_notes; reflexivity|]. eapply rel_same; [eapply rel_more; [|exact R]; lia|exact GU|apply ok_refresh, OK|apply abs_refresh].
  - destruct (take_cut (ra_len x) d LN) as [TC BC]. pose proof (total_nonneg (map fst (map abs_in rest))) as TN.
    cbn [map] in O2. rewrite total_cons in O2. assert (SZ : size (fst (abs_in (d, hd))) = blen d) by reflexivity. rewrite SZ in O2.
    assert (E : (if pk then Some (mb_peek (u_recv u), u_recv u) else mb_pop (u_recv u)) =
                Some (Some (d, hd), if pk then u_recv u else mkB _ rest (mb_len (u_recv u) - blen d) (mb_limit (u_recv u)))).
    { unfold mb_peek, mb_pop. rewrite M. destruct pk; [reflexivity|]. rewrite assert_true by lia. reflexivity. }
    rewrite E. ob. rewrite TC.
    assert (OK' : sock_ok (u_set_recv u (mkB _ rest (mb_len (u_recv u) - blen d) (mb_limit (u_recv u))))).
    { constructor; cbn [u_send u_recv u_set_recv mb_len mb_msgs mb_limit u_assoc u_bound u_st u_peer]; try assumption. lia. }
    destruct (negb (ra_mem x) && negb (blen (cut (ra_len x) d) =? 0)) eqn:FA.
    + apply andb_true_iff in FA as [FA FB]. apply negb_true_iff in FA, FB. rewrite blen_zero in FB.
      assert (NE : cut (ra_len x) (d_data (fst (abs_in (d, hd)))) <> []) by (cbn; destruct (cut (ra_len x) d); congruence).
      rewrite refresh_pair. ob. destruct pk.
      * rewrite SAME. do 5 eexists. split; [reflexivity|]. split; [eapply CPeekFault; [exact FL|cbn; rewrite M; reflexivity|exact FA|exact NE]|].
        split; [rewrite wires_notes; reflexivity|]. eapply rel_same; [eapply rel_more; [|exact R]; lia|exact GU|apply ok_refresh, OK|apply abs_refresh].
      * do 5 eexists. split; [reflexivity|]. split; [eapply CRecvFault; [exact FL|cbn; rewrite M; reflexivity|exact FA|exact NE]|].
        split; [rewrite wires_notes; reflexivity|]. eapply rel_put; [eapply rel_more; [|exact R]; lia|exact GU|apply ok_refresh, OK'|reflexivity|reflexivity|reflexivity| |reflexivity|reflexivity|reflexivity].
        intros y. rewrite upd_sock, abs_refresh. reflexivity.
    + assert (NF : ra_mem x = true \/ cut (ra_len x) (d_data (fst (abs_in (d, hd)))) = []).
      { cbn. rewrite blen_zero in FA. destruct (ra_mem x); [now left|right]. destruct (cut (ra_len x) d); [reflexivity|discriminate]. }
      assert (RD : UMsg (if tr then blen d else blen (cut (ra_len x) d)) (cut (ra_len x) d) (rh_src hd) (blen (cut (ra_len x) d) <? blen d) = reading (ra_len x) tr (fst (abs_in (d, hd)))).
      { unfold reading. rewrite BC, SZ. cbn [abs_in fst snd d_from d_data]. f_equal. apply Bool.eq_iff_eq_true. rewrite !Z.ltb_lt. lia. }
      rewrite RD, refresh_pair. ob. destruct pk.
      * rewrite SAME. do 5 eexists. split; [reflexivity|]. split; [eapply CPeek; [exact FL|cbn; rewrite M; reflexivity|exact NF]|].
        split; [rewrite wires_notes; reflexivity|]. eapply rel_put; [eapply rel_more; [|exact R]; lia|exact GU|apply ok_refresh|reflexivity|reflexivity|reflexivity| |reflexivity|reflexivity|reflexivity].
        -- constructor; cbn; rewrite ?M; assumption.
        -- intros y. rewrite upd_sock, abs_refresh. reflexivity.
      * do 5 eexists. split; [reflexivity|]. split; [eapply CRecv; [exact FL|cbn; rewrite M; reflexivity|exact NF]|].
        split; [rewrite wires_notes; reflexivity|]. eapply rel_put; [eapply rel_more; [|exact R]; lia|exact GU|apply ok_refresh|reflexivity|reflexivity|reflexivity| |reflexivity|reflexivity|reflexivity].
        -- destruct OK'. constructor; cbn in *; assumption.
        -- intros y. rewrite upd_sock, abs_refresh. reflexivity.
Qed.

Ltac put1 R GU := eapply rel_put; [eapply rel_more; [|exact R]; lia|exact GU| |reflexivity|reflexivity|reflexivity|intros y; rewrite upd_sock; reflexivity|reflexivity|reflexivity|reflexivity].
Lemma simple_ok n h st o : rel n h st -> match o with UShutdown _ _ _ | USndBuf _ _ | URcvBuf _ _ | UNonblock _ _ | UName _ | UPeer _ | UInq _ | UOutq _ | UStamp _ => True | _ => False end ->
  exists y, h_step debug known h o = Some y /\ done n st o y.
Proof.
  intros R K. destruct o; try contradiction; cbn [h_step].
  - call1 R. pose proof (rl_wf _ _ _ R s u GU) as OK. unfold u_shutdown. destruct (u_peer u) as [a|] eqn:P.
    + do 5 eexists. split; [reflexivity|]. split; [apply CShut; cbn; congruence|]. split; [reflexivity|]. put1 R GU. destruct OK. constructor; cbn; assumption.
    + do 5 eexists. split; [reflexivity|]. split; [now apply CShutNone|]. split; [reflexivity|]. eapply rel_same; [eapply rel_more; [|exact R]; lia|exact GU|exact OK|reflexivity].
  - call1 R. pose proof (rl_wf _ _ _ R s u GU) as OK. unfold u_sndbuf. destruct (Z.ltb_spec v 0) as [L|L].
    + do 5 eexists. split; [reflexivity|]. split; [now apply CSndBufNeg|]. split; [reflexivity|]. eapply rel_same; [eapply rel_more; [|exact R]; lia|exact GU|exact OK|reflexivity].
    + do 5 eexists. split; [reflexivity|]. split; [now apply CSndBuf|]. split; [reflexivity|].
      assert (CL : clamp 4096 v = doubled 4096 v) by (unfold clamp, doubled; lia).
      eapply rel_put; [eapply rel_more; [|exact R]; lia|exact GU| |reflexivity|reflexivity|reflexivity| |reflexivity|reflexivity|reflexivity].
      * destruct OK. constructor; cbn; try assumption. unfold clamp, U32_MAX. lia.
      * intros y. rewrite upd_sock, <- CL. reflexivity.
  - call1 R. pose proof (rl_wf _ _ _ R s u GU) as OK. unfold u_rcvbuf. destruct (Z.ltb_spec v 0) as [L|L].
    + do 5 eexists. split; [reflexivity|]. split; [now apply CRcvBufNeg|]. split; [reflexivity|]. eapply rel_same; [eapply rel_more; [|exact R]; lia|exact GU|exact OK|reflexivity].
    + do 5 eexists. split; [reflexivity|]. split; [now apply CRcvBuf|]. split; [reflexivity|].
      assert (CL : clamp 2048 v = doubled 2048 v) by (unfold clamp, doubled; lia).
      eapply rel_put; [eapply rel_more; [|exact R]; lia|exact GU| |reflexivity|reflexivity|reflexivity| |reflexivity|reflexivity|reflexivity].
      * destruct OK. constructor; cbn; try assumption. unfold clamp, U32_MAX. lia.
      * intros y. rewrite upd_sock, <- CL. reflexivity.
  - call1 R. pose proof (rl_wf _ _ _ R s u GU) as OK. do 5 eexists. split; [reflexivity|]. split; [apply CNonblock|]. split; [reflexivity|]. put1 R GU. destruct OK. constructor; cbn; assumption.
  - call1 R. pose proof (rl_wf _ _ _ R s u GU) as OK. do 5 eexists. split; [reflexivity|]. split; [eapply CName; cbn|]; [|keep R]. unfold u_getsockname, is_unspecified.
    destruct (u_bound u) as [[ip port]|] eqn:B; cbn [fst snd].
    + destruct (u_peer u) as [[pip pport]|]; cbn [fst snd]; destruct (ip =? 0); reflexivity.
    + destruct (so_none _ OK B) as [-> _]. reflexivity.
  - call1 R. do 5 eexists. split; [reflexivity|]. split; [instantiate (1 := st); instantiate (1 := []); destruct (u_peer u) eqn:P; [now apply CPeer|now apply CPeerNone]|keep R].
  - call1 R. do 5 eexists. split; [reflexivity|]. split; [apply CInq; cbn|keep R]. unfold mb_peek. destruct (mb_msgs (u_recv u)) as [|[d hd] r]; reflexivity.
  - call1 R. pose proof (rl_wf _ _ _ R s u GU) as OK. do 5 eexists. split; [reflexivity|]. split; [rewrite (so_send _ OK); apply COutq|keep R].
  - call1 R. do 5 eexists. split; [reflexivity|]. split; [instantiate (1 := st); instantiate (1 := []); destruct (u_last u) eqn:P; [now apply CStamp|now apply CStampNone]|keep R].
Qed.

Lemma bind_ok n h st s a rng : rel n h st -> op_ok pub (UBind s a rng) -> exists y, h_step debug known h (UBind s a rng) = Some y /\ done n st (UBind s a rng) y.
Proof.
  intros R [RNG AO]. call1 R. pose proof (rl_wf _ _ _ R s u GU) as OK. unfold u_bind.
  assert (SAME : forall r l, syscall pub known st s (abs u) (UBind s a rng) r l st -> wired l = [] -> exists h' r0 e l0 st', Some (h_put (h_set_ns h (h_ns h)) s u, r, @nil uevent) = Some (h', r0, e) /\
     syscall pub known st s (abs u) (UBind s a rng) r0 l0 st' /\ wires e = wired l0 /\ rel (n + 1) h' st').
  { intros r l C W. do 5 eexists. split; [reflexivity|]. split; [exact C|]. split; [now rewrite W|]. rewrite set_ns_id. eapply rel_same; [eapply rel_more; [|exact R]; lia|exact GU|exact OK|reflexivity]. }
  destruct a as [[a|]|]; ob; [|apply SAME with (l := []); [constructor|reflexivity]|apply SAME with (l := []); [constructor|reflexivity]].
  destruct (u_bound u) as [b|] eqn:B; ob; [apply SAME with (l := []); [eapply CBindAgain; exact B|reflexivity]|].
  destruct (so_none _ OK B) as [PN SN]. pose proof (so_assoc _ OK) as AS. rewrite OP, B in AS. rewrite PN, AS, !assert_true by reflexivity.
  destruct a as [ip port]. specialize (AO _ eq_refl). unfold addr_ok in AO. cbn [fst snd] in AO.
  destruct (associate_ok st (h_ns h) s ip port rng (rl_assoc _ _ _ R) RNG ltac:(lia)) as (r & BD & X). destruct r as [l|e].
  - destruct X as (EI & L & U & ns' & E & hist' & T & H). rewrite E. ob. do 5 eexists. split; [reflexivity|]. split; [eapply CBind; [exact B|exact BD]|]. split; [reflexivity|].
    rewrite <- EI in *. eapply rel_more; [|eapply rel_bind; eassumption]. lia.
  - rewrite X. ob. apply SAME with (l := []); [eapply CBindFail; [exact B|exact BD]|reflexivity].
Qed.
Lemma put_put h s u u' : h_put (h_put h s u) s u' = h_put h s u'.
Proof. unfold h_put. cbn [h_socks h_ns h_qlo h_qin h_due_lo h_due_in h_pri h_next]. now rewrite put_put. Qed.
Lemma get_own h s u : get s (h_socks (h_put h s u)) = Some u.
Proof. cbn [h_put h_socks]. apply get_put_same. Qed.
Lemma upd_upd st s k k' x : ss_sock (upd (upd st s k) s k') x = ss_sock (upd st s k') x.
Proof. rewrite !upd_sock. destruct (x =? s); reflexivity. Qed.

Lemma connect_ok n h st s a rng : rel n h st -> op_ok pub (UConnect s a rng) -> exists y, h_step debug known h (UConnect s a rng) = Some y /\ done n st (UConnect s a rng) y.
Proof.
  intros R [RNG AO]. call1 R. pose proof (rl_wf _ _ _ R s u GU) as OK. unfold u_connect.
  assert (SAME : forall r l, syscall pub known st s (abs u) (UConnect s a rng) r l st -> wired l = [] -> exists h' r0 e l0 st', Some (h_put (h_set_ns h (h_ns h)) s u, r, @nil uevent) = Some (h', r0, e) /\
     syscall pub known st s (abs u) (UConnect s a rng) r0 l0 st' /\ wires e = wired l0 /\ rel (n + 1) h' st').
  { intros r l C W. do 5 eexists. split; [reflexivity|]. split; [exact C|]. split; [now rewrite W|]. rewrite set_ns_id. eapply rel_same; [eapply rel_more; [|exact R]; lia|exact GU|exact OK|reflexivity]. }
  destruct a as [[ip port]|]; ob; [|apply SAME with (l := []); [constructor|reflexivity]].
  rewrite (assoc_ip _ _ (rl_assoc _ _ _ R)). unfold is_unspecified. cbn [fst snd].
  set (ip' := if ip =? 0 then LOCALHOST else ip). replace (if ip =? 0 then (LOCALHOST, port) else (ip, port)) with (ip', port) by (unfold ip'; destruct (ip =? 0); reflexivity). cbn [fst snd].
  destruct (negb (ip' =? LOCALHOST) && negb (known pub && known ip')) eqn:KN.
  - ob. apply andb_true_iff in KN as [K1 K2]. apply negb_true_iff in K1, K2. apply Z.eqb_neq in K1. apply SAME with (l := []); [|reflexivity].
    assert (NZ : ip <> 0) by (intros ->; apply K1; reflexivity). assert (IE : ip' = ip) by (unfold ip'; destruct (Z.eqb_spec ip 0); congruence). rewrite IE in *.
    now apply CConnectNobody.
  - assert (KR : ip' = LOCALHOST \/ known pub && known ip' = true).
    { destruct (Z.eqb_spec ip' LOCALHOST) as [E|NE]; [now left|right]. cbn in KN. destruct (known pub && known ip'); [reflexivity|discriminate]. }
    destruct (ensure_ok n h st s u (ip', port) (if ip' =? LOCALHOST then LOCALHOST else pub) rng R GU OP RNG) as (r & PR & X). destruct r as [k'|e].
    + destruct X as (ns1 & u1 & E & -> & (b & B1) & S1 & ST1 & OK1 & R1). rewrite E. ob. do 5 eexists. split; [reflexivity|]. split; [eapply CConnect; [reflexivity|exact KR|exact PR]|]. split; [reflexivity|].
      rewrite <- (put_put _ s u1). eapply rel_put; [eapply rel_more; [|exact R1]; lia|apply get_own| |reflexivity|reflexivity|reflexivity| |reflexivity|reflexivity|reflexivity].
      * destruct OK1. constructor; cbn; try assumption. congruence.
      * intros y. rewrite !upd_sock. destruct (y =? s); reflexivity.
    + rewrite X. ob. apply SAME with (l := []); [|reflexivity]. eapply CConnectFail; [reflexivity|exact KR|exact PR].
Qed.

Lemma close_ok n h st s : rel n h st -> exists y, h_step debug known h (UClose s) = Some y /\ done n st (UClose s) y.
Proof.
  intros R. call1 R. pose proof (rl_wf _ _ _ R s u GU) as OK. pose proof R as [A B C D E F G I J]. pose proof OK as [O1 O2 O3 O4 O5 O6 O7 O8]. rewrite OP in O5.
  do 5 eexists. split; [reflexivity|]. split; [apply CClose|]. split; [rewrite wires_notes; reflexivity|]. cbn [fst u_close u_update].
  pose proof (sock_of n h st s u R GU) as SK.
  constructor; cbn [h_put h_set_ns h_ns h_socks h_q h_due h_pri h_next h_due_lo h_due_in upd ss_seq ss_next ss_busy u_close u_update fst snd]; try assumption; try lia.
  - destruct A as (hist & T & H).
    assert (OW : forall w p x, owner pub (upd st s (s_shut_down (abs u))) w p x <-> owner pub st w p x /\ x <> s).
    { intros w p x. split.
      - intros (k & ip & S & O & Q). rewrite upd_sock in S. destruct (Z.eqb_spec x s) as [->|N]; [injection S as <-; discriminate|]. split; [exists k, ip; auto|exact N].
      - intros [(k & ip & S & O & Q) N]. exists k, ip. rewrite upd_sock. destruct (Z.eqb_spec x s) as [X|_]; [contradiction|]. auto. }
    rewrite O5. destruct (u_bound u) as [b|] eqn:BD.
    + exists (NsDis UDP b wildcard :: hist). split; [apply (step_tracks debug pub hist (h_ns h) (NsDis UDP b wildcard) _ T); reflexivity|].
      intros w p peer x. cbn [holder]. fold (hit pub w UDP p peer UDP b wildcard). rewrite OW. destruct (hit pub w UDP p peer UDP b wildcard) eqn:Hh.
      * apply hit_covers in Hh as (CV & _ & <- & <-). split; [discriminate|]. intros (_ & O & N). exfalso. apply N.
        assert (OS : owner pub st w (snd b) s). { exists (abs u), (fst b). split; [exact SK|]. cbn. rewrite OP, BD. split; [reflexivity|]. split; [destruct b; reflexivity|exact CV]. }
        pose proof (proj2 (H w (snd b) (0, 0) s) (conj eq_refl OS)) as H1. pose proof (proj2 (H w (snd b) (0, 0) x) (conj eq_refl O)) as H2. congruence.
      * rewrite H. split; [|tauto]. intros [-> O]. split; [reflexivity|]. split; [exact O|]. intros ->.
        destruct O as (k & ip & S & _ & B2 & CV). rewrite SK in S. injection S as <-. cbn in B2. rewrite BD in B2. injection B2 as ->.
        unfold hit in Hh. cbn [fst snd] in Hh. rewrite (proj2 (coversb_iff _ _ _) CV) in Hh. unfold same_addr, wildcard in Hh. cbn [fst snd] in Hh. rewrite !Z.eqb_refl in Hh. discriminate.
    + exists hist. split; [exact T|]. intros w p peer x. rewrite H, OW. split; [|tauto]. intros [-> O]. split; [reflexivity|]. split; [exact O|]. intros ->.
      destruct O as (k & ip & S & _ & B2 & CV). rewrite SK in S. injection S as <-. cbn in B2. congruence.
  - intros x. rewrite upd_sock, get_put. cbn [FMap.eqb Eqb_Z]. destruct (x =? s); [reflexivity|apply B].
  - intros x v. rewrite get_put. cbn [FMap.eqb Eqb_Z]. destruct (x =? s); [intros [= <-]|apply C]. constructor; cbn; try assumption. reflexivity.
  - intros w. destruct (D w) as (q & QR & QI). exists q. split; [eapply rep_more; [|destruct w; exact QR]; lia|]. intros x p. rewrite QI, upd_sock. destruct (Z.eqb_spec x s) as [->|N]; [|reflexivity].
    split; intros (k & d & r & S & V & Q).
    + rewrite SK in S. injection S as <-. exists (s_shut_down (abs u)), d, r. split; [reflexivity|]. split; [exact V|exact Q].
    + injection S as <-. exists (abs u), d, r. split; [exact SK|]. split; [exact V|exact Q].
  - intros x X. rewrite get_put. cbn [FMap.eqb Eqb_Z]. destruct (Z.eqb_spec x s) as [->|N]; [|now apply J]. rewrite (J s X) in GU. discriminate.
Qed.

(* ------------------------------------------------------------------ the queues *)
Lemma contains_iff n l q s : rep disc n l q -> nq_contains q s = true <-> In s (items l).
Proof.
  intros [M _ _]. unfold nq_contains. rewrite existsb_in. split; apply Permutation_in; [exact M|symmetry; exact M].
Qed.
Definition agree_off (s : Z) (st st' : sstate) : Prop := forall x, x <> s -> ss_sock st' x = ss_sock st x.
Lemma queue_push n st st' w q s k' p d r : queue_ok n st w q -> n < U64_MAX ->
  (forall k, ss_sock st s = Some k -> via k w -> s_out k = []) -> agree_off s st st' -> ss_sock st' s = Some k' -> via k' w -> s_out k' = (p, d) :: r ->
  nq_contains q s = false /\ exists q', nq_push q s (Some p) = Some q' /\ queue_ok (n + 1) st' w q'.
Proof.
  intros (l & R & I) B E A S V O. pose proof (push_rep disc n l q s (Some p) R B ltac:(discriminate)) as P.
  assert (NI : ~ In s (items l)).
  { intros X. unfold items in X. apply in_map_iff in X as ([y z] & <- & X). apply I in X as (k & d0 & r0 & S0 & V0 & O0). cbn [fst] in *. rewrite (E k S0 V0) in O0. discriminate. }
  destruct (nq_contains q s); [tauto|]. split; [reflexivity|]. destruct P as (_ & q' & P & R'). exists q'. unfold nq_push. rewrite P. split; [reflexivity|].
  exists (l ++ [(s, pri_of (Some p))]). split; [exact R'|]. intros x z. rewrite in_app_iff, I. cbn [In pri_of]. destruct (Z.eq_dec x s) as [-> |N].
  - split.
    + intros [(k & d0 & r0 & S0 & V0 & O0)|[[= <-]|[]]]; [rewrite (E k S0 V0) in O0; discriminate|]. eauto 8.
    + intros (k & d0 & r0 & S0 & V0 & O0). right. left. rewrite S in S0. injection S0 as <-. rewrite O in O0. injection O0 as <- _ _. reflexivity.
  - rewrite (A x N). split; [intros [X|[X|[]]]; [exact X|congruence]|auto].
Qed.
Lemma queue_keep n st st' w q s : queue_ok n st w q -> agree_off s st st' ->
  (forall p, (exists k d r, ss_sock st s = Some k /\ via k w /\ s_out k = (p, d) :: r) <-> (exists k d r, ss_sock st' s = Some k /\ via k w /\ s_out k = (p, d) :: r)) ->
  queue_ok n st' w q.
Proof.
  intros (l & R & I) A H. exists l. split; [exact R|]. intros x z. rewrite I. destruct (Z.eq_dec x s) as [-> |N]; [apply H|]. rewrite (A x N). reflexivity.
Qed.
Lemma queue_pop n st w q : queue_ok n st w q -> exists q' o, nq_pop q = Some (q', o) /\
  match o with
  | None => q' = q /\ forall s k, ss_sock st s = Some k -> via k w -> s_out k = []
  | Some s => exists k p d r, ss_sock st s = Some k /\ via k w /\ s_out k = (p, d) :: r /\ turn disc st w p /\
      forall st', agree_off s st st' -> (forall k', ss_sock st' s = Some k' -> via k' w -> s_out k' = []) -> queue_ok n st' w q'
  end.
Proof.
  intros (l & R & I). destruct (pop_rep disc n l q R) as (q' & o & E & P). exists q', o. split; [exact E|]. destruct o as [s|].
  - destruct P as (pre & [s0 p] & post & -> & N & -> & R'). cbn [fst] in *.
    destruct (proj1 (I s0 p)) as (k & d & r & S & V & O); [apply in_elt|]. exists k, p, d, r. split; [exact S|]. split; [exact V|]. split; [exact O|]. split.
    + intros -> s1 k1 m d1 r1 S1 V1 O1. cbn in N. destruct N as [N1 N2].
      assert (X : In (s1, m) (pre ++ (s0, p) :: post)) by (apply I; eauto 8). apply in_app_iff in X as [X|[X|X]].
      * specialize (N1 _ X). cbn in N1. lia.
      * injection X as _ <-. lia.
      * exact (N2 _ X).
    + intros st' A Z. exists (pre ++ post). split; [exact R'|]. pose proof (rp_nodup _ _ _ _ R) as ND. intros x z.
      unfold items in ND. rewrite map_app in ND. cbn [map fst] in ND. apply NoDup_remove in ND as [_ ND]. rewrite <- map_app in ND.
      destruct (Z.eq_dec x s0) as [-> |NE].
      * split; [intros X; exfalso; apply ND; apply (in_map fst) in X; exact X|]. intros (k' & d' & r' & S' & V' & O'). rewrite (Z k' S' V') in O'. discriminate.
      * rewrite (A x NE), <- I, !in_app_iff. cbn [In]. intuition congruence.
  - destruct P as [-> ->]. split; [reflexivity|]. intros s k S V. destruct (s_out k) as [|[p d] r] eqn:O; [reflexivity|].
    exfalso. apply (proj2 (I s p)). eauto 8.
Qed.
Lemma via_one k w w' : via k w -> via k w' -> w = w'.
Proof. intros (b & B & V) (b' & B' & V'). rewrite B in B'. injection B' as <-. destruct w, w'; tauto. Qed.

Lemma iface_via ns (b : addr) : ns_ip ns = pub -> local_ip pub (fst b) -> exists w, ns_interface ns (fst b) = Some w /\ (match w with Lo => loopback (fst b) | Inet => ~ loopback (fst b) end) .
Proof.
  intros E [w C]. unfold ns_interface. pose proof (loopback_iff (fst b)) as LI. unfold loopback. destruct (is_loopback (fst b)).
  - exists Lo. split; [reflexivity|]. lia.
  - assert (NL : ~ loopback (fst b)) by (unfold loopback; lia). exists Inet. split; [|exact NL]. rewrite E. unfold is_unspecified.
    assert (X : fst b = 0 \/ fst b = pub) by (destruct C as [C|C]; [now left|]; destruct w; [contradiction|right; apply C]).
    destruct X as [-> | ->]; rewrite Z.eqb_refl; [rewrite orb_true_r|]; reflexivity.
Qed.

(* ------------------------------------------------------------------ sending *)
Lemma set_pri_id h ns : h_set_pri (h_set_ns h ns) (h_pri h) = h_set_ns h ns.
Proof. destruct h; reflexivity. Qed.
Lemma space_iff u : sock_ok u -> mb_has_space (u_send u) = false <-> out_full (abs u).
Proof. intros OK. unfold mb_has_space, out_full. cbn [abs s_outlim s_out]. rewrite (so_send _ OK). rewrite Z.ltb_ge. reflexivity. Qed.
Lemma room_iff u : sock_ok u -> mb_has_space (u_recv u) = false <-> in_full (abs u).
Proof. intros OK. unfold mb_has_space, in_full. cbn [abs s_inlim s_in]. rewrite (so_recv _ OK). rewrite Z.ltb_ge. reflexivity. Qed.
Lemma target_eq u x : match sa_addr x with
               | Some (Some a) => inl a
               | Some None => inr EAFNOSUPPORT
               | None => match u_peer u with Some a => inl a | None => inr EDESTADDRREQ end
               end = target (abs u) x.
Proof. unfold target. cbn [abs s_peer]. destruct (sa_addr x) as [[a|]|]; destruct (u_peer u); reflexivity. Qed.

Lemma queue_more n n' st w q : n <= n' -> queue_ok n st w q -> queue_ok n' st w q.
Proof. intros L (l & R & X). exists l. split; [eapply rep_more; eassumption|exact X]. Qed.
Lemma owner_same st st' : (forall x, match ss_sock st x, ss_sock st' x with
    | Some k, Some k' => s_open k = s_open k' /\ s_bound k = s_bound k'
    | None, None => True | _, _ => False end) -> forall ns, assoc_ok st ns -> assoc_ok st' ns.
Proof.
  intros X ns (hist & T & H). exists hist. split; [exact T|]. intros w port peer s. rewrite H. split; (intros [Y O]; split; [exact Y|]); (eapply owner_ext; [|exact O]); intros x; specialize (X x).
  - exact X.
  - destruct (ss_sock st x), (ss_sock st' x); intuition congruence.
Qed.
Lemma wake_ok n h st s u2 b st' m r : rel n h st -> n < U64_MAX -> (exists u, get s (h_socks h) = Some u /\ s_open (abs u2) = s_open (abs u) /\ u_bound u2 = u_bound u /\
     mb_msgs (u_send u2) = mb_msgs (u_send u) ++ [(m, mkSh (fst r) (snd r) (h_pri h))]) -> sock_ok u2 -> u_bound u2 = Some b ->
  (forall x, ss_sock st' x = if x =? s then Some (abs u2) else ss_sock st x) -> ss_seq st' = h_pri h + 1 -> ss_next st' = ss_next st ->
  (forall w, ss_busy st' w = if which_eqb w (woken b) then true else ss_busy st w) ->
  exists h', h_notify (h_put (h_set_pri h (h_pri h + 1)) s u2) (fst b) s = Some h' /\ rel (n + 1) h' st'.
Proof.
  intros R B (u & GU & EO & EB & EM) OK BD X XS XN XB. pose proof R as [A Bs C D E F G I J]. unfold h_notify. cbn [h_put h_set_pri h_ns].
  destruct (iface_via (h_ns h) b (assoc_ip _ _ A) (so_local _ OK b BD)) as (w & IW & VW). rewrite IW. cbn [h_socks h_put h_set_pri]. rewrite get_put_same. ob.
  pose proof (sock_of n h st s u R GU) as SK.
  assert (AG : agree_off s st st') by (intros x NE; rewrite X; destruct (Z.eqb_spec x s); [contradiction|reflexivity]).
  assert (SK' : ss_sock st' s = Some (abs u2)) by (rewrite X, Z.eqb_refl; reflexivity).
  assert (V2 : via (abs u2) w) by (exists b; split; [exact BD|exact VW]).
  assert (V1 : via (abs u) w) by (exists b; split; [cbn; congruence|exact VW]).
  assert (OUT : s_out (abs u2) = s_out (abs u) ++ [(h_pri h, mkD (fst r) (snd r) m)]) by (cbn; rewrite EM, map_app; reflexivity).
  assert (HD : exists p d rest, s_out (abs u2) = (p, d) :: rest /\ u_peek_priority u2 = Some p).
  { unfold u_peek_priority, mb_peek. cbn [abs s_out]. rewrite EM. destruct (mb_msgs (u_send u)) as [|[m0 h0] r0]; cbn; do 3 eexists; (split; reflexivity). }
  destruct HD as (p & d & rest & HD & PK).
  assert (HS : u_has_data u2 = true) by (unfold u_has_data, mb_is_empty; rewrite EM; destruct (mb_msgs (u_send u)); reflexivity).
  unfold h_add_source. rewrite HS, assert_true by reflexivity.
  set (h2 := h_put (h_set_pri h (h_pri h + 1)) s u2).
  assert (Q : exists q', (if negb (nq_contains (h_q h w) s) then do q <- nq_push (h_q h w) s (u_peek_priority u2); Some (h_set_q h2 w q) else Some h2) = Some (h_set_q h2 w q') /\ queue_ok (n + 1) st' w q').
  { destruct (s_out (abs u)) as [|[p0 d0] r0] eqn:O0.
    - cbn [app] in OUT. assert (E0 : forall k, ss_sock st s = Some k -> via k w -> s_out k = []) by (intros k S0 _; rewrite SK in S0; injection S0 as <-; exact O0).
      destruct (queue_push n st st' w (h_q h w) s (abs u2) p d rest (D w) B E0 AG SK' V2 HD) as (NC & q' & P & QO).
      rewrite NC. cbn [negb]. rewrite PK, P. ob. eauto.
    - destruct (D w) as (l & RP & IL). assert (NC : nq_contains (h_q h w) s = true).
      { apply (contains_iff n l _ s RP). apply (in_map fst _ (s, p0)). apply IL. eauto 8. }
      rewrite NC. cbn [negb]. exists (h_q h w). split; [destruct h, w; reflexivity|]. eapply queue_more with (n := n); [lia|]. eapply queue_keep; [exists l; split; eassumption|exact AG|].
      intros z. rewrite SK, SK'. split; intros (k & d1 & r1 & [= <-] & V & O1).
      + exists (abs u2), d1, (r1 ++ [(h_pri h, mkD (fst r) (snd r) m)]). rewrite OUT. split; [reflexivity|]. split; [exact (ltac:(destruct (via_one _ _ _ V V1); exact V2))|]. rewrite O0 in O1. injection O1 as -> -> ->. reflexivity.
      + exists (abs u), d0, r0. split; [reflexivity|]. split; [exact (ltac:(destruct (via_one _ _ _ V V2); exact V1))|]. rewrite OUT in O1. injection O1 as -> _ _. exact O0. }
  destruct Q as (q' & Q & QO).
  replace (h_q (mkH (h_ns h) (put s u2 (h_socks h)) (h_qlo h) (h_qin h) (h_due_lo h) (h_due_in h) (h_pri h + 1) (h_next h)) w) with (h_q h w) by (destruct w; reflexivity).
  fold h2. match goal with |- context[obind ?y _] => replace y with (Some (h_set_q h2 w q')) by (symmetry; exact Q) end. ob. eexists. split; [reflexivity|].
  replace (if fst b =? LOCALHOST then Lo else Inet) with (woken b) by reflexivity. set (w' := woken b) in *. clearbody w'.
  constructor.
  - replace (h_ns (h_set_due (h_set_q h2 w q') w' true)) with (h_ns h) by (destruct w, w'; reflexivity). eapply owner_same; [|exact A]. intros x. rewrite X.
    destruct (Z.eqb_spec x s) as [-> |NE]; [rewrite SK; cbn [abs s_open s_bound] in *; split; [|congruence]; symmetry; exact EO|]. destruct (ss_sock st x); auto.
  - intros x. replace (h_socks (h_set_due (h_set_q h2 w q') w' true)) with (put s u2 (h_socks h)) by (destruct w, w'; reflexivity). rewrite X, get_put. cbn [FMap.eqb Eqb_Z]. destruct (x =? s); [reflexivity|apply Bs].
  - intros x v. replace (h_socks (h_set_due (h_set_q h2 w q') w' true)) with (put s u2 (h_socks h)) by (destruct w, w'; reflexivity). rewrite get_put. cbn [FMap.eqb Eqb_Z]. destruct (x =? s); [intros [= <-]; exact OK|apply C].
  - intros w1. assert (W : w1 = w \/ (w1 <> w /\ h_q (h_set_due (h_set_q h2 w q') w' true) w1 = h_q h w1)) by (destruct w, w1, w'; auto; right; split; try discriminate; reflexivity).
    destruct W as [-> |[NW ->]]; [replace (h_q (h_set_due (h_set_q h2 w q') w' true) w) with q' by (destruct w, w'; reflexivity); exact QO|].
    eapply queue_more with (n := n); [lia|]. eapply queue_keep; [apply D|exact AG|]. intros z. rewrite SK, SK'.
    split; intros (k & d1 & r1 & [= <-] & V & _); destruct NW; [exact (via_one _ _ _ V V1)|exact (via_one _ _ _ V V2)].
  - intros w1. rewrite XB, E. destruct w, w', w1; reflexivity.
  - rewrite XS. destruct w, w'; reflexivity.
  - replace (h_pri (h_set_due (h_set_q h2 w q') w' true)) with (h_pri h + 1) by (destruct w, w'; reflexivity). lia.
  - rewrite XN, I. destruct w, w'; reflexivity.
  - intros x. replace (h_next (h_set_due (h_set_q h2 w q') w' true)) with (h_next h) by (destruct w, w'; reflexivity).
    replace (h_socks (h_set_due (h_set_q h2 w q') w' true)) with (put s u2 (h_socks h)) by (destruct w, w'; reflexivity). intros L. rewrite get_put. cbn [FMap.eqb Eqb_Z].
    destruct (Z.eqb_spec x s) as [-> |NE]; [rewrite (J s L) in GU; discriminate|now apply J].
Qed.

Lemma send_ok n h st s x rng : rel n h st -> n < U64_MAX -> op_ok pub (USend s x rng) -> exists y, h_step debug known h (USend s x rng) = Some y /\ done n st (USend s x rng) y.
Proof.
  intros R NB [RNG AO]. call1 R. pose proof (rl_wf _ _ _ R s u GU) as OK. unfold u_sendmsg.
  assert (SAME : forall r l, syscall pub known st s (abs u) (USend s x rng) r l st -> wired l = [] -> exists h' r0 e l0 st',
     Some (h_put (h_set_pri (h_set_ns h (h_ns h)) (h_pri h)) s u, r, notes s []) = Some (h', r0, e) /\
     syscall pub known st s (abs u) (USend s x rng) r0 l0 st' /\ wires e = wired l0 /\ rel (n + 1) h' st').
  { intros r l C W. do 5 eexists. split; [reflexivity|]. split; [exact C|]. split; [now rewrite W|]. rewrite set_pri_id, set_ns_id. eapply rel_same; [eapply rel_more; [|exact R]; lia|exact GU|exact OK|reflexivity]. }
  destruct (u_shw u) eqn:SW; [ob; apply SAME with (l := []); [now apply CSendShut|reflexivity]|].
  destruct (sa_flags x) as [dw|] eqn:FL; [|ob; apply SAME with (l := []); [now apply CSendFlags|reflexivity]].
  rewrite target_eq. destruct (target (abs u) x) as [dst|e] eqn:TG; [|ob; apply SAME with (l := []); [now apply CSendDest; [| congruence |]|reflexivity]].
  assert (NF : sa_flags x <> None) by congruence. unfold DATAGRAM_MAX. destruct (Z.ltb_spec 65507 (blen (sa_data x))) as [LG|SM].
  { ob. apply SAME with (l := []); [now apply CSendLarge with (dst := dst)|reflexivity]. }
  destruct (ensure_ok n h st s u dst 0 rng R GU OP RNG) as (r & PR & X). destruct r as [k'|e].
  2:{ rewrite X. ob. apply SAME with (l := []); [now apply CSendCannot with (dst := dst)|reflexivity]. }
  destruct X as (ns1 & u1 & E & -> & (b & B1) & S1 & ST1 & OK1 & R1). rewrite E. ob.
  assert (PUT : forall u2 e, sock_ok u2 -> abs u2 = abs u1 -> syscall pub known st s (abs u) (USend s x rng) e [] (upd st s (abs u1)) -> forall nl,
     exists h' r0 e0 l0 st', Some (h_put (h_set_pri (h_set_ns h ns1) (h_pri h)) s u2, e, notes s nl) = Some (h', r0, e0) /\
     syscall pub known st s (abs u) (USend s x rng) r0 l0 st' /\ wires e0 = wired l0 /\ rel (n + 1) h' st').
  { intros u2 e OK2 AE C nl. do 5 eexists. split; [reflexivity|]. split; [exact C|]. split; [rewrite wires_notes; reflexivity|]. rewrite set_pri_id, <- (put_put _ s u1).
    eapply rel_same; [eapply rel_more; [|exact R1]; lia|apply get_own|exact OK2|exact AE]. }
  destruct (mb_has_space (u_send u1)) eqn:SP; cbn [negb].
  - assert (NFU : ~ out_full (abs u1)) by (rewrite <- space_iff by exact OK1; congruence).
    destruct (negb (sa_mem x) && negb (blen (sa_data x) =? 0)) eqn:ME.
    + apply andb_true_iff in ME as [M1 M2]. apply negb_true_iff in M1, M2. rewrite blen_zero in M2. rewrite refresh_pair. ob. apply PUT; [apply ok_refresh, OK1|apply abs_refresh|].
      apply CSendFault with (dst := dst); auto. intros Z. rewrite Z in M2. discriminate.
    + assert (ME2 : sa_mem x = true \/ sa_data x = []) by (rewrite blen_zero in ME; destruct (sa_mem x); [now left|right]; destruct (sa_data x); [reflexivity|discriminate]).
      pose proof (rl_pri _ _ _ R) as PB. rewrite assert_true by lia. rewrite B1. ob.
      assert (IP1 : ns_ip ns1 = pub) by (exact (assoc_ip _ _ (rl_assoc _ _ _ R1))). rewrite IP1.
      replace (if is_unspecified (fst b) then (if fst dst =? LOCALHOST then LOCALHOST else pub, snd b) else b) with (source pub b dst) by reflexivity.
      pose proof OK1 as [O1 O2 O3 O4 O5 O6 O7 O8]. pose proof (total_nonneg (map snd (map abs_out (mb_msgs (u_send u1))))) as TN.
      unfold mb_push. rewrite SP, assert_true by reflexivity. unfold mb_has_space in SP. rewrite Z.ltb_lt in SP.
      rewrite assert_true by (unfold U64_MAX, U32_MAX in *; lia). ob.
      set (q := mkB _ (mb_msgs (u_send u1) ++ [(sa_data x, mkSh (source pub b dst) dst (h_pri h))]) (mb_len (u_send u1) + blen (sa_data x)) (mb_limit (u_send u1))).
      rewrite refresh_pair. ob. set (u2 := fst (u_refresh (u_set_send u1 q) false)).
      assert (OK2 : sock_ok u2).
      { apply ok_refresh. constructor; cbn [u_set_send u_send u_recv u_st u_bound u_peer u_assoc q mb_len mb_msgs mb_limit]; try assumption.
        - rewrite !map_app, total_app, <- O1. cbn. unfold total, zsum, size. cbn [map fold_right d_data]. unfold blen. lia.
        - congruence.
        - apply Forall_app. split; [exact O8|]. constructor; [|constructor]. cbn [fst]. exact SM. }
      destruct (wake_ok n (h_put (h_set_ns h ns1) s u1) (upd st s (abs u1)) s u2 b
        (set_busy (mkSS (ss_sock (upd st s (s_set_out (abs u1) (s_out (abs u1) ++ [(ss_seq st, mkD (source pub b dst) dst (sa_data x))])))) (ss_seq st + 1) (ss_next st) (ss_busy st)) (woken b) true)
        (sa_data x) (source pub b dst, dst) R1 NB) as (h' & HN & RF).
      * exists u1. split; [apply get_own|]. split; [reflexivity|]. split; [reflexivity|]. reflexivity.
      * exact OK2.
      * exact B1.
      * intros y. cbn [set_busy ss_sock]. rewrite !upd_sock. destruct (y =? s); [|reflexivity]. unfold u2. rewrite abs_refresh. unfold abs, s_set_out. cbn. rewrite map_app, (rl_seq _ _ _ R). reflexivity.
      * cbn. rewrite (rl_seq _ _ _ R). reflexivity.
      * reflexivity.
      * reflexivity.
      * replace (h_put (h_set_pri (h_put (h_set_ns h ns1) s u1) (h_pri (h_put (h_set_ns h ns1) s u1) + 1)) s u2) with (h_put (h_set_pri (h_set_ns h ns1) (h_pri h + 1)) s u2) in HN
          by (unfold h_put, h_set_pri, h_set_ns; cbn [h_socks h_ns h_qlo h_qin h_due_lo h_due_in h_pri h_next]; rewrite FMap.put_put; reflexivity).
        rewrite HN. ob. do 5 eexists. split; [reflexivity|]. split; [apply CSend with (dst := dst) (k' := abs u1) (b := b); auto|]. split; [rewrite wires_notes; reflexivity|]. exact RF.
  - assert (FU : out_full (abs u1)) by (now apply space_iff). rewrite refresh_pair. ob. apply PUT; [apply ok_refresh, OK1|apply abs_refresh|].
    apply (CSendFull pub known st s (abs u) x rng dst dw (abs u1)); auto.
Qed.

(* ------------------------------------------------------------------ sockets, arrivals *)
Lemma socket_ok n h st nb out inn : rel n h st -> op_ok pub (USocket nb out inn) -> exists y, h_step debug known h (USocket nb out inn) = Some y /\ done n st (USocket nb out inn) y.
Proof.
  intros [A B C D E F G I J] [LO LI]. eexists. split; [reflexivity|]. exists [], (mkSS (ss_sock (upd st (ss_next st) (fresh nb out inn))) (ss_seq st) (ss_next st + 1) (ss_busy st)).
  assert (SN : ss_sock st (h_next h) = None) by (rewrite B, (J (h_next h)) by lia; reflexivity).
  rewrite <- I at 1. split; [apply TSocket|]. split; [reflexivity|]. rewrite I.
  constructor; cbn [h_ns h_socks h_q h_due h_pri h_next h_due_lo h_due_in ss_seq ss_next ss_busy]; try assumption; try lia.
  - destruct A as (hist & T & H). exists hist. split; [exact T|]. intros w port peer s. rewrite H. split; (intros [Y O]; split; [exact Y|]); destruct O as (k & ip & S & O & BD & CV).
    + exists k, ip. cbn [ss_sock]. rewrite upd_sock. destruct (Z.eqb_spec s (h_next h)) as [-> |N]; [congruence|auto].
    + cbn [ss_sock] in S. rewrite upd_sock in S. destruct (Z.eqb_spec s (h_next h)) as [-> |N]; [injection S as <-; discriminate|exists k, ip; auto].
  - intros x. cbn [ss_sock]. rewrite upd_sock, get_put. cbn [FMap.eqb Eqb_Z]. destruct (x =? h_next h); [reflexivity|apply B].
  - intros x v. rewrite get_put. cbn [FMap.eqb Eqb_Z]. destruct (x =? h_next h); [intros [= <-]|apply C].
    constructor; cbn; try reflexivity; try lia; try discriminate; try (unfold U32_MAX in *; lia); auto.
  - intros w. eapply queue_more with (n := n); [lia|]. replace (match w with Lo => h_qlo h | Inet => h_qin h end) with (h_q h w) by reflexivity.
    eapply queue_keep with (s := h_next h); [apply D| |].
    + intros x N. cbn [ss_sock]. rewrite upd_sock. destruct (Z.eqb_spec x (h_next h)); [contradiction|reflexivity].
    + intros p. cbn [ss_sock]. rewrite upd_sock, Z.eqb_refl, SN. split; intros (k & d & r & S & V & O); [discriminate|]. injection S as <-. discriminate.
  - intros x L. rewrite get_put. cbn [FMap.eqb Eqb_Z]. destruct (Z.eqb_spec x (h_next h)); [lia|]. apply J. lia.
Qed.

Lemma target_owner n h st w port src : rel n h st ->
  match if_target (ns_get (h_ns h) w) UDP port src with
  | Some s => owner pub st w port s
  | None => forall s, ~ owner pub st w port s end.
Proof.
  intros [(hist & T & H) _ _ _ _ _ _ _ _]. rewrite (target_receiver pub hist (h_ns h) w UDP port src T). unfold receiver.
  destruct (holder pub w UDP port src hist) as [s|] eqn:E; [apply H in E; apply E|].
  destruct (holder pub w UDP port (0, 0) hist) as [s|] eqn:E2; [apply H in E2; apply E2|].
  intros s O. pose proof (proj2 (H w port (0, 0) s) (conj eq_refl O)). congruence.
Qed.
Lemma addr_eqb_iff a b : addr_eqb a b = true <-> a = b.
Proof. unfold addr_eqb. destruct a as [a1 a2], b as [b1 b2]; cbn. rewrite andb_true_iff, !Z.eqb_eq. split; [intros [-> ->]; reflexivity|intros [= -> ->]; auto]. Qed.
Lemma receive_ok n h st w p now : rel n h st -> blen (up_data p) <= U32_MAX ->
  exists h' e l st', h_receive h w p now = Some (h', e) /\ received pub st w (payload p) now l st' /\ wires e = [] /\ wired l = [] /\ rel n h' st'.
Proof.
  intros R SZ. unfold h_receive. pose proof (target_owner n h st w (snd (up_dst p)) (up_src p) R) as TO.
  destruct (if_target (ns_get (h_ns h) w) UDP (snd (up_dst p)) (up_src p)) as [s|].
  2:{ exists h, [], [LDrop (payload p)], st. split; [reflexivity|]. split; [now apply RNobody|]. split; [reflexivity|]. split; [reflexivity|exact R]. }
  pose proof TO as (k & ip & S & _). rewrite (rl_sock _ _ _ R) in S. destruct (get s (h_socks h)) as [u|] eqn:GU; [|discriminate]. clear S. ob.
  pose proof (rl_wf _ _ _ R s u GU) as OK. pose proof (sock_of n h st s u R GU) as SK. unfold u_push_in.
  assert (DROP : received pub st w (payload p) now [LDrop (payload p)] st ->
    exists h' e l st', (do (u1, n0) <- Some (u, []); Some (h_put h s u1, notes s n0)) = Some (h', e) /\ received pub st w (payload p) now l st' /\ wires e = [] /\ wired l = [] /\ rel n h' st').
  { intros RC. ob. do 4 eexists. split; [reflexivity|]. split; [exact RC|]. split; [reflexivity|]. split; [reflexivity|]. eapply rel_same; eauto. }
  destruct (match u_peer u with Some a => negb (addr_eqb a (up_src p)) | None => false end) eqn:PE.
  - destruct (u_peer u) as [a|] eqn:PU; [|discriminate]. apply negb_true_iff in PE. apply DROP. apply RStranger with (s := s) (k := abs u) (a := a); auto.
    intros ->. cbn in PE. rewrite (proj2 (addr_eqb_iff (up_src p) (up_src p)) eq_refl) in PE. discriminate.
  - assert (PA : forall a, s_peer (abs u) = Some a -> a = d_from (payload p)).
    { intros a PU. cbn in PU. rewrite PU in PE. apply negb_false_iff, addr_eqb_iff in PE. exact PE. }
    destruct (mb_has_space (u_recv u)) eqn:SP; cbn [negb].
    + assert (NF : ~ in_full (abs u)) by (rewrite <- room_iff by exact OK; congruence). pose proof OK as [O1 O2 O3 O4 O5 O6 O7 O8].
      pose proof (total_nonneg (map fst (map abs_in (mb_msgs (u_recv u))))) as TN.
      unfold mb_push. rewrite SP, assert_true by reflexivity. unfold mb_has_space in SP. rewrite Z.ltb_lt in SP. rewrite assert_true by (unfold U64_MAX, U32_MAX in *; lia). ob.
      rewrite refresh_pair. ob. do 4 eexists. split; [reflexivity|]. split; [apply RTaken with (s := s) (k := abs u); auto|]. split; [apply wires_notes|]. split; [reflexivity|].
      eapply rel_put; [exact R|exact GU|apply ok_refresh|reflexivity|reflexivity|reflexivity| |reflexivity|reflexivity|reflexivity].
      * constructor; cbn [u_set_recv u_send u_recv u_st u_bound u_peer u_assoc mb_len mb_msgs mb_limit]; try assumption.
        rewrite !map_app, total_app, <- O2. cbn. unfold total, zsum, size. cbn [map fold_right d_data]. unfold blen. lia.
      * intros y. rewrite upd_sock, abs_refresh. destruct (y =? s); [|reflexivity]. unfold abs, s_set_in. cbn. rewrite map_app. reflexivity.
    + apply DROP. apply RFull with (s := s) (k := abs u); auto. now apply room_iff.
Qed.
(** When routing a packet panics. *)
Definition unroutable (d : dgram) : Prop :=
  fst (d_to d) <> LOCALHOST /\ fst (d_to d) <> pub /\ known (fst (d_to d)) = true /\ known (fst (d_from d)) = false.
Lemma route_ok n h st p now : rel n h st -> blen (up_data p) <= U32_MAX ->
  match h_route known h p now with
  | Some (h', e) => exists l st', routed pub known st (payload p) now l st' /\ wires e = wired l /\ rel n h' st'
  | None => unroutable (payload p)
  end.
Proof.
  intros R SZ. unfold h_route. rewrite (assoc_ip _ _ (rl_assoc _ _ _ R)). destruct (Z.eqb_spec (fst (up_dst p)) LOCALHOST) as [L|NL].
  { destruct (receive_ok n h st Lo p now R SZ) as (h' & e & l & st' & -> & RC & W1 & W2 & R'). exists l, st'. split; [now apply RoLo|]. split; [congruence|exact R']. }
  destruct (Z.eqb_spec (fst (up_dst p)) pub) as [P|NP].
  { destruct (receive_ok n h st Inet p now R SZ) as (h' & e & l & st' & -> & RC & W1 & W2 & R'). exists l, st'. split; [now apply RoInet|]. split; [congruence|exact R']. }
  unfold send_packet. destruct (known (fst (up_dst p))) eqn:K.
  - destruct (known (fst (up_src p))) eqn:K2.
    + rewrite assert_true by reflexivity. ob. exists [LWire (payload p)], st. split; [now apply RoWire|]. split; [reflexivity|exact R].
    + cbn. unfold unroutable. auto.
  - ob. exists [LDrop (payload p)], st. split; [now apply RoNobody|]. split; [reflexivity|exact R].
Qed.
Lemma arrive_ok n h st p now : rel n h st -> op_ok pub (UArrive p now) -> exists y, h_step debug known h (UArrive p now) = Some y /\ done n st (UArrive p now) y.
Proof.
  intros R [DS SZ]. cbn [h_step]. pose proof (route_ok n h st p now R SZ) as X. destruct (h_route known h p now) as [[h' e]|].
  - ob. eexists. split; [reflexivity|]. destruct X as (l & st' & RO & W & R'). exists l, st'. split; [now apply TArrive|]. split; [exact W|]. eapply rel_more; [|exact R']. lia.
  - destruct X as (_ & X & _). cbn in X. contradiction.
Qed.

(* ------------------------------------------------------------------ forwarding *)
Lemma set_q_same h w : h_set_q h w (h_q h w) = h.
Proof. destruct h, w; reflexivity. Qed.
Lemma pop_ok n h st w : rel n h st -> n < U64_MAX ->
  (h_pop h w = Some (h, None, []) /\ forall s k, ss_sock st s = Some k -> via k w -> s_out k = []) \/
  exists s u p r e h1, h_pop h w = Some (h1, Some p, e) /\ wires e = [] /\ ss_sock st s = Some (abs u) /\ via (abs u) w /\
    s_out (abs u) = (up_pri p, payload p) :: r /\ turn disc st w (up_pri p) /\ blen (up_data p) <= DATAGRAM_MAX /\
    rel (n + 1) h1 (upd st s (s_set_out (abs u) r)).
Proof.
  intros R NB. pose proof R as [A B C D E F G I J]. unfold h_pop. set (fuel := Z.to_nat (nq_len (h_q h w))). clearbody fuel. cbn [h_pop_loop].
  destruct (queue_pop n st w (h_q h w) (D w)) as (q' & o & -> & P). ob. destruct o as [s|].
  2:{ destruct P as [-> P]. left. rewrite set_q_same. split; [reflexivity|exact P]. }
  right. destruct P as (k & p & d & r & S & V & O & T & Q). pose proof S as S'. rewrite B in S'. destruct (get s (h_socks h)) as [u|] eqn:GU; [|discriminate]. injection S' as <-. ob.
  pose proof (C s u GU) as OK. pose proof OK as [O1 O2 O3 O4 O5 O6 O7 O8]. unfold u_pull_out, mb_pop. cbn [abs s_out] in O.
  destruct (mb_msgs (u_send u)) as [|[m hd] rest] eqn:M; [discriminate|]. cbn [map] in O. injection O as OP OD OR.
  cbn [map] in O1. rewrite total_cons in O1. assert (SZ : size (snd (abs_out (m, hd))) = blen m) by reflexivity. rewrite SZ in O1.
  pose proof (total_nonneg (map snd (map abs_out rest))) as TN. rewrite assert_true by lia. ob. rewrite refresh_pair. ob.
  set (u1 := fst (u_refresh (u_set_send u (mkB _ rest (mb_len (u_send u) - blen m) (mb_limit (u_send u)))) false)).
  set (nl := snd (u_refresh (u_set_send u (mkB _ rest (mb_len (u_send u) - blen m) (mb_limit (u_send u)))) false)). clearbody nl.
  assert (AU : abs u1 = s_set_out (abs u) r) by (unfold u1; rewrite abs_refresh; unfold abs, s_set_out; cbn; rewrite OR; reflexivity).
  assert (OK1 : sock_ok u1).
  { unfold u1. apply ok_refresh. constructor; cbn [u_set_send u_send u_recv u_st u_bound u_peer u_assoc mb_len mb_msgs mb_limit]; try assumption.
    - lia.
    - intros X. destruct (O6 X) as [_ Y]. discriminate.
    - inversion O8; assumption. }
  assert (ST : forall x, ss_sock (upd st s (s_set_out (abs u) r)) x = if x =? s then Some (abs u1) else ss_sock st x) by (intros x; rewrite upd_sock, AU; reflexivity).
  set (st' := upd st s (s_set_out (abs u) r)) in *.
  assert (AG : agree_off s st st') by (intros x NE; rewrite ST; destruct (Z.eqb_spec x s); [contradiction|reflexivity]).
  assert (SK' : ss_sock st' s = Some (abs u1)) by (rewrite ST, Z.eqb_refl; reflexivity).
  assert (V1 : via (abs u1) w) by (rewrite AU; exact V).
  set (h2 := h_put (h_set_q h w q') s u1).
  assert (QQ : exists q2, (if u_has_data u1 then h_add_source h2 w s u1 else Some h2) = Some (h_set_q h2 w q2) /\ queue_ok (n + 1) st' w q2).
  { unfold u_has_data, mb_is_empty. replace (mb_msgs (u_send u1)) with rest by reflexivity. destruct rest as [|[m2 hd2] rest2] eqn:RS; cbn [negb].
    - exists q'. split; [destruct h, w; reflexivity|]. eapply queue_more with (n := n); [lia|]. apply Q; [exact AG|]. intros k' S' V'. rewrite SK' in S'. injection S' as <-. reflexivity.
    - unfold h_add_source. assert (HS : u_has_data u1 = true) by reflexivity. rewrite HS, assert_true by reflexivity.
      replace (h_q h2 w) with q' by (destruct w; reflexivity).
      assert (Q0 : queue_ok n (upd st s (s_set_out (abs u) [])) w q').
      { apply Q; [intros x NE; rewrite upd_sock; destruct (Z.eqb_spec x s); [contradiction|reflexivity]|]. intros k'. rewrite upd_sock, Z.eqb_refl. intros [= <-] _. reflexivity. }
      assert (Q1 : exists d1 r1, s_out (abs u1) = (sh_pri hd2, d1) :: r1) by (eexists; eexists; reflexivity). destruct Q1 as (d1 & r1 & Q1).
      destruct (queue_push n (upd st s (s_set_out (abs u) [])) st' w q' s (abs u1) (sh_pri hd2) d1 r1 Q0 NB) as (NC & q2 & P2 & QO); auto.
      { intros k'. rewrite upd_sock, Z.eqb_refl. intros [= <-] _. reflexivity. }
      { intros x NE. rewrite ST, upd_sock. destruct (x =? s) eqn:XS; [apply Z.eqb_eq in XS; contradiction|reflexivity]. }
      rewrite NC. cbn [negb]. replace (u_peek_priority u1) with (Some (sh_pri hd2)) by reflexivity. rewrite P2. ob. exists q2. split; [reflexivity|exact QO]. }
  destruct QQ as (q2 & QE & QO). rewrite QE. ob.
  exists s, u, (mkUp (sh_src hd) (sh_dst hd) m (sh_pri hd)), r, (notes s nl), (h_set_q h2 w q2).
  split; [reflexivity|]. split; [apply wires_notes|]. split; [exact S|]. split; [exact V|]. split; [cbn [abs s_out]; rewrite M; cbn [map]; rewrite OR; reflexivity|].
  split; [cbn [up_pri]; rewrite OP; exact T|]. split; [inversion O8; assumption|].
  assert (HS2 : h_socks (h_set_q h2 w q2) = put s u1 (h_socks h)) by (destruct w; reflexivity). change (rel (n + 1) (h_set_q h2 w q2) st').
  constructor.
  - replace (h_ns (h_set_q h2 w q2)) with (h_ns h) by (destruct w; reflexivity). eapply owner_same; [|exact A]. intros x. rewrite ST.
    destruct (Z.eqb_spec x s) as [-> |NE]; [rewrite S, AU; split; reflexivity|]. destruct (ss_sock st x); auto.
  - intros x. rewrite HS2, ST, get_put. cbn [FMap.eqb Eqb_Z]. destruct (x =? s); [reflexivity|apply B].
  - intros x v. rewrite HS2, get_put. cbn [FMap.eqb Eqb_Z]. destruct (x =? s); [intros [= <-]; exact OK1|apply C].
  - intros w1. assert (W : w1 = w \/ (w1 <> w /\ h_q (h_set_q h2 w q2) w1 = h_q h w1)) by (destruct w, w1; auto; right; split; try discriminate; reflexivity).
    destruct W as [-> |[NW ->]]; [replace (h_q (h_set_q h2 w q2) w) with q2 by (destruct w; reflexivity); exact QO|].
    eapply queue_more with (n := n); [lia|]. eapply queue_keep; [apply D|exact AG|]. intros z. rewrite S, SK'.
    split; intros (k & d1 & r1 & [= <-] & V' & _); destruct NW; [exact (via_one _ _ _ V' V)|exact (via_one _ _ _ V' V1)].
  - intros w1. unfold st'. cbn [upd ss_busy]. rewrite E. destruct w, w1; reflexivity.
  - unfold st'. cbn [upd ss_seq]. rewrite F. destruct w; reflexivity.
  - replace (h_pri (h_set_q h2 w q2)) with (h_pri h) by (destruct w; reflexivity). lia.
  - unfold st'. cbn [upd ss_next]. rewrite I. destruct w; reflexivity.
  - intros x. replace (h_next (h_set_q h2 w q2)) with (h_next h) by (destruct w; reflexivity). rewrite HS2. intros L. rewrite get_put. cbn [FMap.eqb Eqb_Z].
    destruct (Z.eqb_spec x s) as [-> |NE]; [rewrite (J s L) in GU; discriminate|now apply J].
Qed.
Lemma rel_idle n h st w : rel n h st -> rel n (h_set_due h w false) (set_busy st w false).
Proof.
  intros [A B C D E F G I J]. constructor; try (destruct w; assumption).
  - intros w1. cbn. rewrite E. destruct w, w1; reflexivity.
Qed.

(** The panic: the datagram whose turn it is is for another host, but from an address no host has. *)
Definition stuck (st : sstate) (o : uop) : Prop :=
  exists w now s k n d r, o = UForward w now /\ ss_busy st w = true /\ ss_sock st s = Some k /\ via k w /\ s_out k = (n, d) :: r /\ unroutable d.
Lemma forward_ok n h st w now : rel n h st -> n < U64_MAX ->
  match h_step debug known h (UForward w now) with
  | Some y => done n st (UForward w now) y
  | None => stuck st (UForward w now)
  end.
Proof.
  intros R NB. cbn [h_step]. pose proof (rl_busy _ _ _ R w) as BW. destruct (h_due h w).
  2:{ exists [], st. split; [now apply TAsleep|]. split; [reflexivity|]. eapply rel_more; [|exact R]. lia. }
  destruct (pop_ok n h st w R NB) as [[-> EM]|(s & u & p & r & e & h1 & -> & W & S & V & O & T & SZ & R1)].
  - ob. exists [], (set_busy st w false). split; [now apply TIdle|]. split; [reflexivity|]. eapply rel_more; [|apply rel_idle, R]. lia.
  - ob. assert (SZ2 : blen (up_data p) <= U32_MAX) by (unfold DATAGRAM_MAX, U32_MAX in *; lia). pose proof (route_ok (n + 1) h1 _ p now R1 SZ2) as RO.
    destruct (h_route known h1 p now) as [[h2 e2]|].
    + ob. destruct RO as (l & st' & RT & W2 & R2). exists (LLeft w (up_pri p) s (payload p) :: l), st'. split; [eapply TForward; eassumption|]. split; [rewrite wires_app, W, W2; reflexivity|exact R2].
    + cbn. exists w, now, s, (abs u), (up_pri p), (payload p), r. auto 10.
Qed.

Lemma step_ok n h st o : rel n h st -> n < U64_MAX -> op_ok pub o ->
  match h_step debug known h o with
  | Some y => done n st o y
  | None => stuck st o
  end.
Proof.
  intros R NB OK.
  assert (K : (exists y, h_step debug known h o = Some y /\ done n st o y) -> match h_step debug known h o with Some y => done n st o y | None => stuck st o end) by (intros (y & -> & D); exact D).
  destruct o; try (apply K; apply simple_ok; [exact R|exact I]).
  - apply K. now apply socket_ok.
  - apply K. now apply bind_ok.
  - apply K. now apply connect_ok.
  - apply K. now apply send_ok.
  - apply K. now apply recv_ok.
  - apply K. now apply close_ok.
  - now apply forward_ok.
  - apply K. now apply arrive_ok.
Qed.

Lemma new_rel : rel 0 (h_new disc pub) empty_host.
Proof.
  constructor; try reflexivity; cbn; try lia.
  - exists []. split; [apply new_tracks|]. intros w port peer s. cbn. split; [discriminate|]. intros [_ (k & ip & S & _)]. discriminate.
  - discriminate.
  - intros w. exists []. split; [destruct w; apply new_rep|]. intros s p. cbn. split; [contradiction|]. intros (k & d & r & S & _). discriminate.
  - intros w. destruct w; reflexivity.
Qed.

Lemma run_ok ops : forall n h st, rel n h st -> n + Z.of_nat (length ops) <= U64_MAX -> Forall (op_ok pub) ops ->
  match h_run debug known h ops with
  | Some (h', rs) => exists ls st', urun pub known disc st ops ls st' /\ Forall2 matches rs ls /\ rel (n + Z.of_nat (length ops)) h' st'
  | None => exists a o b ls st', ops = a ++ o :: b /\ urun pub known disc st a ls st' /\ stuck st' o
  end.
Proof.
  induction ops as [|o ops IH]; intros n h st R NB F.
  - cbn. exists [], st. split; [constructor|]. split; [constructor|]. eapply rel_more; [|exact R]. lia.
  - cbn [h_run length] in *. inversion F as [|? ? F1 F2]; subst. pose proof (step_ok n h st o R ltac:(lia) F1) as S.
    destruct (h_step debug known h o) as [[[h1 a] e]|].
    + ob. destruct S as (l & st1 & S & W & R1). specialize (IH (n + 1) h1 st1 R1 ltac:(lia) F2). destruct (h_run debug known h1 ops) as [[h2 rs]|].
      * ob. destruct IH as (ls & st2 & U & M & R2). exists ((a, l) :: ls), st2. split; [econstructor; eassumption|]. split; [constructor; [split; [reflexivity|exact W]|exact M]|].
        eapply rel_more; [|exact R2]. lia.
      * cbn. destruct IH as (a1 & o1 & b1 & ls & st2 & -> & U & ST). exists (o :: a1), o1, b1, ((a, l) :: ls), st2. split; [reflexivity|]. split; [econstructor; eassumption|exact ST].
    + cbn. exists [], o, ops, [], st. split; [reflexivity|]. split; [constructor|exact S].
Qed.
End Refine.
