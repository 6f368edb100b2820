(** The bits of a unix socket say what the specification says, and new data is announced. *)
From Verif Require Import Base FMap UnixModel UnixSpec UnixFacts UnixInv UnixOps UnixLink UnixCall UnixSend UnixRecv UnixClose UnixWorld UnixNotes.

Definition says_allow (k : ksock) : bool := match k_role k with KListen q lim => blen q <? lim | _ => false end.
(** A datagram socket that sent nothing and holds nothing may still have the bits it was made with. *)
Definition untouched (S : kstate) (x : Z) (k : ksock) : bool :=
  match k_role k with KGram _ => match k_in k with [] => in_flight S x =? 0 | _ => false end | _ => false end.
Lemma has_data_in s b pa y : us_proto s = PConnected b pa y ->
  has_data (us_buf s) = match k_in (abs s) with [] => false | _ => true end.
Proof. intro P. unfold abs. cbn [k_in]. rewrite P. unfold has_data. destruct (ub_items (us_buf s)); reflexivity. Qed.
Lemma bits_say w S x s : Inv w [] -> sim w S -> sock w x = Some s ->
  f_closed (us_bits s) = gone (abs s) /\ f_readable (us_bits s) = says_readable S (abs s) /\ f_allow (us_bits s) = says_allow (abs s) /\
  (f_writable (us_bits s) = says_writable S x (abs s) \/ (untouched S x (abs s) = true /\ f_writable (us_bits s) = false)).
Proof.
  intros I A X. pose proof (i_sock _ _ I x s X) as So. unfold sock_ok in So. unfold gone, says_readable, says_allow, says_writable, untouched.
  assert (ND : ~ due [] x) by (intros (c & [] & _)).
  assert (KR : k_role (abs s) = role_of (us_proto s)) by reflexivity. rewrite KR.
  destruct (us_proto s) as [b|b q lim|b pa y| |b pa peer r|] eqn:P; cbn [role_of].
  - destruct So as (_ & _ & _ & [B|B]); [|contradiction]. rewrite B. cbn. auto.
  - destruct So as (_ & _ & _ & [B|B] & _); [|contradiction]. rewrite B. unfold lbits. cbn [f_closed f_readable f_allow f_writable].
    split; [reflexivity|]. split; [destruct q; reflexivity|]. split; [|auto]. unfold queue_full. rewrite Z.leb_antisym, Bool.negb_involutive. reflexivity.
  - destruct So as (TD & RD & IT & SE & p & Y & L). pose proof L as (N & TE & WP & M & [B|B]); [|contradiction]. rewrite B. unfold cbits.
    cbn [f_closed f_readable f_allow f_writable]. rewrite (has_data_in s b pa y P). rewrite (sim_gone w S y A), Y.
    pose proof (i_sock _ _ I y p Y) as Sp. unfold sock_ok in Sp.
    split; [reflexivity|]. split; [|split; [reflexivity|left]].
    + unfold is_open. destruct (us_proto p) as [| |b1 pa1 x1| | |] eqn:PP; try contradiction.
      * destruct M as (_ & W1 & _). rewrite W1. destruct (k_in (abs s)); reflexivity.
      * destruct M as (W0 & _). rewrite W0. destruct (k_in (abs s)); reflexivity.
    + destruct (is_open p) eqn:O; cbn [negb orb].
      * assert (RP : ub_readers (us_buf p) = 1). { unfold is_open in O. destruct (us_proto p); try contradiction; try discriminate O. apply Sp. }
        rewrite RP. change (1 =? 0) with false. rewrite Bool.orb_false_r. unfold room. rewrite (flight_conn w S x s b pa y p); auto.
        destruct (Z.ltb_spec (us_sent s) send_limit), (Z.ltb_spec 0 (send_limit - us_sent s)); auto; lia.
      * assert (RP : ub_readers (us_buf p) = 0). { unfold is_open in O. destruct (us_proto p); try contradiction; try discriminate O. apply Sp. }
        rewrite RP. change (0 =? 0) with true. apply Bool.orb_true_r.
  - destruct So as (_ & _ & ->). cbn. auto.
  - destruct So as (TD & RD & W0 & Li & IT & FO & SE & SG & PE & FR & B).
    assert (HD : has_data (us_buf s) = match k_in (abs s) with [] => false | _ => true end).
    { unfold abs, has_data. cbn [k_in]. rewrite P. cbn [inbox]. inversion FO; reflexivity. }
    assert (FL : in_flight S x = us_sent s) by (rewrite (flight_gram w S x s), SG; auto; cbn; lia).
    destruct B as [B|[(B & IE & S0)|B]]; [| |contradiction].
    + rewrite B. unfold gbits. cbn [f_closed f_readable f_allow f_writable]. rewrite HD.
      split; [reflexivity|]. split; [reflexivity|]. split; [reflexivity|]. left. unfold room. rewrite FL.
      destruct (Z.ltb_spec (us_sent s) send_limit), (Z.ltb_spec 0 (send_limit - us_sent s)); auto; lia.
    + assert (KI : k_in (abs s) = []).
      { unfold abs. cbn [k_in]. rewrite P, IE. cbn [inbox]. destruct r; reflexivity. }
      rewrite KI, B. unfold active. cbn [f_closed f_readable f_allow f_writable]. rewrite FL, S0. split; [reflexivity|]. split; [reflexivity|]. split; [reflexivity|]. right. split; reflexivity.
  - destruct So as (_ & _ & ->). cbn. auto.
Qed.

(* ------------------------------------------------------------------ new data *)
Lemma run_cbs_grew fuel : forall w Q w' ns, run_cbs fuel w Q = Some (w', ns) ->
  (forall x o n g, In (CFile x o n g) Q -> In (x, o, n, g) ns) /\
  (forall k x ch, In (CBuf k x ch true) Q -> k <> LSend -> exists o n, In (x, o, n, true) ns).
Proof.
  induction fuel as [|fuel IH]; intros w [|c Q] w' ns H; cbn [run_cbs] in H; try discriminate H; bi; try (split; intros; contradiction).
  destruct (IH _ _ _ _ E0) as (H1 & H2). destruct (run_cb_tells _ _ _ _ _ E) as (_ & EN). split.
  - intros x o n g [->|C]; apply in_or_app; [left; rewrite EN; left; reflexivity|right; apply H1; apply in_or_app; auto].
  - intros k x ch [->|C] K.
    + assert (R : exists o n, In (CFile x o n true) l0).
      { clear - E K. unfold run_cb in E. assert (U : forall w w' cs, refresh w x true = Some (w', cs) -> exists o n, In (CFile x o n true) cs).
        { clear. intros w w' cs H. unfold refresh in H. destruct (sock w x) as [s|]; [|discriminate]. ob_in H.
          assert (V : forall b, Some (update_state w x s b true) = Some (w', cs) -> exists o n, In (CFile x o n true) cs).
          { intros b E. unfold update_state in E. cbn [negb] in E. rewrite Bool.andb_false_r in E. injection E as _ <-. eexists _, _. left. reflexivity. }
          destruct (us_proto s); try discriminate H; try exact (V _ H). destruct (sock w peer); [|discriminate]. ob_in H. exact (V _ H). }
        destruct k; [congruence| |]; rewrite Bool.orb_true_r in E; bi; eauto. }
      destruct R as (o & n & R). exists o, n. apply in_or_app. right. apply H1. apply in_or_app. auto.
    + destruct (H2 k x ch) as (o & n & R); [apply in_or_app; auto|auto|]. exists o, n. apply in_or_app. auto.
Qed.
Definition grows (w w1 : world) (cs : list cb) : Prop :=
  forall z, option_map abs (sock w1 z) = option_map abs (sock w z) \/ exists k ch, In (CBuf k z ch true) cs /\ k <> LSend.
Lemma grows_same w cs : grows w w cs. Proof. intro z. auto. Qed.
Lemma refresh_abs w x g w' cs : refresh w x g = Some (w', cs) -> forall z, option_map abs (sock w' z) = option_map abs (sock w z).
Proof.
  intro H. destruct (refresh_other _ _ _ _ _ H) as (A & B & _). intro z. destruct (Z.eq_dec z x) as [->|N]; [|rewrite A; auto].
  destruct (sock w x) as [s|] eqn:X; [|unfold refresh in H; rewrite X in H; discriminate H].
  destruct (B s eq_refl) as (b & ->). reflexivity.
Qed.
Lemma grows_refresh w w1 x w2 cs1 cs2 : grows w w1 cs1 -> refresh w1 x false = Some (w2, cs2) -> grows w w2 (cs1 ++ cs2).
Proof.
  intros G R z. rewrite (refresh_abs _ _ _ _ _ R). destruct (G z) as [H|(k & ch & H & K)]; [auto|right]. exists k, ch. split; auto. apply in_or_app. auto.
Qed.
Lemma send_grows w x s y dw data w1 cs r : Inv w [] -> sock w x = Some s -> 0 <= us_sent s <= send_limit ->
  (forall p, sock w y = Some p -> ub_readers (us_buf p) <> 0 -> exists k, k <> LSend /\ In (k, y) (ub_listeners (us_buf p))) ->
  common_send w x y true dw data None = Some (w1, cs, r) ->
  (forall z, z <> y -> option_map abs (sock w1 z) = option_map abs (sock w z)) /\
  (match r with
   | inl n => (us_type s = UStream /\ w1 = w) \/ exists k ch, In (CBuf k y ch true) cs /\ k <> LSend
   | inr _ => w1 = w
   end).
Proof.
  intros I X SL LI H. rewrite (common_send_eq w x s y dw data X) in H by lia. destruct (Z.eqb_spec x y) as [|N]; [discriminate|].
  destruct (sock w y) as [p|] eqn:Y; [|discriminate]. destruct (Z.eqb_spec (ub_readers (us_buf p)) 0) as [R0|R1]; [bi; auto|].
  destruct (accepted _ _ _) as [[n|]|e]; [|bi; auto|bi; auto]. unfold delivered in H.
  destruct (utype_eqb (us_type s) UStream && (n =? 0)) eqn:US.
  { bi. apply Bool.andb_true_iff in US as (US & _). destruct (utype_eqb_ok (us_type s) UStream); [auto|discriminate US]. }
  destruct (grow_eq (us_buf p) (wares (us_type s) (firstn (Z.to_nat n) data))) as (ch & GE). rewrite GE in H. bi. split.
  - intros z NZ. sk. destruct (Z.eqb_spec z x) as [->|]; [rewrite X; reflexivity|]. rewrite ?(eqb_neq z y) by auto. reflexivity.
  - right. destruct (LI p eq_refl R1) as (k & K & IN). exists k, ch. split; [|exact K]. apply in_map_iff. exists (k, y). auto.
Qed.
Lemma listeners_of w y p : Inv w [] -> sock w y = Some p -> active_kind (us_proto p) ->
  exists k, k <> LSend /\ In (k, y) (ub_listeners (us_buf p)).
Proof.
  intros I Y K. pose proof (i_sock _ _ I y p Y) as Sp. unfold sock_ok in Sp. destruct (us_proto p) as [| |b pa z| |b pa pe r|]; try contradiction.
  - destruct Sp as (_ & _ & _ & _ & u & _ & L). destruct L as (_ & _ & _ & M & _). exists LRecv. split; [discriminate|].
    destruct (us_proto u); try contradiction; [destruct M as (_ & _ & [-> | ->] & _)|destruct M as (_ & -> & _)]; cbn; auto.
  - destruct Sp as (_ & _ & _ & -> & _). exists LDgram. split; [discriminate|]. cbn. auto.
Qed.
Lemma reader_kind w y p : Inv w [] -> sock w y = Some p -> ub_readers (us_buf p) <> 0 -> active_kind (us_proto p).
Proof.
  intros I Y R. pose proof (i_sock _ _ I y p Y) as Sp. unfold sock_ok in Sp. destruct (us_proto p); cbn; auto.
  - destruct Sp as (_ & B & _). rewrite B in R. apply R. reflexivity.
  - destruct Sp as (_ & B & _). rewrite B in R. apply R. reflexivity.
  - destruct Sp as (_ & B & _). apply R. exact B.
  - destruct Sp as (_ & B & _). apply R. exact B.
Qed.
Lemma syscall_grows w x a c f dw data w1 cs r : Inv w [] -> syscall w (Send x a c f dw data None) = Some (w1, cs, r) -> grows w w1 cs.
Proof.
  intros I H. cbn [syscall] in H. unfold with_fd in H. destruct (sock w x) as [s|] eqn:X; [|bi; apply grows_same].
  destruct (us_fd s); [|bi; apply grows_same]. unfold u_send in H. pose proof (i_sock _ _ I x s X) as So. unfold sock_ok in So.
  destruct (us_proto s) as [bound|b q lim|b pa y0| |b pa peer rr|] eqn:P; try (bi; apply grows_same).
  - destruct (us_type s), a; bi; apply grows_same.
  - destruct c; [bi; apply grows_same|]. destruct (resolve _ _ _ _) as [y|e]; [|bi; apply grows_same].
    destruct f; [|rewrite (bad_flags w x y dw data s X) in H; ob_in H; bi; apply grows_same]. bi.
    destruct So as (_ & _ & _ & SL & _).
    destruct (send_grows w x s y dw data w0 l s0 I X SL) as (O & R); [|exact E|].
    { intros p Y RP. apply (listeners_of w y p I Y). eapply reader_kind; eauto. }
    destruct s0 as [n|[e|]]; bi; try (subst; apply grows_same).
    apply (grows_refresh w w0 x); auto. intro z. destruct R as [(_ & ->)|R]; [auto|]. destruct (Z.eq_dec z y) as [->|]; auto.
  - destruct c; [bi; apply grows_same|]. destruct (resolve _ _ _ _) as [y|e]; [|bi; apply grows_same].
    destruct f; [|rewrite (bad_flags w x y dw data s X) in H; ob_in H; bi; apply grows_same]. bi.
    destruct So as (TD & _ & _ & _ & _ & _ & SL & _).
    destruct (send_grows w x s y dw data w0 l s0 I X SL) as (O & R); [|exact E|].
    { intros p Y RP. apply (listeners_of w y p I Y). eapply reader_kind; eauto. }
    destruct s0 as [n|[e|]]; bi; try (subst; apply grows_same).
    match goal with H : match us_proto ?u with _ => _ end = Some _ |- _ => destruct (us_proto u) eqn:PU; bi end. subst.
    eapply grows_refresh; [|eassumption]. intro z. rewrite sock_upd. destruct (Z.eqb_spec z y) as [->|]; [|auto].
    destruct R as [(TS & _)|R]; [congruence|auto].
Qed.
