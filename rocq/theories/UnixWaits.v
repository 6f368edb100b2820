(** Blocked calls on unix sockets are woken; names; connections waiting to be accepted. *)
From Verif Require Import Base FMap UnixModel UnixSpec UnixFacts UnixInv UnixOps UnixSend UnixWorld UnixNotes UnixReady UnixTraces UnixDeliver.

Lemma reach ops w outs : Forall clean ops -> run init ops = Some (w, outs) ->
  exists S evs, history k_init ops = Some (S, evs) /\ map (fun e : event => snd e) evs = map fst outs /\ Inv w [] /\ sim w S.
Proof.
  intros C R. pose proof (run_ok ops init k_init (proj1 init_ok) (proj2 init_ok) C) as H. rewrite history_run in H.
  destruct (history k_init ops) as [[S evs]|] eqn:E; ob_in H; [|congruence]. destruct H as (w' & outs' & R' & M & I & A).
  assert (w' = w /\ outs' = outs) as (-> & ->) by (rewrite R in R'; injection R'; auto). exists S, evs. auto.
Qed.

(* ------------------------------------------------------------------ time goes on *)
Definition onward (S S' : kstate) : Prop :=
  (forall x k, ks S x = Some k -> exists k', ks S' x = Some k' /\ k_type k' = k_type k /\ later (k_role k) (k_role k')) /\
  (forall t n y, ks_names S t n = Some y -> is_gone S' y = false -> ks_names S' t n = Some y).
Lemma onward_gone S S' x k : onward S S' -> ks S x = Some k -> is_gone S' x = false -> gone k = false.
Proof.
  intros (O & _) K G. destruct (O x k K) as (k' & K' & _ & L). unfold is_gone in G. rewrite K' in G. unfold gone in *.
  destruct (k_role k); auto. destruct L as [L|[L|[]]]; rewrite L in G; discriminate.
Qed.
Lemma onward_refl S : onward S S.
Proof. split; [|auto]. intros x k K. exists k. split; auto. split; auto. apply later_refl. Qed.
Lemma onward_trans S S1 S2 : KInv S -> onward S S1 -> onward S1 S2 -> onward S S2.
Proof.
  intros KI A B. pose proof A as (A1 & A2). pose proof B as (B1 & B2). split.
  - intros x k K. destruct (A1 x k K) as (k1 & K1 & T1 & L1). destruct (B1 x k1 K1) as (k2 & K2 & T2 & L2). exists k2. split; auto. split; [congruence|].
    eapply later_trans; eauto.
  - intros t n y N G. apply B2; auto. apply A2; auto. destruct (ki_name S KI t n y N) as (k & K & _). destruct (A1 y k K) as (k1 & K1 & _).
    unfold is_gone. rewrite K1. eapply onward_gone; eauto.
Qed.
Lemma names_bury S x t n y : ks_names S t n = Some y -> is_gone (bury S x) y = false -> ks_names (bury S x) t n = Some y.
Proof.
  intros N G. unfold is_gone in G. rewrite buried in G. unfold bury. destruct (ks S x) as [k|] eqn:K; auto. cbn. rewrite N.
  destruct (Z.eqb_spec y x) as [->|]; auto. rewrite K in G. discriminate.
Qed.
Definition names_stay (S S' : kstate) : Prop := forall t n y, ks_names S t n = Some y -> is_gone S' y = false -> ks_names S' t n = Some y.
Lemma dies_gone S S' y : dies S S' -> is_gone S' y = false -> is_gone S y = false.
Proof. intros D G. unfold is_gone in *. specialize (D y). destruct (ks S y) as [k|]; [destruct D as [D|D]|]; rewrite D in G; auto. discriminate. Qed.
Lemma stay_trans S S1 S2 : names_stay S S1 -> dies S1 S2 -> names_stay S1 S2 -> names_stay S S2.
Proof. intros A D B t n y N G. apply B; auto. apply A; auto. eapply dies_gone; eauto. Qed.
Lemma close_stay l : forall S, names_stay S (fold_left s_close_one l S).
Proof.
  assert (DB : forall q S, dies S (fold_left bury q S)).
  { induction q as [|c q IH]; intro S; [apply dies_refl|]. cbn. eapply dies_trans; [apply bury_dies|apply IH]. }
  assert (B1 : forall x S, names_stay S (bury S x)) by (intros x S t n y; apply names_bury).
  assert (B : forall q S, names_stay S (fold_left bury q S)).
  { induction q as [|c q IH]; intros S; [intros t n y N _; exact N|]. cbn. eapply stay_trans; [apply B1|apply DB|apply IH]. }
  induction l as [|x l IH]; intro S; [intros t n y N _; exact N|]. cbn. eapply stay_trans; [|apply close_dies|apply IH].
  unfold s_close_one. destruct (ks S x) as [k|]; [|intros t n y N _; exact N]. destruct (k_fd k); [|intros t n y N _; exact N].
  destruct (k_role k); try apply B1. eapply stay_trans; [apply B|apply bury_dies|apply B1].
Qed.
Ltac same_names := intros t' n' y' N' _; cbn; exact N'.
Lemma step_stay S o S' r : s_step S o = Some (S', r) -> names_stay S S'.
Proof.
  intro H. destruct o.
  7:{ pose proof (step_send _ _ _ _ _ _ _ _ _ _ H) as E. destruct r; try contradiction; try (subst; same_names).
      destruct E as (? & ? & ? & _ & _ & _ & _ & _ & _ & _ & _ & _ & _ & ->). same_names. }
  7:{ pose proof (step_recv _ _ _ _ _ _ _ _ _ _ H) as E. destruct r; try contradiction; try (subst; same_names).
      destruct E as (k & _ & _ & _ & _ & E). destruct (k_role k); try contradiction.
      - destruct E as (_ & E). destruct (k_in k) as [|[[? ?] ?] ?]; [destruct E as (_ & -> & _); same_names|].
        destruct (k_type k); destruct E as (_ & _ & _ & ->); same_names.
      - destruct E as (? & ? & ? & ? & _ & _ & E). destruct (k_type k); destruct E as (_ & _ & _ & ->); same_names. }
  7:{ cbn in H. injection H as <- <-. apply close_stay. }
  all: cbn in H.
  1, 2: injection H as <- <-; same_names.
  all: unfold s_with in H; destruct (ks S x) as [k|]; [|injection H as <- <-; same_names]; destruct (k_fd k); [|injection H as <- <-; same_names];
    try (injection H as <- <-; same_names).
  - apply some_inj in H. assert (CL : forall n, taken S (k_type k) n = false -> names_stay S (k_claim_name S x k n)).
    { intros n T t m y N _. cbn. destruct (utype_eqb t (k_type k)) eqn:TE; cbn [andb]; auto. destruct (path_eqb_ok m n); auto. exfalso.
      unfold taken in T. destruct (utype_eqb_ok t (k_type k)); [|discriminate]. subst. rewrite N in T. discriminate. }
    unfold s_bind in H. destruct (k_role k); try (injection H as <- <-; same_names);
      (destruct (k_name k); [injection H as <- <-; same_names|]); (destruct a as [[|c p]|]; [| |injection H as <- <-; same_names]).
    + destruct (autobind_name _ _) eqn:AB; injection H as <- <-; [|same_names]. apply CL. eapply autobind_free; eauto.
    + destruct c; [destruct (taken _ _ _) eqn:TK|..]; injection H as <- <-; try same_names. apply CL. exact TK.
    + destruct (autobind_name _ _) eqn:AB; injection H as <- <-; [|same_names]. apply CL. eapply autobind_free; eauto.
    + destruct c; [destruct (taken _ _ _) eqn:TK|..]; injection H as <- <-; try same_names. apply CL. exact TK.
  - apply some_inj in H. unfold s_listen in H. destruct (k_role k); [destruct (k_name k)|..]; injection H as <- <-; same_names.
  - unfold s_connect in H. destruct (k_role k); destruct a as [p|]; try (injection H as <- <-; same_names).
    + destruct (owner _ _ _) as [y|]; [|injection H as <- <-; same_names]. destruct (y =? x); [discriminate|]. destruct (ks S y) as [srv|]; [|discriminate].
      destruct (k_role srv); try (injection H as <- <-; same_names). destruct (_ <=? _); injection H as <- <-; same_names.
    + destruct (owner _ _ _) as [y|]; injection H as <- <-; same_names.
  - unfold s_accept in H. destruct (k_role k) as [|[|c q] lim| | |]; try (injection H as <- <-; same_names).
    destruct (ks S c) as [ch|]; [|discriminate]. destruct (k_role ch); try discriminate. injection H as <- <-. same_names.
Qed.
Lemma step_onward S o S' r : KInv S -> s_step S o = Some (S', r) -> onward S S'.
Proof.
  intros KI H. split; [|apply (step_stay _ _ _ _ H)]. intros x k K. destruct (is_io o) eqn:IO.
  - assert (P : forall y dd l, ks S y = Some dd -> S' = kput S y (k_set_in dd l) -> exists k', ks S' x = Some k' /\ k_type k' = k_type k /\ later (k_role k) (k_role k')).
    { intros y dd l Y ->. cbn. destruct (Z.eqb_spec x y) as [->|].
      - assert (dd = k) by congruence. subst. eexists. split; [reflexivity|]. split; [reflexivity|apply later_refl].
      - exists k. split; auto. split; auto. apply later_refl. }
    assert (P0 : S' = S -> exists k', ks S' x = Some k' /\ k_type k' = k_type k /\ later (k_role k) (k_role k')).
    { intros ->. exists k. split; auto. split; auto. apply later_refl. }
    destruct o; try discriminate IO.
    + pose proof (step_send _ _ _ _ _ _ _ _ _ _ H) as E. destruct r; try contradiction; auto.
      destruct E as (k1 & y & dd & _ & _ & _ & _ & Y & _ & _ & _ & _ & _ & E). eauto.
    + pose proof (step_recv _ _ _ _ _ _ _ _ _ _ H) as E. destruct r; try contradiction; auto. destruct E as (k1 & Y & _ & _ & _ & E).
      destruct (k_role k1); try contradiction.
      * destruct E as (_ & E). destruct (k_in k1) as [|[[? ?] ?] ?]; [apply P0, E|]. destruct (k_type k1); destruct E as (_ & _ & _ & E); eauto.
      * destruct E as (? & ? & ? & ? & _ & _ & E). destruct (k_type k1); destruct E as (_ & _ & _ & E); eauto.
  - pose proof (step_quiet _ _ _ _ KI IO H x) as Q. unfold quiet_at in Q. rewrite K in Q. destruct (ks S' x) as [k'|]; [|contradiction].
    exists k'. split; auto. destruct Q as (T & L & _). auto.
Qed.
Lemma run_onward ops : forall w S w' outs, Inv w [] -> sim w S -> Forall clean ops -> run w ops = Some (w', outs) ->
  exists S', s_run S ops = Some (S', map fst outs) /\ Inv w' [] /\ sim w' S' /\ onward S S'.
Proof.
  induction ops as [|o ops IH]; intros w S w' outs I A C R; cbn [run s_run] in *.
  - injection R as <- <-. exists S. split; auto. split; auto. split; auto. apply onward_refl.
  - inversion C as [|? ? CO C']; subst. pose proof (step_ok w S o I A CO) as H. destruct (s_step S o) as [[S1 r]|] eqn:ST.
    + destruct H as (w1 & ns & E & I1 & A1). rewrite E in R. ob_in R. destruct (run w1 ops) as [[w2 outs2]|] eqn:R2; [|discriminate]. ob_in R. injection R as <- <-.
      destruct (IH w1 S1 w2 outs2 I1 A1 C' R2) as (S2 & E2 & I2 & A2 & O2). exists S2. ob. rewrite E2. ob. split; auto. split; auto. split; auto.
      assert (KI : KInv S) by (exact (kinv w S I A)). exact (onward_trans S S1 S2 KI (step_onward S o S1 r KI ST) O2).
    + rewrite H in R. discriminate.
Qed.

(* ------------------------------------------------------------------ blocking and going on *)
(** The bit a blocked call waits for; a connect also stops waiting when the listener is closed. *)
Definition bit (on : waits) (b : ubits) : bool :=
  match on with WReadable => f_readable b | WWritable => f_writable b | WAllow => f_allow b || f_closed b end.
(** The call did what it waited to do, or found that it never will. *)
Definition goes (o : uop) (r : ures) : Prop :=
  match o, r with
  | Recv _ _ _ _ _ _ _, RRecv _ _ _ _ | Accept _ _, RAccepted _ _ | Connect _ _, ROk | Connect _ _, RErr ECONNREFUSED
  | Send _ _ _ _ _ _ _, RSent _ | Send _ _ _ _ _ _ _, RErr EPIPE => True
  | _, _ => False
  end.
Lemma wb_block k d x on z on' : would_block k d x on = RBlock z on' -> z = x /\ on' = on.
Proof. unfold would_block. destruct (_ || _); [discriminate|]. intro H. injection H as <- <-. auto. Qed.
Lemma wb_not k d x on r : would_block k d x on = r -> match r with RErr EAGAIN | RBlock _ _ => True | _ => False end.
Proof. unfold would_block. destruct (_ || _); intros <-; exact Logic.I. Qed.
Lemma blocked S o S1 z on : s_step S o = Some (S1, RBlock z on) -> S1 = S /\
  match o with
  | Recv x _ _ _ _ _ _ | Accept x _ => z = x /\ on = WReadable /\ exists k, ks S x = Some k /\ says_readable S k = false
  | Send x a _ _ _ data _ => z = x /\ on = WWritable /\ exists k y, ks S x = Some k /\ destination S k a = inl y /\ is_gone S y = false /\
      accepted (k_type k) (blen data) (room S x) = inl None
  | Connect x a => on = WAllow /\ exists k p srv q lim, ks S x = Some k /\ a = AUnix p /\ k_role k = KNew /\
      owner S (k_type k) p = inl z /\ ks S z = Some srv /\ k_role srv = KListen q lim /\ lim <= blen q
  | _ => False
  end.
Proof.
  intro H. destruct o; cbn in H; try discriminate H;
    unfold s_with in H; (destruct (ks S x) as [k|] eqn:K; [|discriminate H]); (destruct (k_fd k); [|discriminate H]); try discriminate H.
  - apply some_inj in H. unfold s_bind in H. destruct (k_role k), (k_name k), a as [[|[| |] p]|]; try discriminate H;
      try (destruct (autobind_name _ _); discriminate H); destruct (taken _ _ _); discriminate H.
  - apply some_inj in H. unfold s_listen in H. destruct (k_role k), (k_name k); discriminate H.
  - unfold s_connect in H. destruct (k_role k) eqn:R; destruct a as [p|]; try discriminate H.
    + destruct (owner _ _ _) as [y|] eqn:O; [|discriminate H]. destruct (y =? x); [discriminate H|]. destruct (ks S y) as [srv|] eqn:Y; [|discriminate H].
      destruct (k_role srv) eqn:RS; try discriminate H. destruct (Z.leb_spec limit (blen waiting)); [|discriminate H].
      injection H as <- H. apply wb_block in H as (-> & ->). split; auto. split; auto. exists k, p, srv, waiting, limit. auto 10.
    + destruct (owner _ _ _); discriminate H.
  - unfold s_accept in H. destruct (k_role k) as [|[|c q] lim| | |] eqn:R; try discriminate H.
    + injection H as <- H. apply wb_block in H as (-> & ->). split; auto. split; auto. split; auto. exists k. split; auto. unfold says_readable. rewrite R. reflexivity.
    + destruct (ks S c) as [ch|]; [|discriminate H]. destruct (k_role ch); discriminate H.
  - unfold s_send in H. destruct (_ && _); [discriminate H|]. destruct (destination S k a) as [y|] eqn:D; [|discriminate H].
    destruct (negb flags_ok); [discriminate H|]. destruct (x =? y); [discriminate H|]. destruct (ks S y) as [d|] eqn:Y; [|discriminate H].
    destruct (gone d) eqn:G; [discriminate H|]. destruct (accepted _ _ _) as [[n|]|] eqn:AC; try discriminate H.
    injection H as <- H. apply wb_block in H as (-> & ->). split; auto. split; auto. split; auto. exists k, y. split; auto. split; auto. split; auto.
    unfold is_gone. rewrite Y. exact G.
  - apply some_inj in H. unfold s_recv in H. destruct (k_role k) eqn:R; try discriminate H; (destruct (_ || _); [discriminate H|]).
    + destruct (k_in k) as [|[[a1 b1] m] rest] eqn:KI; [|destruct (k_type k), trunc; discriminate H]. destruct (is_gone S peer) eqn:G; [discriminate H|].
      injection H as <- H. apply wb_block in H as (-> & ->). split; auto. split; auto. split; auto. exists k. split; auto. unfold says_readable. rewrite R, KI. exact G.
    + destruct (k_in k) as [|[[a1 b1] m] rest] eqn:KI; [|destruct (k_type k), trunc; discriminate H].
      injection H as <- H. apply wb_block in H as (-> & ->). split; auto. split; auto. split; auto. exists k. split; auto. unfold says_readable. rewrite R, KI. reflexivity.
  - unfold s_peername in H. destruct (k_role k) as [| | |[[? ?]|]|]; discriminate H.
Qed.
Lemma accepted_room t n r m : accepted t n r = inl (Some m) -> 0 < r.
Proof. unfold accepted. destruct t; destruct (Z.leb_spec r 0); try discriminate; auto. Qed.
Lemma went S o S' r : KInv S -> s_step S o = Some (S', r) -> goes o r ->
  match o with
  | Recv x _ _ _ _ _ _ | Accept x _ => exists k, ks S x = Some k /\ says_readable S k = true
  | Send x _ _ _ _ _ _ => exists k, ks S x = Some k /\ says_writable S x k = true
  | Connect x a => exists k p, ks S x = Some k /\ a = AUnix p /\ (k_role k = KNew ->
      forall z srv q lim, owner S (k_type k) p = inl z -> ks S z = Some srv -> k_role srv = KListen q lim -> blen q < lim)
  | _ => False
  end.
Proof.
  intros KI H G. destruct o; cbn in G; try contradiction.
  - cbn in H. unfold s_with in H. destruct (ks S x) as [k|] eqn:K; [|injection H as <- <-; contradiction].
    destruct (k_fd k); [|injection H as <- <-; contradiction]. unfold s_connect in H.
    destruct (k_role k) eqn:R; destruct a as [p|]; try (injection H as <- <-; contradiction).
    + exists k, p. split; auto. split; auto. intros _ z srv q lim O Y RS. rewrite O in H. destruct (z =? x); [discriminate H|]. rewrite Y, RS in H.
      destruct (Z.leb_spec lim (blen q)); auto. injection H as <- H. apply wb_not in H. destruct r as [| | | | | | |[]|]; contradiction.
    + exists k, p. split; auto. split; auto. rewrite R. discriminate.
  - destruct r as [| | |c from| | | |e|]; try contradiction; try (destruct e; contradiction).
    cbn in H. unfold s_with in H. destruct (ks S x) as [k|] eqn:K; [|discriminate H]. destruct (k_fd k); [|discriminate H].
    unfold s_accept in H. exists k. split; auto. unfold says_readable. destruct (k_role k) as [|[|c0 q] lim| | |]; try discriminate H; auto.
    injection H as _ H. apply wb_not in H. contradiction.
  - pose proof (step_send _ _ _ _ _ _ _ _ _ _ H) as E. destruct r as [| | | |n| | |e|]; try contradiction.
    + destruct E as (k & y & dd & K & FD & DE & N & Y & GD & AC & _ & _ & UN & _). exists k. split; auto. apply accepted_room in AC.
      unfold says_writable. unfold unconnected in UN. destruct (k_role k); try discriminate UN.
      * apply Bool.orb_true_iff. right. apply Z.ltb_lt. exact AC.
      * apply Z.ltb_lt. exact AC.
    + destruct e; try contradiction. cbn in H. unfold s_with in H. destruct (ks S x) as [k|] eqn:K; [|discriminate H]. destruct (k_fd k); [|discriminate H].
      unfold s_send in H. destruct (_ && _); [discriminate H|]. destruct (destination S k a) as [y|e0] eqn:DE.
      2:{ exfalso. injection H as _ H. subst e0. unfold destination, owner in DE. destruct (k_role k) as [| | |[[? ?]|]|], a as [[[|[| |] p]|]|]; try discriminate DE;
            try (destruct (k_type k); discriminate DE); destruct (ks_names _ _ _); discriminate DE. }
      destruct (negb flags_ok); [discriminate H|]. destruct (x =? y); [discriminate H|]. destruct (ks S y) as [d|] eqn:Y; [|discriminate H].
      destruct (gone d) eqn:GD; [|exfalso; destruct (accepted _ _ _) as [[n|]|e0] eqn:AC].
      * exists k. split; auto. injection H as _ H. unfold says_writable. unfold destination in DE.
        assert (TD : k_type k <> UDgram) by (intro T; rewrite T in H; discriminate).
        pose proof (ki_kind S KI x k K) as KD. destruct (k_role k) as [| |z pn|t|] eqn:R; try congruence;
          try (destruct a as [[p|]|]; discriminate DE || (destruct (k_type k); discriminate DE)).
        assert (z = y). { destruct a as [[p|]|]; [destruct (k_type k); try discriminate DE|discriminate DE|]; congruence. }
        subst z. apply Bool.orb_true_iff. left. unfold is_gone. rewrite Y. exact GD.
      * discriminate H.
      * injection H as _ H. apply wb_not in H. contradiction.
      * injection H as _ H. subst e0. unfold accepted in AC. destruct (k_type k), (_ <=? 0); try discriminate AC; destruct (_ <=? _); try discriminate AC; destruct (_ <=? _); discriminate AC.
  - pose proof (step_recv _ _ _ _ _ _ _ _ _ _ H) as E. destruct r as [| | | | |n out src tr| |e|]; try contradiction; try (destruct e; contradiction).
    destruct E as (k & K & _ & _ & _ & E). exists k. split; auto. unfold says_readable. destruct (k_role k); try contradiction.
    + destruct E as (_ & E). destruct (k_in k) as [|[[? ?] ?] ?]; auto. apply E.
    + destruct E as (? & ? & ? & ? & -> & _). reflexivity.
Qed.

Definition gram_send (w : world) (o : uop) : Prop :=
  match o with Send x _ _ _ _ _ _ => exists s, sock w x = Some s /\ us_type s = UDgram | _ => False end.
Lemma bits_at_sock w x s : sock w x = Some s -> bits_at w x = us_bits s.
Proof. intro X. unfold bits_at. rewrite X. reflexivity. Qed.
Lemma sim_back w S x k : sim w S -> ks S x = Some k -> exists s, sock w x = Some s /\ k = abs s.
Proof. intros (A & _) K. rewrite A in K. destruct (sock w x) as [s|]; [|discriminate]. injection K as <-. eauto. Qed.
(** A call waits for a bit that is off; only a message can wait when there is room, if too little. *)
Lemma blocks_off w S o w1 z on ns : Inv w [] -> sim w S -> clean o -> step w o = Some (w1, RBlock z on, ns) ->
  (match o with Send x _ _ _ _ _ _ => exists s, sock w x = Some s /\ us_type s = UStream | _ => True end) -> bit on (bits_at w1 z) = false.
Proof.
  intros I A C E M. pose proof (step_ok w S o I A C) as H. destruct (s_step S o) as [[S1 r]|] eqn:ST; [|congruence].
  destruct H as (w2 & ns2 & E2 & I2 & A2). rewrite E in E2. injection E2 as <- <- <-.
  destruct (blocked _ _ _ _ _ ST) as (-> & B). destruct o; try contradiction.
  - destruct B as (-> & k & p & srv & q & lim & K & -> & R & O & Z & RS & FU). destruct (sim_back w1 S z srv A2 Z) as (s & X & ->).
    rewrite (bits_at_sock _ _ _ X). destruct (bits_say w1 S z s I2 A2 X) as (B1 & _ & B3 & _). cbn [bit]. rewrite B1, B3. unfold gone, says_allow. rewrite RS.
    rewrite Bool.orb_false_r. apply Z.ltb_ge. exact FU.
  - destruct B as (-> & -> & k & K & B). destruct (sim_back w1 S x k A2 K) as (s & X & ->). rewrite (bits_at_sock _ _ _ X).
    destruct (bits_say w1 S x s I2 A2 X) as (_ & B2 & _). cbn [bit]. congruence.
  - destruct B as (-> & -> & k & y & K & DE & G & AC). destruct M as (s0 & X0 & T0). destruct (sim_back w S x k A K) as (s' & X' & EK).
    assert (s' = s0) by congruence. subst s'.
    destruct (sim_back w1 S x k A2 K) as (s & X & ->). rewrite (bits_at_sock _ _ _ X).
    assert (TS : us_type s = UStream). { change (k_type (abs s) = UStream). rewrite EK. exact T0. }
    assert (KT : k_type (abs s) = UStream) by exact TS.
    assert (W : says_writable S x (abs s) = false).
    { unfold says_writable. rewrite KT in AC. unfold accepted in AC. destruct (Z.leb_spec (room S x) 0); [|discriminate AC].
      pose proof (ki_kind S (kinv w S I A) x (abs s) K) as KD. unfold destination in DE. rewrite KT in DE, KD.
      destruct (k_role (abs s)) as [| |z pn|t|]; auto; try discriminate KD. destruct a as [[p|]|]; try discriminate DE.
      injection DE as ->. rewrite G. apply Z.ltb_ge. lia. }
    destruct (bits_say w1 S x s I2 A2 X) as (_ & _ & _ & [B|(_ & B)]); cbn [bit]; congruence.
  - destruct B as (-> & -> & k & K & B). destruct (sim_back w1 S x k A2 K) as (s & X & ->). rewrite (bits_at_sock _ _ _ X).
    destruct (bits_say w1 S x s I2 A2 X) as (_ & B2 & _). cbn [bit]. congruence.
Qed.
(** If the bit was off when the call blocked and the call would go on now, the bit was announced to go on. *)
Lemma wakes w S o wb z on ns ops w' outs w2 r ns2 : Inv w [] -> sim w S -> fresh w -> clean o -> Forall clean ops ->
  step w o = Some (wb, RBlock z on, ns) -> bit on (bits_at wb z) = false -> run wb ops = Some (w', outs) ->
  step w' o = Some (w2, r, ns2) -> goes o r -> ~ gram_send w o -> exists old new g, In (z, old, new, g) (notes outs) /\ bit on old = false /\ bit on new = true.
Proof.
  intros I A FR C CO E OFF RN E2 GO NG. pose proof (step_ok w S o I A C) as H. destruct (s_step S o) as [[S1 rb]|] eqn:ST; [|congruence].
  destruct H as (wb' & nb & Eb & Ib & Ab). rewrite E in Eb. injection Eb as <- <- <-. destruct (blocked _ _ _ _ _ ST) as (-> & B).
  destruct (run_onward ops wb S w' outs Ib Ab CO RN) as (S' & SR & I' & A' & ON).
  pose proof (step_ok w' S' o I' A' C) as H'. destruct (s_step S' o) as [[S2 r2]|] eqn:ST2; [|congruence].
  destruct H' as (w3 & n3 & E3 & _ & _). rewrite E2 in E3. injection E3 as <- <- <-.
  pose proof (kinv w' S' I' A') as KI'. pose proof (went S' o S2 r KI' ST2 GO) as W.
  assert (FB : fresh wb) by (eapply step_tells; eauto).
  destruct (run_tells _ _ _ _ RN FB) as (_ & CH). specialize (CH z).
  assert (ONN : bit on (bits_at w' z) = true).
  { clear CH. destruct o; try contradiction.
    - destruct B as (-> & k & p & srv & q & lim & K & -> & R & O & Z & RS & FU). destruct W as (k' & p' & K' & Ep & W). injection Ep as <-.
      destruct ON as (O1 & O2). destruct (O1 x k K) as (k1 & K1 & T1 & L1). assert (k1 = k') by congruence. subst k1.
      destruct (O1 z srv Z) as (srv' & Z' & TS & LS). destruct (sim_back w' S' z srv' A' Z') as (s & X & EX).
      rewrite (bits_at_sock _ _ _ X). destruct (bits_say w' S' z s I' A' X) as (B1 & _ & B3 & _). cbn [bit]. rewrite B1, B3, <- EX.
      rewrite RS in LS. unfold gone, says_allow. destruct (k_role srv') as [|q' lim'| | |] eqn:RS'; try (destruct LS as [LS|[LS|LS]]; try discriminate LS; contradiction); [|reflexivity].
      rewrite Bool.orb_false_r. apply Z.ltb_lt.
      destruct (k_role k') as [|qq ll|cc pp|gg|] eqn:RK'; try (exfalso; rewrite R in L1; destruct L1 as [L1|[L1|L1]]; try discriminate L1; contradiction).
      + apply (W eq_refl z srv' q' lim'); auto. rewrite T1. unfold owner in *. destruct p as [|[| |] p]; try discriminate O.
        destruct (ks_names S (k_type k) p) as [y|] eqn:NM; [|discriminate O]. injection O as ->. rewrite (O2 _ _ _ NM); auto. unfold is_gone. rewrite Z'. unfold gone. rewrite RS'. reflexivity.
      + exfalso. clear W. cbn in ST2. unfold s_with in ST2. rewrite K' in ST2. destruct (k_fd k'); [|injection ST2 as <- <-; contradiction].
        unfold s_connect in ST2. rewrite RK' in ST2. injection ST2 as <- <-. contradiction.
      + exfalso. clear W. cbn in ST2. unfold s_with in ST2. rewrite K' in ST2. destruct (k_fd k'); [|injection ST2 as <- <-; contradiction].
        unfold s_connect in ST2. rewrite RK' in ST2. injection ST2 as <- <-. contradiction.
      + exfalso. clear W. cbn in ST2. unfold s_with in ST2. rewrite K' in ST2. destruct (k_fd k'); [|injection ST2 as <- <-; contradiction].
        unfold s_connect in ST2. rewrite RK' in ST2. injection ST2 as <- <-. contradiction.
    - destruct B as (-> & -> & _). destruct W as (k & K & W). destruct (sim_back w' S' x k A' K) as (s & X & ->). rewrite (bits_at_sock _ _ _ X).
      destruct (bits_say w' S' x s I' A' X) as (_ & B2 & _). cbn [bit]. congruence.
    - destruct B as (-> & -> & k0 & _ & K0 & _). destruct W as (k & K & W). destruct (sim_back w' S' x k A' K) as (s & X & ->). rewrite (bits_at_sock _ _ _ X).
      destruct (bits_say w' S' x s I' A' X) as (_ & _ & _ & [B|(U & B)]); cbn [bit]; [congruence|]. exfalso. apply NG. cbn.
      destruct ON as (O1 & _). destruct (O1 x k0 K0) as (k1 & K1 & T1 & _). assert (k1 = abs s) by congruence. subst k1.
      destruct (sim_back w S x k0 A K0) as (s0 & X0 & ->). exists s0. split; auto. pose proof (ki_kind S' KI' x (abs s) K) as KD.
      unfold untouched in U. destruct (k_role (abs s)); try discriminate U. cbn in T1. change (us_type s = UDgram) in KD. congruence.
    - destruct B as (-> & -> & _). destruct W as (k & K & W). destruct (sim_back w' S' x k A' K) as (s & X & ->). rewrite (bits_at_sock _ _ _ X).
      destruct (bits_say w' S' x s I' A' X) as (_ & B2 & _). cbn [bit]. congruence. }
  destruct (chain_on (bit on) _ _ _ CH OFF ONN) as (o1 & n1 & IN & Q1 & Q2). apply said_in in IN as (g & IN). eauto 10.
Qed.
