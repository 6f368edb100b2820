(** Runs of the specification of unix sockets: what is sent is read, in order, once. *)
From Verif Require Import Base FMap UnixModel UnixSpec UnixFacts UnixInv UnixOps UnixLink UnixCall UnixSend UnixRecv UnixClose UnixWorld UnixNotes.

(* ------------------------------------------------------------------ what every reachable state satisfies *)
Definition kfree (S : kstate) (x : Z) : Prop :=
  match ks S x with None => True | Some k => match k_role k with KNew | KListen _ _ => True | _ => False end end.
Record KInv (S : kstate) : Prop := mkKI
  { ki_next : forall x, ks S x <> None -> 0 <= x < ks_next S;
    ki_conn : forall x k y pn, ks S x = Some k -> k_role k = KConn y pn ->
      x <> y /\ k_type k <> UDgram /\ Forall (fun e => fst (fst e) = y) (k_in k) /\
      exists ky, ks S y = Some ky /\ k_type ky = k_type k /\ ((exists pn', k_role ky = KConn x pn') \/ k_role ky = KGone);
    ki_unique : forall x k y pn z k' pn', ks S x = Some k -> k_role k = KConn y pn -> ks S z = Some k' -> k_role k' = KConn y pn' -> x = z;
    ki_kind : forall x k, ks S x = Some k ->
      match k_role k with KGram _ => k_type k = UDgram | KGone => True | _ => k_type k <> UDgram end;
    ki_empty : forall x k, ks S x = Some k -> match k_role k with KConn _ _ | KGram _ => True | _ => k_in k = [] end;
    ki_byte : forall x k, ks S x = Some k -> k_type k = UStream -> Forall (fun e => exists b, snd e = [b]) (k_in k);
    ki_fd : forall x k, ks S x = Some k -> k_fd k = true -> gone k = false;
    ki_name : forall t n x, ks_names S t n = Some x -> exists k, ks S x = Some k /\ k_type k = t /\ gone k = false /\ k_name k = Some (0 :: n);
    ki_wait : forall x k q lim, ks S x = Some k -> k_role k = KListen q lim ->
      NoDup q /\ forall c, In c q -> exists kc y pn, ks S c = Some kc /\ k_fd kc = false /\ k_role kc = KConn y pn;
    ki_apart : forall x k q lim x' k' q' lim' c, ks S x = Some k -> k_role k = KListen q lim ->
      ks S x' = Some k' -> k_role k' = KListen q' lim' -> In c q -> In c q' -> x = x';
    ki_to : forall x k y n, ks S x = Some k -> k_role k = KGram (Some (y, n)) -> exists ky, ks S y = Some ky /\ k_type ky = UDgram;
    ki_sum : forall x k y pn ky, ks S x = Some k -> k_role k = KConn y pn -> ks S y = Some ky -> gone ky = false ->
      in_flight S x = blen (concat (map snd (k_in ky)));
    ki_flight : forall x k, ks S x = Some k ->
      match k_role k with KGram _ => True | KConn y _ => is_gone S y = false | _ => False end -> in_flight S x <= send_limit }.
Lemma kinv w S : Inv w [] -> sim w S -> KInv S.
Proof.
  intros I A. pose proof A as (AS & AN & AM).
  assert (G : forall x k, ks S x = Some k -> exists s, sock w x = Some s /\ k = abs s).
  { intros x k K. rewrite AS in K. destruct (sock w x) as [s|]; [|discriminate]. injection K as <-. eauto. }
  assert (R : forall s, k_role (abs s) = role_of (us_proto s)) by reflexivity.
  assert (RC : forall s y pn, k_role (abs s) = KConn y pn -> exists b, us_proto s = PConnected b pn y).
  { intros s y pn E. rewrite R in E. destruct (us_proto s); try discriminate E. injection E as <- <-. eauto. }
  assert (RL : forall s q lim, k_role (abs s) = KListen q lim -> exists b, us_proto s = PListening b q lim).
  { intros s q lim E. rewrite R in E. destruct (us_proto s); try discriminate E. injection E as <- <-. eauto. }
  constructor.
  - intros x N. rewrite AS in N. destruct (sock w x) as [s|] eqn:X; [|elim N; reflexivity]. rewrite AN. apply (i_base _ _ I x s X).
  - intros x k y pn K RK. destruct (G x k K) as (s & X & ->). destruct (RC s y pn RK) as (b & P).
    pose proof (i_sock _ _ I x s X) as So. unfold sock_ok in So. rewrite P in So. destruct So as (TD & _ & _ & _ & p & Y & L).
    pose proof L as (N & TE & _ & M & _). split; [exact N|]. split; [exact TD|]. split.
    + unfold abs. cbn [k_in]. rewrite P. cbn [inbox]. apply Forall_map, Forall_forall. reflexivity.
    + exists (abs p). split; [rewrite AS, Y; reflexivity|]. split; [exact TE|]. rewrite R.
      destruct (us_proto p); try contradiction; [left|right; reflexivity]. destruct M as (-> & _). cbn. eauto.
  - intros x k y pn z k' pn' K RK K' RK'. destruct (G x k K) as (s & X & ->), (G z k' K') as (t & Z & ->).
    destruct (RC s y pn RK) as (b & P), (RC t y pn' RK') as (b' & P').
    pose proof (i_sock _ _ I x s X) as So. unfold sock_ok in So. rewrite P in So. destruct So as (_ & _ & _ & _ & p & Y & L).
    pose proof (i_sock _ _ I z t Z) as So'. unfold sock_ok in So'. rewrite P' in So'. destruct So' as (_ & _ & _ & _ & p' & Y' & L').
    assert (p' = p) by congruence. subst p'. destruct L as (_ & _ & _ & M & _), L' as (_ & _ & _ & M' & _).
    destruct (us_proto p); try contradiction.
    + destruct M as (M & _), M' as (M' & _). congruence.
    + destruct M as (_ & _ & M & _), M' as (_ & _ & M' & _). rewrite M in M'. injection M'. auto.
  - intros x k K. destruct (G x k K) as (s & X & ->). pose proof (i_sock _ _ I x s X) as So. unfold sock_ok in So. rewrite R.
    destruct (us_proto s); cbn; tauto.
  - intros x k K. destruct (G x k K) as (s & X & ->). rewrite R. unfold abs. cbn [k_in]. destruct (us_proto s); cbn; auto.
  - intros x k K TS. destruct (G x k K) as (s & X & ->). pose proof (i_sock _ _ I x s X) as So. unfold sock_ok in So.
    unfold abs in *. cbn [k_in k_type] in *. destruct (us_proto s) eqn:P; try constructor.
    + destruct So as (_ & _ & IT & _). cbn [inbox]. apply Forall_map. eapply Forall_impl; [|exact IT]. intros [b|m] H; cbn; eauto. congruence.
    + destruct So as (TD & _). congruence.
  - intros x k K F. destruct (G x k K) as (s & X & ->). pose proof (inv_fd w [] x s I X F) as O. rewrite open_gone in O. destruct (gone (abs s)); auto; discriminate O.
  - intros t n x E. apply AM in E as (L & s & X & O). destruct (i_names _ _ I) as (N1 & _). destruct (N1 t n x L) as (u & U & TU & CU & _).
    assert (u = s) by congruence. subst u. exists (abs s). split; [rewrite AS, X; reflexivity|]. split; [exact TU|]. split.
    + rewrite open_gone in O. destruct (gone (abs s)); auto; discriminate O.
    + destruct (i_base _ _ I x s X) as (_ & _ & _ & _ & B5). exact (B5 n CU O).
  - intros x k q lim K RK. destruct (G x k K) as (s & X & ->). destruct (RL s q lim RK) as (b & P).
    pose proof (i_sock _ _ I x s X) as So. unfold sock_ok in So. rewrite P in So. destruct So as (_ & _ & _ & _ & ND & CH).
    split; [exact ND|]. intros c C. rewrite Forall_forall in CH. destruct (CH c C) as (u & U & FU & PU).
    destruct (us_proto u) as [| |bu pu yu| | |] eqn:PE; try contradiction. exists (abs u), yu, pu. split; [rewrite AS, U; reflexivity|]. split; [exact FU|].
    rewrite R, PE. reflexivity.
  - intros x k q lim x' k' q' lim' c K RK K' RK'. destruct (G x k K) as (s & X & ->), (G x' k' K') as (s' & X' & ->).
    destruct (RL s q lim RK) as (b & P), (RL s' q' lim' RK') as (b' & P'). exact (i_apart _ _ I x s b q lim x' s' b' q' lim' c X P X' P').
  - intros x k y n K RK. destruct (G x k K) as (s & X & ->). rewrite R in RK. pose proof (i_sock _ _ I x s X) as So. unfold sock_ok in So.
    destruct (us_proto s) as [|b q lim|b pa y0| |b pa pe r|] eqn:P; cbn [role_of] in RK; try discriminate RK.
    destruct So as (_ & _ & _ & _ & _ & _ & _ & _ & PE & _). destruct pe as [z|]; [|discriminate RK]. injection RK as -> _.
    destruct (PE y eq_refl) as (u & U & TU). exists (abs u). split; [rewrite AS, U; reflexivity|exact TU].
  - intros x k y pn ky K RK KY GY. destruct (G x k K) as (s & X & ->), (G y ky KY) as (p & Y & ->). destruct (RC s y pn RK) as (b & P).
    assert (O : is_open p = true) by (rewrite open_gone, GY; reflexivity).
    rewrite (flight_conn w S x s b pn y p I A X P Y O).
    pose proof (i_sock _ _ I x s X) as So. unfold sock_ok in So. rewrite P in So. destruct So as (_ & _ & _ & _ & p' & Y' & L).
    assert (p' = p) by congruence. subst p'. destruct L as (_ & _ & _ & M & _). unfold abs. cbn [k_in].
    destruct (us_proto p) as [|b1 q1 l1|b1 pa1 x1| |b1 pa1 pe1 r1|] eqn:PP; try contradiction.
    2:{ unfold is_open in O. rewrite PP in O. discriminate O. }
    destruct M as (-> & _ & _ & M). rewrite M. cbn [inbox informs map zsum fold_right]. rewrite Z.add_0_r.
    rewrite map_map. cbn [snd]. clear. induction (ub_items (us_buf p)) as [|i l IH]; [reflexivity|]. cbn [map concat]. unfold blen in *.
    rewrite app_length, Nat2Z.inj_add, <- IH. unfold bytes. reflexivity.
  - intros x k K. destruct (G x k K) as (s & X & ->). rewrite R. pose proof (i_sock _ _ I x s X) as So. unfold sock_ok in So.
    destruct (us_proto s) as [|b q lim|b pa y| |b pa pe r|] eqn:P; cbn [role_of]; try contradiction.
    + intro O. rewrite (sim_gone w S y A) in O. destruct So as (_ & _ & _ & SL & p & Y & L). rewrite Y in O.
      rewrite (flight_conn w S x s b pa y p); auto; [lia|]. destruct (is_open p); auto; discriminate O.
    + intros _. destruct So as (TD & _ & _ & _ & _ & _ & SL & SG & _). rewrite (flight_gram w S x s); auto. cbn in SG. lia.
Qed.

(* ------------------------------------------------------------------ histories *)
Definition event : Type := kstate * uop * ures.
Fixpoint history (S : kstate) (ops : list uop) : option (kstate * list event) :=
  match ops with
  | [] => Some (S, [])
  | o :: ops => do (S1, r) <- s_step S o; do (S2, evs) <- history S1 ops; Some (S2, (S, o, r) :: evs)
  end.
Lemma history_run ops : forall S, s_run S ops = do (S2, evs) <- history S ops; Some (S2, map (fun e : event => snd e) evs).
Proof.
  induction ops as [|o ops IH]; intro S; cbn [history s_run]; [reflexivity|]. destruct (s_step S o) as [[S1 r]|]; ob; [|reflexivity].
  rewrite IH. destruct (history S1 ops) as [[S2 evs]|]; ob; reflexivity.
Qed.
Lemma history_snoc ops : forall S o, history S (ops ++ [o]) =
  do (S1, evs) <- history S ops; do (S2, r) <- s_step S1 o; Some (S2, evs ++ [(S1, o, r)]).
Proof.
  induction ops as [|o1 ops IH]; intros S o; cbn [history app]; ob.
  - destruct (s_step S o) as [[S1 r]|]; ob; reflexivity.
  - destruct (s_step S o1) as [[S1 r1]|]; ob; [|reflexivity]. rewrite IH. destruct (history S1 ops) as [[S2 evs]|]; ob; [|reflexivity].
    destruct (s_step S2 o) as [[S3 r]|]; ob; reflexivity.
Qed.
(** The states of a run of the specification, with the model beside it. *)
Lemma history_inv ops : Forall clean ops -> forall S evs, history k_init ops = Some (S, evs) -> exists w, Inv w [] /\ sim w S.
Proof.
  intros C S evs H. pose proof (run_ok ops init k_init (proj1 init_ok) (proj2 init_ok) C) as R. rewrite history_run, H in R. ob_in R.
  destruct R as (w & outs & _ & _ & I & A). eauto.
Qed.
Lemma history_ind (P : kstate -> list event -> Prop) : P k_init [] ->
  (forall S evs o S' r, KInv S -> KInv S' -> P S evs -> clean o -> s_step S o = Some (S', r) -> P S' (evs ++ [(S, o, r)])) ->
  forall ops S evs, Forall clean ops -> history k_init ops = Some (S, evs) -> P S evs.
Proof.
  intros P0 PS ops. induction ops as [|o ops IH] using rev_ind; intros S evs C H.
  - cbn in H. injection H as <- <-. exact P0.
  - pose proof C as C0. apply Forall_app in C as (C1 & C2). inversion C2 as [|? ? CO _]; subst. pose proof H as H0. rewrite history_snoc in H.
    destruct (history k_init ops) as [[S1 evs1]|] eqn:E; [|discriminate]. ob_in H. destruct (s_step S1 o) as [[S2 r]|] eqn:ST; [|discriminate]. ob_in H.
    injection H as <- <-. destruct (history_inv _ C1 _ _ E) as (w1 & I1 & A1), (history_inv _ C0 _ _ H0) as (w2 & I2 & A2).
    eapply PS; eauto using kinv.
Qed.

(* ------------------------------------------------------------------ effects of the calls *)
(** How the role of a socket may change. *)
Definition later (r r' : role) : Prop :=
  r' = r \/ r' = KGone \/
  match r, r' with
  | KNew, KListen _ _ | KNew, KConn _ _ | KListen _ _, KListen _ _ | KGram _, KGram _ => True
  | _, _ => False
  end.
Lemma later_refl r : later r r. Proof. left. reflexivity. Qed.
Lemma later_trans r r' r'' : later r r' -> later r' r'' -> later r r''.
Proof.
  intros [-> | [-> |H]]; auto.
  - intros [-> | [-> |H]]; [right; left; auto|right; left; auto|contradiction].
  - intros [-> | [-> |H']]; [right; right; auto|right; left; auto|]. right. right. destruct r, r'; try contradiction; destruct r''; auto.
Qed.

Lemma buried S x z : ks (bury S x) z = match ks S z with
  | Some k => if z =? x then Some (mkK (k_type k) (k_nonblock k) false None KGone []) else Some k | None => None end.
Proof.
  unfold bury. destruct (ks S x) as [k|] eqn:K; cbn [ks].
  - destruct (Z.eqb_spec z x) as [-> |N]; [rewrite K; reflexivity|destruct (ks S z); reflexivity].
  - destruct (ks S z) eqn:Q; auto. destruct (Z.eqb_spec z x); [congruence|reflexivity].
Qed.
(** Closing: a socket stays as it is or is gone. *)
Definition dies (S S' : kstate) : Prop := forall z, match ks S z with
  | None => ks S' z = None
  | Some k => ks S' z = Some k \/ ks S' z = Some (mkK (k_type k) (k_nonblock k) false None KGone []) end.
Lemma dies_refl S : dies S S. Proof. intro z. destruct (ks S z); auto. Qed.
Lemma dies_trans S S1 S2 : dies S S1 -> dies S1 S2 -> dies S S2.
Proof.
  intros A B z. specialize (A z). specialize (B z). destruct (ks S z) as [k|]; [|rewrite A in B; auto].
  destruct A as [A|A]; rewrite A in B; cbn in B; [auto|]. destruct B as [B|B]; auto.
Qed.
Lemma bury_dies S x : dies S (bury S x).
Proof. intro z. rewrite buried. destruct (ks S z); auto. destruct (z =? x); auto. Qed.
Lemma close_dies l : forall S, dies S (fold_left s_close_one l S).
Proof.
  assert (B : forall q S, dies S (fold_left bury q S)).
  { induction q as [|c q IH]; intro S; [apply dies_refl|]. cbn. eapply dies_trans; [apply bury_dies|apply IH]. }
  induction l as [|x l IH]; intro S; [apply dies_refl|]. cbn. eapply dies_trans; [|apply IH]. unfold s_close_one.
  destruct (ks S x) as [k|]; [|apply dies_refl]. destruct (k_fd k); [|apply dies_refl].
  destruct (k_role k); try apply bury_dies. eapply dies_trans; [apply B|apply bury_dies].
Qed.

(** Calls other than send and recv leave what a socket holds, unless they close it. *)
Definition is_io (o : uop) : bool := match o with Send _ _ _ _ _ _ _ | Recv _ _ _ _ _ _ _ => true | _ => false end.
Definition quiet_at (S S' : kstate) (z : Z) : Prop :=
  match ks S z, ks S' z with
  | None, None => True
  | Some k, Some k' => k_type k' = k_type k /\ later (k_role k) (k_role k') /\ (k_in k' = k_in k \/ (gone k' = true /\ k_in k' = [])) /\
      (forall y pn, k_role k = KNew -> k_role k' = KConn y pn -> ks S y = None)
  | None, Some k' => k_in k' = [] /\ gone k' = false /\
      (forall y pn, k_role k' = KConn y pn -> match ks S y with None => exists ky pn', ks S' y = Some ky /\ k_role ky = KConn z pn'
                                                             | Some k => k_role k = KNew end)
  | Some _, None => False
  end.
Definition quiet (S S' : kstate) : Prop := forall z, quiet_at S S' z.
Lemma quiet_keep S S' z : ks S' z = ks S z -> quiet_at S S' z.
Proof. unfold quiet_at. intros ->. destruct (ks S z) as [k|]; auto. split; auto. split; [apply later_refl|]. split; auto. intros. congruence. Qed.
Ltac qk := apply quiet_keep; cbn; repeat rewrite (proj2 (Z.eqb_neq _ _)) by assumption; reflexivity.
Ltac qo := unfold quiet_at; cbn; rewrite ?Z.eqb_refl.
Lemma quiet_refl S : quiet S S.
Proof. intro z. apply quiet_keep. reflexivity. Qed.
Lemma quiet_role S x k k' : ks S x = Some k -> k_type k' = k_type k -> later (k_role k) (k_role k') -> k_in k' = k_in k ->
  (forall y pn, k_role k = KNew -> k_role k' <> KConn y pn) -> quiet S (kput S x k').
Proof.
  intros K T L N C z. destruct (Z.eqb_spec z x) as [-> |NE].
  - qo. rewrite K. split; auto. split; auto. split; auto. intros y pn R R'. elim (C y pn R R').
  - qk.
Qed.
Lemma step_quiet S o S' r : KInv S -> is_io o = false -> s_step S o = Some (S', r) -> quiet S S'.
Proof.
  intros KI IO H. destruct o; cbn in IO; try discriminate IO; cbn in H.
  - injection H as <- <-. intro z. destruct (Z.eqb_spec z (ks_next S)) as [-> |N]; [|qk]. qo.
    destruct (ks S (ks_next S)) eqn:E; [destruct (ki_next S KI (ks_next S)); [congruence|lia]|]. cbn. split; auto. destruct t; split; auto; discriminate.
  - injection H as <- <-. assert (N1 : ks S (ks_next S) = None).
    { destruct (ks S (ks_next S)) eqn:E; auto. destruct (ki_next S KI (ks_next S)); [congruence|lia]. }
    assert (N2 : ks S (ks_next S + 1) = None).
    { destruct (ks S (ks_next S + 1)) eqn:E; auto. destruct (ki_next S KI (ks_next S + 1)); [congruence|lia]. }
    intro z. destruct (Z.eqb_spec z (ks_next S + 1)) as [-> |NE1]; [|destruct (Z.eqb_spec z (ks_next S)) as [-> |NE2]; [|qk]].
    + qo. rewrite N2. cbn. split; auto. split; [destruct t; reflexivity|]. intros y pn R.
      assert (y = ks_next S) by (destruct t; congruence). subst y. rewrite N1.
      rewrite (proj2 (Z.eqb_neq (ks_next S) (ks_next S + 1))) by lia. rewrite Z.eqb_refl. do 2 eexists. split; [reflexivity|]. cbn. destruct t; try discriminate R; reflexivity.
    + qo. rewrite (proj2 (Z.eqb_neq _ _) NE1), N1. cbn. split; auto. split; [destruct t; reflexivity|]. intros y pn R.
      assert (y = ks_next S + 1) by (destruct t; congruence). subst y. rewrite N2. rewrite Z.eqb_refl. do 2 eexists. split; [reflexivity|]. cbn.
      destruct t; try discriminate R; reflexivity.
  - unfold s_with in H. destruct (ks S x) as [k|] eqn:K; [|injection H as <- <-; apply quiet_refl].
    destruct (k_fd k); [|injection H as <- <-; apply quiet_refl]. apply some_inj in H.
    assert (CL : forall n, quiet S (k_claim_name S x k n)).
    { intros n z. destruct (Z.eqb_spec z x) as [-> |NE]; [|qk]. qo. rewrite K. cbn. split; auto. split; [apply later_refl|].
      split; auto. intros. congruence. }
    unfold s_bind in H. destruct (k_role k); try (injection H as <- <-; apply quiet_refl).
    + destruct (k_name k); [injection H as <- <-; apply quiet_refl|]. destruct a as [[|c p]|]; [| |injection H as <- <-; apply quiet_refl].
      * destruct (autobind_name _ _); injection H as <- <-; auto using quiet_refl.
      * destruct c; [destruct (taken _ _ _)|..]; injection H as <- <-; auto using quiet_refl.
    + destruct (k_name k); [injection H as <- <-; apply quiet_refl|]. destruct a as [[|c p]|]; [| |injection H as <- <-; apply quiet_refl].
      * destruct (autobind_name _ _); injection H as <- <-; auto using quiet_refl.
      * destruct c; [destruct (taken _ _ _)|..]; injection H as <- <-; auto using quiet_refl.
  - unfold s_with in H. destruct (ks S x) as [k|] eqn:K; [|injection H as <- <-; apply quiet_refl].
    destruct (k_fd k); [|injection H as <- <-; apply quiet_refl]. apply some_inj in H. unfold s_listen in H.
    destruct (k_role k) eqn:R; try (injection H as <- <-; apply quiet_refl).
    + destruct (k_name k); injection H as <- <-; [|apply quiet_refl]. apply (quiet_role S x k); auto; rewrite ?R; cbn; [right; right; exact Logic.I|discriminate].
    + injection H as <- <-. apply (quiet_role S x k); auto; rewrite ?R; cbn; [right; right; exact Logic.I|discriminate].
  - unfold s_with in H. destruct (ks S x) as [k|] eqn:K; [|injection H as <- <-; apply quiet_refl].
    destruct (k_fd k); [|injection H as <- <-; apply quiet_refl]. unfold s_connect in H.
    destruct (k_role k) eqn:R; try (injection H as <- <-; apply quiet_refl).
    + destruct a as [p|]; [|injection H as <- <-; apply quiet_refl]. destruct (owner _ _ _) as [y|]; [|injection H as <- <-; apply quiet_refl].
      destruct (Z.eqb_spec y x) as [EY|NY]; [discriminate H|]. destruct (ks S y) as [srv|] eqn:Y; [|discriminate H].
      destruct (k_role srv) eqn:RS; try (injection H as <- <-; apply quiet_refl).
      destruct (limit <=? blen waiting); injection H as <- <-; [apply quiet_refl|].
      assert (N1 : ks S (ks_next S) = None).
      { destruct (ks S (ks_next S)) eqn:E; auto. destruct (ki_next S KI (ks_next S)); [congruence|lia]. }
      intro z. destruct (Z.eqb_spec z x) as [->|NX]; [|destruct (Z.eqb_spec z y) as [->|NZ]; [|destruct (Z.eqb_spec z (ks_next S)) as [->|NN]; [|qk]]]; qo; rewrite ?(proj2 (Z.eqb_neq _ _) NX), ?(proj2 (Z.eqb_neq _ _) NZ).
      * rewrite K. cbn. split; auto. split; [rewrite R; right; right; exact Logic.I|]. split; auto. intros y0 pn _ E. injection E as <- _. exact N1.
      * rewrite Y. cbn. split; auto. split; [rewrite RS; right; right; exact Logic.I|]. split; auto. intros. discriminate.
      * rewrite N1. cbn. split; auto. split; auto. intros y0 pn E. injection E as <- _. rewrite K. exact R.
    + destruct a as [p|]; [|injection H as <- <-; apply quiet_refl]. destruct (owner _ _ _) as [y|]; injection H as <- <-; [|apply quiet_refl].
      apply (quiet_role S x k); auto; rewrite ?R; cbn; [right; right; exact Logic.I|discriminate].
  - unfold s_with in H. destruct (ks S x) as [k|] eqn:K; [|injection H as <- <-; apply quiet_refl].
    destruct (k_fd k); [|injection H as <- <-; apply quiet_refl]. unfold s_accept in H.
    destruct (k_role k) eqn:R; try (injection H as <- <-; apply quiet_refl). destruct waiting as [|c q]; [injection H as <- <-; apply quiet_refl|].
    destruct (ks S c) as [ch|] eqn:C; [|discriminate H]. destruct (k_role ch) eqn:RC; try discriminate H. injection H as <- <-.
    intro z. destruct (Z.eqb_spec z c) as [->|NC]; [|destruct (Z.eqb_spec z x) as [->|NX]; [|qk]]; qo; rewrite ?(proj2 (Z.eqb_neq _ _) NC).
    + rewrite C. cbn. split; auto. split; [rewrite RC; left; reflexivity|]. split; auto. intros; congruence.
    + rewrite K. cbn. split; auto. split; [rewrite R; right; right; exact Logic.I|]. split; auto. intros; discriminate.
  - injection H as <- <-. intro z. unfold quiet_at. pose proof (close_dies l S z) as D. destruct (ks S z) as [k|]; [|rewrite D; auto].
    destruct D as [-> | ->]; cbn; (split; [reflexivity|]).
    + split; [apply later_refl|]. split; auto. intros; congruence.
    + split; [right; left; reflexivity|]. split; auto. intros; discriminate.
  - unfold s_with in H. destruct (ks S x) as [k|] eqn:K; [|injection H as <- <-; apply quiet_refl].
    destruct (k_fd k); injection H as <- <-; apply quiet_refl.
  - unfold s_with in H. destruct (ks S x) as [k|] eqn:K; [|injection H as <- <-; apply quiet_refl].
    destruct (k_fd k); injection H as <- <-; apply quiet_refl.
  - unfold s_with in H. destruct (ks S x) as [k|] eqn:K; [|injection H as <- <-; apply quiet_refl].
    destruct (k_fd k); injection H as <- <-; [|apply quiet_refl]. apply (quiet_role S x k); auto; [apply later_refl|]. cbn. intros; congruence.
Qed.
(** A send that is not refused puts the bytes it says it took, and nothing else, at the receiver's end. *)
Lemma step_send S x a c f d data flt S' r : s_step S (Send x a c f d data flt) = Some (S', r) ->
  match r with
  | RSent n => exists k y dd, ks S x = Some k /\ k_fd k = true /\ destination S k a = inl y /\ x <> y /\ ks S y = Some dd /\ gone dd = false /\
      accepted (k_type k) (blen data) (room S x) = inl (Some n) /\ c = false /\ f = true /\ unconnected k = false /\
      S' = kput S y (k_set_in dd (k_in dd ++ parcels (k_type k) x (k_name k) (firstn (Z.to_nat n) data)))
  | RErr _ | RBlock _ _ => S' = S
  | _ => False
  end.
Proof.
  intro H. cbn in H. unfold s_with in H. destruct (ks S x) as [k|] eqn:K; [|injection H as <- <-; reflexivity].
  destruct (k_fd k) eqn:FD; [|injection H as <- <-; reflexivity]. unfold s_send in H.
  destruct (negb (unconnected k) && c) eqn:UC; [injection H as <- <-; reflexivity|].
  destruct (destination S k a) as [y|e] eqn:D; [|injection H as <- <-; reflexivity].
  destruct f; cbn [negb] in H; [|injection H as <- <-; reflexivity]. destruct (Z.eqb_spec x y) as [->|N]; [discriminate H|].
  destruct (ks S y) as [dd|] eqn:Y; [|discriminate H]. destruct (gone dd) eqn:G; [injection H as <- <-; reflexivity|].
  assert (UK : unconnected k = false).
  { unfold destination in D. unfold unconnected. destruct (k_role k), a; try discriminate D; auto; destruct (k_type k); discriminate D. }
  destruct (accepted _ _ _) as [[n|]|e] eqn:AC; injection H as <- <-; try reflexivity.
  - exists k, y, dd. rewrite UK in UC. cbn in UC. auto 20.
  - unfold would_block. destruct (k_nonblock k || d); reflexivity.
Qed.
(** A read takes from the front. *)
Lemma step_recv S y c f d t cap flt S' r : s_step S (Recv y c f d t cap flt) = Some (S', r) ->
  match r with
  | RRecv n out src tr => exists k, ks S y = Some k /\ k_fd k = true /\ c = false /\ f = true /\
      match k_role k with
      | KConn x pn => src = pn /\
          match k_in k with
          | [] => is_gone S x = true /\ S' = S /\ out = [] /\ n = 0 /\ tr = false
          | (_, _, m) :: rest =>
              match k_type k with
              | UStream => out = concat (map snd (firstn (Z.to_nat cap) (k_in k))) /\ n = blen out /\ tr = false /\
                           S' = kput S y (k_set_in k (skipn (Z.to_nat cap) (k_in k)))
              | _ => out = firstn (Z.to_nat cap) m /\ n = (if t then blen m else blen out) /\ tr = (t && (blen out <? blen m)) /\ S' = kput S y (k_set_in k rest)
              end
          end
      | KGram _ =>
          exists from who m rest, k_in k = (who, from, m) :: rest /\ src = from /\
            match k_type k with
              | UStream => out = concat (map snd (firstn (Z.to_nat cap) (k_in k))) /\ n = blen out /\ tr = false /\
                           S' = kput S y (k_set_in k (skipn (Z.to_nat cap) (k_in k)))
              | _ => out = firstn (Z.to_nat cap) m /\ n = (if t then blen m else blen out) /\ tr = (t && (blen out <? blen m)) /\ S' = kput S y (k_set_in k rest)
              end
      | _ => False
      end
  | RErr _ | RBlock _ _ => S' = S
  | _ => False
  end.
Proof.
  intro H. cbn in H. unfold s_with in H. destruct (ks S y) as [k|] eqn:K; [|injection H as <- <-; reflexivity].
  destruct (k_fd k) eqn:FD; [|injection H as <- <-; reflexivity]. apply some_inj in H. unfold s_recv in H.
  assert (WB : forall z on r, would_block k d z on = r -> match r with RErr _ | RBlock _ _ => S = S | _ => False end).
  { intros z on r0 <-. unfold would_block. destruct (k_nonblock k || d); reflexivity. }
  destruct (k_role k) eqn:R; try (injection H as <- <-; reflexivity).
  - destruct c; [injection H as <- <-; reflexivity|]. destruct f; [|injection H as <- <-; reflexivity]. cbn [orb negb] in H.
    destruct (k_in k) as [|[[who from] m] rest] eqn:KI.
    + destruct (is_gone S peer) eqn:G; injection H as <- <-.
      * exists k. split; auto. split; auto. split; auto. split; auto. rewrite R. split; auto. rewrite KI. auto.
      * unfold would_block. destruct (k_nonblock k || d); reflexivity.
    + destruct (k_type k) eqn:T; [injection H as <- <-|destruct t; injection H as <- <-|destruct t; injection H as <- <-];
        (exists k; split; [auto|]; split; [auto|]; split; [auto|]; split; [auto|]; rewrite R; split; [auto|]; rewrite KI, T; auto).
  - destruct c; [injection H as <- <-; reflexivity|]. destruct f; [|injection H as <- <-; reflexivity]. cbn [orb negb] in H.
    destruct (k_in k) as [|[[who from] m] rest] eqn:KI.
    + injection H as <- <-. unfold would_block. destruct (k_nonblock k || d); reflexivity.
    + destruct (k_type k) eqn:T; [injection H as <- <-|destruct t; injection H as <- <-|destruct t; injection H as <- <-];
        (exists k; split; [auto|]; split; [auto|]; split; [auto|]; split; [auto|]; rewrite R, KI; exists from, who, m, rest; split; [auto|]; split; [auto|]; rewrite T; auto).
Qed.
