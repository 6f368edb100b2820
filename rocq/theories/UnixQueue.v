(** Connections are accepted in the order in which they were made; which calls crash the simulation. *)
From Verif Require Import Base FMap UnixModel UnixSpec UnixFacts UnixInv UnixOps UnixSend UnixWorld UnixNotes UnixReady UnixTraces UnixDeliver UnixWaits.

(** A connection made to [x]: the accepting socket's number and the client's name. *)
Definition arrive1 (x : Z) (e : event) : list (Z * list Z) :=
  match e with
  | (S0, Connect z (AUnix p), ROk) =>
      match ks S0 z with
      | Some k => match k_role k, owner S0 (k_type k) p with
                  | KNew, inl y => if y =? x then [(ks_next S0, addr_of (k_name k))] else []
                  | _, _ => [] end
      | None => []
      end
  | _ => []
  end.
Definition arrivals (x : Z) (evs : list event) : list (Z * list Z) := concat (map (arrive1 x) evs).
Definition accept1 (x : Z) (e : event) : list (Z * list Z) :=
  match e with (_, Accept z _, RAccepted c from) => if z =? x then [(c, from)] else [] | _ => [] end.
Definition accepts (x : Z) (evs : list event) : list (Z * list Z) := concat (map (accept1 x) evs).
Lemma arrivals_snoc x evs e : arrivals x (evs ++ [e]) = arrivals x evs ++ arrive1 x e.
Proof. unfold arrivals. rewrite map_app, concat_app. cbn. rewrite app_nil_r. reflexivity. Qed.
Lemma accepts_snoc x evs e : accepts x (evs ++ [e]) = accepts x evs ++ accept1 x e.
Proof. unfold accepts. rewrite map_app, concat_app. cbn. rewrite app_nil_r. reflexivity. Qed.
Definition from_of (S : kstate) (c : Z) : list Z :=
  match ks S c with Some k => match k_role k with KConn _ pn => addr_of pn | _ => [] end | None => [] end.
Definition queued (S : kstate) (evs : list event) : Prop := forall x,
  match ks S x with
  | None => arrivals x evs = [] /\ accepts x evs = []
  | Some k => match k_role k with
              | KListen q lim => arrivals x evs = accepts x evs ++ map (fun c => (c, from_of S c)) q /\ 1 <= lim <= 4097 /\ blen q <= 4097
              | KGone => True
              | _ => arrivals x evs = [] /\ accepts x evs = []
              end
  end.
Lemma queue_size_range n : 1 <= queue_size n <= 4097.
Proof. unfold queue_size. pose proof (Z.mod_pos_bound n 4294967296 ltac:(lia)). destruct (_ && _) eqn:E; [|lia]. apply Bool.andb_true_iff in E. lia. Qed.

(** What a call does to a listening socket. *)
Definition listens (S S' : kstate) (x : Z) (e : event) : Prop :=
  forall k', ks S' x = Some k' ->
  match k_role k' with
  | KListen q' lim' =>
      exists k, ks S x = Some k /\
        match k_role k with
        | KNew => q' = [] /\ 1 <= lim' <= 4097 /\ arrive1 x e = [] /\ accept1 x e = []
        | KListen q lim =>
            (lim' = lim \/ 1 <= lim' <= 4097) /\
            ((q' = q /\ arrive1 x e = [] /\ accept1 x e = []) \/
             (exists c, q' = q ++ [c] /\ blen q < lim /\ arrive1 x e = [(c, from_of S' c)] /\ accept1 x e = []) \/
             (exists c, q = c :: q' /\ arrive1 x e = [] /\ accept1 x e = [(c, from_of S c)]))
        | _ => False
        end
  | KGone => True
  | _ => (ks S x = None \/ exists k, ks S x = Some k /\ match k_role k with KListen _ _ | KGone => False | _ => True end) /\ arrive1 x e = [] /\ accept1 x e = []
  end.
Lemma listens_keep S S' x e k : ks S x = Some k -> (forall k', ks S' x = Some k' -> k_role k' = KGone \/ k_role k' = k_role k) ->
  arrive1 x e = [] -> accept1 x e = [] -> listens S S' x e.
Proof.
  intros K R A1 A2 k' K'. destruct (R k' K') as [-> | ->]; [exact Logic.I|]. destruct (k_role k) eqn:RK; auto; try (split; [right; exists k; rewrite RK; auto|auto]).
  exists k. split; auto. rewrite RK. auto 10.
Qed.
Lemma listens_other S S' x e : (ks S x = None -> forall k', ks S' x = Some k' -> match k_role k' with KListen _ _ => False | _ => True end) ->
  (forall k k', ks S x = Some k -> ks S' x = Some k' -> k_role k' = KGone \/ k_role k' = k_role k) ->
  arrive1 x e = [] -> accept1 x e = [] -> listens S S' x e.
Proof.
  intros N R A1 A2. destruct (ks S x) as [k|] eqn:K; [eapply listens_keep; eauto|]. intros k' K'. specialize (N eq_refl k' K'). destruct (k_role k'); auto. contradiction.
Qed.
Lemma step_listens S o S' r x : KInv S -> s_step S o = Some (S', r) -> listens S S' x (S, o, r).
Proof.
  intros KI H.
  assert (SAME : S' = S -> arrive1 x (S, o, r) = [] -> accept1 x (S, o, r) = [] -> listens S S' x (S, o, r)).
  { intros -> A1 A2. apply listens_other; auto; [intros K k' K'; congruence|]. intros k k' K K'. right. congruence. }
  assert (PUT : forall z k k', ks S z = Some k -> k_role k' = k_role k -> S' = kput S z k' -> arrive1 x (S, o, r) = [] -> accept1 x (S, o, r) = [] -> listens S S' x (S, o, r)).
  { intros z k k' K R -> A1 A2. apply listens_other; auto; cbn; destruct (Z.eqb_spec x z) as [->|]; intros; try congruence; right; congruence. }
  assert (NONE : ks S (ks_next S) = None).
  { destruct (ks S (ks_next S)) eqn:E; auto. destruct (ki_next S KI (ks_next S)); [congruence|lia]. }
  assert (NONE2 : ks S (ks_next S + 1) = None).
  { destruct (ks S (ks_next S + 1)) eqn:E; auto. destruct (ki_next S KI (ks_next S + 1)); [congruence|lia]. }
  destruct o.
  7:{ pose proof (step_send _ _ _ _ _ _ _ _ _ _ H) as E. destruct r; try contradiction; try (apply SAME; auto; fail).
      destruct E as (? & ? & dd & _ & _ & _ & _ & Y & _ & _ & _ & _ & _ & E). eapply PUT; [exact Y| |exact E| |]; auto. }
  7:{ pose proof (step_recv _ _ _ _ _ _ _ _ _ _ H) as E. destruct r; try contradiction; try (apply SAME; auto; fail).
      destruct E as (k & K & _ & _ & _ & E). destruct (k_role k) eqn:R; try contradiction.
      - destruct E as (_ & E). destruct (k_in k) as [|[[? ?] ?] ?]; [destruct E as (_ & -> & _); apply SAME; auto|].
        destruct (k_type k); destruct E as (_ & _ & _ & E); (eapply PUT; [exact K| |exact E| |]; auto).
      - destruct E as (? & ? & ? & ? & _ & _ & E). destruct (k_type k); destruct E as (_ & _ & _ & E); (eapply PUT; [exact K| |exact E| |]; auto). }
  7:{ cbn in H. injection H as <- <-. pose proof (close_dies l S x) as D. destruct (ks S x) as [k|] eqn:K.
      - eapply listens_keep; eauto. intros k' K'. destruct D as [D|D]; rewrite D in K'; injection K' as <-; auto.
      - intros k' K'. congruence. }
  all: cbn in H.
  - injection H as <- <-. apply listens_other; auto; cbn; destruct (Z.eqb_spec x (ks_next S)) as [->|]; intros; try congruence.
    + injection H0 as <-. cbn. destruct t; exact Logic.I.
    + right. congruence.
  - injection H as <- <-. apply listens_other; auto; cbn.
    + intros K k'. destruct (Z.eqb_spec x (ks_next S + 1)) as [->|]; [intro E; injection E as <-; cbn; destruct t; exact Logic.I|].
      destruct (Z.eqb_spec x (ks_next S)) as [->|]; [intro E; injection E as <-; cbn; destruct t; exact Logic.I|congruence].
    + intros k k' K. destruct (Z.eqb_spec x (ks_next S + 1)) as [->|]; [congruence|]. destruct (Z.eqb_spec x (ks_next S)) as [->|]; [congruence|]. right. congruence.
  - unfold s_with in H. destruct (ks S x0) as [k|] eqn:K; [|injection H as <- <-; apply SAME; auto].
    destruct (k_fd k); [|injection H as <- <-; apply SAME; auto]. apply some_inj in H.
    assert (CL : forall n, S' = k_claim_name S x0 k n -> listens S S' x (S, Bind x0 a draws, r)).
    { intros n ->. apply listens_other; auto; cbn; destruct (Z.eqb_spec x x0) as [->|]; intros; try congruence; right; [|congruence].
      injection H1 as <-. cbn. congruence. }
    unfold s_bind in H. destruct (k_role k); try (injection H as <- <-; apply SAME; auto; fail);
      (destruct (k_name k); [injection H as <- <-; apply SAME; auto|]); (destruct a as [[|c p]|]; [| |injection H as <- <-; apply SAME; auto]).
    + destruct (autobind_name _ _); injection H as <- <-; [eauto|apply SAME; auto].
    + destruct c; [destruct (taken _ _ _)|..]; injection H as <- <-; try (apply SAME; auto; fail). eauto.
    + destruct (autobind_name _ _); injection H as <- <-; [eauto|apply SAME; auto].
    + destruct c; [destruct (taken _ _ _)|..]; injection H as <- <-; try (apply SAME; auto; fail). eauto.
  - unfold s_with in H. destruct (ks S x0) as [k|] eqn:K; [|injection H as <- <-; apply SAME; auto].
    destruct (k_fd k); [|injection H as <- <-; apply SAME; auto]. apply some_inj in H. unfold s_listen in H.
    pose proof (queue_size_range backlog) as QR.
    destruct (k_role k) eqn:R; try (injection H as <- <-; apply SAME; auto; fail).
    + destruct (k_name k); injection H as <- <-; [|apply SAME; auto]. destruct (Z.eq_dec x x0) as [->|N].
      * intros k' K'. cbn in K'. rewrite Z.eqb_refl in K'. injection K' as <-. cbn [k_role k_set_role]. exists k. split; auto. rewrite R. cbn. auto.
      * apply listens_other; auto; cbn; rewrite (proj2 (Z.eqb_neq x x0)) by auto; intros; try congruence. right. congruence.
    + injection H as <- <-. destruct (Z.eq_dec x x0) as [->|N].
      * intros k' K'. cbn in K'. rewrite Z.eqb_refl in K'. injection K' as <-. cbn [k_role k_set_role]. exists k. split; auto. rewrite R. cbn. auto 10.
      * apply listens_other; auto; cbn; rewrite (proj2 (Z.eqb_neq x x0)) by auto; intros; try congruence. right. congruence.
  - unfold s_with in H. destruct (ks S x0) as [k|] eqn:K; [|injection H as <- <-; apply SAME; auto; destruct a; auto].
    destruct (k_fd k); [|injection H as <- <-; apply SAME; auto; destruct a; auto]. unfold s_connect in H.
    assert (SM : forall e, r = RErr e -> S' = S -> listens S S' x (S, Connect x0 a, r)).
    { intros e -> ->. apply SAME; auto. destruct a; auto. }
    destruct (k_role k) eqn:R; destruct a as [p|]; try (injection H as <- <-; eapply SM; eauto; fail).
    + destruct (owner _ _ _) as [y|] eqn:O; [|injection H as <- <-; eapply SM; eauto]. destruct (Z.eqb_spec y x0) as [|NY]; [discriminate|].
      destruct (ks S y) as [srv|] eqn:Y; [|discriminate]. destruct (k_role srv) as [|q lim| | |] eqn:RS; try (injection H as <- <-; eapply SM; eauto; fail).
      destruct (Z.leb_spec lim (blen q)).
      { injection H as <- <-. apply SAME; auto. cbn. unfold would_block. destruct (_ || _); reflexivity. }
      injection H as <- <-. intros k' K'. cbn in K'. destruct (Z.eqb_spec x x0) as [->|NX].
      * injection K' as <-. cbn [k_role k_set_role]. split; [right; exists k; rewrite R; auto|]. cbn. rewrite K, R, O, (proj2 (Z.eqb_neq y x0)); auto.
      * destruct (Z.eqb_spec x y) as [->|NXY].
        -- injection K' as <-. cbn [k_role k_set_role]. exists srv. split; auto. rewrite RS. split; auto. right. left. exists (ks_next S). split; auto. split; auto. split; [|reflexivity].
           cbn. rewrite K, R, O, Z.eqb_refl. f_equal. f_equal. unfold from_of. cbn. assert (ks_next S <> x0) by congruence. assert (ks_next S <> y) by congruence.
           rewrite !(proj2 (Z.eqb_neq _ _)), Z.eqb_refl by auto. reflexivity.
        -- assert (A1 : arrive1 x (S, Connect x0 (AUnix p), ROk) = []) by (cbn; rewrite K, R, O, (proj2 (Z.eqb_neq y x)); auto).
           destruct (Z.eqb_spec x (ks_next S)) as [->|NN].
           ++ injection K' as <-. cbn [k_role]. split; auto.
           ++ destruct (k_role k') eqn:RK'; auto; try (split; [right; exists k'; rewrite RK'; auto|auto]). exists k'. split; auto. rewrite RK'. auto 10.
    + destruct (owner _ _ _) as [y|]; injection H as <- <-; [|eapply SM; eauto].
      assert (A1 : arrive1 x (S, Connect x0 (AUnix p), ROk) = []) by (cbn; rewrite K, R; reflexivity).
      destruct (Z.eq_dec x x0) as [->|N].
      * intros k' K'. cbn in K'. rewrite Z.eqb_refl in K'. injection K' as <-. cbn [k_role k_set_role]. split; auto. right. exists k. rewrite R. auto.
      * apply listens_other; auto; cbn; rewrite (proj2 (Z.eqb_neq x x0)) by auto; intros; try congruence. right. congruence.
  - unfold s_with in H. destruct (ks S x0) as [k|] eqn:K; [|injection H as <- <-; apply SAME; auto].
    destruct (k_fd k); [|injection H as <- <-; apply SAME; auto]. unfold s_accept in H.
    destruct (k_role k) as [|q lim| | |] eqn:R; try (injection H as <- <-; apply SAME; auto; fail). destruct q as [|c q].
    { injection H as <- <-. apply SAME; auto. cbn. unfold would_block. destruct (_ || _); reflexivity. }
    destruct (ks S c) as [ch|] eqn:C; [|discriminate]. destruct (k_role ch) as [| |pe pn| |] eqn:RC; try discriminate. injection H as <- <-.
    assert (NCX : c <> x0) by congruence.
    intros k' K'. cbn in K'. destruct (Z.eqb_spec x c) as [->|NC].
    + injection K' as <-. cbn [k_role]. split; [right; exists ch; rewrite RC; auto|]. cbn. rewrite (proj2 (Z.eqb_neq x0 c)) by auto. auto.
    + destruct (Z.eqb_spec x x0) as [->|NX].
      * injection K' as <-. cbn [k_role k_set_role]. exists k. split; auto. rewrite R. split; auto. right. right. exists c. split; auto. split; [reflexivity|].
        cbn. rewrite Z.eqb_refl. unfold from_of. rewrite C, RC. reflexivity.
      * assert (A2 : accept1 x (S, Accept x0 nonblock, RAccepted c (addr_of pn)) = []) by (cbn; rewrite (proj2 (Z.eqb_neq x0 x)); auto).
        destruct (k_role k') eqn:RK'; auto; try (split; [right; exists k'; rewrite RK'; auto|auto]). exists k'. split; auto. rewrite RK'. auto 10.
  - unfold s_with in H. destruct (ks S x0) as [k|] eqn:K; [|injection H as <- <-; apply SAME; auto].
    destruct (k_fd k); injection H as <- <-; apply SAME; auto.
  - unfold s_with in H. destruct (ks S x0) as [k|] eqn:K; [|injection H as <- <-; apply SAME; auto].
    destruct (k_fd k); injection H as <- <-; apply SAME; auto.
  - unfold s_with in H. destruct (ks S x0) as [k|] eqn:K; [|injection H as <- <-; apply SAME; auto].
    destruct (k_fd k); injection H as <- <-; [|apply SAME; auto]. eapply PUT; [exact K| |reflexivity| |]; auto.
Qed.

Lemma blen_snoc (l : list Z) x : blen (l ++ [x]) = blen l + 1.
Proof. unfold blen. rewrite app_length. cbn. lia. Qed.
Lemma queued_step S evs o S' r : KInv S -> KInv S' -> queued S evs -> clean o -> s_step S o = Some (S', r) -> queued S' (evs ++ [(S, o, r)]).
Proof.
  intros KI KI' Q _ H x. rewrite arrivals_snoc, accepts_snoc. pose proof (step_listens S o S' r x KI H) as L. specialize (Q x).
  destruct (ks S' x) as [k'|] eqn:K'.
  - specialize (L k' K'). pose proof (step_onward S o S' r KI H) as (O1 & _).
    assert (FR : forall c, In c (match k_role k' with KListen q _ => q | _ => [] end) -> ks S c <> None -> (forall k, ks S c = Some k -> exists y pn, k_role k = KConn y pn) -> from_of S' c = from_of S c).
    { intros c IN NC CC. destruct (k_role k') eqn:R'; try contradiction. destruct (ki_wait S' KI' x k' _ _ K' R') as (_ & W). destruct (W c IN) as (kc & y & pn & KC & _ & RC).
      unfold from_of. rewrite KC, RC. destruct (ks S c) as [k|] eqn:E; [|congruence]. destruct (CC k eq_refl) as (y0 & pn0 & R0). rewrite R0.
      destruct (O1 c k E) as (k1 & K1 & _ & L1). assert (k1 = kc) by congruence. subst k1. rewrite R0, RC in L1. destruct L1 as [L1|[L1|[]]]; congruence. }
    destruct (k_role k') as [|q' lim'|y pn|t|] eqn:R'; auto.
    + destruct L as (K & -> & ->). rewrite !app_nil_r. destruct K as [K|(k & K & RK)]; rewrite K in Q; auto. destruct (k_role k); try contradiction; auto.
    + destruct L as (k & K & L). rewrite K in Q. destruct (k_role k) as [|q lim| | |] eqn:R; try contradiction.
      * destruct L as (-> & B & -> & ->). destruct Q as (-> & ->). cbn. split; auto. split; auto. unfold blen. cbn. lia.
      * destruct Q as (Q1 & Q2 & Q3).
        assert (KQ : forall c, In c q -> ks S c <> None /\ forall k, ks S c = Some k -> exists y pn, k_role k = KConn y pn).
        { intros c IN. destruct (ki_wait S KI x k q lim K R) as (_ & W). destruct (W c IN) as (kc & y & pn & KC & _ & RC). split; [congruence|].
          intros k0 K0. assert (k0 = kc) by congruence. subst. eauto. }
        destruct L as (LB & [(-> & -> & ->)|[(c & -> & B & -> & ->)|(c & -> & -> & ->)]]).
        -- rewrite !app_nil_r, Q1. split; [|split; [lia|lia]]. f_equal. apply map_ext_in. intros c IN. rewrite FR; auto; apply KQ; auto.
        -- rewrite app_nil_r, Q1, map_app, app_assoc. split; [|split; [lia|rewrite blen_snoc; lia]]. f_equal. f_equal. apply map_ext_in. intros d IN.
           rewrite FR; auto; try (apply KQ; auto). apply in_or_app. auto.
        -- rewrite app_nil_r, Q1, <- app_assoc. cbn [map app]. split; [|split; [lia|unfold blen in *; cbn [length] in Q3; lia]]. f_equal. f_equal.
           apply map_ext_in. intros d IN. rewrite FR; auto; apply KQ; right; auto.
    + destruct L as (K & -> & ->). rewrite !app_nil_r. destruct K as [K|(k & K & RK)]; rewrite K in Q; auto. destruct (k_role k); try contradiction; auto.
    + destruct L as (K & -> & ->). rewrite !app_nil_r. destruct K as [K|(k & K & RK)]; rewrite K in Q; auto. destruct (k_role k); try contradiction; auto.
  - pose proof (step_onward S o S' r KI H) as (O1 & _). destruct (ks S x) as [k|] eqn:K; [destruct (O1 x k K) as (k1 & K1 & _); congruence|].
    destruct Q as (-> & ->). cbn [app]. split.
    + destruct o; auto. destruct a as [p|]; auto. cbn. destruct r; auto. destruct (ks S x0) as [k|] eqn:K0; auto. destruct (k_role k); auto.
      destruct (owner S (k_type k) p) as [y|] eqn:O; auto. destruct (Z.eqb_spec y x) as [->|]; auto. exfalso. unfold owner in O. destruct p as [|[| |] p]; try discriminate O.
      destruct (ks_names S (k_type k) p) eqn:NM; try discriminate O. injection O as ->. destruct (ki_name S KI _ _ _ NM) as (k1 & K1 & _). congruence.
    + destruct o; auto. cbn. destruct r; auto. destruct (Z.eqb_spec x0 x) as [->|]; auto. exfalso. cbn in H. unfold s_with in H. rewrite K in H. discriminate.
Qed.
Theorem queued_all ops S evs : Forall clean ops -> history k_init ops = Some (S, evs) -> queued S evs.
Proof.
  intros C H. eapply (history_ind queued); eauto; [|intros; eapply queued_step; eauto]. intro x. cbn. auto.
Qed.

(* ------------------------------------------------------------------ crashes *)
(** A socket sends to itself or connects to itself. *)
Definition to_self (S : kstate) (o : uop) : Prop :=
  match o with
  | Send x a c f _ _ _ => c = false /\ f = true /\ exists k, ks S x = Some k /\ k_fd k = true /\ k_type k = UDgram /\ destination S k a = inl x
  | Connect x (AUnix p) => exists k, ks S x = Some k /\ k_fd k = true /\ k_role k = KNew /\ owner S (k_type k) p = inl x
  | _ => False
  end.
Theorem crash S o : KInv S -> (s_step S o = None <-> to_self S o).
Proof.
  intro KI. destruct o; cbn [s_step to_self]; try (split; [discriminate|contradiction]);
    unfold s_with; try (destruct (ks S x) as [k|] eqn:K; [destruct (k_fd k) eqn:FD|]; split; try discriminate; contradiction).
  - unfold s_connect. split.
    + destruct (ks S x) as [k|] eqn:K; [|discriminate]. destruct (k_fd k) eqn:FD; [|discriminate]. destruct (k_role k) eqn:R, a as [p|]; try discriminate.
      * destruct (owner S (k_type k) p) as [y|] eqn:O; [|discriminate]. destruct (Z.eqb_spec y x) as [->|N]; [intros _; eauto 10|].
        destruct (ks S y) as [srv|] eqn:Y; [destruct (k_role srv); try discriminate; destruct (_ <=? _); discriminate|]. exfalso.
        unfold owner in O. destruct p as [|[| |] p]; try discriminate O. destruct (ks_names S (k_type k) p) eqn:NM; try discriminate O. injection O as ->.
        destruct (ki_name S KI _ _ _ NM) as (k1 & K1 & _). congruence.
      * destruct (owner S (k_type k) p); discriminate.
    + destruct a as [p|]; [|contradiction]. intros (k & -> & -> & -> & ->). rewrite Z.eqb_refl. reflexivity.
  - unfold s_accept. split; [|contradiction]. destruct (ks S x) as [k|] eqn:K; [|discriminate]. destruct (k_fd k) eqn:FD; [|discriminate].
    destruct (k_role k) as [|[|c q] lim| | |] eqn:R; try discriminate. destruct (ki_wait S KI x k _ _ K R) as (_ & W).
    destruct (W c (or_introl eq_refl)) as (kc & y & pn & -> & _ & ->). discriminate.
  - unfold s_send. split.
    + destruct (ks S x) as [k|] eqn:K; [|discriminate]. destruct (k_fd k) eqn:FD; [|discriminate].
      destruct (negb (unconnected k) && control) eqn:UC; [discriminate|]. destruct (destination S k a) as [y|] eqn:D; [|discriminate].
      destruct flags_ok; cbn [negb]; [|discriminate].
      assert (UN : unconnected k = false).
      { unfold destination in D. unfold unconnected. destruct (k_role k), a; try discriminate D; auto; destruct (k_type k); discriminate D. }
      rewrite UN in UC. cbn in UC. subst control.
      assert (YS : exists ky, ks S y = Some ky /\ (x = y -> k_type k = UDgram)).
      { pose proof (ki_kind S KI x k K) as KD. unfold destination in D. unfold unconnected in UN. destruct (k_role k) as [| |z pn|t|] eqn:R; try discriminate UN.
        - assert (z = y). { destruct a as [[p|]|]; [destruct (k_type k); try discriminate D|discriminate D|]; congruence. } subst z.
          destruct (ki_conn S KI x k y pn K R) as (NE & _ & _ & ky & KY & _). exists ky. split; auto. contradiction.
        - destruct a as [[p|]|]; [|destruct t as [[? ?]|]; discriminate D|].
          + assert (O : owner S (k_type k) p = inl y) by (destruct t as [[? ?]|]; exact D). unfold owner in O. destruct p as [|[| |] p]; try discriminate O.
            destruct (ks_names S (k_type k) p) eqn:NM; try discriminate O. injection O as ->. destruct (ki_name S KI _ _ _ NM) as (k1 & K1 & _). eauto.
          + destruct t as [[z n0]|]; [|discriminate D]. injection D as ->. destruct (ki_to S KI x k y n0 K R) as (k1 & K1 & _). eauto. }
      destruct YS as (ky & KY & TY). destruct (Z.eqb_spec x y) as [->|N]; [intros _; eauto 10|]. rewrite KY. destruct (gone ky); [discriminate|].
      destruct (accepted _ _ _) as [[n|]|]; discriminate.
    + intros (-> & -> & k & -> & -> & _ & D). rewrite Bool.andb_false_r, D, Z.eqb_refl. reflexivity.
Qed.
