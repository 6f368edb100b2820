(** The laws of unix sockets along whole runs: who is connected to whom, and what was carried. *)
From Verif Require Import Base FMap UnixModel UnixSpec UnixFacts UnixInv UnixOps UnixWorld UnixNotes UnixReady UnixTraces UnixDeliver UnixWaits UnixWritable.

(** The calls that connect two sockets. A connect makes the socket that accept will return. *)
Definition link1 (t : utype) (x y : Z) (e : event) : Prop :=
  match e with
  | (_, Pair t' _, RPair a b) => t' = t /\ t <> UDgram /\ ((x = a /\ y = b) \/ (x = b /\ y = a))
  | (S0, Connect z (AUnix _), ROk) =>
      exists k, ks S0 z = Some k /\ k_role k = KNew /\ k_type k = t /\ ((x = z /\ y = ks_next S0) \/ (x = ks_next S0 /\ y = z))
  | _ => False
  end.
Definition linked (t : utype) (x y : Z) (evs : list event) : Prop := Exists (link1 t x y) evs.
Lemma linked_snoc t x y evs e : linked t x y (evs ++ [e]) <-> linked t x y evs \/ link1 t x y e.
Proof. unfold linked. rewrite Exists_app. split; intros [H|H]; auto. inversion H as [|? ? N]; subst; auto. inversion N. Qed.
Lemma linked_sym t x y evs : linked t x y evs -> linked t y x evs.
Proof.
  unfold linked. rewrite !Exists_exists. intros (e & IN & L). exists e. split; auto. destruct e as [[S0 o] r]. destruct o; try contradiction.
  - destruct r; try contradiction. destruct L as (A & B & [C|C]); (split; [exact A|]); (split; [exact B|]); [right|left]; split; apply C.
  - destruct a; try contradiction. destruct r; try contradiction. destruct L as (k & A & B & C & [D|D]); exists k; repeat (split; [assumption|]); [right|left]; split; apply D.
Qed.

Ltac nl := intros t' a' b' L'; cbn in L'; repeat match type of L' with context [match ?e with _ => _ end] => destruct e end; first [exact L'|destruct L' as (? & ? & ? & _); congruence].
Lemma step_links S o S' r : KInv S -> s_step S o = Some (S', r) ->
  (forall t x y, link1 t x y (S, o, r) -> exists k pn, ks S' y = Some k /\ k_type k = t /\ k_role k = KConn x pn) /\
  (forall y k' x pn, ks S' y = Some k' -> k_role k' = KConn x pn ->
     link1 (k_type k') x y (S, o, r) \/ exists k, ks S y = Some k /\ k_type k = k_type k' /\ k_role k = KConn x pn).
Proof.
  intros KI H.
  assert (NONE : ks S (ks_next S) = None).
  { destruct (ks S (ks_next S)) eqn:E; auto. destruct (ki_next S KI (ks_next S)); [congruence|lia]. }
  assert (OTHER : (forall t x y, ~ link1 t x y (S, o, r)) ->
    (forall y k' x pn, ks S' y = Some k' -> k_role k' = KConn x pn -> exists k, ks S y = Some k /\ k_type k = k_type k' /\ k_role k = KConn x pn) ->
    (forall t x y, link1 t x y (S, o, r) -> exists k pn, ks S' y = Some k /\ k_type k = t /\ k_role k = KConn x pn) /\
    (forall y k' x pn, ks S' y = Some k' -> k_role k' = KConn x pn ->
       link1 (k_type k') x y (S, o, r) \/ exists k, ks S y = Some k /\ k_type k = k_type k' /\ k_role k = KConn x pn)).
  { intros A B. split; [intros t x y L; elim (A t x y L)|]. intros y k' x pn K R. right. eauto. }
  assert (SAME : (forall t x y, ~ link1 t x y (S, o, r)) -> S' = S ->
    (forall t x y, link1 t x y (S, o, r) -> exists k pn, ks S' y = Some k /\ k_type k = t /\ k_role k = KConn x pn) /\
    (forall y k' x pn, ks S' y = Some k' -> k_role k' = KConn x pn ->
       link1 (k_type k') x y (S, o, r) \/ exists k, ks S y = Some k /\ k_type k = k_type k' /\ k_role k = KConn x pn)).
  { intros A ->. apply OTHER; auto. intros y k' x pn K R. exists k'. auto. }
  assert (PUT : forall z k k', (forall t x y, ~ link1 t x y (S, o, r)) -> ks S z = Some k -> (forall y, ks S' y = if y =? z then Some k' else ks S y) ->
      (k_role k' = k_role k \/ forall x pn, k_role k' <> KConn x pn) -> k_type k' = k_type k ->
    (forall t x y, link1 t x y (S, o, r) -> exists k pn, ks S' y = Some k /\ k_type k = t /\ k_role k = KConn x pn) /\
    (forall y k' x pn, ks S' y = Some k' -> k_role k' = KConn x pn ->
       link1 (k_type k') x y (S, o, r) \/ exists k, ks S y = Some k /\ k_type k = k_type k' /\ k_role k = KConn x pn)).
  { intros z k k' A K E R T. apply OTHER; auto. intros y k1 x pn K1 R1. rewrite E in K1. destruct (Z.eqb_spec y z) as [->|]; [|eauto].
    injection K1 as <-. exists k. split; auto. split; auto. destruct R as [R|R]; [congruence|elim (R x pn R1)]. }
  destruct o.
  7:{ pose proof (step_send _ _ _ _ _ _ _ _ _ _ H) as E. destruct r; try contradiction; try (apply SAME; [nl|assumption]; fail).
      destruct E as (? & ? & dd & _ & _ & _ & _ & Y & _ & _ & _ & _ & _ & ->). eapply PUT; [nl|exact Y|reflexivity|left; reflexivity|reflexivity]. }
  7:{ pose proof (step_recv _ _ _ _ _ _ _ _ _ _ H) as E. destruct r; try contradiction; try (apply SAME; [nl|assumption]; fail).
      destruct E as (k & K & _ & _ & _ & E). destruct (k_role k) eqn:R; try contradiction.
      - destruct E as (_ & E). destruct (k_in k) as [|[[? ?] ?] ?]; [destruct E as (_ & -> & _); apply SAME; [nl|reflexivity]|].
        destruct (k_type k); destruct E as (_ & _ & _ & ->); (eapply PUT; [nl|exact K|reflexivity|left; reflexivity|reflexivity]).
      - destruct E as (? & ? & ? & ? & _ & _ & E). destruct (k_type k); destruct E as (_ & _ & _ & ->);
          (eapply PUT; [nl|exact K|reflexivity|left; reflexivity|reflexivity]). }
  7:{ cbn in H. injection H as <- <-. apply OTHER; [nl|]. intros y k' x pn K' R. pose proof (close_dies l S y) as D.
      destruct (ks S y) as [k|] eqn:K.
      - destruct D as [D|D]; rewrite D in K'; injection K' as <-; [eauto|discriminate R].
      - rewrite D in K'. discriminate. }
  all: cbn in H.
  - injection H as <- <-. apply OTHER; [nl|]. cbn. intros y k' x pn. destruct (Z.eqb_spec y (ks_next S)); [|eauto].
    intros E R. injection E as <-. cbn in R. destruct t; discriminate R.
  - injection H as <- <-. split.
    + intros t' x y (-> & N & [(-> & ->)|(-> & ->)]); cbn.
      * rewrite Z.eqb_refl. eexists _, _. split; [reflexivity|]. split; [reflexivity|]. destruct t'; try congruence; reflexivity.
      * rewrite (proj2 (Z.eqb_neq _ _)) by lia. rewrite Z.eqb_refl. eexists _, _. split; [reflexivity|]. split; [reflexivity|]. destruct t'; try congruence; reflexivity.
    + intros y k' x pn. cbn. destruct (Z.eqb_spec y (ks_next S + 1)) as [->|].
      { intros E R. injection E as <-. left. cbn in *. destruct t; try discriminate R; injection R as <- <-; split; auto; (split; [discriminate|auto]). }
      destruct (Z.eqb_spec y (ks_next S)) as [->|]; [|eauto].
      intros E R. injection E as <-. left. cbn in *. destruct t; try discriminate R; injection R as <- <-; split; auto; (split; [discriminate|auto]).
  - unfold s_with in H. destruct (ks S x) as [k|] eqn:K; [|injection H as <- <-; apply SAME; [nl|reflexivity]].
    destruct (k_fd k); [|injection H as <- <-; apply SAME; [nl|reflexivity]]. apply some_inj in H.
    assert (CL : forall n, S' = k_claim_name S x k n -> (forall t0 x0 y, link1 t0 x0 y (S, Bind x a draws, r) -> exists k0 pn, ks S' y = Some k0 /\ k_type k0 = t0 /\ k_role k0 = KConn x0 pn) /\
      (forall y k' x0 pn, ks S' y = Some k' -> k_role k' = KConn x0 pn -> link1 (k_type k') x0 y (S, Bind x a draws, r) \/ exists k0, ks S y = Some k0 /\ k_type k0 = k_type k' /\ k_role k0 = KConn x0 pn)).
    { intros n ->. eapply PUT; [nl|exact K|intro y; cbn; reflexivity|left; reflexivity|reflexivity]. }
    unfold s_bind in H. destruct (k_role k); try (injection H as <- <-; apply SAME; [nl|reflexivity]; fail);
      (destruct (k_name k); [injection H as <- <-; apply SAME; [nl|reflexivity]|]); (destruct a as [[|c p]|]; [| |injection H as <- <-; apply SAME; [nl|reflexivity]]).
    + destruct (autobind_name _ _); injection H as <- <-; [eauto|apply SAME; [nl|reflexivity]].
    + destruct c; [destruct (taken _ _ _)|..]; injection H as <- <-; try (apply SAME; [nl|reflexivity]). eauto.
    + destruct (autobind_name _ _); injection H as <- <-; [eauto|apply SAME; [nl|reflexivity]].
    + destruct c; [destruct (taken _ _ _)|..]; injection H as <- <-; try (apply SAME; [nl|reflexivity]). eauto.
  - unfold s_with in H. destruct (ks S x) as [k|] eqn:K; [|injection H as <- <-; apply SAME; [nl|reflexivity]].
    destruct (k_fd k); [|injection H as <- <-; apply SAME; [nl|reflexivity]]. apply some_inj in H. unfold s_listen in H.
    destruct (k_role k) eqn:R; try (injection H as <- <-; apply SAME; [nl|reflexivity]; fail); [destruct (k_name k); [|injection H as <- <-; apply SAME; [nl|reflexivity]]|]; injection H as <- <-;
      (eapply PUT; [nl|exact K|reflexivity|right; discriminate|reflexivity]).
  - unfold s_with in H. destruct (ks S x) as [k|] eqn:K; [|injection H as <- <-; apply SAME; [nl|reflexivity]].
    destruct (k_fd k); [|injection H as <- <-; apply SAME; [nl|reflexivity]]. unfold s_connect in H.
    destruct (k_role k) eqn:R; destruct a as [p|]; try (injection H as <- <-; apply SAME; [nl|reflexivity]; fail).
    + destruct (owner _ _ _) as [y|e] eqn:O; [|injection H as <- <-; apply SAME; [nl|reflexivity]]. destruct (Z.eqb_spec y x) as [|NY]; [discriminate|].
      destruct (ks S y) as [srv|] eqn:Y; [|discriminate]. destruct (k_role srv) as [|q lim| | |] eqn:RS; try (injection H as <- <-; apply SAME; [nl|reflexivity]; fail).
      destruct (Z.leb_spec lim (blen q)).
      { injection H as <- <-. apply SAME; [|reflexivity]. unfold would_block. destruct (_ || _); nl. }
      injection H as <- <-.
      assert (N1 : ks_next S <> x) by (intros E; rewrite E in NONE; congruence). assert (N2 : ks_next S <> y) by (intros E; rewrite E in NONE; congruence).
      split.
      * intros t' x' y' (k1 & K1 & _ & T & [(-> & ->)|(-> & ->)]); assert (k1 = k) by congruence; subst k1; cbn.
        -- rewrite (proj2 (Z.eqb_neq _ _) N1), (proj2 (Z.eqb_neq _ _) N2), Z.eqb_refl. eexists _, _. split; [reflexivity|]. split; [exact T|reflexivity].
        -- rewrite Z.eqb_refl. eexists _, _. split; [reflexivity|]. split; [exact T|reflexivity].
      * intros y' k' x' pn. cbn. destruct (Z.eqb_spec y' x) as [->|N3].
        { intros E RR. injection E as <-. cbn in RR |- *. injection RR as <- <-. left. exists k. auto 10. }
        destruct (Z.eqb_spec y' y) as [->|N4]; [intros E RR; injection E as <-; discriminate RR|].
        destruct (Z.eqb_spec y' (ks_next S)) as [->|N5]; [|eauto].
        intros E RR. injection E as <-. cbn in RR |- *. injection RR as <- <-. left. exists k. auto 10.
    + destruct (owner _ _ _) as [y|e] eqn:O; injection H as <- <-; [|apply SAME; [nl|reflexivity]].
      eapply PUT; [|exact K|reflexivity|right; discriminate|reflexivity]. intros t' a' b' (k1 & K1 & R1 & _). congruence.
  - unfold s_with in H. destruct (ks S x) as [k|] eqn:K; [|injection H as <- <-; apply SAME; [nl|reflexivity]].
    destruct (k_fd k); [|injection H as <- <-; apply SAME; [nl|reflexivity]]. unfold s_accept in H.
    destruct (k_role k) as [|[|c q] lim| | |] eqn:R; try (injection H as <- <-; apply SAME; [nl|reflexivity]; fail).
    destruct (ks S c) as [ch|] eqn:C; [|discriminate]. destruct (k_role ch) eqn:RC; try discriminate. injection H as <- <-.
    apply OTHER; [nl|]. cbn. intros y k' x' pn. destruct (Z.eqb_spec y c) as [->|].
    { intros E RR. injection E as <-. exists ch. cbn in RR. split; [exact C|]. split; [reflexivity|congruence]. }
    destruct (Z.eqb_spec y x) as [->|]; [intros E RR; injection E as <-; discriminate RR|eauto].
  - unfold s_with in H. destruct (ks S x) as [k|]; [destruct (k_fd k)|]; injection H as <- <-; (apply SAME; [nl|reflexivity]).
  - unfold s_with in H. destruct (ks S x) as [k|]; [destruct (k_fd k)|]; injection H as <- <-; (apply SAME; [nl|reflexivity]).
  - unfold s_with in H. destruct (ks S x) as [k|] eqn:K; [destruct (k_fd k)|]; injection H as <- <-; try (apply SAME; [nl|reflexivity]).
    eapply PUT; [nl|exact K|reflexivity|left; reflexivity|reflexivity].
Qed.

Definition links (S : kstate) (evs : list event) : Prop :=
  (forall t x y, linked t x y evs -> exists k, ks S y = Some k /\ k_type k = t /\ ((exists pn, k_role k = KConn x pn) \/ k_role k = KGone)) /\
  (forall y k x pn, ks S y = Some k -> k_role k = KConn x pn -> linked (k_type k) x y evs).
Lemma links_all ops S evs : Forall clean ops -> history k_init ops = Some (S, evs) -> links S evs.
Proof.
  apply (history_ind links); clear.
  - split; [intros t x y L; inversion L|]. intros y k x pn K. discriminate K.
  - intros S evs o S' r KI KI' (A & B) C ST. destruct (step_links S o S' r KI ST) as (L1 & L2). split.
    + intros t x y L. apply linked_snoc in L as [L|L].
      * destruct (A t x y L) as (k & K & T & R). destruct (step_onward S o S' r KI ST) as (O & _). destruct (O y k K) as (k' & K' & T' & L').
        exists k'. split; auto. split; [congruence|]. destruct R as [(pn & R)|R]; rewrite R in L'; destruct L' as [L'|[L'|L']]; eauto; contradiction.
      * destruct (L1 t x y L) as (k & pn & K & T & R). eauto 10.
    + intros y k x pn K R. apply linked_snoc. destruct (L2 y k x pn K R) as [L|(k0 & K0 & T & R0)]; auto. left. rewrite <- T. eauto.
Qed.

(** What was carried from one end to the other, even when an end is closed. *)
Definition always (S : kstate) (evs : list event) : Prop := forall t x y, linked t x y evs ->
  exists l pn, carried t (is_gone S x) l pn (sends x evs) (reads y evs) /\ forall k, ks S y = Some k -> gone k = false -> k_in k = l /\ k_role k = KConn x pn.
Lemma gone_mono S o S' r x : KInv S -> s_step S o = Some (S', r) -> ks S x <> None -> is_gone S x = true -> is_gone S' x = true.
Proof.
  intros KI ST K G. unfold is_gone in *. destruct (ks S x) as [k|] eqn:E; [|congruence]. destruct (step_gone S o S' r x KI ST k E G) as (k' & -> & G'). exact G'.
Qed.
Lemma always_all ops S evs : Forall clean ops -> history k_init ops = Some (S, evs) -> always S evs.
Proof.
  intros C0 H0. enough (delivers S evs /\ links S evs /\ always S evs) by tauto. revert ops S evs C0 H0.
  apply (history_ind (fun S evs => delivers S evs /\ links S evs /\ always S evs)).
  - split; [apply delivers_init|]. split; [split|]; [intros t x y L; inversion L|intros y k x pn K; discriminate K|intros t x y L; inversion L].
  - intros S evs o S' r KI KI' (D & LK & AL) C ST. assert (D' : delivers S' (evs ++ [(S, o, r)])) by (eapply delivers_step; eauto).
    assert (LK' : links S' (evs ++ [(S, o, r)])).
    { destruct LK as (A & B). destruct (step_links S o S' r KI ST) as (L1 & L2). split.
      + intros t x y L. apply linked_snoc in L as [L|L].
        * destruct (A t x y L) as (k & K & T & R). destruct (step_onward S o S' r KI ST) as (O & _). destruct (O y k K) as (k' & K' & T' & L').
          exists k'. split; auto. split; [congruence|]. destruct R as [(pn & R)|R]; rewrite R in L'; destruct L' as [L'|[L'|L']]; eauto; contradiction.
        * destruct (L1 t x y L) as (k & pn & K & T & R). eauto 10.
      + intros y k x pn K R. apply linked_snoc. destruct (L2 y k x pn K R) as [L|(k0 & K0 & T & R0)]; auto. left. rewrite <- T. eauto. }
    split; auto. split; auto. intros t x y L. destruct (proj1 LK' t x y L) as (k' & K' & T & [(pn & R)|R]).
    + exists (k_in k'), pn. split.
      * pose proof (proj2 (D' y) k' K') as CA. rewrite R, T in CA. exact CA.
      * intros k K _. replace k with k' by congruence. auto.
    + assert (L0 : linked t x y evs).
      { apply linked_snoc in L as [L|L]; auto. destruct (step_links S o S' r KI ST) as (L1 & _). destruct (L1 t x y L) as (k & pn & K & _ & R2). congruence. }
      destruct (AL t x y L0) as (l & pn & CA & _). exists l, pn. split.
      2:{ intros k K G. replace k with k' in G by congruence. unfold gone in G. rewrite R in G. discriminate. }
      destruct (proj1 LK t x y L0) as (ky & KY & TY & RY). destruct (proj1 LK t y x (linked_sym _ _ _ _ L0)) as (kx & KX & TX & RX).
      assert (NS : sent1 x (S, o, r) = []).
      { destruct o; try reflexivity. cbn. destruct r; try reflexivity. destruct (Z.eqb_spec x0 x) as [->|]; [|reflexivity]. exfalso.
        pose proof (step_send _ _ _ _ _ _ _ _ _ _ ST) as (k1 & z & dd & K1 & FD & DE & N & Z & GD & _ & _ & _ & UN & ES).
        assert (k1 = kx) by congruence. subst k1. destruct RX as [(p & RX)|RX]; [|unfold unconnected in UN; rewrite RX in UN; discriminate].
        assert (z = y). { unfold destination in DE. rewrite RX in DE. destruct a as [[?|]|]; [destruct (k_type kx)| |]; congruence. }
        subst z. rewrite ES in K'. cbn in K'. rewrite Z.eqb_refl in K'. injection K' as <-. cbn in R. unfold gone in GD. rewrite R in GD. discriminate. }
      assert (NR : read1 y (S, o, r) = []).
      { destruct o; try reflexivity. cbn. destruct r; try reflexivity. destruct (Z.eqb_spec x0 y) as [->|]; [|reflexivity]. exfalso.
        pose proof (step_recv _ _ _ _ _ _ _ _ _ _ ST) as (k1 & K1 & FD & _ & _ & E). assert (k1 = ky) by congruence. subst k1.
        pose proof (ki_fd S KI y ky KY FD) as G. destruct (k_role ky) eqn:RK; try contradiction.
        - destruct E as (_ & E). destruct (k_in ky) as [|[[? ?] ?] ?]; [destruct E as (_ & -> & _); congruence|].
          destruct (k_type ky); destruct E as (_ & _ & _ & ->); cbn in K'; rewrite Z.eqb_refl in K'; injection K' as <-; cbn in R; congruence.
        - destruct E as (? & ? & ? & ? & _ & _ & E). destruct (k_type ky); destruct E as (_ & _ & _ & ->); cbn in K'; rewrite Z.eqb_refl in K'; injection K' as <-; cbn in R; congruence. }
      rewrite sends_snoc, reads_snoc, NS, NR, !app_nil_r. destruct (is_gone S x) eqn:GX.
      * rewrite (gone_mono S o S' r x KI ST); auto. congruence.
      * destruct (is_gone S' x); [apply carried_gone with false|]; exact CA.
Qed.

(* ------------------------------------------------------------------ runs *)
(** A run of the model, and the same run seen by the specification. *)
Definition ran (ops : list uop) (w : world) (outs : list (ures * list note)) (S : kstate) (evs : list event) : Prop :=
  Forall clean ops /\ run init ops = Some (w, outs) /\ history k_init ops = Some (S, evs).
Lemma ran_reach ops w outs S evs : ran ops w outs S evs -> map (fun e : event => snd e) evs = map fst outs /\ Inv w [] /\ sim w S /\ KInv S /\ fresh w.
Proof.
  intros (C & R & H). destruct (reach ops w outs C R) as (S1 & evs1 & H1 & M & I & A). rewrite H in H1. injection H1 as <- <-.
  repeat (split; [first [assumption|exact (kinv w S I A)]|]). apply (run_tells _ _ _ _ R fresh_init).
Qed.
Lemma ran_step ops w outs S evs o w' r ns : ran ops w outs S evs -> clean o -> step w o = Some (w', r, ns) ->
  exists S', s_step S o = Some (S', r) /\ ran (ops ++ [o]) w' (outs ++ [(r, ns)]) S' (evs ++ [(S, o, r)]).
Proof.
  intros R C E. destruct (ran_reach _ _ _ _ _ R) as (_ & I & A & _). destruct R as (F & R & H). pose proof (step_ok w S o I A C) as D.
  destruct (s_step S o) as [[S' r']|] eqn:ST; [|congruence]. destruct D as (w1 & ns1 & E1 & _). rewrite E in E1. injection E1 as <- <- <-.
  exists S'. split; auto. split; [apply Forall_app; auto|]. split; [|rewrite history_snoc, H; ob; rewrite ST; ob; reflexivity].
  clear - R E. revert R. generalize init as w0. revert outs. induction ops as [|p ops IH]; intros outs w0 R; cbn [run app] in *.
  - injection R as <- <-. ob. rewrite E. ob. reflexivity.
  - destruct (step w0 p) as [[[w2 r2] n2]|]; [|discriminate]. ob_in R. ob. destruct (run w2 ops) as [[w3 outs3]|] eqn:R3; [|discriminate]. ob_in R.
    injection R as -> <-. rewrite (IH outs3 w2 R3). ob. reflexivity.
Qed.
Lemma run_snoc ops w outs S evs : ran ops w outs S evs -> forall o, clean o -> s_step S o = None -> run init (ops ++ [o]) = None.
Proof.
  intros R o C ST. destruct R as (F & R & H). pose proof (run_ok (ops ++ [o]) init k_init (proj1 init_ok) (proj2 init_ok)) as D.
  rewrite history_run, history_snoc, H in D. ob_in D. rewrite ST in D. ob_in D. apply D. apply Forall_app. auto.
Qed.
Lemma crash_run ops : Forall clean ops -> run init ops = None -> exists ops1 o ops2 w outs S evs, ops = ops1 ++ o :: ops2 /\ ran ops1 w outs S evs /\ s_step S o = None.
Proof.
  induction ops as [|o ops IH] using rev_ind; intros C R; [discriminate R|]. apply Forall_app in C as (C & CO). inversion CO; subst.
  destruct (run init ops) as [[w outs]|] eqn:E.
  - destruct (reach ops w outs C E) as (S & evs & H' & _ & I & A). exists ops, o, [], w, outs, S, evs. split; auto. split; [split; auto|].
    destruct (s_step S o) as [[S' r]|] eqn:ST; auto. exfalso. pose proof (step_ok w S o I A H1) as D. rewrite ST in D. destruct D as (w1 & ns & E1 & _).
    assert (RN : ran ops w outs S evs) by (split; auto). destruct (ran_step _ _ _ _ _ _ _ _ _ RN H1 E1) as (_ & _ & (_ & R' & _)). congruence.
  - destruct (IH C eq_refl) as (ops1 & o1 & ops2 & w & outs & S & evs & -> & RN & ST). exists ops1, o1, (ops2 ++ [o]), w, outs, S, evs. split; auto.
    rewrite <- app_assoc. reflexivity.
Qed.

(* ------------------------------------------------------------------ the end of a stream *)
Lemma stream_eof ops w outs S evs x y c f d t cap w' n src tr ns : ran ops w outs S evs -> linked UStream x y evs -> 0 < cap ->
  step w (Recv y c f d t cap None) = Some (w', RRecv n [] src tr, ns) -> is_gone S x = true /\ concat (sends x evs) = concat (map data_of (reads y evs)).
Proof.
  intros R L CP E. destruct (ran_step _ _ _ _ _ (Recv y c f d t cap None) _ _ _ R eq_refl E) as (S' & ST & _). destruct (ran_reach _ _ _ _ _ R) as (_ & _ & _ & KI & _).
  destruct R as (C & _ & H). pose proof (links_all ops S evs C H) as LK. pose proof (always_all ops S evs C H) as AL.
  destruct (AL _ _ _ L) as (l & pn & (_ & CA) & OP). destruct (proj1 LK _ _ _ L) as (k & K & T & RK).
  destruct (step_recv _ _ _ _ _ _ _ _ _ _ ST) as (k1 & K1 & FD & _ & _ & B). assert (k1 = k) by congruence. subst k1.
  destruct (OP k K (ki_fd S KI y k K FD)) as (KL & KR). rewrite KR in B. destruct B as (_ & B). rewrite T in B. destruct (k_in k) as [|[[a b] m] rest] eqn:IN.
  - subst l. cbn in CA. rewrite app_nil_r in CA. split; [apply B|exact CA].
  - exfalso. destruct B as (B & _). pose proof (ki_byte S KI y k K T) as KB. rewrite IN in KB. inversion KB as [|? ? (b1 & M) _]; subst. cbn in M. subst m.
    destruct (Z.to_nat cap) eqn:EC; [lia|]. discriminate B.
Qed.

(* ------------------------------------------------------------------ flow control *)
Lemma flight_pos S x : 0 <= in_flight S x.
Proof.
  unfold in_flight. apply zsum_nonneg. apply Forall_forall. intros z IN. apply in_map_iff in IN as (i & <- & _). destruct (ks S (Z.of_nat i)) as [k|]; [|lia].
  unfold from_x. apply zsum_nonneg. apply Forall_forall. intros z IN. apply in_map_iff in IN as (e & <- & _). destruct (_ =? _); unfold blen; lia.
Qed.
Lemma stream_send ops w outs S evs x y d data w' r ns k : ran ops w outs S evs -> linked UStream x y evs -> ks S x = Some k -> k_fd k = true ->
  step w (Send x None false true d data None) = Some (w', r, ns) ->
  let unread := blen (concat (sends x evs)) - blen (concat (map data_of (reads y evs))) in
  if is_gone S y then r = RErr EPIPE else
  0 <= unread <= send_limit /\
  r = if unread =? send_limit then would_block k d x WWritable else RSent (Z.min (blen data) (send_limit - unread)).
Proof.
  intros R L K FD E unread. destruct (ran_step _ _ _ _ _ (Send x None false true d data None) _ _ _ R eq_refl E) as (S' & ST & _). destruct (ran_reach _ _ _ _ _ R) as (_ & _ & _ & KI & _).
  destruct R as (C & _ & H). pose proof (links_all ops S evs C H) as LK. pose proof (always_all ops S evs C H) as AL.
  destruct (proj1 LK _ _ _ (linked_sym _ _ _ _ L)) as (k1 & K1 & T & RK). assert (k1 = k) by congruence. subst k1.
  pose proof (ki_fd S KI x k K FD) as G. destruct RK as [(pn & RK)|RK]; [|unfold gone in G; rewrite RK in G; discriminate].
  cbn in ST. unfold s_with in ST. rewrite K, FD in ST. unfold s_send, unconnected, destination in ST. rewrite RK in ST. cbn [negb andb] in ST.
  destruct (Z.eqb_spec x y) as [|NE]; [discriminate|]. unfold is_gone. destruct (ks S y) as [ky|] eqn:KY; [|discriminate]. rewrite T in ST.
  destruct (gone ky) eqn:GY; [congruence|].
  destruct (AL _ _ _ L) as (l & pn' & (_ & CA) & OP). destruct (OP ky KY GY) as (KL & KR).
  assert (U : in_flight S x = unread).
  { rewrite (ki_sum S KI x k y pn ky K RK KY GY), KL. unfold unread. rewrite CA. unfold blen. rewrite app_length. lia. }
  assert (B : in_flight S x <= send_limit). { apply (ki_flight S KI x k K). rewrite RK. unfold is_gone. rewrite KY. exact GY. }
  pose proof (flight_pos S x) as P. split; [lia|]. unfold accepted in ST. destruct (Z.leb_spec (room S x) 0) as [LE|LE]; unfold room in *; rewrite U in *.
  - destruct (Z.eqb_spec unread send_limit); [|lia]. congruence.
  - destruct (Z.eqb_spec unread send_limit); [lia|]. congruence.
Qed.
(** Messages are taken whole or not at all. *)
Lemma message_send ops w outs S evs x d data w' r ns k y a : ran ops w outs S evs -> ks S x = Some k -> k_fd k = true -> k_type k <> UStream ->
  match k_role k with KConn _ _ | KGram _ => True | _ => False end -> destination S k a = inl y -> is_gone S y = false ->
  step w (Send x a false true d data None) = Some (w', r, ns) ->
  0 <= in_flight S x <= send_limit /\
  r = if in_flight S x + blen data <=? send_limit then (if in_flight S x =? send_limit then would_block k d x WWritable else RSent (blen data))
      else if (blen data <=? send_limit) || (in_flight S x =? send_limit) then would_block k d x WWritable else RErr EMSGSIZE.
Proof.
  intros R K FD T RK DE GY E. destruct (ran_step _ _ _ _ _ (Send x a false true d data None) _ _ _ R eq_refl E) as (S' & ST & _). destruct (ran_reach _ _ _ _ _ R) as (_ & _ & _ & KI & _).
  assert (B : in_flight S x <= send_limit).
  { apply (ki_flight S KI x k K). unfold destination in DE. destruct (k_role k); auto. destruct a as [[?|]|]; [destruct (k_type k)| |]; try discriminate DE; congruence. }
  pose proof (flight_pos S x) as P. split; [lia|]. cbn in ST. unfold s_with in ST. rewrite K, FD in ST. unfold s_send in ST. rewrite Bool.andb_false_r in ST.
  rewrite DE in ST. cbn [negb] in ST. destruct (x =? y); [discriminate|]. unfold is_gone in GY. destruct (ks S y) as [ky|]; [|discriminate]. rewrite GY in ST.
  assert (AC : accepted (k_type k) (blen data) (room S x) = if room S x <=? 0 then inl None else if blen data <=? room S x then inl (Some (blen data)) else if blen data <=? send_limit then inl None else inr EMSGSIZE).
  { unfold accepted. destruct (k_type k); congruence. }
  rewrite AC in ST. clear AC. assert (BL : 0 <= blen data) by (unfold blen; lia). unfold room in ST.
  destruct (Z.leb_spec (send_limit - in_flight S x) 0).
  - destruct (Z.eqb_spec (in_flight S x) send_limit); [|lia]. rewrite Bool.orb_true_r. destruct (_ <=? _); congruence.
  - destruct (Z.eqb_spec (in_flight S x) send_limit); [lia|]. rewrite Bool.orb_false_r.
    destruct (Z.leb_spec (blen data) (send_limit - in_flight S x)), (Z.leb_spec (in_flight S x + blen data) send_limit); try lia; [congruence|].
    destruct (blen data <=? send_limit); congruence.
Qed.

(* ------------------------------------------------------------------ news *)
Lemma news ops w outs S evs x a d data w' n ns k y : ran ops w outs S evs -> ks S x = Some k -> destination S k a = inl y ->
  0 < n \/ k_type k <> UStream -> step w (Send x a false true d data None) = Some (w', RSent n, ns) -> exists old new, In (y, old, new, true) ns.
Proof.
  intros R K DE NN E. destruct (ran_reach _ _ _ _ _ R) as (_ & I & A & KI & _). pose proof E as E0. unfold step in E.
  destruct (syscall w (Send x a false true d data None)) as [[[w1 cs] r1]|] eqn:SC; [|discriminate]. ob_in E.
  destruct (run_queue w1 cs) as [[w2 ns2]|] eqn:RQ; [|discriminate]. ob_in E. injection E as <- -> <-.
  pose proof (syscall_grows _ _ _ _ _ _ _ _ _ _ I SC y) as G. pose proof (syscall_ok w S (Send x a false true d data None) I A eq_refl) as D.
  rewrite SC in D. unfold does in D. destruct (s_step S (Send x a false true d data None)) as [[S' r']|] eqn:ST; [|discriminate].
  destruct D as (w3 & cs3 & E3 & I3 & A3). injection E3 as <- <- <-.
  destruct (step_send _ _ _ _ _ _ _ _ _ _ ST) as (k1 & z & dd & K1 & _ & DE1 & _ & Z & _ & AC & _ & _ & _ & ES). assert (k1 = k) by congruence. subst k1.
  assert (z = y) by congruence. subst z. destruct G as [G|(kk & ch & IN & NS)].
  - exfalso. rewrite <- (proj1 A y), <- (proj1 A3 y), Z, ES in G. cbn in G. rewrite Z.eqb_refl in G.
    apply some_inj in G. apply (f_equal k_in) in G. cbn in G.
    assert (L : length (k_in dd ++ parcels (k_type k) x (k_name k) (firstn (Z.to_nat n) data)) = length (k_in dd)) by (f_equal; exact G).
    rewrite app_length in L. assert (PN : length (parcels (k_type k) x (k_name k) (firstn (Z.to_nat n) data)) = 0%nat) by lia.
    destruct (k_type k) eqn:T; cbn in PN; try discriminate PN. rewrite map_length, firstn_length in PN. destruct NN as [NN|NN]; [|congruence].
    assert (n <= blen data).
    { unfold accepted in AC. destruct (_ <=? 0); [discriminate|]. injection AC as <-. lia. }
    unfold blen in *. lia.
  - unfold run_queue in RQ. destruct (run_cbs_grew _ _ _ _ _ RQ) as (_ & RG). eauto.
Qed.

(* ------------------------------------------------------------------ waking *)
Lemma blocks_wakes ops w outs S evs o wb z on ns : ran ops w outs S evs -> clean o -> step w o = Some (wb, RBlock z on, ns) ->
  (bit on (bits_at wb z) = false /\
   forall ops2 w' outs2 w2 r ns2, Forall clean ops2 -> run wb ops2 = Some (w', outs2) -> step w' o = Some (w2, r, ns2) -> goes o r ->
     exists old new g, In (z, old, new, g) (notes outs2) /\ bit on old = false /\ bit on new = true) \/
  exists x a c f dw data fault k, o = Send x a c f dw data fault /\ ks S x = Some k /\ k_type k <> UStream /\ 0 < room S x < blen data.
Proof.
  intros R C E. destruct (ran_reach _ _ _ _ _ R) as (_ & I & A & KI & F). destruct (blocks_off_all w S o wb z on ns I A C E) as [O|X]; [left|right; exact X].
  split; auto. intros. eapply wakes_all; eauto.
Qed.
Lemma notes_chain ops w outs S evs x : ran ops w outs S evs -> forall ops2 w' outs2, Forall clean ops2 -> run w ops2 = Some (w', outs2) ->
  chain (bits_at w x) (said x (notes outs2)) (bits_at w' x).
Proof. intros R ops2 w' outs2 C R2. destruct (ran_reach _ _ _ _ _ R) as (_ & _ & _ & _ & F). apply (run_tells _ _ _ _ R2 F). Qed.

(* ------------------------------------------------------------------ in other words *)
Lemma refines ops : Forall clean ops ->
  match s_run k_init ops with
  | Some (S0, rs) => exists w outs, run init ops = Some (w, outs) /\ map fst outs = rs
  | None => run init ops = None
  end.
Proof.
  intro C. pose proof (run_ok ops init k_init (proj1 init_ok) (proj2 init_ok) C) as H. destruct (s_run k_init ops) as [[S0 rs]|]; auto.
  destruct H as (w & outs & R & M & _). eauto.
Qed.
Lemma connected_law ops w outs S evs : ran ops w outs S evs ->
  (forall t x y, linked t x y evs -> exists k, ks S y = Some k /\ k_type k = t /\ ((exists pn, k_role k = KConn x pn) \/ k_role k = KGone)) /\
  (forall y k x pn, ks S y = Some k -> k_role k = KConn x pn -> linked (k_type k) x y evs).
Proof. intros (C & _ & H). exact (links_all ops S evs C H). Qed.
Lemma stream_law ops w outs S evs x y : ran ops w outs S evs -> linked UStream x y evs ->
  exists rest, concat (sends x evs) = concat (map data_of (reads y evs)) ++ rest /\
    forall k, ks S y = Some k -> gone k = false -> rest = concat (map snd (k_in k)).
Proof.
  intros (C & _ & H) L. destruct (always_all ops S evs C H _ _ _ L) as (l & pn & (_ & CA) & OP). exists (concat (map snd l)). split; auto.
  intros k K G. destruct (OP k K G) as (-> & _). reflexivity.
Qed.
Lemma packet_law ops w outs S evs x y : ran ops w outs S evs -> linked USeqPacket x y evs ->
  exists taken rest r1 r2, sends x evs = taken ++ rest /\ reads y evs = r1 ++ r2 /\ Forall2 reads_front taken r1 /\
    Forall (fun r => data_of r = []) r2 /\ (r2 <> [] -> rest = [] /\ is_gone S x = true) /\
    forall k, ks S y = Some k -> gone k = false -> rest = map snd (k_in k).
Proof.
  intros (C & _ & H) L. destruct (always_all ops S evs C H _ _ _ L) as (l & pn & (_ & CA) & OP). destruct CA as (tk & r1 & r2 & B1 & B2 & B3 & B4 & B5).
  exists tk, (map snd l), r1, r2. repeat (split; [assumption|]). split.
  - intro N. destruct (B5 N) as (-> & G). auto.
  - intros k K G. destruct (OP k K G) as (-> & _). reflexivity.
Qed.
Lemma datagram_law ops w outs S evs y k : ran ops w outs S evs -> ks S y = Some k -> gone k = false -> k_type k = UDgram ->
  exists taken, mailed y evs = taken ++ map (fun e => (snd (fst e), snd e)) (k_in k) /\
    Forall2 (fun m r => reads_front (snd m) r /\ snd r = fst m) taken (reads y evs).
Proof.
  intros R K G T. destruct (ran_reach _ _ _ _ _ R) as (_ & _ & _ & KI & _). destruct R as (C & _ & H). pose proof (ki_kind S KI y k K) as KD.
  pose proof (proj2 (delivers_all ops S evs C H y) k K) as D. unfold gone in G. destruct (k_role k); congruence || exact D.
Qed.
Lemma stream_ends ops w outs S evs x y k d t cap : ran ops w outs S evs -> linked UStream x y evs -> ks S y = Some k -> k_fd k = true ->
  is_gone S x = true -> concat (sends x evs) = concat (map data_of (reads y evs)) ->
  exists w' src ns, step w (Recv y false true d t cap None) = Some (w', RRecv 0 [] src false, ns).
Proof.
  intros R L K FD G E. destruct (ran_reach _ _ _ _ _ R) as (_ & I & A & KI & _). destruct R as (C & _ & H).
  destruct (always_all ops S evs C H _ _ _ L) as (l & pn & (_ & CA) & OP). destruct (OP k K (ki_fd S KI y k K FD)) as (KL & KR).
  destruct (proj1 (links_all ops S evs C H) _ _ _ L) as (k1 & K1 & T & _). assert (k1 = k) by congruence. subst k1.
  assert (k_in k = []).
  { rewrite E in CA. rewrite <- app_nil_r in CA at 1. apply app_inv_head in CA. pose proof (ki_byte S KI y k K T) as KB. rewrite KL in *.
    destruct l as [|e l]; auto. exfalso. inversion KB as [|? ? (b & M) _]; subst. cbn in CA. rewrite M in CA. discriminate. }
  pose proof (step_ok w S (Recv y false true d t cap None) I A eq_refl) as ST. cbn in ST. unfold s_with in ST. rewrite K, FD in ST. unfold s_recv in ST.
  rewrite KR, H0, G in ST. cbn in ST. destruct ST as (w' & ns & ST & _). eauto.
Qed.
(** A message is flagged as cut off exactly if bytes are missing, when the reader asked. *)
Lemma flag_law ops w outs S evs y c f d cap w' n out src tr ns k : ran ops w outs S evs -> ks S y = Some k -> k_type k <> UStream ->
  step w (Recv y c f d true cap None) = Some (w', RRecv n out src tr, ns) -> n = blen (match k_in k with (_, _, m) :: _ => m | [] => [] end) /\ tr = (blen out <? n).
Proof.
  intros R K T E. destruct (ran_step _ _ _ _ _ (Recv y c f d true cap None) _ _ _ R eq_refl E) as (S' & ST & _).
  destruct (step_recv _ _ _ _ _ _ _ _ _ _ ST) as (k1 & K1 & FD & _ & _ & B). assert (k1 = k) by congruence. subst k1.
  destruct (k_role k); try contradiction.
  - destruct B as (_ & B). destruct (k_in k) as [|[[a b] m] rest].
    + destruct B as (_ & _ & -> & -> & ->). split; reflexivity.
    + destruct (k_type k); [congruence| |]; destruct B as (-> & -> & -> & _); split; reflexivity.
  - destruct B as (from & who & m & rest & -> & _ & B). destruct (k_type k); [congruence| |]; destruct B as (-> & -> & -> & _); split; reflexivity.
Qed.
