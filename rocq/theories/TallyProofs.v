(** Proofs about the retransmission tally: every run is a story. *)
From Coq Require Import ZArith List Lia Bool.
From Verif Require Import Base TallyModel TallySpec TallyRanges.
Import ListNotations.
Local Open Scope Z_scope.

Lemma u32_id x : 0 <= x < 2 ^ 32 -> u32 x = x.
Proof. intros. unfold u32. apply Z.mod_small. auto. Qed.

Definition below (h : Z) (rs : list range) : Prop := forall q, In q rs -> snd q < h.

(** The invariant of the tally between events. *)
Record inv (t : tally) : Prop := mkInv {
  i_ack : -1 <= t_ack t < 2 ^ 32 - 1;
  i_dup : 0 <= t_dup t /\ (t_ack t = -1 -> t_dup t = 0);
  i_marked : wf (-1) (t_marked t) /\ below (2 ^ 32) (t_marked t);
  i_sacked : wf (-1) (t_sacked t);
  i_retx : wf (-1) (t_retx t)
}.

(** The sets of the tally are those of the world from the highest
    acknowledgement on. *)
Record sees (t : tally) (w : world) : Prop := mkSees {
  s_ack : t_ack t = w_ack w;
  s_dup : t_dup t = w_dups w;
  s_marked : forall x, t_ack t <= x -> inside (t_marked t) x <-> w_lost w x;
  s_sacked : forall x, t_ack t <= x -> inside (t_sacked t) x <-> w_has w x;
  s_retx : forall x, t_ack t <= x -> inside (t_retx t) x <-> w_again w x
}.

Lemma compute_ok t : inv t ->
  exists l, compute_lost t
      = Some (mkTally (t_ack t) (t_dup t) (t_marked t) (t_sacked t) (t_retx t) l)
    /\ wf (-1) l /\ below (2 ^ 32) l
    /\ (forall x, inside l x <-> inside (t_marked t) x /\ ~ inside (t_sacked t) x /\ ~ inside (t_retx t) x).
Proof.
  intros [A D [M MB] S R]. unfold compute_lost.
  destruct (subtract_ok (-1) _ _ M S) as (l1 & E1 & W1 & I1 & G1).
  destruct (subtract_ok (-1) _ _ W1 R) as (l2 & E2 & W2 & I2 & G2).
  rewrite E1. ob. rewrite E2. ob. exists l2. split; [auto|]. split; [auto|]. split.
  - exact (G2 _ (G1 _ MB)).
  - intros x. rewrite I2, I1. tauto.
Qed.

(** ** Flushing *)

Lemma numbers_from_in b n x : In x (numbers_from b n) <-> b <= x < b + Z.of_nat n.
Proof.
  revert b; induction n as [|n IH]; intros b; simpl.
  - lia.
  - rewrite IH. lia.
Qed.

Lemma numbers_in b e x : In x (numbers b e) <-> b <= x < e.
Proof. unfold numbers. rewrite numbers_from_in. lia. Qed.

Lemma numbers_from_incr b n : increasing (numbers_from b n).
Proof.
  revert b; induction n as [|n IH]; intros b; simpl; auto. split; auto.
  intros y H. apply numbers_from_in in H. lia.
Qed.

Lemma increasing_app a b :
  increasing a -> increasing b -> (forall x y, In x a -> In y b -> x < y) -> increasing (a ++ b).
Proof.
  induction a as [|x a IH]; simpl; auto. intros (H & H1) H2 H3. split.
  - intros y Hy. apply in_app_or in Hy. destruct Hy; auto.
  - apply IH; auto.
Qed.

Lemma flush_ok rs : forall t lo, inv t -> -1 <= lo -> wf lo rs -> below (2 ^ 32) rs ->
  exists out t', flush_ranges rs t = Some (out, t')
    /\ inv t' /\ t_ack t' = t_ack t /\ t_dup t' = t_dup t
    /\ t_marked t' = t_marked t /\ t_sacked t' = t_sacked t
    /\ (forall x, inside (t_retx t') x <-> inside (t_retx t) x \/ inside rs x)
    /\ increasing out /\ (forall x, In x out <-> inside rs x)
    /\ (rs = [] -> t' = t)
    /\ (rs <> [] -> forall x, inside (t_lost t') x <->
          inside (t_marked t') x /\ ~ inside (t_sacked t') x /\ ~ inside (t_retx t') x)
    /\ (rs <> [] -> wf (-1) (t_lost t')).
Proof.
  induction rs as [|r rs IH]; intros t lo Hi Hlo W B.
  - exists [], t. simpl. repeat split; auto; try tauto; rewrite ?inside_nil; try tauto; try apply Hi.
  - destruct W as (W1 & W2 & W3).
    assert (B1 : snd r < 2 ^ 32) by (apply B; simpl; auto).
    cbn [flush_ranges]. rewrite !u32_id by lia.
    unfold mark_retransmitted.
    destruct (insert_ok (-1) (t_retx t) (fst r, snd r)) as (x' & E & W' & I' & _);
      [apply Hi|simpl; lia|simpl; lia|].
    rewrite E. ob.
    set (t1 := mkTally (t_ack t) (t_dup t) (t_marked t) (t_sacked t) x' (t_lost t)).
    assert (Hi1 : inv t1) by (destruct Hi; constructor; auto).
    destruct (compute_ok t1 Hi1) as (l & E1 & L1 & L2 & L3). rewrite E1. ob.
    set (t2 := mkTally _ _ _ _ _ l).
    assert (Hi2 : inv t2) by (destruct Hi; constructor; auto).
    destruct (IH t2 (snd r) Hi2) as (out & t' & F & Hi' & A1 & A2 & A3 & A4 & A5 & A6 & A7 & A8 & A9 & A10);
      [lia|auto|intros q Hq; apply B; simpl; auto|].
    rewrite F. ob. exists (numbers (fst r) (snd r) ++ out), t'.
    split; [auto|]. split; [auto|]. split; [auto|]. split; [auto|]. split; [auto|]. split; [auto|].
    split.
    { intros x. rewrite A5, (inside_cons r rs). subst t2 t1. simpl. rewrite I'. simpl. tauto. }
    split.
    { apply increasing_app; auto; [apply numbers_from_incr|].
      intros x y Hx Hy. apply numbers_in in Hx. apply A7 in Hy. pose proof (wf_above _ _ _ W3 Hy). lia. }
    split.
    { intros x. rewrite in_app_iff, numbers_in, A7, inside_cons. tauto. }
    split; [discriminate|].
    destruct rs as [|r' rs].
    + rewrite A8 by auto. split; intros _; subst t2; simpl; auto.
    + split; intros _; [apply A9|apply A10]; discriminate.
Qed.

Lemma nobody_in (l : list range) lo : wf lo l -> (forall x, ~ inside l x) -> l = [].
Proof.
  destruct l as [|r l]; auto. intros (H & H1 & _) K. exfalso. apply (K (fst r)).
  rewrite inside_cons. left; lia.
Qed.

(** A flush asks for the lost packets and leaves none. *)
Lemma flush_all t : inv t -> wf (-1) (t_lost t) -> below (2 ^ 32) (t_lost t) ->
  (forall x, inside (t_marked t) x -> ~ inside (t_sacked t) x -> ~ inside (t_retx t) x -> t_lost t <> [] -> inside (t_lost t) x) ->
  exists out t', flush t = Some (out, t')
    /\ inv t' /\ t_lost t' = []
    /\ t_ack t' = t_ack t /\ t_dup t' = t_dup t /\ t_marked t' = t_marked t /\ t_sacked t' = t_sacked t
    /\ (forall x, inside (t_retx t') x <-> inside (t_retx t) x \/ inside (t_lost t) x)
    /\ increasing out /\ (forall x, In x out <-> inside (t_lost t) x).
Proof.
  intros Hi W B K. unfold flush.
  destruct (flush_ok (t_lost t) t (-1) Hi) as (out & t' & F & Hi' & A1 & A2 & A3 & A4 & A5 & A6 & A7 & A8 & A9 & A10);
    auto; try lia.
  exists out, t'. split; [auto|]. split; [auto|]. split; [|auto 10].
  destruct (t_lost t) as [|r l] eqn:E; [rewrite A8; auto|].
  apply (nobody_in _ (-1)); [apply A10; discriminate|].
  intros x Hx. apply A9 in Hx; [|discriminate]. rewrite A3, A4, A5 in Hx.
  destruct Hx as (X1 & X2 & X3). apply X3. right. apply K; auto. discriminate.
Qed.

(** ** Marking *)

Lemma sacked_ok bs : forall t, inv t -> Forall good_block bs ->
  exists s, mark_sacked bs t
      = Some (mkTally (t_ack t) (t_dup t) (t_marked t) s (t_retx t) (t_lost t))
    /\ wf (-1) s /\ (forall x, inside s x <-> inside (t_sacked t) x \/ inside bs x).
Proof.
  induction bs as [|b bs IH]; intros t Hi G.
  - exists (t_sacked t). destruct t; simpl in *. split; [auto|]. split; [apply Hi|].
    intros x. rewrite inside_nil. tauto.
  - inversion G as [|? ? (G1 & G2 & G3) G']; subst. cbn [mark_sacked].
    rewrite assert_true by (apply Z.ltb_lt; lia).
    destruct (insert_ok (-1) (t_sacked t) b) as (s1 & E & W & I & _); [apply Hi|lia|lia|].
    rewrite E. ob.
    destruct (IH (mkTally (t_ack t) (t_dup t) (t_marked t) s1 (t_retx t) (t_lost t)))
      as (s & E1 & W1 & I1); auto.
    { destruct Hi; constructor; auto. }
    rewrite E1. exists s. split; [auto|]. split; [auto|].
    intros x. rewrite I1, inside_cons. simpl. rewrite I. tauto.
Qed.

(** ** The events *)

Definition agrees (out : list Z) (ack : Z) (due : Z -> Prop) : Prop :=
  increasing out /\ forall x, ack <= x -> In x out <-> due x.

Lemma quiet_flush t : t_lost t = [] -> flush t = Some ([], t).
Proof. intros E. unfold flush. rewrite E. auto. Qed.

Lemma update_ok a dup t w : inv t -> sees t w -> t_lost t = [] -> 0 <= a < 2 ^ 32 - 1 ->
  forall ack dups, heard a dup w = (ack, dups) ->
  exists t1,
    (if dup && (a =? t_ack t) then
       Some (mkTally (t_ack t) (t_dup t + 1) (t_marked t) (t_sacked t) (t_retx t) (t_lost t))
     else if t_ack t <? a then
       do m <- tidy_ranges a (t_marked t);
       do s <- tidy_ranges a (t_sacked t);
       do r <- tidy_ranges a (t_retx t);
       Some (mkTally a 0 m s r (t_lost t))
     else Some t) = Some t1
    /\ inv t1 /\ t_lost t1 = []
    /\ sees t1 (mkWorld ack dups (w_lost w) (w_has w) (w_again w)).
Proof.
  intros Hi [S1 S2 S3 S4 S5] HL Ha ack dups H. unfold heard in H.
  pose proof Hi as [A D [M MB] S R].
  rewrite <- S1, <- S2 in H.
  destruct (dup && (a =? t_ack t)) eqn:E.
  - apply andb_true_iff in E. destruct E as (-> & E). pose proof E as E'. apply Z.eqb_eq in E'.
    destruct (Z.ltb_spec (t_ack t) a); [lia|]. rewrite E in H. inversion H; subst.
    eexists. split; [reflexivity|]. split; [|split; [auto|constructor; simpl; auto]].
    constructor; simpl; auto. lia.
  - destruct (Z.ltb_spec (t_ack t) a).
    + inversion H; subst.
      destruct (tidy_ok (-1) ack (t_marked t)) as (m & Em & Wm & Im & Gm); auto; [lia|].
      destruct (tidy_ok (-1) ack (t_sacked t)) as (s & Es & Ws & Is & Gs); auto; [lia|].
      destruct (tidy_ok (-1) ack (t_retx t)) as (r & Er & Wr & Ir & Gr); auto; [lia|].
      rewrite Em. ob. rewrite Es. ob. rewrite Er. ob.
      eexists. split; [reflexivity|]. split; [|split; [auto|]].
      * constructor; simpl; auto; try lia. split; auto. exact (Gm _ MB).
      * constructor; simpl; auto; intros x Hx;
          [rewrite Im, S3|rewrite Is, S4|rewrite Ir, S5]; try tauto; lia.
    + rewrite andb_comm, E in H. inversion H; subst.
      exists t. split; [auto|]. split; [auto|]. split; [auto|]. constructor; simpl; auto.
Qed.

Theorem handle_ok ev t w : inv t -> t_lost t = [] -> sees t w -> good_event ev ->
  exists out t' due w', handle ev t = Some (out, t')
    /\ inv t' /\ t_lost t' = [] /\ sees t' w'
    /\ obeys w ev due w' /\ increasing out /\ (forall x, w_ack w' <= x -> In x out <-> due x).
Proof.
  intros Hi HL Hs G. destruct ev as [[[a dup]|] sacks|b e]; cbn [handle].
  - destruct G as (Ga & Gs).
    destruct (heard a dup w) as (ack & dups) eqn:EH.
    unfold tally_update.
    destruct (update_ok a dup t w Hi Hs HL Ga _ _ EH) as (t1 & E1 & Hi1 & HL1 & Hs1).
    rewrite E1. ob. clear E1.
    destruct Hs1 as [S1 S2 S3 S4 S5]. simpl in S1, S2, S3, S4, S5.
    destruct ((DUP_THRESH <=? t_dup t1) && negb (ranges_contains (t_retx t1) (t_ack t1))) eqn:E.
    + apply andb_true_iff in E. destruct E as (E1 & E2). apply Z.leb_le in E1.
      apply negb_true_iff in E2. unfold DUP_THRESH in E1.
      assert (N : ~ inside (t_retx t1) (t_ack t1)).
      { intros K. apply contains_iff in K. congruence. }
      pose proof Hi1 as [A [D1 D2] [M MB] S R].
      assert (A0 : 0 <= t_ack t1) by (destruct (Z.eq_dec (t_ack t1) (-1)); [specialize (D2 e); lia|lia]).
      rewrite u32_id by lia.
      destruct (insert_ok (-1) (t_marked t1) (t_ack t1, t_ack t1 + 1)) as (m & Em & Wm & Im & Gm);
        simpl; auto; try lia.
      rewrite Em. ob.
      set (t2 := mkTally (t_ack t1) (t_dup t1) m (t_sacked t1) (t_retx t1) (t_lost t1)).
      assert (Hi2 : inv t2).
      { constructor; auto. split; auto. intros q Hq. apply (Gm (2 ^ 32)); auto. simpl; lia. }
      destruct (compute_ok t2 Hi2) as (l & El & Wl & Bl & Il). rewrite El. ob.
      set (t3 := mkTally _ _ _ _ _ l).
      assert (Hi3 : inv t3) by (destruct Hi2; constructor; auto).
      destruct (sacked_ok sacks t3 Hi3 Gs) as (s & Ek & Wk & Ik). rewrite Ek. ob.
      set (t4 := mkTally _ _ _ s _ _).
      assert (Hi4 : inv t4) by (destruct Hi3; constructor; auto).
      destruct (flush_all t4) as (out & t' & F & Hi' & HL' & A1 & A2 & A3 & A4 & A5 & A6 & A7); auto.
      { subst t4 t3 t2. simpl. intros x X1 X2 X3 _. apply Il. simpl.
        rewrite Ik in X2. simpl in X2. tauto. }
      subst t4 t3 t2. simpl in *.
      exists out, t'.
      set (lost := both (w_lost w) (fun x => x = ack)).
      set (due := fun x => lost x /\ ~ w_has w x /\ ~ w_again w x).
      assert (P : forall x, t_ack t1 <= x -> inside l x <-> due x).
      { intros x Hx. rewrite Il, Im, S3, S4, S5 by auto. subst due lost. unfold both. simpl.
        rewrite <- S1. split; [|intros ([K|K] & K1); split; auto; right; lia].
        intros ([K|K] & K1); split; auto. right; lia. }
      exists due, (mkWorld ack dups lost (both (w_has w) (inside sacks)) (both (w_again w) due)).
      split; [auto|]. split; [auto|]. split; [auto|]. split.
      { constructor; simpl; try congruence; rewrite A1; intros x Hx.
        - rewrite A3, Im, S3 by auto. subst lost. unfold both. simpl. rewrite <- S1.
          split; (intros [K|K]; [auto|right; lia]).
        - rewrite A4, Ik, S4 by auto. reflexivity.
        - rewrite A5, S5, P by auto. reflexivity. }
      split.
      { eapply ob_loss; eauto; [lia|]. intros K. apply N. apply S5; [lia|]. rewrite S1; auto. }
      split; auto. simpl. intros x Hx. rewrite A7, P by lia. tauto.
    + ob. destruct (sacked_ok sacks t1 Hi1 Gs) as (s & Ek & Wk & Ik). rewrite Ek. ob.
      rewrite quiet_flush by (simpl; auto).
      set (t4 := mkTally _ _ _ s _ _).
      exists [], t4, nobody, (mkWorld ack dups (w_lost w) (both (w_has w) (inside sacks)) (w_again w)).
      split; [auto|]. split; [destruct Hi1; constructor; auto|]. split; [auto|]. split.
      { constructor; simpl; auto. intros x Hx. rewrite Ik, S4 by auto. reflexivity. }
      split.
      { apply ob_quiet; auto. apply andb_false_iff in E. destruct E as [E|E].
        - left. apply Z.leb_gt in E. unfold DUP_THRESH in E. lia.
        - right. apply negb_false_iff, contains_iff in E. rewrite <- S1. apply S5; auto. lia. }
      split; simpl; auto. tauto.
  - destruct G as (_ & Gs). ob.
    destruct (sacked_ok sacks t Hi Gs) as (s & Ek & Wk & Ik). rewrite Ek. ob.
    rewrite quiet_flush by (simpl; auto). destruct Hs as [S1 S2 S3 S4 S5].
    set (t4 := mkTally _ _ _ s _ _).
    exists [], t4, nobody, (mkWorld (w_ack w) (w_dups w) (w_lost w) (both (w_has w) (inside sacks)) (w_again w)).
    split; [auto|]. split; [destruct Hi; constructor; auto|]. split; [auto|]. split.
    { constructor; simpl; auto. intros x Hx. rewrite Ik, S4 by auto. reflexivity. }
    split; [constructor|]. split; simpl; auto. tauto.
  - destruct G as (Gb & Ge). destruct Hs as [S1 S2 S3 S4 S5].
    unfold mark_lost. rewrite (u32_id (e + 1)) by lia.
    destruct (Z.eqb_spec b (e + 1)) as [->|N].
    + ob. rewrite quiet_flush by (simpl; auto).
      exists [], (clear_retransmitted t), nobody, (mkWorld (w_ack w) (w_dups w) (w_lost w) (w_has w) nobody).
      split; [auto|]. split; [destruct Hi; constructor; simpl; auto|]. split; [auto|]. split.
      { constructor; simpl; auto. intros x _. rewrite inside_nil. reflexivity. }
      split; [apply ob_idle; auto|]. split; simpl; auto. tauto.
    + cbv zeta. set (e' := if b =? e then e + 1 else e).
      assert (Ee : e' = Z.max e (b + 1)).
      { subst e'. destruct (Z.eqb_spec b e); lia. }
      rewrite assert_true by (apply Z.ltb_lt; lia).
      pose proof Hi as [A [D1 D2] [M MB] S R].
      destruct (insert_ok (-1) (t_marked t) (b, e')) as (m & Em & Wm & Im & Gm);
        simpl; auto; try lia.
      simpl t_marked. rewrite Em. ob.
      set (t2 := mkTally _ _ m _ _ _).
      assert (Hi2 : inv t2).
      { constructor; simpl; auto. split; auto. intros q Hq. apply (Gm (2 ^ 32)); auto. simpl; lia. }
      destruct (compute_ok t2 Hi2) as (l & El & Wl & Bl & Il). rewrite El. ob.
      set (t3 := mkTally _ _ _ _ _ l).
      assert (Hi3 : inv t3) by (destruct Hi2; constructor; auto).
      destruct (flush_all t3) as (out & t' & F & Hi' & HL' & A1 & A2 & A3 & A4 & A5 & A6 & A7); auto.
      { subst t3 t2. simpl. intros x X1 X2 X3 _. apply Il. simpl. auto. }
      subst t3 t2. simpl in *.
      exists out, t'.
      set (lost := both (w_lost w) (fun x => b <= x < Z.max e (b + 1))).
      set (due := fun x => lost x /\ ~ w_has w x).
      assert (P : forall x, t_ack t <= x -> inside l x <-> due x).
      { intros x Hx. rewrite Il, Im, S3, S4, inside_nil by auto. subst due lost. unfold both. simpl.
        rewrite Ee. tauto. }
      exists due, (mkWorld (w_ack w) (w_dups w) lost (w_has w) due).
      split; [auto|]. split; [auto|]. split; [auto|]. split.
      { constructor; simpl; try congruence; rewrite A1; intros x Hx.
        - rewrite A3, Im, S3 by auto. subst lost. unfold both. simpl. rewrite Ee. tauto.
        - rewrite A4, S4 by auto. reflexivity.
        - rewrite A5, inside_nil, P by auto. tauto. }
      split; [eapply ob_timeout; eauto; lia|].
      split; auto. simpl. intros x Hx. rewrite A7, P by lia. tauto.
Qed.

Lemma run_ok evs : forall t w, inv t -> t_lost t = [] -> sees t w -> Forall good_event evs ->
  exists outs t' w', run evs t = Some (outs, t') /\ inv t' /\ t_lost t' = [] /\ sees t' w'
    /\ story w evs outs w'.
Proof.
  induction evs as [|ev evs IH]; intros t w Hi HL Hs G.
  - exists [], t, w. repeat (split; [auto|]). constructor.
  - inversion G; subst.
    destruct (handle_ok ev t w) as (out & t1 & due & w1 & E & Hi1 & HL1 & Hs1 & O & Inc & P); auto.
    destruct (IH t1 w1) as (outs & t' & w' & E' & Hi' & HL' & Hs' & St); auto.
    exists (out :: outs), t', w'. cbn [run]. rewrite E. ob. rewrite E'. ob.
    repeat (split; [auto|]). econstructor; eauto.
Qed.

Lemma inv0 : inv tally_init.
Proof. constructor; simpl; auto; try lia. split; auto. intros q []. Qed.

Lemma sees0 : sees tally_init world0.
Proof. constructor; simpl; auto; intros x _; rewrite inside_nil; reflexivity. Qed.

Theorem story_law evs : Forall good_event evs ->
  exists outs t w, run evs tally_init = Some (outs, t) /\ story world0 evs outs w.
Proof.
  intros G. destruct (run_ok evs _ _ inv0 eq_refl sees0 G) as (outs & t & w & E & _ & _ & _ & S).
  eauto.
Qed.

(** ** No packet twice *)

Lemma heard_ack a dup w ack dups : heard a dup w = (ack, dups) -> ack = Z.max (w_ack w) a.
Proof.
  unfold heard. destruct (Z.ltb_spec (w_ack w) a); [intros E; inversion E; lia|].
  destruct ((a =? w_ack w) && dup); intros E; inversion E; lia.
Qed.

Lemma obeys_ack w ev due w' : obeys w ev due w' ->
  w_ack w' = match ev with Packet (Some (a, _)) _ => Z.max (w_ack w) a | _ => w_ack w end.
Proof. destruct 1; simpl; auto; eapply heard_ack; eauto. Qed.

Lemma story_ack w evs outs w' : story w evs outs w' -> -1 <= w_ack w -> w_ack w' = Z.max (w_ack w) (highest evs).
Proof.
  induction 1; intros L; simpl; [lia|]. pose proof (obeys_ack _ _ _ _ H) as E.
  destruct ev as [[[a dup]|] sacks|b e]; rewrite IHstory; lia.
Qed.

Lemma obeys_again w ev due w' : obeys w ev due w' -> ~ is_timeout ev ->
  (forall x, due x -> ~ w_again w x) /\ (forall x, w_again w' x <-> w_again w x \/ due x).
Proof.
  destruct 1; simpl; intros T; try tauto; unfold nobody, both; try (split; tauto).
  subst due. split; tauto.
Qed.

Lemma count_incr (l : list Z) x : increasing l -> (count_occ Z.eq_dec l x <= 1)%nat.
Proof.
  induction l as [|y l IH]; simpl; [lia|]. intros (H & H1). specialize (IH H1).
  destruct (Z.eq_dec y x) as [->|]; auto.
  assert (count_occ Z.eq_dec l x = 0%nat); [|lia].
  apply count_occ_not_In. intros K. specialize (H _ K). lia.
Qed.

Lemma count_concat outs x : ~ In x (concat outs) -> count_occ Z.eq_dec (concat outs) x = 0%nat.
Proof. intros; apply count_occ_not_In; auto. Qed.

Lemma story_once w evs outs w' : story w evs outs w' -> Forall (fun ev => ~ is_timeout ev) evs ->
  -1 <= w_ack w ->
  forall x, w_ack w' <= x ->
    (count_occ Z.eq_dec (concat outs) x <= 1)%nat /\ (w_again w x -> ~ In x (concat outs)).
Proof.
  induction 1; intros F L x Hx; simpl; [split; [lia|tauto]|].
  inversion F; subst.
  destruct (obeys_again _ _ _ _ H H5) as (D1 & D2).
  pose proof (story_ack _ _ _ _ H2) as A. pose proof (obeys_ack _ _ _ _ H) as A1.
  assert (L1 : -1 <= w_ack w1) by (destruct ev as [[[a dup]|] sacks|b e]; lia).
  specialize (A L1).
  destruct (IHstory H6 L1 x Hx) as (C & N).
  assert (P : In x out <-> due x) by (apply H1; lia).
  rewrite count_occ_app. split.
  - destruct (in_dec Z.eq_dec x out) as [K|K].
    + rewrite (count_concat outs x); [pose proof (count_incr out x H0); lia|].
      apply N. apply D2. right. apply P; auto.
    + rewrite (proj1 (count_occ_not_In Z.eq_dec out x)) by auto. lia.
  - intros K. rewrite in_app_iff. intros [K1|K1].
    + apply P in K1. apply (D1 x); auto.
    + apply N in K1; auto. apply D2; auto.
Qed.

Lemma highest_low l : -1 <= highest l.
Proof. induction l as [|[[[a d]|] s|b e] l IH]; simpl; lia. Qed.

Theorem once_law before evs : Forall good_event before -> Forall good_event evs ->
  Forall (fun ev => ~ is_timeout ev) evs ->
  exists outs1 t1 outs2 t2,
    run before tally_init = Some (outs1, t1) /\ run evs t1 = Some (outs2, t2)
    /\ forall x, highest (before ++ evs) <= x -> (count_occ Z.eq_dec (concat outs2) x <= 1)%nat.
Proof.
  intros G1 G2 T.
  destruct (run_ok before _ _ inv0 eq_refl sees0 G1) as (outs1 & t1 & w1 & E1 & I1 & L1 & S1 & St1).
  destruct (run_ok evs _ _ I1 L1 S1 G2) as (outs2 & t2 & w2 & E2 & I2 & L2 & S2 & St2).
  exists outs1, t1, outs2, t2. split; [auto|]. split; [auto|]. intros x Hx.
  pose proof (story_ack _ _ _ _ St1) as A1. simpl in A1. specialize (A1 ltac:(lia)).
  assert (La : -1 <= w_ack w1) by lia.
  pose proof (story_ack _ _ _ _ St2 La) as A2.
  assert (HA : highest (before ++ evs) = Z.max (highest before) (highest evs)).
  { clear. pose proof (highest_low evs). induction before as [|[[[a d]|] s|b e] l IH]; simpl; lia. }
  pose proof (highest_low before). apply (story_once _ _ _ _ St2 T La). lia.
Qed.

(** ** Selective acknowledgements of the receiver *)

Lemma apart_app (a : list range) (r : range) : apart a -> fst r < snd r -> (forall q, In q a -> snd q < fst r) -> apart (a ++ [r]).
Proof.
  induction a as [|q a IH]; simpl; intros.
  - split; auto. split; auto. intros r' [].
  - destruct H as (H & H2 & H3). split; auto. split; [|apply IH; auto].
    intros r' Hr. apply in_app_or in Hr. destruct Hr as [Hr|[<-|[]]]; auto.
Qed.

Lemma sacks_ok l : forall (done : list range) (cur : range) all,
  in_order l -> (forall y, In y l -> snd cur - 1 <= y /\ y < 2 ^ 32 - 1) ->
  apart done -> (forall q, In q done -> snd q < fst cur) ->
  0 <= fst cur -> fst cur < snd cur -> snd cur < 2 ^ 32 -> (length done < 4)%nat ->
  (forall x, inside (done ++ [cur]) x -> In x all) ->
  (forall x, In x l -> In x all) ->
  exists out, sacks_loop l done cur = out
    /\ apart out /\ (length out <= 4)%nat
    /\ (forall q, In q out -> 0 <= fst q /\ snd q < 2 ^ 32 \/ In q done)
    /\ (forall x, inside out x -> In x all)
    /\ (forall x, inside (done ++ [cur]) x -> inside out x)
    /\ ((length out < 4)%nat -> forall x, In x l -> inside out x).
Proof.
  induction l as [|y l IH]; intros done cur all O Y A Q C0 C1 C2 L S1 S2; cbn [sacks_loop].
  - eexists. split; [reflexivity|]. split; [apply apart_app; auto|].
    rewrite app_length; simpl. split; [unfold range in *; lia|]. split.
    { intros q Hq. apply in_app_or in Hq. destruct Hq as [Hq|[<-|[]]]; auto. }
    split; auto. split; auto. intros _ x [].
  - destruct O as (O1 & O2).
    assert (Yy := Y y (or_introl eq_refl)).
    destruct (Z.eqb_spec y (snd cur)) as [Ey|Ny].
    + rewrite u32_id by lia.
      destruct (IH done (fst cur, snd cur + 1) all) as (out & E & R1 & R2 & R3 & R4 & R5 & R6);
        simpl; auto; try lia.
      { intros z Hz. destruct (Y z (or_intror Hz)). specialize (O1 z Hz). lia. }
      { intros x Hx. rewrite inside_app, inside_cons, inside_nil in Hx. simpl in Hx.
        destruct Hx as [Hx|[Hx|[]]]; [apply S1; rewrite inside_app; auto|].
        destruct (Z.eq_dec x y) as [->|]; [apply S2; simpl; auto|].
        apply S1. rewrite inside_app, inside_cons. right; left; lia. }
      { intros; apply S2; simpl; auto. }
      exists out. split; [auto|]. split; [auto|]. split; [auto|]. split; [auto|]. split; [auto|].
      assert (X : forall x, inside (done ++ [cur]) x \/ x = y -> inside out x).
      { intros x Hx. apply R5. rewrite inside_app, inside_cons, inside_nil in *. simpl.
        destruct Hx as [[Hx|[Hx|[]]]|Hx]; auto; right; left; lia. }
      split; [auto|]. intros K x [<-|Hx]; auto.
    + destruct (Z.ltb_spec (snd cur) y).
      * destruct (Nat.leb_spec 4 (length done + 1)).
        -- eexists. split; [reflexivity|]. split; [apply apart_app; auto|].
           rewrite app_length; simpl. split; [unfold range in *; lia|]. split.
           { intros q Hq. apply in_app_or in Hq. destruct Hq as [Hq|[<-|[]]]; auto. }
           split; auto. split; auto. unfold range in *; intros; lia.
        -- rewrite u32_id by lia.
           destruct (IH (done ++ [cur]) (y, y + 1) all) as (out & E & R1 & R2 & R3 & R4 & R5 & R6);
             simpl; auto; try lia.
           { intros z Hz. destruct (Y z (or_intror Hz)). specialize (O1 z Hz). lia. }
           { apply apart_app; auto. }
           { intros q Hq. apply in_app_or in Hq. destruct Hq as [Hq|[<-|[]]]; auto. specialize (Q _ Hq). lia. }
           { rewrite app_length; simpl; unfold range in *; lia. }
           { intros x Hx. rewrite inside_app, inside_cons, inside_nil in Hx. simpl in Hx.
             destruct Hx as [Hx|[Hx|[]]]; [auto|]. apply S2. left; lia. }
           { intros; apply S2; simpl; auto. }
           exists out. split; [auto|]. split; [auto|]. split; [auto|]. split.
           { intros q Hq. destruct (R3 q Hq) as [K|K]; auto. apply in_app_or in K.
             destruct K as [K|[<-|[]]]; auto. }
           split; [auto|]. split.
           { intros x Hx. apply R5. rewrite inside_app; auto. }
           intros K x [<-|Hx]; auto. apply R5. rewrite inside_app. right. rewrite inside_cons. simpl. left; lia.
      * destruct (IH done cur all) as (out & E & R1 & R2 & R3 & R4 & R5 & R6); auto.
        { intros z Hz. destruct (Y z (or_intror Hz)). lia. }
        { intros; apply S2; simpl; auto. }
        exists out. repeat (split; [auto|]). intros K x [<-|Hx]; auto.
        apply R5. rewrite inside_app, inside_cons. right; left; lia.
Qed.

Theorem blocks_law l : in_order l -> (forall y, In y l -> 0 <= y < 2 ^ 32 - 1) ->
  let bs := selective_acks_from_list l in
  Forall good_block bs /\ apart bs /\ (length bs <= 4)%nat
  /\ (forall x, inside bs x -> In x l)
  /\ ((length bs < 4)%nat -> forall x, In x l -> inside bs x).
Proof.
  intros O Y. destruct l as [|y l]; simpl.
  - repeat split; auto; try lia; try tauto. intros x. rewrite inside_nil. auto.
  - assert (Yy := Y y (or_introl eq_refl)). rewrite u32_id by lia. destruct O as (O1 & O2).
    destruct (sacks_ok l [] (y, y + 1) (y :: l)) as (out & E & R1 & R2 & R3 & R4 & R5 & R6); simpl; auto; try lia.
    { intros z Hz. specialize (O1 z Hz). destruct (Y z (or_intror Hz)). lia. }
    { intros x Hx. rewrite inside_cons, inside_nil in Hx. simpl in Hx. left; lia. }
    rewrite E. split.
    { apply Forall_forall. intros q Hq. destruct (R3 q Hq) as [(K1 & K2)|[]].
      split; [auto|]. split; auto. clear - R1 Hq. induction out as [|r out IH]; [destruct Hq|].
      simpl in R1, Hq. destruct R1 as (R1 & _ & R2). destruct Hq as [<-|Hq]; auto. }
    split; [auto|]. split; [auto|]. split; [auto|].
    intros K x [<-|Hx]; auto. apply R5. simpl. rewrite inside_cons. left; simpl; lia.
Qed.

Lemma insert_sorted_in x l y : In y (insert_sorted x l) <-> y = x \/ In y l.
Proof.
  induction l as [|z l IH]; simpl; [intuition|].
  destruct (z <? x); simpl; rewrite ?IH; intuition.
Qed.

Lemma insert_sorted_order x l : in_order l -> in_order (insert_sorted x l).
Proof.
  induction l as [|z l IH]; simpl; intros O; [split; simpl; auto; tauto|].
  destruct O as (O1 & O2). destruct (Z.ltb_spec z x); simpl.
  - split; auto. intros y Hy. apply insert_sorted_in in Hy. destruct Hy as [->|Hy]; [lia|auto].
  - split; [|split; auto]. intros y [<-|Hy]; [lia|]. specialize (O1 y Hy). lia.
Qed.

Lemma filter_order f l : in_order l -> in_order (filter f l).
Proof.
  induction l as [|z l IH]; simpl; auto. intros (O1 & O2). destruct (f z); simpl; auto.
  split; auto. intros y Hy. apply filter_In in Hy. apply O1; tauto.
Qed.

Lemma receive_ok l : forall sacks kept,
  in_order sacks -> (forall x, In x sacks -> In x kept) ->
  let '(sacks', kept') := receive l sacks kept in
  in_order sacks' /\ (forall x, In x sacks' -> In x kept')
  /\ (forall x, In x kept' -> In x kept \/ exists n f w, In (x, n, f, w) l).
Proof.
  induction l as [|[[[seq next] fits] waiting] l IH]; intros sacks kept O S; simpl; auto.
  set (s' := if _ : bool then insert_sorted seq sacks else _).
  set (k := (_ && _) || fits).
  specialize (IH s' (if k then seq :: kept else kept)).
  assert (P : in_order s' /\ forall x, In x s' -> In x (if k then seq :: kept else kept)).
  { subst s' k. destruct (Z.eqb_spec seq next), fits; simpl.
    - destruct sacks as [|f t]; [split; simpl; tauto|].
      destruct (f <=? u32 (seq + 1)); rewrite orb_true_r.
      + split; [apply filter_order; auto|]. intros x Hx. apply filter_In in Hx. right. apply S; tauto.
      + split; auto. intros x Hx. right; auto.
    - destruct sacks as [|f t]; [split; simpl; tauto|].
      destruct (f <=? u32 (seq + 1)).
      + split; [apply filter_order; auto|]. intros x Hx. apply filter_In in Hx.
        destruct (negb waiting || false); [right|]; apply S; tauto.
      + split; auto. intros x Hx. destruct (negb waiting || false); [right|]; auto.
    - split; [apply insert_sorted_order; auto|]. intros x Hx. apply insert_sorted_in in Hx.
      destruct Hx as [->|Hx]; simpl; auto.
    - destruct sacks as [|f t]; [split; simpl; tauto|].
      destruct (f <=? u32 (seq + 1)).
      + split; [apply filter_order; auto|]. intros x Hx. apply filter_In in Hx. apply S; tauto.
      + split; auto. }
  destruct P as (P1 & P2). specialize (IH P1 P2).
  destruct (receive l s' _) as (s2, k2) eqn:E. destruct IH as (I1 & I2 & I3).
  split; [auto|]. split; [auto|]. intros x Hx. destruct (I3 x Hx) as [K|(n & f & w & K)]; [|right; eauto 10].
  destruct k; [destruct K as [<-|K]|]; auto. right. exists next, fits, waiting. auto.
Qed.

Theorem held_law l : (forall seq n f w, In (seq, n, f, w) l -> 0 <= seq < 2 ^ 32 - 1) ->
  let '(sacks, kept) := receive l [] [] in
  Forall good_block (selective_acks_from_list sacks)
  /\ forall x, inside (selective_acks_from_list sacks) x -> In x kept.
Proof.
  intros H. pose proof (receive_ok l [] [] Logic.I (fun x (K : In x []) => K)) as R.
  destruct (receive l [] []) as (sacks, kept). destruct R as (R1 & R2 & R3).
  destruct (blocks_law sacks) as (B1 & _ & _ & B2 & _); auto.
  intros y Hy. destruct (R3 y (R2 y Hy)) as [[]|(n & f & w & K)]. eauto.
Qed.
