(** Proofs about TlsModel. *)
From Verif Require Import Base PoolModel TlsModel TlsSpec LazyProofs.

Definition pc_ok (s : tls) (i : nat) : Prop :=
  match tpcs s i with
  | TScan k j w => own s k = Some i /\ forall j', (j' < j)%nat -> (j' < size s)%nat -> keys s (slot s k j') <> k
  | TInit k => own s k = Some i /\ forall q, (q < size s)%nat -> keys s q <> k
  | TInsert k v j => own s k = Some i /\ (forall q, (q < size s)%nat -> keys s q <> k) /\ (forall q, (q < size s)%nat -> keys s q <> 0%nat -> In q (touched s i)) /\
      forall j', (j' < j)%nat -> (j' < size s)%nat -> In (slot s k j') (touched s i)
  | TFill q k v => own s k = Some i /\ (q < size s)%nat /\ keys s q = k
  | TStore q k v => own s k = Some i /\ (q < size s)%nat /\ keys s q = k /\ refs s q = 0%nat /\ vals s q = v
  | TUnderflow => False
  | _ => True
  end.

Definition fills (s : tls) (i q k : nat) : Prop := exists v, tpcs s i = TFill q k v.

Definition slot_ok (s : tls) (q : nat) : Prop := exists i, own s (keys s q) = Some i /\
  ((fills s i q (keys s q) /\ content (evs s) (keys s q) = None /\ refs s q = 0%nat) \/
   (~ fills s i q (keys s q) /\ exists v, vals s q = Some v /\ content (evs s) (keys s q) = Some v /\ refs s q = to_slot q (held s i))).

Record inv (s : tls) : Prop := Inv {
  i_pos : (0 < size s)%nat;
  i_own : forall k i, own s k = Some i -> k <> 0%nat;
  i_uniq : forall q q', (q < size s)%nat -> (q' < size s)%nat -> keys s q = keys s q' -> keys s q <> 0%nat -> q = q';
  i_slot : forall q, (q < size s)%nat -> keys s q <> 0%nat -> slot_ok s q;
  i_free : forall q, (q < size s)%nat -> keys s q = 0%nat -> refs s q = 0%nat;
  i_held : forall i q k, In (q, k) (held s i) -> (q < size s)%nat /\ keys s q = k /\ own s k = Some i /\ ~ fills s i q k;
  i_none : forall k, k <> 0%nat -> (forall q, (q < size s)%nat -> keys s q <> k) -> content (evs s) k = None;
  i_pc : forall i, pc_ok s i;
  i_ex : explained (evs s) }.

Lemma slot_lt s k j : (0 < size s)%nat -> (slot s k j < size s)%nat.
Proof. intros H. apply Nat.mod_upper_bound. lia. Qed.
Lemma slot_onto s k q : (q < size s)%nat -> exists j, (j < size s)%nat /\ slot s k j = q.
Proof.
  intros H. unfold slot. set (n := size s) in *. exists ((q + (n - home s k mod n)) mod n)%nat. split; [apply Nat.mod_upper_bound; lia|].
  pose proof (Nat.mod_upper_bound (home s k) n ltac:(lia)) as B.
  rewrite Nat.add_mod_idemp_r by lia. rewrite <- Nat.add_mod_idemp_l by lia.
  replace (home s k mod n + (q + (n - home s k mod n)))%nat with (q + 1 * n)%nat by lia. rewrite Nat.mod_add by lia. apply Nat.mod_small. exact H.
Qed.

Lemma inv_new n h : (0 < n)%nat -> inv (tls_new n h).
Proof.
  intros H. split; cbn; try easy.
Qed.

Lemma to_slot_nil q : to_slot q [] = 0%nat. Proof. reflexivity. Qed.
Lemma to_slot_cons q a b l : to_slot q ((a, b) :: l) = ((if Nat.eqb a q then 1 else 0) + to_slot q l)%nat.
Proof. unfold to_slot. cbn. destruct (Nat.eqb a q); reflexivity. Qed.
Lemma to_slot_in q k l : In (q, k) l -> (0 < to_slot q l)%nat.
Proof.
  induction l as [|[a b] l IH]; intros I; [destruct I|]. rewrite to_slot_cons. destruct I as [E|I]; [injection E as -> ->; rewrite Nat.eqb_refl; lia|]. specialize (IH I). lia.
Qed.
Lemma to_slot_remove q k l q' : In (q, k) l -> to_slot q' (remove_one (q, k) l) = (to_slot q' l - (if Nat.eqb q q' then 1 else 0))%nat.
Proof.
  induction l as [|[a b] l IH]; intros I; [destruct I|]. cbn [remove_one fst snd]. destruct (Nat.eqb_spec q a) as [<-|N]; cbn [andb].
  - destruct (Nat.eqb_spec k b) as [<-|N2]; [rewrite to_slot_cons; destruct (Nat.eqb q q'); lia|].
    destruct I as [E|I]; [congruence|]. rewrite !to_slot_cons, (IH I). pose proof (to_slot_in _ _ _ I). destruct (Nat.eqb_spec q q') as [->|]; lia.
  - destruct I as [E|I]; [congruence|]. rewrite !to_slot_cons, (IH I). pose proof (to_slot_in _ _ _ I). destruct (Nat.eqb_spec q q') as [->|], (Nat.eqb_spec a q'); try lia.
Qed.
Lemma remove_one_in x y l : In y (remove_one x l) -> In y l.
Proof. induction l as [|z l IH]; cbn; [tauto|]. destruct (_ && _); cbn; tauto. Qed.

Local Arguments to_slot : simpl never.
Local Arguments fupd : simpl never.

(** Only the control of one thread changes, from and to places that hold no slot. *)
Lemma inv_pc s i p : inv s -> (forall q k v, tpcs s i <> TFill q k v) -> (forall q k v, p <> TFill q k v) -> pc_ok (set_tpc i p s) i -> inv (set_tpc i p s).
Proof.
  intros V N1 N2 OK. destruct V. assert (FI : forall t q k, fills (set_tpc i p s) t q k <-> fills s t q k).
  { intros t q k. unfold fills. cbn. unfold fupd. destruct (Nat.eqb_spec t i) as [->|]; [|tauto]. split; intros [v E]; exfalso; [exact (N2 _ _ _ E)|exact (N1 _ _ _ E)]. }
  split; cbn; try assumption.
  - intros q L K. destruct (i_slot0 q L K) as [t [O X]]. exists t. cbn. rewrite FI. split; [exact O|exact X].
  - intros t q k I. rewrite FI. exact (i_held0 t q k I).
  - intros t. destruct (Nat.eq_dec t i) as [->|N]; [exact OK|]. specialize (i_pc0 t). unfold pc_ok in *. cbn. rewrite fupd_ne by exact N. exact i_pc0.
Qed.

Lemma pc_ext s t i : size s = size t -> home s = home t -> keys s = keys t -> vals s = vals t -> refs s = refs t -> tpcs s i = tpcs t i -> own s = own t -> touched s i = touched t i ->
  pc_ok s i -> pc_ok t i.
Proof. unfold pc_ok, slot. intros -> -> -> -> -> -> -> ->. tauto. Qed.

(** An observation that does not change the map. *)
Lemma inv_ev s e : inv s -> (forall k, content (e :: evs s) k = content (evs s) k) -> explained (e :: evs s) -> inv (add_ev e s).
Proof.
  intros V C X. destruct V. split; cbn [add_ev size own keys refs held evs]; try assumption.
  - intros q L K. destruct (i_slot0 q L K) as [t [O Y]]. exists t. cbn [add_ev own keys evs refs vals held]. rewrite C. split; [exact O|exact Y].
  - intros k Z H. rewrite C. apply i_none0; assumption.
Qed.

Lemma lookup s q k v : inv s -> (q < size s)%nat -> keys s q = k -> k <> 0%nat -> vals s q = v -> (forall i, own s k = Some i -> ~ fills s i q k) ->
  exists z, v = Some z /\ content (evs s) k = Some z.
Proof.
  intros V L K Z VE NF. subst k. destruct (i_slot s V q L Z) as [i [O [(F & _)|(_ & z & E1 & E2 & _)]]]; [destruct (NF i O F)|].
  exists z. split; congruence.
Qed.

Lemma inv_ref s i q k : inv s -> tpcs s i = TIdle -> (q < size s)%nat -> keys s q = k -> own s k = Some i -> inv (new_ref i q k s).
Proof.
  intros V TI L K O. assert (NF : ~ fills s i q k) by (intros [v E]; congruence). destruct V. pose proof (i_own0 _ _ O) as KZ. split; cbn; try assumption.
  - intros q' L' K'. destruct (i_slot0 q' L' K') as [t [OT X]]. exists t. cbn. change (fills (new_ref i q k s)) with (fills s). split; [exact OT|].
    destruct (Nat.eq_dec q' q) as [->|NQ].
    + assert (t = i) as -> by congruence. subst k. destruct X as [(F & _)|(_ & v & V1 & V2 & V3)]; [destruct (NF F)|]. right. split; [exact NF|]. exists v. rewrite !fupd_eq. rewrite to_slot_cons, Nat.eqb_refl. repeat split; try assumption. lia.
    + rewrite (fupd_ne q q') by exact NQ. destruct X as [X|(NF' & v & V1 & V2 & V3)]; [left; exact X|]. right. split; [exact NF'|]. exists v. repeat split; try assumption.
      unfold fupd. destruct (Nat.eqb_spec t i) as [->|]; [|exact V3]. rewrite to_slot_cons. replace (Nat.eqb q q') with false by (symmetry; apply Nat.eqb_neq; congruence). exact V3.
  - intros q' L' K'. rewrite fupd_ne; [apply i_free0; assumption|]. intros ->. congruence.
  - intros t q' k' I. change (fills (new_ref i q k s)) with (fills s). unfold fupd in I. destruct (Nat.eqb_spec t i) as [->|]; [|apply i_held0; exact I].
    destruct I as [E|I]; [injection E as <- <-; tauto|apply i_held0; exact I].
  - intros t. specialize (i_pc0 t). unfold pc_ok in *. cbn. destruct (tpcs s t) eqn:ET; try exact i_pc0.
    destruct i_pc0 as (A1 & A2 & A3 & A4 & A5). repeat (split; [assumption|]). split; [|assumption]. rewrite fupd_ne; [assumption|]. intros ->. assert (t = i) by congruence. subst t. congruence.
Qed.

Lemma inv_step s l t : inv s -> step s l t -> inv t.
Proof.
  intros V ST. destruct ST.
  - (* claim *) destruct V. split; cbn; try assumption.
    + intros k' i' E. unfold fupd in E. destruct (Nat.eqb_spec k' k) as [->|]; [exact H0|exact (i_own0 _ _ E)].
    + intros q L K. destruct (i_slot0 q L K) as [t [O X]]. exists t. split; [|exact X]. cbn. rewrite fupd_ne; [exact O|congruence].
    + intros t q k' I. destruct (i_held0 t q k' I) as (A & B & C & D). repeat (split; [assumption|]). split; [|exact D]. rewrite fupd_ne; [exact C|congruence].
    + intros t. specialize (i_pc0 t). unfold pc_ok in *. cbn. destruct (tpcs s t); try exact i_pc0;
        (destruct i_pc0 as [O X]; split; [rewrite fupd_ne; [exact O|congruence]|exact X]).
  - (* release *) destruct V. split; cbn; try assumption.
    + intros k' i' E. unfold fupd in E. destruct (Nat.eqb_spec k' k) as [->|]; [discriminate|exact (i_own0 _ _ E)].
    + intros q L K. destruct (i_slot0 q L K) as [t [O X]]. exists t. split; [|exact X]. cbn. rewrite fupd_ne; [exact O|]. exact (H1 q L).
    + intros t q k' I. destruct (i_held0 t q k' I) as (A & B & C & D). repeat (split; [assumption|]). split; [|exact D]. rewrite fupd_ne; [exact C|]. rewrite <- B. exact (H1 q A).
    + intros t. specialize (i_pc0 t). unfold pc_ok in *. cbn. destruct (tpcs s t) eqn:ET; try exact i_pc0;
        (destruct i_pc0 as [O X]; split; [rewrite fupd_ne; [exact O|intros ->; congruence]|exact X]).
  - (* begin *) apply inv_pc; [exact V|congruence|discriminate|]. unfold pc_ok. cbn. rewrite fupd_eq. split; [exact H|]. intros; lia.
  - (* here *) pose proof (i_pc s V i) as PC. unfold pc_ok in PC. rewrite H in PC. destruct PC as [O NB]. pose proof (slot_lt s k j (i_pos s V)) as L.
    pose proof (i_own s V _ _ O) as KZ. set (q := slot s k j) in *.
    assert (LU : exists z, vals s q = Some z /\ content (evs s) k = Some z).
    { apply (lookup s q k (vals s q) V L H1 KZ eq_refl). intros i' O' [v F]. assert (i' = i) by congruence. subst i'. congruence. }
    destruct LU as [z [Z1 Z2]]. unfold found. destruct w.
    + rewrite Z1. assert (V2 : inv (set_tpc i TIdle s)) by (apply inv_pc; [exact V|congruence|discriminate|unfold pc_ok; cbn; rewrite fupd_eq; exact I]).
      apply inv_ev; [|reflexivity|].
      * change (set_tpc i TIdle (new_ref i q k s)) with (new_ref i q k (set_tpc i TIdle s)). apply inv_ref; [exact V2|cbn; apply fupd_eq|exact L|exact H1|exact O].
      * split; [cbn; rewrite Z2; reflexivity|exact (i_ex _ V)].
    + rewrite Z1. assert (V2 : inv (set_tpc i TIdle s)) by (apply inv_pc; [exact V|congruence|discriminate|unfold pc_ok; cbn; rewrite fupd_eq; exact I]).
      apply inv_ev; [|reflexivity|].
      * change (set_tpc i TIdle (new_ref i q k s)) with (new_ref i q k (set_tpc i TIdle s)). apply inv_ref; [exact V2|cbn; apply fupd_eq|exact L|exact H1|exact O].
      * split; [cbn; rewrite Z2; reflexivity|exact (i_ex _ V)].
    + destruct (refs s q =? 0)%nat eqn:R.
      * apply Nat.eqb_eq in R. apply inv_pc; [exact V|congruence|discriminate|]. unfold pc_ok. cbn. rewrite fupd_eq. tauto.
      * apply inv_pc; [exact V|congruence|discriminate|]. unfold pc_ok. cbn. rewrite fupd_eq. exact I.
  - (* next *) pose proof (i_pc s V i) as PC. unfold pc_ok in PC. rewrite H in PC. destruct PC as [O NB].
    apply inv_pc; [exact V|congruence|discriminate|]. unfold pc_ok. cbn. rewrite fupd_eq. split; [exact O|]. intros j' L1 L2.
    destruct (Nat.eq_dec j' j) as [->|]; [exact H1|]. apply NB; lia.
  - (* nowhere *) pose proof (i_pc s V i) as PC. unfold pc_ok in PC. rewrite H in PC. destruct PC as [O NB].
    assert (NO : forall q, (q < size s)%nat -> keys s q <> k). { intros q L. destruct (slot_onto s k q L) as [j' [L' <-]]. apply NB; lia. }
    pose proof (i_none s V k (i_own s V _ _ O) NO) as CN.
    assert (V2 : inv (set_tpc i TIdle s)) by (apply inv_pc; [exact V|congruence|discriminate|unfold pc_ok; cbn; rewrite fupd_eq; exact I]).
    unfold absent. destruct w.
    + apply inv_ev; [exact V2|reflexivity|]. split; [cbn; rewrite CN; reflexivity|exact (i_ex _ V)].
    + apply inv_pc; [exact V|congruence|discriminate|]. unfold pc_ok. cbn. rewrite fupd_eq. tauto.
    + apply inv_ev; [exact V2| |].
      * intros x. cbn. destruct (Nat.eqb_spec x k) as [->|]; [symmetry; exact CN|reflexivity].
      * split; [cbn; rewrite CN; reflexivity|exact (i_ex _ V)].
  - (* init *) pose proof (i_pc s V i) as PC. unfold pc_ok in PC. rewrite H in PC. destruct PC as [O NO].
    set (s1 := set_touched (fupd i (occupied s) (touched s)) s).
    assert (V1 : inv s1).
    { destruct V. split; try assumption. intros t. specialize (i_pc0 t). destruct (Nat.eq_dec t i) as [->|N].
      - unfold pc_ok in *. cbn. rewrite H in *. exact i_pc0.
      - apply (pc_ext s); try reflexivity; [|exact i_pc0]. cbn. rewrite fupd_ne by exact N. reflexivity. }
    apply (inv_pc s1 i (TInsert k v 0) V1); [cbn; congruence|discriminate|].
    unfold pc_ok. cbn. rewrite !fupd_eq. split; [exact O|]. split; [exact NO|]. split.
    + intros q L K. unfold occupied. apply filter_In. split; [apply in_seq; lia|]. apply negb_true_iff, Nat.eqb_neq. exact K.
    + intros; lia.
  - (* take *) pose proof (i_pc s V i) as PC. unfold pc_ok in PC. rewrite H in PC. destruct PC as (O & NO & TO & PO).
    pose proof (slot_lt s k j (i_pos s V)) as L. set (q := slot s k j) in *. pose proof (i_own s V _ _ O) as KZ.
    assert (NH : forall t k', ~ In (q, k') (held s t)). { intros t k' I. destruct (i_held s V t q k' I) as (_ & X & Y & _). rewrite H1 in X. subst k'. exact (i_own s V _ _ Y eq_refl). }
    destruct V. split; cbn; try assumption.
    + intros a b LA LB. unfold fupd. destruct (Nat.eqb_spec a q) as [->|NA], (Nat.eqb_spec b q) as [->|NB2]; try tauto.
      * intros E. destruct (NO b LB). congruence.
      * intros E. destruct (NO a LA). congruence.
      * intros E. apply i_uniq0; assumption.
    + intros a LA. unfold slot_ok. cbn. unfold fupd at 1 2. destruct (Nat.eqb_spec a q) as [->|NA]; intros K.
      * exists i. rewrite !fupd_eq. split; [exact O|]. left. unfold fills. cbn. rewrite fupd_eq. split; [eauto|]. split; [apply i_none0; assumption|apply i_free0; assumption].
      * destruct (i_slot0 a LA K) as [t [OT X]]. exists t. rewrite !fupd_ne by exact NA. split; [exact OT|]. 
        assert (FI : fills (set_touched (fun t0 => q :: touched s t0) (set_tpc i (TFill q k v) (set_keys (fupd q k (keys s)) s))) t a (keys s a) <-> fills s t a (keys s a)).
        { unfold fills. cbn. unfold fupd. destruct (Nat.eqb_spec t i) as [->|]; [|tauto]. split; intros [z E]; congruence. }
        rewrite FI. exact X.
    + intros a LA K. apply i_free0; [exact LA|]. unfold fupd in K. destruct (Nat.eqb a q); [congruence|exact K].
    + intros t a k' I. destruct (i_held0 t a k' I) as (A & B & C & D). assert (a <> q) by (intros ->; exact (NH _ _ I)). rewrite fupd_ne by assumption. repeat (split; [assumption|]).
      intros [z E]. cbn in E. unfold fupd in E. destruct (Nat.eqb_spec t i) as [->|]; [congruence|]. apply D. exists z. exact E.
    + intros k' Z NK. apply i_none0; [exact Z|]. intros a LA. specialize (NK a LA). unfold fupd in NK. destruct (Nat.eqb_spec a q) as [E|]; [rewrite E; congruence|exact NK].
    + intros t. specialize (i_pc0 t). unfold pc_ok in *. cbn. unfold fupd at 1. destruct (Nat.eqb_spec t i) as [->|NT].
      * rewrite fupd_eq. tauto.
      * assert (OK' : forall k', own s k' = Some t -> forall a, keys s a <> k' -> fupd q k (keys s) a <> k').
        { intros k' O' a N. unfold fupd. destruct (Nat.eqb a q); [congruence|exact N]. }
        destruct (tpcs s t); try exact i_pc0.
        { destruct i_pc0 as [A B]. split; [exact A|]. intros j' L1 L2. apply OK'; [exact A|]. apply B; assumption. }
        { destruct i_pc0 as [A B]. split; [exact A|]. intros a LA. apply OK'; [exact A|]. apply B; assumption. }
        { destruct i_pc0 as (A & B & C & D). split; [exact A|]. split; [intros a LA; apply OK'; [exact A|apply B; exact LA]|]. split.
          - intros a LA K. unfold fupd in K. destruct (Nat.eqb_spec a q) as [->|]; [left; reflexivity|right; apply C; assumption].
          - intros j' L1 L2. right. apply D; assumption. }
        { destruct i_pc0 as (A & B & C). repeat (split; [assumption|]). rewrite fupd_ne; [exact C|]. intros ->. rewrite H1 in C. subst. exact (i_own0 _ _ A eq_refl). }
        { destruct i_pc0 as (A & B & C & D). split; [assumption|]. split; [assumption|]. split; [|exact D]. rewrite fupd_ne; [exact C|]. intros ->. rewrite H1 in C. subst. exact (i_own0 _ _ A eq_refl). }
  - (* miss *) pose proof (i_pc s V i) as PC. unfold pc_ok in PC. rewrite H in PC. destruct PC as (O & NO & TO & PO).
    apply inv_pc; [exact V|congruence|discriminate|]. unfold pc_ok. cbn. rewrite fupd_eq. repeat (split; [assumption|]). intros j' L1 L2.
    destruct (Nat.eq_dec j' j) as [->|]; [|apply (PO j'); lia]. apply (TO (slot s k j)); [apply slot_lt; exact (i_pos s V)|exact H1].
  - (* full *) apply inv_pc; [exact V|congruence|discriminate|]. unfold pc_ok. cbn. rewrite fupd_eq. exact I.
  - (* fill *) pose proof (i_pc s V i) as PC. unfold pc_ok in PC. rewrite H in PC. destruct PC as (O & L & K). pose proof (i_own s V _ _ O) as KZ.
    assert (SL : content (evs s) k = None /\ refs s q = 0%nat).
    { destruct (i_slot s V q L ltac:(congruence)) as [t [OT [(_ & A & B)|(NF & _)]]]; [rewrite K in A; tauto|]. rewrite K in *. assert (t = i) by congruence. subst t. destruct NF. exists v. exact H. }
    destruct SL as [CN R0].
    assert (NH : forall t k', ~ In (q, k') (held s t)).
    { intros t k' I. destruct (i_held s V t q k' I) as (_ & X & Y & Z). rewrite K in X. subst k'. assert (t = i) by congruence. subst t. apply Z. exists v. exact H. }
    set (s1 := set_tpc i TIdle (set_vals (fupd q (Some v) (vals s)) s)).
    assert (T0 : forall t, to_slot q (held s t) = 0%nat).
    { intros t. specialize (NH t). unfold to_slot. induction (held s t) as [|[a b] r IH]; [reflexivity|]. cbn. destruct (Nat.eqb_spec a q) as [->|]; [destruct (NH b); left; reflexivity|]. apply IH. intros k' I. apply (NH k'). right. exact I. }
    assert (FI : forall t a b, fills s1 t a b <-> (fills s t a b /\ t <> i)).
    { intros t a b. unfold fills, s1. cbn. unfold fupd. destruct (Nat.eqb_spec t i) as [->|]; [split; [intros [z E]; discriminate|tauto]|tauto]. }
    change (set_tpc i TIdle (new_ref i q k (set_vals (fupd q (Some v) (vals s)) s))) with (new_ref i q k s1).
    change (add_ev (EInsert k v) (new_ref i q k s1)) with (new_ref i q k (add_ev (EInsert k v) s1)).
    apply inv_ref; [|cbn; apply fupd_eq|exact L|exact K|exact O].
    destruct V. split; cbn; try assumption.
    + intros a LA KA. unfold slot_ok. cbn. destruct (Nat.eq_dec a q) as [->|NA].
      * exists i. rewrite K. split; [exact O|]. right. split; [intros F; apply FI in F; tauto|]. exists v. rewrite fupd_eq, Nat.eqb_refl. repeat split. rewrite R0. symmetry. apply T0.
      * destruct (i_slot0 a LA KA) as [t [OT X]]. exists t. split; [exact OT|]. assert (NK : Nat.eqb (keys s a) k = false). { apply Nat.eqb_neq. intros E. apply NA. apply i_uniq0; congruence. } rewrite NK, fupd_ne by exact NA.
        destruct X as [(F & X)|(NF & X)]; [left|right; split; [intros F; apply FI in F; apply NF; tauto|exact X]]. split; [|exact X]. apply FI. split; [exact F|]. intros ->. destruct F as [z F]. congruence.
    + intros t a k' I. destruct (i_held0 t a k' I) as (A & B & C & D). repeat (split; [assumption|]). intros F. apply D. apply FI in F. tauto.
    + intros k' Z NK. destruct (Nat.eqb_spec k' k) as [->|]; [destruct (NK q L K)|]. apply i_none0; assumption.
    + intros t. specialize (i_pc0 t). unfold pc_ok in *. cbn. unfold fupd at 1. destruct (Nat.eqb_spec t i) as [->|NT]; [exact I|]. destruct (tpcs s t); try exact i_pc0.
      destruct i_pc0 as (A1 & A2 & A3 & A4 & A5). repeat (split; [assumption|]). rewrite fupd_ne; [exact A5|]. intros ->. congruence.
    + split; assumption.
  - (* free *) pose proof (i_pc s V i) as PC. unfold pc_ok in PC. rewrite H in PC. destruct PC as (O & L & K & R0 & VV). pose proof (i_own s V _ _ O) as KZ.
    assert (NF : forall z, own s k = Some z -> ~ fills s z q k). { intros z E [y F]. assert (z = i) by congruence. subst z. congruence. }
    destruct (lookup s q k v V L K KZ VV NF) as [z [Z1 Z2]]. subst v.
    assert (NH : forall t k', ~ In (q, k') (held s t)).
    { intros t k' I. destruct (i_held s V t q k' I) as (_ & X & Y & _). rewrite K in X. subst k'. assert (t = i) by congruence. subst t.
      destruct (i_slot s V q L ltac:(congruence)) as [t [OT [(F & _)|(_ & w & _ & _ & E)]]]; rewrite K in OT; assert (t = i) by congruence; subst t.
      - rewrite K in F. exact (NF i O F).
      - pose proof (to_slot_in _ _ _ I). lia. }
    destruct V. split; cbn; try assumption.
    + intros a b LA LB. unfold fupd. destruct (Nat.eqb_spec a q) as [->|NA], (Nat.eqb_spec b q) as [->|NB2]; try tauto; try congruence. apply i_uniq0; assumption.
    + intros a LA. unfold slot_ok. cbn. unfold fupd at 1. destruct (Nat.eqb_spec a q) as [->|NA]; intros KA; [congruence|].
      destruct (i_slot0 a LA KA) as [t [OT X]]. exists t. rewrite !fupd_ne by exact NA. split; [exact OT|].
      assert (NK : Nat.eqb (keys s a) k = false). { apply Nat.eqb_neq. intros E. apply NA. apply i_uniq0; congruence. } rewrite NK.
      assert (FI : fills (add_ev (ERemove k (Found (vals s q))) (set_tpc i TIdle (set_vals (fupd q None (vals s)) (set_keys (fupd q 0%nat (keys s)) s)))) t a (keys s a) <-> fills s t a (keys s a)).
      { unfold fills. cbn. unfold fupd. destruct (Nat.eqb_spec t i) as [->|]; [|tauto]. split; intros [y E]; congruence. }
      rewrite FI. exact X.
    + intros a LA KA. unfold fupd in KA. destruct (Nat.eqb_spec a q) as [->|]; [exact R0|apply i_free0; assumption].
    + intros t a k' I. destruct (i_held0 t a k' I) as (A & B & C & D). assert (a <> q) by (intros ->; exact (NH _ _ I)). rewrite fupd_ne by assumption. repeat (split; [assumption|]).
      intros [y E]. cbn in E. unfold fupd in E. destruct (Nat.eqb_spec t i) as [->|]; [congruence|]. apply D. exists y. exact E.
    + intros k' Z NK. destruct (Nat.eqb_spec k' k) as [->|NE]; [reflexivity|]. apply i_none0; [exact Z|]. intros a LA. specialize (NK a LA). unfold fupd in NK. destruct (Nat.eqb_spec a q) as [E|]; [rewrite E; congruence|exact NK].
    + intros t. specialize (i_pc0 t). unfold pc_ok in *. cbn. unfold fupd at 1. destruct (Nat.eqb_spec t i) as [->|NT]; [exact I|].
      assert (OK' : forall k', own s k' = Some t -> forall a, keys s a <> k' -> fupd q 0%nat (keys s) a <> k').
      { intros k' O' a N. unfold fupd. destruct (Nat.eqb a q); [|exact N]. intros <-. exact (i_own0 _ _ O' eq_refl). }
      destruct (tpcs s t); try exact i_pc0.
      { destruct i_pc0 as [A B]. split; [exact A|]. intros j' L1 L2. apply OK'; [exact A|]. apply B; assumption. }
      { destruct i_pc0 as [A B]. split; [exact A|]. intros a LA. apply OK'; [exact A|]. apply B; assumption. }
      { destruct i_pc0 as (A & B & C & D). split; [exact A|]. split; [intros a LA; apply OK'; [exact A|apply B; exact LA]|]. split; [|exact D].
        intros a LA KA. unfold fupd in KA. destruct (Nat.eqb_spec a q) as [->|]; [congruence|apply C; assumption]. }
      { destruct i_pc0 as (A & B & C). repeat (split; [assumption|]). rewrite fupd_ne; [exact C|]. intros ->. congruence. }
      { destruct i_pc0 as (A & B & C & D & E). assert (q0 <> q) by (intros ->; congruence). rewrite !fupd_ne by assumption. tauto. }
    + split; [|assumption]. rewrite Z2. cbn. rewrite Z1. reflexivity.
  - (* read *) destruct (i_held s V i q k H0) as (A & B & C & D). apply inv_ev; [exact V|reflexivity|]. split; [|exact (i_ex _ V)].
    apply (lookup s q k); [exact V|exact A|exact B|exact (i_own s V _ _ C)|reflexivity|]. intros t OT F. assert (t = i) by congruence. subst t. contradiction.
  - (* drop *) destruct (i_held s V i q k H0) as (A & B & C & D). pose proof (i_own s V _ _ C) as KZ.
    assert (RC : refs s q = to_slot q (held s i)).
    { destruct (i_slot s V q A ltac:(congruence)) as [t [OT X]]. rewrite B in *. assert (t = i) by congruence. subst t. destruct X as [(F & _)|(_ & v & _ & _ & E)]; [contradiction|exact E]. }
    pose proof (to_slot_in _ _ _ H0) as POS. destruct (refs s q =? 0)%nat eqn:R; [apply Nat.eqb_eq in R; lia|]. clear R.
    destruct V. split; cbn; try assumption.
    + intros a LA KA. destruct (i_slot0 a LA KA) as [t [OT X]]. exists t. cbn. change (fills (set_held i (remove_one (q, k) (held s i)) (set_refs (fupd q (refs s q - 1)%nat (refs s)) s))) with (fills s). split; [exact OT|].
      destruct (Nat.eq_dec a q) as [->|NA].
      * rewrite B in *. assert (t = i) as -> by congruence. rewrite !fupd_eq. destruct X as [(F & _)|(NF & v & V1 & V2 & V3)]; [contradiction|]. right. split; [exact NF|]. exists v. rewrite (to_slot_remove q k _ q H0), Nat.eqb_refl. repeat split; try assumption. lia.
      * rewrite (fupd_ne q a) by exact NA. destruct X as [X|(NF & v & V1 & V2 & V3)]; [left; exact X|]. right. split; [exact NF|]. exists v. repeat split; try assumption.
        unfold fupd. destruct (Nat.eqb_spec t i) as [->|]; [|exact V3]. rewrite (to_slot_remove q k _ a H0). replace (Nat.eqb q a) with false by (symmetry; apply Nat.eqb_neq; congruence). lia.
    + intros a LA KA. rewrite fupd_ne; [apply i_free0; assumption|]. intros ->. congruence.
    + intros t a k' I. change (fills (set_held i (remove_one (q, k) (held s i)) (set_refs (fupd q (refs s q - 1)%nat (refs s)) s))) with (fills s).
      unfold fupd in I. destruct (Nat.eqb_spec t i) as [->|]; [|apply i_held0; exact I]. apply i_held0. exact (remove_one_in _ _ _ I).
    + intros t. specialize (i_pc0 t). unfold pc_ok in *. cbn. destruct (tpcs s t) eqn:ET; try exact i_pc0.
      destruct i_pc0 as (A1 & A2 & A3 & A4 & A5). repeat (split; [assumption|]). split; [|assumption]. unfold fupd. destruct (Nat.eqb_spec q0 q) as [E|]; [rewrite E in A4; lia|assumption].
  - (* forget *) destruct V. split; cbn -[Nat.ltb]; try assumption; try easy.
    + intros a b LA LB. apply Nat.ltb_lt in LA. rewrite LA. congruence.
    + intros a LA. apply Nat.ltb_lt in LA. rewrite LA. congruence.
    + intros a LA. apply Nat.ltb_lt in LA. rewrite LA. reflexivity.
Qed.

Lemma inv_steps s ls t : inv s -> steps s ls t -> inv t.
Proof. intros V R. induction R; [exact V|]. apply IHR. exact (inv_step _ _ _ V H). Qed.
Lemma inv_run n h ls s : (0 < n)%nat -> steps (tls_new n h) ls s -> inv s.
Proof. intros P. exact (inv_steps _ _ _ (inv_new n h P)). Qed.
