(** Proofs about the event order and queue. *)
From Verif Require Import Base EventModel EventSpec.

Section P.
Context {K T : Type} (keqb : K -> K -> bool) (teqb : T -> T -> bool).
Notation event := (event K T).
Notation ev_ltb := (@ev_ltb K T keqb teqb).
Notation ev_partial_cmp := (@ev_partial_cmp K T keqb teqb).
Notation pop_min := (@pop_min K T keqb teqb).
Notation q_run := (@q_run K T keqb teqb).
Notation q_step := (@q_step K T keqb teqb).
Notation q_push := (@q_push K T keqb teqb).
Notation q_pop := (@q_pop K T keqb teqb).

Lemma ltb_before : forall a b : event, ev_ltb a b = true <-> before a b.
Proof.
  intros [ta da] [tb db]. unfold EventModel.ev_ltb, EventModel.ev_partial_cmp; cbn [ev_time ev_data].
  split.
  - destruct (Z.compare_spec ta tb); try discriminate.
    + subst. destruct da as [s1 i1 k1|i1 t1], db as [s2 i2 k2|i2 t2]; cbn.
      * destruct (Nat.compare_spec s1 s2); try discriminate.
        -- subst. destruct (Z.compare_spec i1 i2); try discriminate.
           ++ destruct keqb; discriminate.
           ++ intros _. eapply before_pid; cbn; eauto.
        -- intros _. eapply before_src; cbn; eauto.
      * intros _. eapply before_kind; cbn; eauto.
      * discriminate.
      * destruct (Z.compare_spec i1 i2); try discriminate.
        ++ destruct teqb; discriminate.
        ++ intros _. eapply before_lid; cbn; eauto.
    + intros _. now apply before_time.
  - intros B. inversion B; subst; cbn in *; subst.
    + replace (ta ?= tb) with Lt by (symmetry; now apply Z.compare_lt_iff). reflexivity.
    + rewrite Z.compare_refl. reflexivity.
    + rewrite Z.compare_refl. cbn. replace (Nat.compare s1 s2) with Lt; [reflexivity|].
      symmetry. now apply Nat.compare_lt_iff.
    + rewrite Z.compare_refl. cbn. rewrite Nat.compare_refl.
      replace (i1 ?= i2) with Lt by (symmetry; now apply Z.compare_lt_iff). reflexivity.
    + rewrite Z.compare_refl. cbn.
      replace (i1 ?= i2) with Lt by (symmetry; now apply Z.compare_lt_iff). reflexivity.
Qed.

Lemma before_total : forall a b : event, ident_of a <> ident_of b -> before a b \/ before b a.
Proof using Type. clear keqb teqb.
  intros [ta da] [tb db] N. unfold ident_of in N; cbn in N.
  destruct (Z.lt_trichotomy ta tb) as [H|[H|H]].
  - left; now apply before_time.
  - subst. destruct da as [s1 i1 k1|i1 t1], db as [s2 i2 k2|i2 t2].
    + destruct (Nat.lt_trichotomy s1 s2) as [H|[H|H]].
      * left; eapply before_src; cbn; eauto.
      * subst. assert (i1 <> i2) by congruence.
        destruct (Z.lt_trichotomy i1 i2) as [H'|[H'|H']]; [left|congruence|right];
          eapply before_pid; cbn; eauto.
      * right; eapply before_src; cbn; eauto.
    + left; eapply before_kind; cbn; eauto.
    + right; eapply before_kind; cbn; eauto.
    + assert (i1 <> i2) by congruence.
      destruct (Z.lt_trichotomy i1 i2) as [H'|[H'|H']]; [left|congruence|right];
          eapply before_lid; cbn; eauto.
  - right; now apply before_time.
Qed.

Lemma before_trans : forall a b c : event, before a b -> before b c -> before a c.
Proof using Type. clear keqb teqb.
  intros a b c H1 H2.
  inversion H1; inversion H2; subst; try (apply before_time; lia); try congruence.
  - eapply before_kind; [congruence|eauto..].
  - eapply before_kind; [congruence|eauto..].
  - eapply before_src; [congruence|eauto..]. congruence || (assert (s0 = s2) by congruence; subst; lia).
  - eapply before_src; [congruence|eauto..]. assert (s = s2) by congruence. subst. exact H4.
  - eapply before_kind; [congruence|eauto..].
  - eapply before_src; [congruence|eauto..]. assert (s1 = s) by congruence. subst; assumption.
  - assert (s0 = s) by congruence. subst. eapply before_pid; [congruence|eauto..].
    assert (i0 = i2) by congruence. lia.
  - eapply before_lid; [congruence|eauto..]. assert (i0 = i2) by congruence. lia.
Qed.

Lemma before_irrefl : forall a : event, ~ before a a.
Proof using Type. clear keqb teqb.
  intros a B. inversion B; subst; try lia; try congruence.
  - assert (s1 = s2) by congruence. lia.
  - assert (i1 = i2) by congruence. lia.
  - assert (i1 = i2) by congruence. lia.
Qed.

Lemma before_le : forall a b : event, before a b -> ev_time a <= ev_time b.
Proof using Type. clear keqb teqb. intros a b B; inversion B; lia. Qed.

Lemma cmp_total : forall a b : event, ident_of a <> ident_of b -> exists c, ev_partial_cmp a b = Some c.
Proof.
  intros [ta da] [tb db] N. unfold ident_of in N; cbn in N.
  unfold EventModel.ev_partial_cmp; cbn. destruct (ta ?= tb); eauto.
  destruct da as [s1 i1 k1|i1 t1], db as [s2 i2 k2|i2 t2]; cbn; eauto.
  - destruct (Nat.compare_spec s1 s2); eauto. subst.
    destruct (Z.compare_spec i1 i2); eauto. congruence.
  - destruct (Z.compare_spec i1 i2); eauto. congruence.
Qed.

Lemma pop_min_perm : forall l m r, pop_min l = Some (m, r) -> Permutation l (m :: r).
Proof.
  induction l as [|e l IH]; intros m r H; cbn in H; [discriminate|].
  destruct (pop_min l) as [[m' r']|] eqn:E.
  - specialize (IH _ _ eq_refl). destruct (ev_ltb m' e); injection H as <- <-.
    + rewrite IH. apply perm_swap.
    + now constructor.
  - injection H as <- <-. destruct l; [constructor; constructor|].
    cbn in E. destruct (pop_min l) as [[? ?]|]; [destruct (ev_ltb _ _)|]; discriminate.
Qed.

Lemma pop_min_none : forall l, pop_min l = None <-> l = [].
Proof.
  intros [|e l]; cbn; [tauto|].
  destruct (pop_min l) as [[? ?]|]; [destruct (ev_ltb _ _)|]; split; discriminate.
Qed.

Lemma distinct_perm : forall l l' : list event, Permutation l l' -> distinct l -> distinct l'.
Proof using Type. clear keqb teqb. intros l l' P. unfold distinct. apply Permutation_NoDup. now apply Permutation_map. Qed.

Lemma distinct_cons : forall (e : event) l, distinct (e :: l) -> distinct l.
Proof using Type. clear keqb teqb. intros e l H. now inversion H. Qed.

Lemma distinct_cons_neq : forall (e : event) l x, distinct (e :: l) -> In x l -> ident_of e <> ident_of x.
Proof using Type. clear keqb teqb.
  intros e l x H I E. inversion H; subst. apply H2. rewrite E. now apply in_map.
Qed.

Lemma pop_min_least : forall l m r, distinct l -> pop_min l = Some (m, r) ->
  forall x, In x r -> before m x.
Proof.
  induction l as [|e l IH]; intros m r D H x I; cbn in H; [discriminate|].
  destruct (pop_min l) as [[m' r']|] eqn:E.
  - pose proof (pop_min_perm _ _ _ E) as P.
    specialize (IH _ _ (distinct_cons _ _ D) eq_refl).
    assert (N : ident_of e <> ident_of m').
    { eapply distinct_cons_neq; eauto. eapply Permutation_in; [symmetry; exact P|now left]. }
    destruct (ev_ltb m' e) eqn:L; injection H as <- <-.
    + destruct I as [<-|I]; [now apply ltb_before|eauto].
    + assert (B : before e m').
      { destruct (before_total _ _ N) as [|B]; [assumption|].
        apply ltb_before in B. congruence. }
      destruct I as [<-|I]; [assumption|].
      eapply before_trans; eauto.
  - injection H as <- <-. destruct I.
Qed.

Lemma comparable_distinct : forall e l, distinct (e :: l) ->
  comparable keqb teqb e l = true.
Proof.
  intros e l D. unfold comparable. apply forallb_forall. intros x I.
  destruct (cmp_total e x) as [c ->]; [eapply distinct_cons_neq; eauto|reflexivity].
Qed.

(** Least elements are unique, so the result of a pop depends only on the bag. *)
Lemma pop_min_unique : forall l l' m r m' r', distinct l -> Permutation l l' ->
  pop_min l = Some (m, r) -> pop_min l' = Some (m', r') -> m = m' /\ Permutation r r'.
Proof.
  intros l l' m r m' r' D P H H'.
  pose proof (pop_min_perm _ _ _ H) as P1. pose proof (pop_min_perm _ _ _ H') as P2.
  assert (E : m = m').
  { assert (I : In m (m' :: r')).
    { eapply Permutation_in; [exact P2|]. eapply Permutation_in; [exact P|].
      eapply Permutation_in; [symmetry; exact P1|now left]. }
    assert (I' : In m' (m :: r)).
    { eapply Permutation_in; [exact P1|]. eapply Permutation_in; [symmetry; exact P|].
      eapply Permutation_in; [symmetry; exact P2|now left]. }
    destruct I as [|I]; [auto|]. destruct I' as [|I']; [auto|].
    exfalso. apply (before_irrefl m). eapply before_trans.
    - eapply (pop_min_least l); eauto.
    - eapply (pop_min_least l' m' r'); [eapply distinct_perm; eauto|eauto|eauto]. }
  subst m'. split; [reflexivity|].
  apply (Permutation_cons_inv (a := m)). now rewrite <- P1, P, P2.
Qed.

Lemma pop_min_perm_some : forall l l' m r, distinct l -> Permutation l l' ->
  pop_min l = Some (m, r) -> exists r', pop_min l' = Some (m, r') /\ Permutation r r'.
Proof.
  intros l l' m r D P H. destruct (pop_min l') as [[m' r']|] eqn:E.
  - destruct (pop_min_unique _ _ _ _ _ _ D P H E) as [<- ?]. eauto.
  - apply pop_min_none in E. subst. apply Permutation_sym, Permutation_nil in P. subst. discriminate.
Qed.

(** *** Histories *)

Lemma pushed_cons_push : forall (e : event) ops, pushed (QPush e :: ops) = e :: pushed ops.
Proof using Type. clear keqb teqb. reflexivity. Qed.

Lemma perm_split : forall (m : event) l r, Permutation l (m :: r) ->
  exists l1 l2, l = l1 ++ m :: l2 /\ Permutation (l1 ++ l2) r.
Proof using Type. clear keqb teqb.
  intros m l r P. assert (I : In m l) by (eapply Permutation_in; [symmetry; exact P|now left]).
  apply in_split in I as (l1 & l2 & ->). exists l1, l2. split; [reflexivity|].
  apply (Permutation_cons_inv (a := m)). now rewrite Permutation_middle.
Qed.

Lemma run_sound_gen : forall ops q res q' pend, distinct (pend ++ pushed ops) ->
  Permutation pend (q_bag q) -> q_run q ops = Some (q', res) ->
  exists l', ref_run pend ops res l' /\ Permutation l' (q_bag q') .
Proof.
  induction ops as [|o ops IH]; intros q res q' pend D P H.
  - injection H as <- <-. exists pend. split; [constructor|assumption].
  - cbn [EventModel.q_run] in H. destruct o as [e|]; cbn [EventModel.q_step] in H.
    + destruct (q_push q e) as [q1|] eqn:Q; ob_in H; [|discriminate].
      destruct (q_run q1 ops) as [[q2 o2]|] eqn:R; ob_in H; [|discriminate].
      injection H as <- <-. cbn [app].
      unfold EventModel.q_push, assert_then in Q.
      destruct (q_last q <=? ev_time e); [|discriminate].
      destruct (comparable _ _ e (q_bag q)); [|discriminate]. injection Q as <-.
      assert (PE : Permutation (pend ++ [e]) (e :: q_bag q)).
      { etransitivity; [symmetry; apply Permutation_cons_append|constructor; exact P]. }
      destruct (IH (mkQ (e :: q_bag q) (q_last q)) _ _ (pend ++ [e]) ltac:(rewrite <- app_assoc; exact D) PE R) as (l' & RR & PP).
      exists l'. split; [now constructor|assumption].
    + cbn [pushed] in D. unfold EventModel.q_pop in H.
      destruct (pop_min (q_bag q)) as [[e r]|] eqn:E.
      * unfold assert_then in H. destruct (q_last q <=? ev_time e) eqn:L; [|discriminate].
        ob_in H. destruct (q_run _ ops) as [[q2 o2]|] eqn:R; ob_in H; [|discriminate].
        injection H as <- <-. cbn [app].
        pose proof (pop_min_perm _ _ _ E) as P1.
        assert (Dq : distinct (q_bag q)).
        { eapply distinct_perm; [exact P|]. unfold distinct in *. rewrite map_app in D.
          now apply nodup_app_l in D. }
        destruct (perm_split e pend r) as (l1 & l2 & -> & P2); [now rewrite P|].
        assert (D2 : distinct ((l1 ++ l2) ++ pushed ops)).
        { eapply distinct_cons with (e := e). eapply distinct_perm; [|exact D].
          rewrite <- !app_assoc. cbn. symmetry. apply Permutation_middle. }
        destruct (IH (mkQ r (ev_time e)) _ _ (l1 ++ l2) D2 P2 R) as (l' & RR & PP).
        exists l'. split; [|assumption]. apply ref_pop; [|assumption].
        intros x I. eapply (pop_min_least (q_bag q)); eauto. eapply Permutation_in; eauto.
      * ob_in H. destruct (q_run q ops) as [[q2 o2]|] eqn:R; ob_in H; [|discriminate].
        injection H as <- <-. apply pop_min_none in E. rewrite E in P.
        apply Permutation_sym, Permutation_nil in P. subst pend.
        destruct (IH q _ _ [] D ltac:(rewrite E; constructor) R) as (l' & RR & PP).
        exists l'. split; [now constructor|assumption].
Qed.

Lemma run_sound : forall start ops q' res, distinct (pushed ops) ->
  q_run (q_new start) ops = Some (q', res) ->
  exists l', ref_run [] ops res l' /\ Permutation l' (q_bag q').
Proof. intros. eapply run_sound_gen; eauto. constructor. Qed.

Lemma run_complete_gen : forall ops q res pend l', distinct (pend ++ pushed ops) ->
  Permutation pend (q_bag q) -> Forall (fun e => q_last q <= ev_time e) pend ->
  ref_run pend ops res l' -> no_past (q_last q) ops res ->
  exists q', q_run q ops = Some (q', res) /\ Permutation l' (q_bag q').
Proof.
  induction ops as [|o ops IH]; intros q res pend l' D P F R NP.
  - inversion R; subst. exists q. split; [reflexivity|assumption].
  - cbn [EventModel.q_run]. inversion R; subst; cbn [EventModel.q_step].
    + cbn in NP. destruct NP as [LE NP].
      unfold EventModel.q_push. rewrite assert_true by lia.
      rewrite assert_true.
      2:{ apply comparable_distinct. eapply distinct_perm; [constructor; exact P|].
          cbn [pushed] in D. unfold distinct in *. rewrite map_app in D. cbn [map] in *.
          apply nodup_app_l with (l' := map ident_of (pushed ops)).
          eapply Permutation_NoDup; [|exact D]. cbn. symmetry. apply Permutation_middle. }
      ob. destruct (IH (mkQ (e :: q_bag q) (q_last q)) res (pend ++ [e]) l') as (q' & -> & PP); auto.
      * rewrite <- app_assoc. exact D.
      * cbn. etransitivity; [symmetry; apply Permutation_cons_append|constructor; exact P].
      * cbn. apply Forall_app. split; [assumption|]. constructor; [lia|constructor].
      * ob. exists q'. split; [reflexivity|assumption].
    + apply Permutation_nil in P. unfold EventModel.q_pop. rewrite P. cbn [EventModel.pop_min]. ob.
      destruct (IH q res0 [] l') as (q' & -> & PP); auto.
      * rewrite P. constructor.
      * ob. exists q'. split; [reflexivity|assumption].
    + unfold EventModel.q_pop.
      assert (Dq : distinct (q_bag q)).
      { eapply distinct_perm; [exact P|]. unfold distinct in *. rewrite map_app in D.
        now apply nodup_app_l in D. }
      destruct (pop_min (q_bag q)) as [[m r]|] eqn:E.
      2:{ apply pop_min_none in E. rewrite E in P. apply Permutation_sym, Permutation_nil in P.
          destruct l1; discriminate. }
      pose proof (pop_min_perm _ _ _ E) as P1.
      assert (EM : m = e).
      { assert (I : In m (e :: l1 ++ l2)).
        { eapply Permutation_in; [apply Permutation_sym, Permutation_middle|].
          eapply Permutation_in; [symmetry; exact P|].
          eapply Permutation_in; [symmetry; exact P1|now left]. }
        destruct I as [|I]; [auto|].
        assert (I' : In e (m :: r)).
        { eapply Permutation_in; [exact P1|]. eapply Permutation_in; [exact P|].
          apply in_app_iff; right; now left. }
        destruct I' as [|I']; [auto|]. exfalso. apply (before_irrefl m).
        eapply before_trans; [eapply (pop_min_least (q_bag q)); eauto|]. auto. }
      subst m.
      assert (TE : q_last q <= ev_time e).
      { rewrite Forall_forall in F. apply F. apply in_app_iff; right; now left. }
      rewrite assert_true by lia. ob. cbn in NP.
      assert (P2 : Permutation (l1 ++ l2) r).
      { apply (Permutation_cons_inv (a := e)). now rewrite Permutation_middle, P. }
      destruct (IH (mkQ r (ev_time e)) res0 (l1 ++ l2) l') as (q' & -> & PP); auto.
      * cbn [pushed] in D. eapply distinct_cons with (e := e). eapply distinct_perm; [|exact D].
        rewrite <- !app_assoc. cbn. symmetry. apply Permutation_middle.
      * cbn. rewrite Forall_forall. intros x I. apply before_le. auto.
      * ob. exists q'. split; [reflexivity|assumption].
Qed.

Lemma run_complete : forall start ops res l', distinct (pushed ops) ->
  ref_run [] ops res l' -> no_past start ops res ->
  exists q', q_run (q_new start) ops = Some (q', res) /\ Permutation l' (q_bag q').
Proof. intros start ops res l0 D R NP. apply (run_complete_gen ops (q_new start) res [] l0); auto; constructor. Qed.

(** *** Consequences for the reference semantics *)

Lemma ref_conserve : forall pend ops (res : list (option event)) l', ref_run pend ops res l' ->
  Permutation (pend ++ pushed ops) (popped res ++ l').
Proof using Type. clear keqb teqb.
  induction 1.
  - cbn. now rewrite app_nil_r.
  - cbn [pushed]. rewrite <- IHref_run, <- app_assoc. reflexivity.
  - exact IHref_run.
  - cbn [popped app pushed]. rewrite <- IHref_run, <- app_assoc. cbn. rewrite <- app_assoc.
    symmetry. apply Permutation_middle.
Qed.

Lemma conserve : forall start ops q' res, distinct (pushed ops) ->
  q_run (q_new start) ops = Some (q', res) -> Permutation (pushed ops) (popped res ++ q_bag q').
Proof.
  intros start ops q' res D H. destruct (run_sound _ _ _ _ D H) as (l' & R & P).
  rewrite <- P. apply (ref_conserve [] _ _ _ R).
Qed.

Lemma run_last : forall ops q q' res, q_run q ops = Some (q', res) ->
  StronglySorted Z.le (q_last q :: map ev_time (popped res)).
Proof.
  assert (G : forall ops q q' res, q_run q ops = Some (q', res) ->
              Sorted Z.le (q_last q :: map ev_time (popped res))).
  { induction ops as [|o ops IH]; intros q q' res H; cbn in H.
    - injection H as <- <-. repeat constructor.
    - destruct o as [e|]; cbn [EventModel.q_step] in H.
      + unfold EventModel.q_push, assert_then in H.
        destruct (q_last q <=? ev_time e); [|discriminate].
        destruct (comparable _ _ e (q_bag q)); [|discriminate]. ob_in H.
        destruct (q_run _ ops) as [[q2 o2]|] eqn:R; ob_in H; [|discriminate].
        injection H as <- <-. apply IH in R. exact R.
      + unfold EventModel.q_pop, assert_then in H.
        destruct (pop_min (q_bag q)) as [[e r]|] eqn:E.
        * destruct (q_last q <=? ev_time e) eqn:L; [|discriminate]. ob_in H.
          destruct (q_run _ ops) as [[q2 o2]|] eqn:R; ob_in H; [|discriminate].
          injection H as <- <-. apply IH in R. cbn in R |- *. constructor; [assumption|].
          constructor. lia.
        * ob_in H. destruct (q_run q ops) as [[q2 o2]|] eqn:R; ob_in H; [|discriminate].
          injection H as <- <-. apply IH in R. exact R. }
  intros. apply Sorted_StronglySorted; [intros ? ? ?; lia|]. eauto.
Qed.

(** Draining. *)
Fixpoint pops (n : nat) : list (qop K T) := match n with O => [] | S n => QPop :: pops n end.

Lemma ref_pops_sorted : forall n (l : list event) res l', ref_run l (pops n) res l' -> length l = n ->
  exists out, res = map Some out /\ l' = [] /\ Permutation l out /\ StronglySorted before out.
Proof using Type. clear keqb teqb.
  induction n; intros l res l' R L; cbn in R; inversion R; subst.
  - destruct l'; [|discriminate]. exists []. repeat split; constructor.
  - discriminate.
  - rewrite app_length in L. cbn in L.
    match goal with HR : ref_run (l1 ++ l2) _ _ _ |- _ =>
      destruct (IHn (l1 ++ l2) _ _ HR) as (out & -> & -> & P & S) end.
    { rewrite app_length. lia. }
    exists (e :: out). repeat split.
    + rewrite <- P. symmetry. apply Permutation_middle.
    + constructor; [assumption|]. rewrite Forall_forall. intros x I. match goal with HB : forall x, In x (l1 ++ l2) -> _ |- _ => apply HB end.
      eapply Permutation_in; [symmetry; exact P|assumption].
Qed.

Lemma sorted_unique : forall l l' : list event, Permutation l l' ->
  StronglySorted before l -> StronglySorted before l' -> l = l'.
Proof using Type. clear keqb teqb.
  induction l as [|a l IH]; intros l' P S S'.
  - now apply Permutation_nil in P.
  - destruct l' as [|b l']; [apply Permutation_sym, Permutation_nil in P; discriminate|].
    inversion S as [|? ? S1 F1]; inversion S' as [|? ? S2 F2]; subst.
    rewrite Forall_forall in F1, F2.
    assert (a = b).
    { assert (I : In a (b :: l')) by (eapply Permutation_in; [exact P|now left]).
      assert (I' : In b (a :: l)) by (eapply Permutation_in; [symmetry; exact P|now left]).
      destruct I as [|I]; [auto|]. destruct I' as [|I']; [auto|].
      exfalso. apply (before_irrefl a). eapply before_trans; eauto. }
    subst b. f_equal. apply IH; auto. now apply Permutation_cons_inv in P.
Qed.

Lemma push_all : forall (l : list event) q, distinct (l ++ q_bag q) ->
  Forall (fun e => q_last q <= ev_time e) l ->
  exists q', q_run q (map QPush l) = Some (q', []) /\ Permutation (l ++ q_bag q) (q_bag q')
             /\ q_last q' = q_last q.
Proof.
  induction l as [|e l IH]; intros q D F; cbn [map EventModel.q_run EventModel.q_step].
  - exists q. auto.
  - inversion F; subst. unfold EventModel.q_push. rewrite assert_true by lia.
    assert (D2 : distinct (l ++ e :: q_bag q)).
    { eapply distinct_perm; [|exact D]. cbn. apply Permutation_middle. }
    rewrite assert_true.
    2:{ apply comparable_distinct. unfold distinct in *. rewrite map_app in D2.
        now apply nodup_app_r in D2. }
    ob. destruct (IH (mkQ (e :: q_bag q) (q_last q))) as (q' & -> & P & L); auto.
    ob. exists q'. repeat split; auto. rewrite <- P. cbn. apply Permutation_middle.
Qed.

Lemma q_run_app : forall o1 o2 q, q_run q (o1 ++ o2) =
  (do (q1, r1) <- q_run q o1; do (q2, r2) <- q_run q1 o2; Some (q2, r1 ++ r2)).
Proof.
  induction o1 as [|o o1 IH]; intros o2 q; cbn [app EventModel.q_run].
  - ob. destruct (q_run q o2) as [[? ?]|]; reflexivity.
  - destruct (q_step q o) as [[q1 r1]|]; ob; [|reflexivity].
    rewrite IH. destruct (q_run q1 o1) as [[q2 r2]|]; ob; [|reflexivity].
    destruct (q_run q2 o2) as [[q3 r3]|]; ob; [|reflexivity]. now rewrite app_assoc.
Qed.

Lemma pops_ok : forall n q, (length (q_bag q) = n) -> distinct (q_bag q) ->
  Forall (fun e => q_last q <= ev_time e) (q_bag q) ->
  exists q' out, q_run q (pops n) = Some (q', map Some out) /\
    Permutation (q_bag q) out /\ StronglySorted before out.
Proof.
  induction n; intros q L D F; cbn [pops EventModel.q_run EventModel.q_step].
  - destruct q as [[|] ?]; [|discriminate]. eexists _, []. repeat split; constructor.
  - unfold EventModel.q_pop. destruct (pop_min (q_bag q)) as [[m r]|] eqn:E.
    2:{ apply pop_min_none in E. rewrite E in L. discriminate. }
    pose proof (pop_min_perm _ _ _ E) as P.
    assert (I : In m (q_bag q)) by (eapply Permutation_in; [symmetry; exact P|now left]).
    rewrite Forall_forall in F. specialize (F _ I). rewrite assert_true by lia. ob.
    assert (B := pop_min_least _ _ _ D E).
    destruct (IHn (mkQ r (ev_time m))) as (q' & out & -> & P' & S').
    + cbn. apply Permutation_length in P. cbn in P. lia.
    + cbn. eapply distinct_cons. eapply distinct_perm; eauto.
    + cbn. rewrite Forall_forall. intros x Ix. apply before_le. auto.
    + ob. exists q', (m :: out). repeat split.
      * rewrite P. now constructor.
      * constructor; [assumption|]. rewrite Forall_forall. intros x Ix. apply B.
        eapply Permutation_in; [symmetry; exact P'|assumption].
Qed.

Lemma drain : forall start (l : list event), distinct l -> Forall (fun e => start <= ev_time e) l ->
  exists q' out, q_run (q_new start) (map QPush l ++ pops (length l)) = Some (q', map Some out) /\
    Permutation l out /\ StronglySorted before out.
Proof.
  intros start l D F. rewrite q_run_app.
  destruct (push_all l (q_new start)) as (q1 & -> & P & L).
  - cbn. now rewrite app_nil_r.
  - exact F.
  - ob. cbn in P. rewrite app_nil_r in P.
    destruct (pops_ok (length l) q1) as (q' & out & -> & P' & S').
    + symmetry. now apply Permutation_length.
    + eapply distinct_perm; eauto.
    + rewrite L. cbn. eapply Permutation_Forall; eauto.
    + ob. exists q', out. repeat split; auto. now rewrite P.
Qed.

Lemma drain_order_free : forall start (l1 l2 : list event) q1 r1 q2 r2,
  distinct l1 -> Forall (fun e => start <= ev_time e) l1 -> Permutation l1 l2 ->
  q_run (q_new start) (map QPush l1 ++ pops (length l1)) = Some (q1, r1) ->
  q_run (q_new start) (map QPush l2 ++ pops (length l2)) = Some (q2, r2) -> r1 = r2.
Proof.
  intros start l1 l2 q1 r1 q2 r2 D F P H1 H2.
  destruct (drain start l1 D F) as (? & o1 & E1 & P1 & S1).
  destruct (drain start l2) as (? & o2 & E2 & P2 & S2).
  - eapply distinct_perm; eauto.
  - eapply Permutation_Forall; eauto.
  - rewrite E1 in H1. rewrite E2 in H2. injection H1 as <- <-. injection H2 as <- <-.
    f_equal. apply sorted_unique; auto. now rewrite <- P1, P.
Qed.

End P.
