(** Correctness of the routing table. *)
From Verif Require Import Base FMap GraphModel GraphSpec.

(** ** Order *)
Lemma plt_iff a b : plt a b = true <-> latency a < latency b \/ (latency a = latency b /\ loss a < loss b).
Proof. unfold plt. lia. Qed.
Lemma plt_false a b : plt a b = false <-> latency b < latency a \/ (latency a = latency b /\ loss b <= loss a).
Proof. unfold plt. lia. Qed.
Definition ple (a b : props) : Prop := latency a < latency b \/ (latency a = latency b /\ loss a <= loss b).
Lemma ple_refl a : ple a a.
Proof. unfold ple. lia. Qed.
Lemma ple_trans a b c : ple a b -> ple b c -> ple a c.
Proof. unfold ple. lia. Qed.
Lemma ple_antisym a b : ple a b -> ple b a -> a = b.
Proof. destruct a, b. unfold ple. cbn. intros. f_equal; lia. Qed.
Lemma plt_ple a b : plt a b = false <-> ple b a.
Proof. rewrite plt_false. unfold ple. intuition lia. Qed.
Lemma plt_ple_w a b : plt a b = true -> ple a b.
Proof. rewrite plt_iff. unfold ple. lia. Qed.

(** ** Hops *)
Lemma edges_at_hop g a b w : In (b, w) (edges_at g a) <-> hop g a b w.
Proof.
  unfold edges_at, hop. rewrite in_flat_map. split.
  - intros ([s d w'] & I & H). cbn in H.
    destruct (Z.eqb_spec s a) as [E|N].
    + destruct H as [[= -> ->]|[]]. subst s. now left.
    + destruct (directed g); cbn in H; [contradiction|].
      destruct (Z.eqb_spec d a) as [E|N']; [|contradiction].
      destruct H as [[= -> ->]|[]]. subst d. right. auto.
  - intros [I|[D I]].
    + exists (Edge a b w). split; [exact I|]. cbn. rewrite Z.eqb_refl. now left.
    + exists (Edge b a w). split; [exact I|]. cbn. rewrite Z.eqb_refl, D. cbn.
      destruct (Z.eqb_spec b a) as [E|N]; [subst b|]; now left.
Qed.

Lemma connecting_links g a b : edges_connecting g a b = map e_w (links g a b).
Proof.
  unfold edges_connecting, links, edges_at. induction (edges g) as [|[s d w] r IH]; [reflexivity|].
  cbn -[Z.eqb]. rewrite filter_app, map_app, IH.
  destruct (Z.eqb_spec s a) as [E|N]; cbn -[Z.eqb].
  - destruct (Z.eqb_spec d b) as [E'|N']; cbn -[Z.eqb]; [reflexivity|].
    replace (negb (directed g) && (s =? b) && (d =? a)) with false by lia. reflexivity.
  - destruct (directed g); cbn -[Z.eqb]; [reflexivity|].
    destruct (Z.eqb_spec d a) as [E'|N']; cbn -[Z.eqb].
    + destruct (Z.eqb_spec s b); cbn; reflexivity.
    + rewrite andb_false_r. reflexivity.
Qed.

Lemma existsb_in n l : existsb (Z.eqb n) l = true <-> In n l.
Proof.
  rewrite existsb_exists. split; [intros (x & I & E)|intros I; exists n; split; [exact I|apply Z.eqb_refl]].
  apply Z.eqb_eq in E. now subst.
Qed.
Lemma existsb_nin n l : existsb (Z.eqb n) l = false <-> ~ In n l.
Proof. rewrite <- existsb_in. destruct (existsb _ _); intuition congruence. Qed.

Lemma zsum_app l l' : zsum (l ++ l') = zsum l + zsum l'.
Proof. unfold zsum. induction l; cbn; lia. Qed.

(** ** Dijkstra *)
Section D.
Variable one : Z.
Variable sub1 : Z -> Z.
Variable mul : Z -> Z -> Z.
Variable pop : heap -> option ((props * Z) * heap).
Hypothesis FL : float_ok one sub1 mul.
Hypothesis HP : heap_ok pop.
Variable g : graph.
Hypothesis GO : graph_ok one g.
Variable start : Z.
Hypothesis ST : 0 <= start < Z.of_nat (count g).

Definition addw (a b : props) : props :=
  Props (latency a + latency b) (sub1 (mul (sub1 (loss a)) (sub1 (loss b)))).
Definition cost (l : list props) : props := fold_left addw l pdefault.

Lemma cost_snoc l w : cost (l ++ [w]) = addw (cost l) w.
Proof. unfold cost. rewrite fold_left_app. reflexivity. Qed.

Definition p_ok (a : props) : Prop := 0 <= latency a /\ 0 <= loss a <= one.
Definition w_ok (w : props) : Prop := 0 < latency w <= U64_MAX /\ 0 <= loss w <= one.

Lemma pdefault_ok : p_ok pdefault.
Proof. pose proof (one_pos _ _ _ FL). unfold p_ok, pdefault. cbn. lia. Qed.
Lemma addw_ok a w : p_ok a -> w_ok w -> p_ok (addw a w).
Proof.
  intros [A B] [C D]. unfold p_ok, addw. cbn. split; [lia|].
  apply (sub1_range _ _ _ FL), (mul_range _ _ _ FL); now apply (sub1_range _ _ _ FL).
Qed.
Lemma addw_up a w : w_ok w -> ple a (addw a w).
Proof. intros [C D]. unfold ple, addw. cbn. lia. Qed.
Lemma addw_mono a b w : p_ok a -> p_ok b -> w_ok w -> ple a b -> ple (addw a w) (addw b w).
Proof.
  intros [A1 A2] [B1 B2] [C D] [L|[L M]]; unfold ple, addw; cbn; [lia|right]. split; [lia|].
  assert (R := fun x H => sub1_range _ _ _ FL x H).
  apply (sub1_mono _ _ _ FL).
  - apply (mul_range _ _ _ FL); apply R; assumption.
  - apply (mul_mono _ _ _ FL); [apply R; lia| |apply R; lia|apply R; lia].
    apply (sub1_mono _ _ _ FL); lia.
  - apply (mul_range _ _ _ FL); apply R; lia.
Qed.

Lemma hop_ok a b w : hop g a b w -> w_ok w /\ 0 <= a < Z.of_nat (count g) /\ 0 <= b < Z.of_nat (count g).
Proof.
  unfold graph_ok in GO. rewrite Forall_forall in GO.
  intros [I|[_ I]]; apply GO in I; destruct I as (A & B & C & D); cbn in *; unfold w_ok; auto.
Qed.
Lemma walk_ok b l : walk g start b l -> p_ok (cost l) /\ 0 <= b < Z.of_nat (count g).
Proof.
  induction 1 as [|b c l w W [IH1 IH2] Hh]; [split; [apply pdefault_ok|exact ST]|].
  apply hop_ok in Hh as (A & B & C). rewrite cost_snoc. split; [now apply addw_ok|exact C].
Qed.

(** The invariant of the main loop, without the edges out of visited nodes. *)
Record inv0 (st : dstate) : Prop := {
  i_score : forall v s, get v (scores st) = Some s -> exists l, walk g start v l /\ s = cost l;
  i_start : exists s, get start (scores st) = Some s /\ ple s pdefault;
  i_opt : forall v, In v (visited st) ->
            exists s, get v (scores st) = Some s /\ forall l, walk g start v l -> ple s (cost l);
  i_todo : forall v s, get v (scores st) = Some s -> ~ In v (visited st) -> In (s, v) (visit_next st);
  i_heap : forall v s, In (s, v) (visit_next st) -> exists s', get v (scores st) = Some s' /\ ple s' s;
  i_keys : NoDup (keys (scores st))
}.
Definition i_out (st : dstate) : Prop :=
  forall v u w s, In v (visited st) -> get v (scores st) = Some s -> hop g v u w ->
    exists s', get u (scores st) = Some s' /\ ple s' (addw s w).

(** Scores only fall. *)
Definition lower (st st' : dstate) : Prop :=
  visited st' = visited st /\
  forall v s, get v (scores st) = Some s -> exists s', get v (scores st') = Some s' /\ ple s' s.

Lemma lower_refl st : lower st st.
Proof. split; [reflexivity|]. intros v s H. exists s. split; [exact H|apply ple_refl]. Qed.
Lemma lower_trans a b c : lower a b -> lower b c -> lower a c.
Proof.
  intros [A1 A2] [B1 B2]. split; [congruence|]. intros v s H.
  apply A2 in H as (s1 & H & L). apply B2 in H as (s2 & H & L'). exists s2. split; [exact H|]. eapply ple_trans; eauto.
Qed.

Lemma padd_some a b r : padd sub1 mul a b = Some r -> r = addw a b.
Proof.
  unfold padd, u64_checked_add. destruct (_ <=? _); [|discriminate]. ob. intros [= <-]. reflexivity.
Qed.

Lemma put_inv0 st v ns l :
  inv0 st -> ~ In v (visited st) -> walk g start v l -> ns = cost l ->
  (forall old, get v (scores st) = Some old -> ple ns old) ->
  let st' := DState (visited st) (put v ns (scores st)) ((ns, v) :: visit_next st) in
  inv0 st' /\ lower st st' /\ get v (scores st') = Some ns.
Proof.
  intros I NV W E LO. cbn zeta.
  assert (LW : lower st (DState (visited st) (put v ns (scores st)) ((ns, v) :: visit_next st))).
  { split; [reflexivity|]. cbn [scores]. intros u s H. rewrite get_put.
    change (eqb u v) with (u =? v). destruct (Z.eqb_spec u v) as [X|N]; [subst u|].
    - exists ns. split; [reflexivity|]. now apply LO.
    - exists s. split; [exact H|apply ple_refl]. }
  split; [|split; [exact LW|]]; [|cbn [scores]; apply get_put_same].
  constructor; cbn [scores visited visit_next].
  - intros u s. rewrite get_put. change (eqb u v) with (u =? v).
    destruct (Z.eqb_spec u v) as [X|N]; [subst u|apply (i_score _ I)]. intros [= <-]. exists l. auto.
  - destruct (i_start _ I) as (s & H & L). apply LW in H as (s' & H & L'). exists s'. split; [exact H|].
    eapply ple_trans; eauto.
  - intros u V. destruct (i_opt _ I u V) as (s & H & O). exists s. split; [|exact O].
    rewrite get_put_other; [exact H|]. intros ->. contradiction.
  - intros u s. rewrite get_put. change (eqb u v) with (u =? v).
    destruct (Z.eqb_spec u v) as [X|N]; [subst u|].
    + intros [= <-] _. now left.
    + intros H N'. right. now apply (i_todo _ I).
  - intros u s [[= <- <-]|H].
    + exists ns. rewrite get_put_same. split; [reflexivity|apply ple_refl].
    + apply (i_heap _ I) in H as (s1 & H & L). apply LW in H as (s2 & H & L'). exists s2. split; [exact H|].
      eapply ple_trans; eauto.
  - apply nodup_put, I.
Qed.

Lemma relax_ok s st v w st' b l :
  inv0 st -> walk g start b l -> s = cost l -> hop g b v w ->
  relax sub1 mul s st (v, w) = Some st' ->
  inv0 st' /\ lower st st' /\
  (In v (visited st) \/ exists s', get v (scores st') = Some s' /\ ple s' (addw s w)).
Proof.
  intros I W E Hh. unfold relax. unfold is_visited.
  destruct (existsb (Z.eqb v) (visited st)) eqn:V.
  - intros [= <-]. split; [exact I|]. split; [apply lower_refl|]. left. now apply existsb_in.
  - apply existsb_nin in V.
    destruct (padd sub1 mul s w) as [ns|] eqn:P; [|discriminate]. ob. apply padd_some in P.
    assert (W' : walk g start v (l ++ [w])) by (econstructor; eauto).
    assert (C : ns = cost (l ++ [w])) by (rewrite cost_snoc, P, E; reflexivity).
    destruct (get v (scores st)) as [old|] eqn:G.
    + destruct (plt ns old) eqn:L.
      * intros [= <-]. destruct (put_inv0 st v ns _ I V W' C) as (A & B & D).
        { intros o. rewrite G. intros [= <-]. now apply plt_ple_w. }
        split; [exact A|]. split; [exact B|]. right. exists ns. split; [exact D|]. rewrite P. apply ple_refl.
      * intros [= <-]. split; [exact I|]. split; [apply lower_refl|]. right. exists old.
        split; [exact G|]. rewrite <- P. now apply plt_ple.
    + intros [= <-]. destruct (put_inv0 st v ns _ I V W' C) as (A & B & D).
      { intros o. rewrite G. discriminate. }
      split; [exact A|]. split; [exact B|]. right. exists ns. split; [exact D|]. rewrite P. apply ple_refl.
Qed.

Lemma relax_all_ok s b l : walk g start b l -> s = cost l -> forall es st st',
  inv0 st -> (forall v w, In (v, w) es -> hop g b v w) ->
  relax_all sub1 mul s st es = Some st' ->
  inv0 st' /\ lower st st' /\
  (forall v w, In (v, w) es -> In v (visited st) \/ exists s', get v (scores st') = Some s' /\ ple s' (addw s w)).
Proof.
  intros W E. induction es as [|[v w] es IH]; intros st st' I Hh; cbn [relax_all].
  - intros [= <-]. split; [exact I|]. split; [apply lower_refl|]. intros v w [].
  - destruct (relax sub1 mul s st (v, w)) as [st1|] eqn:R; [|discriminate]. ob. intros H.
    destruct (relax_ok s st v w st1 b l I W E (Hh v w (or_introl eq_refl)) R) as (I1 & L1 & A1).
    destruct (IH st1 st' I1 (fun v' w' X => Hh v' w' (or_intror X)) H) as (I2 & L2 & A2).
    split; [exact I2|]. split; [eapply lower_trans; eauto|].
    intros v' w' [[= <- <-]|X].
    + destruct A1 as [A1|(s1 & G & L)]; [now left|]. right. apply L2 in G as (s2 & G & L').
      exists s2. split; [exact G|]. eapply ple_trans; eauto.
    + destruct (A2 v' w' X) as [A|A]; [left; now rewrite <- (proj1 L1)|now right].
Qed.

(** Every walk is at least as costly as its end's score or some pending node's score. *)
Lemma frontier st v l : inv0 st -> i_out st -> walk g start v l ->
  (In v (visited st) /\ exists s, get v (scores st) = Some s /\ ple s (cost l)) \/
  (exists u s, ~ In u (visited st) /\ get u (scores st) = Some s /\ ple s (cost l)).
Proof.
  intros I O W. induction W as [|b c l w W IH Hh].
  - destruct (i_start _ I) as (s & G & L). destruct (in_dec Z.eq_dec start (visited st)) as [V|V].
    + left. split; [exact V|]. exists s. auto.
    + right. exists start, s. auto.
  - assert (H := hop_ok _ _ _ Hh). destruct H as (Wk & _ & _).
    pose proof (walk_ok _ _ W) as (PO & _). rewrite cost_snoc.
    destruct IH as [(V & s & G & L)|(u & s & N & G & L)].
    + destruct (O b c w s V G Hh) as (s' & G' & L').
      assert (L2 : ple s' (addw (cost l) w)).
      { eapply ple_trans; [exact L'|]. apply addw_mono; auto.
        destruct (i_score _ I _ _ G) as (l2 & W2 & ->). apply (walk_ok _ _ W2). }
      destruct (in_dec Z.eq_dec c (visited st)) as [V'|V'].
      * left. split; [exact V'|]. exists s'. auto.
      * right. exists c, s'. auto.
    + right. exists u, s. split; [exact N|]. split; [exact G|]. eapply ple_trans; [exact L|]. now apply addw_up.
Qed.

Lemma pop_le h s n r : pop h = Some ((s, n), r) ->
  Permutation h ((s, n) :: r) /\ forall s' n', In (s', n') h -> ple s s'.
Proof.
  intros P. pose proof (HP h) as H. rewrite P in H. destruct H as [A B]. split; [exact A|].
  intros s' n' I. apply B in I. cbn in I. now apply plt_ple.
Qed.

Lemma step_skip st s n r : inv0 st -> i_out st -> pop (visit_next st) = Some ((s, n), r) ->
  In n (visited st) -> let st' := DState (visited st) (scores st) r in inv0 st' /\ i_out st'.
Proof.
  intros I O P V. apply pop_le in P as [P M]. split; [|exact O].
  constructor; cbn; try apply I.
  - intros v s' G N. pose proof (i_todo _ I v s' G N) as X. apply (Permutation_in _ P) in X.
    destruct X as [[= <- <-]|X]; [contradiction|exact X].
  - intros v s' X. apply (i_heap _ I). apply (Permutation_in _ (Permutation_sym P)). now right.
Qed.

(** When an unvisited node is popped its score is final. *)
Lemma popped st s n r : inv0 st -> i_out st -> pop (visit_next st) = Some ((s, n), r) ->
  ~ In n (visited st) ->
  get n (scores st) = Some s /\ (exists l, walk g start n l /\ s = cost l) /\
  forall l, walk g start n l -> ple s (cost l).
Proof.
  intros I O P V. apply pop_le in P as [P M].
  assert (X : In (s, n) (visit_next st)) by (apply (Permutation_in _ (Permutation_sym P)); now left).
  destruct (i_heap _ I _ _ X) as (s' & G & L).
  assert (E : s' = s).
  { apply ple_antisym; [exact L|]. apply (M s' n). now apply (i_todo _ I). }
  subst s'. split; [exact G|]. split; [now apply (i_score _ I)|].
  intros l W. destruct (frontier st n l I O W) as [[V' _]|(u & su & N & Gu & Lu)]; [contradiction|].
  eapply ple_trans; [|exact Lu]. apply (M su u). now apply (i_todo _ I).
Qed.

(** Removing the popped entry keeps the invariant except for that node. *)
Lemma relax_all_vis s st es st' : relax_all sub1 mul s st es = Some st' -> visited st' = visited st.
Proof.
  revert st. induction es as [|[v w] es IH]; intros st; cbn; [now intros [= <-]|].
  destruct (is_visited st v); ob; [apply IH|].
  destruct (padd sub1 mul s w); [|discriminate]. ob.
  destruct (get v (scores st)) as [old|]; [destruct (plt _ old)|]; ob; intros H; apply IH in H; exact H.
Qed.

(** Relaxation does not depend on the order or presence of entries in the queue. *)
Lemma relax_all_heap s es : forall st st' h, relax_all sub1 mul s st es = Some st' ->
  exists new, visit_next st' = new ++ visit_next st /\
    relax_all sub1 mul s (DState (visited st) (scores st) h) es =
    Some (DState (visited st') (scores st') (new ++ h)).
Proof.
  induction es as [|[v w] es IH]; intros st st' h; cbn [relax_all].
  - intros [= <-]. exists []. auto.
  - destruct (relax sub1 mul s st (v, w)) as [st1|] eqn:R; [|discriminate]. ob. intros H.
    assert (R' : exists new, visit_next st1 = new ++ visit_next st /\
       relax sub1 mul s (DState (visited st) (scores st) h) (v, w) =
       Some (DState (visited st1) (scores st1) (new ++ h))).
    { revert R. unfold relax, is_visited. cbn [visited scores visit_next].
      destruct (existsb (Z.eqb v) (visited st)).
      - intros [= <-]. exists []. auto.
      - destruct (padd sub1 mul s w) as [ns|]; [|discriminate]. ob.
        destruct (get v (scores st)) as [old|]; [destruct (plt ns old)|].
        + intros [= <-]. exists [(ns, v)]. auto.
        + intros [= <-]. exists []. auto.
        + intros [= <-]. exists [(ns, v)]. auto. }
    destruct R' as (n1 & E1 & R'). rewrite R'. ob.
    destruct (IH st1 st' (n1 ++ h) H) as (n2 & E2 & R2). exists (n2 ++ n1). rewrite E2, E1, R2.
    rewrite !app_assoc. auto.
Qed.

Lemma step_visit st s n r st2 : inv0 st -> i_out st -> pop (visit_next st) = Some ((s, n), r) ->
  ~ In n (visited st) ->
  relax_all sub1 mul s (DState (visited st) (scores st) r) (edges_at g n) = Some st2 ->
  let st' := DState (n :: visited st2) (scores st2) (visit_next st2) in inv0 st' /\ i_out st'.
Proof.
  intros I O P V R. destruct (popped st s n r I O P V) as (G & (l & W & E) & OPT).
  apply pop_le in P as [P M].
  destruct (relax_all_heap _ _ _ _ (visit_next st) R) as (new & E2 & R').
  cbn [visited scores visit_next] in R', E2. destruct st as [vi sc vn]. cbn [visited scores visit_next] in *.
  destruct (relax_all_ok s n l W E _ _ _ I (fun v w X => proj1 (edges_at_hop g n v w) X) R') as (I2 & L2 & A2).
  cbn [visited scores visit_next] in *. destruct L2 as [LV L2]. cbn [visited scores] in LV, L2.
  (* the score of n is unchanged *)
  assert (GN : get n (scores st2) = Some s).
  { destruct (L2 n s G) as (s' & G' & L'). rewrite G'. f_equal. apply ple_antisym; [exact L'|].
    destruct (i_score _ I2 n s' G') as (l' & W' & ->). now apply OPT. }
  assert (UNCH : forall v sv, In v vi -> get v sc = Some sv -> get v (scores st2) = Some sv).
  { intros v sv Vv Gv. destruct (L2 v sv Gv) as (s' & G' & L'). rewrite G'. f_equal. apply ple_antisym; [exact L'|].
    destruct (i_score _ I2 v s' G') as (l' & W' & ->).
    destruct (i_opt _ I v Vv) as (so & Go & Oo). cbn in Go. rewrite Gv in Go. injection Go as <-. now apply Oo. }
  split.
  - constructor; cbn [visited scores visit_next].
    + apply I2.
    + apply I2.
    + intros v [<-|X].
      * exists s. auto.
      * rewrite LV in X. destruct (i_opt _ I v X) as (so & Go & Oo). exists so. split; [|exact Oo]. now apply UNCH.
    + intros v sv Gv N. assert (N' : ~ In v (visited st2)) by (intros X; apply N; now right).
      pose proof (i_todo _ I2 v sv Gv N') as X. cbn in X. rewrite E2. apply in_app_iff in X as [X|X]; apply in_app_iff; [now left|right].
      apply (Permutation_in _ P) in X. destruct X as [[= <- <-]|X]; [|exact X]. exfalso. apply N. now left.
    + intros v sv X. apply (i_heap _ I2). cbn. rewrite E2 in X. apply in_app_iff in X as [X|X]; apply in_app_iff; [now left|right].
      apply (Permutation_in _ (Permutation_sym P)). now right.
    + apply I2.
  - intros v u w sv. cbn [visited scores]. intros [<-|X] Gv Hh.
    + rewrite GN in Gv. injection Gv as <-. destruct (A2 u w (proj2 (edges_at_hop g n u w) Hh)) as [A|A]; [|exact A].
      destruct (i_opt _ I u A) as (so & Go & Oo). exists so. split; [now apply UNCH|].
      rewrite E, <- cost_snoc. apply Oo. econstructor; eauto.
    + rewrite LV in X. destruct (i_opt _ I v X) as (so & Go & Oo). cbn in Go.
      rewrite (UNCH v so X Go) in Gv. injection Gv as <-.
      destruct (O v u w so X Go Hh) as (s' & G' & L'). cbn in G'. apply L2 in G' as (s2 & G2 & L3).
      exists s2. split; [exact G2|]. eapply ple_trans; eauto.
Qed.

Lemma dloop_ok fuel : forall st m, inv0 st -> i_out st -> dloop sub1 mul pop fuel g st = D_scores m ->
  (forall v s, get v m = Some s -> exists l, walk g start v l /\ s = cost l) /\
  (forall v l, walk g start v l -> exists s, get v m = Some s /\ ple s (cost l)) /\
  NoDup (keys m).
Proof.
  induction fuel as [|f IH]; intros st m I O; cbn [dloop]; [discriminate|].
  destruct (pop (visit_next st)) as [[[s n] r]|] eqn:P.
  - unfold is_visited. cbn [visited]. destruct (existsb (Z.eqb n) (visited st)) eqn:V.
    + apply existsb_in in V. destruct (step_skip st s n r I O P V) as [I' O']. now apply IH.
    + apply existsb_nin in V. destruct (relax_all _ _ _ _ _) as [st2|] eqn:R; [|discriminate].
      destruct (step_visit st s n r st2 I O P V R) as [I' O']. now apply IH.
  - intros [= <-]. pose proof (HP (visit_next st)) as H. rewrite P in H. split; [apply I|]. split; [|apply I].
    intros v l W. destruct (frontier st v l I O W) as [(V & s & G & L)|(u & s & N & G & L)].
    + exists s. auto.
    + pose proof (i_todo _ I u s G N) as X. rewrite H in X. destruct X.
Qed.

Lemma dinit_ok : inv0 (dinit start) /\ i_out (dinit start).
Proof.
  split.
  - constructor; unfold dinit; cbn [visited scores visit_next].
    + intros v s. rewrite get_put. change (eqb v start) with (v =? start).
      destruct (Z.eqb_spec v start) as [E|N]; [|discriminate]. intros [= <-]. subst v. exists []. split; [constructor|reflexivity].
    + exists pdefault. rewrite get_put_same. split; [reflexivity|apply ple_refl].
    + intros v [].
    + intros v s. rewrite get_put. change (eqb v start) with (v =? start).
      destruct (Z.eqb_spec v start) as [E|N]; [|discriminate]. intros [= <-] _. subst v. now left.
    + intros v s [[= <- <-]|[]]. exists pdefault. rewrite get_put_same. split; [reflexivity|apply ple_refl].
    + apply nodup_put. constructor.
  - intros v u w s [].
Qed.

Theorem dijkstra_ok m : dijkstra sub1 mul pop g start = D_scores m ->
  (forall v s, get v m = Some s -> exists l, walk g start v l /\ s = cost l) /\
  (forall v l, walk g start v l -> exists s, get v m = Some s /\ ple s (cost l)) /\
  NoDup (keys m).
Proof. destruct dinit_ok as [I O]. now apply dloop_ok. Qed.

(** ** Termination: the fuel is never exhausted. *)
Definition degs (vis : list Z) : nat :=
  list_sum (map (fun v => length (edges_at g v)) (filter (fun v => negb (existsb (Z.eqb v) vis)) (node_list g))).

Lemma node_list_in v : In v (node_list g) <-> 0 <= v < Z.of_nat (count g).
Proof.
  unfold node_list. rewrite in_map_iff. split.
  - intros (n & <- & I). apply in_seq in I. lia.
  - intros H. exists (Z.to_nat v). split; [lia|]. apply in_seq. lia.
Qed.
Lemma node_list_nodup : NoDup (node_list g).
Proof.
  unfold node_list. apply FinFun.Injective_map_NoDup; [intros a b H; lia|apply seq_NoDup].
Qed.

Lemma degs_visit_gen f vis n ns : NoDup ns -> In n ns -> ~ In n vis ->
  list_sum (map f (filter (fun v => negb (existsb (Z.eqb v) vis)) ns)) =
  (f n + list_sum (map f (filter (fun v => negb (existsb (Z.eqb v) (n :: vis))) ns)))%nat.
Proof.
  intros ND I NV. induction ns as [|x ns IH]; [destruct I|]. inversion ND as [|? ? NI ND']; subst.
  destruct (Z.eq_dec x n) as [->|N].
  - assert (E : filter (fun v => negb (existsb (Z.eqb v) (n :: vis))) ns = filter (fun v => negb (existsb (Z.eqb v) vis)) ns).
    { apply filter_ext_in. intros a Ia. cbn. destruct (Z.eqb_spec a n) as [->|]; [contradiction|reflexivity]. }
    cbn [filter]. rewrite E. cbn [existsb]. rewrite Z.eqb_refl. cbn [orb negb].
    replace (existsb (Z.eqb n) vis) with false by (symmetry; now apply existsb_nin). cbn. reflexivity.
  - destruct I as [X|I]; [congruence|]. specialize (IH ND' I).
    assert (E : negb (existsb (Z.eqb x) (n :: vis)) = negb (existsb (Z.eqb x) vis)).
    { cbn. destruct (Z.eqb_spec x n); [congruence|reflexivity]. }
    assert (LS : forall a l, list_sum (a :: l) = (a + list_sum l)%nat) by reflexivity.
    cbn [filter]. rewrite E. destruct (negb (existsb (Z.eqb x) vis)); cbn [map]; [|exact IH].
    rewrite !LS, IH. lia.
Qed.

Lemma relax_all_push s es st st' : relax_all sub1 mul s st es = Some st' ->
  (length (visit_next st') <= length (visit_next st) + length es)%nat.
Proof.
  revert st. induction es as [|[v w] es IH]; intros st; cbn; [intros [= <-]; lia|].
  destruct (is_visited st v); ob; [intros H; apply IH in H; lia|].
  destruct (padd sub1 mul s w); [|discriminate]. ob.
  destruct (get v (scores st)) as [old|]; [destruct (plt _ old)|]; ob; intros H; apply IH in H; cbn [visit_next length] in *; lia.
Qed.

Lemma dloop_fuel fuel : forall st, inv0 st -> i_out st ->
  (length (visit_next st) + degs (visited st) < fuel)%nat -> dloop sub1 mul pop fuel g st <> D_fuel.
Proof.
  induction fuel as [|f IH]; intros st I O L; cbn [dloop]; [lia|].
  destruct (pop (visit_next st)) as [[[s n] r]|] eqn:P; [|discriminate].
  pose proof (pop_le _ _ _ _ P) as [PM _]. apply Permutation_length in PM. cbn [length] in PM.
  unfold is_visited. cbn [visited]. destruct (existsb (Z.eqb n) (visited st)) eqn:V.
  - apply existsb_in in V. destruct (step_skip st s n r I O P V) as [I' O']. apply IH; auto. cbn. lia.
  - apply existsb_nin in V. destruct (relax_all _ _ _ _ _) as [st2|] eqn:R; [|discriminate].
    destruct (step_visit st s n r st2 I O P V R) as [I' O']. apply IH; auto. cbn [visit_next visited].
    apply relax_all_push in R as R'. rewrite (relax_all_vis _ _ _ _ R). cbn [visited visit_next] in *.
    destruct (popped st s n r I O P V) as (_ & (l & W & _) & _). apply walk_ok in W as [_ W].
    unfold degs in *.
    rewrite (degs_visit_gen (fun v => length (edges_at g v)) (visited st) n (node_list g) node_list_nodup (proj2 (node_list_in n) W) V) in L.
    lia.
Qed.

Lemma degs_nil : degs [] = length (flat_map (edges_at g) (node_list g)).
Proof.
  unfold degs. replace (filter _ (node_list g)) with (node_list g).
  - rewrite flat_map_concat_map. induction (node_list g) as [|x r IH]; [reflexivity|]. cbn [map concat]. rewrite app_length, <- IH. reflexivity.
  - symmetry. induction (node_list g) as [|x r IH]; [reflexivity|]. cbn in *. now rewrite IH.
Qed.

Theorem dijkstra_fuel : dijkstra sub1 mul pop g start <> D_fuel.
Proof.
  destruct dinit_ok as [I O]. apply dloop_fuel; auto. unfold dfuel, dinit. cbn [visit_next visited length].
  rewrite degs_nil. lia.
Qed.

(** ** No overflow *)
Section Small.
Variable M : Z.
Hypothesis MB : forall e, In e (edges g) -> latency (e_w e) <= M.
Hypothesis MN : M * Z.of_nat (count g) <= U64_MAX.

Lemma hop_M a b w : hop g a b w -> latency w <= M.
Proof. intros [I|[_ I]]; apply MB in I; exact I. Qed.

Definition low (st : dstate) (k : nat) : Prop :=
  forall s v, In (s, v) (visit_next st) -> latency s <= M * Z.of_nat k.

Lemma relax_all_low s k es : forall st, 0 <= latency s <= M * Z.of_nat k -> 0 <= M ->
  (Datatypes.S k <= count g)%nat -> low st (Datatypes.S k) -> (forall v w, In (v, w) es -> latency w <= M) ->
  exists st', relax_all sub1 mul s st es = Some st' /\ low st' (Datatypes.S k).
Proof.
  induction es as [|[v w] es IH]; intros st L M0 C LW Hw; cbn [relax_all]; [exists st; auto|].
  assert (X : exists st1, relax sub1 mul s st (v, w) = Some st1 /\ low st1 (Datatypes.S k)).
  { unfold relax. destruct (is_visited st v); [exists st; auto|].
    pose proof (Hw v w (or_introl eq_refl)) as Lw.
    assert (B : latency s + latency w <= M * Z.of_nat (Datatypes.S k)) by lia.
    assert (B' : M * Z.of_nat (Datatypes.S k) <= M * Z.of_nat (count g)) by (apply Z.mul_le_mono_nonneg_l; lia).
    unfold padd, u64_checked_add. replace (latency s + latency w <=? U64_MAX) with true by lia. ob.
    set (ns := Props _ _).
    assert (LL : low (DState (visited st) (put v ns (scores st)) ((ns, v) :: visit_next st)) (Datatypes.S k)).
    { intros s' v' [[= <- <-]|I]; [exact B|now apply (LW s' v')]. }
    destruct (get v (scores st)) as [old|]; [destruct (plt ns old)|]; eexists; split; try reflexivity; auto. }
  destruct X as (st1 & -> & L1). ob. apply IH; auto. intros v' w' I. apply (Hw v' w'). now right.
Qed.

Lemma dloop_safe fuel : forall st, inv0 st -> i_out st -> NoDup (visited st) ->
  (forall v, In v (visited st) -> 0 <= v < Z.of_nat (count g)) -> 0 <= M ->
  low st (length (visited st)) -> dloop sub1 mul pop fuel g st <> D_panic.
Proof.
  induction fuel as [|f IH]; intros st I O ND VB M0 LW; cbn [dloop]; [discriminate|].
  destruct (pop (visit_next st)) as [[[s n] r]|] eqn:P; [|discriminate].
  pose proof (pop_le _ _ _ _ P) as [PM _].
  assert (LR : low (DState (visited st) (scores st) r) (length (visited st))).
  { intros s' v' X. cbn in X. apply (LW s' v'). apply (Permutation_in _ (Permutation_sym PM)). now right. }
  unfold is_visited. cbn [visited]. destruct (existsb (Z.eqb n) (visited st)) eqn:V.
  - apply existsb_in in V. destruct (step_skip st s n r I O P V) as [I' O']. apply IH; auto.
  - apply existsb_nin in V.
    destruct (popped st s n r I O P V) as (_ & (l & W & E) & _). pose proof (walk_ok _ _ W) as [PO WB].
    assert (CN : (Datatypes.S (length (visited st)) <= count g)%nat).
    { replace (count g) with (length (node_list g)) by (unfold node_list; rewrite map_length; apply seq_length).
      change (Datatypes.S (length (visited st))) with (length (n :: visited st)).
      apply NoDup_incl_length; [constructor; auto|]. intros x [<-|X]; apply node_list_in; auto. }
    destruct (relax_all_low s (length (visited st)) (edges_at g n) (DState (visited st) (scores st) r)) as (st2 & R & L2); auto.
    + split; [rewrite E; apply PO|]. apply (LW s n). apply (Permutation_in _ (Permutation_sym PM)). now left.
    + intros s' v' X. apply LR in X. lia.
    + intros v w X. apply edges_at_hop in X. now apply hop_M in X.
    + rewrite R. destruct (step_visit st s n r st2 I O P V R) as [I' O'].
      pose proof (relax_all_vis _ _ _ _ R) as VE. cbn in VE.
      apply IH; auto; cbn [visited visit_next].
      * rewrite VE. constructor; auto.
      * rewrite VE. intros v [<-|X]; auto.
      * rewrite VE. exact L2.
Qed.

Lemma dijkstra_safe0 : 0 <= M -> dijkstra sub1 mul pop g start <> D_panic.
Proof.
  intros M0. destruct dinit_ok as [I O]. apply dloop_safe; auto; [constructor|intros v []|].
  intros s v [[= <- <-]|[]]. cbn. lia.
Qed.
End Small.

Lemma dijkstra_safe : small g -> dijkstra sub1 mul pop g start <> D_panic.
Proof.
  intros (M & A & B). destruct (Z_le_gt_dec 0 M) as [L|L]; [now apply (dijkstra_safe0 M)|].
  apply (dijkstra_safe0 0); [|unfold U64_MAX; lia|lia]. intros e I. apply A in I. lia.
Qed.
End D.

(** ** The routing table *)
Section T.
Variable one : Z.
Variable sub1 : Z -> Z.
Variable mul : Z -> Z -> Z.
Variable pop : heap -> option ((props * Z) * heap).
Hypothesis FL : float_ok one sub1 mul.
Hypothesis HP : heap_ok pop.
Variable g : graph.
Hypothesis GO : graph_ok one g.
Variable nodes : list Z.
Hypothesis NO : nodes_ok g nodes.

Notation cost := (cost sub1 mul).

(** What the table contains before the self-loops are inserted. *)
Definition table (srcs : list Z) (m : fmap (Z * Z) props) : Prop :=
  (forall a b p, get (a, b) m = Some p -> In a srcs /\ In b nodes /\ exists l, walk g a b l /\ p = cost l) /\
  (forall a b l, In a srcs -> In b nodes -> walk g a b l -> exists p, get (a, b) m = Some p /\ ple p (cost l)) /\
  NoDup (keys m).

Lemma get_app {K V} {EK : Eqb K} (k : K) (m m' : fmap K V) :
  get k (m ++ m') = match get k m with Some v => Some v | None => get k m' end.
Proof. induction m as [|[k' v] m IH]; [reflexivity|]. cbn. destruct (eqb k k'); [reflexivity|exact IH]. Qed.

Lemma get_tagged s (m : fmap Z props) (f : Z -> bool) a b :
  NoDup (keys m) ->
  get (a, b) (map (fun p => ((s, fst p), snd p)) (filter (fun p => f (fst p)) m)) =
  if (a =? s) && f b then get b m else None.
Proof.
  intros ND. induction m as [|[k v] m IH]; [now destruct (_ && _)|]. inversion ND as [|? ? NI ND']; subst.
  specialize (IH ND'). cbn [filter fst].
  assert (X : forall x, f k = x -> get (a, b) (map (fun p : Z * props => (s, fst p, snd p)) (filter (fun p => f (fst p)) m)) =
              if (a =? s) && f b then get b m else None) by (intros; exact IH).
  cbn [get]. change (eqb b k) with (b =? k).
  destruct (f k) eqn:F; cbn [map get fst snd].
  - change (eqb (a, b) (s, k)) with ((a =? s) && (b =? k)).
    destruct (Z.eqb_spec a s) as [Ea|Na]; cbn [andb].
    + destruct (Z.eqb_spec b k) as [Eb|Nb]; [subst; now rewrite F|]. rewrite IH. reflexivity.
    + rewrite IH. reflexivity.
  - rewrite IH. destruct (Z.eqb_spec b k) as [Eb|Nb]; [|reflexivity]. subst. rewrite F, andb_false_r. reflexivity.
Qed.

Lemma tagged_keys (s : Z) (m : fmap Z props) (f : Z -> bool) (x : Z * Z) :
  In x (keys (map (fun p => ((s, fst p), snd p)) (filter (fun p => f (fst p)) m))) -> fst x = s.
Proof.
  unfold keys. rewrite map_map. cbn. rewrite in_map_iff. intros (y & <- & _). reflexivity.
Qed.
Lemma tagged_nodup (s : Z) (m : fmap Z props) (f : Z -> bool) : NoDup (keys m) ->
  NoDup (keys (map (fun p => ((s, fst p), snd p)) (filter (fun p => f (fst p)) m))).
Proof.
  unfold keys. rewrite map_map. cbn. intros ND. induction m as [|[k v] m IH]; [constructor|].
  inversion ND as [|? ? NI ND']; subst. cbn. destruct (f k); cbn; [|auto]. constructor; [|auto].
  rewrite in_map_iff. intros (y & [= E] & I). apply filter_In in I as [I _]. apply NI. rewrite <- E. now apply in_map.
Qed.
Lemma nodup_app {A} (l l' : list A) : NoDup l -> NoDup l' -> (forall x, In x l -> ~ In x l') -> NoDup (l ++ l').
Proof.
  induction l as [|x l IH]; intros A1 A2 D; [exact A2|]. inversion A1; subst. cbn. constructor.
  - rewrite in_app_iff. intros [X|X]; [contradiction|]. exact (D x (or_introl eq_refl) X).
  - apply IH; auto. intros y Y. apply D. now right.
Qed.

Lemma all_paths_table srcs : NoDup srcs -> (forall n, In n srcs -> 0 <= n < Z.of_nat (count g)) ->
  forall m, all_paths sub1 mul pop g nodes srcs = Some m -> table srcs m.
Proof.
  induction srcs as [|s r IH]; intros ND B m; cbn [all_paths].
  - intros [= <-]. split; [intros a b p; discriminate|]. split; [intros a b l []|constructor].
  - inversion ND as [|? ? NI ND']; subst.
    destruct (dijkstra sub1 mul pop g s) as [d| |] eqn:D; try discriminate.
    destruct (all_paths sub1 mul pop g nodes r) as [rest|]; [|discriminate]. ob. intros [= <-].
    destruct (IH ND' (fun n I => B n (or_intror I)) rest eq_refl) as (T1 & T2 & T3).
    destruct (dijkstra_ok one sub1 mul pop FL HP g GO s (B s (or_introl eq_refl)) d D) as (D1 & D2 & D3).
    pose proof (get_tagged s d (fun x => existsb (Z.eqb x) nodes)) as GT. cbn beta in GT.
    split; [|split].
    + intros a b p. rewrite get_app, GT by exact D3.
      destruct (Z.eqb_spec a s) as [E|N]; cbn [andb].
      * subst a. destruct (existsb (Z.eqb b) nodes) eqn:X.
        -- apply existsb_in in X. destruct (get b d) as [q|] eqn:Gd.
           ++ intros [= <-]. apply D1 in Gd. split; [now left|]. auto.
           ++ intros Gr. apply T1 in Gr as (A & _). contradiction.
        -- intros Gr. apply T1 in Gr as (A & _). contradiction.
      * intros Gr. apply T1 in Gr as (A1 & A2). split; [now right|exact A2].
    + intros a b l I Ib W. rewrite get_app, GT by exact D3.
      destruct (Z.eqb_spec a s) as [E|N]; cbn [andb].
      * subst a. assert (X : existsb (Z.eqb b) nodes = true) by now apply existsb_in. rewrite X.
        destruct (D2 b l W) as (p & G & L). rewrite G. exists p. auto.
      * destruct I as [I|I]; [congruence|]. now apply T2.
    + unfold keys. rewrite map_app. apply nodup_app; [exact (tagged_nodup s d (fun x => existsb (Z.eqb x) nodes) D3)|exact T3|].
      intros [a b] I J. apply (tagged_keys s d (fun x => existsb (Z.eqb x) nodes)) in I. cbn in I. subst a.
      apply keys_get in J as (p & G). apply T1 in G as [A _]. contradiction.
Qed.

Lemma all_paths_safe srcs : small g -> (forall n, In n srcs -> 0 <= n < Z.of_nat (count g)) ->
  exists m, all_paths sub1 mul pop g nodes srcs = Some m.
Proof.
  intros SM. induction srcs as [|s r IH]; intros B; cbn [all_paths]; [now exists []|].
  pose proof (dijkstra_fuel one sub1 mul pop FL HP g GO s (B s (or_introl eq_refl))) as F.
  pose proof (dijkstra_safe one sub1 mul pop FL HP g GO s (B s (or_introl eq_refl)) SM) as P.
  destruct (dijkstra sub1 mul pop g s); try congruence.
  destruct (IH (fun n I => B n (or_intror I))) as (rest & ->). ob. eauto.
Qed.

(** The self-loops. *)
Lemma self_paths_ok ns : forall m r, NoDup ns -> incl ns nodes -> table nodes m ->
  forall m0, (forall n, In n ns -> get (n, n) m0 = get (n, n) m) -> NoDup (keys m0) ->
  self_paths g ns m0 = Some (G_ok r) ->
  (forall n, In n ns -> exists e, links g n n = [e] /\ get (n, n) r = Some (e_w e)) /\
  (forall k, (forall n, In n ns -> k <> (n, n)) -> get k r = get k m0) /\ NoDup (keys r).
Proof.
  intros m r ND IN T. induction ns as [|n ns IH]; intros m0 EQ NDm; cbn [self_paths].
  - intros [= <-]. split; [intros n []|]. split; auto.
  - inversion ND as [|? ? NI ND']; subst.
    destruct (get (n, n) m0) as [p|]; [|discriminate]. ob.
    unfold assert_then. destruct (peq p pdefault); [|discriminate].
    unfold get_edge_weight. rewrite connecting_links. destruct (links g n n) as [|e [|e' l]] eqn:LK; cbn [map]; try discriminate.
    intros H. assert (EQ' : forall n', In n' ns -> get (n', n') (put (n, n) (e_w e) m0) = get (n', n') m).
    { intros n' I. rewrite get_put_other; [apply EQ; now right|]. intros [= ->]. contradiction. }
    destruct (IH ND' (fun x X => IN x (or_intror X)) _ EQ' (nodup_put _ _ _ NDm) H) as (A & B & C).
    split; [|split; [|exact C]].
    + intros n' [<-|I]; [|now apply A]. exists e. split; [exact LK|]. rewrite B.
      * apply get_put_same.
      * intros x X [= ->]. contradiction.
    + intros k K. rewrite B; [|intros x X; apply K; now right]. apply get_put_other. apply K. now left.
Qed.

Lemma self_paths_cases ns : forall m, NoDup ns -> incl ns nodes -> table nodes m ->
  forall m0, (forall n, In n ns -> get (n, n) m0 = get (n, n) m) ->
  (self_paths g ns m0 = Some G_err /\ exists n, In n ns /\ length (links g n n) <> 1%nat) \/
  (exists r, self_paths g ns m0 = Some (G_ok r) /\ forall n, In n ns -> length (links g n n) = 1%nat).
Proof.
  intros m ND IN T. induction ns as [|n ns IH]; intros m0 EQ; cbn [self_paths].
  - right. exists m0. split; [reflexivity|intros n []].
  - inversion ND as [|? ? NI ND']; subst. destruct T as (T1 & T2 & T3).
    assert (Gn : get (n, n) m0 = Some pdefault).
    { rewrite EQ by now left. destruct (T2 n n [] (IN n (or_introl eq_refl)) (IN n (or_introl eq_refl)) (walk_here g n)) as (p & G & L).
      rewrite G. f_equal. destruct (T1 _ _ _ G) as (_ & _ & l & W & ->).
      assert (PO := walk_ok one sub1 mul FL g GO n). destruct NO as [_ NB].
      specialize (PO (NB n (IN n (or_introl eq_refl))) n l W). destruct PO as [[P1 P2] _].
      apply ple_antisym; [exact L|]. unfold ple, pdefault. cbn. lia. }
    rewrite Gn. ob. replace (peq pdefault pdefault) with true by reflexivity. unfold assert_then.
    unfold get_edge_weight. rewrite connecting_links.
    destruct (links g n n) as [|e [|e' l]] eqn:LK; cbn [map].
    + left. split; [reflexivity|]. exists n. split; [now left|]. rewrite LK. discriminate.
    + assert (EQ' : forall n', In n' ns -> get (n', n') (put (n, n) (e_w e) m0) = get (n', n') m).
      { intros n' I. rewrite get_put_other; [apply EQ; now right|]. intros [= ->]. contradiction. }
      destruct (IH ND' (fun x X => IN x (or_intror X)) _ EQ') as [(A & n' & I & L)|(r & A & B)].
      * left. split; [exact A|]. exists n'. split; [now right|exact L].
      * right. exists r. split; [exact A|]. intros n' [<-|I]; [now rewrite LK|now apply B].
    + left. split; [reflexivity|]. exists n. split; [now left|]. rewrite LK. discriminate.
Qed.

Lemma prod_length (l l' : list Z) : length (list_prod l l') = (length l * length l')%nat.
Proof. apply prod_length. Qed.
Lemma list_prod_nodup (l l' : list Z) : NoDup l -> NoDup l' -> NoDup (list_prod l l').
Proof.
  intros A B. induction A as [|x l NI A IH]; [constructor|]. cbn. apply nodup_app; auto.
  - apply FinFun.Injective_map_NoDup; [intros a b [= ->]; reflexivity|exact B].
  - intros [a b] I J. apply in_map_iff in I as (y & [= <- <-] & _). apply in_prod_iff in J. tauto.
Qed.

(** The result in the successful case. *)
Theorem routes_ok r : compute_shortest_paths sub1 mul pop g nodes = Some (G_ok r) ->
  (forall a b, In a nodes -> In b nodes -> a <> b ->
     exists p l, get (a, b) r = Some p /\ walk g a b l /\ p = cost l /\
                 forall l', walk g a b l' -> ple p (cost l')) /\
  (forall n, In n nodes -> exists e, links g n n = [e] /\ get (n, n) r = Some (e_w e)) /\
  (forall a b p, get (a, b) r = Some p -> In a nodes /\ In b nodes).
Proof.
  unfold compute_shortest_paths. destruct NO as [ND NB].
  destruct (all_paths sub1 mul pop g nodes nodes) as [m|] eqn:A; [|discriminate]. ob.
  pose proof (all_paths_table nodes ND NB m A) as T.
  destruct (self_paths g nodes m) as [[r0|]|] eqn:S; try discriminate. ob.
  unfold assert_then. destruct (Nat.eqb_spec (length r0) (length nodes * length nodes)) as [LN|]; [|discriminate].
  intros [= ->].
  destruct (self_paths_ok nodes m r ND (incl_refl _) T m (fun _ _ => eq_refl) (proj2 (proj2 T)) S) as (S1 & S2 & S3).
  assert (KI : forall a b, In (a, b) (keys r) -> In a nodes /\ In b nodes).
  { intros a b K. apply keys_get in K as (p & G). destruct (Z.eq_dec a b) as [E|N].
    - subst b. destruct (in_dec Z.eq_dec a nodes) as [I|I]; [auto|].
      rewrite S2 in G by (intros n X [= -> ]; contradiction). apply T in G. tauto.
    - rewrite S2 in G by (intros n X [= -> ->]; contradiction). apply T in G. tauto. }
  assert (ALL : forall a b, In a nodes -> In b nodes -> In (a, b) (keys r)).
  { intros a b Ia Ib. assert (X : incl (list_prod nodes nodes) (keys r)).
    { apply NoDup_length_incl; [exact S3| |].
      - rewrite prod_length. unfold keys. rewrite map_length. lia.
      - intros [x y] K. apply in_prod_iff. now apply KI. }
    apply X. now apply in_prod_iff. }
  split; [|split; [exact S1|]].
  - intros a b Ia Ib N. destruct (keys_get _ _ (ALL a b Ia Ib)) as (p & G).
    assert (G' := G). rewrite S2 in G' by (intros n X [= -> ->]; contradiction).
    destruct T as (T1 & T2 & T3). destruct (T1 _ _ _ G') as (_ & _ & l & W & E).
    exists p, l. repeat split; auto. intros l' W'. destruct (T2 a b l' Ia Ib W') as (p' & G2 & L).
    rewrite G' in G2. injection G2 as <-. exact L.
  - intros a b p G. apply KI. eapply get_keys; eauto.
Qed.

(** Exactly when it succeeds, fails and panics. *)
Theorem routes_cases : small g ->
  (compute_shortest_paths sub1 mul pop g nodes = Some G_err /\
     exists n, In n nodes /\ length (links g n n) <> 1%nat) \/
  ((forall n, In n nodes -> length (links g n n) = 1%nat) /\
     ((exists r, compute_shortest_paths sub1 mul pop g nodes = Some (G_ok r)) /\
        (forall a b, In a nodes -> In b nodes -> exists l, walk g a b l) \/
      (compute_shortest_paths sub1 mul pop g nodes = None /\
        exists a b, In a nodes /\ In b nodes /\ forall l, ~ walk g a b l))).
Proof.
  intros SM. unfold compute_shortest_paths. destruct NO as [ND NB].
  destruct (all_paths_safe nodes SM NB) as (m & A). rewrite A. ob.
  pose proof (all_paths_table nodes ND NB m A) as T.
  destruct (self_paths_cases nodes m ND (incl_refl _) T m (fun _ _ => eq_refl)) as [(E & X)|(r & E & X)]; rewrite E; ob; [now left|].
  right. split; [exact X|].
  destruct (self_paths_ok nodes m r ND (incl_refl _) T m (fun _ _ => eq_refl) (proj2 (proj2 T)) E) as (S1 & S2 & S3).
  assert (KI : forall a b, In (a, b) (keys r) -> In a nodes /\ In b nodes /\ exists l, walk g a b l).
  { intros a b K. apply keys_get in K as (p & G). destruct (Z.eq_dec a b) as [Eab|N].
    - subst b. destruct (in_dec Z.eq_dec a nodes) as [I|I]; [repeat split; auto; exists []; constructor|].
      rewrite S2 in G by (intros n Y [= -> ]; contradiction). apply T in G as (? & ? & l & W & _). eauto.
    - rewrite S2 in G by (intros n Y [= -> ->]; contradiction). apply T in G as (? & ? & l & W & _). eauto. }
  unfold assert_then. destruct (Nat.eqb_spec (length r) (length nodes * length nodes)) as [LN|LN].
  - left. split; [eauto|]. intros a b Ia Ib. apply KI.
    assert (Y : incl (list_prod nodes nodes) (keys r)).
    { apply NoDup_length_incl; [exact S3| |].
      - rewrite prod_length. unfold keys. rewrite map_length. lia.
      - intros [x y] K. apply KI in K. apply in_prod_iff. tauto. }
    apply Y. now apply in_prod_iff.
  - right. split; [reflexivity|].
    destruct (Forall_Exists_dec (fun k => In k (keys r)) (fun k => in_dec (fun x y : Z * Z => ltac:(decide equality; apply Z.eq_dec)) k (keys r)) (list_prod nodes nodes)) as [F|Ex].
    + exfalso. apply LN. rewrite <- prod_length. rewrite <- (map_length fst r). change (map fst r) with (keys r).
      apply Nat.le_antisymm; apply NoDup_incl_length; auto.
      * intros [x y] K. apply KI in K. apply in_prod_iff. tauto.
      * apply list_prod_nodup; auto.
      * rewrite Forall_forall in F. exact F.
    + apply Exists_exists in Ex as ([a b] & I & N). apply in_prod_iff in I as [Ia Ib].
      exists a, b. split; [exact Ia|]. split; [exact Ib|]. intros l W. apply N.
      destruct T as (T1 & T2 & T3). destruct (T2 a b l Ia Ib W) as (p & G & _).
      destruct (Z.eq_dec a b) as [Eab|Nab].
      * subst b. destruct (S1 a Ia) as (e & _ & Gr). eapply get_keys; eauto.
      * apply (get_keys _ p). rewrite S2; [exact G|]. intros n Y [= -> ->]. contradiction.
Qed.
End T.

(** ** Costs in terms of the specification *)
Lemma cost_latency sub1 mul l : latency (cost sub1 mul l) = walk_latency l.
Proof.
  unfold cost, walk_latency.
  enough (H : forall a, latency (fold_left (addw sub1 mul) l a) = latency a + zsum (map latency l)) by (rewrite H; reflexivity).
  induction l as [|w l IH]; intros a; [cbn; lia|]. cbn [fold_left map]. rewrite IH. unfold addw, zsum. cbn [latency fold_right]. lia.
Qed.
Lemma cost_loss sub1 mul l : loss (cost sub1 mul l) = walk_loss sub1 mul l.
Proof.
  unfold cost, walk_loss.
  enough (H : forall a, loss (fold_left (addw sub1 mul) l a) = fold_left (fun acc w => sub1 (mul (sub1 acc) (sub1 (loss w)))) l (loss a)) by (rewrite H; reflexivity).
  induction l as [|w l IH]; intros a; [reflexivity|]. cbn [fold_left]. rewrite IH. reflexivity.
Qed.

Lemma shortest one sub1 mul pop g nodes r :
  float_ok one sub1 mul -> heap_ok pop -> graph_ok one g -> nodes_ok g nodes ->
  compute_shortest_paths sub1 mul pop g nodes = Some (G_ok r) ->
  forall a b, In a nodes -> In b nodes -> a <> b ->
  exists p l, ri_path r a b = Some p /\ walk g a b l /\
    latency p = walk_latency l /\ loss p = walk_loss sub1 mul l /\
    (forall l', walk g a b l' -> latency p <= walk_latency l' /\
       (walk_latency l' = latency p -> loss p <= walk_loss sub1 mul l')).
Proof.
  intros FL HP GO NO C a b Ia Ib N.
  destruct (routes_ok one sub1 mul pop FL HP g GO nodes NO r C) as (R & _).
  destruct (R a b Ia Ib N) as (p & l & G & W & E & M). exists p, l. subst p.
  rewrite cost_latency, cost_loss. repeat split; auto.
  - apply M in H. unfold ple in H. rewrite !cost_latency in H. lia.
  - intros E. apply M in H. unfold ple in H. rewrite !cost_latency, !cost_loss in H. lia.
Qed.

Lemma self_loop one sub1 mul pop g nodes r :
  float_ok one sub1 mul -> heap_ok pop -> graph_ok one g -> nodes_ok g nodes ->
  compute_shortest_paths sub1 mul pop g nodes = Some (G_ok r) ->
  forall n, In n nodes -> exists e, links g n n = [e] /\ ri_path r n n = Some (e_w e).
Proof.
  intros FL HP GO NO C. destruct (routes_ok one sub1 mul pop FL HP g GO nodes NO r C) as (_ & R & _). exact R.
Qed.

(** Undirected walks can be reversed. *)
Lemma hop_sym g a b w : directed g = false -> hop g a b w -> hop g b a w.
Proof. intros D [I|[_ I]]; [right|left]; auto. Qed.
Lemma walk_cons g a b c w l : hop g a b w -> walk g b c l -> walk g a c (w :: l).
Proof.
  intros H W. induction W as [|b' c l w' W IH Hh].
  - change [w] with ([] ++ [w]). econstructor; [constructor|exact H].
  - change (w :: l ++ [w']) with ((w :: l) ++ [w']). econstructor; eauto.
Qed.
Lemma walk_rev g a b l : directed g = false -> walk g a b l -> walk g b a (rev l).
Proof.
  intros D W. induction W as [|b c l w W IH Hh]; [constructor|].
  rewrite rev_app_distr. cbn. eapply walk_cons; [|exact IH]. now apply hop_sym.
Qed.
Lemma zsum_rev l : zsum (rev l) = zsum l.
Proof. induction l as [|x l IH]; [reflexivity|]. cbn [rev]. rewrite zsum_app, IH. unfold zsum. cbn [fold_right]. lia. Qed.
Lemma walk_latency_rev l : walk_latency (rev l) = walk_latency l.
Proof. unfold walk_latency. rewrite map_rev. apply zsum_rev. Qed.

Lemma symmetric one sub1 mul pop g nodes r :
  float_ok one sub1 mul -> heap_ok pop -> graph_ok one g -> nodes_ok g nodes -> directed g = false ->
  compute_shortest_paths sub1 mul pop g nodes = Some (G_ok r) ->
  forall a b, In a nodes -> In b nodes ->
  exists p q, ri_path r a b = Some p /\ ri_path r b a = Some q /\ latency p = latency q.
Proof.
  intros FL HP GO NO D C a b Ia Ib.
  destruct (Z.eq_dec a b) as [E|N].
  { subst b. destruct (self_loop one sub1 mul pop g nodes r FL HP GO NO C a Ia) as (e & _ & G). eauto. }
  destruct (shortest one sub1 mul pop g nodes r FL HP GO NO C a b Ia Ib N) as (p & l & G & W & L & _ & M).
  destruct (shortest one sub1 mul pop g nodes r FL HP GO NO C b a Ib Ia (fun X => N (eq_sym X))) as (q & l' & G' & W' & L' & _ & M').
  exists p, q. split; [exact G|]. split; [exact G'|].
  pose proof (proj1 (M _ (walk_rev _ _ _ _ D W'))). pose proof (proj1 (M' _ (walk_rev _ _ _ _ D W))).
  rewrite walk_latency_rev in *. lia.
Qed.

(** ** Direct routing *)
Lemma direct_loop_ok g prs m : direct_loop g prs = G_ok m ->
  (forall a b, In (a, b) prs -> exists e, links g a b = [e] /\ get (a, b) m = Some (e_w e)) /\
  (forall k, In k (keys m) -> In k prs) /\ NoDup (keys m).
Proof.
  revert m. induction prs as [|[a b] prs IH]; intros m; cbn [direct_loop].
  - intros [= <-]. split; [intros a b []|]. split; [auto|constructor].
  - unfold get_edge_weight. rewrite connecting_links. destruct (links g a b) as [|e [|e' l]] eqn:LK; cbn [map]; try discriminate.
    destruct (direct_loop g prs) as [m'|]; [|discriminate]. intros [= <-]. destruct (IH m' eq_refl) as (A & B & C).
    split; [|split; [|now apply nodup_put]].
    + intros a' b' [[= <- <-]|I].
      * exists e. split; [exact LK|]. apply get_put_same.
      * destruct (A a' b' I) as (e2 & L2 & G2). exists e2. split; [exact L2|]. rewrite get_put.
        destruct (eqb_ok (a', b') (a, b)) as [E|N]; [|exact G2]. injection E as -> ->. congruence.
    + intros k [<-|K]; [now left|]. right. apply B. apply keys_del in K. tauto.
Qed.
Lemma direct_loop_err g prs : direct_loop g prs = G_err -> exists a b, In (a, b) prs /\ length (links g a b) <> 1%nat.
Proof.
  induction prs as [|[a b] prs IH]; cbn [direct_loop]; [discriminate|].
  unfold get_edge_weight. rewrite connecting_links. destruct (links g a b) as [|e [|e' l]] eqn:LK; cbn [map].
  - intros _. exists a, b. split; [now left|]. rewrite LK. discriminate.
  - destruct (direct_loop g prs); [discriminate|]. intros _. destruct (IH eq_refl) as (a' & b' & I & L). exists a', b'. split; [now right|exact L].
  - intros _. exists a, b. split; [now left|]. rewrite LK. discriminate.
Qed.
Lemma direct_ok g nodes : NoDup nodes ->
  match get_direct_paths g nodes with
  | Some (G_ok r) => forall a b, In a nodes -> In b nodes ->
      exists e, links g a b = [e] /\ ri_path r a b = Some (e_w e)
  | Some G_err => exists a b, In a nodes /\ In b nodes /\ length (links g a b) <> 1%nat
  | None => False
  end.
Proof.
  intros ND. unfold get_direct_paths. destruct (direct_loop g (list_prod nodes nodes)) as [m|] eqn:D.
  - destruct (direct_loop_ok g _ m D) as (A & B & C).
    assert (L : length m = (length nodes * length nodes)%nat).
    { rewrite <- (map_length fst m). change (map fst m) with (keys m). rewrite <- prod_length.
      apply Nat.le_antisymm; apply NoDup_incl_length; auto.
      - now apply list_prod_nodup.
      - intros [a b] I. destruct (A a b I) as (e & _ & G). eapply get_keys; eauto. }
    rewrite L, Nat.eqb_refl. unfold assert_then. intros a b Ia Ib. apply A. now apply in_prod_iff.
  - apply direct_loop_err in D as (a & b & I & L). apply in_prod_iff in I. exists a, b. tauto.
Qed.

(** ** The smallest latency of the table *)
Lemma fold_min l : forall x, fold_left Z.min l x <= x /\ (forall y, In y l -> fold_left Z.min l x <= y) /\
  (fold_left Z.min l x = x \/ In (fold_left Z.min l x) l).
Proof.
  induction l as [|z l IH]; intros x; cbn [fold_left]; [split; [lia|split; [intros y []|now left]]|].
  destruct (IH (Z.min x z)) as (A & B & C). split; [lia|]. split.
  - intros y [<-|I]; [lia|now apply B].
  - destruct C as [C|C]; [|right; now right]. rewrite C. destruct (Z.min_spec x z) as [[_ E]|[_ E]]; rewrite E; [now left|right; now left].
Qed.
Lemma smallest_ok (r : fmap (Z * Z) props) : NoDup (keys r) ->
  match smallest_latency r with
  | None => forall a b, ri_path r a b = None
  | Some m => (forall a b p, ri_path r a b = Some p -> m <= latency p) /\
              exists a b p, ri_path r a b = Some p /\ latency p = m
  end.
Proof.
  intros ND. unfold smallest_latency, ri_path. destruct r as [|[[a b] p] r]; [intros a b; reflexivity|]. cbn [map snd].
  destruct (fold_min (map (fun q => latency (snd q)) r) (latency p)) as (A & B & C). split.
  - intros a' b' p' G. apply get_in in G. destruct G as [[= -> -> ->]|I]; [exact A|]. apply B. apply in_map_iff. exists ((a', b'), p'). auto.
  - destruct C as [C|C].
    + exists a, b, p. split; [|symmetry; exact C]. apply in_get; [exact ND|now left].
    + apply in_map_iff in C as ([[a' b'] p'] & E & I). exists a', b', p'. split; [|exact E]. apply in_get; [exact ND|now right].
Qed.
Lemma routes_nodup one sub1 mul pop g nodes r :
  float_ok one sub1 mul -> heap_ok pop -> graph_ok one g -> nodes_ok g nodes ->
  compute_shortest_paths sub1 mul pop g nodes = Some (G_ok r) -> NoDup (keys r).
Proof.
  intros FL HP GO NO. unfold compute_shortest_paths. pose proof NO as [ND NB].
  destruct (all_paths sub1 mul pop g nodes nodes) as [m|] eqn:A; [|discriminate]. ob.
  pose proof (all_paths_table one sub1 mul pop FL HP g GO nodes nodes ND NB m A) as T.
  destruct (self_paths g nodes m) as [[r0|]|] eqn:S; try discriminate. ob.
  unfold assert_then. destruct (Nat.eqb _ _); [|discriminate]. intros [= ->].
  destruct (self_paths_ok sub1 mul g nodes nodes m r ND (incl_refl _) T m (fun _ _ => eq_refl) (proj2 (proj2 T)) S) as (_ & _ & S3).
  exact S3.
Qed.

(** ** The list-based queue *)
Lemma pop_list_ok : heap_ok pop_list.
Proof.
  intros h. induction h as [|x r IH]; [reflexivity|]. cbn [pop_list].
  destruct (pop_list r) as [[y r']|].
  - destruct IH as [P M]. destruct (plt (fst y) (fst x)) eqn:L.
    + split.
      * eapply perm_trans; [apply perm_skip, P|apply perm_swap].
      * intros z [<-|I]; [|now apply M]. apply plt_iff in L. apply plt_false. lia.
    + split; [now apply perm_skip|]. intros z [<-|I]; [apply plt_false; lia|]. apply M in I.
      apply plt_false in I, L. apply plt_false. lia.
  - subst r. split; [reflexivity|]. intros z [<-|[]]. apply plt_false. lia.
Qed.
