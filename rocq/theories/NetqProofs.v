(** Proofs about the socket queue. *)
From Verif Require Import Base NetqModel NetqSpec.

Definition before (a b : prioritized) : Prop := p_priority a < p_priority b \/ p_priority a = p_priority b /\ p_order a < p_order b.
Lemma p_cmp_gt a b : p_cmp a b = Gt <-> before a b.
Proof.
  unfold p_cmp, before. destruct (Z.compare_spec (p_priority a) (p_priority b)).
  - destruct (Z.compare_spec (p_order a) (p_order b)); cbn; split; intros; try congruence; try lia.
  - split; intros; [lia|reflexivity].
  - split; intros; [discriminate|lia].
Qed.
Lemma p_cmp_eq a b : p_cmp a b = Eq -> p_order a = p_order b.
Proof. unfold p_cmp. destruct (Z.compare_spec (p_priority a) (p_priority b)); try discriminate. destruct (Z.compare_spec (p_order a) (p_order b)); cbn; congruence. Qed.

Lemma pop_max_spec l : NoDup (map p_order l) -> match pop_max l with
  | None => l = []
  | Some (m, r) => Permutation l (m :: r) /\ forall x, In x r -> before m x end.
Proof.
  induction l as [|e l IH]; intros ND; [reflexivity|]. cbn [pop_max]. cbn in ND. inversion ND as [|? ? NI ND']; subst. specialize (IH ND').
  destruct (pop_max l) as [(m, r)|].
  - destruct IH as [P B]. assert (IM : forall x, In x l <-> In x (m :: r)) by (intros; split; apply Permutation_in; [|symmetry]; exact P).
    assert (NE : p_order m <> p_order e) by (intros E; apply NI; rewrite <- E; apply in_map, IM; left; reflexivity).
    destruct (p_cmp m e) eqn:C.
    + apply p_cmp_eq in C. contradiction.
    + split; [constructor; exact P|]. intros x [<-|I].
      * unfold p_cmp in C. unfold before. destruct (Z.compare_spec (p_priority m) (p_priority e)); try discriminate; try lia.
        destruct (Z.compare_spec (p_order m) (p_order e)); cbn in C; try discriminate; lia.
      * specialize (B x I). unfold before in *. unfold p_cmp in C. destruct (Z.compare_spec (p_priority m) (p_priority e)); try discriminate; try lia.
        destruct (Z.compare_spec (p_order m) (p_order e)); cbn in C; try discriminate; lia.
    + apply p_cmp_gt in C. split; [rewrite P; apply perm_swap|]. intros x [<-|I]; auto.
  - subst. split; [apply Permutation_refl|intros x []].
Qed.

Lemma existsb_in i l : existsb (Z.eqb i) l = true <-> In i l.
Proof. rewrite existsb_exists. split; [intros (x & I & E); apply Z.eqb_eq in E; now subst|intros; exists i; rewrite Z.eqb_refl; auto]. Qed.
Lemma existsb_nin i l : existsb (Z.eqb i) l = false <-> ~ In i l.
Proof. rewrite <- existsb_in. destruct (existsb (Z.eqb i) l); intuition congruence. Qed.
Lemma set_remove_perm i l r : NoDup l -> Permutation l (i :: r) -> Permutation (set_remove i l) r.
Proof.
  intros ND P. unfold set_remove. assert (ND2 : NoDup (i :: r)) by (eapply Permutation_NoDup; eassumption).
  apply (Permutation_trans (l' := filter (fun x => negb (x =? i)) (i :: r))).
  - clear ND ND2. induction P; cbn; repeat match goal with |- context[if ?b then _ else _] => destruct b end; auto using perm_swap.
    eapply Permutation_trans; eassumption.
  - cbn. rewrite Z.eqb_refl. cbn. inversion ND2 as [|? ? NI ND3]; subst. clear - NI. induction r as [|x r IH]; cbn; [constructor|].
    destruct (Z.eqb_spec x i); [exfalso; apply NI; left; auto|]. cbn. constructor. apply IH. intros I. apply NI. now right.
Qed.

(** The heap entries in arrival order: the abstract queue with push orders. *)
Definition entry (x : prioritized) : Z * Z := (p_item x, p_priority x).
Record heap_ok (l : aqueue) (heap : list prioritized) (c : Z) (es : list prioritized) : Prop := {
  ho_perm : Permutation heap es;
  ho_abs : l = map entry es;
  ho_sorted : StronglySorted (fun a b => p_order a < p_order b) es;
  ho_bound : Forall (fun x => p_order x < c) es }.
Record rep (k : kind) (n : Z) (l : aqueue) (q : netq) : Prop := {
  rp_members : Permutation (n_members q) (items l);
  rp_nodup : NoDup (items l);
  rp_disc : match k, n_disc q with
    | MinPriority, DMin heap c => 0 <= c <= n /\ exists es, heap_ok l heap c es
    | FirstInFirstOut, DFifo d => d = items l
    | _, _ => False end }.

Lemma rep_more k n n' l q : n <= n' -> rep k n l q -> rep k n' l q.
Proof. intros L [A B C]. constructor; auto. destruct k, (n_disc q); auto. destruct C as (X & Y). split; [lia|exact Y]. Qed.

Lemma sorted_nodup es : StronglySorted (fun a b => p_order a < p_order b) es -> NoDup (map p_order es).
Proof.
  induction 1 as [|a es S IH F]; cbn; constructor; auto. intros I. apply in_map_iff in I as (x & E & I).
  rewrite Forall_forall in F. specialize (F x I). lia.
Qed.
Lemma sorted_app {A} (R : A -> A -> Prop) l x : StronglySorted R l -> Forall (fun y => R y x) l -> StronglySorted R (l ++ [x]).
Proof.
  induction 1 as [|a l S IH F]; intros G; cbn; [constructor; constructor|]. inversion G; subst. constructor; auto.
  apply Forall_app. auto.
Qed.
Lemma sorted_mid {A} (R : A -> A -> Prop) pre x post : StronglySorted R (pre ++ x :: post) ->
  StronglySorted R (pre ++ post) /\ Forall (fun y => R y x) pre /\ Forall (R x) post.
Proof.
  induction pre as [|a pre IH]; cbn; intros S.
  - inversion S; subst. auto.
  - inversion S as [|? ? S' F]; subst. destruct (IH S') as (A1 & A2 & A3). apply Forall_app in F as [F1 F2]. inversion F2; subst.
    split; [constructor; [exact A1|apply Forall_app; auto]|]. auto.
Qed.

Lemma new_rep k : rep k 0 [] (nq_new k).
Proof. destruct k; constructor; cbn; try constructor; auto; try lia. exists []. constructor; constructor. Qed.

Lemma push_rep k n l q i p : rep k n l q -> n < U64_MAX -> (k = MinPriority -> p <> None) ->
  if nq_contains q i then In i (items l) /\ nq_try_push q i p = Some (q, Some AlreadyQueued)
  else ~ In i (items l) /\ exists q', nq_try_push q i p = Some (q', None) /\ rep k (n + 1) (l ++ [(i, pri_of p)]) q'.
Proof.
  intros [M ND D] B NP. destruct (nq_contains q i) eqn:C.
  - split; [apply existsb_in in C; eapply Permutation_in; eassumption|]. unfold nq_try_push. rewrite C. reflexivity.
  - assert (NI : ~ In i (items l)) by (intros I; apply existsb_nin in C; apply C; eapply Permutation_in; [symmetry; exact M|exact I]).
    split; [exact NI|]. unfold nq_try_push. rewrite C.
    assert (M' : Permutation (i :: n_members q) (items (l ++ [(i, pri_of p)]))).
    { unfold items. rewrite map_app. cbn. rewrite Permutation_app_comm. cbn. constructor. exact M. }
    assert (ND' : NoDup (items (l ++ [(i, pri_of p)]))).
    { eapply Permutation_NoDup; [exact M'|]. constructor; [intros I; apply NI; eapply Permutation_in; eassumption|].
      eapply Permutation_NoDup; [symmetry; exact M|exact ND]. }
    destruct k, (n_disc q) as [heap c|d] eqn:DQ; try contradiction.
    + destruct D as (CB & es & [HP HA HS HB]). destruct p as [p|]; [|exfalso; apply (NP eq_refl eq_refl)]. rewrite assert_true by lia.
      rewrite assert_true.
      * eexists. split; [reflexivity|]. constructor; cbn [n_members n_disc]; auto. split; [lia|]. exists (es ++ [mkP i p c]). constructor.
        -- rewrite Permutation_app_comm. cbn. constructor. exact HP.
        -- rewrite map_app, HA. reflexivity.
        -- apply sorted_app; [exact HS|exact HB].
        -- apply Forall_app. split; [|constructor; [cbn; lia|constructor]]. eapply Forall_impl; [|exact HB]. cbn. intros; lia.
      * apply forallb_forall. intros x I. destruct (p_cmp (mkP i p c) x) eqn:E; auto. apply p_cmp_eq in E. cbn in E.
        assert (I2 : In x es) by (eapply Permutation_in; eassumption). rewrite Forall_forall in HB. specialize (HB x I2). lia.
    + subst d. eexists. split; [reflexivity|]. constructor; cbn [n_members n_disc]; auto. unfold items. rewrite map_app. reflexivity.
Qed.

Lemma pop_rep k n l q : rep k n l q -> exists q' r, nq_pop q = Some (q', r) /\
  match r with
  | None => l = [] /\ q' = q
  | Some i => exists pre x post, l = pre ++ x :: post /\ next_is k pre x post /\ i = fst x /\ rep k n (pre ++ post) q'
  end.
Proof.
  intros R. pose proof R as [M ND D]. unfold nq_pop. destruct k, (n_disc q) as [heap c|d] eqn:DQ; try contradiction.
  - destruct D as (CB & es & [HP HA HS HB]). pose proof (sorted_nodup _ HS) as NO.
    assert (NH : NoDup (map p_order heap)) by (eapply Permutation_NoDup; [symmetry; apply Permutation_map; exact HP|exact NO]).
    pose proof (pop_max_spec heap NH) as PM. destruct (pop_max heap) as [(m, r)|].
    + destruct PM as [P BF]. assert (IM : In m es). { eapply Permutation_in; [exact HP|]. eapply Permutation_in; [symmetry; exact P|]. left; reflexivity. }
      apply in_split in IM as (e1 & e2 & ->).
      assert (PR : Permutation r (e1 ++ e2)).
      { apply Permutation_cons_inv with (a := m). rewrite <- P, HP. symmetry. apply Permutation_middle. }
      subst l. rewrite map_app in *. cbn [map] in *.
      assert (MI : In (p_item m) (n_members q)).
      { eapply Permutation_in; [symmetry; exact M|]. unfold items. rewrite map_app. apply in_app_iff. right. left. reflexivity. }
      rewrite (assert_true _ _ (proj2 (existsb_in _ _) MI)). do 2 eexists. split; [reflexivity|]. cbv beta iota.
      exists (map entry e1), (entry m), (map entry e2). split; [reflexivity|].
      destruct (sorted_mid _ _ _ _ HS) as (S1 & S2 & S3).
      split; [|split; [reflexivity|]].
      * split; intros y I; apply in_map_iff in I as (x & <- & I); cbn.
        -- assert (IR : In x r) by (eapply Permutation_in; [symmetry; exact PR|apply in_app_iff; auto]). specialize (BF x IR).
           rewrite Forall_forall in S2. specialize (S2 x I). cbn in S2. unfold before in BF. lia.
        -- assert (IR : In x r) by (eapply Permutation_in; [symmetry; exact PR|apply in_app_iff; auto]). specialize (BF x IR). unfold before in BF. lia.
      * constructor; cbn [n_members n_disc].
        -- apply set_remove_perm; [eapply Permutation_NoDup; [symmetry; exact M|exact ND]|]. rewrite M. unfold items. rewrite !map_app. cbn. symmetry. apply Permutation_middle.
        -- unfold items in *. rewrite map_app in *. cbn in ND. eapply NoDup_remove_1. exact ND.
        -- split; [exact CB|]. exists (e1 ++ e2). constructor; [exact PR|rewrite map_app; reflexivity|exact S1|].
           apply Forall_app in HB as [B1 B2]. inversion B2; subst. apply Forall_app. auto.
    + subst heap. apply Permutation_nil in HP. subst es. cbn in HA. subst l. do 2 eexists. split; [reflexivity|]. cbn. auto.
  - subst d. destruct l as [|x l]; cbn [items map].
    + do 2 eexists. split; [reflexivity|]. cbn. auto.
    + assert (MI : In (fst x) (n_members q)) by (eapply Permutation_in; [symmetry; exact M|left; reflexivity]).
      rewrite (assert_true _ _ (proj2 (existsb_in _ _) MI)). do 2 eexists. split; [reflexivity|]. cbv beta iota.
      exists [], x, l. split; [reflexivity|]. split; [reflexivity|]. split; [reflexivity|]. cbn [app]. constructor; cbn [n_members n_disc].
      * apply set_remove_perm; [eapply Permutation_NoDup; [symmetry; exact M|exact ND]|exact M].
      * cbn in ND. inversion ND; assumption.
      * reflexivity.
Qed.

Lemma step_ok k n l q o : rep k n l q -> n < U64_MAX -> gives_priority k o ->
  match nq_step q o with
  | Some (q', r) => exists l', spec_step k l o r l' /\ rep k (n + 1) l' q'
  | None => exists i p, o = NPush i p /\ In i (items l)
  end.
Proof.
  intros R B G. destruct o as [i p|i p| | |i| |]; cbn [nq_step gives_priority] in *.
  - pose proof (push_rep k n l q i p R B G) as H. destruct (nq_contains q i).
    + destruct H as [I E]. rewrite E. ob. exists l. split; [now constructor|eapply rep_more; [|exact R]; lia].
    + destruct H as (NI & q' & E & R'). rewrite E. ob. eexists. split; [now apply STryNew|exact R'].
  - unfold nq_push. pose proof (push_rep k n l q i p R B G) as H. destruct (nq_contains q i).
    + destruct H as [I E]. rewrite E. ob. exists i, p. auto.
    + destruct H as (NI & q' & E & R'). rewrite E. ob. eexists. split; [now apply SPush|exact R'].
  - destruct (pop_rep k n l q R) as (q' & r & E & H). rewrite E. ob. destruct r as [i|].
    + destruct H as (pre & x & post & -> & NX & -> & R'). exists (pre ++ post). split; [eapply SPop; eauto|eapply rep_more; [|exact R']; lia].
    + destruct H as [-> ->]. exists []. split; [now apply SPopNone|eapply rep_more; [|exact R]; lia].
  - exists []. split; [constructor|]. destruct R as [M ND D]. constructor; cbn; try constructor. unfold nq_clear. cbn [n_disc].
    destruct k, (n_disc q); try contradiction; auto. destruct D as (C & _). split; [lia|]. exists []. constructor; constructor.
  - exists l. split; [|eapply rep_more; [|exact R]; lia]. constructor. unfold nq_contains. rewrite existsb_in. destruct R as [M _ _].
    split; apply Permutation_in; [exact M|symmetry; exact M].
  - exists l. split; [|eapply rep_more; [|exact R]; lia]. unfold nq_len. destruct R as [M _ _].
    rewrite (Permutation_length M). unfold items. rewrite map_length. constructor.
  - exists l. split; [|eapply rep_more; [|exact R]; lia]. constructor. unfold nq_is_empty, nq_len. destruct R as [M _ _].
    rewrite (Permutation_length M). unfold items. rewrite map_length. destruct l; cbn [length]; split; intros; try reflexivity; try discriminate; lia.
Qed.

Lemma run_ok k ops : forall n l q q' rs, rep k n l q -> n + Z.of_nat (length ops) <= U64_MAX -> Forall (gives_priority k) ops ->
  nq_run q ops = Some (q', rs) -> exists l', spec_run k l ops rs l' /\ rep k (n + Z.of_nat (length ops)) l' q'.
Proof.
  induction ops as [|o ops IH]; intros n l q q' rs R B G E.
  - cbn in E. injection E as <- <-. exists l. split; [constructor|]. eapply rep_more; [|exact R]. cbn. lia.
  - cbn [nq_run length] in *. inversion G as [|? ? G1 G2]; subst. pose proof (step_ok k n l q o R ltac:(lia) G1) as S.
    destruct (nq_step q o) as [(q1, a)|]; [|discriminate]. ob_in E. destruct S as (l1 & S & R1).
    destruct (nq_run q1 ops) as [(q2, rs')|] eqn:E2; [|discriminate]. ob_in E. injection E as <- <-.
    destruct (IH (n + 1) l1 q1 q2 rs' R1 ltac:(lia) G2 E2) as (l2 & S2 & R2). exists l2. split; [econstructor; eassumption|].
    eapply rep_more; [|exact R2]. lia.
Qed.

Lemma queue_refines k ops q rs : Z.of_nat (length ops) <= U64_MAX -> Forall (gives_priority k) ops ->
  nq_run (nq_new k) ops = Some (q, rs) -> exists l, spec_run k [] ops rs l.
Proof. intros B G E. destruct (run_ok k ops 0 [] _ q rs (new_rep k) ltac:(lia) G E) as (l & S & _). eauto. Qed.

Lemma next_unique k pre x post pre' x' post' : NoDup (items (pre ++ x :: post)) -> pre ++ x :: post = pre' ++ x' :: post' -> next_is k pre x post -> next_is k pre' x' post' ->
  pre = pre' /\ x = x' /\ post = post'.
Proof.
  intros ND E N N'. destruct k; cbn in *.
  - destruct N as [A B], N' as [A' B'].
    assert (L : length pre = length pre').
    { destruct (Nat.lt_trichotomy (length pre) (length pre')) as [L|[L|L]]; [exfalso| exact L |exfalso].
      - assert (I : In x pre'). { assert (X : nth_error (pre ++ x :: post) (length pre) = Some x) by (rewrite nth_error_app2 by lia; rewrite Nat.sub_diag; reflexivity).
          rewrite E, nth_error_app1 in X by lia. eapply nth_error_In; eassumption. }
        assert (I2 : In x' post). { assert (X : nth_error (pre' ++ x' :: post') (length pre') = Some x') by (rewrite nth_error_app2 by lia; rewrite Nat.sub_diag; reflexivity).
          rewrite <- E, nth_error_app2 in X by lia. destruct (length pre' - length pre)%nat eqn:D; [lia|]. cbn in X. eapply nth_error_In; eassumption. }
        specialize (A' x I). specialize (B x' I2). lia.
      - assert (I : In x' pre). { assert (X : nth_error (pre' ++ x' :: post') (length pre') = Some x') by (rewrite nth_error_app2 by lia; rewrite Nat.sub_diag; reflexivity).
          rewrite <- E, nth_error_app1 in X by lia. eapply nth_error_In; eassumption. }
        assert (I2 : In x post'). { assert (X : nth_error (pre ++ x :: post) (length pre) = Some x) by (rewrite nth_error_app2 by lia; rewrite Nat.sub_diag; reflexivity).
          rewrite E, nth_error_app2 in X by lia. destruct (length pre - length pre')%nat eqn:D; [lia|]. cbn in X. eapply nth_error_In; eassumption. }
        specialize (A x' I). specialize (B' x I2). lia. }
    clear - E L. revert pre' L E. induction pre as [|a pre IH]; intros [|b pre'] L E; cbn in *; try lia.
    + injection E as -> ->. auto.
    + injection E as -> E. destruct (IH pre' ltac:(lia) E) as (-> & -> & ->). auto.
  - subst. cbn in E. injection E as -> ->. auto.
Qed.

(** The specification leaves no choice: it determines the next state. *)
Lemma spec_nodup k l o r l' : spec_step k l o r l' -> NoDup (items l) -> NoDup (items l').
Proof.
  intros S ND. destruct S; auto.
  - unfold items. rewrite map_app. cbn. eapply Permutation_NoDup; [apply Permutation_cons_append|]. constructor; assumption.
  - unfold items. rewrite map_app. cbn. eapply Permutation_NoDup; [apply Permutation_cons_append|]. constructor; assumption.
  - subst l. unfold items in *. rewrite map_app in *. cbn in ND. eapply NoDup_remove_1. exact ND.
  - constructor.
Qed.
Lemma spec_run_nodup k l ops rs l' : spec_run k l ops rs l' -> NoDup (items l) -> NoDup (items l').
Proof. induction 1; eauto using spec_nodup. Qed.
Lemma spec_det k l o r l1 r' l2 : NoDup (items l) -> spec_step k l o r l1 -> spec_step k l o r' l2 -> r = r' /\ l1 = l2.
Proof.
  intros ND A B. destruct A; inversion B; subst; try contradiction; auto.
  - destruct pre; discriminate.
  - destruct pre; discriminate.
  - match goal with H : _ ++ _ :: _ = _ ++ _ :: _, N1 : next_is _ _ _ _, N2 : next_is _ _ _ _ |- _ =>
      destruct (next_unique k _ _ _ _ _ _ ND H N1 N2) as (<- & <- & <-) end. auto.
  - split; [|reflexivity]. f_equal. apply Bool.eq_iff_eq_true. tauto.
  - split; [|reflexivity]. f_equal. apply Bool.eq_iff_eq_true. tauto.
Qed.
Lemma spec_run_det k l ops rs l1 : spec_run k l ops rs l1 -> NoDup (items l) -> forall rs' l2, spec_run k l ops rs' l2 -> rs = rs' /\ l1 = l2.
Proof.
  induction 1 as [l|l la lb o r ops rs S R IH]; intros ND rs' l3 R'.
  - inversion R'; auto.
  - inversion R' as [|? la' ? ? r' ? rs'' S' R'']; subst. destruct (spec_det _ _ _ _ _ _ _ ND S S') as [-> ->].
    destruct (IH (spec_nodup _ _ _ _ _ S ND) _ _ R'') as [-> ->]. auto.
Qed.

Lemma queue_progress k ops o q rs l : Z.of_nat (length ops) < U64_MAX -> Forall (gives_priority k) (ops ++ [o]) ->
  nq_run (nq_new k) ops = Some (q, rs) -> spec_run k [] ops rs l ->
  (forall i p, o = NPush i p -> ~ In i (items l)) -> nq_step q o <> None.
Proof.
  intros B G E S NP. apply Forall_app in G as [G1 G2]. inversion G2 as [|? ? G3 _]; subst.
  destruct (run_ok k ops 0 [] _ q rs (new_rep k) ltac:(lia) G1 E) as (l' & S' & R).
  destruct (spec_run_det _ _ _ _ _ S ltac:(constructor) _ _ S') as [_ <-].
  pose proof (step_ok k _ l q o R ltac:(lia) G3) as H. destruct (nq_step q o) as [[q' a]|]; [discriminate|].
  destruct H as (i & p & -> & I). exfalso. eapply NP; eauto.
Qed.

Lemma spec_conserve k l ops rs l' : spec_run k l ops rs l' -> ~ In NClear ops ->
  Permutation (items l ++ queued ops rs) (returned rs ++ items l').
Proof.
  induction 1 as [l|l l1 l2 o r ops rs S R IH]; intros NC.
  - cbn. rewrite app_nil_r. apply Permutation_refl.
  - assert (NC' : ~ In NClear ops) by (intros I; apply NC; now right). specialize (IH NC').
    destruct S; cbn [queued returned]; try exact IH.
    + unfold items in *. rewrite map_app in IH. cbn in IH. rewrite <- app_assoc in IH. exact IH.
    + unfold items in *. rewrite map_app in IH. cbn in IH. rewrite <- app_assoc in IH. exact IH.
    + subst l. unfold items in *. rewrite map_app in *. cbn. rewrite <- app_assoc. cbn. rewrite <- Permutation_middle. constructor.
      rewrite app_assoc. exact IH.
    + exfalso. apply NC. now left.
Qed.
Lemma queue_conserve k ops q rs l : Z.of_nat (length ops) <= U64_MAX -> Forall (gives_priority k) ops -> ~ In NClear ops ->
  nq_run (nq_new k) ops = Some (q, rs) -> spec_run k [] ops rs l ->
  NoDup (items l) /\ Permutation (queued ops rs) (returned rs ++ items l).
Proof.
  intros B G NC E S. split; [eapply spec_run_nodup; [exact S|constructor]|]. exact (spec_conserve _ _ _ _ _ S NC).
Qed.
