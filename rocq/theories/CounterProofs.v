From Coq Require Import String Ascii.
From Verif Require Import Base FMap CounterModel CounterSpec.

(** * Strings *)
Lemma ascii_compare_eq a b : Ascii.compare a b = Eq -> a = b.
Proof. apply Ascii.compare_eq_iff. Qed.
Lemma ascii_lt_trans a b c : Ascii.compare a b = Lt -> Ascii.compare b c = Lt -> Ascii.compare a c = Lt.
Proof. unfold Ascii.compare. rewrite !N.compare_lt_iff. lia. Qed.
Lemma ascii_refl a : Ascii.compare a a = Eq.
Proof. unfold Ascii.compare. apply N.compare_refl. Qed.

Lemma string_lt_trans a b c : String.compare a b = Lt -> String.compare b c = Lt -> String.compare a c = Lt.
Proof.
  revert b c. induction a as [|x a IH]; intros [|y b] [|z c]; cbn; try discriminate; auto.
  destruct (Ascii.compare x y) eqn:E1; try discriminate; destruct (Ascii.compare y z) eqn:E2; try discriminate; intros H1 H2.
  - apply ascii_compare_eq in E1, E2. subst. rewrite ascii_refl. eauto.
  - apply ascii_compare_eq in E1. subst. now rewrite E2.
  - apply ascii_compare_eq in E2. subst. now rewrite E1.
  - now rewrite (ascii_lt_trans _ _ _ E1 E2).
Qed.
Lemma string_cmp_opp a b : String.compare b a = CompOpp (String.compare a b).
Proof. apply String.compare_antisym. Qed.
Lemma string_cmp_refl a : String.compare a a = Eq.
Proof. induction a as [|x a IH]; [reflexivity|]. cbn. now rewrite ascii_refl. Qed.
Lemma string_cmp_eq a b : String.compare a b = Eq <-> a = b.
Proof. split; [apply String.compare_eq_iff|intros ->; apply string_cmp_refl]. Qed.

(** * The representation *)
Definition rep (c : counter) : Prop := NoDup (keys c) /\ forall k v, In (k, v) c -> v <> 0.

Lemma rep_get c k v : rep c -> get k c = Some v -> v <> 0.
Proof. intros [_ N] G. apply get_in in G. eauto. Qed.

Lemma rep_new : rep counter_new.
Proof. split; [constructor|intros k v []]. Qed.

Lemma rep_put c k v : rep c -> v <> 0 -> rep (put k v c).
Proof.
  intros [A B] N. split; [now apply nodup_put|]. intros k' v' [[= <- <-]|I]; [exact N|].
  apply in_del in I as [I _]. eauto.
Qed.
Lemma rep_del c k : NoDup (keys c) -> (forall k' v, In (k', v) c -> k' <> k -> v <> 0) -> rep (del k c).
Proof.
  intros A B. split; [now apply nodup_del|]. intros k' v I. apply in_del in I as [I N]. eauto.
Qed.
Lemma get_value_put c k v x : get_value (put k v c) x = if String.eqb x k then v else get_value c x.
Proof. unfold get_value. rewrite get_put. cbn. destruct (String.eqb x k); reflexivity. Qed.
Lemma get_value_del c k x : get_value (del k c) x = if String.eqb x k then 0 else get_value c x.
Proof. unfold get_value. rewrite get_del. cbn. destruct (String.eqb x k); reflexivity. Qed.

Definition op_val (op : cop) (old v : Z) : Z := match op with CAdd => old + v | CSub => old - v | CSet => v end.

Lemma in_i64_iff x : in_i64 x = true <-> -9223372036854775808 <= x <= 9223372036854775807.
Proof. unfold in_i64, I64_MIN, I64_MAX. lia. Qed.

Lemma c_apply_val op old v r : c_apply op old v = Some r -> r = op_val op old v.
Proof.
  destruct op; cbn; unfold assert_then; try (destruct (in_i64 _); [|discriminate]); now intros [= <-].
Qed.
Lemma c_apply_some op old v : -9223372036854775808 <= op_val op old v <= 9223372036854775807 ->
  c_apply op old v = Some (op_val op old v).
Proof. intros H. apply in_i64_iff in H. destruct op; cbn in *; unfold assert_then; now rewrite ?H. Qed.

(** One operation, by its effect. *)
Lemma operate_shape c id op v : rep c ->
  operate c id op v =
    (do r <- c_apply op (get_value c id) v;
     if r =? 0 then Some (del id c, 0) else Some (put id r c, r)).
Proof.
  intros R. unfold operate, get_value. destruct (get id c) as [old|] eqn:G.
  - unfold operate_present. rewrite G. ob. destruct (c_apply op old v) as [r|]; [|reflexivity]. ob.
    destruct (Z.eqb_spec r 0) as [->|N]; [|reflexivity]. rewrite get_put_same. rewrite assert_true by reflexivity.
    now rewrite del_put.
  - unfold operate_present. rewrite assert_true by reflexivity. rewrite get_put_same. ob.
    destruct (c_apply op 0 v) as [r|]; [|reflexivity]. ob. rewrite put_put.
    destruct (Z.eqb_spec r 0) as [->|N]; [|reflexivity].
    rewrite get_put_same. rewrite assert_true by reflexivity. now rewrite del_put.
Qed.

Lemma operate_ok c id op v c' r : rep c -> operate c id op v = Some (c', r) ->
  rep c' /\ r = get_value c' id /\
  forall k, get_value c' k = if String.eqb k id then op_val op (get_value c id) v else get_value c k.
Proof.
  intros R E. rewrite operate_shape in E by exact R. destruct (c_apply op (get_value c id) v) as [x|] eqn:A; [|discriminate].
  apply c_apply_val in A. ob_in E. destruct (Z.eqb_spec x 0) as [->|N]; injection E as <- <-.
  - split; [|split].
    + apply rep_del; [apply R|]. intros k' y I _. eapply R. exact I.
    + rewrite get_value_del, String.eqb_refl. reflexivity.
    + intros k. rewrite get_value_del. destruct (String.eqb_spec k id); [subst; assumption|reflexivity].
  - split; [|split].
    + now apply rep_put.
    + rewrite get_value_put, String.eqb_refl. reflexivity.
    + intros k. rewrite get_value_put. destruct (String.eqb_spec k id); [subst; reflexivity|reflexivity].
Qed.

Lemma operate_some c id op v : rep c -> -9223372036854775808 <= op_val op (get_value c id) v <= 9223372036854775807 ->
  exists c' r, operate c id op v = Some (c', r).
Proof.
  intros R B. rewrite operate_shape by exact R. rewrite c_apply_some by exact B. ob.
  destruct (_ =? 0); eauto.
Qed.

Lemma get_value_cons k v it x : get_value ((k, v) :: it) x = if String.eqb x k then v else get_value it x.
Proof. unfold get_value. cbn. destruct (String.eqb x k); reflexivity. Qed.
Lemma get_value_notin it k : ~ In k (keys it) -> get_value it k = 0.
Proof. intros N. unfold get_value. apply get_none in N. now rewrite N. Qed.

Lemma add_items_ok it : forall c c', rep c -> NoDup (keys it) -> add_items c it = Some c' ->
  rep c' /\ forall k, get_value c' k = get_value c k + get_value it k.
Proof.
  induction it as [|[k v] it IH]; intros c c' R ND E.
  - injection E as <-. split; [exact R|]. intros k. unfold get_value at 3. cbn. lia.
  - cbn [add_items] in E. unfold add_value in E. inversion ND as [|? ? N ND']; subst.
    destruct (operate c k CAdd v) as [[c1 r]|] eqn:O; [|discriminate]. ob_in E.
    destruct (operate_ok _ _ _ _ _ _ R O) as (R1 & _ & V). destruct (IH _ _ R1 ND' E) as [R2 V2].
    split; [exact R2|]. intros x. rewrite V2, V, get_value_cons. destruct (String.eqb_spec x k) as [->|NE]; [|reflexivity].
    rewrite (get_value_notin it) by exact N. cbn. lia.
Qed.
Lemma sub_items_ok it : forall c c', rep c -> NoDup (keys it) -> sub_items c it = Some c' ->
  rep c' /\ forall k, get_value c' k = get_value c k - get_value it k.
Proof.
  induction it as [|[k v] it IH]; intros c c' R ND E.
  - injection E as <-. split; [exact R|]. intros k. unfold get_value at 3. cbn. lia.
  - cbn [sub_items] in E. unfold sub_value in E. inversion ND as [|? ? N ND']; subst.
    destruct (operate c k CSub v) as [[c1 r]|] eqn:O; [|discriminate]. ob_in E.
    destruct (operate_ok _ _ _ _ _ _ R O) as (R1 & _ & V). destruct (IH _ _ R1 ND' E) as [R2 V2].
    split; [exact R2|]. intros x. rewrite V2, V, get_value_cons. destruct (String.eqb_spec x k) as [->|NE]; [|reflexivity].
    rewrite (get_value_notin it) by exact N. cbn. lia.
Qed.
Lemma add_items_some it : forall c, rep c -> NoDup (keys it) ->
  (forall k, -9223372036854775808 <= get_value c k + get_value it k <= 9223372036854775807) -> add_items c it <> None.
Proof.
  induction it as [|[k v] it IH]; intros c R ND B; [discriminate|].
  cbn [add_items]. unfold add_value. inversion ND as [|? ? N ND']; subst.
  destruct (operate_some c k CAdd v R) as (c1 & r & O).
  { specialize (B k). rewrite get_value_cons, String.eqb_refl in B. exact B. }
  rewrite O. ob. destruct (operate_ok _ _ _ _ _ _ R O) as (R1 & _ & V). apply IH; [exact R1|exact ND'|].
  intros x. specialize (B x). rewrite get_value_cons in B. rewrite V. revert B. destruct (String.eqb_spec x k) as [E|NE]; intros B; [subst x|exact B].
  rewrite (get_value_notin it) by exact N. cbn. lia.
Qed.
Lemma sub_items_some it : forall c, rep c -> NoDup (keys it) ->
  (forall k, -9223372036854775808 <= get_value c k - get_value it k <= 9223372036854775807) -> sub_items c it <> None.
Proof.
  induction it as [|[k v] it IH]; intros c R ND B; [discriminate|].
  cbn [sub_items]. unfold sub_value. inversion ND as [|? ? N ND']; subst.
  destruct (operate_some c k CSub v R) as (c1 & r & O).
  { specialize (B k). rewrite get_value_cons, String.eqb_refl in B. exact B. }
  rewrite O. ob. destruct (operate_ok _ _ _ _ _ _ R O) as (R1 & _ & V). apply IH; [exact R1|exact ND'|].
  intros x. specialize (B x). rewrite get_value_cons in B. rewrite V. revert B. destruct (String.eqb_spec x k) as [E|NE]; intros B; [subst x|exact B].
  rewrite (get_value_notin it) by exact N. cbn. lia.
Qed.

Lemma perm_rep it c : Permutation it c -> rep c -> NoDup (keys it) /\ forall k, get_value it k = get_value c k.
Proof.
  intros P [A B]. assert (ND : NoDup (keys it)) by (eapply Permutation_NoDup; [apply Permutation_sym, Permutation_map, P|exact A]).
  split; [exact ND|]. intros k. unfold get_value. now rewrite (get_perm k it c P ND).
Qed.

Lemma cexec_ok : forall h o, cexec h o -> forall c, o = Some c -> rep c /\ forall k, get_value c k = total h k.
Proof.
  induction 1 as [|h id op v c X IH|h id op v X IH|h o c co it X IH X2 IH2 P|h o X|h o c co it X IH X2 IH2 P|h o X]; intros c' E; try discriminate.
  - injection E as <-. split; [apply rep_new|]. reflexivity.
  - destruct (operate c id op v) as [[c1 r]|] eqn:O; [|discriminate]. ob_in E. injection E as <-.
    destruct (IH _ eq_refl) as [R V]. destruct (operate_ok _ _ _ _ _ _ R O) as (R1 & _ & V1). split; [exact R1|].
    intros k. rewrite V1, !V. cbn. destruct (String.eqb_spec k id) as [->|]; [destruct op; reflexivity|reflexivity].
  - destruct (IH _ eq_refl) as [R V], (IH2 _ eq_refl) as [R2 V2]. destruct (perm_rep _ _ P R2) as [ND VP].
    destruct (add_items_ok _ _ _ R ND E) as [R3 V3]. split; [exact R3|]. intros k. rewrite V3, VP, V, V2. reflexivity.
  - destruct (IH _ eq_refl) as [R V], (IH2 _ eq_refl) as [R2 V2]. destruct (perm_rep _ _ P R2) as [ND VP].
    destruct (sub_items_ok _ _ _ R ND E) as [R3 V3]. split; [exact R3|]. intros k. rewrite V3, VP, V, V2. reflexivity.
Qed.

Lemma value_main : forall h c, cexec h (Some c) -> forall k, get_value c k = total h k.
Proof. intros h c X k. exact (proj2 (cexec_ok _ _ X _ eq_refl) k). Qed.

Lemma fits_range h : fits h -> forall k, -9223372036854775808 <= total h k <= 9223372036854775807.
Proof. destruct h; cbn; tauto. Qed.

Lemma no_panic_all : forall h, fits h -> forall o, cexec h o -> o <> None.
Proof.
  induction h as [|h IH id op v|h IH o IH2|h IH o IH2]; intros F r X.
  - inversion X. discriminate.
  - inversion X as [|? ? ? ? c X1|? ? ? ? X1| | | |]; subst.
    + destruct (cexec_ok _ _ X1 _ eq_refl) as [R V]. destruct (operate_some c id op v R) as (c1 & r & O).
      * pose proof (fits_range _ F id) as B. cbn in B. rewrite String.eqb_refl in B. rewrite V. destruct op; exact B.
      * rewrite O. discriminate.
    + destruct F as [_ F]. now apply (IH F) in X1.
  - inversion X as [| | |? ? c co it X1 X2 P|? ? X1| |]; subst.
    + destruct (cexec_ok _ _ X1 _ eq_refl) as [R V], (cexec_ok _ _ X2 _ eq_refl) as [R2 V2].
      destruct (perm_rep _ _ P R2) as [ND VP].
      apply add_items_some; [exact R|exact ND|]. intros k. rewrite VP, V, V2. apply (fits_range _ F).
    + destruct F as [_ [F F2]]. destruct X1 as [X1|X1]; [now apply (IH F) in X1|now apply (IH2 F2) in X1].
  - inversion X as [| | | | |? ? c co it X1 X2 P|? ? X1]; subst.
    + destruct (cexec_ok _ _ X1 _ eq_refl) as [R V], (cexec_ok _ _ X2 _ eq_refl) as [R2 V2].
      destruct (perm_rep _ _ P R2) as [ND VP].
      apply sub_items_some; [exact R|exact ND|]. intros k. rewrite VP, V, V2. apply (fits_range _ F).
    + destruct F as [_ [F F2]]. destruct X1 as [X1|X1]; [now apply (IH F) in X1|now apply (IH2 F2) in X1].
Qed.
Lemma no_panic_main : forall h, fits h -> ~ cexec h None.
Proof. intros h F X. exact (no_panic_all h F _ X eq_refl). Qed.

Lemma returned_main : forall h c id op v c' r, cexec h (Some c) -> operate c id op v = Some (c', r) ->
  r = total (HOp h id op v) id.
Proof.
  intros h c id op v c' r X O. destruct (cexec_ok _ _ X _ eq_refl) as [R V].
  destruct (operate_ok _ _ _ _ _ _ R O) as (_ & -> & V1). rewrite V1, V. cbn. rewrite String.eqb_refl. destruct op; reflexivity.
Qed.

(** * Equality *)
Lemma rep_keys c k : rep c -> In k (keys c) <-> get_value c k <> 0.
Proof.
  intros R. unfold get_value. destruct (get k c) as [v|] eqn:G.
  - split; intros _; [eapply rep_get; eauto|eapply get_keys; eauto].
  - split; [|congruence]. intros I. apply get_none in G. contradiction.
Qed.

Lemma same_items a b : rep a -> rep b -> (forall k, get_value a k = get_value b k) -> Permutation a b.
Proof.
  assert (ND : forall c, rep c -> NoDup c) by (intros c [A _]; eapply NoDup_map_inv; exact A).
  assert (IN : forall a b, rep a -> rep b -> (forall k, get_value a k = get_value b k) -> forall x, In x a -> In x b).
  { clear. intros a b Ra Rb E [k v] I. pose proof (in_get _ _ _ (proj1 Ra) I) as G. specialize (E k). unfold get_value in E.
    rewrite G in E. pose proof (proj2 Ra _ _ I) as N. destruct (get k b) as [w|] eqn:G2; [|congruence].
    subst w. now apply get_in. }
  intros Ra Rb E. apply NoDup_Permutation; auto. intros x. split; apply IN; auto.
Qed.

Lemma eqb_iff a b : rep a -> rep b -> (counter_eqb a b = true <-> forall k, get_value a k = get_value b k).
Proof.
  intros Ra Rb. unfold counter_eqb. split.
  - intros E k. apply andb_prop in E as [L F]. apply Nat.eqb_eq in L. rewrite forallb_forall in F.
    assert (IN : incl a b).
    { intros [k0 v] I. specialize (F _ I). cbn in F. destruct (get k0 b) as [w|] eqn:G; [|discriminate].
      apply Z.eqb_eq in F. subst w. now apply get_in. }
    assert (P : Permutation a b).
    { apply NoDup_Permutation_bis; [eapply NoDup_map_inv; apply Ra|lia|exact IN]. }
    unfold get_value. now rewrite (get_perm k a b P (proj1 Ra)).
  - intros E. pose proof (same_items _ _ Ra Rb E) as P. rewrite (Permutation_length P), Nat.eqb_refl. cbn.
    apply forallb_forall. intros [k v] I. cbn. rewrite (in_get k v b); [apply Z.eqb_refl|apply Rb|]. eapply Permutation_in; eauto.
Qed.

Lemma equality_main : forall h1 h2 c1 c2, cexec h1 (Some c1) -> cexec h2 (Some c2) ->
  (counter_eqb c1 c2 = true <-> forall k, total h1 k = total h2 k).
Proof.
  intros h1 h2 c1 c2 X1 X2. destruct (cexec_ok _ _ X1 _ eq_refl) as [R1 V1], (cexec_ok _ _ X2 _ eq_refl) as [R2 V2].
  rewrite eqb_iff by assumption. split; intros E k; specialize (E k); [rewrite <- V1, <- V2|rewrite V1, V2]; exact E.
Qed.

(** * Printing order *)
Lemma display_le_before a b : a <> b -> (display_le a b = true <-> printed_before a b).
Proof.
  destruct a as [ka va], b as [kb vb]. intros N. unfold display_le, printed_before, String.ltb. cbn.
  destruct (Z.compare_spec va vb).
  - subst. destruct (String.compare ka kb) eqn:C.
    + apply string_cmp_eq in C. congruence.
    + split; auto.
    + split; [discriminate|]. intros [H|[_ H]]; [lia|discriminate].
  - split; [discriminate|lia].
  - split; [intros _; lia|reflexivity].
Qed.
Lemma before_trans a b c : printed_before a b -> printed_before b c -> printed_before a c.
Proof.
  destruct a as [ka va], b as [kb vb], c as [kc vc]. unfold printed_before, String.ltb. cbn.
  intros [A|[-> A]] [B|[-> B]]; try (left; lia). right. split; [reflexivity|].
  destruct (String.compare ka kb) eqn:C1; try discriminate. destruct (String.compare kb kc) eqn:C2; try discriminate.
  now rewrite (string_lt_trans _ _ _ C1 C2).
Qed.
Lemma before_irrefl a : ~ printed_before a a.
Proof. destruct a as [k v]. unfold printed_before, String.ltb. cbn. rewrite string_cmp_refl. intros [|[_ ?]]; [lia|discriminate]. Qed.
Lemma before_total a b : a <> b -> printed_before a b \/ printed_before b a.
Proof.
  destruct a as [ka va], b as [kb vb]. intros N. unfold printed_before, String.ltb. cbn.
  destruct (Z.lt_trichotomy va vb) as [L|[->|L]]; [right; left; lia| |left; left; lia].
  rewrite (string_cmp_opp ka kb). destruct (String.compare ka kb) eqn:C; cbn; auto.
  apply string_cmp_eq in C. congruence.
Qed.

Lemma sort_insert_perm x l : Permutation (sort_insert x l) (x :: l).
Proof. induction l as [|y l IH]; cbn; [reflexivity|]. destruct (display_le x y); [reflexivity|]. rewrite IH. apply perm_swap. Qed.
Lemma sorted_perm it : Permutation (sorted_for_display it) it.
Proof. induction it as [|x it IH]; cbn; [reflexivity|]. rewrite sort_insert_perm. now constructor. Qed.

Lemma sort_insert_sorted x l : ~ In x l -> StronglySorted printed_before l -> StronglySorted printed_before (sort_insert x l).
Proof.
  induction l as [|y l IH]; cbn; intros N S; [repeat constructor|]. inversion S as [|? ? S' F]; subst.
  assert (NE : x <> y) by (intros ->; auto). destruct (display_le x y) eqn:D.
  - apply display_le_before in D; [|exact NE]. constructor; [exact S|]. constructor; [exact D|].
    eapply Forall_impl; [|exact F]. intros a. now apply before_trans.
  - constructor; [apply IH; auto|]. apply Forall_forall. intros a I.
    eapply Permutation_in in I; [|apply sort_insert_perm]. destruct I as [<-|I]; [|rewrite Forall_forall in F; auto].
    destruct (before_total x y NE) as [B|B]; [|exact B]. apply display_le_before in B; [congruence|exact NE].
Qed.
Lemma sorted_sorted it : NoDup it -> StronglySorted printed_before (sorted_for_display it).
Proof.
  induction 1 as [|x it N ND IH]; cbn; [constructor|]. apply sort_insert_sorted; [|exact IH].
  intros I. apply N. eapply Permutation_in; [apply sorted_perm|exact I].
Qed.
Lemma sorted_unique l : forall l', StronglySorted printed_before l -> StronglySorted printed_before l' -> Permutation l l' -> l = l'.
Proof.
  induction l as [|a l IH]; intros [|b l'] S S' P.
  - reflexivity.
  - apply Permutation_nil in P. discriminate.
  - apply Permutation_sym, Permutation_nil in P. discriminate.
  - inversion S as [|? ? S1 F1]; subst. inversion S' as [|? ? S2 F2]; subst. rewrite Forall_forall in F1, F2.
    assert (a = b).
    { assert (Ia : In a (b :: l')) by (eapply Permutation_in; [exact P|now left]).
      assert (Ib : In b (a :: l)) by (eapply Permutation_in; [apply Permutation_sym, P|now left]).
      destruct Ia as [E|Ia]; [congruence|]. destruct Ib as [E|Ib]; [congruence|].
      exfalso. apply (before_irrefl a). eapply before_trans; eauto. }
    subst b. f_equal. apply IH; auto. now apply Permutation_cons_inv in P.
Qed.

Lemma display_main : forall h c it, cexec h (Some c) -> Permutation it c ->
  StronglySorted printed_before (sorted_for_display it) /\
  forall k v, In (k, v) (sorted_for_display it) <-> v = total h k /\ v <> 0.
Proof.
  intros h c it X P. destruct (cexec_ok _ _ X _ eq_refl) as [R V]. split.
  - apply sorted_sorted. eapply Permutation_NoDup; [apply Permutation_sym, P|]. eapply NoDup_map_inv. apply R.
  - intros k v. transitivity (In (k, v) c).
    + split; intros I; (eapply Permutation_in; [|exact I]).
      * rewrite sorted_perm. exact P.
      * rewrite sorted_perm. now apply Permutation_sym.
    + rewrite <- V. unfold get_value. split.
      * intros I. rewrite (in_get _ _ _ (proj1 R) I). split; [reflexivity|]. eapply R. exact I.
      * intros [E N]. destruct (get k c) as [w|] eqn:G; [|congruence]. subst w. now apply get_in.
Qed.
Lemma display_order_main : forall h1 h2 c1 c2 it1 it2, cexec h1 (Some c1) -> cexec h2 (Some c2) ->
  Permutation it1 c1 -> Permutation it2 c2 -> (forall k, total h1 k = total h2 k) ->
  sorted_for_display it1 = sorted_for_display it2.
Proof.
  intros h1 h2 c1 c2 it1 it2 X1 X2 P1 P2 E.
  destruct (cexec_ok _ _ X1 _ eq_refl) as [R1 V1], (cexec_ok _ _ X2 _ eq_refl) as [R2 V2].
  apply sorted_unique; [exact (proj1 (display_main _ _ _ X1 P1))|exact (proj1 (display_main _ _ _ X2 P2))|].
  rewrite !sorted_perm, P1, P2. apply same_items; auto. intros k. rewrite V1, V2. apply E.
Qed.

(** An execution with the map's own order as iteration order. *)
Fixpoint crun (h : chist) : option counter :=
  match h with
  | HNew => Some counter_new
  | HOp h id op v => do c <- crun h; do (c', _) <- operate c id op v; Some c'
  | HAddCounter h o => do c <- crun h; do co <- crun o; add_items c co
  | HSubCounter h o => do c <- crun h; do co <- crun o; sub_items c co
  end.
Lemma crun_exec h : cexec h (crun h).
Proof.
  induction h as [|h IH id op v|h IH o IH2|h IH o IH2]; cbn.
  - constructor.
  - destruct (crun h); [now constructor|]. now apply XOpP.
  - destruct (crun h); ob; [|apply XAddP; auto]. destruct (crun o); ob; [|apply XAddP; auto]. eapply XAdd; eauto.
  - destruct (crun h); ob; [|apply XSubP; auto]. destruct (crun o); ob; [|apply XSubP; auto]. eapply XSub; eauto.
Qed.
