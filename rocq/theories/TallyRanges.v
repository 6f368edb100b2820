(** Proofs about the ranges of the retransmission tally. *)
From Coq Require Import ZArith List Lia Bool.
From Verif Require Import Base TallyModel TallySpec.
Import ListNotations.
Local Open Scope Z_scope.

(** Ranges that are not empty, in order, with gaps between them, above [lo]. *)
Fixpoint wf (lo : Z) (rs : list range) : Prop :=
  match rs with
  | [] => True
  | r :: t => lo < fst r /\ fst r < snd r /\ wf (snd r) t
  end.

Lemma wf_weak lo lo' rs : lo' <= lo -> wf lo rs -> wf lo' rs.
Proof. destruct rs; simpl; intros; auto. intuition lia. Qed.

Lemma wf_sorted lo rs : wf lo rs -> still_sorted rs = true.
Proof.
  revert lo; induction rs as [|r t IH]; intros lo; auto.
  intros (H & H1 & H2). destruct t as [|r' t]; auto.
  change (still_sorted (r :: r' :: t)) with ((fst r <? snd r) && (snd r <? fst r') && still_sorted (r' :: t)).
  rewrite (IH (snd r)) by auto. destruct H2 as (H2 & _).
  rewrite (proj2 (Z.ltb_lt _ _)), (proj2 (Z.ltb_lt _ _)) by lia. auto.
Qed.

Lemma wf_full lo rs : wf lo rs -> forallb (fun x => fst x <? snd x) rs = true.
Proof.
  revert lo; induction rs as [|r t IH]; intros lo; auto. intros (H & H1 & H2).
  simpl. rewrite (IH _ H2), (proj2 (Z.ltb_lt _ _)) by lia. auto.
Qed.

Lemma wf_in lo rs r : wf lo rs -> In r rs -> lo < fst r /\ fst r < snd r.
Proof.
  revert lo; induction rs as [|a t IH]; intros lo; simpl; [tauto|].
  intros (H & H1 & H2) [->|H3]; auto. destruct (IH _ H2 H3). lia.
Qed.

Lemma wf_above lo rs x : wf lo rs -> inside rs x -> lo < x.
Proof. intros H (r & H1 & H2). destruct (wf_in _ _ _ H H1). lia. Qed.

Lemma wf_app lo a b :
  wf lo (a ++ b) <->
  wf lo a /\ wf lo b /\ (forall x y, In x a -> In y b -> snd x < fst y).
Proof.
  revert lo; induction a as [|r t IH]; intros lo; simpl.
  - intuition.
  - rewrite IH. split.
    + intros (H & H1 & H2 & H3 & H4). split; [auto|]. split.
      * eapply wf_weak; [|eauto]; lia.
      * intros x y [->|Hx] Hy; auto. destruct (wf_in _ _ _ H3 Hy). lia.
    + intros ((H & H1 & H2) & H3 & H4). split; [auto|]. split; [auto|]. split; [auto|]. split; [|auto].
      destruct b as [|y b]; simpl; auto. destruct H3 as (H3 & H5 & H6).
      split; auto. apply H4; simpl; auto.
Qed.

Lemma inside_cons r t x : inside (r :: t) x <-> (fst r <= x < snd r) \/ inside t x.
Proof.
  unfold inside; simpl; split.
  - intros (q & [->|H] & H1); eauto.
  - intros [H|(q & H & H1)]; eauto.
Qed.

Lemma inside_nil x : inside [] x <-> False.
Proof. unfold inside; simpl; firstorder. Qed.

Lemma inside_app a b x : inside (a ++ b) x <-> inside a x \/ inside b x.
Proof.
  induction a as [|r t IH]; simpl.
  - rewrite inside_nil. tauto.
  - rewrite !inside_cons, IH. tauto.
Qed.

Lemma contains_iff rs x : ranges_contains rs x = true <-> inside rs x.
Proof.
  unfold ranges_contains, range_contains. rewrite existsb_exists.
  unfold inside. split; intros (r & H & H1); exists r; split; auto.
  - apply andb_true_iff in H1. rewrite Z.leb_le, Z.ltb_lt in H1. auto.
  - rewrite andb_true_iff, Z.leb_le, Z.ltb_lt. auto.
Qed.

(** ** Insertion *)

Definition touch (r v : range) : Prop := fst r <= snd v /\ fst v <= snd r.

Lemma touch_iff r v : fst r < snd r -> fst v < snd v ->
  (range_overlap r v || range_adj r v = true <-> touch r v).
Proof.
  intros. unfold range_overlap, range_adj, touch.
  rewrite orb_true_iff, andb_true_iff, orb_true_iff, !Z.ltb_lt, !Z.eqb_eq. lia.
Qed.

Lemma mergable_some rs i j v lo : wf lo rs ->
  exists m b, rs = m ++ b
    /\ mergable_from rs i (Some j) v = (Some j, (i + length m)%nat)
    /\ Forall (fun r => fst r <= snd v) m /\ (forall r, In r b -> snd v < fst r).
Proof.
  revert i lo; induction rs as [|r t IH]; intros i lo H.
  - exists [], []. simpl. rewrite Nat.add_0_r. repeat split; auto. tauto.
  - cbn [mergable_from]. destruct (Z.leb_spec (fst r) (snd v)).
    + destruct H as (H1 & H2 & H3). destruct (IH (S i) _ H3) as (m & b & -> & E & F & G).
      exists (r :: m), b. rewrite E. simpl. repeat split; auto.
    + exists [], (r :: t). simpl. rewrite Nat.add_0_r. repeat split; auto.
      destruct H as (H1 & H2 & H3).
      intros q [->|Hq]; auto. destruct (wf_in _ _ _ H3 Hq). lia.
Qed.

Lemma mergable_split rs i v lo : wf lo rs -> fst v < snd v ->
  exists a m b, rs = a ++ m ++ b
    /\ mergable_from rs i None v
       = (match m with [] => None | _ => Some (i + length a)%nat end, (i + length a + length m)%nat)
    /\ (forall r, In r a -> snd r < fst v)
    /\ (forall r, In r m -> touch r v)
    /\ (forall r, In r b -> snd v < fst r).
Proof.
  revert i lo; induction rs as [|r t IH]; intros i lo H Hv.
  - exists [], [], []. simpl. rewrite !Nat.add_0_r. repeat split; simpl; tauto.
  - pose proof H as H0. destruct H as (H1 & H2 & H3).
    cbn [mergable_from]. destruct (Z.leb_spec (fst r) (snd v)).
    + destruct (range_overlap r v || range_adj r v) eqn:E.
      * apply touch_iff in E; auto.
        destruct (mergable_some t (S i) i v _ H3) as (m & b & -> & E1 & F & G).
        exists [], (r :: m), b. rewrite E1. simpl. rewrite Nat.add_0_r.
        split; [auto|]. split; [f_equal; lia|]. split; [tauto|]. split; [|auto].
        intros q [<-|Hq]; auto. rewrite Forall_forall in F. split; [apply F; auto|].
        assert (Hq' : In q (m ++ b)) by (apply in_or_app; auto).
        destruct (wf_in _ _ _ H3 Hq'). destruct E. lia.
      * assert (Nt : ~ touch r v) by (intros T; apply touch_iff in T; auto; congruence).
        destruct (IH (S i) _ H3 Hv) as (a & m & b & -> & E1 & A & M & B).
        exists (r :: a), m, b. rewrite E1. split; [auto|]. split.
        { simpl. f_equal; [destruct m; f_equal; lia|lia]. }
        split; [|auto]. intros q [<-|Hq]; auto. unfold touch in Nt. lia.
    + exists [], [], (r :: t). simpl. rewrite !Nat.add_0_r.
      split; [auto|]. split; [auto|]. split; [tauto|]. split; [tauto|].
      intros q [<-|Hq]; auto. destruct (wf_in _ _ _ H3 Hq). lia.
Qed.

Lemma fold_merge m v r0 : touch r0 v -> fst r0 < snd r0 -> fst v < snd v ->
  (forall r, In r m -> touch r v /\ fst r < snd r) ->
  let h := fold_left range_merge m (range_merge r0 v) in
  fst h < snd h
  /\ (forall x, fst h <= x < snd h <-> (fst v <= x < snd v) \/ inside (r0 :: m) x)
  /\ (fst h = fst v \/ exists r, In r (r0 :: m) /\ fst h = fst r)
  /\ (snd h = snd v \/ exists r, In r (r0 :: m) /\ snd h = snd r).
Proof.
  intros T0 N0 Nv Hm.
  assert (G : forall acc done,
     fst acc <= fst v -> snd v <= snd acc ->
     (forall x, fst acc <= x < snd acc <-> (fst v <= x < snd v) \/ inside done x) ->
     (fst acc = fst v \/ exists r, In r done /\ fst acc = fst r) ->
     (snd acc = snd v \/ exists r, In r done /\ snd acc = snd r) ->
     let h := fold_left range_merge m acc in
     fst h < snd h
     /\ (forall x, fst h <= x < snd h <-> (fst v <= x < snd v) \/ inside (done ++ m) x)
     /\ (fst h = fst v \/ exists r, In r (done ++ m) /\ fst h = fst r)
     /\ (snd h = snd v \/ exists r, In r (done ++ m) /\ snd h = snd r)).
  { induction m as [|r t IH]; intros acc done A B C D E.
    - simpl. rewrite app_nil_r. split; [lia|]. split; auto.
    - assert (X : done ++ r :: t = (done ++ [r]) ++ t) by (rewrite <- app_assoc; auto).
      rewrite X. cbn [fold_left].
      destruct (Hm r) as (T & N); simpl; auto.
      apply IH; unfold range_merge; simpl; try lia.
      + intros; apply Hm; simpl; auto.
      + intros x. rewrite inside_app, inside_cons, inside_nil.
        rewrite <- or_assoc, <- C. destruct T. split; [|lia].
        intros. destruct (Z_lt_dec x (fst acc)); [right; lia|].
        destruct (Z_le_dec (snd acc) x); [right; lia|]. lia.
      + destruct (Z.min_spec (fst acc) (fst r)) as [(_ & ->)|(_ & ->)].
        * destruct D as [D|(q & Q & D)]; auto. right; exists q; split; auto. apply in_or_app; auto.
        * right; exists r; split; auto. apply in_or_app; simpl; auto.
      + destruct (Z.max_spec (snd acc) (snd r)) as [(_ & ->)|(_ & ->)].
        * right; exists r; split; auto. apply in_or_app; simpl; auto.
        * destruct E as [E|(q & Q & E)]; auto. right; exists q; split; auto. apply in_or_app; auto. }
  apply (G (range_merge r0 v) [r0]); unfold range_merge; simpl; try lia.
  - intros x. rewrite inside_cons, inside_nil. destruct T0.
    split; [|lia]. intros.
    destruct (Z_lt_dec x (fst v)); [right; lia|].
    destruct (Z_le_dec (snd v) x); [right; lia|]. lia.
  - destruct (Z.min_spec (fst r0) (fst v)) as [(_ & ->)|(_ & ->)]; eauto.
  - destruct (Z.max_spec (snd r0) (snd v)) as [(_ & ->)|(_ & ->)]; eauto.
Qed.

Lemma insert_ok lo rs v : wf lo rs -> lo < fst v -> fst v < snd v ->
  exists rs', ranges_insert rs v = Some rs' /\ wf lo rs'
    /\ (forall x, inside rs' x <-> inside rs x \/ fst v <= x < snd v)
    /\ (forall h, (forall r, In r rs -> snd r < h) -> snd v < h -> forall r, In r rs' -> snd r < h).
Proof.
  intros H L N.
  destruct (mergable_split rs 0 v lo H N) as (a & m & b & -> & E & A & M & B).
  assert (S0 : still_sorted (a ++ m ++ b) = true) by (eapply wf_sorted; eauto).
  apply wf_app in H. destruct H as (Ha & Hmb & Hab).
  apply wf_app in Hmb. destruct Hmb as (Hm & Hb & Hmb).
  unfold ranges_insert, ranges_mergable. rewrite S0, E. cbn [assert_then].
  destruct m as [|r0 m].
  - simpl. rewrite Nat.add_0_r, firstn_app, skipn_app, Nat.sub_diag, firstn_all, skipn_all.
    simpl. rewrite app_nil_r.
    assert (W : wf lo (a ++ v :: b)).
    { apply wf_app. split; [auto|]. split.
      - split; [auto|]. split; [auto|].
        destruct b as [|y b]; simpl; auto. destruct Hb as (? & ? & ?). split; [|auto]. apply B; simpl; auto.
      - intros x y Hx [<-|Hy]; auto. }
    rewrite assert_true by (eapply wf_sorted; exact W).
    exists (a ++ v :: b). split; [auto|]. split; [auto|]. split.
    + intros x. rewrite !inside_app, inside_cons. tauto.
    + intros h G1 G2 r Hr. apply in_app_or in Hr. simpl in Hr. destruct Hr as [Hr|[<-|Hr]]; auto;
        apply G1; apply in_or_app; auto.
  - cbn [Nat.add].
    rewrite firstn_app, firstn_all, Nat.sub_diag, firstn_O, app_nil_r.
    rewrite app_nth2, Nat.sub_diag by lia.
    assert (X1 : skipn (length a + 1) (a ++ (r0 :: m) ++ b) = m ++ b).
    { rewrite skipn_app, skipn_all2 by lia.
      replace (length a + 1 - length a)%nat with 1%nat by lia. reflexivity. }
    rewrite X1.
    assert (X2 : skipn (length a + length (r0 :: m)) (a ++ (r0 :: m) ++ b) = b).
    { rewrite app_assoc, skipn_app, app_length, Nat.sub_diag, skipn_all2; [reflexivity|].
      rewrite app_length; lia. }
    rewrite X2.
    replace (length a + length (r0 :: m) - (length a + 1))%nat with (length m) by (simpl; lia).
    rewrite firstn_app, firstn_all, Nat.sub_diag, firstn_O, app_nil_r.
    cbn [app nth].
    assert (Q : forall r, In r (r0 :: m) -> touch r v /\ fst r < snd r).
    { intros r Hr. split; auto. apply (wf_in _ _ _ Hm Hr). }
    destruct (fold_merge m v r0) as (F0 & F1 & F2 & F3); auto.
    { apply Q; simpl; auto. } { apply Q; simpl; auto. } { intros; apply Q; simpl; auto. }
    set (h := fold_left range_merge m (range_merge r0 v)) in *.
    assert (W : wf lo (a ++ h :: b)).
    { apply wf_app. split; [auto|]. split.
      - split; [|split; [exact F0|]].
        + destruct F2 as [->|(r & Hr & ->)]; auto. apply (wf_in _ _ _ Hm Hr).
        + destruct b as [|y b]; simpl; auto. destruct Hb as (? & ? & ?). split; [|auto].
          destruct F3 as [->|(r & Hr & ->)]; [apply B|apply Hmb]; simpl; auto.
      - intros x y Hx [<-|Hy]; [|apply Hab; auto; apply in_or_app; auto].
        destruct F2 as [->|(r & Hr & ->)]; [apply A; auto|]. apply Hab; auto.
        apply in_or_app; auto. }
    rewrite assert_true by (eapply wf_sorted; exact W).
    exists (a ++ h :: b). split; [auto|]. split; [auto|]. split.
    + intros x. change (r0 :: m ++ b) with ((r0 :: m) ++ b).
      rewrite !inside_app, inside_cons, F1. tauto.
    + intros k G1 G2 r Hr. apply in_app_or in Hr. simpl in Hr. destruct Hr as [Hr|[<-|Hr]].
      * apply G1; apply in_or_app; auto.
      * destruct F3 as [->|(r & Hr & ->)]; auto. apply G1. apply in_or_app; right. simpl in *.
        rewrite in_app_iff. tauto.
      * apply G1; apply in_or_app; right. simpl. rewrite in_app_iff. auto.
Qed.

(** ** Subtraction *)

Definition meets (c : range) (rs : list range) : nat :=
  match rs with
  | [] => 0
  | y :: _ => if range_overlap c y then 1 else 0
  end.

Lemma meets_le c rs : (meets c rs <= 1)%nat.
Proof. destruct rs as [|y rs]; simpl; [lia|]. destruct (range_overlap c y); lia. Qed.

Lemma meets_yes c y rs : range_overlap c y = true -> meets c (y :: rs) = 1%nat.
Proof. intros H. simpl. rewrite H. auto. Qed.

Lemma meets_no c y rs : range_overlap c y = false -> meets c (y :: rs) = 0%nat.
Proof. intros H. simpl. rewrite H. auto. Qed.

Lemma loop_ok fuel : forall lo cur l r res,
  wf lo (cur :: l) -> wf lo r ->
  (2 * (length l + length r) + meets cur r < fuel)%nat ->
  exists out, subtract_loop fuel cur l r res = Some (res ++ out)
    /\ wf (fst cur - 1) out
    /\ (forall x, inside out x <-> inside (cur :: l) x /\ ~ inside r x)
    /\ (forall h, (forall q, In q (cur :: l) -> snd q < h) -> forall q, In q out -> snd q < h).
Proof.
  induction fuel as [|fuel IH]; intros lo cur l r res Hl Hr Hf; [lia|].
  cbn [subtract_loop].
  destruct r as [|y r].
  { exists (cur :: l). split; [auto|]. split; [simpl in *; intuition lia|]. split; [|auto].
    intros x. rewrite inside_nil. tauto. }
  pose proof Hl as Hl0. destruct Hl as (L1 & L2 & L3). pose proof Hr as Hr0. destruct Hr as (R1 & R2 & R3).
  destruct (Z.leb_spec (snd y) (fst cur)).
  { destruct (IH lo cur l r res) as (out & E & W & I & G); auto.
    { eapply wf_weak; [|eauto]; lia. }
    { pose proof (meets_le cur r). cbn [length] in Hf. lia. }
    exists out. split; [auto|]. split; [auto|]. split; [|auto].
    intros x. rewrite I, (inside_cons y r).
    assert (inside (cur :: l) x -> ~ (fst y <= x < snd y)).
    { intros K. rewrite inside_cons in K. destruct K as [K|K]; [lia|].
      pose proof (wf_above _ _ _ L3 K). lia. }
    tauto. }
  destruct (Z.leb_spec (snd cur) (fst y)).
  { destruct l as [|c l].
    - exists [cur]. split; [auto|]. split; [simpl; lia|]. split.
      + intros x. rewrite inside_cons, inside_nil, inside_cons. split; [|tauto].
        intros [K|[]]. split; auto. intros [K1|K1]; [lia|]. pose proof (wf_above _ _ _ R3 K1). lia.
      + intros h K q [<-|[]]. apply K; simpl; auto.
    - destruct (IH lo c l (y :: r) (res ++ [cur])) as (out & E & W & I & G); auto.
      { simpl in L3 |- *. intuition lia. }
      { pose proof (meets_le c (y :: r)). cbn [length] in Hf |- *. lia. }
      exists (cur :: out). split; [etransitivity; [exact E|]; rewrite <- app_assoc; auto|]. split.
      { simpl. repeat split; try lia. eapply wf_weak; [|eauto]. destruct L3; lia. }
      split.
      + intros x. rewrite (inside_cons cur out), I, (inside_cons cur (c :: l)).
        assert (fst cur <= x < snd cur -> ~ inside (y :: r) x).
        { intros K. rewrite inside_cons. intros [K1|K1]; [lia|]. pose proof (wf_above _ _ _ R3 K1). lia. }
        tauto.
      + intros h K q [<-|Hq]; [apply K; simpl; auto|]. eapply G; [|eauto].
        intros q' Hq'; apply K; simpl; auto. }
  assert (OV : range_overlap cur y = true).
  { unfold range_overlap. rewrite andb_true_iff, !Z.ltb_lt. lia. }
  unfold range_subtract. rewrite OV.
  rewrite (meets_yes _ _ _ OV) in Hf. cbn [length] in Hf.
  assert (NOT : forall x, x < fst y -> ~ inside (y :: r) x).
  { intros x K. rewrite inside_cons. intros [K1|K1]; [lia|]. pose proof (wf_above _ _ _ R3 K1). lia. }
  destruct (Z.ltb_spec (fst cur) (fst y)), (Z.ltb_spec (snd y) (snd cur)); cbn [app].
  - destruct (IH lo (snd y, snd cur) l (y :: r) (res ++ [(fst cur, fst y)])) as (out & E & W & I & G); auto.
    { simpl. repeat split; auto; lia. }
    { rewrite meets_no by (unfold range_overlap; simpl; rewrite Z.ltb_irrefl, ?andb_false_r; auto). cbn [length]. lia. }
    exists ((fst cur, fst y) :: out). split; [etransitivity; [exact E|]; rewrite <- app_assoc; auto|]. split.
    { simpl in *. repeat split; try lia. eapply wf_weak; [|eauto]. lia. }
    split.
    + intros x. rewrite (inside_cons _ out), I, !inside_cons. simpl.
      assert (inside r x -> snd y < x) by (intros K; apply (wf_above _ _ _ R3 K)).
      assert (inside l x -> snd cur < x) by (intros K; apply (wf_above _ _ _ L3 K)).
      split.
      * intros [K|([K|K] & K1)].
        -- split; [lia|]. intros [K1|K1]; [lia|]. specialize (H3 K1). lia.
        -- split; [left; lia|auto].
        -- split; auto.
      * intros ([K|K] & K1); [|auto].
        destruct (Z_lt_dec x (fst y)); [left; lia|]. right. split; [left; lia|auto].
    + intros h K q [<-|Hq]; simpl.
      * assert (snd cur < h) by (apply K; simpl; auto). lia.
      * eapply G; [|eauto]. intros q' [<-|Hq']; [apply (K cur); simpl; auto|apply K; simpl; auto].
  - destruct (IH lo (fst cur, fst y) l (y :: r) res) as (out & E & W & I & G); auto.
    { simpl. repeat split; auto; try lia. eapply wf_weak; [|eauto]; lia. }
    { rewrite meets_no by (unfold range_overlap; simpl; rewrite Z.ltb_irrefl, ?andb_false_r; auto). cbn [length]. lia. }
    exists out. split; [auto|]. split; [auto|]. split.
    + intros x. rewrite I, !(inside_cons _ l). simpl. split.
      * intros ([K|K] & K1); split; auto. left; lia.
      * intros ([K|K] & K1); split; auto. left. rewrite inside_cons in K1.
        destruct (Z_lt_dec x (fst y)); [lia|]. exfalso; apply K1; left; lia.
    + intros h K q Hq. eapply G; [|eauto]. intros q' [<-|Hq']; [|apply K; simpl; auto].
      assert (snd cur < h) by (apply K; simpl; auto). simpl. lia.
  - destruct (IH lo (snd y, snd cur) l (y :: r) res) as (out & E & W & I & G); auto.
    { simpl. repeat split; auto; lia. }
    { rewrite meets_no by (unfold range_overlap; simpl; rewrite Z.ltb_irrefl, ?andb_false_r; auto). cbn [length]. lia. }
    exists out. split; [auto|]. split; [eapply wf_weak; [|eauto]; simpl; lia|]. split.
    + intros x. rewrite I, !(inside_cons _ l). simpl. split.
      * intros ([K|K] & K1); split; auto. left; lia.
      * intros ([K|K] & K1); split; auto. left. rewrite inside_cons in K1.
        destruct (Z_lt_dec x (snd y)); [|lia]. exfalso; apply K1; left; lia.
    + intros h K q Hq. eapply G; [|eauto]. intros q' [<-|Hq']; [|apply K; simpl; auto].
      apply (K cur); simpl; auto.
  - destruct l as [|c l].
    + exists []. rewrite app_nil_r. split; [auto|]. split; [simpl; auto|]. split; [|simpl; tauto].
      intros x. rewrite inside_nil, !inside_cons, inside_nil. split; [tauto|].
      intros ([K|[]] & K1). apply K1; left; lia.
    + destruct (IH lo c l (y :: r) res) as (out & E & W & I & G); auto.
      { simpl in L3 |- *. intuition lia. }
      { pose proof (meets_le c (y :: r)). cbn [length] in Hf |- *. lia. }
      exists out. split; [auto|]. split; [eapply wf_weak; [|eauto]; destruct L3; lia|]. split.
      * intros x. rewrite I, (inside_cons cur (c :: l)). split; [tauto|].
        intros ([K|K] & K1); auto. exfalso. apply K1. rewrite inside_cons. left; lia.
      * intros h K q Hq. eapply G; [|eauto]. intros; apply K; simpl; auto.
Qed.

Lemma subtract_ok lo l r : wf lo l -> wf lo r ->
  exists out, ranges_subtract l r = Some out /\ wf lo out
    /\ (forall x, inside out x <-> inside l x /\ ~ inside r x)
    /\ (forall h, (forall q, In q l -> snd q < h) -> forall q, In q out -> snd q < h).
Proof.
  intros Hl Hr. unfold ranges_subtract.
  assert (D : exists out,
    (match r with
     | [] => Some l
     | _ => match l with
            | [] => Some []
            | c :: l' => subtract_loop (2 * (length l + length r) + 2) c l' r []
            end
     end) = Some out /\ wf lo out
    /\ (forall x, inside out x <-> inside l x /\ ~ inside r x)
    /\ (forall h, (forall q, In q l -> snd q < h) -> forall q, In q out -> snd q < h)).
  { destruct r as [|y r].
    - exists l. split; [auto|]. split; [auto|]. split; [intros x; rewrite inside_nil; tauto|auto].
    - destruct l as [|c l].
      + exists []. split; [auto|]. split; [simpl; auto|]. split; [intros x; rewrite !inside_nil; tauto|simpl; tauto].
      + destruct (loop_ok (2 * (length (c :: l) + length (y :: r)) + 2) lo c l (y :: r) [])
          as (out & E & W & I & G); auto.
        { pose proof (meets_le c (y :: r)). cbn [length]. lia. }
        exists out. split; [auto|]. split; [|split; auto].
        eapply wf_weak; [|eauto]. destruct Hl; lia. }
  destruct D as (out & E & W & I & G). rewrite E. ob.
  exists out. rewrite (wf_full _ _ W), (wf_sorted _ _ W). auto.
Qed.

(** ** Tidying *)

Lemma inside_filter lo rs ack x : wf lo rs -> ack <= x ->
  (inside (filter (fun r => negb (snd r <=? ack)) rs) x <-> inside rs x).
Proof.
  intros _ Hx. unfold inside. split; intros (r & H & H1); exists r; split; auto.
  - apply filter_In in H. tauto.
  - apply filter_In. split; auto. apply negb_true_iff, Z.leb_gt. lia.
Qed.

Lemma wf_filter lo rs f : wf lo rs -> wf lo (filter f rs).
Proof.
  revert lo; induction rs as [|r t IH]; intros lo; simpl; auto.
  intros (H & H1 & H2). destruct (f r); simpl; auto.
  apply IH. eapply wf_weak; [|eauto]; lia.
Qed.

Lemma tidy_ok lo ack rs : lo < ack -> wf lo rs ->
  exists rs', tidy_ranges ack rs = Some rs' /\ wf lo rs'
    /\ (forall x, ack <= x -> inside rs' x <-> inside rs x)
    /\ (forall h, (forall q, In q rs -> snd q < h) -> forall q, In q rs' -> snd q < h).
Proof.
  intros L H. unfold tidy_ranges. rewrite (wf_sorted _ _ H). cbn [assert_then].
  set (rs' := match rs with [] => [] | r :: t => _ end).
  assert (D : wf lo rs' /\ (forall x, ack <= x -> inside rs' x <-> inside rs x)
    /\ (forall h, (forall q, In q rs -> snd q < h) -> forall q, In q rs' -> snd q < h)).
  { subst rs'. destruct rs as [|r t]; [simpl; repeat split; auto; tauto|].
    destruct ((fst r <=? ack) && (ack <? snd r - 1)) eqn:E.
    - apply andb_true_iff in E. rewrite Z.leb_le, Z.ltb_lt in E. destruct H as (H & H1 & H2).
      split; [simpl; repeat split; auto; lia|]. split.
      + intros x Hx. rewrite !inside_cons. simpl. intuition lia.
      + intros h K q [<-|Hq]; [apply (K r); simpl; auto|apply K; simpl; auto].
    - destruct (snd r - 1 <=? ack).
      + split; [apply wf_filter; auto|]. split; [intros; eapply inside_filter; eauto|].
        intros h K q Hq. apply filter_In in Hq. apply K; tauto.
      + split; [exact H|]. split; [tauto|auto]. }
  destruct D as (W & I & G). rewrite assert_true by (eapply wf_sorted; exact W). eauto.
Qed.
