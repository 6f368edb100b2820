(** Proofs about the latches. *)
From Verif Require Import Base SchedModel SchedProofs LatchModel LatchSpec.

Lemma in_upd {A} (x y : A) i l : In y (upd i x l) -> y = x \/ In y l.
Proof.
  revert i. induction l as [|z l IH]; intros [|i]; cbn; try tauto.
  - intros [<-|I]; auto.
  - intros [<-|I]; auto. apply IH in I. tauto.
Qed.
Lemma in_upd_pos {A} (x y : A) i l : In y (upd i x l) ->
  y = x \/ exists j, j <> i /\ nth_error l j = Some y.
Proof.
  intros I. apply In_nth_error in I as (j & E). destruct (Nat.eq_dec j i) as [->|N].
  - left. assert (L : (i < length (upd i x l))%nat) by (apply nth_error_Some; congruence).
    rewrite upd_length in L. rewrite nth_error_upd_same in E by exact L. congruence.
  - right. rewrite nth_error_upd_other in E by congruence. eauto.
Qed.

(** ** The simple latch *)
Record winv (l : latch) (w : waiter) : Prop := {
  wi_gen : waiter_gen w = wrap32 (w_round w);
  wi_le : w_round w <= opened l;
  wi_futex : forall g, w_pc w = WFutex g -> g = waiter_gen w;
  wi_asleep : w_pc w = WAsleep -> latch_gen l = waiter_gen w \/ opening l = true
}.
Definition linv (l : latch) : Prop :=
  latch_gen l = wrap32 (opened l) /\ (forall w, In w (waiters l) -> winv l w).

Lemma wrap32_small x : 0 <= x < 4294967296 -> wrap32 x = x.
Proof. apply Z.mod_small. Qed.
Lemma wrap32_add x : wrap32 (wrap32 x + 1) = wrap32 (x + 1).
Proof. unfold wrap32. rewrite Zplus_mod_idemp_l. reflexivity. Qed.
Lemma wrap32_sub x y : wrap32 (wrap32 x - wrap32 y) = wrap32 (x - y).
Proof. unfold wrap32. rewrite Zminus_mod_idemp_l, Zminus_mod_idemp_r. reflexivity. Qed.

Lemma winv_l l l' w : latch_gen l' = latch_gen l -> opening l' = opening l -> opened l' = opened l -> winv l w -> winv l' w.
Proof. intros A B C [D E F G]. constructor; rewrite ?A, ?B, ?C; auto. Qed.

Lemma set_w_inv l i w w0 : linv l -> nth_error (waiters l) i = Some w0 -> (winv l w0 -> winv l w) -> linv (set_w l i w).
Proof.
  intros [A B] E W. split; [exact A|]. intros x I. cbn in I. apply in_upd in I as [->|I].
  - apply (winv_l l); auto. apply W, B. eapply nth_error_In; eauto.
  - apply (winv_l l); auto.
Qed.

Lemma at_pc_inv l w p : winv l w -> (forall g, p = WFutex g -> g = waiter_gen w) ->
  (p = WAsleep -> latch_gen l = waiter_gen w \/ opening l = true) -> winv l (at_pc w p).
Proof. intros [A B C D] F G. constructor; unfold at_pc; cbn; auto. Qed.

Lemma w_load_inv l w : latch_gen l = wrap32 (opened l) -> winv l w -> winv l (w_load (latch_gen l) w).
Proof.
  intros LG I. unfold w_load. destruct (Z.eqb_spec (wrap32 (latch_gen l - waiter_gen w)) 1) as [E|N].
  - destruct I as [A B C D]. constructor; cbn; try discriminate.
    + rewrite A, wrap32_add. unfold w_round. cbn. f_equal. lia.
    + unfold w_round in *. cbn. rewrite LG, A, wrap32_sub in E.
      assert (opened l - (w_start w + w_returns w) <> 0) by (intros X; unfold w_round in E; rewrite X in E; discriminate E). lia.
  - destruct (Z.eqb_spec (wrap32 (latch_gen l - waiter_gen w)) 0) as [E|N'].
    + apply at_pc_inv; [exact I| |].
      * intros g. destruct (spin_yield w); [discriminate|]. intros [= <-].
        destruct I as [A B C D]. rewrite LG, A in *. rewrite wrap32_sub in E.
        unfold wrap32 in *. apply Z.mod_divide in E; [|lia]. destruct E as (k & E).
        replace (opened l) with (w_round w + k * 4294967296) by lia. apply Z.mod_add. lia.
      * destruct (spin_yield w); discriminate.
    + apply at_pc_inv; [exact I| |]; discriminate.
Qed.

Lemma lstep_inv a l : linv l -> linv (lstep a l).
Proof.
  intros I. pose proof I as [LG WI]. destruct a as [spin|i|i| | |i|i|i]; cbn [lstep].
  - destruct (opening l) eqn:O; [exact I|]. split; [exact LG|]. intros w. cbn. rewrite in_app_iff. intros [W|[<-|[]]].
    + apply (winv_l l); auto.
    + constructor; unfold w_round; cbn; try discriminate; [rewrite Z.add_0_r; exact LG|lia].
  - destruct (nth_error (waiters l) i) as [w|] eqn:E; [|exact I]. destruct (w_pc w); try exact I.
    split; [exact LG|]. intros x. cbn. rewrite in_app_iff. intros [W|[<-|[]]]; apply (winv_l l); auto. apply WI. eapply nth_error_In; eauto.
  - destruct (nth_error (waiters l) i) as [w|] eqn:E; [|exact I]. destruct (w_pc w); try exact I.
    eapply set_w_inv; eauto. intros W. apply at_pc_inv; auto; discriminate.
  - destruct (opening l) eqn:O; [exact I|]. split; [cbn; rewrite LG; apply wrap32_add|]. intros w W. cbn in W.
    apply WI in W. destruct W as [A B C D]. constructor; cbn; auto. lia.
  - destruct (opening l) eqn:O; [|exact I]. split; [exact LG|]. intros w. cbn. rewrite in_map_iff.
    intros (x & <- & W). apply WI in W. unfold wake_w. destruct W as [A B C D].
    destruct (w_pc x) eqn:P; constructor; unfold at_pc; cbn; rewrite ?P; auto; discriminate.
  - destruct (nth_error (waiters l) i) as [w|] eqn:E; [|exact I]. destruct (w_pc w); try exact I.
    eapply set_w_inv; eauto. intros W. apply at_pc_inv; auto; discriminate.
  - destruct (nth_error (waiters l) i) as [w|] eqn:E; [|exact I]. destruct (w_pc w) eqn:P; try exact I.
    + eapply set_w_inv; eauto. intros W. now apply w_load_inv.
    + eapply set_w_inv; eauto. intros W. apply at_pc_inv; auto.
      * destruct (latch_gen l =? g); discriminate.
      * destruct (Z.eqb_spec (latch_gen l) g) as [X|X]; [|discriminate]. intros _. left. rewrite X. apply (wi_futex _ _ W). exact P.
    + eapply set_w_inv; eauto. intros W. apply at_pc_inv; auto; discriminate.
  - destruct (nth_error (waiters l) i) as [w|] eqn:E; [|exact I]. destruct (w_pc w); try exact I.
    eapply set_w_inv; eauto. intros W. apply at_pc_inv; auto; discriminate.
Qed.
Lemma lrun_inv acts : forall l, linv l -> linv (lrun l acts).
Proof. induction acts as [|a acts IH]; intros l I; [exact I|]. apply IH, lstep_inv, I. Qed.
Lemma latch_new_inv : linv latch_new.
Proof. split; [reflexivity|]. intros w []. Qed.

Lemma latch_no_early acts w : In w (waiters (lrun latch_new acts)) ->
  w_round w <= opened (lrun latch_new acts).
Proof. intros I. apply (wi_le (lrun latch_new acts)). apply (proj2 (lrun_inv acts _ latch_new_inv)). exact I. Qed.

(** Under correct use, waiters are at most one opening behind and never panic. *)
Definition sinv (l : latch) : Prop :=
  forall w, In w (waiters l) -> w_live w = true -> opened l - 1 <= w_round w /\ w_pc w <> WPanic.

Lemma w_load_sync l w : latch_gen l = wrap32 (opened l) -> winv l w -> opened l - 1 <= w_round w ->
  let w' := w_load (latch_gen l) w in w_round w <= w_round w' /\ w_pc w' <> WPanic.
Proof.
  intros LG W B. unfold w_load. destruct W as [A C _ _]. rewrite LG, A, wrap32_sub.
  assert (X : opened l - w_round w = 0 \/ opened l - w_round w = 1) by lia.
  destruct X as [X|X]; rewrite X.
  - change (wrap32 0 =? 1) with false. change (wrap32 0 =? 0) with true. unfold w_round, at_pc. cbn. split; [lia|].
    destruct (spin_yield w); discriminate.
  - change (wrap32 1 =? 1) with true. unfold w_round. cbn. split; [lia|discriminate].
Qed.

Lemma set_w_sync l i w w0 : sinv l -> nth_error (waiters l) i = Some w0 ->
  (w_live w = true -> opened l - 1 <= w_round w /\ w_pc w <> WPanic) -> sinv (set_w l i w).
Proof.
  intros S E W x I L. cbn in *. apply in_upd in I as [->|I]; auto.
Qed.

Lemma lstep_sync a l : linv l -> sinv l -> (a = LOpen -> opening l = false -> caught_up l) -> sinv (lstep a l).
Proof.
  intros I S C. pose proof I as [LG WI]. destruct a as [spin|i|i| | |i|i|i]; cbn [lstep].
  - destruct (opening l) eqn:O; [exact S|]. intros w. cbn. rewrite in_app_iff. intros [W|[<-|[]]] L; [now apply S|].
    unfold w_round. cbn. split; [lia|discriminate].
  - destruct (nth_error (waiters l) i) as [w|] eqn:E; [|exact S]. destruct (w_pc w); try exact S.
    intros x. cbn. rewrite in_app_iff. intros [W|[<-|[]]] L; apply S; auto. eapply nth_error_In; eauto.
  - destruct (nth_error (waiters l) i) as [w|] eqn:E; [|exact S]. destruct (w_pc w) eqn:P; try exact S.
    eapply set_w_sync; eauto. unfold at_pc, w_live. cbn. discriminate.
  - destruct (opening l) eqn:O; [exact S|]. intros w W L. cbn in *. pose proof (C eq_refl eq_refl w W L) as X.
    destruct (S w W L) as [_ P]. split; [lia|exact P].
  - destruct (opening l) eqn:O; [|exact S]. intros w. cbn. rewrite in_map_iff. intros (x & <- & W) L.
    assert (LX : w_live x = true) by (revert L; unfold wake_w, w_live; destruct (w_pc x) eqn:P; cbn; rewrite ?P; auto).
    destruct (S x W LX) as [A B]. unfold wake_w. destruct (w_pc x) eqn:P; rewrite ?P; cbn; auto.
    unfold w_round in *. cbn. split; [exact A|discriminate].
  - destruct (nth_error (waiters l) i) as [w|] eqn:E; [|exact S]. destruct (w_pc w) eqn:P; try exact S.
    assert (LX : w_live w = true) by (unfold w_live; now rewrite P). apply nth_error_In in E as Iw. destruct (S w Iw LX) as [A B].
    eapply set_w_sync; eauto. intros _. unfold w_round, at_pc in *. cbn. split; [exact A|discriminate].
  - destruct (nth_error (waiters l) i) as [w|] eqn:E; [|exact S]. apply nth_error_In in E as Iw.
    destruct (w_pc w) eqn:P; try exact S; assert (LX : w_live w = true) by (unfold w_live; now rewrite P); destruct (S w Iw LX) as [A B].
    + eapply set_w_sync; eauto. intros _. destruct (w_load_sync l w LG (WI w Iw) A) as [X Y]. split; [lia|exact Y].
    + eapply set_w_sync; eauto. intros _. unfold w_round, at_pc in *. cbn. split; [exact A|destruct (_ =? _); discriminate].
    + eapply set_w_sync; eauto. intros _. unfold w_round, at_pc in *. cbn. split; [exact A|discriminate].
  - destruct (nth_error (waiters l) i) as [w|] eqn:E; [|exact S]. destruct (w_pc w) eqn:P; try exact S.
    assert (LX : w_live w = true) by (unfold w_live; now rewrite P). apply nth_error_In in E as Iw. destruct (S w Iw LX) as [A B].
    eapply set_w_sync; eauto. intros _. unfold w_round, at_pc in *. cbn. split; [exact A|discriminate].
Qed.

Lemma lrun_sync acts : forall l, linv l -> sinv l -> synced l acts -> sinv (lrun l acts).
Proof.
  induction acts as [|a acts IH]; intros l I S C; [exact S|]. destruct C as [C1 C2]. cbn. apply IH; auto.
  - now apply lstep_inv.
  - now apply lstep_sync.
Qed.

Lemma latch_no_panic acts w : synced latch_new acts -> In w (waiters (lrun latch_new acts)) -> w_live w = true ->
  opened (lrun latch_new acts) - 1 <= w_round w <= opened (lrun latch_new acts) /\ w_pc w <> WPanic.
Proof.
  intros C I L. assert (S0 : sinv latch_new) by (intros x []).
  destruct (lrun_sync acts latch_new latch_new_inv S0 C w I L) as [A B]. split; [|exact B]. split; [exact A|].
  now apply latch_no_early.
Qed.

(** A sleeping waiter whose latch is open is about to be woken. *)
Lemma latch_no_lost acts w : synced latch_new acts -> In w (waiters (lrun latch_new acts)) ->
  w_pc w = WAsleep -> w_round w < opened (lrun latch_new acts) -> opening (lrun latch_new acts) = true.
Proof.
  intros C I P L. assert (LV : w_live w = true) by (unfold w_live; now rewrite P).
  destruct (latch_no_panic acts w C I LV) as [B _].
  destruct (lrun_inv acts _ latch_new_inv) as [LG WI]. pose proof (WI w I) as [A _ _ D].
  destruct (D P) as [E|E]; [|exact E]. exfalso. rewrite LG, A in E.
  assert (X : opened (lrun latch_new acts) = w_round w + 1) by lia. rewrite X in E.
  unfold wrap32 in E. clear - E. Z.to_euclidean_division_equations. lia.
Qed.

(** When the latch is open for a waiter that is awake in [wait], its next steps return. *)
Lemma latch_returns l i w : linv l -> nth_error (waiters l) i = Some w -> w_round w + 1 = opened l ->
  w_pc w = WLoad -> exists w', nth_error (waiters (lstep (LStep i) l)) i = Some w' /\
    w_pc w' = WIdle /\ w_round w' = w_round w + 1.
Proof.
  intros [LG WI] E R P. cbn [lstep]. rewrite E, P. cbn.
  assert (L : (i < length (waiters l))%nat) by (apply nth_error_Some; congruence).
  rewrite nth_error_upd_same by exact L. eexists. split; [reflexivity|].
  pose proof (wi_gen _ _ (WI w (nth_error_In _ _ E))) as A. unfold w_load. rewrite LG, A, wrap32_sub.
  replace (opened l - w_round w) with 1 by lia. change (wrap32 1 =? 1) with true. unfold w_round. cbn. split; [reflexivity|lia].
Qed.

(** ** The count-down latch *)
Definition cnt {A} (P : A -> bool) (l : list A) : Z := Z.of_nat (length (filter P l)).
Lemma cnt_nonneg {A} (P : A -> bool) l : 0 <= cnt P l.
Proof. unfold cnt. lia. Qed.
Lemma cnt_cons {A} (P : A -> bool) x l : cnt P (x :: l) = b2z (P x) + cnt P l.
Proof. unfold cnt. cbn. destruct (P x); cbn [length b2z]; lia. Qed.
Lemma cnt_snoc {A} (P : A -> bool) x l : cnt P (l ++ [x]) = cnt P l + b2z (P x).
Proof. unfold cnt. rewrite filter_app, app_length. cbn. destruct (P x); cbn [length b2z]; lia. Qed.
Lemma cnt_upd {A} (P : A -> bool) i x y l : nth_error l i = Some x -> cnt P (upd i y l) = cnt P l - b2z (P x) + b2z (P y).
Proof.
  revert i. induction l as [|z l IH]; intros [|i] E; cbn [nth_error upd] in *; try discriminate; rewrite !cnt_cons.
  - injection E as ->. lia.
  - rewrite (IH i E). lia.
Qed.
Lemma cnt_ext {A} (P Q : A -> bool) l : (forall x, In x l -> P x = Q x) -> cnt P l = cnt Q l.
Proof.
  induction l as [|x l IH]; intros H; [reflexivity|]. rewrite !cnt_cons, (H x (or_introl eq_refl)), IH; [reflexivity|].
  intros y I. apply H. now right.
Qed.
Lemma cnt_zero {A} (P : A -> bool) l : cnt P l = 0 <-> forall x, In x l -> P x = false.
Proof.
  induction l as [|x l IH]; [split; [intros _ x []|reflexivity]|]. rewrite cnt_cons. pose proof (cnt_nonneg P l) as N. split.
  - intros E y [<-|I]; [destruct (P x); [unfold b2z in E; lia|reflexivity]|]. apply IH; [|exact I]. destruct (P x); unfold b2z in E; lia.
  - intros H. rewrite (H x (or_introl eq_refl)). cbn. rewrite (proj2 IH); [reflexivity|]. intros y I. apply H. now right.
Qed.
Lemma cnt_pos {A} (P : A -> bool) l x : In x l -> P x = true -> 0 < cnt P l.
Proof.
  intros I E. pose proof (cnt_nonneg P l). destruct (Z.eq_dec (cnt P l) 0) as [Z0|]; [|lia].
  apply cnt_zero with (x := x) in Z0; congruence.
Qed.
Lemma cnt_ex {A} (P : A -> bool) l : 0 < cnt P l -> exists x, In x l /\ P x = true.
Proof.
  induction l as [|x l IH]; [unfold cnt; cbn; lia|]. rewrite cnt_cons. destruct (P x) eqn:E.
  - intros _. exists x. split; [now left|exact E].
  - cbn. intros H. destruct IH as (y & I & F); [lia|]. exists y. split; [now right|exact F].
Qed.
Lemma cnt_map {A} (P : A -> bool) (f : A -> A) l : (forall x, P (f x) = P x) -> cnt P (map f l) = cnt P l.
Proof. intros H. induction l as [|x l IH]; [reflexivity|]. cbn [map]. rewrite !cnt_cons, H, IH. reflexivity. Qed.

Definition c_at (R : Z) (c : counter) : bool := c_live c && (c_round c =? R).
Definition w_at (R : Z) (w : cwaiter) : bool := cw_live w && (cw_round w =? R).

Record cinv (l : cdl) : Prop := {
  ci_ok : broken l = false;
  ci_gen : generation (cst l) = wrap64 (round_no l);
  ci_counters : counters (cst l) = cnt (c_at (round_no l)) (cs l);
  ci_waiters : cwaiters (cst l) = cnt (w_at (round_no l)) (ws l);
  ci_tc : total_counters (cst l) = cnt c_live (cs l);
  ci_tw : total_waiters (cst l) = cnt cw_live (ws l);
  ci_c : forall c, In c (cs l) -> c_live c = true -> c_gen c = wrap64 (c_round c) /\ round_no l <= c_round c <= round_no l + 1;
  ci_w : forall w, In w (ws l) -> cw_live w = true -> cw_gen w = wrap64 (cw_round w) /\ round_no l <= cw_round w <= round_no l + 1;
  ci_nl : forall c, In c (cs l) -> c_notify c = true -> c_live c = true;
  ci_wl : forall w, In w (ws l) -> cw_pc w <> CIdle -> cw_live w = true;
  ci_A : 0 < total_waiters (cst l) -> 0 < cwaiters (cst l);
  ci_B : forall w, In w (ws l) -> cw_live w = true -> cw_round w = round_no l + 1 -> counters (cst l) = 0
}.

Lemma wrap64_succ x : wrap64 (wrap64 x + 1) = wrap64 (x + 1).
Proof. unfold wrap64. rewrite Zplus_mod_idemp_l. reflexivity. Qed.
Lemma wrap64_neq R x : R <= x <= R + 1 -> (wrap64 x =? wrap64 R) = (x =? R).
Proof.
  intros B. destruct (Z.eqb_spec x R) as [->|N]; [apply Z.eqb_refl|]. assert (x = R + 1) by lia. subst x.
  apply Z.eqb_neq. unfold wrap64. clear. Z.to_euclidean_division_equations. lia.
Qed.

Lemma cdl_new_inv : cinv cdl_new.
Proof.
  constructor; cbn; try reflexivity; try lia.
  - intros c [<-|[]] _. cbn. split; [reflexivity|lia].
  - intros w [<-|[]] _. cbn. split; [reflexivity|lia].
  - intros c [<-|[]]. cbn. discriminate.
  - intros w [<-|[]]. reflexivity.
  - intros w [<-|[]] _. cbn. lia.
Qed.

Lemma c_at_gen l c : cinv l -> In c (cs l) -> c_live c = true -> (c_gen c =? generation (cst l)) = (c_round c =? round_no l).
Proof. intros I Ic L. destruct (ci_c _ I c Ic L) as [-> B]. rewrite (ci_gen _ I). now apply wrap64_neq. Qed.
Lemma w_at_gen l w : cinv l -> In w (ws l) -> cw_live w = true -> (cw_gen w =? generation (cst l)) = (cw_round w =? round_no l).
Proof. intros I Ic L. destruct (ci_w _ I w Ic L) as [-> B]. rewrite (ci_gen _ I). now apply wrap64_neq. Qed.

Lemma notify_live w : cw_live (notify_w w) = cw_live w.
Proof. unfold notify_w. destruct (cw_pc w); reflexivity. Qed.
Lemma notify_round w : cw_round (notify_w w) = cw_round w.
Proof. unfold notify_w. destruct (cw_pc w); reflexivity. Qed.
Lemma notify_gen w : cw_gen (notify_w w) = cw_gen w.
Proof. unfold notify_w. destruct (cw_pc w); reflexivity. Qed.
Lemma notify_pc w : cw_pc (notify_w w) = CIdle <-> cw_pc w = CIdle.
Proof. unfold notify_w. destruct (cw_pc w) eqn:E; cbn; rewrite ?E; intuition congruence. Qed.

(** Changing only the programme counters of waiters keeps the invariant. *)
Lemma cinv_ws l ws' : cinv l ->
  cnt (w_at (round_no l)) ws' = cnt (w_at (round_no l)) (ws l) -> cnt cw_live ws' = cnt cw_live (ws l) ->
  (forall w, In w ws' -> exists w0, In w0 (ws l) /\ cw_live w = cw_live w0 /\ cw_gen w = cw_gen w0 /\ cw_round w = cw_round w0 /\ (cw_pc w <> CIdle -> cw_live w0 = true)) ->
  cinv (Cdl (cst l) (cs l) ws' (broken l) (round_no l)).
Proof.
  intros I C1 C2 W. constructor; cbn [cst cs ws broken round_no]; try apply I.
  - rewrite C1. apply I.
  - rewrite C2. apply I.
  - intros w Iw L. destruct (W w Iw) as (w0 & I0 & A & B & C & D). rewrite B, C. apply (ci_w _ I); congruence.
  - intros w Iw L. destruct (W w Iw) as (w0 & I0 & A & B & C & D). rewrite A. now apply D.
  - intros w Iw L E. destruct (W w Iw) as (w0 & I0 & A & B & C & D). apply (ci_B _ I w0); congruence.
Qed.

Lemma map_notify_inv l (b : bool) : cinv l -> cinv (Cdl (cst l) (cs l) (if b then map notify_w (ws l) else ws l) (broken l) (round_no l)).
Proof.
  intros I. destruct b.
  - apply cinv_ws; [exact I| | |].
    + apply cnt_map. intros x. unfold w_at. now rewrite notify_live, notify_round.
    + apply cnt_map. intros x. apply notify_live.
    + intros w Iw. apply in_map_iff in Iw as (x & <- & Ix). exists x. rewrite notify_live, notify_gen, notify_round, notify_pc.
      repeat split; auto. now apply (ci_wl _ I).
  - apply cinv_ws; [exact I| | |]; auto. intros w Iw. exists w. repeat split; auto. now apply (ci_wl _ I).
Qed.

Lemma set_cw_inv l i w w0 : cinv l -> nth_error (ws l) i = Some w0 ->
  cw_live w = cw_live w0 -> cw_gen w = cw_gen w0 -> cw_round w = cw_round w0 -> (cw_pc w <> CIdle -> cw_live w0 = true) ->
  cinv (set_cw l i w).
Proof.
  intros I E A B C D. unfold set_cw. apply cinv_ws; [exact I| | |].
  - rewrite (cnt_upd _ _ _ _ _ E). unfold w_at. rewrite A, C. lia.
  - rewrite (cnt_upd _ _ _ _ _ E). rewrite A. lia.
  - intros x Ix. apply in_upd in Ix as [->|Ix].
    + exists w0. repeat split; auto. eapply nth_error_In; eauto.
    + exists x. repeat split; auto. now apply (ci_wl _ I).
Qed.

Definition all_w_at (l : cdl) (R : Z) : Prop := forall w, In w (ws l) -> cw_live w = true -> cw_round w = R.
Definition all_c_at (l : cdl) (R : Z) : Prop := forall c, In c (cs l) -> c_live c = true -> c_round c = R.

Lemma counters_zero l : cinv l -> counters (cst l) = 0 -> all_c_at l (round_no l + 1).
Proof.
  intros I Z0 c Ic L. rewrite (ci_counters _ I) in Z0. apply cnt_zero with (x := c) in Z0; [|exact Ic].
  unfold c_at in Z0. rewrite L in Z0. cbn in Z0. pose proof (proj2 (ci_c _ I c Ic L)). lia.
Qed.

(** The effect of a waiter leaving round R, by returning from wait or being dropped. *)
Lemma advance_inv l ws' R s' :
  cinv l -> R = round_no l -> counters (cst l) = 0 ->
  (forall w, In w ws' -> cw_live w = true -> cw_gen w = wrap64 (cw_round w) /\ cw_round w = R + 1) ->
  (forall w, In w ws' -> cw_pc w <> CIdle -> cw_live w = true) ->
  s' = CState (wrap64 (generation (cst l) + 1)) (total_counters (cst l)) (cnt cw_live ws') (total_counters (cst l)) (cnt cw_live ws') ->
  cinv (Cdl s' (cs l) ws' false (R + 1)).
Proof.
  intros I -> Z0 W WL ->. pose proof (counters_zero l I Z0) as CA.
  constructor; cbn [cst cs ws broken round_no generation counters cwaiters total_counters total_waiters]; auto.
  - rewrite (ci_gen _ I), wrap64_succ. reflexivity.
  - rewrite (ci_tc _ I). apply cnt_ext. intros c Ic. unfold c_at. destruct (c_live c) eqn:L; [|reflexivity].
    rewrite (CA c Ic L), Z.eqb_refl. reflexivity.
  - apply cnt_ext. intros w Iw. unfold w_at. destruct (cw_live w) eqn:L; [|reflexivity].
    rewrite (proj2 (W w Iw L)), Z.eqb_refl. reflexivity.
  - apply I.
  - intros c Ic L. destruct (ci_c _ I c Ic L) as [A B]. split; [exact A|]. rewrite (CA c Ic L). lia.
  - intros w Iw L. destruct (W w Iw L) as [A B]. split; [exact A|lia].
  - apply I.
  - intros w Iw L E. rewrite (proj2 (W w Iw L)) in E. lia.
Qed.


Definition may_act (l : cdl) (a : cact) : Prop :=
  match a with
  | CCountDown i =>
      match nth_error (cs l) i with
      | Some c => c_live c = true -> c_notify c = false -> c_round c = round_no l
      | None => True
      end
  | _ => True
  end.

(** A counter may count down exactly when it is in the current round. *)
Lemma may_count_iff l c : cinv l -> In c (cs l) -> c_live c = true -> may_count l c -> c_round c = round_no l.
Proof.
  intros I Ic L [(w & Iw & Lw) M].
  assert (P : 0 < cwaiters (cst l)).
  { apply (ci_A _ I). rewrite (ci_tw _ I). now apply (cnt_pos _ _ w). }
  rewrite (ci_waiters _ I) in P. apply cnt_ex in P as (w' & Iw' & A). unfold w_at in A.
  apply andb_true_iff in A as [Lw' A]. apply Z.eqb_eq in A.
  pose proof (M w' Iw' Lw'). pose proof (proj2 (ci_c _ I c Ic L)). lia.
Qed.

Lemma countdown_inv l i c : cinv l -> nth_error (cs l) i = Some c -> c_live c = true -> c_notify c = false ->
  (c_round c = round_no l -> exists s n, cd_section (cst l) (c_gen c) = Some (s, n) /\ n = (counters s =? 0) /\
     counters s = counters (cst l) - 1 /\
     cinv (Cdl s (upd i (Counter (wrap64 (c_gen c + 1)) n true (c_round c + 1)) (cs l)) (ws l) false (round_no l))) /\
  (c_round c <> round_no l -> cd_section (cst l) (c_gen c) = None).
Proof.
  intros I E L N. pose proof (nth_error_In _ _ E) as Ic. pose proof (c_at_gen l c I Ic L) as G.
  unfold cd_section. rewrite G. split.
  - intros R. rewrite assert_true by lia.
    assert (P : 0 < counters (cst l)).
    { rewrite (ci_counters _ I). apply (cnt_pos _ _ c Ic). unfold c_at. rewrite L, R. cbn. lia. }
    unfold usub. replace (1 <=? counters (cst l)) with true by lia. ob. eexists _, _. split; [reflexivity|].
    cbn [counters]. split; [reflexivity|]. split; [reflexivity|].
    destruct (ci_c _ I c Ic L) as [GC B].
    constructor; cbn [cst cs ws broken round_no generation counters cwaiters total_counters total_waiters]; try apply I; auto.
    + rewrite (cnt_upd _ _ _ _ _ E), <- (ci_counters _ I). unfold c_at. rewrite L. cbn.
      replace (c_round c =? round_no l) with true by lia. replace (c_round c + 1 =? round_no l) with false by lia. cbn. lia.
    + rewrite (cnt_upd _ _ _ _ _ E), <- (ci_tc _ I), L. cbn. lia.
    + intros x Ix Lx. apply in_upd in Ix as [->|Ix]; [|now apply (ci_c _ I)]. cbn. rewrite GC, wrap64_succ. split; [reflexivity|lia].
    + intros x Ix Nx. apply in_upd in Ix as [->|Ix]; [reflexivity|now apply (ci_nl _ I)].
    + intros w Iw Lw Ew. pose proof (ci_B _ I w Iw Lw Ew). lia.
  - intros R. unfold assert_then. replace (c_round c =? round_no l) with false by lia. reflexivity.
Qed.

Definition small_l (l : cdl) : Prop := total_counters (cst l) < U64_MAX /\ total_waiters (cst l) < U64_MAX.

Lemma cnt_le {A} (P Q : A -> bool) l : (forall x, P x = true -> Q x = true) -> cnt P l <= cnt Q l.
Proof.
  intros H. induction l as [|x l IH]; [unfold cnt; cbn; lia|]. rewrite !cnt_cons. specialize (H x). destruct (P x), (Q x); cbn; try lia.
Qed.

Lemma cstep_inv a l : cinv l -> may_act l a -> small_l l ->
  cinv (cstep a l) /\
  total_counters (cst (cstep a l)) <= total_counters (cst l) + 1 /\ total_waiters (cst (cstep a l)) <= total_waiters (cst l) + 1.
Proof.
  intros I M [SC SW]. unfold cstep. rewrite (ci_ok _ I).
  assert (KEEP : cinv l /\ total_counters (cst l) <= total_counters (cst l) + 1 /\ total_waiters (cst l) <= total_waiters (cst l) + 1) by (split; [exact I|lia]).
  destruct a as [i|i|i|i|i|i|i|i|i]; cbn [may_act] in M.
  - (* count_down *)
    destruct (nth_error (cs l) i) as [c|] eqn:E; [|exact KEEP]. pose proof (nth_error_In _ _ E) as Ic.
    destruct (c_live c && negb (c_notify c)) eqn:LN; [|exact KEEP].
    apply andb_true_iff in LN as [L N]. apply negb_true_iff in N.
    destruct (countdown_inv l i c I E L N) as [A _].
    destruct (A (M L N)) as (s & n & ES & En & EC & I').
    rewrite ES. split; [exact I'|]. cbn. unfold cd_section, assert_then in ES.
    destruct (c_gen c =? generation (cst l)); [|discriminate]. destruct (usub (counters (cst l))); [|discriminate].
    ob_in ES. injection ES as <- _. cbn. lia.
  - (* notify *)
    destruct (nth_error (cs l) i) as [c|] eqn:E; [|exact KEEP]. pose proof (nth_error_In _ _ E) as Ic.
    destruct (c_notify c) eqn:N; [|exact KEEP]. split; [|cbn; lia].
    pose proof (map_notify_inv l true I) as I1. cbn in I1. rewrite (ci_ok _ I) in I1.
    pose proof (ci_nl _ I c Ic N) as L.
    constructor; cbn [cst cs ws broken round_no]; try apply I1; auto.
    + rewrite (cnt_upd _ _ _ _ _ E). unfold c_at at 2 3. cbn. rewrite (ci_counters _ I). lia.
    + rewrite (cnt_upd _ _ _ _ _ E). cbn. rewrite (ci_tc _ I). lia.
    + intros x Ix Lx. apply in_upd in Ix as [->|Ix]; [|now apply (ci_c _ I)]. cbn. now apply (ci_c _ I).
    + intros x Ix Nx. apply in_upd in Ix as [->|Ix]; [discriminate|now apply (ci_nl _ I)].
  - (* call of wait *)
    destruct (nth_error (ws l) i) as [w|] eqn:E; [|exact KEEP]. destruct (cw_pc w) eqn:P; try exact KEEP.
    destruct (cw_live w) eqn:L; [|exact KEEP]. split; [|cbn; lia]. eapply set_cw_inv; eauto.
  - (* evaluation of the condition *)
    destruct (nth_error (ws l) i) as [w|] eqn:E; [|exact KEEP]. destruct (cw_pc w) eqn:P; try exact KEEP.
    pose proof (nth_error_In _ _ E) as Iw.
    assert (L : cw_live w = true) by (apply (ci_wl _ I w Iw); congruence).
    unfold must_wait. rewrite (w_at_gen l w I Iw L).
    destruct (Z.eqb_spec (cw_round w) (round_no l)) as [R|R]; cbn [negb orb].
    2: { split; [|cbn; lia]. eapply set_cw_inv; eauto. }
    destruct (Z.ltb_spec 0 (counters (cst l))) as [C|C].
    { split; [|cbn; lia]. eapply set_cw_inv; eauto. }
    assert (C0 : counters (cst l) = 0) by (rewrite (ci_counters _ I) in *; pose proof (cnt_nonneg (c_at (round_no l)) (cs l)); lia).
    assert (WP : 0 < cwaiters (cst l)).
    { rewrite (ci_waiters _ I). apply (cnt_pos _ _ w Iw). unfold w_at. rewrite L, R. cbn. lia. }
    destruct (ci_w _ I w Iw L) as [GW _].
    set (w' := CWaiter (wrap64 (cw_gen w + 1)) CIdle (cw_live w) (cw_round w + 1)).
    assert (CU : cnt (w_at (round_no l)) (upd i w' (ws l)) = cwaiters (cst l) - 1).
    { rewrite (cnt_upd _ _ _ _ _ E), <- (ci_waiters _ I). unfold w_at, w'. cbn. rewrite L. cbn.
      replace (cw_round w =? round_no l) with true by lia. replace (cw_round w + 1 =? round_no l) with false by lia. cbn. lia. }
    assert (TU : cnt cw_live (upd i w' (ws l)) = total_waiters (cst l)).
    { rewrite (cnt_upd _ _ _ _ _ E), <- (ci_tw _ I). unfold w'. cbn. lia. }
    unfold wait_section, usub. replace (1 <=? cwaiters (cst l)) with true by lia. ob.
    destruct (Z.eqb_spec (cwaiters (cst l) - 1) 0) as [W0|W0].
    + unfold advance. cbn [counters cwaiters total_counters total_waiters generation].
      rewrite !assert_true by lia. ob. cbn [b2z]. split; [|cbn; lia].
      apply (advance_inv l _ (round_no l)); auto.
      * intros x Ix Lx. apply in_upd_pos in Ix as [->|(j & Nj & Ej)].
        -- unfold w'. cbn. rewrite GW, wrap64_succ. split; [reflexivity|lia].
        -- pose proof (nth_error_In _ _ Ej) as Ix. destruct (ci_w _ I x Ix Lx) as [GX BX]. split; [exact GX|].
           assert (X : In x (upd i w' (ws l))).
           { apply (nth_error_In _ j). rewrite nth_error_upd_other by congruence. exact Ej. }
           rewrite W0 in CU. apply cnt_zero with (x := x) in CU; [|exact X]. unfold w_at in CU. rewrite Lx in CU. cbn in CU. lia.
      * intros x Ix Px. apply in_upd in Ix as [->|Ix]; [exfalso; apply Px; reflexivity|now apply (ci_wl _ I)].
      * rewrite TU. reflexivity.
    + cbn [b2z]. rewrite Z.add_0_r. split; [|cbn; lia].
      constructor; cbn [cst cs ws broken round_no generation counters cwaiters total_counters total_waiters]; try apply I; auto.
      * intros x Ix Lx. apply in_upd in Ix as [->|Ix]; [|now apply (ci_w _ I)]. unfold w'. cbn. rewrite GW, wrap64_succ. split; [reflexivity|lia].
      * intros x Ix Px. apply in_upd in Ix as [->|Ix]; [exfalso; apply Px; reflexivity|now apply (ci_wl _ I)].
      * intros _. lia.
  - (* spurious *)
    destruct (nth_error (ws l) i) as [w|] eqn:E; [|exact KEEP]. split; [|cbn; lia].
    eapply set_cw_inv; eauto using notify_live, notify_gen, notify_round.
    rewrite notify_pc. intros X. apply (ci_wl _ I); [eapply nth_error_In; eauto|exact X].
  - (* clone of a counter *)
    destruct (nth_error (cs l) i) as [c|] eqn:E; [|exact KEEP]. pose proof (nth_error_In _ _ E) as Ic.
    destruct (c_live c && negb (c_notify c)) eqn:LN; [|exact KEEP].
    apply andb_true_iff in LN as [L N]. apply negb_true_iff in N.
    unfold clone_counter, uadd. replace (total_counters (cst l) + 1 <=? U64_MAX) with true by lia. ob.
    rewrite (c_at_gen l c I Ic L).
    assert (CL : counters (cst l) <= total_counters (cst l)).
    { rewrite (ci_counters _ I), (ci_tc _ I). apply cnt_le. unfold c_at. intros x. now destruct (c_live x). }
    replace (counters (cst l) + 1 <=? U64_MAX) with true by lia.
    replace (if c_round c =? round_no l then Some (counters (cst l) + 1) else Some (counters (cst l)))
      with (Some (counters (cst l) + b2z (c_round c =? round_no l))) by (destruct (_ =? _); cbn; f_equal; lia).
    ob. split; [|cbn; lia].
    constructor; cbn [cst cs ws broken round_no generation counters cwaiters total_counters total_waiters]; try apply I; auto.
    + rewrite cnt_snoc, <- (ci_counters _ I). unfold c_at. rewrite L. reflexivity.
    + rewrite cnt_snoc, <- (ci_tc _ I), L. reflexivity.
    + intros x Ix Lx. apply in_app_iff in Ix as [Ix|[<-|[]]]; now apply (ci_c _ I).
    + intros x Ix Nx. apply in_app_iff in Ix as [Ix|[<-|[]]]; now apply (ci_nl _ I).
    + intros w Iw Lw Ew. pose proof (ci_B _ I w Iw Lw Ew) as C0. rewrite C0.
      destruct (Z.eqb_spec (c_round c) (round_no l)) as [R|R]; [|reflexivity]. exfalso.
      pose proof (counters_zero l I C0 c Ic L). lia.
  - (* clone of a waiter *)
    destruct (nth_error (ws l) i) as [w|] eqn:E; [|exact KEEP]. destruct (cw_pc w) eqn:P; try exact KEEP.
    destruct (cw_live w) eqn:L; [|exact KEEP]. pose proof (nth_error_In _ _ E) as Iw.
    unfold clone_waiter, uadd. replace (total_waiters (cst l) + 1 <=? U64_MAX) with true by lia. ob.
    rewrite (w_at_gen l w I Iw L).
    assert (CL : cwaiters (cst l) <= total_waiters (cst l)).
    { rewrite (ci_waiters _ I), (ci_tw _ I). apply cnt_le. unfold w_at. intros x. now destruct (cw_live x). }
    replace (cwaiters (cst l) + 1 <=? U64_MAX) with true by lia.
    replace (if cw_round w =? round_no l then Some (cwaiters (cst l) + 1) else Some (cwaiters (cst l)))
      with (Some (cwaiters (cst l) + b2z (cw_round w =? round_no l))) by (destruct (_ =? _); cbn; f_equal; lia).
    ob. split; [|cbn; lia].
    assert (TW : 0 < total_waiters (cst l)) by (rewrite (ci_tw _ I); now apply (cnt_pos _ _ w)).
    pose proof (ci_A _ I TW) as WP.
    constructor; cbn [cst cs ws broken round_no generation counters cwaiters total_counters total_waiters]; try apply I; auto.
    + rewrite cnt_snoc, <- (ci_waiters _ I). unfold w_at. rewrite L. reflexivity.
    + rewrite cnt_snoc, <- (ci_tw _ I), L. reflexivity.
    + intros x Ix Lx. apply in_app_iff in Ix as [Ix|[<-|[]]]; now apply (ci_w _ I).
    + intros x Ix Px. apply in_app_iff in Ix as [Ix|[<-|[]]]; now apply (ci_wl _ I).
    + intros _. destruct (_ =? _); cbn; lia.
    + intros x Ix Lx Ex. apply in_app_iff in Ix as [Ix|[<-|[]]]; eapply (ci_B _ I); eauto.
  - (* drop of a counter *)
    destruct (nth_error (cs l) i) as [c|] eqn:E; [|exact KEEP]. pose proof (nth_error_In _ _ E) as Ic.
    destruct (c_live c && negb (c_notify c)) eqn:LN; [|exact KEEP].
    apply andb_true_iff in LN as [L N]. apply negb_true_iff in N.
    assert (TC : 0 < total_counters (cst l)) by (rewrite (ci_tc _ I); now apply (cnt_pos _ _ c)).
    unfold drop_counter, usub. replace (1 <=? total_counters (cst l)) with true by lia. ob.
    rewrite (c_at_gen l c I Ic L).
    assert (CP : c_round c = round_no l -> 0 < counters (cst l)).
    { intros R. rewrite (ci_counters _ I). apply (cnt_pos _ _ c Ic). unfold c_at. rewrite L, R. cbn. lia. }
    replace (if c_round c =? round_no l then if 1 <=? counters (cst l) then Some (counters (cst l) - 1) else None else Some (counters (cst l)))
      with (Some (counters (cst l) - b2z (c_round c =? round_no l))).
    2: { destruct (Z.eqb_spec (c_round c) (round_no l)) as [R|R]; cbn; [|f_equal; lia]. specialize (CP R).
         replace (1 <=? counters (cst l)) with true by lia. reflexivity. }
    ob. split; [|cbn; lia].
    set (b := (_ =? 0) : bool). set (nc := counters (cst l) - _).
    assert (NC : nc = cnt (c_at (round_no l)) (upd i (Counter (c_gen c) false false (c_round c)) (cs l))).
    { rewrite (cnt_upd _ _ _ _ _ E), <- (ci_counters _ I). unfold c_at, nc. rewrite L. cbn. lia. }
    assert (I1 : cinv (Cdl (CState (generation (cst l)) nc (cwaiters (cst l)) (total_counters (cst l) - 1) (total_waiters (cst l)))
                       (upd i (Counter (c_gen c) false false (c_round c)) (cs l)) (ws l) false (round_no l))).
    { constructor; cbn [cst cs ws broken round_no generation counters cwaiters total_counters total_waiters]; try apply I; auto.
      + rewrite (cnt_upd _ _ _ _ _ E), <- (ci_tc _ I), L. cbn. lia.
      + intros x Ix Lx. apply in_upd in Ix as [->|Ix]; [discriminate|now apply (ci_c _ I)].
      + intros x Ix Nx. apply in_upd in Ix as [->|Ix]; [discriminate|now apply (ci_nl _ I)].
      + intros w Iw Lw Ew. pose proof (ci_B _ I w Iw Lw Ew) as C0.
        pose proof (cnt_nonneg (c_at (round_no l)) (upd i (Counter (c_gen c) false false (c_round c)) (cs l))). unfold nc in *.
        destruct (_ =? round_no l); cbn in *; lia. }
    exact (map_notify_inv _ b I1).
  - (* drop of a waiter *)
    destruct (nth_error (ws l) i) as [w|] eqn:E; [|exact KEEP]. destruct (cw_pc w) eqn:P; try exact KEEP.
    destruct (cw_live w) eqn:L; [|exact KEEP]. pose proof (nth_error_In _ _ E) as Iw.
    assert (TW : 0 < total_waiters (cst l)) by (rewrite (ci_tw _ I); now apply (cnt_pos _ _ w)).
    unfold drop_waiter, usub. replace (1 <=? total_waiters (cst l)) with true by lia. ob.
    rewrite (w_at_gen l w I Iw L).
    assert (CP : cw_round w = round_no l -> 0 < cwaiters (cst l)).
    { intros R. rewrite (ci_waiters _ I). apply (cnt_pos _ _ w Iw). unfold w_at. rewrite L, R. cbn. lia. }
    replace (if cw_round w =? round_no l then if 1 <=? cwaiters (cst l) then Some (cwaiters (cst l) - 1) else None else Some (cwaiters (cst l)))
      with (Some (cwaiters (cst l) - b2z (cw_round w =? round_no l))).
    2: { destruct (Z.eqb_spec (cw_round w) (round_no l)) as [R|R]; cbn; [|f_equal; lia]. specialize (CP R).
         replace (1 <=? cwaiters (cst l)) with true by lia. reflexivity. }
    ob. set (w' := CWaiter (cw_gen w) CIdle false (cw_round w)). set (nw := cwaiters (cst l) - _).
    assert (NW : nw = cnt (w_at (round_no l)) (upd i w' (ws l))).
    { rewrite (cnt_upd _ _ _ _ _ E), <- (ci_waiters _ I). unfold w_at, nw, w'. rewrite L. cbn. lia. }
    assert (TU : cnt cw_live (upd i w' (ws l)) = total_waiters (cst l) - 1).
    { rewrite (cnt_upd _ _ _ _ _ E), <- (ci_tw _ I), L. unfold w'. cbn. lia. }
    assert (ROUND : nw = 0 -> forall x, In x (upd i w' (ws l)) -> cw_live x = true -> cw_gen x = wrap64 (cw_round x) /\ cw_round x = round_no l + 1).
    { intros W0 x Ix Lx. assert (Iu := Ix). apply in_upd in Ix as [->|Ix]; [discriminate|].
      destruct (ci_w _ I x Ix Lx) as [GX BX]. split; [exact GX|]. rewrite W0 in NW. symmetry in NW.
      apply cnt_zero with (x := x) in NW; [|exact Iu]. unfold w_at in NW. rewrite Lx in NW. cbn in NW. lia. }
    destruct (Z.eqb_spec nw 0) as [W0|W0]; [destruct (Z.eqb_spec (counters (cst l)) 0) as [C0|C0]|]; cbn [andb].
    + unfold advance. cbn [counters cwaiters total_counters total_waiters generation].
      rewrite !assert_true by lia. ob. cbn [b2z]. split; [|cbn; lia].
      apply (advance_inv l _ (round_no l)); auto.
      * intros x Ix Px. apply in_upd in Ix as [->|Ix]; [exfalso; apply Px; reflexivity|now apply (ci_wl _ I)].
      * rewrite TU. reflexivity.
    + cbn [b2z]. rewrite Z.add_0_r. split; [|cbn; lia].
      assert (NL : cnt cw_live (upd i w' (ws l)) = 0).
      { apply cnt_zero. intros x Ix. destruct (cw_live x) eqn:Lx; [|reflexivity]. exfalso. apply C0.
        destruct (ROUND W0 x Ix Lx) as [_ RX]. apply in_upd in Ix as [->|Ix]; [discriminate|]. now apply (ci_B _ I x). }
      constructor; cbn [cst cs ws broken round_no generation counters cwaiters total_counters total_waiters]; try apply I; auto.
      * intros x Ix Lx. apply in_upd in Ix as [->|Ix]; [discriminate|now apply (ci_w _ I)].
      * intros x Ix Px. apply in_upd in Ix as [->|Ix]; [exfalso; apply Px; reflexivity|now apply (ci_wl _ I)].
      * lia.
      * intros x Ix Lx Ex. apply in_upd in Ix as [->|Ix]; [discriminate|now apply (ci_B _ I x)].
    + cbn [b2z]. rewrite Z.add_0_r. split; [|cbn; lia].
      constructor; cbn [cst cs ws broken round_no generation counters cwaiters total_counters total_waiters]; try apply I; auto.
      * intros x Ix Lx. apply in_upd in Ix as [->|Ix]; [discriminate|now apply (ci_w _ I)].
      * intros x Ix Px. apply in_upd in Ix as [->|Ix]; [exfalso; apply Px; reflexivity|now apply (ci_wl _ I)].
      * intros _. pose proof (cnt_nonneg (w_at (round_no l)) (upd i w' (ws l))). lia.
      * intros x Ix Lx Ex. apply in_upd in Ix as [->|Ix]; [discriminate|now apply (ci_B _ I x)].
Qed.

(** Any action either keeps the invariant or is a counter counting down twice for a round. *)
Lemma cstep_any a l : cinv l -> small_l l ->
  (cinv (cstep a l) /\ total_counters (cst (cstep a l)) <= total_counters (cst l) + 1 /\
   total_waiters (cst (cstep a l)) <= total_waiters (cst l) + 1) \/
  (cstep a l = break l /\ exists i c, a = CCountDown i /\ nth_error (cs l) i = Some c /\
     c_live c = true /\ c_notify c = false /\ c_round c = round_no l + 1).
Proof.
  intros I S. destruct a as [i| | | | | | | |]; try (left; apply cstep_inv; auto; exact Logic.I).
  destruct (nth_error (cs l) i) as [c|] eqn:E.
  2: { left. apply cstep_inv; auto. cbn. rewrite E. exact Logic.I. }
  destruct (c_live c) eqn:L.
  2: { left. apply cstep_inv; auto. cbn. rewrite E. congruence. }
  destruct (c_notify c) eqn:N.
  { left. apply cstep_inv; auto. cbn. rewrite E. congruence. }
  destruct (Z.eq_dec (c_round c) (round_no l)) as [R|R].
  { left. apply cstep_inv; auto. cbn. rewrite E. auto. }
  right. destruct (countdown_inv l i c I E L N) as [_ B]. split.
  - unfold cstep. rewrite (ci_ok _ I), E, L, N. cbn. rewrite (B R). reflexivity.
  - exists i, c. repeat split; auto. pose proof (proj2 (ci_c _ I c (nth_error_In _ _ E) L)). lia.
Qed.

Lemma crun_broken acts : forall l, broken l = true -> crun l acts = l.
Proof.
  induction acts as [|a acts IH]; intros l B; [reflexivity|]. cbn.
  assert (X : cstep a l = l) by (unfold cstep; now rewrite B). rewrite X. now apply IH.
Qed.

Lemma crun_inv acts : forall l k, cinv l -> total_counters (cst l) <= 1 + k -> total_waiters (cst l) <= 1 + k ->
  k + Z.of_nat (length acts) < U64_MAX -> broken (crun l acts) = false ->
  cinv (crun l acts) /\ total_counters (cst (crun l acts)) <= 1 + k + Z.of_nat (length acts) /\
  total_waiters (cst (crun l acts)) <= 1 + k + Z.of_nat (length acts).
Proof.
  induction acts as [|a acts IH]; intros l k I A B S NB; cbn [crun length] in *; [split; [exact I|lia]|].
  assert (SM : small_l l) by (unfold small_l; lia).
  destruct (cstep_any a l I SM) as [(I' & A' & B')|(BR & _)].
  - destruct (IH (cstep a l) (k + 1)) as (X & Y & Z0); auto; try lia. split; [exact X|lia].
  - exfalso. rewrite BR in NB. rewrite crun_broken in NB by reflexivity. discriminate.
Qed.

Lemma reach_inv acts : Z.of_nat (length acts) < U64_MAX - 1 -> broken (crun cdl_new acts) = false ->
  cinv (crun cdl_new acts) /\ small_l (crun cdl_new acts).
Proof.
  intros S B. assert (T1 : total_counters (cst cdl_new) <= 1 + 0) by (vm_compute; discriminate).
  assert (T2 : total_waiters (cst cdl_new) <= 1 + 0) by (vm_compute; discriminate).
  assert (T3 : 0 + Z.of_nat (length acts) < U64_MAX) by lia.
  destruct (crun_inv acts cdl_new 0 cdl_new_inv T1 T2 T3 B) as (X & Y & Z0).
  split; [exact X|]. unfold small_l. lia.
Qed.

(** ** Theorems about the count-down latch *)

(** A waiter's round changes only by a return from [wait], when all counters have counted down. *)
Lemma cdl_barrier l a i w w' : cinv l -> small_l l -> nth_error (ws l) i = Some w ->
  nth_error (ws (cstep a l)) i = Some w' -> cw_round w' <> cw_round w ->
  cw_round w' = cw_round w + 1 /\ cw_live w = true /\ all_down l (cw_round w).
Proof.
  intros I S E E' N.
  assert (LT : (i < length (ws l))%nat) by (apply nth_error_Some; congruence).
  assert (UPD : forall j x x0, nth_error (ws l) j = Some x0 -> nth_error (upd j x (ws l)) i = Some w' ->
            (j = i /\ w' = x /\ x0 = w) \/ w' = w).
  { intros j x x0 E0 EU. destruct (Nat.eq_dec j i) as [->|NE].
    - rewrite nth_error_upd_same in EU by exact LT. left. repeat split; congruence.
    - rewrite nth_error_upd_other in EU by congruence. right. congruence. }
  assert (MAP : nth_error (map notify_w (ws l)) i = Some w' -> False).
  { intros EM. rewrite nth_error_map, E in EM. cbn in EM. injection EM as <-. apply N, notify_round. }
  assert (SAME : nth_error (ws l) i = Some w' -> False) by (intros X; apply N; congruence).
  unfold cstep in E'. rewrite (ci_ok _ I) in E'. destruct a as [j|j|j|j|j|j|j|j|j].
  - destruct (nth_error (cs l) j) as [c|]; [|tauto]. destruct (_ && _); [|tauto]. destruct (cd_section _ _) as [[s n]|]; cbn in E'; tauto.
  - destruct (nth_error (cs l) j) as [c|]; [|tauto]. destruct (c_notify c); cbn in E'; tauto.
  - destruct (nth_error (ws l) j) as [x|] eqn:Ej; [|tauto]. destruct (cw_pc x); try tauto. destruct (cw_live x); [|tauto].
    destruct (UPD j _ x Ej E') as [(-> & -> & ->)| ->]; cbn in N; congruence.
  - destruct (nth_error (ws l) j) as [x|] eqn:Ej; [|tauto]. destruct (cw_pc x) eqn:P; try tauto.
    destruct (must_wait (cst l) (cw_gen x)) eqn:MW.
    { destruct (UPD j _ x Ej E') as [(-> & -> & ->)| ->]; cbn in N; congruence. }
    destruct (wait_section (cst l)) as [[s adv]|]; cbn in E'; [|tauto].
    destruct (UPD j _ x Ej E') as [(-> & -> & ->)| ->]; [|congruence]. cbn. split; [reflexivity|].
    pose proof (nth_error_In _ _ E) as Iw. assert (L : cw_live w = true) by (apply (ci_wl _ I w Iw); congruence).
    split; [exact L|]. unfold must_wait in MW. rewrite (w_at_gen l w I Iw L) in MW. apply orb_false_iff in MW as [A B].
    assert (C0 : counters (cst l) = 0).
    { rewrite (ci_counters _ I) in *. pose proof (cnt_nonneg (c_at (round_no l)) (cs l)). lia. }
    intros c Ic Lc. rewrite (counters_zero l I C0 c Ic Lc). apply negb_false_iff, Z.eqb_eq in A. lia.
  - destruct (nth_error (ws l) j) as [x|] eqn:Ej; [|tauto].
    destruct (UPD j _ x Ej E') as [(-> & -> & ->)| ->]; [rewrite notify_round in N|]; congruence.
  - destruct (nth_error (cs l) j) as [c|]; [|tauto]. destruct (_ && _); [|tauto]. destruct (clone_counter _ _); cbn in E'; tauto.
  - destruct (nth_error (ws l) j) as [x|] eqn:Ej; [|tauto]. destruct (cw_pc x); try tauto. destruct (cw_live x); [|tauto].
    destruct (clone_waiter _ _); cbn in E'; [|tauto]. rewrite nth_error_app1 in E' by exact LT. tauto.
  - destruct (nth_error (cs l) j) as [c|]; [|tauto]. destruct (_ && _); [|tauto].
    destruct (drop_counter _ _) as [[s n]|]; cbn in E'; [|tauto]. destruct n; tauto.
  - destruct (nth_error (ws l) j) as [x|] eqn:Ej; [|tauto]. destruct (cw_pc x); try tauto. destruct (cw_live x); [|tauto].
    destruct (drop_waiter _ _) as [[s adv]|]; cbn in E'; [|tauto].
    destruct (UPD j _ x Ej E') as [(-> & -> & ->)| ->]; cbn in N; congruence.
Qed.

(** A counter's round changes only when all waiters have returned for the rounds before. *)
Lemma cdl_count l a i c c' : cinv l -> nth_error (cs l) i = Some c ->
  nth_error (cs (cstep a l)) i = Some c' -> c_round c' <> c_round c ->
  c_round c' = c_round c + 1 /\ c_live c = true /\
  (forall w, In w (ws l) -> cw_live w = true -> c_round c <= cw_round w).
Proof.
  intros I E E' N.
  assert (LT : (i < length (cs l))%nat) by (apply nth_error_Some; congruence).
  assert (UPD : forall j x x0, nth_error (cs l) j = Some x0 -> nth_error (upd j x (cs l)) i = Some c' ->
            (j = i /\ c' = x /\ x0 = c) \/ c' = c).
  { intros j x x0 E0 EU. destruct (Nat.eq_dec j i) as [->|NE].
    - rewrite nth_error_upd_same in EU by exact LT. left. repeat split; congruence.
    - rewrite nth_error_upd_other in EU by congruence. right. congruence. }
  assert (SAME : nth_error (cs l) i = Some c' -> False) by (intros X; apply N; congruence).
  unfold cstep in E'. rewrite (ci_ok _ I) in E'. destruct a as [j|j|j|j|j|j|j|j|j].
  - destruct (nth_error (cs l) j) as [x|] eqn:Ej; [|tauto]. destruct (c_live x && negb (c_notify x)) eqn:LN; [|tauto].
    apply andb_true_iff in LN as [L NN]. apply negb_true_iff in NN.
    destruct (countdown_inv l j x I Ej L NN) as [_ B].
    destruct (cd_section (cst l) (c_gen x)) as [[s n]|] eqn:CD; cbn in E'; [|tauto].
    destruct (UPD j _ x Ej E') as [(-> & -> & ->)| ->]; [|congruence]. cbn. split; [reflexivity|]. split; [exact L|].
    assert (R : c_round c = round_no l) by (destruct (Z.eq_dec (c_round c) (round_no l)) as [|X]; [auto|specialize (B X); discriminate]).
    intros w Iw Lw. pose proof (proj2 (ci_w _ I w Iw Lw)). lia.
  - destruct (nth_error (cs l) j) as [x|] eqn:Ej; [|tauto]. destruct (c_notify x); [|tauto]. cbn in E'.
    destruct (UPD j _ x Ej E') as [(-> & -> & ->)| ->]; cbn in N; congruence.
  - destruct (nth_error (ws l) j) as [x|] eqn:Ej; [|tauto]. destruct (cw_pc x); try tauto. destruct (cw_live x); tauto.
  - destruct (nth_error (ws l) j) as [x|] eqn:Ej; [|tauto]. destruct (cw_pc x) eqn:P; try tauto.
    destruct (must_wait (cst l) (cw_gen x)) eqn:MW; [tauto|].
    destruct (wait_section (cst l)) as [[s adv]|]; cbn in E'; tauto.
  - destruct (nth_error (ws l) j) as [x|] eqn:Ej; tauto.
  - destruct (nth_error (cs l) j) as [x|]; [|tauto]. destruct (_ && _); [|tauto]. destruct (clone_counter _ _); cbn in E'; [|tauto].
    rewrite nth_error_app1 in E' by exact LT. tauto.
  - destruct (nth_error (ws l) j) as [x|] eqn:Ej; [|tauto]. destruct (cw_pc x); try tauto. destruct (cw_live x); [|tauto].
    destruct (clone_waiter _ _); cbn in E'; tauto.
  - destruct (nth_error (cs l) j) as [x|] eqn:Ej; [|tauto]. destruct (_ && _); [|tauto].
    destruct (drop_counter _ _) as [[s n]|]; cbn in E'; [|tauto].
    destruct (UPD j _ x Ej E') as [(-> & -> & ->)| ->]; cbn in N; congruence.
  - destruct (nth_error (ws l) j) as [x|] eqn:Ej; [|tauto]. destruct (cw_pc x); try tauto. destruct (cw_live x); [|tauto].
    destruct (drop_waiter _ _) as [[s adv]|]; cbn in E'; tauto.
Qed.

(** Counting down while a waiter has not returned for an earlier round panics. *)
Lemma cdl_double l i c w : cinv l -> nth_error (cs l) i = Some c -> c_live c = true -> c_notify c = false ->
  In w (ws l) -> cw_live w = true -> cw_round w < c_round c -> broken (cstep (CCountDown i) l) = true.
Proof.
  intros I E L N Iw Lw R. destruct (countdown_inv l i c I E L N) as [_ B].
  pose proof (proj2 (ci_w _ I w Iw Lw)). unfold cstep. rewrite (ci_ok _ I), E, L, N. cbn.
  rewrite B by lia. reflexivity.
Qed.

(** Correct use never panics. *)
Lemma cdl_safe acts : forall l k, cinv l -> total_counters (cst l) <= 1 + k -> total_waiters (cst l) <= 1 + k ->
  k + Z.of_nat (length acts) < U64_MAX -> correct_use l acts -> broken (crun l acts) = false.
Proof.
  induction acts as [|a acts IH]; intros l k I A B S C; cbn [crun length] in *; [apply (ci_ok _ I)|].
  assert (SM : small_l l) by (unfold small_l; lia). destruct C as [C1 C2].
  destruct (cstep_inv a l I) as (I' & A' & B'); auto.
  - destruct a; cbn in *; auto. destruct (nth_error (cs l) i) as [c|] eqn:E; [|auto]. intros L N.
    apply (may_count_iff l c I (nth_error_In _ _ E) L). now apply C1.
  - apply (IH (cstep a l) (k + 1)); auto; lia.
Qed.

(** No lost wake-up while there is a counter. *)
Definition nlost (l : cdl) : Prop :=
  forall w, In w (ws l) -> cw_pc w = CAsleep -> cw_round w = round_no l -> 0 < counters (cst l) \/ notifying l.

Lemma notifying_upd l i c c' : nth_error (cs l) i = Some c -> c_notify c = false -> notifying l ->
  exists x, In x (upd i c' (cs l)) /\ c_notify x = true.
Proof.
  intros E N (x & Ix & Nx). apply In_nth_error in Ix as (j & Ej). exists x. split; [|exact Nx].
  apply (nth_error_In _ j). rewrite nth_error_upd_other; [exact Ej|]. intros ->. congruence.
Qed.

Lemma notify_awake w : cw_pc (notify_w w) <> CAsleep.
Proof. unfold notify_w. destruct (cw_pc w) eqn:E; cbn; congruence. Qed.
Lemma map_awake l w : In w (map notify_w l) -> cw_pc w <> CAsleep.
Proof. rewrite in_map_iff. intros (x & <- & _). apply notify_awake. Qed.

Lemma cstep_nlost a l : cinv l -> cinv (cstep a l) -> nlost l -> some_counter (cstep a l) -> nlost (cstep a l).
Proof.
  intros I I' NL SC.
  assert (ADV : round_no (cstep a l) <> round_no l -> counters (cst (cstep a l)) = total_counters (cst (cstep a l)) -> nlost (cstep a l)).
  { intros _ E w Iw P R. left. rewrite E, (ci_tc _ I'). destruct SC as (c & Ic & Lc). now apply (cnt_pos _ _ c). }
  revert I' SC ADV. unfold cstep. rewrite (ci_ok _ I). destruct a as [i|i|i|i|i|i|i|i|i].
  - destruct (nth_error (cs l) i) as [c|] eqn:E; [|auto]. destruct (c_live c && negb (c_notify c)) eqn:LN; [|auto].
    apply andb_true_iff in LN as [L NN]. apply negb_true_iff in NN.
    destruct (countdown_inv l i c I E L NN) as [A B]. destruct (Z.eq_dec (c_round c) (round_no l)) as [R|R].
    2: { rewrite (B R). auto. }
    destruct (A R) as (s & n & -> & -> & EC & I1). intros I' _ _ w Iw P RW. cbn in *.
    destruct (Z.eqb_spec (counters s) 0) as [Z0|Z0].
    + right. exists (Counter (wrap64 (c_gen c + 1)) true true (c_round c + 1)). cbn. split; [|reflexivity].
      apply (nth_error_In _ i). apply nth_error_upd_same. apply nth_error_Some. congruence.
    + left. pose proof (ci_counters _ I') as X. cbn in X. rewrite X in *. pose proof (cnt_nonneg (c_at (round_no l)) (upd i (Counter (wrap64 (c_gen c + 1)) false true (c_round c + 1)) (cs l))). lia.
  - destruct (nth_error (cs l) i) as [c|] eqn:E; [|auto]. destruct (c_notify c); [|auto].
    intros _ _ _ w Iw P. cbn in Iw. now apply map_awake in Iw.
  - destruct (nth_error (ws l) i) as [w|] eqn:E; [|auto]. destruct (cw_pc w) eqn:P; auto. destruct (cw_live w); [|auto].
    intros _ _ _ x Ix Px Rx. cbn in Ix. apply in_upd in Ix as [->|Ix]; [discriminate|]. exact (NL x Ix Px Rx).
  - destruct (nth_error (ws l) i) as [w|] eqn:E; [|auto]. destruct (cw_pc w) eqn:P; auto. pose proof (nth_error_In _ _ E) as Iw.
    assert (L : cw_live w = true) by (apply (ci_wl _ I w Iw); congruence).
    destruct (must_wait (cst l) (cw_gen w)) eqn:MW.
    + intros _ _ _ x Ix Px Rx. cbn in Ix. apply in_upd in Ix as [->|Ix]; [|exact (NL x Ix Px Rx)]. cbn in *.
      unfold must_wait in MW. rewrite (w_at_gen l w I Iw L) in MW. rewrite Rx, Z.eqb_refl in MW. cbn in MW. left. lia.
    + unfold wait_section. destruct (usub (cwaiters (cst l))) as [n|]; ob; [|auto].
      destruct (n =? 0).
      * unfold advance. cbn [counters cwaiters]. unfold assert_then.
        destruct (counters (cst l) =? 0); ob; [|auto]. destruct (n =? 0); ob; [|auto].
        intros _ _ ADV. apply ADV; cbn; [lia|reflexivity].
      * intros _ _ _ x Ix Px Rx. cbn in Ix. apply in_upd in Ix as [->|Ix]; [discriminate|]. cbn in *.
        rewrite Z.add_0_r in Rx. exact (NL x Ix Px Rx).
  - destruct (nth_error (ws l) i) as [w|] eqn:E; [|auto]. intros _ _ _ x Ix Px Rx. cbn in Ix.
    apply in_upd in Ix as [->|Ix]; [exfalso; revert Px; apply notify_awake|]. exact (NL x Ix Px Rx).
  - destruct (nth_error (cs l) i) as [c|] eqn:E; [|auto]. destruct (c_live c && negb (c_notify c)); [|auto].
    unfold clone_counter. destruct (uadd (total_counters (cst l))) as [t|]; ob; [|auto].
    assert (GE : forall n, (if c_gen c =? generation (cst l) then uadd (counters (cst l)) else Some (counters (cst l))) = Some n -> counters (cst l) <= n).
    { intros n. destruct (_ =? _); [unfold uadd; destruct (_ <=? _); [|discriminate]|]; intros [= <-]; lia. }
    destruct (if c_gen c =? generation (cst l) then _ else _) as [n|]; ob; [|auto]. specialize (GE n eq_refl).
    intros _ _ _ x Ix Px Rx. cbn in *. destruct (NL x Ix Px Rx) as [A|(y & Iy & Ny)]; [left; lia|].
    right. exists y. cbn. rewrite in_app_iff. auto.
  - destruct (nth_error (ws l) i) as [w|] eqn:E; [|auto]. destruct (cw_pc w) eqn:P; auto. destruct (cw_live w); [|auto].
    unfold clone_waiter. destruct (uadd (total_waiters (cst l))) as [t|]; ob; [|auto].
    destruct (if cw_gen w =? generation (cst l) then _ else _) as [n|]; ob; [|auto].
    intros _ _ _ x Ix Px Rx. cbn in *. apply in_app_iff in Ix as [Ix|[<-|[]]]; [|congruence]. exact (NL x Ix Px Rx).
  - destruct (nth_error (cs l) i) as [c|] eqn:E; [|auto]. destruct (c_live c && negb (c_notify c)); [|auto].
    unfold drop_counter. destruct (usub (total_counters (cst l))) as [t|]; ob; [|auto].
    destruct (if c_gen c =? generation (cst l) then _ else _) as [n|]; ob; [|auto].
    destruct (Z.eqb_spec n 0) as [Z0|Z0].
    + intros _ _ _ w Iw P. cbn in Iw. now apply map_awake in Iw.
    + intros I' _ _ w Iw P Rw. left. pose proof (ci_counters _ I') as X. cbn in *. rewrite X in *.
      pose proof (cnt_nonneg (c_at (round_no l)) (upd i (Counter (c_gen c) false false (c_round c)) (cs l))). lia.
  - destruct (nth_error (ws l) i) as [w|] eqn:E; [|auto]. destruct (cw_pc w) eqn:P; auto. destruct (cw_live w); [|auto].
    unfold drop_waiter. destruct (usub (total_waiters (cst l))) as [t|]; ob; [|auto].
    destruct (if cw_gen w =? generation (cst l) then _ else _) as [n|]; ob; [|auto].
    destruct (n =? 0) eqn:N0; [destruct (counters (cst l) =? 0) eqn:C0|]; cbn [andb].
    + unfold advance. cbn [counters cwaiters]. unfold assert_then. rewrite N0, C0. ob.
      intros _ _ ADV. apply ADV; cbn; [lia|reflexivity].
    + intros _ _ _ x Ix Px Rx. cbn in *. apply in_upd in Ix as [->|Ix]; [discriminate|]. rewrite Z.add_0_r in Rx. exact (NL x Ix Px Rx).
    + intros _ _ _ x Ix Px Rx. cbn in *. apply in_upd in Ix as [->|Ix]; [discriminate|]. rewrite Z.add_0_r in Rx. exact (NL x Ix Px Rx).
Qed.

Lemma crun_nlost acts : forall l k, cinv l -> total_counters (cst l) <= 1 + k -> total_waiters (cst l) <= 1 + k ->
  k + Z.of_nat (length acts) < U64_MAX -> nlost l -> always_counter l acts -> broken (crun l acts) = false ->
  nlost (crun l acts).
Proof.
  induction acts as [|a acts IH]; intros l k I A B S NL AC NB; cbn [crun length] in *; [exact NL|].
  assert (SM : small_l l) by (unfold small_l; lia). destruct AC as [_ AC].
  destruct (cstep_any a l I SM) as [(I' & A' & B')|(BR & _)].
  - apply (IH (cstep a l) (k + 1)); auto; try lia. apply cstep_nlost; auto. destruct acts; apply AC.
  - exfalso. rewrite BR in NB. rewrite crun_broken in NB by reflexivity. discriminate.
Qed.

Lemma always_last acts : forall l, always_counter l acts -> some_counter (crun l acts).
Proof. induction acts as [|a acts IH]; intros l [A B]; [exact A|]. now apply IH. Qed.

Lemma all_down_round l w : cinv l -> some_counter l -> In w (ws l) -> cw_live w = true -> all_down l (cw_round w) ->
  cw_round w = round_no l /\ counters (cst l) = 0.
Proof.
  intros I (c & Ic & Lc) Iw Lw AD. pose proof (AD c Ic Lc). pose proof (proj2 (ci_c _ I c Ic Lc)).
  pose proof (proj2 (ci_w _ I w Iw Lw)). assert (R : cw_round w = round_no l) by lia. split; [exact R|].
  rewrite (ci_counters _ I). apply cnt_zero. intros x Ix. unfold c_at. destruct (c_live x) eqn:Lx; [|reflexivity].
  pose proof (AD x Ix Lx). cbn. lia.
Qed.

Lemma cdl_no_lost acts w : Z.of_nat (length acts) < U64_MAX - 1 -> broken (crun cdl_new acts) = false ->
  always_counter cdl_new acts -> In w (ws (crun cdl_new acts)) -> cw_pc w = CAsleep ->
  all_down (crun cdl_new acts) (cw_round w) -> notifying (crun cdl_new acts).
Proof.
  intros S B AC Iw P AD. destruct (reach_inv acts S B) as [I _].
  assert (L : cw_live w = true) by (apply (ci_wl _ I w Iw); congruence).
  destruct (all_down_round _ w I (always_last acts _ AC) Iw L AD) as [R C0].
  assert (NL : nlost cdl_new) by (intros x [<-|[]]; discriminate).
  assert (T1 : total_counters (cst cdl_new) <= 1 + 0) by (vm_compute; discriminate).
  assert (T2 : total_waiters (cst cdl_new) <= 1 + 0) by (vm_compute; discriminate).
  assert (T3 : 0 + Z.of_nat (length acts) < U64_MAX) by lia.
  destruct (crun_nlost acts cdl_new 0 cdl_new_inv T1 T2 T3 NL AC B w Iw P R) as [X|X]; [lia|exact X].
Qed.

Lemma cdl_returns l i w : cinv l -> some_counter l -> nth_error (ws l) i = Some w -> cw_pc w = CCheck ->
  all_down l (cw_round w) ->
  exists w', nth_error (ws (cstep (CStep i) l)) i = Some w' /\ cw_pc w' = CIdle /\ cw_round w' = cw_round w + 1.
Proof.
  intros I SC E P AD. pose proof (nth_error_In _ _ E) as Iw.
  assert (L : cw_live w = true) by (apply (ci_wl _ I w Iw); congruence).
  destruct (all_down_round l w I SC Iw L AD) as [R C0].
  assert (WP : 0 < cwaiters (cst l)).
  { rewrite (ci_waiters _ I). apply (cnt_pos _ _ w Iw). unfold w_at. rewrite L, R, Z.eqb_refl. reflexivity. }
  unfold cstep. rewrite (ci_ok _ I), E, P. unfold must_wait. rewrite (w_at_gen l w I Iw L), R, Z.eqb_refl, C0. change (negb true || (0 <? 0)) with false. cbv iota.
  assert (LT : (i < length (ws l))%nat) by (apply nth_error_Some; congruence).
  unfold wait_section, usub. replace (1 <=? cwaiters (cst l)) with true by lia. ob.
  destruct (Z.eqb_spec (cwaiters (cst l) - 1) 0) as [W0|W0].
  - unfold advance. cbn [counters cwaiters]. rewrite !assert_true by lia. ob.
    eexists. split; [cbn; rewrite nth_error_upd_same by exact LT; reflexivity|]. cbn. auto.
  - eexists. split; [cbn; rewrite nth_error_upd_same by exact LT; reflexivity|]. cbn. auto.
Qed.

(** ** The lost wake-up *)
Definition dead (l : cdl) : Prop := forall c, In c (cs l) -> c_live c = false /\ c_notify c = false.

Lemma dead_asleep a l i w : dead l -> nth_error (ws l) i = Some w -> cw_pc w = CAsleep -> a <> CSpurious i ->
  dead (cstep a l) /\ nth_error (ws (cstep a l)) i = Some w.
Proof.
  intros D E P NS. unfold cstep. destruct (broken l); [auto|].
  assert (LT : (i < length (ws l))%nat) by (apply nth_error_Some; congruence).
  destruct a as [j|j|j|j|j|j|j|j|j].
  1,2,6,8: destruct (nth_error (cs l) j) as [c|] eqn:Ej; [|auto]; apply nth_error_In in Ej; apply D in Ej as [L N]; rewrite ?L, ?N; cbn; auto.
  - destruct (nth_error (ws l) j) as [x|] eqn:Ej; [|auto]. destruct (cw_pc x) eqn:Px; auto. destruct (cw_live x); [|auto].
    split; [exact D|]. cbn. rewrite nth_error_upd_other by congruence. exact E.
  - destruct (nth_error (ws l) j) as [x|] eqn:Ej; [|auto]. destruct (cw_pc x) eqn:Px; auto.
    assert (NE : j <> i) by congruence.
    destruct (must_wait _ _); [split; [exact D|]; cbn; now rewrite nth_error_upd_other by auto|].
    destruct (wait_section (cst l)) as [[s adv]|]; [|auto]. split; [exact D|]. cbn. now rewrite nth_error_upd_other by auto.
  - destruct (nth_error (ws l) j) as [x|] eqn:Ej; [|auto].
    split; [exact D|]. cbn. rewrite nth_error_upd_other by congruence. exact E.
  - destruct (nth_error (ws l) j) as [x|] eqn:Ej; [|auto]. destruct (cw_pc x) eqn:Px; auto. destruct (cw_live x); [|auto].
    destruct (clone_waiter _ _); [|auto]. split; [exact D|]. cbn. rewrite nth_error_app1 by exact LT. exact E.
  - destruct (nth_error (ws l) j) as [x|] eqn:Ej; [|auto]. destruct (cw_pc x) eqn:Px; auto. destruct (cw_live x); [|auto].
    assert (NE : j <> i) by congruence.
    destruct (drop_waiter _ _) as [[s adv]|]; [|auto]. split; [exact D|]. cbn. now rewrite nth_error_upd_other by auto.
Qed.

Lemma dead_forever acts : forall l i w, dead l -> nth_error (ws l) i = Some w -> cw_pc w = CAsleep ->
  ~ In (CSpurious i) acts -> nth_error (ws (crun l acts)) i = Some w.
Proof.
  induction acts as [|a acts IH]; intros l i w D E P N; [exact E|]. cbn in N |- *.
  destruct (dead_asleep a l i w D E P) as [D' E']; [intros ->; tauto|]. apply IH; auto.
Qed.

(** ** Deciding the conditions of use, for the examples *)
Fixpoint syncedb (l : latch) (acts : list lact) : bool :=
  match acts with
  | [] => true
  | a :: r =>
      (match a with
       | LOpen => opening l || forallb (fun w => negb (w_live w) || (w_round w =? opened l)) (waiters l)
       | _ => true
       end) && syncedb (lstep a l) r
  end.
Lemma syncedb_ok acts : forall l, syncedb l acts = true -> synced l acts.
Proof.
  induction acts as [|a acts IH]; intros l H; [exact Logic.I|]. cbn [syncedb] in H. apply andb_true_iff in H as [A B].
  split; [|now apply IH]. intros -> O w Iw Lw. rewrite O in A. cbn in A. rewrite forallb_forall in A.
  specialize (A w Iw). rewrite Lw in A. cbn in A. lia.
Qed.

Fixpoint correct_useb (l : cdl) (acts : list cact) : bool :=
  match acts with
  | [] => true
  | a :: r =>
      (match a with
       | CCountDown i =>
           match nth_error (cs l) i with
           | Some c => existsb cw_live (ws l) && forallb (fun w => negb (cw_live w) || (c_round c <=? cw_round w)) (ws l)
           | None => true
           end
       | _ => true
       end) && correct_useb (cstep a l) r
  end.
Lemma correct_useb_ok acts : forall l, correct_useb l acts = true -> correct_use l acts.
Proof.
  induction acts as [|a acts IH]; intros l H; [exact Logic.I|]. cbn [correct_useb] in H. apply andb_true_iff in H as [A B].
  split; [|now apply IH]. destruct a; auto. destruct (nth_error (cs l) i) as [c|]; [|exact Logic.I]. intros _ _.
  apply andb_true_iff in A as [A1 A2]. rewrite forallb_forall in A2. apply existsb_exists in A1. split; [exact A1|].
  intros w Iw Lw. specialize (A2 w Iw). rewrite Lw in A2. cbn in A2. lia.
Qed.

Fixpoint always_counterb (l : cdl) (acts : list cact) : bool :=
  existsb c_live (cs l) && match acts with [] => true | a :: r => always_counterb (cstep a l) r end.
Lemma always_counterb_ok acts : forall l, always_counterb l acts = true -> always_counter l acts.
Proof.
  induction acts as [|a acts IH]; intros l H; cbn in H |- *; apply andb_true_iff in H as [A B];
    (split; [now apply existsb_exists in A|]); [exact Logic.I|now apply IH].
Qed.
