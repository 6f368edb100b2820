(** Proofs about the mutex. *)
From Verif Require Import Base SchedModel SchedProofs LatchModel LatchProofs MutexModel MutexSpec.

Definition is_hold (t : tpc) : bool := match t with THold => true | _ => false end.
Definition counted (t : tpc) : bool := match t with TWait _ | TAsleep | TReload | TDec => true | _ => false end.
Definition is_recon (t : tpc) : bool := match t with TRecon _ => true | _ => false end.

(** What each thread's view of the word satisfies. *)
Definition view_ok (t : tpc) : Prop :=
  match t with
  | TCas c => 0 <= c < 65536
  | TWait c => 65536 <= c < 3 * 65536
  | TRecon c => 0 <= c < 3 * 65536
  | _ => True
  end.

Record minv (m : mutex) (st : Z) : Prop := {
  mi_word : futex m = word st (cnt counted (threads m));
  mi_st : (st = 0 /\ cnt is_hold (threads m) = 0 /\ detached m = 0) \/
          (st = 1 /\ cnt is_hold (threads m) = 1 /\ detached m = 0) \/
          (st = 2 /\ cnt is_hold (threads m) = 0 /\ detached m = 1);
  mi_view : forall t, In t (threads m) -> view_ok t;
  mi_small : Z.of_nat (length (threads m)) < 65536
}.

Lemma cnt_len {A} (P : A -> bool) l : cnt P l <= Z.of_nat (length l).
Proof. induction l as [|x l IH]; [unfold cnt; cbn; lia|]. rewrite cnt_cons. cbn [length]. destruct (P x); cbn [b2z]; lia. Qed.

Lemma upd_id {A} i (x : A) l : nth_error l i = Some x -> upd i x l = l.
Proof. revert i. induction l as [|y l IH]; intros [|i] E; cbn in *; try discriminate; [congruence|]. now rewrite IH. Qed.

Lemma ls_word st n : 0 <= n < 65536 -> lock_state (word st n) = st.
Proof. intros B. unfold lock_state, word. rewrite Z.div_add_l by lia. rewrite Z.div_small by lia. lia. Qed.
Lemma ns_word st n : 0 <= n < 65536 -> num_sleepers (word st n) = n.
Proof. intros B. unfold num_sleepers, word. rewrite Z.add_comm, Z.mod_add by lia. apply Z.mod_small. lia. Qed.
Lemma word_split w : w = word (lock_state w) (num_sleepers w).
Proof. unfold word, lock_state, num_sleepers. pose proof (Z.div_mod w 65536). lia. Qed.
Lemma ns_bound w : 0 <= num_sleepers w < 65536.
Proof. apply Z.mod_pos_bound. lia. Qed.
Lemma wrap_small x : 0 <= x < 4294967296 -> wrap x = x.
Proof. apply Z.mod_small. Qed.

Lemma lock_loop_view c : 0 <= c < 3 * 65536 -> view_ok (lock_loop c).
Proof.
  intros B. unfold lock_loop. destruct (Z.eqb_spec (lock_state c) UNLOCKED) as [E|N]; [|exact Logic.I].
  cbn. unfold lock_state, UNLOCKED in E. Z.to_euclidean_division_equations. lia.
Qed.
Lemma sleep_loop_view c : 0 <= c < 3 * 65536 -> view_ok (sleep_loop c).
Proof.
  intros B. unfold sleep_loop. destruct (Z.eqb_spec (lock_state c) UNLOCKED) as [E|N]; [exact Logic.I|].
  cbn. unfold lock_state, UNLOCKED in N. Z.to_euclidean_division_equations. lia.
Qed.
Lemma lock_loop_kind c : counted (lock_loop c) = false /\ is_hold (lock_loop c) = false /\ lock_loop c <> TPanic /\ is_recon (lock_loop c) = false.
Proof. unfold lock_loop. destruct (_ =? _); repeat split; discriminate. Qed.
Lemma sleep_loop_kind c : counted (sleep_loop c) = true /\ is_hold (sleep_loop c) = false /\ sleep_loop c <> TPanic /\ is_recon (sleep_loop c) = false.
Proof. unfold sleep_loop. destruct (_ =? _); repeat split; discriminate. Qed.

(** The invariant after thread [i] moved from [t] to [t'] with the word [st'] and count. *)
Lemma set_inv m st i t st' t' d : minv m st -> nth_error (threads m) i = Some t -> view_ok t' ->
  (let n := cnt counted (threads m) - b2z (counted t) + b2z (counted t') in
   let h := cnt is_hold (threads m) - b2z (is_hold t) + b2z (is_hold t') in
   (st' = 0 /\ h = 0 /\ detached m + d = 0) \/ (st' = 1 /\ h = 1 /\ detached m + d = 0) \/ (st' = 2 /\ h = 0 /\ detached m + d = 1)) ->
  minv (add_detached d (set_t m i (word st' (cnt counted (threads m) - b2z (counted t) + b2z (counted t')), t'))) st'.
Proof.
  intros I E V S. constructor; cbn [futex threads detached add_detached set_t fst snd].
  - rewrite (cnt_upd _ _ _ _ _ E). reflexivity.
  - rewrite (cnt_upd _ _ _ _ _ E). exact S.
  - intros x Ix. apply in_upd in Ix as [->|Ix]; [exact V|]. now apply (mi_view _ _ I).
  - rewrite upd_length. apply I.
Qed.

Lemma minv_counts m st : minv m st -> 0 <= cnt counted (threads m) < 65536 /\ 0 <= st <= 2 /\
  lock_state (futex m) = st /\ num_sleepers (futex m) = cnt counted (threads m) /\ 0 <= futex m < 3 * 65536.
Proof.
  intros I. pose proof (cnt_nonneg counted (threads m)). pose proof (cnt_len counted (threads m)). pose proof (mi_small _ _ I).
  rewrite (mi_word _ _ I). assert (B : 0 <= cnt counted (threads m) < 65536) by lia.
  rewrite ls_word, ns_word by lia. pose proof (mi_st _ _ I). unfold word. repeat split; lia.
Qed.

Lemma add_detached_0 m : add_detached 0 m = m.
Proof. destruct m. unfold add_detached. cbn. f_equal. lia. Qed.

Lemma cnt_two {A} (P : A -> bool) l i x : nth_error l i = Some x -> P x = true -> cnt P l = 1 ->
  forall j y, nth_error l j = Some y -> P y = true -> i = j.
Proof.
  revert i. induction l as [|z l IH]; intros i E Px C j y Ej Py; [destruct i; discriminate|]. rewrite cnt_cons in C.
  destruct i as [|i], j as [|j]; cbn in E, Ej; auto.
  - injection E as ->. rewrite Px in C. cbn in C. pose proof (cnt_pos P l y (nth_error_In _ _ Ej) Py). lia.
  - injection Ej as ->. rewrite Py in C. cbn in C. pose proof (cnt_pos P l x (nth_error_In _ _ E) Px). lia.
  - pose proof (cnt_pos P l x (nth_error_In _ _ E) Px). f_equal. apply (IH i E Px) with (y := y); auto. destruct (P z); cbn in C; lia.
Qed.

Lemma hold_cases m st i : minv m st -> nth_error (threads m) i = Some THold ->
  st = 1 /\ cnt is_hold (threads m) = 1 /\ detached m = 0.
Proof.
  intros I E. pose proof (cnt_pos is_hold (threads m) THold (nth_error_In _ _ E) eq_refl). destruct (mi_st _ _ I) as [X|[X|X]]; lia.
Qed.

(** The effect of a step of a thread. *)
Lemma tstep_inv m st i t : minv m st -> nth_error (threads m) i = Some t ->
  exists st', minv (mstep (MStep i) m) st' /\
  (snd (tstep (futex m) t) = TPanic -> t = TPanic \/ exists c, t = TRecon c /\ lock_state c <> LOCKED_DISCONNECTED).
Proof.
  intros I E. destruct (minv_counts m st I) as (CB & SB & LS & NS & FB). pose proof (mi_st _ _ I) as MS.
  pose proof (mi_view _ _ I t (nth_error_In _ _ E)) as V. cbn [mstep]. rewrite E.
  assert (STAY : forall t', view_ok t' -> counted t' = counted t -> is_hold t' = is_hold t ->
            minv (add_detached 0 (set_t m i (futex m, t'))) st).
  { intros t' V' C H. rewrite (mi_word _ _ I). replace (cnt counted (threads m)) with (cnt counted (threads m) - b2z (counted t) + b2z (counted t')) by (rewrite C; lia).
    eapply set_inv; eauto. rewrite H. cbn zeta. replace (cnt is_hold (threads m) - b2z (is_hold t) + b2z (is_hold t)) with (cnt is_hold (threads m)) by lia. lia. }
  destruct t as [|c| |c| | | | | |c|]; cbn [tstep reconnected fst snd].
  - exists st. split; [|discriminate]. apply STAY; auto.
  - (* TCas *)
    destruct (Z.eqb_spec (futex m) c) as [X|N]; [subst c|]; cbn [reconnected fst snd].
    + exists 1. split; [|discriminate]. cbn in V.
      assert (S0 : st = 0) by (rewrite <- LS; unfold lock_state; apply Z.div_small; lia).
      replace (num_sleepers (futex m)) with (cnt counted (threads m) - b2z (counted (TCas (futex m))) + b2z (counted THold)) by (cbn; lia).
      apply (set_inv m st); auto; [exact Logic.I|]. cbn. lia.
    + exists st. destruct (lock_loop_kind (futex m)) as (A & B & C & _). split; [|congruence].
      apply STAY; auto. now apply lock_loop_view.
  - (* TInc *)
    destruct (sleep_loop_kind (word (lock_state (futex m)) (num_sleepers (futex m) + 1))) as (A & B & C & _).
    pose proof (mi_small _ _ I) as SM. 
    assert (CL : cnt counted (threads m) + 1 <= Z.of_nat (length (threads m))).
    { assert (X : cnt counted (upd i TDec (threads m)) = cnt counted (threads m) + 1) by (rewrite (cnt_upd _ _ _ _ _ E); cbn; lia).
      pose proof (cnt_len counted (upd i TDec (threads m))) as Y. rewrite upd_length in Y. lia. }
    replace (num_sleepers (futex m) + 1 <=? 65535) with true by lia.
    exists st. split; [|congruence]. set (t' := sleep_loop _) in *.
    replace (wrap (futex m + 1)) with (word st (cnt counted (threads m) - b2z (counted TInc) + b2z (counted t'))).
    2: { rewrite A. cbn [counted b2z]. rewrite wrap_small by lia. rewrite (mi_word _ _ I). unfold word. lia. }
    apply (set_inv m st); auto.
    + apply sleep_loop_view. rewrite LS, NS. unfold word. lia.
    + rewrite A, B. cbn [counted is_hold b2z]. cbn zeta. replace (cnt is_hold (threads m) - 0 + 0) with (cnt is_hold (threads m)) by lia. lia.
  - (* TWait *)
    exists st. split; [|destruct (_ =? _); discriminate].
    apply STAY; destruct (_ =? _); auto; exact Logic.I.
  - exists st. split; [|discriminate]. apply STAY; auto.
  - (* TReload *)
    destruct (sleep_loop_kind (futex m)) as (A & B & C & _). exists st. split; [|congruence].
    apply STAY; auto. apply sleep_loop_view. lia.
  - (* TDec *)
    destruct (lock_loop_kind (word (lock_state (futex m)) (num_sleepers (futex m) - 1))) as (A & B & C & _).
    pose proof (cnt_pos counted (threads m) TDec (nth_error_In _ _ E) eq_refl) as P.
    replace (1 <=? num_sleepers (futex m)) with true by lia.
    exists st. split; [|congruence]. set (t' := lock_loop _) in *.
    replace (wrap (futex m - 1)) with (word st (cnt counted (threads m) - b2z (counted TDec) + b2z (counted t'))).
    2: { rewrite A. cbn [counted b2z]. rewrite (mi_word _ _ I). unfold word. rewrite wrap_small by lia. lia. }
    apply (set_inv m st); auto.
    + apply lock_loop_view. rewrite LS, NS. unfold word. lia.
    + rewrite A, B. cbn [counted is_hold b2z]. cbn zeta. replace (cnt is_hold (threads m) - 0 + 0) with (cnt is_hold (threads m)) by lia. lia.
  - exists st. split; [|discriminate]. apply STAY; auto.
  - exists st. split; [|discriminate]. apply STAY; auto.
  - (* TRecon *)
    destruct (Z.eqb_spec (lock_state c) LOCKED_DISCONNECTED) as [D|D].
    + destruct (Z.eqb_spec (futex m) c) as [X|N]; [subst c|]; cbn [reconnected fst snd].
      * exists 1. split; [|discriminate]. rewrite LS in D. unfold LOCKED_DISCONNECTED in D.
        replace (num_sleepers (futex m)) with (cnt counted (threads m) - b2z (counted (TRecon (futex m))) + b2z (counted THold)) by (cbn; lia).
        apply (set_inv m st); auto; [exact Logic.I|]. cbn. lia.
      * exists st. split; [|discriminate]. apply STAY; auto.
    + exists st. split; [|eauto]. apply STAY; auto. exact Logic.I.
  - exists st. split; [|auto]. apply STAY; auto.
Qed.

Lemma mstep_inv a m st : minv m st -> exists st', minv (mstep a m) st'.
Proof.
  intros I. destruct (minv_counts m st I) as (CB & SB & LS & NS & FB). pose proof (mi_st _ _ I) as MS.
  assert (STAY : forall i t t', nth_error (threads m) i = Some t -> view_ok t' -> counted t' = counted t -> is_hold t' = is_hold t ->
            minv (set_t m i (futex m, t')) st).
  { intros i t t' E V' C H. rewrite <- (add_detached_0 (set_t _ _ _)). rewrite (mi_word _ _ I).
    replace (cnt counted (threads m)) with (cnt counted (threads m) - b2z (counted t) + b2z (counted t')) by (rewrite C; lia).
    eapply set_inv; eauto. rewrite H. cbn zeta. replace (cnt is_hold (threads m) - b2z (is_hold t) + b2z (is_hold t)) with (cnt is_hold (threads m)) by lia. lia. }
  destruct a as [i|i|i|i|i|i j|i|i]; cbn [mstep].
  - destruct (nth_error (threads m) i) as [[]|] eqn:E; eauto. exists st. eapply STAY; eauto. apply lock_loop_view. unfold word, UNLOCKED. lia.
  - destruct (nth_error (threads m) i) as [[]|] eqn:E; eauto. destruct (hold_cases m st i I E) as (-> & HC & DC).
    exists 0. unfold unlock. rewrite LS. change (1 =? LOCKED) with true; cbv iota. rewrite <- (add_detached_0 (set_t _ _ _)).
    replace (wrap (futex m - word LOCKED 0)) with
      (word 0 (cnt counted (threads m) - b2z (counted THold) + b2z (counted (if 0 <? num_sleepers (futex m) then TWake else TIdle)))).
    2: { rewrite (mi_word _ _ I). unfold word, LOCKED. rewrite wrap_small by lia. destruct (_ <? _); cbn [counted b2z]; lia. }
    apply (set_inv m 1); auto; destruct (0 <? num_sleepers (futex m)); try exact Logic.I; cbn [counted is_hold b2z]; cbv zeta; left; repeat split; lia.
  - destruct (nth_error (threads m) i) as [[]|] eqn:E; eauto. destruct (hold_cases m st i I E) as (-> & HC & DC).
    exists 2. unfold disconnect. rewrite LS. change (1 =? LOCKED) with true; cbv iota.
    replace (wrap (futex m + word (LOCKED_DISCONNECTED - LOCKED) 0)) with (word 2 (cnt counted (threads m) - b2z (counted THold) + b2z (counted TIdle))).
    2: { rewrite (mi_word _ _ I). unfold word, LOCKED_DISCONNECTED, LOCKED. rewrite wrap_small by lia. cbn [counted b2z]. lia. }
    apply (set_inv m 1); auto; try exact Logic.I. cbn. lia.
  - destruct (nth_error (threads m) i) as [[]|] eqn:E; eauto. exists st. eapply STAY; eauto. cbn. unfold word, LOCKED_DISCONNECTED. lia.
  - destruct (nth_error (threads m) i) as [t|] eqn:E; [|eauto]. destruct (tstep_inv m st i t I E) as (st' & I' & _).
    cbn [mstep] in I'. rewrite E in I'. eauto.
  - destruct (nth_error (threads m) i) as [[]|] eqn:E; eauto. destruct (nth_error (threads m) j) as [[]|] eqn:Ej; eauto.
    exists st.
    assert (I1 : minv (set_t m j (futex m, TDec)) st) by (eapply STAY; eauto; exact Logic.I).
    assert (NE : j <> i) by congruence.
    assert (E1 : nth_error (threads (set_t m j (futex m, TDec))) i = Some TWake) by (cbn; rewrite nth_error_upd_other; auto).
    rewrite <- (add_detached_0 (set_t _ i _)). replace (futex m) with (futex (set_t m j (futex m, TDec))) at 2 by reflexivity.
    set (m1 := set_t m j (futex m, TDec)) in *. rewrite (mi_word _ _ I1).
    replace (cnt counted (threads m1)) with (cnt counted (threads m1) - b2z (counted TWake) + b2z (counted TIdle)) by (cbn; lia).
    apply (set_inv m1 st); auto; [exact Logic.I|]. cbn. pose proof (mi_st _ _ I1) as X. cbn in X.
    replace (detached m + 0) with (detached m) by lia. replace (cnt is_hold (upd j TDec (threads m)) - 0 + 0) with (cnt is_hold (upd j TDec (threads m))) by lia. exact X.
  - destruct (nth_error (threads m) i) as [[]|] eqn:E; eauto. destruct (existsb _ _); eauto. exists st. eapply STAY; eauto. exact Logic.I.
  - destruct (nth_error (threads m) i) as [[]|] eqn:E; eauto. exists st. eapply STAY; eauto. exact Logic.I.
Qed.

Lemma mrun_inv acts : forall m st, minv m st -> exists st', minv (mrun m acts) st'.
Proof.
  induction acts as [|a acts IH]; intros m st I; [eauto|]. destruct (mstep_inv a m st I) as (st' & I'). exact (IH _ _ I').
Qed.

Lemma cnt_repeat {A} (P : A -> bool) x n : P x = false -> cnt P (repeat x n) = 0.
Proof. intros H. induction n as [|n IH]; [reflexivity|]. cbn [repeat]. rewrite cnt_cons, H, IH. reflexivity. Qed.

Lemma new_inv n : Z.of_nat n < 65536 -> minv (mutex_new n) 0.
Proof.
  intros B. constructor; cbn [mutex_new futex threads detached].
  - rewrite cnt_repeat by reflexivity. reflexivity.
  - left. rewrite cnt_repeat by reflexivity. auto.
  - intros t I. apply repeat_spec in I. subst t. exact Logic.I.
  - rewrite repeat_length. exact B.
Qed.

(** Mutual exclusion. *)
Lemma exclusive m st i j : minv m st -> holds m i -> holds m j -> i = j.
Proof.
  intros I A B. destruct (hold_cases m st i I A) as (_ & C & _).
  exact (cnt_two is_hold _ i THold A eq_refl C j THold B eq_refl).
Qed.
Lemma exclusive_detached m st i : minv m st -> holds m i -> detached m = 0.
Proof. intros I A. now destruct (hold_cases m st i I A) as (_ & _ & D). Qed.

Lemma free_st m st : minv m st -> free m -> st = 0.
Proof.
  intros I [F D]. destruct (mi_st _ _ I) as [X|[X|X]]; [lia| |lia]. exfalso.
  assert (P : 0 < cnt is_hold (threads m)) by lia. apply cnt_ex in P as (t & It & Ht). apply In_nth_error in It as (i & E).
  apply (F i). unfold holds. destruct t; try discriminate. exact E.
Qed.

(** No lost wake-up. *)
Definition on_the_way (m : mutex) : Prop := exists t, In t (threads m) /\ (t = TWake \/ trying t = true).
Definition nolost (m : mutex) : Prop := lock_state (futex m) = 0 -> In TAsleep (threads m) -> on_the_way m.

Lemma way_upd m i t ft : nth_error (threads m) i = Some t -> (t <> TWake /\ trying t = false) \/ (snd ft = TWake \/ trying (snd ft) = true) ->
  on_the_way m -> on_the_way (set_t m i ft).
Proof.
  intros E C (x & Ix & X). assert (LT : (i < length (threads m))%nat) by (apply nth_error_Some; congruence).
  destruct C as [[A B]|C].
  - apply In_nth_error in Ix as (j & Ej). exists x. split; [|exact X]. apply (nth_error_In _ j). cbn.
    rewrite nth_error_upd_other; [exact Ej|]. intros ->. rewrite E in Ej. injection Ej as <-. destruct X; congruence.
  - exists (snd ft). split; [|exact C]. apply (nth_error_In _ i). cbn. now apply nth_error_upd_same.
Qed.
Lemma way_new m i t ft : nth_error (threads m) i = Some t -> snd ft = TWake \/ trying (snd ft) = true -> on_the_way (set_t m i ft).
Proof.
  intros E C. assert (LT : (i < length (threads m))%nat) by (apply nth_error_Some; congruence).
  exists (snd ft). split; [|exact C]. apply (nth_error_In _ i). cbn. now apply nth_error_upd_same.
Qed.
Lemma asleep_old m i ft : In TAsleep (threads (set_t m i ft)) -> snd ft <> TAsleep -> In TAsleep (threads m).
Proof. intros I N. cbn in I. apply in_upd in I as [X|I]; [congruence|exact I]. Qed.

Lemma lock_loop_trying c : trying (lock_loop c) = true.
Proof. unfold lock_loop. destruct (_ =? _); reflexivity. Qed.
Lemma sleep_loop_trying c : trying (sleep_loop c) = true.
Proof. unfold sleep_loop. destruct (_ =? _); reflexivity. Qed.

Lemma nolost_det m d : nolost m -> nolost (add_detached d m).
Proof. intros N. exact N. Qed.

Lemma mstep_nolost a m st : minv m st -> nolost m -> nolost (mstep a m).
Proof.
  intros I N. destruct (minv_counts m st I) as (CB & SB & LS & NS & FB).
  destruct a as [i|i|i|i|i|i j|i|i]; cbn [mstep].
  - destruct (nth_error (threads m) i) as [[]|] eqn:E; auto. intros _ _. eapply way_new; eauto.
  - destruct (nth_error (threads m) i) as [[]|] eqn:E; auto. destruct (hold_cases m st i I E) as (-> & _).
    intros _ A. apply asleep_old in A.
    + eapply way_new; eauto. left. unfold unlock. cbn [snd]. rewrite LS. change (1 =? LOCKED) with true; cbv iota.
      pose proof (cnt_pos counted (threads m) TAsleep A eq_refl). replace (0 <? num_sleepers (futex m)) with true by lia. reflexivity.
    + unfold unlock. cbn [snd]. destruct (_ =? _); [destruct (_ <? _)|]; discriminate.
  - destruct (nth_error (threads m) i) as [[]|] eqn:E; auto. destruct (hold_cases m st i I E) as (-> & _).
    apply nolost_det. intros L. exfalso. revert L. unfold disconnect. rewrite (mi_word _ _ I). unfold set_t, word, LOCKED, LOCKED_DISCONNECTED, lock_state. cbn [fst futex].
    rewrite wrap_small by lia. clear - CB. Z.to_euclidean_division_equations. lia.
  - destruct (nth_error (threads m) i) as [[]|] eqn:E; auto. intros L A. apply asleep_old in A; [|discriminate].
    eapply way_upd; eauto. left. split; [discriminate|reflexivity].
  - destruct (nth_error (threads m) i) as [t|] eqn:E; [|auto]. apply nolost_det.
    assert (SAME : forall t', t' <> TAsleep -> (t <> TWake /\ trying t = false) \/ (t' = TWake \/ trying t' = true) -> nolost (set_t m i (futex m, t'))).
    { intros t' NA C L A. apply asleep_old in A; [|exact NA]. eapply way_upd; eauto. }
    pose proof (mi_view _ _ I t (nth_error_In _ _ E)) as V.
    destruct t as [|c| |c| | | | | |c|]; cbn [tstep].
    + apply SAME; [discriminate|left; split; [discriminate|reflexivity]].
    + destruct (Z.eqb_spec (futex m) c) as [X|X].
      * intros L. exfalso. revert L. cbn [set_t fst futex]. rewrite ls_word by apply ns_bound. discriminate.
      * apply SAME; [|right; right; apply lock_loop_trying]. unfold lock_loop. destruct (_ =? _); discriminate.
    + intros L A. eapply way_new; eauto. right. cbn [snd].
      assert (CL : cnt counted (threads m) + 1 <= Z.of_nat (length (threads m))).
      { assert (X : cnt counted (upd i TDec (threads m)) = cnt counted (threads m) + 1) by (rewrite (cnt_upd _ _ _ _ _ E); cbn; lia).
        pose proof (cnt_len counted (upd i TDec (threads m))) as Y. rewrite upd_length in Y. lia. }
      pose proof (mi_small _ _ I). replace (num_sleepers (futex m) + 1 <=? 65535) with true by lia. apply sleep_loop_trying.
    + destruct (Z.eqb_spec (futex m) c) as [X|X].
      * intros L. exfalso. revert L. cbn [set_t fst futex]. cbn in V. rewrite X. unfold lock_state. clear - V. Z.to_euclidean_division_equations. lia.
      * apply SAME; [discriminate|auto].
    + intros L A. cbn in A. rewrite upd_id in A by exact E. destruct (N L A) as (x & Ix & X). exists x. cbn. rewrite upd_id by exact E. auto.
    + apply SAME; [unfold sleep_loop; destruct (_ =? _); discriminate|right; right; apply sleep_loop_trying].
    + intros L A. eapply way_new; eauto. right. cbn [snd]. pose proof (cnt_pos counted (threads m) TDec (nth_error_In _ _ E) eq_refl) as P.
      replace (1 <=? num_sleepers (futex m)) with true by lia. apply lock_loop_trying.
    + apply SAME; [discriminate|left; split; [discriminate|reflexivity]].
    + apply SAME; [discriminate|auto].
    + destruct (Z.eqb_spec (lock_state c) LOCKED_DISCONNECTED) as [D|D]; [destruct (Z.eqb_spec (futex m) c) as [X|X]|].
      * intros L. exfalso. revert L. cbn [set_t fst futex]. rewrite ls_word by apply ns_bound. discriminate.
      * apply SAME; [discriminate|left; split; [discriminate|reflexivity]].
      * apply SAME; [discriminate|left; split; [discriminate|reflexivity]].
    + apply SAME; [discriminate|left; split; [discriminate|reflexivity]].
  - destruct (nth_error (threads m) i) as [[]|] eqn:E; auto. destruct (nth_error (threads m) j) as [[]|] eqn:Ej; auto.
    intros _ _. exists TDec. split; [|auto]. assert (NE : j <> i) by congruence.
    apply (nth_error_In _ j). cbn. rewrite nth_error_upd_other by auto. apply nth_error_upd_same. apply nth_error_Some. congruence.
  - destruct (nth_error (threads m) i) as [[]|] eqn:E; auto. destruct (existsb _ (threads m)) eqn:X; [auto|].
    intros _ A. exfalso. apply asleep_old in A; [|discriminate].
    assert (Y : existsb (fun t => match t with TAsleep => true | _ => false end) (threads m) = true) by (apply existsb_exists; eauto). congruence.
  - destruct (nth_error (threads m) i) as [[]|] eqn:E; auto. intros _ _. eapply way_new; eauto.
Qed.

Lemma mrun_nolost acts : forall m st, minv m st -> nolost m -> nolost (mrun m acts).
Proof.
  induction acts as [|a acts IH]; intros m st I N; [exact N|]. destruct (mstep_inv a m st I) as (st' & I').
  apply (IH _ st' I'). eapply mstep_nolost; eauto.
Qed.

Lemma mutex_no_lost n acts i : Z.of_nat n < 65536 -> let m := mrun (mutex_new n) acts in
  free m -> nth_error (threads m) i = Some TAsleep ->
  exists j t, nth_error (threads m) j = Some t /\ (t = TWake \/ trying t = true).
Proof.
  intros B m F A. destruct (mrun_inv acts _ _ (new_inv n B)) as (st & I). fold m in I.
  assert (N0 : nolost (mutex_new n)) by (intros _ X; apply repeat_spec in X; discriminate).
  pose proof (mrun_nolost acts _ _ (new_inv n B) N0) as N. fold m in N.
  destruct N as (t & It & T).
  - rewrite (proj1 (proj2 (proj2 (minv_counts m st I)))). now apply (free_st m).
  - eapply nth_error_In; eauto.
  - apply In_nth_error in It as (j & Ej). eauto.
Qed.

(** A trying thread that runs alone while the mutex is free gets it. *)
Lemma mrun_app a b m : mrun m (a ++ b) = mrun (mrun m a) b.
Proof. revert m. induction a as [|x a IH]; intros m; [reflexivity|]. cbn. apply IH. Qed.

Lemma step_at m i t : nth_error (threads m) i = Some t ->
  nth_error (threads (mstep (MStep i) m)) i = Some (snd (tstep (futex m) t)) /\ futex (mstep (MStep i) m) = fst (tstep (futex m) t).
Proof.
  intros E. cbn [mstep]. rewrite E. cbn. split; [|reflexivity]. apply nth_error_upd_same. apply nth_error_Some. congruence.
Qed.

(** From a fresh view of a free word the compare-exchange succeeds. *)
Lemma cas_fresh m i : nth_error (threads m) i = Some (TCas (futex m)) -> holds (mstep (MStep i) m) i.
Proof.
  intros E. destruct (step_at m i _ E) as [A _]. unfold holds. rewrite A. cbn. rewrite Z.eqb_refl. reflexivity.
Qed.

Lemma dec_holds m st i : minv m st -> st = 0 -> nth_error (threads m) i = Some TDec -> holds (mrun m [MStep i; MStep i]) i.
Proof.
  intros I S E. destruct (minv_counts m st I) as (CB & SB & LS & NS & FB).
  pose proof (cnt_pos counted (threads m) TDec (nth_error_In _ _ E) eq_refl) as P.
  cbn [mrun]. destruct (step_at m i _ E) as [A F]. apply cas_fresh. rewrite A, F. cbn [tstep fst snd].
  replace (1 <=? num_sleepers (futex m)) with true by lia. rewrite LS, NS, S. unfold lock_loop. rewrite ls_word by lia.
  change (0 =? UNLOCKED) with true. cbv iota. f_equal. f_equal. rewrite (mi_word _ _ I), S. unfold word. rewrite wrap_small by lia. lia.
Qed.

Lemma solo m st i t : minv m st -> st = 0 -> nth_error (threads m) i = Some t -> trying t = true ->
  exists k, (k <= 4)%nat /\ holds (mrun m (repeat (MStep i) k)) i.
Proof.
  intros I S E T. destruct (minv_counts m st I) as (CB & SB & LS & NS & FB).
  destruct (step_at m i _ E) as [A F]. pose proof (mi_view _ _ I t (nth_error_In _ _ E)) as V.
  assert (RELOAD : forall m' st', minv m' st' -> st' = 0 -> nth_error (threads m') i = Some TReload -> holds (mrun m' [MStep i; MStep i; MStep i]) i).
  { intros m' st' I' S' E'. destruct (minv_counts m' st' I') as (CB' & SB' & LS' & NS' & FB').
    destruct (tstep_inv m' st' i TReload I' E') as (st2 & I2 & _). destruct (step_at m' i _ E') as [A' F'].
    change (holds (mrun (mstep (MStep i) m') [MStep i; MStep i]) i). cbn [tstep fst snd] in A', F'.
    apply (dec_holds _ st2); [exact I2| |].
    - destruct (minv_counts _ st2 I2) as (_ & _ & LS2 & _). rewrite F' in LS2. congruence.
    - rewrite A'. unfold sleep_loop. rewrite LS', S'. reflexivity. }
  destruct t as [|c| |c| | | | | |c|]; try discriminate; cbn [tstep fst snd] in A, F.
  - destruct (Z.eqb_spec (futex m) c) as [X|X].
    + exists 1%nat. split; [lia|]. exact A.
    + exists 2%nat. split; [lia|]. cbn [repeat mrun]. apply cas_fresh. rewrite A, F. unfold lock_loop. rewrite LS, S. reflexivity.
  - destruct (tstep_inv m st i TInc I E) as (st2 & I2 & NP). exists 3%nat. split; [lia|].
    change (holds (mrun (mstep (MStep i) m) [MStep i; MStep i]) i).
    assert (G : (num_sleepers (futex m) + 1 <=? 65535) = true).
    { destruct (num_sleepers (futex m) + 1 <=? 65535) eqn:G; [reflexivity|]. cbn [tstep snd] in NP. rewrite G in NP.
      destruct (NP eq_refl) as [X|(c & X & _)]; discriminate. }
    rewrite G in A. assert (LB : num_sleepers (futex m) + 1 < 65536) by lia. apply (dec_holds _ st2); [exact I2| |].
    + destruct (minv_counts _ st2 I2) as (_ & _ & LS2 & _). rewrite F in LS2. rewrite <- LS2, (mi_word _ _ I), S. unfold word, lock_state.
      rewrite wrap_small by lia. apply Z.div_small. lia.
    + rewrite A. unfold sleep_loop. rewrite ls_word by lia. rewrite LS, S. reflexivity.
  - exists 4%nat. split; [lia|]. destruct (tstep_inv m st i (TWait c) I E) as (st2 & I2 & NP).
    change (holds (mrun (mstep (MStep i) m) [MStep i; MStep i; MStep i]) i). apply (RELOAD _ st2); [exact I2| |].
    + destruct (minv_counts _ st2 I2) as (_ & _ & LS2 & _). rewrite F in LS2. congruence.
    + rewrite A. destruct (Z.eqb_spec (futex m) c) as [X|X]; [|reflexivity]. exfalso. cbn in V. rewrite X in LS. unfold lock_state in LS.
      clear - V LS S. Z.to_euclidean_division_equations. lia.
  - exists 3%nat. split; [lia|]. now apply (RELOAD m st).
  - exists 2%nat. split; [lia|]. now apply (dec_holds m st).
Qed.

(** Correct use of reconnect: nobody panics. *)
Record rinv (m : mutex) : Prop := {
  ri_np : ~ In TPanic (threads m);
  ri_rec : cnt is_recon (threads m) = 0 \/ (cnt is_recon (threads m) = 1 /\ detached m = 1);
  ri_view : forall c, In (TRecon c) (threads m) -> lock_state c = 2
}.

Lemma rinv_stay m i t t' ft : rinv m -> nth_error (threads m) i = Some t -> snd ft = t' -> t' <> TPanic -> is_recon t' = is_recon t ->
  (forall c, t' = TRecon c -> lock_state c = 2) -> rinv (set_t m i ft).
Proof.
  intros I E F NP R V. constructor; cbn [threads set_t detached]; rewrite F.
  - intros X. apply in_upd in X as [X|X]; [congruence|]. now apply (ri_np _ I).
  - rewrite (cnt_upd _ _ _ _ _ E), R. replace (cnt is_recon (threads m) - b2z (is_recon t) + b2z (is_recon t)) with (cnt is_recon (threads m)) by lia. apply I.
  - intros c X. apply in_upd in X as [X|X]; [now apply V|]. now apply (ri_view _ I).
Qed.

Definition may_recon (m : mutex) (a : mact) : Prop :=
  match a with
  | MReconnect i => nth_error (threads m) i = Some TIdle -> detached m = 1 /\ forall j c, nth_error (threads m) j <> Some (TRecon c)
  | _ => True
  end.

Lemma mstep_rinv a m st : minv m st -> rinv m -> may_recon m a -> rinv (mstep a m).
Proof.
  intros I R M. destruct (minv_counts m st I) as (CB & SB & LS & NS & FB). pose proof (mi_st _ _ I) as MS.
  destruct a as [i|i|i|i|i|i j|i|i]; cbn [mstep].
  - destruct (nth_error (threads m) i) as [[]|] eqn:E; auto. eapply rinv_stay; eauto; discriminate.
  - destruct (nth_error (threads m) i) as [[]|] eqn:E; auto. destruct (hold_cases m st i I E) as (-> & _).
    eapply rinv_stay; eauto; unfold unlock; cbn [snd]; rewrite LS; change (1 =? LOCKED) with true; cbv iota; destruct (_ <? _); try discriminate; reflexivity.
  - destruct (nth_error (threads m) i) as [[]|] eqn:E; auto. destruct (hold_cases m st i I E) as (-> & _ & D0).
    assert (X : rinv (set_t m i (disconnect (futex m)))).
    { eapply rinv_stay; eauto; unfold disconnect; cbn [snd]; rewrite LS; change (1 =? LOCKED) with true; cbv iota; try discriminate; reflexivity. }
    destruct X as [A B C]. constructor; cbn [add_detached threads detached]; auto. cbn [detached set_t] in *. destruct B as [B|B]; [auto|lia].
  - destruct (nth_error (threads m) i) as [[]|] eqn:E; auto. cbn in M. destruct (M E) as [D1 NR]. constructor; cbn [threads set_t detached snd].
    + intros X. apply in_upd in X as [X|X]; [discriminate|]. now apply (ri_np _ R).
    + right. split; [|exact D1]. rewrite (cnt_upd _ _ _ _ _ E). cbn. replace (cnt is_recon (threads m)) with 0; [lia|].
      symmetry. apply cnt_zero. intros x Ix. destruct x; try reflexivity. exfalso. apply In_nth_error in Ix as (j & Ej). eapply NR; eauto.
    + intros c X. apply in_upd in X as [X|X]; [injection X as ->; reflexivity|]. now apply (ri_view _ R).
  - destruct (nth_error (threads m) i) as [t|] eqn:E; [|auto]. destruct (tstep_inv m st i t I E) as (st' & I' & NP).
    assert (NPt : t <> TPanic) by (intros ->; apply (ri_np _ R); eapply nth_error_In; eauto).
    assert (NP' : snd (tstep (futex m) t) <> TPanic).
    { intros X. destruct (NP X) as [Y|(c & -> & Y)]; [congruence|]. apply Y. apply (ri_view _ R). eapply nth_error_In; eauto. }
    destruct (is_recon t) eqn:IR.
    + destruct t as [| | | | | | | | |c|]; try discriminate. pose proof (nth_error_In _ _ E) as Ic. pose proof (ri_view _ R c Ic) as VC.
      pose proof (cnt_pos is_recon (threads m) _ Ic eq_refl) as P.
      assert (D1 : cnt is_recon (threads m) = 1 /\ detached m = 1) by (destruct (ri_rec _ R); [lia|auto]).
      assert (S2 : st = 2) by lia.
      cbn [tstep] in *. rewrite VC in *. change (2 =? LOCKED_DISCONNECTED) with true in *; cbv iota in *.
      destruct (Z.eqb_spec (futex m) c) as [X|X]; cbn [snd reconnected].
      * constructor; cbn [threads set_t detached snd add_detached].
        -- intros Y. apply in_upd in Y as [Y|Y]; [discriminate|]. now apply (ri_np _ R).
        -- left. rewrite (cnt_upd _ _ _ _ _ E). cbn. lia.
        -- intros d Y. apply in_upd in Y as [Y|Y]; [discriminate|]. now apply (ri_view _ R).
      * rewrite add_detached_0. eapply rinv_stay; eauto; try discriminate. intros d [= <-]. congruence.
    + assert (IR' : is_recon (snd (tstep (futex m) t)) = false /\ reconnected t (snd (tstep (futex m) t)) = 0).
      { destruct t; try discriminate; cbn [tstep]; try (split; reflexivity).
        - destruct (_ =? _); cbn; [auto|]. unfold lock_loop. destruct (_ =? _); auto.
        - cbn. destruct (_ <=? _); [|auto]. unfold sleep_loop. destruct (_ =? _); auto.
        - destruct (_ =? _); auto.
        - cbn. unfold sleep_loop. destruct (_ =? _); auto.
        - cbn. destruct (_ <=? _); [|auto]. unfold lock_loop. destruct (_ =? _); auto. }
      destruct IR' as [IR' RC]. rewrite RC, add_detached_0. eapply rinv_stay; eauto.
      intros c X. rewrite X in IR'. discriminate.
  - destruct (nth_error (threads m) i) as [[]|] eqn:E; auto. destruct (nth_error (threads m) j) as [[]|] eqn:Ej; auto.
    assert (R1 : rinv (set_t m j (futex m, TDec))) by (eapply rinv_stay; eauto; discriminate).
    assert (NE : j <> i) by congruence.
    eapply (rinv_stay _ i TWake); eauto; try discriminate. cbn. now rewrite nth_error_upd_other by auto.
  - destruct (nth_error (threads m) i) as [[]|] eqn:E; auto. destruct (existsb _ _); auto. eapply rinv_stay; eauto; discriminate.
  - destruct (nth_error (threads m) i) as [[]|] eqn:E; auto. eapply rinv_stay; eauto; discriminate.
Qed.

Lemma mrun_rinv acts : forall m st, minv m st -> rinv m -> recon_ok m acts -> rinv (mrun m acts).
Proof.
  induction acts as [|a acts IH]; intros m st I R C; [exact R|]. destruct C as [C1 C2].
  destruct (mstep_inv a m st I) as (st' & I'). apply (IH _ st' I'); auto. apply (mstep_rinv a m st); auto.
Qed.

Lemma mutex_no_panic n acts i : Z.of_nat n < 65536 -> recon_ok (mutex_new n) acts ->
  nth_error (threads (mrun (mutex_new n) acts)) i <> Some TPanic.
Proof.
  intros B C E. assert (R0 : rinv (mutex_new n)).
  { constructor; cbn [mutex_new threads detached].
    - intros X. apply repeat_spec in X. discriminate.
    - left. now apply cnt_repeat.
    - intros c X. apply repeat_spec in X. discriminate. }
  apply (ri_np _ (mrun_rinv acts _ _ (new_inv n B) R0 C)). eapply nth_error_In; eauto.
Qed.
