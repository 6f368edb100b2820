(** Proofs about LazyModel. *)
From Verif Require Import Base PoolModel LazyModel.

Definition base (sl : bool) : list msg := (Uninitd, false) :: (Initializing, false) :: (if sl then [(Sleepers, false)] else []).

Definition early (p : lpc) : Prop := match p with LOut | LEnter | LLoop _ | LAsleep | LReload => True | _ => False end.
Definition late (p : lpc) : Prop := match p with LOut | LEnter | LLoop _ | LAsleep | LReload | LRef | LWake => True | _ => False end.

Definition thread_ok (h : list msg) (k : nat) (b : bool) (p : lpc) : Prop :=
  match p with
  | LLoop st => exists c, nth_error h k = Some (st, c) /\ (st = Initd -> b = true)
  | LAsleep => nth_error h k = Some (Sleepers, false)
  | LRef => b = true
  | LWake => nth_error h k = Some (Initd, true)/\ b = true
  | _ => True
  end.

Definition phase_a (s : lazy) : Prop :=
  hist s = [(Uninitd, false)] /\ taken s = false /\ value s = None /\ runs s = [] /\ got s = [] /\ kern s = 0%nat /\ forall i, early (lpcs s i) /\ knows s i = false.
Definition phase_b (s : lazy) : Prop := exists sl w,
  hist s = base sl /\ got s = [] /\ kern s = 0%nat /\ (forall i, i <> w -> early (lpcs s i) /\ knows s i = false) /\
  ((lpcs s w = LProduce /\ taken s = false /\ value s = None /\ runs s = [] /\ knows s w = false) \/
   (lpcs s w = LPublish /\ taken s = true /\ exists v, value s = Some v /\ runs s = [(w, v)] /\ knows s w = true) \/
   (lpcs s w = LDead /\ taken s = true /\ value s = None /\ runs s = [] /\ knows s w = false)).
Definition phase_c (s : lazy) : Prop := exists sl w v,
  hist s = base sl ++ [(Initd, true)] /\ taken s = true /\ value s = Some v /\ runs s = [(w, v)] /\ (forall i, late (lpcs s i)) /\ (forall x, In x (got s) -> snd x = Some v) /\
  ((kern s = 0%nat /\ (sl = true -> lpcs s w = LWake) /\ (forall i, lpcs s i = LWake -> i = w /\ sl = true)) \/
   (kern s = last_idx s /\ forall i, lpcs s i <> LAsleep /\ lpcs s i <> LWake)).

Definition inv (s : lazy) : Prop :=
  (forall i, (idx s i < length (hist s))%nat /\ thread_ok (hist s) (idx s i) (knows s i) (lpcs s i)) /\ (phase_a s \/ phase_b s \/ phase_c s).

Lemma fupd_eq {A} i (x : A) f : fupd i x f i = x.
Proof. unfold fupd. rewrite Nat.eqb_refl. reflexivity. Qed.
Lemma fupd_ne {A} i j (x : A) f : j <> i -> fupd i x f j = f j.
Proof. unfold fupd. intros N. apply Nat.eqb_neq in N. rewrite N. reflexivity. Qed.

Lemma inv_new : inv lazy_new.
Proof.
  split; [intros i; cbn; split; [lia|exact I]|]. left. repeat split.
Qed.

(** Threads after one of them moved without a new message. *)
Lemma ok_read s i j m a p : inv s -> may_read s i j m -> thread_ok (hist s) j (knows s i || a) p ->
  forall k, (idx (read_to i j a p s) k < length (hist s))%nat /\ thread_ok (hist s) (idx (read_to i j a p s) k) (knows (read_to i j a p s) k) (lpcs (read_to i j a p s) k).
Proof.
  intros [T _] [_ M] OK k. cbn. unfold fupd. destruct (Nat.eqb k i).
  - split; [apply nth_error_Some; rewrite M; discriminate|exact OK].
  - apply T.
Qed.

Lemma ok_app h k b p m : (k < length h)%nat -> thread_ok h k b p -> thread_ok (h ++ [m]) k b p.
Proof.
  intros L. destruct p; cbn; try tauto; rewrite nth_error_app1 by exact L; tauto.
Qed.

Lemma ok_write s i m p : inv s -> thread_ok (hist s ++ [m]) (length (hist s)) (knows s i) p ->
  forall k, (idx (write_to i m p s) k < length (hist s ++ [m]))%nat /\ thread_ok (hist s ++ [m]) (idx (write_to i m p s) k) (knows s k) (lpcs (write_to i m p s) k).
Proof.
  intros [T _] OK k. cbn. unfold fupd. rewrite app_length. cbn. destruct (Nat.eqb_spec k i) as [->|N].
  - split; [lia|exact OK].
  - destruct (T k) as [L K]. split; [lia|]. apply ok_app; assumption.
Qed.

Lemma ok_goto s i p : inv s -> thread_ok (hist s) (idx s i) (knows s i) p ->
  forall k, (idx s k < length (hist s))%nat /\ thread_ok (hist s) (idx s k) (knows s k) (lpcs (goto i p s) k).
Proof.
  intros [T _] OK k. cbn. unfold fupd. destruct (Nat.eqb_spec k i) as [->|N].
  - split; [apply T|exact OK].
  - apply T.
Qed.

(** What a message can be. *)
Lemma msg_a s j m : phase_a s -> nth_error (hist s) j = Some m -> m = (Uninitd, false).
Proof. intros (H & _) E. rewrite H in E. destruct j as [|[|j]]; cbn in E; congruence. Qed.
Lemma msg_b sl j m : nth_error (base sl) j = Some m -> snd m = false /\ fst m <> Initd.
Proof. intros E. destruct sl; destruct j as [|[|[|[|j]]]]; cbn in E; inversion E; cbn; split; congruence. Qed.
Lemma msg_c sl j m : nth_error (base sl ++ [(Initd, true)]) j = Some m -> m = (Initd, true) \/ (snd m = false /\ fst m <> Initd).
Proof. intros E. destruct sl; destruct j as [|[|[|[|[|j]]]]]; cbn in E; inversion E; cbn; (left; reflexivity) || (right; split; congruence). Qed.
Lemma last_c sl s m : hist s = base sl ++ [(Initd, true)] -> is_last s m -> m = (Initd, true).
Proof. intros H E. unfold is_last, last_idx in E. rewrite H in E. destruct sl; cbn in E; congruence. Qed.
Lemma last_b sl s m : hist s = base sl -> is_last s m -> m = (if sl then Sleepers else Initializing, false).
Proof. intros H E. unfold is_last, last_idx in E. rewrite H in E. destruct sl; cbn in E; congruence. Qed.

Lemma msg_any s j m : inv s -> nth_error (hist s) j = Some m -> (fst m = Initd <-> snd m = true).
Proof.
  intros [_ [A|[(sl & w & H & _)|(sl & w & v & H & _)]]] E.
  - rewrite (msg_a _ _ _ A E). cbn. split; discriminate.
  - rewrite H in E. destruct (msg_b _ _ _ E) as [X Y]. split; [tauto|congruence].
  - rewrite H in E. destruct (msg_c _ _ _ E) as [->|[X Y]]; [cbn; tauto|]. split; [tauto|congruence].
Qed.

(** A step of a thread that reads a message and stays outside of the critical places. *)
Lemma inv_read s i j m a p : inv s -> may_read s i j m -> thread_ok (hist s) j (knows s i || a) p -> early (lpcs s i) -> (a = true -> snd m = true) ->
  (early p \/ (p = LRef /\ snd m = true)) -> (p = LAsleep -> (kern s <= j)%nat) -> inv (read_to i j a p s).
Proof.
  intros V MR OK E A P KA. split; [exact (ok_read s i j m a p V MR OK)|]. destruct V as [T [PA|[PB|PC]]]; destruct MR as [LE M].
  - left. pose proof (msg_a _ _ _ PA M) as ->. destruct PA as (H1 & H2 & H3 & H4 & H5 & H6 & H7). unfold phase_a. cbn. repeat (split; [assumption|]).
    assert (a = false) as -> by (destruct a; [specialize (A eq_refl); discriminate|reflexivity]).
    intros k. unfold fupd. destruct (Nat.eqb_spec k i) as [->|N]; [|apply H7]. split.
    + destruct P as [P|[_ P]]; [exact P|discriminate].
    + rewrite (proj2 (H7 i)). reflexivity.
  - right. left. destruct PB as (sl & w & H1 & H2 & H3 & H4 & H5). exists sl, w. cbn. rewrite H1 in M. destruct (msg_b _ _ _ M) as [SF _].
    assert (a = false) as -> by (destruct a; [specialize (A eq_refl); congruence|reflexivity]).
    assert (NW : w <> i). { intros ->. destruct H5 as [(X & _)|[(X & _)|(X & _)]]; rewrite X in E; exact E. }
    repeat (split; [assumption|]). split.
    + intros k N. unfold fupd. destruct (Nat.eqb_spec k i) as [->|N2]; [|apply H4; exact N]. split.
      * destruct P as [P|[_ P]]; [exact P|congruence].
      * rewrite (proj2 (H4 i N)). reflexivity.
    + rewrite !(fupd_ne i w) by exact NW. exact H5.
  - right. right. destruct PC as (sl & w & v & H1 & H2 & H3 & H4 & H5 & H6 & H7). exists sl, w, v. cbn. repeat (split; [assumption|]). split.
    { intros k. unfold fupd. destruct (Nat.eqb k i); [|apply H5]. destruct P as [P|[-> _]]; [|exact I]. destruct p; exact P || exact I. }
    split; [assumption|]. assert (PW : p <> LWake) by (destruct P as [P|[-> _]]; [intros ->; exact P|discriminate]).
    assert (EW : lpcs s i <> LWake) by (intros X; rewrite X in E; exact E).
    destruct H7 as [(K1 & K2 & K3)|(K1 & K2)].
    + left. split; [assumption|]. split.
      * intros S. specialize (K2 S). rewrite fupd_ne; [exact K2|congruence].
      * intros k. unfold fupd. destruct (Nat.eqb k i); [congruence|apply K3].
    + right. split; [exact K1|]. intros k. unfold fupd. destruct (Nat.eqb_spec k i) as [->|N]; [|apply K2]. split; [|exact PW].
      intros ->. specialize (KA eq_refl). cbn in OK. unfold last_idx in K1. rewrite H1 in *. pose proof (proj1 (nth_error_Some (base sl ++ [(Initd, true)]) j) ltac:(rewrite M; discriminate)) as L.
      assert (j = (length (base sl ++ [(Initd, true)]) - 1)%nat) as -> by lia. destruct sl; cbn in OK; discriminate.
Qed.

Lemma inv_goto s i p : inv s -> thread_ok (hist s) (idx s i) (knows s i) p -> (early (lpcs s i) /\ p = LReload \/ lpcs s i = LOut /\ p = LEnter \/
   lpcs s i = LLoop Initd /\ p = LRef \/ lpcs s i = LRef /\ p = LOut) -> inv (goto i p s).
Proof.
  intros V OK C. split; [exact (ok_goto s i p V OK)|].
  assert (EW : lpcs s i <> LWake /\ p <> LWake /\ p <> LAsleep /\ late p).
  { destruct C as [[C ->]|[[C ->]|[[C ->]|[C ->]]]]; (split; [intros X; rewrite X in C; exact C || discriminate C|]); repeat split; try discriminate. }
  destruct V as [T [PA|[PB|PC]]].
  - left. pose proof PA as PA0. destruct PA as (H1 & H2 & H3 & H4 & H5 & H6 & H7). unfold phase_a. cbn. repeat (split; [assumption|]).
    intros k. split; [|apply H7]. unfold fupd. destruct (Nat.eqb_spec k i) as [->|N]; [|apply H7].
    destruct C as [[C ->]|[[C ->]|[[C ->]|[C ->]]]]; try exact I.
    exfalso. destruct (T i) as [_ X]. rewrite C in X. cbn in X. destruct X as [c [X _]]. pose proof (msg_a _ _ _ PA0 X). discriminate.
  - right. left. destruct PB as (sl & w & H1 & H2 & H3 & H4 & H5). exists sl, w. cbn.
    assert (NW : w <> i). { intros ->. destruct H5 as [(X & _)|[(X & _)|(X & _)]]; rewrite X in C; cbn in C; intuition discriminate. }
    repeat (split; [assumption|]). split.
    + intros k N. split; [|apply H4; exact N]. unfold fupd. destruct (Nat.eqb_spec k i) as [->|N2]; [|apply H4; exact N].
      destruct C as [[C ->]|[[C ->]|[[C ->]|[C ->]]]]; try exact I.
      exfalso. destruct (T i) as [_ X]. rewrite C in X. cbn in X. destruct X as [c [X _]]. rewrite H1 in X. destruct (msg_b _ _ _ X) as [_ Y]. cbn in Y. congruence.
    + rewrite !(fupd_ne i w) by exact NW. exact H5.
  - right. right. destruct PC as (sl & w & v & H1 & H2 & H3 & H4 & H5 & H6 & H7). exists sl, w, v. cbn. repeat (split; [assumption|]). split.
    { intros k. unfold fupd. destruct (Nat.eqb k i); [apply EW|apply H5]. }
    split; [assumption|]. destruct EW as (E1 & E2 & E3 & E4).
    destruct H7 as [(K1 & K2 & K3)|(K1 & K2)].
    + left. split; [assumption|]. split.
      * intros S. specialize (K2 S). rewrite fupd_ne; [exact K2|congruence].
      * intros k. unfold fupd. destruct (Nat.eqb k i); [congruence|apply K3].
    + right. split; [exact K1|]. intros k. unfold fupd. destruct (Nat.eqb_spec k i) as [->|N]; [split; assumption|apply K2].
Qed.

Lemma inv_step s l t : inv s -> step s l t -> inv t.
Proof.
  intros V ST. pose proof V as [T PH]. destruct ST.
  - apply inv_goto; [exact V|exact I|tauto].
  - apply (inv_read s i j m (snd m) _ V H0); [|rewrite H; exact I|tauto| |].
    + destruct m as [[] c]; cbn; try (exists c; split; [exact (proj2 H0)|discriminate]).
      destruct H0 as [_ H0]. pose proof (proj1 (msg_any _ _ _ V H0) eq_refl) as X. cbn in X. rewrite X. apply orb_true_r.
    + destruct m as [[] c]; cbn; try (left; exact I). right. split; [reflexivity|]. exact (proj1 (msg_any _ _ _ V (proj2 H0)) eq_refl).
    + destruct m as [[] c]; cbn; discriminate.
  - (* S_lock *) destruct PH as [PA|[PB|PC]].
    + pose proof PA as PA0. destruct PA as (H1 & H2 & H3 & H4 & H5 & H6 & H7). assert (b = false) as ->. { unfold is_last in H0. pose proof (msg_a _ _ _ PA0 H0). congruence. }
      split. { apply (ok_write s i (Initializing, false) LProduce V). exact I. }
      right. left. exists false, i. cbn. rewrite H1. split; [reflexivity|]. repeat (split; [assumption|]). split.
      * intros k N. rewrite fupd_ne by exact N. apply H7.
      * left. rewrite fupd_eq. repeat (split; [first [reflexivity|assumption]|]). apply H7.
    + exfalso. destruct PB as (sl & w & H1 & _). pose proof (last_b _ _ _ H1 H0). destruct sl; discriminate.
    + exfalso. destruct PC as (sl & w & v & H1 & _). pose proof (last_c _ _ _ H1 H0). discriminate.
  - apply (inv_read s i j m (snd m) _ V H0); [|rewrite H; exact I|tauto|left; exact I|discriminate].
    cbn. exists (snd m). split; [rewrite <- surjective_pairing; exact (proj2 H0)|]. intros X. rewrite (proj1 (msg_any _ _ _ V (proj2 H0)) X). apply orb_true_r.
  - (* S_produce *) destruct PH as [PA|[PB|PC]].
    + exfalso. destruct PA as (_ & _ & _ & _ & _ & _ & X). specialize (X i). rewrite H in X. exact (proj1 X).
    + destruct PB as (sl & w & H1 & H2 & H3 & H4 & H5). assert (i = w) as ->. { destruct (Nat.eq_dec i w) as [E|N]; [exact E|]. specialize (H4 _ N). rewrite H in H4. destruct (proj1 H4). }
      destruct H5 as [(X & TK & X2 & X3 & X4)|[(X & _)|(X & _)]]; try congruence. unfold produce. rewrite TK. split.
      * intros k. cbn. unfold fupd. destruct (Nat.eqb_spec k w) as [->|N]; [split; [apply T|exact I]|apply T].
      * right. left. exists sl, w. cbn. repeat (split; [assumption|]). split.
        { intros k N. rewrite !fupd_ne by exact N. apply H4. exact N. }
        right. left. rewrite !fupd_eq. repeat (split; [reflexivity|]). exists v. rewrite X3. repeat split; reflexivity.
    + exfalso. destruct PC as (sl & w & v0 & _ & _ & _ & _ & X & _). specialize (X i). rewrite H in X. exact X.
  - (* S_fail *) destruct PH as [PA|[PB|PC]].
    + exfalso. destruct PA as (_ & _ & _ & _ & _ & _ & X). specialize (X i). rewrite H in X. exact (proj1 X).
    + destruct PB as (sl & w & H1 & H2 & H3 & H4 & H5). assert (i = w) as ->. { destruct (Nat.eq_dec i w) as [E|N]; [exact E|]. specialize (H4 _ N). rewrite H in H4. destruct (proj1 H4). }
      destruct H5 as [(X & TK & X2 & X3 & X4)|[(X & _)|(X & _)]]; try congruence. split.
      * intros k. cbn. unfold fupd. destruct (Nat.eqb_spec k w) as [->|N]; [split; [apply T|exact I]|apply T].
      * right. left. exists sl, w. cbn. repeat (split; [assumption|]). split.
        { intros k N. rewrite !fupd_ne by exact N. apply H4. exact N. }
        right. right. rewrite !fupd_eq. repeat (split; [first [reflexivity|assumption]|]). assumption.
    + exfalso. destruct PC as (sl & w & v0 & _ & _ & _ & _ & X & _). specialize (X i). rewrite H in X. exact X.
  - (* S_publish *) destruct PH as [PA|[PB|PC]].
    + exfalso. destruct PA as (_ & _ & _ & _ & _ & _ & X). specialize (X i). rewrite H in X. exact (proj1 X).
    + destruct PB as (sl & w & H1 & H2 & H3 & H4 & H5). assert (i = w) as ->. { destruct (Nat.eq_dec i w) as [E|N]; [exact E|]. specialize (H4 _ N). rewrite H in H4. destruct (proj1 H4). }
      destruct H5 as [(X & _)|[(X & TK & v & X2 & X3 & X4)|(X & _)]]; try congruence. pose proof (last_b _ _ _ H1 H0) as ->. unfold publish. rewrite X4. cbn [orb].
      split. { apply (ok_write s w (Initd, true) _ V). destruct sl; cbn [fst thread_ok]; [|exact X4]. split; [|exact X4]. rewrite nth_error_app2 by lia. rewrite Nat.sub_diag. reflexivity. }
      right. right. exists sl, w, v. cbn [write_to hist taken value runs got kern lpcs]. rewrite H1. split; [reflexivity|]. repeat (split; [assumption|]). split.
      { intros k. unfold fupd. destruct (Nat.eqb_spec k w) as [->|N]; [destruct sl; exact I|]. destruct (H4 k N) as [EE _]. destruct (lpcs s k); exact EE || exact I. }
      split. { rewrite H2. intros x []. }
      left. split; [assumption|]. split.
      { intros ->. rewrite fupd_eq. reflexivity. }
      intros k. unfold fupd. destruct (Nat.eqb_spec k w) as [->|N]; [destruct sl; cbn; [split; reflexivity|discriminate]|]. intros WK. destruct (H4 k N) as [EE _]. rewrite WK in EE. destruct EE.
    + exfalso. destruct PC as (sl & w & v0 & _ & _ & _ & _ & X & _). specialize (X i). rewrite H in X. exact X.
  - (* S_wake *) destruct PH as [PA|[PB|PC]].
    + exfalso. destruct PA as (_ & _ & _ & _ & _ & _ & X). specialize (X i). rewrite H in X. exact (proj1 X).
    + exfalso. destruct PB as (sl & w & H1 & H2 & H3 & H4 & H5). destruct (Nat.eq_dec i w) as [->|N]. 
      * destruct H5 as [(X & _)|[(X & _)|(X & _)]]; congruence.
      * specialize (H4 _ N). rewrite H in H4. exact (proj1 H4).
    + destruct PC as (sl & w & v & H1 & H2 & H3 & H4 & H5 & H6 & H7). pose proof (T i) as TI. rewrite H in TI. cbn in TI. destruct TI as [LI [MI KI]].
      destruct H7 as [(K1 & K2 & K3)|(K1 & K2)]; [|destruct (K2 i); congruence]. destruct (K3 i H) as [-> SL]. split.
      * intros k. cbn. split; [apply T|]. destruct (Nat.eqb_spec k w) as [->|N]; [exact KI|]. destruct (T k) as [_ TK]. destruct (lpcs s k); exact TK || exact I.
      * right. right. exists sl, w, v. cbn. repeat (split; [assumption|]). split.
        { intros k. specialize (H5 k). destruct (Nat.eqb k w); [exact I|]. destruct (lpcs s k); exact H5 || exact I. }
        split; [assumption|]. right. split.
        { rewrite K1. unfold last_idx. cbn [wake_all hist]. cbn [Nat.max]. rewrite H1 in *. subst sl. cbn in LI, MI. cbn. destruct (idx s w) as [|[|[|[|z]]]]; cbn in MI; try discriminate; [reflexivity|lia]. }
        intros k. destruct (Nat.eqb_spec k w) as [->|N]; [split; discriminate|]. destruct (lpcs s k) eqn:PK; split; try discriminate. intros _. destruct (K3 k PK). congruence.
  - (* S_announce *) destruct PH as [PA|[PB|PC]].
    + exfalso. unfold is_last in H0. pose proof (msg_a _ _ _ PA H0). discriminate.
    + destruct PB as (sl & w & H1 & H2 & H3 & H4 & H5). pose proof (last_b _ _ _ H1 H0) as X. destruct sl; [discriminate|]. injection X as ->.
      split. { apply (ok_write s i (Sleepers, false) (LLoop Sleepers) V). cbn. exists false. split; [|discriminate]. rewrite nth_error_app2 by lia. rewrite Nat.sub_diag. reflexivity. }
      right. left. exists true, w. cbn. rewrite H1. split; [reflexivity|].
      assert (NW : w <> i). { intros ->. destruct H5 as [(X & _)|[(X & _)|(X & _)]]; congruence. }
      repeat (split; [assumption|]). split.
      * intros k N. split; [|apply H4; exact N]. unfold fupd. destruct (Nat.eqb k i); [exact I|apply H4; exact N].
      * rewrite !(fupd_ne i w) by exact NW. exact H5.
    + exfalso. destruct PC as (sl & w & v & H1 & _). pose proof (last_c _ _ _ H1 H0). discriminate.
  - apply (inv_read s i j m (snd m) _ V H0); [|rewrite H; exact I|tauto|left; exact I|discriminate].
    cbn. exists (snd m). split; [rewrite <- surjective_pairing; exact (proj2 H0)|]. intros X. rewrite (proj1 (msg_any _ _ _ V (proj2 H0)) X). apply orb_true_r.
  - (* S_wait *) apply (inv_read s i j m false _ V H0); [|rewrite H; exact I|discriminate| |intros _; exact H1].
    + destruct m as [[] c]; cbn; try exact I. destruct H0 as [_ M]. destruct c; [pose proof (proj2 (msg_any _ _ _ V M) eq_refl); discriminate|exact M].
    + left. destruct m as [[] c]; exact I.
  - apply inv_goto; [exact V|exact I|]. left. rewrite H. split; [exact I|reflexivity].
  - apply (inv_read s i j m (snd m) _ V H0); [|rewrite H; exact I|tauto|left; exact I|discriminate].
    cbn. exists (snd m). split; [rewrite <- surjective_pairing; exact (proj2 H0)|]. intros X. rewrite (proj1 (msg_any _ _ _ V (proj2 H0)) X). apply orb_true_r.
  - apply inv_goto; [exact V| |tauto]. destruct (T i) as [_ X]. rewrite H in X. cbn in X |- *. destruct X as [c [_ X]]. exact (X eq_refl).
  - (* S_use *) split; [exact T|]. destruct PH as [PA|[PB|PC]].
    + exfalso. destruct PA as (_ & _ & _ & _ & _ & _ & X). specialize (X i). rewrite H in X. exact (proj1 X).
    + exfalso. destruct PB as (sl & w & H1 & H2 & H3 & H4 & H5). destruct (Nat.eq_dec i w) as [->|N]. 
      * destruct H5 as [(X & _)|[(X & _)|(X & _)]]; congruence.
      * specialize (H4 _ N). rewrite H in H4. exact (proj1 H4).
    + right. right. destruct PC as (sl & w & v & H1 & H2 & H3 & H4 & H5 & H6 & H7). exists sl, w, v. cbn. repeat (split; [assumption|]). split; [|exact H7].
      intros x [<-|X]; [|apply H6; exact X]. cbn. destruct (T i) as [_ KI]. rewrite H in KI. cbn in KI. rewrite KI. exact H3.
  - apply inv_goto; [exact V|exact I|tauto].
  - apply (inv_read s i j m false LOut V H0); [exact I|rewrite H; exact I|discriminate|left; exact I|discriminate].
Qed.

Lemma inv_steps s ls t : inv s -> steps s ls t -> inv t.
Proof. intros V R. induction R; [exact V|]. apply IHR. exact (inv_step _ _ _ V H). Qed.
Lemma inv_run ls s : steps lazy_new ls s -> inv s.
Proof. exact (inv_steps _ _ _ inv_new). Qed.
