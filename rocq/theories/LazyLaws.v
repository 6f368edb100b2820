(** Laws of LazyModel. *)
From Verif Require Import Base PoolModel LazyModel LazyProofs LazySpec.

Lemma no_bug s i : inv s -> lpcs s i <> LBug.
Proof.
  intros [_ [PA|[PB|PC]]] E.
  - destruct PA as (_ & _ & _ & _ & _ & _ & X). specialize (X i). rewrite E in X. exact (proj1 X).
  - destruct PB as (sl & w & H1 & H2 & H3 & H4 & H5). destruct (Nat.eq_dec i w) as [->|N].
    + destruct H5 as [(X & _)|[(X & _)|(X & _)]]; congruence.
    + specialize (H4 _ N). rewrite E in H4. exact (proj1 H4).
  - destruct PC as (sl & w & v & H1 & H2 & H3 & H4 & H5 & _). specialize (H5 i). rewrite E in H5. exact H5.
Qed.

Lemma once s : inv s -> (length (runs s) <= 1)%nat.
Proof.
  intros [_ [PA|[PB|PC]]].
  - destruct PA as (_ & _ & _ & -> & _). cbn. lia.
  - destruct PB as (sl & w & H1 & H2 & H3 & H4 & [(X & _ & _ & -> & _)|[(X & _ & v & _ & -> & _)|(X & _ & _ & -> & _)]]); cbn; lia.
  - destruct PC as (sl & w & v & H1 & H2 & H3 & -> & _). cbn. lia.
Qed.

Lemma got_ok s i r : inv s -> In (i, r) (got s) -> exists w v, runs s = [(w, v)] /\ r = Some v.
Proof.
  intros [_ [PA|[PB|PC]]] G.
  - destruct PA as (_ & _ & _ & _ & X & _). rewrite X in G. destruct G.
  - destruct PB as (sl & w & H1 & H2 & _). rewrite H2 in G. destruct G.
  - destruct PC as (sl & w & v & H1 & H2 & H3 & H4 & H5 & H6 & _). exists w, v. split; [exact H4|exact (H6 _ G)].
Qed.

Lemma ref_ok s i : inv s -> lpcs s i = LRef -> knows s i = true /\ exists w v, runs s = [(w, v)] /\ value s = Some v.
Proof.
  intros [T PH] E. split. { destruct (T i) as [_ X]. rewrite E in X. exact X. } destruct PH as [PA|[PB|PC]].
  - destruct PA as (_ & _ & _ & _ & _ & _ & X). specialize (X i). rewrite E in X. destruct (proj1 X).
  - destruct PB as (sl & w & H1 & H2 & H3 & H4 & H5). destruct (Nat.eq_dec i w) as [->|N].
    + destruct H5 as [(X & _)|[(X & _)|(X & _)]]; congruence.
    + specialize (H4 _ N). rewrite E in H4. destruct (proj1 H4).
  - destruct PC as (sl & w & v & H1 & H2 & H3 & H4 & _). exists w, v. split; assumption.
Qed.

Lemma write_alone s l t : inv s -> step s l t -> value t <> value s -> value s = None /\ got s = [] /\ forall k, lpcs s k <> LRef.
Proof.
  intros V ST N. assert (exists i, lpcs s i = LProduce /\ taken s = false) as [i [E TK]].
  { destruct ST; try (destruct N; reflexivity). exists i. split; [assumption|]. unfold produce in N. destruct (taken s); [destruct N; reflexivity|reflexivity]. }
  destruct V as [_ [PA|[PB|PC]]].
  - destruct PA as (_ & _ & X1 & _ & X2 & _ & X). split; [assumption|]. split; [assumption|]. intros k K. specialize (X k). rewrite K in X. exact (proj1 X).
  - destruct PB as (sl & w & H1 & H2 & H3 & H4 & H5). assert (i = w) as ->. { destruct (Nat.eq_dec i w) as [Q|N2]; [exact Q|]. specialize (H4 _ N2). rewrite E in H4. destruct (proj1 H4). }
    destruct H5 as [(X & X1 & X2 & _)|[(X & _)|(X & _)]]; try congruence. split; [assumption|]. split; [assumption|].
    intros k K. destruct (Nat.eq_dec k w) as [->|N2]; [congruence|]. specialize (H4 _ N2). rewrite K in H4. exact (proj1 H4).
  - destruct PC as (sl & w & v & H1 & H2 & _). congruence.
Qed.

Lemma dead_ok s w : inv s -> lpcs s w = LDead -> runs s = [] /\ got s = [] /\ forall i, lpcs s i <> LRef.
Proof.
  intros [_ [PA|[PB|PC]]] E.
  - destruct PA as (_ & _ & _ & _ & _ & _ & X). specialize (X w). rewrite E in X. destruct (proj1 X).
  - destruct PB as (sl & w' & H1 & H2 & H3 & H4 & H5). assert (w = w') as <-. { destruct (Nat.eq_dec w w') as [Q|N2]; [exact Q|]. specialize (H4 _ N2). rewrite E in H4. destruct (proj1 H4). }
    destruct H5 as [(X & _)|[(X & _)|(X & _ & _ & X1 & _)]]; try congruence. split; [assumption|]. split; [assumption|].
    intros k K. destruct (Nat.eq_dec k w) as [->|N2]; [congruence|]. specialize (H4 _ N2). rewrite K in H4. exact (proj1 H4).
  - destruct PC as (sl & w' & v & H1 & H2 & H3 & H4 & H5 & _). specialize (H5 w). rewrite E in H5. destruct H5.
Qed.

Lemma dead_stays s l t w : step s l t -> lpcs s w = LDead -> lpcs t w = LDead.
Proof.
  intros ST E. destruct ST; cbn; try (rewrite fupd_ne; [exact E|congruence]); try exact E.
  - unfold produce. destruct (taken s); cbn; (rewrite fupd_ne; [exact E|congruence]).
  - rewrite E. destruct (Nat.eqb_spec w i) as [->|]; [congruence|reflexivity].
Qed.

Lemma dead_forever s ls t w : inv s -> steps s ls t -> lpcs s w = LDead -> lpcs t w = LDead /\ got t = [] /\ forall i, lpcs t i <> LRef.
Proof.
  intros V R E. induction R.
  - split; [exact E|]. exact (proj2 (dead_ok _ _ V E)).
  - apply IHR; [exact (inv_step _ _ _ V H)|exact (dead_stays _ _ _ _ H E)].
Qed.

(** * Steps of a thread *)

Definition at_end (s : lazy) (i : nat) : bool := match nth_error (hist s) (idx s i) with Some (Initd, _) => true | _ => false end.
Definition weight_of (closed done : bool) (p : lpc) : nat :=
  match p with
  | LOut | LRef | LDead | LBug => 0
  | LWake => 1
  | LPublish => 2
  | LProduce => 3
  | LLoop Initd => 1
  | LAsleep => 7
  | LLoop Sleepers => if closed then 3 else 8
  | LLoop Initializing => if closed then 4 else 9
  | LLoop Uninitd => if closed then 5 else 10
  | LReload | LEnter => if done then 2 else if closed then 6 else 11
  end.
Definition closed (s : lazy) : bool := negb (kern s =? 0)%nat.
Definition weight (s : lazy) (i : nat) : nat := weight_of (closed s) (at_end s i) (lpcs s i).

Lemma closed_phase s : inv s -> closed s = true -> nth_error (hist s) (kern s) = Some (Initd, true) /\ kern s = last_idx s.
Proof.
  unfold closed. intros [_ [PA|[PB|PC]]] C.
  - destruct PA as (_ & _ & _ & _ & _ & X & _). rewrite X in C. discriminate.
  - destruct PB as (sl & w & H1 & H2 & H3 & _). rewrite H3 in C. discriminate.
  - destruct PC as (sl & w & v & H1 & H2 & H3 & H4 & H5 & H6 & [(K & _)|(K & _)]); [rewrite K in C; discriminate|].
    split; [|exact K]. rewrite K. unfold last_idx. rewrite H1. destruct sl; reflexivity.
Qed.

Lemma sorted s j k m m' : inv s -> nth_error (hist s) j = Some m -> nth_error (hist s) k = Some m' -> (j <= k)%nat -> fst m = Initd -> fst m' = Initd.
Proof.
  intros [_ [PA|[PB|PC]]] J K L E.
  - pose proof (msg_a _ _ _ PA J) as ->. discriminate.
  - destruct PB as (sl & w & H1 & _). rewrite H1 in J. destruct (msg_b _ _ _ J). congruence.
  - destruct PC as (sl & w & v & H1 & _). rewrite H1 in J, K.
    destruct sl; destruct j as [|[|[|[|[|j]]]]]; cbn in J; inversion J; subst m; cbn in E; try discriminate;
    destruct k as [|[|[|[|[|k]]]]]; cbn in K; inversion K; try reflexivity; lia.
Qed.

Lemma sorted_sleepers s j k m m' : inv s -> nth_error (hist s) j = Some m -> nth_error (hist s) k = Some m' -> (j <= k)%nat -> fst m = Sleepers -> fst m' = Sleepers \/ fst m' = Initd.
Proof.
  intros [_ [PA|[PB|PC]]] J K L E.
  - pose proof (msg_a _ _ _ PA J) as ->. discriminate.
  - destruct PB as (sl & w & H1 & _). rewrite H1 in J, K. destruct sl; destruct j as [|[|[|[|[|j]]]]]; cbn in J; inversion J; subst m; cbn in E; try discriminate;
    destruct k as [|[|[|[|[|k]]]]]; cbn in K; inversion K; cbn; try tauto; lia.
  - destruct PC as (sl & w & v & H1 & _). rewrite H1 in J, K.
    destruct sl; destruct j as [|[|[|[|[|j]]]]]; cbn in J; inversion J; subst m; cbn in E; try discriminate;
    destruct k as [|[|[|[|[|k]]]]]; cbn in K; inversion K; cbn; try tauto; lia.
Qed.

Lemma sorted_initializing s j k m m' : inv s -> nth_error (hist s) j = Some m -> nth_error (hist s) k = Some m' -> (j <= k)%nat -> fst m = Initializing -> fst m' <> Uninitd.
Proof.
  intros [_ [PA|[PB|PC]]] J K L E.
  - pose proof (msg_a _ _ _ PA J) as ->. discriminate.
  - destruct PB as (sl & w & H1 & _). rewrite H1 in J, K. destruct sl; destruct j as [|[|[|[|[|j]]]]]; cbn in J; inversion J; subst m; cbn in E; try discriminate;
    destruct k as [|[|[|[|[|k]]]]]; cbn in K; inversion K; cbn; try discriminate; lia.
  - destruct PC as (sl & w & v & H1 & _). rewrite H1 in J, K.
    destruct sl; destruct j as [|[|[|[|[|j]]]]]; cbn in J; inversion J; subst m; cbn in E; try discriminate;
    destruct k as [|[|[|[|[|k]]]]]; cbn in K; inversion K; cbn; try discriminate; lia.
Qed.

(** Other threads. *)
Definition actor (l : lab) : nat := match l with Call i | Work i | Spurious i | Fail i | Use i | Probe i _ => i end.

Lemma at_end_app (h : list msg) m k : (k < length h)%nat -> nth_error (h ++ [m]) k = nth_error h k.
Proof. apply nth_error_app1. Qed.

Lemma weight_wake d p : (weight_of true d (match p with LAsleep => LReload | q => q end) <= weight_of false d p)%nat.
Proof. destruct p as [| |[]| | | | | | | |]; destruct d; cbn; lia. Qed.
Lemma weight_closed d p : (weight_of true d p <= weight_of false d p)%nat.
Proof. destruct p as [| |[]| | | | | | | |]; destruct d; cbn; lia. Qed.

Lemma weight_other s l t i : inv s -> step s l t -> actor l <> i -> (weight t i <= weight s i)%nat.
Proof.
  intros V ST N. pose proof (proj1 (proj1 V i)) as L. unfold weight, at_end, closed. destruct ST; cbn in N |- *;
    rewrite ?fupd_ne by congruence; rewrite ?at_end_app by exact L; try lia.
  - unfold produce. destruct (taken s); cbn; rewrite ?fupd_ne by congruence; lia.
  - pose proof (closed_phase s V) as CP. unfold closed in CP.
    replace (i =? i0)%nat with false by (symmetry; apply Nat.eqb_neq; congruence).
    destruct (kern s =? 0)%nat eqn:K; cbn.
    + apply Nat.eqb_eq in K. rewrite K. cbn [Nat.max]. destruct (idx s i0 =? 0)%nat eqn:K2; cbn.
      * exfalso. apply Nat.eqb_eq in K2. destruct V as [T PH]. specialize (T i0). rewrite H in T. cbn in T. destruct T as [_ [T _]]. rewrite K2 in T.
        destruct PH as [(A & _)|[(sl & w & A & _)|(sl & w & v & A & _)]]; rewrite A in T; discriminate.
      * destruct (lpcs s i) eqn:PI; first [apply (weight_wake _ LAsleep)|apply weight_closed].
    + apply Nat.eqb_neq in K. replace (Nat.max (kern s) (idx s i0) =? 0)%nat with false by (symmetry; apply Nat.eqb_neq; lia). cbn.
      destruct V as [T PH]. exfalso. destruct PH as [PA|[PB|PC]].
      * destruct PA as (_ & _ & _ & _ & _ & X & _). congruence.
      * destruct PB as (sl & w & H1 & H2 & H3 & _). congruence.
      * destruct PC as (sl & w & v & H1 & H2 & H3 & H4 & H5 & H6 & [(Q & _)|(Q & Q2)]); [congruence|]. destruct (Q2 i0). congruence.
Qed.

Lemma weight_work s i t : inv s -> step s (Work i) t -> (weight t i < weight s i)%nat.
Proof.
  intros V ST. pose proof (proj1 V i) as [L OK]. unfold weight. inversion ST; subst; unfold at_end.
  - (* enter *) rewrite H0. cbn [read_to hist idx lpcs closed kern]. rewrite !fupd_eq. change (closed _) with (closed s). destruct H1 as [LE M]. rewrite M.
    destruct (nth_error (hist s) (idx s i)) as [m0|] eqn:M0; [|apply nth_error_None in M0; lia]. pose proof (sorted _ _ _ _ _ V M0 M LE) as SO.
    destruct m as [st c]. destruct m0 as [st0 c0]. cbn in SO |- *. destruct st0; try (destruct st, (closed s); cbn; lia). specialize (SO eq_refl). subst st. cbn. lia.
  - rewrite H0. cbn. rewrite !fupd_eq. cbn. destruct (closed s); lia.
  - rewrite H0. cbn [read_to hist idx lpcs closed kern]. rewrite !fupd_eq. change (closed _) with (closed s). destruct H1 as [LE M].
    destruct m as [st c]. cbn in H2 |- *. destruct st; [congruence|..]; destruct (closed s); cbn; lia.
  - rewrite H0. unfold produce. destruct (taken s); cbn; rewrite !fupd_eq; cbn; lia.
  - rewrite H0. unfold publish. cbn. rewrite !fupd_eq. destruct (fst m); cbn; lia.
  - rewrite H0. cbn. rewrite Nat.eqb_refl. cbn. lia.
  - rewrite H0. cbn. rewrite !fupd_eq. cbn. unfold closed. cbn. destruct (negb _); lia.
  - rewrite H0. cbn [read_to hist idx lpcs closed kern]. rewrite !fupd_eq. change (closed _) with (closed s). destruct H1 as [LE M].
    rewrite H0 in OK. cbn in OK. destruct OK as [c0 [M0 _]]. pose proof (sorted_initializing _ _ _ _ _ V M0 M LE eq_refl) as SO.
    destruct m as [st c]. cbn in H2, SO |- *. destruct st; try congruence; destruct (closed s); cbn; lia.
  - rewrite H0. cbn [read_to hist idx lpcs closed kern]. rewrite !fupd_eq. change (closed _) with (closed s). destruct H1 as [LE M]. rewrite M.
    rewrite H0 in OK. cbn in OK. destruct OK as [c0 [M0 _]]. destruct (sorted_sleepers _ _ _ _ _ V M0 M LE eq_refl) as [E|E].
    + rewrite E. destruct m as [st c]. cbn in E. subst st. cbn. destruct (closed s) eqn:C; [|lia].
      exfalso. destruct (closed_phase _ V C) as [MK _]. pose proof (sorted _ _ _ _ _ V MK M H2 eq_refl). discriminate.
    + rewrite E. destruct m as [st c]. cbn in E. subst st. cbn. destruct (closed s); lia.
  - rewrite H0. cbn [read_to hist idx lpcs closed kern]. rewrite !fupd_eq. change (closed _) with (closed s). destruct H1 as [LE M].
    destruct (nth_error (hist s) (idx s i)) as [m0|] eqn:M0; [|apply nth_error_None in M0; lia]. pose proof (sorted _ _ _ _ _ V M0 M LE) as SO.
    destruct m as [st c]. destruct m0 as [st0 c0]. cbn in SO |- *. destruct st0; try (destruct st, (closed s); cbn; lia). specialize (SO eq_refl). subst st. cbn. lia.
  - rewrite H0. cbn. rewrite !fupd_eq. cbn. lia.
Qed.

Lemma weight_goto s i p : weight (goto i p s) i = weight_of (closed s) (at_end s i) p.
Proof. unfold weight. change (lpcs (goto i p s) i) with (fupd i p (lpcs s) i). rewrite fupd_eq. reflexivity. Qed.
Lemma weight_call s i t : step s (Call i) t -> (weight t i <= 11)%nat.
Proof. intros ST. inversion ST; subst. rewrite weight_goto. destruct (at_end s i), (closed s); cbn; lia. Qed.
Lemma weight_spurious s i t : step s (Spurious i) t -> (weight t i <= weight s i + 4)%nat.
Proof. intros ST. inversion ST; subst. rewrite weight_goto. unfold weight. rewrite H0. destruct (at_end s i), (closed s); cbn; lia. Qed.
Lemma weight_rest s l i t : step s l t -> actor l = i -> is_call i l = false -> is_work i l = false -> is_spurious i l = false -> (weight t i = 0)%nat \/ weight t i = weight s i.
Proof.
  intros ST A C1 C2 C3. unfold weight. destruct ST; cbn in A, C1, C2, C3; subst; try (rewrite Nat.eqb_refl in *; discriminate);
    cbn; rewrite ?fupd_eq; cbn; first [left; reflexivity|right; rewrite H; reflexivity].
Qed.

Lemma bounded s ls t i : inv s -> steps s ls t ->
  (count (is_work i) ls + weight t i <= weight s i + 11 * count (is_call i) ls + 4 * count (is_spurious i) ls)%nat.
Proof.
  intros V R. induction R as [|s l t ls u ST R IH]; [unfold count; cbn; lia|].
  specialize (IH (inv_step _ _ _ V ST)). unfold count in *. cbn [filter].
  destruct (Nat.eq_dec (actor l) i) as [A|N].
  - destruct (is_work i l) eqn:EW; [|destruct (is_call i l) eqn:EC; [|destruct (is_spurious i l) eqn:ES]].
    + destruct l; cbn in EW, A; try discriminate. subst. cbn. pose proof (weight_work _ _ _ V ST). lia.
    + destruct l; cbn in EC, A; try discriminate. subst. cbn. pose proof (weight_call _ _ _ ST). lia.
    + destruct l; cbn in ES, A; try discriminate. subst. cbn. pose proof (weight_spurious _ _ _ ST). lia.
    + destruct (weight_rest _ _ _ _ ST A EC EW ES); lia.
  - pose proof (weight_other _ _ _ _ V ST N).
    assert (is_work i l = false /\ is_call i l = false /\ is_spurious i l = false) as (-> & -> & ->).
    { destruct l; cbn in N |- *; repeat split; try reflexivity; apply Nat.eqb_neq; congruence. }
    lia.
Qed.

Lemma bounded_new ls s i : steps lazy_new ls s -> (count (is_work i) ls <= 11 * count (is_call i) ls + 4 * count (is_spurious i) ls)%nat.
Proof. intros R. pose proof (bounded _ _ _ i inv_new R) as B. change (weight lazy_new i) with 0%nat in B. lia. Qed.

(** * Progress *)
Lemma progress s i : inv s -> inside (lpcs s i) -> can_work s i \/ (lpcs s i = LAsleep /\ exists w, (can_work s w /\ (initializes (lpcs s w) \/ lpcs s w = LWake)) \/ lpcs s w = LDead).
Proof.
  intros V IN. pose proof (no_bug _ i V) as NB. pose proof V as [T PH].
  assert (LAST : exists m, is_last s m).
  { unfold is_last, last_idx. destruct (nth_error (hist s) (length (hist s) - 1)) eqn:E; [eauto|]. apply nth_error_None in E. specialize (T i). lia. }
  assert (OWN : exists m, may_read s i (idx s i) m).
  { unfold may_read. destruct (nth_error (hist s) (idx s i)) eqn:E; [eauto|]. apply nth_error_None in E. specialize (T i). lia. }
  assert (LR : forall m, is_last s m -> may_read s i (last_idx s) m).
  { intros m E. split; [|exact E]. unfold last_idx. specialize (T i). lia. }
  destruct (lpcs s i) eqn:PC; try (destruct IN; fail); try congruence.
  - left. destruct OWN as [m M]. eexists. eapply S_enter; eassumption.
  - left. destruct LAST as [[st0 c] LA]. destruct st.
    + destruct st0; [eexists; eapply S_lock; eassumption|..]; (eexists; eapply S_nolock; [eassumption|apply LR; eassumption|discriminate]).
    + eexists. eapply S_break. exact PC.
    + destruct st0; try (eexists; eapply S_noannounce; [eassumption|apply LR; eassumption|discriminate]). eexists; eapply S_announce; eassumption.
    + eexists. eapply S_wait; [eassumption|apply LR; eassumption|]. destruct (closed s) eqn:C.
      * rewrite (proj2 (closed_phase _ V C)). lia.
      * unfold closed in C. apply negb_false_iff, Nat.eqb_eq in C. lia.
  - left. eexists. eapply S_produce with (v := 0). exact PC.
  - left. destruct LAST as [m M]. eexists. eapply S_publish; eassumption.
  - left. eexists. eapply S_wake; eassumption.
  - right. split; [reflexivity|]. destruct (T i) as [_ TI]. rewrite PC in TI. cbn in TI. destruct PH as [PA|[PB|PHC]].
    + pose proof (msg_a _ _ _ PA TI). discriminate.
    + destruct PB as (sl & w & H1 & H2 & H3 & H4 & H5). exists w. destruct H5 as [(X & _)|[(X & _)|(X & _)]].
      * left. rewrite X. split; [|left; exact I]. eexists. eapply S_produce with (v := 0). exact X.
      * left. rewrite X. split; [|left; exact I]. destruct LAST as [m M]. eexists. eapply S_publish; eassumption.
      * right. exact X.
    + destruct PHC as (sl & w & v & H1 & H2 & H3 & H4 & H5 & H6 & [(K1 & K2 & K3)|(K1 & K2)]).
      * assert (SL : sl = true). { destruct sl; [reflexivity|]. rewrite H1 in TI. destruct (idx s i) as [|[|[|[|z]]]]; discriminate. }
        exists w. left. rewrite (K2 SL). split; [|right; reflexivity]. eexists. eapply S_wake. exact (K2 SL).
      * destruct (K2 i). congruence.
  - left. destruct OWN as [m M]. eexists. eapply S_reload; eassumption.
Qed.

(** Everything is over when nobody can go on. *)
Lemma quiet s : inv s -> (forall i, ~ can_work s i) -> (forall i, lpcs s i <> LDead) -> forall i, lpcs s i = LOut \/ lpcs s i = LRef.
Proof.
  intros V Q D i. assert (NI : ~ inside (lpcs s i)).
  { intros IN. destruct (progress s i V IN) as [X|[_ [w [[X _]|X]]]]; [exact (Q _ X)|exact (Q _ X)|exact (D _ X)]. }
  specialize (D i). pose proof (no_bug s i V). destruct (lpcs s i); cbn in NI; tauto || congruence.
Qed.

(** * initd *)
Lemma probe_ok s i t : inv s -> step s (Probe i true) t -> exists w v, runs s = [(w, v)].
Proof.
  intros V ST. inversion ST; subst. destruct m as [[] c]; cbn in *; try discriminate. match goal with X : may_read _ _ _ _ |- _ => destruct X as [_ M] end.
  destruct V as [_ [PA|[PB|PC]]].
  - pose proof (msg_a _ _ _ PA M). discriminate.
  - destruct PB as (sl & w & HB & _). rewrite HB in M. destruct (msg_b _ _ _ M) as [_ X]. cbn in X. congruence.
  - destruct PC as (sl & w & v & _ & _ & _ & R & _). eauto.
Qed.

Definition known (s : lazy) : Prop := forall i, knows s i = true -> lpcs s i = LPublish \/ nth_error (hist s) (idx s i) = Some (Initd, true).

Lemma known_read s i j m a p : inv s -> known s -> may_read s i j m -> (a = true -> snd m = true) -> lpcs s i <> LPublish -> known (read_to i j a p s).
Proof.
  intros V K [LE M] A N k. cbn. unfold fupd. destruct (Nat.eqb_spec k i) as [->|X]; [|apply K]. intros E. right.
  assert (fst m = Initd).
  { apply orb_true_iff in E. destruct E as [E|E].
    - destruct (K i E) as [Q|Q]; [contradiction|]. exact (sorted _ _ _ _ _ V Q M LE eq_refl).
    - exact (proj2 (msg_any _ _ _ V M) (A E)). }
  rewrite M. destruct m as [st c]. cbn in H. subst st. pose proof (proj1 (msg_any _ _ _ V M) eq_refl) as X. cbn in X. subst c. reflexivity.
Qed.
Lemma known_goto s i p : known s -> lpcs s i <> LPublish -> known (goto i p s).
Proof. intros K N k. cbn. unfold fupd. destruct (Nat.eqb_spec k i) as [->|X]; [|apply K]. intros E. destruct (K i E); [contradiction|right; assumption]. Qed.
Lemma known_write s i m p : inv s -> known s -> (knows s i = true -> m = (Initd, true)) -> known (write_to i m p s).
Proof.
  intros V K A k. cbn. unfold fupd. destruct (Nat.eqb_spec k i) as [->|X]; intros E.
  - right. rewrite (A E). rewrite nth_error_app2 by lia. rewrite Nat.sub_diag. reflexivity.
  - destruct (K k E) as [Q|Q]; [left; exact Q|right]. rewrite nth_error_app1; [exact Q|apply (proj1 V)].
Qed.

Lemma known_step s l t : inv s -> known s -> step s l t -> known t.
Proof.
  intros V K ST. destruct ST;
    try (apply known_goto; [exact K|congruence]; fail);
    try (apply (known_read s i j m); [exact V|exact K|assumption|first [discriminate|tauto]|congruence]; fail).
  - apply known_write; [exact V|exact K|]. intros E. exfalso. destruct (K i E) as [Q|Q]; [congruence|].
    pose proof (sorted _ _ _ _ _ V Q H0) as X. unfold last_idx in X. pose proof (proj1 (proj1 V i)). specialize (X ltac:(lia) eq_refl). discriminate.
  - unfold produce. destruct (taken s); [apply known_goto; [exact K|congruence]|]. intros k. cbn. unfold fupd. destruct (Nat.eqb_spec k i) as [->|X]; [left; reflexivity|apply K].
  - apply known_write; [exact V|exact K|]. intros E. rewrite E. reflexivity.
  - intros k E. cbn in E |- *. destruct (K k E) as [Q|Q]; [|right; exact Q]. rewrite Q. destruct (Nat.eqb_spec k i) as [->|X]; [congruence|left; reflexivity].
  - apply known_write; [exact V|exact K|]. intros E. exfalso. destruct (K i E) as [Q|Q]; [congruence|].
    pose proof (sorted _ _ _ _ _ V Q H0) as X. unfold last_idx in X. pose proof (proj1 (proj1 V i)). specialize (X ltac:(lia) eq_refl). discriminate.
  - exact K.
Qed.
Lemma known_steps s ls t : inv s -> known s -> steps s ls t -> known t.
Proof. intros V K R. induction R; [exact K|]. apply IHR; [exact (inv_step _ _ _ V H)|exact (known_step _ _ _ V K H)]. Qed.
Lemma known_new : known lazy_new.
Proof. intros i E. discriminate. Qed.

Lemma knows_step s l t i : step s l t -> knows s i = true -> knows t i = true.
Proof.
  intros ST E. destruct ST; cbn; try exact E; try (unfold fupd; destruct (Nat.eqb_spec i i0) as [->|]; [rewrite E; reflexivity|exact E]).
  unfold produce. destruct (taken s); cbn; [exact E|]. unfold fupd. destruct (Nat.eqb i i0); [reflexivity|exact E].
Qed.
Lemma knows_steps s ls t i : steps s ls t -> knows s i = true -> knows t i = true.
Proof. intros R E. induction R; [exact E|]. apply IHR. exact (knows_step _ _ _ _ H E). Qed.

Lemma probe_after s ls t u i r : inv s -> known s -> lpcs s i = LRef -> steps s ls t -> step t (Probe i r) u -> r = true.
Proof.
  intros V K E R ST. pose proof (knows_steps _ _ _ _ R (proj1 (ref_ok _ _ V E))) as KT.
  pose proof (inv_steps _ _ _ V R) as VT. destruct (known_steps _ _ _ V K R i KT) as [Q|Q]; inversion ST; subst; [congruence|].
  match goal with X : may_read _ _ _ _ |- _ => destruct X as [LE M] end. rewrite (sorted _ _ _ _ _ VT Q M LE eq_refl). reflexivity.
Qed.

(** * Drop *)
Lemma drop_ok s v : inv s -> (forall i, lpcs s i = LOut \/ lpcs s i = LDead) -> (drop_lock s = Some v <-> exists w, runs s = [(w, v)]).
Proof.
  unfold drop_lock, last_idx. intros [_ [PA|[PB|PC]]] O.
  - destruct PA as (H & _ & _ & R & _). rewrite H, R. cbn. split; [discriminate|intros [w X]; discriminate].
  - destruct PB as (sl & w & H & _ & _ & _ & X). destruct (O w) as [Q|Q]; destruct X as [(X & _)|[(X & _)|(X & _ & _ & R & _)]]; try congruence.
    rewrite H, R. destruct sl; cbn; (split; [discriminate|intros [z Y]; discriminate]).
  - destruct PC as (sl & w & v0 & H & _ & V & R & _). rewrite H, V, R.
    replace (nth_error (base sl ++ [(Initd, true)]) (length (base sl ++ [(Initd, true)]) - 1)) with (Some (Initd, true)) by (destruct sl; reflexivity).
    split; [intros [= ->]; eauto|]. intros [z [= _ ->]]. reflexivity.
Qed.
