(** Consequences of the invariant of the pool without a bound. *)
From Verif Require Import Base PoolModel UPoolModel PoolSpec PoolProofs PoolLaws UPoolProofs LatchModel.
From Coq Require Import Lia Arith.
Local Open Scope nat_scope.

Lemma u_reached threads ops s : usteps (upool_new threads) ops = Some s -> UInv s /\ unt s = threads.
Proof. intros E. destruct (usteps_inv ops _ (upool_new_inv threads)) as (s' & E' & I & A). rewrite E in E'. injection E' as <-. auto. Qed.

Lemma u_no_panic threads ops : exists s, usteps (upool_new threads) ops = Some s.
Proof. destruct (usteps_inv ops _ (upool_new_inv threads)) as (s' & E' & _). eauto. Qed.

Lemma u_once_past threads ops s : usteps (upool_new threads) ops = Some s -> forall l, In l (upast s) -> Permutation l (seq 0 threads).
Proof.
  intros E l L. destruct (u_reached _ _ _ E) as ([G _] & A). pose proof (u_past s G) as P. rewrite Forall_forall in P. specialize (P l L). now rewrite A in P.
Qed.

Lemma u_busy_task s i : UInv s -> u_busy s i = true -> u_in_task s = true /\ i < unt s.
Proof.
  intros [G P] B. unfold u_busy in B. destruct (upcs s i) eqn:PC; try discriminate.
  assert (I : i < unt s). { destruct (Nat.lt_ge_cases i (unt s)) as [L|L]; [exact L|]. pose proof (u_out s G i L). congruence. }
  split; [|exact I].
  assert (NQ : ~ UQuiet s). { intros Q. destruct (Q i I) as [[[A _]|A] _]; congruence. }
  assert (NJ : forall e, ~ UJn s e). { intros e (_ & _ & ST). specialize (ST i I). rewrite PC in ST. exact ST. }
  unfold UPhase in P. unfold u_in_task. destruct (umain s); try reflexivity; try (exfalso; apply NQ; apply P); try (exfalso; eapply NJ; apply P).
  exfalso. destruct P as ((e & J) & _). exact (NJ e J).
Qed.

Lemma u_cur_once threads ops s : usteps (upool_new threads) ops = Some s -> u_in_task s = true ->
  NoDup (ucur s) /\ forall i, In i (ucur s) -> i < threads.
Proof.
  intros E I. destruct (u_reached _ _ _ E) as ([G P] & A). unfold u_in_task in I. unfold UPhase in P.
  destruct (umain s); try discriminate.
  - destruct P as (_ & _ & -> & _). split; [constructor|intros i []].
  - split; [apply (ur_nd _ P)|]. intros i IN. apply (ur_cur _ P) in IN. lia.
  - split; [apply (ur_nd _ P)|]. intros i IN. apply (ur_cur _ P) in IN. lia.
Qed.

Lemma u_scope_borrow threads ops s i : usteps (upool_new threads) ops = Some s -> u_busy s i = true -> u_in_task s = true.
Proof. intros E B. destruct (u_reached _ _ _ E) as (I & _). now apply (u_busy_task s i). Qed.

Lemma utstep_main s i b s' : utstep i b s = Some s' -> umain s' = umain s.
Proof.
  unfold utstep. intros E. destruct (upcs s i).
  - destruct (_ =? _)%Z; [injection E as <-; reflexivity|]. destruct (_ =? _)%Z; [|discriminate]. injection E as <-. auto.
  - injection E as <-. destruct (utask s); reflexivity.
  - injection E as <-. reflexivity.
  - destruct (negb _); [|discriminate]. injection E as <-. reflexivity.
  - injection E as <-. reflexivity.
  - injection E as <-. reflexivity.
  - injection E as <-. reflexivity.
Qed.

Lemma u_scope_leaves threads ops s o s' : usteps (upool_new threads) ops = Some s ->
  ustep s o = Some s' -> u_in_task s = true -> u_in_task s' = false ->
  Permutation (ucur s') (seq 0 threads) /\ forall i, u_busy s' i = false.
Proof.
  intros E ST I1 I2. destruct (u_reached _ _ _ E) as (I & B).
  destruct (ustep_inv s o I) as (s1 & E1 & I' & B'). rewrite ST in E1. injection E1 as <-.
  split.
  - unfold u_in_task in I1. destruct o as [a|i b]; cbn [ustep] in ST.
    + assert (M : umain s' = UClear).
      { unfold umstep in ST. destruct (umain s) as [| | | | | | |e|i e|] eqn:MN; try discriminate; destruct a; try (injection ST as <-; unfold u_in_task in I2; rewrite MN in I2; discriminate).
        - injection ST as <-. discriminate.
        - destruct I as [_ P]. unfold UPhase in P. rewrite MN in P. rewrite (ur_task _ P) in ST. injection ST as <-. discriminate.
        - destruct (uall s _); injection ST as <-; [reflexivity|]. unfold u_in_task in I2. rewrite MN in I2. discriminate. }
      destruct I' as [_ P']. unfold UPhase in P'. rewrite M in P'. destruct P' as (_ & O & _). now rewrite B', B in O.
    + destruct (Nat.ltb i (unt s)).
      * apply utstep_main in ST. unfold u_in_task in I2. rewrite ST in I2. congruence.
      * injection ST as <-. unfold u_in_task in I2. congruence.
  - intros i. destruct (u_busy s' i) eqn:BZ; [|reflexivity]. destruct (u_busy_task _ _ I' BZ) as (X & _). congruence.
Qed.

Definition ubad (x : upc) : bool := match x with UPoison | UDrop | UGone true => true | _ => false end.

Lemma umstep_pcs a s s' : umstep a s = Some s' -> upcs s' = upcs s.
Proof.
  unfold umstep, assert_then, obind. intros E.
  repeat match type of E with context [match ?y with _ => _ end] =>
    lazymatch y with context [match _ with _ => _ end] => fail | _ => destruct y; try discriminate E end end;
  try (injection E as <-; reflexivity).
Qed.

Lemma utstep_cases s i b s' : utstep i b s = Some s' ->
  s' = s \/
  (forall j, j <> i -> upcs s' j = upcs s j /\ ucounted s' j = ucounted s j) /\ (upoisoned s' = upoisoned s \/ upcs s i = UPoison) /\
  match upcs s i with
  | UWait => upcs s' i = URun /\ wrap32 (gen s - seen s i) = 1%Z
  | URun => upcs s' i = UBusy \/ upcs s' i = UGone false
  | UBusy => upcs s' i = if b then UPoison else UCount
  | UCount => upcs s' i = UWait /\ ucounted s' i = true
  | UPoison => upcs s' i = UDrop
  | UDrop => upcs s' i = UGone true
  | UGone _ => False
  end.
Proof.
  unfold utstep. intros E.
  assert (K : forall x j, j <> i -> fupd i x (upcs s) j = upcs s j) by (intros x j N; now apply fupd_other).
  destruct (upcs s i) eqn:PC.
  - destruct (Z.eqb_spec (wrap32 (gen s - seen s i)) 1); [injection E as <-; right; cbn; rewrite fupd_same; auto|]. destruct (_ =? _)%Z; [|discriminate]. injection E as <-. auto.
  - injection E as <-. right. destruct (utask s); cbn; rewrite fupd_same; auto.
  - injection E as <-. right. cbn. rewrite fupd_same. auto.
  - right. destruct (negb _); [|discriminate]. injection E as <-. cbn. rewrite !fupd_same. split; [|auto]. intros j N. rewrite !fupd_other by exact N. auto.
  - injection E as <-. right. cbn. rewrite fupd_same. auto.
  - injection E as <-. right. cbn. rewrite fupd_same. auto.
  - injection E as <-. auto.
Qed.

Lemma ustep_bad s o s' j : ustep s o = Some s' -> ubad (upcs s j) = true -> ubad (upcs s' j) = true.
Proof.
  intros E B. destruct o as [a|i b]; cbn [ustep] in E; [now rewrite (umstep_pcs _ _ _ E)|].
  destruct (Nat.ltb i (unt s)); [|injection E as <-; exact B].
  destruct (utstep_cases _ _ _ _ E) as [->|(O & _ & X)]; [exact B|].
  destruct (Nat.eq_dec j i) as [->|N]; [|now destruct (O j N) as [-> _]].
  destruct (upcs s i) as [| | | | | |pk]; try discriminate; try (rewrite X; reflexivity). destruct X.
Qed.

Lemma usteps_bad ops : forall s s' j, usteps s ops = Some s' -> ubad (upcs s j) = true -> ubad (upcs s' j) = true.
Proof.
  induction ops as [|o r IH]; intros s s' j E B; [injection E as <-; exact B|]. cbn [usteps] in E.
  destruct (ustep s o) as [s1|] eqn:ST; [|discriminate]. cbn [obind] in E. eapply IH; [exact E|]. eapply ustep_bad; eauto.
Qed.

Lemma usteps_app l1 : forall l2 s, usteps s (l1 ++ l2) = obind (usteps s l1) (fun s1 => usteps s1 l2).
Proof.
  induction l1 as [|o r IH]; intros l2 s; [reflexivity|]. cbn [usteps app]. destruct (ustep s o) as [s1|]; [|reflexivity]. cbn [obind]. apply IH.
Qed.

Lemma u_panic_stays threads ops s i ops' s' : usteps (upool_new threads) ops = Some s ->
  u_busy s i = true -> usteps s (Thread i true :: ops') = Some s' -> umain s' <> UIdle /\ umain s' <> UScope.
Proof.
  intros E B E'. destruct (u_reached _ _ _ E) as (I & _). destruct (u_busy_task _ _ I B) as (_ & L).
  assert (I' : UInv s'). { apply (u_reached threads (ops ++ Thread i true :: ops')). rewrite usteps_app, E. exact E'. }
  assert (BD : ubad (upcs s' i) = true).
  { cbn [usteps ustep] in E'. apply Nat.ltb_lt in L. rewrite L in E'. unfold utstep in E'. unfold u_busy in B.
    destruct (upcs s i) as [| | | | | |pk]; try discriminate. cbn [obind] in E'. eapply usteps_bad; [exact E'|]. cbn. now rewrite fupd_same. }
  destruct I' as [G P]. unfold UPhase in P.
  assert (K : UQuiet s' -> upoisoned s' = false -> False).
  { intros Q PO. destruct (Nat.lt_ge_cases i (unt s')) as [X|X].
    - destruct (Q i X) as [[[A _]|A] _]; rewrite A in BD; [discriminate|]. pose proof (u_poison s' G i ltac:(auto)). congruence.
    - rewrite (u_out s' G i X) in BD. discriminate. }
  split; intros M; rewrite M in P; destruct P as (Q & _ & _ & PO); auto.
Qed.

Lemma u_calm_step s o s' : (match o with Thread _ b => b = false | _ => True end) ->
  (upoisoned s = false /\ (forall i, ubad (upcs s i) = false) /\ umain s <> UPanicked) -> ustep s o = Some s' ->
  upoisoned s' = false /\ (forall i, ubad (upcs s' i) = false) /\ umain s' <> UPanicked.
Proof.
  intros CO (PO & BD & MP) E. destruct o as [a|i b]; cbn [ustep] in E.
  - rewrite (umstep_pcs _ _ _ E). assert (K : upoisoned s' = false /\ umain s' <> UPanicked); [|destruct K; auto].
    unfold umstep, assert_then, obind in E. rewrite PO in E.
    repeat match type of E with context [match ?y with _ => _ end] =>
      lazymatch y with context [match _ with _ => _ end] => fail | _ => destruct y eqn:?; try discriminate E end end;
    try (injection E as <-; split; [first [exact PO|reflexivity]|cbn; congruence]); congruence.
  - subst b. destruct (Nat.ltb i (unt s)); [|injection E as <-; auto].
    pose proof (utstep_main _ _ _ _ E) as MN. destruct (utstep_cases _ _ _ _ E) as [->|(O & PS & X)]; [auto|].
    split; [|split].
    + destruct PS as [->|Y]; [exact PO|]. specialize (BD i). rewrite Y in BD. discriminate.
    + intros j. destruct (Nat.eq_dec j i) as [->|N]; [|now destruct (O j N) as [-> _]]. specialize (BD i).
      destruct (upcs s i) as [| | | | | |pk]; try discriminate.
      * destruct X as [-> _]. reflexivity.
      * destruct X as [->| ->]; reflexivity.
      * rewrite X. reflexivity.
      * destruct X as [-> _]. reflexivity.
      * destruct X.
    + now rewrite MN.
Qed.

Lemma u_calm_steps ops : forall s s', calm ops ->
  (upoisoned s = false /\ (forall i, ubad (upcs s i) = false) /\ umain s <> UPanicked) -> usteps s ops = Some s' ->
  upoisoned s' = false /\ (forall i, ubad (upcs s' i) = false) /\ umain s' <> UPanicked.
Proof.
  induction ops as [|o r IH]; intros s s' CO H E; [injection E as <-; exact H|]. cbn [usteps] in E.
  destruct (ustep s o) as [s1|] eqn:ST; [|discriminate]. cbn [obind] in E. inversion CO; subst.
  apply (IH s1 s'); auto. eapply u_calm_step; eauto.
Qed.

Lemma u_no_false_panic threads ops s : calm ops -> usteps (upool_new threads) ops = Some s ->
  umain s <> UPanicked /\ forall i, upcs s i <> UGone true.
Proof.
  intros CO E. destruct (u_calm_steps ops (upool_new threads) s CO) as (A & B & M); [|exact E|].
  - cbn. split; [reflexivity|]. split; [reflexivity|discriminate].
  - split; [exact M|]. intros i X. specialize (B i). rewrite X in B. discriminate.
Qed.

(** * Progress and termination *)

Definition uw (cnt : bool) (x : upc) : nat :=
  match x with
  | UWait => if cnt then 0 else 6
  | URun => 5 | UBusy => 4 | UCount | UPoison => 3 | UDrop => 2 | UGone _ => 0
  end.
Definition ujp (s : upool) : bool := match umain s with UJoined _ _ => true | _ => false end.
Definition utsum (s : upool) : nat := sum (fun i => uw (if ujp s then false else ucounted s i) (upcs s i)) (unt s).
Definition umeasure (s : upool) : nat :=
  match umain s with
  | UOpen => 3
  | UMWait => 3 + utsum s
  | UClear => 2
  | UJoin _ => 7 * unt s + 2
  | UJoined i _ => unt s + 1 - i + utsum s
  | _ => 0
  end.

Lemma utsum_le s : utsum s <= unt s * 6.
Proof. unfold utsum. apply sum_le. intros i _. destruct (upcs s i); cbn; try lia. destruct (if ujp s then false else ucounted s i); lia. Qed.

Lemma utstep_measure s i b s' : UInv s -> u_waits s = true -> i < unt s -> utstep i b s = Some s' -> s' = s \/ umeasure s' < umeasure s.
Proof.
  intros IV W I E. destruct (utstep_cases _ _ _ _ E) as [X|(O & _ & X)]; [now left|].
  pose proof (utstep_main _ _ _ _ E) as MN.
  destruct (ustep_inv s (Thread i b) IV) as (s1 & E1 & _ & NT). cbn [ustep] in E1. apply Nat.ltb_lt in I. rewrite I in E1. apply Nat.ltb_lt in I.
  rewrite E in E1. injection E1 as <-.
  assert (QS : UQuiet s -> s' = s).
  { intros Q. unfold utstep in E. destruct (Q i I) as [[[A B]|A] _]; rewrite A in E; [rewrite B, wrap_same in E|]; now injection E as <-. }
  pose proof IV as [G P]. unfold UPhase in P. unfold u_waits in W. unfold umeasure. rewrite MN, NT.
  assert (JP : ujp s' = ujp s) by (unfold ujp; now rewrite MN).
  assert (TS : (ujp s = false /\ URnd s) \/ (ujp s = true /\ exists e, UJn s e) -> utsum s' < utsum s).
  { intros D. unfold utsum. rewrite NT, JP. apply (sum_lt _ _ _ i I).
    - destruct (upcs s i) as [| | | | | |pk] eqn:PC.
      + destruct X as [-> X]. assert (C : (if ujp s then false else ucounted s i) = false); [|rewrite C; cbn; lia].
        destruct D as [[-> R]|[-> _]]; [|reflexivity]. pose proof (ur_good _ R i I) as GD. unfold good_u in GD. rewrite PC in GD.
        destruct GD as [[Y _]|[_ Y]]; [exact Y|]. rewrite Y, wrap_same in X. discriminate.
      + destruct X as [->| ->]; cbn; lia.
      + rewrite X. destruct b; cbn; lia.
      + destruct X as [-> X]. rewrite X. destruct D as [[-> R]|[-> (e & J)]]; [cbn; lia|]. destruct J as (_ & _ & J). specialize (J i I). rewrite PC in J. destruct J.
      + rewrite X. cbn. lia.
      + rewrite X. cbn. lia.
      + destruct X.
    - intros j N. destruct (O j N) as [-> ->]. reflexivity. }
  destruct (umain s) as [| | | | | | |e|k e|] eqn:M; try discriminate.
  - left. apply QS, P.
  - right. apply Nat.add_lt_mono_l. apply TS. left. unfold ujp. rewrite M. auto.
  - left. apply QS, P.
  - left. apply QS, P.
  - right. apply Nat.add_lt_mono_l. apply TS. right. unfold ujp. rewrite M. split; [reflexivity|]. exists e. apply P.
Qed.

Lemma umstep_measure s a s' : UInv s -> u_waits s = true -> umstep a s = Some s' -> s' = s \/ umeasure s' < umeasure s.
Proof.
  intros [G P] W E. unfold u_waits in W. unfold UPhase in P. unfold umstep in E.
  destruct (umain s) as [| | | | | | |e|i e|] eqn:MN; try discriminate; destruct a; try (injection E as <-; now left).
  - right. injection E as <-. unfold umeasure. rewrite MN. cbn. lia.
  - destruct (uall s _); injection E as <-; [right|now left]. unfold umeasure. rewrite MN. cbn. lia.
  - right. unfold assert_then in E. destruct (uall s _); [|discriminate]. injection E as <-. unfold umeasure. rewrite MN. cbn. destruct (upoisoned s); lia.
  - right. injection E as <-. unfold umeasure. rewrite MN. cbn [umain uset_main unt uset_gen].
    pose proof (utsum_le (uset_main (UJoined 0 e) (uset_gen (wrap32 (gen s + 1)) s))) as T. cbn [unt uset_main uset_gen] in T. lia.
  - destruct P as (J & L & _). destruct (Nat.ltb_spec i (unt s)) as [I|I].
    + destruct (upcs s i); try (injection E as <-; now left). right. unfold assert_then in E. destruct (negb _); [|discriminate]. injection E as <-.
      unfold umeasure. rewrite MN. cbn [umain unt uset_main]; unfold utsum, ujp; cbn [umain unt upcs ucounted uset_main]; rewrite MN; lia.
    + right. injection E as <-. unfold umeasure. rewrite MN. cbn. lia.
Qed.

Lemma u_busy_run_bound s n s' : u_busy_run s n s' -> UInv s -> n <= umeasure s.
Proof.
  intros H. induction H as [s|s o s1 n s2 W E N H IH]; intros IV; [lia|].
  destruct (ustep_inv s o IV) as (s1' & E1 & I1 & _). rewrite E in E1. injection E1 as <-.
  assert (X : s1 = s \/ umeasure s1 < umeasure s).
  { destruct o as [a|i b]; cbn [ustep] in E; [eapply umstep_measure; eauto|].
    destruct (Nat.ltb_spec i (unt s)) as [I|I]; [eapply utstep_measure; eauto|injection E as <-; now left]. }
  destruct X as [X|X]; [contradiction|]. specialize (IH I1). lia.
Qed.

Lemma u_terminates threads ops s n s' : usteps (upool_new threads) ops = Some s -> u_busy_run s n s' -> n <= 7 * threads + 3.
Proof.
  intros E B. destruct (u_reached _ _ _ E) as (I & NT). pose proof (u_busy_run_bound _ _ _ B I) as X. pose proof (utsum_le s) as T.
  unfold umeasure in X. destruct (umain s); lia.
Qed.

Lemma u_progresses threads ops s : usteps (upool_new threads) ops = Some s -> u_waits s = true -> exists o s', ustep s o = Some s' /\ s' <> s.
Proof.
  intros RE W. destruct (u_reached _ _ _ RE) as (IV & _). pose proof IV as [G P]. unfold UPhase in P. unfold u_waits in W.
  assert (MG : forall s', umstep AGo s = Some s' -> umain s' <> umain s -> exists o s', ustep s o = Some s' /\ s' <> s).
  { intros s' E N. exists (Main AGo), s'. split; [exact E|]. congruence. }
  assert (TG : forall i s', i < unt s -> utstep i false s = Some s' -> upcs s' i <> upcs s i -> exists o s', ustep s o = Some s' /\ s' <> s).
  { intros i s' I E N. exists (Thread i false), s'. cbn [ustep]. apply Nat.ltb_lt in I. rewrite I. split; [exact E|]. congruence. }
  destruct (umstep_inv s AGo IV) as (s1 & E1 & _).
  destruct (umain s) as [| | | | | | |e|i e|] eqn:MN; try discriminate.
  - apply (MG s1 E1). unfold umstep in E1. rewrite MN in E1. injection E1 as <-. discriminate.
  - destruct (uall s (fun i => negb (ulive s i) || ucounted s i)) eqn:A.
    + apply (MG s1 E1). unfold umstep in E1. rewrite MN, A in E1. injection E1 as <-. discriminate.
    + assert (EX : exists i, i < unt s /\ negb (ulive s i) || ucounted s i = false).
      { unfold uall in A. clear - A. assert (K : forall l, forallb (fun i => negb (ulive s i) || ucounted s i) l = false -> exists i, In i l /\ negb (ulive s i) || ucounted s i = false).
        { induction l as [|a l IH]; [discriminate|]. cbn. destruct (negb (ulive s a) || ucounted s a) eqn:B; [|exists a; auto].
          intros X. destruct (IH X) as (i & I1 & I2). eauto. }
        destruct (K _ A) as (i & I1 & I2). apply in_seq in I1. exists i. split; [lia|exact I2]. }
      destruct EX as (i & I & NC). apply Bool.orb_false_iff in NC. destruct NC as [LV CN]. rewrite (u_live s G i), Bool.negb_involutive in LV.
      destruct (utstep_round s i false G P I) as (s' & E & _). apply (TG i s' I E).
      pose proof (ur_good _ P i I) as GD. unfold good_u in GD. unfold utstep in E.
      destruct (upcs s i) as [| | | | | |pk] eqn:PC; try discriminate.
      * destruct GD as [[_ NX]|[Y _]]; [|congruence]. rewrite NX, wrap_next in E by apply u_seen, G. injection E as <-. cbn. rewrite fupd_same. discriminate.
      * injection E as <-. destruct (utask s); cbn; rewrite fupd_same; discriminate.
      * injection E as <-. cbn. rewrite fupd_same. discriminate.
      * destruct (negb _); [|discriminate]. injection E as <-. cbn. rewrite fupd_same. discriminate.
      * injection E as <-. cbn. rewrite fupd_same. discriminate.
      * injection E as <-. cbn. rewrite fupd_same. discriminate.
  - apply (MG s1 E1). unfold umstep in E1. rewrite MN in E1. unfold assert_then in E1. destruct (uall s _); [|discriminate]. injection E1 as <-. cbn. destruct (upoisoned s); discriminate.
  - apply (MG s1 E1). unfold umstep in E1. rewrite MN in E1. injection E1 as <-. discriminate.
  - destruct P as (J & L & _). destruct (Nat.ltb_spec i (unt s)) as [I|I].
    + destruct (upcs s i) as [| | | | | |pk] eqn:PC;
        try (pose proof J as (_ & _ & ST); specialize (ST i I); rewrite PC in ST; destruct ST; fail).
      * destruct (utstep_join s e i false G J I) as (s' & E & _). apply (TG i s' I E). unfold utstep in E. rewrite PC in E.
        destruct J as (_ & _ & ST). specialize (ST i I). rewrite PC in ST. rewrite ST, wrap_next in E by apply u_seen, G. injection E as <-. cbn. rewrite fupd_same, PC. discriminate.
      * destruct (utstep_join s e i false G J I) as (s' & E & _). apply (TG i s' I E). unfold utstep in E. rewrite PC in E. injection E as <-.
        destruct (utask s); cbn; rewrite fupd_same, PC; discriminate.
      * apply (MG s1 E1). unfold umstep in E1. rewrite MN in E1. apply Nat.ltb_lt in I. rewrite I, PC in E1.
        unfold assert_then in E1. destruct (negb _); [|discriminate]. injection E1 as <-. cbn. intros X. injection X. lia.
    + apply (MG s1 E1). unfold umstep in E1. rewrite MN in E1. apply Nat.ltb_ge in I. rewrite I in E1. injection E1 as <-. discriminate.
Qed.

Lemma u_joined threads ops s : usteps (upool_new threads) ops = Some s -> umain s = UEnd -> forall i, i < threads -> exists b, upcs s i = UGone b.
Proof.
  intros E M i I. destruct (u_reached _ _ _ E) as ([G P] & NT). unfold UPhase in P. rewrite M in P. destruct P as [_ P].
  specialize (P i ltac:(lia)). destruct (upcs s i); try discriminate. eauto.
Qed.
