(** Consequences of the invariant of the bounded pool. *)
From Verif Require Import Base PoolModel PoolSpec PoolProofs.
From Coq Require Import Lia Arith.
Local Open Scope nat_scope.

Definition reached (cpus threads : nat) (s : pool) : Prop := exists ops, steps (pool_new cpus threads) ops = Some s.

Lemma reached_inv cpus threads ops s : 0 < cpus -> 0 < threads -> steps (pool_new cpus threads) ops = Some s ->
  Inv s /\ np s = Nat.min cpus threads /\ nt s = threads.
Proof.
  intros C T E. destruct (steps_inv ops _ (pool_new_inv _ _ C T)) as (s' & E' & I & A & B). rewrite E in E'. injection E' as <-. auto.
Qed.

Lemma no_panic cpus threads ops : 0 < cpus -> 0 < threads -> exists s, steps (pool_new cpus threads) ops = Some s.
Proof. intros C T. destruct (steps_inv ops _ (pool_new_inv _ _ C T)) as (s' & E' & _). eauto. Qed.

Lemma once_past cpus threads ops s : 0 < cpus -> 0 < threads -> steps (pool_new cpus threads) ops = Some s ->
  forall l, In l (past s) -> Permutation (map fst l) (seq 0 threads) /\ forall i p, In (i, p) l -> p < Nat.min cpus threads.
Proof.
  intros C T E l L. destruct (reached_inv _ _ _ _ C T E) as ([G _] & A & B). pose proof (i_past s G) as P.
  rewrite Forall_forall in P. destruct (P l L) as [P1 P2]. rewrite B in P1. split; [exact P1|].
  intros i p I. rewrite Forall_forall in P2. specialize (P2 _ I). cbn in P2. lia.
Qed.

Lemma busy_round s i p : Inv s -> busy s i = Some p -> exists m, Rnd s m /\ in_task s = true /\ i < nt s.
Proof.
  intros [G P] B. unfold busy in B. destruct (pcs s i) as [| |p0|p0|p0 k r|p0 q w r| | | |pk] eqn:PC; try discriminate.
  assert (I : i < nt s). { destruct (Nat.lt_ge_cases i (nt s)) as [L|L]; [exact L|]. destruct (i_out s G i L). congruence. }
  assert (NQ : ~ Quiet s). { intros Q. destruct (Q i I) as [[[A _]|A] _]; congruence. }
  assert (NJ : forall e, ~ Join s e). { intros e (_ & ST & _). specialize (ST i). rewrite PC in ST. exact ST. }
  unfold Phase in P. unfold in_task. destruct (main s); try (exfalso; apply NQ; apply P); try (exfalso; eapply NJ; apply P).
  - exists p1. split; [apply P|auto].
  - exists p1. auto.
  - exists (np s). auto.
  - exists (np s). auto.
  - exfalso. destruct P as ((e & J) & _). exact (NJ e J).
Qed.

Lemma task_round s : Inv s -> in_task s = true -> exists m, Rnd s m.
Proof.
  intros [G P] I. unfold in_task in I. unfold Phase in P. destruct (main s); try discriminate.
  - exists p. apply P.
  - exists p. exact P.
  - exists (np s). exact P.
  - exists (np s). exact P.
Qed.

Lemma cur_once cpus threads ops s : 0 < cpus -> 0 < threads -> steps (pool_new cpus threads) ops = Some s -> in_task s = true ->
  NoDup (map fst (cur s)) /\ forall i p, In (i, p) (cur s) -> i < threads /\ p < Nat.min cpus threads.
Proof.
  intros C T E I. destruct (reached_inv _ _ _ _ C T E) as (IV & A & B). destruct (task_round s IV I) as (m & R).
  split; [exact (r_nd _ _ R)|]. intros i p IN. split.
  - apply (in_map fst) in IN. apply (r_cur _ _ R) in IN. cbn in IN. lia.
  - pose proof (r_proc _ _ R) as F. rewrite Forall_forall in F. specialize (F _ IN). cbn in F. lia.
Qed.

Lemma parallel cpus threads ops s : 0 < cpus -> 0 < threads -> steps (pool_new cpus threads) ops = Some s ->
  (forall i p, busy s i = Some p -> i < threads /\ p < Nat.min cpus threads) /\
  (forall i j p, busy s i = Some p -> busy s j = Some p -> i = j) /\
  length (busy_threads s) <= Nat.min cpus threads.
Proof.
  intros C T E. destruct (reached_inv _ _ _ _ C T E) as (I & A & B).
  assert (TOK : forall i p, busy s i = Some p -> tok s i = Some p).
  { intros i p H. unfold busy in H. unfold tok. destruct (pcs s i); congruence. }
  assert (X1 : forall i p, busy s i = Some p -> i < threads /\ p < Nat.min cpus threads).
  { intros i p H. destruct (busy_round _ _ _ I H) as (m & R & _ & L). pose proof (r_tok _ _ R _ _ (TOK _ _ H)). pose proof (r_m _ _ R). lia. }
  assert (X2 : forall i j p, busy s i = Some p -> busy s j = Some p -> i = j).
  { intros i j p H1 H2. destruct (busy_round _ _ _ I H1) as (m & R & _). eapply (r_uniq _ _ R); eauto. }
  split; [exact X1|]. split; [exact X2|].
  set (f := fun i => match busy s i with Some p => p | None => 0 end).
  rewrite <- (map_length f). rewrite <- (seq_length (Nat.min cpus threads) 0).
  assert (IB : forall i, In i (busy_threads s) -> exists p, busy s i = Some p).
  { intros i H. apply filter_In in H. destruct H as [_ H]. destruct (busy s i); [eauto|discriminate]. }
  apply NoDup_incl_length.
  - assert (ND : NoDup (busy_threads s)) by apply NoDup_filter, seq_NoDup. revert ND IB. induction (busy_threads s) as [|a l IH]; intros ND IB; cbn; [constructor|].
    inversion ND; subst. constructor; [|apply IH; [assumption|intros; apply IB; now right]].
    intros H. apply in_map_iff in H. destruct H as (x & E1 & E2). destruct (IB x (or_intror E2)) as (p & P1). destruct (IB a (or_introl eq_refl)) as (p' & P2).
    unfold f in E1. rewrite P1, P2 in E1. subst p'. assert (x = a) by eauto. subst x. contradiction.
  - intros p H. apply in_map_iff in H. destruct H as (i & E1 & E2). destruct (IB i E2) as (p' & P1). unfold f in E1. rewrite P1 in E1. subst p'.
    apply in_seq. apply X1 in P1. lia.
Qed.

Lemma scope_borrow cpus threads ops s i p : 0 < cpus -> 0 < threads -> steps (pool_new cpus threads) ops = Some s ->
  busy s i = Some p -> in_task s = true.
Proof. intros C T E B. destruct (reached_inv _ _ _ _ C T E) as (I & _). destruct (busy_round _ _ _ I B) as (m & _ & H & _). exact H. Qed.

Lemma tstep_main s i b s' : tstep i b s = Some s' -> main s' = main s.
Proof.
  unfold tstep. intros E. destruct (pcs s i) as [| |p|p|p k r|p q w r| | | |pk].
  - destruct (flag s i); injection E as <-; reflexivity.
  - injection E as <-. reflexivity.
  - injection E as <-. reflexivity.
  - injection E as <-. reflexivity.
  - destruct (Nat.ltb k (np s)); [|destruct r; injection E as <-; reflexivity].
    unfold pop in E. destruct (ready s _); injection E as <-; reflexivity.
  - unfold publish in E. destruct (Nat.ltb _ _); [|discriminate]. destruct (Nat.eqb q _); [|discriminate]. cbn in E.
    destruct r; injection E as <-; reflexivity.
  - destruct (negb _); [|discriminate]. injection E as <-. reflexivity.
  - injection E as <-. reflexivity.
  - injection E as <-. reflexivity.
  - injection E as <-. reflexivity.
Qed.

Lemma scope_leaves cpus threads ops s o s' : 0 < cpus -> 0 < threads -> steps (pool_new cpus threads) ops = Some s ->
  step s o = Some s' -> in_task s = true -> in_task s' = false ->
  Permutation (map fst (cur s')) (seq 0 threads) /\ forall i, busy s' i = None.
Proof.
  intros C T E ST I1 I2. destruct (reached_inv _ _ _ _ C T E) as (I & _ & B).
  destruct (step_inv s o I) as (s1 & E1 & I' & _ & B'). rewrite ST in E1. injection E1 as <-.
  split.
  - unfold in_task in I1. destruct o as [a|i b].
    + cbn [step] in ST. destruct I' as [_ P']. unfold mstep in ST.
      assert (M : main s' = MClear).
      { destruct (main s) as [| |p k|p q w| | | | | |i e|i e|] eqn:MN; try discriminate; destruct a; try (injection ST as <-; unfold in_task in I2; rewrite MN in I2; discriminate).
        - destruct (Nat.ltb p (np s)); [destruct (Nat.ltb k (np s)); [unfold pop in ST; destruct (ready s _)|]|]; injection ST as <-; discriminate.
        - unfold publish in ST. destruct (Nat.ltb _ _); [|discriminate]. destruct (Nat.eqb q _); [|discriminate]. injection ST as <-. discriminate.
        - destruct I as [_ P]. unfold Phase in P. rewrite MN in P. rewrite (r_task _ _ P) in ST. injection ST as <-. discriminate.
        - destruct (all s _); injection ST as <-; [reflexivity|]. unfold in_task in I2. rewrite MN in I2. discriminate. }
      unfold Phase in P'. rewrite M in P'. destruct P' as (_ & [_ [O _]] & _). now rewrite B', B in O.
    + cbn [step] in ST. destruct (Nat.ltb i (nt s)).
      * apply tstep_main in ST. unfold in_task in I2. rewrite ST in I2. congruence.
      * injection ST as <-. unfold in_task in I2. congruence.
  - intros i. destruct (busy s' i) as [p|] eqn:BZ; [|reflexivity]. destruct (busy_round _ _ _ I' BZ) as (_ & _ & X & _). congruence.
Qed.

(** * Panics *)

Definition bad (x : tpc) : bool :=
  match x with TNext _ _ Panicked | TGot _ _ _ Panicked | TPoison | TDrop | TGone true => true | _ => false end.

Lemma mstep_pcs a s s' : mstep a s = Some s' -> pcs s' = pcs s.
Proof.
  unfold mstep, publish, pop, assert_then, obind. intros E.
  repeat match type of E with context [match ?y with _ => _ end] =>
    lazymatch y with context [match _ with _ => _ end] => fail | _ => destruct y; try discriminate E end end;
  try (destruct (forallb _ _) in E; [|discriminate E]); try (injection E as <-; reflexivity).
Qed.

Lemma tstep_cases s i b s' : tstep i b s = Some s' ->
  s' = s /\ (pcs s i = TPark /\ flag s i = false \/ gone (pcs s i) = true) \/
  (forall j, j <> i -> pcs s' j = pcs s j) /\ (poisoned s' = poisoned s \/ pcs s i = TPoison) /\
  match pcs s i with
  | TPark => flag s i = true /\ pcs s' i = TLoad
  | TLoad => exists p, pcs s' i = TRun p
  | TRun p => pcs s' i = TBusy p \/ pcs s' i = TNext p 0 Stopped
  | TBusy p => pcs s' i = TNext p 0 (if b then Panicked else Returned)
  | TNext p k r => k < np s /\ (pcs s' i = TNext p (S k) r \/ exists q w, pcs s' i = TGot p q w r) \/
                   pcs s' i = match r with Returned => TCount | Panicked => TPoison | Stopped => TGone false end
  | TGot p q w r => pcs s' i = match r with Returned => TCount | Panicked => TPoison | Stopped => TGone false end
  | TCount => pcs s' i = TPark /\ counted s' i = true
  | TPoison => pcs s' i = TDrop
  | TDrop => pcs s' i = TGone true
  | TGone _ => False
  end.
Proof.
  unfold tstep. intros E.
  assert (K : forall x j, j <> i -> fupd i x (pcs s) j = pcs s j) by (intros x j N; now apply fupd_other).
  destruct (pcs s i) as [| |p|p|p k r|p q w r| | | |pk] eqn:PC.
  - destruct (flag s i); injection E as <-; [right|left; auto]. cbn. rewrite fupd_same. auto.
  - injection E as <-. right. cbn. rewrite fupd_same. split; [auto|]. split; [auto|]. eauto.
  - injection E as <-. right. cbn. rewrite fupd_same. split; [auto|]. split; [auto|]. destruct (task s); auto.
  - injection E as <-. right. cbn. rewrite fupd_same. auto.
  - right. destruct (Nat.ltb_spec k (np s)) as [L|L].
    + unfold pop in E. destruct (ready s _) as [|w t]; injection E as <-; cbn [pcs poisoned set_pc set_ready]; rewrite fupd_same; split; auto; split; auto; left; split; eauto.
    + destruct r; injection E as <-; cbn; rewrite fupd_same; auto.
  - right. unfold publish in E. destruct (Nat.ltb _ _); [|discriminate]. destruct (Nat.eqb q _); [|discriminate]. cbn in E.
    destruct r; injection E as <-; cbn; rewrite fupd_same; auto.
  - right. destruct (negb _); [|discriminate]. injection E as <-. cbn. rewrite !fupd_same. auto.
  - right. injection E as <-. cbn. rewrite !fupd_same. auto.
  - right. injection E as <-. cbn. rewrite !fupd_same. auto.
  - injection E as <-. left. cbn. auto.
Qed.

Lemma step_bad s o s' j : step s o = Some s' -> bad (pcs s j) = true -> bad (pcs s' j) = true.
Proof.
  intros E B. destruct o as [a|i b]; cbn [step] in E; [now rewrite (mstep_pcs _ _ _ E)|].
  destruct (Nat.ltb i (nt s)); [|injection E as <-; exact B].
  destruct (tstep_cases _ _ _ _ E) as [[-> _]|(O & _ & X)]; [exact B|].
  destruct (Nat.eq_dec j i) as [->|N]; [|now rewrite O].
  destruct (pcs s i) as [| |p|p|p k r|p q w r| | | |pk]; try discriminate.
  - destruct r; try discriminate. destruct X as [(_ & [->|(q & w & ->)])| ->]; reflexivity.
  - destruct r; try discriminate. rewrite X. reflexivity.
  - now rewrite X.
  - now rewrite X.
  - destruct X.
Qed.

Lemma steps_bad ops : forall s s' j, steps s ops = Some s' -> bad (pcs s j) = true -> bad (pcs s' j) = true.
Proof.
  induction ops as [|o r IH]; intros s s' j E B; [injection E as <-; exact B|]. cbn [steps] in E.
  destruct (step s o) as [s1|] eqn:ST; [|discriminate]. cbn [obind] in E. eapply IH; [exact E|]. eapply step_bad; eauto.
Qed.

Lemma steps_app l1 : forall l2 s, steps s (l1 ++ l2) = obind (steps s l1) (fun s1 => steps s1 l2).
Proof.
  induction l1 as [|o r IH]; intros l2 s; [reflexivity|]. cbn [steps app]. destruct (step s o) as [s1|]; [|reflexivity]. cbn [obind]. apply IH.
Qed.

Lemma quiet_not_bad s j : Glob s -> Quiet s -> poisoned s = false -> bad (pcs s j) = false.
Proof.
  intros G Q PO. destruct (Nat.lt_ge_cases j (nt s)) as [L|L].
  - destruct (Q j L) as [[[A _]|A] _]; [now rewrite A|]. pose proof (i_poison s G j ltac:(auto)). congruence.
  - destruct (i_out s G j L) as [A _]. now rewrite A.
Qed.

Lemma panic_stays cpus threads ops s i p ops' s' : 0 < cpus -> 0 < threads -> steps (pool_new cpus threads) ops = Some s ->
  busy s i = Some p -> steps s (Thread i true :: ops') = Some s' -> main s' <> MIdle /\ main s' <> MScope.
Proof.
  intros C T E B E'. destruct (reached_inv _ _ _ _ C T E) as (I & _).
  destruct (busy_round _ _ _ I B) as (_ & _ & _ & L).
  assert (I' : Inv s').
  { apply (reached_inv cpus threads (ops ++ Thread i true :: ops')); auto. rewrite steps_app, E. exact E'. }
  assert (BD : bad (pcs s' i) = true).
  { cbn [steps step] in E'. apply Nat.ltb_lt in L. rewrite L in E'. unfold tstep in E'. unfold busy in B.
    destruct (pcs s i) as [| |p0|p0|p0 k r|p0 q w r| | | |pk]; try discriminate. cbn [obind] in E'. eapply steps_bad; [exact E'|].
    cbn. now rewrite fupd_same. }
  destruct I' as [G P]. unfold Phase in P. split; intros M; rewrite M in P; destruct P as (Q & _ & PO); now rewrite (quiet_not_bad _ _ G Q PO) in BD.
Qed.

Lemma calm_step s o s' : (match o with Thread _ b => b = false | _ => True end) ->
  (poisoned s = false /\ (forall i, bad (pcs s i) = false) /\ main s <> MPanicked) -> step s o = Some s' ->
  poisoned s' = false /\ (forall i, bad (pcs s' i) = false) /\ main s' <> MPanicked.
Proof.
  intros CO (PO & BD & MP) E. destruct o as [a|i b]; cbn [step] in E.
  - rewrite (mstep_pcs _ _ _ E). assert (K : poisoned s' = false /\ main s' <> MPanicked); [|destruct K; auto].
    unfold mstep, publish, pop, assert_then, obind in E. rewrite PO in E.
    repeat match type of E with context [match ?y with _ => _ end] =>
      lazymatch y with context [match _ with _ => _ end] => fail | _ => destruct y eqn:?; try discriminate E end end;
    try (destruct (forallb _ _) in E; [|discriminate E]); try (injection E as <-; split; [first [exact PO|reflexivity]|cbn; congruence]); congruence.
  - subst b. destruct (Nat.ltb i (nt s)); [|injection E as <-; auto].
    pose proof (tstep_main _ _ _ _ E) as MN. destruct (tstep_cases _ _ _ _ E) as [[-> _]|(O & PS & X)]; [auto|].
    split; [|split].
    + destruct PS as [->|Y]; [exact PO|]. specialize (BD i). rewrite Y in BD. discriminate.
    + intros j. destruct (Nat.eq_dec j i) as [->|N]; [|now rewrite O]. specialize (BD i).
      destruct (pcs s i) as [| |p|p|p k r|p q w r| | | |pk]; try discriminate.
      * destruct X as [_ ->]. reflexivity.
      * destruct X as [p ->]. reflexivity.
      * destruct X as [->| ->]; reflexivity.
      * rewrite X. reflexivity.
      * destruct r; try discriminate; destruct X as [(_ & [->|(q & w & ->)])| ->]; reflexivity.
      * destruct r; try discriminate; rewrite X; reflexivity.
      * destruct X as [-> _]. reflexivity.
      * destruct X.
    + now rewrite MN.
Qed.

Lemma calm_steps ops : forall s s', calm ops ->
  (poisoned s = false /\ (forall i, bad (pcs s i) = false) /\ main s <> MPanicked) -> steps s ops = Some s' ->
  poisoned s' = false /\ (forall i, bad (pcs s' i) = false) /\ main s' <> MPanicked.
Proof.
  induction ops as [|o r IH]; intros s s' CO H E; [injection E as <-; exact H|]. cbn [steps] in E.
  destruct (step s o) as [s1|] eqn:ST; [|discriminate]. cbn [obind] in E. inversion CO; subst.
  apply (IH s1 s'); auto. eapply calm_step; eauto.
Qed.

Lemma no_false_panic cpus threads ops s : calm ops -> steps (pool_new cpus threads) ops = Some s ->
  main s <> MPanicked /\ forall i, pcs s i <> TGone true.
Proof.
  intros CO E. destruct (calm_steps ops (pool_new cpus threads) s CO) as (A & B & M).
  - cbn. split; [reflexivity|]. split; [reflexivity|discriminate].
  - exact E.
  - split; [exact M|]. intros i X. specialize (B i). rewrite X in B. discriminate.
Qed.

(** * Progress and termination *)

Definition wr (n : nat) (cnt : bool) (x : tpc) : nat :=
  match x with
  | TPark => if cnt then 0 else n + 10
  | TLoad => n + 9
  | TRun _ => n + 8
  | TBusy _ => n + 7
  | TNext _ k _ => n + 6 - k
  | TGot _ _ _ _ => 5
  | TCount | TPoison => 3
  | TDrop => 2
  | TGone _ => 0
  end.

Fixpoint sum (f : nat -> nat) (n : nat) : nat := match n with 0 => 0 | S m => sum f m + f m end.

Lemma sum_ext f g n : (forall i, i < n -> f i = g i) -> sum f n = sum g n.
Proof. induction n as [|n IH]; intros H; [reflexivity|]. cbn. rewrite IH, H; auto. Qed.

Lemma sum_lt f g n i : i < n -> f i < g i -> (forall j, j <> i -> f j = g j) -> sum f n < sum g n.
Proof.
  induction n as [|n IH]; intros I L H; [lia|]. cbn. destruct (Nat.eq_dec i n) as [->|N].
  - rewrite (sum_ext f g n); [lia|]. intros j J. apply H. lia.
  - rewrite (H n) by congruence. specialize (IH ltac:(lia) L H). lia.
Qed.

Lemma sum_le f n c : (forall i, i < n -> f i <= c) -> sum f n <= n * c.
Proof. induction n as [|n IH]; intros H; [cbn; lia|]. cbn. specialize (H n ltac:(lia)) as X. assert (sum f n <= n * c) by (apply IH; auto). lia. Qed.

Definition join_phase (s : pool) : bool := match main s with MJoin _ _ | MJoined _ _ => true | _ => false end.
Definition tsum (s : pool) : nat :=
  sum (fun i => wr (np s) (if join_phase s then false else counted s i) (pcs s i)) (nt s).
Definition measure (s : pool) : nat :=
  match main s with
  | MStart p k => (np s - p) * (np s + 4) + (np s - k) + 6 + tsum s
  | MGot p _ _ => (np s - p) * (np s + 4) + 5 + tsum s
  | MWait => 3 + tsum s
  | MClear => 2
  | MReset => 1
  | MJoin i _ => 2 * nt s + 3 - i + tsum s
  | MJoined i _ => nt s + 1 - i + tsum s
  | _ => 0
  end.

Lemma tstep_counted s i b s' j : tstep i b s = Some s' -> j <> i -> counted s' j = counted s j.
Proof.
  unfold tstep. intros E N. destruct (pcs s i) as [| |p|p|p k r|p q w r| | | |pk].
  - destruct (flag s i); injection E as <-; reflexivity.
  - injection E as <-. reflexivity.
  - injection E as <-. reflexivity.
  - injection E as <-. reflexivity.
  - destruct (Nat.ltb k (np s)); [|destruct r; injection E as <-; reflexivity].
    unfold pop in E. destruct (ready s _); injection E as <-; reflexivity.
  - unfold publish in E. destruct (Nat.ltb _ _); [|discriminate]. destruct (Nat.eqb q _); [|discriminate]. cbn in E.
    destruct r; injection E as <-; reflexivity.
  - destruct (negb _); [|discriminate]. injection E as <-. cbn. now apply fupd_other.
  - injection E as <-. reflexivity.
  - injection E as <-. reflexivity.
  - injection E as <-. reflexivity.
Qed.

Definition idle (s : pool) (i : nat) : Prop := pcs s i = TPark /\ flag s i = false \/ gone (pcs s i) = true.

(** A step of a thread that is not idle makes progress. *)
Lemma tstep_measure s i b s' : Inv s -> waits s = true -> i < nt s -> tstep i b s = Some s' ->
  (idle s i -> s' = s) /\ (~ idle s i -> measure s' < measure s).
Proof.
  intros IV W I E.
  split.
  { intros [[A B]|A]; unfold tstep in E; [rewrite A, B in E; now injection E as <-|].
    destruct (pcs s i); try discriminate. now injection E as <-. }
  intros NI. pose proof (tstep_main _ _ _ _ E) as MN.
  destruct (step_inv s (Thread i b) IV) as (s1 & E1 & _ & NP & NT). cbn [step] in E1. apply Nat.ltb_lt in I. rewrite I in E1. apply Nat.ltb_lt in I.
  rewrite E in E1. injection E1 as <-.
  assert (JP : join_phase s' = join_phase s) by (unfold join_phase; now rewrite MN).
  assert (TS : waits s = true -> main s <> MClear -> main s <> MReset -> tsum s' < tsum s).
  { intros _ N1 N2. unfold tsum. rewrite NT, NP, JP. apply (sum_lt _ _ _ i I).
    - destruct (tstep_cases _ _ _ _ E) as [[-> X]|(O & _ & X)]; [contradiction|].
      assert (K : forall p k r, pcs s i = TNext p k r -> k <= np s).
      { intros p k r PC. destruct IV as [G P]. unfold Phase in P. unfold waits in W. destruct (main s) eqn:M; try discriminate; try congruence.
        - destruct P as [R _]. apply (r_scan _ _ R _ _ _ _ PC).
        - apply (r_scan _ _ P _ _ _ _ PC).
        - apply (r_scan _ _ P _ _ _ _ PC).
        - destruct P as ((_ & _ & _ & J) & _). eauto.
        - destruct P as ((_ & _ & _ & J) & _). eauto. }
      assert (CN : pcs s i = TPark -> flag s i = true -> (if join_phase s then false else counted s i) = false).
      { intros PC FL. unfold join_phase. destruct IV as [G P]. unfold Phase in P. unfold waits in W.
        assert (RR : forall m, Rnd s m -> counted s i = false).
        { intros m R. assert (STD : started s i \/ ~ started s i).
          { unfold started. destruct (in_dec Nat.eq_dec i (fin s (pidx s i))); auto. }
          destruct STD as [ST|ST].
          - pose proof (r_good _ _ R i I ST) as GD. unfold good in GD. rewrite PC, FL in GD. destruct (counted s i); [discriminate|reflexivity].
          - now destruct (r_new _ _ R i I ST) as (_ & _ & ?). }
        destruct (main s) eqn:M; try discriminate; try congruence; [apply (RR p)|apply (RR p)|apply (RR (np s))]; try exact P. apply P. }
      destruct (pcs s i) as [| |p|p|p k r|p q w r| | | |pk] eqn:PC.
      + destruct X as [FL ->]. rewrite (CN eq_refl FL). cbn. lia.
      + destruct X as [p ->]. cbn. lia.
      + destruct X as [->| ->]; cbn; lia.
      + rewrite X. cbn. lia.
      + specialize (K _ _ _ eq_refl). destruct X as [(L & [->|(q & w & ->)])| ->]; [cbn; lia|cbn; lia|destruct r; cbn; lia].
      + rewrite X. destruct r; cbn; lia.
      + destruct X as [-> CC]. rewrite CC. assert (JF : join_phase s = false); [|rewrite JF; cbn; lia].
        unfold join_phase. destruct (main s) eqn:M; try reflexivity.
        * destruct IV as [_ P]. unfold Phase in P. rewrite M in P. destruct P as ((_ & J & _) & _). specialize (J i). rewrite PC in J. destruct J.
        * destruct IV as [_ P]. unfold Phase in P. rewrite M in P. destruct P as ((_ & J & _) & _). specialize (J i). rewrite PC in J. destruct J.
      + rewrite X. cbn. lia.
      + rewrite X. cbn. lia.
      + destruct X.
    - intros j N. destruct (tstep_cases _ _ _ _ E) as [[-> X]|(O & _ & X)]; [reflexivity|]. rewrite (O j N), (tstep_counted _ _ _ _ _ E N). reflexivity. }
  assert (NQ : Quiet s -> False).
  { intros Q. apply NI. destruct (Q i I) as [[A|A] _]; [now left|right; now rewrite A]. }
  specialize (TS W). unfold measure. rewrite MN, NP, NT. destruct IV as [G P]. unfold Phase in P. unfold waits in W.
  destruct (main s) eqn:M; try discriminate.
  - specialize (TS ltac:(discriminate) ltac:(discriminate)). lia.
  - specialize (TS ltac:(discriminate) ltac:(discriminate)). lia.
  - specialize (TS ltac:(discriminate) ltac:(discriminate)). lia.
  - exfalso. apply NQ, P.
  - exfalso. apply NQ, P.
  - specialize (TS ltac:(discriminate) ltac:(discriminate)). lia.
  - specialize (TS ltac:(discriminate) ltac:(discriminate)). lia.
Qed.

Lemma mstep_measure s a s' : Inv s -> waits s = true -> mstep a s = Some s' -> s' = s \/ measure s' < measure s.
Proof.
  intros [G P] W E. unfold waits in W. unfold Phase in P. unfold mstep in E.
  destruct (main s) as [| |p k|p q w| | | | | |i e|i e|] eqn:MN; try discriminate; destruct a; try (injection E as <-; now left).
  - right. unfold measure. rewrite MN. destruct P as [R SC]. pose proof (r_m _ _ R) as RM. destruct (Nat.ltb_spec p (np s)) as [L|L].
    + destruct (SC L) as [K _]. destruct (Nat.ltb_spec k (np s)) as [LK|LK].
      * unfold pop in E. destruct (ready s _); injection E as <-; cbn [main np nt set_main set_ready]; unfold tsum, join_phase; cbn [main np nt pcs counted set_main set_ready]; rewrite MN; lia.
      * injection E as <-. cbn [main np nt set_main set_ready]; unfold tsum, join_phase; cbn [main np nt pcs counted set_main set_ready]; rewrite MN.
        replace (np s - p) with (S (np s - S p)) by lia. rewrite Nat.mul_succ_l. lia.
    + injection E as <-. cbn. lia.
  - right. unfold measure. rewrite MN. assert (GE : gotten s None = Some (p, q, w)) by (cbn; now rewrite MN).
    destruct (publish_ok s p q w None G GE) as (PU & _ & PP & _). rewrite PU in E. injection E as <-.
    cbn [main np nt set_main published]; unfold tsum, join_phase; cbn [main np nt pcs counted set_main published]; rewrite MN.
    replace (np s - p) with (S (np s - S p)) by lia. rewrite Nat.mul_succ_l. lia.
  - destruct (all s _); injection E as <-; [right|now left]. unfold measure. rewrite MN. cbn. lia.
  - right. destruct (assert_then _ _) as [x|] eqn:A in E; [|discriminate]. injection E as <-. unfold assert_then in A. destruct (all s _); [|discriminate].
    injection A as <-. unfold measure. rewrite MN. cbn. lia.
  - right. unfold assert_then in E. destruct (all s _); [|discriminate]. destruct (forallb _ _); [|discriminate]. injection E as <-.
    unfold measure. rewrite MN. cbn. destruct (poisoned s); lia.
  - right. unfold measure. rewrite MN. destruct P as (J & L & _). destruct (Nat.ltb_spec i (nt s)) as [I|I]; injection E as <-;
      cbn [main np nt set_main set_flag]; unfold tsum, join_phase; cbn [main np nt pcs counted set_main set_flag]; rewrite MN; lia.
  - destruct P as (J & L & _). destruct (Nat.ltb_spec i (nt s)) as [I|I].
    + destruct (pcs s i); try (injection E as <-; now left). right. unfold assert_then in E. destruct (negb _); [|discriminate]. injection E as <-.
      unfold measure. rewrite MN. cbn [main np nt set_main]; unfold tsum, join_phase; cbn [main np nt pcs counted set_main]; rewrite MN; lia.
    + right. injection E as <-. unfold measure. rewrite MN. cbn. lia.
Qed.

Lemma step_measure s o s' : Inv s -> waits s = true -> step s o = Some s' -> s' = s \/ measure s' < measure s.
Proof.
  intros IV W E. destruct o as [a|i b]; cbn [step] in E; [eapply mstep_measure; eauto|].
  destruct (Nat.ltb_spec i (nt s)) as [I|I]; [|injection E as <-; now left].
  destruct (tstep_measure s i b s' IV W I E) as [A B].
  assert (D : idle s i \/ ~ idle s i).
  { unfold idle. destruct (pcs s i); try (right; intros [[X _]|X]; discriminate); [|left; now right].
    destruct (flag s i); [right; intros [[_ X]|X]; discriminate|left; auto]. }
  destruct D; auto.
Qed.

Lemma measure_bound s : Inv s -> measure s <= (np s + nt s + 1) * (np s + 12).
Proof.
  intros IV.
  assert (TS : tsum s <= nt s * (np s + 10)).
  { unfold tsum. apply sum_le. intros i _. destruct (pcs s i); cbn; try lia. destruct (if join_phase s then false else counted s i); lia. }
  assert (X : (np s + nt s + 1) * (np s + 12) = nt s * (np s + 10) + 2 * nt s + (np s + 1) * (np s + 12)) by lia.
  rewrite X. unfold measure. destruct (main s) as [| |p k|p q w| | | | | |i e|i e|]; try lia.
Qed.

Lemma busy_run_bound s n s' : busy_run s n s' -> Inv s -> n <= measure s.
Proof.
  intros H. induction H as [s|s o s1 n s2 W E N H IH]; intros IV; [lia|].
  destruct (step_inv s o IV) as (s1' & E1 & I1 & _). rewrite E in E1. injection E1 as <-.
  destruct (step_measure s o s1 IV W E) as [X|X]; [contradiction|]. specialize (IH I1). lia.
Qed.

Lemma terminates cpus threads ops s n s' : 0 < cpus -> 0 < threads -> steps (pool_new cpus threads) ops = Some s ->
  busy_run s n s' -> n <= (Nat.min cpus threads + threads + 1) * (Nat.min cpus threads + 12).
Proof.
  intros C T E B. destruct (reached_inv _ _ _ _ C T E) as (I & NP & NT). pose proof (busy_run_bound _ _ _ B I). pose proof (measure_bound s I).
  rewrite NP, NT in *. lia.
Qed.

Lemma go s i : Inv s -> waits s = true -> i < nt s -> ~ idle s i -> exists o s', step s o = Some s' /\ s' <> s.
Proof.
  intros IV W I N. destruct (step_inv s (Thread i false) IV) as (s' & E & _). exists (Thread i false), s'. split; [exact E|].
  cbn [step] in E. apply Nat.ltb_lt in I. rewrite I in E. apply Nat.ltb_lt in I.
  destruct (tstep_measure s i false s' IV W I E) as [_ B]. specialize (B N). intros ->. lia.
Qed.

Lemma progress s : Inv s -> waits s = true -> exists o s', step s o = Some s' /\ s' <> s.
Proof.
  intros IV W. pose proof W as W0. unfold waits in W. pose proof IV as [G P]. unfold Phase in P.
  assert (MG : forall s', mstep AGo s = Some s' -> main s' <> main s -> exists o s', step s o = Some s' /\ s' <> s).
  { intros s' E N. exists (Main AGo), s'. split; [exact E|]. congruence. }
  destruct (mstep_inv s AGo IV) as (s1 & E1 & _).
  destruct (main s) as [| |p k|p q w| | | | | |i e|i e|] eqn:MN; try discriminate.
  - apply (MG s1 E1). unfold mstep in E1. rewrite MN in E1.
    destruct (Nat.ltb p (np s)); [destruct (Nat.ltb k (np s)); [unfold pop in E1; destruct (ready s _)|]|]; injection E1 as <-; cbn; try discriminate;
      intros X; injection X; lia.
  - apply (MG s1 E1). unfold mstep in E1. rewrite MN in E1. unfold publish in E1. destruct (Nat.ltb _ _); [|discriminate]. destruct (Nat.eqb q _); [|discriminate]. injection E1 as <-. discriminate.
  - destruct (all s (fun i => negb (live s i) || counted s i)) eqn:A.
    + apply (MG s1 E1). unfold mstep in E1. rewrite MN, A in E1. injection E1 as <-. discriminate.
    + assert (EX : exists i, i < nt s /\ negb (live s i) || counted s i = false).
      { unfold all in A. clear - A. assert (K : forall l, forallb (fun i => negb (live s i) || counted s i) l = false -> exists i, In i l /\ negb (live s i) || counted s i = false).
        { induction l as [|a l IH]; [discriminate|]. cbn. destruct (negb (live s a) || counted s a) eqn:B; [|exists a; auto].
          intros X. destruct (IH X) as (i & I1 & I2). eauto. }
        destruct (K _ A) as (i & I1 & I2). apply in_seq in I1. exists i. split; [lia|exact I2]. }
      destruct EX as (i & I & NC). apply Bool.orb_false_iff in NC. destruct NC as [LV CN]. rewrite (i_live s G i), Bool.negb_involutive in LV.
      assert (STD : started s i \/ ~ started s i).
      { unfold started. destruct (in_dec Nat.eq_dec i (fin s (pidx s i))); auto. }
      destruct STD as [ST|ST].
      * apply (go s i IV W0 I). intros [[X Y]|X]; [|congruence]. pose proof (r_good _ _ P i I ST) as GD. unfold good in GD. rewrite X, Y, CN in GD. discriminate.
      * destruct (q_all _ _ _ _ _ _ (i_q s G) i I) as [X|[X|(h & a & b & X)]]; [|contradiction|].
        -- destruct (r_dead _ _ P) as [D|D]; [rewrite D in X; destruct X|]. destruct (D 0 (q_np _ _ _ _ _ _ (i_q s G))) as (j & J).
           assert (JL : j < nt s). { destruct (Nat.lt_ge_cases j (nt s)) as [L|L]; [exact L|]. destruct (i_out s G j L) as [O1 O2]. unfold tok in J. now rewrite O1, O2 in J. }
           apply (go s j IV W0 JL). unfold tok in J. intros [[Y Z]|Y]; [now rewrite Y, Z in J|]. destruct (pcs s j); discriminate.
        -- destruct h as [j|]; cbn in X; [|now rewrite MN in X].
           assert (JL : j < nt s). { destruct (Nat.lt_ge_cases j (nt s)) as [L|L]; [exact L|]. destruct (i_out s G j L) as [O1 O2]. now rewrite O1 in X. }
           apply (go s j IV W0 JL). intros [[Y Z]|Y]; [now rewrite Y in X|]. destruct (pcs s j); discriminate.
  - apply (MG s1 E1). unfold mstep in E1. rewrite MN in E1. unfold assert_then in E1. destruct (all s _); [|discriminate]. injection E1 as <-. discriminate.
  - apply (MG s1 E1). unfold mstep in E1. rewrite MN in E1. unfold assert_then in E1. destruct (all s _); [|discriminate]. destruct (forallb _ _); [|discriminate]. injection E1 as <-. cbn. destruct (poisoned s); discriminate.
  - apply (MG s1 E1). unfold mstep in E1. rewrite MN in E1. destruct (Nat.ltb i (nt s)); injection E1 as <-; cbn; [|discriminate]. intros X. injection X. lia.
  - destruct P as ((_ & ST & _) & L & AW & _). destruct (Nat.ltb_spec i (nt s)) as [I|I].
    + destruct (gone (pcs s i)) eqn:GN.
      * apply (MG s1 E1). unfold mstep in E1. rewrite MN in E1. apply Nat.ltb_lt in I. rewrite I in E1. destruct (pcs s i); try discriminate.
        unfold assert_then in E1. destruct (negb _); [|discriminate]. injection E1 as <-. cbn. intros X. injection X. lia.
      * apply (go s i IV W0 I). intros [[X Y]|X]; [|congruence]. specialize (AW i I X). congruence.
    + apply (MG s1 E1). unfold mstep in E1. rewrite MN in E1. apply Nat.ltb_ge in I. rewrite I in E1. injection E1 as <-. discriminate.
Qed.

Lemma progresses cpus threads ops s : 0 < cpus -> 0 < threads -> steps (pool_new cpus threads) ops = Some s ->
  waits s = true -> exists o s', step s o = Some s' /\ s' <> s.
Proof. intros C T E W. destruct (reached_inv _ _ _ _ C T E) as (I & _). now apply progress. Qed.

Lemma joined cpus threads ops s : 0 < cpus -> 0 < threads -> steps (pool_new cpus threads) ops = Some s ->
  main s = MEnd -> forall i, i < threads -> exists b, pcs s i = TGone b.
Proof.
  intros C T E M i I. destruct (reached_inv _ _ _ _ C T E) as ([G P] & _ & NT). unfold Phase in P. rewrite M in P. destruct P as [_ P].
  specialize (P i ltac:(lia)). destruct (pcs s i); try discriminate. eauto.
Qed.
