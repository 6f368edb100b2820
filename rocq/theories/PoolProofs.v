(** The invariant of the bounded pool. *)
From Verif Require Import Base PoolModel PoolSpec.
From Coq Require Import Lia Arith.
Local Open Scope nat_scope.

Lemma fupd_same {A} i (x : A) f : fupd i x f i = x.
Proof. unfold fupd. now rewrite Nat.eqb_refl. Qed.
Lemma fupd_other {A} i j (x : A) f : j <> i -> fupd i x f j = f j.
Proof. intros N. unfold fupd. apply Nat.eqb_neq in N. now rewrite N. Qed.

(** A worker that was taken from a queue and is not started yet; [None]: by the main thread. *)
Definition gotten (s : pool) (h : option nat) : option (nat * nat * nat) :=
  match h with
  | None => match main s with MGot p q w => Some (p, q, w) | _ => None end
  | Some i => match pcs s i with TGot p q w _ => Some (p, q, w) | _ => None end
  end.

(** Every worker is in one place. *)
Record QInv (np nt : nat) (ready fin : nat -> list nat) (pidx : nat -> nat) (g : option nat -> option (nat * nat * nat)) : Prop := {
  q_np : 0 < np;
  q_pidx : forall w, w < nt -> pidx w < np;
  q_ready : forall q w, In w (ready q) -> q < np /\ w < nt /\ pidx w = q;
  q_fin : forall q w, In w (fin q) -> q < np /\ w < nt /\ pidx w = q;
  q_nd1 : forall q, NoDup (ready q);
  q_nd2 : forall q, NoDup (fin q);
  q_disj : forall q w, In w (ready q) -> In w (fin q) -> False;
  q_got : forall h p q w, g h = Some (p, q, w) -> p < np /\ w < nt /\ pidx w = q /\ (forall q', ~ In w (ready q')) /\ (forall q', ~ In w (fin q'));
  q_inj : forall h h' p q w p' q', g h = Some (p, q, w) -> g h' = Some (p', q', w) -> h = h';
  q_all : forall w, w < nt -> In w (ready (pidx w)) \/ In w (fin (pidx w)) \/ exists h p q, g h = Some (p, q, w) }.

Lemma QInv_ext np nt rd fn px g g' : (forall h, g' h = g h) -> QInv np nt rd fn px g -> QInv np nt rd fn px g'.
Proof.
  intros E H. destruct H. constructor; auto.
  - intros h p q w. rewrite E. eauto.
  - intros h h' p q w p' q'. rewrite !E. eauto.
  - intros w L. destruct (q_all0 w L) as [X|[X|(h & p & q & X)]]; auto. right. right. exists h, p, q. now rewrite E.
Qed.

Lemma QInv_pop np nt rd fn px g g' h p q w t : QInv np nt rd fn px g -> rd q = w :: t -> g h = None -> p < np ->
  g' h = Some (p, q, w) -> (forall h', h' <> h -> g' h' = g h') -> QInv np nt (fupd q t rd) fn px g'.
Proof.
  intros H RD GN P G1 G2. destruct H.
  destruct (q_ready0 q w) as (Q1 & Q2 & Q3); [rewrite RD; now left|].
  assert (SUB : forall q' x, In x (fupd q t rd q') -> In x (rd q')).
  { intros q' x. unfold fupd. destruct (Nat.eqb_spec q' q) as [->|]; [rewrite RD; now right|auto]. }
  assert (NW : forall q', ~ In w (fupd q t rd q')).
  { intros q' X. destruct (Nat.eq_dec q' q) as [->|N].
    - rewrite fupd_same in X. specialize (q_nd3 q). rewrite RD in q_nd3. inversion q_nd3; contradiction.
    - rewrite fupd_other in X by exact N. apply q_ready0 in X. lia. }
  constructor; auto.
  - intros q'. unfold fupd. destruct (Nat.eqb_spec q' q) as [->|]; [|auto]. specialize (q_nd3 q). rewrite RD in q_nd3. now inversion q_nd3.
  - intros q' x X. apply SUB in X. eauto.
  - intros h' p' q' w' E. destruct h' as [i|], h as [j|].
    + destruct (Nat.eq_dec i j) as [->|N].
      * rewrite G1 in E. injection E as <- <- <-. split; [exact P|]. split; [exact Q2|]. split; [exact Q3|]. split; [exact NW|].
        intros q' X. destruct (q_fin0 _ _ X) as (_ & _ & Y). subst q'. apply (q_disj0 q w); [rewrite RD; now left|]. now rewrite <- Q3.
      * rewrite G2 in E by congruence. destruct (q_got0 _ _ _ _ E) as (A & B & C & D & F). repeat split; auto. intros q'' X. apply SUB in X. eapply D; eauto.
    + rewrite G2 in E by congruence. destruct (q_got0 _ _ _ _ E) as (A & B & C & D & F). repeat split; auto. intros q'' X. apply SUB in X. eapply D; eauto.
    + rewrite G2 in E by congruence. destruct (q_got0 _ _ _ _ E) as (A & B & C & D & F). repeat split; auto. intros q'' X. apply SUB in X. eapply D; eauto.
    + rewrite G1 in E. injection E as <- <- <-. split; [exact P|]. split; [exact Q2|]. split; [exact Q3|]. split; [exact NW|].
      intros q' X. destruct (q_fin0 _ _ X) as (_ & _ & Y). subst q'. apply (q_disj0 q w); [rewrite RD; now left|]. now rewrite <- Q3.
  - assert (OLD : forall h' p' q', h' <> h -> g' h' = Some (p', q', w) -> False).
    { intros h' p' q' N E. rewrite G2 in E by exact N. destruct (q_got0 _ _ _ _ E) as (_ & _ & _ & D & _). apply (D q). rewrite RD. now left. }
    intros h1 h2 p1 q1 w1 p2 q2 E1 E2.
    assert (D1 : h1 = h \/ h1 <> h) by (destruct h1 as [i|], h as [j|]; try (now right); try (now left); destruct (Nat.eq_dec i j); [left|right]; congruence).
    assert (D2 : h2 = h \/ h2 <> h) by (destruct h2 as [i|], h as [j|]; try (now right); try (now left); destruct (Nat.eq_dec i j); [left|right]; congruence).
    destruct D1 as [->|N1], D2 as [->|N2]; [reflexivity| | |].
    + rewrite G1 in E1. injection E1 as -> -> ->. exfalso. eapply OLD; eauto.
    + rewrite G1 in E2. injection E2 as -> -> ->. exfalso. eapply OLD; eauto.
    + rewrite G2 in E1, E2 by assumption. eauto.
  - intros x L. destruct (Nat.eq_dec x w) as [->|N]; [right; right; eauto|].
    destruct (q_all0 x L) as [X|[X|(h' & p' & q' & X)]].
    + left. unfold fupd. destruct (Nat.eqb_spec (px x) q) as [E|]; [|exact X]. rewrite E, RD in X. destruct X; [congruence|assumption].
    + auto.
    + right. right. exists h', p', q'. rewrite G2; [exact X|]. congruence.
Qed.

Lemma QInv_pub np nt rd fn px g g' h p q w : QInv np nt rd fn px g -> g h = Some (p, q, w) -> g' h = None -> (forall h', h' <> h -> g' h' = g h') ->
  length (fn p) < nt /\ px w = q /\ QInv np nt rd (fupd p (fn p ++ [w]) fn) (fupd w p px) g'.
Proof.
  intros H E G1 G2. destruct H. destruct (q_got0 _ _ _ _ E) as (P & W & PX & NR & NF). split; [|split; [exact PX|]].
  - assert (ND : NoDup (w :: fn p)) by (constructor; auto).
    assert (IN : incl (w :: fn p) (seq 0 nt)).
    { intros x [<-|X]; apply in_seq; [lia|]. apply q_fin0 in X. lia. }
    apply NoDup_incl_length in IN; [|exact ND]. rewrite seq_length in IN. cbn in IN. lia.
  - constructor; auto.
    + intros x X. unfold fupd. destruct (Nat.eqb x w); auto.
    + intros q' x X. destruct (q_ready0 _ _ X) as (A & B & C). rewrite fupd_other; [auto|]. intros ->. eapply NR; eauto.
    + intros q' x X. unfold fupd in X. destruct (Nat.eqb_spec q' p) as [->|].
      * apply in_app_iff in X. destruct X as [X|[<-|[]]].
        -- destruct (q_fin0 _ _ X) as (A & B & C). rewrite fupd_other; [auto|]. intros ->. eapply NF; eauto.
        -- rewrite fupd_same. auto.
      * destruct (q_fin0 _ _ X) as (A & B & C). rewrite fupd_other; [auto|]. intros ->. eapply NF; eauto.
    + intros q'. unfold fupd. destruct (Nat.eqb_spec q' p) as [->|]; [|auto].
      specialize (q_nd4 p).
      clear - q_nd4 NF. specialize (NF p). induction (fn p) as [|a l IH]; cbn; [constructor; [auto|constructor]|].
      inversion q_nd4; subst. constructor; [|apply IH; [assumption|intros X; apply NF; now right]].
      rewrite in_app_iff. intros [X|[<-|[]]]; [contradiction|]. apply NF. now left.
    + intros q' x X Y. unfold fupd in Y. destruct (Nat.eqb_spec q' p) as [->|]; [|eauto].
      apply in_app_iff in Y. destruct Y as [Y|[<-|[]]]; [eauto|]. eapply NR; eauto.
    + intros h' p' q' w' E'.
      assert (N : h' <> h) by congruence. rewrite G2 in E' by exact N.
      assert (NW : w' <> w). { intros ->. apply N. eapply q_inj0; eauto. }
      destruct (q_got0 _ _ _ _ E') as (A & B & C & D & F). rewrite fupd_other by exact NW. split; [exact A|]. split; [exact B|]. split; [exact C|]. split; [exact D|].
      intros z X. unfold fupd in X. destruct (Nat.eqb_spec z p) as [EZ|EZ]; [|eapply F; eauto].
      apply in_app_iff in X. destruct X as [X|[X|[]]]; [exact (F p X)|congruence].
    + intros h1 h2 p1 q1 w1 p2 q2 E1 E2. assert (h1 <> h) by congruence. assert (h2 <> h) by congruence. rewrite G2 in E1, E2 by assumption. eauto.
    + intros x L. destruct (Nat.eq_dec x w) as [->|N].
      * right. left. rewrite fupd_same, fupd_same. apply in_app_iff. right. now left.
      * rewrite fupd_other by exact N. destruct (q_all0 x L) as [X|[X|(h' & p' & q' & X)]]; [auto| |].
        -- right. left. unfold fupd. destruct (Nat.eqb_spec (px x) p) as [<-|]; [|exact X]. apply in_app_iff. now left.
        -- right. right. exists h', p', q'. rewrite G2; [exact X|]. congruence.
Qed.

Lemma QInv_swap np nt rd fn px g : QInv np nt rd fn px g -> QInv np nt fn rd px g.
Proof.
  intros H. destruct H. constructor; auto.
  - intros q w X Y. eauto.
  - intros h p q w E. destruct (q_got0 _ _ _ _ E) as (A & B & C & D & F). auto.
  - intros w L. destruct (q_all0 w L) as [X|[X|X]]; auto.
Qed.

(** * Rounds *)

Definition gone (x : tpc) : bool := match x with TGone _ => true | _ => false end.

(** The processor on which a thread runs or is about to run. *)
Definition tok (s : pool) (i : nat) : option nat :=
  match pcs s i with
  | TPark => if flag s i then Some (pidx s i) else None
  | TLoad => Some (pidx s i)
  | TRun p | TBusy p | TNext p _ _ | TGot p _ _ _ => Some p
  | _ => None
  end.

Definition started (s : pool) (w : nat) : Prop := In w (fin s (pidx s w)).

(** The thread has run the task of this round. *)
Definition ran (s : pool) (i : nat) : bool :=
  match pcs s i with
  | TPark => counted s i
  | TLoad | TRun _ | TBusy _ => false
  | _ => true
  end.

Definition good (s : pool) (i : nat) : Prop :=
  match pcs s i with
  | TPark => flag s i = negb (counted s i)
  | TGone b => b = true /\ flag s i = false /\ counted s i = false
  | TNext _ _ r | TGot _ _ _ r => r <> Stopped /\ flag s i = false /\ counted s i = false
  | _ => flag s i = false /\ counted s i = false
  end.

Definition scanned (s : pool) (p k : nat) : Prop := k <= np s /\ forall j, j < k -> ready s ((p + j) mod np s) = [].

(** A round; the main thread has yet to start the processors from [m] on. *)
Record Rnd (s : pool) (m : nat) : Prop := {
  r_task : task s = true;
  r_m : m <= np s;
  r_new : forall w, w < nt s -> ~ started s w -> pcs s w = TPark /\ flag s w = false /\ counted s w = false;
  r_good : forall w, w < nt s -> started s w -> good s w;
  r_tok : forall i p, tok s i = Some p -> p < m;
  r_uniq : forall i j p, tok s i = Some p -> tok s j = Some p -> i = j;
  r_dead : (forall q, ready s q = []) \/ (forall p, p < m -> exists i, tok s i = Some p);
  r_scan : forall i p k r, pcs s i = TNext p k r -> scanned s p k;
  r_nd : NoDup (map fst (cur s));
  r_cur : forall i, In i (map fst (cur s)) <-> i < nt s /\ ran s i = true;
  r_proc : Forall (fun x => snd x < np s) (cur s) }.

Definition Quiet (s : pool) : Prop := forall i, i < nt s -> (pcs s i = TPark /\ flag s i = false \/ pcs s i = TGone true) /\ counted s i = false.
Definition Fresh (s : pool) : Prop := task s = false /\ cur s = [] /\ forall q, fin s q = [].
Definition Over (s : pool) : Prop := (forall q, ready s q = []) /\ once s (cur s).
(** A thread that stops. *)
Definition stops (x : tpc) : Prop :=
  match x with
  | TPark | TLoad | TRun _ | TGone _ | TNext _ _ Stopped | TGot _ _ _ Stopped => True
  | _ => False
  end.
Definition awake (s : pool) (i : nat) : Prop := pcs s i = TPark -> flag s i = true.
Definition Join (s : pool) (e : bool) : Prop :=
  task s = false /\ (forall i, stops (pcs s i)) /\ (e = true -> forall i, pcs s i <> TGone true) /\
  (forall i p k r, pcs s i = TNext p k r -> k <= np s).

Record Glob (s : pool) : Prop := {
  i_q : QInv (np s) (nt s) (ready s) (fin s) (pidx s) (gotten s);
  i_out : forall i, nt s <= i -> pcs s i = TPark /\ flag s i = false;
  i_live : forall i, live s i = negb (gone (pcs s i));
  i_poison : forall i, pcs s i = TDrop \/ pcs s i = TGone true -> poisoned s = true;
  i_past : Forall (once s) (past s);
  i_p : forall i p, (pcs s i = TRun p \/ pcs s i = TBusy p \/ exists k r, pcs s i = TNext p k r) -> p < np s }.

Definition Phase (s : pool) : Prop :=
  match main s with
  | MIdle | MScope => Quiet s /\ Fresh s /\ poisoned s = false
  | MPanicked => Quiet s /\ Fresh s
  | MStart p k => Rnd s p /\ (p < np s -> scanned s p k)
  | MGot p q w => Rnd s p
  | MBody | MWait => Rnd s (np s)
  | MClear => Quiet s /\ Over s /\ task s = true
  | MReset => Quiet s /\ Over s /\ task s = false
  | MJoin i e => Join s e /\ i <= nt s /\ forall j, j < i -> awake s j
  | MJoined i e => Join s e /\ i <= nt s /\ (forall j, j < nt s -> awake s j) /\ forall j, j < i -> gone (pcs s j) = true
  | MEnd => (exists e, Join s e) /\ forall j, j < nt s -> gone (pcs s j) = true
  end.

Definition Inv (s : pool) : Prop := Glob s /\ Phase s.

Lemma pool_new_inv cpus threads : 0 < cpus -> 0 < threads -> Inv (pool_new cpus threads).
Proof.
  intros C T. set (n := Nat.min cpus threads). assert (N : 0 < n) by (unfold n; lia).
  assert (R : forall q w, In w (ready (pool_new cpus threads) q) <-> q < n /\ w < threads /\ w mod n = q).
  { intros q w. cbn [ready pool_new]. fold n. destruct (Nat.ltb_spec q n).
    - rewrite filter_In, in_seq, Nat.eqb_eq. lia.
    - cbn. lia. }
  split. constructor; try (cbn; intuition (congruence || discriminate || auto); fail).
  - constructor; try exact N.
    + intros w L. cbn. fold n. apply Nat.mod_upper_bound. lia.
    + intros q w X. apply R in X. exact X.
    + intros q w [].
    + intros q. cbn [ready pool_new]. destruct (Nat.ltb q _); [|constructor]. apply NoDup_filter, seq_NoDup.
    + intros q. constructor.
    + intros q w _ [].
    + intros [i|] p q w; discriminate.
    + intros [i|] h p q w; discriminate.
    + intros w L. left. apply R. cbn. fold n. split; [apply Nat.mod_upper_bound; lia|auto].
  - intros i p [X|[X|(k & r & X)]]; discriminate.
  - cbn. split; [|split; [|reflexivity]].
    + intros i _. auto.
    + split; [reflexivity|]. split; reflexivity.
Qed.

Lemma gotten_pc s i x h : gotten (set_pc i x s) h =
  match h with
  | Some j => if Nat.eqb j i then match x with TGot p q w _ => Some (p, q, w) | _ => None end else gotten s h
  | None => gotten s None
  end.
Proof. destruct h as [j|]; [|reflexivity]. cbn [gotten set_pc pcs]. unfold fupd. now destruct (Nat.eqb j i). Qed.

Lemma mod_cover n p q : q < n -> exists j, j < n /\ (p + j) mod n = q.
Proof.
  intros Q. pose proof (Nat.mod_upper_bound p n ltac:(lia)) as U. pose proof (Nat.div_mod p n ltac:(lia)) as D.
  destruct (Nat.le_gt_cases (p mod n) q) as [L|L].
  - exists (q - p mod n). split; [lia|]. rewrite D at 1. replace (n * (p / n) + p mod n + (q - p mod n)) with (q + (p / n) * n) by lia.
    rewrite Nat.mod_add by lia. apply Nat.mod_small. exact Q.
  - exists (q + n - p mod n). split; [lia|]. rewrite D at 1. replace (n * (p / n) + p mod n + (q + n - p mod n)) with (q + (p / n + 1) * n) by lia.
    rewrite Nat.mod_add by lia. apply Nat.mod_small. exact Q.
Qed.

Lemma scan_all s p : QInv (np s) (nt s) (ready s) (fin s) (pidx s) (gotten s) ->
  scanned s p (np s) -> forall q, ready s q = [].
Proof.
  intros Q [_ E] q. destruct (Nat.lt_ge_cases q (np s)) as [L|L].
  - destruct (mod_cover (np s) p q L) as (j & J & <-). now apply E.
  - destruct (ready s q) as [|w l] eqn:R; [reflexivity|]. destruct (q_ready _ _ _ _ _ _ Q q w); [rewrite R; now left|lia].
Qed.

(** The step of one thread, as the round sees it. *)
Lemma Rnd_move s s' m i : Rnd s m -> i < nt s -> started s i ->
  np s' = np s -> nt s' = nt s -> fin s' = fin s -> pidx s' = pidx s -> task s' = task s ->
  (forall j, j <> i -> pcs s' j = pcs s j /\ flag s' j = flag s j /\ counted s' j = counted s j) ->
  (forall q, ready s q = [] -> ready s' q = []) ->
  good s' i ->
  (tok s' i = tok s i /\ (ready s' = ready s \/ exists q, ready s q <> []) \/ tok s' i = None /\ forall q, ready s' q = []) ->
  (forall p k r, pcs s' i = TNext p k r -> scanned s' p k) ->
  (cur s' = cur s /\ ran s' i = ran s i \/ exists p, cur s' = cur s ++ [(i, p)] /\ p < np s /\ ran s i = false /\ ran s' i = true) ->
  Rnd s' m.
Proof.
  intros R I ST NP NT FN PX TK OTH RD GD TOK SC CUR.
  assert (STE : forall w, started s' w <-> started s w) by (intros w; unfold started; rewrite FN, PX; tauto).
  assert (TOKJ : forall j, j <> i -> tok s' j = tok s j).
  { intros j N. destruct (OTH j N) as (A & B & C). unfold tok. now rewrite A, B, PX. }
  assert (RANJ : forall j, j <> i -> ran s' j = ran s j).
  { intros j N. destruct (OTH j N) as (A & B & C). unfold ran. now rewrite A, C. }
  assert (TI : forall p, tok s' i = Some p -> tok s i = Some p).
  { intros p E. destruct TOK as [[T _]|[T _]]; congruence. }
  destruct R. constructor.
  - congruence.
  - lia.
  - intros w W N. rewrite STE in N. rewrite NT in W. destruct (Nat.eq_dec w i) as [->|D]; [contradiction|].
    destruct (OTH w D) as (-> & -> & ->). auto.
  - intros w W N. rewrite STE in N. rewrite NT in W. destruct (Nat.eq_dec w i) as [->|D]; [exact GD|].
    destruct (OTH w D) as (A & B & C). specialize (r_good0 w W N). unfold good in *. now rewrite A, B, C.
  - intros j p E. destruct (Nat.eq_dec j i) as [->|D]; [eauto|]. rewrite TOKJ in E by exact D. eauto.
  - intros j k p E1 E2. destruct (Nat.eq_dec j i) as [->|D1], (Nat.eq_dec k i) as [->|D2]; try reflexivity;
      rewrite ?TOKJ in E1 by assumption; rewrite ?TOKJ in E2 by assumption; try apply TI in E1; try apply TI in E2; eauto.
  - destruct TOK as [[T E]|[T E]]; [|now left]. destruct r_dead0 as [D|D]; [left; auto|]. right.
    intros p P. destruct (D p P) as (j & J). exists j. destruct (Nat.eq_dec j i) as [->|N]; [congruence|]. now rewrite TOKJ.
  - intros j p k r E. destruct (Nat.eq_dec j i) as [->|N]; [eauto|]. destruct (OTH j N) as (A & _). rewrite A in E.
    destruct (r_scan0 _ _ _ _ E) as [S1 S2]. split; [lia|]. intros x X. rewrite NP. apply RD. now apply S2.
  - destruct CUR as [[-> _]|(p & -> & P & R0 & R1)]; [assumption|]. rewrite map_app. cbn.
    assert (NI : ~ In i (map fst (cur s))). { rewrite r_cur0. intros [_ X]. congruence. }
    clear - r_nd0 NI. induction (map fst (cur s)) as [|a l IH]; cbn; [constructor; [auto|constructor]|].
    inversion r_nd0; subst. constructor; [|apply IH; [assumption|intros X; apply NI; now right]].
    rewrite in_app_iff. intros [X|[<-|[]]]; [contradiction|]. apply NI. now left.
  - intros j. rewrite NT. destruct CUR as [[-> RI]|(p & -> & P & R0 & R1)].
    + rewrite r_cur0. destruct (Nat.eq_dec j i) as [->|N]; [now rewrite RI|now rewrite RANJ].
    + rewrite map_app, in_app_iff, r_cur0. cbn. destruct (Nat.eq_dec j i) as [->|N]; [rewrite R0, R1; intuition|rewrite RANJ by exact N; intuition congruence].
  - rewrite NP. destruct CUR as [[-> _]|(p & -> & P & _)]; [assumption|]. apply Forall_app. split; [assumption|]. repeat constructor. exact P.
Qed.

(** A worker is started; by another thread, ... *)
Lemma Rnd_pub s s' m i p q w r : Rnd s m -> i < nt s -> pcs s i = TGot p q w r -> started s i ->
  w < nt s -> ~ started s w -> started s' w -> (forall x, x <> w -> started s' x <-> started s x) ->
  np s' = np s -> nt s' = nt s -> ready s' = ready s -> pidx s' = fupd w p (pidx s) -> task s' = task s ->
  flag s' = fupd w true (flag s) -> counted s' = counted s -> cur s' = cur s ->
  (forall j, j <> i -> pcs s' j = pcs s j) -> (pcs s' i = TCount \/ pcs s' i = TPoison) -> Rnd s' m.
Proof.
  intros R I PC ST W NW SW SX NP NT RD PX TK FL CN CU OTH PI. destruct R.
  assert (WI : w <> i) by (intros ->; contradiction).
  destruct (r_new0 w W NW) as (W1 & W2 & W3).
  pose proof (r_good0 i I ST) as GI. unfold good in GI. rewrite PC in GI. destruct GI as (_ & GF & GC).
  assert (TW : tok s' w = Some p). { unfold tok. rewrite OTH, W1, FL, PX by exact WI. now rewrite !fupd_same. }
  assert (TI : tok s' i = None). { unfold tok. now destruct PI as [-> | ->]. }
  assert (TI0 : tok s i = Some p). { unfold tok. now rewrite PC. }
  assert (TW0 : tok s w = None). { unfold tok. now rewrite W1, W2. }
  assert (TJ : forall j, j <> i -> j <> w -> tok s' j = tok s j).
  { intros j N1 N2. unfold tok. rewrite OTH, FL, PX by exact N1. now rewrite !fupd_other. }
  assert (TSOME : forall j x, tok s' j = Some x -> (j = w /\ x = p) \/ (j <> i /\ j <> w /\ tok s j = Some x)).
  { intros j x E. destruct (Nat.eq_dec j i) as [->|N1]; [congruence|]. destruct (Nat.eq_dec j w) as [->|N2]; [left; split; congruence|].
    right. rewrite TJ in E; auto. }
  assert (RJ : forall j, ran s' j = ran s j).
  { intros j. unfold ran. rewrite CN. destruct (Nat.eq_dec j i) as [->|N]; [|now rewrite OTH]. rewrite PC. now destruct PI as [-> | ->]. }
  constructor.
  - congruence.
  - lia.
  - intros x X N. rewrite NT in X. destruct (Nat.eq_dec x w) as [->|D]; [contradiction|]. rewrite SX in N by exact D.
    assert (x <> i) by congruence. rewrite OTH, FL, CN, fupd_other by assumption. auto.
  - intros x X N. rewrite NT in X. unfold good. rewrite FL, CN. destruct (Nat.eq_dec x w) as [->|D].
    + rewrite OTH by exact WI. rewrite W1, fupd_same, W3. reflexivity.
    + rewrite fupd_other by exact D. destruct (Nat.eq_dec x i) as [->|D2]; [destruct PI as [-> | ->]; auto|].
      rewrite OTH by exact D2. apply SX in N; [|exact D]. exact (r_good0 x X N).
  - intros j x E. destruct (TSOME _ _ E) as [[-> ->]|(_ & _ & E')]; eauto.
  - intros j k x E1 E2. destruct (TSOME _ _ E1) as [[-> ->]|(A1 & B1 & C1)], (TSOME _ _ E2) as [[-> X2]|(A2 & B2 & C2)]; try subst x.
    + reflexivity.
    + exfalso. apply A2. eauto.
    + exfalso. apply A1. eauto.
    + eauto.
  - rewrite RD. destruct r_dead0 as [D|D]; [now left|]. right. intros x X. destruct (D x X) as (j & J).
    destruct (Nat.eq_dec j i) as [->|N1]; [exists w; congruence|]. exists j. rewrite TJ; [exact J|exact N1|congruence].
  - intros j a k b E. assert (j <> i) by (intros ->; destruct PI; congruence). rewrite OTH in E by assumption.
    destruct (r_scan0 _ _ _ _ E) as [S1 S2]. split; [lia|]. rewrite NP, RD. exact S2.
  - now rewrite CU.
  - intros j. rewrite CU, NT, RJ. apply r_cur0.
  - rewrite CU, NP. exact r_proc0.
Qed.

(** ... or by the main thread. *)
Lemma Rnd_first s s' m w : Rnd s m -> m < np s ->
  w < nt s -> ~ started s w -> started s' w -> (forall x, x <> w -> started s' x <-> started s x) ->
  np s' = np s -> nt s' = nt s -> ready s' = ready s -> pidx s' = fupd w m (pidx s) -> task s' = task s ->
  flag s' = fupd w true (flag s) -> counted s' = counted s -> cur s' = cur s -> pcs s' = pcs s -> Rnd s' (S m).
Proof.
  intros R M W NW SW SX NP NT RD PX TK FL CN CU PCS. destruct R.
  destruct (r_new0 w W NW) as (W1 & W2 & W3).
  assert (TW : tok s' w = Some m). { unfold tok. rewrite PCS, W1, FL, PX. now rewrite !fupd_same. }
  assert (TW0 : tok s w = None). { unfold tok. now rewrite W1, W2. }
  assert (TJ : forall j, j <> w -> tok s' j = tok s j).
  { intros j N2. unfold tok. rewrite PCS, FL, PX. now rewrite !fupd_other. }
  assert (TSOME : forall j x, tok s' j = Some x -> (j = w /\ x = m) \/ (j <> w /\ tok s j = Some x)).
  { intros j x E. destruct (Nat.eq_dec j w) as [->|N2]; [left; split; congruence|]. right. rewrite TJ in E; auto. }
  assert (RJ : forall j, ran s' j = ran s j) by (intros j; unfold ran; now rewrite CN, PCS).
  constructor.
  - congruence.
  - lia.
  - intros x X N. rewrite NT in X. destruct (Nat.eq_dec x w) as [->|D]; [contradiction|]. rewrite SX in N by exact D.
    rewrite PCS, FL, CN, fupd_other by assumption. auto.
  - intros x X N. rewrite NT in X. unfold good. rewrite FL, CN, PCS. destruct (Nat.eq_dec x w) as [->|D].
    + rewrite W1, fupd_same, W3. reflexivity.
    + rewrite fupd_other by exact D. apply SX in N; [|exact D]. exact (r_good0 x X N).
  - intros j x E. destruct (TSOME _ _ E) as [[-> ->]|(_ & E')]; [lia|]. apply r_tok0 in E'. lia.
  - intros j k x E1 E2. destruct (TSOME _ _ E1) as [[-> ->]|(B1 & C1)], (TSOME _ _ E2) as [[-> X2]|(B2 & C2)]; try subst x.
    + reflexivity.
    + apply r_tok0 in C2. lia.
    + apply r_tok0 in C1. lia.
    + eauto.
  - rewrite RD. destruct r_dead0 as [D|D]; [now left|]. right. intros x X. destruct (Nat.eq_dec x m) as [->|N]; [eauto|].
    destruct (D x ltac:(lia)) as (j & J). exists j. rewrite TJ; [exact J|congruence].
  - intros j a k b E. rewrite PCS in E. destruct (r_scan0 _ _ _ _ E) as [S1 S2]. split; [lia|]. rewrite NP, RD. exact S2.
  - now rewrite CU.
  - intros j. rewrite CU, NT, RJ. apply r_cur0.
  - rewrite CU, NP. exact r_proc0.
Qed.

(** * Steps of a thread *)

Definition isgot (x : tpc) : bool := match x with TGot _ _ _ _ => true | _ => false end.

Lemma Glob_move s s' i : Glob s -> i < nt s ->
  np s' = np s -> nt s' = nt s -> ready s' = ready s -> fin s' = fin s -> pidx s' = pidx s -> main s' = main s -> past s' = past s ->
  isgot (pcs s i) = false -> isgot (pcs s' i) = false ->
  (forall j, j <> i -> pcs s' j = pcs s j /\ flag s' j = flag s j /\ live s' j = live s j) ->
  live s' i = negb (gone (pcs s' i)) -> (poisoned s = true -> poisoned s' = true) ->
  (pcs s' i = TDrop \/ pcs s' i = TGone true -> poisoned s' = true) ->
  (forall p, (pcs s' i = TRun p \/ pcs s' i = TBusy p \/ exists k r, pcs s' i = TNext p k r) -> p < np s) -> Glob s'.
Proof.
  intros G I NP NT RD FN PX MN PA G1 G2 OTH LV PO1 PO2 PP. destruct G. constructor.
  - rewrite NP, NT, RD, FN, PX. eapply QInv_ext; [|exact i_q0]. intros [j|]; cbn; [|now rewrite MN].
    destruct (Nat.eq_dec j i) as [->|N]; [|destruct (OTH j N) as (-> & _); reflexivity].
    destruct (pcs s i), (pcs s' i); try discriminate; reflexivity.
  - intros j L. rewrite NT in L. destruct (OTH j ltac:(lia)) as (-> & -> & _). auto.
  - intros j. destruct (Nat.eq_dec j i) as [->|N]; [exact LV|]. destruct (OTH j N) as (-> & _ & ->). auto.
  - intros j E. destruct (Nat.eq_dec j i) as [->|N]; [auto|]. destruct (OTH j N) as (A & _). rewrite A in E. eauto.
  - rewrite PA. eapply Forall_impl; [|exact i_past0]. intros l O. unfold once in *. now rewrite NP, NT.
  - intros j p E. rewrite NP. destruct (Nat.eq_dec j i) as [->|N]; [auto|]. destruct (OTH j N) as (A & _). rewrite A in E. eauto.
Qed.

Lemma Glob_pop s i p k r q w t : Glob s -> i < nt s -> pcs s i = TNext p k r -> ready s q = w :: t ->
  Glob (set_pc i (TGot p q w r) (set_ready (fupd q t (ready s)) s)).
Proof.
  intros G I PC RD. pose proof (i_p s G i p ltac:(eauto)) as P. destruct G. constructor; cbn [np nt ready fin pidx flag pcs live poisoned past set_pc set_ready].
  - apply (QInv_pop _ _ _ _ _ (gotten s) _ (Some i) p q w t); try assumption.
    + cbn. now rewrite PC.
    + cbn. now rewrite fupd_same.
    + intros [j|] N; [|reflexivity]. cbn. rewrite fupd_other; [reflexivity|congruence].
  - intros j L. rewrite fupd_other by lia. auto.
  - intros j. unfold fupd. destruct (Nat.eqb_spec j i) as [->|]; [|auto]. rewrite i_live0, PC. reflexivity.
  - intros j. unfold fupd. destruct (Nat.eqb_spec j i) as [->|]; [|eauto]. intros [X|X]; discriminate.
  - exact i_past0.
  - intros j p'. unfold fupd. destruct (Nat.eqb_spec j i) as [->|]; [|eauto]. intros [X|[X|(? & ? & X)]]; discriminate.
Qed.

Definition published (s : pool) (p w : nat) : pool :=
  Pool (np s) (nt s) (ready s) (fupd p (fin s p ++ [w]) (fin s)) (fupd w p (pidx s))
       (fupd w true (flag s)) (pcs s) (counted s) (live s) (task s) (poisoned s) (main s) (cur s) (past s).

Lemma publish_ok s p q w h : Glob s -> gotten s h = Some (p, q, w) -> publish s p q w = Some (published s p w) /\ w < nt s /\ p < np s /\ ~ started s w.
Proof.
  intros G E. destruct G.
  set (g' := fun h' => if match h', h with Some a, Some b => Nat.eqb a b | None, None => true | _, _ => false end then None else gotten s h').
  destruct (QInv_pub _ _ _ _ _ _ g' h p q w i_q0 E) as (L & PX & _).
  - unfold g'. destruct h as [i|]; [now rewrite Nat.eqb_refl|reflexivity].
  - intros h' N. unfold g'. destruct h' as [a|], h as [b|]; try reflexivity; try congruence.
    destruct (Nat.eqb_spec a b); [congruence|reflexivity].
  - unfold publish. apply Nat.ltb_lt in L. rewrite L, PX, Nat.eqb_refl. cbn. split; [reflexivity|].
    destruct (q_got _ _ _ _ _ _ i_q0 _ _ _ _ E) as (A & B & C & D & F). split; [exact B|]. split; [exact A|]. apply F.
Qed.

Lemma published_started s p w : w < nt s -> ~ started s w -> (forall q, ~ In w (fin s q)) ->
  started (published s p w) w /\ forall x, x <> w -> started (published s p w) x <-> started s x.
Proof.
  intros W N NF. unfold started. cbn. split.
  - rewrite fupd_same, fupd_same. apply in_app_iff. right. now left.
  - intros x X. rewrite (fupd_other w x) by exact X. unfold fupd. destruct (Nat.eqb_spec (pidx s x) p) as [->|]; [|tauto].
    rewrite in_app_iff. cbn. intuition congruence.
Qed.

Lemma Glob_pub s i p q w r : Glob s -> i < nt s -> pcs s i = TGot p q w r ->
  (r = Panicked \/ r = Returned \/ r = Stopped) -> Glob (after i r (published s p w)).
Proof.
  intros G I PC _. assert (GE : gotten s (Some i) = Some (p, q, w)) by (cbn; now rewrite PC).
  destruct (publish_ok s p q w (Some i) G GE) as (_ & W & P & _). destruct G.
  assert (Q : forall x, isgot x = false -> QInv (np s) (nt s) (ready s) (fupd p (fin s p ++ [w]) (fin s)) (fupd w p (pidx s)) (gotten (set_pc i x s))).
  { intros x X. eapply QInv_pub with (g := gotten s) (h := Some i); [exact i_q0|exact GE| |].
    - cbn. rewrite fupd_same. destruct x; try reflexivity. discriminate.
    - intros [j|] N; [|reflexivity]. cbn. rewrite fupd_other; [reflexivity|congruence]. }
  assert (FL : forall j, nt s <= j -> fupd w true (flag s) j = false).
  { intros j L. rewrite fupd_other by lia. now apply i_out0. }
  destruct r; constructor; cbn [np nt ready fin pidx flag pcs live poisoned past set_pc set_live after published];
    try (exact i_past0); try (apply (Q TCount); reflexivity); try (apply (Q TPoison); reflexivity); try (apply (Q (TGone false)); reflexivity);
    try (intros j L; rewrite ?FL by exact L; rewrite fupd_other by lia; split; [apply i_out0; exact L|reflexivity]).
  all: try (intros j p'; unfold fupd; destruct (Nat.eqb_spec j i) as [->|]; [intros [X|[X|(? & ? & X)]]; discriminate|eauto]; fail).
  all: try (intros j; unfold fupd; destruct (Nat.eqb_spec j i) as [->|]; [intros [X|X]; discriminate|eauto]; fail).
  all: intros j; unfold fupd; destruct (Nat.eqb_spec j i) as [->|]; auto; rewrite i_live0, PC; reflexivity.
Qed.

Definition kept (s s' : pool) : Prop :=
  main s' = main s /\ np s' = np s /\ nt s' = nt s /\ forall q, ready s q = [] -> ready s' q = [].

Lemma kept_refl s : kept s s.
Proof. repeat split; auto. Qed.

Ltac other := let j := fresh "j" in let N := fresh "N" in intros j N; cbn [pcs flag counted live set_pc set_flag set_counted set_live set_poisoned set_cur set_ready after];
  apply Nat.eqb_neq in N; unfold fupd; rewrite ?N; auto.

Lemma pop_nonempty s p k w t : ready s ((p + k) mod np s) = w :: t -> exists q, ready s q <> [].
Proof. intros E. exists ((p + k) mod np s). rewrite E. discriminate. Qed.

Lemma fupd_nil (f : nat -> list nat) q w t x : f q = w :: t -> f x = [] -> fupd q t f x = [].
Proof. intros E1 E2. unfold fupd. destruct (Nat.eqb_spec x q) as [->|]; congruence. Qed.

Lemma tstep_round s m i b : Glob s -> Rnd s m -> i < nt s ->
  exists s', tstep i b s = Some s' /\ Glob s' /\ Rnd s' m /\ kept s s'.
Proof.
  intros G R I.
  assert (STD : started s i \/ ~ started s i).
  { unfold started. destruct (in_dec Nat.eq_dec i (fin s (pidx s i))); auto. }
  destruct STD as [ST|ST].
  2:{ destruct (r_new _ _ R i I ST) as (A & B & C). exists s. unfold tstep. rewrite A, B. auto using kept_refl. }
  pose proof (r_good _ _ R i I ST) as GD. unfold good in GD. unfold tstep.
  pose proof (i_live s G i) as LV.
  assert (PI : pidx s i < np s) by (apply (q_pidx _ _ _ _ _ _ (i_q s G)); exact I).
  destruct (pcs s i) as [| |p|p|p k r|p q w r| | | |pk] eqn:PC.
  - destruct (flag s i) eqn:FL; [|exists s; auto using kept_refl].
    eexists. split; [reflexivity|]. split; [|split; [|repeat split; auto]].
    + apply (Glob_move s _ i); auto; cbn; rewrite ?fupd_same, ?PC; auto; try (other; fail).
      * intros [X|X]; discriminate.
      * intros x [X|[X|(? & ? & X)]]; discriminate.
    + apply (Rnd_move s _ m i); auto; try (other; fail).
      * unfold good. cbn [pcs flag counted set_pc set_flag set_counted set_live set_poisoned set_cur set_ready after]. rewrite !fupd_same. destruct (counted s i); [discriminate|auto].
      * left. unfold tok. cbn. rewrite !fupd_same, PC, FL. auto.
      * cbn. rewrite fupd_same. discriminate.
      * left. unfold ran. cbn. rewrite fupd_same, PC. destruct (counted s i); [discriminate|auto].
  - eexists. split; [reflexivity|]. split; [|split; [|repeat split; auto]].
    + apply (Glob_move s _ i); auto; cbn; rewrite ?fupd_same, ?PC; auto; try (other; fail).
      * intros [X|X]; discriminate.
      * intros x [X|[X|(? & ? & X)]]; try discriminate. injection X as <-. exact PI.
    + apply (Rnd_move s _ m i); auto; try (other; fail).
      * unfold good. cbn [pcs flag counted set_pc set_flag set_counted set_live set_poisoned set_cur set_ready after]. rewrite ?fupd_same. auto.
      * left. unfold tok. cbn. rewrite !fupd_same, PC. auto.
      * cbn. rewrite fupd_same. discriminate.
      * left. unfold ran. cbn. rewrite fupd_same, PC. auto.
  - pose proof (i_p s G i p ltac:(auto)) as P. rewrite (r_task _ _ R).
    eexists. split; [reflexivity|]. split; [|split; [|repeat split; auto]].
    + apply (Glob_move s _ i); auto; cbn; rewrite ?fupd_same, ?PC; auto; try (other; fail).
      * intros [X|X]; discriminate.
      * intros x [X|[X|(? & ? & X)]]; try discriminate. injection X as <-. exact P.
    + apply (Rnd_move s _ m i); auto; try (other; fail).
      * unfold good. cbn [pcs flag counted set_pc set_flag set_counted set_live set_poisoned set_cur set_ready after]. rewrite ?fupd_same. auto.
      * left. unfold tok. cbn. rewrite !fupd_same, PC. auto.
      * cbn. rewrite fupd_same. discriminate.
      * left. unfold ran. cbn. rewrite fupd_same, PC. auto.
  - pose proof (i_p s G i p ltac:(auto)) as P.
    eexists. split; [reflexivity|]. split; [|split; [|repeat split; auto]].
    + apply (Glob_move s _ i); auto; cbn; rewrite ?fupd_same, ?PC; auto; try (other; fail).
      * intros [X|X]; discriminate.
      * intros x [X|[X|(? & ? & X)]]; try discriminate. injection X as <-. exact P.
    + apply (Rnd_move s _ m i); auto; try (other; fail).
      * unfold good. cbn [pcs flag counted set_pc set_flag set_counted set_live set_poisoned set_cur set_ready after]. rewrite !fupd_same. split; [destruct b; discriminate|auto].
      * left. unfold tok. cbn. rewrite !fupd_same, PC. auto.
      * intros p' k r. cbn. rewrite fupd_same. intros X. injection X as <- <- <-. split; [lia|]. intros j J. lia.
      * right. exists p. unfold ran. cbn. rewrite fupd_same, PC. auto.
  - pose proof (i_p s G i p ltac:(eauto)) as P. destruct GD as (GR & GF & GC).
    destruct (r_scan _ _ R i p k r PC) as [K SC].
    destruct (Nat.ltb_spec k (np s)) as [L|L].
    + unfold pop. destruct (ready s ((p + k) mod np s)) as [|w t] eqn:RD.
      * eexists. split; [reflexivity|]. split; [|split; [|repeat split; auto]].
        -- apply (Glob_move s _ i); auto; cbn; rewrite ?fupd_same, ?PC; auto; try (other; fail).
           ++ intros [X|X]; discriminate.
           ++ intros x [X|[X|(? & ? & X)]]; try discriminate. injection X as <- _ _. exact P.
        -- apply (Rnd_move s _ m i); auto; try (other; fail).
           ++ unfold good. cbn [pcs flag counted set_pc set_flag set_counted set_live set_poisoned set_cur set_ready after]. rewrite ?fupd_same. auto.
           ++ left. unfold tok. cbn. rewrite !fupd_same, PC. auto.
           ++ intros p' k' r'. cbn. rewrite fupd_same. intros X. injection X as <- <- <-. split; [cbn; lia|]. intros j J. cbn.
              destruct (Nat.eq_dec j k) as [->|N]; [exact RD|]. apply SC. lia.
           ++ left. unfold ran. cbn. rewrite fupd_same, PC. auto.
      * eexists. split; [reflexivity|]. split; [|split; [|repeat split; auto]].
        -- eapply Glob_pop; eauto.
        -- apply (Rnd_move s _ m i); auto; try (other; fail).
           ++ intros x X. cbn. eapply fupd_nil; eauto.
           ++ unfold good. cbn [pcs flag counted set_pc set_flag set_counted set_live set_poisoned set_cur set_ready after]. rewrite ?fupd_same. auto.
           ++ left. unfold tok. cbn. rewrite !fupd_same, PC. split; [reflexivity|]. right. eapply pop_nonempty; eauto.
           ++ cbn. rewrite fupd_same. discriminate.
           ++ left. unfold ran. cbn. rewrite fupd_same, PC. auto.
        -- intros x X. cbn. eapply fupd_nil; eauto.
    + assert (EK : k = np s) by lia. subst k.
      assert (EMP : forall q, ready s q = []) by (apply (scan_all s p (i_q s G)); split; auto).
      destruct r; [| |congruence].
      * eexists. split; [reflexivity|]. split; [|split; [|repeat split; auto]].
        -- apply (Glob_move s _ i); auto; cbn; rewrite ?fupd_same, ?PC; auto; try (other; fail).
           ++ intros [X|X]; discriminate.
           ++ intros x [X|[X|(? & ? & X)]]; discriminate.
        -- apply (Rnd_move s _ m i); auto; try (other; fail).
           ++ unfold good. cbn [pcs flag counted set_pc set_flag set_counted set_live set_poisoned set_cur set_ready after]. rewrite ?fupd_same. auto.
           ++ right. split; [|exact EMP]. unfold tok. cbn [pcs set_pc after]. now rewrite fupd_same.
           ++ cbn. rewrite fupd_same. discriminate.
           ++ left. unfold ran. cbn. rewrite fupd_same, PC. auto.
      * eexists. split; [reflexivity|]. split; [|split; [|repeat split; auto]].
        -- apply (Glob_move s _ i); auto; cbn; rewrite ?fupd_same, ?PC; auto; try (other; fail).
           ++ intros [X|X]; discriminate.
           ++ intros x [X|[X|(? & ? & X)]]; discriminate.
        -- apply (Rnd_move s _ m i); auto; try (other; fail).
           ++ unfold good. cbn [pcs flag counted set_pc set_flag set_counted set_live set_poisoned set_cur set_ready after]. rewrite ?fupd_same. auto.
           ++ right. split; [|exact EMP]. unfold tok. cbn [pcs set_pc after]. now rewrite fupd_same.
           ++ cbn. rewrite fupd_same. discriminate.
           ++ left. unfold ran. cbn. rewrite fupd_same, PC. auto.
  - destruct GD as (GR & GF & GC).
    assert (GE : gotten s (Some i) = Some (p, q, w)) by (cbn; now rewrite PC).
    destruct (publish_ok s p q w (Some i) G GE) as (PU & W & P & NS). rewrite PU. cbn [obind].
    destruct (q_got _ _ _ _ _ _ (i_q s G) _ _ _ _ GE) as (_ & _ & _ & _ & NF).
    destruct (published_started s p w W NS NF) as [SW SX].
    eexists. split; [reflexivity|]. split; [|split].
    + eapply Glob_pub; eauto. destruct r; auto.
    + destruct r; [| |congruence]; refine (Rnd_pub s _ m i p q w _ R I PC ST W NS _ _ _ _ _ _ _ _ _ _ _ _); try reflexivity; try exact SW; try exact SX; cbn; rewrite ?fupd_same; auto;
        intros j N; now rewrite fupd_other.
    + destruct r; repeat split; auto.
  - destruct GD as [GF GC]. rewrite GC. cbn [negb assert_then]. eexists. split; [reflexivity|]. split; [|split; [|repeat split; auto]].
    + apply (Glob_move s _ i); auto; cbn; rewrite ?fupd_same, ?PC; auto; try (other; fail).
      * intros [X|X]; discriminate.
      * intros x [X|[X|(? & ? & X)]]; discriminate.
    + apply (Rnd_move s _ m i); auto; try (other; fail).
      * unfold good. cbn [pcs flag counted set_pc set_flag set_counted set_live set_poisoned set_cur set_ready after]. rewrite !fupd_same, GF. reflexivity.
      * left. unfold tok. cbn. rewrite !fupd_same, PC, GF. auto.
      * cbn. rewrite fupd_same. discriminate.
      * left. unfold ran. cbn. rewrite !fupd_same, PC. auto.
  - eexists. split; [reflexivity|]. split; [|split; [|repeat split; auto]].
    + apply (Glob_move s _ i); auto; cbn; rewrite ?fupd_same, ?PC; auto; try (other; fail).
      intros x [X|[X|(? & ? & X)]]; discriminate.
    + apply (Rnd_move s _ m i); auto; try (other; fail).
      * unfold good. cbn [pcs flag counted set_pc set_flag set_counted set_live set_poisoned set_cur set_ready after]. rewrite ?fupd_same. auto.
      * left. unfold tok. cbn. rewrite !fupd_same, PC. auto.
      * cbn. rewrite fupd_same. discriminate.
      * left. unfold ran. cbn. rewrite fupd_same, PC. auto.
  - eexists. split; [reflexivity|]. split; [|split; [|repeat split; auto]].
    + apply (Glob_move s _ i); auto; cbn; rewrite ?fupd_same, ?PC; auto; try (other; fail).
      * intros _. eapply i_poison; eauto.
      * intros x [X|[X|(? & ? & X)]]; discriminate.
    + apply (Rnd_move s _ m i); auto; try (other; fail).
      * unfold good. cbn [pcs flag counted set_pc set_flag set_counted set_live set_poisoned set_cur set_ready after]. rewrite ?fupd_same. auto.
      * left. unfold tok. cbn. rewrite !fupd_same, PC. auto.
      * cbn. rewrite fupd_same. discriminate.
      * left. unfold ran. cbn. rewrite fupd_same, PC. auto.
  - exists s. auto using kept_refl.
Qed.

Lemma Join_move s s' e i : Join s e -> np s' = np s -> task s' = task s -> (forall j, j <> i -> pcs s' j = pcs s j) ->
  stops (pcs s' i) -> pcs s' i <> TGone true -> (forall p k r, pcs s' i = TNext p k r -> k <= np s) -> Join s' e.
Proof.
  intros (A & B & C & D) NP TK OTH ST NG K. split; [congruence|]. split; [|split].
  - intros j. destruct (Nat.eq_dec j i) as [->|N]; [exact ST|]. rewrite OTH by exact N. auto.
  - intros E j. destruct (Nat.eq_dec j i) as [->|N]; [exact NG|]. rewrite OTH by exact N. auto.
  - intros j p k r E. rewrite NP. destruct (Nat.eq_dec j i) as [->|N]; [eauto|]. rewrite OTH in E by exact N. eauto.
Qed.

Lemma tstep_join s e i b : Glob s -> Join s e -> i < nt s ->
  exists s', tstep i b s = Some s' /\ Glob s' /\ Join s' e /\ kept s s' /\ forall j, awake s j -> awake s' j.
Proof.
  intros G J I. pose proof J as (TK & ST & NG & KK). pose proof (ST i) as SI. unfold tstep.
  pose proof (i_live s G i) as LV.
  assert (PI : pidx s i < np s) by (apply (q_pidx _ _ _ _ _ _ (i_q s G)); exact I).
  assert (AW : forall s' , (forall j, j <> i -> pcs s' j = pcs s j /\ flag s' j = flag s j) -> pcs s' i <> TPark -> forall j, awake s j -> awake s' j).
  { intros s' O N j A E. destruct (Nat.eq_dec j i) as [->|D]; [contradiction|]. destruct (O j D) as [O1 O2]. rewrite O1 in E. rewrite O2. now apply A. }
  destruct (pcs s i) as [| |p|p|p k r|p q w r| | | |pk] eqn:PC; try (destruct SI; fail).
  - destruct (flag s i) eqn:FL; [|exists s; auto using kept_refl].
    eexists. split; [reflexivity|]. split; [|split; [|split; [repeat split; auto|]]].
    + apply (Glob_move s _ i); auto; cbn; rewrite ?fupd_same, ?PC; auto; try (other; fail).
      * intros [X|X]; discriminate.
      * intros x [X|[X|(? & ? & X)]]; discriminate.
    + apply (Join_move s _ e i J); auto; cbn; rewrite ?fupd_same; cbn; auto; try discriminate. intros j N. now rewrite fupd_other.
    + apply AW; [other|cbn; rewrite fupd_same; discriminate].
  - eexists. split; [reflexivity|]. split; [|split; [|split; [repeat split; auto|]]].
    + apply (Glob_move s _ i); auto; cbn; rewrite ?fupd_same, ?PC; auto; try (other; fail).
      * intros [X|X]; discriminate.
      * intros x [X|[X|(? & ? & X)]]; try discriminate. injection X as <-. exact PI.
    + apply (Join_move s _ e i J); auto; cbn; rewrite ?fupd_same; cbn; auto; try discriminate. intros j N. now rewrite fupd_other.
    + apply AW; [other|cbn; rewrite fupd_same; discriminate].
  - pose proof (i_p s G i p ltac:(auto)) as P. rewrite TK.
    eexists. split; [reflexivity|]. split; [|split; [|split; [repeat split; auto|]]].
    + apply (Glob_move s _ i); auto; cbn; rewrite ?fupd_same, ?PC; auto; try (other; fail).
      * intros [X|X]; discriminate.
      * intros x [X|[X|(? & ? & X)]]; try discriminate. injection X as <- _ _. exact P.
    + apply (Join_move s _ e i J); auto; cbn; rewrite ?fupd_same; cbn; auto; try discriminate.
      * intros j N. now rewrite fupd_other.
      * intros x k r X. injection X as <- <- <-. lia.
    + apply AW; [other|cbn; rewrite fupd_same; discriminate].
  - pose proof (i_p s G i p ltac:(eauto)) as P. destruct r; try (destruct SI; fail).
    destruct (Nat.ltb_spec k (np s)) as [L|L].
    + unfold pop. destruct (ready s ((p + k) mod np s)) as [|w t] eqn:RD.
      * eexists. split; [reflexivity|]. split; [|split; [|split; [repeat split; auto|]]].
        -- apply (Glob_move s _ i); auto; cbn; rewrite ?fupd_same, ?PC; auto; try (other; fail).
           ++ intros [X|X]; discriminate.
           ++ intros x [X|[X|(? & ? & X)]]; try discriminate. injection X as <- _ _. exact P.
        -- apply (Join_move s _ e i J); auto; cbn; rewrite ?fupd_same; cbn; auto; try discriminate.
           ++ intros j N. now rewrite fupd_other.
           ++ intros x k' r X. injection X as <- <- <-. lia.
        -- apply AW; [other|cbn; rewrite fupd_same; discriminate].
      * eexists. split; [reflexivity|]. split; [|split; [|split; [repeat split; auto|]]].
        -- eapply Glob_pop; eauto.
        -- apply (Join_move s _ e i J); auto; cbn; rewrite ?fupd_same; cbn; auto; try discriminate. intros j N. now rewrite fupd_other.
        -- intros x X. cbn. eapply fupd_nil; eauto.
        -- apply AW; [other|cbn; rewrite fupd_same; discriminate].
    + eexists. split; [reflexivity|]. split; [|split; [|split; [repeat split; auto|]]].
      * apply (Glob_move s _ i); auto; cbn; rewrite ?fupd_same, ?PC; auto; try (other; fail).
        -- intros [X|X]; discriminate.
        -- intros x [X|[X|(? & ? & X)]]; discriminate.
      * apply (Join_move s _ e i J); auto; cbn; rewrite ?fupd_same; cbn; auto; try discriminate. intros j N. now rewrite fupd_other.
      * apply AW; [other|cbn; rewrite fupd_same; discriminate].
  - destruct r; try (destruct SI; fail).
    assert (GE : gotten s (Some i) = Some (p, q, w)) by (cbn; now rewrite PC).
    destruct (publish_ok s p q w (Some i) G GE) as (PU & W & P & NS). rewrite PU. cbn [obind].
    eexists. split; [reflexivity|]. split; [|split; [|split; [repeat split; auto|]]].
    + eapply Glob_pub; eauto.
    + apply (Join_move s _ e i J); auto; cbn; rewrite ?fupd_same; cbn; auto; try discriminate. intros j N. now rewrite fupd_other.
    + intros j A E. cbn in *. unfold fupd in E |- *. destruct (Nat.eqb_spec j w); [reflexivity|]. destruct (Nat.eqb_spec j i); [discriminate|]. now apply A.
  - exists s. auto using kept_refl.
Qed.

(** * Steps of the main thread *)

Definition mgot (x : mpc) : bool := match x with MGot _ _ _ => true | _ => false end.

Lemma Glob_main s s' : Glob s -> np s' = np s -> nt s' = nt s -> ready s' = ready s -> fin s' = fin s -> pidx s' = pidx s ->
  pcs s' = pcs s -> live s' = live s -> poisoned s' = poisoned s -> past s' = past s -> (forall i, nt s <= i -> flag s' i = flag s i) ->
  mgot (main s) = false -> mgot (main s') = false -> Glob s'.
Proof.
  intros G NP NT RD FN PX PC LV PO PA FL M1 M2. destruct G. constructor; rewrite ?NP, ?NT, ?RD, ?FN, ?PX, ?PC, ?LV, ?PO, ?PA; auto.
  - eapply QInv_ext; [|exact i_q0]. intros [j|]; cbn; [now rewrite PC|]. destruct (main s), (main s'); try discriminate; reflexivity.
  - intros i L. rewrite FL by exact L. auto.
  - eapply Forall_impl; [|exact i_past0]. intros l O. unfold once in *. now rewrite NP, NT.
Qed.

Lemma Rnd_main s s' m : Rnd s m -> np s' = np s -> nt s' = nt s -> fin s' = fin s -> pidx s' = pidx s ->
  pcs s' = pcs s -> flag s' = flag s -> counted s' = counted s -> task s' = task s -> cur s' = cur s ->
  (forall q, ready s q = [] -> ready s' q = []) -> (ready s' = ready s \/ exists q, ready s q <> []) -> Rnd s' m.
Proof.
  intros R NP NT FN PX PC FL CN TK CU RD RE.
  assert (TE : forall i, tok s' i = tok s i) by (intros i; unfold tok; now rewrite PC, FL, PX).
  assert (SE : forall i, started s' i = started s i) by (intros i; unfold started; now rewrite FN, PX).
  assert (RE' : forall i, ran s' i = ran s i) by (intros i; unfold ran; now rewrite PC, CN).
  destruct R. constructor; rewrite ?NP, ?NT, ?CU; try assumption; try congruence.
  - intros w W N. rewrite SE in N. rewrite PC, FL, CN. auto.
  - intros w W N. rewrite SE in N. unfold good. rewrite PC, FL, CN. exact (r_good0 w W N).
  - intros i p. rewrite TE. eauto.
  - intros i j p. rewrite !TE. eauto.
  - destruct r_dead0 as [D|D]; [left; auto|]. right. intros p P. destruct (D p P) as (j & J). exists j. now rewrite TE.
  - intros i p k r E. rewrite PC in E. destruct (r_scan0 _ _ _ _ E) as [A B]. split; [lia|]. rewrite NP. auto.
  - intros i. rewrite RE'. auto.
Qed.

Lemma all_spec s f : all s f = true <-> forall i, i < nt s -> f i = true.
Proof. unfold all. rewrite forallb_forall. split; intros H i L; apply H; [apply in_seq; lia|apply in_seq in L; lia]. Qed.

Lemma quiet_holds s : Quiet s -> all s (fun i => negb (holds_task s i)) = true /\ all s (fun i => negb (holds_lps s i)) = true.
Proof.
  intros Q. rewrite !all_spec. split; intros i L; destruct (Q i L) as [[[A _]|A] _]; unfold holds_task, holds_lps; now rewrite A.
Qed.

Lemma round_begin s : Glob s -> Quiet s -> Fresh s -> poisoned s = false -> Rnd (set_main (MStart 0 0) (set_task true s)) 0.
Proof.
  intros G Q (TK & CU & FN) PO.
  assert (P : forall i, pcs s i = TPark /\ flag s i = false).
  { intros i. destruct (Nat.lt_ge_cases i (nt s)) as [L|L]; [|now apply i_out].
    destruct (Q i L) as [[A|A] _]; [exact A|]. pose proof (i_poison s G i ltac:(auto)). congruence. }
  assert (TN : forall i, tok s i = None). { intros i. destruct (P i) as [A B]. unfold tok. now rewrite A, B. }
  constructor; cbn [task np nt cur set_main set_task].
  - reflexivity.
  - lia.
  - intros w L _. cbn. destruct (P w). destruct (Q w L). auto.
  - intros w L S. unfold started in S. cbn in S. rewrite FN in S. destruct S.
  - intros i p E. change (tok s i = Some p) in E. rewrite TN in E. discriminate.
  - intros i j p E. change (tok s i = Some p) in E. rewrite TN in E. discriminate.
  - right. intros p L. lia.
  - intros i p k r E. cbn in E. destruct (P i). congruence.
  - rewrite CU. constructor.
  - intros i. rewrite CU. cbn. split; [intros []|]. intros [L E]. unfold ran in E. cbn in E. destruct (P i) as [A _]. rewrite A in E.
    destruct (Q i L). congruence.
  - rewrite CU. constructor.
Qed.

Lemma Rnd_weaken s m : Rnd s m -> m < np s -> (forall q, ready s q = []) -> Rnd s (S m).
Proof.
  intros R L E. destruct R. constructor; auto.
  intros i p H. apply r_tok0 in H. lia.
Qed.

Lemma round_end s : Glob s -> Rnd s (np s) -> all s (fun i => negb (live s i) || counted s i) = true ->
  Quiet (set_main MClear (set_counted (fun _ => false) s)) /\ Over s.
Proof.
  intros G R A. rewrite all_spec in A.
  assert (D : forall i, i < nt s -> started s i /\ (pcs s i = TPark /\ flag s i = false /\ counted s i = true \/ pcs s i = TGone true)).
  { intros i L. specialize (A i L). pose proof (i_live s G i) as LV.
    assert (STD : started s i \/ ~ started s i).
    { unfold started. destruct (in_dec Nat.eq_dec i (fin s (pidx s i))); auto. }
    destruct STD as [ST|ST].
    - split; [exact ST|]. pose proof (r_good _ _ R i L ST) as GD. unfold good in GD. rewrite LV in A.
      destruct (pcs s i); cbn in A; try (destruct GD; congruence).
      + destruct (counted s i); [auto|discriminate].
      + destruct GD as (? & ? & X). congruence.
      + destruct GD as (? & ? & X). congruence.
      + destruct GD as (-> & _). auto.
    - destruct (r_new _ _ R i L ST) as (X & Y & Z). rewrite LV, X, Z in A. discriminate. }
  split; [|split].
  - intros i L. cbn. split; [|reflexivity]. destruct (D i L) as (_ & [(X & Y & _)|X]); auto.
  - intros q. destruct (ready s q) as [|w l] eqn:E; [reflexivity|]. exfalso.
    assert (IN : In w (ready s q)) by (rewrite E; now left). destruct (q_ready _ _ _ _ _ _ (i_q s G) q w IN) as (_ & W & P).
    destruct (D w W) as [ST _]. unfold started in ST. rewrite P in ST. exact (q_disj _ _ _ _ _ _ (i_q s G) q w IN ST).
  - destruct R. split; [|exact r_proc0]. apply NoDup_Permutation; [exact r_nd0|apply seq_NoDup|].
    intros i. rewrite r_cur0, in_seq. split; [lia|]. intros [_ L]. split; [lia|].
    destruct (D i ltac:(lia)) as (_ & [(X & _ & Y)|X]); unfold ran; rewrite X; auto.
Qed.

Lemma mstep_inv s a : Inv s -> exists s', mstep a s = Some s' /\ Inv s' /\ np s' = np s /\ nt s' = nt s.
Proof.
  intros [G P]. unfold Phase in P. unfold mstep.
  assert (STAY : exists s', Some s = Some s' /\ Inv s' /\ np s' = np s /\ nt s' = nt s).
  { exists s. split; [reflexivity|]. split; [split; assumption|auto]. }
  destruct (main s) as [| |p k|p q w| | | | | |i e|i e|] eqn:MN; destruct a; try exact STAY.
  - destruct P as (Q & F & PO). rewrite PO. eexists. split; [reflexivity|]. split; [|auto]. split; [|cbn; auto].
    apply (Glob_main s); auto. now rewrite MN.
  - destruct P as (Q & (TK & CU & FN) & PO). rewrite TK. cbn [negb assert_then]. eexists. split; [reflexivity|]. split; [|auto]. split.
    + apply (Glob_main s); auto. now rewrite MN.
    + cbn. split; [|split; [lia|intros j J; lia]]. split; [exact TK|]. split; [|split].
      * intros i. cbn. destruct (Nat.lt_ge_cases i (nt s)) as [L|L]; [destruct (Q i L) as [[[X _]|X] _]|destruct (i_out s G i L) as [X _]]; now rewrite X.
      * intros _ i X. cbn in X. pose proof (i_poison s G i ltac:(auto)). congruence.
      * intros i p k r X. cbn in X. destruct (Nat.lt_ge_cases i (nt s)) as [L|L]; [destruct (Q i L) as [[[Y _]|Y] _]|destruct (i_out s G i L) as [Y _]]; congruence.
  - destruct P as (Q & F & PO). destruct (quiet_holds s Q) as [-> _]. cbn [assert_then]. eexists. split; [reflexivity|]. split; [|auto]. split.
    + apply (Glob_main s); auto. now rewrite MN.
    + cbn. split; [now apply round_begin|]. intros _. split; [lia|]. intros j J. lia.
  - destruct P as (Q & F & PO). destruct F as (TK & F). rewrite TK. eexists. split; [reflexivity|]. split; [|auto]. split.
    + apply (Glob_main s); auto. now rewrite MN.
    + cbn. split; [exact Q|]. split; [split; auto|exact PO].
  - destruct P as [R SC]. destruct (Nat.ltb_spec p (np s)) as [L|L].
    + specialize (SC L). destruct SC as [K SC]. destruct (Nat.ltb_spec k (np s)) as [LK|LK].
      * unfold pop. destruct (ready s ((p + k) mod np s)) as [|w t] eqn:RD.
        -- eexists. split; [reflexivity|]. split; [|auto]. split; [apply (Glob_main s); auto; now rewrite MN|].
           cbn. split; [apply (Rnd_main s); auto|]. intros _. split; [cbn; lia|]. intros j J. cbn.
           destruct (Nat.eq_dec j k) as [->|N]; [exact RD|]. apply SC. lia.
        -- eexists. split; [reflexivity|]. split; [|auto]. split.
           ++ destruct G. constructor; cbn; auto. apply (QInv_pop _ _ _ _ _ (gotten s) _ None p _ w t i_q0 RD); auto.
              ** cbn. now rewrite MN.
              ** intros [j|] N; [reflexivity|congruence].
           ++ cbn. apply (Rnd_main s); auto.
              ** intros x X. cbn. eapply fupd_nil; eauto.
              ** right. eapply pop_nonempty; eauto.
      * assert (EK : k = np s) by lia. subst k. eexists. split; [reflexivity|]. split; [|auto]. split; [apply (Glob_main s); auto; now rewrite MN|].
        cbn. split; [|intros _; split; [lia|intros j J; lia]]. apply (Rnd_main s); auto. apply Rnd_weaken; auto.
        apply (scan_all s p (i_q s G)). split; auto.
    + eexists. split; [reflexivity|]. split; [|auto]. split; [apply (Glob_main s); auto; now rewrite MN|].
      cbn. pose proof (r_m _ _ R). assert (p = np s) by lia. subst p. apply (Rnd_main s); auto.
  - assert (GE : gotten s None = Some (p, q, w)) by (cbn; now rewrite MN).
    destruct (publish_ok s p q w None G GE) as (PU & W & PP & NS). rewrite PU. cbn [obind].
    destruct (q_got _ _ _ _ _ _ (i_q s G) _ _ _ _ GE) as (_ & _ & _ & _ & NF).
    destruct (published_started s p w W NS NF) as [SW SX].
    eexists. split; [reflexivity|]. split; [|auto]. split.
    + destruct G. constructor; cbn; auto.
      * eapply (QInv_pub _ _ _ _ _ (gotten s) _ None p q w i_q0 GE); auto. intros [j|] N; [reflexivity|congruence].
      * intros i L. rewrite fupd_other by lia. auto.
    + cbn. split; [|intros _; split; [lia|intros j J; lia]].
      refine (Rnd_first s _ p w P PP W NS _ _ _ _ _ _ _ _ _ _ _); try reflexivity; [exact SW|exact SX].
  - rewrite (r_task _ _ P). eexists. split; [reflexivity|]. split; [|auto]. split; [apply (Glob_main s); auto; now rewrite MN|].
    cbn. apply (Rnd_main s); auto.
  - destruct (all s (fun i => negb (live s i) || counted s i)) eqn:A; [|exact STAY].
    destruct (round_end s G P A) as [Q O]. eexists. split; [reflexivity|]. split; [|auto]. split; [apply (Glob_main s); auto; now rewrite MN|].
    cbn. split; [exact Q|]. split; [exact O|]. apply (r_task _ _ P).
  - destruct P as (Q & O & TK). destruct (quiet_holds s Q) as [-> _]. cbn [assert_then]. eexists. split; [reflexivity|]. split; [|auto].
    split; [apply (Glob_main s); auto; now rewrite MN|]. cbn. auto.
  - destruct P as (Q & [O1 O2] & TK). destruct (quiet_holds s Q) as [_ ->]. cbn [assert_then].
    assert (E : forallb (fun p => match ready s p with [] => true | _ => false end) (seq 0 (np s)) = true).
    { apply forallb_forall. intros x _. now rewrite O1. }
    rewrite E. cbn [assert_then]. eexists. split; [reflexivity|]. split; [|auto]. split.
    + destruct G. constructor; cbn; auto.
      * apply QInv_swap. eapply QInv_ext; [|exact i_q0]. intros [j|]; [reflexivity|]. cbn. rewrite MN. now destruct (poisoned s).
      * apply Forall_app. split; [exact i_past0|]. repeat constructor; apply O2.
    + unfold Phase. cbn. destruct (poisoned s) eqn:PO; split; auto; [split; auto|split; [split; auto|auto]].
  - destruct P as [Q F]. eexists. split; [reflexivity|]. split; [|auto]. split.
    + apply (Glob_main s); auto; [now rewrite MN|cbn; now destruct (poisoned s)].
    + unfold Phase. cbn. destruct (poisoned s) eqn:PO; auto.
  - destruct P as (Q & (TK & CU & FN)). rewrite TK. cbn [negb assert_then]. eexists. split; [reflexivity|]. split; [|auto]. split.
    + apply (Glob_main s); auto. now rewrite MN.
    + cbn. split; [|split; [lia|intros j J; lia]]. split; [exact TK|]. split; [|split].
      * intros i. cbn. destruct (Nat.lt_ge_cases i (nt s)) as [L|L]; [destruct (Q i L) as [[[X _]|X] _]|destruct (i_out s G i L) as [X _]]; now rewrite X.
      * intros E i X. cbn in X. pose proof (i_poison s G i ltac:(auto)) as Y. rewrite Y in E. discriminate.
      * intros i p k r X. cbn in X. destruct (Nat.lt_ge_cases i (nt s)) as [L|L]; [destruct (Q i L) as [[[Y _]|Y] _]|destruct (i_out s G i L) as [Y _]]; congruence.
  - destruct P as (J & L & AW). destruct (Nat.ltb_spec i (nt s)) as [I|I].
    + eexists. split; [reflexivity|]. split; [|auto]. split.
      * apply (Glob_main s); auto; [|now rewrite MN]. intros j L'. cbn. apply fupd_other. lia.
      * cbn. split; [exact J|]. split; [exact I|]. intros j JL E. cbn in *. unfold fupd. destruct (Nat.eqb_spec j i) as [|N]; [reflexivity|]. apply AW; [lia|exact E].
    + eexists. split; [reflexivity|]. split; [|auto]. split; [apply (Glob_main s); auto; now rewrite MN|].
      cbn. split; [exact J|]. split; [lia|]. split; [intros j JL; apply AW; lia|intros j JL; lia].
  - destruct P as (J & L & AW & GO). destruct (Nat.ltb_spec i (nt s)) as [I|I].
    + destruct (pcs s i) eqn:PC; try exact STAY.
      assert (E : negb (e && panicked) = true).
      { destruct e, panicked; try reflexivity. destruct J as (_ & _ & X & _). now apply (X eq_refl) in PC. }
      rewrite E. cbn [assert_then]. eexists. split; [reflexivity|]. split; [|auto]. split; [apply (Glob_main s); auto; now rewrite MN|].
      cbn. split; [exact J|]. split; [lia|]. split; [exact AW|]. intros j JL. destruct (Nat.eq_dec j i) as [->|N]; [now rewrite PC|]. apply GO. lia.
    + eexists. split; [reflexivity|]. split; [|auto]. split; [apply (Glob_main s); auto; now rewrite MN|]. cbn. split; [exists e; exact J|]. intros j JL. apply GO. lia.
Qed.

Lemma tstep_gone s i b s' j : tstep i b s = Some s' -> gone (pcs s j) = true -> pcs s' j = pcs s j.
Proof.
  unfold tstep. intros E GJ. destruct (Nat.eq_dec j i) as [->|N].
  - destruct (pcs s i) eqn:PC; try discriminate. injection E as <-. exact PC.
  - assert (K : forall x, fupd i x (pcs s) j = pcs s j) by (intros x; now apply fupd_other).
    destruct (pcs s i) as [| |p|p|p k r|p q w r| | | |pk].
    + destruct (flag s i); injection E as <-; cbn; auto.
    + injection E as <-. cbn. auto.
    + injection E as <-. cbn. auto.
    + injection E as <-. cbn. auto.
    + destruct (Nat.ltb k (np s)); [|destruct r; injection E as <-; cbn; auto].
      unfold pop in E. destruct (ready s _); injection E as <-; cbn; auto.
    + unfold publish in E. destruct (Nat.ltb _ _); [|discriminate]. destruct (Nat.eqb q _); [|discriminate]. cbn in E.
      destruct r; injection E as <-; cbn; auto.
    + destruct (negb _); [|discriminate]. injection E as <-. cbn. auto.
    + injection E as <-. cbn. auto.
    + injection E as <-. cbn. auto.
    + injection E as <-. auto.
Qed.

Lemma step_inv s o : Inv s -> exists s', step s o = Some s' /\ Inv s' /\ np s' = np s /\ nt s' = nt s.
Proof.
  intros H. destruct o as [a|i b]; [now apply mstep_inv|]. cbn [step].
  assert (STAY : exists s', Some s = Some s' /\ Inv s' /\ np s' = np s /\ nt s' = nt s).
  { exists s. auto. }
  destruct (Nat.ltb_spec i (nt s)) as [I|_]; [|exact STAY]. destruct H as [G P].
  assert (QT : Quiet s -> tstep i b s = Some s).
  { intros Q. unfold tstep. destruct (Q i I) as [[[A B]|A] _]; rewrite A; [now rewrite B|reflexivity]. }
  assert (RT : forall m, Rnd s m -> (forall s', kept s s' -> Rnd s' m -> Phase s') ->
    exists s', tstep i b s = Some s' /\ Inv s' /\ np s' = np s /\ nt s' = nt s).
  { intros m R K. destruct (tstep_round s m i b G R I) as (s' & E & G' & R' & KP). exists s'. split; [exact E|]. split; [split; auto|].
    destruct KP as (_ & A & B & _). auto. }
  unfold Phase in P. destruct (main s) as [| |p k|p q w| | | | | |x e|x e|] eqn:MN.
  - rewrite QT by apply P. exact STAY.
  - rewrite QT by apply P. exact STAY.
  - destruct P as [R SC]. apply (RT p R). intros s' (A & B & C & D) R'. unfold Phase. rewrite A, MN. split; [exact R'|].
    rewrite B. intros L. destruct (SC L) as [S1 S2]. split; [lia|]. intros j J. rewrite B. auto.
  - apply (RT p P). intros s' (A & B & C & D) R'. unfold Phase. now rewrite A, MN.
  - apply (RT (np s) P). intros s' (A & B & C & D) R'. unfold Phase. now rewrite A, MN, B.
  - apply (RT (np s) P). intros s' (A & B & C & D) R'. unfold Phase. now rewrite A, MN, B.
  - rewrite QT by apply P. exact STAY.
  - rewrite QT by apply P. exact STAY.
  - rewrite QT by apply P. exact STAY.
  - destruct P as (J & L & AW). destruct (tstep_join s e i b G J I) as (s' & E & G' & J' & (A & B & C & D) & AW'). exists s'.
    split; [exact E|]. split; [|auto]. split; [exact G'|]. unfold Phase. rewrite A, MN, C. auto.
  - destruct P as (J & L & AW & GO). destruct (tstep_join s e i b G J I) as (s' & E & G' & J' & (A & B & C & D) & AW'). exists s'.
    split; [exact E|]. split; [|auto]. split; [exact G'|]. unfold Phase. rewrite A, MN, C. split; [exact J'|]. split; [exact L|]. split; [auto|].
    intros j JL. rewrite (tstep_gone _ _ _ _ _ E); auto.
  - destruct P as ((e & J) & GO). destruct (tstep_join s e i b G J I) as (s' & E & G' & J' & (A & B & C & D) & AW'). exists s'.
    split; [exact E|]. split; [|auto]. split; [exact G'|]. unfold Phase. rewrite A, MN, C. split; [eauto|].
    intros j JL. rewrite (tstep_gone _ _ _ _ _ E); auto.
Qed.

Lemma steps_inv ops : forall s, Inv s -> exists s', steps s ops = Some s' /\ Inv s' /\ np s' = np s /\ nt s' = nt s.
Proof.
  induction ops as [|o r IH]; intros s H; [exists s; auto|]. cbn [steps].
  destruct (step_inv s o H) as (s1 & -> & H1 & A & B). cbn [obind]. destruct (IH s1 H1) as (s2 & E & H2 & C & D).
  exists s2. split; [exact E|]. split; [exact H2|]. split; congruence.
Qed.
