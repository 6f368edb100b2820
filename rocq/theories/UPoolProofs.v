(** The invariant of the pool without a bound, and its consequences. *)
From Verif Require Import Base PoolModel UPoolModel PoolSpec PoolProofs LatchModel.
From Coq Require Import Lia Arith.
Local Open Scope nat_scope.

Definition ugone (x : upc) : bool := match x with UGone _ => true | _ => false end.
Definition ran_u (s : upool) (i : nat) : bool :=
  match upcs s i with UWait => ucounted s i | URun | UBusy => false | _ => true end.

Definition next (a b : Z) : Prop := b = wrap32 (a + 1).

Definition good_u (s : upool) (i : nat) : Prop :=
  match upcs s i with
  | UWait => ucounted s i = false /\ next (seen s i) (gen s) \/ ucounted s i = true /\ seen s i = gen s
  | UGone b => b = true /\ ucounted s i = false
  | _ => ucounted s i = false /\ seen s i = gen s
  end.

Record URnd (s : upool) : Prop := {
  ur_task : utask s = true;
  ur_good : forall i, i < unt s -> good_u s i;
  ur_nd : NoDup (ucur s);
  ur_cur : forall i, In i (ucur s) <-> i < unt s /\ ran_u s i = true }.

Definition UQuiet (s : upool) : Prop := forall i, i < unt s -> (upcs s i = UWait /\ seen s i = gen s \/ upcs s i = UGone true) /\ ucounted s i = false.

Definition UJn (s : upool) (e : bool) : Prop :=
  utask s = false /\ (e = true -> forall i, upcs s i <> UGone true) /\
  forall i, i < unt s -> match upcs s i with UWait => next (seen s i) (gen s) | URun | UGone _ => True | _ => False end.

Record UGlob (s : upool) : Prop := {
  u_out : forall i, unt s <= i -> upcs s i = UWait;
  u_live : forall i, ulive s i = negb (ugone (upcs s i));
  u_poison : forall i, upcs s i = UDrop \/ upcs s i = UGone true -> upoisoned s = true;
  u_past : Forall (fun l => Permutation l (seq 0 (unt s))) (upast s);
  u_gen : (0 <= gen s < 4294967296)%Z;
  u_seen : forall i, (0 <= seen s i < 4294967296)%Z }.

Definition UPhase (s : upool) : Prop :=
  match umain s with
  | UIdle | UScope => UQuiet s /\ utask s = false /\ ucur s = [] /\ upoisoned s = false
  | UPanicked => UQuiet s /\ utask s = false /\ ucur s = []
  | UOpen => UQuiet s /\ utask s = true /\ ucur s = [] /\ upoisoned s = false
  | UBody | UMWait => URnd s
  | UClear => UQuiet s /\ Permutation (ucur s) (seq 0 (unt s)) /\ utask s = true
  | UJoin e => UQuiet s /\ utask s = false /\ (e = true -> upoisoned s = false)
  | UJoined i e => UJn s e /\ i <= unt s /\ forall j, j < i -> ugone (upcs s j) = true
  | UEnd => (exists e, UJn s e) /\ forall j, j < unt s -> ugone (upcs s j) = true
  end.

Definition UInv (s : upool) : Prop := UGlob s /\ UPhase s.

Lemma upool_new_inv threads : UInv (upool_new threads).
Proof.
  split.
  - constructor; cbn; auto; try lia; try discriminate. intros i [X|X]; discriminate.
  - cbn. split; [|auto]. intros i _. auto.
Qed.

Lemma wrap_next a : (0 <= a < 4294967296)%Z -> wrap32 (wrap32 (a + 1) - a) = 1%Z.
Proof.
  intros A. unfold wrap32. destruct (Z.eq_dec a 4294967295) as [->|N]; [reflexivity|].
  rewrite (Z.mod_small (a + 1)) by lia. replace (a + 1 - a)%Z with 1%Z by lia. reflexivity.
Qed.
Lemma wrap_same a : wrap32 (a - a) = 0%Z.
Proof. now rewrite Z.sub_diag. Qed.
Lemma wrap_range a : (0 <= wrap32 a < 4294967296)%Z.
Proof. unfold wrap32. apply Z.mod_pos_bound. lia. Qed.

(** The step of a thread. *)
Lemma UGlob_move s s' i : UGlob s -> i < unt s ->
  unt s' = unt s -> gen s' = gen s -> upast s' = upast s -> (forall j, (0 <= seen s' j < 4294967296)%Z) ->
  (forall j, j <> i -> upcs s' j = upcs s j /\ ulive s' j = ulive s j) ->
  ulive s' i = negb (ugone (upcs s' i)) -> (upoisoned s = true -> upoisoned s' = true) ->
  (upcs s' i = UDrop \/ upcs s' i = UGone true -> upoisoned s' = true) -> UGlob s'.
Proof.
  intros G I NT GE PA SE OTH LV PO1 PO2. destruct G. constructor; rewrite ?NT, ?GE, ?PA; auto.
  - intros j L. destruct (OTH j ltac:(lia)) as (-> & _). auto.
  - intros j. destruct (Nat.eq_dec j i) as [->|N]; [exact LV|]. destruct (OTH j N) as (-> & ->). auto.
  - intros j E. destruct (Nat.eq_dec j i) as [->|N]; [auto|]. destruct (OTH j N) as (A & _). rewrite A in E. eauto.
Qed.

Lemma URnd_move s s' i : URnd s -> i < unt s -> unt s' = unt s -> gen s' = gen s -> utask s' = utask s ->
  (forall j, j <> i -> upcs s' j = upcs s j /\ ucounted s' j = ucounted s j /\ seen s' j = seen s j) ->
  good_u s' i ->
  (ucur s' = ucur s /\ ran_u s' i = ran_u s i \/ ucur s' = ucur s ++ [i] /\ ran_u s i = false /\ ran_u s' i = true) -> URnd s'.
Proof.
  intros R I NT GE TK OTH GD CUR. destruct R. constructor.
  - congruence.
  - intros j L. rewrite NT in L. destruct (Nat.eq_dec j i) as [->|N]; [exact GD|]. destruct (OTH j N) as (A & B & C).
    specialize (ur_good0 j L). unfold good_u in *. now rewrite A, B, C, GE.
  - destruct CUR as [[-> _]|(-> & R0 & R1)]; [assumption|].
    assert (NI : ~ In i (ucur s)). { rewrite ur_cur0. intros [_ X]. congruence. }
    clear - ur_nd0 NI. induction (ucur s) as [|a l IH]; cbn; [constructor; [auto|constructor]|].
    inversion ur_nd0; subst. constructor; [|apply IH; [assumption|intros X; apply NI; now right]].
    rewrite in_app_iff. intros [X|[<-|[]]]; [contradiction|]. apply NI. now left.
  - intros j. rewrite NT.
    assert (RJ : j <> i -> ran_u s' j = ran_u s j). { intros N. destruct (OTH j N) as (A & B & _). unfold ran_u. now rewrite A, B. }
    destruct CUR as [[-> RI]|(-> & R0 & R1)].
    + rewrite ur_cur0. destruct (Nat.eq_dec j i) as [->|N]; [now rewrite RI|now rewrite RJ].
    + rewrite in_app_iff, ur_cur0. cbn. destruct (Nat.eq_dec j i) as [->|N]; [rewrite R0, R1; intuition|rewrite RJ by exact N; intuition congruence].
Qed.

Ltac uother := let j := fresh "j" in let N := fresh "N" in intros j N;
  cbn [upcs ucounted ulive seen uset_pc uset_seen uset_counted uset_live uset_poisoned uset_cur];
  apply Nat.eqb_neq in N; unfold fupd; rewrite ?N; auto.

Lemma seen_upd s i : UGlob s -> forall j, (0 <= fupd i (wrap32 (seen s i + 1)) (seen s) j < 4294967296)%Z.
Proof. intros G j. unfold fupd. destruct (Nat.eqb j i); [apply wrap_range|apply u_seen, G]. Qed.

Lemma utstep_round s i b : UGlob s -> URnd s -> i < unt s ->
  exists s', utstep i b s = Some s' /\ UGlob s' /\ URnd s' /\ umain s' = umain s /\ unt s' = unt s.
Proof.
  intros G R I. pose proof (ur_good _ R i I) as GD. unfold good_u in GD. unfold utstep.
  pose proof (u_live s G i) as LV. pose proof (u_seen s G) as SE.
  destruct (upcs s i) as [| | | | | |pk] eqn:PC.
  - destruct GD as [[CN NX]|[CN SM]].
    + rewrite NX, wrap_next by apply SE. cbn [Z.eqb Pos.eqb]. eexists. split; [reflexivity|]. split; [|split; [|auto]].
      * apply (UGlob_move s _ i); auto; cbn [seen uset_pc uset_seen]; rewrite ?fupd_same; auto; try (uother; fail).
        -- now apply seen_upd.
        -- cbn. now rewrite fupd_same, LV.
        -- cbn. rewrite fupd_same. intros [X|X]; discriminate.
      * apply (URnd_move s _ i); auto; try (uother; fail).
        -- unfold good_u. cbn. rewrite !fupd_same. auto.
        -- left. unfold ran_u. cbn. rewrite fupd_same, PC. auto.
    + rewrite SM, wrap_same. cbn [Z.eqb]. exists s. auto.
  - rewrite (ur_task _ R). eexists. split; [reflexivity|]. split; [|split; [|auto]].
    + apply (UGlob_move s _ i); auto; try (uother; fail); cbn; rewrite ?fupd_same; auto. intros [X|X]; discriminate.
    + apply (URnd_move s _ i); auto; try (uother; fail).
      * unfold good_u. cbn. now rewrite !fupd_same.
      * left. unfold ran_u. cbn. rewrite fupd_same, PC. auto.
  - eexists. split; [reflexivity|]. split; [|split; [|auto]].
    + apply (UGlob_move s _ i); auto; try (uother; fail); cbn; rewrite ?fupd_same; destruct b; auto; intros [X|X]; discriminate.
    + apply (URnd_move s _ i); auto; try (uother; fail).
      * unfold good_u. cbn. rewrite !fupd_same. now destruct b.
      * right. unfold ran_u. cbn. rewrite fupd_same, PC. destruct b; auto.
  - destruct GD as [CN SM]. rewrite CN. cbn [negb assert_then]. eexists. split; [reflexivity|]. split; [|split; [|auto]].
    + apply (UGlob_move s _ i); auto; try (uother; fail); cbn; rewrite ?fupd_same; auto. intros [X|X]; discriminate.
    + apply (URnd_move s _ i); auto; try (uother; fail).
      * unfold good_u. cbn. rewrite !fupd_same. auto.
      * left. unfold ran_u. cbn. rewrite !fupd_same, PC. auto.
  - eexists. split; [reflexivity|]. split; [|split; [|auto]].
    + apply (UGlob_move s _ i); auto; try (uother; fail); cbn; rewrite ?fupd_same; auto.
    + apply (URnd_move s _ i); auto; try (uother; fail).
      * unfold good_u. cbn. now rewrite !fupd_same.
      * left. unfold ran_u. cbn. rewrite fupd_same, PC. auto.
  - eexists. split; [reflexivity|]. split; [|split; [|auto]].
    + apply (UGlob_move s _ i); auto; try (uother; fail); cbn; rewrite ?fupd_same; auto. intros _. eapply u_poison; eauto.
    + apply (URnd_move s _ i); auto; try (uother; fail).
      * unfold good_u. cbn. rewrite !fupd_same. destruct GD. auto.
      * left. unfold ran_u. cbn. rewrite fupd_same, PC. auto.
  - exists s. auto.
Qed.

Lemma utstep_gone s i b s' j : utstep i b s = Some s' -> ugone (upcs s j) = true -> upcs s' j = upcs s j.
Proof.
  unfold utstep. intros E GJ. destruct (Nat.eq_dec j i) as [->|N].
  - destruct (upcs s i) eqn:PC; try discriminate. injection E as <-. exact PC.
  - assert (K : forall x, fupd i x (upcs s) j = upcs s j) by (intros x; now apply fupd_other).
    destruct (upcs s i).
    + destruct (_ =? _)%Z; [injection E as <-; cbn; auto|]. destruct (_ =? _)%Z; [|discriminate]. injection E as <-. auto.
    + injection E as <-. destruct (utask s); cbn; auto.
    + injection E as <-. cbn. auto.
    + destruct (negb _); [|discriminate]. injection E as <-. cbn. auto.
    + injection E as <-. cbn. auto.
    + injection E as <-. cbn. auto.
    + injection E as <-. auto.
Qed.

Lemma utstep_join s e i b : UGlob s -> UJn s e -> i < unt s ->
  exists s', utstep i b s = Some s' /\ UGlob s' /\ UJn s' e /\ umain s' = umain s /\ unt s' = unt s.
Proof.
  intros G (TK & NG & ST) I. pose proof (ST i I) as SI. unfold utstep. pose proof (u_live s G i) as LV. pose proof (u_seen s G) as SE.
  destruct (upcs s i) as [| | | | | |pk] eqn:PC; try (destruct SI; fail).
  - rewrite SI, wrap_next by apply SE. cbn [Z.eqb Pos.eqb]. eexists. split; [reflexivity|]. split; [|split; [|auto]].
    + apply (UGlob_move s _ i); auto; try (uother; fail).
      * cbn [seen uset_pc uset_seen]. now apply seen_upd.
      * cbn. now rewrite fupd_same, LV.
      * cbn. rewrite fupd_same. intros [X|X]; discriminate.
    + split; [exact TK|]. split.
      * intros E j. cbn. unfold fupd. destruct (Nat.eqb j i); [discriminate|auto].
      * intros j J. cbn in *. unfold fupd. destruct (Nat.eqb_spec j i); [auto|]. apply ST. exact J.
  - rewrite TK. eexists. split; [reflexivity|]. split; [|split; [|auto]].
    + apply (UGlob_move s _ i); auto; try (uother; fail); cbn; rewrite ?fupd_same; auto. intros [X|X]; discriminate.
    + split; [exact TK|]. split.
      * intros E j. cbn. unfold fupd. destruct (Nat.eqb j i); [discriminate|auto].
      * intros j J. cbn in *. unfold fupd. destruct (Nat.eqb_spec j i); [auto|]. apply ST. exact J.
  - exists s. split; [reflexivity|]. split; [exact G|]. split; [split; auto|auto].
Qed.

Lemma uall_spec s f : uall s f = true <-> forall i, i < unt s -> f i = true.
Proof. unfold uall. rewrite forallb_forall. split; intros H i L; apply H; [apply in_seq; lia|apply in_seq in L; lia]. Qed.

Lemma uquiet_holds s : UQuiet s -> uall s (fun i => negb (uholds s i)) = true.
Proof. intros Q. apply uall_spec. intros i L. destruct (Q i L) as [[[A _]|A] _]; unfold uholds; now rewrite A. Qed.

Lemma UGlob_main s s' : UGlob s -> unt s' = unt s -> (0 <= gen s' < 4294967296)%Z -> seen s' = seen s -> upcs s' = upcs s ->
  ulive s' = ulive s -> upoisoned s' = upoisoned s -> upast s' = upast s -> UGlob s'.
Proof. intros G A B C D E F H. destruct G. constructor; rewrite ?A, ?C, ?D, ?E, ?F, ?H; auto. Qed.

Lemma umstep_inv s a : UInv s -> exists s', umstep a s = Some s' /\ UInv s' /\ unt s' = unt s.
Proof.
  intros [G P]. unfold UPhase in P. unfold umstep.
  assert (STAY : exists s', Some s = Some s' /\ UInv s' /\ unt s' = unt s).
  { exists s. split; [reflexivity|]. split; [split; assumption|auto]. }
  pose proof (u_gen s G) as GE.
  destruct (umain s) as [| | | | | | |e|i e|] eqn:MN; destruct a; try exact STAY.
  - destruct P as (Q & F & C & PO). rewrite PO. eexists. split; [reflexivity|]. split; [|auto]. split; [apply (UGlob_main s); auto|cbn; auto].
  - destruct P as (Q & F & C & PO). rewrite F. cbn [negb assert_then]. eexists. split; [reflexivity|]. split; [|auto]. split; [apply (UGlob_main s); auto|cbn; auto].
  - destruct P as (Q & F & C & PO). rewrite (uquiet_holds s Q). cbn [assert_then]. eexists. split; [reflexivity|]. split; [|auto]. split; [apply (UGlob_main s); auto|cbn; auto].
  - destruct P as (Q & F & C & PO). rewrite F. eexists. split; [reflexivity|]. split; [|auto]. split; [apply (UGlob_main s); auto|cbn; auto].
  - destruct P as (Q & F & C & PO). eexists. split; [reflexivity|]. split; [|auto]. split; [apply (UGlob_main s); auto; apply wrap_range|]. cbn.
    assert (W : forall i, i < unt s -> upcs s i = UWait /\ seen s i = gen s /\ ucounted s i = false).
    { intros i L. destruct (Q i L) as [[[A B]|A] D]; [auto|]. pose proof (u_poison s G i ltac:(auto)). congruence. }
    constructor; cbn; auto.
    + intros i L. destruct (W i L) as (A & B & D). unfold good_u. cbn. rewrite A, D, B. left. split; reflexivity.
    + rewrite C. constructor.
    + intros i. rewrite C. cbn. split; [intros []|]. intros [L E]. destruct (W i L) as (A & B & D). unfold ran_u in E. cbn in E. rewrite A, D in E. discriminate.
  - rewrite (ur_task _ P). eexists. split; [reflexivity|]. split; [|auto]. split; [apply (UGlob_main s); auto|cbn]. destruct P. constructor; auto.
  - destruct (uall s (fun i => negb (ulive s i) || ucounted s i)) eqn:A; [|exact STAY]. rewrite uall_spec in A.
    assert (D : forall i, i < unt s -> upcs s i = UWait /\ ucounted s i = true /\ seen s i = gen s \/ upcs s i = UGone true).
    { intros i L. specialize (A i L). pose proof (ur_good _ P i L) as GD. unfold good_u in GD. rewrite (u_live s G i) in A.
      destruct (upcs s i); cbn in A; try (destruct GD; congruence).
      - left. destruct GD as [[X Y]|[X Y]]; [congruence|auto].
      - destruct GD as [-> _]. auto. }
    eexists. split; [reflexivity|]. split; [|auto]. split; [apply (UGlob_main s); auto|cbn]. split; [|split; [|apply (ur_task _ P)]].
    + intros i L. cbn. split; [|reflexivity]. destruct (D i L) as [(X & _ & Y)|X]; auto.
    + destruct P. apply NoDup_Permutation; [assumption|apply seq_NoDup|]. intros i. rewrite ur_cur0, in_seq. split; [lia|]. intros [_ L]. split; [lia|].
      destruct (D i ltac:(lia)) as [(X & Y & _)|X]; unfold ran_u; rewrite X; auto.
  - destruct P as (Q & O & TK). rewrite (uquiet_holds s Q). cbn [assert_then]. eexists. split; [reflexivity|]. split; [|auto]. split.
    + destruct G. constructor; cbn; auto. apply Forall_app. split; [assumption|]. repeat constructor. exact O.
    + unfold UPhase. cbn. destruct (upoisoned s) eqn:PO; split; auto.
  - destruct P as (Q & F & C). eexists. split; [reflexivity|]. split; [|auto]. split; [apply (UGlob_main s); auto|]. unfold UPhase. cbn. destruct (upoisoned s) eqn:PO; auto.
  - destruct P as (Q & F & C). rewrite F. cbn [negb assert_then]. eexists. split; [reflexivity|]. split; [|auto]. split; [apply (UGlob_main s); auto|].
    cbn. split; [exact Q|]. split; [exact F|]. destruct (upoisoned s); [discriminate|auto].
  - destruct P as (Q & F & C). eexists. split; [reflexivity|]. split; [|auto]. split; [apply (UGlob_main s); auto; apply wrap_range|]. cbn.
    split; [|split; [lia|intros j J; lia]]. split; [exact F|]. split.
    + intros E i X. cbn in X. pose proof (u_poison s G i ltac:(auto)) as Y. rewrite (C E) in Y. discriminate.
    + intros i L. cbn in *. destruct (Q i L) as [[[A B]|A] _]; rewrite A; [|exact Logic.I]. rewrite B. reflexivity.
  - destruct P as (J & L & GO). destruct (Nat.ltb_spec i (unt s)) as [I|I].
    + destruct (upcs s i) eqn:PC; try exact STAY.
      assert (E : negb (e && panicked) = true).
      { destruct e, panicked; try reflexivity. destruct J as (_ & X & _). now apply (X eq_refl) in PC. }
      rewrite E. cbn [assert_then]. eexists. split; [reflexivity|]. split; [|auto]. split; [apply (UGlob_main s); auto|].
      cbn. split; [exact J|]. split; [lia|]. intros j JL. destruct (Nat.eq_dec j i) as [->|N]; [now rewrite PC|]. apply GO. lia.
    + eexists. split; [reflexivity|]. split; [|auto]. split; [apply (UGlob_main s); auto|]. cbn. split; [exists e; exact J|]. intros j JL. apply GO. lia.
Qed.

Lemma ustep_inv s o : UInv s -> exists s', ustep s o = Some s' /\ UInv s' /\ unt s' = unt s.
Proof.
  intros H. destruct o as [a|i b]; [now apply umstep_inv|]. cbn [ustep].
  assert (STAY : exists s', Some s = Some s' /\ UInv s' /\ unt s' = unt s) by (exists s; auto).
  destruct (Nat.ltb_spec i (unt s)) as [I|_]; [|exact STAY]. destruct H as [G P].
  assert (QT : UQuiet s -> utstep i b s = Some s).
  { intros Q. unfold utstep. destruct (Q i I) as [[[A B]|A] _]; rewrite A; [rewrite B, wrap_same|]; reflexivity. }
  unfold UPhase in P. destruct (umain s) as [| | | | | | |e|x e|] eqn:MN; try (rewrite QT by apply P; exact STAY).
  - destruct (utstep_round s i b G P I) as (s' & E & G' & R' & M & N). exists s'. split; [exact E|]. split; [|auto]. split; [exact G'|]. unfold UPhase. now rewrite M, MN.
  - destruct (utstep_round s i b G P I) as (s' & E & G' & R' & M & N). exists s'. split; [exact E|]. split; [|auto]. split; [exact G'|]. unfold UPhase. now rewrite M, MN.
  - destruct P as (J & L & GO). destruct (utstep_join s e i b G J I) as (s' & E & G' & J' & M & N). exists s'.
    split; [exact E|]. split; [|auto]. split; [exact G'|]. unfold UPhase. rewrite M, MN, N. split; [exact J'|]. split; [exact L|].
    intros j JL. rewrite (utstep_gone _ _ _ _ _ E); auto.
  - destruct P as ((e & J) & GO). destruct (utstep_join s e i b G J I) as (s' & E & G' & J' & M & N). exists s'.
    split; [exact E|]. split; [|auto]. split; [exact G'|]. unfold UPhase. rewrite M, MN, N. split; [eauto|].
    intros j JL. rewrite (utstep_gone _ _ _ _ _ E); auto.
Qed.

Lemma usteps_inv ops : forall s, UInv s -> exists s', usteps s ops = Some s' /\ UInv s' /\ unt s' = unt s.
Proof.
  induction ops as [|o r IH]; intros s H; [exists s; auto|]. cbn [usteps].
  destruct (ustep_inv s o H) as (s1 & -> & H1 & A). cbn [obind]. destruct (IH s1 H1) as (s2 & E & H2 & C).
  exists s2. split; [exact E|]. split; [exact H2|]. congruence.
Qed.
