(** Proofs about the channel. *)
From Verif Require Import Base ChanModel ChanSpec.

Lemma word_roundtrip s : of_u32 (to_u32 s) = Some s.
Proof. destruct s as [[] [] []]; reflexivity. Qed.
Lemma word_eqb s t : (to_u32 s =? to_u32 t) = true <-> s = t.
Proof.
  rewrite Z.eqb_eq. split; [|intros ->; reflexivity]. intros E.
  pose proof (word_roundtrip s) as A. rewrite E, word_roundtrip in A. congruence.
Qed.

Section Proofs.
Context {M : Type}.
Implicit Type c : chan M.

Lemma oks_app a b : oks (a ++ b) = oks a ++ @oks M b.
Proof. induction a as [|[v|] a IH]; cbn; [reflexivity|now rewrite IH|exact IH]. Qed.

(** The sender is somewhere in a send. *)
Inductive link c : Prop :=
| l_empty : contents_state (state c) = Empty -> (sender c = SIdle \/ sender c = SWake) -> sends c = received c -> link c
| l_start v : contents_state (state c) = Empty -> sender c = SStart v -> sends c = received c ++ [v] -> link c
| l_write v : contents_state (state c) = Writing -> sender c = SWrite v -> sends c = received c ++ [v] -> link c
| l_publish v : contents_state (state c) = Writing -> sender c = SPublish -> message c = Some v -> sends c = received c ++ [v] -> link c
| l_ready v : contents_state (state c) = Ready -> (sender c = SIdle \/ sender c = SWake) -> message c = Some v -> sends c = received c ++ [v] -> link c
| l_reading v : contents_state (state c) = Reading -> (sender c = SIdle \/ sender c = SWake) -> message c = Some v -> sends c = received c ++ [v] ->
    (receiver c = RRead \/ receiver c = RFinish v) -> link c.

Definition waiting (s : cstate) : Prop := writer_closed s = false /\ (contents_state s = Empty \/ contents_state s = Writing).

Definition rcv_ok c : Prop :=
  match receiver c with
  | RIdle | RLoad => has_sleeper (state c) = false /\ contents_state (state c) <> Reading
  | RSetBit s => has_sleeper (state c) = false /\ contents_state (state c) <> Reading /\ has_sleeper s = false /\ waiting s
  | RFutex e => has_sleeper (state c) = true /\ contents_state (state c) <> Reading /\ has_sleeper e = true /\ waiting e
  | RAsleep => has_sleeper (state c) = true /\ contents_state (state c) <> Reading /\ (waiting (state c) \/ sender c = SWake \/ (0 < closing c)%nat)
  | RClear => has_sleeper (state c) = true /\ contents_state (state c) <> Reading
  | RTake => has_sleeper (state c) = false /\ contents_state (state c) = Ready
  | RRead | RFinish _ => has_sleeper (state c) = false /\ contents_state (state c) = Reading
  | RPanic => False
  end.

Record kinv c : Prop := { ki_link : link c; ki_rcv : rcv_ok c }.

Lemma new_kinv : kinv chan_new.
Proof. constructor; [apply l_empty; auto|]. cbn. split; [reflexivity|discriminate]. Qed.

Lemma contents_eqb_spec a b : contents_eqb a b = true <-> a = b.
Proof. destruct a, b; cbn; split; congruence. Qed.

(** The receiver's view after an evaluation with an up-to-date state and no sleeper. *)
Lemma eval_inv c st :
  link c -> contents_state st = contents_state (state c) -> has_sleeper st = false -> contents_state st <> Reading ->
  kinv (let '(p, r) := evaluate st in set_r c st p r).
Proof.
  intros L CS HS NR. unfold evaluate. destruct (contents_state st) eqn:E; cbn [contents_eqb orb negb].
  - destruct (writer_closed st) eqn:W; [|rewrite HS].
    + constructor; [|cbn; split; [auto|congruence]].
      destruct L as [A B C|v A B C|v A B C|v A B C D|v A B C D|v A B C D F]; try congruence.
      * apply l_empty; cbn; auto; try congruence. unfold received in *. cbn. rewrite oks_app, app_nil_r. exact C.
      * apply (l_start _ v); cbn; auto; try congruence. unfold received in *. cbn. rewrite oks_app, app_nil_r. exact C.
    + constructor; [|cbn; unfold waiting; repeat split; auto; congruence].
      destruct L as [A B C|v A B C|v A B C|v A B C D|v A B C D|v A B C D F]; try congruence.
      * apply l_empty; cbn; auto; try congruence. unfold received in *. cbn. rewrite oks_app, app_nil_r. exact C.
      * apply (l_start _ v); cbn; auto; try congruence. unfold received in *. cbn. rewrite oks_app, app_nil_r. exact C.
  - destruct (writer_closed st) eqn:W; [|rewrite HS].
    + constructor; [|cbn; split; [auto|congruence]].
      destruct L as [A B C|v A B C|v A B C|v A B C D|v A B C D|v A B C D F]; try congruence.
      * apply (l_write _ v); cbn; auto; try congruence. unfold received in *. cbn. rewrite oks_app, app_nil_r. exact C.
      * apply (l_publish _ v); cbn; auto; try congruence. unfold received in *. cbn. rewrite oks_app, app_nil_r. exact D.
    + constructor; [|cbn; unfold waiting; repeat split; auto; congruence].
      destruct L as [A B C|v A B C|v A B C|v A B C D|v A B C D|v A B C D F]; try congruence.
      * apply (l_write _ v); cbn; auto; try congruence. unfold received in *. cbn. rewrite oks_app, app_nil_r. exact C.
      * apply (l_publish _ v); cbn; auto; try congruence. unfold received in *. cbn. rewrite oks_app, app_nil_r. exact D.
  - constructor; [|cbn; auto].
    destruct L as [A B C|v A B C|v A B C|v A B C D|v A B C D|v A B C D F]; try congruence.
    apply (l_ready _ v); cbn; auto; try congruence. unfold received in *. cbn. rewrite oks_app, app_nil_r. exact D.
  - congruence.
Qed.

(** The link survives steps of the receiver that change only its place and flags. *)
Lemma link_r c st p : link c -> contents_state st = contents_state (state c) -> contents_state st <> Reading -> link (set_r c st p []).
Proof.
  intros L CS NR. destruct L as [A B C|v A B C|v A B C|v A B C D|v A B C D|v A B C D F]; try congruence.
  - apply l_empty; cbn; auto; try congruence. unfold received in *. cbn. now rewrite app_nil_r.
  - apply (l_start _ v); cbn; auto; try congruence. unfold received in *. cbn. now rewrite app_nil_r.
  - apply (l_write _ v); cbn; auto; try congruence. unfold received in *. cbn. now rewrite app_nil_r.
  - apply (l_publish _ v); cbn; auto; try congruence. unfold received in *. cbn. now rewrite app_nil_r.
  - apply (l_ready _ v); cbn; auto; try congruence. unfold received in *. cbn. now rewrite app_nil_r.
Qed.

Lemma receiver_inv c : kinv c -> kinv (receiver_step c).
Proof.
  intros [L R]. unfold receiver_step. unfold rcv_ok in R. destruct (receiver c) as [| |s|e| | | | |v|] eqn:E.
  - constructor; [exact L|]. unfold rcv_ok. now rewrite E.
  - apply eval_inv; tauto.
  - destruct R as (HS & NR & HS' & WS). destruct (to_u32 (state c) =? to_u32 s) eqn:Q.
    + apply word_eqb in Q. subst s. constructor; [apply link_r; auto|]. cbn. unfold waiting. cbn. unfold waiting in WS. tauto.
    + apply eval_inv; auto.
  - destruct R as (HS & NR & HE & WE). constructor; [apply link_r; auto|].
    unfold rcv_ok. cbn. destruct (to_u32 (state c) =? to_u32 e) eqn:Q; [|auto]. apply word_eqb in Q. subst e. auto.
  - constructor; [exact L|]. unfold rcv_ok. now rewrite E.
  - destruct R as (HS & NR). apply eval_inv; auto.
  - destruct R as (HS & RD). rewrite RD. cbn [contents_eqb]. constructor; [|cbn; auto].
    destruct L as [A B C|v A B C|v A B C|v A B C D|v A B C D|v A B C D F]; try congruence.
    apply (l_reading _ v); cbn; auto. unfold received in *. cbn. now rewrite app_nil_r.
  - destruct R as (HS & RD). destruct L as [A B C|v A B C|v A B C|v A B C D|v A B C D|v A B C D F]; try congruence. rewrite C.
    constructor; [|cbn; auto]. apply (l_reading _ v); cbn; auto. unfold received in *. cbn. now rewrite app_nil_r.
  - destruct R as (HS & RD). destruct L as [A B C|x A B C|x A B C|x A B C D|x A B C D|x A B C D F]; try congruence.
    assert (x = v) by (destruct F; congruence). subst x. rewrite RD. cbn [contents_eqb].
    constructor; [|cbn; split; [auto|discriminate]]. apply l_empty; cbn; auto. unfold received in *. cbn. now rewrite oks_app.
  - destruct R.
Qed.

(** Steps of the sender and the closers keep the receiver's side. *)
Lemma sender_inv c : kinv c -> kinv (sender_step c).
Proof.
  intros [L R]. unfold sender_step. destruct (sender c) as [|v|v| | |] eqn:E.
  - constructor; auto.
  - destruct L as [A B C|x A B C|x A B C|x A B C D|x A B C D|x A B C D F]; try (rewrite E in *; first [congruence | destruct B; congruence]).
    assert (x = v) by congruence. subst x. rewrite A. cbn [contents_eqb]. constructor.
    + apply (l_write _ v); cbn; auto.
    + unfold rcv_ok in *. cbn. unfold waiting in *. rewrite A, E in R. cbn in *. destruct (receiver c); try tauto; intuition congruence.
  - destruct L as [A B C|x A B C|x A B C|x A B C D|x A B C D|x A B C D F]; try (rewrite E in *; first [congruence | destruct B; congruence]).
    assert (x = v) by congruence. subst x. constructor.
    + apply (l_publish _ v); cbn; auto.
    + unfold rcv_ok in *. cbn. rewrite E in R. destruct (receiver c); try tauto. destruct R as (R1 & R2 & [R3|[R3|R3]]); auto. discriminate.
  - destruct L as [A B C|x A B C|x A B C|x A B C D|x A B C D|x A B C D F]; try (rewrite E in *; first [congruence | destruct B; congruence]).
    rewrite A. cbn [contents_eqb]. constructor.
    + apply (l_ready _ x); cbn; auto. destruct (has_sleeper (state c)); auto.
    + unfold rcv_ok in *. cbn. rewrite A, E in R. destruct (receiver c); cbn in *; try (destruct R as (R1 & R2); first [discriminate R2 | rewrite R1; repeat split; auto; discriminate]); try tauto.
      * destruct R as (R1 & R2 & R3). split; [exact R1|]. split; [discriminate|exact R3].
      * destruct R as (R1 & R2 & R3). split; [exact R1|]. split; [discriminate|exact R3].
  - constructor.
    + destruct L as [A B C|x A B C|x A B C|x A B C D|x A B C D|x A B C D F]; try congruence.
      * apply l_empty; cbn; auto.
      * apply (l_ready _ x); cbn; auto.
      * apply (l_reading _ x); cbn; auto. unfold wake. destruct F as [F|F]; rewrite F; auto.
    + unfold rcv_ok in *. cbn. destruct (receiver c); cbn; tauto.
  - destruct L as [A B C|x A B C|x A B C|x A B C D|x A B C D|x A B C D F]; try (rewrite E in *; first [congruence | destruct B; congruence]).
Qed.

Definition may_send c (a : kact M) : Prop := match a with KSend _ => sender c = SIdle -> received c = sends c | _ => True end.

Lemma kstep_inv a c : kinv c -> may_send c a -> kinv (kstep a c).
Proof.
  intros I MS. pose proof I as [L R]. destruct a as [v| | | | | |]; cbn [kstep].
  - destruct (sender c) eqn:E; auto. specialize (MS E). destruct L as [A B C|x A B C|x A B C|x A B C D|x A B C D|x A B C D F].
    + constructor.
      * apply (l_start _ v); cbn; auto. unfold received in *. cbn. now rewrite C.
      * unfold rcv_ok in *. cbn. rewrite E in R. destruct (receiver c); try tauto. destruct R as (R1 & R2 & [R3|[R3|R3]]); auto. discriminate.
    + congruence.
    + congruence.
    + congruence.
    + exfalso. rewrite <- MS in D. apply (f_equal (@length M)) in D. rewrite app_length in D. cbn in D. lia.
    + exfalso. rewrite <- MS in D. apply (f_equal (@length M)) in D. rewrite app_length in D. cbn in D. lia.
  - now apply sender_inv.
  - destruct (receiver c) eqn:E; auto. unfold rcv_ok in R. rewrite E in R. constructor; [apply link_r; tauto|]. exact R.
  - now apply receiver_inv.
  - destruct (receiver c) eqn:E; auto. unfold rcv_ok in R. rewrite E in R. constructor; [apply link_r; tauto|]. cbn. tauto.
  - constructor.
    + destruct L as [A B C|x A B C|x A B C|x A B C D|x A B C D|x A B C D F].
      * apply l_empty; cbn; auto.
      * apply (l_start _ x); cbn; auto.
      * apply (l_write _ x); cbn; auto.
      * apply (l_publish _ x); cbn; auto.
      * apply (l_ready _ x); cbn; auto.
      * apply (l_reading _ x); cbn; auto.
    + unfold rcv_ok in *. cbn. destruct (receiver c); cbn; auto. destruct R as (R1 & R2 & R3). rewrite R1. repeat split; auto. right. right. lia.
  - destruct (closing c) as [|n] eqn:E; auto. constructor.
    + destruct L as [A B C|x A B C|x A B C|x A B C D|x A B C D|x A B C D F].
      * apply l_empty; cbn; auto.
      * apply (l_start _ x); cbn; auto.
      * apply (l_write _ x); cbn; auto.
      * apply (l_publish _ x); cbn; auto.
      * apply (l_ready _ x); cbn; auto.
      * apply (l_reading _ x); cbn; auto. unfold wake. destruct F as [F|F]; rewrite F; auto.
    + unfold rcv_ok in *. cbn. destruct (receiver c); cbn; tauto.
Qed.

Lemma krun_inv acts : forall c, kinv c -> polite c acts -> kinv (krun c acts).
Proof.
  induction acts as [|a acts IH]; intros c I P; [exact I|]. destruct P as [P1 P2]. cbn. apply IH; [|exact P2]. now apply kstep_inv.
Qed.

(** ** Consequences *)
Lemma no_panic c : kinv c -> sender c <> SPanic /\ receiver c <> RPanic.
Proof.
  intros [L R]. split.
  - destruct L as [A B C|x A B C|x A B C|x A B C D|x A B C D|x A B C D F]; try congruence; destruct B; congruence.
  - intros E. unfold rcv_ok in R. now rewrite E in R.
Qed.

Lemma delivery c : kinv c -> sends c = received c \/ exists v, sends c = received c ++ [v].
Proof. intros [[A B C|x A B C|x A B C|x A B C D|x A B C D|x A B C D F] _]; eauto. Qed.

Lemma removelast_snoc (l : list M) v : removelast (l ++ [v]) = l.
Proof. apply removelast_last. Qed.

(** Published but not received: the channel is Ready or being read. *)
Lemma published_ready c : kinv c -> (published c = received c /\ contents_state (state c) <> Ready /\ contents_state (state c) <> Reading) \/
  (exists v, published c = received c ++ [v] /\ message c = Some v /\ (contents_state (state c) = Ready \/ contents_state (state c) = Reading)).
Proof.
  intros [L _]. unfold published. destruct L as [A B C|x A B C|x A B C|x A B C D|x A B C D|x A B C D F].
  - left. rewrite A. destruct B as [B|B]; rewrite B; repeat split; try discriminate; exact C.
  - left. rewrite A, B, C. repeat split; try discriminate. apply removelast_snoc.
  - left. rewrite A, B, C. repeat split; try discriminate. apply removelast_snoc.
  - left. rewrite A, B, D. repeat split; try discriminate. apply removelast_snoc.
  - right. exists x. destruct B as [B|B]; rewrite B; auto.
  - right. exists x. destruct B as [B|B]; rewrite B; auto.
Qed.

Lemma no_lost c : kinv c -> receiver c = RAsleep -> published c <> received c \/ writer_closed (state c) = true ->
  sender c = SWake \/ (0 < closing c)%nat.
Proof.
  intros I E H. pose proof I as [L R]. unfold rcv_ok in R. rewrite E in R. destruct R as (_ & NR & [W|W]); [|exact W].
  exfalso. destruct W as [W1 W2]. destruct H as [H|H]; [|congruence].
  destruct (published_ready c I) as [(A & _)|(v & _ & _ & B)]; [congruence|]. destruct B, W2; congruence.
Qed.

Lemma evaluate_result st p r : @evaluate M st = (p, r) -> r = [] \/ (r = [None] /\ writer_closed st = true /\ contents_state st <> Ready).
Proof.
  unfold evaluate. destruct (contents_eqb (contents_state st) Ready) eqn:Q; [intros [= <- <-]; auto|].
  destruct (writer_closed st); [|destruct (negb _); [|destruct (has_sleeper st)]; intros [= <- <-]; auto].
  intros [= <- <-]. right. repeat split; auto. intros E. rewrite E in Q. discriminate.
Qed.

(** What a step adds to the results. *)
Lemma step_results a c : kinv c -> may_send c a ->
  results (kstep a c) = results c \/
  (exists v, results (kstep a c) = results c ++ [Some v] /\ published c = received c ++ [v]) \/
  (results (kstep a c) = results c ++ [None] /\ writer_closed (state c) = true /\ published c = received c).
Proof.
  intros I MS. assert (NIL : forall l : list (option M), l ++ [] = l) by (intros; apply app_nil_r).
  assert (EV : forall st, writer_closed st = writer_closed (state c) -> contents_state st = contents_state (state c) -> contents_state st <> Reading ->
            forall p r, evaluate st = (p, r) -> results c ++ r = results c \/ (exists v, results c ++ r = results c ++ [Some v] /\ published c = received c ++ [v]) \/
              (results c ++ r = results c ++ [None] /\ writer_closed (state c) = true /\ published c = received c)).
  { intros st W CS NR p r E. destruct (evaluate_result st p r E) as [->|(-> & W1 & NRd)]; [left; apply NIL|].
    right. right. split; [reflexivity|]. split; [congruence|].
    destruct (published_ready c I) as [(A & _)|(v & _ & _ & B)]; [exact A|]. destruct B; congruence. }
  pose proof I as [L R]. destruct a as [v| | | | | |]; cbn [kstep].
  - destruct (sender c); auto.
  - left. unfold sender_step. destruct (sender c); auto; destruct (contents_eqb _ _); auto.
  - left. destruct (receiver c); auto. cbn. apply NIL.
  - unfold receiver_step. unfold rcv_ok in R. destruct (receiver c) as [| |s|e| | | | |v|] eqn:E; auto.
    + destruct (evaluate (state c)) as [p r] eqn:Q. cbn. apply (EV (state c) eq_refl eq_refl (proj2 R) p r Q).
    + destruct (_ =? _); [left; cbn; apply NIL|]. destruct (evaluate (state c)) as [p r] eqn:Q. cbn.
      apply (EV (state c) eq_refl eq_refl (proj1 (proj2 R)) p r Q).
    + left. cbn. apply NIL.
    + destruct (evaluate (set_sleeper false (state c))) as [p r] eqn:Q. cbn. apply (EV (set_sleeper false (state c)) eq_refl eq_refl (proj2 R) p r Q).
    + destruct (contents_eqb _ _); left; cbn; apply NIL.
    + destruct (message c); left; cbn; apply NIL.
    + destruct R as [HS RD]. rewrite RD. cbn. right. left. exists v. split; [reflexivity|].
      destruct (published_ready c I) as [(_ & _ & X)|(x & X & Y & _)]; [congruence|]. rewrite X. repeat f_equal.
      destruct L as [A B C|y A B C|y A B C|y A B C D|y A B C D|y A B C D F]; try congruence. destruct F; congruence.
  - left. destruct (receiver c); auto. cbn. apply NIL.
  - left. reflexivity.
  - left. destruct (closing c); reflexivity.
Qed.

(** When a message is there, an awake receiver that runs alone returns it. *)
Lemma krun_app a b c : krun c (a ++ b) = krun (krun c a) b.
Proof. revert c. induction a as [|x a IH]; intros c; [reflexivity|]. cbn. apply IH. Qed.

Lemma krun_S k c : krun c (repeat KReceiver (S k)) = krun (receiver_step c) (repeat KReceiver k).
Proof. reflexivity. Qed.
Lemma step_kinv c : kinv c -> kinv (receiver_step c).
Proof. intros I. exact (kstep_inv KReceiver c I Logic.I). Qed.

(** The receiver returns [v] after [k] more steps of its own. *)
Definition returns (k : nat) c (res : list (option M)) (v : option M) : Prop :=
  results (krun c (repeat KReceiver k)) = res ++ [v] /\ receiver (krun c (repeat KReceiver k)) = RIdle.

Lemma returns_S k c res v : returns k (receiver_step c) res v -> returns (S k) c res v.
Proof. unfold returns. rewrite krun_S. auto. Qed.

Lemma ret_finish c v : kinv c -> receiver c = RFinish v -> returns 1 c (results c) (Some v).
Proof.
  intros [L R] E. unfold rcv_ok in R. rewrite E in R. destruct R as [_ RD]. apply returns_S.
  unfold returns, receiver_step. rewrite E, RD. cbn. auto.
Qed.
Lemma ret_read c v : kinv c -> receiver c = RRead -> message c = Some v -> returns 2 c (results c) (Some v).
Proof.
  intros I E Mv. apply returns_S. pose proof (step_kinv c I) as I1.
  assert (X : receiver (receiver_step c) = RFinish v /\ results (receiver_step c) = results c).
  { unfold receiver_step. rewrite E, Mv. cbn. auto using app_nil_r. }
  destruct X as [X Y]. rewrite <- Y. now apply ret_finish.
Qed.
Lemma ret_take c v : kinv c -> receiver c = RTake -> message c = Some v -> returns 3 c (results c) (Some v).
Proof.
  intros I E Mv. pose proof I as [L R]. unfold rcv_ok in R. rewrite E in R. destruct R as [HS RD].
  apply returns_S. pose proof (step_kinv c I) as I1.
  assert (X : receiver (receiver_step c) = RRead /\ message (receiver_step c) = Some v /\ results (receiver_step c) = results c).
  { unfold receiver_step. rewrite E, RD. cbn. auto using app_nil_r. }
  destruct X as (X & Y & Z0). rewrite <- Z0. now apply ret_read.
Qed.

Lemma evaluate_ready st : contents_state st = Ready -> @evaluate M st = (RTake, []).
Proof. intros E. unfold evaluate. rewrite E. reflexivity. Qed.

Lemma ret_clear c v : kinv c -> receiver c = RClear -> contents_state (state c) = Ready -> message c = Some v -> returns 4 c (results c) (Some v).
Proof.
  intros I E RD Mv. apply returns_S. pose proof (step_kinv c I) as I1.
  assert (X : receiver (receiver_step c) = RTake /\ message (receiver_step c) = Some v /\ results (receiver_step c) = results c).
  { unfold receiver_step. rewrite E, (evaluate_ready (set_sleeper false (state c)) RD). cbn. auto using app_nil_r. }
  destruct X as (X & Y & Z0). rewrite <- Z0. now apply ret_take.
Qed.

Lemma solo_receive c v : kinv c -> published c = received c ++ [v] -> receiving (receiver c) ->
  exists k, (k <= 5)%nat /\ returns k c (results c) (Some v).
Proof.
  intros I P RC. destruct (published_ready c I) as [(A & _)|(x & A & Mv & B)].
  { exfalso. rewrite A in P. apply (f_equal (@length M)) in P. rewrite app_length in P. cbn in P. lia. }
  assert (x = v) by (rewrite A in P; apply app_inj_tail in P; tauto). subst x.
  pose proof I as [L R]. unfold rcv_ok in R. pose proof (step_kinv c I) as I1.
  destruct (receiver c) as [| |s|e| | | | |w|] eqn:E; try (destruct RC; fail).
  - assert (RD : contents_state (state c) = Ready) by (destruct B, R; congruence).
    exists 4%nat. split; [lia|]. apply returns_S.
    assert (X : receiver (receiver_step c) = RTake /\ message (receiver_step c) = Some v /\ results (receiver_step c) = results c).
    { unfold receiver_step. rewrite E, (evaluate_ready _ RD). cbn. auto using app_nil_r. }
    destruct X as (X & Y & Z0). rewrite <- Z0. now apply ret_take.
  - assert (RD : contents_state (state c) = Ready) by (destruct B, R as (_ & X & _); congruence).
    assert (NE : (to_u32 (state c) =? to_u32 s) = false).
    { destruct (to_u32 (state c) =? to_u32 s) eqn:Q; [|reflexivity]. apply word_eqb in Q. subst s.
      destruct R as (_ & _ & _ & _ & [X|X]); congruence. }
    exists 4%nat. split; [lia|]. apply returns_S.
    assert (X : receiver (receiver_step c) = RTake /\ message (receiver_step c) = Some v /\ results (receiver_step c) = results c).
    { unfold receiver_step. rewrite E, NE, (evaluate_ready _ RD). cbn. auto using app_nil_r. }
    destruct X as (X & Y & Z0). rewrite <- Z0. now apply ret_take.
  - assert (RD : contents_state (state c) = Ready) by (destruct B, R as (_ & X & _); congruence).
    assert (NE : (to_u32 (state c) =? to_u32 e) = false).
    { destruct (to_u32 (state c) =? to_u32 e) eqn:Q; [|reflexivity]. apply word_eqb in Q. subst e.
      destruct R as (_ & _ & _ & _ & [X|X]); congruence. }
    exists 5%nat. split; [lia|]. apply returns_S.
    assert (X : receiver (receiver_step c) = RClear /\ message (receiver_step c) = Some v /\ results (receiver_step c) = results c /\
              contents_state (state (receiver_step c)) = Ready).
    { unfold receiver_step. rewrite E, NE. cbn. auto using app_nil_r. }
    destruct X as (X & Y & Z0 & W). rewrite <- Z0. now apply ret_clear.
  - assert (RD : contents_state (state c) = Ready) by (destruct B, R as (_ & X); congruence).
    exists 4%nat. split; [lia|]. now apply ret_clear.
  - exists 3%nat. split; [lia|]. now apply ret_take.
  - exists 2%nat. split; [lia|]. now apply ret_read.
  - exists 1%nat. split; [lia|]. assert (w = v).
    { destruct R as [_ RD]. destruct L as [X Y Z0|y X Y Z0|y X Y Z0|y X Y Z0 D|y X Y Z0 D|y X Y Z0 D F]; try congruence. destruct F; congruence. }
    subst w. now apply ret_finish.
Qed.

(** When the writer is closed and nothing is to be received, an awake receiver returns the error. *)
Lemma evaluate_closed st : contents_state st <> Ready -> writer_closed st = true -> @evaluate M st = (RIdle, [None]).
Proof. intros E W. unfold evaluate. rewrite W. destruct (contents_state st); cbn; congruence. Qed.

Lemma solo_closed c : kinv c -> published c = received c -> writer_closed (state c) = true -> receiving (receiver c) ->
  exists k, (k <= 2)%nat /\ returns k c (results c) None.
Proof.
  intros I P W RC. destruct (published_ready c I) as [(_ & NRd & NRg)|(x & A & _)].
  2: { exfalso. rewrite A in P. apply (f_equal (@length M)) in P. rewrite app_length in P. cbn in P. lia. }
  pose proof I as [L R]. unfold rcv_ok in R.
  assert (CL : forall c', contents_state (state c') <> Ready -> writer_closed (state c') = true -> receiver c' = RClear -> returns 1 c' (results c') None).
  { intros c' N' W' E'. apply returns_S. unfold returns, receiver_step. rewrite E', (evaluate_closed (set_sleeper false (state c')) N' W'). cbn. auto. }
  destruct (receiver c) as [| |s|e| | | | |w|] eqn:E; try (destruct RC; fail).
  - exists 1%nat. split; [lia|]. apply returns_S. unfold returns, receiver_step. rewrite E, (evaluate_closed _ NRd W). cbn. auto.
  - exists 1%nat. split; [lia|]. apply returns_S. unfold returns, receiver_step. rewrite E, (evaluate_closed _ NRd W).
    destruct (to_u32 (state c) =? to_u32 s) eqn:Q; [|cbn; auto]. apply word_eqb in Q. subst s. destruct R as (_ & _ & _ & X & _). congruence.
  - exists 2%nat. split; [lia|]. apply returns_S.
    assert (NE : (to_u32 (state c) =? to_u32 e) = false).
    { destruct (to_u32 (state c) =? to_u32 e) eqn:Q; [|reflexivity]. apply word_eqb in Q. subst e.
      destruct R as (_ & _ & _ & X & _); congruence. }
    assert (X : receiver (receiver_step c) = RClear /\ results (receiver_step c) = results c /\ state (receiver_step c) = state c).
    { unfold receiver_step. rewrite E, NE. cbn. auto using app_nil_r. }
    destruct X as (X & Y & Z0). rewrite <- Y. apply CL; congruence.
  - exists 1%nat. split; [lia|]. now apply CL.
  - destruct R; congruence.
  - destruct R; congruence.
  - destruct R; congruence.
Qed.

End Proofs.
