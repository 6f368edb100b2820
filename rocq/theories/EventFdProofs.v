From Verif Require Import Base EventFdModel EventFdSpec.

Definition hist (ops : list eop) (xs : list (eres * list note)) : list (eop * eres) := combine ops (map fst xs).

Lemma total_app f a b : total f (a ++ b) = total f a + total f b.
Proof. unfold total. induction a as [|x a IH]; cbn [app fold_right]; [lia|]. rewrite IH. lia. Qed.

Lemma top_val : top = U64_MAX - 1.
Proof. reflexivity. Qed.

(** Readiness bits as they should be. *)
Definition bits (e : eventfd) : Prop :=
  st_readable (state e) = negb (st_closed (state e)) && (0 <? counter e) /\
  st_writable (state e) = negb (st_closed (state e)) && (counter e <? top).

Definition good (e : eventfd) : Prop := 0 <= counter e <= top.

Lemma fstate_eqb_true a b : fstate_eqb a b = true -> a = b.
Proof.
  destruct a as [a1 a2 a3 a4], b as [b1 b2 b3 b4]. unfold fstate_eqb. cbn.
  destruct a1, b1, a2, b2, a3, b3, a4, b4; cbn; congruence.
Qed.

Lemma update_told e s g e' n : update_state e s g = (e', n) -> told (state e) n = state e' /\ state e' = s /\
  counter e' = counter e /\ semaphore e' = semaphore e.
Proof.
  unfold update_state. intros H. injection H as <- <-. cbn [state counter semaphore]. split; [|auto].
  destruct (fstate_eqb s (state e)) eqn:E; cbn; [|reflexivity]. apply fstate_eqb_true in E. destruct g; cbn; congruence.
Qed.
Lemma refresh_ok e g e' n : refresh_state e g = (e', n) -> told (state e) n = state e' /\
  counter e' = counter e /\ semaphore e' = semaphore e /\ st_closed (state e') = st_closed (state e) /\
  (st_closed (state e) = true -> e' = e) /\ (st_closed (state e) = false -> bits e').
Proof.
  unfold refresh_state. destruct (st_closed (state e)) eqn:C.
  - intros H. injection H as <- <-. cbn. repeat split; auto; congruence.
  - intros H. apply update_told in H as (H1 & H2 & H3 & H4). split; [exact H1|]. split; [exact H3|]. split; [exact H4|].
    rewrite H2. cbn [st_closed]. split; [reflexivity|]. split; [discriminate|]. intros _.
    unfold bits. rewrite H2, H3, top_val. cbn. auto.
Qed.

Definition quiet (e : eventfd) : Prop := st_closed (state e) = true -> st_readable (state e) = false /\ st_writable (state e) = false.

Ltac fin := cbn [right]; unfold good_write, good_read; intros; assert (U64_MAX = 2^64 - 1) by reflexivity;
  repeat match goal with H : _ /\ _ |- _ => destruct H end; try congruence; try lia;
  repeat split; intros; try congruence; try lia.
Lemma fail_ok e o err : good e -> ~ is_close o -> right (semaphore e) (counter e) o (Err err) ->
  right (semaphore e) (counter e) o (Err err) /\ (ill_formed o -> exists err', Err err = Err err') /\
  counter e = counter e + added (o, Err err) - taken (o, Err err) /\ good e /\ semaphore e = semaphore e /\
  told (state e) [] = state e /\
  (st_closed (state e) = true <-> st_closed (state e) = true \/ is_close o) /\
  (quiet e -> quiet e) /\
  (success (Err err) -> quiet e -> bits e) /\ (is_close o -> bits e) /\ (~ success (Err err) -> ~ is_close o -> e = e).
Proof.
  intros G N R. split; [exact R|]. split; [intros _; now exists err|].
  split. { destruct o; cbn; lia. }
  split; [exact G|]. split; [reflexivity|]. split; [reflexivity|]. split; [tauto|]. split; [auto|].
  split; [cbn; tauto|]. split; [tauto|reflexivity].
Qed.

Lemma estep_ok e o : good e -> value_ok o -> exists e' x n, estep e o = Some (e', x, n) /\
  right (semaphore e) (counter e) o x /\ (ill_formed o -> exists err, x = Err err) /\
  counter e' = counter e + added (o, x) - taken (o, x) /\ good e' /\ semaphore e' = semaphore e /\
  told (state e) n = state e' /\
  (st_closed (state e') = true <-> st_closed (state e) = true \/ is_close o) /\
  (quiet e -> quiet e') /\
  (success x -> quiet e -> bits e') /\ (is_close o -> bits e') /\ (~ success x -> ~ is_close o -> e' = e).
Proof.
  intros G V. pose proof top_val as T. unfold good in *. destruct o as [r|r v|]; cbn [estep].
  - unfold readv. destruct (has_offset r) eqn:O; [|destruct (Z.ltb_spec (total_len (lens r)) 8) as [L|L];
      [|destruct (Z.eqb_spec (counter e) 0) as [Z0|Z0]; [|destruct (accessible r) eqn:A]]]; cbn [negb]; ob.
    + do 3 eexists; split; [reflexivity|]; apply fail_ok; [exact G|cbn; tauto|]; fin.
    + do 3 eexists; split; [reflexivity|]; apply fail_ok; [exact G|cbn; tauto|]; fin.
    + do 3 eexists; split; [reflexivity|]; apply fail_ok; [exact G|cbn; tauto|]; fin.
    + assert (GR : good_read r) by (split; [exact O|split; [exact L|exact A]]).
      assert (X : exists v c, (if semaphore e then check (1 <=? counter e); Some (1, counter e - 1) else Some (counter e, 0)) = Some (v, c)
        /\ v = (if semaphore e then 1 else counter e) /\ c = counter e - v).
      { destruct (semaphore e).
        - rewrite assert_true by lia. do 2 eexists. split; [reflexivity|]. split; [reflexivity|lia].
        - do 2 eexists. split; [reflexivity|]. split; [reflexivity|lia]. }
      destruct X as (v & c & X & Xv & Xc). rewrite X. ob. cbn [fst snd].
      destruct (refresh_state (set_counter e c) false) as [e' n] eqn:R. ob.
      apply refresh_ok in R as (R1 & R2 & R3 & R4 & R5 & R6). cbn [set_counter state counter semaphore] in *.
      exists e', (Got v), n. split; [reflexivity|]. split. { cbn. intros _. split; [lia|]. now rewrite Xv. }
      split; [cbn; tauto|]. split; [cbn; lia|]. split; [rewrite R2; destruct (semaphore e); lia|]. split; [exact R3|].
      split; [exact R1|]. split; [rewrite R4; cbn; tauto|].
      assert (Q : quiet e -> quiet e').
      { unfold quiet. rewrite R4. intros Q C. rewrite (R5 C). cbn. now apply Q. }
      split; [exact Q|]. split; [|split; [cbn; tauto|cbn; tauto]].
      intros _ Q0. destruct (st_closed (state e)) eqn:C; [|now apply R6].
      destruct (Q Q0 R4) as [Q1 Q2]. unfold bits. rewrite Q1, Q2, R4. auto.
    + do 3 eexists; split; [reflexivity|]; apply fail_ok; [exact G|cbn; tauto|]; fin.
  - unfold writev. cbn in V.
    destruct (has_offset r) eqn:O; [|destruct (Z.ltb_spec (total_len (lens r)) 8) as [L|L];
      [|destruct (Z.ltb_spec 1 (Z.of_nat (length (lens r)))) as [N|N]; [|destruct (accessible r) eqn:A;
      [destruct (Z.eqb_spec v U64_MAX) as [M|M]|]]]]; cbn [negb]; ob.
    + do 3 eexists; split; [reflexivity|]; apply fail_ok; [exact G|cbn; tauto|]; fin.
    + do 3 eexists; split; [reflexivity|]; apply fail_ok; [exact G|cbn; tauto|]; fin.
    + do 3 eexists; split; [reflexivity|]; apply fail_ok; [exact G|cbn; tauto|]; fin.
    + do 3 eexists; split; [reflexivity|]; apply fail_ok; [exact G|cbn; tauto|]; fin.
    + assert (GW : good_write r) by (split; [split; [exact O|split; [exact L|exact A]]|lia]).
      rewrite assert_true by lia. assert (U : U64_MAX = 2^64 - 1) by reflexivity.
      destruct (Z.ltb_spec (U64_MAX - 1 - counter e) v) as [B|B]; ob.
      * do 3 eexists; split; [reflexivity|]; apply fail_ok; [exact G|cbn; tauto|]; fin.
      * rewrite assert_true by lia.
        destruct (refresh_state _ _) as [e' n] eqn:R. ob.
        apply refresh_ok in R as (R1 & R2 & R3 & R4 & R5 & R6). cbn [set_counter state counter semaphore] in *.
        exists e', Put, n. split; [reflexivity|]. split. { cbn. intros _. repeat split; try lia. }
        split; [cbn; tauto|]. split; [cbn; lia|]. split; [lia|]. split; [exact R3|].
        split; [exact R1|]. split; [rewrite R4; cbn; tauto|].
        assert (Q : quiet e -> quiet e').
        { unfold quiet. rewrite R4. intros Q C. rewrite (R5 C). cbn. now apply Q. }
        split; [exact Q|]. split; [|split; [cbn; tauto|cbn; tauto]].
        intros _ Q0. destruct (st_closed (state e)) eqn:C; [|now apply R6].
        destruct (Q Q0 R4) as [Q1 Q2]. unfold bits. rewrite Q1, Q2, R4. auto.
    + do 3 eexists; split; [reflexivity|]; apply fail_ok; [exact G|cbn; tauto|]; fin.
  - unfold close. destruct (update_state _ _ _) as [e' n] eqn:R. apply update_told in R as (R1 & R2 & R3 & R4).
    exists e', Done, n. split; [reflexivity|]. split; [reflexivity|]. split; [cbn; tauto|]. split; [cbn; lia|].
    split; [lia|]. split; [exact R4|]. split; [exact R1|]. rewrite R2. cbn. split; [tauto|].
    split. { unfold quiet. rewrite R2. cbn. auto. }
    split; [tauto|]. split; [|tauto]. intros _. unfold bits. rewrite R2. cbn. auto.
Qed.

Lemma last_app {A} (l m : list A) s : last (l ++ m) s = last m (last l s).
Proof.
  revert s. induction m as [|y m IH] using rev_ind; intros s; [now rewrite app_nil_r|].
  rewrite app_assoc, !last_last. reflexivity.
Qed.
Lemma told_app s a b : told s (a ++ b) = told (told s a) b.
Proof. unfold told. rewrite map_app. apply last_app. Qed.

Lemma erun_ok ops e init h0 :
  good e -> Forall value_ok ops -> counter e = level init h0 -> quiet e ->
  exists e' xs, erun e ops = Some (e', xs) /\ length xs = length ops /\ good e' /\ quiet e' /\
    counter e' = level init (h0 ++ hist ops xs) /\ semaphore e' = semaphore e /\
    told (state e) (concat (map snd xs)) = state e' /\
    (st_closed (state e') = true <-> st_closed (state e) = true \/ Exists is_close ops) /\
    (bits e \/ Exists (fun x => success (fst x)) xs \/ Exists is_close ops -> bits e').
Proof.
  revert e h0. induction ops as [|o ops IH]; intros e h0 G V C Q; cbn [erun].
  - exists e, []. cbn. rewrite app_nil_r. split; [reflexivity|]. split; [reflexivity|]. split; [exact G|]. split; [exact Q|].
    split; [exact C|]. split; [reflexivity|]. split; [reflexivity|]. split.
    + split; [auto|]. intros [H|H]; [exact H|inversion H].
    + intros [H|[H|H]]; [exact H|inversion H|inversion H].
  - inversion V as [|? ? V1 V2]; subst.
    destruct (estep_ok e o G V1) as (e1 & x & n & E & _ & _ & H1 & H2 & H3 & H4 & H5 & H6 & H7 & H8 & H9).
    rewrite E. ob. cbn [fst snd].
    destruct (IH e1 (h0 ++ [(o, x)])) as (e2 & xs & E2 & K0 & K1 & K2 & K3 & K4 & K5 & K6 & K7).
    { exact H2. } { exact V2. }
    { unfold level in *. rewrite !total_app. unfold total at 2 4. cbn [fold_right]. lia. }
    { now apply H6. }
    rewrite E2. ob. exists e2, ((x, n) :: xs). split; [reflexivity|]. split; [cbn; now rewrite K0|]. split; [exact K1|]. split; [exact K2|].
    split. { rewrite K3, <- app_assoc. reflexivity. }
    split; [congruence|]. split. { cbn [map concat snd]. rewrite told_app, H4. exact K5. }
    split. { rewrite K6, H5. rewrite Exists_cons. tauto. }
    intros H. apply K7. rewrite !Exists_cons in H. cbn [fst] in H.
    assert (D : {success x} + {~ success x}) by (destruct x; cbn; auto).
    assert (D2 : {is_close o} + {~ is_close o}) by (destruct o; cbn; auto).
    destruct D as [D|D]; [left; now apply H7|]. destruct D2 as [D2|D2]; [left; now apply H8|].
    rewrite (H9 D D2) in *. tauto.
Qed.

Section Main.
Variables (init : Z) (sem : bool) (ops : list eop).
Hypotheses (I0 : 0 <= init <= top) (V0 : Forall value_ok ops).

Lemma run_main : exists e xs, erun (eventfd_new init sem) ops = Some (e, xs) /\ length xs = length ops /\
  counter e = level init (hist ops xs) /\ 0 <= counter e <= top.
Proof.
  destruct (erun_ok ops (eventfd_new init sem) init []) as (e & xs & E & L & G & _ & C & _).
  - exact I0.
  - exact V0.
  - unfold level. cbn. lia.
  - unfold quiet. cbn. discriminate.
  - exists e, xs. auto.
Qed.
Variables (e : eventfd) (xs : list (eres * list note)).
Hypothesis (E0 : erun (eventfd_new init sem) ops = Some (e, xs)).
Lemma reach : length xs = length ops /\ good e /\ quiet e /\
    counter e = level init (hist ops xs) /\ semaphore e = sem /\
    told (state (eventfd_new init sem)) (concat (map snd xs)) = state e /\
    (st_closed (state e) = true <-> Exists is_close ops) /\
    (init = 0 \/ Exists (fun x => success (fst x)) xs \/ Exists is_close ops -> bits e).
Proof using All.
  destruct (erun_ok ops (eventfd_new init sem) init []) as (e' & xs' & E & L & G & Q & C & S & T & K & B).
  - exact I0.
  - exact V0.
  - unfold level. cbn. lia.
  - unfold quiet. cbn. discriminate.
  - rewrite E0 in E. injection E as <- <-. split; [exact L|]. split; [exact G|]. split; [exact Q|]. split; [exact C|].
    split; [exact S|]. split; [exact T|]. split. { rewrite K. cbn. intuition discriminate. }
    intros H. apply B. destruct H as [->|H]; [left|right; exact H]. unfold bits. cbn. auto.
Qed.
Lemma next_main o : value_ok o -> exists e' x n, estep e o = Some (e', x, n) /\
  right sem (level init (hist ops xs)) o x /\ (ill_formed o -> exists err, x = Err err).
Proof using All.
  intros V. destruct reach as (_ & G & _ & C & S & _). destruct (estep_ok e o G V) as (e' & x & n & E & R & I & _).
  exists e', x, n. rewrite <- C, <- S. auto.
Qed.
Lemma ready_main : init = 0 \/ Exists success (map fst xs) -> ~ Exists is_close ops ->
  st_readable (state e) = (0 <? level init (hist ops xs)) /\ st_writable (state e) = (level init (hist ops xs) <? top).
Proof using All.
  intros H N. destruct reach as (_ & G & _ & C & S & _ & K & B). rewrite <- C.
  destruct B as [B1 B2].
  { destruct H as [H|H]; [now left|right; left]. apply Exists_exists in H as (y & Y & P). apply in_map_iff in Y as (z & <- & Z0).
    apply Exists_exists. now exists z. }
  destruct (st_closed (state e)) eqn:CC; [exfalso; apply N, K; reflexivity|]. cbn in B1, B2. auto.
Qed.
Lemma closed_main : Exists is_close ops -> st_readable (state e) = false /\ st_writable (state e) = false.
Proof using All. intros N. destruct reach as (_ & _ & Q & _ & _ & _ & K & _). apply Q, K, N. Qed.
Lemma told_main : told (state (eventfd_new init sem)) (concat (map snd xs)) = state e.
Proof using All. destruct reach as (_ & _ & _ & _ & _ & T & _). exact T. Qed.
End Main.
