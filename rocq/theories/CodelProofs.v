(** Proofs about the CoDel queue. *)
From Verif Require Import Base TimeModel TimeSpec TimeProofs CodelModel CodelSpec.

Local Arguments sizes : simpl never.
Section Law.
Variable law : Z -> Z.

Notation cq_step := (cq_step law).
Notation cq_run := (cq_run law).
Notation cq_pop := (cq_pop law).

(** The observations so far, newest first, explain the state. *)
Definition bad_since (e : Z) (w : list sight) : Prop := exists pre s post, w = pre ++ s :: post /\ when s + INTERVAL <= e /\ Forall congested (pre ++ [s]).
Record okq (t : Z) (w : list sight) (q : codel) : Prop := {
  ok_bytes : cq_bytes q = sizes (map fst (cq_elements q));
  ok_pos : Forall (fun x => 0 <= pk_len (fst x)) (cq_elements q);
  ok_times : Forall (fun x => 946684800000000000 <= snd x <= t) (cq_elements q);
  ok_end : forall e, cq_interval_end q = Some e -> bad_since e w;
  ok_next : cq_mode q = DropMode -> exists n, cq_drop_next q = Some n;
  ok_range : forall n, cq_drop_next q = Some n -> 946684800000000000 <= n <= t + INTERVAL }.

Lemma sizes_cons p l : sizes (p :: l) = pk_len p + sizes l.
Proof. reflexivity. Qed.
Lemma sizes_nonneg l : Forall (fun x : pkt * Z => 0 <= pk_len (fst x)) l -> 0 <= sizes (map fst l).
Proof. induction 1 as [|x l A B IH]; [reflexivity|]. cbn [map]. rewrite sizes_cons. lia. Qed.
Lemma sizes_app a b : sizes (a ++ b) = sizes a + sizes b.
Proof. induction a as [|x a IH]; [reflexivity|]. cbn [app]. rewrite !sizes_cons. lia. Qed.

Lemma waited now ts : 946684800000000000 <= ts <= now -> now <= EMU_LIMIT - 10000000000 -> emu_saturating_duration_since now ts = now - ts.
Proof.
  intros A B. apply (emu_saturating_duration now ts); unfold valid_emu, EMU_LIMIT, SIM_LIMIT in *; lia.
Qed.
Lemma add_interval now : 0 <= now <= EMU_LIMIT - 10000000000 -> emu_saturating_add now INTERVAL = now + INTERVAL.
Proof.
  intros B. rewrite emu_saturating_add_clamp; unfold valid_emu, valid_sim, clamp, EMU_LIMIT, SIM_LIMIT, INTERVAL in *; lia.
Qed.

(** Taking the head: the flag tells that the queue has been congested for a full interval. *)
Lemma codel_pop_ok t now w q : okq t w q -> t <= now <= EMU_LIMIT - 10000000000 ->
  exists q' item, codel_pop q now = Some (q', item) /\
    cq_mode q' = cq_mode q /\ cq_drop_next q' = cq_drop_next q /\ cq_current q' = cq_current q /\ cq_previous q' = cq_previous q /\
    match cq_elements q with
    | [] => item = None /\ cq_elements q' = [] /\ okq now (Nothing now :: w) q'
    | (p, ts) :: rest => exists ok, item = Some (p, ok) /\ cq_elements q' = rest /\
        (forall d, okq now (Seen now (now - ts) (sizes (map fst rest)) d :: w) q') /\
        (ok = true -> 10000000 <= now - ts /\ 1500 < sizes (map fst rest) /\ rest <> [] /\
           forall d, exists e, e <= now /\ bad_since e (Seen now (now - ts) (sizes (map fst rest)) d :: w))
    end.
Proof.
  intros [OB OP OT OE ON OR] T. unfold codel_pop. destruct (cq_elements q) as [|(p, ts) rest] eqn:EL.
  - do 2 eexists. split; [reflexivity|]. cbn [set_end cq_mode cq_drop_next cq_current cq_previous cq_elements]. do 4 (split; [reflexivity|]). split; [reflexivity|]. split; [exact EL|].
    constructor; cbn; rewrite ?EL; auto; try discriminate. intros n E. specialize (OR n E). lia.
  - inversion OP as [|? ? P1 P2]; subst. inversion OT as [|? ? T1 T2]; subst. cbn in P1, T1. cbn [map fst] in OB. rewrite sizes_cons in OB.
    pose proof (sizes_nonneg rest P2) as SN. rewrite assert_true by lia. cbv zeta. rewrite assert_true by lia.
    rewrite (waited now ts) by lia. unfold u64_saturating_sub. rewrite OB.
    replace (Z.max (pk_len p + sizes (map fst rest) - pk_len p) 0) with (sizes (map fst rest)) by lia.
    unfold process_standing_delay. cbn [set_store cq_bytes cq_interval_end].
    assert (OT' : Forall (fun x => 946684800000000000 <= snd x <= now) rest) by (eapply Forall_impl; [|exact T2]; cbn; intros; lia).
    assert (OR' : forall n, cq_drop_next q = Some n -> 946684800000000000 <= n <= now + INTERVAL) by (intros n E; specialize (OR n E); lia).
    destruct ((now - ts <? TARGET) || (sizes (map fst rest) <=? CONFIG_MTU)) eqn:G.
    + do 2 eexists. split; [reflexivity|]. do 4 (split; [reflexivity|]). exists false. split; [reflexivity|]. split; [reflexivity|]. split; [|discriminate].
      intros d. constructor; cbn; auto; discriminate.
    + assert (CG : forall d, congested (Seen now (now - ts) (sizes (map fst rest)) d)) by (intros d; cbn; unfold TARGET, CONFIG_MTU in G; lia).
      assert (NR : rest <> []) by (intros ->; unfold sizes, CONFIG_MTU in G; cbn in G; lia).
      destruct (cq_interval_end q) as [e|] eqn:IE.
      * do 2 eexists. split; [reflexivity|]. do 4 (split; [reflexivity|]). exists (e <=? now). split; [reflexivity|]. split; [reflexivity|].
        assert (BS : forall d, bad_since e (Seen now (now - ts) (sizes (map fst rest)) d :: w)).
        { intros d. destruct (OE e eq_refl) as (pre & s & post & -> & WS & F). exists (Seen now (now - ts) (sizes (map fst rest)) d :: pre), s, post.
          split; [reflexivity|]. split; [exact WS|]. constructor; [apply CG|exact F]. }
        split.
        -- intros d. constructor; cbn; auto. intros e' X. rewrite IE in X. injection X as <-. apply BS.
        -- intros LE. destruct (CG true) as [C1 C2]. split; [exact C1|]. split; [exact C2|]. split; [exact NR|]. intros d. exists e. split; [lia|apply BS].
      * do 2 eexists. split; [reflexivity|]. do 4 (split; [reflexivity|]). exists false. split; [reflexivity|]. split; [reflexivity|]. split; [|discriminate].
        intros d. constructor; cbn; auto. intros e' X. injection X as <-. rewrite add_interval by lia.
        exists [], (Seen now (now - ts) (sizes (map fst rest)) d), w. split; [reflexivity|]. split; [cbn; lia|]. constructor; [apply CG|constructor].
Qed.

Hypothesis LAW : forall c, 1 <= c -> 0 <= law c <= INTERVAL.

Lemma law_ok t c : 946684800000000000 <= t <= EMU_LIMIT - 5000000000 -> 1 <= c ->
  apply_control_law law t c = Some (t + law c).
Proof.
  intros T C. unfold apply_control_law. pose proof (LAW c C) as L. unfold EMU_LIMIT, INTERVAL in *.
  assert (A : emu_to_abs_simtime t = Some (t - 946684800000000000)).
  { unfold emu_to_abs_simtime, emu_duration_since. apply (emu_checked_duration_exact t EMUTIME_SIMULATION_START);
    unfold valid_emu, valid_sim, EMU_LIMIT, SIM_LIMIT, EMUTIME_SIMULATION_START in *; lia. }
  rewrite A. ob. destruct (sim_saturating_add_cases (t - 946684800000000000) (law c)) as [B _]; [unfold valid_sim, SIM_LIMIT; lia|unfold valid_sim, SIM_LIMIT; lia|].
  rewrite B by (unfold SIM_LIMIT; lia). ob. unfold emu_from_abs_simtime.
  destruct (emu_checked_add_exact EMUTIME_SIMULATION_START (t - 946684800000000000 + law c)) as [X _];
    [unfold valid_emu, EMU_LIMIT, EMUTIME_SIMULATION_START; lia|unfold valid_sim, SIM_LIMIT; lia|].
  assert (E : EMUTIME_SIMULATION_START + (t - 946684800000000000 + law c) = t + law c) by (unfold EMUTIME_SIMULATION_START; lia).
  rewrite E in X. apply X. unfold valid_emu, EMU_LIMIT. lia.
Qed.

(** Every drop is explained by a full interval of congestion before it. *)
Fixpoint expl (w : list sight) : Prop :=
  match w with
  | [] => True
  | s :: r => (is_drop s = true -> exists e, e <= when s /\ bad_since e w) /\ expl r
  end.
Definition cnt (k : Z) (q : codel) : Prop := 0 <= cq_previous q /\ 0 <= cq_current q <= k.

Lemma set_mode_ok t w q : okq t w q -> okq t w (set_mode q Store).
Proof. intros [OB OP OT OE ON OR]. constructor; cbn; auto. discriminate. Qed.
Lemma set_next_ok t w q n c p : okq t w q -> 946684800000000000 <= n <= t + INTERVAL -> okq t w (set_drops q (Some n) c p).
Proof. intros [OB OP OT OE ON OR] N. constructor; cbn; auto; [intros _; eexists; reflexivity|]. intros m E. injection E as <-. exact N. Qed.

Definition leaves (l : list (pkt * Z)) (t : Z) (n : nat) : list sight := drops l t n ++ mark (skipn n l) t false.

Lemma drop_loop_ok : forall fuel now w q p ts acc k, (length (cq_elements q) < fuel)%nat -> 946684800000000000 <= now <= EMU_LIMIT - 10000000000 ->
  (forall d, okq now (Seen now (now - ts) (sizes (map fst (cq_elements q))) d :: w) q) -> expl w -> cnt k q -> k + Z.of_nat (length (cq_elements q)) < U64_MAX ->
  (cq_mode q = DropMode -> cq_elements q <> [] /\ forall d, exists e, e <= now /\ bad_since e (Seen now (now - ts) (sizes (map fst (cq_elements q))) d :: w)) ->
  exists n q' p', drop_loop law fuel q now (Some p) acc = Some (q', acc ++ map fst (firstn n ((p, ts) :: cq_elements q)), Some p') /\
    (n <= length (cq_elements q))%nat /\
    option_map fst (nth_error ((p, ts) :: cq_elements q) n) = Some p' /\ cq_elements q' = skipn (S n) ((p, ts) :: cq_elements q) /\
    okq now (rev (leaves ((p, ts) :: cq_elements q) now n) ++ w) q' /\ expl (rev (leaves ((p, ts) :: cq_elements q) now n) ++ w) /\ cnt (k + Z.of_nat n) q'.
Proof.
  induction fuel as [|fuel IH]; [intros; lia|]. intros now w q p ts acc k FU NOW OK EX CN KB DM. cbn [drop_loop].
  assert (STOP : exists n q' p', Some (q, acc, Some p) = Some (q', acc ++ map fst (firstn n ((p, ts) :: cq_elements q)), Some p') /\
    (n <= length (cq_elements q))%nat /\
    option_map fst (nth_error ((p, ts) :: cq_elements q) n) = Some p' /\ cq_elements q' = skipn (S n) ((p, ts) :: cq_elements q) /\
    okq now (rev (leaves ((p, ts) :: cq_elements q) now n) ++ w) q' /\ expl (rev (leaves ((p, ts) :: cq_elements q) now n) ++ w) /\ cnt (k + Z.of_nat n) q').
  { exists 0%nat, q, p. cbn [firstn map skipn nth_error option_map fst]. rewrite app_nil_r. split; [reflexivity|]. split; [lia|]. split; [reflexivity|]. split; [reflexivity|].
    cbn. split; [apply OK|]. split; [split; [discriminate|exact EX]|]. unfold cnt in *. lia. }
  destruct (cq_mode q) eqn:MO; [exact STOP|]. destruct (should_drop q now) eqn:SD; [|exact STOP]. clear STOP.
  destruct (DM eq_refl) as (NE & BS). destruct CN as (CN1 & CN2). unfold should_drop in SD. destruct (cq_drop_next q) as [n0|] eqn:DN; [|discriminate].
  destruct (cq_elements q) as [|(p2, ts2) rest] eqn:EL; [congruence|]. cbn [length] in *.
  rewrite assert_true by lia. cbv zeta.
  set (q1 := set_drops q (Some n0) (cq_current q + 1) (cq_previous q)).
  assert (OK1 : okq now (Seen now (now - ts) (sizes (map fst ((p2, ts2) :: rest))) true :: w) q1).
  { apply set_next_ok; [apply OK|]. destruct (OK true) as [_ _ _ _ _ R]. apply R. exact DN. }
  destruct (codel_pop_ok now now _ q1 OK1) as (q2 & item2 & EQ & M2 & D2 & C2 & P2 & R2); [lia|]. rewrite EQ. ob.
  change (cq_elements q1) with (cq_elements q) in R2. rewrite EL in R2. destruct R2 as (ok & -> & EL2 & OK2 & TR).
  change (cq_mode q1) with (cq_mode q) in M2. change (cq_drop_next q1) with (Some n0) in D2. change (cq_current q1) with (cq_current q + 1) in C2. change (cq_previous q1) with (cq_previous q) in P2.
  set (w1 := Seen now (now - ts) (sizes (map fst ((p2, ts2) :: rest))) true :: w) in *.
  assert (EX1 : expl w1) by (split; [intros _; exact (BS true)|exact EX]).
  assert (ST : exists q3, (match (if ok then true else false) with true => do n <- cq_drop_next q2; do n' <- apply_control_law law n (cq_current q2); Some (set_drops q2 (Some n') (cq_current q2) (cq_previous q2)) | false => Some (set_mode q2 Store) end) = Some q3 /\
      cq_elements q3 = rest /\ (forall d, okq now (Seen now (now - ts2) (sizes (map fst rest)) d :: w1) q3) /\ cnt (k + 1) q3 /\
      (cq_mode q3 = DropMode -> rest <> [] /\ forall d, exists e, e <= now /\ bad_since e (Seen now (now - ts2) (sizes (map fst rest)) d :: w1))).
  { destruct ok.
    - rewrite D2. ob. assert (N0 : 946684800000000000 <= n0 <= now) by (destruct (OK true) as [_ _ _ _ _ R]; specialize (R n0 DN); lia).
      rewrite law_ok by (rewrite ?C2; unfold EMU_LIMIT in *; lia). ob. eexists. split; [reflexivity|]. split; [exact EL2|].
      assert (LB : 0 <= law (cq_current q2) <= INTERVAL) by (apply LAW; lia).
      split; [intros d; apply set_next_ok; [apply OK2|lia]|]. split; [unfold cnt; cbn; lia|]. intros _. destruct (TR eq_refl) as (_ & _ & T3 & T4). auto.
    - eexists. split; [reflexivity|]. split; [exact EL2|]. split; [intros d; apply set_mode_ok, OK2|]. split; [unfold cnt; cbn; lia|]. discriminate. }
  destruct ST as (q3 & E3 & EL3 & OK3 & CN3 & DM3).
  match goal with |- context [obind ?x _] => replace x with (Some q3) by (destruct ok; symmetry; exact E3) end. ob.
  cbn [option_map fst].
  rewrite <- EL3 in OK3, DM3 |- *.
  destruct (IH now w1 q3 p2 ts2 (acc ++ [p]) (k + 1)) as (n & q' & p' & RL & LE & NT & ES & OKF & EXF & CNF); auto; try (rewrite EL3; lia).
  exists (S n), q', p'. rewrite RL. cbn [firstn map fst skipn nth_error]. rewrite <- app_assoc. split; [reflexivity|]. split; [lia|]. split; [exact NT|]. split; [exact ES|].
  assert (EW : rev (leaves ((p, ts) :: (p2, ts2) :: cq_elements q3) now (S n)) ++ w = rev (leaves ((p2, ts2) :: cq_elements q3) now n) ++ w1).
  { unfold leaves, w1. cbn [drops mark tl skipn app rev]. rewrite EL3. rewrite <- app_assoc. reflexivity. }
  rewrite EW. split; [exact OKF|]. split; [exact EXF|]. replace (k + Z.of_nat (S n)) with (k + 1 + Z.of_nat n) by lia. exact CNF.
Qed.

Lemma pop_ok t now w q k : okq t w q -> expl w -> cnt k q -> 946684800000000000 <= t <= now -> now <= EMU_LIMIT - 10000000000 ->
  k + Z.of_nat (length (cq_elements q)) < U64_MAX ->
  exists q' n r, cq_pop q now = Some (q', map fst (firstn n (cq_elements q)), r) /\
    (n <= length (cq_elements q))%nat /\
    r = option_map fst (nth_error (cq_elements q) n) /\ (r = None -> cq_elements q = []) /\ cq_elements q' = skipn (S n) (cq_elements q) /\
    okq now (rev (leaves (cq_elements q) now n) ++ w) q' /\ expl (rev (leaves (cq_elements q) now n) ++ w) /\ cnt (k + Z.of_nat n) q'.
Proof.
  intros OK EX CN T NOW KB. unfold CodelModel.cq_pop. destruct (codel_pop_ok t now w q OK) as (q1 & item & EQ & M1 & D1 & C1 & P1 & R1); [lia|]. rewrite EQ. ob.
  assert (CN1 : cnt k q1) by (unfold cnt; rewrite C1, P1; exact CN).
  destruct (cq_elements q) as [|(p, ts) rest] eqn:EL.
  - destruct R1 as (-> & EL1 & OK1). exists (set_mode q1 Store), 0%nat, None. split; [reflexivity|]. cbn [length]. split; [lia|]. split; [reflexivity|]. split; [reflexivity|]. split; [exact EL1|].
    cbn. split; [apply set_mode_ok, OK1|]. split; [split; [discriminate|exact EX]|]. unfold cnt in *. cbn. lia.
  - destruct R1 as (ok & -> & EL1 & OK1 & TR). destruct ok.
    + destruct (TR eq_refl) as (_ & _ & NR & BS). destruct (cq_mode q1) eqn:MO.
      * (* store mode: drop this one, deliver the next *)
        unfold drop_from_store_mode.
        set (w1 := Seen now (now - ts) (sizes (map fst rest)) true :: w).
        destruct (codel_pop_ok now now w1 q1 (OK1 true)) as (q2 & item2 & EQ2 & M2 & D2 & C2 & P2 & R2); [lia|]. rewrite EQ2. ob. cbv zeta. rewrite EL1 in R2.
        destruct rest as [|(p2, ts2) rest2] eqn:ER; [congruence|]. destruct R2 as (ok2 & -> & EL2 & OK2 & _).
        assert (WD : exists b, was_dropping_recently (set_mode q2 DropMode) now = Some b).
        { unfold was_dropping_recently. destruct (cq_drop_next (set_mode q2 DropMode)); [|eexists; reflexivity].
          change (sim_saturating_mul INTERVAL 16) with (Some 1600000000). eexists. reflexivity. }
        destruct WD as (b & ->). ob. cbn [set_mode cq_current cq_previous].
        set (c := if b && _ then _ else 1).
        assert (CB : 1 <= c <= Z.max 1 (cq_current q2)).
        { unfold c, u64_saturating_sub. unfold cnt in CN1. destruct (b && _) eqn:B; [|lia]. apply andb_true_iff in B. destruct B as [_ B]. unfold u64_saturating_sub in B. lia. }
        rewrite law_ok by (unfold EMU_LIMIT in *; lia). ob.
        assert (LB : 0 <= law c <= INTERVAL) by (apply LAW; lia).
        eexists. exists 1%nat, (Some p2). cbn [option_map fst firstn map length skipn nth_error]. split; [reflexivity|]. split; [lia|]. split; [reflexivity|]. split; [discriminate|]. split; [exact EL2|].
        assert (EW : rev (leaves ((p, ts) :: (p2, ts2) :: rest2) now 1) ++ w = Seen now (now - ts2) (sizes (map fst rest2)) false :: w1).
        { reflexivity. }
        rewrite EW. split; [|split].
        -- destruct (OK2 false) as [OB OP OT OE ON OR]. constructor; cbn; auto; [intros _; eexists; reflexivity|]. intros m E. injection E as <-. lia.
        -- split; [discriminate|]. split; [intros _; exact (BS true)|exact EX].
        -- unfold cnt in *. cbn. lia.
      * (* drop mode *)
        rewrite <- EL1 in OK1, BS, NR |- *. cbn [length] in KB. rewrite <- EL1 in KB.
        destruct (drop_loop_ok (S (S (length (cq_elements q1)))) now w q1 p ts [] k) as (n & q' & p' & RL & LE & NT & ES & OKF & EXF & CNF); auto; try lia.
        exists q', n, (Some p'). rewrite RL. split; [reflexivity|]. cbn [length]. split; [lia|]. split; [symmetry; exact NT|]. split; [discriminate|]. auto.
    + exists (set_mode q1 Store), 0%nat, (Some p). split; [reflexivity|]. split; [cbn; lia|]. split; [reflexivity|]. split; [discriminate|]. split; [exact EL1|].
      cbn. split; [apply set_mode_ok, OK1|]. split; [split; [discriminate|exact EX]|]. unfold cnt in *. cbn. lia.
Qed.

Lemma split_at {A} (l : list A) : forall n, (n <= length l)%nat -> l = firstn n l ++ match nth_error l n with Some x => [x] | None => [] end ++ skipn (S n) l.
Proof. induction l as [|x l IH]; intros [|n] L; cbn in L; try lia; [reflexivity|reflexivity|]. cbn. f_equal. apply IH. lia. Qed.

Lemma len_take {A B} (f : A -> B) (l : list A) n : (n <= length l)%nat -> length (map f (firstn n l)) = n.
Proof. intros L. rewrite map_length. apply firstn_length_le. exact L. Qed.

Definition ids (q : codel) : list pkt := map fst (cq_elements q).

Lemma pushes_nonneg : forall ops, (forall p u, In (CPush p u) ops -> 0 <= pk_len p) -> 0 <= sizes (pushes ops).
Proof.
  induction ops as [|o ops IH]; intros NN; [reflexivity|]. cbn [pushes flat_map]. change (flat_map _ ops) with (pushes ops). rewrite sizes_app.
  assert (0 <= sizes (pushes ops)) by (apply IH; intros; eapply NN; right; eauto).
  destruct o as [p u|u]; [|unfold sizes at 1; cbn; lia]. pose proof (NN p u (or_introl eq_refl)). rewrite sizes_cons. unfold sizes at 1. cbn. lia.
Qed.

Lemma run_ok : forall ops t w q k, okq t w q -> expl w -> cnt k q -> 946684800000000000 <= t -> in_time t ops ->
  (forall p u, In (CPush p u) ops -> 0 <= pk_len p) -> sizes (ids q) + sizes (pushes ops) <= U64_MAX ->
  k + Z.of_nat (length (cq_elements q)) + Z.of_nat (length ops) < U64_MAX -> 0 <= k ->
  exists q' outs, cq_run q ops = Some (q', outs) /\ ids q ++ pushes ops = left_queue outs ++ ids q' /\ cq_bytes q' = sizes (ids q') /\
    expl (rev (watch (cq_elements q) ops outs) ++ w) /\
    exists t' w' k', okq t' w' q' /\ expl w' /\ cnt k' q' /\ 946684800000000000 <= t' /\ (forall o, t' <= op_time o -> t <= op_time o) /\
      k' + Z.of_nat (length (cq_elements q')) <= k + Z.of_nat (length (cq_elements q)) + Z.of_nat (length ops) /\ (t' = t /\ ops = [] \/ exists o, In o ops /\ op_time o = t').
Proof.
  induction ops as [|o ops IH]; intros t w q k OK EX CN T IN NN SB KB K0.
  - exists q, []. split; [reflexivity|]. cbn. rewrite app_nil_r. split; [reflexivity|]. split; [apply OK|]. split; [exact EX|].
    exists t, w, k. split; [exact OK|]. split; [exact EX|]. split; [exact CN|]. split; [exact T|]. split; [auto|]. split; [lia|]. left; auto.
  - destruct IN as (TI & IN). cbn [length] in KB. destruct o as [p u|u]; cbn [op_time] in *.
    + cbn [CodelModel.cq_run CodelModel.cq_step]. unfold cq_push.
      rewrite (proj2 (Z.ltb_lt _ _)) by (unfold LIMIT; lia).
      assert (PB : cq_bytes q + pk_len p <= U64_MAX).
      { rewrite (ok_bytes _ _ _ OK). cbn [pushes flat_map] in SB. change (flat_map _ ops) with (pushes ops) in SB. cbn [app] in SB. rewrite sizes_cons in SB.
        pose proof (pushes_nonneg ops (fun a b c => NN a b (or_intror c))).
        unfold ids in SB. lia. }
      rewrite assert_true by lia. ob. rewrite assert_true by reflexivity. ob.
      set (q1 := set_store q (cq_elements q ++ [(p, u)]) (cq_bytes q + pk_len p)).
      assert (P0 : 0 <= pk_len p) by (eapply NN; left; reflexivity).
      assert (I1 : ids q1 = ids q ++ [p]) by (unfold ids, q1; cbn; rewrite map_app; reflexivity).
      destruct (IH u w q1 k) as (q' & outs & RN & EQ & BY & EX' & t' & w' & k' & OK' & X1 & X2 & X3 & X4 & X5 & X6).
      * destruct OK as [OB OP OT OE ON OR]. constructor; unfold q1; cbn; auto.
        -- rewrite map_app, sizes_app, OB. unfold sizes at 3. cbn. lia.
        -- apply Forall_app. split; [exact OP|repeat constructor; exact P0].
        -- apply Forall_app. split; [eapply Forall_impl; [|exact OT]; cbn; intros; lia|repeat constructor; cbn; lia].
        -- intros n E. specialize (OR n E). lia.
      * exact EX.
      * exact CN.
      * lia.
      * exact IN.
      * intros; eapply NN; right; eauto.
      * rewrite I1, sizes_app. cbn [pushes flat_map app] in SB. change (flat_map _ ops) with (pushes ops) in SB. rewrite sizes_cons in SB. unfold sizes at 2. cbn. lia.
      * unfold q1. cbn. rewrite app_length. cbn. lia.
      * exact K0.
      * exists q', outs. rewrite RN. ob. split; [reflexivity|]. split; [cbn [pushes flat_map]; change (flat_map _ ops) with (pushes ops); rewrite <- EQ, I1, <- app_assoc; reflexivity|]. split; [exact BY|].
        split; [exact EX'|].
        exists t', w', k'. split; [exact OK'|]. split; [exact X1|]. split; [exact X2|]. split; [exact X3|]. split; [intros o O; specialize (X4 o O); lia|].
        split; [unfold q1 in X5; cbn in X5; rewrite app_length in X5; cbn in X5; cbn [length]; lia|].
        destruct X6 as [(-> & ->)|(o & O1 & O2)]; right; [eexists; split; [left; reflexivity|reflexivity]|exists o; split; [right; exact O1|exact O2]].
    + cbn [CodelModel.cq_run CodelModel.cq_step].
      destruct (pop_ok t u w q k OK EX CN) as (q1 & n & r & PO & LE & RE & RN0 & ES & OK1 & EX1 & CN1); try lia. rewrite PO. ob.
      destruct (IH u _ q1 (k + Z.of_nat n) OK1 EX1 CN1) as (q' & outs & RN & EQ & BY & EX' & t' & w' & k' & OK' & X1 & X2 & X3 & X4 & X5 & X6); try lia.
      * exact IN.
      * intros; eapply NN; right; eauto.
      * cbn [pushes flat_map app] in SB. change (flat_map _ ops) with (pushes ops) in SB.
        assert (sizes (ids q1) <= sizes (ids q)).
        { unfold ids. rewrite ES. rewrite (split_at (cq_elements q) n LE) at 2. rewrite app_assoc, map_app, sizes_app.
          assert (0 <= sizes (map fst (firstn n (cq_elements q) ++ match nth_error (cq_elements q) n with Some x => [x] | None => [] end))); [|lia].
          apply sizes_nonneg. pose proof (ok_pos _ _ _ OK) as OP. rewrite (split_at (cq_elements q) n LE), app_assoc in OP. apply Forall_app in OP. apply OP. }
        lia.
      * rewrite ES. assert (LL : (length (skipn (S n) (cq_elements q)) + n <= length (cq_elements q))%nat) by (rewrite skipn_length; lia). lia.
      * exists q', ((map fst (firstn n (cq_elements q)), r) :: outs). rewrite RN. ob. split; [reflexivity|].
        split.
        { cbn [pushes flat_map app left_queue fst snd]. change (flat_map _ ops) with (pushes ops). change (flat_map _ outs) with (left_queue outs).
          rewrite <- (app_assoc _ (left_queue outs)), <- EQ. unfold ids at 2. rewrite ES. rewrite app_assoc. f_equal. unfold ids.
          rewrite (split_at (cq_elements q) n LE) at 1. rewrite !map_app, app_assoc. f_equal. f_equal. rewrite RE. destruct (nth_error (cq_elements q) n) as [[]|]; reflexivity. }
        split; [exact BY|]. split.
        { cbn [watch]. rewrite (len_take fst (cq_elements q) n LE). rewrite <- ES. rewrite app_assoc, rev_app_distr, <- app_assoc. exact EX'. }
        exists t', w', k'. split; [exact OK'|]. split; [exact X1|]. split; [exact X2|]. split; [exact X3|]. split; [intros o O; specialize (X4 o O); lia|].
        split; [rewrite ES in X5; rewrite skipn_length in X5; cbn [length]; lia|].
        destruct X6 as [(-> & ->)|(o & O1 & O2)]; right; [eexists; split; [left; reflexivity|reflexivity]|exists o; split; [right; exact O1|exact O2]].
Qed.

Lemma new_ok : okq 946684800000000000 [] cq_new /\ cnt 0 cq_new.
Proof. split; [constructor; cbn; try discriminate; constructor|unfold cnt; cbn; lia]. Qed.

Lemma conserve ops : in_time 946684800000000000 ops -> fits ops ->
  exists q outs, cq_run cq_new ops = Some (q, outs) /\ pushes ops = left_queue outs ++ map fst (cq_elements q) /\ cq_bytes q = sizes (map fst (cq_elements q)).
Proof.
  intros IN (F1 & F2 & F3). destruct new_ok as (N1 & N2).
  destruct (run_ok ops 946684800000000000 [] cq_new 0 N1 I N2) as (q & outs & RN & EQ & BY & _); auto; try lia; try (change (sizes (ids cq_new)) with 0; lia); try (cbn; lia).
  exists q, outs. auto.
Qed.

(** An empty answer means an empty queue. *)
Lemma serves ops t q outs q' d : in_time 946684800000000000 (ops ++ [CPop t]) -> fits ops ->
  cq_run cq_new ops = Some (q, outs) -> cq_step q (CPop t) = Some (q', [(d, None)]) -> d = [] /\ left_queue outs = pushes ops.
Proof.
  intros IN (F1 & F2 & F3) RN ST. destruct new_ok as (N1 & N2).
  assert (IN0 : in_time 946684800000000000 ops). { clear - IN. revert IN. generalize 946684800000000000. induction ops as [|o ops IH]; intros z; cbn; [auto|]. intros (A & B). split; [exact A|apply IH, B]. }
  destruct (run_ok ops 946684800000000000 [] cq_new 0 N1 I N2) as (q0 & outs0 & RN0 & EQ & BY & _ & t' & w' & k' & OK' & X1 & X2 & X3 & X4 & X5 & X6); auto; try lia; try (change (sizes (ids cq_new)) with 0; lia); try (cbn; lia).
  rewrite RN in RN0. injection RN0 as <- <-.
  assert (TT : t' <= t <= EMU_LIMIT - 10000000000).
  { clear - IN X6. destruct X6 as [(-> & ->)|(o & O1 & <-)]; [cbn in IN; lia|]. revert IN O1. generalize 946684800000000000. induction ops as [|a ops IH]; intros z IN O; [destruct O|].
    destruct IN as (A & B). destruct O as [->|O]; [|exact (IH _ B O)]. clear IH A. revert B. generalize (op_time o). clear. induction ops as [|a ops IH]; intros z B; cbn in B; [lia|]. destruct B as (A & B). specialize (IH _ B). lia. }
  destruct (pop_ok t' t w' q k' OK' X1 X2) as (q1 & n & r & PO & LE & RE & RN1 & ES & _); try lia.
  { cbn in X5. lia. }
  cbn [CodelModel.cq_step] in ST. rewrite PO in ST. ob_in ST. injection ST as <- ED ->. specialize (RN1 eq_refl).
  rewrite RN1 in ED. destruct n; cbn in ED; subst d; (split; [reflexivity|]); cbn in EQ; rewrite EQ; unfold ids; rewrite RN1; cbn; rewrite app_nil_r; reflexivity.
Qed.

Lemma expl_in : forall w pre s post, expl w -> w = pre ++ s :: post -> is_drop s = true -> exists e, e <= when s /\ bad_since e (s :: post).
Proof. induction w as [|a w IH]; intros pre s post X E D; [destruct pre; discriminate|]. destruct X as (X1 & X2). destruct pre as [|b pre]; cbn in E; injection E as -> ->; [auto|eapply IH; eauto]. Qed.

(** Every dropped packet follows an interval of at least 100 ms in which every packet that left was
    late and left more than one full-sized packet behind. *)
Lemma drop_reason ops q outs pre s post : in_time 946684800000000000 ops -> fits ops -> cq_run cq_new ops = Some (q, outs) ->
  watch [] ops outs = pre ++ s :: post -> is_drop s = true ->
  exists a s0 b, pre ++ [s] = a ++ s0 :: b /\ when s0 + 100000000 <= when s /\ Forall congested (s0 :: b).
Proof.
  intros IN (F1 & F2 & F3) RN W D. destruct new_ok as (N1 & N2).
  destruct (run_ok ops 946684800000000000 [] cq_new 0 N1 I N2) as (q0 & outs0 & RN0 & EQ & BY & EX & _); auto; try lia; try (change (sizes (ids cq_new)) with 0; lia); try (cbn; lia).
  rewrite RN in RN0. injection RN0 as <- <-. rewrite app_nil_r in EX. change (cq_elements cq_new) with (@nil (pkt * Z)) in EX. rewrite W, rev_app_distr in EX. cbn [rev] in EX. rewrite <- app_assoc in EX. cbn [app] in EX.
  destruct (expl_in _ (rev post) s (rev pre) EX eq_refl D) as (e & LE & p1 & s0 & p2 & E & WS & F).
  exists (rev p2), s0, (rev p1). split; [|split].
  - assert (R : rev (s :: rev pre) = rev (p1 ++ s0 :: p2)) by (f_equal; exact E). cbn [rev] in R. rewrite rev_involutive, rev_app_distr in R. cbn [rev] in R. rewrite <- app_assoc in R. exact R.
  - unfold INTERVAL in WS. lia.
  - rewrite <- (rev_involutive (s0 :: rev p1)). apply Forall_rev. cbn [rev]. rewrite rev_involutive. exact F.
Qed.
End Law.
