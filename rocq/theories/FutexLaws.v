(** Laws of futexes, from the queue. *)
From Verif Require Import Base FMap TimeModel FutexModel FutexSpec FutexProofs FutexStep.
From Coq Require Import Lia.

Fixpoint sp_log (p : sp) (ops : list op) : option (list item) :=
  match ops with
  | [] => Some []
  | o :: r => do (p1, x) <- sp_step p o; do xs <- sp_log p1 r; Some ((p_now p, o, x) :: xs)
  end.

Lemma log_eq ops : forall s p L, R s p L -> log s ops = sp_log p ops.
Proof.
  induction ops as [|o ops IH]; intros s p L H; [reflexivity|]. cbn [log sp_log].
  pose proof (step_ok _ _ _ o H) as X. unfold sim in X.
  destruct (step s o) as [[s1 a]|], (sp_step p o) as [[p1 b]|]; cbn [obind]; try contradiction; [|reflexivity].
  destruct X as (-> & L1 & H1). rewrite (IH _ _ _ H1), (r_now _ _ _ H). reflexivity.
Qed.

(** The state of the queue along a run of the model. *)
Lemma reach t0 ops s outs : run (init t0) ops = Some (s, outs) ->
  exists p L, sp_run (sp_init t0) ops = Some (p, outs) /\ R s p L.
Proof.
  intros E. pose proof (run_ok ops _ _ _ (init_R t0)) as X. rewrite E in X.
  destruct (sp_run (sp_init t0) ops) as [[p b]|]; [|contradiction]. destruct X as (-> & L & H). eauto.
Qed.

(** * Waking *)

Lemma wake_first_count pid va q : forall n, 0 <= n ->
  snd (wake_first pid va n q) =
  Z.min n (Z.of_nat (length (filter (fun e => here pid va e && negb (e_woken e)) q))).
Proof.
  induction q as [|e q IH]; intros n N; cbn [wake_first filter length]; [cbn; lia|].
  destruct (here pid va e && negb (e_woken e)); cbn [andb].
  - destruct (Z.ltb_spec 0 n).
    + specialize (IH (n - 1) ltac:(lia)). destruct (wake_first pid va (n - 1) q) as [r k]. cbn [snd] in *. subst k.
      cbn [length]. rewrite Nat2Z.inj_succ. lia.
    + specialize (IH n N). destruct (wake_first pid va n q) as [r k]. cbn [snd] in *. subst k.
      cbn [length]. rewrite Nat2Z.inj_succ. lia.
  - specialize (IH n N). destruct (wake_first pid va n q) as [r k]. cbn [snd] in *. assumption.
Qed.

(** Which threads are left to be woken. *)
Lemma wake_first_skip pid va q : forall n, 0 <= snd (wake_first pid va n q) /\
  filter (fun e => here pid va e && negb (e_woken e)) (fst (wake_first pid va n q)) =
  skipn (Z.to_nat (snd (wake_first pid va n q))) (filter (fun e => here pid va e && negb (e_woken e)) q).
Proof.
  induction q as [|e q IH]; intros n; cbn [wake_first filter]; [split; [cbn; lia|reflexivity]|].
  destruct (here pid va e && negb (e_woken e)) eqn:C; cbn [andb].
  - destruct (Z.ltb_spec 0 n).
    + destruct (IH (n - 1)) as [P E]. destruct (wake_first pid va (n - 1) q) as [r k]. cbn [fst snd filter e_woken negb] in *.
      rewrite andb_false_r. split; [lia|]. rewrite E.
      replace (Z.to_nat (k + 1)) with (S (Z.to_nat k)) by lia. reflexivity.
    + assert (N : n <= 0) by lia. rewrite wake_first_zero by exact N. cbn [fst snd filter]. rewrite C. split; [lia|reflexivity].
  - destruct (IH n) as [P E]. destruct (wake_first pid va n q) as [r k]. cbn [fst snd filter] in *. rewrite C. auto.
Qed.

Lemma wake_first_tids pid va q : forall n, map e_tid (fst (wake_first pid va n q)) = map e_tid q.
Proof.
  induction q as [|e q IH]; intros n; cbn [wake_first]; [reflexivity|].
  destruct (_ && (0 <? n)).
  - specialize (IH (n - 1)). destruct (wake_first pid va (n - 1) q). cbn [fst map] in *. now rewrite IH.
  - specialize (IH n). destruct (wake_first pid va n q). cbn [fst map] in *. now rewrite IH.
Qed.

Lemma wake_first_others pid va q : forall n,
  filter (fun e => negb (here pid va e)) (fst (wake_first pid va n q)) = filter (fun e => negb (here pid va e)) q.
Proof.
  induction q as [|e q IH]; intros n; cbn [wake_first]; [reflexivity|].
  destruct (here pid va e) eqn:HR; cbn [andb].
  - destruct (negb (e_woken e) && (0 <? n)).
    + specialize (IH (n - 1)). destruct (wake_first pid va (n - 1) q). cbn [fst filter] in *.
      change (here pid va (mkEnt (e_tid e) (e_pid e) (e_va e) (e_dl e) true true)) with (here pid va e). rewrite HR. exact IH.
    + specialize (IH n). destruct (wake_first pid va n q). cbn [fst filter] in *. rewrite HR. exact IH.
  - specialize (IH n). destruct (wake_first pid va n q). cbn [fst filter] in *. rewrite HR. cbn [negb]. now rewrite IH.
Qed.

Lemma wake_law t0 ops s outs tid opn va val ts val3 pid : run (init t0) ops = Some (s, outs) ->
  is_wake opn val3 = true -> 0 <= val ->
  exists p, sp_run (sp_init t0) ops = Some (p, outs) /\
  forall h, get tid (p_thr p) = Some h -> h_pid h = pid -> existsb (is_tid tid) (p_q p) = false ->
  nameable pid va = true ->
  exists s' p', step s (Futex tid opn va val ts val3) = Some (s', Ret (Z.min val (sleepers p pid va)) false) /\
    sp_run (sp_init t0) (ops ++ [Futex tid opn va val ts val3]) =
      Some (p', outs ++ [Ret (Z.min val (sleepers p pid va)) false]) /\
    filter (fun e => here pid va e && negb (e_woken e)) (p_q p') =
      skipn (Z.to_nat (Z.min val (sleepers p pid va))) (filter (fun e => here pid va e && negb (e_woken e)) (p_q p)) /\
    others_kept pid va p p' /\ p_mem p' = p_mem p /\ p_thr p' = p_thr p.
Proof.
  intros E IW V. destruct (reach _ _ _ _ E) as (p & L & EP & H). exists p. split; [exact EP|].
  intros h G HP NW NM.
  assert (X : sp_step p (Futex tid opn va val ts val3) = sp_wake p pid va val).
  { cbn [sp_step]. rewrite G, NW. unfold is_wake in IW. subst pid.
    destruct (Z.eqb_spec (Z.ldiff opn (Z.lor 128 256)) 0) as [Z0|]; [rewrite Z0 in IW; discriminate|].
    destruct (Z.eqb_spec (Z.ldiff opn (Z.lor 128 256)) 1) as [Z1|]; [reflexivity|].
    cbn [orb] in IW. apply andb_true_iff in IW. destruct IW as [A B]. rewrite B, A.
    apply Z.eqb_eq in A. rewrite A. reflexivity. }
  pose proof (step_ok _ _ _ (Futex tid opn va val ts val3) H) as S0. rewrite X in S0.
  unfold sp_wake in *. rewrite NM in *. 
  pose proof (wake_first_count pid va (p_q p) val V) as C. pose proof (wake_first_skip pid va (p_q p) val) as [_ K].
  pose proof (wake_first_tids pid va (p_q p) val) as K1. pose proof (wake_first_others pid va (p_q p) val) as K2.
  fold (sleepers p pid va) in C.
  destruct (wake_first pid va val (p_q p)) as [q k]. cbn [fst snd] in *. subst k.
  unfold sim in S0. destruct (step s (Futex tid opn va val ts val3)) as [[s' x]|] eqn:ST; [|contradiction].
  destruct S0 as [-> _]. exists s', (with_q q p). split; [reflexivity|]. split; [|split; [exact K|split; [exact (conj K1 K2)|split; reflexivity]]].
  clear -EP X. revert EP. generalize (sp_init t0). revert outs. induction ops as [|o ops IH]; intros outs p0 EP; cbn [app sp_run] in *.
  - injection EP as <- <-. rewrite X. reflexivity.
  - destruct (sp_step p0 o) as [[p1 y]|]; [|discriminate]. cbn [obind] in *.
    destruct (sp_run p1 ops) as [[p2 ys]|] eqn:F; [|discriminate]. cbn [obind] in EP. injection EP as -> <-.
    rewrite (IH _ _ F). reflexivity.
Qed.

(** * When waits end *)

Definition entry (tid : Z) (D : option Z) (p : sp) : Prop :=
  forall e, In e (p_q p) -> e_tid e = tid -> e_dl e = D.
Definition timely (p : sp) : Prop := forall e d, In e (p_q p) -> e_dl e = Some d -> p_now p <= d.

Lemma wake_first_in pid va q : forall n e, In e (fst (wake_first pid va n q)) ->
  exists e0, In e0 q /\ e_tid e = e_tid e0 /\ e_pid e = e_pid e0 /\ e_va e = e_va e0 /\ e_dl e = e_dl e0 /\
    (e = e0 \/ e = mkEnt (e_tid e0) (e_pid e0) (e_va e0) (e_dl e0) true true).
Proof.
  induction q as [|e q IH]; intros n x; cbn [wake_first]; [cbn; contradiction|].
  destruct (_ && (0 <? n)).
  - specialize (IH (n - 1) x). destruct (wake_first pid va (n - 1) q) as [r k]. cbn [fst] in *. intros [<-|H].
    + exists e. cbn. intuition.
    + destruct (IH H) as (e0 & A & B). exists e0. cbn. intuition.
  - specialize (IH n x). destruct (wake_first pid va n q) as [r k]. cbn [fst] in *. intros [<-|H].
    + exists e. cbn. intuition.
    + destruct (IH H) as (e0 & A & B). exists e0. cbn. intuition.
Qed.

(** Every entry after a step comes from an entry before it, or is the new one. *)
Lemma step_entries p o p' x : sp_step p o = Some (p', x) ->
  forall e, In e (p_q p') ->
  (exists e0, In e0 (p_q p) /\ e_tid e = e_tid e0 /\ e_pid e = e_pid e0 /\ e_va e = e_va e0 /\ e_dl e = e_dl e0) \/
  (exists opn va val ts val3, o = Futex (e_tid e) opn va val ts val3 /\ x = Block /\
     is_wait opn val3 = true /\ e_va e = va /\
     e_dl e = until opn ts (p_now p) /\ p_now p' = p_now p /\ p_mem p (e_pid e) va = Some val /\
     e_woken e = false /\ e_soon e = false).
Proof.
  assert (ID : forall e, In e (p_q p) ->
    exists e0, In e0 (p_q p) /\ e_tid e = e_tid e0 /\ e_pid e = e_pid e0 /\ e_va e = e_va e0 /\ e_dl e = e_dl e0).
  { intros e H. exists e. auto. }
  assert (WK : forall pp pid va n p1 y, p_q pp = p_q p -> sp_wake pp pid va n = Some (p1, y) -> forall e, In e (p_q p1) ->
    exists e0, In e0 (p_q p) /\ e_tid e = e_tid e0 /\ e_pid e = e_pid e0 /\ e_va e = e_va e0 /\ e_dl e = e_dl e0).
  { intros pp pid va n p1 y Q. unfold sp_wake. destruct (nameable pid va); [|discriminate]. rewrite Q.
    pose proof (wake_first_in pid va (p_q p) n) as W. destruct (wake_first pid va n (p_q p)) as [q k].
    intros X. injection X as <- <-. intros e H. cbn [p_q with_q fst] in *. destruct (W e H) as (e0 & A). exists e0. intuition. }
  assert (WT : forall tid t opn va val ts val3 abs, 
    Z.ldiff opn (Z.lor 128 256) =? 0 = negb abs -> is_wait opn val3 = true ->
    sp_wait p tid t va val ts abs = Some (p', x) ->
    forall e, In e (p_q p') ->
      (exists e0, In e0 (p_q p) /\ e_tid e = e_tid e0 /\ e_pid e = e_pid e0 /\ e_va e = e_va e0 /\ e_dl e = e_dl e0) \/
      (exists opn' va' val' ts' val3', Futex tid opn va val ts val3 = Futex (e_tid e) opn' va' val' ts' val3' /\ x = Block /\
        is_wait opn' val3' = true /\ e_va e = va' /\
        e_dl e = until opn' ts' (p_now p) /\ p_now p' = p_now p /\ p_mem p (e_pid e) va' = Some val' /\
        e_woken e = false /\ e_soon e = false)).
  { intros tid t opn va val ts val3 abs OPN IW. unfold sp_wait.
    assert (GO : forall dl, (match dl with Some d => Some (Z.max d (p_now p)) | None => None end) = until opn ts (p_now p) ->
      match p_mem p (h_pid t) va with
      | None => Some (p, err EFAULT)
      | Some v =>
        if negb (v =? val) then Some (p, err EAGAIN)
        else if negb (nameable (h_pid t) va) then None
        else if match dl with Some d => EMUTIME_MAX <? d | None => false end then None
        else if h_sig t then Some (p, Ret (- EINTR) true)
        else Some (with_q (p_q p ++ [mkEnt tid (h_pid t) va
                            (match dl with Some d => Some (Z.max d (p_now p)) | None => None end)
                            false false]) p, Block)
      end = Some (p', x) -> forall e, In e (p_q p') ->
      (exists e0, In e0 (p_q p) /\ e_tid e = e_tid e0 /\ e_pid e = e_pid e0 /\ e_va e = e_va e0 /\ e_dl e = e_dl e0) \/
      (exists opn' va' val' ts' val3', Futex tid opn va val ts val3 = Futex (e_tid e) opn' va' val' ts' val3' /\ x = Block /\
        is_wait opn' val3' = true /\ e_va e = va' /\
        e_dl e = until opn' ts' (p_now p) /\ p_now p' = p_now p /\ p_mem p (e_pid e) va' = Some val' /\
        e_woken e = false /\ e_soon e = false)).
    { intros dl DL. destruct (p_mem p (h_pid t) va) as [v|] eqn:MV.
      2: { intros X. injection X as <- <-. auto. }
      destruct (Z.eqb_spec v val) as [->|]; cbn [negb].
      2: { intros X. injection X as <- <-. auto. }
      destruct (nameable (h_pid t) va); cbn [negb]; [|discriminate].
      destruct (match dl with Some d => EMUTIME_MAX <? d | None => false end); [discriminate|].
      destruct (h_sig t); intros X; injection X as <- <-; [auto|].
      intros e IN. cbn [p_q with_q] in IN. apply in_app_iff in IN. destruct IN as [IN|[<-|[]]]; [left; auto|].
      right. exists opn, va, val, ts, val3. cbn [e_tid e_va e_dl e_pid p_now with_q e_woken e_soon]. auto 10. }
    destruct ts as [|[y|]].
    - apply (GO None). reflexivity.
    - destruct (length_of y) as [d|] eqn:LO.
      + apply (GO (Some (if abs then d else p_now p + d))). unfold until. rewrite OPN. unfold length_of in LO. destruct (_ && _ && _ && _); [|discriminate].
        injection LO as <-. destruct abs; reflexivity.
      + intros X. injection X as <- <-. auto.
    - intros X. injection X as <- <-. auto. }
  destruct o; cbn [sp_step]; intros S0 e IN.
  - left. destruct (get tid (p_thr p)); injection S0 as <- <-; auto.
  - left. injection S0 as <- <-. unfold sp_upd in IN. destruct (get tid (p_thr p)); auto.
  - destruct (get tid (p_thr p)) as [t|]; [|injection S0 as <- <-; auto].
    destruct (existsb (is_tid tid) (p_q p)); [injection S0 as <- <-; auto|].
    destruct (Z.eqb_spec (Z.ldiff opn (Z.lor 128 256)) 0) as [E0|N0].
    { eapply WT; [| |exact S0|exact IN]; [now rewrite E0|unfold is_wait; now rewrite E0]. }
    destruct (Z.ldiff opn (Z.lor 128 256) =? 1); [left; eapply WK; [|exact S0|exact IN]; reflexivity|].
    destruct (val3 =? U32_MAX) eqn:V3; [|injection S0 as <- <-; auto].
    destruct (Z.eqb_spec (Z.ldiff opn (Z.lor 128 256)) 9) as [E9|N9].
    { eapply WT; [| |exact S0|exact IN]; [now rewrite E9|unfold is_wait; now rewrite E9, V3]. }
    destruct (Z.ldiff opn (Z.lor 128 256) =? 10); [left; eapply WK; [|exact S0|exact IN]; reflexivity|].
    injection S0 as <- <-. auto.
  - left. destruct (get tid (p_thr p)) as [t|]; [|injection S0 as <- <-; auto].
    destruct (find (is_tid tid) (p_q p)) as [e1|]; [|injection S0 as <- <-; auto].
    destruct (e_soon e1); injection S0 as <- <-; [|auto]. cbn [p_q with_q] in IN. unfold leave in IN. apply filter_In in IN. apply ID. tauto.
  - left. injection S0 as <- <-. cbn [p_q with_q] in IN. apply in_map_iff in IN. destruct IN as (e0 & <- & IN). exists e0.
    destruct (_ && _); auto.
  - left. injection S0 as <- <-. cbn [p_q with_q] in IN. apply in_map_iff in IN. destruct IN as (e0 & <- & IN). exists e0.
    destruct (is_tid tid e0); auto.
  - left. injection S0 as <- <-. unfold sp_upd in IN. destruct (get tid (p_thr p)); auto.
  - left. injection S0 as <- <-. auto.
  - left. injection S0 as <- <-. destruct (sp_may_pass t p); auto.
  - left. injection S0 as <- <-. auto.
  - left. destruct (get tid (p_thr p)) as [t|]; [|injection S0 as <- <-; auto].
    destruct (existsb (is_tid tid) (p_q p)); [injection S0 as <- <-; auto|].
    destruct (_ || _); [injection S0 as <- <-; auto|].
    destruct (p_mem p (h_pid t) (h_ctid t)); [|discriminate].
    destruct (sp_wake _ _ _ _) as [[p2 y]|] eqn:SW; [|discriminate]. injection S0 as <- <-.
    eapply WK; [|exact SW|exact IN]. reflexivity.
  - left. injection S0 as <- <-. cbn [p_q] in IN. apply filter_In in IN. apply ID. tauto.
Qed.

Lemma step_now p o p' x : sp_step p o = Some (p', x) ->
  p_now p' = p_now p \/ exists t, o = Advance t /\ p_now p' = t /\ p_now p <= t /\
    forall e, In e (p_q p) -> (e_soon e = true -> t <= p_now p) /\ (forall d, e_dl e = Some d -> t <= d).
Proof.
  assert (WT : forall tid t va val ts abs, sp_wait p tid t va val ts abs = Some (p', x) -> p_now p' = p_now p).
  { intros tid t va val ts abs. unfold sp_wait.
    repeat match goal with
    | |- None = Some _ -> _ => discriminate
    | |- Some _ = Some _ -> _ => let X := fresh in intros X; injection X as <- <-; reflexivity
    | |- context [match ?y with _ => _ end] => lazymatch y with context [match _ with _ => _ end] => fail | _ => destruct y end
    end. }
  assert (WK : forall pp pid va n p1 y, sp_wake pp pid va n = Some (p1, y) -> p_now p1 = p_now pp).
  { intros pp pid va n p1 y. unfold sp_wake. destruct (nameable pid va); [|discriminate].
    destruct (wake_first pid va n (p_q pp)). intros X. now injection X as <- <-. }
  destruct o; cbn [sp_step]; intros S0.
  - left. destruct (get tid (p_thr p)); now injection S0 as <- <-.
  - left. injection S0 as <- <-. unfold sp_upd. now destruct (get tid (p_thr p)).
  - left. destruct (get tid (p_thr p)) as [t|]; [|now injection S0 as <- <-].
    destruct (existsb (is_tid tid) (p_q p)); [now injection S0 as <- <-|].
    destruct (_ =? 0); [eauto|]. destruct (_ =? 1); [eauto|].
    destruct (val3 =? U32_MAX); [|now injection S0 as <- <-].
    destruct (_ =? 9); [eauto|]. destruct (_ =? 10); [eauto|]. now injection S0 as <- <-.
  - left. destruct (get tid (p_thr p)) as [t|]; [|now injection S0 as <- <-].
    destruct (find (is_tid tid) (p_q p)) as [e1|]; [|now injection S0 as <- <-].
    destruct (e_soon e1); now injection S0 as <- <-.
  - left. now injection S0 as <- <-.
  - left. now injection S0 as <- <-.
  - left. injection S0 as <- <-. unfold sp_upd. now destruct (get tid (p_thr p)).
  - left. now injection S0 as <- <-.
  - injection S0 as <- <-. destruct (sp_may_pass t p) eqn:MP; [|now left]. right. exists t. cbn [p_now].
    unfold sp_may_pass in MP. apply andb_true_iff in MP. destruct MP as [MP F]. apply andb_true_iff in MP.
    split; [reflexivity|]. split; [reflexivity|]. split; [lia|]. rewrite forallb_forall in F.
    intros e IN. specialize (F e IN). apply andb_true_iff in F. destruct F as [F1 F2]. split.
    + intros SN. rewrite SN in F1. cbn in F1. lia.
    + intros d D. rewrite D in F2. lia.
  - left. now injection S0 as <- <-.
  - left. destruct (get tid (p_thr p)) as [t|]; [|now injection S0 as <- <-].
    destruct (existsb (is_tid tid) (p_q p)); [now injection S0 as <- <-|].
    destruct (_ || _); [now injection S0 as <- <-|].
    destruct (p_mem p (h_pid t) (h_ctid t)); [|discriminate].
    destruct (sp_wake _ _ _ _) as [[p2 y]|] eqn:SW; [|discriminate]. injection S0 as <- <-.
    apply WK in SW. exact SW.
  - left. now injection S0 as <- <-.
Qed.

Lemma step_timely p o p' x : timely p -> sp_step p o = Some (p', x) -> timely p'.
Proof.
  intros T S0 e d IN D. destruct (step_entries _ _ _ _ S0 e IN) as [(e0 & IN0 & E1 & _ & _ & E2)|(opn & va & val & ts & val3 & _ & _ & _ & _ & E & EN & _)].
  - rewrite E2 in D. destruct (step_now _ _ _ _ S0) as [->|(t & _ & -> & _ & F)]; [apply (T e0 d IN0 D)|].
    apply (F e0 IN0). exact D.
  - rewrite EN. rewrite D in E. unfold until in E. destruct ts as [|[y|]]; try discriminate. injection E as ->. lia.
Qed.

(** What the end of a wait says about its entry. *)
Lemma resume_out p tid rd p' v rs : sp_step p (Resume tid rd) = Some (p', Ret v rs) ->
  exists e t, In e (p_q p) /\ e_tid e = tid /\ e_soon e = true /\ get tid (p_thr p) = Some t /\
    p_q p' = leave tid (p_q p) /\ Ret v rs = result p e (h_sig t) rd.
Proof.
  cbn [sp_step]. destruct (get tid (p_thr p)) as [t|]; [|discriminate].
  destruct (find (is_tid tid) (p_q p)) as [e|] eqn:F; [|discriminate]. destruct (e_soon e) eqn:SN; [|discriminate].
  intros X. injection X as <- E. apply find_some in F. destruct F as [IN T]. unfold is_tid in T. apply Z.eqb_eq in T.
  exists e, t. auto 8.
Qed.

Lemma result_over p e sig rd v rs : timely p -> In e (p_q p) -> Ret v rs = result p e sig rd -> over (e_dl e) (p_now p) v.
Proof.
  intros T IN. unfold result, over, err, ETIMEDOUT, EFAULT, EINVAL, EINTR.
  assert (G : forall late, Ret v rs = match p_mem p (e_pid e) (e_va e) with
     | None => Ret (-14) false
     | Some _ => if late : bool then Ret (-110) false else if sig then Ret (-4) false else Ret 0 false end ->
     (v = -110 -> late = true) /\ (late = true -> v = -110 \/ v = -14 \/ v = -22)).
  { intros late. destruct (p_mem p (e_pid e) (e_va e)), late, sig; intros X; injection X as -> _; split; intros; try lia; auto. }
  destruct (e_dl e) as [d|] eqn:D.
  - pose proof (T e d IN D) as LE. destruct rd as [y|].
    + destruct (length_of y).
      * intros X. apply G in X. destruct X as [X1 X2]. split; [exact LE|]. destruct (Z.leb_spec d (p_now p)); split; intros Y.
        -- lia.
        -- now apply X2.
        -- apply X1 in Y. discriminate.
        -- lia.
      * intros X. injection X as -> _. split; [exact LE|]. split; intros; [lia|auto].
    + intros X. injection X as -> _. split; [exact LE|]. split; intros; [lia|auto].
  - intros X. apply (G false) in X. destruct X as [X1 _]. intros Y. apply X1 in Y. discriminate.
Qed.

Lemma log_inv p ops l : sp_log p ops = Some l -> forall l1 i l2, l = l1 ++ i :: l2 ->
  exists ops1 o ops2 p1 outs p2, ops = ops1 ++ o :: ops2 /\ sp_run p ops1 = Some (p1, outs) /\
    sp_log p ops1 = Some l1 /\
    sp_step p1 o = Some (p2, snd i) /\ fst i = (p_now p1, o) /\ sp_log p2 ops2 = Some l2.
Proof.
  revert p l. induction ops as [|o ops IH]; intros p l E l1 i l2 EL; cbn [sp_log] in E.
  - injection E as <-. destruct l1; discriminate.
  - destruct (sp_step p o) as [[p1 x]|] eqn:S0; [|discriminate]. cbn [obind] in E.
    destruct (sp_log p1 ops) as [xs|] eqn:EL1; [|discriminate]. cbn [obind] in E. injection E as <-.
    destruct l1 as [|j l1]; cbn [app] in EL.
    + injection EL as <- <-. exists [], o, ops, p, [], p1. cbn. auto 8.
    + injection EL as <- EL. destruct (IH _ _ EL1 _ _ _ EL) as (ops1 & o1 & ops2 & p2 & outs & p3 & -> & A & B & C).
      exists (o :: ops1), o1, ops2, p2, (x :: outs), p3. cbn [app sp_run sp_log]. rewrite S0. cbn [obind]. rewrite A, B. cbn [obind]. auto 8.
Qed.

Lemma run_timely ops : forall p p' outs, timely p -> sp_run p ops = Some (p', outs) -> timely p'.
Proof.
  induction ops as [|o ops IH]; intros p p' outs T E; cbn [sp_run] in E; [now injection E as <- _|].
  destruct (sp_step p o) as [[p1 x]|] eqn:S0; [|discriminate]. cbn [obind] in E.
  destruct (sp_run p1 ops) as [[p2 xs]|] eqn:S1; [|discriminate]. cbn [obind] in E. injection E as -> _.
  eapply IH; [|exact S1]. eapply step_timely; eassumption.
Qed.

Lemma init_timely t0 : timely (sp_init t0).
Proof. intros e d []. Qed.

(** Until thread [tid] begins another wait, its entry has deadline [D]. *)
Lemma run_entry tid D ops : forall p p' outs l, entry tid D p -> sp_run p ops = Some (p', outs) -> sp_log p ops = Some l ->
  forallb (fun i => negb (begins tid i)) l = true -> entry tid D p'.
Proof.
  induction ops as [|o ops IH]; intros p p' outs l T E EL F; cbn [sp_run sp_log] in E, EL; [injection E as <- _; exact T|].
  destruct (sp_step p o) as [[p1 x]|] eqn:S0; [|discriminate]. cbn [obind] in E, EL.
  destruct (sp_run p1 ops) as [[p2 xs]|] eqn:S1; [|discriminate]. cbn [obind] in E. injection E as -> _.
  destruct (sp_log p1 ops) as [l'|] eqn:L1; [|discriminate]. cbn [obind] in EL. injection EL as <-.
  cbn [forallb] in F. apply andb_true_iff in F. destruct F as [F0 F].
  eapply IH; [|exact S1|exact L1|exact F].
  intros e IN ET. destruct (step_entries _ _ _ _ S0 e IN) as [(e0 & IN0 & E1 & _ & _ & E2)|(opn & va & val & ts & val3 & EO & EX & _)].
  - rewrite E2. apply T; [assumption|congruence].
  - subst o x. cbn [begins] in F0. rewrite ET, Z.eqb_refl in F0. discriminate.
Qed.

Theorem timeout_law t0 ops l1 tb tid opn va val ts val3 l2 te rd v rs l3 :
  log (init t0) ops = Some (l1 ++ (tb, Futex tid opn va val ts val3, Block) :: l2 ++
                            (te, Resume tid rd, Ret v rs) :: l3) ->
  forallb (fun i => negb (begins tid i)) l2 = true ->
  over (until opn ts tb) te v.
Proof.
  intros E F. rewrite (log_eq _ _ _ _ (init_R t0)) in E.
  destruct (log_inv _ _ _ E l1 _ _ eq_refl) as (ops1 & o & ops2 & p1 & outs1 & p2 & -> & R1 & _ & S1 & E1 & E2).
  cbn [fst snd] in S1, E1. injection E1 as -> <-.
  destruct (log_inv _ _ _ E2 l2 _ _ eq_refl) as (ops3 & o & ops4 & p3 & outs3 & p4 & -> & R3 & L3 & S3 & E3 & E4).
  cbn [fst snd] in S3, E3. injection E3 as -> <-.
  assert (T1 : timely p1) by (eapply run_timely; [apply init_timely|exact R1]).
  assert (T2 : timely p2) by (eapply step_timely; eassumption).
  assert (T3 : timely p3) by (eapply run_timely; [exact T2|exact R3]).
  assert (EN : entry tid (until opn ts (p_now p1)) p2).
  { intros e IN ET. destruct (step_entries _ _ _ _ S1 e IN) as [(e0 & IN0 & A & _)|(opn' & va' & val' & ts' & val3' & EO & _ & _ & _ & ED & _)].
    - exfalso. cbn [sp_step] in S1. destruct (get tid (p_thr p1)); [|discriminate].
      destruct (existsb (is_tid tid) (p_q p1)) eqn:X; [discriminate|].
      assert (existsb (is_tid tid) (p_q p1) = true); [|congruence]. apply existsb_exists. exists e0. split; [assumption|].
      unfold is_tid. rewrite <- A, ET. apply Z.eqb_refl.
    - injection EO as _ -> _ _ -> _. exact ED. }
  pose proof (run_entry _ _ _ _ _ _ _ EN R3 L3 F) as EN3.
  destruct (resume_out _ _ _ _ _ _ S3) as (e & t & IN & ET & _ & _ & _ & ER).
  rewrite <- (EN3 e IN ET). eapply result_over; eassumption.
Qed.

(** A wait blocks only if the word holds the value. *)
Theorem block_law t0 ops s outs tid opn va val ts val3 s' :
  run (init t0) ops = Some (s, outs) -> step s (Futex tid opn va val ts val3) = Some (s', Block) ->
  exists p h, sp_run (sp_init t0) ops = Some (p, outs) /\ get tid (p_thr p) = Some h /\
    is_wait opn val3 = true /\ p_mem p (h_pid h) va = Some val /\ h_sig h = false.
Proof.
  intros E S0. destruct (reach _ _ _ _ E) as (p & L & EP & H). exists p.
  pose proof (step_ok _ _ _ (Futex tid opn va val ts val3) H) as X. rewrite S0 in X. unfold sim in X.
  destruct (sp_step p (Futex tid opn va val ts val3)) as [[p' y]|] eqn:SP; [|contradiction]. destruct X as [<- _].
  cbn [sp_step] in SP. destruct (get tid (p_thr p)) as [h|] eqn:G; [|discriminate]. exists h.
  destruct (existsb (is_tid tid) (p_q p)); [discriminate|].
  assert (WT : forall abs, sp_wait p tid h va val ts abs = Some (p', Block) -> p_mem p (h_pid h) va = Some val /\ h_sig h = false).
  { intros abs. unfold sp_wait, err.
    destruct ts as [|[y|]]; [|destruct (length_of y); [|discriminate]|discriminate].
    all: destruct (p_mem p (h_pid h) va) as [v|]; [|discriminate]; destruct (Z.eqb_spec v val) as [->|]; [|discriminate];
      cbn [negb]; destruct (negb _); [discriminate|].
    - destruct (h_sig h); [discriminate|auto].
    - destruct (_ <? _); [discriminate|]. destruct (h_sig h); [discriminate|auto]. }
  assert (WK : forall pid n, sp_wake p pid va n <> Some (p', Block)).
  { intros pid n. unfold sp_wake. destruct (nameable pid va); [|discriminate]. destruct (wake_first _ _ _ _). discriminate. }
  unfold is_wait.
  destruct (_ =? 0); [cbn [orb]; destruct (WT _ SP); auto|].
  destruct (_ =? 1); [now apply WK in SP|].
  destruct (val3 =? U32_MAX); [|discriminate].
  destruct (_ =? 9); [cbn; destruct (WT _ SP); auto|].
  destruct (_ =? 10); [now apply WK in SP|]. discriminate.
Qed.

(** * Promptness *)

Definition prompt (p : sp) : Prop := forall e, In e (p_q p) -> e_woken e = true -> e_soon e = true.

Lemma step_prompt p o p' x : prompt p -> sp_step p o = Some (p', x) -> prompt p'.
Proof.
  intros T.
  assert (WK : forall pp pid va n p1 y, p_q pp = p_q p -> sp_wake pp pid va n = Some (p1, y) -> prompt p1).
  { intros pp pid va n p1 y Q. unfold sp_wake. destruct (nameable pid va); [|discriminate]. rewrite Q.
    pose proof (wake_first_in pid va (p_q p) n) as W. destruct (wake_first pid va n (p_q p)) as [q k].
    intros X. injection X as <- <-. intros e H. cbn [p_q with_q fst] in *.
    destruct (W e H) as (e0 & IN & _ & _ & _ & _ & [->| ->]); [exact (T e0 IN)|reflexivity]. }
  assert (WT : forall tid t va val ts abs, sp_wait p tid t va val ts abs = Some (p', x) -> prompt p').
  { intros tid t va val ts abs. unfold sp_wait.
    repeat match goal with
    | |- None = Some _ -> _ => discriminate
    | |- Some (p, _) = Some _ -> _ => let X := fresh in intros X; injection X as <- <-; exact T
    | |- Some _ = Some _ -> _ => let X := fresh in let e := fresh in let H := fresh in
        intros X; injection X as <- <-; intros e H; cbn [p_q with_q] in H; apply in_app_iff in H;
        destruct H as [H|[<-|[]]]; [exact (T e H)|discriminate]
    | |- context [match ?y with _ => _ end] => lazymatch y with context [match _ with _ => _ end] => fail | _ => destruct y end
    end. }
  destruct o; cbn [sp_step]; intros S0.
  - destruct (get tid (p_thr p)); injection S0 as <- <-; exact T.
  - injection S0 as <- <-. unfold sp_upd. destruct (get tid (p_thr p)); exact T.
  - destruct (get tid (p_thr p)) as [t|]; [|injection S0 as <- <-; exact T].
    destruct (existsb (is_tid tid) (p_q p)); [injection S0 as <- <-; exact T|].
    destruct (_ =? 0); [eauto|]. destruct (_ =? 1); [eapply WK; [|exact S0]; reflexivity|].
    destruct (val3 =? U32_MAX); [|injection S0 as <- <-; exact T].
    destruct (_ =? 9); [eauto|]. destruct (_ =? 10); [eapply WK; [|exact S0]; reflexivity|]. injection S0 as <- <-; exact T.
  - destruct (get tid (p_thr p)) as [t|]; [|injection S0 as <- <-; exact T].
    destruct (find (is_tid tid) (p_q p)) as [e1|]; [|injection S0 as <- <-; exact T].
    destruct (e_soon e1); injection S0 as <- <-; [|exact T].
    intros e IN. cbn [p_q with_q] in IN. unfold leave in IN. apply filter_In in IN. apply T. tauto.
  - injection S0 as <- <-. intros e IN. cbn [p_q with_q] in IN. apply in_map_iff in IN. destruct IN as (e0 & <- & IN).
    destruct (_ && _); [reflexivity|exact (T e0 IN)].
  - injection S0 as <- <-. intros e IN. cbn [p_q with_q] in IN. apply in_map_iff in IN. destruct IN as (e0 & <- & IN).
    destruct (is_tid tid e0); [reflexivity|exact (T e0 IN)].
  - injection S0 as <- <-. unfold sp_upd. destruct (get tid (p_thr p)); exact T.
  - injection S0 as <- <-. exact T.
  - injection S0 as <- <-. destruct (sp_may_pass t p); exact T.
  - injection S0 as <- <-. exact T.
  - destruct (get tid (p_thr p)) as [t|]; [|injection S0 as <- <-; exact T].
    destruct (existsb (is_tid tid) (p_q p)); [injection S0 as <- <-; exact T|].
    destruct (_ || _); [injection S0 as <- <-; exact T|].
    destruct (p_mem p (h_pid t) (h_ctid t)); [|discriminate].
    destruct (sp_wake _ _ _ _) as [[p2 y]|] eqn:SW; [|discriminate]. injection S0 as <- <-.
    eapply WK; [|exact SW]. reflexivity.
  - injection S0 as <- <-. intros e IN. cbn [p_q] in IN. apply filter_In in IN. apply T. tauto.
Qed.

Lemma wake_first_keep pid va q : forall n e, In e q -> e_woken e = true -> In e (fst (wake_first pid va n q)).
Proof.
  induction q as [|a q IH]; intros n e []; cbn [wake_first].
  - subst a. intros W. rewrite W, andb_false_r. cbn [andb]. destruct (wake_first pid va n q). now left.
  - intros W. destruct (_ && (0 <? n)).
    + specialize (IH (n - 1) e H W). destruct (wake_first pid va (n - 1) q). now right.
    + specialize (IH n e H W). destruct (wake_first pid va n q). now right.
Qed.

(** A chosen thread stays chosen until it resumes or its process is killed. *)
Lemma step_chosen p o p' x e : sp_step p o = Some (p', x) -> In e (p_q p) -> e_woken e = true -> e_soon e = true ->
  In e (p_q p') \/ (exists rd v rs, o = Resume (e_tid e) rd /\ x = Ret v rs) \/ o = Kill (e_pid e).
Proof.
  intros S0 IN W SN.
  assert (WK : forall pp pid va n p1 y, p_q pp = p_q p -> sp_wake pp pid va n = Some (p1, y) -> In e (p_q p1)).
  { intros pp pid va n p1 y Q. unfold sp_wake. destruct (nameable pid va); [|discriminate]. rewrite Q.
    pose proof (wake_first_keep pid va (p_q p) n e IN W) as K. destruct (wake_first pid va n (p_q p)) as [q k].
    intros X. injection X as <- <-. exact K. }
  assert (WT : forall tid t va val ts abs, sp_wait p tid t va val ts abs = Some (p', x) -> In e (p_q p')).
  { intros tid t va val ts abs. unfold sp_wait.
    repeat match goal with
    | |- None = Some _ -> _ => discriminate
    | |- Some (p, _) = Some _ -> _ => let X := fresh in intros X; injection X as <- <-; exact IN
    | |- Some _ = Some _ -> _ => let X := fresh in 
        intros X; injection X as <- <-; cbn [p_q with_q]; apply in_app_iff; left; exact IN
    | |- context [match ?y with _ => _ end] => lazymatch y with context [match _ with _ => _ end] => fail | _ => destruct y end
    end. }
  assert (SO : soon e = e). { destruct e; cbn in *. subst. reflexivity. }
  destruct o; cbn [sp_step] in S0.
  - left. destruct (get tid (p_thr p)); injection S0 as <- <-; exact IN.
  - left. injection S0 as <- <-. unfold sp_upd. destruct (get tid (p_thr p)); exact IN.
  - left. destruct (get tid (p_thr p)) as [t|]; [|injection S0 as <- <-; exact IN].
    destruct (existsb (is_tid tid) (p_q p)); [injection S0 as <- <-; exact IN|].
    destruct (_ =? 0); [eauto|]. destruct (_ =? 1); [eapply WK; [|exact S0]; reflexivity|].
    destruct (val3 =? U32_MAX); [|injection S0 as <- <-; exact IN].
    destruct (_ =? 9); [eauto|]. destruct (_ =? 10); [eapply WK; [|exact S0]; reflexivity|]. injection S0 as <- <-; exact IN.
  - destruct (get tid (p_thr p)) as [t|]; [|injection S0 as <- <-; auto].
    destruct (find (is_tid tid) (p_q p)) as [e1|] eqn:F; [|injection S0 as <- <-; auto].
    destruct (e_soon e1); injection S0 as <- <-; [|auto]. cbn [p_q with_q].
    destruct (Z.eqb_spec (e_tid e) tid) as [<-|N].
    + right. left. destruct (result p e1 (h_sig t) rd) as [| |v rs] eqn:RS; [| |eauto].
      all: exfalso; revert RS; unfold result, err; clear;
        repeat match goal with |- context [match ?y with _ => _ end] => lazymatch y with context [match _ with _ => _ end] => fail | _ => destruct y end end; discriminate.
    + left. unfold leave. apply filter_In. split; [exact IN|]. unfold is_tid. apply negb_true_iff. now apply Z.eqb_neq.
  - left. injection S0 as <- <-. cbn [p_q with_q]. apply in_map_iff. exists e. split; [|exact IN].
    destruct (_ && _); [exact SO|reflexivity].
  - left. injection S0 as <- <-. cbn [p_q with_q]. apply in_map_iff. exists e. split; [|exact IN].
    destruct (is_tid _ _); [exact SO|reflexivity].
  - left. injection S0 as <- <-. unfold sp_upd. destruct (get tid (p_thr p)); exact IN.
  - left. injection S0 as <- <-. exact IN.
  - left. injection S0 as <- <-. destruct (sp_may_pass t p); exact IN.
  - left. injection S0 as <- <-. exact IN.
  - left. destruct (get tid (p_thr p)) as [t|]; [|injection S0 as <- <-; exact IN].
    destruct (existsb (is_tid tid) (p_q p)); [injection S0 as <- <-; exact IN|].
    destruct (_ || _); [injection S0 as <- <-; exact IN|].
    destruct (p_mem p (h_pid t) (h_ctid t)); [|discriminate].
    destruct (sp_wake _ _ _ _) as [[p2 y]|] eqn:SW; [|discriminate]. injection S0 as <- <-.
    eapply WK; [|exact SW]. reflexivity.
  - injection S0 as <- <-. cbn [p_q]. destruct (Z.eqb_spec (e_pid e) pid) as [<-|N]; [auto|].
    left. apply filter_In. split; [exact IN|]. apply negb_true_iff. now apply Z.eqb_neq.
Qed.

Lemma run_prompt ops : forall p p' outs, prompt p -> sp_run p ops = Some (p', outs) -> prompt p'.
Proof.
  induction ops as [|o ops IH]; intros p p' outs T E; cbn [sp_run] in E; [now injection E as <- _|].
  destruct (sp_step p o) as [[p1 x]|] eqn:S0; [|discriminate]. cbn [obind] in E.
  destruct (sp_run p1 ops) as [[p2 xs]|] eqn:S1; [|discriminate]. cbn [obind] in E. injection E as -> _.
  eapply IH; [|exact S1]. eapply step_prompt; eassumption.
Qed.

Lemma log_app p a b l : sp_log p (a ++ b) = Some l ->
  exists p1 outs l1 l2, sp_run p a = Some (p1, outs) /\ sp_log p a = Some l1 /\ sp_log p1 b = Some l2 /\ l = l1 ++ l2.
Proof.
  revert p l. induction a as [|o a IH]; intros p l; cbn [app sp_log sp_run]; [intros E; exists p, [], [], l; auto|].
  destruct (sp_step p o) as [[p1 x]|]; [|discriminate]. cbn [obind].
  destruct (sp_log p1 (a ++ b)) as [l0|] eqn:E; [|discriminate]. cbn [obind]. intros X. injection X as <-.
  destruct (IH _ _ E) as (p2 & outs & l1 & l2 & -> & -> & L2 & ->). cbn [obind]. eexists p2, _, _, l2. auto.
Qed.

(** Time stands still from the wake that chose a thread until that thread resumes. *)
Theorem prompt_law t0 ops s outs e ops2 l : run (init t0) ops = Some (s, outs) -> log s ops2 = Some l ->
  (exists p, sp_run (sp_init t0) ops = Some (p, outs) /\ In e (p_q p) /\ e_woken e = true) ->
  forallb (fun i => negb (ends (e_tid e) (e_pid e) i)) l = true ->
  forallb (fun i => fst (fst i) =? now s) l = true.
Proof.
  intros E EL (p & EP & IN & W) F. destruct (reach _ _ _ _ E) as (p' & L & EP' & H).
  rewrite EP in EP'. injection EP' as <-. rewrite (log_eq _ _ _ _ H) in EL. rewrite (r_now _ _ _ H).
  assert (T : prompt p) by (eapply run_prompt; [|exact EP]; intros a []).
  clear - T EL IN W F. generalize (eq_refl (p_now p)). generalize (p_now p) at 1 3. intros n0 EN. 
  revert p l T EL IN W F EN. induction ops2 as [|o ops IH]; intros p l T EL IN W F EN; cbn [sp_log] in EL.
  { injection EL as <-. reflexivity. }
  destruct (sp_step p o) as [[p1 x]|] eqn:S0; [|discriminate]. cbn [obind] in EL.
  destruct (sp_log p1 ops) as [xs|] eqn:L1; [|discriminate]. cbn [obind] in EL. injection EL as <-.
  cbn [forallb fst snd] in *. apply andb_true_iff in F. destruct F as [F0 F]. apply andb_true_iff. split; [lia|].
  destruct (step_chosen _ _ _ _ e S0 IN W (T e IN W)) as [IN1|[(rd & v & rs & -> & ->)| ->]].
  - eapply IH; [eapply step_prompt; eassumption|exact L1|exact IN1|exact W|exact F|].
    destruct (step_now _ _ _ _ S0) as [->|(t & _ & -> & LE & G)]; [exact EN|].
    destruct (G e IN) as [G1 _]. specialize (G1 (T e IN W)). lia.
  - cbn [ends] in F0. rewrite Z.eqb_refl in F0. discriminate.
  - cbn [ends] in F0. rewrite Z.eqb_refl in F0. discriminate.
Qed.

(** * No wakeup is lost in quiet runs *)


Lemma NoDup_app_single (l : list Z) x : NoDup l -> ~ In x l -> NoDup (l ++ [x]).
Proof.
  intros ND NI. apply NoDup_rev in ND. rewrite <- (rev_involutive (l ++ [x])). apply NoDup_rev. rewrite rev_app_distr. cbn.
  constructor; [|exact ND]. now rewrite <- in_rev.
Qed.

Record calm (p : sp) : Prop := {
  c_soon : forall e, In e (p_q p) -> e_soon e = e_woken e /\ e_dl e = None /\ p_mem p (e_pid e) (e_va e) <> None;
  c_thr : forall tid h, get tid (p_thr p) = Some h -> h_sig h = false /\ h_ctid h = 0;
  c_nd : NoDup (map e_tid (p_q p)) }.

Lemma wake_first_woken pid va q : forall n, woken (fst (wake_first pid va n q)) = woken q + snd (wake_first pid va n q).
Proof.
  unfold woken. induction q as [|e q IH]; intros n; cbn [wake_first]; [reflexivity|].
  destruct (here pid va e && negb (e_woken e) && (0 <? n)) eqn:C.
  - specialize (IH (n - 1)). destruct (wake_first pid va (n - 1) q) as [r k]. cbn [fst snd filter e_woken] in *.
    apply andb_true_iff in C. destruct C as [C _]. apply andb_true_iff in C. destruct C as [_ C].
    apply negb_true_iff in C. rewrite C. cbn [length]. rewrite Nat2Z.inj_succ. lia.
  - specialize (IH n). destruct (wake_first pid va n q) as [r k]. cbn [fst snd filter] in *.
    destruct (e_woken e); cbn [length]; [rewrite !Nat2Z.inj_succ|]; lia.
Qed.

Lemma leave_woken tid q e : NoDup (map e_tid q) -> find (is_tid tid) q = Some e ->
  woken (leave tid q) = woken q - (if e_woken e then 1 else 0).
Proof.
  unfold woken, leave. induction q as [|a q IH]; cbn [map find filter]; [discriminate|].
  intros ND. inversion ND as [|? ? NI ND']; subst. assert (IT : is_tid tid a = (e_tid a =? tid)) by reflexivity. rewrite IT. destruct (Z.eqb_spec (e_tid a) tid) as [EQ|NE]; cbn [negb].
  - intros X. injection X as ->.
    assert (K : filter (fun e => negb (is_tid tid e)) q = q).
    { clear - NI EQ. induction q as [|b q IH]; [reflexivity|]. cbn [filter map] in *. unfold is_tid at 1.
      destruct (Z.eqb_spec (e_tid b) tid); [exfalso; apply NI; left; congruence|]. cbn [negb]. rewrite IH; [reflexivity|].
      intros X. apply NI. now right. }
    rewrite K. destruct (e_woken e); cbn [length]; [rewrite Nat2Z.inj_succ|]; lia.
  - intros F. specialize (IH ND' F). cbn [filter]. destruct (e_woken a); cbn [length]; [rewrite !Nat2Z.inj_succ|]; lia.
Qed.

Lemma leave_nodup tid q : NoDup (map e_tid q) -> NoDup (map e_tid (leave tid q)).
Proof.
  unfold leave. induction q as [|a q IH]; cbn [map filter]; [auto|]. intros ND. inversion ND as [|? ? NI ND']; subst.
  destruct (negb _); [|auto]. cbn [map]. constructor; [|auto]. intros X. apply NI. apply in_map_iff in X. destruct X as (b & <- & X).
  apply filter_In in X. apply in_map. tauto.
Qed.

Lemma step_calm p o p' x : calm p -> quiet o = true -> sp_step p o = Some (p', x) ->
  calm p' /\ woken (p_q p') + returned (p_now p, o, x) = woken (p_q p) + reported (p_now p, o, x) /\
  failed (p_now p, o, x) = false.
Proof.
  intros C Q.
  assert (ID : forall y, reported (p_now p, o, y) = 0 -> returned (p_now p, o, y) = 0 -> failed (p_now p, o, y) = false ->
    Some (p, y) = Some (p', x) -> calm p' /\ woken (p_q p') + returned (p_now p, o, x) = woken (p_q p) + reported (p_now p, o, x) /\
    failed (p_now p, o, x) = false).
  { intros y Y1 Y2 Y3 X. injection X as <- <-. rewrite Y1, Y2. auto. }
  assert (WK : forall pid va n p1 y, sp_wake p pid va n = Some (p1, y) ->
    calm p1 /\ exists k, y = Ret k false /\ woken (p_q p1) = woken (p_q p) + k).
  { intros pid va n p1 y. unfold sp_wake. destruct (nameable pid va); [|discriminate].
    pose proof (wake_first_in pid va (p_q p) n) as W. pose proof (wake_first_woken pid va (p_q p) n) as WW.
    pose proof (wake_first_tids pid va (p_q p) n) as WT.
    destruct (wake_first pid va n (p_q p)) as [q k]. cbn [fst snd] in *.
    intros X. injection X as <- <-. split; [|exists k; auto]. constructor; cbn [p_q with_q p_thr p_mem].
    - intros e H. destruct (W e H) as (e0 & IN & _ & _ & _ & _ & [->| ->]); [exact (c_soon _ C e0 IN)|].
      destruct (c_soon _ C e0 IN) as (_ & A & B). cbn. auto.
    - exact (c_thr _ C).
    - rewrite WT. exact (c_nd _ C). }
  destruct o; try discriminate Q; cbn [sp_step quiet] in *.
  - destruct (get tid (p_thr p)) eqn:G; [apply ID; reflexivity|]. intros X. injection X as <- <-.
    split; [|cbn; split; [lia|reflexivity]]. constructor; cbn [p_q p_thr p_mem]; [exact (c_soon _ C)| |exact (c_nd _ C)].
    intros k h. rewrite get_put. change (eqb k tid) with (k =? tid). destruct (k =? tid); [|apply (c_thr _ C)].
    intros X. injection X as <-. auto.
  - apply andb_true_iff in Q. destruct Q as [_ Q]. destruct ts; [|discriminate].
    destruct (get tid (p_thr p)) as [h|] eqn:G; [|apply ID; reflexivity].
    destruct (existsb (is_tid tid) (p_q p)) eqn:EX; [apply ID; reflexivity|].
    assert (WT : forall abs, is_wake opn val3 = false -> sp_wait p tid h va val TNull abs = Some (p', x) ->
      calm p' /\ woken (p_q p') + returned (p_now p, Futex tid opn va val TNull val3, x) =
        woken (p_q p) + reported (p_now p, Futex tid opn va val TNull val3, x) /\
      failed (p_now p, Futex tid opn va val TNull val3, x) = false).
    { intros abs IW. unfold sp_wait. destruct (c_thr _ C _ _ G) as [SG _]. rewrite SG.
      destruct (p_mem p (h_pid h) va) as [v|] eqn:MV; [|apply ID; cbn; rewrite ?IW; reflexivity].
      destruct (negb (v =? val)); [apply ID; cbn; rewrite ?IW; reflexivity|].
      destruct (negb _); [discriminate|]. intros X. injection X as <- <-. cbn [p_q with_q].
      split; [|split; [|reflexivity]].
      - constructor; cbn [p_q with_q p_mem p_thr]; [|exact (c_thr _ C)|].
        + intros e IN. apply in_app_iff in IN. destruct IN as [IN|[<-|[]]]; [exact (c_soon _ C e IN)|]. cbn. rewrite MV. 
          repeat split; discriminate.
        + rewrite map_app. cbn. apply NoDup_app_single; [exact (c_nd _ C)|].
          intros X. apply in_map_iff in X. destruct X as (e0 & <- & IN).
          assert (existsb (is_tid (e_tid e0)) (p_q p) = true); [|congruence]. apply existsb_exists. exists e0. split; [exact IN|].
          unfold is_tid. apply Z.eqb_refl.
      - unfold woken. rewrite filter_app, app_length. cbn. lia. }
    assert (WK2 : forall n, is_wake opn val3 = true -> sp_wake p (h_pid h) va n = Some (p', x) ->
      calm p' /\ woken (p_q p') + returned (p_now p, Futex tid opn va val TNull val3, x) =
        woken (p_q p) + reported (p_now p, Futex tid opn va val TNull val3, x) /\
      failed (p_now p, Futex tid opn va val TNull val3, x) = false).
    { intros n IW X. destruct (WK _ _ _ _ _ X) as (C1 & k & -> & E). split; [exact C1|]. cbn [returned reported failed]. rewrite IW.
      split; [lia|reflexivity]. }
    unfold is_wake in WT, WK2.
    destruct (Z.eqb_spec (Z.ldiff opn (Z.lor 128 256)) 0) as [E0|N0]; [rewrite E0 in WT; apply WT; reflexivity|].
    destruct (Z.eqb_spec (Z.ldiff opn (Z.lor 128 256)) 1) as [E1|N1]; [apply WK2; reflexivity|].
    destruct (val3 =? U32_MAX) eqn:V3.
    2: { apply ID; [|reflexivity|reflexivity]. cbn [reported err]. unfold is_wake. rewrite V3, andb_false_r, orb_false_r.
         apply Z.eqb_neq in N1. now rewrite N1. }
    destruct (Z.eqb_spec (Z.ldiff opn (Z.lor 128 256)) 9) as [E9|N9]; [rewrite E9 in WT; apply WT; reflexivity|].
    destruct (Z.eqb_spec (Z.ldiff opn (Z.lor 128 256)) 10) as [E10|N10]; [apply WK2; reflexivity|].
    apply ID; [|reflexivity|reflexivity]. cbn [reported err]. unfold is_wake. apply Z.eqb_neq in N1, N10. now rewrite N1, N10.
  - destruct (get tid (p_thr p)) as [h|] eqn:G; [|apply ID; reflexivity].
    destruct (find (is_tid tid) (p_q p)) as [e|] eqn:F; [|apply ID; reflexivity].
    destruct (e_soon e) eqn:SN; [|apply ID; reflexivity].
    pose proof (find_some _ _ F) as [IN _]. destruct (c_soon _ C e IN) as (S1 & S2 & S3).
    destruct (c_thr _ C _ _ G) as [SG _]. unfold result. rewrite S2, SG.
    destruct (p_mem p (e_pid e) (e_va e)); [|contradiction]. intros X. injection X as <- <-. cbn [p_q with_q returned reported failed].
    split; [|split; [|reflexivity]].
    + constructor; cbn [p_q with_q p_mem p_thr]; [|exact (c_thr _ C)|apply leave_nodup; exact (c_nd _ C)].
      intros a INA. unfold leave in INA. apply filter_In in INA. apply (c_soon _ C). tauto.
    + rewrite (leave_woken _ _ _ (c_nd _ C) F). rewrite <- S1, SN. lia.
  - intros X. injection X as <- <-. cbn [p_q with_q].
    assert (K : map (fun e => if is_tid tid e && match e_dl e with Some d => d <=? p_now p | None => false end then soon e else e) (p_q p) = p_q p).
    { rewrite <- (map_id (p_q p)) at 2. apply map_ext_in. intros e IN. destruct (c_soon _ C e IN) as (_ & -> & _).
      now rewrite andb_false_r. }
    rewrite K. split; [|cbn; split; [lia|reflexivity]]. destruct C. constructor; assumption.
  - destruct v as [v|]; [|discriminate]. intros X. injection X as <- <-. cbn [p_q].
    split; [|cbn; split; [lia|reflexivity]]. constructor; cbn [p_q p_mem p_thr]; [|exact (c_thr _ C)|exact (c_nd _ C)].
    intros e IN. destruct (c_soon _ C e IN) as (A & B & D). repeat split; try assumption. destruct (_ && _); [discriminate|exact D].
  - destruct (sp_may_pass t p); [|apply ID; reflexivity]. intros X. injection X as <- <-.
    split; [|cbn; split; [lia|reflexivity]]. destruct C. constructor; assumption.
  - apply ID; reflexivity.
  - destruct (get tid (p_thr p)) as [h|] eqn:G; [|apply ID; reflexivity].
    destruct (existsb (is_tid tid) (p_q p)); [apply ID; reflexivity|].
    destruct (c_thr _ C _ _ G) as [_ ->]. cbn [Z.eqb orb]. intros X. injection X as <- <-.
    split; [|cbn; split; [lia|reflexivity]]. constructor; cbn [p_q p_mem p_thr]; [exact (c_soon _ C)| |exact (c_nd _ C)].
    intros k h'. rewrite get_del. change (eqb k tid) with (k =? tid). destruct (k =? tid); [discriminate|apply (c_thr _ C)].
Qed.

Lemma conserve_run ops : forall p l, calm p -> forallb quiet ops = true -> sp_log p ops = Some l ->
  exists p' outs, sp_run p ops = Some (p', outs) /\ calm p' /\
    woken (p_q p') + total returned l = woken (p_q p) + total reported l /\ existsb failed l = false.
Proof.
  induction ops as [|o ops IH]; intros p l C Q EL; cbn [sp_log sp_run] in *.
  { injection EL as <-. exists p, []. cbn. auto. }
  cbn [forallb] in Q. apply andb_true_iff in Q. destruct Q as [Q0 Q].
  destruct (sp_step p o) as [[p1 x]|] eqn:S0; [|discriminate]. cbn [obind] in *.
  destruct (sp_log p1 ops) as [xs|] eqn:L1; [|discriminate]. cbn [obind] in EL. injection EL as <-.
  destruct (step_calm _ _ _ _ C Q0 S0) as (C1 & E & F).
  destruct (IH _ _ C1 Q L1) as (p' & outs & -> & C2 & E2 & F2). exists p', (x :: outs). cbn [obind].
  split; [reflexivity|]. split; [exact C2|]. cbn [total fold_right existsb]. fold (total returned xs) (total reported xs).
  rewrite F, F2. split; [lia|reflexivity].
Qed.

Theorem conserve_law t0 ops l : forallb quiet ops = true -> log (init t0) ops = Some l ->
  exists p outs, sp_run (sp_init t0) ops = Some (p, outs) /\
    total reported l = total returned l + woken (p_q p) /\ existsb failed l = false.
Proof.
  intros Q E. rewrite (log_eq _ _ _ _ (init_R t0)) in E.
  assert (C : calm (sp_init t0)). { constructor; [intros e []|intros tid h; discriminate|constructor]. }
  destruct (conserve_run _ _ _ C Q E) as (p & outs & EP & _ & A & B). exists p, outs. split; [exact EP|]. change (woken (p_q (sp_init t0))) with 0 in A. split; [lia|exact B].
Qed.

(** * Exit and comparison *)

Lemma exit_law t0 ops s outs tid h : run (init t0) ops = Some (s, outs) ->
  exists p, sp_run (sp_init t0) ops = Some (p, outs) /\
  (get tid (p_thr p) = Some h -> existsb (is_tid tid) (p_q p) = false -> h_ctid h <> 0 ->
   (exists k g, k <> tid /\ get k (p_thr p) = Some g /\ h_pid g = h_pid h) ->
   p_mem p (h_pid h) (h_ctid h) <> None -> nameable (h_pid h) (h_ctid h) = true ->
   exists s' p', step s (Exit tid) = Some (s', Nothing) /\ sp_run (sp_init t0) (ops ++ [Exit tid]) = Some (p', outs ++ [Nothing]) /\
     p_mem p' (h_pid h) (h_ctid h) = Some 0 /\ get tid (p_thr p') = None /\
     filter (fun e => here (h_pid h) (h_ctid h) e && negb (e_woken e)) (p_q p') =
       tl (filter (fun e => here (h_pid h) (h_ctid h) e && negb (e_woken e)) (p_q p)) /\
     others_kept (h_pid h) (h_ctid h) p p').
Proof.
  intros E. destruct (reach _ _ _ _ E) as (p & L & EP & H). exists p. split; [exact EP|].
  intros G NW C (k & g & NK & GK & PK) MV NM.
  set (p1 := mkSp (p_now p) (fun x a => if (x =? h_pid h) && (a =? h_ctid h) then Some 0 else p_mem p x a) (del tid (p_thr p)) (p_q p)).
  assert (X : sp_step p (Exit tid) = match sp_wake p1 (h_pid h) (h_ctid h) 1 with Some (p2, _) => Some (p2, Nothing) | None => None end).
  { cbn [sp_step]. rewrite G, NW. apply Z.eqb_neq in C. rewrite C. cbn [orb p_thr].
    assert (EX : existsb (fun x => h_pid (snd x) =? h_pid h) (del tid (p_thr p)) = true).
    { apply existsb_exists. exists (k, g). split; [|cbn; lia].
      apply get_in. rewrite get_del. change (eqb k tid) with (k =? tid). destruct (Z.eqb_spec k tid); [contradiction|exact GK]. }
    rewrite EX. cbn [negb]. destruct (p_mem p (h_pid h) (h_ctid h)); [|contradiction]. reflexivity. }
  pose proof (step_ok _ _ _ (Exit tid) H) as S0. rewrite X in S0. unfold sp_wake in *. rewrite NM in *.
  pose proof (wake_first_count (h_pid h) (h_ctid h) (p_q p1) 1 ltac:(lia)) as CN.
  pose proof (wake_first_skip (h_pid h) (h_ctid h) (p_q p1) 1) as [_ K].
  pose proof (wake_first_tids (h_pid h) (h_ctid h) (p_q p1) 1) as K1. pose proof (wake_first_others (h_pid h) (h_ctid h) (p_q p1) 1) as K2.
  destruct (wake_first (h_pid h) (h_ctid h) 1 (p_q p1)) as [q n]. cbn [fst snd] in *.
  unfold sim in S0. destruct (step s (Exit tid)) as [[s' x]|]; [|contradiction]. destruct S0 as [-> _].
  exists s', (with_q q p1). split; [reflexivity|]. split.
  - clear - EP X. revert EP. generalize (sp_init t0). revert outs. induction ops as [|o ops IH]; intros outs p0 EP; cbn [app sp_run] in *.
    + injection EP as <- <-. rewrite X. reflexivity.
    + destruct (sp_step p0 o) as [[p3 y]|]; [|discriminate]. cbn [obind] in *.
      destruct (sp_run p3 ops) as [[p2 ys]|] eqn:F; [|discriminate]. cbn [obind] in EP. injection EP as -> <-.
      rewrite (IH _ _ F). reflexivity.
  - subst p1. cbn [p_mem p_thr p_q with_q]. rewrite !Z.eqb_refl. split; [reflexivity|]. split.
    + rewrite get_del. change (eqb tid tid) with (tid =? tid). now rewrite Z.eqb_refl.
    + split; [|exact (conj K1 K2)]. cbn [p_q] in *. rewrite K. subst n. destruct (filter _ (p_q p)) as [|a l]; [reflexivity|].
      cbn [length]. rewrite Nat2Z.inj_succ. replace (Z.to_nat (Z.min 1 (Z.succ (Z.of_nat (length l))))) with 1%nat by lia. reflexivity.
Qed.

(** A wait without timeout: what the call does. *)
Theorem compare_law t0 ops s outs tid opn va val val3 h : run (init t0) ops = Some (s, outs) -> is_wait opn val3 = true ->
  exists p, sp_run (sp_init t0) ops = Some (p, outs) /\
  (get tid (p_thr p) = Some h -> existsb (is_tid tid) (p_q p) = false -> nameable (h_pid h) va = true ->
   forall w, p_mem p (h_pid h) va = Some w ->
   exists s' p', step s (Futex tid opn va val TNull val3) =
       Some (s', if w =? val then if h_sig h then Ret (- EINTR) true else Block else Ret (- EAGAIN) false) /\
     option_map fst (sp_run (sp_init t0) (ops ++ [Futex tid opn va val TNull val3])) = Some p' /\
     p_q p' = (if (w =? val) && negb (h_sig h) then p_q p ++ [mkEnt tid (h_pid h) va None false false] else p_q p)).
Proof.
  intros E IW. destruct (reach _ _ _ _ E) as (p & L & EP & H). exists p. split; [exact EP|].
  intros G NW NM w MV.
  assert (X : exists abs, sp_step p (Futex tid opn va val TNull val3) = sp_wait p tid h va val TNull abs).
  { cbn [sp_step]. rewrite G, NW. unfold is_wait in IW.
    destruct (Z.eqb_spec (Z.ldiff opn (Z.lor 128 256)) 0) as [Z0|N0]; [now exists false|]. cbn [orb] in IW.
    apply andb_true_iff in IW. destruct IW as [A B]. rewrite B. apply Z.eqb_eq in A. rewrite A. now exists true. }
  destruct X as [abs X].
  pose proof (step_ok _ _ _ (Futex tid opn va val TNull val3) H) as S0.
  assert (RA : forall p' y, sp_step p (Futex tid opn va val TNull val3) = Some (p', y) ->
    option_map fst (sp_run (sp_init t0) (ops ++ [Futex tid opn va val TNull val3])) = Some p').
  { intros p' y Y. clear - EP Y. revert EP. generalize (sp_init t0). revert outs. induction ops as [|o ops IH]; intros outs p0 EP; cbn [app sp_run] in *.
    + injection EP as <- <-. rewrite Y. reflexivity.
    + destruct (sp_step p0 o) as [[p3 z]|]; [|discriminate]. cbn [obind] in *.
      destruct (sp_run p3 ops) as [[p2 ys]|] eqn:F; [|discriminate]. cbn [obind] in EP. injection EP as -> <-.
      specialize (IH _ _ F). destruct (sp_run p3 _) as [[p4 zs]|]; [exact IH|discriminate]. }
  unfold sp_wait in X. rewrite MV, NM in X. cbn [negb] in X.
  destruct (w =? val); cbn [negb andb] in *.
  - destruct (h_sig h); cbn [negb]; rewrite X in S0; unfold sim in S0;
      (destruct (step s _) as [[s' y]|]; [|contradiction]); destruct S0 as [-> _]; eexists s', _; (split; [reflexivity|]); (split; [eapply RA; exact X|reflexivity]).
  - rewrite X in S0. unfold sim in S0. destruct (step s _) as [[s' y]|]; [|contradiction]. destruct S0 as [-> _].
    exists s', p. split; [reflexivity|]. split; [eapply RA; exact X|reflexivity].
Qed.
