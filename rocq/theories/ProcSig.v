(** Sending signals and waking threads keep the invariant. *)
From Verif Require Import Base FMap BTree ProcModel ProcSpec ProcBits ProcInv.

(** * Hosts that differ only by pending signals and scheduled wakeups *)
Definition tlater (t t' : thr) : Prop :=
  match t_st t with
  | TBlk c => exists c', t_st t' = TBlk c' /\ c_id c' = c_id c /\ c_trig c' = c_trig c /\ c_call c' = c_call c /\
                (c_sched c = true -> c_sched c' = true)
  | x => t_st t' = x
  end.
Definition rkin (r r' : run) : Prop :=
  n_acts r' = n_acts r /\ n_lst r' = n_lst r /\ n_code r' = n_code r /\ keys (n_thr r') = keys (n_thr r) /\
  forall tid t, get tid (n_thr r) = Some t -> exists t', get tid (n_thr r') = Some t' /\
    t_mask t' = t_mask t /\ t_stk t' = t_stk t /\ t_frames t' = t_frames t /\ tlater t t'.
Definition pkin (p p' : proc) : Prop :=
  p_par p' = p_par p /\ p_pgid p' = p_pgid p /\ p_sid p' = p_sid p /\ p_exs p' = p_exs p /\ p_pdeath p' = p_pdeath p /\
  match p_st p, p_st p' with
  | PRun r, PRun r' => rkin r r'
  | PZom s, PZom s' => s = s'
  | _, _ => False
  end.
Definition kin (h h' : host) : Prop :=
  h_next h' = h_next h /\ h_cid h' = h_cid h /\ h_cur h' = h_cur h /\
  forall x, match get x (h_procs h), get x (h_procs h') with
            | Some p, Some p' => pkin p p'
            | None, None => True
            | _, _ => False
            end.

Lemma tlater_refl t : tlater t t.
Proof. unfold tlater. destruct (t_st t); auto. exists c. auto. Qed.
Lemma tlater_trans a b c : tlater a b -> tlater b c -> tlater a c.
Proof.
  unfold tlater. destruct (t_st a) as [f| |ca].
  - intros ->. auto.
  - intros ->. auto.
  - intros (cb & -> & E1 & E2 & E3 & E4) (cc & -> & F1 & F2 & F3 & F4). exists cc.
    split; [reflexivity|]. split; [congruence|]. split; [congruence|]. split; [congruence|]. auto.
Qed.
Lemma rkin_refl r : rkin r r.
Proof. unfold rkin. do 4 (split; [reflexivity|]). intros tid t T. exists t. do 4 (split; [auto|]). apply tlater_refl. Qed.
Lemma pkin_refl p : pkin p p.
Proof. unfold pkin. do 5 (split; [reflexivity|]). destruct (p_st p); [apply rkin_refl|reflexivity]. Qed.
Lemma kin_refl h : kin h h.
Proof. unfold kin. do 3 (split; [reflexivity|]). intros x. destruct (get x (h_procs h)); [apply pkin_refl|exact I]. Qed.
Lemma rkin_trans a b c : rkin a b -> rkin b c -> rkin a c.
Proof.
  intros (A1 & A2 & A3 & A4 & A5) (B1 & B2 & B3 & B4 & B5). unfold rkin. split; [congruence|]. split; [congruence|].
  split; [congruence|]. split; [congruence|]. intros tid t T. destruct (A5 tid t T) as (t1 & T1 & E1 & E2 & E3 & E4).
  destruct (B5 tid t1 T1) as (t2 & T2 & F1 & F2 & F3 & F4). exists t2. split; [exact T2|]. split; [congruence|].
  split; [congruence|]. split; [congruence|]. eapply tlater_trans; eauto.
Qed.
Lemma pkin_trans a b c : pkin a b -> pkin b c -> pkin a c.
Proof.
  intros (A1 & A2 & A3 & A4 & A5 & A6) (B1 & B2 & B3 & B4 & B5 & B6). unfold pkin. do 5 (split; [congruence|]).
  destruct (p_st a), (p_st b), (p_st c); try contradiction; [eapply rkin_trans; eauto|congruence].
Qed.
Lemma kin_trans a b c : kin a b -> kin b c -> kin a c.
Proof.
  intros (A1 & A2 & A3 & A4) (B1 & B2 & B3 & B4). unfold kin. do 3 (split; [congruence|]). intros x.
  specialize (A4 x). specialize (B4 x).
  destruct (get x (h_procs a)), (get x (h_procs b)), (get x (h_procs c)); try contradiction; auto. eapply pkin_trans; eauto.
Qed.

Lemma kin_get h h' x p : kin h h' -> get x (h_procs h) = Some p -> exists p', get x (h_procs h') = Some p' /\ pkin p p'.
Proof. intros (_ & _ & _ & K) G. specialize (K x). rewrite G in K. destruct (get x (h_procs h')); [eauto|contradiction]. Qed.
Lemma kin_back h h' x p' : kin h h' -> get x (h_procs h') = Some p' -> exists p, get x (h_procs h) = Some p /\ pkin p p'.
Proof. intros (_ & _ & _ & K) G. specialize (K x). rewrite G in K. destruct (get x (h_procs h)); [eauto|contradiction]. Qed.
Lemma kin_none h h' x : kin h h' -> get x (h_procs h) = None -> get x (h_procs h') = None.
Proof. intros (_ & _ & _ & K) G. specialize (K x). rewrite G in K. destruct (get x (h_procs h')); [contradiction|auto]. Qed.
Lemma kin_run h h' x r : kin h h' -> run_of h x = Some r -> exists r', run_of h' x = Some r' /\ rkin r r'.
Proof.
  intros K R. apply run_of_get in R as (p & P & R). destruct (kin_get _ _ _ _ K P) as (p' & P' & Q).
  destruct Q as (_ & _ & _ & _ & _ & Q). rewrite R in Q. destruct (p_st p') as [r'|] eqn:R'; [|contradiction].
  exists r'. split; [apply run_of_get; eauto|exact Q].
Qed.
Lemma kin_run_back h h' x r' : kin h h' -> run_of h' x = Some r' -> exists r, run_of h x = Some r /\ rkin r r'.
Proof.
  intros K R. apply run_of_get in R as (p & P & R). destruct (kin_back _ _ _ _ K P) as (p' & P' & Q).
  destruct Q as (_ & _ & _ & _ & _ & Q). rewrite R in Q. destruct (p_st p') as [r|] eqn:R'; [|contradiction].
  exists r. split; [apply run_of_get; eauto|exact Q].
Qed.

(** * Updating one thread *)
Lemma run_upd L cu tasks nt nx cb cb' pid r tid t t' lst :
  run_ok L cu tasks nx cb pid r -> get tid (n_thr r) = Some t -> cb <= cb' ->
  (forall q x cid tr, In (TkWake q x cid tr) nt -> x = tid) ->
  thr_ok L cu (tasks ++ nt) cb' pid tid r t' ->
  (forall x cid, In (x, cid) lst <->
     if x =? tid then exists c, t_st t' = TBlk c /\ c_trig c = TrChild /\ c_id c = cid else In (x, cid) (n_lst r)) ->
  run_ok L cu (tasks ++ nt) nx cb' pid (set_nlst (set_nthr r (bput tid t' (n_thr r))) lst).
Proof.
  intros [R1 R2 R3 R4 R5 R6 R7] T CB NT TO LS.
  assert (KY : keys (bput tid t' (n_thr r)) = keys (n_thr r)) by (eapply keys_bput_same; eauto).
  split; cbn [n_thr n_pend n_infos n_lst set_nlst set_nthr].
  - now apply bput_sorted.
  - rewrite KY. exact R2.
  - exact R3.
  - intros E. apply (f_equal (@keys Z thr)) in E. rewrite KY in E. destruct (n_thr r); [|discriminate E]. discriminate T.
  - rewrite KY. exact R5.
  - intros x cid. rewrite LS. unfold child_wait. cbn [n_thr set_nlst set_nthr]. destruct (Z.eqb_spec x tid) as [->|NE].
    + split.
      * intros (c & E1 & E2 & E3). exists t', c. rewrite get_bput_same. auto.
      * intros (t0 & c & E0 & E1 & E2 & E3). rewrite get_bput_same in E0. injection E0 as <-. eauto.
    + rewrite R6. unfold child_wait. split; intros (t0 & c & E); exists t0, c; rewrite get_bput_other in *; auto.
  - intros x y. rewrite get_bput. destruct (Z.eqb_spec x tid) as [->|NE].
    + intros [= <-]. destruct TO as [T1 T2 T3]. split; auto.
    + intros Y. destruct (R7 x y Y) as [T1 T2 T3]. split; auto.
      * intros c ST. destruct (T2 c ST) as [T4 T5]. split; [lia|]. intros tr IN. apply in_app_or in IN as [IN|IN]; auto.
        apply NT in IN. contradiction.
      * intros NC. specialize (T3 NC). destruct (t_st y); auto. destruct T3 as (T4 & T5 & T6). cbn [n_pend set_nlst set_nthr].
        split; [intros SC; apply in_or_app; auto|auto].
Qed.

Lemma keeps_upd cu pid r tid t t' lst : bsorted (n_thr r) -> get tid (n_thr r) = Some t ->
  (forall c', t_st t' = TBlk c' -> Some (pid, tid) <> cu -> exists c, t_st t = TBlk c /\ c_trig c = c_trig c' /\
     c_call c = c_call c' /\ (c_sched c = true -> c_sched c' = true)) ->
  keeps_run cu pid r (set_nlst (set_nthr r (bput tid t' (n_thr r))) lst).
Proof.
  intros SO T H. split; cbn [n_thr set_nlst set_nthr].
  - rewrite (keys_bput_same _ _ t) by auto. auto.
  - intros x y c'. rewrite get_bput. destruct (Z.eqb_spec x tid) as [->|NE].
    + intros [= <-] ST NC. destruct (H c' ST NC) as (c & E). exists t, c. auto.
    + intros Y ST NC. exists y, c'. auto.
Qed.

(** Setting the state of a process. *)
Lemma proc_ok_st L cu tasks tasks' nx cb cb' pid p r : proc_ok L cu tasks nx cb pid p ->
  run_ok L cu tasks' nx cb' pid r -> proc_ok L cu tasks' nx cb' pid (set_pst p (PRun r)).
Proof. intros [C1 C2 C3 C4 C5] R. split; auto. cbn. intros r0 [= <-]. exact R. Qed.

Lemma good_run L ex cu S l h pid p r : Good L ex cu S l h -> get pid (h_procs h) = Some p -> p_st p = PRun r ->
  run_ok L cu (h_tasks h) (h_next h) (h_cid h) pid r.
Proof. intros G P R. destruct (g_proc _ _ _ _ _ _ G pid p P) as [_ _ _ _ C]. auto. Qed.

(** A thread is found by its id. *)
Lemma good_wake L ex cu S l h pid tid : Good L ex cu S l h ->
  Good L ex cu S l (sched_wake h pid tid) /\ kin h (sched_wake h pid tid) /\
  (forall x r, run_of h x = Some r -> exists r', run_of (sched_wake h pid tid) x = Some r' /\ n_pend r' = n_pend r) /\
  (forall c, blk (sched_wake h pid tid) pid tid c -> c_sched c = true).
Proof.
  intros GD. unfold sched_wake. destruct (thr_of h pid tid) as [t|] eqn:T.
  2:{ split; [exact GD|]. split; [apply kin_refl|]. split; [eauto|]. intros c (t & X & _). congruence. }
  pose proof T as T0. apply thr_of_get in T as (r & R & T). apply run_of_get in R as (p & P & R).
  assert (RO : run_of h pid = Some r) by (apply run_of_get; eauto).
  destruct (t_st t) as [f| |c] eqn:ST; try (split; [exact GD|]; split; [apply kin_refl|]; split; [eauto|]; intros c (t' & X & Y); congruence).
  destruct (c_sched c) eqn:SC.
  { split; [exact GD|]. split; [apply kin_refl|]. split; [eauto|]. intros c' (t' & X & Y). congruence. }
  set (c' := mkCnd (c_id c) (c_trig c) true (c_call c)). set (t' := set_tst t (TBlk c')).
  set (nt := [TkWake pid tid (c_id c) (c_trig c)]).
  set (r' := set_nlst (set_nthr r (bput tid t' (n_thr r))) (n_lst r)).
  rewrite (put_thr_eq _ _ _ _ p r P R).
  pose proof (good_run _ _ _ _ _ _ _ _ _ GD P R) as RK. pose proof RK as [R1 R2 R3 R4 R5 R6 R7].
  destruct (R7 tid t T) as [T1 T2 T3]. destruct (T2 c ST) as [T4 T5].
  change (set_nthr r (bput tid t' (n_thr r))) with r'.
  replace (add_task (put_proc h pid (set_pst p (PRun r'))) (TkWake pid tid (c_id c) (c_trig c)))
    with (mkHost (bput pid (set_pst p (PRun r')) (h_procs h)) (h_next h) (h_cid h) (h_tasks h ++ nt) (h_cur h)) by reflexivity.
  assert (TI : t_infos t' = t_infos t /\ t_pend t' = t_pend t /\ t_mask t' = t_mask t) by (cbn; auto).
  split; [|split; [|split]].
  - eapply good_put; eauto; try lia.
    + unfold keeps. cbn [p_par p_pgid p_sid p_st set_pst]. rewrite R. do 3 (split; [reflexivity|]).
      eapply keeps_upd; eauto. intros c0 E _. cbn in E. injection E as <-. exists c. cbn. auto.
    + eapply proc_ok_st; [eapply g_proc; eauto|]. eapply run_upd; eauto; try lia.
      * intros q x cid tr [E|[]]. congruence.
      * split.
        -- exact T1.
        -- intros c0 E. cbn in E. injection E as <-. cbn. split; [exact T4|]. intros tr IN. apply in_app_or in IN as [IN|[IN|[]]]; [auto|congruence].
        -- intros NC. cbn. split; [intros _; apply in_or_app; right; left; reflexivity|]. auto.
      * intros x cid. destruct (Z.eqb_spec x tid) as [->|NE]; [|reflexivity]. rewrite R6. unfold child_wait. split.
        -- intros (t0 & c0 & E0 & E1 & E2 & E3). exists c'. cbn. split; [reflexivity|]. assert (c0 = c) by congruence. subst c0. auto.
        -- intros (c0 & E1 & E2 & E3). cbn in E1. injection E1 as <-. exists t, c. auto.
    + intros q x cid tr [E|[]]. injection E as <- _ <- _. auto.
    + eapply g_fresh; eauto.
    + cbn. intros r0 [= <-]. destruct (g_pend _ _ _ _ _ _ GD pid r RO) as [Q1 Q2]. split; [exact Q1|]. cbn [r' n_thr set_nlst set_nthr].
      intros x y. rewrite get_bput. destruct (Z.eqb_spec x tid) as [->|NE]; [|auto]. intros [= <-]. cbn. auto.
  - unfold kin. do 3 (split; [reflexivity|]). intros x. cbn [h_procs]. rewrite get_bput. destruct (Z.eqb_spec x pid) as [->|NE].
    + rewrite P. unfold pkin. cbn [p_par p_pgid p_sid p_exs p_pdeath p_st set_pst]. do 5 (split; [reflexivity|]). rewrite R. unfold rkin.
      cbn [n_acts n_lst n_code n_thr r' set_nlst set_nthr]. do 3 (split; [reflexivity|]). split; [eapply keys_bput_same; eauto|].
      intros x y Y. rewrite get_bput. destruct (Z.eqb_spec x tid) as [->|NE].
      * exists t'. split; [reflexivity|]. assert (y = t) by congruence. subst y. cbn. do 3 (split; [reflexivity|]). unfold tlater. rewrite ST.
        exists c'. cbn. auto.
      * exists y. do 4 (split; [auto|]). apply tlater_refl.
    + destruct (get x (h_procs h)); [apply pkin_refl|exact I].
  - intros x rx RX. unfold run_of. cbn [h_procs]. rewrite get_bput. destruct (Z.eqb_spec x pid) as [->|NE].
    + cbn. exists r'. split; [reflexivity|]. assert (rx = r) by congruence. subst rx. reflexivity.
    + unfold run_of in RX. eauto.
  - intros c0 (t0 & X & Y). unfold thr_of, run_of in X. cbn [h_procs] in X. rewrite get_bput_same in X. cbn in X. rewrite get_bput_same in X.
    injection X as <-. cbn in Y. injection Y as <-. reflexivity.
Qed.

(** * The C lookup of a thread finds the right one *)
Lemma c_find_none ps tid t : c_find_thread ps None tid = Some t ->
  exists pid p r, In (pid, p) ps /\ p_st p = PRun r /\ get tid (n_thr r) = Some t.
Proof.
  induction ps as [|[pid p] ps IH]; cbn; [discriminate|]. destruct (p_st p) as [r|s] eqn:R.
  - destruct (get tid (n_thr r)) as [t0|] eqn:T.
    + intros [= <-]. exists pid, p, r. auto.
    + intros H. destruct (IH H) as (q & x & y & Q1 & Q2). exists q, x, y. auto.
  - intros H. destruct (IH H) as (q & x & y & Q1 & Q2). exists q, x, y. auto.
Qed.

Lemma c_find_in ps dying tid t : c_find_thread ps dying tid = Some t ->
  exists pid p r, In (pid, p) ps /\ p_st p = PRun r /\ get tid (n_thr r) = Some t.
Proof.
  induction ps as [|[pid p] ps IH]; cbn; [discriminate|]. unfold assert_then.
  destruct (match dying with Some d => d =? pid | None => false end); [discriminate|]. cbn [negb]. destruct (p_st p) as [r|s] eqn:R.
  - destruct (get tid (n_thr r)) as [t0|] eqn:T.
    + intros [= <-]. exists pid, p, r. auto.
    + intros H. destruct (IH H) as (q & x & y & Q1 & Q2). exists q, x, y. auto.
  - intros H. destruct (IH H) as (q & x & y & Q1 & Q2). exists q, x, y. auto.
Qed.

(** It exists when its process comes before the one that is ending. *)
Lemma c_find_ok ps dying tid pid p r t : bsorted ps -> get pid ps = Some p -> p_st p = PRun r -> get tid (n_thr r) = Some t ->
  match dying with Some d => pid < d | None => True end -> exists t', c_find_thread ps dying tid = Some t'.
Proof.
  intros SO. induction ps as [|[q x] ps IH]; intros P R T D; [discriminate P|]. cbn.
  inversion SO as [|? ? SO' F]; subst. cbn in P. unfold assert_then.
  assert (LE : q <= pid).
  { destruct (Z.eqb_spec pid q) as [->|]; [lia|]. apply get_keys in P. rewrite Forall_forall in F. specialize (F pid P). lia. }
  assert (match dying with Some d => d =? q | None => false end = false) as ->.
  { destruct dying as [d|]; [|reflexivity]. apply Z.eqb_neq. lia. }
  cbn [negb]. destruct (Z.eqb_spec pid q) as [->|NE].
  - injection P as ->. rewrite R, T. eauto.
  - destruct (p_st x) as [rx|]; [|apply IH; auto]. destruct (get tid (n_thr rx)); [eauto|]. apply IH; auto.
Qed.

Lemma good_find L ex cu S l h dying pid tid r t t' : Good L ex cu S l h -> run_of h pid = Some r -> get tid (n_thr r) = Some t ->
  c_find_thread (h_procs h) dying tid = Some t' -> t' = t.
Proof.
  intros GD R T F. destruct (c_find_in _ _ _ _ F) as (q & p & r' & I & R' & T').
  assert (Q : get q (h_procs h) = Some p) by (apply in_get; [apply bsorted_nodup, (g_sorted _ _ _ _ _ _ GD)|exact I]).
  assert (RQ : run_of h q = Some r') by (apply run_of_get; eauto).
  assert (q = pid). { eapply (g_uniq _ _ _ _ _ _ GD); [exact RQ|exact R|eapply get_keys; eauto|eapply get_keys; eauto]. }
  subst q. congruence.
Qed.

Lemma find_thread_in ps tid pid t : find_thread ps tid = Some (pid, t) ->
  exists p r, In (pid, p) ps /\ p_st p = PRun r /\ get tid (n_thr r) = Some t.
Proof.
  induction ps as [|[q p] ps IH]; cbn; [discriminate|]. destruct (p_st p) as [r|s] eqn:R.
  - destruct (get tid (n_thr r)) as [t0|] eqn:T.
    + intros [= <- <-]. exists p, r. auto.
    + intros H. destruct (IH H) as (x & y & Q1 & Q2). exists x, y. auto.
  - intros H. destruct (IH H) as (x & y & Q1 & Q2). exists x, y. auto.
Qed.
Lemma good_find_thread L ex cu S l h tid pid t : Good L ex cu S l h -> find_thread (h_procs h) tid = Some (pid, t) ->
  exists r, run_of h pid = Some r /\ get tid (n_thr r) = Some t.
Proof.
  intros GD F. destruct (find_thread_in _ _ _ _ F) as (p & r & I & R & T). exists r. split; [|exact T]. apply run_of_get. exists p.
  split; [|exact R]. apply in_get; [apply bsorted_nodup, (g_sorted _ _ _ _ _ _ GD)|exact I].
Qed.

(** * A signal becomes pending *)
Lemma pend_at_add s m sig i x : 1 <= sig -> si_sig i = sig ->
  pend_at (sadd s sig) (put sig i m) x = if x =? sig then Some i else pend_at s m x.
Proof.
  intros P E. unfold pend_at. rewrite shas_sadd by lia. unfold info_of. rewrite get_put. cbn [eqb Eqb_Z].
  destruct (x =? sig); reflexivity.
Qed.
Lemma pset_add s m sig i : pset_ok s m -> 1 <= sig <= STD_MAX -> si_sig i = sig -> pset_ok (sadd s sig) (put sig i m).
Proof.
  intros [A B] R E. split; [now apply std_add|]. intros x. rewrite shas_sadd by lia. unfold info_of. rewrite get_put. cbn [eqb Eqb_Z].
  destruct (Z.eqb_spec x sig) as [->|NE]; [auto|]. cbn [orb]. intros H. apply B in H. exact H.
Qed.
Lemma pend_at_drop s m sig x : pend_at (sdrop s sig) m x = if x =? sig then None else pend_at s m x.
Proof. unfold pend_at. rewrite shas_sdrop. destruct (x =? sig); reflexivity. Qed.
Lemma pset_drop s m sig : pset_ok s m -> pset_ok (sdrop s sig) m.
Proof. intros [A B]. split; [now apply std_drop|]. intros x. rewrite shas_sdrop. intros H. apply Bool.andb_true_iff in H as [_ H]. auto. Qed.
Lemma pset_empty : pset_ok 0 [].
Proof. split; [apply std_empty|]. intros sig. rewrite shas_0. discriminate. Qed.

Lemma dest_eqb_spec a b : reflect (a = b) (dest_eqb a b).
Proof.
  destruct a as [p|p t], b as [q|q u]; cbn; try (constructor; congruence).
  - destruct (Z.eqb_spec p q); constructor; congruence.
  - destruct (Z.eqb_spec p q); cbn; [|constructor; congruence]. destruct (Z.eqb_spec t u); constructor; congruence.
Qed.

(** The wakeup of the first blocked thread that does not block the signal. *)
Lemma interrupt_shape h dying pid sig ts h' : interrupt h dying pid sig ts = Some h' ->
  h' = h \/ exists tid t c, In (tid, t) ts /\ shas (t_mask t) sig = false /\ t_st t = TBlk c /\
    exists b, wake_for_signal h dying pid tid sig = Some (h', b).
Proof.
  induction ts as [|[tid t] ts IH]; cbn; [intros [= ->]; auto|]. destruct (shas (t_mask t) sig) eqn:M.
  - intros H. destruct (IH H) as [|(x & y & c & X)]; auto. right. exists x, y, c. intuition auto.
  - destruct (t_st t) as [f| |c] eqn:ST.
    + intros H. destruct (IH H) as [|(x & y & c & X)]; auto. right. exists x, y, c. intuition auto.
    + intros H. destruct (IH H) as [|(x & y & c & X)]; auto. right. exists x, y, c. intuition auto.
    + destruct (wake_for_signal h dying pid tid sig) as [[h1 b]|] eqn:W; [|discriminate]. cbn. intros [= <-]. right.
      exists tid, t, c. split; [auto|]. split; [exact M|]. split; [exact ST|]. eauto.
Qed.

(** Observations that concern neither lives nor calls. *)
Definition quiet (o : list obs) : Prop := forall x, In x o -> match x with OQueue _ _ => True | _ => False end.
Lemma quiet_life o l : quiet o -> lobeys l o /\ lafter l o = l.
Proof.
  induction o as [|x o IH]; intros Q; [cbn; auto|]. assert (X := Q x (or_introl eq_refl)). destruct x; try contradiction.
  cbn. destruct IH as [A B]; [intros y Y; apply Q; right; exact Y|]. auto.
Qed.
Lemma quiet_nil : quiet []. Proof. intros x []. Qed.
Lemma quiet_app a b : quiet a -> quiet b -> quiet (a ++ b).
Proof. intros A B x IN. apply in_app_or in IN as [IN|IN]; [apply A; exact IN|apply B; exact IN]. Qed.

Lemma sminus_zero a b : std_set a -> (sminus a b = 0 <-> forall x, shas a x = true -> shas b x = true).
Proof.
  intros S. rewrite std_zero by (now apply std_minus). split; intros H x; specialize (H x); rewrite shas_sminus in *.
  - intros A. rewrite A in H. cbn in H. destruct (shas b x); [reflexivity|discriminate H].
  - destruct (shas a x); [|reflexivity]. rewrite H by reflexivity. reflexivity.
Qed.

Lemma signal_run_good L ex cu S l h dying pid cur i h' o : Good L ex cu S l h -> is_sig (si_sig i) = true ->
  (forall q, cur = Some q -> cu = Some q) ->
  signal_run h dying pid cur i = Some (h', o) ->
  obeys S o /\ Good L ex cu (after S o) l h' /\ kin h h' /\ quiet o.
Proof.
  intros GD SG CU. unfold signal_run. destruct (run_of h pid) as [r|] eqn:R.
  2:{ intros [= <- <-]. cbn. split; [auto|]. split; [auto|]. split; [apply kin_refl|apply quiet_nil]. }
  set (sig := si_sig i). destruct (ignored (act_of r sig) sig).
  { intros [= <- <-]. cbn. split; [auto|]. split; [auto|]. split; [apply kin_refl|apply quiet_nil]. }
  destruct (shas (n_pend r) sig) eqn:PD.
  { intros [= <- <-]. cbn. split; [auto|]. split; [auto|]. split; [apply kin_refl|apply quiet_nil]. }
  unfold assert_then. destruct (Z.leb_spec sig STD_MAX) as [LE|]; [|discriminate].
  apply is_sig_range in SG. fold sig in SG.
  pose proof R as R0. apply run_of_get in R as (p & P & R).
  pose proof (good_run _ _ _ _ _ _ _ _ _ GD P R) as RK. pose proof RK as [R1 R2 R3 R4 R5 R6 R7].
  set (r' := set_npend r (sadd (n_pend r) sig) (put sig i (n_infos r))).
  set (h1 := put_run h pid r'). set (S' := note S (OQueue (DPr pid) i)).
  assert (LT : pid < h_next h) by (destruct (g_proc _ _ _ _ _ _ GD pid p P); lia).
  assert (G1 : Good (without L pid) ex cu S' l h1).
  { unfold h1. rewrite (put_run_eq _ _ p _ P). unfold put_proc, set_procs.
    rewrite <- (app_nil_r (h_tasks h)). eapply good_put; [apply good_less; exact GD|exact P| | | | | | |].
    - unfold keeps. cbn [p_par p_pgid p_sid p_st set_pst]. rewrite R. do 3 (split; [reflexivity|]). split; cbn [r' n_thr set_npend]; [auto|].
      intros tid t c' T ST _. exists t, c'. auto.
    - lia.
    - rewrite app_nil_r. destruct (g_proc _ _ _ _ _ _ (good_less _ _ _ _ _ _ pid GD) pid p P) as [C1 C2 C3 C4 C5]. split; auto.
      cbn. intros r0 [= <-]. destruct (C5 r R) as [Q1 Q2 Q3 Q4 Q5 Q6 Q7]. split; cbn [r' n_thr set_npend n_pend n_infos n_lst]; auto.
      + apply pset_add; auto. lia.
      + intros tid t T. destruct (Q7 tid t T) as [T1 T2 T3]. split; auto. intros NC. specialize (T3 NC). destruct (t_st t); auto.
        destruct T3 as (T4 & T5 & T6). split; [exact T4|]. split; [exact T5|]. unfold without. rewrite Z.eqb_refl. discriminate.
    - intros q t cid tr [].
    - intros d x ND. unfold S'. cbn. destruct (dest_eqb_spec d (DPr pid)) as [->|]; [cbn in ND; contradiction|reflexivity].
    - intros d x LE'. unfold S'. cbn. destruct (dest_eqb_spec d (DPr pid)) as [->|]; [cbn in LE'; lia|]. eapply g_fresh; eauto.
    - cbn. intros r0 [= <-]. destruct (g_pend _ _ _ _ _ _ GD pid r R0) as [Q1 Q2]. split.
      + intros x. unfold S', r'. cbn [note n_pend n_infos set_npend].
        rewrite pend_at_add by (auto; lia). cbn [dest_eqb]. rewrite Z.eqb_refl. cbn [andb]. fold sig. destruct (x =? sig); auto.
      + cbn [r' n_thr set_npend]. intros tid t T x. unfold S'. cbn. eauto. }
  assert (OB : obeys S [OQueue (DPr pid) i] /\ quiet [OQueue (DPr pid) i] /\ after S [OQueue (DPr pid) i] = S').
  { split; [|split].
    - cbn. split; [|exact I]. split; [|unfold STD_MAX in LE; fold sig; lia]. destruct (g_pend _ _ _ _ _ _ GD pid r R0) as [Q1 Q2].
      rewrite Q1. unfold pend_at. fold sig. now rewrite PD.
    - intros x [<-|[]]. exact I.
    - reflexivity. }
  destruct OB as (OB1 & OB2 & OB3).
  assert (RUN1 : forall x, run_of h1 x = if x =? pid then Some r' else run_of h x) by (intros x; unfold h1; eapply run_of_put_run; eauto).
  assert (K1 : kin h h1).
  { unfold h1. rewrite (put_run_eq _ _ p _ P). unfold kin. do 3 (split; [reflexivity|]). intros x. rewrite get_put_proc.
    destruct (Z.eqb_spec x pid) as [->|NE].
    - rewrite P. unfold pkin. cbn [p_par p_pgid p_sid p_exs p_pdeath p_st set_pst]. do 5 (split; [reflexivity|]). rewrite R.
      unfold rkin. cbn [n_acts n_lst n_code n_thr r' set_npend]. do 4 (split; [reflexivity|]). intros tid t T. exists t.
      do 4 (split; [auto|]). apply tlater_refl.
    - destruct (get x (h_procs h)); [apply pkin_refl|exact I]. }
  fold h1.
  (* the pending signals of a lone process are taken care of *)
  match goal with |- (if ?b then _ else _) = _ -> _ => destruct b eqn:HERE end.
  - intros [= <- <-]. rewrite OB3. split; [exact OB1|]. split; [|split; [exact K1|exact OB2]].
    apply good_more with (pid := pid); [exact G1|]. intros LP. pose proof (good_lone _ _ _ _ _ _ _ GD LP) as LO.
    destruct (LO r R0) as [LK LS]. intros r0 R'. rewrite RUN1, Z.eqb_refl in R'. injection R' as <-. cbn [r' n_thr set_npend n_pend].
    split; [exact LK|]. intros t c T ST NC. exfalso. destruct cur as [[cp ct]|]; [|discriminate HERE]. apply Bool.andb_true_iff in HERE as [E1 E2].
    apply Z.eqb_eq in E1. subst cp. destruct (thr_of h1 pid ct) as [t1|] eqn:T1; [|discriminate E2]. apply thr_of_get in T1 as (r1 & R1' & T1).
    rewrite RUN1, Z.eqb_refl in R1'. injection R1' as <-. cbn in T1. apply get_keys in T1. rewrite LK in T1. destruct T1 as [<-|[]].
    specialize (CU _ eq_refl). congruence.
  - destruct (interrupt h1 dying pid sig (n_thr r)) as [h2|] eqn:IT; [|discriminate]. cbn. intros [= <- <-]. fold S'.
    change (note S (OQueue (DPr pid) i)) with S'. split; [exact OB1|].
    assert (X : Good (without L pid) ex cu S' l h2 /\ kin h1 h2 /\ (L pid = true -> lone_ok cu h2 pid)).
    { destruct (interrupt_shape _ _ _ _ _ _ IT) as [->|(tid & t & c & IN & MK & ST & b & W)].
      - split; [exact G1|]. split; [apply kin_refl|]. intros LP. pose proof (good_lone _ _ _ _ _ _ _ GD LP) as LO.
        destruct (LO r R0) as [LK LS]. intros r0 R'. rewrite RUN1, Z.eqb_refl in R'. injection R' as <-. cbn [r' n_thr set_npend n_pend].
        split; [exact LK|]. intros t c T ST NC NZ. destruct (n_thr r) as [|[k v] ts] eqn:TS; [discriminate LK|].
        cbn in LK. injection LK as -> TN. destruct ts; [|discriminate TN]. cbn in T. rewrite Z.eqb_refl in T. injection T as ->.
        cbn in IT. destruct (shas (t_mask t) sig) eqn:MK.
        + eapply LS; eauto.
          { cbn. now rewrite Z.eqb_refl. }
          intros Z0. apply NZ. apply sminus_zero; [apply std_add; [apply R3|lia]|]. intros x. rewrite shas_sadd by lia.
          destruct (Z.eqb_spec x sig) as [->|]; [auto|]. cbn. apply sminus_zero; [apply R3|exact Z0].
        + rewrite ST in IT. destruct (wake_for_signal h1 dying pid pid sig) as [[h2 b]|] eqn:W; [|discriminate IT]. cbn in IT. injection IT as ->.
          unfold wake_for_signal in W. destruct (c_find_thread (h_procs h1) dying pid) as [t1|] eqn:CF; [|discriminate W]. cbn in W.
          assert (t1 = t). { eapply good_find; [exact G1| | |exact CF]; [rewrite RUN1, Z.eqb_refl; reflexivity|]. cbn. rewrite TS. cbn. now rewrite Z.eqb_refl. }
          subst t1. rewrite MK in W. injection W as W _. destruct (good_wake _ _ _ _ _ _ pid pid G1) as (_ & _ & _ & GW).
          rewrite W in GW. apply GW. exists t. split; [|exact ST]. apply thr_of_get. exists r'. rewrite RUN1, Z.eqb_refl. split; [reflexivity|].
          cbn. rewrite TS. cbn. now rewrite Z.eqb_refl.
      - unfold wake_for_signal in W. destruct (c_find_thread (h_procs h1) dying tid) as [t1|] eqn:CF; [|discriminate W]. cbn in W.
        assert (T : get tid (n_thr r) = Some t) by (apply in_get; [apply bsorted_nodup; exact R1|exact IN]).
        assert (RR : run_of h1 pid = Some r') by (rewrite RUN1, Z.eqb_refl; reflexivity).
        assert (t1 = t) by (eapply good_find; [exact G1|exact RR|cbn; exact T|exact CF]). subst t1. rewrite MK in W. injection W as <- <-.
        destruct (good_wake _ _ _ _ _ _ pid tid G1) as (GW1 & GW2 & GW3 & GW4). split; [exact GW1|]. split; [exact GW2|].
        intros LP. pose proof (good_lone _ _ _ _ _ _ _ GD LP) as LO. destruct (LO r R0) as [LK LS]. intros r0 R'.
        destruct (kin_run_back _ _ _ _ GW2 R') as (r1 & R1' & (_ & _ & _ & KK & _)). assert (r1 = r') by congruence. subst r1.
        split; [rewrite KK; exact LK|]. intros t0 c0 T0 ST0 NC NZ. apply get_keys in T. rewrite LK in T. destruct T as [<-|[]].
        apply GW4. exists t0. split; [apply thr_of_get; eauto|exact ST0]. }
    destruct X as (X1 & X2 & X3). split; [eapply good_more; eauto|]. split; [eapply kin_trans; eauto|exact OB2].
Qed.
