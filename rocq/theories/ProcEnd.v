(** Signals to threads, and the end of a process. *)
From Verif Require Import Base FMap BTree ProcModel ProcSpec ProcBits ProcInv ProcSig.

(** * Updating one thread of a host *)
Lemma good_put_thr L ex cu S S' l h pid p r tid t t' lst nt cb cur :
  Good L ex cu S l h -> get pid (h_procs h) = Some p -> p_st p = PRun r -> get tid (n_thr r) = Some t -> h_cid h <= cb ->
  thr_ok L cu (h_tasks h ++ nt) cb pid tid r t' ->
  (forall c', t_st t' = TBlk c' -> Some (pid, tid) <> cu -> exists c, t_st t = TBlk c /\ c_trig c = c_trig c' /\
     c_call c = c_call c' /\ (c_sched c = true -> c_sched c' = true)) ->
  (forall x cid, In (x, cid) lst <->
     if x =? tid then exists c, t_st t' = TBlk c /\ c_trig c = TrChild /\ c_id c = cid else In (x, cid) (n_lst r)) ->
  (forall q x cid tr, In (TkWake q x cid tr) nt -> q = pid /\ x = tid /\ cid < cb) ->
  (forall d sig, d <> DTh pid tid -> S' d sig = S d sig) ->
  (forall sig, S' (DTh pid tid) sig = pend_at (t_pend t') (t_infos t') sig) ->
  Good L ex cu S' l
    (mkHost (bput pid (set_pst p (PRun (set_nlst (set_nthr r (bput tid t' (n_thr r))) lst))) (h_procs h))
            (h_next h) cb (h_tasks h ++ nt) cur).
Proof.
  intros GD P R T CB TO KP LS NT SO SP. pose proof (good_run _ _ _ _ _ _ _ _ _ GD P R) as RK. pose proof RK as [R1 R2 R3 R4 R5 R6 R7].
  assert (RO : run_of h pid = Some r) by (apply run_of_get; eauto).
  eapply good_put; eauto.
  - unfold keeps. cbn [p_par p_pgid p_sid p_st set_pst]. rewrite R. do 3 (split; [reflexivity|]). eapply keeps_upd; eauto.
  - eapply proc_ok_st; [eapply g_proc; eauto|]. eapply run_upd; eauto. intros q x cid tr IN. apply (NT _ _ _ _ IN).
  - intros q x cid tr IN. destruct (NT _ _ _ _ IN) as (? & _ & ?). auto.
  - intros d sig ND. apply SO. intros ->. cbn in ND. contradiction.
  - intros d sig LE. rewrite SO; [eapply g_fresh; eauto|]. intros ->. cbn in LE. pose proof (R2 tid (get_keys _ _ _ T)). lia.
  - cbn. intros r0 [= <-]. destruct (g_pend _ _ _ _ _ _ GD pid r RO) as [Q1 Q2]. split.
    + intros sig. rewrite SO by discriminate. apply Q1.
    + cbn [n_thr set_nlst set_nthr]. intros x y. rewrite get_bput. destruct (Z.eqb_spec x tid) as [->|NE].
      * intros [= <-]. exact SP.
      * intros Y sig. rewrite SO by congruence. auto.
Qed.

(** The list of listeners need not change. *)
Lemma lst_same L cu tasks nx cb pid r tid t t' :
  run_ok L cu tasks nx cb pid r -> get tid (n_thr r) = Some t ->
  (forall cid, (exists c, t_st t = TBlk c /\ c_trig c = TrChild /\ c_id c = cid) <-> (exists c, t_st t' = TBlk c /\ c_trig c = TrChild /\ c_id c = cid)) ->
  forall x cid, In (x, cid) (n_lst r) <->
     if x =? tid then exists c, t_st t' = TBlk c /\ c_trig c = TrChild /\ c_id c = cid else In (x, cid) (n_lst r).
Proof.
  intros [R1 R2 R3 R4 R5 R6 R7] T E x cid. destruct (Z.eqb_spec x tid) as [->|NE]; [|reflexivity]. rewrite R6. rewrite <- E.
  unfold child_wait. split.
  - intros (t0 & c & E0 & E1). assert (t0 = t) by congruence. subst t0. eauto.
  - intros (c & E1). exists t, c. auto.
Qed.

Lemma bput_bput {V} k (v v' : V) m : bput k v (bput k v' m) = bput k v m.
Proof.
  induction m as [|[k2 v2] m IH]; cbn.
  - rewrite Z.ltb_irrefl, Z.eqb_refl. reflexivity.
  - destruct (Z.ltb_spec k k2) as [L|L]; cbn.
    + rewrite Z.ltb_irrefl, Z.eqb_refl. reflexivity.
    + destruct (Z.eqb_spec k k2) as [->|NE]; cbn.
      * rewrite Z.ltb_irrefl, Z.eqb_refl. reflexivity.
      * destruct (Z.ltb_spec k k2); [lia|]. destruct (Z.eqb_spec k k2); [contradiction|]. now rewrite IH.
Qed.

Lemma tlater_st t t' : t_st t' = t_st t -> tlater t t'.
Proof. intros E. unfold tlater. rewrite E. destruct (t_st t) as [f| |c]; auto. exists c. auto. Qed.

Lemma kin_thr h pid p r tid t t' : get pid (h_procs h) = Some p -> p_st p = PRun r -> bsorted (n_thr r) -> get tid (n_thr r) = Some t ->
  t_mask t' = t_mask t -> t_stk t' = t_stk t -> t_frames t' = t_frames t -> tlater t t' ->
  forall h', h_next h' = h_next h -> h_cid h' = h_cid h -> h_cur h' = h_cur h ->
  h_procs h' = bput pid (set_pst p (PRun (set_nthr r (bput tid t' (n_thr r))))) (h_procs h) -> kin h h'.
Proof.
  intros P R SO T E1 E2 E3 E4 h' F1 F2 F3 F4. unfold kin. do 3 (split; [assumption|]). intros x. rewrite F4, get_bput.
  destruct (Z.eqb_spec x pid) as [->|NE].
  - rewrite P. unfold pkin. cbn [p_par p_pgid p_sid p_exs p_pdeath p_st set_pst]. do 5 (split; [reflexivity|]). rewrite R.
    unfold rkin. cbn [n_acts n_lst n_code n_thr set_nthr]. do 3 (split; [reflexivity|]). split; [eapply keys_bput_same; eauto|].
    intros x y Y. rewrite get_bput. destruct (Z.eqb_spec x tid) as [->|NE].
    + exists t'. split; [reflexivity|]. assert (y = t) by congruence. subst y. auto.
    + exists y. do 4 (split; [auto|]). apply tlater_refl.
  - destruct (get x (h_procs h)); [apply pkin_refl|exact I].
Qed.

(** * A signal to a thread *)
Lemma signal_thread_good L ex S l h me pid tid i h' o :
  Good L ex (Some me) S l h -> is_sig (si_sig i) = true -> (exists t, thr_of h (fst me) (snd me) = Some t) ->
  signal_thread h me pid tid i = Some (h', o) ->
  obeys S o /\ Good L ex (Some me) (after S o) l h' /\ kin h h' /\ quiet o.
Proof.
  intros GD SG ME. unfold signal_thread. destruct (run_of h pid) as [r|] eqn:R; [|discriminate]. cbn.
  destruct (get tid (n_thr r)) as [t|] eqn:T; [|discriminate]. cbn.
  set (sig := si_sig i). destruct (ignored (act_of r sig) sig).
  { intros [= <- <-]. cbn. split; [auto|]. split; [auto|]. split; [apply kin_refl|apply quiet_nil]. }
  destruct (shas (t_pend t) sig) eqn:PD.
  { intros [= <- <-]. cbn. split; [auto|]. split; [auto|]. split; [apply kin_refl|apply quiet_nil]. }
  unfold assert_then at 1. destruct (Z.leb_spec sig STD_MAX) as [LE|]; [|discriminate].
  apply is_sig_range in SG. fold sig in SG.
  pose proof R as R0. apply run_of_get in R as (p & P & R).
  pose proof (good_run _ _ _ _ _ _ _ _ _ GD P R) as RK. pose proof RK as [R1 R2 R3 R4 R5 R6 R7].
  destruct (R7 tid t T) as [T1 T2 T3].
  set (t1 := set_tpend t (sadd (t_pend t) sig) (put sig i (t_infos t))).
  set (S' := note S (OQueue (DTh pid tid) i)).
  assert (OB : obeys S [OQueue (DTh pid tid) i] /\ quiet [OQueue (DTh pid tid) i] /\ after S [OQueue (DTh pid tid) i] = S').
  { split; [|split].
    - cbn. split; [|exact I]. split; [|unfold STD_MAX in LE; fold sig; lia]. destruct (g_pend _ _ _ _ _ _ GD pid r R0) as [Q1 Q2].
      rewrite (Q2 tid t T). unfold pend_at. fold sig. now rewrite PD.
    - intros x [<-|[]]. exact I.
    - reflexivity. }
  destruct OB as (OB1 & OB2 & OB3).
  assert (PS : pset_ok (t_pend t1) (t_infos t1)) by (apply pset_add; auto; lia).
  assert (SO : forall d x, d <> DTh pid tid -> S' d x = S d x).
  { intros d x ND. unfold S'. cbn. destruct (dest_eqb_spec d (DTh pid tid)); [contradiction|reflexivity]. }
  assert (SP : forall x, S' (DTh pid tid) x = pend_at (t_pend t1) (t_infos t1) x).
  { intros x. unfold S', t1. cbn [t_pend t_infos set_tpend]. rewrite pend_at_add by (auto; lia). unfold note.
    destruct (dest_eqb_spec (DTh pid tid) (DTh pid tid)); [|contradiction]. cbn [andb]. fold sig. destruct (x =? sig); [reflexivity|].
    destruct (g_pend _ _ _ _ _ _ GD pid r R0) as [Q1 Q2]. eauto. }
  (* no wakeup is needed *)
  assert (NOWAKE : (forall c, t_st t = TBlk c -> Some (pid, tid) <> Some me -> shas (t_mask t) sig = false -> c_sched c = true) ->
            Good L ex (Some me) S' l (put_thr h pid tid t1) /\ kin h (put_thr h pid tid t1)).
  { intros AW. rewrite (put_thr_eq _ _ _ _ p r P R). split.
    - unfold put_proc, set_procs. rewrite <- (app_nil_r (h_tasks h)).
      change (set_nthr r (bput tid t1 (n_thr r))) with (set_nlst (set_nthr r (bput tid t1 (n_thr r))) (n_lst r)).
      eapply good_put_thr; eauto; try lia; try (intros q x cid tr []; fail).
      + rewrite app_nil_r. split; [exact PS|exact T2|]. intros NC. specialize (T3 NC). cbn [t1 t_st set_tpend t_mask t_pend].
        destruct (t_st t) as [f| |c] eqn:ST; auto. destruct T3 as (T4 & T5 & T6). split; [exact T4|]. split; [|exact T6].
        intros NZ. destruct (shas (t_mask t) sig) eqn:MK; [|eapply AW; eauto]. apply T5. intros Z0. apply NZ.
        apply sminus_zero; [apply std_add; [apply T1|lia]|]. intros x. rewrite shas_sadd by lia.
        destruct (Z.eqb_spec x sig) as [->|]; [auto|]. cbn. apply sminus_zero; [apply T1|exact Z0].
      + eapply lst_same; [exact RK|exact T|]. reflexivity.
    - eapply kin_thr with (t := t) (t' := t1); try reflexivity; eauto. apply tlater_st. reflexivity. }
  match goal with |- (if ?b then _ else _) = _ -> _ => destruct b eqn:HERE end.
  { intros [= <- <-]. rewrite OB3. split; [exact OB1|]. destruct NOWAKE as [N1 N2]; [|auto].
    intros c ST NC MK. exfalso. apply Bool.orb_true_iff in HERE as [HERE|HERE]; [|cbn in HERE; congruence].
    apply Z.eqb_eq in HERE. destruct me as [mp mt]. cbn in *. subst mt. destruct ME as (tm & ME). apply thr_of_get in ME as (rm & RM & TM).
    apply NC. f_equal. f_equal. eapply (g_uniq _ _ _ _ _ _ GD); [exact R0|exact RM|eapply get_keys; eauto|eapply get_keys; eauto]. }
  apply Bool.orb_false_iff in HERE as [HE1 HE2]. cbn [t1 t_mask set_tpend] in HE2.
  cbn [t1 t_st set_tpend]. destruct (t_st t) as [f| |c] eqn:ST.
  - intros [= <- <-]. rewrite OB3. split; [exact OB1|]. destruct NOWAKE as [N1 N2]; [|auto]. intros; discriminate.
  - intros [= <- <-]. rewrite OB3. split; [exact OB1|]. destruct NOWAKE as [N1 N2]; [|auto]. intros; discriminate.
  - destruct (wake_for_signal (put_thr h pid tid t1) None pid tid sig) as [[h2 b]|] eqn:W; [|discriminate]. cbn. unfold assert_then.
    destruct b; [|discriminate]. intros [= <- <-]. change (note S (OQueue (DTh pid tid) i)) with S'. split; [exact OB1|].
    unfold wake_for_signal in W. destruct (c_find_thread (h_procs (put_thr h pid tid t1)) None tid) as [tf|]; [|discriminate W]. cbn in W.
    destruct (shas (t_mask tf) sig); [discriminate W|]. injection W as <-.
    destruct (c_sched c) eqn:SC.
    + destruct NOWAKE as [N1 N2]; [intros; congruence|].
      destruct (good_wake _ _ _ _ _ _ pid tid N1) as (W1 & W2 & _). split; [exact W1|]. split; [eapply kin_trans; eauto|exact OB2].
    + set (c' := mkCnd (c_id c) (c_trig c) true (c_call c)). set (t2 := set_tst t1 (TBlk c')).
      set (nt := [TkWake pid tid (c_id c) (c_trig c)]).
      assert (E : sched_wake (put_thr h pid tid t1) pid tid =
        mkHost (bput pid (set_pst p (PRun (set_nlst (set_nthr r (bput tid t2 (n_thr r))) (n_lst r)))) (h_procs h))
               (h_next h) (h_cid h) (h_tasks h ++ nt) (h_cur h)).
      { rewrite (put_thr_eq _ _ _ _ p r P R). unfold sched_wake, thr_of. rewrite run_of_put_proc, Z.eqb_refl. cbn [p_st set_pst n_thr set_nthr].
        rewrite get_bput_same. cbn [t1 t_st set_tpend]. rewrite ST, SC.
        rewrite (put_thr_eq _ _ _ _ (set_pst p (PRun (set_nthr r (bput tid t1 (n_thr r))))) (set_nthr r (bput tid t1 (n_thr r))));
          [|rewrite get_put_proc, Z.eqb_refl; reflexivity|reflexivity].
        unfold put_proc, set_procs, add_task, set_tasks. cbn [h_procs h_next h_cid h_tasks h_cur n_thr set_nthr]. rewrite bput_bput. cbn [n_thr set_nthr]. rewrite bput_bput.
        reflexivity. }
      rewrite E. destruct (T2 c eq_refl) as [T4 T5]. split; [|split; [|exact OB2]].
      * eapply good_put_thr; eauto; try lia.
        -- split; [exact PS| |].
           ++ intros c0 E0. cbn in E0. injection E0 as <-. cbn. split; [exact T4|]. intros tr IN. apply in_app_or in IN as [IN|[IN|[]]]; [auto|congruence].
           ++ intros NC. cbn. split; [intros _; apply in_or_app; right; left; reflexivity|auto].
        -- intros c0 E0 NC. cbn in E0. injection E0 as <-. exists c. cbn. auto.
        -- eapply lst_same; [exact RK|exact T|]. intros cid. rewrite ST. cbn [t2 t_st set_tst]. split; intros (c0 & E0 & E1); injection E0 as <-; [exists c'|exists c]; auto.
        -- intros q x cid tr [IN|[]]. injection IN as <- <- <- _. auto.
      * eapply kin_thr with (t := t) (t' := t2); try reflexivity; eauto. unfold tlater. rewrite ST. exists c'. cbn. auto.
Qed.

(** * The end of a process *)
Lemma wake_waiters_good L ex cu S l pid ls : forall h, Good L ex cu S l h ->
  Good L ex cu S l (wake_child_waiters h pid ls) /\ kin h (wake_child_waiters h pid ls) /\
  (forall x cid c, In (x, cid) ls -> blk (wake_child_waiters h pid ls) pid x c -> c_sched c = true).
Proof.
  induction ls as [|[x cid] ls IH]; intros h GD; cbn.
  - split; [exact GD|]. split; [apply kin_refl|]. intros x cid c [].
  - destruct (good_wake _ _ _ _ _ _ pid x GD) as (W1 & W2 & _ & W4). destruct (IH _ W1) as (A & B & C). unfold wake_child_waiters in *.
    split; [exact A|]. split; [eapply kin_trans; eauto|]. intros y cid' c [E|IN] BL; [|eapply C; eauto]. injection E as <- <-.
    destruct BL as (t & T & ST). apply thr_of_get in T as (r & R & T). destruct (kin_run_back _ _ _ _ B R) as (r1 & R1 & (_ & _ & _ & KK & KT)).
    assert (IK : In x (keys (n_thr r1))) by (rewrite <- KK; eapply get_keys; eauto). apply keys_get in IK as (t1 & T1).
    destruct (KT x t1 T1) as (t' & T' & _ & _ & _ & TL). assert (t' = t) by congruence. subst t'. unfold tlater in TL.
    destruct (t_st t1) as [f| |c1] eqn:ST1; try congruence. destruct TL as (c2 & E1 & _ & _ & _ & E2). assert (c2 = c) by congruence. subst c2.
    apply E2. apply W4. exists t1. split; [apply thr_of_get; eauto|exact ST1].
Qed.

Lemma good_no_init L ex cu S l h : Good L ex cu S l h -> get INIT (h_procs h) = None.
Proof.
  intros GD. destruct (get INIT (h_procs h)) as [p|] eqn:E; [|reflexivity]. destruct (g_proc _ _ _ _ _ _ GD _ _ E) as [R _ _ _ _].
  unfold INIT in R. lia.
Qed.

Lemma notify_good L ex cu S l h pid s h' o p : Good L ex cu S l h -> get pid (h_procs h) = Some p ->
  notify_parent h pid s = Some (h', o) ->
  obeys S o /\ Good L ex cu (after S o) l h' /\ kin h h' /\ quiet o /\
  (p_exs p <> None -> forall x c, blk h' (p_par p) x c -> c_trig c = TrChild -> c_sched c = true).
Proof.
  intros GD P. unfold notify_parent. rewrite P. cbn. destruct (p_exs p) as [es|] eqn:EX.
  2:{ intros [= <- <-]. cbn. split; [auto|]. split; [auto|]. split; [apply kin_refl|]. split; [apply quiet_nil|]. intros F. contradiction. }
  destruct (Z.eqb_spec (p_par p) INIT) as [EI|NI].
  { intros [= <- <-]. cbn. split; [auto|]. split; [auto|]. split; [apply kin_refl|]. split; [apply quiet_nil|].
    intros _ x c (t & T & _). apply thr_of_get in T as (r & R & _). apply run_of_get in R as (q & Q & _). rewrite EI, (good_no_init _ _ _ _ _ _ GD) in Q. discriminate Q. }
  destruct (get (p_par p) (h_procs h)) as [pp|] eqn:PP.
  2:{ intros [= <- <-]. cbn. split; [auto|]. split; [auto|]. split; [apply kin_refl|]. split; [apply quiet_nil|].
    intros _ x c (t & T & _). apply thr_of_get in T as (r & R & _). apply run_of_get in R as (q & Q & _). congruence. }
  destruct (p_st pp) as [r|] eqn:R; [|discriminate].
  destruct (signal_run h (Some pid) (p_par p) None (exit_info es pid s)) as [[h1 o1]|] eqn:SR; [|discriminate]. cbn. intros [= <- <-].
  destruct (g_proc _ _ _ _ _ _ GD pid p P) as [_ _ XO _ _].
  assert (SG : is_sig (si_sig (exit_info es pid s)) = true) by (destruct s; cbn; auto).
  assert (X : obeys S o1 /\ Good L ex cu (after S o1) l h1 /\ kin h h1 /\ quiet o1)
    by (refine (signal_run_good _ _ _ _ _ _ _ _ _ _ _ _ GD SG _ SR); intros q E; discriminate E).
  destruct X as (O1 & G1 & K1 & Q1).
  destruct (wake_waiters_good _ _ _ _ _ (p_par p) (n_lst r) _ G1) as (G2 & K2 & W). split; [exact O1|]. split; [exact G2|].
  split; [eapply kin_trans; eauto|]. split; [exact Q1|]. intros _ x c BL TR.
  assert (RO : run_of h (p_par p) = Some r) by (apply run_of_get; eauto).
  eapply W; [|exact BL]. destruct BL as (t & T & ST). apply thr_of_get in T as (r2 & R2 & T).
  destruct (kin_run_back _ _ _ _ (kin_trans _ _ _ K1 K2) R2) as (r0 & R0 & (_ & KL & _)). assert (r0 = r) by congruence. subst r0.
  pose proof R2 as R3. apply run_of_get in R3 as (p2 & P2 & R3).
  destruct (good_run _ _ _ _ _ _ _ _ _ G2 P2 R3) as [_ _ _ _ _ N6 _]. rewrite <- KL. apply N6. exists t, c. auto.
Qed.

Lemma good_zombie L cu S l h pid p r s : Good L None cu S l h -> get pid (h_procs h) = Some p -> p_st p = PRun r ->
  (forall q x, cu = Some (q, x) -> q = pid) ->
  (p_exs p <> None -> forall x c, blk h (p_par p) x c -> c_trig c = TrChild -> c_sched c = true) ->
  Good L (Some pid) None (note S (ODied pid s)) (lnote l (ODied pid s)) (put_proc h pid (set_pst p (PZom s))).
Proof.
  intros GD P R CU WK. pose proof GD as [A B TK C D E F G H I J K M N O].
  set (h' := put_proc h pid (set_pst p (PZom s))).
  assert (GT : forall x, get x (h_procs h') = if x =? pid then Some (set_pst p (PZom s)) else get x (h_procs h)) by (intros; apply get_put_proc).
  assert (RN : forall x, run_of h' x = if x =? pid then None else run_of h x) by (intros; apply run_of_put_proc).
  assert (NC : forall q x, q <> pid -> Some (q, x) <> cu) by (intros q x NE EQ; symmetry in EQ; apply CU in EQ; contradiction).
  assert (PN : p_par p <> pid).
  { destruct (C pid p P) as [C1 _ _ _ _]. destruct (D pid p P) as [->|(D1 & _)]; [unfold INIT; lia|lia]. }
  split; auto.
  - cbn. now apply bput_sorted.
  - intros x y X. rewrite GT in X. destruct (Z.eqb_spec x pid) as [->|NE].
    + injection X as <-. destruct (C pid p P) as [C1 C2 C3 C4 C5]. split; auto. cbn. discriminate.
    + destruct (C x y X) as [C1 C2 C3 C4 C5]. split; auto. intros r0 R0. destruct (C5 r0 R0) as [Q1 Q2 Q3 Q4 Q5 Q6 Q7]. split; auto.
      intros tid t T. destruct (Q7 tid t T) as [T1 T2 T3]. split; auto.
      intros _. apply T3. apply NC. exact NE.
  - intros x y X. rewrite GT in X.
    assert (Y : exists y0, get x (h_procs h) = Some y0 /\ p_par y = p_par y0).
    { destruct (Z.eqb_spec x pid) as [->|NE]; [|eauto]. injection X as <-. exists p. auto. }
    destruct Y as (y0 & Y & ->). destruct (D x y0 Y) as [|(D1 & [(r0 & D2)|D2])]; [auto| |discriminate D2]. right. split; [exact D1|].
    rewrite RN. cbn [is_ex]. destruct (Z.eqb_spec (p_par y0) pid) as [->|NE]; [rewrite Z.eqb_refl; auto|left; eauto].
  - discriminate.
  - intros x r0 tid R0 IN. rewrite RN in R0. destruct (Z.eqb_spec x pid); [discriminate R0|]. destruct (F x r0 tid R0 IN) as [|X]; auto. right.
    rewrite GT. destruct (Z.eqb_spec tid pid) as [->|]; [congruence|exact X].
  - intros p1 r1 p2 r2 tid R1 R2. rewrite RN in R1, R2. destruct (p1 =? pid); [discriminate R1|]. destruct (p2 =? pid); [discriminate R2|]. eauto.
  - intros p1 x1 p2 x2 X1 X2. rewrite GT in X1, X2. destruct (Z.eqb_spec p1 pid) as [->|N1], (Z.eqb_spec p2 pid) as [->|N2].
    + congruence.
    + injection X1 as <-. cbn. intros; eapply H; eauto.
    + injection X2 as <-. cbn. intros; eapply H; eauto.
    + intros; eapply H; eauto.
  - intros p1 x1 p2 x2 X1 X2. rewrite GT in X1, X2. destruct (Z.eqb_spec p1 pid) as [->|N1], (Z.eqb_spec p2 pid) as [->|N2].
    + congruence.
    + injection X1 as <-. cbn. intros; eapply I; eauto.
    + injection X2 as <-. cbn. intros; eapply I; eauto.
    + intros; eapply I; eauto.
  - intros q tid c BL _ TR z y X ZB EX WN.
    assert (BL0 : blk h q tid c /\ q <> pid).
    { destruct BL as (t & T & ST). apply thr_of_get in T as (r0 & R0 & T). rewrite RN in R0. destruct (Z.eqb_spec q pid); [discriminate R0|].
      split; [|assumption]. exists t. split; [apply thr_of_get; eauto|exact ST]. }
    destruct BL0 as (BL0 & NQ). rewrite GT in X. destruct (Z.eqb_spec z pid) as [->|NE]; [|eapply J; eauto]. injection X as <-.
    assert (PQ : p_par p = q).
    { unfold wants, wmatches in WN. cbn [p_par set_pst] in WN. destruct (c_call c); try discriminate WN.
      - destruct (pid0 =? -1); [|destruct (0 <? pid0); [|discriminate WN]]; apply Bool.andb_true_iff in WN as [WN _]; apply Bool.andb_true_iff in WN as [WN _]; lia.
      - destruct which; try discriminate WN; apply Bool.andb_true_iff in WN as [_ WN]; apply Bool.andb_true_iff in WN as [WN _]; apply Bool.andb_true_iff in WN as [WN _]; lia. }
    subst q. eapply WK; eauto.
  - intros x r0 R0. rewrite RN in R0. destruct (Z.eqb_spec x pid); [discriminate R0|]. destruct (K x r0 R0) as [Q1 Q2].
    split; intros; cbn; (destruct (Z.eqb_spec x pid); [contradiction|]); auto.
  - intros d sig LE. cbn. destruct (pid_of d =? pid); [reflexivity|]. apply M. exact LE.
  - intros x. cbn [lnote snd]. rewrite !O, GT, P. destruct (Z.eqb_spec x pid) as [->|NE].
    + cbn [is_ex p_par set_pst st_of p_st]. destruct (Z.eqb_spec pid (p_par p)); [congruence|]. reflexivity.
    + destruct (get x (h_procs h)) as [y|]; [|reflexivity]. cbn [is_ex]. rewrite (Z.eqb_sym pid). reflexivity.
Qed.

Lemma good_reparent L S l h pid c p : Good L (Some pid) None S l h -> get c (h_procs h) = Some p -> p_par p = pid -> pid <> INIT ->
  Good L (Some pid) None S l (put_proc h c (set_par p INIT)).
Proof.
  intros GD P PP NI. pose proof GD as [A B TK C D E F G H I J K M N O].
  set (h' := put_proc h c (set_par p INIT)).
  assert (GT : forall x, get x (h_procs h') = if x =? c then Some (set_par p INIT) else get x (h_procs h)) by (intros; apply get_put_proc).
  assert (RN : forall x, run_of h' x = run_of h x).
  { intros x. unfold h'. rewrite run_of_put_proc. destruct (Z.eqb_spec x c) as [->|]; [|reflexivity]. unfold run_of. now rewrite P. }
  assert (TN : forall x y, thr_of h' x y = thr_of h x y) by (intros; unfold thr_of; now rewrite RN).
  split; auto.
  - cbn. now apply bput_sorted.
  - intros x y X. rewrite GT in X. destruct (Z.eqb_spec x c) as [->|NE]; [|auto]. injection X as <-. destruct (C c p P). split; auto.
  - intros x y X. rewrite GT in X. rewrite RN. destruct (Z.eqb_spec x c) as [->|NE]; [|auto]. injection X as <-. auto.
  - discriminate.
  - intros x r tid R IN. rewrite RN in R. destruct (F x r tid R IN) as [|X]; auto. right. rewrite GT. destruct (Z.eqb_spec tid c) as [->|]; [congruence|exact X].
  - intros p1 r1 p2 r2 tid R1 R2. rewrite RN in R1, R2. eauto.
  - intros p1 x1 p2 x2 X1 X2. rewrite GT in X1, X2. destruct (Z.eqb_spec p1 c) as [->|N1], (Z.eqb_spec p2 c) as [->|N2].
    + congruence.
    + injection X1 as <-. cbn. intros; eapply H; eauto.
    + injection X2 as <-. cbn. intros; eapply H; eauto.
    + intros; eapply H; eauto.
  - intros p1 x1 p2 x2 X1 X2. rewrite GT in X1, X2. destruct (Z.eqb_spec p1 c) as [->|N1], (Z.eqb_spec p2 c) as [->|N2].
    + congruence.
    + injection X1 as <-. cbn. intros; eapply I; eauto.
    + injection X2 as <-. cbn. intros; eapply I; eauto.
    + intros; eapply I; eauto.
  - intros q tid cc (t & T & ST) NC TR z y X ZB EX WN. rewrite TN in T. rewrite GT in X. destruct (Z.eqb_spec z c) as [->|NE].
    + exfalso. injection X as <-. assert (PQ : q = INIT).
      { unfold wants, wmatches in WN. cbn [p_par set_par] in WN. destruct (c_call cc); try discriminate WN.
        - destruct (pid0 =? -1); [|destruct (0 <? pid0); [|discriminate WN]]; apply Bool.andb_true_iff in WN as [WN _]; apply Bool.andb_true_iff in WN as [WN _]; lia.
        - destruct which; try discriminate WN; apply Bool.andb_true_iff in WN as [_ WN]; apply Bool.andb_true_iff in WN as [WN _]; apply Bool.andb_true_iff in WN as [WN _]; lia. }
      apply thr_of_get in T as (r & R & _). apply run_of_get in R as (x & X & _). rewrite PQ, (good_no_init _ _ _ _ _ _ GD) in X. discriminate X.
    + eapply (J q tid cc); eauto. exists t. auto.
  - intros x r R. rewrite RN in R. auto.
  - intros x. rewrite GT. destruct (Z.eqb_spec x c) as [->|NE]; [|apply O]. rewrite O, P. cbn [is_ex p_par set_par]. rewrite PP, Z.eqb_refl.
    destruct (Z.eqb_spec pid INIT); [contradiction|reflexivity].
Qed.

Lemma good_free L ex cu S l h z p s : Good L ex cu S l h -> get z (h_procs h) = Some p -> p_st p = PZom s ->
  (forall x y, get x (h_procs h) = Some y -> p_par y <> z) ->
  lmay l (OFreed z) /\ Good L ex cu S (lnote l (OFreed z)) (del_proc h z).
Proof.
  intros GD P ZS NC. pose proof GD as [A B TK C D E F G H I J K M N O].
  split. { cbn. rewrite O, P. eexists; eexists. unfold st_of. rewrite ZS. reflexivity. }
  set (h' := del_proc h z).
  assert (GT : forall x, get x (h_procs h') = if x =? z then None else get x (h_procs h)).
  { intros x. cbn [h' h_procs del_proc set_procs]. rewrite get_del. reflexivity. }
  assert (GS : forall x y, get x (h_procs h') = Some y -> get x (h_procs h) = Some y).
  { intros x y. rewrite GT. destruct (x =? z); [discriminate|auto]. }
  assert (RN : forall x, run_of h' x = run_of h x).
  { intros x. unfold run_of. rewrite GT. destruct (Z.eqb_spec x z) as [->|]; [|reflexivity]. now rewrite P, ZS. }
  assert (TN : forall x y, thr_of h' x y = thr_of h x y) by (intros; unfold thr_of; now rewrite RN).
  split; auto.
  - cbn. now apply del_sorted.
  - intros x y X. rewrite RN. auto.
  - intros EX x y X. apply (E EX x y). auto.
  - intros x r tid R IN. rewrite RN in R. destruct (F x r tid R IN) as [|X]; auto. right. rewrite GT. destruct (tid =? z); auto.
  - intros p1 r1 p2 r2 tid R1 R2. rewrite RN in R1, R2. eauto.
  - intros p1 x1 p2 x2 X1 X2. eauto.
  - intros p1 x1 p2 x2 X1 X2. eauto.
  - intros q tid cc (t & T & ST) NCC TR x y X. rewrite TN in T. eapply (J q tid cc); eauto. exists t. auto.
  - intros x r R. rewrite RN in R. auto.
  - intros x. cbn [lnote snd]. rewrite GT, O. destruct (x =? z); reflexivity.
Qed.

(** ** Orphans *)
Definition okin (pid : Z) (h h' : host) : Prop :=
  h_next h' = h_next h /\ h_cid h' = h_cid h /\ h_cur h' = h_cur h /\
  forall x, match get x (h_procs h), get x (h_procs h') with
            | Some p, Some p' => (p_par p' = p_par p \/ p_par p = pid /\ p_par p' = INIT) /\ is_zombie p' = is_zombie p
            | None, None => True
            | _, _ => False
            end.
Lemma okin_refl pid h : okin pid h h.
Proof. unfold okin. do 3 (split; [reflexivity|]). intros x. destruct (get x (h_procs h)); auto. Qed.
Lemma okin_trans pid a b c : pid <> INIT -> okin pid a b -> okin pid b c -> okin pid a c.
Proof.
  intros NI (A1 & A2 & A3 & A4) (B1 & B2 & B3 & B4). unfold okin. do 3 (split; [congruence|]). intros x. specialize (A4 x). specialize (B4 x).
  destruct (get x (h_procs a)), (get x (h_procs b)), (get x (h_procs c)); try contradiction; auto.
  destruct A4 as [A4 A5], B4 as [B4 B5]. split; [|congruence]. destruct A4 as [A4|[A4 A6]], B4 as [B4|[B4 B6]].
  - left. congruence.
  - right. split; congruence.
  - right. split; congruence.
  - congruence.
Qed.
Lemma kin_okin pid h h' : kin h h' -> okin pid h h'.
Proof.
  intros (A1 & A2 & A3 & A4). unfold okin. do 3 (split; [assumption|]). intros x. specialize (A4 x).
  destruct (get x (h_procs h)), (get x (h_procs h')); try contradiction; auto. destruct A4 as (B1 & _ & _ & _ & _ & B). split; [auto|].
  unfold is_zombie. destruct (p_st p), (p_st p0); try contradiction; reflexivity.
Qed.

Lemma obeys_app o1 : forall S o2, obeys S (o1 ++ o2) <-> obeys S o1 /\ obeys (after S o1) o2.
Proof. induction o1 as [|x o1 IH]; intros S o2; cbn; [tauto|]. rewrite IH. unfold after. cbn. tauto. Qed.
Lemma after_app S o1 o2 : after S (o1 ++ o2) = after (after S o1) o2.
Proof. unfold after. apply fold_left_app. Qed.
Lemma lobeys_app o1 : forall l o2, lobeys l (o1 ++ o2) <-> lobeys l o1 /\ lobeys (lafter l o1) o2.
Proof. induction o1 as [|x o1 IH]; intros S o2; cbn; [tauto|]. rewrite IH. unfold lafter. cbn. tauto. Qed.
Lemma lafter_app l o1 o2 : lafter l (o1 ++ o2) = lafter (lafter l o1) o2.
Proof. unfold lafter. apply fold_left_app. Qed.

Lemma orphan_good L S l h o0 pid c h' o : Good L (Some pid) None (after S o0) l h -> obeys S o0 -> quiet o0 -> pid <> INIT ->
  (forall p, get c (h_procs h) = Some p -> p_par p = pid) ->
  orphan pid (h, o0) c = Some (h', o) ->
  Good L (Some pid) None (after S o) l h' /\ obeys S o /\ quiet o /\ okin pid h h' /\
  (forall p, get c (h_procs h') = Some p -> p_par p = INIT).
Proof.
  intros GD OB QU NI PC. unfold orphan. destruct (get c (h_procs h)) as [p|] eqn:P.
  2:{ intros [= <- <-]. do 3 (split; [assumption|]). split; [apply okin_refl|]. intros p X. congruence. }
  match goal with |- obind ?x _ = _ -> _ => destruct x as [[h1 o1]|] eqn:SR; [|discriminate] end. cbn.
  assert (X : obeys (after S o0) o1 /\ Good L (Some pid) None (after (after S o0) o1) l h1 /\ kin h h1 /\ quiet o1).
  { destruct (p_pdeath p) as [s|] eqn:PD.
    - refine (proj1 (conj (signal_run_good _ _ _ _ _ _ _ _ _ _ _ _ GD _ _ SR) Logic.I)); [|intros q E; discriminate E]. cbn. destruct (g_proc _ _ _ _ _ _ GD c p P). auto.
    - injection SR as <- <-. split; [cbn; auto|]. split; [exact GD|]. split; [apply kin_refl|apply quiet_nil]. }
  destruct X as (X1 & X2 & X3 & X4). destruct (kin_get _ _ _ _ X3 P) as (p1 & P1 & PK). rewrite P1. intros [= <- <-].
  destruct PK as (PK & _). rewrite (PC p eq_refl) in PK.
  split; [|split; [|split; [|split]]].
  - rewrite after_app. apply good_reparent; auto.
  - apply obeys_app. auto.
  - apply quiet_app; auto.
  - eapply okin_trans; [exact NI|apply kin_okin; exact X3|]. unfold okin. do 3 (split; [reflexivity|]). intros x. rewrite get_put_proc.
    destruct (Z.eqb_spec x c) as [->|]; [rewrite P1; split; [right; split; [exact PK|reflexivity]|reflexivity]|]. destruct (get x (h_procs h1)); auto.
  - intros q. rewrite get_put_proc, Z.eqb_refl. intros [= <-]. reflexivity.
Qed.

Lemma orphans_good L S l pid cs : forall h o0 h' o, Good L (Some pid) None (after S o0) l h -> obeys S o0 -> quiet o0 -> pid <> INIT ->
  (forall c p, In c cs -> get c (h_procs h) = Some p -> p_par p = pid) -> NoDup cs ->
  orphans pid (h, o0) cs = Some (h', o) ->
  Good L (Some pid) None (after S o) l h' /\ obeys S o /\ quiet o /\ okin pid h h' /\
  (forall c p, In c cs -> get c (h_procs h') = Some p -> p_par p = INIT).
Proof.
  induction cs as [|c cs IH]; intros h o0 h' o GD OB QU NI PC ND; cbn [orphans].
  - intros [= <- <-]. do 3 (split; [assumption|]). split; [apply okin_refl|]. intros c p [].
  - inversion ND as [|? ? NI' ND']; subst.
    destruct (orphan pid (h, o0) c) as [[h1 o1]|] eqn:OE; [|discriminate]. cbn [obind].
    destruct (orphan_good _ _ _ _ _ _ _ _ _ GD OB QU NI (fun p X => PC c p (or_introl eq_refl) X) OE) as (A1 & A2 & A3 & A4 & A5).
    intros E.
    (* the other children are as before *)
    assert (SAME : forall x, x <> c -> forall p1, get x (h_procs h1) = Some p1 -> exists p, get x (h_procs h) = Some p /\ p_par p1 = p_par p).
    { clear IH E A1 A2 A3 A4 A5. intros x NE p1 X1. unfold orphan in OE. destruct (get c (h_procs h)) as [p|] eqn:P; [|injection OE as <- <-; eauto].
      match type of OE with obind ?y _ = _ => destruct y as [[h2 o2]|] eqn:SR; [|discriminate OE] end. cbn in OE.
      assert (K : kin h h2).
      { destruct (p_pdeath p) as [s|] eqn:PD; [|injection SR as <- _; apply kin_refl].
        refine (proj1 (proj2 (proj2 (signal_run_good _ _ _ _ _ _ _ _ _ _ _ _ GD _ _ SR)))); [|intros q E; discriminate E]. cbn. destruct (g_proc _ _ _ _ _ _ GD c p P). auto. }
      destruct (get c (h_procs h2)); injection OE as <- <-.
      - rewrite get_put_proc in X1. destruct (Z.eqb_spec x c); [contradiction|]. destruct (kin_back _ _ _ _ K X1) as (q & Q & QK). exists q. split; [exact Q|apply QK].
      - destruct (kin_back _ _ _ _ K X1) as (q & Q & QK). exists q. split; [exact Q|apply QK]. }
    destruct (IH h1 o1 h' o A1 A2 A3 NI) as (B1 & B2 & B3 & B4 & B5); [|exact ND'|exact E|].
    { intros x p1 IN X1. assert (x <> c) by (intros ->; contradiction). destruct (SAME x H p1 X1) as (p0 & P0 & ->). eapply PC; [right; exact IN|exact P0]. }
    do 3 (split; [assumption|]). split; [eapply okin_trans; eauto|]. intros x p [<-|IN] X; [|eauto].
    destruct B4 as (_ & _ & _ & B4). specialize (B4 c). rewrite X in B4. destruct (get c (h_procs h1)) as [q|] eqn:Q; [|contradiction].
    destruct B4 as [[B4|[_ B4]] _]; [|exact B4]. rewrite B4. eauto.
Qed.

Lemma fold_del_get l : forall h x, get x (h_procs (fold_left del_proc l h)) = if existsb (Z.eqb x) l then None else get x (h_procs h).
Proof.
  induction l as [|z l IH]; intros h x; cbn; [reflexivity|]. rewrite IH. cbn [del_proc h_procs set_procs]. rewrite get_del. cbn.
  destruct (x =? z); cbn; [destruct (existsb (Z.eqb x) l); reflexivity|reflexivity].
Qed.

Lemma frees_good L ex S zs : forall l h, Good L ex None S l h -> NoDup zs ->
  (forall z, In z zs -> exists p s, get z (h_procs h) = Some p /\ p_st p = PZom s) ->
  (forall z x y, In z zs -> get x (h_procs h) = Some y -> p_par y <> z) ->
  lobeys l (map OFreed zs) /\ Good L ex None S (lafter l (map OFreed zs)) (fold_left del_proc zs h).
Proof.
  induction zs as [|z zs IH]; intros l h GD ND ZZ NP; cbn; [auto|]. inversion ND as [|? ? NI ND']; subst.
  destruct (ZZ z (or_introl eq_refl)) as (p & s & P & PS).
  destruct (good_free _ _ _ _ _ _ _ _ _ GD P PS) as [F1 F2]; [intros x y X; apply (NP z x y); [left; reflexivity|exact X]|].
  assert (GT : forall x, get x (h_procs (del_proc h z)) = if x =? z then None else get x (h_procs h)).
  { intros x. cbn [h_procs del_proc set_procs]. rewrite get_del. reflexivity. }
  destruct (IH (lnote l (OFreed z)) (del_proc h z) F2 ND') as [B1 B2].
  - intros y Y. rewrite GT. destruct (Z.eqb_spec y z) as [->|]; [contradiction|]. apply ZZ. right. exact Y.
  - intros y x w Y X. rewrite GT in X. destruct (x =? z); [discriminate X|]. apply (NP y x w); [right; exact Y|exact X].
  - split; [split; [exact F1|exact B1]|exact B2].
Qed.

Lemma after_frees S zs : after S (map OFreed zs) = S.
Proof. induction zs; cbn; auto. Qed.
Lemma obeys_frees S zs : obeys S (map OFreed zs).
Proof. induction zs; cbn; auto. Qed.

Lemma good_unex L pid cu S l h : Good L (Some pid) cu S l h -> (forall x p, get x (h_procs h) = Some p -> p_par p <> pid) ->
  (forall x p, get x (h_procs h) = Some p -> is_zombie p = true -> p_par p <> INIT) -> Good L None cu S l h.
Proof.
  intros GD NP NZ. pose proof GD as [A B TK C D E F G H I J K M N O]. split; auto.
  - intros x p X. destruct (D x p X) as [|(D1 & [D2|D2])]; auto. exfalso. cbn in D2. apply (NP x p X). lia.
  - intros x. rewrite O. destruct (get x (h_procs h)) as [p|] eqn:P; [|reflexivity]. cbn. specialize (NP x p P). destruct (Z.eqb_spec pid (p_par p)); [congruence|reflexivity].
Qed.

Lemma children_in h pid c : bsorted (h_procs h) -> (In c (children h pid) <-> exists p, get c (h_procs h) = Some p /\ p_par p = pid).
Proof.
  intros SO. unfold children. rewrite in_map_iff. split.
  - intros ([x p] & <- & IN). apply filter_In in IN as [IN E]. cbn in *. exists p. split; [apply in_get; [apply bsorted_nodup; exact SO|exact IN]|lia].
  - intros (p & P & E). exists (c, p). split; [reflexivity|]. apply filter_In. split; [apply get_in; exact P|cbn; lia].
Qed.
Lemma children_nodup h pid : bsorted (h_procs h) -> NoDup (children h pid).
Proof.
  intros SO. apply bsorted_nodup in SO. unfold children, keys in *. induction (h_procs h) as [|[x p] ps IH]; cbn; [constructor|].
  inversion SO as [|? ? NI ND]; subst. cbn. destruct (p_par p =? pid); cbn; [|auto]. constructor; [|auto]. intros IN. apply NI.
  apply in_map_iff in IN as (e & <- & IN). apply filter_In in IN as [IN _]. apply in_map. exact IN.
Qed.

(** Observations in which no call is made. *)
Definition silent (o : list obs) : Prop := forall x, In x o -> match x with OCall _ _ _ => False | _ => True end.
Lemma silent_app a b : silent a -> silent b -> silent (a ++ b).
Proof. intros A B x IN. apply in_app_or in IN as [IN|IN]; [apply A; exact IN|apply B; exact IN]. Qed.
Lemma quiet_silent o : quiet o -> silent o.
Proof. intros Q x IN. apply Q in IN. destruct x; auto. Qed.

Lemma end_good L cu S l h pid s h' o r : Good L None cu S l h -> run_of h pid = Some r ->
  (forall q x, cu = Some (q, x) -> q = pid) -> end_process h pid s = Some (h', o) ->
  obeys S o /\ lobeys l o /\ Good L None None (after S o) (lafter l o) h' /\ h_cur h' = None /\ silent o /\
  In (ODied pid s) o /\ run_of h' pid = None.
Proof.
  intros GD R CU. unfold end_process.
  assert (GD0 : Good L None cu S l (set_cur h None)) by (apply good_cur; exact GD).
  apply run_of_get in R as (p & P & R).
  destruct (notify_parent (set_cur h None) pid s) as [[h1 o1]|] eqn:NP; [|discriminate]. cbn [obind].
  destruct (notify_good _ _ _ _ _ _ _ _ _ _ _ GD0 P NP) as (A1 & A2 & A3 & A4 & A5).
  destruct (kin_get _ _ _ _ A3 P) as (p1 & P1 & (E1 & E2 & E3 & E4 & E5 & E6)). rewrite P1. cbn [obind].
  rewrite R in E6. destruct (p_st p1) as [r1|] eqn:R1; [|contradiction].
  destruct (g_proc _ _ _ _ _ _ GD pid p P) as [[PG _] _ _ _ _].
  set (p2 := set_pst p1 (PZom s)). set (h2 := put_proc h1 pid p2).
  assert (G2 : Good L (Some pid) None (note (after S o1) (ODied pid s)) (lnote l (ODied pid s)) h2).
  { eapply good_zombie; eauto. rewrite E1, E4. exact A5. }
  assert (P2 : get pid (h_procs h2) = Some p2) by (unfold h2; rewrite get_put_proc, Z.eqb_refl; reflexivity).
  destruct (has_reaper h2 p2) as [reaped|] eqn:HR; [|discriminate]. cbn [obind].
  set (cs := children h2 pid).
  assert (SO2 := g_sorted _ _ _ _ _ _ G2).
  destruct (orphans pid (h2, []) cs) as [[h3 o2]|] eqn:OR; [|discriminate]. cbn [obind].
  assert (NI : pid <> INIT) by (unfold INIT; lia).
  assert (CHP : forall c p, In c cs -> get c (h_procs h2) = Some p -> p_par p = pid).
  { intros c q IN Q. apply children_in in IN as (q' & Q' & X); [congruence|exact SO2]. }
  destruct (orphans_good L (note (after S o1) (ODied pid s)) (lnote l (ODied pid s)) pid cs h2 [] h3 o2 G2 Logic.I quiet_nil NI CHP (children_nodup _ _ SO2) OR)
    as (B1 & B2 & B3 & B4 & B5).
  set (fz := fun c => match get c (h_procs h3) with Some p => is_zombie p | None => false end).
  set (zs := filter fz cs ++ (if reaped then [] else [pid])).
  unfold free_zombies. cbn [fst snd]. intros [= <- <-].
  (* what remains of the children *)
  assert (NOPAR : forall x y, get x (h_procs h3) = Some y -> p_par y <> pid).
  { intros x y Y EQ. destruct B4 as (_ & _ & _ & B4). specialize (B4 x). rewrite Y in B4. destruct (get x (h_procs h2)) as [q|] eqn:Q; [|contradiction].
    destruct B4 as [[B4|[_ B4]] _]; [|unfold INIT in *; lia]. assert (IN : In x cs) by (apply children_in; [exact SO2|exists q; split; [exact Q|congruence]]).
    specialize (B5 x y IN Y). lia. }
  assert (PIDZ : exists q s', get pid (h_procs h3) = Some q /\ p_st q = PZom s').
  { destruct B4 as (_ & _ & _ & B4). specialize (B4 pid). rewrite P2 in B4. destruct (get pid (h_procs h3)) as [q|]; [|contradiction].
    destruct B4 as [_ B4]. exists q. unfold is_zombie in B4. cbn in B4. destruct (p_st q) as [|s']; [discriminate B4|]. eauto. }
  assert (ZIN : forall z, In z zs -> exists q s', get z (h_procs h3) = Some q /\ p_st q = PZom s').
  { intros z IN. apply in_app_or in IN as [IN|IN].
    - apply filter_In in IN as [_ IN]. unfold fz in IN. destruct (get z (h_procs h3)) as [q|]; [|discriminate IN]. unfold is_zombie in IN.
      destruct (p_st q) as [|s'] eqn:X; [discriminate IN|]. eauto.
    - destruct reaped; [destruct IN|]. destruct IN as [<-|[]]. exact PIDZ. }
  assert (PN : p_par p2 <> pid).
  { cbn. destruct (g_par _ _ _ _ _ _ A2 pid p1 P1) as [->|(X & _)]; [auto|lia]. }
  assert (ND : NoDup zs).
  { assert (NDC := children_nodup h2 pid SO2). fold cs in NDC. unfold zs. destruct reaped; [rewrite app_nil_r; apply NoDup_filter; exact NDC|].
    assert (NF : NoDup (filter fz cs)) by (apply NoDup_filter; exact NDC).
    assert (NX : ~ In pid (filter fz cs)).
    { intros IN. apply filter_In in IN as [IN _]. apply children_in in IN as (q & Q & X); [|exact SO2]. rewrite P2 in Q. injection Q as <-. contradiction. }
    clear - NF NX. induction (filter fz cs) as [|y ys IH]; cbn; [constructor; [auto|constructor]|]. inversion NF; subst. constructor.
    - intros IN. apply in_app_or in IN as [IN|[->|[]]]; [contradiction|]. apply NX. left. reflexivity.
    - apply IH; auto. intros IN. apply NX. right. exact IN. }
  assert (CHILDLESS : forall z x y, In z zs -> get x (h_procs h3) = Some y -> p_par y <> z).
  { intros z x y IN Y EQ. destruct (ZIN z IN) as (q & s' & Q & QS). destruct (g_par _ _ _ _ _ _ B1 x y Y) as [X|(_ & [(rr & RR)|X])].
    - rewrite X in EQ. subst z. rewrite (good_no_init _ _ _ _ _ _ B1) in Q. discriminate Q.
    - rewrite EQ in RR. apply run_of_get in RR as (qq & QQ & RR). congruence.
    - cbn in X. apply (NOPAR x y Y). lia. }
  destruct (frees_good L (Some pid) _ zs _ h3 B1 ND ZIN CHILDLESS) as [C1 C2].
  destruct (quiet_life o1 l A4) as [Q1 Q1']. destruct (quiet_life o2 (lnote l (ODied pid s)) B3) as [Q2 Q2'].
  set (h4 := fold_left del_proc zs h3) in *.
  assert (GT4 : forall x y, get x (h_procs h4) = Some y -> get x (h_procs h3) = Some y /\ ~ In x zs).
  { intros x y Y. unfold h4 in Y. rewrite fold_del_get in Y. destruct (existsb (Z.eqb x) zs) eqn:EX; [discriminate Y|]. split; [exact Y|].
    intros IN. assert (X : existsb (Z.eqb x) zs = true) by (apply existsb_exists; exists x; split; [exact IN|apply Z.eqb_refl]). congruence. }
  assert (ALL : after S (o1 ++ ODied pid s :: o2 ++ map OFreed zs) = after (note (after S o1) (ODied pid s)) o2).
  { rewrite after_app. change (ODied pid s :: o2 ++ map OFreed zs) with ([ODied pid s] ++ (o2 ++ map OFreed zs)). rewrite after_app.
    rewrite after_app, after_frees. reflexivity. }
  assert (LALL : lafter l (o1 ++ ODied pid s :: o2 ++ map OFreed zs) = lafter (lnote l (ODied pid s)) (map OFreed zs)).
  { rewrite lafter_app, Q1'. change (ODied pid s :: o2 ++ map OFreed zs) with ([ODied pid s] ++ (o2 ++ map OFreed zs)). rewrite lafter_app.
    rewrite lafter_app. cbn [lafter fold_left]. fold (lafter (lnote l (ODied pid s)) o2). rewrite Q2'. reflexivity. }
  split; [|split; [|split; [|split; [|split; [|split]]]]].
  - apply obeys_app. split; [exact A1|]. cbn. split; [exact I|]. apply obeys_app. split; [exact B2|apply obeys_frees].
  - apply lobeys_app. rewrite Q1'. split; [exact Q1|]. cbn [app lobeys]. split.
    + cbn. rewrite (g_life _ _ _ _ _ _ A2), P1. unfold st_of. rewrite R1. eauto.
    + apply lobeys_app. rewrite Q2'. auto.
  - cbn [app]. rewrite ALL, LALL. eapply good_unex; [exact C2| |].
    + intros x y Y. apply GT4 in Y as [Y _]. eauto.
    + intros x y Y ZB EQ. apply GT4 in Y as [Y NZ]. apply NZ. unfold zs. apply in_or_app.
      pose proof B4 as (_ & _ & _ & B4'). specialize (B4' x). rewrite Y in B4'. destruct (get x (h_procs h2)) as [q|] eqn:Q; [|contradiction].
      destruct B4' as [B4' B4z]. destruct (Z.eq_dec x pid) as [->|NX].
      * right. assert (q = p2) by congruence. subst q. destruct B4' as [B4'|[B4' _]]; [|contradiction].
        unfold has_reaper in HR. rewrite <- B4', EQ in HR. rewrite Z.eqb_refl in HR. injection HR as <-. left. reflexivity.
      * left. apply filter_In. destruct B4' as [B4'|[B4' _]].
        -- exfalso. unfold h2 in Q. rewrite get_put_proc in Q. destruct (Z.eqb_spec x pid); [contradiction|].
           eapply (g_zpar _ _ _ _ _ _ A2 eq_refl x q Q); congruence.
        -- split; [apply children_in; [exact SO2|eauto]|]. unfold fz. rewrite Y. exact ZB.
  - assert (X : forall zs h, h_cur (fold_left del_proc zs h) = h_cur h) by (induction zs0 as [|z0 zs0 IHz]; intros h0; cbn; [reflexivity|rewrite IHz; reflexivity]).
    unfold h4. rewrite X. destruct B4 as (_ & _ & B4 & _). rewrite B4. unfold h2. cbn. destruct A3 as (_ & _ & A3 & _). exact A3.
  - apply silent_app; [apply quiet_silent; exact A4|]. apply (silent_app [ODied pid s]); [intros x [<-|[]]; exact I|].
    apply silent_app; [apply quiet_silent; exact B3|]. intros x IN. apply in_map_iff in IN as (z & <- & _). exact I.
  - apply in_or_app. right. left. reflexivity.
  - unfold run_of. destruct (get pid (h_procs h4)) as [y|] eqn:Y; [|reflexivity]. apply GT4 in Y as [Y _].
    destruct PIDZ as (q & s' & Q & QS). assert (q = y) by congruence. subst q. now rewrite QS.
Qed.
