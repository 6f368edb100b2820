(** Every step keeps the invariant. *)
From Verif Require Import Base FMap BTree ProcModel ProcSpec ProcBits ProcInv ProcSig ProcEnd ProcCall.

Lemma keeps_refl cu pid p : keeps cu pid p p.
Proof.
  unfold keeps. do 3 (split; [reflexivity|]). destruct (p_st p) as [r|s]; [|auto]. split; [auto|]. intros tid t c T ST _. exists t, c. auto.
Qed.

Lemma runs_kin h h' pid tid : kin h h' -> runs h pid tid -> runs h' pid tid.
Proof.
  intros K (t & T & ST). apply thr_of_get in T as (r & R & T). destruct (kin_run _ _ _ _ K R) as (r' & R' & (_ & _ & _ & _ & KT)).
  destruct (KT tid t T) as (t' & T' & _ & _ & _ & TL). exists t'. split; [apply thr_of_get; eauto|]. unfold tlater in TL. now rewrite ST in TL.
Qed.

(** * Groups and sessions *)
Lemma good_ids L ex cu S l h q p g s : Good L ex cu S l h -> get q (h_procs h) = Some p -> g < h_next h -> (g = INIT -> s = INIT) ->
  (forall x y, x <> q -> get x (h_procs h) = Some y -> p_pgid y = g -> p_sid y = s) ->
  (forall y, g <> q -> get g (h_procs h) = Some y -> p_sid y = s) ->
  (forall x y, x <> q -> get x (h_procs h) = Some y -> p_pgid y = q -> p_sid y = s) ->
  Good L ex cu S l (put_proc h q (set_pgid (set_sid p s) g)).
Proof.
  intros GD P GN GI X1 X2 X3. pose proof GD as [A B TK C D E F G H I J K M N O].
  set (p' := set_pgid (set_sid p s) g). set (h' := put_proc h q p').
  assert (GT : forall x, get x (h_procs h') = if x =? q then Some p' else get x (h_procs h)) by (intros; apply get_put_proc).
  assert (RN : forall x, run_of h' x = run_of h x).
  { intros x. unfold h'. rewrite run_of_put_proc. destruct (Z.eqb_spec x q) as [->|]; [|reflexivity]. unfold run_of. now rewrite P. }
  assert (TN : forall x y, thr_of h' x y = thr_of h x y) by (intros; unfold thr_of; now rewrite RN).
  split; auto.
  - cbn. now apply bput_sorted.
  - intros x y X. rewrite GT in X. destruct (Z.eqb_spec x q) as [->|NE]; [|auto]. injection X as <-. destruct (C q p P). split; auto.
  - intros x y X. rewrite GT in X. rewrite RN. destruct (Z.eqb_spec x q) as [->|NE]; [|auto]. injection X as <-. apply (D q p P).
  - intros EX x y X. rewrite GT in X. destruct (Z.eqb_spec x q) as [->|NE]; [|eauto]. injection X as <-. apply (E EX q p P).
  - intros x r tid R IN. rewrite RN in R. destruct (F x r tid R IN) as [|Y]; auto. right. rewrite GT. destruct (Z.eqb_spec tid q) as [->|]; [congruence|exact Y].
  - intros p1 r1 p2 r2 tid R1 R2. rewrite RN in R1, R2. eauto.
  - intros p1 x1 p2 x2 Y1 Y2. rewrite GT in Y1, Y2. destruct (Z.eqb_spec p1 q) as [->|N1], (Z.eqb_spec p2 q) as [->|N2].
    + congruence.
    + injection Y1 as <-. cbn. intros; symmetry; eauto.
    + injection Y2 as <-. cbn. intros; eauto.
    + intros; eapply H; eauto.
  - intros p1 x1 p2 x2 Y1 Y2. rewrite GT in Y1, Y2. destruct (Z.eqb_spec p1 q) as [->|N1], (Z.eqb_spec p2 q) as [->|N2].
    + congruence.
    + injection Y1 as <-. cbn. intros ->. symmetry. eauto.
    + injection Y2 as <-. cbn. intros; eauto.
    + intros; eapply I; eauto.
  - intros x tid c (t & T & ST) NC TR z y X ZB EX WN. rewrite TN in T. rewrite GT in X. destruct (Z.eqb_spec z q) as [->|NE].
    + injection X as <-. eapply (J x tid c); eauto. exists t. auto.
    + eapply (J x tid c); eauto. exists t. auto.
  - intros x r R. rewrite RN in R. auto.
  - intros x. rewrite GT. destruct (Z.eqb_spec x q) as [->|NE]; [|apply O]. rewrite O, P. reflexivity.
Qed.

Lemma group_some h g s : bsorted (h_procs h) -> sid_of_group h g = Some s -> exists x y, get x (h_procs h) = Some y /\ p_pgid y = g /\ p_sid y = s.
Proof.
  intros SO. unfold sid_of_group. destruct (find _ (h_procs h)) as [[x y]|] eqn:F; [|discriminate]. intros [= <-].
  apply find_some in F as [IN E]. cbn in E. exists x, y. split; [apply in_get; [apply bsorted_nodup; exact SO|exact IN]|]. split; [lia|reflexivity].
Qed.
Lemma group_none h g x y : sid_of_group h g = None -> get x (h_procs h) = Some y -> p_pgid y <> g.
Proof.
  unfold sid_of_group. destruct (find _ (h_procs h)) as [e|] eqn:F; [discriminate|]. intros _ G E. apply get_in in G.
  pose proof (find_none _ _ F _ G) as N. cbn in N. lia.
Qed.

(** * The handlers *)
Definition handled (L : Z -> bool) (S : pendings) (l : lives) (h : host) (pid tid : Z) (c : call) (h' : host) (o : list obs) (res : hres) : Prop :=
  obeys S o /\ lobeys l o /\ silent o /\ Good L None (Some (pid, tid)) (after S o) (lafter l o) h' /\ runs h' pid tid /\
  h_cur h' = h_cur h /\
  match res with
  | RBlock TrChild _ => forall z p, get z (h_procs h') = Some p -> is_zombie p = true -> wants pid c z p = false
  | _ => True
  end.

Section handlers.
  Variables (L : Z -> bool) (S : pendings) (l : lives) (h : host) (pid tid : Z).
  Hypothesis GD : Good L None (Some (pid, tid)) S l h.
  Hypothesis RU : runs h pid tid.

  Lemma handled_same c res : match res with RBlock TrChild _ => False | _ => True end -> handled L S l h pid tid c h [] res.
  Proof.
    intros N. unfold handled. cbn. do 2 (split; [exact I|]). split; [intros x []|]. do 3 (split; [auto|]).
    destruct res as [| [| |]| |]; auto. contradiction.
  Qed.

  Lemma handled_kin c h' o res : obeys S o /\ Good L None (Some (pid, tid)) (after S o) l h' /\ kin h h' /\ quiet o ->
    match res with RBlock TrChild _ => False | _ => True end -> handled L S l h pid tid c h' o res.
  Proof.
    intros (A1 & A2 & A3 & A4) N. destruct (quiet_life o l A4) as [Q1 Q2]. unfold handled. rewrite Q2. split; [exact A1|]. split; [exact Q1|].
    split; [apply quiet_silent; exact A4|]. split; [exact A2|]. split; [eapply runs_kin; eauto|]. split; [apply A3|].
    destruct res as [| [| |]| |]; auto. contradiction.
  Qed.

  Lemma me_proc : exists p r t, get pid (h_procs h) = Some p /\ p_st p = PRun r /\ run_of h pid = Some r /\ get tid (n_thr r) = Some t /\
    thr_of h pid tid = Some t /\ t_st t = TRun.
  Proof.
    destruct RU as (t & T & ST). pose proof T as T0. apply thr_of_get in T as (r & R & T). pose proof R as R0. apply run_of_get in R as (p & P & R).
    exists p, r, t. auto 10.
  Qed.

  Lemma handled_thr c t' res : (forall t, thr_of h pid tid = Some t -> t_st t' = TRun /\ t_pend t' = t_pend t /\ t_infos t' = t_infos t) ->
    match res with RBlock TrChild _ => False | _ => True end -> handled L S l h pid tid c (put_thr h pid tid t') [] res.
  Proof.
    intros E N. destruct me_proc as (p & r & t & P & R & R0 & T & T0 & ST). destruct (E t T0) as (E1 & E2 & E3).
    unfold handled. cbn. do 2 (split; [exact I|]). split; [intros x []|].
    split; [eapply good_self_same; eauto; intros c0 X; congruence|]. split; [exists t'; split; [eapply thr_put_thr; eauto|exact E1]|].
    split; [apply (put_thr_rest h pid tid t')|]. destruct res as [| [| |]| |]; auto. contradiction.
  Qed.

  Lemma handled_proc c q p' res : Good L None (Some (pid, tid)) S l (put_proc h q p') ->
    (forall p, get q (h_procs h) = Some p -> p_st p' = p_st p) -> get q (h_procs h) <> None ->
    match res with RBlock TrChild _ => False | _ => True end -> handled L S l h pid tid c (put_proc h q p') [] res.
  Proof.
    intros G E NN N. unfold handled. cbn. do 2 (split; [exact I|]). split; [intros x []|]. split; [exact G|]. split.
    - destruct RU as (t & T & ST). exists t. split; [|exact ST]. unfold thr_of in *. rewrite run_of_put_proc. destruct (Z.eqb_spec pid q) as [<-|]; [|exact T].
      destruct (get pid (h_procs h)) as [p|] eqn:P; [|contradiction]. rewrite (E p eq_refl). unfold run_of in T. rewrite P in T. exact T.
    - split; [reflexivity|]. destruct res as [| [| |]| |]; auto. contradiction.
  Qed.

  Lemma kill_good c p s h' o res : do_kill h (pid, tid) p s = Some (h', o, res) -> handled L S l h pid tid c h' o res.
  Proof.
    unfold do_kill. destruct (p =? -1); [intros [= <- <- <-]; now apply handled_same|]. destruct (p =? I32_MIN); [intros [= <- <- <-]; now apply handled_same|].
    set (target := if p =? 0 then fst (pid, tid) else if p <? -1 then - p else p).
    destruct (get target (h_procs h)); [|intros [= <- <- <-]; now apply handled_same]. unfold signal_process.
    destruct (s =? 0); [intros [= <- <- <-]; now apply handled_same|]. destruct (is_sig s) eqn:IS; cbn; [|intros [= <- <- <-]; now apply handled_same].
    destruct (is_rt s); [intros [= <- <- <-]; now apply handled_same|].
    destruct (signal_run h None target (Some (pid, tid)) (mkInfo s (SiUser pid))) as [[h1 o1]|] eqn:SR; [|discriminate]. cbn. intros [= <- <- <-].
    apply handled_kin; [|exact I]. refine (signal_run_good _ _ _ _ _ _ _ _ _ _ _ _ GD _ _ SR); [exact IS|]. intros q [= <-]. reflexivity.
  Qed.

  Lemma tkill_good c g x s h' o res : do_tkill h (pid, tid) g x s = Some (h', o, res) -> handled L S l h pid tid c h' o res.
  Proof.
    unfold do_tkill. match goal with |- (if ?b then _ else _) = _ -> _ => destruct b end; [intros [= <- <- <-]; now apply handled_same|].
    destruct (find_thread (h_procs h) x) as [[q t]|] eqn:F; [|intros [= <- <- <-]; now apply handled_same].
    match goal with |- (if ?b then _ else _) = _ -> _ => destruct b end; [intros [= <- <- <-]; now apply handled_same|].
    destruct (s =? 0); [intros [= <- <- <-]; now apply handled_same|]. destruct (is_sig s) eqn:IS; cbn; [|intros [= <- <- <-]; now apply handled_same].
    destruct (is_rt s); [intros [= <- <- <-]; now apply handled_same|].
    destruct (signal_thread h (pid, tid) q x (mkInfo s (SiTkill pid))) as [[h1 o1]|] eqn:SR; [|discriminate]. cbn. intros [= <- <- <-].
    apply handled_kin; [|exact I]. refine (signal_thread_good _ _ _ _ _ _ _ _ _ _ _ GD _ _ SR); [exact IS|]. destruct RU as (t0 & T0 & _). eauto.
  Qed.

  Lemma sigaction_good c s a h' res : do_sigaction h pid s a = Some (h', res) -> handled L S l h pid tid c h' [] res.
  Proof.
    unfold do_sigaction. destruct (is_sig s); cbn; [|intros [= <- <-]; now apply handled_same]. destruct a as [a|]; [|intros [= <- <-]; now apply handled_same].
    match goal with |- (if ?b then _ else _) = _ -> _ => destruct b end; [intros [= <- <-]; now apply handled_same|].
    destruct me_proc as (p & r & t & P & R & R0 & T & T0 & ST). rewrite R0. cbn. intros [= <- <-].
    set (r' := set_nacts r (put s (rd_act a) (n_acts r))). unfold handled. cbn [obeys lobeys]. do 2 (split; [exact I|]). split; [intros x []|].
    split; [|split; [|split; [apply put_run_rest|exact I]]].
    - rewrite (put_run_eq _ _ _ _ P). unfold put_proc, set_procs. rewrite <- (app_nil_r (h_tasks h)).
      pose proof (good_run _ _ _ _ _ _ _ _ _ GD P R) as RK. eapply good_put; eauto.
      + unfold keeps. cbn. do 3 (split; [reflexivity|]). rewrite R. split; [auto|]. intros x y z X Y _. exists y, z. auto.
      + lia.
      + rewrite app_nil_r. eapply proc_ok_st; [eapply g_proc; eauto|]. destruct RK as [K1 K2 K3 K4 K5 K6 K7]. split; auto. intros x y Y. destruct (K7 x y Y). split; auto.
      + intros q x cid tr [].
      + apply (g_fresh _ _ _ _ _ _ GD).
      + cbn. intros r0 [= <-]. apply (g_pend _ _ _ _ _ _ GD pid r R0).
    - exists t. split; [|exact ST]. unfold thr_of. rewrite (run_of_put_run _ _ _ _ _ P), Z.eqb_refl. exact T.
  Qed.

  Lemma sigprocmask_good c how s h' res : do_sigprocmask h pid tid how s = Some (h', res) -> handled L S l h pid tid c h' [] res.
  Proof.
    unfold do_sigprocmask. destruct s as [s|]; [|intros [= <- <-]; now apply handled_same].
    destruct me_proc as (p & r & t & P & R & R0 & T & T0 & ST). rewrite T0. cbn.
    destruct (how =? 0); [|destruct (how =? 1); [|destruct (how =? 2)]]; intros [= <- <-]; try (now apply handled_same);
      (apply handled_thr; [intros t0 E; assert (t0 = t) by congruence; subst t0; cbn; auto|exact I]).
  Qed.

  Lemma sigaltstack_good c s h' res : do_sigaltstack h pid tid s = Some (h', res) -> handled L S l h pid tid c h' [] res.
  Proof.
    unfold do_sigaltstack. destruct s as [s|]; [|intros [= <- <-]; now apply handled_same].
    destruct me_proc as (p & r & t & P & R & R0 & T & T0 & ST). rewrite T0. cbn.
    destruct (ss_onstack (t_stk t)); [intros [= <- <-]; now apply handled_same|].
    match goal with |- (if ?b then _ else _) = _ -> _ => destruct b end; [intros [= <- <-]; now apply handled_same|].
    intros [= <- <-]. apply handled_thr; [|exact I]. intros t0 E. assert (t0 = t) by congruence. subst t0. cbn. auto.
  Qed.

  Lemma clone_good c fl raw h' o res : (cf_thread fl = true -> L pid = false) ->
    do_clone h pid fl raw = Some (h', o, res) -> handled L S l h pid tid c h' o res.
  Proof.
    intros LT. unfold do_clone. destruct me_proc as (p & r & t & P & R & R0 & T & T0 & ST). rewrite P, R0. cbn [obind].
    destruct (negb (raw =? 0) && negb (is_sig raw)) eqn:RAW; [intros [= <- <- <-]; now apply handled_same|].
    do 7 (match goal with |- (if ?b then _ else _) = _ -> _ => destruct b; [intros [= <- <- <-]; now apply handled_same|] end).
    change (mkHost (h_procs h) (h_next h + 1) (h_cid h) (h_tasks h) (h_cur h)) with (bump h).
    destruct (cf_thread fl).
    - intros [= <- <- <-]. unfold handled. cbn [obeys lobeys]. do 2 (split; [exact I|]). split; [intros x []|].
      split; [apply good_new_thread; auto|]. split; [|split; [|exact I]].
      + exists t. split; [|exact ST]. change (thr_of (put_run (bump h) pid (set_nthr r (bput (h_next h) (thr_new false) (n_thr r)))) pid tid = Some t).
        unfold thr_of. rewrite (run_of_put_run _ _ _ p) by exact P. rewrite Z.eqb_refl. cbn [n_thr set_nthr].
        rewrite get_bput. destruct (Z.eqb_spec tid (h_next h)) as [E|]; [|exact T]. exfalso.
        pose proof (good_run _ _ _ _ _ _ _ _ _ GD P R) as RK. pose proof (n_range _ _ _ _ _ _ _ RK tid (get_keys _ _ _ T)). lia.
      + cbn. apply (put_run_rest (bump h)).
    - set (par := if cf_parent fl then p_par p else pid). intros [= <- <- <-].
      set (exs := if raw =? 0 then None else Some raw). set (acts := if cf_clear fl || cf_sighand fl then [] else n_acts r).
      destruct (g_proc _ _ _ _ _ _ GD pid p P) as [PR [PG PI] _ _ _].
      destruct (good_new_proc L (Some (pid, tid)) S l h par (p_pgid p) (p_sid p) exs acts true GD) as [A1 A2]; auto.
      + unfold par. destruct (cf_parent fl); [|eauto]. destruct (g_par _ _ _ _ _ _ GD pid p P) as [|(_ & [X|X])]; auto. discriminate X.
      + intros x y X E. eapply (g_grp _ _ _ _ _ _ GD); eauto.
      + intros y Y. symmetry. eapply (g_lead _ _ _ _ _ _ GD); eauto.
      + intros s. unfold exs. destruct (raw =? 0); [discriminate|]. intros [= <-]. cbn in RAW. destruct (is_sig raw); [reflexivity|discriminate RAW].
      + unfold handled. cbn [obeys lobeys after lafter fold_left]. split; [split; exact I|]. split; [split; [exact A1|exact I]|].
        split; [intros x [<-|[]]; exact I|]. split; [apply good_task; [exact A2|exact I]|]. split; [|split; [reflexivity|exact I]].
        exists t. split; [|exact ST]. unfold thr_of. cbn [add_task set_tasks run_of h_procs].
        change (match run_of (put_proc (bump h) (h_next h) (mkProc par (p_pgid p) (p_sid p) exs None (PRun (mkRun 0 [] acts [(h_next h, thr_new true)] [] 0)))) pid with Some r0 => get tid (n_thr r0) | None => None end = Some t).
        rewrite run_of_put_proc. destruct (Z.eqb_spec pid (h_next h)) as [E|]; [lia|]. change (run_of (bump h) pid) with (run_of h pid). rewrite R0. exact T.
  Qed.

  Lemma wait_good c tg fl idr h' o res : (forall z p, get z (h_procs h) = Some p -> wants pid c z p = true -> w_exited fl = true /\ wmatches pid tg fl z p = true) ->
    wait_internal h pid tg fl idr = Some (h', o, res) -> handled L S l h pid tid c h' o res.
  Proof.
    intros WA. unfold wait_internal. remember (filter (fun e => wmatches pid tg fl (fst e) (snd e)) (h_procs h)) as ms eqn:MSE.
    set (ZF := filter (fun e => is_zombie (snd e)) ms).
    assert (BLOCK : ~ (w_exited fl = true /\ ZF <> []) ->
      (if w_nohang fl then Some (h, [], done 0) else Some (h, [], RBlock TrChild true)) = Some (h', o, res) -> handled L S l h pid tid c h' o res).
    { intros NB. destruct (w_nohang fl); intros [= <- <- <-]; [now apply handled_same|]. unfold handled. cbn. do 2 (split; [exact I|]). split; [intros x []|].
      do 3 (split; [auto|]). intros z p P ZB. destruct (wants pid c z p) eqn:W; [|reflexivity]. exfalso. destruct (WA z p P W) as [W1 W2]. apply NB. split; [exact W1|].
      assert (IN : In (z, p) ZF) by (apply filter_In; split; [rewrite MSE; apply filter_In; split; [apply get_in; exact P|exact W2]|exact ZB]). intros E. rewrite E in IN. destruct IN. }
    destruct ms as [|e0 ms0]; [intros [= <- <- <-]; now apply handled_same|].
    destruct (w_exited fl) eqn:WE; cbn [negb]; [|apply BLOCK; intros [X _]; discriminate X]. fold ZF.
    destruct ZF as [|[z p] zs] eqn:ZE; [apply BLOCK; intros [_ X]; contradiction|].
    assert (IN : In (z, p) ZF) by (rewrite ZE; left; reflexivity). apply filter_In in IN as [IN ZB]. rewrite MSE in IN. apply filter_In in IN as [IN WM].
    assert (P : get z (h_procs h) = Some p) by (apply in_get; [apply bsorted_nodup, (g_sorted _ _ _ _ _ _ GD)|exact IN]).
    cbn [fst snd] in *. destruct (p_st p) as [r|s] eqn:ST; [discriminate|].
    destruct (w_nowait fl); intros [= <- <- <-]; [now apply handled_same|].
    assert (PP : p_par p = pid) by (unfold wmatches in WM; apply Bool.andb_true_iff in WM as [WM _]; apply Bool.andb_true_iff in WM as [WM _]; lia).
    destruct (good_free _ _ _ _ _ _ _ _ _ GD P ST) as [F1 F2].
    { intros x y X E. destruct (g_par _ _ _ _ _ _ GD x y X) as [Y|(_ & [(r0 & Y)|Y])]; [|rewrite E in Y; apply run_of_get in Y as (q & Q & Y); congruence|discriminate Y].
      rewrite Y in E. subst z. rewrite (good_no_init _ _ _ _ _ _ GD) in P. discriminate P. }
    destruct me_proc as (pm & r & t & PM & R & R0 & T & T0 & STM).
    assert (NZ : pid <> z) by (intros E; subst z; congruence).
    unfold handled. cbn [obeys lobeys after lafter fold_left]. split; [split; exact I|]. split; [split; [|exact I]|].
    - cbn. rewrite !(g_life _ _ _ _ _ _ GD), P, PM. cbn. unfold st_of. rewrite ST, R, PP. split; [reflexivity|]. eauto.
    - split; [intros x [<-|[]]; exact I|]. split; [exact F2|]. split; [|split; [reflexivity|exact I]].
      exists t. split; [|exact STM]. unfold thr_of.
      assert (X : run_of (del_proc h z) pid = run_of h pid) by (unfold run_of; cbn [del_proc h_procs set_procs]; rewrite get_del; change (eqb pid z) with (pid =? z); destruct (Z.eqb_spec pid z); [contradiction|reflexivity]).
      rewrite X, R0. exact T.
  Qed.

  Lemma setpgid_good c q g h' res : do_setpgid h pid q g = Some (h', res) -> handled L S l h pid tid c h' [] res.
  Proof.
    unfold do_setpgid. destruct me_proc as (p & r & t & P & R & R0 & T & T0 & ST). rewrite P. cbn [obind].
    match goal with |- (if ?b then _ else _) = _ -> _ => destruct b; [intros [= <- <-]; now apply handled_same|] end.
    set (x := if (q =? 0) || (q =? pid) then pid else q). destruct (get x (h_procs h)) as [y|] eqn:Y; [|intros [= <- <-]; now apply handled_same].
    destruct (Z.ltb_spec g 0) as [GL|GL]; [intros [= <- <-]; now apply handled_same|].
    destruct (negb (x =? pid) && negb (p_par y =? pid)); [intros [= <- <-]; now apply handled_same|].
    destruct (negb (g =? 0) && negb (opt_eqb (sid_of_group h g) (p_sid y))) eqn:GS; [intros [= <- <-]; now apply handled_same|].
    destruct (negb (p_sid y =? p_sid p)); [intros [= <- <-]; now apply handled_same|].
    destruct (p_sid y =? x); [intros [= <- <-]; now apply handled_same|]. intros [= <- <-].
    destruct (g_proc _ _ _ _ _ _ GD x y Y) as [XR [XG XI] _ _ _]. pose proof GD as [A B TK C D E F G H J K M N O Q].
    apply handled_proc; [|intros p0 P0; assert (p0 = y) by congruence; subst p0; reflexivity|congruence|exact I].
    change (set_pgid y (if g =? 0 then x else g)) with (set_pgid (set_sid y (p_sid y)) (if g =? 0 then x else g)).
    destruct (Z.eqb_spec g 0) as [->|NG].
    - apply good_ids; auto.
      + lia.
      + intros ->. unfold INIT in XR. lia.
      + intros z w NE W EG. eapply J; eauto.
      + intros w NE. contradiction.
      + intros z w NE W EG. eapply J; eauto.
    - cbn in GS. destruct (sid_of_group h g) as [s|] eqn:SG; cbn in GS; [|discriminate GS].
      assert (s = p_sid y) by lia. subst s. destruct (group_some _ _ _ A SG) as (m & pm & PM & M1 & M2).
      apply good_ids; auto.
      + destruct (C m pm PM) as [_ [C2 _] _ _ _]. lia.
      + intros ->. destruct (C m pm PM) as [_ [_ C2] _ _ _]. rewrite <- M2. auto.
      + intros z w NE W EG. rewrite <- M2. eapply H; eauto. congruence.
      + intros w NE W. rewrite <- M2. symmetry. eapply J; eauto.
      + intros z w NE W EG. eapply J; eauto.
  Qed.

  Lemma setsid_good c h' res : do_setsid h pid = Some (h', res) -> handled L S l h pid tid c h' [] res.
  Proof.
    unfold do_setsid. destruct me_proc as (p & r & t & P & R & R0 & T & T0 & ST). rewrite P. cbn [obind].
    destruct (sid_of_group h pid) eqn:SG; [intros [= <- <-]; now apply handled_same|]. intros [= <- <-].
    destruct (g_proc _ _ _ _ _ _ GD pid p P) as [XR [XG XI] _ _ _].
    apply handled_proc; [|intros p0 P0; assert (p0 = p) by congruence; subst p0; reflexivity|congruence|exact I].
    apply good_ids; auto.
    - lia.
    - intros x y _ Y E. exfalso. eapply group_none; eauto.
    - intros y NE. contradiction.
    - intros x y _ Y E. exfalso. eapply group_none; eauto.
  Qed.

  Lemma good_pdeath q p s : get q (h_procs h) = Some p -> (forall x, s = Some x -> is_sig x = true) -> Good L None (Some (pid, tid)) S l (put_proc h q (set_pdeath p s)).
  Proof.
    intros P SS. unfold put_proc, set_procs. rewrite <- (app_nil_r (h_tasks h)). eapply good_put; eauto.
    - exact (keeps_refl _ q p).
    - lia.
    - rewrite app_nil_r. destruct (g_proc _ _ _ _ _ _ GD q p P). split; auto.
    - intros x y cid tr [].
    - apply (g_fresh _ _ _ _ _ _ GD).
    - cbn. intros r R. apply (g_pend _ _ _ _ _ _ GD). apply run_of_get. eauto.
  Qed.

  Lemma pdeath_good c s h' res : do_pdeath h pid s = Some (h', res) -> handled L S l h pid tid c h' [] res.
  Proof.
    unfold do_pdeath. destruct me_proc as (p & r & t & P & R & R0 & T & T0 & ST). rewrite P. cbn [obind].
    destruct (s =? 0); [|destruct (is_sig s) eqn:IS; [|intros [= <- <-]; now apply handled_same]]; intros [= <- <-];
      (apply handled_proc; [apply good_pdeath; [exact P|intros x E; try discriminate E; injection E as <-; exact IS]
        |intros p0 P0; assert (p0 = p) by congruence; subst p0; reflexivity|congruence|exact I]).
  Qed.

  Lemma noobs_some x h' o res : noobs x = Some (h', o, res) -> o = [] /\ x = Some (h', res).
  Proof. unfold noobs. destruct x as [[h1 r1]|]; cbn; [|discriminate]. intros [= <- <- <-]. auto. Qed.

  Lemma handle_good c io h' o res : (forall fl raw, c = Clone fl raw -> cf_thread fl = true -> L pid = false) ->
    handle h pid tid c io = Some (h', o, res) -> handled L S l h pid tid c h' o res.
  Proof.
    intros LT. destruct me_proc as (p & r & t & P & R & R0 & T & T0 & ST).
    destruct c; cbn [handle]; try (rewrite P; cbn [obind]); intros E.
    all: try (apply noobs_some in E as [-> E]).
    all: try (injection E as <- <- <-; now apply handled_same).
    - eapply kill_good; eauto.
    - eapply tkill_good; eauto.
    - eapply tkill_good; eauto.
    - eapply sigaction_good; eauto.
    - eapply sigprocmask_good; eauto.
    - eapply sigaltstack_good; eauto.
    - eapply clone_good; eauto.
    - destruct found; injection E as <- <- <-; [|now apply handled_same]. unfold handled. cbn [obeys lobeys]. do 2 (split; [exact I|]). split; [intros x []|].
      split; [apply good_task; [exact GD|exact I]|]. split; [|split; [reflexivity|exact I]]. exact RU.
    - unfold do_wait4 in E. match type of E with (if ?b then _ else _) = _ => destruct b end; [injection E as <- <- <-; now apply handled_same|].
      rewrite P in E. cbn [obind] in E. destruct (waitpid_target (p_pgid p) pid0) as [tg|] eqn:TG; [|discriminate E]. cbn [obind] in E.
      eapply wait_good; [|exact E]. intros z q _ W. cbn [w_exited]. split; [reflexivity|]. unfold wants in W. unfold waitpid_target in TG.
      destruct (Z.eqb_spec pid0 (-1)); [injection TG as <-; exact W|]. destruct (Z.ltb_spec pid0 0).
      + destruct (Z.ltb_spec 0 pid0); [lia|discriminate W].
      + destruct (Z.eqb_spec pid0 0); [subst; discriminate W|]. injection TG as <-. destruct (Z.ltb_spec 0 pid0); [exact W|lia].
    - unfold do_waitid in E. rewrite P in E. cbn [obind] in E. destruct which.
      + eapply wait_good; [|exact E]. intros z q _ W. cbn in W. apply Bool.andb_true_iff in W. exact W.
      + destruct (id <? 0); [injection E as <- <- <-; now apply handled_same|]. eapply wait_good; [|exact E]. intros z q _ W. cbn in W. apply Bool.andb_true_iff in W. exact W.
      + destruct (id <? 0); [injection E as <- <- <-; now apply handled_same|]. eapply wait_good; [|exact E]. intros z q _ W. discriminate W.
      + destruct (existsb _ _); [discriminate E|]. injection E as <- <- <-. now apply handled_same.
      + injection E as <- <- <-. now apply handled_same.
    - unfold do_getpgid in E. rewrite P in E. cbn [obind] in E. match type of E with (if ?b then _ else _) = _ => destruct b end; [injection E as <- <-; now apply handled_same|].
      destruct (pid0 <? 0); [injection E as <- <-; now apply handled_same|]. destruct (get pid0 (h_procs h)); injection E as <- <-; now apply handled_same.
    - eapply setpgid_good; eauto.
    - unfold do_getsid in E. rewrite P in E. cbn [obind] in E. match type of E with (if ?b then _ else _) = _ => destruct b end; [injection E as <- <-; now apply handled_same|].
      destruct (pid0 <? 0); [injection E as <- <-; now apply handled_same|]. destruct (get pid0 (h_procs h)); injection E as <- <-; now apply handled_same.
    - eapply setsid_good; eauto.
    - eapply pdeath_good; eauto.
    - destruct io; injection E as <- <- <-; now apply handled_same.
  Qed.
End handlers.
