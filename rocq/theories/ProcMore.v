(** Laws of sigaction, sigprocmask, sigaltstack, tkill, new threads, parent death signals and
    the exit of threads. *)
From Verif Require Import Base FMap BTree ProcModel ProcSpec ProcBits ProcInv ProcSig ProcEnd ProcCall ProcStep ProcRun ProcFaults ProcCrash ProcApi ProcLaws ProcCalls ProcKids ProcGroups.

Lemma shas_rd s k : 1 <= k <= 64 -> shas (rd_set s) k = shas s k.
Proof.
  intros K. rewrite !shas_bit. f_equal. unfold rd_set. rewrite Z.land_spec. change U64_MAX with (Z.ones 64). rewrite Z.ones_spec_low by lia. apply andb_true_r.
Qed.
Lemma same_cur h x : h_procs (set_cur h x) = h_procs h. Proof. reflexivity. Qed.

Lemma sigaction_law xs h o pid tid s act io h' o' r : steps host_new xs = Some (h, o) -> h_cur h = Some (pid, tid, MApp) -> run_of h pid = Some r ->
  step h (PCall (Sigaction s act) io) = Some (h', o') ->
  o' = [OCall pid tid (Sigaction s act)] /\ (forall z, z <> pid -> get z (h_procs h') = get z (h_procs h)) /\
  (~ 1 <= s <= 64 \/ ((s = 9 \/ s = 19) /\ act <> None) -> completes h' pid tid (Sigaction s act) (- EINVAL) /\ h_procs h' = h_procs h) /\
  (1 <= s <= 64 -> act = None -> completes h' pid tid (Sigaction s act) 0 /\ h_procs h' = h_procs h) /\
  (forall a, 1 <= s <= 64 -> s <> 9 -> s <> 19 -> act = Some a -> completes h' pid tid (Sigaction s act) 0 /\
     exists r', run_of h' pid = Some r' /\ n_pend r' = n_pend r /\ n_thr r' = n_thr r /\ (forall k, k <> s -> act_of r' k = act_of r k) /\
       sa_h (act_of r' s) = sa_h a /\ sa_nodefer (act_of r' s) = sa_nodefer a /\ sa_resethand (act_of r' s) = sa_resethand a /\ sa_restart (act_of r' s) = sa_restart a /\
       sa_onstack (act_of r' s) = sa_onstack a /\ forall k, 1 <= k <= 64 -> shas (sa_mask (act_of r' s)) k = shas (sa_mask a) k).
Proof.
  intros XS HC R E. assert (HD : handle h pid tid (Sigaction s act) io = noobs (do_sigaction h pid s act)) by reflexivity. unfold do_sigaction in HD.
  destruct (is_sig s) eqn:SG.
  2:{ cbn [negb noobs obind] in HD. destruct (call_law _ _ _ _ _ _ _ _ _ _ _ _ _ XS HC HD E) as [-> ->]. unfold is_sig in SG. split; [reflexivity|]. split; [reflexivity|]. split; [intros _; split; reflexivity|].
      split; intros; lia. }
  cbn [negb] in HD. assert (SR : 1 <= s <= 64) by (unfold is_sig in SG; lia). destruct act as [a|].
  2:{ cbn [noobs obind] in HD. destruct (call_law _ _ _ _ _ _ _ _ _ _ _ _ _ XS HC HD E) as [-> ->]. split; [reflexivity|]. split; [reflexivity|].
      split; [intros [X|[_ X]]; [lia|contradiction]|]. split; [intros; split; reflexivity|discriminate]. }
  destruct ((s =? SIGKILL) || (s =? SIGSTOP)) eqn:KS.
  { cbn [noobs obind] in HD. destruct (call_law _ _ _ _ _ _ _ _ _ _ _ _ _ XS HC HD E) as [-> ->]. unfold SIGKILL, SIGSTOP in KS. split; [reflexivity|]. split; [reflexivity|].
    split; [intros _; split; reflexivity|]. split; [discriminate|]. intros; lia. }
  rewrite R in HD. cbn [noobs obind] in HD. destruct (call_law _ _ _ _ _ _ _ _ _ _ _ _ _ XS HC HD E) as [-> ->]. unfold SIGKILL, SIGSTOP in KS. pose proof R as R0. apply run_of_get in R0 as (p & P & R0).
  split; [reflexivity|]. split; [intros z N; rewrite same_cur, (get_put_run _ _ _ _ _ P); destruct (Z.eqb_spec z pid); [contradiction|reflexivity]|].
  split; [intros [X|[X _]]; lia|]. split; [discriminate|]. intros b _ _ _ [= <-]. split; [reflexivity|].
  eexists. split; [change (run_of (set_cur ?a ?b) pid) with (run_of a pid); rewrite (run_of_put_run _ _ _ _ _ P), Z.eqb_refl; reflexivity|].
  split; [reflexivity|]. split; [reflexivity|]. unfold act_of. cbn [n_acts set_nacts]. split.
  - intros k N. rewrite get_put. change (eqb k s) with (k =? s). destruct (Z.eqb_spec k s); [contradiction|reflexivity].
  - rewrite get_put_same. cbn [rd_act sa_h sa_nodefer sa_resethand sa_restart sa_onstack sa_mask]. repeat (split; [reflexivity|]). intros k K. now apply shas_rd.
Qed.


Lemma only_thread_same h h' pid tid : h_procs h' = h_procs h -> only_thread h h' pid tid.
Proof. intros E. split; [intros; now rewrite E|]. intros r R. exists r. unfold run_of in *. rewrite E. auto. Qed.
Lemma only_thread_put h pid tid t cu : only_thread h (set_cur (put_thr h pid tid t) cu) pid tid.
Proof.
  split.
  - intros z N. rewrite same_cur. unfold put_thr. destruct (run_of h pid) as [r|] eqn:R; [|reflexivity]. apply run_of_get in R as (p & P & R).
    rewrite (get_put_run _ _ _ _ _ P). destruct (Z.eqb_spec z pid); [contradiction|reflexivity].
  - intros r R. change (run_of (set_cur ?a ?b) pid) with (run_of a pid). unfold put_thr. rewrite R. apply run_of_get in R as (p & P & R).
    rewrite (run_of_put_run _ _ _ _ _ P), Z.eqb_refl. eexists. split; [reflexivity|]. cbn [n_pend n_acts n_thr set_nthr]. do 2 (split; [reflexivity|]).
    intros x N. rewrite get_bput. destruct (Z.eqb_spec x tid); [contradiction|reflexivity].
Qed.
Lemma thr_put h pid tid t t0 cu : thr_of h pid tid = Some t0 -> thr_of (set_cur (put_thr h pid tid t) cu) pid tid = Some t.
Proof.
  intros T. apply thr_of_get in T as (r & R & T). unfold put_thr. rewrite R. pose proof R as R0. apply run_of_get in R0 as (p & P & _).
  change (thr_of (set_cur ?a ?b) pid tid) with (thr_of a pid tid). unfold thr_of. rewrite (run_of_put_run _ _ _ _ _ P), Z.eqb_refl. cbn [n_thr set_nthr]. apply get_bput_same.
Qed.

Lemma sigprocmask_law xs h o pid tid how set io h' o' t : steps host_new xs = Some (h, o) -> h_cur h = Some (pid, tid, MApp) -> thr_of h pid tid = Some t ->
  step h (PCall (Sigprocmask how set) io) = Some (h', o') ->
  o' = [OCall pid tid (Sigprocmask how set)] /\ only_thread h h' pid tid /\
  (set = None -> completes h' pid tid (Sigprocmask how set) 0 /\ h_procs h' = h_procs h) /\
  (~ 0 <= how <= 2 -> set <> None -> completes h' pid tid (Sigprocmask how set) (- EINVAL) /\ h_procs h' = h_procs h) /\
  (forall s, 0 <= how <= 2 -> set = Some s -> completes h' pid tid (Sigprocmask how set) 0 /\
     exists t', thr_of h' pid tid = Some t' /\ t_pend t' = t_pend t /\ t_stk t' = t_stk t /\ t_frames t' = t_frames t /\
       forall k, 1 <= k <= 64 -> shas (t_mask t') k = if how =? 0 then shas (t_mask t) k || shas s k else if how =? 1 then shas (t_mask t) k && negb (shas s k) else shas s k).
Proof.
  intros XS HC T E. assert (HD : handle h pid tid (Sigprocmask how set) io = noobs (do_sigprocmask h pid tid how set)) by reflexivity. unfold do_sigprocmask in HD.
  destruct set as [s|].
  2:{ cbn [noobs obind] in HD. destruct (call_law _ _ _ _ _ _ _ _ _ _ _ _ _ XS HC HD E) as [-> ->]. split; [reflexivity|]. split; [now apply only_thread_same|].
      split; [intros _; split; reflexivity|]. split; [intros _ X; contradiction|discriminate]. }
  rewrite T in HD. cbn [obind] in HD. cbv zeta in HD.
  assert (FIN : forall m, handle h pid tid (Sigprocmask how (Some s)) io = Some (put_thr h pid tid (set_tmask t m), [], done 0) -> 0 <= how <= 2 ->
    (forall k, 1 <= k <= 64 -> shas m k = if how =? 0 then shas (t_mask t) k || shas s k else if how =? 1 then shas (t_mask t) k && negb (shas s k) else shas s k) ->
    o' = [OCall pid tid (Sigprocmask how (Some s))] /\ only_thread h h' pid tid /\
    (Some s = None -> completes h' pid tid (Sigprocmask how (Some s)) 0 /\ h_procs h' = h_procs h) /\
    (~ 0 <= how <= 2 -> Some s <> None -> completes h' pid tid (Sigprocmask how (Some s)) (- EINVAL) /\ h_procs h' = h_procs h) /\
    (forall s0, 0 <= how <= 2 -> Some s = Some s0 -> completes h' pid tid (Sigprocmask how (Some s)) 0 /\
      exists t', thr_of h' pid tid = Some t' /\ t_pend t' = t_pend t /\ t_stk t' = t_stk t /\ t_frames t' = t_frames t /\
       forall k, 1 <= k <= 64 -> shas (t_mask t') k = if how =? 0 then shas (t_mask t) k || shas s0 k else if how =? 1 then shas (t_mask t) k && negb (shas s0 k) else shas s0 k)).
  { intros m HM HW MK. destruct (call_law _ _ _ _ _ _ _ _ _ _ _ _ _ XS HC HM E) as [-> ->]. split; [reflexivity|]. split; [apply only_thread_put|]. split; [discriminate|]. split; [intros X; contradiction|].
    intros s0 _ [= <-]. split; [reflexivity|]. exists (set_tmask t m). split; [eapply thr_put; exact T|]. do 3 (split; [reflexivity|]). exact MK. }
  destruct (Z.eqb_spec how 0) as [->|N0].
  { eapply FIN; [exact HD|lia|]. intros k K. rewrite shas_lor, shas_rd by lia. apply orb_comm. }
  destruct (Z.eqb_spec how 1) as [->|N1].
  { eapply FIN; [exact HD|lia|]. intros k K. rewrite shas_sminus, shas_rd by lia. reflexivity. }
  destruct (Z.eqb_spec how 2) as [->|N2].
  { eapply FIN; [exact HD|lia|]. intros k K. rewrite shas_rd by lia. reflexivity. }
  cbn [noobs obind] in HD. destruct (call_law _ _ _ _ _ _ _ _ _ _ _ _ _ XS HC HD E) as [-> ->]. split; [reflexivity|]. split; [now apply only_thread_same|]. split; [discriminate|].
  split; [intros _ _; split; reflexivity|]. intros; lia.
Qed.

Lemma sigaltstack_law xs h o pid tid ss io h' o' t : steps host_new xs = Some (h, o) -> h_cur h = Some (pid, tid, MApp) -> thr_of h pid tid = Some t ->
  step h (PCall (Sigaltstack ss) io) = Some (h', o') ->
  o' = [OCall pid tid (Sigaltstack ss)] /\ only_thread h h' pid tid /\
  (ss = None -> completes h' pid tid (Sigaltstack ss) 0 /\ h_procs h' = h_procs h) /\
  (forall s, ss = Some s ->
     (ss_onstack (t_stk t) = true -> completes h' pid tid (Sigaltstack ss) (- EPERM) /\ h_procs h' = h_procs h) /\
     (ss_onstack (t_stk t) = false -> ss_disable s = false -> ss_onstack s = true \/ ss_other s = true -> completes h' pid tid (Sigaltstack ss) (- EINVAL) /\ h_procs h' = h_procs h) /\
     (ss_onstack (t_stk t) = false -> ss_disable s = true \/ (ss_onstack s = false /\ ss_other s = false) -> completes h' pid tid (Sigaltstack ss) 0 /\
        exists t', thr_of h' pid tid = Some t' /\ t_pend t' = t_pend t /\ t_mask t' = t_mask t /\ t_frames t' = t_frames t /\ t_stk t' = if ss_disable s then stk_none else s)).
Proof.
  intros XS HC T E. assert (HD : handle h pid tid (Sigaltstack ss) io = noobs (do_sigaltstack h pid tid ss)) by reflexivity. unfold do_sigaltstack in HD.
  destruct ss as [s|].
  2:{ cbn [noobs obind] in HD. destruct (call_law _ _ _ _ _ _ _ _ _ _ _ _ _ XS HC HD E) as [-> ->]. split; [reflexivity|]. split; [now apply only_thread_same|].
      split; [intros _; split; reflexivity|discriminate]. }
  rewrite T in HD. cbn [obind] in HD. cbv zeta in HD. destruct (ss_onstack (t_stk t)) eqn:ON.
  { cbn [noobs obind] in HD. destruct (call_law _ _ _ _ _ _ _ _ _ _ _ _ _ XS HC HD E) as [-> ->]. split; [reflexivity|]. split; [now apply only_thread_same|]. split; [discriminate|].
    intros s0 [= <-]. split; [intros _; split; reflexivity|]. split; discriminate. }
  destruct (ss_disable s) eqn:DS.
  - cbn [stk_none ss_onstack ss_other orb noobs obind] in HD. destruct (call_law _ _ _ _ _ _ _ _ _ _ _ _ _ XS HC HD E) as [-> ->]. split; [reflexivity|]. split; [apply only_thread_put|]. split; [discriminate|].
    intros s0 [= <-]. rewrite DS. split; [discriminate|]. split; [discriminate|]. intros _ _. split; [reflexivity|]. eexists. split; [eapply thr_put; exact T|]. auto.
  - destruct (ss_onstack s || ss_other s) eqn:BAD.
    + cbn [noobs obind] in HD. destruct (call_law _ _ _ _ _ _ _ _ _ _ _ _ _ XS HC HD E) as [-> ->]. split; [reflexivity|]. split; [now apply only_thread_same|]. split; [discriminate|].
      intros s0 [= <-]. split; [discriminate|]. split; [intros _ _ _; split; reflexivity|]. intros _ [X|[X Y]]; [congruence|]. rewrite X, Y in BAD. discriminate BAD.
    + cbn [noobs obind] in HD. destruct (call_law _ _ _ _ _ _ _ _ _ _ _ _ _ XS HC HD E) as [-> ->]. split; [reflexivity|]. split; [apply only_thread_put|]. split; [discriminate|].
      intros s0 [= <-]. rewrite DS. split; [discriminate|]. apply orb_false_iff in BAD as [B1 B2]. split; [intros _ _ [X|X]; congruence|]. intros _ _. split; [reflexivity|].
      eexists. split; [eapply thr_put; exact T|]. auto.
Qed.

(** * A new thread *)
Lemma thread_law xs h o pid tid fl io h' o' r : steps host_new xs = Some (h, o) -> h_cur h = Some (pid, tid, MApp) -> run_of h pid = Some r ->
  cf_thread fl = true -> cf_sighand fl = true -> cf_vm fl = true -> cf_settls fl = true -> cf_clear fl = false -> cf_other fl = false ->
  step h (PCall (Clone fl 0) io) = Some (h', o') ->
  o' = [OCall pid tid (Clone fl 0)] /\ exists id t, completes h' pid tid (Clone fl 0) id /\ (forall z q x, run_of h z = Some q -> In x (z :: keys (n_thr q)) -> x < id) /\
    only_thread h h' pid id /\ thr_of h' pid id = Some t /\ t_pend t = 0 /\ t_frames t = [] /\ t_st t = TNew false /\ In (TkResume pid id) (h_tasks h').
Proof.
  intros XS HC R F1 F2 F3 F4 F5 F6 E. destruct (at_app _ _ _ _ _ XS HC) as [GD RU]. pose proof R as R0. apply run_of_get in R0 as (p & P & R0).
  assert (HD : handle h pid tid (Clone fl 0) io = do_clone h pid fl 0) by reflexivity. unfold do_clone in HD. cbv zeta in HD. rewrite F1, F2, F3, F4, F5, F6 in HD. cbn [andb negb Z.eqb] in HD.
  rewrite P in HD. cbn [obind] in HD. rewrite R in HD. cbn [obind] in HD. destruct (call_law _ _ _ _ _ _ _ _ _ _ _ _ _ XS HC HD E) as [-> ->]. split; [reflexivity|].
  exists (h_next h), (thr_new false). split; [reflexivity|]. split.
  { intros z q x Q IN. apply run_of_get in Q as (pz & PZ & Q). destruct IN as [<-|IN]; [apply (p_range _ _ _ _ _ _ _ (g_proc _ _ _ _ _ _ GD z pz PZ))|].
    apply (n_range _ _ _ _ _ _ _ (good_run _ _ _ _ _ _ _ _ _ GD PZ Q)). exact IN. }
  set (h1 := mkHost _ _ _ _ _). assert (P1 : get pid (h_procs h1) = Some p) by exact P.
  split.
  { split.
    - intros z N. cbn [h_procs set_cur add_task set_tasks]. rewrite (get_put_run _ _ _ _ _ P1). destruct (Z.eqb_spec z pid); [contradiction|reflexivity].
    - intros r1 R1. assert (r1 = r) by congruence. subst r1. change (run_of (set_cur (add_task ?a ?c) ?b) pid) with (run_of a pid). rewrite (run_of_put_run _ _ _ _ _ P1), Z.eqb_refl. eexists. split; [reflexivity|].
      cbn [n_pend n_acts n_thr set_nthr]. do 2 (split; [reflexivity|]). intros x N. rewrite get_bput. destruct (Z.eqb_spec x (h_next h)); [contradiction|reflexivity]. }
  split. { change (thr_of (set_cur (add_task ?a ?c) ?b) pid (h_next h)) with (thr_of a pid (h_next h)). unfold thr_of. rewrite (run_of_put_run _ _ _ _ _ P1), Z.eqb_refl. cbn [n_thr set_nthr]. apply get_bput_same. }
  do 3 (split; [reflexivity|]). cbn [h_tasks set_cur add_task set_tasks]. apply in_or_app. right. left. reflexivity.
Qed.

(** * Parent death signals *)
Lemma sched_wake_other h pid tid x : x <> pid -> get x (h_procs (sched_wake h pid tid)) = get x (h_procs h).
Proof.
  intros N. unfold sched_wake. destruct (thr_of h pid tid) as [t|]; [|reflexivity]. destruct (t_st t) as [| |c]; try reflexivity. destruct (c_sched c); [reflexivity|].
  cbn [add_task set_tasks h_procs]. unfold put_thr. destruct (run_of h pid) as [r|] eqn:R; [|reflexivity]. apply run_of_get in R as (p & P & R). rewrite (get_put_run _ _ _ _ _ P).
  destruct (Z.eqb_spec x pid); [contradiction|reflexivity].
Qed.
Lemma signal_run_other h dying pid cur i h' o x : signal_run h dying pid cur i = Some (h', o) -> x <> pid -> get x (h_procs h') = get x (h_procs h).
Proof.
  intros E N. unfold signal_run in E. destruct (run_of h pid) as [r|] eqn:R; [|injection E as <- _; reflexivity].
  destruct (ignored _ _); [injection E as <- _; reflexivity|]. destruct (shas _ _); [injection E as <- _; reflexivity|].
  unfold assert_then in E. destruct (_ <=? STD_MAX); [|discriminate E]. pose proof R as R0. apply run_of_get in R0 as (p & P & _).
  set (h1 := put_run h pid _) in *. assert (O1 : get x (h_procs h1) = get x (h_procs h)).
  { unfold h1. rewrite (get_put_run _ _ _ _ _ P). destruct (Z.eqb_spec x pid); [contradiction|reflexivity]. }
  cbv zeta in E. destruct (match cur with Some _ => _ | None => _ end); [injection E as <- _; exact O1|].
  destruct (interrupt h1 dying pid (si_sig i) (n_thr r)) as [h2|] eqn:IT; [|discriminate E]. cbn [obind] in E. injection E as <- _.
  apply interrupt_shape in IT as [->|(tid & t & c & _ & _ & _ & b & W)]; [exact O1|]. rewrite <- O1. unfold wake_for_signal in W.
  destruct (c_find_thread (h_procs h1) dying tid) as [t1|]; [|discriminate W]. cbn [obind] in W. destruct (shas (t_mask t1) _); injection W as <- _; [reflexivity|]. now apply sched_wake_other.
Qed.

Lemma orphans_told pid z q rz s cs : forall h o0 h' o, get z (h_procs h) = Some q -> p_st q = PRun rz -> p_pdeath q = Some s -> In z cs -> NoDup cs ->
  orphans pid (h, o0) cs = Some (h', o) -> (forall i, ~ In (OQueue (DPr z) i) o0) ->
  (In (OQueue (DPr z) (mkInfo s (SiUser pid))) o <-> ~ discards rz s /\ shas (n_pend rz) s = false).
Proof.
  assert (REST : forall cs h o0 h' o y, ~ In z cs -> orphans pid (h, o0) cs = Some (h', o) -> (In (OQueue (DPr z) y) o <-> In (OQueue (DPr z) y) o0)).
  { induction cs0 as [|c cs0 IH]; intros h o0 h' o y NI E; cbn [orphans] in E; [injection E as _ <-; reflexivity|].
    destruct (orphan pid (h, o0) c) as [[h1 o1]|] eqn:OR; [|discriminate E]. cbn [obind] in E. rewrite (IH _ _ _ _ y ltac:(intros X; apply NI; right; exact X) E).
    unfold orphan in OR. destruct (get c (h_procs h)) as [p|]; [|injection OR as _ <-; reflexivity].
    assert (NZ : c <> z) by (intros ->; apply NI; left; reflexivity).
    destruct (p_pdeath p) as [s0|].
    - destruct (signal_run h None c None _) as [[h2 o2]|] eqn:SR; [|discriminate OR]. cbn [obind] in OR. assert (o1 = o0 ++ o2) by (destruct (get c (h_procs h2)); injection OR as _ <-; reflexivity). subst o1.
      rewrite in_app_iff. split; [intros [X|X]; [exact X|]|auto]. exfalso. destruct (signal_run_obs _ _ _ _ _ _ _ SR) as [-> | ->]; [destruct X|]. destruct X as [X|[]]. injection X as X _. contradiction.
    - cbn [obind] in OR. assert (o1 = o0 ++ []) by (destruct (get c (h_procs h)); injection OR as _ <-; reflexivity). subst o1. now rewrite app_nil_r. }
  induction cs as [|c cs IH]; intros h o0 h' o Q R PD IN ND E N0; [destruct IN|]. cbn [orphans] in E.
  destruct (orphan pid (h, o0) c) as [[h1 o1]|] eqn:OR; [|discriminate E]. cbn [obind] in E. inversion ND as [|? ? NI ND']; subst.
  destruct (Z.eq_dec c z) as [->|NZ].
  - rewrite (REST _ _ _ _ _ _ NI E). unfold orphan in OR. rewrite Q, PD in OR. destruct (signal_run h None z None _) as [[h2 o2]|] eqn:SR; [|discriminate OR]. cbn [obind] in OR.
    assert (o1 = o0 ++ o2) by (destruct (get z (h_procs h2)); injection OR as _ <-; reflexivity). subst o1.
    destruct (signal_run_law _ _ _ _ _ _ _ SR) as [_ LW]. destruct (LW rz ltac:(apply run_of_get; eauto)) as [L1 L2]. cbn [si_sig] in L1, L2. rewrite in_app_iff. split.
    + intros [X|X]; [exfalso; exact (N0 _ X)|]. split.
      * intros D. rewrite (L1 (or_introl D)) in X. destruct X.
      * destruct (shas (n_pend rz) s) eqn:Y; [|reflexivity]. rewrite (L1 (or_intror eq_refl)) in X. destruct X.
    + intros [A B]. right. rewrite (L2 A B). left. reflexivity.
  - destruct IN as [X|IN]; [contradiction|]. apply (IH h1 o1 h' o); auto.
    + unfold orphan in OR. destruct (get c (h_procs h)) as [p|] eqn:P; [|injection OR as <- _; exact Q].
      destruct (p_pdeath p) as [s0|].
      * destruct (signal_run h None c None _) as [[h2 o2]|] eqn:SR; [|discriminate OR]. cbn [obind] in OR. assert (X := signal_run_other _ _ _ _ _ _ _ z SR ltac:(auto)).
        destruct (get c (h_procs h2)); injection OR as <- _; [rewrite get_put_proc; destruct (Z.eqb_spec z c); [congruence|]|]; now rewrite X.
      * cbn [obind] in OR. rewrite P in OR. injection OR as <- _. rewrite get_put_proc. destruct (Z.eqb_spec z c); [congruence|exact Q].
    + intros i X. unfold orphan in OR. destruct (get c (h_procs h)) as [p|] eqn:P; [|injection OR as _ <-; exact (N0 _ X)].
      destruct (p_pdeath p) as [s0|].
      * destruct (signal_run h None c None _) as [[h2 o2]|] eqn:SR; [|discriminate OR]. cbn [obind] in OR. assert (o1 = o0 ++ o2) by (destruct (get c (h_procs h2)); injection OR as _ <-; reflexivity). subst o1.
        apply in_app_or in X as [X|X]; [exact (N0 _ X)|]. destruct (signal_run_obs _ _ _ _ _ _ _ SR) as [-> | ->]; [destruct X|]. destruct X as [X|[]]. injection X as X _. contradiction.
      * cbn [obind] in OR. rewrite P in OR. injection OR as _ <-. rewrite app_nil_r in X. exact (N0 _ X).
Qed.

Lemma end_tells L cu S l h pid s h' o z q rz d : Good L None cu S l h -> run_of h pid <> None ->
  (forall q x, cu = Some (q, x) -> q = pid) -> end_process h pid s = Some (h', o) ->
  get z (h_procs h) = Some q -> p_st q = PRun rz -> p_par q = pid -> p_pdeath q = Some d ->
  (In (OQueue (DPr z) (mkInfo d (SiUser pid))) o <-> ~ discards rz d /\ shas (n_pend rz) d = false).
Proof.
  intros GD NR CU E Q R PA PD. destruct (run_of h pid) as [r|] eqn:RR; [|contradiction]. pose proof RR as R0. apply run_of_get in R0 as (p & P & R0). unfold end_process in E.
  assert (GD0 : Good L None cu S l (set_cur h None)) by (apply good_cur; exact GD).
  destruct (notify_parent (set_cur h None) pid s) as [[h1 o1]|] eqn:NP; [|discriminate E]. cbn [obind] in E.
  destruct (notify_good _ _ _ _ _ _ _ _ _ _ _ GD0 P NP) as (A1 & A2 & A3 & A4 & A5).
  destruct (kin_get _ _ _ _ A3 P) as (p1 & P1 & (E1 & E2 & E3 & E4 & E5 & E6)). rewrite P1 in E. cbn [obind] in E.
  rewrite R0 in E6. destruct (p_st p1) as [r1|] eqn:R1; [|contradiction].
  assert (ZN : z <> p_par p /\ z <> pid).
  { destruct (g_par _ _ _ _ _ _ GD z q Q) as [X|(X & _)]; [rewrite PA in X; exfalso; destruct (p_range _ _ _ _ _ _ _ (g_proc _ _ _ _ _ _ GD pid p P)); unfold INIT in X; lia|].
    rewrite PA in X. destruct (g_par _ _ _ _ _ _ GD pid p P) as [Y|(Y & _)]; [|lia]. rewrite Y. unfold INIT. destruct (p_range _ _ _ _ _ _ _ (g_proc _ _ _ _ _ _ GD z q Q)). lia. }
  destruct ZN as [ZN ZP].
  (* the notified parent is another process than [z] *)
  assert (Q1 : get z (h_procs h1) = Some q /\ forall i, In (OQueue (DPr z) i) o1 -> False).
  { unfold notify_parent in NP. change (h_procs (set_cur h None)) with (h_procs h) in NP. rewrite P in NP. cbn [obind] in NP.
    destruct (p_exs p) as [es|]; [|injection NP as <- <-; auto]. destruct (p_par p =? INIT); [injection NP as <- <-; auto|].
    destruct (get (p_par p) (h_procs h)) as [pp|] eqn:PP; [|injection NP as <- <-; auto]. destruct (p_st pp) as [rp|]; [|discriminate NP].
    destruct (signal_run (set_cur h None) (Some pid) (p_par p) None (exit_info es pid s)) as [[h0 o0]|] eqn:SR; [|discriminate NP]. cbn [obind] in NP. injection NP as <- <-.
    split.
    - assert (W : forall l h, get z (h_procs (wake_child_waiters h (p_par p) l)) = get z (h_procs h)).
      { unfold wake_child_waiters. induction l0 as [|e l0 IH]; intros h2; cbn [fold_left]; [reflexivity|]. rewrite IH. now apply sched_wake_other. }
      rewrite W, (signal_run_other _ _ _ _ _ _ _ z SR) by auto. exact Q.
    - intros i X. destruct (signal_run_obs _ _ _ _ _ _ _ SR) as [-> | ->]; [destruct X|]. destruct X as [X|[]]. injection X as X _. congruence. }
  destruct Q1 as [Q1 N1].
  set (p2 := set_pst p1 (PZom s)) in *. set (h2 := put_proc h1 pid p2) in *.
  assert (G2 : Good L (Some pid) None (note (after S o1) (ODied pid s)) (lnote l (ODied pid s)) h2).
  { eapply good_zombie; eauto. rewrite E1, E4. exact A5. }
  destruct (has_reaper h2 p2) as [reaped|] eqn:HR; [|discriminate E]. cbn [obind] in E.
  set (cs := children h2 pid) in *. assert (SO2 := g_sorted _ _ _ _ _ _ G2).
  destruct (orphans pid (h2, []) cs) as [[h3 o2]|] eqn:OR; [|discriminate E]. cbn [obind] in E.
  unfold free_zombies in E. injection E as _ <-.
  assert (Q2 : get z (h_procs h2) = Some q) by (unfold h2; rewrite get_put_proc; destruct (Z.eqb_spec z pid); [contradiction|exact Q1]).
  assert (IN : In z cs) by (apply children_in; [exact SO2|eauto]).
  rewrite <- (orphans_told pid z q rz d cs h2 [] h3 o2 Q2 R PD IN (children_nodup _ _ SO2) OR ltac:(auto)).
  rewrite in_app_iff. cbn [In app]. rewrite in_app_iff. split; [|auto]. intros [X|[X|[X|X]]]; [exfalso; exact (N1 _ X)|discriminate X|exact X|].
  apply in_map_iff in X as (y & X & _). discriminate X.
Qed.

Lemma pdeath_law xs h o pid tid code io h' o' z q rz d : steps host_new xs = Some (h, o) -> h_cur h = Some (pid, tid, MApp) ->
  step h (PCall (ExitGroup code) io) = Some (h', o') -> get z (h_procs h) = Some q -> p_st q = PRun rz -> p_par q = pid -> p_pdeath q = Some d ->
  (In (OQueue (DPr z) (mkInfo d (SiUser pid))) o' <-> ~ discards rz d /\ shas (n_pend rz) d = false).
Proof.
  intros XS HC E Q R PA PD. destruct (at_app _ _ _ _ _ XS HC) as [GD (t & T & ST)]. apply thr_of_get in T as (r & RR & T).
  unfold step in E. rewrite HC in E. unfold do_call in E. cbn [handle obind] in E. rewrite RR in E. cbn [obind] in E. rewrite T in E. cbn [obind] in E.
  destruct (end_process h pid (Exited (Z.land code 255))) as [[h2 o2]|] eqn:EE; [|discriminate E]. cbn [obind] in E. injection E as <- <-.
  assert (NR : run_of h pid <> None) by (rewrite RR; discriminate). assert (CU : forall q x, Some (pid, tid) = Some (q, x) -> q = pid) by (intros ? ? [= -> _]; reflexivity).
  rewrite <- (end_tells _ _ _ _ _ _ _ _ _ z q rz d GD NR CU EE Q R PA PD).
  cbn [app In]. split; [intros [X|X]; [discriminate X|exact X]|auto].
Qed.
Lemma set_pdeath_law xs h o pid tid s io h' o' p : steps host_new xs = Some (h, o) -> h_cur h = Some (pid, tid, MApp) -> get pid (h_procs h) = Some p ->
  step h (PCall (SetPdeathsig s) io) = Some (h', o') ->
  (~ 0 <= s <= 64 -> completes h' pid tid (SetPdeathsig s) (- EINVAL) /\ h_procs h' = h_procs h) /\
  (0 <= s <= 64 -> completes h' pid tid (SetPdeathsig s) 0 /\ forall z, get z (h_procs h') = if z =? pid then Some (set_pdeath p (if s =? 0 then None else Some s)) else get z (h_procs h)).
Proof.
  intros XS HC P E. assert (HD : handle h pid tid (SetPdeathsig s) io = noobs (do_pdeath h pid s)) by reflexivity. unfold do_pdeath in HD. rewrite P in HD. cbn [obind] in HD.
  destruct (Z.eqb_spec s 0) as [->|N].
  { cbn [noobs obind] in HD. destruct (call_law _ _ _ _ _ _ _ _ _ _ _ _ _ XS HC HD E) as [-> _]. split; [intros; lia|]. intros _. split; [reflexivity|]. intros z. rewrite same_cur. apply get_put_proc. }
  destruct (is_sig s) eqn:SG; unfold is_sig in SG; cbn [noobs obind] in HD; destruct (call_law _ _ _ _ _ _ _ _ _ _ _ _ _ XS HC HD E) as [-> _].
  - split; [intros; lia|]. intros _. split; [reflexivity|]. intros z. rewrite same_cur. apply get_put_proc.
  - split; [intros _; split; reflexivity|intros; lia].
Qed.

(** * tgkill and tkill that find no thread *)
Lemma find_thread_none xs h o tid : steps host_new xs = Some (h, o) -> (forall pid r, run_of h pid = Some r -> get tid (n_thr r) = None) -> find_thread (h_procs h) tid = None.
Proof.
  intros XS N. destruct (good_at _ _ _ XS) as (cu & GD). destruct (find_thread (h_procs h) tid) as [[q u]|] eqn:FT; [|reflexivity].
  destruct (good_find_thread _ _ _ _ _ _ _ _ _ GD FT) as (rq & RQ & TQ). rewrite (N _ _ RQ) in TQ. discriminate TQ.
Qed.
Lemma tgkill_none xs h o pid tid g x s io h' o' : steps host_new xs = Some (h, o) -> h_cur h = Some (pid, tid, MApp) ->
  step h (PCall (Tgkill g x s) io) = Some (h', o') -> (forall r, run_of h g = Some r -> get x (n_thr r) = None) ->
  completes h' pid tid (Tgkill g x s) (- ESRCH) /\ o' = [OCall pid tid (Tgkill g x s)] /\ h_procs h' = h_procs h.
Proof.
  intros XS HC E N. destruct (at_app _ _ _ _ _ XS HC) as [GD RU].
  assert (HD : handle h pid tid (Tgkill g x s) io = Some (h, [], err ESRCH)).
  { cbn [handle]. unfold do_tkill. destruct ((x <? 0) || (g <? 0)); [reflexivity|]. destruct (find_thread (h_procs h) x) as [[q u]|] eqn:FT; [|reflexivity].
    destruct (good_find_thread _ _ _ _ _ _ _ _ _ GD FT) as (rq & RQ & TQ). destruct (Z.eqb_spec g q) as [->|]; [|reflexivity]. rewrite (N _ RQ) in TQ. discriminate TQ. }
  destruct (call_law _ _ _ _ _ _ _ _ _ _ _ _ _ XS HC HD E) as [-> ->]. split; [reflexivity|auto].
Qed.
Lemma tkill_law xs h o pid tid x s io h' o' : steps host_new xs = Some (h, o) -> h_cur h = Some (pid, tid, MApp) ->
  step h (PCall (Tkill x s) io) = Some (h', o') ->
  ((forall g r, run_of h g = Some r -> get x (n_thr r) = None) -> completes h' pid tid (Tkill x s) (- ESRCH) /\ o' = [OCall pid tid (Tkill x s)] /\ h_procs h' = h_procs h) /\
  (forall g r t, run_of h g = Some r -> get x (n_thr r) = Some t -> 1 <= s <= 31 -> completes h' pid tid (Tkill x s) 0 /\
     (discards r s \/ shas (t_pend t) s = true -> o' = [OCall pid tid (Tkill x s)]) /\
     (~ discards r s -> shas (t_pend t) s = false -> o' = [OCall pid tid (Tkill x s); OQueue (DTh g x) (mkInfo s (SiTkill pid))])).
Proof.
  intros XS HC E. destruct (at_app _ _ _ _ _ XS HC) as [GD RU]. split.
  - intros N. assert (HD : handle h pid tid (Tkill x s) io = Some (h, [], err ESRCH)).
    { cbn [handle]. unfold do_tkill. destruct ((x <? 0) || false); [reflexivity|]. rewrite (find_thread_none _ _ _ _ XS N). reflexivity. }
    destruct (call_law _ _ _ _ _ _ _ _ _ _ _ _ _ XS HC HD E) as [-> ->]. split; [reflexivity|auto].
  - intros g r t R T RG. pose proof R as R0. apply run_of_get in R0 as (p & P & R0). pose proof (good_run _ _ _ _ _ _ _ _ _ GD P R0) as RK.
    assert (XR : 1000 <= x) by (apply (n_range _ _ _ _ _ _ _ RK); eapply get_keys; eauto).
    destruct (find_thread_some _ _ _ _ _ _ (g_sorted _ _ _ _ _ _ GD) P R0 T) as (q & u & FT).
    destruct (good_find_thread _ _ _ _ _ _ _ _ _ GD FT) as (rq & RQ & TQ).
    assert (q = g) by (eapply (g_uniq _ _ _ _ _ _ GD) with (tid := x); [exact RQ|exact R|eapply get_keys; eauto|eapply get_keys; eauto]). subst q.
    assert (rq = r) by congruence. subst rq. assert (u = t) by congruence. subst u.
    destruct (signal_thread_some _ _ _ _ _ _ (pid, tid) g x (mkInfo s (SiTkill pid)) r t GD ltac:(cbn; lia) R T) as (h1 & o1 & SR).
    assert (HD : handle h pid tid (Tkill x s) io = Some (h1, o1, done 0)).
    { cbn [handle]. unfold do_tkill. assert ((x <? 0) || false = false) as -> by lia. rewrite FT.
      assert (s =? 0 = false) as -> by lia. assert (is_sig s = true) as -> by (unfold is_sig; lia). assert (is_rt s = false) as -> by (unfold is_rt; lia). cbn [negb fst]. rewrite SR. reflexivity. }
    destruct (call_law _ _ _ _ _ _ _ _ _ _ _ _ _ XS HC HD E) as [-> ->]. destruct (signal_thread_law _ _ _ _ _ _ _ _ _ SR R T) as [L1 L2]. split; [reflexivity|].
    split; intros; f_equal; auto.
Qed.

Lemma getpgid_law xs h o pid tid x io h' o' p : steps host_new xs = Some (h, o) -> h_cur h = Some (pid, tid, MApp) -> get pid (h_procs h) = Some p ->
  step h (PCall (Getpgid x) io) = Some (h', o') -> 0 <= x ->
  o' = [OCall pid tid (Getpgid x)] /\ h_procs h' = h_procs h /\
  completes h' pid tid (Getpgid x) (if x =? 0 then p_pgid p else match get x (h_procs h) with Some q => p_pgid q | None => - ESRCH end).
Proof.
  intros XS HC P E X. assert (HD : exists v, handle h pid tid (Getpgid x) io = Some (h, [], RDone v false) /\ v = if x =? 0 then p_pgid p else match get x (h_procs h) with Some q => p_pgid q | None => - ESRCH end).
  { cbn [handle]. unfold do_getpgid. rewrite P. cbn [obind]. destruct (Z.eqb_spec x 0) as [->|N]; cbn [orb]; [eexists; split; reflexivity|]. destruct (Z.eqb_spec x pid) as [->|M]; [rewrite P; eexists; split; reflexivity|].
    destruct (Z.ltb_spec x 0); [lia|]. destruct (get x (h_procs h)); eexists; split; reflexivity. }
  destruct HD as (v & HD & V). destruct (call_law _ _ _ _ _ _ _ _ _ _ _ _ _ XS HC HD E) as [-> ->]. split; [reflexivity|]. split; [reflexivity|]. rewrite <- V. reflexivity.
Qed.
Lemma getsid_law xs h o pid tid x io h' o' p : steps host_new xs = Some (h, o) -> h_cur h = Some (pid, tid, MApp) -> get pid (h_procs h) = Some p ->
  step h (PCall (Getsid x) io) = Some (h', o') -> 0 <= x ->
  o' = [OCall pid tid (Getsid x)] /\ h_procs h' = h_procs h /\
  completes h' pid tid (Getsid x) (if x =? 0 then p_sid p else match get x (h_procs h) with Some q => p_sid q | None => - ESRCH end).
Proof.
  intros XS HC P E X. assert (HD : exists v, handle h pid tid (Getsid x) io = Some (h, [], RDone v false) /\ v = if x =? 0 then p_sid p else match get x (h_procs h) with Some q => p_sid q | None => - ESRCH end).
  { cbn [handle]. unfold do_getsid. rewrite P. cbn [obind]. destruct (Z.eqb_spec x 0) as [->|N]; cbn [orb]; [eexists; split; reflexivity|].
    destruct (Z.ltb_spec x 0); [lia|]. destruct (get x (h_procs h)); eexists; split; reflexivity. }
  destruct HD as (v & HD & V). destruct (call_law _ _ _ _ _ _ _ _ _ _ _ _ _ XS HC HD E) as [-> ->]. split; [reflexivity|]. split; [reflexivity|]. rewrite <- V. reflexivity.
Qed.

Lemma thread_starts xs h o pid id ts sat io t r h' o' : steps host_new xs = Some (h, o) -> h_cur h = None -> h_tasks h = TkResume pid id :: ts -> run_of h pid = Some r -> get id (n_thr r) = Some t -> t_st t = TNew false ->
  step h (PTask sat io) = Some (h', o') -> h_cur h' = Some (pid, id, MApp) /\ o' = [].
Proof.
  intros XS HC HT R T ST E. unfold step in E. rewrite HC, HT in E. cbn [run_task] in E. unfold resume in E. change (run_of (set_tasks h ts) pid) with (run_of h pid) in E. rewrite R, T, ST in E. injection E as <- <-. auto.
Qed.
