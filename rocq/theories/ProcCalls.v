(** Laws of handlers, blocked calls, waiting, groups, new processes and exec. *)
From Verif Require Import Base FMap BTree ProcModel ProcSpec ProcBits ProcFaults ProcApi ProcInv ProcSig ProcEnd ProcCall ProcStep ProcRun ProcCrash ProcTame ProcLaws.

(** * Handlers *)
Lemma take_keeps h pid tid h1 i d r t : take h pid tid = Some (Some (h1, i, d)) -> run_of h pid = Some r -> get tid (n_thr r) = Some t ->
  exists r1 t1, run_of h1 pid = Some r1 /\ get tid (n_thr r1) = Some t1 /\ t_mask t1 = t_mask t /\ t_stk t1 = t_stk t /\ t_frames t1 = t_frames t /\ n_acts r1 = n_acts r.
Proof.
  intros TK R T. unfold take in TK. rewrite R in TK. cbn [obind] in TK. rewrite T in TK. cbn [obind] in TK. pose proof R as R0. apply run_of_get in R0 as (p & P & R0).
  destruct (negb (sminus (t_pend t) _ =? 0)).
  - destruct (slowest _) as [sig|]; [|discriminate TK]. cbn [obind] in TK. injection TK as <- _ _. rewrite (run_put_thr _ _ _ _ _ R). eexists _, _. split; [reflexivity|].
    cbn [n_thr set_nthr]. rewrite get_bput_same. split; [reflexivity|]. auto.
  - destruct (negb (sminus (n_pend r) _ =? 0)); [|discriminate TK]. destruct (slowest _) as [sig|]; [|discriminate TK]. cbn [obind] in TK. injection TK as <- _ _.
    rewrite (run_of_put_run _ _ _ _ _ P), Z.eqb_refl. eexists _, t. split; [reflexivity|]. auto.
Qed.

Lemma handler_law xs h o x h' o' pid tid sig i f : steps host_new xs = Some (h, o) -> step h x = Some (h', o') -> In (OHandler pid tid sig i f) o' ->
  exists d rt all r t r' t', h_cur h = Some (pid, tid, MSig rt all) /\ h_cur h' = Some (pid, tid, MApp) /\ o' = [OTake pid tid d i; OHandler pid tid sig i f] /\ si_sig i = sig /\
    run_of h pid = Some r /\ get tid (n_thr r) = Some t /\ run_of h' pid = Some r' /\ get tid (n_thr r') = Some t' /\
    sa_h (act_of r sig) = HFun f /\
    (forall s, 1 <= s -> shas (t_mask t') s = shas (t_mask t) s || shas (sa_mask (act_of r sig)) s || (negb (sa_nodefer (act_of r sig)) && (s =? sig))) /\
    t_frames t' = mkFrame sig (t_mask t) (t_stk t) rt (all && sa_restart (act_of r sig)) :: t_frames t /\
    stack_of (sa_onstack (act_of r sig)) (t_stk t) (t_stk t') /\
    (forall s, act_of r' s = if sa_resethand (act_of r sig) && (s =? sig) then act_default else act_of r s).
Proof.
  intros XS E IN. destruct (only_loop _ _ _ _ _ E IN Logic.I) as (pid0 & tid0 & rt & all & io & HC & -> & LO). assert (TP := top_of _ _ _ XS).
  unfold Top in TP. rewrite HC in TP. destruct TP as [GD RU]. unfold loop in LO.
  destruct (take h pid0 tid0) as [[[[h1 i1] d1]|]|] eqn:TK; [| |discriminate LO]; cbn [obind] in LO.
  2:{ exfalso. destruct (r_call rt) as [c|]; [destruct (_ && _ && _)|].
      - apply call_inner in LO. exact (LO _ IN).
      - injection LO as _ <-. destruct IN as [X|[]]; discriminate X.
      - injection LO as _ <-. destruct IN. }
  destruct RU as (t & T & ST). apply thr_of_get in T as (r & R & T). destruct (take_keeps _ _ _ _ _ _ _ _ TK R T) as (r1 & t1 & R1 & T1 & M1 & M2 & M3 & M4).
  assert (SG : 1 <= si_sig i1).
  { destruct (take_good noL _ _ _ _ _ _ _ _ GD ltac:(exists t; split; [apply thr_of_get; eauto|exact ST]) TK) as (_ & _ & _ & _ & SG). lia. }
  rewrite R1 in LO. cbn [obind] in LO. rewrite T1 in LO. cbn [obind] in LO. unfold act_of in LO. rewrite M4 in LO. fold (act_of r (si_sig i1)) in LO.
  destruct (sa_h (act_of r (si_sig i1))) as [| |f1] eqn:HS.
  - exfalso. injection LO as _ <-. destruct IN as [X|[]]; discriminate X.
  - exfalso. destruct (defaultaction (si_sig i1)); try discriminate LO; try (injection LO as _ <-; destruct IN as [X|[]]; discriminate X);
      (destruct (end_process h1 pid0 _) as [[h2 o2]|] eqn:EE; [|discriminate LO]; cbn [obind] in LO; injection LO as _ <-; destruct IN as [X|IN]; [discriminate X|];
       apply end_inner in EE; exact (EE _ IN)).
  - injection LO as <- <-. destruct IN as [X|[X|[]]]; [discriminate X|]. injection X as -> -> SE -> ->. rewrite SE in *.
    pose proof R1 as R2. apply run_of_get in R2 as (p1 & P1 & R2).
    eexists d1, rt, all, r, t, _, _. split; [exact HC|]. split; [reflexivity|]. split; [reflexivity|]. split; [reflexivity|]. split; [exact R|]. split; [exact T|].
    split; [change (run_of (set_cur ?a ?b) pid) with (run_of a pid); rewrite (run_of_put_run _ _ _ _ _ P1), Z.eqb_refl; reflexivity|].
    cbn [n_thr set_nthr set_nacts]. split; [apply get_bput_same|]. split; [exact HS|]. cbn [t_mask t_frames t_stk]. split; [|split; [|split]].
    + intros s S1. rewrite M1. unfold handler_mask. destruct (sa_nodefer _); cbn [negb andb].
      * rewrite shas_lor, orb_false_r. apply orb_comm.
      * rewrite shas_sadd by exact SG. rewrite shas_lor. rewrite orb_comm. f_equal. apply orb_comm.
    + now rewrite M1, M2, M3.
    + rewrite M2. unfold handler_stk, stack_of. destruct (sa_onstack _), (ss_disable (t_stk t)), (ss_autodisarm (t_stk t)); reflexivity.
    + intros s. unfold act_of at 1. cbn [n_acts set_nacts set_nthr]. destruct (sa_resethand _); cbn [andb]; [|reflexivity].
      rewrite get_put. change (eqb s sig) with (s =? sig). destruct (s =? sig); reflexivity.
Qed.

Lemma handler_end h pid tid t f fs h' o' : h_cur h = Some (pid, tid, MApp) -> thr_of h pid tid = Some t -> t_frames t = f :: fs -> step h PRet = Some (h', o') ->
  o' = [] /\ h_cur h' = Some (pid, tid, MSig (f_ret f) (f_all f)) /\
  exists t', thr_of h' pid tid = Some t' /\ t_mask t' = f_mask f /\ t_stk t' = f_stk f /\ t_frames t' = fs.
Proof.
  intros HC T F E. unfold step in E. rewrite HC, T, F in E. injection E as <- <-. split; [reflexivity|]. split; [reflexivity|]. apply thr_of_get in T as (r & R & T).
  eexists. split; [change (thr_of (set_cur ?a ?b) pid tid) with (thr_of a pid tid); apply (thr_put_thr _ _ _ _ _ R)|]. auto.
Qed.

(** The mask and the stack of a thread are the same after a handler as before. *)
Lemma handler_restores xs h o x h1 o1 pid tid sig i f ys h2 o2 h3 o3 :
  steps host_new xs = Some (h, o) -> step h x = Some (h1, o1) -> In (OHandler pid tid sig i f) o1 -> steps h1 ys = Some (h2, o2) ->
  h_cur h2 = Some (pid, tid, MApp) ->
  (exists t1 t2, thr_of h1 pid tid = Some t1 /\ thr_of h2 pid tid = Some t2 /\ t_frames t2 = t_frames t1) ->
  step h2 PRet = Some (h3, o3) ->
  exists t t3, thr_of h pid tid = Some t /\ thr_of h3 pid tid = Some t3 /\ t_mask t3 = t_mask t /\ t_stk t3 = t_stk t /\ t_frames t3 = t_frames t /\
    exists rt all a, h_cur h = Some (pid, tid, MSig rt all) /\ (exists r, run_of h pid = Some r /\ act_of r sig = a) /\
      h_cur h3 = Some (pid, tid, MSig rt (all && sa_restart a)).
Proof.
  intros XS E IN YS HC (t1 & t2 & T1 & T2 & F) E3. destruct (handler_law _ _ _ _ _ _ _ _ _ _ _ XS E IN) as (d & rt & all & r & t & r' & t' & C0 & C1 & _ & _ & R & T & R' & T' & _ & _ & FR & _).
  assert (t' = t1). { assert (X : thr_of h1 pid tid = Some t') by (apply thr_of_get; eauto). congruence. } subst t'. rewrite FR in F.
  destruct (handler_end _ _ _ _ _ _ _ _ HC T2 F E3) as (_ & C3 & t3 & T3 & M1 & M2 & M3). cbn [f_mask f_stk f_ret f_all] in *.
  exists t, t3. split; [apply thr_of_get; eauto|]. split; [exact T3|]. split; [exact M1|]. split; [exact M2|]. split; [exact M3|].
  exists rt, all, (act_of r sig). split; [exact C0|]. split; [eauto|exact C3].
Qed.

(** * SIGKILL *)
Lemma sigkill_kills xs h o x h' o' pid tid d i : steps host_new xs = Some (h, o) -> step h x = Some (h', o') -> In (OTake pid tid d i) o' -> si_sig i = 9 ->
  In (ODied pid (Signaled 9)) o' /\ run_of h' pid = None.
Proof.
  intros XS E IN S9. destruct (only_loop _ _ _ _ _ E IN Logic.I) as (pid0 & tid0 & rt & all & io & HC & -> & LO). assert (TP := top_of _ _ _ XS).
  unfold Top in TP. rewrite HC in TP. destruct TP as [GD RU]. assert (TM := tame_reach _ _ _ XS). unfold loop in LO.
  destruct (take h pid0 tid0) as [[[[h1 i1] d1]|]|] eqn:TK; [| |discriminate LO]; cbn [obind] in LO.
  2:{ exfalso. destruct (r_call rt) as [c|]; [destruct (_ && _ && _)|].
      - apply call_inner in LO. exact (LO _ IN).
      - injection LO as _ <-. destruct IN as [X|[]]; discriminate X.
      - injection LO as _ <-. destruct IN. }
  pose proof RU as (t & T & ST). apply thr_of_get in T as (r & R & T). destruct (take_keeps _ _ _ _ _ _ _ _ TK R T) as (r1 & t1 & R1 & T1 & M1 & M2 & M3 & M4).
  rewrite R1 in LO. cbn [obind] in LO. rewrite T1 in LO. cbn [obind] in LO.
  assert (EQ : i1 = i /\ pid0 = pid).
  { destruct (sa_h (act_of r1 (si_sig i1))) as [| |f].
    - injection LO as _ <-. destruct IN as [X|[]]. injection X as -> _ _ ->. auto.
    - destruct (defaultaction (si_sig i1)); try discriminate LO; try (injection LO as _ <-; destruct IN as [X|[]]; injection X as -> _ _ ->; auto);
        (destruct (end_process h1 pid0 _) as [[h2 o2]|] eqn:EE; [|discriminate LO]; cbn [obind] in LO; injection LO as _ <-; destruct IN as [X|IN]; [injection X as -> _ _ ->; auto|];
         exfalso; apply end_inner in EE; exact (EE _ IN)).
    - injection LO as _ <-. destruct IN as [X|[X|[]]]; [injection X as -> _ _ ->; auto|discriminate X]. }
  destruct EQ as [-> ->]. rewrite S9 in LO.
  assert (A : act_of r1 9 = act_default). { unfold act_of. rewrite M4. destruct (TM pid r R) as [FX _]. destruct (FX 9 ltac:(left; reflexivity)) as [-> | ->]; reflexivity. }
  rewrite A in LO. cbn [sa_h act_default] in LO. change (defaultaction 9) with DTerm in LO. cbv iota in LO.
  destruct (end_process h1 pid (Signaled 9)) as [[h2 o2]|] eqn:EE; [|discriminate LO]. cbn [obind] in LO. injection LO as <- <-.
  destruct (take_good noL _ _ _ _ _ _ _ _ GD RU TK) as (_ & GD1 & _ & _ & _).
  destruct (end_good _ _ _ _ _ _ _ _ _ _ GD1 R1 ltac:(intros q y [= -> _]; reflexivity) EE) as (_ & _ & _ & _ & _ & IN2 & RN). split; [right; exact IN2|exact RN].
Qed.

(** The actions of SIGKILL and SIGSTOP are the default ones. *)
Lemma fixed_actions xs h o pid r s : steps host_new xs = Some (h, o) -> run_of h pid = Some r -> s = 9 \/ s = 19 -> act_of r s = act_default.
Proof. intros XS R SS. destruct (tame_reach _ _ _ XS pid r R) as [FX _]. unfold act_of. destruct (FX s SS) as [-> | ->]; reflexivity. Qed.

(** * Blocked calls *)
Lemma woken_thread xs h o pid tid r t c s : steps host_new xs = Some (h, o) -> run_of h pid = Some r -> get tid (n_thr r) = Some t -> t_st t = TBlk c ->
  shas (t_pend t) s = true -> shas (t_mask t) s = false -> In (TkWake pid tid (c_id c) (c_trig c)) (h_tasks h).
Proof.
  intros XS R T B PN MS. assert (TP := top_of _ _ _ XS). unfold Top in TP.
  assert (G : exists cu, Good noL None cu (after nothing o) (lafter nobody o) h /\ Some (pid, tid) <> cu).
  { destruct (h_cur h) as [[[p q] m]|]; [|exists None; split; [exact TP|discriminate]]. destruct TP as [GD (tq & TQ & SQ)]. exists (Some (p, q)). split; [exact GD|]. intros [= -> ->].
    assert (thr_of h p q = Some t) by (apply thr_of_get; eauto). congruence. }
  destruct G as (cu & GD & NC). pose proof R as R0. apply run_of_get in R0 as (p & P & R0). pose proof (good_run _ _ _ _ _ _ _ _ _ GD P R0) as RK.
  destruct (n_thrs _ _ _ _ _ _ _ RK tid t T) as [T1 _ T3]. specialize (T3 NC). rewrite B in T3. destruct T3 as (A1 & A2 & _). apply A1, A2.
  intros Z0. assert (X := proj1 (sminus_zero _ (t_mask t) (proj1 T1)) Z0 s PN). congruence.
Qed.

Lemma woken_process xs h o pid tid r t c s : steps host_new xs = Some (h, o) -> run_of h pid = Some r -> get tid (n_thr r) = Some t -> t_st t = TBlk c ->
  (forall x fl raw, In (OCall pid x (Clone fl raw)) o -> cf_thread fl = false) ->
  shas (n_pend r) s = true -> shas (t_mask t) s = false -> In (TkWake pid tid (c_id c) (c_trig c)) (h_tasks h).
Proof.
  intros XS R T B NT PN MS. set (L := fun z => z =? pid).
  assert (FT : fits L o). { intros p x fl raw IN CT. unfold L. destruct (Z.eqb_spec p pid) as [->|]; [|reflexivity]. rewrite (NT _ _ _ IN) in CT. discriminate CT. }
  destruct (runs_good L _ _ _ XS FT) as (_ & _ & TP). unfold Top in TP.
  assert (G : exists cu, Good L None cu (after nothing o) (lafter nobody o) h /\ Some (pid, tid) <> cu).
  { destruct (h_cur h) as [[[p q] m]|]; [|exists None; split; [exact TP|discriminate]]. destruct TP as [GD (tq & TQ & SQ)]. exists (Some (p, q)). split; [exact GD|]. intros [= -> ->].
    assert (thr_of h p q = Some t) by (apply thr_of_get; eauto). congruence. }
  destruct G as (cu & GD & NC). pose proof R as R0. apply run_of_get in R0 as (p & P & R0). pose proof (good_run _ _ _ _ _ _ _ _ _ GD P R0) as RK.
  destruct (n_thrs _ _ _ _ _ _ _ RK tid t T) as [_ _ T3]. specialize (T3 NC). rewrite B in T3. destruct T3 as (A1 & _ & A2). apply A1, A2; [unfold L; apply Z.eqb_refl|].
  intros Z0. assert (X := proj1 (sminus_zero _ (t_mask t) (proj1 (n_pset _ _ _ _ _ _ _ RK))) Z0 s PN). congruence.
Qed.

(** A wait call is woken for an ended child it would report. *)
Lemma ready_of r t s : shas (t_pend t) s = true \/ shas (n_pend r) s = true -> shas (t_mask t) s = false -> std_set (t_pend t) -> std_set (n_pend r) -> sig_ready r t = true.
Proof.
  intros H M S1 S2. unfold sig_ready. destruct (Z.eqb_spec (sminus (Z.lor (t_pend t) (n_pend r)) (t_mask t)) 0) as [Z0|]; [|reflexivity]. exfalso.
  assert (X := proj1 (sminus_zero _ (t_mask t) (std_lor _ _ S1 S2)) Z0 s). rewrite shas_lor in X. rewrite X in M; [discriminate M|]. destruct H as [-> | ->]; [reflexivity|apply orb_true_r].
Qed.

Lemma deliverable_ready r t : std_set (t_pend t) -> std_set (n_pend r) -> (deliverable r t <-> sig_ready r t = true).
Proof.
  intros S1 S2. split; [intros (s & H & M); eapply ready_of; eauto|]. intros H. destruct (sig_ready r t) eqn:SR; [|discriminate H]. unfold sig_ready in SR.
  destruct (Z.eqb_spec (sminus (Z.lor (t_pend t) (n_pend r)) (t_mask t)) 0) as [|N]; [discriminate SR|].
  destruct (std_nonzero _ (std_minus _ (t_mask t) (std_lor _ _ S1 S2)) N) as (s & HS & _). apply sminus_has in HS as [A B]. rewrite shas_lor in A. exists s. split; [|exact B].
  apply orb_true_iff in A. exact A.
Qed.

(** The host in which a blocked call is made again. *)
Definition awake (h : host) (ts : list task) (pid tid : Z) (r : run) (t : thr) : host :=
  put_run (set_tasks h ts) pid (set_nthr (set_nlst r (filter (fun e => negb (fst e =? tid)) (n_lst r))) (bput tid (set_tst t TRun) (n_thr r))).

Lemma put_run_twice h pid r r' p : get pid (h_procs h) = Some p -> put_run (put_run h pid r) pid r' = put_run h pid r'.
Proof.
  intros P. rewrite (put_run_eq h pid p r P), (put_run_eq h pid p r' P).
  rewrite (put_run_eq _ pid (set_pst p (PRun r))) by (rewrite get_put_proc, Z.eqb_refl; reflexivity). unfold put_proc, set_procs. cbn [h_procs]. rewrite bput_bput. reflexivity.
Qed.

Lemma wake_calls h ts pid tid cid tr sat io r t c : run_of h pid = Some r -> get tid (n_thr r) = Some t -> t_st t = TBlk c ->
  sat = true \/ tr = TrChild \/ sig_ready r t = true ->
  do_wake (set_tasks h ts) pid tid cid tr sat io = do_call (awake h ts pid tid r t) pid tid (c_call c) io.
Proof.
  intros R T ST W. unfold do_wake. change (run_of (set_tasks h ts) pid) with (run_of h pid). rewrite R, T, ST. cbv zeta.
  assert (W' : sat || match tr with TrChild => true | _ => false end || sig_ready r t = true).
  { destruct W as [-> |[-> | ->]]; [reflexivity|destruct sat; reflexivity|apply orb_true_r]. }
  rewrite W'. pose proof R as R0. apply run_of_get in R0 as (p & P & R0). destruct (c_id c =? cid).
  - unfold resume. assert (R' : run_of (set_tasks h ts) pid = Some r) by exact R. rewrite (run_put_thr _ pid tid _ r R'). cbn [n_thr set_nthr]. rewrite get_bput_same. cbn [t_st set_tst c_call].
    unfold put_thr. rewrite R'. rewrite (put_run_twice _ _ _ _ p) by exact P. f_equal. unfold awake. f_equal. cbn [n_lst n_thr set_nlst set_nthr set_tst]. unfold set_nthr, set_nlst. cbn. rewrite bput_bput. reflexivity.
  - unfold resume. change (run_of (set_tasks h ts) pid) with (run_of h pid). rewrite R, T, ST. reflexivity.
Qed.

Lemma awake_good S l h ts pid tid cid tr r t c : Good noL None None S l h -> h_tasks h = TkWake pid tid cid tr :: ts -> run_of h pid = Some r -> get tid (n_thr r) = Some t -> t_st t = TBlk c ->
  Good noL None (Some (pid, tid)) S l (awake h ts pid tid r t) /\ runs (awake h ts pid tid r t) pid tid.
Proof.
  intros GD HT R T ST. pose proof (good_pop noL S l h _ ts (Some (pid, tid)) GD HT) as G1. specialize (G1 ltac:(intros ? ? ? ? [= <- <- _ _]; reflexivity)).
  pose proof R as R0. apply run_of_get in R0 as (p & P & R0). exact (good_unblocked _ _ _ _ (set_tasks h ts) _ _ p _ _ _ G1 P R0 T ST).
Qed.

Lemma awake_get h ts pid tid r t p : get pid (h_procs h) = Some p -> p_st p = PRun r -> forall z q, get z (h_procs (awake h ts pid tid r t)) = Some q ->
  exists q0, get z (h_procs h) = Some q0 /\ p_par q = p_par q0 /\ p_pgid q = p_pgid q0 /\ p_exs q = p_exs q0 /\ (z <> pid -> q = q0) /\ (is_zombie q = is_zombie q0).
Proof.
  intros P R z q. unfold awake. rewrite (get_put_run (set_tasks h ts) z pid p _ P). destruct (Z.eqb_spec z pid) as [->|N].
  - intros [= <-]. exists p. unfold is_zombie. cbn. rewrite R. repeat split; auto; try congruence.
  - intros Q. exists q. repeat split; auto.
Qed.

(** * How a call ends that does not exit *)
Lemma handle_block h pid tid c io h1 o1 tr rs : handle h pid tid c io = Some (h1, o1, RBlock tr rs) -> h_procs h1 = h_procs h /\ o1 = [].
Proof.
  assert (WI : forall t fl idr, wait_internal h pid t fl idr = Some (h1, o1, RBlock tr rs) -> h_procs h1 = h_procs h /\ o1 = []).
  { intros t fl idr. unfold wait_internal. destruct (filter _ (h_procs h)); [discriminate|]. destruct (negb (w_exited fl)).
    - destruct (w_nohang fl); [discriminate|]. intros [= <- <- _ _]. auto.
    - destruct (filter _ (_ :: _)) as [|[c0 p0] ?].
      + destruct (w_nohang fl); [discriminate|]. intros [= <- <- _ _]. auto.
      + destruct (p_st p0); discriminate. }
  destruct c; cbn [handle].
  - unfold do_kill. destruct (pid0 =? -1); [discriminate|]. destruct (pid0 =? I32_MIN); [discriminate|]. cbv zeta. destruct (get _ (h_procs h)); [|discriminate].
    unfold signal_process. destruct (sig =? 0); [discriminate|]. destruct (negb _); [discriminate|]. destruct (is_rt sig); [discriminate|]. destruct (signal_run _ _ _ _ _) as [[? ?]|]; discriminate.
  - unfold do_tkill. destruct (_ || _); [discriminate|]. destruct (find_thread _ _) as [[? ?]|]; [|discriminate]. cbv iota. destruct (sig =? 0); [discriminate|]. destruct (negb _); [discriminate|].
    destruct (is_rt sig); [discriminate|]. destruct (signal_thread _ _ _ _ _) as [[? ?]|]; discriminate.
  - unfold do_tkill. destruct (_ || _); [discriminate|]. destruct (find_thread _ _) as [[? ?]|]; [|discriminate]. cbv iota. destruct (negb _); [discriminate|]. destruct (sig =? 0); [discriminate|]. destruct (negb _); [discriminate|].
    destruct (is_rt sig); [discriminate|]. destruct (signal_thread _ _ _ _ _) as [[? ?]|]; discriminate.
  - unfold do_sigaction. destruct (negb _); [discriminate|]. destruct act; [|discriminate]. destruct (_ || _); [discriminate|]. destruct (run_of h pid); discriminate.
  - unfold do_sigprocmask. destruct set; [|discriminate]. destruct (thr_of h pid tid); [|discriminate]. cbn [obind noobs]. destruct (how =? 0); [discriminate|]. destruct (how =? 1); [discriminate|]. destruct (how =? 2); discriminate.
  - unfold do_sigaltstack. destruct ss; [|discriminate]. destruct (thr_of h pid tid); [|discriminate]. cbn [obind noobs]. destruct (ss_onstack _); [discriminate|]. cbv zeta. destruct (_ || _); discriminate.
  - unfold do_clone. cbv zeta. repeat match goal with |- (if ?b then Some (h, [], err _) else _) = _ -> _ => destruct b; [discriminate|] end.
    destruct (get pid (h_procs h)); [|discriminate]. cbn [obind]. destruct (run_of h pid); [|discriminate]. cbn [obind]. destruct (cf_thread fl); discriminate.
  - discriminate.
  - discriminate.
  - destruct found; [|discriminate]. intros [= <- <- _ _]. auto.
  - unfold do_wait4. destruct (_ || _); [discriminate|]. destruct (get pid _); [|discriminate]. cbn [obind]. destruct (waitpid_target _ _); [|discriminate]. cbn [obind]. apply WI.
  - unfold do_waitid. destruct (get pid _); [|discriminate]. cbn [obind]. destruct which; try discriminate; try apply WI.
    + destruct (id <? 0); [discriminate|apply WI].
    + destruct (id <? 0); [discriminate|apply WI].
    + destruct (existsb _ _); discriminate.
  - discriminate.
  - destruct (get pid _); discriminate.
  - discriminate.
  - destruct (get pid _); discriminate.
  - unfold do_getpgid. destruct (get pid (h_procs h)); [|discriminate]. cbn [obind noobs]. destruct (_ || _); [discriminate|]. destruct (_ <? _); [discriminate|]. destruct (get pid0 _); discriminate.
  - unfold do_setpgid. destruct (get pid (h_procs h)); [|discriminate]. cbn [obind noobs]. cbv zeta. destruct (_ && _); [discriminate|]. destruct (get _ (h_procs h)); [|discriminate].
    repeat match goal with |- context [if ?b then Some (h, err _) else _] => destruct b; [discriminate|] end. discriminate.
  - unfold do_getsid. destruct (get pid (h_procs h)); [|discriminate]. cbn [obind noobs]. destruct (_ =? _); [discriminate|]. destruct (_ <? _); [discriminate|]. destruct (get pid0 _); discriminate.
  - unfold do_setsid. destruct (get pid (h_procs h)); [|discriminate]. cbn [obind noobs]. destruct (sid_of_group _ _); discriminate.
  - unfold do_pdeath. destruct (get pid (h_procs h)); [|discriminate]. cbn [obind noobs]. destruct (_ =? _); [discriminate|]. destruct (is_sig _); discriminate.
  - destruct io; [discriminate|]. intros [= <- <- _ _]. auto.
Qed.

Lemma call_blocks S l h pid tid c io h1 o1 tr rs h' o' r t : Good noL None (Some (pid, tid)) S l h -> run_of h pid = Some r -> get tid (n_thr r) = Some t -> t_st t = TRun ->
  handle h pid tid c io = Some (h1, o1, RBlock tr rs) -> do_call h pid tid c io = Some (h', o') ->
  o' = [OCall pid tid c] /\
  (deliverable r t -> h_cur h' = Some (pid, tid, MSig (mkRet (- EINTR) rs (Some c)) true) /\ h_procs h' = h_procs h) /\
  (~ deliverable r t -> h_cur h' = None /\ waits_blocked h' pid tid c /\ forall z, z <> pid -> get z (h_procs h') = get z (h_procs h)).
Proof.
  intros GD R T ST HA E. destruct (handle_block _ _ _ _ _ _ _ _ _ HA) as [HP ->]. unfold do_call in E. rewrite HA in E. cbn [obind] in E.
  assert (R1 : run_of h1 pid = Some r) by (unfold run_of; rewrite HP; exact R). rewrite R1 in E. cbn [obind] in E. rewrite T in E. cbn [obind] in E.
  pose proof R as R0. apply run_of_get in R0 as (p & P & R0). pose proof (good_run _ _ _ _ _ _ _ _ _ GD P R0) as RK. destruct (n_thrs _ _ _ _ _ _ _ RK tid t T) as [T1 _ _].
  pose proof (deliverable_ready r t (proj1 T1) (proj1 (n_pset _ _ _ _ _ _ _ RK))) as DR. destruct (sig_ready r t).
  - cbv zeta iota in E. injection E as <- <-. split; [reflexivity|]. split; [|intros N; exfalso; apply N, DR; reflexivity]. intros _. split; [reflexivity|]. cbn [h_procs set_cur].
    assert (EQ : set_tst t TRun = t) by (destruct t; cbn in ST |- *; subst; reflexivity). rewrite EQ.
    assert (G1 : bsorted (h_procs h1)) by (rewrite HP; exact (g_sorted _ _ _ _ _ _ GD)).
    rewrite (put_thr_eq h1 pid tid t p r) by (rewrite ?HP; auto). unfold put_proc. cbn [h_procs set_procs].
    rewrite (bput_same tid t _ (n_sorted _ _ _ _ _ _ _ RK) T). assert (EP : set_pst p (PRun (set_nthr r (n_thr r))) = p) by (destruct p as [a b c0 d e f]; cbn in R0 |- *; subst f; destruct r; reflexivity).
    rewrite EP. rewrite (bput_same pid p _ G1) by (rewrite HP; exact P). exact HP.
  - cbv zeta iota in E. injection E as <- <-. split; [reflexivity|]. split; [intros D; apply DR in D; discriminate D|]. intros _.
    set (hh := mkHost (h_procs h1) (h_next h1) (h_cid h1 + 1) (h_tasks h1) None).
    assert (PP : get pid (h_procs hh) = Some p) by (cbn [hh h_procs]; rewrite HP; exact P).
    match goal with |- context [put_run hh pid ?x] => set (rr := x) end.
    split; [exact (proj2 (proj2 (proj2 (put_run_rest hh pid rr))))|]. split.
    + eexists _, _. unfold thr_of. rewrite (run_of_put_run hh pid pid p rr PP), Z.eqb_refl. cbn [rr n_thr set_nlst set_nthr]. rewrite get_bput_same. split; [reflexivity|]. split; reflexivity.
    + intros z N. rewrite (get_put_run hh z pid p rr PP). destruct (Z.eqb_spec z pid); [contradiction|]. cbn [hh h_procs]. now rewrite HP.
Qed.

(** When the wakeup of a blocked call runs and a signal can be delivered, the call is no longer blocked. *)
Lemma woken_leaves xs h o pid tid cid tr ts sat io r t c h' o' : steps host_new xs = Some (h, o) -> h_cur h = None -> h_tasks h = TkWake pid tid cid tr :: ts ->
  run_of h pid = Some r -> get tid (n_thr r) = Some t -> t_st t = TBlk c -> deliverable r t -> step h (PTask sat io) = Some (h', o') ->
  exists v rs, h_cur h' = Some (pid, tid, MSig (mkRet v rs (Some (c_call c))) true).
Proof.
  intros XS HC HT R T ST DV E. assert (TP := top_of _ _ _ XS). unfold Top in TP. rewrite HC in TP. destruct (awake_good _ _ _ _ _ _ _ _ _ _ _ TP HT R T ST) as [GA RA].
  pose proof R as R0. apply run_of_get in R0 as (p & P & R0). pose proof (good_run _ _ _ _ _ _ _ _ _ TP P R0) as RK. destruct (n_thrs _ _ _ _ _ _ _ RK tid t T) as [T1 _ _].
  unfold step in E. rewrite HC, HT in E. cbn [run_task] in E.
  rewrite (wake_calls h ts pid tid cid tr sat io r t c R T ST) in E by (right; right; apply (deliverable_ready r t (proj1 T1) (proj1 (n_pset _ _ _ _ _ _ _ RK))); exact DV).
  set (h2 := awake h ts pid tid r t) in *. set (t2 := set_tst t TRun).
  assert (BL : blocking (c_call c) (c_trig c)) by (destruct (tame_reach _ _ _ XS pid r R) as [_ X]; eauto).
  destruct (handle h2 pid tid (c_call c) io) as [[[h3 o3] res]|] eqn:HA; [|unfold do_call in E; rewrite HA in E; discriminate E].
  destruct res as [v rs|tr' rs|code|code].
  - rewrite (call_done _ _ _ _ _ _ _ _ _ _ _ GA RA HA) in E. injection E as <- _. exists v, rs. reflexivity.
  - assert (R2 : run_of h2 pid = Some (set_nthr (set_nlst r (filter (fun e => negb (fst e =? tid)) (n_lst r))) (bput tid t2 (n_thr r)))) by (unfold h2, awake; rewrite (run_of_put_run (set_tasks h ts) pid pid p _ P), Z.eqb_refl; reflexivity).
    assert (T2 : get tid (n_thr (set_nthr (set_nlst r (filter (fun e => negb (fst e =? tid)) (n_lst r))) (bput tid t2 (n_thr r)))) = Some t2) by (cbn [n_thr set_nthr]; apply get_bput_same).
    destruct (call_blocks _ _ _ _ _ _ _ _ _ _ _ _ _ _ _ GA R2 T2 eq_refl HA E) as (_ & D & _). exists (- EINTR), rs. apply D. exact DV.
  - exfalso. apply handle_plain in HA. destruct (c_call c), (c_trig c); try contradiction BL; exact HA.
  - exfalso. apply handle_plain in HA. destruct (c_call c), (c_trig c); try contradiction BL; exact HA.
Qed.

(** The end of the processing of signals. *)
Lemma restart_law xs h o pid tid rt all io r t h' o' c : steps host_new xs = Some (h, o) -> h_cur h = Some (pid, tid, MSig rt all) -> run_of h pid = Some r -> get tid (n_thr r) = Some t ->
  ~ deliverable r t -> r_call rt = Some c -> step h (PLoop io) = Some (h', o') ->
  (r_val rt = - EINTR /\ all = true /\ r_rs rt = true -> (exists o2, o' = OCall pid tid c :: o2) /\ ~ exists v, In (ORet pid tid c v) o') /\
  (~ (r_val rt = - EINTR /\ all = true /\ r_rs rt = true) -> o' = [ORet pid tid c (r_val rt)] /\ h_cur h' = Some (pid, tid, MApp) /\ h_procs h' = h_procs h).
Proof.
  intros XS HC R T ND RC E. assert (TP := top_of _ _ _ XS). unfold Top in TP. rewrite HC in TP. destruct TP as [GD RU].
  unfold step in E. rewrite HC in E. unfold loop in E.
  assert (TK : take h pid tid = Some None).
  { unfold take. rewrite R. cbn [obind]. rewrite T. cbn [obind]. pose proof R as R0. apply run_of_get in R0 as (p & P & R0). pose proof (good_run _ _ _ _ _ _ _ _ _ GD P R0) as RK.
    destruct (n_thrs _ _ _ _ _ _ _ RK tid t T) as [T1 _ _]. pose proof (n_pset _ _ _ _ _ _ _ RK) as R3.
    assert (A : sminus (t_pend t) (t_mask t) = 0). { apply (sminus_zero _ _ (proj1 T1)). intros s H. destruct (shas (t_mask t) s) eqn:M; [reflexivity|]. exfalso. apply ND. exists s. auto. }
    assert (B : sminus (n_pend r) (t_mask t) = 0). { apply (sminus_zero _ _ (proj1 R3)). intros s H. destruct (shas (t_mask t) s) eqn:M; [reflexivity|]. exfalso. apply ND. exists s. auto. }
    rewrite A, B. reflexivity. }
  rewrite TK in E. cbn [obind] in E. rewrite RC in E. split.
  - intros (RV & AL & RS). rewrite RV, AL, RS in E. change ((- EINTR =? - EINTR) && true && true) with true in E. cbv iota in E. pose proof (call_inner _ _ _ _ _ _ _ E) as IN. split.
    + unfold do_call in E. destruct (handle _ _ _ _ _) as [[[h1 o1] res]|]; [|discriminate E]. cbn [obind] in E. destruct (run_of h1 pid) as [r1|]; [|discriminate E]. cbn [obind] in E.
      destruct (get tid (n_thr r1)); [|discriminate E]. cbn [obind] in E. match type of E with match ?x with _ => _ end = _ => destruct x end; try (injection E as _ <-; eauto).
      * destruct (del _ _); [|injection E as _ <-; eauto]. destruct (end_process _ _ _) as [[? ?]|]; [|discriminate E]. cbn [obind] in E. injection E as _ <-. eexists. reflexivity.
      * destruct (end_process _ _ _) as [[? ?]|]; [|discriminate E]. cbn [obind] in E. injection E as _ <-. eexists. reflexivity.
    + intros (v & X). exact (IN _ X).
  - intros N. destruct ((r_val rt =? - EINTR) && all && r_rs rt) eqn:B.
    + exfalso. apply N. apply andb_true_iff in B as [B B3]. apply andb_true_iff in B as [B1 B2]. apply Z.eqb_eq in B1. auto.
    + injection E as <- <-. auto.
Qed.
