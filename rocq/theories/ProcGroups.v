(** Laws of groups and sessions, of new processes and threads, and of exec. *)
From Verif Require Import Base FMap BTree ProcModel ProcSpec ProcBits ProcFaults ProcApi ProcInv ProcSig ProcEnd ProcCall ProcStep ProcRun ProcCrash ProcTame ProcLaws ProcCalls ProcKids.

Lemma same_group xs h o a p b q : steps host_new xs = Some (h, o) -> get a (h_procs h) = Some p -> get b (h_procs h) = Some q -> p_pgid p = p_pgid q -> p_sid p = p_sid q.
Proof. intros XS A B. destruct (good_at _ _ _ XS) as (cu & GD). eapply (g_grp _ _ _ _ _ _ GD); eauto. Qed.

Lemma leader_session xs h o a p b q : steps host_new xs = Some (h, o) -> get a (h_procs h) = Some p -> get b (h_procs h) = Some q -> p_pgid p = b -> p_sid p = p_sid q.
Proof. intros XS A B. destruct (good_at _ _ _ XS) as (cu & GD). eapply (g_lead _ _ _ _ _ _ GD); eauto. Qed.

Lemma opt_eqb_true a b : opt_eqb a b = true <-> a = Some b.
Proof. destruct a as [x|]; cbn; [rewrite Z.eqb_eq|]; split; try discriminate; congruence. Qed.

Lemma group_iff xs h o g s : steps host_new xs = Some (h, o) -> (opt_eqb (sid_of_group h g) s = true <-> exists z y, get z (h_procs h) = Some y /\ p_pgid y = g /\ p_sid y = s).
Proof.
  intros XS. destruct (good_at _ _ _ XS) as (cu & GD). rewrite opt_eqb_true. split.
  - intros E. exact (group_some _ _ _ (g_sorted _ _ _ _ _ _ GD) E).
  - intros (z & y & G & A & B). destruct (sid_of_group h g) as [s'|] eqn:E.
    + destruct (group_some _ _ _ (g_sorted _ _ _ _ _ _ GD) E) as (z' & y' & G' & A' & B'). f_equal. rewrite <- B, <- B'. eapply (g_grp _ _ _ _ _ _ GD); [exact G'|exact G|congruence].
    + exfalso. exact (group_none _ _ _ _ E G A).
Qed.

Lemma setpgid_law xs h o pid tid x g io h' o' p : steps host_new xs = Some (h, o) -> h_cur h = Some (pid, tid, MApp) -> get pid (h_procs h) = Some p ->
  step h (PCall (Setpgid x g) io) = Some (h', o') -> 0 <= x -> 0 <= g ->
  let tgt := if x =? 0 then pid else x in
  o' = [OCall pid tid (Setpgid x g)] /\
  (get tgt (h_procs h) = None -> completes h' pid tid (Setpgid x g) (- ESRCH) /\ h_procs h' = h_procs h) /\
  (forall q, get tgt (h_procs h) = Some q ->
     (may_setpgid h pid tgt g p q -> completes h' pid tid (Setpgid x g) 0 /\
        forall z, get z (h_procs h') = if z =? tgt then Some (set_pgid q (if g =? 0 then tgt else g)) else get z (h_procs h)) /\
     (~ may_setpgid h pid tgt g p q -> (completes h' pid tid (Setpgid x g) (- ESRCH) \/ completes h' pid tid (Setpgid x g) (- EPERM)) /\ h_procs h' = h_procs h)).
Proof.
  intros XS HC P E X0 G0 tgt.
  assert (TG : (if (x =? 0) || (x =? pid) then pid else x) = tgt) by (unfold tgt; destruct (Z.eqb_spec x 0), (Z.eqb_spec x pid); cbn; congruence).
  assert (HD : handle h pid tid (Setpgid x g) io = noobs (do_setpgid h pid x g)) by reflexivity.
  unfold do_setpgid in HD. rewrite P in HD. cbn [obind] in HD. cbv zeta in HD. rewrite TG in HD.
  assert (N1 : negb ((x =? 0) || (x =? pid)) && (x <? 0) = false) by (destruct (Z.ltb_spec x 0); [lia|apply andb_false_r]). rewrite N1 in HD.
  assert (N2 : (g <? 0) = false) by lia. rewrite N2 in HD. unfold noobs in HD.
  assert (CA : forall h1 v, handle h pid tid (Setpgid x g) io = Some (h1, [], RDone v false) -> completes h' pid tid (Setpgid x g) v /\ h_procs h' = h_procs h1 /\ o' = [OCall pid tid (Setpgid x g)]).
  { intros h1 v HH. destruct (call_law _ _ _ _ _ _ _ _ _ _ _ _ _ XS HC HH E) as [-> ->]. unfold completes. auto. }
  destruct (get tgt (h_procs h)) as [q|] eqn:Q.
  2:{ cbn [obind] in HD. destruct (CA _ _ HD) as (A & B & C). split; [exact C|]. split; [auto|]. discriminate. }
  pose proof (group_iff xs h o g (p_sid q) XS) as GI.
  set (c1 := negb (tgt =? pid) && negb (p_par q =? pid)) in *. set (c2 := negb (g =? 0) && negb (opt_eqb (sid_of_group h g) (p_sid q))) in *.
  set (c3 := negb (p_sid q =? p_sid p)) in *. set (c4 := p_sid q =? tgt) in *.
  assert (MY : may_setpgid h pid tgt g p q <-> c1 = false /\ c2 = false /\ c3 = false /\ c4 = false).
  { unfold may_setpgid, c1, c2, c3, c4. destruct (opt_eqb (sid_of_group h g) (p_sid q)).
    - assert (EX := proj1 GI eq_refl). cbn [negb]. rewrite andb_false_r. destruct (Z.eqb_spec tgt pid), (Z.eqb_spec (p_par q) pid), (Z.eqb_spec (p_sid q) (p_sid p)), (Z.eqb_spec (p_sid q) tgt); cbn [negb andb]; intuition congruence.
    - assert (NX : ~ exists z y, get z (h_procs h) = Some y /\ p_pgid y = g /\ p_sid y = p_sid q) by (intros Y; apply GI in Y; discriminate Y). cbn [negb]. rewrite andb_true_r.
      destruct (Z.eqb_spec g 0), (Z.eqb_spec tgt pid), (Z.eqb_spec (p_par q) pid), (Z.eqb_spec (p_sid q) (p_sid p)), (Z.eqb_spec (p_sid q) tgt); cbn [negb andb]; intuition congruence. }
  assert (GOAL : forall v h1, handle h pid tid (Setpgid x g) io = Some (h1, [], RDone v false) ->
     (c1 = false /\ c2 = false /\ c3 = false /\ c4 = false -> v = 0 /\ h1 = put_proc h tgt (set_pgid q (if g =? 0 then tgt else g))) ->
     (~ (c1 = false /\ c2 = false /\ c3 = false /\ c4 = false) -> (v = - ESRCH \/ v = - EPERM) /\ h1 = h) ->
     o' = [OCall pid tid (Setpgid x g)] /\ (Some q = None -> completes h' pid tid (Setpgid x g) (- ESRCH) /\ h_procs h' = h_procs h) /\
     (forall q0, Some q = Some q0 ->
       (may_setpgid h pid tgt g p q0 -> completes h' pid tid (Setpgid x g) 0 /\
          forall z, get z (h_procs h') = if z =? tgt then Some (set_pgid q0 (if g =? 0 then tgt else g)) else get z (h_procs h)) /\
       (~ may_setpgid h pid tgt g p q0 -> (completes h' pid tid (Setpgid x g) (- ESRCH) \/ completes h' pid tid (Setpgid x g) (- EPERM)) /\ h_procs h' = h_procs h))).
  { intros v h1 HH Y N. destruct (CA _ _ HH) as (A & B & C). split; [exact C|]. split; [discriminate|]. intros q0 [= <-]. rewrite MY. split.
    - intros X. destruct (Y X) as [-> ->]. split; [exact A|]. intros z. rewrite B. apply get_put_proc.
    - intros X. destruct (N X) as [[-> | ->] ->]; auto. }
  destruct c1; [apply (GOAL _ _ HD); [intros (Y & _); discriminate Y|auto]|].
  destruct c2; [apply (GOAL _ _ HD); [intros (_ & Y & _); discriminate Y|auto]|].
  destruct c3; [apply (GOAL _ _ HD); [intros (_ & _ & Y & _); discriminate Y|auto]|].
  destruct c4; [apply (GOAL _ _ HD); [intros (_ & _ & _ & Y); discriminate Y|auto]|].
  apply (GOAL _ _ HD); [auto|]. intros X. exfalso. apply X. auto.
Qed.

Lemma setsid_law xs h o pid tid io h' o' p : steps host_new xs = Some (h, o) -> h_cur h = Some (pid, tid, MApp) -> get pid (h_procs h) = Some p ->
  step h (PCall Setsid io) = Some (h', o') ->
  ((exists z q, get z (h_procs h) = Some q /\ p_pgid q = pid) -> completes h' pid tid Setsid (- EPERM) /\ h_procs h' = h_procs h) /\
  (~ (exists z q, get z (h_procs h) = Some q /\ p_pgid q = pid) -> completes h' pid tid Setsid pid /\
     forall z, get z (h_procs h') = if z =? pid then Some (set_pgid (set_sid p pid) pid) else get z (h_procs h)).
Proof.
  intros XS HC P E. destruct (good_at _ _ _ XS) as (cu & GD). assert (HD : handle h pid tid Setsid io = noobs (do_setsid h pid)) by reflexivity. unfold do_setsid in HD. rewrite P in HD. cbn [obind] in HD. unfold noobs in HD.
  destruct (sid_of_group h pid) as [s|] eqn:SG.
  - cbn [obind] in HD. destruct (group_some _ _ _ (g_sorted _ _ _ _ _ _ GD) SG) as (z & y & G & A & _). destruct (call_law _ _ _ _ _ _ _ _ _ _ _ _ _ XS HC HD E) as [-> _]. split; [intros _; unfold completes; auto|].
    intros N. exfalso. apply N. eauto.
  - cbn [obind] in HD. destruct (call_law _ _ _ _ _ _ _ _ _ _ _ _ _ XS HC HD E) as [-> _]. split.
    + intros (z & q & G & A). exfalso. exact (group_none _ _ _ _ SG G A).
    + intros _. split; [reflexivity|]. intros z. cbn [h_procs set_cur]. apply get_put_proc.
Qed.

(** * New processes *)
Lemma clone_law xs h o pid tid fl raw io h' o' p r : steps host_new xs = Some (h, o) -> h_cur h = Some (pid, tid, MApp) -> get pid (h_procs h) = Some p -> p_st p = PRun r ->
  plain_clone fl raw -> step h (PCall (Clone fl raw) io) = Some (h', o') ->
  exists id c rc, get id (h_procs h) = None /\ pid < id /\ (forall z q, get z (h_procs h) = Some q -> z < id) /\ completes h' pid tid (Clone fl raw) id /\
    o' = [OCall pid tid (Clone fl raw); OBorn id (p_par c)] /\ get id (h_procs h') = Some c /\ (forall z, z <> id -> get z (h_procs h') = get z (h_procs h)) /\
    p_par c = (if cf_parent fl then p_par p else pid) /\ p_pgid c = p_pgid p /\ p_sid c = p_sid p /\ p_exs c = (if raw =? 0 then None else Some raw) /\ p_pdeath c = None /\
    p_st c = PRun rc /\ n_pend rc = 0 /\ (forall s, act_of rc s = if cf_clear fl then act_default else act_of r s) /\
    (exists t, n_thr rc = [(id, t)] /\ t_pend t = 0 /\ t_frames t = []) /\ In (TkResume id id) (h_tasks h').
Proof.
  intros XS HC P R (F1 & F2 & F3 & F4 & F5) E. destruct (at_app _ _ _ _ _ XS HC) as [GD RU]. assert (RR : run_of h pid = Some r) by (apply run_of_get; eauto).
  assert (HD : handle h pid tid (Clone fl raw) io = do_clone h pid fl raw) by reflexivity. unfold do_clone in HD. cbv zeta in HD. rewrite F1, F2, F4 in HD. cbn [andb negb] in HD. rewrite !andb_false_r, andb_true_r in HD.
  assert (X1 : negb (raw =? 0) && negb (is_sig raw) = false) by (unfold is_sig; lia). rewrite X1 in HD.
  assert (X2 : cf_vm fl && negb (cf_vfork fl) = false) by (destruct (cf_vm fl), (cf_vfork fl); try reflexivity; specialize (F3 eq_refl); discriminate F3). rewrite X2 in HD.
  rewrite P in HD. cbn [obind] in HD. rewrite RR in HD. cbn [obind] in HD. rewrite orb_false_r in HD.
  destruct (call_law _ _ _ _ _ _ _ _ _ _ _ _ _ XS HC HD E) as [-> ->]. set (id := h_next h) in *.
  assert (LT : forall z q, get z (h_procs h) = Some q -> z < id) by (intros z q G; destruct (g_proc _ _ _ _ _ _ GD z q G) as [[_ X] _ _ _ _]; exact X).
  match goal with |- context [put_proc _ id ?x] => set (c := x) end.
  exists id, c, (mkRun 0 [] (if cf_clear fl then [] else n_acts r) [(id, thr_new true)] [] 0).
  assert (GP : forall z, get z (h_procs (put_proc (mkHost (h_procs h) (id + 1) (h_cid h) (h_tasks h) (h_cur h)) id c)) = if z =? id then Some c else get z (h_procs h)) by (intros z; rewrite get_put_proc; reflexivity).
  split; [destruct (get id (h_procs h)) as [q|] eqn:G; [apply LT in G; lia|reflexivity]|]. split; [eapply LT; eauto|]. split; [exact LT|]. split; [reflexivity|]. split; [reflexivity|].
  cbn [h_procs set_cur add_task set_tasks]. rewrite GP, Z.eqb_refl. split; [reflexivity|]. split; [intros z N; rewrite GP; destruct (Z.eqb_spec z id); [contradiction|reflexivity]|].
  cbn [c p_par p_pgid p_sid p_exs p_pdeath p_st n_pend n_thr]. do 6 (split; [reflexivity|]). split; [reflexivity|].
  split; [intros s; unfold act_of; cbn [n_acts]; destruct (cf_clear fl); reflexivity|]. split; [eauto|]. cbn [h_tasks]. apply in_or_app. right. left. reflexivity.
Qed.

Lemma child_starts xs h o id ts sat io t r h' o' : steps host_new xs = Some (h, o) -> h_cur h = None -> h_tasks h = TkResume id id :: ts -> run_of h id = Some r -> get id (n_thr r) = Some t -> t_st t = TNew true ->
  step h (PTask sat io) = Some (h', o') -> h_cur h' = Some (id, id, MSig (mkRet 0 false None) true) /\ o' = [].
Proof.
  intros XS HC HT R T ST E. unfold step in E. rewrite HC, HT in E. cbn [run_task] in E. unfold resume in E. change (run_of (set_tasks h ts) id) with (run_of h id) in E. rewrite R, T, ST in E. injection E as <- <-. auto.
Qed.

(** * exec *)
Lemma exec_law xs h o pid tid ts sat io r t p h' o' : steps host_new xs = Some (h, o) -> h_cur h = None -> h_tasks h = TkExec pid tid :: ts ->
  get pid (h_procs h) = Some p -> p_st p = PRun r -> get tid (n_thr r) = Some t -> step h (PTask sat io) = Some (h', o') ->
  o' = [OExec pid tid] /\ h_cur h' = Some (pid, pid, MApp) /\
  exists p' r' t', get pid (h_procs h') = Some p' /\ p_st p' = PRun r' /\ n_thr r' = [(pid, t')] /\
    p_par p' = p_par p /\ p_pgid p' = p_pgid p /\ p_sid p' = p_sid p /\ p_exs p' = Some 17 /\
    t_mask t' = t_mask t /\ t_frames t' = [] /\
    (forall s, shas (t_pend t') s = shas (t_pend t) s) /\ (forall s, shas (n_pend r') s = shas (n_pend r) s) /\
    (forall s, 1 <= s <= 31 -> sa_h (act_of r' s) = match sa_h (act_of r s) with HFun _ => HDfl | x => x end).
Proof.
  intros XS HC HT P R T E. unfold step in E. rewrite HC, HT in E. cbn [run_task] in E. unfold do_exec in E. change (h_procs (set_tasks h ts)) with (h_procs h) in E. rewrite P, R, T in E. cbn [obind] in E.
  unfold assert_then in E. destruct (negb _); [|discriminate E]. cbv zeta in E.
  set (t1 := mkThr (t_mask t) (t_pend t) (t_infos t) stk_none [] (TNew false)) in *. set (r1 := mkRun (n_pend r) (n_infos r) (exec_acts (n_acts r)) [(pid, t1)] (n_lst r) (n_code r)) in *.
  set (p1 := set_exs (set_pst p (PRun r1)) (Some SIGCHLD)) in *. set (h1 := put_proc (set_tasks h ts) pid p1) in *.
  assert (R1 : run_of h1 pid = Some r1) by (unfold h1; rewrite run_of_put_proc, Z.eqb_refl; reflexivity).
  assert (P1 : get pid (h_procs h1) = Some p1) by (unfold h1; rewrite get_put_proc, Z.eqb_refl; reflexivity).
  unfold resume in E. rewrite R1 in E. cbn [n_thr r1 get] in E. change (eqb pid pid) with (pid =? pid) in E. rewrite Z.eqb_refl in E. cbn [t_st t1 obind] in E. injection E as <- <-.
  split; [reflexivity|]. split; [reflexivity|]. cbn [h_procs set_cur]. rewrite (put_thr_eq h1 pid pid (set_tst t1 TRun) p1 r1 P1 eq_refl). rewrite get_put_proc, Z.eqb_refl.
  eexists _, _, (set_tst t1 TRun). split; [reflexivity|]. split; [reflexivity|]. cbn [n_thr set_nthr r1 bput]. rewrite Z.ltb_irrefl, Z.eqb_refl. split; [reflexivity|]. cbn. do 8 (split; [reflexivity|]).
  intros s SR. unfold act_of. cbn [n_acts set_nthr r1]. rewrite get_exec_acts. destruct (get s (n_acts r)) as [a|]; [|reflexivity].
  destruct (Z.leb_spec s STD_MAX); [|unfold STD_MAX in *; lia]. unfold is_default, is_ignore. destruct (sa_h a) eqn:HS; cbn; rewrite ?HS; reflexivity.
Qed.
