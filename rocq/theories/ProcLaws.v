(** Laws of calls, of the processing of signals, of fork and exec. *)
From Verif Require Import Base FMap BTree ProcModel ProcSpec ProcApi ProcBits ProcFaults ProcInv ProcSig ProcEnd ProcCall ProcStep ProcRun ProcCrash ProcTame.

(** * Which observations a step makes *)
Definition inner (x : obs) : Prop := match x with OTake _ _ _ _ | OHandler _ _ _ _ _ | ORet _ _ _ _ | OExec _ _ => False | _ => True end.
Definition inners (o : list obs) : Prop := forall x, In x o -> inner x.
Lemma inners_nil : inners []. Proof. intros x []. Qed.
Lemma inners_app a b : inners a -> inners b -> inners (a ++ b).
Proof. intros A B x I. apply in_app_or in I as [I|I]; auto. Qed.
Lemma inners_cons x o : inner x -> inners o -> inners (x :: o).
Proof. intros A B y [<-|I]; auto. Qed.

Lemma signal_run_obs h dying pid cur i h' o : signal_run h dying pid cur i = Some (h', o) -> o = [] \/ o = [OQueue (DPr pid) i].
Proof.
  unfold signal_run. destruct (run_of h pid); [|intros [= _ <-]; auto]. destruct (ignored _ _); [intros [= _ <-]; auto|]. destruct (shas _ _); [intros [= _ <-]; auto|].
  unfold assert_then. destruct (_ <=? _); [|discriminate]. match goal with |- context [if ?b then _ else _] => destruct b end; [intros [= _ <-]; auto|].
  destruct (interrupt _ _ _ _ _); [|discriminate]. cbn [obind]. intros [= _ <-]. auto.
Qed.
Lemma signal_run_inner h dying pid cur i h' o : signal_run h dying pid cur i = Some (h', o) -> inners o.
Proof. intros E. destruct (signal_run_obs _ _ _ _ _ _ _ E) as [-> | ->]; [apply inners_nil|]. apply inners_cons; [exact I|apply inners_nil]. Qed.
Lemma signal_thread_obs h me pid tid i h' o : signal_thread h me pid tid i = Some (h', o) -> o = [] \/ o = [OQueue (DTh pid tid) i].
Proof.
  unfold signal_thread. destruct (run_of h pid); [|discriminate]. cbn [obind]. destruct (get tid (n_thr r)); [|discriminate]. cbn [obind].
  destruct (ignored _ _); [intros [= _ <-]; auto|]. destruct (shas _ _); [intros [= _ <-]; auto|].
  unfold assert_then. destruct (_ <=? _); [|discriminate]. destruct (_ || _); [intros [= _ <-]; auto|].
  match goal with |- context [match ?b with TNew _ => _ | TRun => _ | TBlk _ => _ end] => destruct b end; try (intros [= _ <-]; auto; fail).
  destruct (wake_for_signal _ _ _ _ _) as [[h1 b]|]; [|discriminate]. cbn [obind]. destruct b; [|discriminate]. intros [= _ <-]. auto.
Qed.
Lemma orphans_inner pid cs : forall h o0 h' o, orphans pid (h, o0) cs = Some (h', o) -> inners o0 -> inners o.
Proof.
  induction cs as [|c cs IH]; intros h o0 h' o; cbn [orphans]; [intros [= _ <-]; auto|].
  destruct (orphan pid (h, o0) c) as [[h1 o1]|] eqn:OR; [|discriminate]. cbn [obind]. intros E H. apply (IH _ _ _ _ E).
  unfold orphan in OR. destruct (get c (h_procs h)) as [p|]; [|injection OR as _ <-; exact H].
  destruct (p_pdeath p) as [s|].
  - destruct (signal_run _ _ _ _ _) as [[h2 o2]|] eqn:SR; [|discriminate OR]. cbn [obind] in OR. apply signal_run_inner in SR.
    destruct (get c (h_procs h2)); injection OR as _ <-; apply inners_app; auto.
  - cbn [obind] in OR. destruct (get c (h_procs h)); injection OR as _ <-; apply inners_app; auto; apply inners_nil.
Qed.
Lemma end_inner h pid s h' o : end_process h pid s = Some (h', o) -> inners o.
Proof.
  unfold end_process. destruct (notify_parent _ _ _) as [[h1 o1]|] eqn:NP; [|discriminate]. cbn [obind]. destruct (get pid (h_procs h1)); [|discriminate]. cbn [obind].
  destruct (has_reaper _ _); [|discriminate]. cbn [obind]. destruct (orphans _ _ _) as [[h3 o3]|] eqn:OR; [|discriminate]. cbn [obind]. unfold free_zombies. intros [= _ <-].
  apply inners_app; [|apply inners_cons; [exact I|apply inners_app]].
  - unfold notify_parent in NP. destruct (get pid _); [|discriminate NP]. cbn [obind] in NP. destruct (p_exs p0); [|injection NP as _ <-; apply inners_nil].
    destruct (_ =? _); [injection NP as _ <-; apply inners_nil|]. destruct (get (p_par p0) _); [|injection NP as _ <-; apply inners_nil]. destruct (p_st p1); [|discriminate NP].
    destruct (signal_run _ _ _ _ _) as [[? ?]|] eqn:SR; [|discriminate NP]. cbn [obind] in NP. injection NP as _ <-. eapply signal_run_inner; eauto.
  - eapply orphans_inner; [exact OR|apply inners_nil].
  - intros x IN. apply in_map_iff in IN as (z & <- & _). exact I.
Qed.
Lemma wait_inner h me t fl idr h' o res : wait_internal h me t fl idr = Some (h', o, res) -> inners o.
Proof.
  unfold wait_internal. destruct (filter _ (h_procs h)) as [|e ms]; [intros [= _ <- _]; apply inners_nil|].
  destruct (negb (w_exited fl)); [destruct (w_nohang fl); intros [= _ <- _]; apply inners_nil|].
  destruct (filter (fun e0 => is_zombie (snd e0)) (e :: ms)) as [|[c p] zs]; [destruct (w_nohang fl); intros [= _ <- _]; apply inners_nil|].
  destruct (p_st p); [discriminate|]. intros [= _ <- _]. destruct (w_nowait fl); [apply inners_nil|apply inners_cons; [exact I|apply inners_nil]].
Qed.
Lemma handle_inner h pid tid c io h' o res : handle h pid tid c io = Some (h', o, res) -> inners o.
Proof.
  intros E. destruct c; cbn [handle] in E.
  - unfold do_kill, signal_process in E. destruct (pid0 =? -1); [injection E as _ <- _; apply inners_nil|]. destruct (pid0 =? I32_MIN); [injection E as _ <- _; apply inners_nil|].
    destruct (get _ (h_procs h)); [|injection E as _ <- _; apply inners_nil]. destruct (sig =? 0); [injection E as _ <- _; apply inners_nil|].
    destruct (negb (is_sig sig)); [injection E as _ <- _; apply inners_nil|]. destruct (is_rt sig); [injection E as _ <- _; apply inners_nil|].
    destruct (signal_run _ _ _ _ _) as [[h1 o1]|] eqn:SR; [|discriminate E]. cbn [obind] in E. injection E as _ <- _. eapply signal_run_inner; eauto.
  - unfold do_tkill in E. destruct ((tid0 <? 0) || false); [injection E as _ <- _; apply inners_nil|]. destruct (find_thread (h_procs h) tid0) as [[q u]|]; [|injection E as _ <- _; apply inners_nil].
    destruct (sig =? 0); [injection E as _ <- _; apply inners_nil|].
    destruct (negb (is_sig sig)); [injection E as _ <- _; apply inners_nil|]. destruct (is_rt sig); [injection E as _ <- _; apply inners_nil|].
    destruct (signal_thread _ _ _ _ _) as [[h1 o1]|] eqn:SR; [|discriminate E]. cbn [obind] in E. injection E as _ <- _.
    destruct (signal_thread_obs _ _ _ _ _ _ _ SR) as [-> | ->]; [apply inners_nil|apply inners_cons; [exact I|apply inners_nil]].
  - unfold do_tkill in E. destruct ((tid0 <? 0) || (tgid <? 0)); [injection E as _ <- _; apply inners_nil|]. destruct (find_thread (h_procs h) tid0) as [[q u]|]; [|injection E as _ <- _; apply inners_nil].
    destruct (negb (tgid =? q)); [injection E as _ <- _; apply inners_nil|].
    destruct (sig =? 0); [injection E as _ <- _; apply inners_nil|].
    destruct (negb (is_sig sig)); [injection E as _ <- _; apply inners_nil|]. destruct (is_rt sig); [injection E as _ <- _; apply inners_nil|].
    destruct (signal_thread _ _ _ _ _) as [[h1 o1]|] eqn:SR; [|discriminate E]. cbn [obind] in E. injection E as _ <- _.
    destruct (signal_thread_obs _ _ _ _ _ _ _ SR) as [-> | ->]; [apply inners_nil|apply inners_cons; [exact I|apply inners_nil]].
  - apply noobs_some in E as [-> _]. apply inners_nil.
  - apply noobs_some in E as [-> _]. apply inners_nil.
  - apply noobs_some in E as [-> _]. apply inners_nil.
  - unfold do_clone in E. cbv zeta in E.
    do 8 (match type of E with context [if ?b then Some (h, [], err _) else _] => destruct b end; [injection E as _ <- _; apply inners_nil|]).
    destruct (get pid (h_procs h)); [|discriminate E]. cbn [obind] in E. destruct (run_of h pid); [|discriminate E]. cbn [obind] in E.
    destruct (cf_thread fl); injection E as _ <- _; [apply inners_nil|apply inners_cons; [exact I|apply inners_nil]].
  - injection E as _ <- _. apply inners_nil.
  - injection E as _ <- _. apply inners_nil.
  - destruct found; injection E as _ <- _; apply inners_nil.
  - unfold do_wait4 in E. destruct (_ || _ || _); [injection E as _ <- _; apply inners_nil|]. destruct (get pid (h_procs h)); [|discriminate E]. cbn [obind] in E.
    destruct (waitpid_target _ _); [|discriminate E]. cbn [obind] in E. eapply wait_inner; eauto.
  - unfold do_waitid in E. destruct (get pid (h_procs h)); [|discriminate E]. cbn [obind] in E. destruct which.
    + eapply wait_inner; eauto.
    + destruct (id <? 0); [injection E as _ <- _; apply inners_nil|]. eapply wait_inner; eauto.
    + destruct (id <? 0); [injection E as _ <- _; apply inners_nil|]. eapply wait_inner; eauto.
    + destruct (existsb _ _); [discriminate E|]. injection E as _ <- _; apply inners_nil.
    + injection E as _ <- _; apply inners_nil.
  - injection E as _ <- _. apply inners_nil.
  - destruct (get pid (h_procs h)); [|discriminate E]. injection E as _ <- _. apply inners_nil.
  - injection E as _ <- _. apply inners_nil.
  - destruct (get pid (h_procs h)); [|discriminate E]. injection E as _ <- _. apply inners_nil.
  - apply noobs_some in E as [-> _]. apply inners_nil.
  - apply noobs_some in E as [-> _]. apply inners_nil.
  - apply noobs_some in E as [-> _]. apply inners_nil.
  - apply noobs_some in E as [-> _]. apply inners_nil.
  - apply noobs_some in E as [-> _]. apply inners_nil.
  - destruct io; injection E as _ <- _; apply inners_nil.
Qed.
Lemma call_inner h pid tid c io h' o : do_call h pid tid c io = Some (h', o) -> inners o.
Proof.
  unfold do_call. destruct (handle h pid tid c io) as [[[h1 o1] res]|] eqn:HA; [|discriminate]. cbn [obind]. apply handle_inner in HA.
  destruct (run_of h1 pid) as [r|]; [|discriminate]. cbn [obind]. destruct (get tid (n_thr r)) as [t|]; [|discriminate]. cbn [obind].
  assert (B : inners (OCall pid tid c :: o1)) by (apply inners_cons; [exact I|exact HA]).
  match goal with |- match ?x with _ => _ end = _ -> _ => destruct x end; try (intros [= _ <-]; exact B).
  - destruct (del _ _); [|intros [= _ <-]; exact B]. destruct (end_process _ _ _) as [[h2 o2]|] eqn:EE; [|discriminate]. cbn [obind]. intros [= _ <-].
    apply (inners_app (OCall pid tid c :: o1)); [exact B|eapply end_inner; eauto].
  - destruct (end_process _ _ _) as [[h2 o2]|] eqn:EE; [|discriminate]. cbn [obind]. intros [= _ <-].
    apply (inners_app (OCall pid tid c :: o1)); [exact B|eapply end_inner; eauto].
Qed.
Lemma resume_inner h pid tid io h' o : resume h pid tid io = Some (h', o) -> inners o.
Proof.
  unfold resume. destruct (run_of h pid); [|intros [= _ <-]; apply inners_nil]. destruct (get tid (n_thr r)); [|intros [= _ <-]; apply inners_nil].
  destruct (t_st t); try (intros [= _ <-]; apply inners_nil). apply call_inner.
Qed.

(** Signals are taken, handlers start and calls return only where signals are processed. *)
Lemma only_loop h x h' o y : step h x = Some (h', o) -> In y o -> match y with OTake _ _ _ _ | OHandler _ _ _ _ _ | ORet _ _ _ _ => True | _ => False end ->
  exists pid tid rt all io, h_cur h = Some (pid, tid, MSig rt all) /\ x = PLoop io /\ loop h pid tid rt all io = Some (h', o).
Proof.
  intros E IN Y.
  assert (NO : inners o -> False) by (intros N; specialize (N y IN); destruct y; contradiction).
  unfold step in E. destruct (h_cur h) as [[[pid tid] [|rt all]]|]; destruct x; try (injection E as _ <-; destruct IN; fail).
  - exfalso. apply NO. eapply call_inner; eauto.
  - exfalso. destruct (thr_of h pid tid); [|injection E as _ <-; destruct IN]. destruct (t_frames t); injection E as _ <-; destruct IN.
  - exfalso. destruct (thr_of h pid tid); injection E as _ <-; destruct IN.
  - exfalso. destruct (existsb _ _); [|injection E as _ <-; destruct IN]. destruct (thr_of h pid tid); [|injection E as _ <-; destruct IN].
    destruct (shas (t_pend t) sig); injection E as _ <-; [destruct IN|destruct IN as [<-|[]]; contradiction].
  - exists pid, tid, rt, all, io. auto.
  - exfalso. destruct (resume _ _ _ _) as [[h1 o1]|] eqn:RE; [|discriminate E]. cbn [obind] in E. injection E as _ <-. apply NO. apply inners_cons; [exact I|eapply resume_inner; eauto].
  - exfalso. destruct (h_tasks h) as [|t ts]; [injection E as _ <-; destruct IN|]. destruct t as [p q|p q cid tr|p q]; cbn [run_task] in E.
    + apply NO. eapply resume_inner; eauto.
    + apply NO. unfold do_wake in E. destruct (run_of _ p); [|injection E as _ <-; apply inners_nil]. destruct (get q (n_thr r)); [|injection E as _ <-; apply inners_nil].
      cbv zeta in E. destruct (_ || _); [eapply resume_inner; eauto|injection E as _ <-; apply inners_nil].
    + unfold do_exec in E. destruct (get p _); [|injection E as _ <-; destruct IN]. destruct (p_st p0); [|injection E as _ <-; destruct IN].
      destruct (get q (n_thr r)); [|discriminate E]. cbn [obind] in E. unfold assert_then in E. destruct (negb _); [|discriminate E].
      destruct (resume _ _ _ _) as [[h1 o1]|] eqn:RE; [|discriminate E]. cbn [obind] in E. injection E as _ <-. destruct IN as [<-|IN]; [contradiction|].
      apply resume_inner in RE. specialize (RE y IN). destruct y; contradiction.
  - exfalso. apply NO. eapply signal_run_inner; eauto.
  - exfalso. destruct (_ && _); [|injection E as _ <-; destruct IN]. apply NO. eapply signal_run_inner; eauto.
  - exfalso. destruct (thr_of h pid tid); [|injection E as _ <-; destruct IN]. destruct (t_st t); try (injection E as _ <-; destruct IN; fail). destruct (c_trig c); injection E as _ <-; destruct IN.
Qed.

(** * Taking signals *)
Lemma take_least xs h o x h' o' pid tid d i : steps host_new xs = Some (h, o) -> step h x = Some (h', o') -> In (OTake pid tid d i) o' ->
  exists r t, run_of h pid = Some r /\ get tid (n_thr r) = Some t /\ shas (t_mask t) (si_sig i) = false /\
    match d with
    | DTh p u => p = pid /\ u = tid /\ shas (t_pend t) (si_sig i) = true /\
        forall s, shas (t_pend t) s = true -> shas (t_mask t) s = false -> si_sig i <= s
    | DPr p => p = pid /\ shas (n_pend r) (si_sig i) = true /\ (forall s, shas (t_pend t) s = true -> shas (t_mask t) s = true) /\
        forall s, shas (n_pend r) s = true -> shas (t_mask t) s = false -> si_sig i <= s
    end.
Proof.
  intros XS E IN. destruct (only_loop _ _ _ _ _ E IN Logic.I) as (pid0 & tid0 & rt & all & io & HC & -> & LO). assert (TP := top_of _ _ _ XS).
  unfold Top in TP. rewrite HC in TP. destruct TP as [GD RU]. unfold loop in LO.
  destruct (take h pid0 tid0) as [[[[h1 i1] d1]|]|] eqn:TK; [| |discriminate LO]; cbn [obind] in LO.
  2:{ exfalso. destruct (r_call rt) as [c|]; [destruct (_ && _ && _)|].
      - apply call_inner in LO. specialize (LO _ IN). exact LO.
      - injection LO as _ <-. destruct IN as [X|[]]; discriminate X.
      - injection LO as _ <-. destruct IN. }
  assert (EQ : OTake pid tid d i = OTake pid0 tid0 d1 i1).
  { destruct (run_of h1 pid0) as [r|]; [|discriminate LO]. cbn [obind] in LO. destruct (get tid0 (n_thr r)) as [t|]; [|discriminate LO]. cbn [obind] in LO.
    destruct (sa_h (act_of r (si_sig i1))) as [| |f].
    - injection LO as _ <-. destruct IN as [<-|[]]. reflexivity.
    - destruct (defaultaction (si_sig i1)); try discriminate LO; try (injection LO as _ <-; destruct IN as [<-|[]]; reflexivity);
        (destruct (end_process h1 pid0 _) as [[h2 o2]|] eqn:EE; [|discriminate LO]; cbn [obind] in LO; injection LO as _ <-; destruct IN as [<-|IN]; [reflexivity|];
         exfalso; apply end_inner in EE; exact (EE _ IN)).
    - injection LO as _ <-. destruct IN as [<-|[X|[]]]; [reflexivity|discriminate X]. }
  injection EQ as -> -> -> ->. clear LO IN. unfold take in TK.
  destruct (run_of h pid0) as [r|] eqn:R; [|discriminate TK]. cbn [obind] in TK. destruct (get tid0 (n_thr r)) as [t|] eqn:T; [|discriminate TK]. cbn [obind] in TK.
  pose proof R as R0. apply run_of_get in R0 as (p & P & R0).
  pose proof (good_run _ _ _ _ _ _ _ _ _ GD P R0) as RK. destruct (n_thrs _ _ _ _ _ _ _ RK tid0 t T) as [T1 _ _]. pose proof (n_pset _ _ _ _ _ _ _ RK) as R3.
  exists r, t. split; [reflexivity|]. split; [exact T|].
  destruct (Z.eqb_spec (sminus (t_pend t) (t_mask t)) 0) as [N0|N0]; cbn [negb] in TK.
  - destruct (negb (sminus (n_pend r) (t_mask t) =? 0)); [|discriminate TK].
    destruct (slowest (sminus (n_pend r) (t_mask t))) as [sig|] eqn:SL; [|discriminate TK]. cbn [obind] in TK. injection TK as <- <- <-.
    destruct (slowest_some _ _ SL) as (HA & LO). apply sminus_has in HA as [HA HM]. rewrite (proj2 R3 sig HA). split; [exact HM|]. split; [reflexivity|]. split; [exact HA|]. split.
    + apply (proj1 (sminus_zero _ _ (proj1 T1)) N0).
    + intros s H1 H2. destruct (Z.le_gt_cases sig s); [assumption|]. exfalso.
      assert (X : shas (sminus (n_pend r) (t_mask t)) s = true) by (rewrite shas_sminus, H1, H2; reflexivity).
      destruct LO as [_ LO]. specialize (LO s). assert (Y := shas_pos _ _ X). rewrite LO in X by lia. discriminate X.
  - destruct (slowest (sminus (t_pend t) (t_mask t))) as [sig|] eqn:SL; [|discriminate TK]. cbn [obind] in TK. injection TK as <- <- <-.
    destruct (slowest_some _ _ SL) as (HA & LO). apply sminus_has in HA as [HA HM]. rewrite (proj2 T1 sig HA). split; [exact HM|]. split; [reflexivity|]. split; [reflexivity|]. split; [exact HA|].
    intros s H1 H2. destruct (Z.le_gt_cases sig s); [assumption|]. exfalso.
    assert (X : shas (sminus (t_pend t) (t_mask t)) s = true) by (rewrite shas_sminus, H1, H2; reflexivity).
    destruct LO as [_ LO]. specialize (LO s). assert (Y := shas_pos _ _ X). rewrite LO in X by lia. discriminate X.
Qed.

(** * Returning to the application *)
Lemma ret_quiet xs h o x h' o' pid tid c v : steps host_new xs = Some (h, o) -> step h x = Some (h', o') -> In (ORet pid tid c v) o' ->
  h_cur h' = Some (pid, tid, MApp) /\ exists r t, run_of h' pid = Some r /\ get tid (n_thr r) = Some t /\
    forall s, shas (t_pend t) s = true \/ shas (n_pend r) s = true -> shas (t_mask t) s = true.
Proof.
  intros XS E IN. destruct (only_loop _ _ _ _ _ E IN Logic.I) as (pid0 & tid0 & rt & all & io & HC & -> & LO). assert (TP := top_of _ _ _ XS).
  unfold Top in TP. rewrite HC in TP. destruct TP as [GD RU]. unfold loop in LO.
  destruct (take h pid0 tid0) as [[[[h1 i1] d1]|]|] eqn:TK; [| |discriminate LO]; cbn [obind] in LO.
  { exfalso. destruct (run_of h1 pid0) as [r|]; [|discriminate LO]. cbn [obind] in LO. destruct (get tid0 (n_thr r)) as [t|]; [|discriminate LO]. cbn [obind] in LO.
    destruct (sa_h (act_of r (si_sig i1))) as [| |f].
    - injection LO as _ <-. destruct IN as [X|[]]; discriminate X.
    - destruct (defaultaction (si_sig i1)); try discriminate LO; try (injection LO as _ <-; destruct IN as [X|[]]; discriminate X);
        (destruct (end_process h1 pid0 _) as [[h2 o2]|] eqn:EE; [|discriminate LO]; cbn [obind] in LO; injection LO as _ <-; destruct IN as [X|IN]; [discriminate X|];
         apply end_inner in EE; exact (EE _ IN)).
    - injection LO as _ <-. destruct IN as [X|[X|[]]]; discriminate X. }
  destruct (r_call rt) as [c0|]; [destruct (_ && _ && _)|].
  { exfalso. apply call_inner in LO. exact (LO _ IN). }
  2:{ exfalso. injection LO as _ <-. destruct IN. }
  injection LO as <- <-. destruct IN as [X|[]]. injection X as -> -> _ _. split; [reflexivity|]. clear E.
  unfold take in TK. destruct RU as (t & T & _). apply thr_of_get in T as (r & R & T). rewrite R in TK. cbn [obind] in TK. rewrite T in TK. cbn [obind] in TK.
  exists r, t. split; [exact R|]. split; [exact T|]. pose proof R as R0. apply run_of_get in R0 as (p & P & R0).
  pose proof (good_run _ _ _ _ _ _ _ _ _ GD P R0) as RK. destruct (n_thrs _ _ _ _ _ _ _ RK tid t T) as [T1 _ _]. pose proof (n_pset _ _ _ _ _ _ _ RK) as R3.
  destruct (Z.eqb_spec (sminus (t_pend t) (t_mask t)) 0) as [N0|]; cbn [negb] in TK.
  2:{ destruct (slowest _); discriminate TK. }
  destruct (Z.eqb_spec (sminus (n_pend r) (t_mask t)) 0) as [N1|]; cbn [negb] in TK.
  2:{ destruct (slowest _); discriminate TK. }
  intros s [H|H]; [exact (proj1 (sminus_zero _ _ (proj1 T1)) N0 s H)|exact (proj1 (sminus_zero _ _ (proj1 R3)) N1 s H)].
Qed.

(** * Calls that complete *)
Lemma put_thr_same L ex cu S l h pid tid t : Good L ex cu S l h -> thr_of h pid tid = Some t -> put_thr h pid tid t = h.
Proof.
  intros GD T. apply thr_of_get in T as (r & R & T). apply run_of_get in R as (p & P & R). rewrite (put_thr_eq _ _ _ _ p r P R).
  pose proof (good_run _ _ _ _ _ _ _ _ _ GD P R) as RK. rewrite (bput_same tid t (n_thr r) (n_sorted _ _ _ _ _ _ _ RK) T).
  assert (E : set_pst p (PRun (set_nthr r (n_thr r))) = p) by (destruct p as [a b c d e f]; cbn in R |- *; subst f; destruct r; reflexivity). rewrite E.
  unfold put_proc. rewrite (bput_same pid p _ (g_sorted _ _ _ _ _ _ GD) P). destruct h; reflexivity.
Qed.

Lemma call_done S l h pid tid c io h1 o1 v rs : Good noL None (Some (pid, tid)) S l h -> runs h pid tid -> handle h pid tid c io = Some (h1, o1, RDone v rs) ->
  do_call h pid tid c io = Some (set_cur h1 (Some (pid, tid, MSig (mkRet v rs (Some c)) true)), OCall pid tid c :: o1).
Proof.
  intros GD RU HA. destruct (handle_good noL S l h pid tid GD RU c io h1 o1 _ ltac:(reflexivity) HA) as (A1 & A2 & A3 & A4 & A5 & A6 & A7).
  unfold do_call. rewrite HA. cbn [obind]. destruct A5 as (t & T & ST). pose proof T as T0. apply thr_of_get in T0 as (r & R & T0). rewrite R. cbn [obind]. rewrite T0. cbn [obind].
  assert (E : set_tst t TRun = t) by (destruct t; cbn in ST |- *; subst; reflexivity). rewrite E. rewrite (put_thr_same _ _ _ _ _ _ _ _ _ A4 T). reflexivity.
Qed.

(** The state before a step in which the application makes a call. *)
Lemma at_app xs h o pid tid : steps host_new xs = Some (h, o) -> h_cur h = Some (pid, tid, MApp) ->
  Good noL None (Some (pid, tid)) (after nothing o) (lafter nobody o) h /\ runs h pid tid.
Proof. intros E C. assert (TP := top_of _ _ _ E). unfold Top in TP. now rewrite C in TP. Qed.

Lemma call_law xs h o pid tid c io h1 o1 v rs h' o' : steps host_new xs = Some (h, o) -> h_cur h = Some (pid, tid, MApp) ->
  handle h pid tid c io = Some (h1, o1, RDone v rs) -> step h (PCall c io) = Some (h', o') ->
  h' = set_cur h1 (Some (pid, tid, MSig (mkRet v rs (Some c)) true)) /\ o' = OCall pid tid c :: o1.
Proof.
  intros E C HA ST. destruct (at_app _ _ _ _ _ E C) as [GD RU]. unfold step in ST. rewrite C in ST. rewrite (call_done _ _ _ _ _ _ _ _ _ _ _ GD RU HA) in ST.
  injection ST as <- <-. auto.
Qed.

(** * Sending *)
Lemma ignored_discards r s : ignored (act_of r s) s = true <-> discards r s.
Proof.
  unfold ignored, discards. destruct (sa_h (act_of r s)) as [| |f].
  - tauto.
  - assert (D : defaultaction s = DIgn <-> In s [17; 23; 28]).
    { unfold defaultaction, SIGCONT. cbn [existsb In]. destruct (Z.eqb_spec s 18) as [->|]; [split; [discriminate|lia]|].
      destruct ((s =? 6) || _) eqn:E1; [split; [discriminate|lia]|]. destruct ((s =? 17) || _) eqn:E2; [split; [lia|auto]|].
      destruct ((s =? 19) || _); (split; [discriminate|lia]). }
    destruct (defaultaction s); split; try discriminate; try tauto; intros [X|[_ X]]; try discriminate X; apply D in X; discriminate X.
  - split; [discriminate|]. intros [X|[X _]]; discriminate X.
Qed.

Lemma signal_run_law h dying pid cur i h' o : signal_run h dying pid cur i = Some (h', o) ->
  (run_of h pid = None -> o = []) /\
  (forall r, run_of h pid = Some r ->
     (discards r (si_sig i) \/ shas (n_pend r) (si_sig i) = true -> o = []) /\
     (~ discards r (si_sig i) -> shas (n_pend r) (si_sig i) = false -> o = [OQueue (DPr pid) i])).
Proof.
  intros E. unfold signal_run in E. destruct (run_of h pid) as [r|]; [|injection E as _ <-; split; [auto|discriminate]]. split; [discriminate|]. intros r0 [= <-].
  pose proof (ignored_discards r (si_sig i)) as D. destruct (ignored (act_of r (si_sig i)) (si_sig i)).
  - injection E as _ <-. split; [auto|]. intros N. exfalso. apply N. apply D. reflexivity.
  - destruct (shas (n_pend r) (si_sig i)) eqn:PN; [injection E as _ <-; split; [auto|discriminate]|]. unfold assert_then in E. destruct (_ <=? _); [|discriminate E]. split.
    + intros [X|X]; [apply D in X; discriminate X|discriminate X].
    + intros _ _. match type of E with (if ?b then _ else _) = _ => destruct b end; [injection E as _ <-; reflexivity|]. destruct (interrupt _ _ _ _ _); [|discriminate E]. cbn [obind] in E. injection E as _ <-. reflexivity.
Qed.

Lemma kill_law xs h o pid tid x s io h' o' : steps host_new xs = Some (h, o) -> h_cur h = Some (pid, tid, MApp) ->
  step h (PCall (Kill x s) io) = Some (h', o') -> 0 < x ->
  (get x (h_procs h) = None -> completes h' pid tid (Kill x s) (- ESRCH) /\ o' = [OCall pid tid (Kill x s)] /\ h_procs h' = h_procs h) /\
  (get x (h_procs h) <> None -> s = 0 -> completes h' pid tid (Kill x s) 0 /\ o' = [OCall pid tid (Kill x s)] /\ h_procs h' = h_procs h) /\
  (get x (h_procs h) <> None -> s < 0 \/ 64 < s -> completes h' pid tid (Kill x s) (- EINVAL) /\ o' = [OCall pid tid (Kill x s)] /\ h_procs h' = h_procs h) /\
  (get x (h_procs h) <> None -> 1 <= s <= 31 -> completes h' pid tid (Kill x s) 0 /\
     (run_of h x = None -> o' = [OCall pid tid (Kill x s)]) /\
     (forall r, run_of h x = Some r ->
        (discards r s \/ shas (n_pend r) s = true -> o' = [OCall pid tid (Kill x s)]) /\
        (~ discards r s -> shas (n_pend r) s = false -> o' = [OCall pid tid (Kill x s); OQueue (DPr x) (mkInfo s (SiUser pid))]))).
Proof.
  intros XS HC E XP.
  assert (HD : handle h pid tid (Kill x s) io = match get x (h_procs h) with None => Some (h, [], err ESRCH) | Some _ => signal_process h (pid, tid) x s end).
  { cbn [handle]. unfold do_kill, I32_MIN. destruct (Z.eqb_spec x (-1)); [lia|]. destruct (Z.eqb_spec x (-2147483648)); [lia|]. destruct (Z.eqb_spec x 0); [lia|]. destruct (Z.ltb_spec x (-1)); [lia|]. reflexivity. }
  split; [|split; [|split]].
  - intros N. rewrite N in HD. destruct (call_law _ _ _ _ _ _ _ _ _ _ _ _ _ XS HC HD E) as [-> ->]. unfold completes. auto.
  - intros N ->. destruct (get x (h_procs h)); [|contradiction]. destruct (call_law _ _ _ _ _ _ _ _ _ _ _ _ _ XS HC HD E) as [-> ->]. unfold completes. auto.
  - intros N R. destruct (get x (h_procs h)); [|contradiction]. unfold signal_process in HD. assert (s =? 0 = false) as Z0 by lia. assert (is_sig s = false) as Z1 by (unfold is_sig; lia).
    rewrite Z0, Z1 in HD. destruct (call_law _ _ _ _ _ _ _ _ _ _ _ _ _ XS HC HD E) as [-> ->]. unfold completes. auto.
  - intros N R. destruct (get x (h_procs h)); [|contradiction]. unfold signal_process in HD.
    assert (s =? 0 = false) as Z0 by lia. assert (is_sig s = true) as Z1 by (unfold is_sig; lia). assert (is_rt s = false) as Z2 by (unfold is_rt; lia).
    rewrite Z0, Z1, Z2 in HD. cbn [negb fst] in HD. destruct (at_app _ _ _ _ _ XS HC) as [GD RU].
    destruct (signal_run_some _ _ _ _ _ _ None x (Some (pid, tid)) (mkInfo s (SiUser pid)) GD ltac:(cbn; lia) Logic.I) as (h1 & o1 & SR). rewrite SR in HD. cbn [obind] in HD.
    destruct (call_law _ _ _ _ _ _ _ _ _ _ _ _ _ XS HC HD E) as [-> ->]. destruct (signal_run_law _ _ _ _ _ _ _ SR) as [L1 L2]. split; [reflexivity|]. split.
    + intros RN. now rewrite (L1 RN).
    + intros r RR. destruct (L2 r RR) as [L3 L4]. split; intros; f_equal; auto.
Qed.

Lemma signal_thread_law h me pid tid i h' o r t : signal_thread h me pid tid i = Some (h', o) -> run_of h pid = Some r -> get tid (n_thr r) = Some t ->
  (discards r (si_sig i) \/ shas (t_pend t) (si_sig i) = true -> o = []) /\
  (~ discards r (si_sig i) -> shas (t_pend t) (si_sig i) = false -> o = [OQueue (DTh pid tid) i]).
Proof.
  intros E R T. unfold signal_thread in E. rewrite R in E. cbn [obind] in E. rewrite T in E. cbn [obind] in E.
  pose proof (ignored_discards r (si_sig i)) as D. destruct (ignored (act_of r (si_sig i)) (si_sig i)).
  - injection E as _ <-. split; [auto|]. intros N. exfalso. apply N. apply D. reflexivity.
  - destruct (shas (t_pend t) (si_sig i)) eqn:PN; [injection E as _ <-; split; [auto|discriminate]|]. unfold assert_then in E. destruct (_ <=? _); [|discriminate E]. split.
    + intros [X|X]; [apply D in X; discriminate X|discriminate X].
    + intros _ _. destruct (_ || _); [injection E as _ <-; reflexivity|].
      match type of E with match ?b with _ => _ end = _ => destruct b end; try (injection E as _ <-; reflexivity).
      destruct (wake_for_signal _ _ _ _ _) as [[h1 b]|]; [|discriminate E]. cbn [obind] in E. destruct b; [|discriminate E]. injection E as _ <-. reflexivity.
Qed.

Lemma find_thread_some ps tid pid p r t : bsorted ps -> get pid ps = Some p -> p_st p = PRun r -> get tid (n_thr r) = Some t -> exists q u, find_thread ps tid = Some (q, u).
Proof.
  intros SO P R T. induction ps as [|[q y] ps IH]; [discriminate P|]. cbn [find_thread]. inversion SO as [|? ? SO' F]; subst. cbn [get] in P. change (eqb pid q) with (pid =? q) in P.
  destruct (pid =? q).
  - injection P as ->. rewrite R, T. eauto.
  - destruct (p_st y) as [ry|]; [|auto]. destruct (get tid (n_thr ry)); [eauto|auto].
Qed.

Lemma tgkill_law xs h o pid tid g x s io h' o' r t : steps host_new xs = Some (h, o) -> h_cur h = Some (pid, tid, MApp) ->
  step h (PCall (Tgkill g x s) io) = Some (h', o') -> run_of h g = Some r -> get x (n_thr r) = Some t -> 1 <= s <= 31 ->
  completes h' pid tid (Tgkill g x s) 0 /\
  (discards r s \/ shas (t_pend t) s = true -> o' = [OCall pid tid (Tgkill g x s)]) /\
  (~ discards r s -> shas (t_pend t) s = false -> o' = [OCall pid tid (Tgkill g x s); OQueue (DTh g x) (mkInfo s (SiTkill pid))]).
Proof.
  intros XS HC E R T RG. destruct (at_app _ _ _ _ _ XS HC) as [GD RU].
  pose proof R as R0. apply run_of_get in R0 as (p & P & R0). pose proof (good_run _ _ _ _ _ _ _ _ _ GD P R0) as RK.
  assert (XR : 1000 <= x) by (apply (n_range _ _ _ _ _ _ _ RK); eapply get_keys; eauto).
  assert (GR : 1000 <= g) by (apply (p_range _ _ _ _ _ _ _ (g_proc _ _ _ _ _ _ GD g p P))).
  destruct (find_thread_some _ _ _ _ _ _ (g_sorted _ _ _ _ _ _ GD) P R0 T) as (q & u & FT).
  destruct (good_find_thread _ _ _ _ _ _ _ _ _ GD FT) as (rq & RQ & TQ).
  assert (q = g) by (eapply (g_uniq _ _ _ _ _ _ GD) with (tid := x); [exact RQ|exact R|eapply get_keys; eauto|eapply get_keys; eauto]). subst q.
  assert (rq = r) by congruence. subst rq. assert (u = t) by congruence. subst u.
  destruct (signal_thread_some _ _ _ _ _ _ (pid, tid) g x (mkInfo s (SiTkill pid)) r t GD ltac:(cbn; lia) R T) as (h1 & o1 & SR).
  assert (HD : handle h pid tid (Tgkill g x s) io = Some (h1, o1, done 0)).
  { cbn [handle]. unfold do_tkill. assert ((x <? 0) || (g <? 0) = false) as -> by lia. rewrite FT, Z.eqb_refl. cbn [negb].
    assert (s =? 0 = false) as -> by lia. assert (is_sig s = true) as -> by (unfold is_sig; lia). assert (is_rt s = false) as -> by (unfold is_rt; lia). cbn [negb fst]. rewrite SR. reflexivity. }
  destruct (call_law _ _ _ _ _ _ _ _ _ _ _ _ _ XS HC HD E) as [-> ->]. destruct (signal_thread_law _ _ _ _ _ _ _ _ _ SR R T) as [L1 L2]. split; [reflexivity|].
  split; intros; f_equal; auto.
Qed.
