(** What a parent is told about the end of a child. *)
From Verif Require Import Base FMap BTree ProcModel ProcSpec ProcApi ProcBits ProcFaults ProcInv ProcSig ProcEnd ProcCall ProcStep ProcRun ProcCrash ProcTame ProcLaws ProcCalls ProcKids.

Definition says (i : sinfo) (pid : Z) (st : status) : Prop :=
  match si_code i, st with
  | CldExited p c, Exited x => p = pid /\ c = x
  | CldKilled p k, Signaled x => p = pid /\ k = x
  | _, _ => False
  end.
Definition tells (o : list obs) : Prop := forall d i pid st, In (OQueue d i) o -> says i pid st -> In (ODied pid st) o.
Definition other (x : obs) : Prop := match x with OQueue _ i => match si_code i with CldExited _ _ | CldKilled _ _ => False | _ => True end | _ => True end.
Lemma tells_nil : tells []. Proof. intros d i pid st []. Qed.
Lemma tells_app a b : tells a -> tells b -> tells (a ++ b).
Proof. intros A B d i pid st I T. apply in_or_app. apply in_app_or in I as [I|I]; [left; eapply A|right; eapply B]; eauto. Qed.
Lemma tells_cons x o : other x -> tells o -> tells (x :: o).
Proof.
  intros A B d i pid st [->|I] T; [|right; eapply B; eauto]. exfalso. unfold says in T. cbn in A. destruct (si_code i); auto.
Qed.
Lemma signal_run_told h dying pid cur i h' o : other (OQueue (DPr pid) i) -> signal_run h dying pid cur i = Some (h', o) -> tells o.
Proof. intros A E. destruct (signal_run_obs _ _ _ _ _ _ _ E) as [-> | ->]; [apply tells_nil|]. apply tells_cons; [exact A|apply tells_nil]. Qed.
Lemma orphans_told pid cs : forall h o0 h' o, orphans pid (h, o0) cs = Some (h', o) -> tells o0 -> tells o.
Proof.
  induction cs as [|c cs IH]; intros h o0 h' o; cbn [orphans]; [intros [= _ <-]; auto|].
  destruct (orphan pid (h, o0) c) as [[h1 o1]|] eqn:OR; [|discriminate]. cbn [obind]. intros E H. apply (IH _ _ _ _ E).
  unfold orphan in OR. destruct (get c (h_procs h)) as [p|]; [|injection OR as _ <-; exact H].
  destruct (p_pdeath p) as [s|].
  - destruct (signal_run _ _ _ _ _) as [[h2 o2]|] eqn:SR; [|discriminate OR]. cbn [obind] in OR. apply signal_run_told in SR; [|exact I].
    destruct (get c (h_procs h2)); injection OR as _ <-; apply tells_app; auto.
  - cbn [obind] in OR. destruct (get c (h_procs h)); injection OR as _ <-; apply tells_app; auto; apply tells_nil.
Qed.
Lemma end_told h pid s h' o : end_process h pid s = Some (h', o) -> tells o.
Proof.
  unfold end_process. destruct (notify_parent _ _ _) as [[h1 o1]|] eqn:NP; [|discriminate]. cbn [obind]. destruct (get pid (h_procs h1)); [|discriminate]. cbn [obind].
  destruct (has_reaper _ _); [|discriminate]. cbn [obind]. destruct (orphans _ _ _) as [[h3 o3]|] eqn:OR; [|discriminate]. cbn [obind]. unfold free_zombies. intros [= _ <-].
  assert (T2 : tells (ODied pid s :: o3 ++ map OFreed (filter (fun c => match get c (h_procs h3) with Some p0 => is_zombie p0 | None => false end) (children (put_proc h1 pid (set_pst p (PZom s))) pid) ++ (if b then [] else [pid])))).
  { apply tells_cons; [exact I|]. apply tells_app; [eapply orphans_told; [exact OR|apply tells_nil]|]. intros d i z st IN. apply in_map_iff in IN as (y & X & _). discriminate X. }
  assert (O1 : o1 = [] \/ exists d es, o1 = [OQueue d (exit_info es pid s)]).
  { unfold notify_parent in NP. destruct (get pid _); [|discriminate NP]. cbn [obind] in NP. destruct (p_exs p0) as [es|]; [|injection NP as _ <-; auto].
    destruct (_ =? _); [injection NP as _ <-; auto|]. destruct (get (p_par p0) _); [|injection NP as _ <-; auto]. destruct (p_st p1); [|discriminate NP].
    destruct (signal_run _ _ _ _ _) as [[? ?]|] eqn:SR; [|discriminate NP]. cbn [obind] in NP. injection NP as _ <-. destruct (signal_run_obs _ _ _ _ _ _ _ SR) as [-> | ->]; eauto. }
  destruct O1 as [->|(d & es & ->)]; [exact T2|]. intros d' i z st IN TL. destruct IN as [X|IN]; [|right; exact (T2 d' i z st IN TL)].
  injection X as <- <-. right. left. destruct s; cbn in TL; destruct st; try contradiction; destruct TL as [-> ->]; reflexivity.
Qed.
Lemma wait_told h me t fl idr h' o res : wait_internal h me t fl idr = Some (h', o, res) -> tells o.
Proof.
  unfold wait_internal. destruct (filter _ (h_procs h)) as [|e ms]; [intros [= _ <- _]; apply tells_nil|].
  destruct (negb (w_exited fl)); [destruct (w_nohang fl); intros [= _ <- _]; apply tells_nil|].
  destruct (filter (fun e0 => is_zombie (snd e0)) (e :: ms)) as [|[c p] zs]; [destruct (w_nohang fl); intros [= _ <- _]; apply tells_nil|].
  destruct (p_st p); [discriminate|]. intros [= _ <- _]. destruct (w_nowait fl); [apply tells_nil|apply tells_cons; [exact I|apply tells_nil]].
Qed.
Lemma handle_told h pid tid c io h' o res : handle h pid tid c io = Some (h', o, res) -> tells o.
Proof.
  intros E. destruct c; cbn [handle] in E.
  - unfold do_kill, signal_process in E. destruct (pid0 =? -1); [injection E as _ <- _; apply tells_nil|]. destruct (pid0 =? I32_MIN); [injection E as _ <- _; apply tells_nil|].
    destruct (get _ (h_procs h)); [|injection E as _ <- _; apply tells_nil]. destruct (sig =? 0); [injection E as _ <- _; apply tells_nil|].
    destruct (negb (is_sig sig)); [injection E as _ <- _; apply tells_nil|]. destruct (is_rt sig); [injection E as _ <- _; apply tells_nil|].
    destruct (signal_run _ _ _ _ _) as [[h1 o1]|] eqn:SR; [|discriminate E]. cbn [obind] in E. injection E as _ <- _. eapply signal_run_told; [|eassumption]; exact I.
  - unfold do_tkill in E. destruct ((tid0 <? 0) || false); [injection E as _ <- _; apply tells_nil|]. destruct (find_thread (h_procs h) tid0) as [[q u]|]; [|injection E as _ <- _; apply tells_nil].
    destruct (sig =? 0); [injection E as _ <- _; apply tells_nil|].
    destruct (negb (is_sig sig)); [injection E as _ <- _; apply tells_nil|]. destruct (is_rt sig); [injection E as _ <- _; apply tells_nil|].
    destruct (signal_thread _ _ _ _ _) as [[h1 o1]|] eqn:SR; [|discriminate E]. cbn [obind] in E. injection E as _ <- _.
    destruct (signal_thread_obs _ _ _ _ _ _ _ SR) as [-> | ->]; [apply tells_nil|apply tells_cons; [exact I|apply tells_nil]].
  - unfold do_tkill in E. destruct ((tid0 <? 0) || (tgid <? 0)); [injection E as _ <- _; apply tells_nil|]. destruct (find_thread (h_procs h) tid0) as [[q u]|]; [|injection E as _ <- _; apply tells_nil].
    destruct (negb (tgid =? q)); [injection E as _ <- _; apply tells_nil|].
    destruct (sig =? 0); [injection E as _ <- _; apply tells_nil|].
    destruct (negb (is_sig sig)); [injection E as _ <- _; apply tells_nil|]. destruct (is_rt sig); [injection E as _ <- _; apply tells_nil|].
    destruct (signal_thread _ _ _ _ _) as [[h1 o1]|] eqn:SR; [|discriminate E]. cbn [obind] in E. injection E as _ <- _.
    destruct (signal_thread_obs _ _ _ _ _ _ _ SR) as [-> | ->]; [apply tells_nil|apply tells_cons; [exact I|apply tells_nil]].
  - apply noobs_some in E as [-> _]. apply tells_nil.
  - apply noobs_some in E as [-> _]. apply tells_nil.
  - apply noobs_some in E as [-> _]. apply tells_nil.
  - unfold do_clone in E. cbv zeta in E.
    do 8 (match type of E with context [if ?b then Some (h, [], err _) else _] => destruct b end; [injection E as _ <- _; apply tells_nil|]).
    destruct (get pid (h_procs h)); [|discriminate E]. cbn [obind] in E. destruct (run_of h pid); [|discriminate E]. cbn [obind] in E.
    destruct (cf_thread fl); injection E as _ <- _; [apply tells_nil|apply tells_cons; [exact I|apply tells_nil]].
  - injection E as _ <- _. apply tells_nil.
  - injection E as _ <- _. apply tells_nil.
  - destruct found; injection E as _ <- _; apply tells_nil.
  - unfold do_wait4 in E. destruct (_ || _ || _); [injection E as _ <- _; apply tells_nil|]. destruct (get pid (h_procs h)); [|discriminate E]. cbn [obind] in E.
    destruct (waitpid_target _ _); [|discriminate E]. cbn [obind] in E. eapply wait_told; eauto.
  - unfold do_waitid in E. destruct (get pid (h_procs h)); [|discriminate E]. cbn [obind] in E. destruct which.
    + eapply wait_told; eauto.
    + destruct (id <? 0); [injection E as _ <- _; apply tells_nil|]. eapply wait_told; eauto.
    + destruct (id <? 0); [injection E as _ <- _; apply tells_nil|]. eapply wait_told; eauto.
    + destruct (existsb _ _); [discriminate E|]. injection E as _ <- _; apply tells_nil.
    + injection E as _ <- _; apply tells_nil.
  - injection E as _ <- _. apply tells_nil.
  - destruct (get pid (h_procs h)); [|discriminate E]. injection E as _ <- _. apply tells_nil.
  - injection E as _ <- _. apply tells_nil.
  - destruct (get pid (h_procs h)); [|discriminate E]. injection E as _ <- _. apply tells_nil.
  - apply noobs_some in E as [-> _]. apply tells_nil.
  - apply noobs_some in E as [-> _]. apply tells_nil.
  - apply noobs_some in E as [-> _]. apply tells_nil.
  - apply noobs_some in E as [-> _]. apply tells_nil.
  - apply noobs_some in E as [-> _]. apply tells_nil.
  - destruct io; injection E as _ <- _; apply tells_nil.
Qed.
Lemma call_told h pid tid c io h' o : do_call h pid tid c io = Some (h', o) -> tells o.
Proof.
  unfold do_call. destruct (handle h pid tid c io) as [[[h1 o1] res]|] eqn:HA; [|discriminate]. cbn [obind]. apply handle_told in HA.
  destruct (run_of h1 pid) as [r|]; [|discriminate]. cbn [obind]. destruct (get tid (n_thr r)) as [t|]; [|discriminate]. cbn [obind].
  assert (B : tells (OCall pid tid c :: o1)) by (apply tells_cons; [exact I|exact HA]).
  match goal with |- match ?x with _ => _ end = _ -> _ => destruct x end; try (intros [= _ <-]; exact B).
  - destruct (del _ _); [|intros [= _ <-]; exact B]. destruct (end_process _ _ _) as [[h2 o2]|] eqn:EE; [|discriminate]. cbn [obind]. intros [= _ <-].
    apply (tells_app (OCall pid tid c :: o1)); [exact B|eapply end_told; eauto].
  - destruct (end_process _ _ _) as [[h2 o2]|] eqn:EE; [|discriminate]. cbn [obind]. intros [= _ <-].
    apply (tells_app (OCall pid tid c :: o1)); [exact B|eapply end_told; eauto].
Qed.
Lemma resume_told h pid tid io h' o : resume h pid tid io = Some (h', o) -> tells o.
Proof.
  unfold resume. destruct (run_of h pid); [|intros [= _ <-]; apply tells_nil]. destruct (get tid (n_thr r)); [|intros [= _ <-]; apply tells_nil].
  destruct (t_st t); try (intros [= _ <-]; apply tells_nil). apply call_told.
Qed.


Lemma loop_told h pid tid rt all io h' o : loop h pid tid rt all io = Some (h', o) -> tells o.
Proof.
  unfold loop. intros LO. destruct (take h pid tid) as [[[[h1 i] d]|]|] eqn:TK; [| |discriminate LO]; cbn [obind] in LO.
  2:{ destruct (r_call rt) as [c|]; [destruct (_ && _ && _)|].
      - eapply call_told; eauto.
      - injection LO as _ <-. apply tells_cons; [exact I|apply tells_nil].
      - injection LO as _ <-. apply tells_nil. }
  destruct (run_of h1 pid) as [r|]; [|discriminate LO]. cbn [obind] in LO. destruct (get tid (n_thr r)) as [t|]; [|discriminate LO]. cbn [obind] in LO.
  destruct (sa_h (act_of r (si_sig i))) as [| |f].
  - injection LO as _ <-. apply tells_cons; [exact I|apply tells_nil].
  - destruct (defaultaction (si_sig i)); try discriminate LO; try (injection LO as _ <-; apply tells_cons; [exact I|apply tells_nil]);
      (destruct (end_process h1 pid _) as [[h2 o2]|] eqn:EE; [|discriminate LO]; cbn [obind] in LO; injection LO as _ <-; apply tells_cons; [exact I|]; eapply end_told; eauto).
  - injection LO as _ <-. apply tells_cons; [exact I|]. apply tells_cons; [exact I|apply tells_nil].
Qed.

Lemma step_told h x h' o : step h x = Some (h', o) -> tells o.
Proof.
  intros E. unfold step in E. destruct (h_cur h) as [[[pid tid] [|rt all]]|]; destruct x; try (injection E as _ <-; apply tells_nil).
  - eapply call_told; eauto.
  - destruct (thr_of h pid tid); [|injection E as _ <-; apply tells_nil]. destruct (t_frames t); injection E as _ <-; apply tells_nil.
  - destruct (thr_of h pid tid); injection E as _ <-; apply tells_nil.
  - destruct (existsb _ _); [|injection E as _ <-; apply tells_nil]. destruct (thr_of h pid tid); [|injection E as _ <-; apply tells_nil].
    destruct (shas (t_pend t) sig); injection E as _ <-; [apply tells_nil|apply tells_cons; [exact I|apply tells_nil]].
  - eapply loop_told; eauto.
  - destruct (resume _ _ _ _) as [[h1 o1]|] eqn:RE; [|discriminate E]. cbn [obind] in E. injection E as _ <-. apply tells_cons; [exact I|eapply resume_told; eauto].
  - destruct (h_tasks h) as [|t ts]; [injection E as _ <-; apply tells_nil|]. destruct t as [p q|p q cid tr|p q]; cbn [run_task] in E.
    + eapply resume_told; eauto.
    + unfold do_wake in E. destruct (run_of _ p); [|injection E as _ <-; apply tells_nil]. destruct (get q (n_thr r)); [|injection E as _ <-; apply tells_nil].
      cbv zeta in E. destruct (_ || _); [eapply resume_told; eauto|injection E as _ <-; apply tells_nil].
    + unfold do_exec in E. destruct (get p _); [|injection E as _ <-; apply tells_nil]. destruct (p_st p0); [|injection E as _ <-; apply tells_nil].
      destruct (get q (n_thr r)); [|discriminate E]. cbn [obind] in E. unfold assert_then in E. destruct (negb _); [|discriminate E].
      destruct (resume _ _ _ _) as [[h1 o1]|] eqn:RE; [|discriminate E]. cbn [obind] in E. injection E as _ <-. apply tells_cons; [exact I|eapply resume_told; eauto].
  - eapply signal_run_told; [|eassumption]; exact I.
  - destruct (_ && _); [|injection E as _ <-; apply tells_nil]. eapply signal_run_told; [|eassumption]; exact I.
  - destruct (thr_of h pid tid); [|injection E as _ <-; apply tells_nil]. destruct (t_st t); try (injection E as _ <-; apply tells_nil; fail). destruct (c_trig c); injection E as _ <-; apply tells_nil.
Qed.

Lemma told_exit h x h' o d sg pid c : step h x = Some (h', o) -> In (OQueue d (mkInfo sg (CldExited pid c))) o -> In (ODied pid (Exited c)) o.
Proof. intros E IN. apply (step_told _ _ _ _ E d _ pid (Exited c) IN). cbn. auto. Qed.
Lemma told_kill h x h' o d sg pid k : step h x = Some (h', o) -> In (OQueue d (mkInfo sg (CldKilled pid k))) o -> In (ODied pid (Signaled k)) o.
Proof. intros E IN. apply (step_told _ _ _ _ E d _ pid (Signaled k) IN). cbn. auto. Qed.

(** A signal whose action is to end the process. *)
Lemma take_others h pid tid h1 i d z : take h pid tid = Some (Some (h1, i, d)) -> z <> pid -> get z (h_procs h1) = get z (h_procs h).
Proof.
  intros TK NZ. unfold take in TK. destruct (run_of h pid) as [r|] eqn:R; [|discriminate TK]. cbn [obind] in TK. destruct (get tid (n_thr r)) as [t|]; [|discriminate TK]. cbn [obind] in TK.
  pose proof R as R0. apply run_of_get in R0 as (p & P & R0).
  destruct (negb (sminus (t_pend t) _ =? 0)).
  - destruct (slowest _) as [sig|]; [|discriminate TK]. cbn [obind] in TK. injection TK as <- _ _. unfold put_thr, put_run. rewrite R, P, get_put_proc. destruct (Z.eqb_spec z pid); [contradiction|reflexivity].
  - destruct (negb (sminus (n_pend r) _ =? 0)); [|discriminate TK]. destruct (slowest _) as [sig|]; [|discriminate TK]. cbn [obind] in TK. injection TK as <- _ _.
    unfold put_run. rewrite P, get_put_proc. destruct (Z.eqb_spec z pid); [contradiction|reflexivity].
Qed.
Lemma take_mine h pid tid h1 i d p : take h pid tid = Some (Some (h1, i, d)) -> get pid (h_procs h) = Some p ->
  exists r1, get pid (h_procs h1) = Some (set_pst p (PRun r1)).
Proof.
  intros TK P. unfold take in TK. destruct (run_of h pid) as [r|] eqn:R; [|discriminate TK]. cbn [obind] in TK. destruct (get tid (n_thr r)) as [t|]; [|discriminate TK]. cbn [obind] in TK.
  destruct (negb (sminus (t_pend t) _ =? 0)).
  - destruct (slowest _) as [sig|]; [|discriminate TK]. cbn [obind] in TK. injection TK as <- _ _. unfold put_thr, put_run. rewrite R, P, get_put_proc, Z.eqb_refl. eauto.
  - destruct (negb (sminus (n_pend r) _ =? 0)); [|discriminate TK]. destruct (slowest _) as [sig|]; [|discriminate TK]. cbn [obind] in TK. injection TK as <- _ _.
    unfold put_run. rewrite P, get_put_proc, Z.eqb_refl. eauto.
Qed.

Lemma killed_law xs h o io h' o' pid tid d i p r : steps host_new xs = Some (h, o) -> step h (PLoop io) = Some (h', o') -> In (OTake pid tid d i) o' ->
  get pid (h_procs h) = Some p -> p_st p = PRun r -> sa_h (act_of r (si_sig i)) = HDfl -> ~ In (si_sig i) [17; 23; 28; 18; 19; 20; 21; 22] ->
  h_cur h' = None /\ run_of h' pid = None /\ In (ODied pid (Signaled (si_sig i))) o' /\
  (forall z q, get z (h_procs h') = Some q -> p_par q <> pid) /\
  ((exists rp, run_of h (p_par p) = Some rp /\ forall es, p_exs p = Some es -> sa_h (act_of rp es) <> HIgn) ->
     exists q, get pid (h_procs h') = Some q /\ p_st q = PZom (Signaled (si_sig i)) /\ p_par q = p_par p) /\
  (~ (exists rp, run_of h (p_par p) = Some rp /\ forall es, p_exs p = Some es -> sa_h (act_of rp es) <> HIgn) -> get pid (h_procs h') = None) /\
  (forall rp es, run_of h (p_par p) = Some rp -> p_exs p = Some es ->
     (In (OQueue (DPr (p_par p)) (mkInfo es (CldKilled pid (si_sig i)))) o' <-> ~ discards rp es /\ shas (n_pend rp) es = false)).
Proof.
  intros XS E IN P PR DF NS. destruct (only_loop _ _ _ _ _ E IN Logic.I) as (pid0 & tid0 & rt & all & io0 & HC & _ & LO). assert (TP := top_of _ _ _ XS).
  unfold Top in TP. rewrite HC in TP. destruct TP as [GD RU]. unfold loop in LO.
  destruct (take h pid0 tid0) as [[[[h1 i1] d1]|]|] eqn:TK; [| |discriminate LO]; cbn [obind] in LO.
  2:{ exfalso. destruct (r_call rt) as [c|]; [destruct (_ && _ && _)|].
      - apply call_inner in LO. exact (LO _ IN).
      - injection LO as _ <-. destruct IN as [X|[]]; discriminate X.
      - injection LO as _ <-. destruct IN. }
  pose proof RU as (t & T & ST). apply thr_of_get in T as (r0 & R & T). destruct (take_keeps _ _ _ _ _ _ _ _ TK R T) as (r1 & t1 & R1 & T1 & M1 & M2 & M3 & M4).
  rewrite R1 in LO. cbn [obind] in LO. rewrite T1 in LO. cbn [obind] in LO.
  assert (EQ : i1 = i /\ pid0 = pid).
  { destruct (sa_h (act_of r1 (si_sig i1))) as [| |f].
    - injection LO as _ <-. destruct IN as [X|[]]. injection X as -> _ _ ->. auto.
    - destruct (defaultaction (si_sig i1)); try discriminate LO; try (injection LO as _ <-; destruct IN as [X|[]]; injection X as -> _ _ ->; auto);
        (destruct (end_process h1 pid0 _) as [[h2 o2]|] eqn:EE; [|discriminate LO]; cbn [obind] in LO; injection LO as _ <-; destruct IN as [X|IN]; [injection X as -> _ _ ->; auto|];
         exfalso; apply end_inner in EE; exact (EE _ IN)).
    - injection LO as _ <-. destruct IN as [X|[X|[]]]; [injection X as -> _ _ ->; auto|discriminate X]. }
  destruct EQ as [-> ->]. assert (r0 = r). { apply run_of_get in R as (p0 & P0 & R). congruence. } subst r0.
  assert (A : sa_h (act_of r1 (si_sig i)) = HDfl). { unfold act_of in *. rewrite M4. exact DF. }
  rewrite A in LO. set (s := si_sig i) in *.
  assert (DA : defaultaction s = DTerm \/ defaultaction s = DCore).
  { unfold defaultaction, SIGCONT. cbn [existsb In] in *. destruct (Z.eqb_spec s 18); [exfalso; lia|]. match goal with |- context [if ?b then DCore else _] => destruct b end; [auto|].
    destruct (Z.eqb_spec s 17); [exfalso; lia|]. destruct (Z.eqb_spec s 23); [exfalso; lia|]. destruct (Z.eqb_spec s 28); [exfalso; lia|].
    destruct (Z.eqb_spec s 19); [exfalso; lia|]. destruct (Z.eqb_spec s 20); [exfalso; lia|]. destruct (Z.eqb_spec s 21); [exfalso; lia|]. destruct (Z.eqb_spec s 22); [exfalso; lia|]. auto. }
  assert (LE : exists h2 o2, end_process h1 pid (Signaled s) = Some (h2, o2) /\ h' = h2 /\ o' = [OTake pid tid0 d1 i] ++ o2).
  { destruct DA as [DA|DA]; rewrite DA in LO; (destruct (end_process h1 pid (Signaled s)) as [[h2 o2]|]; [|discriminate LO]; cbn [obind] in LO; injection LO as <- <-; eauto). }
  destruct LE as (h2 & o2 & EE & -> & ->).
  destruct (take_good noL _ _ _ _ _ _ _ _ GD RU TK) as (_ & GD1 & _ & _ & _).
  assert (CU : forall q y, Some (pid, tid0) = Some (q, y) -> q = pid) by (intros q y [= -> _]; reflexivity).
  destruct (take_mine _ _ _ _ _ _ _ TK P) as (r2 & P1).
  destruct (end_good _ _ _ _ _ _ _ _ _ _ GD1 R1 CU EE) as (_ & _ & _ & B1 & _ & B2 & B3).
  destruct (end_law _ _ _ _ _ _ _ _ _ _ _ GD1 P1 eq_refl CU EE) as (D1 & D2 & D3 & D4).
  assert (RP : run_of h1 (p_par p) = run_of h (p_par p)).
  { unfold run_of. rewrite (take_others _ _ _ _ _ _ (p_par p) TK); [reflexivity|]. destruct (g_proc _ _ _ _ _ _ GD pid p P) as [[PG _] _ _ _ _].
    destruct (g_par _ _ _ _ _ _ GD pid p P) as [->|(X & _)]; [unfold INIT; lia|lia]. }
  cbn [p_par p_exs set_pst] in D2, D3, D4. rewrite RP in D2, D3, D4.
  split; [exact B1|]. split; [exact B3|]. split; [right; exact B2|]. split; [exact D1|]. split.
  { intros X. destruct (D2 X) as (q & Q & QS & QP & _). eauto. }
  split; [intros X; apply (D3 X)|]. intros rp es RP' EX. rewrite <- (D4 rp es RP' EX). cbn [exit_info In app]. split; [intros [X|X]; [discriminate X|exact X]|auto].
Qed.
