(** The status of a process whose threads exit one by one. *)
From Verif Require Import Base FMap BTree ProcModel ProcSpec ProcBits ProcInv ProcSig ProcEnd ProcCall ProcStep ProcRun ProcFaults ProcCrash ProcApi ProcLaws ProcCalls ProcKids ProcGroups ProcMore.

Definition old_code (h h' : host) : Prop := forall pid r', run_of h' pid = Some r' -> exists r, run_of h pid = Some r /\ n_code r' = n_code r.
Lemma old_refl h : old_code h h. Proof. intros pid r R. eauto. Qed.
Lemma old_trans a b c : old_code a b -> old_code b c -> old_code a c.
Proof. intros A B pid r R. destruct (B _ _ R) as (r1 & R1 & E1). destruct (A _ _ R1) as (r2 & R2 & E2). exists r2. split; [exact R2|congruence]. Qed.
Lemma old_procs h h' : h_procs h' = h_procs h -> old_code h h'.
Proof. intros E pid r R. exists r. unfold run_of in *. rewrite E in R. auto. Qed.
Lemma old_put_proc h pid p p0 : get pid (h_procs h) = Some p0 -> (forall r, p_st p = PRun r -> exists r0, p_st p0 = PRun r0 /\ n_code r = n_code r0) -> old_code h (put_proc h pid p).
Proof.
  intros G P x r R. rewrite run_of_put_proc in R. destruct (Z.eqb_spec x pid) as [->|]; [|eauto]. destruct (p_st p) as [r1|] eqn:S; [|discriminate R]. injection R as <-.
  destruct (P r1 eq_refl) as (r0 & S0 & E). exists r0. split; [apply run_of_get; eauto|exact E].
Qed.
Lemma old_put_run h pid r r0 : run_of h pid = Some r0 -> n_code r = n_code r0 -> old_code h (put_run h pid r).
Proof.
  intros R E. apply run_of_get in R as (p & P & R). rewrite (put_run_eq _ _ _ _ P). eapply old_put_proc; [exact P|]. cbn. intros r1 [= <-]. eauto.
Qed.
Lemma old_put_thr h pid tid t : old_code h (put_thr h pid tid t).
Proof. unfold put_thr. destruct (run_of h pid) as [r|] eqn:R; [|apply old_refl]. eapply old_put_run; [exact R|reflexivity]. Qed.
Lemma old_del h z : old_code h (del_proc h z).
Proof. intros pid r R. exists r. split; [|reflexivity]. unfold run_of, del_proc in *. cbn [h_procs set_procs] in R. rewrite get_del in R. change (eqb pid z) with (pid =? z) in R. destruct (pid =? z); [discriminate R|exact R]. Qed.
Lemma old_wake h pid tid : old_code h (sched_wake h pid tid).
Proof.
  unfold sched_wake. destruct (thr_of h pid tid) as [t|]; [|apply old_refl]. destruct (t_st t) as [| |c]; try apply old_refl. destruct (c_sched c); [apply old_refl|].
  eapply old_trans; [apply old_put_thr|]. apply old_procs. reflexivity.
Qed.
Lemma old_signal_run h dying pid cur i h' o : signal_run h dying pid cur i = Some (h', o) -> old_code h h'.
Proof.
  unfold signal_run. destruct (run_of h pid) as [r|] eqn:R; [|intros [= <- _]; apply old_refl].
  destruct (ignored _ _); [intros [= <- _]; apply old_refl|]. destruct (shas _ _); [intros [= <- _]; apply old_refl|].
  unfold assert_then. destruct (_ <=? STD_MAX); [|discriminate]. cbv zeta. set (h1 := put_run h pid _).
  assert (O1 : old_code h h1) by (eapply old_put_run; [exact R|reflexivity]).
  destruct (match cur with Some _ => _ | None => _ end); [intros [= <- _]; exact O1|].
  destruct (interrupt h1 dying pid (si_sig i) (n_thr r)) as [h2|] eqn:IT; [|discriminate]. cbn [obind]. intros [= <- _].
  apply interrupt_shape in IT as [->|(tid & t & c & _ & _ & _ & b & W)]; [exact O1|]. eapply old_trans; [exact O1|]. unfold wake_for_signal in W.
  destruct (c_find_thread (h_procs h1) dying tid) as [t1|]; [|discriminate W]. cbn [obind] in W. destruct (shas (t_mask t1) _); injection W as <- _; [apply old_refl|apply old_wake].
Qed.
Lemma old_signal_thread h me pid tid i h' o : signal_thread h me pid tid i = Some (h', o) -> old_code h h'.
Proof.
  unfold signal_thread. destruct (run_of h pid) as [r|] eqn:R; [|discriminate]. cbn [obind]. destruct (get tid (n_thr r)) as [t|]; [|discriminate]. cbn [obind].
  destruct (ignored _ _); [intros [= <- _]; apply old_refl|]. destruct (shas (t_pend t) _); [intros [= <- _]; apply old_refl|].
  unfold assert_then at 1. destruct (_ <=? STD_MAX); [|discriminate]. cbv zeta. set (h1 := put_thr h pid tid _). assert (O1 : old_code h h1) by apply old_put_thr.
  destruct (_ || _); [intros [= <- _]; exact O1|]. cbn [t_st set_tpend]. destruct (t_st t); try (intros [= <- _]; exact O1).
  destruct (wake_for_signal h1 None pid tid (si_sig i)) as [[h2 b]|] eqn:W; [|discriminate]. cbn [obind]. unfold assert_then. destruct b; [|discriminate]. intros [= <- _].
  eapply old_trans; [exact O1|]. unfold wake_for_signal in W. destruct (c_find_thread (h_procs h1) None tid) as [t1|]; [|discriminate W]. cbn [obind] in W.
  destruct (shas (t_mask t1) _); injection W as <-; [apply old_refl|apply old_wake].
Qed.
Lemma old_end h pid s h' o : end_process h pid s = Some (h', o) -> old_code h h'.
Proof.
  unfold end_process. intros E. destruct (notify_parent (set_cur h None) pid s) as [[h1 o1]|] eqn:NP; [|discriminate E]. cbn [obind] in E.
  assert (O1 : old_code (set_cur h None) h1).
  { unfold notify_parent in NP. destruct (get pid _) as [p|]; [|discriminate NP]. cbn [obind] in NP. destruct (p_exs p) as [es|]; [|injection NP as <- _; apply old_refl].
    destruct (_ =? INIT); [injection NP as <- _; apply old_refl|]. destruct (get (p_par p) _) as [pp|]; [|injection NP as <- _; apply old_refl]. destruct (p_st pp) as [rp|]; [|discriminate NP].
    destruct (signal_run _ _ _ _ _) as [[h0 o0]|] eqn:SR; [|discriminate NP]. cbn [obind] in NP. injection NP as <- _. eapply old_trans; [eapply old_signal_run; exact SR|].
    unfold wake_child_waiters. generalize (n_lst rp). intros l. clear. revert h0. induction l as [|e l IH]; intros h0; cbn [fold_left]; [apply old_refl|].
    eapply old_trans; [apply old_wake|apply IH]. }
  destruct (get pid (h_procs h1)) as [p|] eqn:P; [|discriminate E]. cbn [obind] in E. cbv zeta in E. set (h2 := put_proc h1 pid _) in E.
  assert (O2 : old_code h h2). { eapply old_trans; [|eapply old_trans; [exact O1|]]; [apply old_procs; reflexivity|]. eapply old_put_proc; [exact P|]. cbn. discriminate. }
  destruct (has_reaper h2 _) as [rp|]; [|discriminate E]. cbn [obind] in E.
  assert (OO : forall cs h o h' o', orphans pid (h, o) cs = Some (h', o') -> old_code h h').
  { induction cs as [|c cs IH]; intros g q g' q'; cbn [orphans]; [intros [= <- _]; apply old_refl|]. destruct (orphan pid (g, q) c) as [[g1 q1]|] eqn:OR; [|discriminate]. cbn [obind]. intros X.
    eapply old_trans; [|eapply IH; exact X]. unfold orphan in OR. destruct (get c (h_procs g)) as [pc|] eqn:PC; [|injection OR as <- _; apply old_refl].
    assert (FIN : forall g2 q2, old_code g g2 -> (match get c (h_procs g2) with None => Some (g2, q ++ q2) | Some p => Some (put_proc g2 c (set_par p INIT), q ++ q2) end) = Some (g1, q1) -> old_code g g1).
    { intros g2 q2 O Y. destruct (get c (h_procs g2)) as [p2|] eqn:P2; injection Y as <- _; [|exact O]. eapply old_trans; [exact O|]. eapply old_put_proc; [exact P2|]. cbn. eauto. }
    destruct (p_pdeath pc).
    - destruct (signal_run _ _ _ _ _) as [[g2 q2]|] eqn:SR; [|discriminate OR]. cbn [obind] in OR. eapply FIN; [eapply old_signal_run; exact SR|exact OR].
    - cbn [obind] in OR. eapply FIN; [apply old_refl|exact OR]. }
  destruct (orphans pid (h2, []) _) as [[h3 o3]|] eqn:OR; [|discriminate E]. cbn [obind] in E. unfold free_zombies in E. injection E as <- _.
  eapply old_trans; [exact O2|]. eapply old_trans; [eapply OO; exact OR|]. match goal with |- old_code _ (fold_left del_proc ?l _) => generalize l end. intros l. generalize h3. induction l as [|z l IH]; intros g; cbn [fold_left]; [apply old_refl|].
  eapply old_trans; [apply old_del|apply IH].
Qed.

(** * Along the trace *)
Definition keeps_code (h : host) (o : list obs) (h' : host) : Prop :=
  forall pid c, (forall r, run_of h pid = Some r -> n_code r = c) -> forall r', run_of h' pid = Some r' -> n_code r' = leader_code pid c o.
Lemma leader_app pid o1 : forall c o2, leader_code pid c (o1 ++ o2) = leader_code pid (leader_code pid c o1) o2.
Proof. induction o1 as [|x o1 IH]; intros c o2; cbn; [reflexivity|]. apply IH. Qed.
Lemma keeps_app h o h1 o1 h' : keeps_code h o h1 -> keeps_code h1 o1 h' -> keeps_code h (o ++ o1) h'.
Proof. intros A B pid c C r R. rewrite leader_app. apply (B pid); [|exact R]. intros r1 R1. now apply (A pid). Qed.
Definition plain (x : obs) : Prop := match x with OCall p t (Exit _) => p <> t | OBorn _ _ => False | _ => True end.
Lemma leader_plain pid c o : (forall x, In x o -> plain x) -> leader_code pid c o = c.
Proof.
  revert c. induction o as [|x o IH]; intros c P; cbn; [reflexivity|]. rewrite IH by (intros y Y; apply P; right; exact Y). specialize (P x (or_introl eq_refl)).
  destruct x as [| | |p t k| | | | | |]; cbn in *; try reflexivity; [|contradiction]. destruct k; try reflexivity. destruct (Z.eqb_spec p pid), (Z.eqb_spec t pid); cbn; try reflexivity. congruence.
Qed.
Lemma keeps_old h o h' : old_code h h' -> (forall x, In x o -> plain x) -> keeps_code h o h'.
Proof. intros O P pid c C r R. rewrite (leader_plain pid c o P). destruct (O _ _ R) as (r0 & R0 & E). rewrite E. auto. Qed.

Definition plains (o : list obs) : Prop := forall x, In x o -> plain x.
Lemma plains_nil : plains []. Proof. intros x []. Qed.
Lemma plains_cons x o : plain x -> plains o -> plains (x :: o). Proof. intros A B y [<-|Y]; auto. Qed.
Lemma plains_app a b : plains a -> plains b -> plains (a ++ b). Proof. intros A B y Y. apply in_app_or in Y as [Y|Y]; auto. Qed.
Lemma plains_signal h dying pid cur i h' o : signal_run h dying pid cur i = Some (h', o) -> plains o.
Proof. intros E. destruct (signal_run_obs _ _ _ _ _ _ _ E) as [-> | ->]; [apply plains_nil|]. apply plains_cons; [exact Logic.I|apply plains_nil]. Qed.
Lemma plains_end h pid s h' o : end_process h pid s = Some (h', o) -> plains o.
Proof.
  unfold end_process. intros E. destruct (notify_parent (set_cur h None) pid s) as [[h1 o1]|] eqn:NP; [|discriminate E]. cbn [obind] in E.
  assert (O1 : plains o1).
  { unfold notify_parent in NP. destruct (get pid _) as [p|]; [|discriminate NP]. cbn [obind] in NP. destruct (p_exs p) as [es|]; [|injection NP as _ <-; apply plains_nil].
    destruct (_ =? INIT); [injection NP as _ <-; apply plains_nil|]. destruct (get (p_par p) _) as [pp|]; [|injection NP as _ <-; apply plains_nil]. destruct (p_st pp) as [rp|]; [|discriminate NP].
    destruct (signal_run _ _ _ _ _) as [[h0 o0]|] eqn:SR; [|discriminate NP]. cbn [obind] in NP. injection NP as _ <-. eapply plains_signal; exact SR. }
  destruct (get pid (h_procs h1)) as [p|] eqn:P; [|discriminate E]. cbn [obind] in E. cbv zeta in E.
  destruct (has_reaper _ _) as [rp|]; [|discriminate E]. cbn [obind] in E.
  assert (OO : forall cs h o h' o', orphans pid (h, o) cs = Some (h', o') -> plains o -> plains o').
  { induction cs as [|c cs IH]; intros g q g' q'; cbn [orphans]; [intros [= _ <-]; auto|]. destruct (orphan pid (g, q) c) as [[g1 q1]|] eqn:OR; [|discriminate]. cbn [obind]. intros X Q.
    eapply IH; [exact X|]. unfold orphan in OR. destruct (get c (h_procs g)) as [pc|] eqn:PC; [|injection OR as _ <-; exact Q].
    destruct (p_pdeath pc).
    - destruct (signal_run _ _ _ _ _) as [[g2 q2]|] eqn:SR; [|discriminate OR]. cbn [obind] in OR. assert (q1 = q ++ q2) by (destruct (get c (h_procs g2)); injection OR as _ <-; reflexivity). subst q1.
      apply plains_app; [exact Q|eapply plains_signal; exact SR].
    - cbn [obind] in OR. rewrite PC in OR. injection OR as _ <-. rewrite app_nil_r. exact Q. }
  destruct (orphans pid _ _) as [[h3 o3]|] eqn:OR; [|discriminate E]. cbn [obind] in E. unfold free_zombies in E. injection E as _ <-.
  apply plains_app; [exact O1|]. apply plains_cons; [exact Logic.I|]. apply plains_app; [eapply OO; [exact OR|apply plains_nil]|].
  intros x X. apply in_map_iff in X as (z & <- & _). exact Logic.I.
Qed.

(** The process has no run afterwards. *)
Lemma gone_orphans pid cs : forall h o h' o', orphans pid (h, o) cs = Some (h', o') -> run_of h pid = None -> run_of h' pid = None.
Proof.
  induction cs as [|c cs IH]; intros h o h' o'; cbn [orphans]; [intros [= <- _]; auto|]. destruct (orphan pid (h, o) c) as [[h1 o1]|] eqn:OR; [|discriminate]. cbn [obind]. intros X R.
  eapply IH; [exact X|]. assert (OC : old_code h h1).
  { unfold orphan in OR. destruct (get c (h_procs h)) as [pc|] eqn:PC; [|injection OR as <- _; apply old_refl].
    assert (FIN : forall g2 q2, old_code h g2 -> (match get c (h_procs g2) with None => Some (g2, o ++ q2) | Some p => Some (put_proc g2 c (set_par p INIT), o ++ q2) end) = Some (h1, o1) -> old_code h h1).
    { intros g2 q2 O Y. destruct (get c (h_procs g2)) as [p2|] eqn:P2; injection Y as <- _; [|exact O]. eapply old_trans; [exact O|]. eapply old_put_proc; [exact P2|]. cbn. eauto. }
    destruct (p_pdeath pc).
    - destruct (signal_run _ _ _ _ _) as [[g2 q2]|] eqn:SR; [|discriminate OR]. cbn [obind] in OR. eapply FIN; [eapply old_signal_run; exact SR|exact OR].
    - cbn [obind] in OR. eapply FIN; [apply old_refl|exact OR]. }
  destruct (run_of h1 pid) as [r|] eqn:R1; [|reflexivity]. destruct (OC _ _ R1) as (r0 & R0 & _). congruence.
Qed.
Lemma end_gone h pid s h' o : end_process h pid s = Some (h', o) -> run_of h' pid = None.
Proof.
  unfold end_process. intros E. destruct (notify_parent (set_cur h None) pid s) as [[h1 o1]|] eqn:NP; [|discriminate E]. cbn [obind] in E.
  destruct (get pid (h_procs h1)) as [p|] eqn:P; [|discriminate E]. cbn [obind] in E. cbv zeta in E. set (h2 := put_proc h1 pid _) in E.
  assert (R2 : run_of h2 pid = None) by (unfold h2; rewrite run_of_put_proc, Z.eqb_refl; reflexivity).
  destruct (has_reaper h2 _) as [rp|]; [|discriminate E]. cbn [obind] in E.
  destruct (orphans pid (h2, []) _) as [[h3 o3]|] eqn:OR; [|discriminate E]. cbn [obind] in E. unfold free_zombies in E. injection E as <- _.
  assert (R3 := gone_orphans _ _ _ _ _ _ OR R2). unfold run_of. rewrite fold_del_get. destruct (existsb _ _); [reflexivity|]. exact R3.
Qed.

Lemma handle_codes h pid tid c io h1 o1 res : handle h pid tid c io = Some (h1, o1, res) -> keeps_code h o1 h1.
Proof.
  assert (SAME : forall h, keeps_code h [] h) by (intros; apply keeps_old; [apply old_refl|apply plains_nil]).
  intros E. destruct c; cbn [handle] in E.
  - unfold do_kill in E. destruct (_ =? -1); [injection E as <- <- _; apply SAME|]. destruct (_ =? I32_MIN); [injection E as <- <- _; apply SAME|]. cbv zeta in E.
    destruct (get _ (h_procs h)); [|injection E as <- <- _; apply SAME]. unfold signal_process in E. destruct (_ =? 0); [injection E as <- <- _; apply SAME|].
    destruct (negb _); [injection E as <- <- _; apply SAME|]. destruct (is_rt _); [injection E as <- <- _; apply SAME|].
    destruct (signal_run _ _ _ _ _) as [[h2 o2]|] eqn:SR; [|discriminate E]. cbn [obind] in E. injection E as <- <- _. apply keeps_old; [eapply old_signal_run|eapply plains_signal]; exact SR.
  - unfold do_tkill in E. destruct (_ || _); [injection E as <- <- _; apply SAME|]. destruct (find_thread _ _) as [[q u]|]; [|injection E as <- <- _; apply SAME].
    destruct (_ =? 0); [injection E as <- <- _; apply SAME|]. destruct (negb _); [injection E as <- <- _; apply SAME|]. destruct (is_rt _); [injection E as <- <- _; apply SAME|].
    destruct (signal_thread _ _ _ _ _) as [[h2 o2]|] eqn:SR; [|discriminate E]. cbn [obind] in E. injection E as <- <- _. apply keeps_old; [eapply old_signal_thread; exact SR|].
    destruct (signal_thread_obs _ _ _ _ _ _ _ SR) as [-> | ->]; [apply plains_nil|apply plains_cons; [exact Logic.I|apply plains_nil]].
  - unfold do_tkill in E. destruct (_ || _); [injection E as <- <- _; apply SAME|]. destruct (find_thread _ _) as [[q u]|]; [|injection E as <- <- _; apply SAME].
    destruct (negb (_ =? _)); [injection E as <- <- _; apply SAME|].
    destruct (_ =? 0); [injection E as <- <- _; apply SAME|]. destruct (negb _); [injection E as <- <- _; apply SAME|]. destruct (is_rt _); [injection E as <- <- _; apply SAME|].
    destruct (signal_thread _ _ _ _ _) as [[h2 o2]|] eqn:SR; [|discriminate E]. cbn [obind] in E. injection E as <- <- _. apply keeps_old; [eapply old_signal_thread; exact SR|].
    destruct (signal_thread_obs _ _ _ _ _ _ _ SR) as [-> | ->]; [apply plains_nil|apply plains_cons; [exact Logic.I|apply plains_nil]].
  - unfold do_sigaction in E. destruct (negb _); [injection E as <- <- _; apply SAME|]. destruct act; [|injection E as <- <- _; apply SAME]. destruct (_ || _); [injection E as <- <- _; apply SAME|].
    destruct (run_of h pid) as [r|] eqn:R; [|discriminate E]. cbn [noobs obind] in E. injection E as <- <- _. apply keeps_old; [eapply old_put_run; [exact R|reflexivity]|apply plains_nil].
  - unfold do_sigprocmask in E. destruct set; [|injection E as <- <- _; apply SAME]. destruct (thr_of h pid tid) as [t|]; [|discriminate E]. cbn [obind] in E. cbv zeta in E.
    destruct (how =? 0); [injection E as <- <- _; apply keeps_old; [apply old_put_thr|apply plains_nil]|].
    destruct (how =? 1); [injection E as <- <- _; apply keeps_old; [apply old_put_thr|apply plains_nil]|].
    destruct (how =? 2); injection E as <- <- _; [apply keeps_old; [apply old_put_thr|apply plains_nil]|apply SAME].
  - unfold do_sigaltstack in E. destruct ss; [|injection E as <- <- _; apply SAME]. destruct (thr_of h pid tid) as [t|]; [|discriminate E]. cbn [obind] in E. cbv zeta in E.
    destruct (ss_onstack (t_stk t)); [injection E as <- <- _; apply SAME|]. destruct (_ || _); injection E as <- <- _; [apply SAME|]. apply keeps_old; [apply old_put_thr|apply plains_nil].
  - unfold do_clone in E. cbv zeta in E. repeat match type of E with (if ?b then Some (h, [], err _) else _) = _ => destruct b; [injection E as <- <- _; apply SAME|] end.
    destruct (get pid (h_procs h)) as [p|] eqn:P; [|discriminate E]. cbn [obind] in E. destruct (run_of h pid) as [r|] eqn:R; [|discriminate E]. cbn [obind] in E.
    set (h2 := mkHost (h_procs h) (h_next h + 1) (h_cid h) (h_tasks h) (h_cur h)) in *. assert (O2 : old_code h h2) by (apply old_procs; reflexivity). destruct (cf_thread fl).
    + injection E as <- <- _. apply keeps_old; [|apply plains_nil]. eapply old_trans; [exact O2|]. apply (old_trans _ (put_run h2 pid (set_nthr r (bput (h_next h) (thr_new false) (n_thr r))))); [eapply old_put_run; [exact R|reflexivity]|]. apply old_procs. reflexivity.
    + injection E as <- <- _. intros x c C r' R'. change (run_of (add_task ?a ?b) x) with (run_of a x) in R'. rewrite run_of_put_proc in R'. cbn [leader_code]. rewrite (Z.eqb_sym (h_next h) x).
      destruct (x =? h_next h); [|apply C; exact R']. cbn [p_st] in R'. injection R' as <-. reflexivity.
  - injection E as <- <- _; apply SAME.
  - injection E as <- <- _; apply SAME.
  - destruct found; injection E as <- <- _; [|apply SAME]. apply keeps_old; [apply old_procs; reflexivity|apply plains_nil].
  - assert (WI : forall t f idr, wait_internal h pid t f idr = Some (h1, o1, res) -> keeps_code h o1 h1).
    { intros t f idr X. unfold wait_internal in X. destruct (filter _ (h_procs h)) as [|e es]; [injection X as <- <- _; apply SAME|]. cbv zeta in X.
      assert (BK : (if w_nohang f then Some (h, [], done 0) else Some (h, [], RBlock TrChild true)) = Some (h1, o1, res) -> keeps_code h o1 h1) by (destruct (w_nohang f); intros [= <- <- _]; apply SAME).
      destruct (negb (w_exited f)); [auto|]. destruct (filter _ (e :: es)) as [|[c q] q0]; [auto|]. destruct (p_st q) as [|s]; [discriminate X|]. injection X as <- <- _.
      apply keeps_old; [destruct (w_nowait f); [apply old_refl|apply old_del]|]. destruct (w_nowait f); [apply plains_nil|apply plains_cons; [exact Logic.I|apply plains_nil]]. }
    unfold do_wait4 in E. destruct (_ || _); [injection E as <- <- _; apply SAME|]. destruct (get pid (h_procs h)) as [p|]; [|discriminate E]. cbn [obind] in E.
    destruct (waitpid_target _ _) as [t|]; [|discriminate E]. cbn [obind] in E. eapply WI; exact E.
  - assert (WI : forall t f idr, wait_internal h pid t f idr = Some (h1, o1, res) -> keeps_code h o1 h1).
    { intros t f idr X. unfold wait_internal in X. destruct (filter _ (h_procs h)) as [|e es]; [injection X as <- <- _; apply SAME|]. cbv zeta in X.
      assert (BK : (if w_nohang f then Some (h, [], done 0) else Some (h, [], RBlock TrChild true)) = Some (h1, o1, res) -> keeps_code h o1 h1) by (destruct (w_nohang f); intros [= <- <- _]; apply SAME).
      destruct (negb (w_exited f)); [auto|]. destruct (filter _ (e :: es)) as [|[c q] q0]; [auto|]. destruct (p_st q) as [|s]; [discriminate X|]. injection X as <- <- _.
      apply keeps_old; [destruct (w_nowait f); [apply old_refl|apply old_del]|]. destruct (w_nowait f); [apply plains_nil|apply plains_cons; [exact Logic.I|apply plains_nil]]. }
    unfold do_waitid in E. destruct (get pid (h_procs h)) as [p|]; [|discriminate E]. cbn [obind] in E. destruct which.
    + eapply WI; exact E.
    + destruct (id <? 0); [injection E as <- <- _; apply SAME|eapply WI; exact E].
    + destruct (id <? 0); [injection E as <- <- _; apply SAME|eapply WI; exact E].
    + destruct (existsb _ _); [discriminate E|injection E as <- <- _; apply SAME].
    + injection E as <- <- _; apply SAME.
  - injection E as <- <- _; apply SAME.
  - destruct (get pid (h_procs h)); [|discriminate E]. cbn [obind] in E. injection E as <- <- _; apply SAME.
  - injection E as <- <- _; apply SAME.
  - destruct (get pid (h_procs h)); [|discriminate E]. cbn [obind] in E. injection E as <- <- _; apply SAME.
  - unfold do_getpgid in E. destruct (get pid (h_procs h)) as [p|]; [|discriminate E]. cbn [obind] in E. destruct (_ || _); [injection E as <- <- _; apply SAME|].
    destruct (_ <? 0); [injection E as <- <- _; apply SAME|]. destruct (get pid0 (h_procs h)); injection E as <- <- _; apply SAME.
  - unfold do_setpgid in E. destruct (get pid (h_procs h)) as [p|]; [|discriminate E]. cbn [obind] in E. cbv zeta in E. destruct (_ && _); [injection E as <- <- _; apply SAME|].
    destruct (get _ (h_procs h)) as [q|] eqn:Q; [|injection E as <- <- _; apply SAME].
    repeat match type of E with context [if ?b then Some (h, err _) else _] => destruct b; [injection E as <- <- _; apply SAME|] end.
    injection E as <- <- _. apply keeps_old; [|apply plains_nil]. eapply old_put_proc; [exact Q|]. cbn. eauto.
  - unfold do_getsid in E. destruct (get pid (h_procs h)) as [p|]; [|discriminate E]. cbn [obind] in E. destruct (_ =? 0); [injection E as <- <- _; apply SAME|].
    destruct (_ <? 0); [injection E as <- <- _; apply SAME|]. destruct (get pid0 (h_procs h)); injection E as <- <- _; apply SAME.
  - unfold do_setsid in E. destruct (get pid (h_procs h)) as [p|] eqn:P; [|discriminate E]. cbn [obind] in E. destruct (sid_of_group h pid); injection E as <- <- _; [apply SAME|].
    apply keeps_old; [|apply plains_nil]. eapply old_put_proc; [exact P|]. cbn. eauto.
  - unfold do_pdeath in E. destruct (get pid (h_procs h)) as [p|] eqn:P; [|discriminate E]. cbn [obind] in E.
    destruct (sig =? 0); [|destruct (is_sig sig); [|injection E as <- <- _; apply SAME]]; injection E as <- <- _; (apply keeps_old; [|apply plains_nil]); (eapply old_put_proc; [exact P|]; cbn; eauto).
  - destruct io; injection E as <- <- _; apply SAME.
Qed.

Lemma handle_exit h pid tid c io h1 o1 code : handle h pid tid c io = Some (h1, o1, RExitThread code) -> c = Exit code.
Proof.
  destruct c; cbn [handle]; intros HA;
    try (exfalso; revert HA; unfold noobs, do_kill, signal_process, do_tkill, do_sigaction, do_sigprocmask, do_sigaltstack, do_clone, do_wait4, do_waitid, wait_internal, do_getpgid, do_setpgid, do_getsid, do_setsid, do_pdeath, done, err, obind;
      repeat (match goal with |- context [match ?x with _ => _ end] => lazymatch x with context [match _ with _ => _ end] => fail | _ => destruct x end end); discriminate).
  injection HA as _ _ ->. reflexivity.
Qed.

Lemma call_codes h pid tid c io h' o : do_call h pid tid c io = Some (h', o) -> keeps_code h o h'.
Proof.
  unfold do_call. destruct (handle h pid tid c io) as [[[h1 o1] res]|] eqn:HA; [|discriminate]. cbn [obind].
  destruct (run_of h1 pid) as [r|] eqn:R; [|discriminate]. cbn [obind]. destruct (get tid (n_thr r)) as [t|]; [|discriminate]. cbn [obind]. cbv zeta.
  assert (K1 := handle_codes _ _ _ _ _ _ _ _ HA).
  assert (PRE : (forall k, c <> Exit k) -> keeps_code h (OCall pid tid c :: o1) h1).
  { intros NE x k C r1 R1. cbn [leader_code]. assert (X : match c with Exit k0 => if (pid =? x) && (tid =? x) then Z.land k0 255 else k | _ => k end = k) by (destruct c; try reflexivity; exfalso; eapply NE; reflexivity).
    rewrite X. apply (K1 x k C r1 R1). }
  assert (REST : forall ho o2, (forall k, c <> Exit k) -> old_code h1 ho -> plains o2 -> keeps_code h ((OCall pid tid c :: o1) ++ o2) ho).
  { intros ho o2 NE O P. eapply keeps_app; [apply PRE; exact NE|apply keeps_old; assumption]. }
  assert (NX : (forall v rs, res <> RDone v rs) -> (forall tr rs, res <> RBlock tr rs) -> (forall k, res <> RExitThread k) -> forall k, c <> Exit k).
  { intros _ _ N k ->. cbn [handle] in HA. injection HA as _ _ <-. eapply N. reflexivity. }
  assert (NC : (forall k, res <> RExitThread k) -> forall k, c <> Exit k).
  { intros N k ->. cbn [handle] in HA. injection HA as _ _ <-. eapply N. reflexivity. }
  assert (DN : forall v rs, (forall k, c <> Exit k) -> keeps_code h (OCall pid tid c :: o1) (set_cur (put_thr h1 pid tid (set_tst t TRun)) (Some (pid, tid, MSig (mkRet v rs (Some c)) true)))).
  { intros v rs NE. rewrite <- (app_nil_r (OCall pid tid c :: o1)). apply REST; [exact NE| |apply plains_nil]. eapply old_trans; [apply old_put_thr|apply old_procs; reflexivity]. }
  destruct res as [v rs|tr rs|code|code].
  - intros [= <- <-]. apply DN. apply NC. discriminate.
  - assert (NE : forall k, c <> Exit k) by (apply NC; discriminate). destruct (sig_ready r t); intros [= <- <-]; [apply DN; exact NE|].
    rewrite <- (app_nil_r (OCall pid tid c :: o1)). apply REST; [exact NE| |apply plains_nil].
    set (h2 := mkHost (h_procs h1) (h_next h1) (h_cid h1 + 1) (h_tasks h1) None). eapply old_trans; [apply (old_procs h1 h2); reflexivity|]. eapply old_put_run; [exact R|]. reflexivity.
  - assert (c = Exit code) by (eapply handle_exit; exact HA). subst c.
    cbn [handle] in HA. injection HA as <- <-. cbn [app].
    assert (ME : forall ho o2 code', (code' = if tid =? pid then Z.land code 255 else n_code r) -> (forall x r', run_of ho x = Some r' -> exists r0, run_of h x = Some r0 /\ n_code r' = if x =? pid then code' else n_code r0) -> plains o2 -> keeps_code h (OCall pid tid (Exit code) :: o2) ho).
    { intros ho o2 code' EC O P x k C r' R'. cbn [leader_code]. rewrite (leader_plain _ _ _ P). destruct (O _ _ R') as (r0 & R0 & EE). rewrite EE. specialize (C _ R0). rewrite (Z.eqb_sym pid x). destruct (Z.eqb_spec x pid) as [->|]; [|exact C].
      cbn [andb]. rewrite EC. destruct (tid =? pid); [reflexivity|]. rewrite R in R0. injection R0 as <-. exact C. }
    destruct (del tid _) as [|e es] eqn:DL.
    + destruct (end_process h pid _) as [[h2 o2]|] eqn:EE; [|discriminate]. cbn [obind]. intros [= <- <-]. apply (ME h2 o2 (if tid =? pid then Z.land code 255 else n_code r) eq_refl); [|eapply plains_end; exact EE].
      intros x r' R'. destruct (old_end _ _ _ _ _ EE x r' R') as (r0 & R0 & EQ). exists r0. split; [exact R0|]. destruct (Z.eqb_spec x pid) as [->|]; [|exact EQ]. exfalso.
      assert (X : run_of h2 pid = None) by (eapply end_gone; exact EE). congruence.
    + intros [= <- <-]. eapply (ME _ [] _ eq_refl); [|apply plains_nil]. intros x r' R'. change (run_of (set_cur ?a ?b) x) with (run_of a x) in R'. pose proof R as R0. apply run_of_get in R0 as (p & P & _).
      rewrite (run_of_put_run _ _ _ _ _ P) in R'. destruct (Z.eqb_spec x pid) as [->|]; [|eauto]. injection R' as <-. exists r. split; [exact R|]. destruct (tid =? pid); reflexivity.
  - destruct (end_process h1 pid _) as [[h2 o2]|] eqn:EE; [|discriminate]. cbn [obind]. intros [= <- <-]. apply (REST h2 o2); [apply NC; discriminate|eapply old_end; exact EE|eapply plains_end; exact EE].
Qed.

Lemma resume_codes h pid tid io h' o : resume h pid tid io = Some (h', o) -> keeps_code h o h'.
Proof.
  unfold resume. intros E. destruct (run_of h pid) as [r|] eqn:R; [|injection E as <- <-; apply keeps_old; [apply old_refl|apply plains_nil]].
  destruct (get tid (n_thr r)) as [t|]; [|injection E as <- <-; apply keeps_old; [apply old_refl|apply plains_nil]]. destruct (t_st t) as [f| |c].
  - injection E as <- <-. apply keeps_old; [|apply plains_nil]. eapply old_trans; [apply old_put_thr|apply old_procs; reflexivity].
  - injection E as <- <-. apply keeps_old; [apply old_refl|apply plains_nil].
  - cbv zeta in E. change o with ([] ++ o). eapply keeps_app; [|eapply call_codes; exact E]. apply keeps_old; [|apply plains_nil]. eapply old_put_run; [exact R|reflexivity].
Qed.

Lemma step_codes h x h' o : step h x = Some (h', o) -> keeps_code h o h'.
Proof.
  assert (SAME : forall h, keeps_code h [] h) by (intros; apply keeps_old; [apply old_refl|apply plains_nil]).
  assert (SC : forall h h1 o h', keeps_code h1 o h' -> old_code h h1 -> keeps_code h o h').
  { intros g g1 q g' K O. change q with ([] ++ q). eapply keeps_app; [|exact K]. apply keeps_old; [exact O|apply plains_nil]. }
  intros E. unfold step in E. destruct (h_cur h) as [[[pid tid] [|rt all]]|] eqn:HC.
  - destruct x; try (injection E as <- <-; apply SAME).
    + eapply call_codes; exact E.
    + destruct (thr_of h pid tid) as [t|]; [|injection E as <- <-; apply SAME]. destruct (t_frames t); injection E as <- <-; [apply SAME|].
      apply keeps_old; [|apply plains_nil]. eapply old_trans; [apply old_put_thr|apply old_procs; reflexivity].
    + destruct (thr_of h pid tid) as [t|]; injection E as <- <-; [|apply SAME]. apply keeps_old; [apply old_put_thr|apply plains_nil].
    + destruct (existsb _ _); [|injection E as <- <-; apply SAME]. destruct (thr_of h pid tid) as [t|]; injection E as <- <-; [|apply SAME].
      apply keeps_old; [eapply old_trans; [apply old_put_thr|apply old_procs; reflexivity]|]. destruct (shas _ _); [apply plains_nil|apply plains_cons; [exact Logic.I|apply plains_nil]].
  - destruct x; try (injection E as <- <-; apply SAME). unfold loop in E. destruct (take h pid tid) as [[[[h1 i] d]|]|] eqn:TK; [| |discriminate E]; cbn [obind] in E.
    + assert (O1 : old_code h h1).
      { unfold take in TK. destruct (run_of h pid) as [r|] eqn:R; [|discriminate TK]. cbn [obind] in TK. destruct (get tid (n_thr r)) as [t|]; [|discriminate TK]. cbn [obind] in TK. cbv zeta in TK.
        destruct (negb _); [destruct (slowest _); [|discriminate TK]; cbn [obind] in TK; injection TK as <- _ _; apply old_put_thr|].
        destruct (negb _); [|discriminate TK]. destruct (slowest _); [|discriminate TK]. cbn [obind] in TK. injection TK as <- _ _. eapply old_put_run; [exact R|reflexivity]. }
      destruct (run_of h1 pid) as [r|] eqn:R; [|discriminate E]. cbn [obind] in E. destruct (get tid (n_thr r)) as [t|]; [|discriminate E]. cbn [obind] in E. cbv zeta in E.
      assert (P1 : plains [OTake pid tid d i]) by (apply plains_cons; [exact Logic.I|apply plains_nil]).
      destruct (sa_h _).
      * injection E as <- <-. apply keeps_old; assumption.
      * destruct (defaultaction _); try discriminate E; try (injection E as <- <-; apply keeps_old; assumption);
          (destruct (end_process h1 pid _) as [[h2 o2]|] eqn:EE; [|discriminate E]; cbn [obind] in E; injection E as <- <-; apply keeps_old;
           [eapply old_trans; [exact O1|eapply old_end; exact EE]|]; apply (plains_app [OTake pid tid d i]); [exact P1|eapply plains_end; exact EE]).
      * injection E as <- <-. apply keeps_old; [|apply (plains_app [OTake pid tid d i]); [exact P1|apply plains_cons; [exact Logic.I|apply plains_nil]]].
        eapply old_trans; [exact O1|]. match goal with |- old_code _ (set_cur ?a _) => apply (old_trans _ a) end; [eapply old_put_run; [exact R|reflexivity]|apply old_procs; reflexivity].
    + destruct (r_call rt) as [c|]; [destruct (_ && _ && _)|].
      * eapply call_codes; exact E.
      * injection E as <- <-. apply keeps_old; [apply old_procs; reflexivity|apply plains_cons; [exact Logic.I|apply plains_nil]].
      * injection E as <- <-. apply keeps_old; [apply old_procs; reflexivity|apply plains_nil].
  - destruct x; try (injection E as <- <-; apply SAME).
    + cbv zeta in E. set (h1 := mkHost (h_procs h) (h_next h + 1) (h_cid h) (h_tasks h) None) in *. destruct (resume _ _ _ _) as [[h2 o2]|] eqn:RS; [|discriminate E]. cbn [obind] in E. injection E as <- <-.
      change (OBorn (h_next h) INIT :: o2) with ([OBorn (h_next h) INIT] ++ o2). eapply keeps_app; [|eapply resume_codes; exact RS].
      intros x c C r' R'. rewrite run_of_put_proc in R'. cbn [leader_code]. rewrite (Z.eqb_sym (h_next h) x). destruct (x =? h_next h); [|apply C; exact R']. cbn [p_st] in R'. injection R' as <-. reflexivity.
    + destruct (h_tasks h) as [|t ts]; [injection E as <- <-; apply SAME|]. apply (SC h (set_tasks h ts)); [|apply old_procs; reflexivity]. generalize dependent (set_tasks h ts). intros g E.
      destruct t as [pid tid|pid tid cid tr|pid tid]; cbn [run_task] in E.
      * eapply resume_codes; exact E.
      * unfold do_wake in E. destruct (run_of g pid) as [r|] eqn:R; [|injection E as <- <-; apply SAME]. destruct (get tid (n_thr r)) as [t|]; [|injection E as <- <-; apply SAME]. cbv zeta in E.
        set (g1 := match t_st t with TBlk c => _ | _ => g end) in E. assert (O1 : old_code g g1) by (unfold g1; destruct (t_st t) as [| |c]; try apply old_refl; destruct (_ =? cid); [apply old_put_thr|apply old_refl]).
        destruct (_ || _); [|injection E as <- <-; apply keeps_old; [exact O1|apply plains_nil]]. apply (SC g g1); [eapply resume_codes; exact E|exact O1].
      * unfold do_exec in E. destruct (get pid (h_procs g)) as [p|] eqn:P; [|injection E as <- <-; apply SAME]. destruct (p_st p) as [r|] eqn:R; [|injection E as <- <-; apply SAME].
        destruct (get tid (n_thr r)) as [t|]; [|discriminate E]. cbn [obind] in E. unfold assert_then in E. destruct (negb _); [|discriminate E]. cbv zeta in E.
        match type of E with context [resume ?a _ _ _] => set (g1 := a) in E end. destruct (resume g1 pid pid io) as [[h2 o2]|] eqn:RS; [|discriminate E]. cbn [obind] in E. injection E as <- <-.
        change (OExec pid tid :: o2) with ([OExec pid tid] ++ o2). eapply keeps_app; [|eapply resume_codes; exact RS]. apply keeps_old; [|apply plains_cons; [exact Logic.I|apply plains_nil]].
        eapply old_put_proc; [exact P|]. cbn. intros r1 [= <-]. eauto.
    + apply keeps_old; [eapply old_signal_run|eapply plains_signal]; exact E.
    + destruct (_ && _); [|injection E as <- <-; apply SAME]. apply keeps_old; [eapply old_signal_run|eapply plains_signal]; exact E.
    + destruct (thr_of h pid tid) as [t|]; [|injection E as <- <-; apply SAME]. destruct (t_st t) as [| |c]; try (injection E as <- <-; apply SAME).
      destruct (c_trig c); injection E as <- <-; try apply SAME. apply keeps_old; [apply old_wake|apply plains_nil].
Qed.

Lemma steps_codes xs : forall h h' o, steps h xs = Some (h', o) -> keeps_code h o h'.
Proof.
  induction xs as [|x xs IH]; intros h h' o; cbn [steps]; [intros [= <- <-]; apply keeps_old; [apply old_refl|apply plains_nil]|].
  destruct (step h x) as [[h1 o1]|] eqn:ST; [|discriminate]. cbn [obind]. destruct (steps h1 xs) as [[h2 o2]|] eqn:SS; [|discriminate]. cbn [obind]. intros [= <- <-].
  eapply keeps_app; [eapply step_codes; exact ST|eapply IH; exact SS].
Qed.

(** * The law *)
Lemma exit_thread_law xs h o pid tid code io h' o' r : steps host_new xs = Some (h, o) -> h_cur h = Some (pid, tid, MApp) -> run_of h pid = Some r ->
  step h (PCall (Exit code) io) = Some (h', o') ->
  h_cur h' = None /\
  ((exists x, x <> tid /\ get x (n_thr r) <> None) -> o' = [OCall pid tid (Exit code)] /\ (forall z, z <> pid -> get z (h_procs h') = get z (h_procs h)) /\
     exists r', run_of h' pid = Some r' /\ n_pend r' = n_pend r /\ n_acts r' = n_acts r /\ forall x, get x (n_thr r') = if x =? tid then None else get x (n_thr r)) /\
  ((forall x, x <> tid -> get x (n_thr r) = None) -> In (ODied pid (Exited (leader_code pid 0 (o ++ o')))) o' /\ run_of h' pid = None).
Proof.
  intros XS HC R E. destruct (at_app _ _ _ _ _ XS HC) as [GD (t & T & ST)]. apply thr_of_get in T as (r0 & R0 & T). assert (r0 = r) by congruence. subst r0.
  assert (KC := steps_codes _ _ _ _ XS pid 0 ltac:(discriminate) r R).
  unfold step in E. rewrite HC in E. unfold do_call in E. cbn [handle obind] in E. rewrite R in E. cbn [obind] in E. rewrite T in E. cbn [obind] in E. cbv zeta in E.
  assert (NT : n_thr (if tid =? pid then set_ncode r (Z.land code 255) else r) = n_thr r) by (destruct (tid =? pid); reflexivity). rewrite NT in E.
  pose proof R as R1. apply run_of_get in R1 as (p & P & R1).
  destruct (del tid (n_thr r)) as [|e es] eqn:DL.
  - set (st := Exited _) in E. destruct (end_process h pid st) as [[h2 o2]|] eqn:EE; [|discriminate E]. cbn [obind] in E. injection E as <- <-.
    assert (CU : forall q x, Some (pid, tid) = Some (q, x) -> q = pid) by (intros ? ? [= -> _]; reflexivity).
    destruct (end_good _ _ _ _ _ _ _ _ _ _ GD R CU EE) as (_ & _ & _ & A & _ & B & C). split; [exact A|]. split.
    + intros (x & NX & G). exfalso. apply G. assert (X : get x (del tid (n_thr r)) = None) by (rewrite DL; reflexivity). rewrite get_del in X. change (eqb x tid) with (x =? tid) in X. destruct (Z.eqb_spec x tid); [contradiction|exact X].
    + intros _. split; [|exact C]. right. assert (EQ : leader_code pid 0 (o ++ OCall pid tid (Exit code) :: o2) = match st with Exited c => c | Signaled c => c end); [|rewrite EQ; exact B].
      rewrite leader_app. cbn [leader_code]. rewrite (leader_plain _ _ o2) by (eapply plains_end; exact EE). rewrite Z.eqb_refl. cbn [andb]. unfold st. rewrite <- KC. destruct (tid =? pid); reflexivity.
  - injection E as <- <-. split; [reflexivity|]. split.
    + intros _. split; [reflexivity|]. split; [intros z N; rewrite same_cur, (get_put_run _ _ _ _ _ P); destruct (Z.eqb_spec z pid); [contradiction|reflexivity]|].
      eexists. split; [change (run_of (set_cur ?a ?b) pid) with (run_of a pid); rewrite (run_of_put_run _ _ _ _ _ P), Z.eqb_refl; reflexivity|].
      split; [destruct (tid =? pid); reflexivity|]. split; [destruct (tid =? pid); reflexivity|]. intros x. cbn [n_thr set_nthr]. rewrite <- DL, get_del. reflexivity.
    + intros N. exfalso. destruct e as [y ty]. assert (X : get y (del tid (n_thr r)) = Some ty) by (rewrite DL; cbn; now rewrite Z.eqb_refl). rewrite get_del in X. change (eqb y tid) with (y =? tid) in X.
      destruct (Z.eqb_spec y tid); [discriminate X|]. rewrite N in X by assumption. discriminate X.
Qed.
