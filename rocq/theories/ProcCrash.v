(** In a state that the machine reaches, the only panics are those of [ProcFaults]. *)
From Verif Require Import Base FMap BTree ProcModel ProcSpec ProcBits ProcFaults ProcInv ProcSig ProcEnd ProcCall ProcStep ProcRun.

Lemma interrupt_some h dying pid sig ts :
  (forall tid t, In (tid, t) ts -> exists t', c_find_thread (h_procs h) dying tid = Some t') ->
  exists h', interrupt h dying pid sig ts = Some h'.
Proof.
  intros F. induction ts as [|[tid t] ts IH]; cbn; [eauto|].
  assert (F' : forall x y, In (x, y) ts -> exists t', c_find_thread (h_procs h) dying x = Some t') by (intros; eapply F; right; eauto).
  specialize (IH F'). destruct (shas (t_mask t) sig); [exact IH|]. destruct (t_st t); try exact IH.
  destruct (F tid t (or_introl eq_refl)) as (t' & FT). unfold wake_for_signal. rewrite FT. cbn. destruct (shas (t_mask t') sig); cbn; eauto.
Qed.

Lemma signal_run_some L ex cu S l h dying pid cur i : Good L ex cu S l h -> si_sig i <= 31 ->
  match dying with Some d => pid < d | None => True end -> exists h' o, signal_run h dying pid cur i = Some (h', o).
Proof.
  intros GD LE DY. unfold signal_run. destruct (run_of h pid) as [r|] eqn:R; [|eauto].
  destruct (ignored (act_of r (si_sig i)) (si_sig i)); [eauto|]. destruct (shas (n_pend r) (si_sig i)); [eauto|].
  assert (si_sig i <=? STD_MAX = true) as -> by (unfold STD_MAX; lia). cbn [assert_then].
  match goal with |- context [if ?b then _ else _] => destruct b end; [eauto|].
  pose proof R as R0. apply run_of_get in R0 as (p & P & R0).
  set (h1 := put_run _ _ _).
  assert (IS : exists h', interrupt h1 dying pid (si_sig i) (n_thr r) = Some h').
  { apply interrupt_some. intros tid t IN.
    assert (T : get tid (n_thr r) = Some t).
    { apply in_get; [|exact IN]. apply bsorted_nodup. eapply n_sorted. eapply good_run; eauto. }
    unfold h1. rewrite (put_run_eq _ _ _ _ P). cbn [h_procs put_proc set_procs].
    eapply c_find_ok with (pid := pid); [apply bput_sorted; apply (g_sorted _ _ _ _ _ _ GD)|apply get_bput_same|reflexivity|cbn; exact T|exact DY]. }
  destruct IS as (h' & IS). rewrite IS. cbn [obind]. eauto.
Qed.

Lemma signal_thread_some L ex cu S l h me pid tid i r t : Good L ex cu S l h -> si_sig i <= 31 -> run_of h pid = Some r -> get tid (n_thr r) = Some t ->
  exists h' o, signal_thread h me pid tid i = Some (h', o).
Proof.
  intros GD LE R T. unfold signal_thread. rewrite R. cbn [obind]. rewrite T. cbn [obind].
  destruct (ignored (act_of r (si_sig i)) (si_sig i)); [eauto|]. destruct (shas (t_pend t) (si_sig i)); [eauto|].
  assert (si_sig i <=? STD_MAX = true) as -> by (unfold STD_MAX; lia). cbn [assert_then t_mask set_tpend t_st].
  destruct (snd me =? tid); cbn [orb]; [eauto|]. destruct (shas (t_mask t) (si_sig i)) eqn:M; [eauto|].
  destruct (t_st t) eqn:ST; [eauto|eauto|].
  pose proof R as R0. apply run_of_get in R0 as (p & P & R0). unfold wake_for_signal.
  set (t1 := set_tpend _ _ _). rewrite (put_thr_eq _ _ _ _ p r P R0). cbn [h_procs put_proc set_procs].
  set (r1 := set_nthr r (bput tid t1 (n_thr r))).
  assert (SO := g_sorted _ _ _ _ _ _ GD).
  destruct (c_find_ok (bput pid (set_pst p (PRun r1)) (h_procs h)) None tid pid (set_pst p (PRun r1)) r1 t1) as (t' & FT);
    [apply bput_sorted; exact SO|apply get_bput_same|reflexivity|apply get_bput_same|exact I|].
  rewrite FT. cbn [obind].
  assert (t' = t1).
  { destruct (c_find_in _ _ _ _ FT) as (q & pq & rq & IN & RQ & TQ).
    assert (Q : get q (bput pid (set_pst p (PRun r1)) (h_procs h)) = Some pq).
    { apply in_get; [apply bsorted_nodup, bput_sorted; exact SO|exact IN]. }
    rewrite get_bput in Q. destruct (Z.eqb_spec q pid) as [->|NE].
    - injection Q as <-. cbn in RQ. injection RQ as <-. unfold r1 in TQ. cbn [n_thr set_nthr] in TQ. rewrite get_bput_same in TQ. congruence.
    - exfalso. apply NE. eapply (g_uniq _ _ _ _ _ _ GD) with (tid := tid); [apply run_of_get; eauto|exact R|eapply get_keys; eauto|eapply get_keys; eauto]. }
  subst t'. cbn [t1 t_mask set_tpend]. rewrite M. cbn [obind assert_then]. eauto.
Qed.

Lemma notify_some L ex cu S l h pid s p : Good L ex cu S l h -> get pid (h_procs h) = Some p -> is_ex ex (p_par p) = false ->
  (forall x, p_exs p = Some x -> x <= 31) -> exists h' o, notify_parent h pid s = Some (h', o).
Proof.
  intros GD P EX LE. unfold notify_parent. rewrite P. cbn [obind]. destruct (p_exs p) as [es|] eqn:E; [|eauto].
  destruct (Z.eqb_spec (p_par p) INIT); [eauto|]. destruct (g_par _ _ _ _ _ _ GD pid p P) as [|(LT & [(r & R)|X])]; [contradiction| |congruence].
  apply run_of_get in R as (pp & PP & R). rewrite PP, R.
  destruct (signal_run_some _ _ _ _ _ _ (Some pid) (p_par p) None (exit_info es pid s) GD) as (h1 & o1 & SR).
  - destruct s; cbn; auto.
  - exact LT.
  - rewrite SR. cbn [obind]. eauto.
Qed.

Definition pd_ok (h : host) (pid : Z) : Prop := forall z q s, get z (h_procs h) = Some q -> p_par q = pid -> p_pdeath q = Some s -> s <= 31.

Lemma orphans_some L S l pid cs : forall h o0, Good L (Some pid) None (after S o0) l h -> obeys S o0 -> quiet o0 -> pid <> INIT ->
  (forall c p, In c cs -> get c (h_procs h) = Some p -> p_par p = pid) -> NoDup cs -> pd_ok h pid ->
  exists h' o, orphans pid (h, o0) cs = Some (h', o).
Proof.
  induction cs as [|c cs IH]; intros h o0 GD OB QU NI CH ND PD; cbn [orphans]; [eauto|]. inversion ND as [|? ? NI' ND']; subst.
  assert (OS : exists h1 o1, orphan pid (h, o0) c = Some (h1, o1) /\ pd_ok h1 pid /\
    (forall x, x <> c -> match get x (h_procs h), get x (h_procs h1) with Some p, Some p' => pkin p p' | None, None => True | _, _ => False end)).
  { unfold orphan. destruct (get c (h_procs h)) as [p|] eqn:P.
    2:{ exists h, o0. split; [reflexivity|]. split; [exact PD|]. intros x _. destruct (get x (h_procs h)); [apply pkin_refl|exact I]. }
    assert (FIN : forall h2 o2, kin h h2 -> exists h1 o1, (match get c (h_procs h2) with None => Some (h2, o0 ++ o2) | Some p => Some (put_proc h2 c (set_par p INIT), o0 ++ o2) end) = Some (h1, o1) /\ pd_ok h1 pid /\
      (forall x, x <> c -> match get x (h_procs h), get x (h_procs h1) with Some p, Some p' => pkin p p' | None, None => True | _, _ => False end)).
    { intros h2 o2 K. destruct (kin_get _ _ _ _ K P) as (p2 & P2 & K2). rewrite P2. eexists _, _. split; [reflexivity|]. split.
      - intros z q s. rewrite get_put_proc. destruct (Z.eqb_spec z c) as [->|NE].
        + intros [= <-]. cbn. intros E. exfalso. congruence.
        + intros Q Q1 Q2. destruct (kin_back _ _ _ _ K Q) as (q0 & Q0 & (K3 & K4 & K5 & K6 & K7 & K8)). apply (PD z q0 s Q0); congruence.
      - intros x NE. rewrite get_put_proc. destruct (Z.eqb_spec x c); [contradiction|]. destruct K as (_ & _ & _ & K). apply K. }
    destruct (p_pdeath p) as [s|] eqn:PDE.
    - destruct (signal_run_some _ _ _ _ _ _ None c None (mkInfo s (SiUser pid)) GD) as (h2 & o2 & SR).
      + cbn. apply (PD c p s P); [eapply CH; [left; reflexivity|exact P]|exact PDE].
      + exact I.
      + rewrite SR. cbn [obind].
        destruct (g_proc _ _ _ _ _ _ GD c p P) as [_ _ _ DE _]. specialize (DE s PDE).
        destruct (signal_run_good _ _ _ _ _ _ None c None (mkInfo s (SiUser pid)) h2 o2 GD DE ltac:(discriminate) SR) as (_ & _ & K & _).
        apply FIN. exact K.
    - cbn [obind]. apply FIN. apply kin_refl. }
  destruct OS as (h1 & o1 & OS & PD1 & K1). rewrite OS. cbn [obind].
  destruct (orphan_good L S l h o0 pid c h1 o1 GD OB QU NI) as (G1 & B1 & Q1 & OK & C1); [intros; eapply CH; [left; reflexivity|assumption]|exact OS|].
  apply IH; auto.
  intros x p IN P1. assert (NE : x <> c) by (intros ->; contradiction). specialize (K1 x NE). rewrite P1 in K1.
  destruct (get x (h_procs h)) as [p0|] eqn:P0; [|contradiction]. destruct K1 as (K1 & _). rewrite K1. eapply CH; [right; exact IN|exact P0].
Qed.

Lemma end_some L cu S l h pid s r : Good L None cu S l h -> run_of h pid = Some r -> (forall q x, cu = Some (q, x) -> q = pid) ->
  ~ rt_links h pid -> exists h' o, end_process h pid s = Some (h', o).
Proof.
  intros GD R CU NR. unfold end_process.
  assert (GD0 : Good L None cu S l (set_cur h None)) by (apply good_cur; exact GD).
  apply run_of_get in R as (p & P & R).
  destruct (notify_some _ _ _ _ _ _ pid s p GD0 P eq_refl) as (h1 & o1 & NP).
  { intros x X. destruct (Z.le_gt_cases x 31); [assumption|]. exfalso. apply NR. left. exists p, x. split; [exact P|]. split; [exact X|lia]. }
  rewrite NP. cbn [obind].
  destruct (notify_good _ _ _ _ _ _ _ _ _ _ _ GD0 P NP) as (A1 & A2 & A3 & A4 & A5).
  destruct (kin_get _ _ _ _ A3 P) as (p1 & P1 & (E1 & E2 & E3 & E4 & E5 & E6)). rewrite P1. cbn [obind].
  rewrite R in E6. destruct (p_st p1) as [r1|] eqn:R1; [|contradiction].
  destruct (g_proc _ _ _ _ _ _ GD pid p P) as [[PG _] _ _ _ _].
  set (p2 := set_pst p1 (PZom s)). set (h2 := put_proc h1 pid p2).
  assert (G2 : Good L (Some pid) None (note (after S o1) (ODied pid s)) (lnote l (ODied pid s)) h2).
  { eapply good_zombie; eauto. rewrite E1, E4. exact A5. }
  assert (P2 : get pid (h_procs h2) = Some p2) by (unfold h2; rewrite get_put_proc, Z.eqb_refl; reflexivity).
  assert (HR : exists b, has_reaper h2 p2 = Some b).
  { unfold has_reaper. destruct (Z.eqb_spec (p_par p2) INIT); [eauto|]. destruct (g_par _ _ _ _ _ _ G2 pid p2 P2) as [|(LT & [(rr & RR)|X])]; [contradiction| |].
    - apply run_of_get in RR as (pp & PP & RR). rewrite PP, RR. destruct (p_exs p2); eauto.
    - unfold is_ex in X. apply Z.eqb_eq in X. lia. }
  destruct HR as (b & HR). rewrite HR. cbn [obind].
  assert (NI : pid <> INIT) by (unfold INIT; lia).
  assert (SO2 := g_sorted _ _ _ _ _ _ G2).
  destruct (orphans_some L (note (after S o1) (ODied pid s)) (lnote l (ODied pid s)) pid (children h2 pid) h2 [] G2 Logic.I quiet_nil NI) as (h3 & o2 & OR).
  - intros c q IN Q. apply children_in in IN as (q' & Q' & X); [congruence|exact SO2].
  - apply children_nodup. exact SO2.
  - intros z q x. unfold h2. rewrite get_put_proc. destruct (Z.eqb_spec z pid) as [->|NE].
    + intros [= <-] Q1. exfalso. cbn in Q1. destruct (g_par _ _ _ _ _ _ A2 pid p1 P1) as [X|(X & _)]; [congruence|lia].
    + intros Q Q1 Q2. destruct (kin_back _ _ _ _ A3 Q) as (q0 & Q0 & (K3 & K4 & K5 & K6 & K7 & K8)).
      destruct (Z.le_gt_cases x 31); [assumption|]. exfalso. apply NR. right. exists z, q0, x. split; [exact Q0|]. split; [congruence|]. split; [congruence|lia].
  - rewrite OR. cbn [obind]. unfold free_zombies. eauto.
Qed.

(** * Calls *)
Lemma wait_some h me t fl idr : exists x, wait_internal h me t fl idr = Some x.
Proof.
  unfold wait_internal. destruct (filter _ (h_procs h)) as [|e ms]; [eauto|]. destruct (negb (w_exited fl)); [destruct (w_nohang fl); eauto|].
  destruct (filter (fun e0 => is_zombie (snd e0)) (e :: ms)) as [|[c p] zs] eqn:F; [destruct (w_nohang fl); eauto|].
  assert (IN : In (c, p) (filter (fun e0 => is_zombie (snd e0)) (e :: ms))) by (rewrite F; left; reflexivity).
  apply filter_In in IN as [_ Z0]. cbn in Z0. unfold is_zombie in Z0. destruct (p_st p); [discriminate Z0|eauto].
Qed.

Lemma handle_some L S l h pid tid c io : Good L None (Some (pid, tid)) S l h -> runs h pid tid -> ~ call_fault h pid c ->
  exists h' o res, handle h pid tid c io = Some (h', o, res).
Proof.
  intros GD (t & T & ST) NF. apply thr_of_get in T as (r & R & T). pose proof R as R0. apply run_of_get in R0 as (p & P & R0).
  assert (THR : thr_of h pid tid = Some t) by (apply thr_of_get; eauto).
  unfold handle. destruct c; cbn [noobs].
  - unfold do_kill. destruct (pid0 =? -1); [eauto|]. destruct (pid0 =? I32_MIN); [eauto|]. set (tg := if pid0 =? 0 then _ else _).
    destruct (get tg (h_procs h)); [|eauto]. unfold signal_process. destruct (sig =? 0); [eauto|]. destruct (is_sig sig) eqn:IS; cbn [negb]; [|eauto].
    destruct (is_rt sig) eqn:RT; [eauto|].
    destruct (signal_run_some _ _ _ _ _ _ None tg (Some (pid, tid)) (mkInfo sig (SiUser (fst (pid, tid)))) GD) as (h1 & o1 & SR); [unfold is_sig, is_rt in *; cbn; lia|exact I|].
    rewrite SR. cbn [obind]. eauto.
  - unfold do_tkill. destruct ((tid0 <? 0) || false); [eauto|]. destruct (find_thread (h_procs h) tid0) as [[q u]|] eqn:FT; [|eauto].
    destruct (sig =? 0); [eauto|]. destruct (is_sig sig) eqn:IS; cbn [negb]; [|eauto]. destruct (is_rt sig) eqn:RT; [eauto|].
    destruct (good_find_thread _ _ _ _ _ _ _ _ _ GD FT) as (rq & RQ & TQ).
    destruct (signal_thread_some _ _ _ _ _ _ (pid, tid) q tid0 (mkInfo sig (SiTkill (fst (pid, tid)))) rq u GD) as (h1 & o1 & SR); [unfold is_sig, is_rt in *; cbn; lia|exact RQ|exact TQ|].
    rewrite SR. cbn [obind]. eauto.
  - unfold do_tkill. destruct ((tid0 <? 0) || (tgid <? 0)); [eauto|]. destruct (find_thread (h_procs h) tid0) as [[q u]|] eqn:FT; [|eauto].
    destruct (negb (tgid =? q)); [eauto|].
    destruct (sig =? 0); [eauto|]. destruct (is_sig sig) eqn:IS; cbn [negb]; [|eauto]. destruct (is_rt sig) eqn:RT; [eauto|].
    destruct (good_find_thread _ _ _ _ _ _ _ _ _ GD FT) as (rq & RQ & TQ).
    destruct (signal_thread_some _ _ _ _ _ _ (pid, tid) q tid0 (mkInfo sig (SiTkill (fst (pid, tid)))) rq u GD) as (h1 & o1 & SR); [unfold is_sig, is_rt in *; cbn; lia|exact RQ|exact TQ|].
    rewrite SR. cbn [obind]. eauto.
  - unfold do_sigaction. destruct (negb (is_sig sig)); cbn; [eauto|]. destruct act; cbn; [|eauto]. destruct (_ || _); cbn; [eauto|]. rewrite R. cbn. eauto.
  - unfold do_sigprocmask. destruct set; cbn; [|eauto]. rewrite THR. cbn. destruct (how =? 0); cbn; [eauto|]. destruct (how =? 1); cbn; [eauto|]. destruct (how =? 2); cbn; eauto.
  - unfold do_sigaltstack. destruct ss; cbn; [|eauto]. rewrite THR. cbn. destruct (ss_onstack (t_stk t)); cbn; [eauto|]. destruct (_ || _); cbn; eauto.
  - unfold do_clone. cbv zeta. do 8 (match goal with |- context [if ?b then Some (h, [], err _) else _] => destruct b end; [eauto|]).
    rewrite P. cbn [obind]. rewrite R. cbn [obind]. destruct (cf_thread fl); eauto.
  - eauto.
  - eauto.
  - destruct found; eauto.
  - unfold do_wait4. destruct (_ || _ || _); [eauto|]. rewrite P. cbn [obind].
    assert (W : exists w, waitpid_target (p_pgid p) pid0 = Some w).
    { unfold waitpid_target. destruct (pid0 =? -1); [eauto|]. destruct (pid0 <? 0); [|destruct (pid0 =? 0); eauto]. unfold I32_MIN. destruct (Z.eqb_spec pid0 (-2147483648)) as [->|]; cbn; [|eauto].
      exfalso. apply NF. reflexivity. }
    destruct W as (w & W). rewrite W. cbn [obind]. match goal with |- context [wait_internal ?a ?b ?c ?d ?e] => destruct (wait_some a b c d e) as ([[? ?] ?] & X) end. rewrite X. eauto.
  - unfold do_waitid. rewrite P. cbn [obind]. destruct which.
    + match goal with |- context [wait_internal ?a ?b ?c ?d ?e] => destruct (wait_some a b c d e) as ([[? ?] ?] & X) end. rewrite X. eauto.
    + destruct (id <? 0); [eauto|]. match goal with |- context [wait_internal ?a ?b ?c ?d ?e] => destruct (wait_some a b c d e) as ([[? ?] ?] & X) end. rewrite X. eauto.
    + destruct (id <? 0); [eauto|]. match goal with |- context [wait_internal ?a ?b ?c ?d ?e] => destruct (wait_some a b c d e) as ([[? ?] ?] & X) end. rewrite X. eauto.
    + destruct (existsb _ (h_procs h)) eqn:EX; [|eauto]. exfalso. apply existsb_exists in EX as ([z q] & IN & E). cbn in E. apply NF. exists z, q.
      split; [apply in_get; [apply bsorted_nodup, (g_sorted _ _ _ _ _ _ GD)|exact IN]|lia].
    + eauto.
  - eauto.
  - rewrite P. cbn. eauto.
  - eauto.
  - rewrite P. cbn. eauto.
  - unfold do_getpgid. rewrite P. cbn. destruct (_ || _); cbn; [eauto|]. destruct (pid0 <? 0); cbn; [eauto|]. destruct (get pid0 (h_procs h)); cbn; eauto.
  - unfold do_setpgid. rewrite P. cbn [obind]. match goal with |- context [if ?b then _ else _] => destruct b end; cbn; [eauto|].
    match goal with |- context [match ?b with Some _ => _ | None => _ end] => destruct b end; cbn; [|eauto].
    do 5 (match goal with |- context [if ?b then Some (h, err _) else _] => destruct b end; cbn; [eauto|]). eauto.
  - unfold do_getsid. rewrite P. cbn. destruct (pid0 =? 0); cbn; [eauto|]. destruct (pid0 <? 0); cbn; [eauto|]. destruct (get pid0 (h_procs h)); cbn; eauto.
  - unfold do_setsid. rewrite P. cbn. destruct (sid_of_group h pid); cbn; eauto.
  - unfold do_pdeath. rewrite P. cbn. destruct (sig =? 0); cbn; [eauto|]. destruct (is_sig sig); cbn; eauto.
  - destruct io; eauto.
Qed.

Definition plain (res : hres) : Prop := match res with RDone _ _ | RBlock _ _ => True | _ => False end.

Lemma wait_plain h me t fl idr h' o res : wait_internal h me t fl idr = Some (h', o, res) -> plain res.
Proof.
  unfold wait_internal. destruct (filter _ (h_procs h)) as [|e ms]; [intros [= _ _ <-]; exact I|].
  destruct (negb (w_exited fl)); [destruct (w_nohang fl); intros [= _ _ <-]; exact I|].
  destruct (filter (fun e0 => is_zombie (snd e0)) (e :: ms)) as [|[c p] zs]; [destruct (w_nohang fl); intros [= _ _ <-]; exact I|].
  destruct (p_st p); [discriminate|]. intros [= _ _ <-]. exact I.
Qed.

Ltac cases E := repeat (match type of E with
  | context [match ?b with _ => _ end] => lazymatch b with context [match _ with _ => _ end] => fail | _ => destruct b end
  end; cbv beta iota in E).

Lemma handle_plain h pid tid c io h' o res : handle h pid tid c io = Some (h', o, res) ->
  match c with
  | Exit code => h' = h /\ o = [] /\ res = RExitThread code
  | ExitGroup code => h' = h /\ o = [] /\ res = RExitGroup code
  | _ => plain res
  end.
Proof.
  intros E. destruct c; cbn [handle] in E.
  - unfold do_kill, signal_process, obind in E. cases E; try discriminate E; try (injection E as <- <- <-; exact I).
  - unfold do_tkill, obind in E. cases E; try discriminate E; try (injection E as <- <- <-; exact I).
  - unfold do_tkill, obind in E. cases E; try discriminate E; try (injection E as <- <- <-; exact I).
  - unfold noobs, do_sigaction, obind in E. cases E; try discriminate E; injection E as <- <- <-; exact I.
  - unfold noobs, do_sigprocmask, obind in E. cases E; try discriminate E; injection E as <- <- <-; exact I.
  - unfold noobs, do_sigaltstack, obind in E. cases E; try discriminate E; injection E as <- <- <-; exact I.
  - unfold do_clone, obind in E. cbv zeta in E. cases E; try discriminate E; injection E as <- <- <-; exact I.
  - injection E as <- <- <-. auto.
  - injection E as <- <- <-. auto.
  - destruct found; injection E as <- <- <-; exact I.
  - unfold do_wait4 in E. destruct (_ || _ || _); [injection E as <- <- <-; exact I|]. destruct (get pid (h_procs h)); [|discriminate E]. cbn [obind] in E.
    destruct (waitpid_target _ _); [|discriminate E]. cbn [obind] in E. eapply wait_plain; eauto.
  - unfold do_waitid in E. destruct (get pid (h_procs h)); [|discriminate E]. cbn [obind] in E. destruct which.
    + eapply wait_plain; eauto.
    + destruct (id <? 0); [injection E as <- <- <-; exact I|]. eapply wait_plain; eauto.
    + destruct (id <? 0); [injection E as <- <- <-; exact I|]. eapply wait_plain; eauto.
    + destruct (existsb _ _); [discriminate E|]. injection E as <- <- <-; exact I.
    + injection E as <- <- <-; exact I.
  - injection E as <- <- <-; exact I.
  - unfold obind in E. cases E; try discriminate E; injection E as <- <- <-; exact I.
  - injection E as <- <- <-; exact I.
  - unfold obind in E. cases E; try discriminate E; injection E as <- <- <-; exact I.
  - unfold noobs, do_getpgid, obind in E. cases E; try discriminate E; injection E as <- <- <-; exact I.
  - unfold noobs, do_setpgid, obind in E. cbv zeta in E. cases E; try discriminate E; injection E as <- <- <-; exact I.
  - unfold noobs, do_getsid, obind in E. cases E; try discriminate E; injection E as <- <- <-; exact I.
  - unfold noobs, do_setsid, obind in E. cases E; try discriminate E; injection E as <- <- <-; exact I.
  - unfold noobs, do_pdeath, obind in E. cases E; try discriminate E; injection E as <- <- <-; exact I.
  - destruct io; injection E as <- <- <-; exact I.
Qed.

(** No process is required to be lone. *)
Definition noL : Z -> bool := fun _ => false.
Lemma fits_noL o : fits noL o.
Proof. intros ? ? ? ? _ _. reflexivity. Qed.

Lemma do_call_some S l h pid tid c io : Good noL None (Some (pid, tid)) S l h -> runs h pid tid -> ~ call_fault h pid c ->
  exists h' o, do_call h pid tid c io = Some (h', o).
Proof.
  intros GD RU NF. destruct (handle_some _ _ _ _ _ _ c io GD RU NF) as (h1 & o1 & res & HA).
  destruct (handle_good noL S l h pid tid GD RU c io h1 o1 res ltac:(reflexivity) HA) as (A1 & A2 & A3 & A4 & A5 & A6 & A7).
  unfold do_call. rewrite HA. cbn [obind]. pose proof A5 as (t & T & ST). apply thr_of_get in T as (r & R & T). rewrite R. cbn [obind]. rewrite T. cbn [obind].
  assert (HP := handle_plain _ _ _ _ _ _ _ _ HA).
  assert (CU : forall q x, Some (pid, tid) = Some (q, x) -> q = pid) by (intros q x [= -> _]; reflexivity).
  assert (PL : plain res -> exists h' o, match (match res with RBlock _ rs => if sig_ready r t then RDone (- EINTR) rs else res | _ => res end) with
    | RDone v rs => Some (set_cur (put_thr h1 pid tid (set_tst t TRun)) (Some (pid, tid, MSig (mkRet v rs (Some c)) true)), OCall pid tid c :: o1)
    | RBlock tr _ => Some (put_run (mkHost (h_procs h1) (h_next h1) (h_cid h1 + 1) (h_tasks h1) None) pid
        (set_nlst (set_nthr r (bput tid (set_tst t (TBlk (mkCnd (h_cid h1) tr false c))) (n_thr r))) (match tr with TrChild => n_lst r ++ [(tid, h_cid h1)] | _ => n_lst r end)), OCall pid tid c :: o1)
    | RExitThread code => match del tid (n_thr (if tid =? pid then set_ncode r (Z.land code 255) else r)) with
      | [] => do (h, o') <- end_process h1 pid (Exited (n_code (if tid =? pid then set_ncode r (Z.land code 255) else r))); Some (h, (OCall pid tid c :: o1) ++ o')
      | ts => Some (set_cur (put_run h1 pid (set_nthr (if tid =? pid then set_ncode r (Z.land code 255) else r) ts)) None, OCall pid tid c :: o1)
      end
    | RExitGroup code => do (h, o') <- end_process h1 pid (Exited (Z.land code 255)); Some (h, (OCall pid tid c :: o1) ++ o')
    end = Some (h', o)).
  { destruct res as [v rs|tr rs|code|code]; cbn [plain]; intros PL; try contradiction; [eauto|]. destruct (sig_ready r t); eauto. }
  destruct c; try (apply (PL HP)).
  - destruct HP as (-> & -> & ->). destruct (del tid _) as [|e ts]; [|eauto].
    match goal with |- context [end_process h pid ?s] => destruct (end_some _ _ _ _ _ _ s _ GD R CU NF) as (h' & o & EE) end. rewrite EE. cbn [obind]. eauto.
  - destruct HP as (-> & -> & ->).
    match goal with |- context [end_process h pid ?s] => destruct (end_some _ _ _ _ _ _ s _ GD R CU NF) as (h' & o & EE) end. rewrite EE. cbn [obind]. eauto.
Qed.

(** Whether the thread blocks does not change the links between processes. *)
Lemma links_put_run h pid r r' : run_of h pid = Some r -> rt_links (put_run h pid r') pid -> rt_links h pid.
Proof.
  intros R. apply run_of_get in R as (p & P & R). intros [(q & s & Q & E & LT)|(z & q & s & Q & E1 & E2 & LT)].
  - rewrite (get_put_run _ _ _ _ _ P), Z.eqb_refl in Q. injection Q as <-. left. exists p, s. auto.
  - rewrite (get_put_run _ _ _ _ _ P) in Q. right. destruct (Z.eqb_spec z pid) as [->|].
    + injection Q as <-. exists pid, p, s. auto.
    + exists z, q, s. auto.
Qed.
Lemma fault_put_run h pid r r' c : run_of h pid = Some r -> call_fault (put_run h pid r') pid c -> call_fault h pid c.
Proof.
  intros R. destruct c; cbn; auto; try (now apply (links_put_run h pid r r')).
  destruct which; auto. intros (z & q & Q & E). apply run_of_get in R as (p & P & R). rewrite (get_put_run _ _ _ _ _ P) in Q.
  destruct (Z.eqb_spec z pid) as [->|]; [|eauto]. injection Q as <-. exists pid, p. auto.
Qed.

Lemma resume_some S l h pid tid io : Good noL None (Some (pid, tid)) S l h -> not_running h pid tid ->
  (forall c, waits_blocked h pid tid c -> ~ call_fault h pid c) -> exists h' o, resume h pid tid io = Some (h', o).
Proof.
  intros GD NR NF. unfold resume. destruct (run_of h pid) as [r|] eqn:R; [|eauto]. destruct (get tid (n_thr r)) as [t|] eqn:T; [|eauto].
  assert (T0 : thr_of h pid tid = Some t) by (apply thr_of_get; eauto).
  destruct (t_st t) as [f| |c] eqn:ST; [eauto|eauto|].
  pose proof R as R0. apply run_of_get in R0 as (p & P & R0).
  set (r1 := set_nlst r (filter (fun e => negb (fst e =? tid)) (n_lst r))).
  set (t' := set_tst t TRun) in *. set (r2 := set_nthr r1 (bput tid t' (n_thr r1))).
  pose proof (good_run _ _ _ _ _ _ _ _ _ GD P R0) as RK. pose proof RK as [R1 R2 R3 R4 R5 R6 R7]. destruct (R7 tid t T) as [T1 T2 _].
  apply (do_call_some S l).
  - rewrite (put_run_eq _ _ _ _ P). unfold put_proc, set_procs. rewrite <- (app_nil_r (h_tasks h)).
    change r2 with (set_nlst (set_nthr r (bput tid t' (n_thr r))) (filter (fun e => negb (fst e =? tid)) (n_lst r))).
    eapply good_put_thr with (t := t); eauto; try lia.
    * split; [exact T1|discriminate|]. intros F. contradiction.
    * intros c0 X. discriminate X.
    * intros x cid. rewrite filter_In. cbn [fst]. destruct (Z.eqb_spec x tid) as [->|]; cbn; [|tauto].
      split; [intros [_ F]; discriminate F|]. intros (c0 & X & _). discriminate X.
    * intros q x cid tr [].
    * intros sig. destruct (g_pend _ _ _ _ _ _ GD pid r R) as [_ Q2]. exact (Q2 tid t T sig).
  - exists t'. split; [|reflexivity]. unfold thr_of. rewrite (run_of_put_run _ _ _ _ _ P), Z.eqb_refl. cbn [r2 n_thr set_nthr]. apply get_bput_same.
  - intros F. apply (NF (c_call c)); [exists t, c; auto|]. eapply fault_put_run; eauto.
Qed.

Lemma resume_resched h pid tid t c cid tr b io : thr_of h pid tid = Some t -> t_st t = TBlk c ->
  resume (put_thr h pid tid (set_tst t (TBlk (mkCnd cid tr b (c_call c))))) pid tid io = resume h pid tid io.
Proof.
  intros T ST. apply thr_of_get in T as (r & R & T). pose proof R as R0. apply run_of_get in R0 as (p & P & R0).
  unfold resume. rewrite (run_put_thr _ _ _ _ _ R), R, T. cbn [n_thr set_nthr]. rewrite get_bput_same. cbn [t_st set_tst]. rewrite ST.
  cbn [c_call]. f_equal. rewrite (put_thr_eq _ _ _ _ p r P R0). rewrite (put_run_eq _ _ _ _ P).
  unfold put_run. rewrite get_put_proc, Z.eqb_refl. unfold put_proc, set_procs. cbn [h_procs h_next h_cid h_tasks h_cur]. rewrite bput_bput.
  cbn [n_lst n_thr set_nthr set_nlst set_nacts n_pend n_infos n_acts n_code]. rewrite bput_bput. reflexivity.
Qed.

Lemma do_wake_some S l h ts pid tid cid tr sat io : Good noL None None S l h -> h_tasks h = TkWake pid tid cid tr :: ts ->
  (forall c, waits_blocked h pid tid c -> ~ call_fault h pid c) -> exists h' o, do_wake (set_tasks h ts) pid tid cid tr sat io = Some (h', o).
Proof.
  intros GD0 HT NF. pose proof (good_pop noL S l h _ ts (Some (pid, tid)) GD0 HT) as GD.
  specialize (GD ltac:(intros ? ? ? ? [= <- <- _ _]; reflexivity)).
  assert (RS : exists h' o, resume (set_tasks h ts) pid tid io = Some (h', o)).
  { apply (resume_some S l); [exact GD|exact (not_running_none _ _ _ _ pid tid GD0)|exact NF]. }
  unfold do_wake. change (run_of (set_tasks h ts) pid) with (run_of h pid). destruct (run_of h pid) as [r|] eqn:R; [|eauto].
  destruct (get tid (n_thr r)) as [t|] eqn:T; [|eauto]. destruct (_ || _ || _); [|eauto].
  destruct (t_st t) as [f| |c] eqn:ST; [exact RS|exact RS|]. destruct (c_id c =? cid); [|exact RS].
  rewrite resume_resched; [exact RS| |exact ST]. change (thr_of h pid tid = Some t). apply thr_of_get. eauto.
Qed.

Lemma do_exec_some h pid tid io : ~ task_fault h (TkExec pid tid) -> bsorted (h_procs h) ->
  (forall r, run_of h pid = Some r -> bsorted (n_thr r)) -> exists h' o, do_exec h pid tid io = Some (h', o).
Proof.
  intros NF SO SR. unfold do_exec. destruct (get pid (h_procs h)) as [p|] eqn:P; [|eauto]. destruct (p_st p) as [r|] eqn:R; [|eauto].
  assert (RO : run_of h pid = Some r) by (apply run_of_get; eauto).
  destruct (get tid (n_thr r)) as [t|] eqn:T; [|exfalso; apply NF; left; eauto]. cbn [obind].
  destruct (existsb (fun e => on_child (snd e)) (n_thr r)) eqn:OC.
  - exfalso. apply existsb_exists in OC as ([x y] & IN & OC). cbn in OC. unfold on_child in OC. destruct (t_st y) as [| |k] eqn:ST; try discriminate OC.
    destruct (c_trig k) eqn:TR; try discriminate OC. apply NF. right. exists x, y, k. split; [|auto]. apply thr_of_get. exists r. split; [exact RO|].
    apply in_get; [apply bsorted_nodup; auto|exact IN].
  - cbn [negb assert_then]. unfold resume. rewrite run_of_put_proc, Z.eqb_refl. cbn [p_st set_exs set_pst n_thr get]. change (eqb pid pid) with (pid =? pid). rewrite Z.eqb_refl.
    cbn [t_st obind]. eauto.
Qed.

Lemma take_some L S l h pid tid : Good L None (Some (pid, tid)) S l h -> runs h pid tid -> exists x, take h pid tid = Some x.
Proof.
  intros GD (t & T & ST). apply thr_of_get in T as (r & R & T). unfold take. rewrite R. cbn [obind]. rewrite T. cbn [obind].
  pose proof R as R0. apply run_of_get in R0 as (p & P & R0).
  pose proof (good_run _ _ _ _ _ _ _ _ _ GD P R0) as RK. destruct (n_thrs _ _ _ _ _ _ _ RK tid t T) as [T1 _ _]. pose proof (n_pset _ _ _ _ _ _ _ RK) as R3.
  destruct (Z.eqb_spec (sminus (t_pend t) (t_mask t)) 0) as [|N1]; cbn [negb].
  - destruct (Z.eqb_spec (sminus (n_pend r) (t_mask t)) 0) as [|N2]; cbn [negb]; [eauto|].
    destruct (slowest_ok _ (std_minus _ (t_mask t) (proj1 R3)) N2) as (sig & ->). cbn [obind]. eauto.
  - destruct (slowest_ok _ (std_minus _ (t_mask t) (proj1 T1)) N1) as (sig & ->). cbn [obind]. eauto.
Qed.

(** What is taken was pending and not blocked; nothing else changes. *)
Lemma take_what L S l h pid tid h1 i d : Good L None (Some (pid, tid)) S l h -> take h pid tid = Some (Some (h1, i, d)) ->
  exists p r t r1, get pid (h_procs h) = Some p /\ p_st p = PRun r /\ get tid (n_thr r) = Some t /\
    shas (t_pend t) (si_sig i) || shas (n_pend r) (si_sig i) = true /\ shas (t_mask t) (si_sig i) = false /\
    h1 = put_run h pid r1 /\ n_acts r1 = n_acts r /\
    exists t1, get tid (n_thr r1) = Some t1 /\ t_mask t1 = t_mask t /\ t_stk t1 = t_stk t /\ t_frames t1 = t_frames t.
Proof.
  intros GD. unfold take. destruct (run_of h pid) as [r|] eqn:R; [|discriminate]. cbn [obind]. destruct (get tid (n_thr r)) as [t|] eqn:T; [|discriminate]. cbn [obind].
  pose proof R as R0. apply run_of_get in R0 as (p & P & R0).
  pose proof (good_run _ _ _ _ _ _ _ _ _ GD P R0) as RK. destruct (n_thrs _ _ _ _ _ _ _ RK tid t T) as [T1 _ _]. pose proof (n_pset _ _ _ _ _ _ _ RK) as R3.
  destruct (negb (sminus (t_pend t) (t_mask t) =? 0)).
  - destruct (slowest (sminus (t_pend t) (t_mask t))) as [sig|] eqn:SL; [|discriminate]. cbn [obind]. intros [= <- <- <-].
    destruct (slowest_some _ _ SL) as (HA & _). apply sminus_has in HA as [HA HM]. rewrite (proj2 T1 sig HA).
    set (t1 := set_tpend t (sdrop (t_pend t) sig) (t_infos t)). exists p, r, t, (set_nthr r (bput tid t1 (n_thr r))). rewrite HA. do 3 (split; [auto|]).
    split; [reflexivity|]. split; [exact HM|]. split; [unfold put_thr; now rewrite R|]. split; [reflexivity|]. exists t1. split; [apply get_bput_same|]. auto.
  - destruct (negb (sminus (n_pend r) (t_mask t) =? 0)); [|discriminate].
    destruct (slowest (sminus (n_pend r) (t_mask t))) as [sig|] eqn:SL; [|discriminate]. cbn [obind]. intros [= <- <- <-].
    destruct (slowest_some _ _ SL) as (HA & _). apply sminus_has in HA as [HA HM]. rewrite (proj2 R3 sig HA).
    exists p, r, t, (set_npend r (sdrop (n_pend r) sig) (n_infos r)). rewrite HA, Bool.orb_true_r. do 3 (split; [auto|]).
    split; [reflexivity|]. split; [exact HM|]. split; [reflexivity|]. split; [reflexivity|]. exists t. auto.
Qed.

Lemma stop_cont_list sig : defaultaction sig = DStop \/ defaultaction sig = DCont -> stop_or_cont sig.
Proof.
  unfold defaultaction, stop_or_cont, SIGCONT. cbn [existsb In].
  destruct (Z.eqb_spec sig 18); [subst; tauto|]. intros H.
  destruct (_ || _) in H; [destruct H; discriminate|]. destruct (_ || _) in H; [destruct H; discriminate|].
  destruct ((sig =? 19) || _) eqn:E in H; [lia|destruct H; discriminate].
Qed.

Lemma loop_some S l h pid tid rt all io : Good noL None (Some (pid, tid)) S l h -> runs h pid tid ->
  ~ (exists sig, takes_default h pid tid sig /\ (stop_or_cont sig \/ rt_links h pid)) ->
  ~ (exists c, r_call rt = Some c /\ call_fault h pid c) ->
  exists h' o, loop h pid tid rt all io = Some (h', o).
Proof.
  intros GD RU N1 N2. unfold loop. destruct (take_some _ _ _ _ _ _ GD RU) as ([[[h1 i] d]|] & TK); rewrite TK; cbn [obind].
  - destruct (take_good _ _ _ _ _ _ _ _ _ GD RU TK) as (A1 & A2 & A3 & A4 & A5).
    destruct (take_what _ _ _ _ _ _ _ _ _ GD TK) as (p & r & t & r1 & P & R & T & HP & HM & E1 & EA & _).
    pose proof A3 as (t1 & T1 & ST1). apply thr_of_get in T1 as (r1' & R1 & T1). rewrite R1. cbn [obind]. rewrite T1. cbn [obind].
    assert (R1E : r1' = r1) by (rewrite E1, (run_of_put_run _ _ _ _ _ P), Z.eqb_refl in R1; congruence). subst r1'.
    assert (RO : run_of h pid = Some r) by (apply run_of_get; eauto).
    assert (TD : sa_h (act_of r1 (si_sig i)) = HDfl -> takes_default h pid tid (si_sig i)).
    { intros E. exists r, t. split; [exact RO|]. split; [exact T|]. split; [exact HP|]. split; [exact HM|]. unfold act_of in *. rewrite EA in E. exact E. }
    assert (EN : sa_h (act_of r1 (si_sig i)) = HDfl -> exists h' o, end_process h1 pid (Signaled (si_sig i)) = Some (h', o)).
    { intros E. eapply end_some; [exact A2|exact R1|intros q x [= -> _]; reflexivity|]. intros RL. apply N1. exists (si_sig i). split; [auto|]. right.
      subst h1. eapply links_put_run; eauto. }
    destruct (sa_h (act_of r1 (si_sig i))) as [| |f] eqn:HA; [eauto| |eauto].
    destruct (defaultaction (si_sig i)) eqn:DA; try (destruct (EN eq_refl) as (h' & o & EE); rewrite EE; cbn [obind]; eauto); [eauto| |];
      exfalso; apply N1; exists (si_sig i); (split; [auto|]); left; apply stop_cont_list; auto.
  - destruct (r_call rt) as [c|]; [|eauto]. destruct (_ && _ && _); [|eauto]. apply (do_call_some S l); auto. intros F. apply N2. eauto.
Qed.

Lemma step_some S l h x : Top noL S l h -> ~ step_fault h x -> exists h' o, step h x = Some (h', o).
Proof.
  intros TP NF. unfold Top in TP. unfold step_fault in NF. unfold step. destruct (h_cur h) as [[[pid tid] m]|] eqn:HC.
  - destruct TP as [GD RU]. destruct m as [|rt all]; destruct x; try (eexists _, _; reflexivity).
    + apply (do_call_some S l); auto.
    + destruct (thr_of h pid tid); [|eauto]. destruct (t_frames t); eauto.
    + destruct (thr_of h pid tid); eauto.
    + destruct (existsb _ _); [|eauto]. destruct (thr_of h pid tid); eauto.
    + apply (loop_some S l); auto.
  - destruct x; try (eexists _, _; reflexivity).
    + unfold resume. rewrite run_of_put_proc, Z.eqb_refl. cbn [p_st n_thr get]. change (eqb (h_next h) (h_next h)) with (h_next h =? h_next h). rewrite Z.eqb_refl.
      cbn [t_st thr_new obind]. eauto.
    + destruct (h_tasks h) as [|t ts] eqn:HT; [eauto|]. assert (TF : ~ task_fault h t) by (intros F; apply NF; eauto).
      destruct t as [pid tid|pid tid cid tr|pid tid]; cbn [run_task].
      * apply (resume_some S l).
        -- apply good_cu. eapply good_pop; [exact TP|exact HT|]. intros ? ? ? ? X. discriminate X.
        -- exact (not_running_none _ _ _ _ pid tid TP).
        -- intros c W F. apply TF. exists c. auto.
      * apply (do_wake_some S l); auto. intros c W F. apply TF. exists c. auto.
      * apply do_exec_some; [exact TF|exact (g_sorted _ _ _ _ _ _ TP)|]. intros r R. apply run_of_get in R as (p & P & R).
        eapply n_sorted. eapply good_run; eauto.
    + eapply signal_run_some; [exact TP|cbn; unfold SIGALRM; lia|exact I].
    + destruct (is_sig sig && negb (is_rt sig)) eqn:E; [|eauto]. eapply signal_run_some; [exact TP|unfold is_sig, is_rt in E; cbn; lia|exact I].
    + destruct (thr_of h pid tid); [|eauto]. destruct (t_st t); eauto. destruct (c_trig c); eauto.
Qed.

Lemma steps_app h xs ys : steps h (xs ++ ys) = do (h1, o1) <- steps h xs; do (h2, o2) <- steps h1 ys; Some (h2, o1 ++ o2).
Proof.
  revert h. induction xs as [|x xs IH]; intros h; cbn [steps app].
  - cbn [obind]. destruct (steps h ys) as [[? ?]|]; reflexivity.
  - destruct (step h x) as [[h1 o1]|]; [|reflexivity]. cbn [obind]. rewrite IH. destruct (steps h1 xs) as [[h2 o2]|]; [|reflexivity]. cbn [obind].
    destruct (steps h2 ys) as [[h3 o3]|]; [|reflexivity]. cbn [obind]. now rewrite app_assoc.
Qed.

Lemma top_of xs h o : steps host_new xs = Some (h, o) -> Top noL (after nothing o) (lafter nobody o) h.
Proof. intros E. exact (proj2 (proj2 (runs_good noL xs h o E (fits_noL o)))). Qed.

Lemma step_safe xs h o x : steps host_new xs = Some (h, o) -> ~ step_fault h x -> exists h' o', step h x = Some (h', o').
Proof. intros E. eapply step_some. eapply top_of. exact E. Qed.

Lemma steps_safe xs : (forall ys x zs h o, xs = ys ++ x :: zs -> steps host_new ys = Some (h, o) -> ~ step_fault h x) ->
  exists h o, steps host_new xs = Some (h, o).
Proof.
  induction xs as [|x xs IH] using rev_ind; intros H; [cbn; eauto|].
  destruct IH as (h & o & E). { intros ys y zs h o -> E. apply (H ys y (zs ++ [x]) h o); [now rewrite <- app_assoc|exact E]. }
  destruct (step_safe xs h o x E) as (h' & o' & SE). { apply (H xs x [] h o); [reflexivity|exact E]. }
  rewrite steps_app, E. cbn [obind steps]. rewrite SE. cbn [obind]. eauto.
Qed.
