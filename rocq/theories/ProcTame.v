(** A second, smaller invariant: the actions of SIGKILL and SIGSTOP are never
    changed, and only calls that can block are ever blocked. *)
From Verif Require Import Base FMap BTree ProcModel ProcSpec ProcBits ProcFaults ProcInv ProcSig ProcEnd ProcCall ProcStep ProcRun ProcCrash.

(** The calls that wait, and what they wait for. *)
Definition blocking (c : call) (tr : trig) : Prop :=
  match c, tr with
  | Wait4 _ _, TrChild | Waitid _ _ _, TrChild | Execve _, TrExec | Io _, TrOther => True
  | _, _ => False
  end.
Definition fixed_acts (m : fmap Z sact) : Prop := forall s, s = SIGKILL \/ s = SIGSTOP -> get s m = None \/ get s m = Some act_default.
Definition tame_run (r : run) : Prop :=
  fixed_acts (n_acts r) /\ forall tid t c, get tid (n_thr r) = Some t -> t_st t = TBlk c -> blocking (c_call c) (c_trig c).
Definition tame (h : host) : Prop := forall pid r, run_of h pid = Some r -> tame_run r.

Lemma tame_kin h h' : kin h h' -> tame h -> tame h'.
Proof.
  intros K T pid r' R. destruct (kin_run_back _ _ _ _ K R) as (r & R0 & (E1 & _ & _ & EK & E2)). destruct (T pid r R0) as [A B]. split; [now rewrite E1|].
  intros tid t' c' T' ST'. assert (IN : In tid (keys (n_thr r))) by (rewrite <- EK; eapply get_keys; eauto).
  apply keys_get in IN as (t & T0). destruct (E2 tid t T0) as (t2 & T2 & _ & _ & _ & TL). assert (t2 = t') by congruence. subst t2.
  unfold tlater in TL. destruct (t_st t) as [f| |c] eqn:ST; try congruence. destruct TL as (c2 & S2 & _ & E4 & E5 & _). assert (c2 = c') by congruence. subst c2.
  rewrite E4, E5. eapply B; eauto.
Qed.

Lemma tame_put_proc h pid p : tame h -> (forall r, p_st p = PRun r -> tame_run r) -> tame (put_proc h pid p).
Proof.
  intros T P x r R. rewrite run_of_put_proc in R. destruct (x =? pid); [|eapply T; eauto]. apply P. destruct (p_st p); congruence.
Qed.
Lemma tame_put_run h pid r : tame h -> tame_run r -> tame (put_run h pid r).
Proof. intros T R. unfold put_run. destruct (get pid (h_procs h)); [|exact T]. apply tame_put_proc; [exact T|]. cbn. intros r0 [= <-]. exact R. Qed.
Lemma tame_thr r tid t' : tame_run r -> (forall c, t_st t' = TBlk c -> blocking (c_call c) (c_trig c)) -> tame_run (set_nthr r (bput tid t' (n_thr r))).
Proof.
  intros [A B] H. split; [exact A|]. cbn. intros x t c. rewrite get_bput. destruct (x =? tid); [|apply B]. intros [= <-]. apply H.
Qed.
Lemma tame_put_thr h pid tid t' : tame h -> (forall c, t_st t' = TBlk c -> blocking (c_call c) (c_trig c)) -> tame (put_thr h pid tid t').
Proof.
  intros T H. unfold put_thr. destruct (run_of h pid) as [r|] eqn:R; [|exact T]. apply tame_put_run; [exact T|]. apply tame_thr; [eapply T; eauto|exact H].
Qed.
Lemma tame_same h h' : h_procs h' = h_procs h -> tame h -> tame h'.
Proof. intros E T pid r R. apply (T pid r). unfold run_of in *. now rewrite <- E. Qed.
Lemma tame_sub h h' : (forall pid r, run_of h' pid = Some r -> run_of h pid = Some r) -> tame h -> tame h'.
Proof. intros E T pid r R. eauto. Qed.

Lemma tame_thr_st h pid tid t c : tame h -> thr_of h pid tid = Some t -> t_st t = TBlk c -> blocking (c_call c) (c_trig c).
Proof. intros T TH ST. apply thr_of_get in TH as (r & R & TH). destruct (T pid r R) as [_ B]. eauto. Qed.

Lemma run_of_fold l : forall h x r, run_of (fold_left del_proc l h) x = Some r -> run_of h x = Some r.
Proof.
  intros h x r. unfold run_of. rewrite fold_del_get. destruct (existsb (Z.eqb x) l); [discriminate|auto].
Qed.

Lemma tame_orphans L S l pid cs : forall h o0 h' o, Good L (Some pid) None (after S o0) l h -> obeys S o0 -> quiet o0 -> pid <> INIT ->
  (forall c p, In c cs -> get c (h_procs h) = Some p -> p_par p = pid) -> NoDup cs ->
  orphans pid (h, o0) cs = Some (h', o) -> tame h -> tame h'.
Proof.
  induction cs as [|c cs IH]; intros h o0 h' o GD OB QU NI CH ND; cbn [orphans]; [intros [= <- <-]; auto|]. inversion ND as [|? ? NI' ND']; subst.
  destruct (orphan pid (h, o0) c) as [[h1 o1]|] eqn:OR; [|discriminate]. cbn [obind]. intros E T.
  destruct (orphan_good L S l h o0 pid c h1 o1 GD OB QU NI ltac:(intros; eapply CH; [left; reflexivity|assumption]) OR) as (G1 & B1 & Q1 & OK & C1).
  assert (K : tame h1 /\ forall x, x <> c -> match get x (h_procs h), get x (h_procs h1) with Some p, Some p' => pkin p p' | None, None => True | _, _ => False end).
  { unfold orphan in OR. destruct (get c (h_procs h)) as [p|] eqn:P.
    2:{ injection OR as <- <-. split; [exact T|]. intros x _. destruct (get x (h_procs h)); [apply pkin_refl|exact Logic.I]. }
    assert (FIN : forall h2 o2, kin h h2 -> (match get c (h_procs h2) with None => Some (h2, o0 ++ o2) | Some p => Some (put_proc h2 c (set_par p INIT), o0 ++ o2) end) = Some (h1, o1) ->
      tame h1 /\ forall x, x <> c -> match get x (h_procs h), get x (h_procs h1) with Some p, Some p' => pkin p p' | None, None => True | _, _ => False end).
    { intros h2 o2 K. destruct (kin_get _ _ _ _ K P) as (p2 & P2 & K2). rewrite P2. intros [= <- <-]. assert (T2 := tame_kin _ _ K T). split.
      - apply tame_put_proc; [exact T2|]. cbn. intros r R. apply (T2 c r). apply run_of_get. eauto.
      - intros x NE. rewrite get_put_proc. destruct (Z.eqb_spec x c); [contradiction|]. destruct K as (_ & _ & _ & K). apply K. }
    destruct (p_pdeath p) as [s|] eqn:PDE.
    - destruct (signal_run h None c None (mkInfo s (SiUser pid))) as [[h2 o2]|] eqn:SR; [|discriminate OR]. cbn [obind] in OR.
      destruct (g_proc _ _ _ _ _ _ GD c p P) as [_ _ _ DE _]. specialize (DE s PDE).
      destruct (signal_run_good _ _ _ _ _ _ None c None (mkInfo s (SiUser pid)) h2 o2 GD DE ltac:(discriminate) SR) as (_ & _ & K & _). eapply FIN; eauto.
    - cbn [obind] in OR. eapply FIN; [apply kin_refl|exact OR]. }
  destruct K as [T1 K1]. eapply (IH h1 o1 h' o); eauto.
  intros x p IN P1. assert (NE : x <> c) by (intros ->; contradiction). specialize (K1 x NE). rewrite P1 in K1.
  destruct (get x (h_procs h)) as [p0|] eqn:P0; [|contradiction]. destruct K1 as (K1 & _). rewrite K1. eapply CH; [right; exact IN|exact P0].
Qed.

Lemma tame_end L cu S l h pid s h' o r : Good L None cu S l h -> run_of h pid = Some r -> (forall q x, cu = Some (q, x) -> q = pid) ->
  end_process h pid s = Some (h', o) -> tame h -> tame h'.
Proof.
  intros GD R CU. unfold end_process.
  assert (GD0 : Good L None cu S l (set_cur h None)) by (apply good_cur; exact GD).
  apply run_of_get in R as (p & P & R).
  destruct (notify_parent (set_cur h None) pid s) as [[h1 o1]|] eqn:NP; [|discriminate]. cbn [obind].
  destruct (notify_good _ _ _ _ _ _ _ _ _ _ _ GD0 P NP) as (A1 & A2 & A3 & A4 & A5).
  destruct (kin_get _ _ _ _ A3 P) as (p1 & P1 & (E1 & E2 & E3 & E4 & E5 & E6)). rewrite P1. cbn [obind].
  rewrite R in E6. destruct (p_st p1) as [r1|] eqn:R1; [|contradiction].
  destruct (g_proc _ _ _ _ _ _ GD pid p P) as [[PG _] _ _ _ _].
  set (p2 := set_pst p1 (PZom s)). set (h2 := put_proc h1 pid p2).
  assert (G2 : Good L (Some pid) None (note (after S o1) (ODied pid s)) (lnote l (ODied pid s)) h2).
  { eapply good_zombie; eauto. rewrite E1, E4. exact A5. }
  destruct (has_reaper h2 p2) as [reaped|] eqn:HR; [|discriminate]. cbn [obind].
  assert (SO2 := g_sorted _ _ _ _ _ _ G2).
  destruct (orphans pid (h2, []) (children h2 pid)) as [[h3 o2]|] eqn:OR; [|discriminate]. cbn [obind].
  assert (NI : pid <> INIT) by (unfold INIT; lia). unfold free_zombies. intros [= <- <-] T.
  eapply tame_sub; [apply run_of_fold|].
  refine (tame_orphans L (note (after S o1) (ODied pid s)) (lnote l (ODied pid s)) pid _ h2 [] h3 o2 G2 Logic.I quiet_nil NI _ (children_nodup _ _ SO2) OR _).
  - intros c q IN Q. apply children_in in IN as (q' & Q' & X); [congruence|exact SO2].
  - apply tame_put_proc; [|discriminate]. eapply tame_kin; [exact A3|]. eapply tame_same; [|exact T]. reflexivity.
Qed.

Lemma fixed_put m sig a : fixed_acts m -> sig <> SIGKILL -> sig <> SIGSTOP -> fixed_acts (put sig a m).
Proof. intros F N1 N2 s H. rewrite get_put. change (eqb s sig) with (s =? sig). destruct (Z.eqb_spec s sig) as [->|]; [destruct H; contradiction|]. apply F. exact H. Qed.
Lemma fixed_put_dfl m sig : fixed_acts m -> fixed_acts (put sig act_default m).
Proof. intros F s H. rewrite get_put. change (eqb s sig) with (s =? sig). destruct (s =? sig); [auto|]. apply F. exact H. Qed.

Lemma get_exec_acts m s : get s (exec_acts m) = match get s m with
  | Some a => Some (if (s <=? STD_MAX) && negb (is_default a || is_ignore a) then act_default else a) | None => None end.
Proof.
  induction m as [|[k a] m IH]; [reflexivity|]. cbn [exec_acts fold_right]. fold (exec_acts m).
  destruct ((k <=? STD_MAX) && negb (is_default a || is_ignore a)) eqn:E; cbn [get]; change (eqb s k) with (s =? k); destruct (Z.eqb_spec s k) as [->|]; auto; now rewrite E.
Qed.
Lemma fixed_exec m : fixed_acts m -> fixed_acts (exec_acts m).
Proof. intros F s H. rewrite get_exec_acts. destruct (F s H) as [-> | ->]; [auto|]. right. cbn. now rewrite Bool.andb_false_r. Qed.

Lemma tame_wait h me t fl idr h' o res : wait_internal h me t fl idr = Some (h', o, res) -> tame h -> tame h'.
Proof.
  unfold wait_internal. destruct (filter _ (h_procs h)) as [|e ms]; [intros [= <- _ _]; auto|].
  destruct (negb (w_exited fl)); [destruct (w_nohang fl); intros [= <- _ _]; auto|].
  destruct (filter (fun e0 => is_zombie (snd e0)) (e :: ms)) as [|[c p] zs]; [destruct (w_nohang fl); intros [= <- _ _]; auto|].
  destruct (p_st p); [discriminate|]. intros [= <- _ _]. destruct (w_nowait fl); [auto|]. apply tame_sub. intros q r. exact (run_of_fold [c] h q r).
Qed.

Lemma wait_block h me t fl idr h' o tr rs : wait_internal h me t fl idr = Some (h', o, RBlock tr rs) -> tr = TrChild.
Proof.
  unfold wait_internal. destruct (filter _ (h_procs h)) as [|e ms]; [discriminate|].
  destruct (negb (w_exited fl)); [destruct (w_nohang fl); [discriminate|]; intros [= _ _ <- _]; auto|].
  destruct (filter (fun e0 => is_zombie (snd e0)) (e :: ms)) as [|[c p] zs]; [destruct (w_nohang fl); [discriminate|]; intros [= _ _ <- _]; auto|].
  destruct (p_st p); [discriminate|]. discriminate.
Qed.

Lemma tame_handle L S l h pid tid c io h' o res : Good L None (Some (pid, tid)) S l h -> runs h pid tid -> handle h pid tid c io = Some (h', o, res) -> tame h ->
  tame h' /\ forall tr rs, res = RBlock tr rs -> blocking c tr.
Proof.
  intros GD (t0 & T0 & ST0) E T. pose proof T0 as T0'. apply thr_of_get in T0' as (r0 & R0 & T0').
  assert (CU : forall q, Some (pid, tid) = Some q -> Some (pid, tid) = Some q) by auto.
  assert (TY : forall t', t_st t' = TRun -> tame (put_thr h pid tid t')) by (intros t' X; apply tame_put_thr; [exact T|]; intros c' Y; congruence).
  destruct c; cbn [handle] in E.
  - unfold do_kill, signal_process in E. destruct (pid0 =? -1); [injection E as <- <- <-; split; [exact T|discriminate]|]. destruct (pid0 =? I32_MIN); [injection E as <- <- <-; split; [exact T|discriminate]|].
    destruct (get _ (h_procs h)); [|injection E as <- <- <-; split; [exact T|discriminate]]. destruct (sig =? 0); [injection E as <- <- <-; split; [exact T|discriminate]|].
    destruct (is_sig sig) eqn:IS; cbn [negb] in E; [|injection E as <- <- <-; split; [exact T|discriminate]]. destruct (is_rt sig); [injection E as <- <- <-; split; [exact T|discriminate]|].
    destruct (signal_run _ _ _ _ _) as [[h1 o1]|] eqn:SR; [|discriminate E]. cbn [obind] in E. injection E as <- <- <-. split; [|discriminate].
    eapply tame_kin; [|exact T]. refine (proj1 (proj2 (proj2 (signal_run_good _ _ _ _ _ _ _ _ _ _ _ _ GD _ _ SR)))); [exact IS|auto].
  - unfold do_tkill in E. destruct ((tid0 <? 0) || false); [injection E as <- <- <-; split; [exact T|discriminate]|]. destruct (find_thread (h_procs h) tid0) as [[q u]|] eqn:FT; [|injection E as <- <- <-; split; [exact T|discriminate]].
    destruct (sig =? 0); [injection E as <- <- <-; split; [exact T|discriminate]|].
    destruct (is_sig sig) eqn:IS; cbn [negb] in E; [|injection E as <- <- <-; split; [exact T|discriminate]]. destruct (is_rt sig); [injection E as <- <- <-; split; [exact T|discriminate]|].
    destruct (signal_thread _ _ _ _ _) as [[h1 o1]|] eqn:SR; [|discriminate E]. cbn [obind] in E. injection E as <- <- <-. split; [|discriminate].
    eapply tame_kin; [|exact T]. refine (proj1 (proj2 (proj2 (signal_thread_good _ _ _ _ _ (pid, tid) _ _ _ _ _ GD _ _ SR)))); [exact IS|eauto].
  - unfold do_tkill in E. destruct ((tid0 <? 0) || (tgid <? 0)); [injection E as <- <- <-; split; [exact T|discriminate]|]. destruct (find_thread (h_procs h) tid0) as [[q u]|] eqn:FT; [|injection E as <- <- <-; split; [exact T|discriminate]].
    destruct (negb (tgid =? q)); [injection E as <- <- <-; split; [exact T|discriminate]|].
    destruct (sig =? 0); [injection E as <- <- <-; split; [exact T|discriminate]|].
    destruct (is_sig sig) eqn:IS; cbn [negb] in E; [|injection E as <- <- <-; split; [exact T|discriminate]]. destruct (is_rt sig); [injection E as <- <- <-; split; [exact T|discriminate]|].
    destruct (signal_thread _ _ _ _ _) as [[h1 o1]|] eqn:SR; [|discriminate E]. cbn [obind] in E. injection E as <- <- <-. split; [|discriminate].
    eapply tame_kin; [|exact T]. refine (proj1 (proj2 (proj2 (signal_thread_good _ _ _ _ _ (pid, tid) _ _ _ _ _ GD _ _ SR)))); [exact IS|eauto].
  - unfold noobs, do_sigaction in E. destruct (negb (is_sig sig)); [injection E as <- <- <-; split; [exact T|discriminate]|]. destruct act as [a|]; [|injection E as <- <- <-; split; [exact T|discriminate]].
    destruct ((sig =? SIGKILL) || (sig =? SIGSTOP)) eqn:K; [injection E as <- <- <-; split; [exact T|discriminate]|]. rewrite R0 in E. cbn [obind] in E. injection E as <- <- <-. split; [|discriminate].
    destruct (T pid r0 R0) as [F B]. apply tame_put_run; [exact T|]. split; [|exact B]. apply fixed_put; [exact F|lia|lia].
  - unfold noobs, do_sigprocmask in E. destruct set; [|injection E as <- <- <-; split; [exact T|discriminate]]. rewrite T0 in E. cbn [obind] in E.
    destruct (how =? 0); [injection E as <- <- <-; split; [apply TY; exact ST0|discriminate]|]. destruct (how =? 1); [injection E as <- <- <-; split; [apply TY; exact ST0|discriminate]|].
    destruct (how =? 2); injection E as <- <- <-; (split; [|discriminate]); [apply TY; exact ST0|exact T].
  - unfold noobs, do_sigaltstack in E. destruct ss; [|injection E as <- <- <-; split; [exact T|discriminate]]. rewrite T0 in E. cbn [obind] in E.
    destruct (ss_onstack (t_stk t0)); [injection E as <- <- <-; split; [exact T|discriminate]|]. destruct (_ || _); injection E as <- <- <-; (split; [|discriminate]); [exact T|apply TY; exact ST0].
  - unfold do_clone in E. cbv zeta in E.
    do 8 (match type of E with context [if ?b then Some (h, [], err _) else _] => destruct b end; [injection E as <- <- <-; split; [exact T|discriminate]|]).
    destruct (get pid (h_procs h)) as [p|] eqn:P; [|discriminate E]. cbn [obind] in E. rewrite R0 in E. cbn [obind] in E. destruct (T pid r0 R0) as [F B].
    destruct (cf_thread fl); injection E as <- <- <-; (split; [|discriminate]).
    + eapply tame_same; [reflexivity|]. apply tame_put_run; [exact T|]. apply tame_thr; [split; [exact F|exact B]|discriminate].
    + eapply tame_same; [reflexivity|]. apply tame_put_proc; [exact T|]. cbn [p_st]. intros r [= <-]. split; cbn [n_acts n_thr].
      * destruct (_ || _); [|exact F]. intros s _. left. reflexivity.
      * intros x y c0 Y. cbn [get] in Y. change (eqb x (h_next h)) with (x =? h_next h) in Y. destruct (x =? h_next h); [injection Y as <-; discriminate|discriminate Y].
  - injection E as <- <- <-; split; [exact T|discriminate].
  - injection E as <- <- <-; split; [exact T|discriminate].
  - destruct found; injection E as <- <- <-; (split; [exact T|]); [intros ? ? [= <- _]; exact I|discriminate].
  - unfold do_wait4 in E. destruct (_ || _ || _); [injection E as <- <- <-; split; [exact T|discriminate]|]. destruct (get pid (h_procs h)); [|discriminate E]. cbn [obind] in E.
    destruct (waitpid_target _ _); [|discriminate E]. cbn [obind] in E. split; [eapply tame_wait; eauto|]. intros tr rs ->. rewrite (wait_block _ _ _ _ _ _ _ _ _ E). exact I.
  - unfold do_waitid in E. destruct (get pid (h_procs h)); [|discriminate E]. cbn [obind] in E. destruct which.
    + split; [eapply tame_wait; eauto|]. intros tr rs ->. rewrite (wait_block _ _ _ _ _ _ _ _ _ E). exact I.
    + destruct (id <? 0); [injection E as <- <- <-; split; [exact T|discriminate]|]. split; [eapply tame_wait; eauto|]. intros tr rs ->. rewrite (wait_block _ _ _ _ _ _ _ _ _ E). exact I.
    + destruct (id <? 0); [injection E as <- <- <-; split; [exact T|discriminate]|]. split; [eapply tame_wait; eauto|]. intros tr rs ->. rewrite (wait_block _ _ _ _ _ _ _ _ _ E). exact I.
    + destruct (existsb _ _); [discriminate E|]. injection E as <- <- <-; split; [exact T|discriminate].
    + injection E as <- <- <-; split; [exact T|discriminate].
  - injection E as <- <- <-; split; [exact T|discriminate].
  - destruct (get pid (h_procs h)); [|discriminate E]. cbn [obind] in E. injection E as <- <- <-; split; [exact T|discriminate].
  - injection E as <- <- <-; split; [exact T|discriminate].
  - destruct (get pid (h_procs h)); [|discriminate E]. cbn [obind] in E. injection E as <- <- <-; split; [exact T|discriminate].
  - unfold noobs, do_getpgid, obind in E. cases E; try discriminate E; injection E as <- <- <-; (split; [exact T|discriminate]).
  - assert (PP : forall x q g, get x (h_procs h) = Some q -> tame (put_proc h x (set_pgid q g))).
    { intros x q g Q. apply tame_put_proc; [exact T|]. cbn. intros r RR. apply (T x r). apply run_of_get. eauto. }
    unfold noobs, do_setpgid in E. cbv zeta in E. destruct (get pid (h_procs h)); [|discriminate E]. cbn [obind] in E.
    destruct (_ && _) in E; [injection E as <- <- <-; split; [exact T|discriminate]|].
    match type of E with context [match get ?x ?y with _ => _ end] => destruct (get x y) as [q|] eqn:Q end; [|injection E as <- <- <-; split; [exact T|discriminate]].
    do 5 (match type of E with context [if ?b then Some (h, err _) else _] => destruct b end; [injection E as <- <- <-; split; [exact T|discriminate]|]).
    injection E as <- <- <-. split; [|discriminate]. apply PP. exact Q.
  - unfold noobs, do_getsid, obind in E. cases E; try discriminate E; injection E as <- <- <-; (split; [exact T|discriminate]).
  - unfold noobs, do_setsid in E. destruct (get pid (h_procs h)) as [q|] eqn:Q; [|discriminate E]. cbn [obind] in E. destruct (sid_of_group h pid); injection E as <- <- <-; (split; [|discriminate]); [exact T|].
    apply tame_put_proc; [exact T|]. cbn. intros r RR. apply (T pid r). apply run_of_get. eauto.
  - unfold noobs, do_pdeath in E. destruct (get pid (h_procs h)) as [q|] eqn:Q; [|discriminate E]. cbn [obind] in E.
    assert (PP : forall g, tame (put_proc h pid (set_pdeath q g))).
    { intros g. apply tame_put_proc; [exact T|]. cbn. intros r RR. apply (T pid r). apply run_of_get. eauto. }
    destruct (sig =? 0); [injection E as <- <- <-; split; [apply PP|discriminate]|]. destruct (is_sig sig); injection E as <- <- <-; (split; [|discriminate]); [apply PP|exact T].
  - destruct io; injection E as <- <- <-; (split; [exact T|]); [discriminate|]. intros tr rs0 [= <- _]. exact I.
Qed.

Lemma tame_call S l h pid tid c io h' o : Good noL None (Some (pid, tid)) S l h -> runs h pid tid -> do_call h pid tid c io = Some (h', o) -> tame h -> tame h'.
Proof.
  intros GD RU. unfold do_call. destruct (handle h pid tid c io) as [[[h1 o1] res]|] eqn:HA; [|discriminate]. cbn [obind].
  destruct (run_of h1 pid) as [r|] eqn:R; [|discriminate]. cbn [obind]. destruct (get tid (n_thr r)) as [t|] eqn:T; [|discriminate]. cbn [obind].
  intros E TM. destruct (tame_handle _ _ _ _ _ _ _ _ _ _ _ GD RU HA TM) as [T1 B1].
  destruct (handle_good noL S l h pid tid GD RU c io h1 o1 res ltac:(reflexivity) HA) as (A1 & A2 & A3 & A4 & A5 & A6 & A7).
  assert (CU : forall q x, Some (pid, tid) = Some (q, x) -> q = pid) by (intros q x [= -> _]; reflexivity).
  assert (DN : tame (put_thr h1 pid tid (set_tst t TRun))) by (apply tame_put_thr; [exact T1|discriminate]).
  destruct res as [v rs|tr rs|code|code].
  - injection E as <- <-. eapply tame_same; [reflexivity|exact DN].
  - destruct (sig_ready r t); injection E as <- <-; [eapply tame_same; [reflexivity|exact DN]|].
    apply tame_put_run; [eapply tame_same; [|exact T1]; reflexivity|].
    destruct (tame_thr r tid (set_tst t (TBlk (mkCnd (h_cid h1) tr false c))) (T1 pid r R)) as [X1 X2]; [|split; [exact X1|exact X2]].
    cbn. intros c0 [= <-]. cbn. eapply B1. reflexivity.
  - set (r1 := if tid =? pid then _ else r) in E. destruct (del tid (n_thr r1)) as [|e ts] eqn:DE.
    + destruct (end_process h1 pid _) as [[h2 o2]|] eqn:EE; [|discriminate E]. cbn [obind] in E. injection E as <- <-. eapply tame_end; eauto.
    + injection E as <- <-. eapply tame_same; [reflexivity|]. apply tame_put_run; [exact T1|]. destruct (T1 pid r R) as [X1 X2].
      assert (E1 : n_acts r1 = n_acts r /\ n_thr r1 = n_thr r) by (unfold r1; destruct (tid =? pid); auto). destruct E1 as [E1 E2].
      split; cbn [n_acts n_thr set_nthr]; [now rewrite E1|]. intros x y c0 Y. apply X2 with (tid := x). rewrite <- DE, E2, get_del in Y.
      change (eqb x tid) with (x =? tid) in Y. destruct (x =? tid); [discriminate Y|exact Y].
  - destruct (end_process h1 pid _) as [[h2 o2]|] eqn:EE; [|discriminate E]. cbn [obind] in E. injection E as <- <-. eapply tame_end; eauto.
Qed.

Lemma good_unblocked L ex S l h pid tid p r t c : Good L ex (Some (pid, tid)) S l h -> get pid (h_procs h) = Some p -> p_st p = PRun r -> get tid (n_thr r) = Some t -> t_st t = TBlk c ->
  let r1 := set_nlst r (filter (fun e => negb (fst e =? tid)) (n_lst r)) in
  let h1 := put_run h pid (set_nthr r1 (bput tid (set_tst t TRun) (n_thr r1))) in
  Good L ex (Some (pid, tid)) S l h1 /\ runs h1 pid tid.
Proof.
  intros GD P R0 T ST r1 h1. assert (R : run_of h pid = Some r) by (apply run_of_get; eauto).
  pose proof (good_run _ _ _ _ _ _ _ _ _ GD P R0) as RK. pose proof RK as [R1 R2 R3 R4 R5 R6 R7]. destruct (R7 tid t T) as [T1 T2 _].
  set (t' := set_tst t TRun) in *. split.
  - unfold h1. rewrite (put_run_eq _ _ _ _ P). unfold put_proc, set_procs. rewrite <- (app_nil_r (h_tasks h)).
    change (set_nthr r1 (bput tid t' (n_thr r1))) with (set_nlst (set_nthr r (bput tid t' (n_thr r))) (filter (fun e => negb (fst e =? tid)) (n_lst r))).
    eapply good_put_thr with (t := t); eauto; try lia.
    * split; [exact T1|discriminate|]. intros F. contradiction.
    * intros c0 X. discriminate X.
    * intros x cid. rewrite filter_In. cbn [fst]. destruct (Z.eqb_spec x tid) as [->|]; cbn; [|tauto].
      split; [intros [_ F]; discriminate F|]. intros (c0 & X & _). discriminate X.
    * intros q x cid tr [].
    * intros sig. destruct (g_pend _ _ _ _ _ _ GD pid r R) as [_ Q2]. exact (Q2 tid t T sig).
  - exists t'. split; [|reflexivity]. unfold h1, thr_of. rewrite (run_of_put_run _ _ _ _ _ P), Z.eqb_refl. cbn [n_thr set_nthr]. apply get_bput_same.
Qed.

Lemma tame_resume S l h pid tid io h' o : Good noL None (Some (pid, tid)) S l h -> resume h pid tid io = Some (h', o) -> tame h -> tame h'.
Proof.
  intros GD. unfold resume. destruct (run_of h pid) as [r|] eqn:R; [|intros [= <- _]; auto]. destruct (get tid (n_thr r)) as [t|] eqn:T; [|intros [= <- _]; auto].
  destruct (t_st t) as [f| |c] eqn:ST.
  - intros [= <- _] TM. eapply tame_same; [reflexivity|]. apply tame_put_thr; [exact TM|discriminate].
  - intros [= <- _]; auto.
  - pose proof R as R0. apply run_of_get in R0 as (p & P & R0). destruct (good_unblocked _ _ _ _ _ _ _ _ _ _ _ GD P R0 T ST) as [G1 U1]. intros E TM.
    eapply tame_call; [exact G1|exact U1|exact E|]. apply tame_put_run; [exact TM|]. destruct (TM pid r R) as [F B]. apply tame_thr; [split; [exact F|exact B]|discriminate].
Qed.

Lemma tame_step S l h x h' o : Top noL S l h -> step h x = Some (h', o) -> tame h -> tame h'.
Proof.
  intros TP. unfold step. unfold Top in TP. destruct (h_cur h) as [[[pid tid] m]|] eqn:HC.
  - destruct TP as [GD RU]. pose proof RU as (t & T & ST). destruct m as [|rt all]; destruct x; try (intros [= <- _]; exact (fun x => x)).
    + eapply tame_call; eauto.
    + rewrite T. destruct (t_frames t); intros [= <- _] TM; [exact TM|]. eapply tame_same; [reflexivity|]. apply tame_put_thr; [exact TM|]. cbn. congruence.
    + rewrite T. intros [= <- _] TM. apply tame_put_thr; [exact TM|]. cbn. congruence.
    + destruct (existsb _ _); [|intros [= <- _]; auto]. rewrite T. intros [= <- _] TM. eapply tame_same; [reflexivity|]. apply tame_put_thr; [exact TM|].
      destruct (shas (t_pend t) sig); cbn; congruence.
    + unfold loop. destruct (take h pid tid) as [[[[h1 i] d]|]|] eqn:TK; [| |discriminate]; cbn [obind].
      * destruct (take_good _ _ _ _ _ _ _ _ _ GD RU TK) as (A1 & A2 & A3 & A4 & A5).
        destruct (run_of h1 pid) as [r|] eqn:R; [|discriminate]. cbn [obind]. destruct (get tid (n_thr r)) as [t1|] eqn:T1; [|discriminate]. cbn [obind].
        assert (ST1 : t_st t1 = TRun) by (destruct A3 as (y & Y & YS); apply thr_of_get in Y as (ry & RY & Y); congruence).
        intros E TM. assert (TM1 : tame h1).
        { unfold take in TK. apply thr_of_get in T as (r0 & R0 & T). rewrite R0 in TK. cbn [obind] in TK. rewrite T in TK. cbn [obind] in TK.
          destruct (negb (sminus (t_pend t) (t_mask t) =? 0)).
          - destruct (slowest _); [|discriminate TK]. cbn [obind] in TK. injection TK as <- _ _. apply tame_put_thr; [exact TM|]. cbn. congruence.
          - destruct (negb (sminus (n_pend r0) (t_mask t) =? 0)); [|discriminate TK]. destruct (slowest _); [|discriminate TK]. cbn [obind] in TK. injection TK as <- _ _.
            apply tame_put_run; [exact TM|]. destruct (TM pid r0 R0) as [F B]. split; [exact F|exact B]. }
        assert (CU : forall q y, Some (pid, tid) = Some (q, y) -> q = pid) by (intros q y [= -> _]; reflexivity).
        destruct (sa_h (act_of r (si_sig i))) as [| |f]; [injection E as <- _; exact TM1| |].
        -- destruct (defaultaction (si_sig i)); try discriminate E; try (injection E as <- _; exact TM1);
             (destruct (end_process h1 pid _) as [[h2 o2]|] eqn:EE; [|discriminate E]; cbn [obind] in E; injection E as <- _; eapply tame_end; eauto).
        -- injection E as <- _. eapply tame_same; [reflexivity|]. apply tame_put_run; [exact TM1|]. destruct (TM1 pid r R) as [F B].
           match goal with |- tame_run (set_nacts (set_nthr r (bput tid ?t' _)) _) => destruct (tame_thr r tid t' (conj F B)) as [X1 X2] end; [cbn; congruence|].
           split; [|exact X2]. cbn [n_acts set_nacts]. destruct (sa_resethand _); [apply fixed_put_dfl; exact F|exact F].
      * destruct (r_call rt) as [c|]; [destruct (_ && _ && _)|]; intros E; [eapply tame_call; eauto| |]; injection E as <- _; intros TM; (eapply tame_same; [reflexivity|exact TM]).
  - destruct x; try (intros [= <- _]; exact (fun x => x)).
    + unfold resume. rewrite run_of_put_proc, Z.eqb_refl. cbn [p_st n_thr get]. change (eqb (h_next h) (h_next h)) with (h_next h =? h_next h). rewrite Z.eqb_refl.
      cbn [t_st thr_new obind]. intros [= <- _] TM. eapply tame_same; [reflexivity|]. apply tame_put_thr; [|discriminate]. apply tame_put_proc; [exact TM|].
      cbn [p_st]. intros r [= <-]. split; [intros s _; left; reflexivity|]. cbn [n_thr]. intros y t c Y. cbn [get] in Y. change (eqb y (h_next h)) with (y =? h_next h) in Y.
      destruct (y =? h_next h); [injection Y as <-; discriminate|discriminate Y].
    + destruct (h_tasks h) as [|t ts] eqn:HT; [intros [= <- _]; auto|]. destruct t as [pid tid|pid tid cid tr|pid tid]; cbn [run_task].
      * intros E TM. eapply tame_resume; [|exact E|exact TM]. apply good_cu. eapply good_pop; [exact TP|exact HT|]. intros ? ? ? ? X. discriminate X.
      * pose proof (good_pop noL S l h _ ts (Some (pid, tid)) TP HT) as GD. specialize (GD ltac:(intros ? ? ? ? [= <- <- _ _]; reflexivity)).
        unfold do_wake. change (run_of (set_tasks h ts) pid) with (run_of h pid). destruct (run_of h pid) as [r|] eqn:R; [|intros [= <- _]; auto].
        destruct (get tid (n_thr r)) as [t|] eqn:T; [|intros [= <- _]; auto]. cbv zeta.
        assert (T0 : thr_of (set_tasks h ts) pid tid = Some t) by (change (thr_of h pid tid = Some t); apply thr_of_get; eauto).
        destruct (t_st t) as [f| |c] eqn:ST.
        -- destruct (_ || _); [|intros [= <- _]; auto]. intros E TM. eapply tame_resume; [exact GD|exact E|exact TM].
        -- destruct (_ || _); [|intros [= <- _]; auto]. intros E TM. eapply tame_resume; [exact GD|exact E|exact TM].
        -- destruct (c_id c =? cid).
           ++ destruct (_ || _).
              ** rewrite (resume_resched _ _ _ _ _ _ _ _ _ T0 ST). intros E TM. eapply tame_resume; [exact GD|exact E|exact TM].
              ** intros [= <- _] TM. apply tame_put_thr; [exact TM|]. cbn. intros c0 [= <-]. cbn. exact (tame_thr_st h pid tid t c TM T0 ST).
           ++ destruct (_ || _); [|intros [= <- _]; auto]. intros E TM. eapply tame_resume; [exact GD|exact E|exact TM].
      * unfold do_exec. change (h_procs (set_tasks h ts)) with (h_procs h). destruct (get pid (h_procs h)) as [p|] eqn:P; [|intros [= <- _]; auto]. destruct (p_st p) as [r|] eqn:R; [|intros [= <- _]; auto].
        destruct (get tid (n_thr r)) as [t|]; [|discriminate]. cbn [obind]. destruct (negb _); [|discriminate]. cbn [assert_then].
        unfold resume. rewrite run_of_put_proc, Z.eqb_refl. cbn [p_st set_exs set_pst n_thr get]. change (eqb pid pid) with (pid =? pid). rewrite Z.eqb_refl. cbn [t_st obind].
        intros [= <- _] TM. eapply tame_same; [reflexivity|]. apply tame_put_thr; [|discriminate]. apply tame_put_proc; [exact TM|]. cbn [p_st set_exs set_pst]. intros r0 [= <-].
        destruct (TM pid r ltac:(apply run_of_get; eauto)) as [F B]. split; [cbn; apply fixed_exec; exact F|]. cbn [n_thr]. intros y t0 c Y. cbn [get] in Y.
        change (eqb y pid) with (y =? pid) in Y. destruct (y =? pid); [injection Y as <-; discriminate|discriminate Y].
    + intros E TM. eapply tame_kin; [|exact TM]. refine (proj1 (proj2 (proj2 (signal_run_good _ _ _ _ _ _ _ _ _ _ _ _ TP _ _ E)))); [reflexivity|discriminate].
    + destruct (is_sig sig && negb (is_rt sig)) eqn:IS; [|intros [= <- _]; auto]. apply Bool.andb_true_iff in IS as [IS _]. intros E TM. eapply tame_kin; [|exact TM].
      refine (proj1 (proj2 (proj2 (signal_run_good _ _ _ _ _ _ _ _ _ _ _ _ TP _ _ E)))); [exact IS|discriminate].
    + destruct (thr_of h pid tid) as [t|]; [|intros [= <- _]; auto]. destruct (t_st t); try (intros [= <- _]; auto; fail). destruct (c_trig c); try (intros [= <- _]; auto; fail).
      intros [= <- _] TM. eapply tame_kin; [|exact TM]. apply (good_wake _ _ _ _ _ _ pid tid TP).
Qed.

Lemma tame_reach xs : forall h o, steps host_new xs = Some (h, o) -> tame h.
Proof.
  induction xs as [|x xs IH] using rev_ind; intros h o E.
  - cbn in E. injection E as <- _. intros pid r R. discriminate R.
  - rewrite steps_app in E. destruct (steps host_new xs) as [[h1 o1]|] eqn:E1; [|discriminate E]. cbn [obind steps] in E.
    destruct (step h1 x) as [[h2 o2]|] eqn:E2; [|discriminate E]. cbn [obind] in E. injection E as <- _.
    eapply tame_step; [eapply top_of; exact E1|exact E2|eapply IH; reflexivity].
Qed.
