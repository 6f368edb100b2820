(** Runs: the invariant holds along every run. *)
From Verif Require Import Base FMap BTree ProcModel ProcSpec ProcBits ProcInv ProcSig ProcEnd ProcCall ProcStep.

Definition Top (L : Z -> bool) (S : pendings) (l : lives) (h : host) : Prop :=
  match h_cur h with
  | None => Good L None None S l h
  | Some (p, t, _) => Good L None (Some (p, t)) S l h /\ runs h p t
  end.
(** Processes in [L] do not make threads. *)
Definition fits (L : Z -> bool) (o : list obs) : Prop :=
  forall pid tid fl raw, In (OCall pid tid (Clone fl raw)) o -> cf_thread fl = true -> L pid = false.
Definition moves (L : Z -> bool) (S : pendings) (l : lives) (h' : host) (o : list obs) : Prop :=
  obeys S o /\ lobeys l o /\ Top L (after S o) (lafter l o) h'.

Lemma moves_app L S l h' o1 o2 : obeys S o1 -> lobeys l o1 -> moves L (after S o1) (lafter l o1) h' o2 -> moves L S l h' (o1 ++ o2).
Proof.
  intros A B (C1 & C2 & C3). unfold moves. rewrite obeys_app, lobeys_app, after_app, lafter_app. auto.
Qed.
Lemma moves_call L S l h' o pid tid c : moves L S l h' o -> moves L S l h' (OCall pid tid c :: o).
Proof. intros M. apply (moves_app L S l h' [OCall pid tid c]); cbn; auto. Qed.
Lemma moves_nil L S l h' : Top L S l h' -> moves L S l h' [].
Proof. intros T. unfold moves. cbn. auto. Qed.

Lemma fits_app L a b : fits L (a ++ b) -> fits L a /\ fits L b.
Proof. intros F. split; intros pid tid fl raw IN; apply (F pid tid fl raw); apply in_or_app; auto. Qed.

Lemma not_ready r t : std_set (t_pend t) -> std_set (n_pend r) -> sig_ready r t = false -> sminus (t_pend t) (t_mask t) = 0 /\ sminus (n_pend r) (t_mask t) = 0.
Proof.
  intros S1 S2. unfold sig_ready. intros H. apply Bool.negb_false_iff in H. apply Z.eqb_eq in H.
  assert (SL : std_set (Z.lor (t_pend t) (n_pend r))) by (apply std_lor; auto).
  pose proof (proj1 (sminus_zero _ _ SL) H) as X. split; apply sminus_zero; auto; intros x P; apply X; rewrite shas_lor, P; auto using Bool.orb_true_r.
Qed.

Lemma good_end L S l h pid tid s h' o : Good L None (Some (pid, tid)) S l h -> runs h pid tid ->
  end_process h pid s = Some (h', o) -> moves L S l h' o.
Proof.
  intros GD (t & T & _) E. apply thr_of_get in T as (r & R & _).
  destruct (end_good L (Some (pid, tid)) S l h pid s h' o r GD R) as (A1 & A2 & A3 & A4 & _); auto.
  - intros q x [= <- _]. reflexivity.
  - unfold moves, Top. rewrite A4. auto.
Qed.

(** A thread that is not the last ends. *)
Lemma good_exit L S l h pid tid p r t code ts : Good L None (Some (pid, tid)) S l h -> get pid (h_procs h) = Some p -> p_st p = PRun r ->
  get tid (n_thr r) = Some t -> t_st t = TRun -> del tid (n_thr r) = ts -> ts <> [] ->
  Good L None None S l (set_cur (put_run h pid (set_nthr (set_ncode r code) ts)) None).
Proof.
  intros GD P R T ST DE NE. apply good_cur. pose proof (good_run _ _ _ _ _ _ _ _ _ GD P R) as RK. pose proof RK as [R1 R2 R3 R4 R5 R6 R7].
  assert (RO : run_of h pid = Some r) by (apply run_of_get; eauto).
  assert (GT : forall x, get x ts = if x =? tid then None else get x (n_thr r)) by (intros; rewrite <- DE, get_del; reflexivity).
  assert (GS : forall x y, get x ts = Some y -> get x (n_thr r) = Some y /\ x <> tid).
  { intros x y. rewrite GT. destruct (Z.eqb_spec x tid); [discriminate|auto]. }
  set (r' := set_nthr (set_ncode r code) ts).
  assert (LF : L pid = false).
  { destruct (L pid) eqn:LP; [|reflexivity]. exfalso. specialize (R5 eq_refl). assert (E : pid = tid).
    { apply get_keys in T. rewrite R5 in T. destruct T as [|[]]; auto. }
    subst tid. apply NE. destruct ts as [|[x y] ts0]; [reflexivity|]. exfalso. destruct (GS x y) as [X Y]; [cbn; change (eqb x x) with (x =? x); rewrite Z.eqb_refl; reflexivity|].
    apply get_keys in X. rewrite R5 in X. destruct X as [|[]]; auto. }
  apply (good_gone L None S l _ pid tid).
  2:{ unfold thr_of. rewrite (run_of_put_run _ _ _ p) by exact P. rewrite Z.eqb_refl. cbn. rewrite GT, Z.eqb_refl. reflexivity. }
  rewrite (put_run_eq _ _ _ _ P). unfold put_proc, set_procs. rewrite <- (app_nil_r (h_tasks h)). eapply good_put; eauto.
  - unfold keeps. cbn. do 3 (split; [reflexivity|]). rewrite R. split; cbn.
    + intros x IN. left. apply keys_get in IN as (y & Y). apply GS in Y as [Y _]. eapply get_keys; eauto.
    + intros x y c Y YS _. exists y, c. apply GS in Y as [Y _]. auto.
  - lia.
  - rewrite app_nil_r. eapply proc_ok_st; [eapply g_proc; eauto|]. split.
    + cbn. rewrite <- DE. now apply del_sorted.
    + cbn. intros x IN. apply keys_get in IN as (y & Y). apply GS in Y as [Y _]. apply R2. eapply get_keys; eauto.
    + exact R3.
    + exact NE.
    + congruence.
    + intros x cid. change (n_lst r') with (n_lst r). rewrite R6. unfold child_wait. cbn. split; intros (y & c & Y & Q).
      * exists y, c. split; [|exact Q]. rewrite GT. destruct (Z.eqb_spec x tid) as [->|]; [|exact Y]. destruct Q as [Q _]. congruence.
      * exists y, c. apply GS in Y as [Y _]. auto.
    + cbn. intros x y Y. apply GS in Y as [Y _]. destruct (R7 x y Y). split; auto.
  - intros q x cid tr [].
  - apply (g_fresh _ _ _ _ _ _ GD).
  - cbn. intros r0 [= <-]. destruct (g_pend _ _ _ _ _ _ GD pid r RO) as [Q1 Q2]. split; [exact Q1|]. cbn. intros x y Y. apply GS in Y as [Y _]. auto.
Qed.

Lemma good_block L S l h pid tid p r t tr c : Good L None (Some (pid, tid)) S l h -> get pid (h_procs h) = Some p -> p_st p = PRun r ->
  get tid (n_thr r) = Some t -> t_st t = TRun -> sig_ready r t = false ->
  (tr = TrChild -> forall z y, get z (h_procs h) = Some y -> is_zombie y = true -> wants pid c z y = false) ->
  let t' := set_tst t (TBlk (mkCnd (h_cid h) tr false c)) in
  let lst := match tr with TrChild => n_lst r ++ [(tid, h_cid h)] | _ => n_lst r end in
  Good L None None S l (put_run (mkHost (h_procs h) (h_next h) (h_cid h + 1) (h_tasks h) None) pid (set_nlst (set_nthr r (bput tid t' (n_thr r))) lst)).
Proof.
  intros GD P R T ST SR WA t' lst. pose proof (good_run _ _ _ _ _ _ _ _ _ GD P R) as RK. pose proof RK as [R1 R2 R3 R4 R5 R6 R7].
  destruct (R7 tid t T) as [T1 T2 _].
  assert (RO : run_of h pid = Some r) by (apply run_of_get; eauto).
  destruct (not_ready r t (proj1 T1) (proj1 R3) SR) as [Z1 Z2].
  assert (NL : forall cid, ~ In (tid, cid) (n_lst r)).
  { intros cid IN. apply R6 in IN as (y & c0 & Y & YS & _). assert (y = t) by congruence. subst y. congruence. }
  set (cur0 := @None (Z * Z * mode)). set (r' := set_nlst (set_nthr r (bput tid t' (n_thr r))) lst).
  assert (G1 : Good L None (Some (pid, tid)) S l (mkHost (bput pid (set_pst p (PRun r')) (h_procs h)) (h_next h) (h_cid h + 1) (h_tasks h ++ []) cur0)).
  { eapply good_put_thr with (t := t); eauto.
    - lia.
    - split; [exact T1| |].
      + cbn. intros c0 [= <-]. cbn. split; [lia|]. intros tr0 IN. rewrite app_nil_r in IN. apply (g_tasks _ _ _ _ _ _ GD) in IN. lia.
      + intros F. contradiction.
    - intros c0 _ F. contradiction.
    - intros x cid. cbn [t' t_st set_tst]. destruct (Z.eqb_spec x tid) as [->|NE].
      + unfold lst. split.
        * intros IN. destruct tr; try (exfalso; eapply NL; exact IN). apply in_app_or in IN as [IN|[IN|[]]]; [exfalso; eapply NL; exact IN|].
          injection IN as <-. eexists. split; [reflexivity|]. cbn. auto.
        * intros (c0 & E & E1 & E2). injection E as <-. cbn in E1, E2. subst tr cid. apply in_or_app. right. left. reflexivity.
      + unfold lst. destruct tr; try reflexivity. split; [intros IN; apply in_app_or in IN as [IN|[IN|[]]]; [exact IN|congruence]|intros; apply in_or_app; auto].
    - intros q x cid tr0 [].
    - intros sig. destruct (g_pend _ _ _ _ _ _ GD pid r RO) as [_ Q2]. exact (Q2 tid t T sig). }
  rewrite app_nil_r in G1. rewrite (put_run_eq _ _ p) by exact P. unfold put_proc, set_procs. cbn [h_procs h_next h_cid h_tasks h_cur].
  eapply good_leave; [exact G1|]. intros r0 t0 R0 T0. unfold run_of in R0. cbn [h_procs] in R0. rewrite get_bput_same in R0. cbn in R0. injection R0 as <-.
  cbn [r' n_thr set_nlst set_nthr] in T0. rewrite get_bput_same in T0. injection T0 as <-. cbn [t' t_st set_tst c_sched c_id c_trig c_call t_pend t_mask].
  split; [discriminate|]. split; [intros X; contradiction|]. split; [intros _ X; contradiction|].
  intros -> z y Y ZB _ WN. exfalso. cbn [h_procs] in Y. rewrite get_bput in Y. destruct (Z.eqb_spec z pid) as [->|]; [injection Y as <-; discriminate ZB|].
  rewrite (WA eq_refl z y Y ZB) in WN. discriminate WN.
Qed.

Lemma do_call_good L S l h pid tid c io h' o : Good L None (Some (pid, tid)) S l h -> runs h pid tid -> fits L o ->
  do_call h pid tid c io = Some (h', o) -> moves L S l h' o.
Proof.
  intros GD RU FI. unfold do_call. destruct (handle h pid tid c io) as [[[h1 o1] res]|] eqn:HA; [|discriminate]. cbn [obind].
  destruct (run_of h1 pid) as [r|] eqn:R; [|discriminate]. cbn [obind]. destruct (get tid (n_thr r)) as [t|] eqn:T; [|discriminate]. cbn [obind].
  intros E.
  assert (OC : In (OCall pid tid c) o).
  { match type of E with match ?x with _ => _ end = _ => destruct x end.
    - injection E as _ <-. left. reflexivity.
    - injection E as _ <-. left. reflexivity.
    - destruct (del _ _); [destruct (end_process _ _ _) as [[? ?]|]; [|discriminate E]; cbn in E|]; injection E as _ <-; left; reflexivity.
    - destruct (end_process _ _ _) as [[? ?]|]; [|discriminate E]. cbn in E. injection E as _ <-. left. reflexivity. }
  assert (LT : forall fl raw, c = Clone fl raw -> cf_thread fl = true -> L pid = false) by (intros fl raw ->; eapply FI; eauto).
  destruct (handle_good L S l h pid tid GD RU c io h1 o1 res LT HA) as (A1 & A2 & A3 & A4 & A5 & A6 & A7).
  assert (TT : thr_of h1 pid tid = Some t) by (apply thr_of_get; eauto).
  assert (ST : t_st t = TRun) by (destruct A5 as (t0 & T0 & ST); congruence).
  pose proof R as R0. apply run_of_get in R0 as (p & P & R0).
  assert (DONE : forall v rs, moves L S l (set_cur (put_thr h1 pid tid (set_tst t TRun)) (Some (pid, tid, MSig (mkRet v rs (Some c)) true))) (OCall pid tid c :: o1)).
  { intros v rs. apply moves_call. unfold moves. split; [exact A1|]. split; [exact A2|]. unfold Top. cbn [h_cur set_cur]. split.
    - apply good_cur. eapply good_self_same; eauto. intros c0 X. congruence.
    - exists (set_tst t TRun). split; [|reflexivity]. exact (thr_put_thr h1 pid tid (set_tst t TRun) r R). }
  assert (ENDS : forall s h2 o2, end_process h1 pid s = Some (h2, o2) -> moves L S l h2 ((OCall pid tid c :: o1) ++ o2)).
  { intros s h2 o2 EE. cbn. apply moves_call. apply moves_app; auto. eapply good_end; eauto. }
  destruct res as [v rs|tr rs|code|code].
  - injection E as <- <-. apply DONE.
  - destruct (sig_ready r t) eqn:SR; [injection E as <- <-; apply DONE|]. injection E as <- <-. apply moves_call. unfold moves. split; [exact A1|]. split; [exact A2|].
    unfold Top. match goal with |- context [put_run ?a ?b ?d] => destruct (put_run_rest a b d) as (_ & _ & _ & RC) end. rewrite RC. cbn [h_cur].
    eapply good_block; eauto. intros ->. exact A7.
  - set (r1 := if tid =? pid then set_ncode r (Z.land code 255) else r) in E.
    destruct (del tid (n_thr r1)) as [|e ts] eqn:DE.
    + destruct (end_process h1 pid (Exited (n_code r1))) as [[h2 o2]|] eqn:EE; [|discriminate E]. cbn in E. injection E as <- <-. apply (ENDS _ _ _ EE).
    + injection E as <- <-. apply moves_call. unfold moves. split; [exact A1|]. split; [exact A2|]. unfold Top. cbn [h_cur set_cur].
      assert (X : set_nthr r1 (e :: ts) = set_nthr (set_ncode r (if tid =? pid then Z.land code 255 else n_code r)) (e :: ts)).
      { unfold r1. destruct (tid =? pid); reflexivity. }
      rewrite X. eapply good_exit; eauto; [|discriminate]. rewrite <- DE. unfold r1. destruct (tid =? pid); reflexivity.
  - destruct (end_process h1 pid (Exited (Z.land code 255))) as [[h2 o2]|] eqn:EE; [|discriminate E]. cbn in E. injection E as <- <-. apply (ENDS _ _ _ EE).
Qed.

Definition not_running (h : host) (pid tid : Z) : Prop := forall t, thr_of h pid tid = Some t -> t_st t <> TRun.

Lemma resume_good L S l h pid tid io h' o : Good L None (Some (pid, tid)) S l h -> not_running h pid tid -> h_cur h = None -> fits L o ->
  resume h pid tid io = Some (h', o) -> moves L S l h' o.
Proof.
  intros GD NR HC FI. unfold resume.
  assert (NO : thr_of h pid tid = None -> moves L S l h []).
  { intros N. apply moves_nil. unfold Top. rewrite HC. eapply good_gone; eauto. }
  destruct (run_of h pid) as [r|] eqn:R.
  2:{ intros [= <- <-]. apply NO. unfold thr_of. now rewrite R. }
  destruct (get tid (n_thr r)) as [t|] eqn:T.
  2:{ intros [= <- <-]. apply NO. unfold thr_of. now rewrite R. }
  assert (T0 : thr_of h pid tid = Some t) by (apply thr_of_get; eauto).
  pose proof R as R0. apply run_of_get in R0 as (p & P & R0).
  destruct (t_st t) as [f| |c] eqn:ST.
  - intros [= <- <-]. apply moves_nil. unfold Top. cbn [h_cur set_cur]. split.
    + apply good_cur. eapply good_self_same; eauto. intros c X. congruence.
    + exists (set_tst t TRun). split; [|reflexivity]. exact (thr_put_thr h pid tid (set_tst t TRun) r R).
  - exfalso. apply (NR t T0 ST).
  - intros E. set (r1 := set_nlst r (filter (fun e => negb (fst e =? tid)) (n_lst r))) in E.
    set (t' := set_tst t TRun) in *. set (r2 := set_nthr r1 (bput tid t' (n_thr r1))) in E.
    pose proof (good_run _ _ _ _ _ _ _ _ _ GD P R0) as RK. pose proof RK as [R1 R2 R3 R4 R5 R6 R7]. destruct (R7 tid t T) as [T1 T2 _].
    eapply do_call_good; [| |exact FI|exact E].
    + rewrite (put_run_eq _ _ _ _ P). unfold put_proc, set_procs. rewrite <- (app_nil_r (h_tasks h)).
      change r2 with (set_nlst (set_nthr r (bput tid t' (n_thr r))) (filter (fun e => negb (fst e =? tid)) (n_lst r))).
      eapply good_put_thr with (t := t); eauto; try lia.
      * split; [exact T1|discriminate|]. intros F. contradiction.
      * intros c0 X. discriminate X.
      * intros x cid. rewrite filter_In. cbn [fst]. destruct (Z.eqb_spec x tid) as [->|]; cbn; [|tauto].
        split; [intros [_ F]; discriminate F|]. intros (c0 & X & _). discriminate X.
      * intros q x cid tr [].
      * intros sig. destruct (g_pend _ _ _ _ _ _ GD pid r R) as [_ Q2]. exact (Q2 tid t T sig).
    + exists t'. split; [|reflexivity]. unfold thr_of. rewrite (run_of_put_run _ _ _ _ _ P), Z.eqb_refl. cbn [r2 n_thr set_nthr]. apply get_bput_same.
Qed.

(** * Tasks *)
Lemma bput_same {V} k (v : V) m : bsorted m -> get k m = Some v -> bput k v m = m.
Proof.
  intros SO. induction m as [|[x y] m IH]; intros G; [discriminate G|]. inversion SO as [|? ? SO' F]; subst. cbn in G |- *. change (eqb k x) with (k =? x) in G.
  destruct (Z.ltb_spec k x) as [LT|GE].
  - exfalso. destruct (Z.eqb_spec k x); [lia|]. apply get_keys in G. rewrite Forall_forall in F. specialize (F k G). cbn in F. lia.
  - destruct (Z.eqb_spec k x) as [->|]; [congruence|]. f_equal. apply IH; auto.
Qed.

Lemma good_pop L S l h t ts cu : Good L None None S l h -> h_tasks h = t :: ts ->
  (forall p x cid tr, t = TkWake p x cid tr -> cu = Some (p, x)) -> Good L None cu S l (set_tasks h ts).
Proof.
  intros [A B TK C D E F G H I J K M N O] HT CU. split; auto.
  - intros p x cid tr IN. apply (TK p x cid tr). rewrite HT. right. exact IN.
  - intros pid p P. destruct (C pid p P) as [C1 C2 C3 C4 C5]. split; auto. intros r R. destruct (C5 r R) as [R1 R2 R3 R4 R5 R6 R7]. split; auto.
    intros x y Y. destruct (R7 x y Y) as [T1 T2 T3]. split; auto.
    + intros c ST. destruct (T2 c ST) as [T4 T5]. split; [exact T4|]. intros tr IN. apply T5. rewrite HT. right. exact IN.
    + intros NC. specialize (T3 ltac:(discriminate)). destruct (t_st y) as [f| |c]; auto. destruct T3 as (T4 & T5). split; [|exact T5].
      intros SC. specialize (T4 SC). rewrite HT in T4. destruct T4 as [T4|T4]; [|exact T4]. exfalso. apply NC. symmetry. eapply CU. exact T4.
  - intros pid tid c BL NC. apply (J pid tid c BL). discriminate.
Qed.

Lemma not_running_none L S l h pid tid : Good L None None S l h -> not_running h pid tid.
Proof.
  intros GD t T ST. apply thr_of_get in T as (r & R & T). apply run_of_get in R as (p & P & R).
  pose proof (good_run _ _ _ _ _ _ _ _ _ GD P R) as RK. destruct (n_thrs _ _ _ _ _ _ _ RK tid t T) as [_ _ X]. specialize (X ltac:(discriminate)). now rewrite ST in X.
Qed.

Lemma do_wake_good L S l h ts pid tid cid tr sat io h' o : Good L None None S l h -> h_cur h = None -> h_tasks h = TkWake pid tid cid tr :: ts -> fits L o ->
  do_wake (set_tasks h ts) pid tid cid tr sat io = Some (h', o) -> moves L S l h' o.
Proof.
  intros GD0 HC HT FI. pose proof (good_pop L S l h _ ts (Some (pid, tid)) GD0 HT) as GD.
  specialize (GD ltac:(intros ? ? ? ? [= <- <- _ _]; reflexivity)). set (h1 := set_tasks h ts) in *.
  unfold do_wake. change (run_of h1 pid) with (run_of h pid). destruct (run_of h pid) as [r|] eqn:R.
  2:{ intros [= <- <-]. apply moves_nil. unfold Top. cbn [h_cur h1 set_tasks]. rewrite HC. eapply good_gone; eauto. unfold thr_of. change (run_of h1 pid) with (run_of h pid). now rewrite R. }
  destruct (get tid (n_thr r)) as [t|] eqn:T.
  2:{ intros [= <- <-]. apply moves_nil. unfold Top. cbn [h_cur h1 set_tasks]. rewrite HC. eapply good_gone; eauto. unfold thr_of. change (run_of h1 pid) with (run_of h pid). now rewrite R. }
  pose proof R as R0. apply run_of_get in R0 as (p & P & R0).
  pose proof (good_run _ _ _ _ _ _ _ _ _ GD0 P R0) as RK. pose proof RK as [R1 R2 R3 R4 R5 R6 R7]. destruct (R7 tid t T) as [T1 T2 T3].
  specialize (T3 ltac:(discriminate)).
  cbv zeta. set (h2 := match t_st t with
                       | TBlk c => if c_id c =? cid then put_thr h1 pid tid (set_tst t (TBlk (mkCnd cid (c_trig c) false (c_call c)))) else h1
                       | _ => h1 end).
  assert (G2 : Good L None (Some (pid, tid)) S l h2 /\ h_cur h2 = None /\ not_running h2 pid tid /\ h_tasks h2 = ts /\
     (forall z, get z (h_procs h2) = if z =? pid then get pid (h_procs h2) else get z (h_procs h)) /\
     exists t2, run_of h2 pid = Some (set_nthr r (bput tid t2 (n_thr r))) /\ get tid (bput tid t2 (n_thr r)) = Some t2 /\
       t_pend t2 = t_pend t /\ t_mask t2 = t_mask t /\
       match t_st t with
       | TBlk c => t_st t2 = TBlk (if c_id c =? cid then mkCnd (c_id c) (c_trig c) false (c_call c) else c)
       | x => t_st t2 = x end).
  { assert (SAME : h2 = h1 -> match t_st t with TBlk c => (c_id c =? cid) = false | _ => True end ->
      Good L None (Some (pid, tid)) S l h2 /\ h_cur h2 = None /\ not_running h2 pid tid /\ h_tasks h2 = ts /\
     (forall z, get z (h_procs h2) = if z =? pid then get pid (h_procs h2) else get z (h_procs h)) /\
     exists t2, run_of h2 pid = Some (set_nthr r (bput tid t2 (n_thr r))) /\ get tid (bput tid t2 (n_thr r)) = Some t2 /\
       t_pend t2 = t_pend t /\ t_mask t2 = t_mask t /\
       match t_st t with
       | TBlk c => t_st t2 = TBlk (if c_id c =? cid then mkCnd (c_id c) (c_trig c) false (c_call c) else c)
       | x => t_st t2 = x end).
    { intros -> X. split; [exact GD|]. split; [exact HC|]. split; [exact (not_running_none _ _ _ _ pid tid GD0)|]. split; [reflexivity|].
      split; [intros z; destruct (Z.eqb_spec z pid) as [->|]; reflexivity|]. exists t.
      assert (BP : bput tid t (n_thr r) = n_thr r) by (apply bput_same; auto). rewrite BP.
      split; [change (run_of h1 pid) with (run_of h pid); rewrite R; destruct r; reflexivity|]. do 3 (split; [auto|]).
      destruct (t_st t) as [f| |c]; auto. now rewrite X. }
    destruct (t_st t) as [f| |c] eqn:ST; [now apply SAME|now apply SAME|]. destruct (Z.eqb_spec (c_id c) cid) as [E|NE]; [|apply SAME; auto].
    subst cid. set (c' := mkCnd (c_id c) (c_trig c) false (c_call c)) in *. set (t' := set_tst t (TBlk c')) in *.
    assert (G2 : Good L None (Some (pid, tid)) S l h2).
    { unfold h2. rewrite (put_thr_eq h1 _ _ _ p r P R0). unfold put_proc, set_procs. rewrite <- (app_nil_r (h_tasks h1)).
      change (set_nthr r (bput tid t' (n_thr r))) with (set_nlst (set_nthr r (bput tid t' (n_thr r))) (n_lst r)).
      eapply good_put_thr with (t := t); eauto; try lia.
      - split; [exact T1| |].
        + cbn. intros c0 [= <-]. cbn. destruct (T2 c eq_refl) as [T4 T5]. split; [exact T4|]. intros tr0 IN. rewrite app_nil_r in IN. apply T5. rewrite HT. right. exact IN.
        + intros F. contradiction.
      - intros c0 _ F. contradiction.
      - eapply lst_same; [exact RK|exact T|]. intros cid. rewrite ST. cbn [t' t_st set_tst]. split; intros (c0 & E0 & E1); injection E0 as <-; [exists c'|exists c]; auto.
      - intros q x cid0 tr0 [].
      - intros sig. destruct (g_pend _ _ _ _ _ _ GD0 pid r R) as [_ Q2]. exact (Q2 tid t T sig). }
    split; [exact G2|]. destruct (put_thr_rest h1 pid tid t') as (E1 & E2 & E3 & E4).
    assert (RR : run_of h2 pid = Some (set_nthr r (bput tid t' (n_thr r)))) by (unfold h2; apply run_put_thr; exact R).
    split; [unfold h2; rewrite E4; exact HC|]. split.
    { intros y Y YS. unfold thr_of in Y. rewrite RR in Y. cbn [n_thr set_nthr] in Y. rewrite get_bput_same in Y. injection Y as <-. discriminate YS. }
    split; [unfold h2; rewrite E3; reflexivity|]. split.
    { intros z. unfold h2. rewrite (put_thr_eq h1 _ _ _ p r P R0). rewrite !get_put_proc, Z.eqb_refl. destruct (z =? pid); reflexivity. }
    exists t'. split; [exact RR|]. rewrite get_bput_same. do 3 (split; [reflexivity|]). try rewrite Z.eqb_refl. reflexivity. }
  destruct G2 as (G2 & HC2 & NR2 & HT2 & GP2 & t2 & RR2 & TT2 & E1 & E2 & E3).
  match goal with |- (if ?b then _ else _) = _ -> _ => destruct b eqn:SAT end.
  { intros E. eapply resume_good; eauto. }
  intros [= <- <-]. apply moves_nil. unfold Top. rewrite HC2. apply Bool.orb_false_iff in SAT as [SAT SR]. apply Bool.orb_false_iff in SAT as [_ SC].
  destruct (not_ready r t (proj1 T1) (proj1 R3) SR) as [Z1 Z2].
  eapply good_leave; [exact G2|]. intros r0 t0 Y0 Y1. rewrite RR2 in Y0. injection Y0 as <-. cbn [n_thr set_nthr] in Y1. rewrite TT2 in Y1. injection Y1 as <-.
  cbn [n_pend set_nthr]. rewrite E1, E2, HT2. destruct (t_st t) as [f| |c] eqn:ST; rewrite E3; auto.
  split; [|split; [|split]].
  - intros SX. destruct T3 as (T4 & _). destruct (Z.eqb_spec (c_id c) cid) as [EC|NC]; [discriminate SX|]. specialize (T4 SX). rewrite HT in T4.
    destruct T4 as [T4|T4]; [congruence|exact T4].
  - intros X. contradiction.
  - intros _ X. contradiction.
  - intros TC z y Y ZB EX WN. destruct (Z.eqb_spec (c_id c) cid) as [EC|NC].
    + exfalso. destruct (T2 c eq_refl) as [_ T5]. specialize (T5 tr). rewrite HT, <- EC in T5. specialize (T5 (or_introl eq_refl)). cbn in TC. rewrite T5, TC in SC. discriminate SC.
    + (* a stale wakeup; the condition is as before *)
      assert (BL : blk h pid tid c) by (exists t; split; [apply thr_of_get; eauto|exact ST]).
      assert (ZP : z <> pid). { intros ->. apply run_of_get in RR2 as (q & Q & RQ). assert (q = y) by congruence. subst q. unfold is_zombie in ZB. rewrite RQ in ZB. discriminate ZB. }
      rewrite GP2 in Y. destruct (Z.eqb_spec z pid); [contradiction|]. eapply (g_wait _ _ _ _ _ _ GD0 pid tid c BL); eauto. discriminate.
Qed.

Lemma do_exec_good L S l h pid tid io h' o : Good L None None S l h -> h_cur h = None -> fits L o ->
  do_exec h pid tid io = Some (h', o) -> moves L S l h' o.
Proof.
  intros GD HC FI. unfold do_exec. assert (SAME : moves L S l h []) by (apply moves_nil; unfold Top; rewrite HC; exact GD).
  destruct (get pid (h_procs h)) as [p|] eqn:P; [|intros [= <- <-]; exact SAME]. destruct (p_st p) as [r|] eqn:R; [|intros [= <- <-]; exact SAME].
  destruct (get tid (n_thr r)) as [t|] eqn:T; [|discriminate]. cbn [obind]. unfold assert_then. destruct (existsb (fun e => on_child (snd e)) (n_thr r)) eqn:OC; [discriminate|]. cbn [negb].
  set (t' := mkThr (t_mask t) (t_pend t) (t_infos t) stk_none [] (TNew false)).
  set (r' := mkRun (n_pend r) (n_infos r) (exec_acts (n_acts r)) [(pid, t')] (n_lst r) (n_code r)).
  set (p' := set_exs (set_pst p (PRun r')) (Some SIGCHLD)). set (h1 := put_proc h pid p').
  destruct (resume h1 pid pid io) as [[h2 o2]|] eqn:RE; [|discriminate]. cbn [obind]. intros [= <- <-].
  pose proof (good_run _ _ _ _ _ _ _ _ _ GD P R) as RK. pose proof RK as [R1 R2 R3 R4 R5 R6 R7]. destruct (R7 tid t T) as [T1 T2 _].
  assert (RO : run_of h pid = Some r) by (apply run_of_get; eauto). destruct (g_pend _ _ _ _ _ _ GD pid r RO) as [Q1 Q2].
  destruct (g_proc _ _ _ _ _ _ GD pid p P) as [PR PG PE PD _].
  assert (NL : n_lst r = []).
  { destruct (n_lst r) as [|[x cid] ls] eqn:NL; [reflexivity|]. exfalso. assert (IN : In (x, cid) ((x, cid) :: ls)) by (left; reflexivity).
    apply R6 in IN as (y & c & Y & YS & YC & _). apply get_in in Y.
    assert (X : existsb (fun e => on_child (snd e)) (n_thr r) = true) by (apply existsb_exists; exists (x, y); split; [exact Y|]; cbn; unfold on_child; rewrite YS, YC; reflexivity).
    congruence. }
  assert (G1 : Good L None None (note S (OExec pid tid)) l h1).
  { unfold h1, put_proc, set_procs. rewrite <- (app_nil_r (h_tasks h)). eapply good_put; eauto.
    - unfold keeps. cbn. do 3 (split; [reflexivity|]). rewrite R. split; cbn.
      + intros x [<-|[]]. auto.
      + intros x y c Y YS _. change (eqb x pid) with (x =? pid) in Y. destruct (x =? pid); [injection Y as <-; discriminate YS|discriminate Y].
    - lia.
    - rewrite app_nil_r. split; auto.
      + cbn. intros s [= <-]. reflexivity.
      + cbn. intros r0 [= <-]. split.
        * cbn. constructor; constructor.
        * cbn. intros x [<-|[]]. exact PR.
        * exact R3.
        * discriminate.
        * reflexivity.
        * intros x cid. cbn [n_lst r']. rewrite NL. split; [intros []|]. intros (y & c & Y & YS & _). cbn in Y. change (eqb x pid) with (x =? pid) in Y. destruct (x =? pid); [injection Y as <-; discriminate YS|discriminate Y].
        * intros x y Y. cbn in Y. change (eqb x pid) with (x =? pid) in Y. destruct (Z.eqb_spec x pid) as [->|]; [|discriminate Y]. injection Y as <-. split; [exact T1|discriminate|]. intros _. exact I.
    - intros q x cid tr [].
    - intros d sig ND. cbn. destruct d as [q|q x]; [reflexivity|]. cbn in ND. destruct (Z.eqb_spec q pid); [contradiction|reflexivity].
    - intros d sig LE. cbn. destruct d as [q|q x]; [apply (g_fresh _ _ _ _ _ _ GD); exact LE|]. cbn in LE. destruct (q =? pid); [|apply (g_fresh _ _ _ _ _ _ GD); exact LE].
      destruct (Z.eqb_spec x pid); [lia|reflexivity].
    - cbn. intros r0 [= <-]. split; [exact Q1|]. intros x y Y sig. cbn in Y. change (eqb x pid) with (x =? pid) in Y. destruct (Z.eqb_spec x pid) as [->|]; [|discriminate Y]. injection Y as <-.
      cbn. rewrite Z.eqb_refl. apply Q2. exact T. }
  change (OExec pid tid :: o2) with ([OExec pid tid] ++ o2) in *. apply moves_app; [cbn; auto|cbn; auto|]. cbn [after lafter fold_left].
  eapply resume_good; [| | |exact (proj2 (fits_app _ _ _ FI))|exact RE].
  - apply good_cu. exact G1.
  - eapply not_running_none. exact G1.
  - exact HC.
Qed.

(** * The loop that processes signals *)
Lemma sminus_has s m x : shas (sminus s m) x = true -> shas s x = true /\ shas m x = false.
Proof. rewrite shas_sminus. intros H. apply Bool.andb_true_iff in H as [H1 H2]. split; [exact H1|]. now apply Bool.negb_true_iff. Qed.

Lemma take_good L S l h pid tid h1 i d : Good L None (Some (pid, tid)) S l h -> runs h pid tid -> take h pid tid = Some (Some (h1, i, d)) ->
  may S (OTake pid tid d i) /\ Good L None (Some (pid, tid)) (note S (OTake pid tid d i)) l h1 /\ runs h1 pid tid /\ h_cur h1 = h_cur h /\
  1 <= si_sig i <= 31.
Proof.
  intros GD (t & T & ST). pose proof T as T0. apply thr_of_get in T as (r & R & T). unfold take. rewrite R. cbn [obind]. rewrite T. cbn [obind].
  pose proof R as R0. apply run_of_get in R0 as (p & P & R0).
  pose proof (good_run _ _ _ _ _ _ _ _ _ GD P R0) as RK. pose proof RK as [R1 R2 R3 R4 R5 R6 R7]. destruct (R7 tid t T) as [T1 T2 _].
  destruct (g_pend _ _ _ _ _ _ GD pid r R) as [Q1 Q2].
  destruct (negb (sminus (t_pend t) (t_mask t) =? 0)) eqn:N1.
  - destruct (slowest (sminus (t_pend t) (t_mask t))) as [sig|] eqn:SL; [|discriminate]. cbn [obind]. intros [= <- <- <-].
    destruct (slowest_some _ _ SL) as (HA & LO). apply sminus_has in HA as [HA _]. assert (SG := proj2 T1 sig HA).
    assert (RG : 1 <= sig <= 31) by (split; [eapply shas_pos; exact HA|exact (proj2 (proj1 T1) sig HA)]).
    set (t' := set_tpend t (sdrop (t_pend t) sig) (t_infos t)).
    split; [|split; [|split; [|split]]].
    + cbn. rewrite SG. split; [|auto]. rewrite (Q2 tid t T). unfold pend_at. now rewrite HA.
    + eapply good_self; [exact GD|exact T0|intros c X; congruence|exact ST|apply pset_drop; exact T1| |].
      * intros d0 s0 ND. cbn. destruct (dest_eqb_spec d0 (DTh pid tid)); [contradiction|reflexivity].
      * intros s0. cbn [note]. destruct (dest_eqb_spec (DTh pid tid) (DTh pid tid)); [|contradiction]. cbn [andb]. rewrite SG. cbn [t' t_pend t_infos set_tpend].
        rewrite pend_at_drop. destruct (s0 =? sig); [reflexivity|]. apply Q2. exact T.
    + exists t'. split; [eapply thr_put_thr; eauto|exact ST].
    + apply put_thr_rest.
    + rewrite SG. exact RG.
  - destruct (negb (sminus (n_pend r) (t_mask t) =? 0)) eqn:N2; [|discriminate].
    destruct (slowest (sminus (n_pend r) (t_mask t))) as [sig|] eqn:SL; [|discriminate]. cbn [obind]. intros [= <- <- <-].
    destruct (slowest_some _ _ SL) as (HA & LO). apply sminus_has in HA as [HA _]. assert (SG := proj2 R3 sig HA).
    assert (RG : 1 <= sig <= 31) by (split; [eapply shas_pos; exact HA|exact (proj2 (proj1 R3) sig HA)]).
    set (r' := set_npend r (sdrop (n_pend r) sig) (n_infos r)).
    split; [|split; [|split; [|split]]].
    + cbn. rewrite SG. split; [|auto]. rewrite Q1. unfold pend_at. now rewrite HA.
    + rewrite (put_run_eq _ _ _ _ P). unfold put_proc, set_procs. rewrite <- (app_nil_r (h_tasks h)). eapply good_put; eauto.
      * unfold keeps. cbn. do 3 (split; [reflexivity|]). rewrite R0. split; [auto|]. intros x y c Y YS _. exists y, c. auto.
      * lia.
      * rewrite app_nil_r. eapply proc_ok_st; [eapply g_proc; eauto|]. split; auto.
        -- apply pset_drop; exact R3.
        -- intros x y Y. destruct (R7 x y Y) as [X1 X2 X3]. split; auto. intros NC. specialize (X3 NC). destruct (t_st y) as [f| |c]; auto.
           destruct X3 as (X4 & X5 & X6). split; [exact X4|]. split; [exact X5|]. intros LP NZ. apply (X6 LP). intros Z0. apply NZ. cbn [r' n_pend set_npend].
           apply sminus_zero; [apply std_drop; apply R3|]. intros s0. rewrite shas_sdrop. intros H. apply Bool.andb_true_iff in H as [_ H].
           apply (proj1 (sminus_zero _ _ (proj1 R3)) Z0). exact H.
      * intros q x cid tr [].
      * intros d0 s0 ND. cbn. destruct (dest_eqb_spec d0 (DPr pid)) as [->|]; [cbn in ND; contradiction|reflexivity].
      * intros d0 s0 LE. cbn. destruct (dest_eqb d0 (DPr pid) && _); [reflexivity|]. apply (g_fresh _ _ _ _ _ _ GD). exact LE.
      * cbn [p_st set_pst]. intros r0 [= <-]. split.
        -- intros s0. cbn [note]. destruct (dest_eqb_spec (DPr pid) (DPr pid)); [|contradiction]. cbn [andb]. rewrite SG. cbn [r' n_pend n_infos set_npend].
           rewrite pend_at_drop. destruct (s0 =? sig); [reflexivity|]. apply Q1.
        -- intros x y Y s0. cbn [note]. destruct (dest_eqb_spec (DTh pid x) (DPr pid)); [discriminate|]. cbn [andb]. apply Q2. exact Y.
    + exists t. split; [|exact ST]. unfold thr_of. rewrite (run_of_put_run _ _ _ _ _ P), Z.eqb_refl. exact T.
    + apply put_run_rest.
    + rewrite SG. exact RG.
Qed.

Lemma good_handler L S l h pid tid r t t' acts : Good L None (Some (pid, tid)) S l h -> run_of h pid = Some r -> get tid (n_thr r) = Some t ->
  t_st t = TRun -> t_st t' = TRun -> t_pend t' = t_pend t -> t_infos t' = t_infos t ->
  Good L None (Some (pid, tid)) S l (put_run h pid (set_nacts (set_nthr r (bput tid t' (n_thr r))) acts)).
Proof.
  intros GD R T ST ST' E1 E2. pose proof R as R0. apply run_of_get in R0 as (p & P & R0).
  assert (G1 : Good L None (Some (pid, tid)) S l (put_thr h pid tid t')).
  { eapply good_self_same; eauto; [apply thr_of_get; eauto|]. intros c X. congruence. }
  rewrite (put_thr_eq _ _ _ _ p r P R0) in G1. rewrite (put_run_eq _ _ _ _ P).
  set (r1 := set_nthr r (bput tid t' (n_thr r))) in *. set (h1 := put_proc h pid (set_pst p (PRun r1))) in *.
  assert (P1 : get pid (h_procs h1) = Some (set_pst p (PRun r1))) by (unfold h1; rewrite get_put_proc, Z.eqb_refl; reflexivity).
  assert (E : put_proc h pid (set_pst p (PRun (set_nacts r1 acts))) =
     mkHost (bput pid (set_pst (set_pst p (PRun r1)) (PRun (set_nacts r1 acts))) (h_procs h1)) (h_next h1) (h_cid h1) (h_tasks h1 ++ []) (h_cur h1)).
  { unfold h1, put_proc, set_procs. cbn [h_procs h_next h_cid h_tasks h_cur]. rewrite bput_bput, app_nil_r. reflexivity. }
  rewrite E. pose proof (good_run _ _ _ _ _ _ _ _ _ G1 P1 eq_refl) as RK. eapply good_put; eauto.
  - unfold keeps. cbn. do 3 (split; [reflexivity|]). split; [auto|]. intros x y c Y YS _. exists y, c. auto.
  - lia.
  - rewrite app_nil_r. eapply proc_ok_st; [eapply g_proc; eauto|]. destruct RK as [K1 K2 K3 K4 K5 K6 K7]. split; auto. intros x y Y. destruct (K7 x y Y). split; auto.
  - intros q x cid tr [].
  - apply (g_fresh _ _ _ _ _ _ G1).
  - cbn [p_st set_pst]. intros r0 [= <-]. apply (g_pend _ _ _ _ _ _ G1 pid r1). apply run_of_get. eauto.
Qed.

Lemma loop_good L S l h pid tid rt all io h' o m : Good L None (Some (pid, tid)) S l h -> runs h pid tid -> h_cur h = Some (pid, tid, m) -> fits L o ->
  loop h pid tid rt all io = Some (h', o) -> moves L S l h' o.
Proof.
  intros GD RU HC FI. unfold loop. destruct (take h pid tid) as [[[[h1 i] d]|]|] eqn:TK; [| |discriminate]; cbn [obind].
  - destruct (take_good _ _ _ _ _ _ _ _ _ GD RU TK) as (A1 & A2 & A3 & A4 & A5).
    destruct (run_of h1 pid) as [r|] eqn:R; [|discriminate]. cbn [obind]. destruct (get tid (n_thr r)) as [t|] eqn:T; [|discriminate]. cbn [obind].
    assert (ONE : forall h2, Top L (note S (OTake pid tid d i)) l h2 -> moves L S l h2 [OTake pid tid d i]).
    { intros h2 T2. unfold moves. cbn. auto. }
    assert (STAY : Top L (note S (OTake pid tid d i)) l h1) by (unfold Top; rewrite A4, HC; auto).
    destruct (sa_h (act_of r (si_sig i))) as [| |f].
    + intros [= <- <-]. auto.
    + destruct (defaultaction (si_sig i)); try discriminate.
      * destruct (end_process h1 pid (Signaled (si_sig i))) as [[h2 o2]|] eqn:EE; [|discriminate]. cbn [obind]. intros [= <- <-].
        apply (moves_app L S l h2 [OTake pid tid d i]); [cbn [obeys]; auto|cbn [lobeys lmay]; auto|]. eapply good_end; eauto.
      * intros [= <- <-]. auto.
      * destruct (end_process h1 pid (Signaled (si_sig i))) as [[h2 o2]|] eqn:EE; [|discriminate]. cbn [obind]. intros [= <- <-].
        apply (moves_app L S l h2 [OTake pid tid d i]); [cbn [obeys]; auto|cbn [lobeys lmay]; auto|]. eapply good_end; eauto.
    + intros [= <- <-]. unfold moves. cbn [app obeys lobeys after lafter fold_left]. split; [split; [exact A1|split; exact I]|]. split; [split; [exact I|split; exact I]|].
      unfold Top. cbn [h_cur set_cur]. cbn [note lnote]. assert (ST : t_st t = TRun) by (destruct A3 as (t0 & T0 & ST); apply thr_of_get in T0 as (r0 & R0 & T0); congruence).
      match goal with |- context [bput tid ?x _] => set (t' := x) end. split.
      * apply good_cur. eapply good_handler; eauto.
      * exists t'. split; [|exact ST]. pose proof R as R0. apply run_of_get in R0 as (p & P & R0). unfold thr_of.
        change (run_of (set_cur ?a ?b) pid) with (run_of a pid).
        rewrite (run_of_put_run _ _ _ p) by exact P. rewrite Z.eqb_refl. cbn [n_thr set_nacts set_nthr]. apply get_bput_same.
  - assert (GO : forall m', Top L S l (set_cur h (Some (pid, tid, m')))).
    { intros m'. unfold Top. cbn [h_cur set_cur]. split; [apply good_cur; exact GD|exact RU]. }
    destruct (r_call rt) as [c|].
    + destruct ((r_val rt =? - EINTR) && all && r_rs rt); [intros E; eapply do_call_good; eauto|]. intros [= <- <-]. unfold moves. cbn [obeys lobeys after lafter fold_left].
      split; [split; exact I|]. split; [split; exact I|]. apply GO.
    + intros [= <- <-]. apply moves_nil. apply GO.
Qed.

(** * Steps *)
Lemma step_good L S l h x h' o : Top L S l h -> fits L o -> step h x = Some (h', o) -> moves L S l h' o.
Proof.
  intros TP FI. unfold step. pose proof TP as TP0. unfold Top in TP. destruct (h_cur h) as [[[pid tid] m]|] eqn:HC.
  - destruct TP as [GD RU]. assert (SAME : moves L S l h []) by (apply moves_nil; exact TP0).
    destruct m as [|rt all]; destruct x; try (intros [= <- <-]; exact SAME).
    + intros E. eapply do_call_good; eauto.
    + pose proof RU as (t & T & ST). rewrite T. destruct (t_frames t) as [|f fs]; [intros [= <- <-]; exact SAME|]. intros [= <- <-]. apply moves_nil.
      set (t' := mkThr _ _ _ _ _ _). unfold Top. cbn [h_cur set_cur]. pose proof T as T0. apply thr_of_get in T0 as (r & R & T0). split.
      * apply good_cur. eapply good_self_same; eauto. intros c X. congruence.
      * exists t'. split; [exact (thr_put_thr h pid tid t' r R)|exact ST].
    + pose proof RU as (t & T & ST). rewrite T. intros [= <- <-]. apply moves_nil. set (t' := set_tframes _ _). pose proof T as T0. apply thr_of_get in T0 as (r & R & T0).
      unfold Top. destruct (put_thr_rest h pid tid t') as (_ & _ & _ & RC). rewrite RC, HC. split.
      * eapply good_self_same; eauto. intros c X. congruence.
      * exists t'. split; [exact (thr_put_thr h pid tid t' r R)|exact ST].
    + destruct (existsb (Z.eqb sig) [11; 4; 7; 8]) eqn:HS; [|intros [= <- <-]; exact SAME]. pose proof RU as (t & T & ST). rewrite T.
      pose proof T as T0. apply thr_of_get in T0 as (r & R & T0). destruct (good_pset _ _ _ _ _ _ _ _ _ GD T) as [PS1 PS2].
      assert (RG : 1 <= sig <= 31).
      { apply existsb_exists in HS as (y & IN & E). apply Z.eqb_eq in E. subst y. cbn in IN. lia. }
      destruct (shas (t_pend t) sig) eqn:DUP.
      * intros [= <- <-]. apply moves_nil. unfold Top. cbn [h_cur set_cur]. split.
        -- apply good_cur. eapply good_self_same; eauto. intros c X. congruence.
        -- exists t. split; [exact (thr_put_thr h pid tid t r R)|exact ST].
      * set (i := mkInfo sig (SiFault n)). set (t' := set_tpend t (sadd (t_pend t) sig) (put sig i (t_infos t))). intros [= <- <-].
        unfold moves. cbn [obeys lobeys after lafter fold_left may lmay]. split; [split; [|exact I]|split; [split; exact I|]].
        -- cbn [i si_sig]. split; [|exact RG]. rewrite PS2. unfold pend_at. now rewrite DUP.
        -- unfold Top. cbn [h_cur set_cur lnote]. split.
           ++ apply good_cur. eapply good_self; [exact GD|exact T|intros c X; congruence|exact ST|apply pset_add; [exact PS1|exact RG|reflexivity]| |].
              ** intros d s0 ND. cbn. destruct (dest_eqb_spec d (DTh pid tid)); [contradiction|reflexivity].
              ** intros s0. cbn [note]. destruct (dest_eqb_spec (DTh pid tid) (DTh pid tid)); [|contradiction]. cbn [andb i si_sig t' t_pend t_infos set_tpend].
                 rewrite pend_at_add by (auto; lia). destruct (s0 =? sig); [reflexivity|]. apply PS2.
           ++ exists t'. split; [exact (thr_put_thr h pid tid t' r R)|exact ST].
    + intros E. eapply loop_good; eauto.
  - assert (SAME : moves L S l h []) by (apply moves_nil; exact TP0).
    assert (SIG : forall pid i, is_sig (si_sig i) = true -> signal_run h None pid None i = Some (h', o) -> moves L S l h' o).
    { intros pid i IS E. assert (X : obeys S o /\ Good L None None (after S o) l h' /\ kin h h' /\ quiet o).
      { refine (signal_run_good _ _ _ _ _ _ _ _ _ _ _ _ TP IS _ E). intros q X. discriminate X. }
      destruct X as (X1 & X2 & X3 & X4). destruct (quiet_life o l X4) as [Y1 Y2]. unfold moves. rewrite Y2. split; [exact X1|]. split; [exact Y1|].
      unfold Top. destruct X3 as (_ & _ & X3 & _). rewrite X3, HC. exact X2. }
    destruct x; try (intros [= <- <-]; exact SAME).
    + set (id := h_next h).
      destruct (good_new_proc L None S l h INIT INIT INIT None [] false TP) as [A1 A2]; auto; try discriminate.
      { pose proof (g_next _ _ _ _ _ _ TP). unfold INIT. lia. }
      { intros y p P E. destruct (g_proc _ _ _ _ _ _ TP y p P) as [_ [_ PI] _ _ _]. auto. }
      { intros p P. rewrite (good_no_init _ _ _ _ _ _ TP) in P. discriminate P. }
      fold id in A1, A2. rewrite <- HC at 1. fold (bump h). match type of A2 with Good _ _ _ _ _ ?a => set (h1 := a) in * end.
      change (mkHost (h_procs h) (id + 1) (h_cid h) (h_tasks h) (h_cur h)) with (bump h). fold h1.
      destruct (resume h1 id id None) as [[h2 o2]|] eqn:RE; [|discriminate]. cbn [obind]. intros [= <- <-].
      change (OBorn id INIT :: o2) with ([OBorn id INIT] ++ o2) in *. apply moves_app; [cbn; auto|cbn [lobeys]; auto|]. cbn [after lafter fold_left].
      eapply resume_good; [apply good_cu; exact A2|eapply not_running_none; exact A2|exact HC|exact (proj2 (fits_app _ _ _ FI))|exact RE].
    + destruct (h_tasks h) as [|t ts] eqn:HT; [intros [= <- <-]; exact SAME|]. destruct t as [pid tid|pid tid cid tr|pid tid]; cbn [run_task]; intros E.
      * eapply resume_good; [eapply good_pop; [exact TP|exact HT|intros; discriminate]| |exact HC|exact FI|exact E].
        exact (not_running_none _ _ _ _ pid tid TP).
      * eapply do_wake_good; eauto.
      * eapply do_exec_good; [eapply good_pop; [exact TP|exact HT|intros; discriminate]|exact HC|exact FI|exact E].
    + apply SIG. reflexivity.
    + destruct (is_sig sig && negb (is_rt sig)) eqn:IS; [|intros [= <- <-]; exact SAME]. apply SIG. cbn. now apply Bool.andb_true_iff in IS.
    + destruct (thr_of h pid tid) as [t|]; [|intros [= <- <-]; exact SAME]. destruct (t_st t) as [f| |c]; try (intros [= <- <-]; exact SAME).
      destruct (c_trig c); try (intros [= <- <-]; exact SAME). intros [= <- <-]. apply moves_nil.
      destruct (good_wake _ _ _ _ _ _ pid tid TP) as (W1 & (_ & _ & W2 & _) & _). unfold Top. rewrite W2, HC. exact W1.
Qed.

Lemma steps_good L xs : forall S l h h' o, Top L S l h -> fits L o -> steps h xs = Some (h', o) -> moves L S l h' o.
Proof.
  induction xs as [|x xs IH]; intros S l h h' o TP FI; cbn [steps].
  - intros [= <- <-]. apply moves_nil. exact TP.
  - destruct (step h x) as [[h1 o1]|] eqn:E1; [|discriminate]. cbn [obind]. destruct (steps h1 xs) as [[h2 o2]|] eqn:E2; [|discriminate]. cbn [obind].
    intros [= <- <-]. apply fits_app in FI as [F1 F2]. destruct (step_good L S l h x h1 o1 TP F1 E1) as (A1 & A2 & A3).
    apply moves_app; auto. eapply IH; eauto.
Qed.

Lemma good_new L : Good L None None nothing nobody host_new.
Proof.
  split; try (intros; discriminate); try (intros; reflexivity).
  - constructor.
  - intros p t cid tr [].
Qed.

(** The invariant of every reachable state. *)
Theorem runs_good L xs h o : steps host_new xs = Some (h, o) -> fits L o -> moves L nothing nobody h o.
Proof. intros E F. eapply steps_good; [|exact F|exact E]. exact (good_new L). Qed.
