(** Calls and turns of the signal loop keep the invariant. *)
From Verif Require Import Base FMap BTree ProcModel ProcSpec ProcBits ProcInv ProcSig ProcEnd.

(** * Lookups after updates *)
Lemma put_thr_of h pid tid t' r : run_of h pid = Some r ->
  exists p, get pid (h_procs h) = Some p /\ p_st p = PRun r /\
    put_thr h pid tid t' = put_proc h pid (set_pst p (PRun (set_nthr r (bput tid t' (n_thr r))))).
Proof. intros R. apply run_of_get in R as (p & P & R). exists p. split; [exact P|]. split; [exact R|]. now apply put_thr_eq. Qed.

Lemma run_put_thr h pid tid t' r : run_of h pid = Some r -> run_of (put_thr h pid tid t') pid = Some (set_nthr r (bput tid t' (n_thr r))).
Proof. intros R. destruct (put_thr_of h pid tid t' r R) as (p & P & RR & ->). rewrite run_of_put_proc, Z.eqb_refl. reflexivity. Qed.
Lemma thr_put_thr h pid tid t' r : run_of h pid = Some r -> thr_of (put_thr h pid tid t') pid tid = Some t'.
Proof. intros R. unfold thr_of. rewrite (run_put_thr _ _ _ _ _ R). cbn. apply get_bput_same. Qed.

(** * The running thread *)
Definition runs (h : host) (pid tid : Z) : Prop := exists t, thr_of h pid tid = Some t /\ t_st t = TRun.

Lemma no_child_lst L cu tasks nx cb pid r tid t t' :
  run_ok L cu tasks nx cb pid r -> get tid (n_thr r) = Some t ->
  (forall c, t_st t = TBlk c -> c_trig c <> TrChild) -> (forall c, t_st t' = TBlk c -> c_trig c <> TrChild) ->
  forall x cid, In (x, cid) (n_lst r) <->
     if x =? tid then exists c, t_st t' = TBlk c /\ c_trig c = TrChild /\ c_id c = cid else In (x, cid) (n_lst r).
Proof.
  intros RK T N1 N2. eapply lst_same; eauto. intros cid. split; intros (c & E1 & E2 & _); exfalso; [apply (N1 c)|apply (N2 c)]; auto.
Qed.

Lemma good_self L ex S S' l h pid tid t t' : Good L ex (Some (pid, tid)) S l h -> thr_of h pid tid = Some t ->
  (forall c, t_st t = TBlk c -> c_trig c <> TrChild) -> t_st t' = TRun -> pset_ok (t_pend t') (t_infos t') ->
  (forall d sig, d <> DTh pid tid -> S' d sig = S d sig) ->
  (forall sig, S' (DTh pid tid) sig = pend_at (t_pend t') (t_infos t') sig) ->
  Good L ex (Some (pid, tid)) S' l (put_thr h pid tid t').
Proof.
  intros GD T NC ST PS SO SP. apply thr_of_get in T as (r & R & T). destruct (put_thr_of h pid tid t' r R) as (p & P & RR & ->).
  pose proof (good_run _ _ _ _ _ _ _ _ _ GD P RR) as RK.
  unfold put_proc, set_procs. rewrite <- (app_nil_r (h_tasks h)).
  change (set_nthr r (bput tid t' (n_thr r))) with (set_nlst (set_nthr r (bput tid t' (n_thr r))) (n_lst r)).
  eapply good_put_thr with (t := t); eauto; try lia.
  - split; [exact PS|intros c E; congruence|]. intros F. contradiction.
  - intros c E. congruence.
  - eapply no_child_lst; eauto. intros c E. congruence.
  - intros q x cid tr [].
Qed.

Lemma good_pset L ex cu S l h pid tid t : Good L ex cu S l h -> thr_of h pid tid = Some t ->
  pset_ok (t_pend t) (t_infos t) /\ forall sig, S (DTh pid tid) sig = pend_at (t_pend t) (t_infos t) sig.
Proof.
  intros GD T. apply thr_of_get in T as (r & R & T). destruct (g_pend _ _ _ _ _ _ GD pid r R) as [_ Q]. split; [|eauto].
  apply run_of_get in R as (p & P & R). pose proof (good_run _ _ _ _ _ _ _ _ _ GD P R) as RK. destruct (n_thrs _ _ _ _ _ _ _ RK tid t T). auto.
Qed.

Lemma good_self_same L ex S l h pid tid t t' : Good L ex (Some (pid, tid)) S l h -> thr_of h pid tid = Some t ->
  (forall c, t_st t = TBlk c -> c_trig c <> TrChild) -> t_st t' = TRun -> t_pend t' = t_pend t -> t_infos t' = t_infos t ->
  Good L ex (Some (pid, tid)) S l (put_thr h pid tid t').
Proof.
  intros GD T NC ST E1 E2. destruct (good_pset _ _ _ _ _ _ _ _ _ GD T) as [P1 P2]. eapply good_self; eauto.
  - rewrite E1, E2. exact P1.
  - intros sig. rewrite E1, E2. auto.
Qed.

(** The exemption of a thread can be dropped when it does not need it. *)
Lemma good_leave L ex S l h pid tid : Good L ex (Some (pid, tid)) S l h ->
  (forall r t, run_of h pid = Some r -> get tid (n_thr r) = Some t ->
    match t_st t with
    | TRun => False
    | TNew _ => True
    | TBlk c => (c_sched c = true -> In (TkWake pid tid (c_id c) (c_trig c)) (h_tasks h)) /\
                (sminus (t_pend t) (t_mask t) <> 0 -> c_sched c = true) /\
                (L pid = true -> sminus (n_pend r) (t_mask t) <> 0 -> c_sched c = true) /\
                (c_trig c = TrChild -> forall z p, get z (h_procs h) = Some p -> is_zombie p = true -> p_exs p <> None ->
                   wants pid (c_call c) z p = true -> c_sched c = true)
    end) -> Good L ex None S l h.
Proof.
  intros [A B TK C D E F G H I J K M N O] X. split; auto.
  - intros q p P. destruct (C q p P) as [C1 C2 C3 C4 C5]. split; auto. intros r R. destruct (C5 r R) as [R1 R2 R3 R4 R5 R6 R7]. split; auto.
    intros x t T. destruct (R7 x t T) as [T1 T2 T3]. split; auto. intros _.
    destruct (Z.eq_dec q pid) as [->|NQ]; [destruct (Z.eq_dec x tid) as [->|NX]|].
    + assert (RR : run_of h pid = Some r) by (apply run_of_get; eauto). specialize (X r t RR T).
      destruct (t_st t); auto. destruct X as (X1 & X2 & X3 & _). auto.
    + apply T3. congruence.
    + apply T3. congruence.
  - intros q x c BL _ TR. destruct (Z.eq_dec q pid) as [->|NQ]; [destruct (Z.eq_dec x tid) as [->|NX]|].
    + destruct BL as (t & T & ST). apply thr_of_get in T as (r & R & T). specialize (X r t R T). rewrite ST in X. apply X. exact TR.
    + apply (J pid x c BL); [congruence|exact TR].
    + apply (J q x c BL); [congruence|exact TR].
Qed.

Lemma good_gone L ex S l h pid tid : Good L ex (Some (pid, tid)) S l h -> thr_of h pid tid = None -> Good L ex None S l h.
Proof. intros GD T. eapply good_leave; eauto. intros r t R E. exfalso. unfold thr_of in T. rewrite R, E in T. discriminate T. Qed.

(** * New threads and processes *)
Lemma proc_ok_next L cu tasks nx cb pid p : proc_ok L cu tasks nx cb pid p -> proc_ok L cu tasks (nx + 1) cb pid p.
Proof.
  intros [C1 C2 C3 C4 C5]. split; auto; try lia. intros r R. destruct (C5 r R) as [R1 R2 R3 R4 R5 R6 R7]. split; auto.
  intros tid IN. specialize (R2 tid IN). lia.
Qed.
Lemma proc_ok_other L cu tasks nx cb pid p t : match t with TkWake _ _ _ _ => False | _ => True end ->
  proc_ok L cu tasks nx cb pid p -> proc_ok L cu (tasks ++ [t]) nx cb pid p.
Proof. intros NT. apply proc_ok_tasks. intros tid c r x _ _ _ tr [E|[]]. subst t. contradiction. Qed.

Lemma good_task L ex cu S l h t : Good L ex cu S l h -> match t with TkWake _ _ _ _ => False | _ => True end -> Good L ex cu S l (add_task h t).
Proof.
  intros [A B TK C D E F G H I J K M N O] NT. split; auto.
  - intros p x cid tr IN. cbn in IN. apply in_app_or in IN as [IN|[IN|[]]]; [eauto|]. subst t. contradiction.
  - intros pid p P. apply proc_ok_other; auto.
Qed.

Lemma fresh_not_in L cu tasks nx cb pid r id : run_ok L cu tasks nx cb pid r -> nx <= id -> ~ In id (keys (n_thr r)).
Proof. intros [R1 R2 R3 R4 R5 R6 R7] LE IN. specialize (R2 id IN). lia. Qed.
Lemma fresh_none L ex cu S l h id : Good L ex cu S l h -> h_next h <= id -> get id (h_procs h) = None.
Proof.
  intros GD LE. destruct (get id (h_procs h)) as [p|] eqn:P; [|reflexivity]. destruct (g_proc _ _ _ _ _ _ GD id p P) as [R _ _ _ _]. lia.
Qed.

Definition bump (h : host) : host := mkHost (h_procs h) (h_next h + 1) (h_cid h) (h_tasks h) (h_cur h).

Lemma good_new_thread L ex cu S l h pid r : Good L ex cu S l h -> run_of h pid = Some r -> L pid = false ->
  Good L ex cu S l (add_task (put_run (bump h) pid (set_nthr r (bput (h_next h) (thr_new false) (n_thr r)))) (TkResume pid (h_next h))).
Proof.
  intros GD R LP. apply good_task; [|exact I]. pose proof GD as [A B TK C D E F G H J K M N O Q].
  pose proof R as R0. apply run_of_get in R as (p & P & R). set (id := h_next h). set (r' := set_nthr r (bput id (thr_new false) (n_thr r))).
  pose proof (good_run _ _ _ _ _ _ _ _ _ GD P R) as RK. pose proof RK as [R1 R2 R3 R4 R5 R6 R7].
  set (h' := put_run (bump h) pid r').
  assert (PB : get pid (h_procs (bump h)) = Some p) by exact P.
  assert (GT : forall x, get x (h_procs h') = if x =? pid then Some (set_pst p (PRun r')) else get x (h_procs h)) by (intros; unfold h'; rewrite (get_put_run _ _ _ _ _ PB); reflexivity).
  assert (RN : forall x, run_of h' x = if x =? pid then Some r' else run_of h x) by (intros; unfold h'; rewrite (run_of_put_run _ _ _ _ _ PB); reflexivity).
  assert (FR := fresh_not_in _ _ _ _ _ _ _ id RK (Z.le_refl _)).
  assert (NONE := fresh_none _ _ _ _ _ _ id GD (Z.le_refl _)).
  assert (KS : forall x, In x (keys (n_thr r')) <-> x = id \/ In x (keys (n_thr r))) by (intros; cbn [n_thr set_nthr r']; rewrite keys_bput; apply sins_in).
  destruct (put_run_rest (bump h) pid r') as (RE1 & RE2 & RE3 & RE4).
  assert (KEEP : forall x, run_of h x = None <-> run_of h' x = None).
  { intros x. rewrite RN. destruct (Z.eqb_spec x pid) as [->|]; [rewrite R0; split; discriminate|reflexivity]. }
  split.
  - unfold h'. rewrite (put_run_eq _ _ _ _ PB). cbn. now apply bput_sorted.
  - unfold h'. rewrite RE1. cbn. lia.
  - unfold h'. rewrite RE2, RE3. exact TK.
  - intros x y X. rewrite GT in X. unfold h'. rewrite RE1, RE2, RE3. cbn [bump h_next h_cid h_tasks]. destruct (Z.eqb_spec x pid) as [->|NE].
    + injection X as <-. pose proof (proc_ok_next _ _ _ _ _ _ _ (C pid p P)) as C'.
      destruct C' as [C1 C2 C3 C4 C5]. split; auto. cbn. intros r0 [= <-]. destruct (C5 r R) as [Q1 Q2 Q3 Q4 Q5 Q6 Q7]. split.
      * cbn. now apply bput_sorted.
      * intros tid IN. apply KS in IN as [->|IN]; [subst id; lia|auto].
      * exact Q3.
      * cbn. intros Z0. assert (IN : In id (keys (n_thr r'))) by (apply KS; auto). cbn [r' n_thr set_nthr] in IN. rewrite Z0 in IN. destruct IN.
      * congruence.
      * intros tid cid. change (n_lst r') with (n_lst r). rewrite R6. unfold child_wait. cbn [r' n_thr set_nthr]. split; intros (t & c & T & X).
        -- exists t, c. split; [|exact X]. rewrite get_bput. destruct (Z.eqb_spec tid id) as [->|]; [|exact T]. apply get_keys in T. contradiction.
        -- rewrite get_bput in T. destruct (Z.eqb_spec tid id) as [->|]; [|eauto]. injection T as <-. destruct X as [X _]. discriminate X.
      * intros tid t T. cbn [r' n_thr set_nthr] in T. rewrite get_bput in T. destruct (Z.eqb_spec tid id) as [->|].
        -- injection T as <-. split; [apply pset_empty|discriminate|]. intros _. exact I.
        -- destruct (Q7 tid t T). split; auto.
    + apply proc_ok_next. auto.
  - intros x y X. assert (Y : exists y0, get x (h_procs h) = Some y0 /\ p_par y = p_par y0).
    { rewrite GT in X. destruct (Z.eqb_spec x pid) as [->|]; [|eauto]. injection X as <-. exists p. auto. }
    destruct Y as (y0 & Y & ->). destruct (D x y0 Y) as [|(D1 & [(r0 & D2)|D2])]; auto. right. split; [exact D1|]. left.
    rewrite RN. destruct (p_par y0 =? pid); eauto.
  - intros EX x y X ZB. rewrite GT in X. destruct (Z.eqb_spec x pid) as [->|]; [|eauto]. injection X as <-. discriminate ZB.
  - intros x r0 tid X IN. rewrite RN in X. rewrite GT. destruct (Z.eqb_spec x pid) as [->|].
    + injection X as <-. apply KS in IN as [->|IN].
      * right. destruct (Z.eqb_spec id pid) as [->|]; [congruence|exact NONE].
      * destruct (F pid r tid R0 IN) as [|Y]; auto. right. destruct (Z.eqb_spec tid pid) as [->|]; [congruence|exact Y].
    + destruct (F x r0 tid X IN) as [|Y]; auto. right. destruct (Z.eqb_spec tid pid) as [->|]; [congruence|exact Y].
  - assert (GE : forall q rq, run_of h q = Some rq -> ~ In id (keys (n_thr rq))).
    { intros q rq Rq. apply run_of_get in Rq as (pq & Pq & Rq). eapply fresh_not_in; [eapply good_run; eauto|apply Z.le_refl]. }
    intros p1 r1 p2 r2 tid X1 X2 I1 I2. rewrite RN in X1, X2. destruct (Z.eqb_spec p1 pid) as [->|N1], (Z.eqb_spec p2 pid) as [->|N2]; auto.
    + injection X1 as <-. apply KS in I1 as [->|I1]; [exfalso; eapply GE; eauto|]. eapply G; eauto.
    + injection X2 as <-. apply KS in I2 as [->|I2]; [exfalso; eapply GE; eauto|]. eapply G; eauto.
    + eapply G; eauto.
  - intros p1 x1 p2 x2 X1 X2. rewrite GT in X1, X2. destruct (Z.eqb_spec p1 pid) as [->|N1], (Z.eqb_spec p2 pid) as [->|N2].
    + congruence.
    + injection X1 as <-. cbn. intros; eapply H; eauto.
    + injection X2 as <-. cbn. intros; eapply H; eauto.
    + intros; eapply H; eauto.
  - intros p1 x1 p2 x2 X1 X2. rewrite GT in X1, X2. destruct (Z.eqb_spec p1 pid) as [->|N1], (Z.eqb_spec p2 pid) as [->|N2].
    + congruence.
    + injection X1 as <-. cbn. intros; eapply J; eauto.
    + injection X2 as <-. cbn. intros; eapply J; eauto.
    + intros; eapply J; eauto.
  - intros q tid c (t & T & ST) NC TR z y X ZB. rewrite GT in X. destruct (Z.eqb_spec z pid) as [->|]; [injection X as <-; discriminate ZB|].
    eapply (K q tid c); eauto. exists t. split; [|exact ST]. apply thr_of_get in T as (rq & Rq & T). rewrite RN in Rq. apply thr_of_get.
    destruct (Z.eqb_spec q pid) as [->|]; [|eauto]. injection Rq as <-. exists r. split; [exact R0|]. cbn [r' n_thr set_nthr] in T. rewrite get_bput in T.
    destruct (tid =? id); [injection T as <-; discriminate ST|exact T].
  - intros x r0 X. rewrite RN in X. destruct (Z.eqb_spec x pid) as [->|]; [|auto]. injection X as <-. destruct (M pid r R0) as [Q1 Q2]. split; [exact Q1|].
    intros tid t T sig. cbn [r' n_thr set_nthr] in T. rewrite get_bput in T. destruct (Z.eqb_spec tid id) as [->|]; [|auto]. injection T as <-.
    rewrite N by (cbn; apply Z.le_refl). unfold pend_at. cbn. now rewrite shas_0.
  - intros d sig LE. apply N. unfold h' in LE. rewrite RE1 in LE. cbn in LE. lia.
  - unfold h'. rewrite RE1. cbn. lia.
  - intros x. rewrite Q, GT. destruct (Z.eqb_spec x pid) as [->|]; [|reflexivity]. rewrite P. cbn. unfold st_of. now rewrite R.
Qed.

Lemma good_new_proc L cu S l h par pgid sid exs acts f : Good L None cu S l h ->
  (par = INIT \/ exists r, run_of h par = Some r) -> pgid < h_next h -> (pgid = INIT -> sid = INIT) ->
  (forall x p, get x (h_procs h) = Some p -> p_pgid p = pgid -> p_sid p = sid) ->
  (forall p, get pgid (h_procs h) = Some p -> p_sid p = sid) ->
  (forall s, exs = Some s -> is_sig s = true) ->
  let id := h_next h in
  let o := OBorn id par in
  let h' := put_proc (bump h) id (mkProc par pgid sid exs None (PRun (mkRun 0 [] acts [(id, thr_new f)] [] 0))) in
  lmay l o /\ Good L None cu S (lnote l o) h'.
Proof.
  intros GD PAR PG PI GG GL EX id o h'. pose proof GD as [A B TK C D E F G H J K M N O Q].
  set (r' := mkRun 0 [] acts [(id, thr_new f)] [] 0) in *. set (p' := mkProc par pgid sid exs None (PRun r')) in *.
  assert (NONE := fresh_none _ _ _ _ _ _ id GD (Z.le_refl _)).
  assert (GT : forall x, get x (h_procs h') = if x =? id then Some p' else get x (h_procs h)) by (intros; unfold h'; rewrite get_put_proc; reflexivity).
  assert (RN : forall x, run_of h' x = if x =? id then Some r' else run_of h x) by (intros; unfold h'; rewrite run_of_put_proc; reflexivity).
  assert (RS : forall x r, run_of h x = Some r -> run_of h' x = Some r).
  { intros x r R. rewrite RN. destruct (Z.eqb_spec x id) as [->|]; [|exact R]. apply run_of_get in R as (p & P & _). congruence. }
  assert (IDG : 1000 <= id) by exact B.
  assert (PL : par = INIT \/ par < id).
  { destruct PAR as [|(r & R)]; auto. apply run_of_get in R as (p & P & _). destruct (C par p P) as [C1 _ _ _ _]. right. unfold id. lia. }
  split.
  { cbn. split; [exact O|]. destruct PAR as [|(r & R)]; auto. right. apply run_of_get in R as (p & P & R). rewrite Q, P. unfold st_of. rewrite R. eauto. }
  split.
  - cbn. now apply bput_sorted.
  - cbn. lia.
  - exact TK.
  - intros x y X. rewrite GT in X. cbn [h' put_proc set_procs bump h_next h_cid h_tasks]. destruct (Z.eqb_spec x id) as [->|NE].
    + injection X as <-. split.
      * unfold id. lia.
      * cbn. split; [lia|exact PI].
      * exact EX.
      * discriminate.
      * cbn. intros r [= <-]. split.
        -- cbn. constructor; constructor.
        -- cbn. intros tid [<-|[]]. unfold id. lia.
        -- apply pset_empty.
        -- discriminate.
        -- reflexivity.
        -- intros tid cid. split; [intros []|]. intros (t & c & T & ST & _). cbn in T. destruct (tid =? id); [injection T as <-; discriminate ST|discriminate T].
        -- intros tid t T. cbn in T. destruct (Z.eqb_spec tid id) as [->|]; [|discriminate T]. injection T as <-. split; [apply pset_empty|discriminate|]. intros _. exact I.
    + apply proc_ok_next. auto.
  - intros x y X. rewrite GT in X. destruct (Z.eqb_spec x id) as [->|NE].
    + injection X as <-. cbn. destruct PL as [|PL]; auto. destruct PAR as [|(r & R)]; auto. right. split; [exact PL|]. left. eauto.
    + destruct (D x y X) as [|(D1 & [(r0 & D2)|D2])]; auto. right. split; [exact D1|]. left. eauto.
  - intros EXX x y X ZB. rewrite GT in X. destruct (Z.eqb_spec x id) as [->|NE]; [injection X as <-; discriminate ZB|eauto].
  - intros x r tid X IN. rewrite RN in X. rewrite GT. destruct (Z.eqb_spec x id) as [->|NE].
    + injection X as <-. cbn in IN. destruct IN as [<-|[]]. auto.
    + destruct (F x r tid X IN) as [|Y]; auto. right. destruct (Z.eqb_spec tid id) as [->|]; [|exact Y].
      exfalso. apply run_of_get in X as (p & P & R). eapply fresh_not_in; [eapply good_run; eauto|apply Z.le_refl|exact IN].
  - assert (GE : forall q rq, run_of h q = Some rq -> ~ In id (keys (n_thr rq))).
    { intros q rq Rq. apply run_of_get in Rq as (pq & Pq & Rq). eapply fresh_not_in; [eapply good_run; eauto|apply Z.le_refl]. }
    intros p1 r1 p2 r2 tid X1 X2 I1 I2. rewrite RN in X1, X2. destruct (Z.eqb_spec p1 id) as [->|N1], (Z.eqb_spec p2 id) as [->|N2]; auto.
    + injection X1 as <-. destruct I1 as [<-|[]]. exfalso. eapply GE; eauto.
    + injection X2 as <-. destruct I2 as [<-|[]]. exfalso. eapply GE; eauto.
    + eapply G; eauto.
  - intros p1 x1 p2 x2 X1 X2. rewrite GT in X1, X2. destruct (Z.eqb_spec p1 id) as [->|N1], (Z.eqb_spec p2 id) as [->|N2].
    + congruence.
    + injection X1 as <-. cbn. intros; symmetry; eauto.
    + injection X2 as <-. cbn. intros; eauto.
    + intros; eapply H; eauto.
  - intros p1 x1 p2 x2 X1 X2. rewrite GT in X1, X2. destruct (Z.eqb_spec p1 id) as [->|N1], (Z.eqb_spec p2 id) as [->|N2].
    + congruence.
    + injection X1 as <-. cbn. intros ->. symmetry. eauto.
    + intros E0. exfalso. destruct (C p1 x1 X1) as [_ [C2 _] _ _ _]. unfold id in E0. lia.
    + intros; eapply J; eauto.
  - intros q tid c (t & T & ST) NC TR z y X ZB. rewrite GT in X. destruct (Z.eqb_spec z id) as [->|]; [injection X as <-; discriminate ZB|].
    eapply (K q tid c); eauto. exists t. split; [|exact ST]. apply thr_of_get in T as (rq & Rq & T). rewrite RN in Rq. apply thr_of_get.
    destruct (Z.eqb_spec q id) as [->|]; [|eauto]. injection Rq as <-. cbn in T. destruct (tid =? id); [injection T as <-; discriminate ST|discriminate T].
  - intros x r0 X. rewrite RN in X. destruct (Z.eqb_spec x id) as [->|]; [|auto]. injection X as <-. split.
    + intros sig. rewrite N by (cbn; apply Z.le_refl). unfold pend_at. cbn. now rewrite shas_0.
    + intros tid t T sig. cbn in T. destruct (Z.eqb_spec tid id) as [->|]; [|discriminate T]. injection T as <-.
      rewrite N by (cbn; apply Z.le_refl). unfold pend_at. cbn. now rewrite shas_0.
  - intros d sig LE. apply N. cbn in LE. lia.
  - cbn. unfold id. lia.
  - intros x. cbn [lnote o snd]. rewrite GT. destruct (Z.eqb_spec x id) as [->|]; [reflexivity|]. rewrite Q. reflexivity.
Qed.
