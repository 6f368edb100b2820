(** The invariant of the processes of a host, and how updates keep it. *)
From Verif Require Import Base FMap BTree ProcModel ProcSpec ProcBits.

(** * What is pending *)
Definition pend_at (s : Z) (m : fmap Z sinfo) (sig : Z) : option sinfo :=
  if shas s sig then Some (info_of m sig) else None.
Definition pset_ok (s : Z) (m : fmap Z sinfo) : Prop :=
  std_set s /\ forall sig, shas s sig = true -> si_sig (info_of m sig) = sig.
Definition pend_rel (S : pendings) (pid : Z) (r : run) : Prop :=
  (forall sig, S (DPr pid) sig = pend_at (n_pend r) (n_infos r) sig) /\
  (forall tid t, get tid (n_thr r) = Some t ->
     forall sig, S (DTh pid tid) sig = pend_at (t_pend t) (t_infos t) sig).
(** The id that was given out for a destination. *)
Definition new_id (d : dest) : Z := match d with DPr p => p | DTh _ t => t end.

(** A blocked wait call that would report the ended child [p]. *)
Definition wants (me : Z) (c : call) (pid : Z) (p : proc) : bool :=
  match c with
  | Wait4 x fl =>
      if x =? -1 then wmatches me WAny (mkW (w_nohang fl) true false (w_all fl) (w_clone fl) false) pid p
      else if 0 <? x then wmatches me (WPid x) (mkW (w_nohang fl) true false (w_all fl) (w_clone fl) false) pid p
      else false
  | Waitid PAll _ fl => w_exited fl && wmatches me WAny fl pid p
  | Waitid PPid x fl => w_exited fl && wmatches me (WPid x) fl pid p
  | _ => false
  end.

(** * The invariant

    [L]: processes that never had a second thread.  [ex]: a process whose end is
    being handled.  [cu]: the thread that runs. *)
Record thr_ok (L : Z -> bool) (cu : option (Z * Z)) (tasks : list task) (cb : Z)
    (pid tid : Z) (r : run) (t : thr) : Prop := mkThrOk {
  t_pset : pset_ok (t_pend t) (t_infos t);
  t_cond : forall c, t_st t = TBlk c -> c_id c < cb /\
             forall tr, In (TkWake pid tid (c_id c) tr) tasks -> tr = c_trig c;
  t_sleep : Some (pid, tid) <> cu ->
    match t_st t with
    | TRun => False
    | TNew _ => True
    | TBlk c => (c_sched c = true -> In (TkWake pid tid (c_id c) (c_trig c)) tasks) /\
                (sminus (t_pend t) (t_mask t) <> 0 -> c_sched c = true) /\
                (L pid = true -> sminus (n_pend r) (t_mask t) <> 0 -> c_sched c = true)
    end }.

Definition child_wait (r : run) (tid cid : Z) : Prop :=
  exists t c, get tid (n_thr r) = Some t /\ t_st t = TBlk c /\ c_trig c = TrChild /\ c_id c = cid.

Record run_ok (L : Z -> bool) (cu : option (Z * Z)) (tasks : list task) (nx cb : Z)
    (pid : Z) (r : run) : Prop := mkRunOk {
  n_sorted : bsorted (n_thr r);
  n_range : forall tid, In tid (keys (n_thr r)) -> 1000 <= tid < nx;
  n_pset : pset_ok (n_pend r) (n_infos r);
  n_some : n_thr r <> [];
  n_lone : L pid = true -> keys (n_thr r) = [pid];
  n_waits : forall tid cid, In (tid, cid) (n_lst r) <-> child_wait r tid cid;
  n_thrs : forall tid t, get tid (n_thr r) = Some t -> thr_ok L cu tasks cb pid tid r t }.

Record proc_ok (L : Z -> bool) (cu : option (Z * Z)) (tasks : list task) (nx cb : Z)
    (pid : Z) (p : proc) : Prop := mkProcOk {
  p_range : 1000 <= pid < nx;
  p_grange : p_pgid p < nx /\ (p_pgid p = INIT -> p_sid p = INIT);
  p_exok : forall s, p_exs p = Some s -> is_sig s = true;
  p_deok : forall s, p_pdeath p = Some s -> is_sig s = true;
  p_runok : forall r, p_st p = PRun r -> run_ok L cu tasks nx cb pid r }.

Definition st_of (p : proc) : option status := match p_st p with PRun _ => None | PZom s => Some s end.
Definition is_ex (ex : option Z) (pid : Z) : bool := match ex with Some x => x =? pid | None => false end.

Definition blk (h : host) (pid tid : Z) (c : cnd) : Prop :=
  exists t, thr_of h pid tid = Some t /\ t_st t = TBlk c.

Record Good (L : Z -> bool) (ex : option Z) (cu : option (Z * Z)) (S : pendings) (l : lives)
    (h : host) : Prop := mkGood {
  g_sorted : bsorted (h_procs h);
  g_next : 1000 <= h_next h;
  g_tasks : forall p t cid tr, In (TkWake p t cid tr) (h_tasks h) -> cid < h_cid h;
  g_proc : forall pid p, get pid (h_procs h) = Some p ->
             proc_ok L cu (h_tasks h) (h_next h) (h_cid h) pid p;
  g_par : forall pid p, get pid (h_procs h) = Some p -> p_par p = INIT \/
            (p_par p < pid /\ ((exists r, run_of h (p_par p) = Some r) \/ is_ex ex (p_par p) = true));
  g_zpar : ex = None -> forall pid p, get pid (h_procs h) = Some p -> is_zombie p = true -> p_par p <> INIT;
  g_tid : forall pid r tid, run_of h pid = Some r -> In tid (keys (n_thr r)) ->
            tid = pid \/ get tid (h_procs h) = None;
  g_uniq : forall p1 r1 p2 r2 tid, run_of h p1 = Some r1 -> run_of h p2 = Some r2 ->
            In tid (keys (n_thr r1)) -> In tid (keys (n_thr r2)) -> p1 = p2;
  g_grp : forall p1 x1 p2 x2, get p1 (h_procs h) = Some x1 -> get p2 (h_procs h) = Some x2 ->
            p_pgid x1 = p_pgid x2 -> p_sid x1 = p_sid x2;
  g_lead : forall p1 x1 p2 x2, get p1 (h_procs h) = Some x1 -> get p2 (h_procs h) = Some x2 ->
            p_pgid x1 = p2 -> p_sid x1 = p_sid x2;
  g_wait : forall pid tid c, blk h pid tid c -> Some (pid, tid) <> cu -> c_trig c = TrChild ->
            forall z p, get z (h_procs h) = Some p -> is_zombie p = true -> p_exs p <> None ->
            wants pid (c_call c) z p = true -> c_sched c = true;
  g_pend : forall pid r, run_of h pid = Some r -> pend_rel S pid r;
  g_fresh : forall d sig, h_next h <= new_id d -> S d sig = None;
  g_lmax : fst l < h_next h;
  g_life : forall pid, snd l pid =
             match get pid (h_procs h) with
             | Some p => Some (if is_ex ex (p_par p) then INIT else p_par p, st_of p)
             | None => None
             end }.

(** * Lookups *)
Lemma run_of_get h pid r : run_of h pid = Some r <-> exists p, get pid (h_procs h) = Some p /\ p_st p = PRun r.
Proof.
  unfold run_of. destruct (get pid (h_procs h)) as [p|].
  - destruct (p_st p) as [r'|s] eqn:E; split.
    + intros [= ->]. exists p. auto.
    + intros (q & [= <-] & Q). congruence.
    + discriminate.
    + intros (q & [= <-] & Q). congruence.
  - split; [discriminate|]. intros (q & Q & _). discriminate.
Qed.
Lemma thr_of_get h pid tid t : thr_of h pid tid = Some t <-> exists r, run_of h pid = Some r /\ get tid (n_thr r) = Some t.
Proof.
  unfold thr_of. destruct (run_of h pid) as [r|]; split; try discriminate.
  - intros H. exists r. auto.
  - intros (q & [= <-] & Q). exact Q.
  - intros (q & Q & _). discriminate Q.
Qed.

Lemma get_put_proc h x pid p : get x (h_procs (put_proc h pid p)) = if x =? pid then Some p else get x (h_procs h).
Proof. unfold put_proc. cbn [h_procs set_procs]. apply get_bput. Qed.
Lemma put_run_eq h pid p r : get pid (h_procs h) = Some p -> put_run h pid r = put_proc h pid (set_pst p (PRun r)).
Proof. intros H. unfold put_run. now rewrite H. Qed.
Lemma put_thr_eq h pid tid t p r : get pid (h_procs h) = Some p -> p_st p = PRun r ->
  put_thr h pid tid t = put_proc h pid (set_pst p (PRun (set_nthr r (bput tid t (n_thr r))))).
Proof. intros H R. unfold put_thr, run_of. rewrite H, R. now apply put_run_eq. Qed.

Lemma run_of_put_proc h x pid p : run_of (put_proc h pid p) x =
  if x =? pid then match p_st p with PRun r => Some r | PZom _ => None end else run_of h x.
Proof. unfold run_of. rewrite get_put_proc. destruct (x =? pid); reflexivity. Qed.

Lemma run_of_put_run h x pid p r : get pid (h_procs h) = Some p ->
  run_of (put_run h pid r) x = if x =? pid then Some r else run_of h x.
Proof. intros H. rewrite (put_run_eq _ _ _ _ H), run_of_put_proc. reflexivity. Qed.

Lemma get_put_run h x pid p r : get pid (h_procs h) = Some p ->
  get x (h_procs (put_run h pid r)) = if x =? pid then Some (set_pst p (PRun r)) else get x (h_procs h).
Proof. intros H. rewrite (put_run_eq _ _ _ _ H). apply get_put_proc. Qed.

(** Fields that updates of processes do not touch. *)
Lemma put_run_rest h pid r : h_next (put_run h pid r) = h_next h /\ h_cid (put_run h pid r) = h_cid h /\
  h_tasks (put_run h pid r) = h_tasks h /\ h_cur (put_run h pid r) = h_cur h.
Proof. unfold put_run. destruct (get pid (h_procs h)); cbn; auto. Qed.
Lemma put_thr_rest h pid tid t : h_next (put_thr h pid tid t) = h_next h /\ h_cid (put_thr h pid tid t) = h_cid h /\
  h_tasks (put_thr h pid tid t) = h_tasks h /\ h_cur (put_thr h pid tid t) = h_cur h.
Proof. unfold put_thr. destruct (run_of h pid); [apply put_run_rest|auto]. Qed.

Lemma sins_same x l : ssorted l -> In x l -> sins x l = l.
Proof.
  intros S. induction S as [|z l S IH F]; intros I; [destruct I|]. cbn. rewrite Forall_forall in F.
  destruct I as [->|I].
  - rewrite Z.ltb_irrefl, Z.eqb_refl. reflexivity.
  - specialize (F x I). destruct (Z.ltb_spec x z); [lia|]. destruct (Z.eqb_spec x z); [lia|]. f_equal. auto.
Qed.
Lemma keys_bput_same {V} k (v v' : V) m : bsorted m -> get k m = Some v' -> keys (bput k v m) = keys m.
Proof. intros S G. rewrite keys_bput. apply sins_same; [exact S|]. eapply get_keys; eauto. Qed.

(** * Weakenings *)
Lemma thr_ok_cu L cu tasks cb pid tid r t : thr_ok L None tasks cb pid tid r t -> thr_ok L cu tasks cb pid tid r t.
Proof. intros [A B C]. split; auto. intros _. apply C. discriminate. Qed.

Lemma good_cu L ex cu S l h : Good L ex None S l h -> Good L ex cu S l h.
Proof.
  intros [A B TK C D E F G H I J K M N O]. split; auto.
  - intros pid p P. destruct (C pid p P) as [C1 C2 C3 C4 C5]. split; auto. intros r R. destruct (C5 r R) as [R1 R2 R3 R4 R5 R6 R7].
    split; auto. intros tid t T. apply thr_ok_cu. auto.
  - intros pid tid c X _. apply (J pid tid c X). discriminate.
Qed.

(** The current task is of no interest to the invariant. *)
Lemma good_cur L ex cu S l h x : Good L ex cu S l (set_cur h x) <-> Good L ex cu S l h.
Proof. split; intros [A B TK C D E F G H I J K M N O]; split; auto. Qed.

Definition without (L : Z -> bool) (pid : Z) : Z -> bool := fun x => negb (x =? pid) && L x.

Lemma good_less L ex cu S l h pid : Good L ex cu S l h -> Good (without L pid) ex cu S l h.
Proof.
  intros [A B TK C D E F G H I J K M N O]. split; auto.
  intros q p P. destruct (C q p P) as [C1 C2 C3 C4 C5]. split; auto. intros r R. destruct (C5 r R) as [R1 R2 R3 R4 R5 R6 R7].
  assert (W : without L pid q = true -> L q = true) by (unfold without; intros W; apply Bool.andb_true_iff in W; tauto).
  split; auto. intros tid t T. destruct (R7 tid t T) as [T1 T2 T3]. split; auto. intros NC. specialize (T3 NC).
  destruct (t_st t); auto. intuition auto.
Qed.

(** The part of the invariant that is about lone processes. *)
Definition lone_ok (cu : option (Z * Z)) (h : host) (pid : Z) : Prop :=
  forall r, run_of h pid = Some r -> keys (n_thr r) = [pid] /\
    forall t c, get pid (n_thr r) = Some t -> t_st t = TBlk c -> Some (pid, pid) <> cu ->
      sminus (n_pend r) (t_mask t) <> 0 -> c_sched c = true.

Lemma good_more L ex cu S l h pid : Good (without L pid) ex cu S l h ->
  (L pid = true -> lone_ok cu h pid) -> Good L ex cu S l h.
Proof.
  intros [A B TK C D E F G H I J K M N O] X. split; auto.
  intros q p P. destruct (C q p P) as [C1 C2 C3 C4 C5]. split; auto. intros r R. destruct (C5 r R) as [R1 R2 R3 R4 R5 R6 R7].
  assert (W : L q = true -> q <> pid -> without L pid q = true).
  { unfold without. intros -> NE. destruct (Z.eqb_spec q pid); [contradiction|reflexivity]. }
  assert (RO : run_of h q = Some r) by (apply run_of_get; eauto).
  split; auto.
  - intros LQ. destruct (Z.eq_dec q pid) as [->|NE]; [|auto]. destruct (X LQ r RO) as [X1 _]. exact X1.
  - intros tid t T. destruct (R7 tid t T) as [T1 T2 T3]. split; auto. intros NC. specialize (T3 NC).
    destruct (t_st t) eqn:ST; auto. destruct T3 as (T4 & T5 & T6). split; [exact T4|]. split; [exact T5|]. intros LQ.
    destruct (Z.eq_dec q pid) as [->|NE]; [|auto]. destruct (X LQ r RO) as [X1 X2].
    assert (tid = pid) as ->. { apply get_keys in T. rewrite X1 in T. destruct T as [T|[]]. auto. }
    intros. eapply X2; eauto.
Qed.

Lemma good_lone L ex cu S l h pid : Good L ex cu S l h -> L pid = true -> lone_ok cu h pid.
Proof.
  intros G LP r R. apply run_of_get in R as (p & P & R). destruct (g_proc _ _ _ _ _ _ G pid p P) as [_ _ _ _ C5].
  destruct (C5 r R) as [R1 R2 R3 R4 R5 R6 R7]. split; [auto|]. intros t c T ST NC NZ.
  destruct (R7 pid t T) as [_ _ T3]. specialize (T3 NC). rewrite ST in T3. apply T3; auto.
Qed.

(** * Updating one process *)

(** No new threads but the leader, no new blocked threads but the running one. *)
Definition keeps_run (cu : option (Z * Z)) (pid : Z) (r r' : run) : Prop :=
  (forall tid, In tid (keys (n_thr r')) -> In tid (keys (n_thr r)) \/ tid = pid) /\
  (forall tid t' c', get tid (n_thr r') = Some t' -> t_st t' = TBlk c' -> Some (pid, tid) <> cu ->
     exists t c, get tid (n_thr r) = Some t /\ t_st t = TBlk c /\ c_trig c = c_trig c' /\ c_call c = c_call c' /\
       (c_sched c = true -> c_sched c' = true)).
Definition keeps (cu : option (Z * Z)) (pid : Z) (p p' : proc) : Prop :=
  p_par p' = p_par p /\ p_pgid p' = p_pgid p /\ p_sid p' = p_sid p /\
  match p_st p, p_st p' with
  | PRun r, PRun r' => keeps_run cu pid r r'
  | PZom s, PZom s' => s = s' /\ p_exs p' = p_exs p
  | _, _ => False
  end.

Lemma proc_ok_tasks L cu tasks nt nx cb pid p :
  (forall tid c r t, p_st p = PRun r -> get tid (n_thr r) = Some t -> t_st t = TBlk c ->
     forall tr, In (TkWake pid tid (c_id c) tr) nt -> tr = c_trig c) ->
  proc_ok L cu tasks nx cb pid p -> proc_ok L cu (tasks ++ nt) nx cb pid p.
Proof.
  intros W [C1 C2 C3 C4 C5]. split; auto. intros r R. destruct (C5 r R) as [R1 R2 R3 R4 R5 R6 R7]. split; auto.
  intros tid t T. destruct (R7 tid t T) as [T1 T2 T3]. split; auto.
  - intros c ST. destruct (T2 c ST) as [T4 T5]. split; auto. intros tr I. apply in_app_or in I as [I|I]; [auto|].
    eapply W; eauto.
  - intros NC. specialize (T3 NC). destruct (t_st t); auto. destruct T3 as (T4 & T5 & T6). split; auto.
    intros SC. apply in_or_app. auto.
Qed.

Lemma wants_same pid c z p p' : p_par p' = p_par p -> p_exs p' = p_exs p -> wants pid c z p' = wants pid c z p.
Proof.
  intros E1 E2. unfold wants, wmatches. destruct c; try reflexivity.
  - destruct (pid0 =? -1); [now rewrite E1, E2|]. destruct (0 <? pid0); [now rewrite E1, E2|reflexivity].
  - destruct which; try reflexivity; now rewrite E1, E2.
Qed.

Lemma good_put L ex cu S S' l h pid p p' nt cb cur :
  Good L ex cu S l h -> get pid (h_procs h) = Some p -> keeps cu pid p p' -> h_cid h <= cb ->
  proc_ok L cu (h_tasks h ++ nt) (h_next h) cb pid p' ->
  (forall q t cid tr, In (TkWake q t cid tr) nt -> q = pid /\ cid < cb) ->
  (forall d sig, pid_of d <> pid -> S' d sig = S d sig) ->
  (forall d sig, h_next h <= new_id d -> S' d sig = None) ->
  (forall r, p_st p' = PRun r -> pend_rel S' pid r) ->
  Good L ex cu S' l (mkHost (bput pid p' (h_procs h)) (h_next h) cb (h_tasks h ++ nt) cur).
Proof.
  intros GD P KP CB PO NT SO SF SP.
  pose proof GD as [A B TK C D E F G H I J K M N O].
  destruct KP as (K1 & K2 & K3 & K4).
  set (h' := mkHost _ _ _ _ _).
  assert (GT : forall x, get x (h_procs h') = if x =? pid then Some p' else get x (h_procs h)).
  { intros x. cbn [h' h_procs]. apply get_bput. }
  assert (RN : forall x r, run_of h' x = Some r -> x <> pid -> run_of h x = Some r).
  { intros x r R NE. unfold run_of in *. rewrite GT in R. destruct (Z.eqb_spec x pid); [contradiction|exact R]. }
  assert (RB : forall x r, run_of h x = Some r -> exists r', run_of h' x = Some r').
  { intros x r R. unfold run_of in *. rewrite GT. destruct (Z.eqb_spec x pid) as [->|NE]; [|eauto].
    rewrite P in R. destruct (p_st p) as [rr|]; [|discriminate R]. destruct (p_st p') as [rr'|]; [eauto|contradiction]. }
  assert (RP : forall r', run_of h' pid = Some r' -> exists r, run_of h pid = Some r /\ p_st p = PRun r /\ p_st p' = PRun r' /\ keeps_run cu pid r r').
  { intros r' R. unfold run_of in *. rewrite GT, Z.eqb_refl in R. rewrite P. destruct (p_st p') as [rr'|]; [|discriminate R].
    injection R as ->. destruct (p_st p) as [rr|]; [|contradiction]. eauto. }
  assert (GN : forall x, get x (h_procs h) = None -> get x (h_procs h') = None).
  { intros x X. rewrite GT. destruct (Z.eqb_spec x pid) as [->|]; [congruence|exact X]. }
  split.
  - cbn. now apply bput_sorted.
  - exact B.
  - intros q t cid tr IN. cbn in IN |- *. apply in_app_or in IN as [IN|IN]; [specialize (TK _ _ _ _ IN); lia|]. apply (NT _ _ _ _ IN).
  - intros x y X. rewrite GT in X. cbn [h' h_tasks h_next h_cid]. destruct (Z.eqb_spec x pid) as [->|NE].
    + injection X as <-. exact PO.
    + specialize (C x y X). apply proc_ok_tasks.
      * intros tid c r t _ _ _ tr IN. destruct (NT _ _ _ _ IN). contradiction.
      * destruct C as [C1 C2 C3 C4 C5]. split; auto. intros r R. destruct (C5 r R) as [R1 R2 R3 R4 R5 R6 R7]. split; auto.
        intros tid t T. destruct (R7 tid t T) as [T1 T2 T3]. split; auto. intros c ST. destruct (T2 c ST). split; [lia|auto].
  - intros x y X. rewrite GT in X. destruct (Z.eqb_spec x pid) as [->|NE].
    + injection X as <-. rewrite K1. destruct (D pid p P) as [|(D1 & [(r & D2)|D2])]; auto. right. split; [exact D1|]. left. eauto.
    + destruct (D x y X) as [|(D1 & [(r & D2)|D2])]; auto. right. split; [exact D1|]. left. eauto.
  - intros EX x y X Z0. rewrite GT in X. destruct (Z.eqb_spec x pid) as [->|NE]; [|eauto].
    injection X as <-. rewrite K1. apply (E EX pid p P). unfold is_zombie in *. destruct (p_st p); [destruct (p_st p'); [discriminate Z0|contradiction]|reflexivity].
  - intros x r tid R IN. destruct (Z.eq_dec x pid) as [->|NE].
    + destruct (RP r R) as (r0 & R0 & _ & _ & KR & _). destruct (KR tid IN) as [IN'|]; [|auto].
      destruct (F pid r0 tid R0 IN'); auto.
    + destruct (F x r tid (RN _ _ R NE) IN); auto.
  - intros p1 r1 p2 r2 tid R1 R2 I1 I2.
    destruct (Z.eq_dec p1 pid) as [->|N1], (Z.eq_dec p2 pid) as [->|N2]; auto.
    + destruct (RP r1 R1) as (r0 & R0 & _ & _ & KR & _). specialize (RN _ _ R2 N2). destruct (KR tid I1) as [IN'| ->].
      * eapply G; eauto.
      * destruct (F p2 r2 pid RN I2); congruence.
    + destruct (RP r2 R2) as (r0 & R0 & _ & _ & KR & _). specialize (RN _ _ R1 N1). destruct (KR tid I2) as [IN'| ->].
      * eapply G; eauto.
      * destruct (F p1 r1 pid RN I1); congruence.
    + eapply G; eauto.
  - intros p1 x1 p2 x2 X1 X2. rewrite GT in X1, X2.
    destruct (Z.eqb_spec p1 pid) as [->|N1], (Z.eqb_spec p2 pid) as [->|N2].
    + congruence.
    + injection X1 as <-. rewrite K2, K3. intros; eapply H; eauto.
    + injection X2 as <-. rewrite K2, K3. intros; eapply H; eauto.
    + intros; eapply H; eauto.
  - intros p1 x1 p2 x2 X1 X2. rewrite GT in X1, X2.
    destruct (Z.eqb_spec p1 pid) as [->|N1], (Z.eqb_spec p2 pid) as [->|N2].
    + congruence.
    + injection X1 as <-. rewrite K2, K3. intros; eapply I; eauto.
    + injection X2 as <-. rewrite K3. intros; eapply I; eauto.
    + intros; eapply I; eauto.
  - intros q tid c (t & T & ST) NC TR z y X ZB EX WN.
    assert (OLD : exists y0, get z (h_procs h) = Some y0 /\ is_zombie y0 = true /\ p_exs y0 <> None /\ forall q c, wants q c z y = wants q c z y0).
    { rewrite GT in X. destruct (Z.eqb_spec z pid) as [->|NE]; [|eauto]. injection X as <-. exists p. split; [exact P|].
      unfold is_zombie in *. destruct (p_st p) as [r|s]; destruct (p_st p') as [r'|s']; try contradiction; try discriminate.
      destruct K4 as [_ K4]. split; [reflexivity|]. split; [congruence|]. intros. apply wants_same; auto. }
    destruct OLD as (y0 & Y & ZB0 & EX0 & WE). rewrite WE in WN. apply thr_of_get in T as (r' & R' & T).
    destruct (Z.eq_dec q pid) as [->|NE].
    + destruct (RP r' R') as (r & R & _ & _ & _ & KR). destruct (KR tid t c T ST NC) as (t0 & c0 & T0 & ST0 & E1 & E2 & E3).
      apply E3. eapply (J pid tid c0); eauto; try congruence. exists t0. split; [apply thr_of_get; eauto|exact ST0].
    + eapply (J q tid c); eauto. exists t. split; [apply thr_of_get; eauto|exact ST].
  - intros x r R. destruct (Z.eq_dec x pid) as [->|NE].
    + destruct (RP r R) as (_ & _ & _ & R' & _). auto.
    + specialize (RN _ _ R NE). destruct (K x r RN) as [Q1 Q2]. split.
      * intros sig. rewrite SO by (cbn; exact NE). auto.
      * intros tid t T sig. rewrite SO by (cbn; exact NE). auto.
  - exact SF.
  - exact N.
  - intros x. rewrite GT. destruct (Z.eqb_spec x pid) as [->|NE]; [|apply O]. rewrite O, P, K1. f_equal. f_equal.
    unfold st_of. destruct (p_st p) as [r|s]; destruct (p_st p') as [r'|s']; try contradiction; [reflexivity|]. destruct K4 as [-> _]. reflexivity.
Qed.
