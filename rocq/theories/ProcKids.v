(** Laws of waiting for children, of the end of a process and of the ancestry of processes. *)
From Verif Require Import Base FMap BTree ProcModel ProcSpec ProcBits ProcFaults ProcApi ProcInv ProcSig ProcEnd ProcCall ProcStep ProcRun ProcCrash ProcTame ProcLaws ProcCalls.

(** * wait4 and waitid *)
Lemma filter_least {V} (f : Z * V -> bool) m : bsorted m ->
  match filter f m with
  | [] => forall z q, get z m = Some q -> f (z, q) = false
  | (c, p) :: _ => get c m = Some p /\ f (c, p) = true /\ forall z q, get z m = Some q -> f (z, q) = true -> c <= z
  end.
Proof.
  induction m as [|[k v] m IH]; intros SO; [intros z q H; discriminate H|]. inversion SO as [|? ? SO' F]; subst. specialize (IH SO'). rewrite Forall_forall in F. cbn [filter].
  assert (NK : forall z q, get z m = Some q -> k < z) by (intros z q H; apply F; eapply get_keys; eauto).
  destruct (f (k, v)) eqn:FK.
  - cbn [get]. change (eqb k k) with (k =? k). rewrite Z.eqb_refl. split; [reflexivity|]. split; [exact FK|]. intros z q. change (eqb z k) with (z =? k). destruct (Z.eqb_spec z k); [lia|]. intros H _. apply NK in H. lia.
  - destruct (filter f m) as [|[c p] l].
    + intros z q. cbn [get]. change (eqb z k) with (z =? k). destruct (Z.eqb_spec z k) as [->|]; [intros [= <-]; exact FK|]. apply IH.
    + destruct IH as (A & B & C). cbn [get]. change (eqb c k) with (c =? k). destruct (Z.eqb_spec c k) as [->|]; [apply NK in A; lia|]. split; [exact A|]. split; [exact B|].
      intros z q. change (eqb z k) with (z =? k). destruct (Z.eqb_spec z k) as [->|]; [intros [= <-]; congruence|]. apply C.
Qed.

Lemma filter_twice {A} (f g : A -> bool) l : filter g (filter f l) = filter (fun x => f x && g x) l.
Proof. induction l as [|x l IH]; [reflexivity|]. cbn [filter]. destruct (f x); cbn [filter andb]; [destruct (g x); [f_equal; exact IH|exact IH]|exact IH]. Qed.

Lemma is_zombie_ended q : is_zombie q = true <-> ended q.
Proof. unfold is_zombie, ended. destruct (p_st q); split; try discriminate; try (intros (s0 & X); discriminate X); eauto. Qed.

(** [sel]: which processes the call is about. *)
Lemma wait_shape h me t fl idr (sel : Z -> proc -> Prop) h1 o1 res : bsorted (h_procs h) ->
  (forall z q, get z (h_procs h) = Some q -> (wmatches me t fl z q = true <-> sel z q)) -> (forall z q, sel z q -> get z (h_procs h) = Some q) ->
  wait_internal h me t fl idr = Some (h1, o1, res) ->
  (~ (exists z q, sel z q) -> h1 = h /\ o1 = [] /\ res = err ECHILD) /\
  ((exists z q, sel z q) -> (w_exited fl = false \/ ~ exists z q, sel z q /\ ended q) -> h1 = h /\ o1 = [] /\ res = if w_nohang fl then done 0 else RBlock TrChild true) /\
  (forall z q s, w_exited fl = true -> sel z q -> p_st q = PZom s -> (forall z' q', sel z' q' -> ended q' -> z <= z') ->
     h1 = (if w_nowait fl then h else del_proc h z) /\ o1 = (if w_nowait fl then [] else [OReap me z s]) /\ res = done (if idr then 0 else z)).
Proof.
  intros SO SEL GS E. unfold wait_internal in E. pose proof (filter_least (fun e => wmatches me t fl (fst e) (snd e)) _ SO) as FL.
  destruct (filter (fun e => wmatches me t fl (fst e) (snd e)) (h_procs h)) as [|[c p] ms] eqn:FI.
  - injection E as <- <- <-. assert (NS : ~ exists z q, sel z q). { intros (z & q & H). pose proof (GS _ _ H) as G. apply (SEL _ _ G) in H. specialize (FL z q G). cbn [fst snd] in FL. congruence. }
    split; [auto|]. split; [intros X; contradiction|]. intros z q s _ H. exfalso. eauto.
  - destruct FL as (G0 & M0 & _). cbn [fst snd] in M0. assert (EX : exists z q, sel z q) by (exists c, p; apply SEL; auto). split; [intros N; contradiction|].
    rewrite <- FI, filter_twice in E. pose proof (filter_least (fun e => wmatches me t fl (fst e) (snd e) && is_zombie (snd e)) _ SO) as FL2.
    assert (BL : (if w_nohang fl then Some (h, [], done 0) else Some (h, [], RBlock TrChild true)) = Some (h1, o1, res) -> h1 = h /\ o1 = [] /\ res = if w_nohang fl then done 0 else RBlock TrChild true).
    { destruct (w_nohang fl); intros [= <- <- <-]; auto. }
    destruct (w_exited fl) eqn:WE; cbn [negb] in E.
    2:{ split; [intros _ _; apply BL; exact E|]. discriminate. }
    destruct (filter (fun e => wmatches me t fl (fst e) (snd e) && is_zombie (snd e)) (h_procs h)) as [|[c1 p1] ms1].
    + split; [intros _ _; apply BL; exact E|]. intros z q s _ H Q _. exfalso. pose proof (GS _ _ H) as G. specialize (FL2 z q G). cbn [fst snd] in FL2. apply (SEL _ _ G) in H. rewrite H in FL2.
      unfold is_zombie in FL2. rewrite Q in FL2. discriminate FL2.
    + destruct FL2 as (G1 & M1 & LE). cbn [fst snd] in M1. apply andb_true_iff in M1 as [M1 Z1]. assert (S1 : sel c1 p1) by (apply SEL; auto). split.
      { intros _ [X|X]; [discriminate X|]. exfalso. apply X. exists c1, p1. split; [exact S1|]. now apply is_zombie_ended. }
      intros z q s _ H Q LZ. assert (z = c1). { assert (z <= c1) by (apply (LZ c1 p1 S1); now apply is_zombie_ended). assert (c1 <= z); [|lia]. apply (LE z q (GS _ _ H)). cbn [fst snd].
        rewrite (proj2 (SEL _ _ (GS _ _ H)) H). unfold is_zombie. now rewrite Q. }
      subst c1. assert (p1 = q) by (pose proof (GS _ _ H); congruence). subst p1. rewrite Q in E. injection E as <- <- <-. auto.
Qed.

Lemma wmatches_iff me t fl z q : wmatches me t fl z q = true <->
  p_par q = me /\ kind_ok (w_all fl) (w_clone fl) q /\ match t with WPid x => z = x | WPgid g => p_pgid q = g | WAny => True end.
Proof.
  unfold wmatches, kind_ok. rewrite !andb_true_iff, Z.eqb_eq.
  assert (T : match t with WPid x => z =? x | WPgid g => p_pgid q =? g | WAny => true end = true <-> match t with WPid x => z = x | WPgid g => p_pgid q = g | WAny => True end).
  { destruct t; rewrite ?Z.eqb_eq; tauto. }
  rewrite T. clear T. assert (K : match p_exs q with Some s => s =? SIGCHLD | None => false end = true <-> p_exs q = Some 17).
  { destruct (p_exs q); [rewrite Z.eqb_eq|]; split; try discriminate; [intros ->; reflexivity|intros [= ->]; reflexivity]. }
  assert (N : p_exs q <> Some 17 <-> match p_exs q with Some s => s =? SIGCHLD | None => false end = false).
  { destruct (match p_exs q with Some s => s =? SIGCHLD | None => false end); intuition congruence. }
  cbv zeta. rewrite N, <- K. clear N K. destruct (match p_exs q with Some s => s =? SIGCHLD | None => false end), (w_all fl), (w_clone fl); cbn [negb]; intuition congruence.
Qed.

Lemma target_sel me (m : proc) h x fl t : get me (h_procs h) = Some m -> waitpid_target (p_pgid m) x = Some t -> forall z q, get z (h_procs h) = Some q ->
  (wmatches me t (mkW (w_nohang fl) true false (w_all fl) (w_clone fl) false) z q = true <-> selects4 h me x fl z q).
Proof.
  intros M WT z q G. rewrite wmatches_iff. unfold selects4. cbn [w_all w_clone]. unfold waitpid_target in WT.
  destruct (Z.eqb_spec x (-1)) as [->|N1]; [injection WT as <-; intuition lia|].
  destruct (Z.ltb_spec x 0) as [LT|GE].
  { unfold assert_then in WT. destruct (negb _); [|discriminate WT]. injection WT as <-. split; [intros (A & B & C); repeat split; auto; right; left; lia|].
    intros (_ & A & B & [C|[[C D]|[[C D]|[C D]]]]); try lia. auto. }
  destruct (Z.eqb_spec x 0) as [->|N0].
  { injection WT as <-. split; [intros (A & B & C); repeat split; auto; right; right; left; eauto|].
    intros (_ & A & B & [C|[[C D]|[[C (m' & D & D')]|[C D]]]]); try lia. repeat split; auto. congruence. }
  injection WT as <-. split; [intros (A & B & C); repeat split; auto; right; right; right; lia|].
  intros (_ & A & B & [C|[[C D]|[[C D]|[C D]]]]); try lia. auto.
Qed.

Lemma wait_law S l h pid tid c io r t h' o' tg fl idr (sel : Z -> proc -> Prop) : Good noL None (Some (pid, tid)) S l h -> run_of h pid = Some r -> get tid (n_thr r) = Some t -> t_st t = TRun ->
  handle h pid tid c io = wait_internal h pid tg fl idr ->
  (forall z q, get z (h_procs h) = Some q -> (wmatches pid tg fl z q = true <-> sel z q)) -> (forall z q, sel z q -> get z (h_procs h) = Some q) ->
  do_call h pid tid c io = Some (h', o') -> wait_outcome h pid tid c r t h' o' sel (w_nohang fl) (w_exited fl) (w_nowait fl) (fun z => if idr then 0 else z).
Proof.
  intros GD R T ST HW SEL GS E. assert (RU : runs h pid tid) by (exists t; split; [apply thr_of_get; eauto|exact ST]).
  destruct (handle h pid tid c io) as [[[h1 o1] res]|] eqn:HA; [|unfold do_call in E; rewrite HA in E; discriminate E].
  symmetry in HW. destruct (wait_shape h pid tg fl idr sel h1 o1 res (g_sorted _ _ _ _ _ _ GD) SEL GS HW) as (W1 & W2 & W3). unfold wait_outcome. split; [|split].
  - intros N. destruct (W1 N) as (-> & -> & ->). unfold err in HA. rewrite (call_done _ _ _ _ _ _ _ _ _ _ _ GD RU HA) in E. injection E as <- <-. unfold completes. auto.
  - intros X Y. destruct (W2 X Y) as (-> & -> & ->). destruct (w_nohang fl).
    + unfold done in HA. rewrite (call_done _ _ _ _ _ _ _ _ _ _ _ GD RU HA) in E. injection E as <- <-. unfold completes. split; [reflexivity|]. split; [auto|]. split; discriminate.
    + destruct (call_blocks _ _ _ _ _ _ _ _ _ _ _ _ _ _ _ GD R T ST HA E) as (-> & A & B). split; [reflexivity|]. split; [discriminate|]. split; intros _; [exact A|exact B].
  - intros z q s X1 X2 X3 X4. destruct (W3 z q s X1 X2 X3 X4) as (-> & -> & ->). unfold done in HA. rewrite (call_done _ _ _ _ _ _ _ _ _ _ _ GD RU HA) in E. injection E as <- <-. unfold completes.
    split; [reflexivity|]. split; [reflexivity|]. intros y. destruct (w_nowait fl); cbn [negb andb]; [reflexivity|]. cbn [h_procs set_cur del_proc set_procs]. rewrite get_del. reflexivity.
Qed.

Lemma wait4_call S l h pid tid x fl io r t h' o' : Good noL None (Some (pid, tid)) S l h -> run_of h pid = Some r -> get tid (n_thr r) = Some t -> t_st t = TRun ->
  w_other fl = false -> w_exited fl = false -> w_nowait fl = false -> do_call h pid tid (Wait4 x fl) io = Some (h', o') ->
  wait_outcome h pid tid (Wait4 x fl) r t h' o' (selects4 h pid x fl) (w_nohang fl) true false (fun z => z).
Proof.
  intros GD R T ST F1 F2 F3 E. pose proof R as R0. apply run_of_get in R0 as (p & P & R0).
  assert (HW : exists tg, waitpid_target (p_pgid p) x = Some tg /\ handle h pid tid (Wait4 x fl) io = wait_internal h pid tg (mkW (w_nohang fl) true false (w_all fl) (w_clone fl) false) false).
  { unfold do_call in E. cbn [handle] in E |- *. unfold do_wait4 in E |- *. rewrite F1, F2, F3 in E |- *. cbn [orb] in E |- *. rewrite P in E |- *. cbn [obind] in E |- *. destruct (waitpid_target (p_pgid p) x) as [tg|]; [|discriminate E]. exists tg. auto. }
  destruct HW as (tg & WT & HW). exact (wait_law S l h pid tid _ io r t h' o' tg _ false (selects4 h pid x fl) GD R T ST HW (target_sel pid p h x fl tg P WT) ltac:(intros z q Q; apply Q) E).
Qed.

Lemma wait4_law xs h o pid tid x fl io r t h' o' : steps host_new xs = Some (h, o) -> h_cur h = Some (pid, tid, MApp) -> run_of h pid = Some r -> get tid (n_thr r) = Some t ->
  w_other fl = false -> w_exited fl = false -> w_nowait fl = false -> step h (PCall (Wait4 x fl) io) = Some (h', o') ->
  wait_outcome h pid tid (Wait4 x fl) r t h' o' (selects4 h pid x fl) (w_nohang fl) true false (fun z => z).
Proof.
  intros XS HC R T F1 F2 F3 E. destruct (at_app _ _ _ _ _ XS HC) as [GD (t0 & T0 & ST)]. apply thr_of_get in T0 as (r0 & R0 & T0). assert (r0 = r) by congruence. subst r0. assert (t0 = t) by congruence. subst t0.
  unfold step in E. rewrite HC in E. eapply wait4_call; eauto.
Qed.

Lemma waitid_law xs h o pid tid w x fl io r t h' o' : steps host_new xs = Some (h, o) -> h_cur h = Some (pid, tid, MApp) -> run_of h pid = Some r -> get tid (n_thr r) = Some t ->
  w = PAll \/ 0 <= x /\ (w = PPid \/ w = PPgid) -> step h (PCall (Waitid w x fl) io) = Some (h', o') ->
  wait_outcome h pid tid (Waitid w x fl) r t h' o' (selectsid h pid w x fl) (w_nohang fl) (w_exited fl) (w_nowait fl) (fun _ => 0).
Proof.
  intros XS HC R T W E. destruct (at_app _ _ _ _ _ XS HC) as [GD (t0 & T0 & ST)]. apply thr_of_get in T0 as (r0 & R0 & T0). assert (r0 = r) by congruence. subst r0. assert (t0 = t) by congruence. subst t0. clear R0.
  unfold step in E. rewrite HC in E. pose proof R as R0. apply run_of_get in R0 as (p & P & R0).
  assert (WL : forall tg, handle h pid tid (Waitid w x fl) io = wait_internal h pid tg fl true ->
     (forall z q, match tg with WPid y => z = y | WPgid g => p_pgid q = g | WAny => True end <->
        match w with PAll => True | PPid => z = x | PPgid => (x = 0 /\ exists m, get pid (h_procs h) = Some m /\ p_pgid q = p_pgid m) \/ (0 < x /\ p_pgid q = x) | _ => False end) ->
     wait_outcome h pid tid (Waitid w x fl) r t h' o' (selectsid h pid w x fl) (w_nohang fl) (w_exited fl) (w_nowait fl) (fun _ => 0)).
  { intros tg HW SE. refine (wait_law (after nothing o) (lafter nobody o) h pid tid _ io r t h' o' tg fl true (selectsid h pid w x fl) GD R T ST HW _ _ E).
    - intros z q G. rewrite wmatches_iff. unfold selectsid. specialize (SE z q). tauto.
    - intros z q Q. apply Q. }
  destruct W as [->|(X0 & [-> | ->])].
  - apply (WL WAny); [cbn [handle]; unfold do_waitid; rewrite P; reflexivity|]. intros. reflexivity.
  - apply (WL (WPid x)).
    + cbn [handle]. unfold do_waitid. rewrite P. cbn [obind]. destruct (Z.ltb_spec x 0); [lia|reflexivity].
    + intros. reflexivity.
  - apply (WL (WPgid (if x =? 0 then p_pgid p else x))).
    + cbn [handle]. unfold do_waitid. rewrite P. cbn [obind]. destruct (Z.ltb_spec x 0); [lia|reflexivity].
    + intros z q. destruct (Z.eqb_spec x 0) as [->|].
      * split; [intros H; left; eauto|]. intros [(_ & m & M & H)|[H _]]; [congruence|lia].
      * split; [intros H; right; lia|]. intros [[H _]|[_ H]]; [lia|exact H].
Qed.

(** * A blocked wait is woken for a child that has ended *)
Lemma waiter_woken xs h o pid tid t k x fl z q : steps host_new xs = Some (h, o) -> thr_of h pid tid = Some t -> t_st t = TBlk k -> c_call k = Wait4 x fl ->
  w_other fl = false -> w_exited fl = false -> w_nowait fl = false -> x = -1 \/ 0 < x ->
  selects4 h pid x fl z q -> ended q -> p_exs q <> None -> In (TkWake pid tid (c_id k) TrChild) (h_tasks h).
Proof.
  intros XS T B CC F1 F2 F3 XR SE EN EX. assert (TP := top_of _ _ _ XS). unfold Top in TP.
  assert (G : exists cu, Good noL None cu (after nothing o) (lafter nobody o) h /\ Some (pid, tid) <> cu).
  { destruct (h_cur h) as [[[p0 q0] m]|]; [|exists None; split; [exact TP|discriminate]]. destruct TP as [GD (tq & TQ & SQ)]. exists (Some (p0, q0)). split; [exact GD|]. intros [= -> ->]. congruence. }
  destruct G as (cu & GD & NC). assert (TM := tame_reach _ _ _ XS). apply thr_of_get in T as T'. destruct T' as (r & R & T').
  assert (TC : c_trig k = TrChild). { destruct (TM pid r R) as [_ X]. specialize (X tid t k T' B). rewrite CC in X. destruct (c_trig k); [reflexivity|contradiction|contradiction]. }
  assert (SC : c_sched k = true).
  { eapply (g_wait _ _ _ _ _ _ GD pid tid k); [exists t; auto|exact NC|exact TC|apply SE|now apply is_zombie_ended|exact EX|]. rewrite CC. cbn [wants].
    destruct SE as (_ & PA & KO & XX). destruct (Z.eqb_spec x (-1)) as [->|N].
    - apply wmatches_iff. cbn [w_all w_clone]. auto.
    - destruct (Z.ltb_spec 0 x); [|lia]. apply wmatches_iff. cbn [w_all w_clone]. repeat split; auto. decompose [and or] XX; lia. }
  pose proof R as R0. apply run_of_get in R0 as (p & P & R0). pose proof (good_run _ _ _ _ _ _ _ _ _ GD P R0) as RK.
  destruct (n_thrs _ _ _ _ _ _ _ RK tid t T') as [_ _ T3]. specialize (T3 NC). rewrite B in T3. destruct T3 as (A1 & _ & _). specialize (A1 SC). now rewrite TC in A1.
Qed.

Lemma waiter_served xs h o pid tid cid ts sat io t k x fl z q s h' o' : steps host_new xs = Some (h, o) -> h_cur h = None -> h_tasks h = TkWake pid tid cid TrChild :: ts ->
  thr_of h pid tid = Some t -> t_st t = TBlk k -> c_call k = Wait4 x fl -> w_other fl = false -> w_exited fl = false -> w_nowait fl = false ->
  selects4 h pid x fl z q -> p_st q = PZom s -> (forall z' q', selects4 h pid x fl z' q' -> ended q' -> z <= z') -> step h (PTask sat io) = Some (h', o') ->
  completes h' pid tid (Wait4 x fl) z /\ o' = [OCall pid tid (Wait4 x fl); OReap pid z s] /\ get z (h_procs h') = None.
Proof.
  intros XS HC HT T B CC F1 F2 F3 SE Q LE E. assert (TP := top_of _ _ _ XS). unfold Top in TP. rewrite HC in TP. apply thr_of_get in T as (r & R & T).
  destruct (awake_good _ _ _ _ _ _ _ _ _ _ _ TP HT R T B) as [GA RA]. unfold step in E. rewrite HC, HT in E. cbn [run_task] in E.
  rewrite (wake_calls h ts pid tid cid TrChild sat io r t k R T B) in E by auto. rewrite CC in E. pose proof R as R0. apply run_of_get in R0 as (p & P & R0).
  set (h2 := awake h ts pid tid r t) in *. set (r2 := set_nthr (set_nlst r (filter (fun e => negb (fst e =? tid)) (n_lst r))) (bput tid (set_tst t TRun) (n_thr r))).
  assert (R2 : run_of h2 pid = Some r2) by (unfold h2, awake; rewrite (run_of_put_run (set_tasks h ts) pid pid p _ P), Z.eqb_refl; reflexivity).
  assert (T2 : get tid (n_thr r2) = Some (set_tst t TRun)) by (cbn [r2 n_thr set_nthr]; apply get_bput_same).
  destruct (wait4_call _ _ _ _ _ _ _ _ _ _ _ _ GA R2 T2 eq_refl F1 F2 F3 E) as (_ & _ & W3).
  assert (GP : forall y, y <> pid -> get y (h_procs h2) = get y (h_procs h)).
  { intros y N. unfold h2, awake. rewrite (get_put_run (set_tasks h ts) y pid p _ P). destruct (Z.eqb_spec y pid); [contradiction|reflexivity]. }
  assert (GM : exists m2, get pid (h_procs h2) = Some m2 /\ p_pgid m2 = p_pgid p).
  { exists (set_pst p (PRun r2)). split; [|reflexivity]. unfold h2, awake. rewrite (get_put_run (set_tasks h ts) pid pid p _ P), Z.eqb_refl. reflexivity. }
  destruct GM as (m2 & M2 & PG).
  assert (ZP : z <> pid). { intros ->. destruct SE as (G & _). rewrite P in G. injection G as <-. congruence. }
  assert (S2 : selects4 h2 pid x fl z q).
  { destruct SE as (G & A & K & X). split; [rewrite GP; auto|]. split; [exact A|]. split; [exact K|]. destruct X as [X|[X|[(X & m & M & Y)|X]]]; auto. right. right. left. split; [exact X|]. exists m2. split; [exact M2|]. congruence. }
  assert (L2 : forall z' q', selects4 h2 pid x fl z' q' -> ended q' -> z <= z').
  { intros z' q' (G & A & K & X) EN. assert (z' <> pid). { intros ->. rewrite M2 in G. injection G as <-. assert (X2 : get pid (h_procs h2) = Some (set_pst p (PRun r2))) by (unfold h2, awake; rewrite (get_put_run (set_tasks h ts) pid pid p _ P), Z.eqb_refl; reflexivity).
      rewrite M2 in X2. injection X2 as ->. destruct EN as (s0 & EN). discriminate EN. }
    apply (LE z' q'); [|exact EN]. split; [rewrite <- GP; auto|]. split; [exact A|]. split; [exact K|]. destruct X as [X|[X|[(X & m & M & Y)|X]]]; auto. right. right. left. split; [exact X|]. exists p. split; [exact P|]. congruence. }
  destruct (W3 z q s eq_refl S2 Q L2) as (A & B0 & C0). split; [exact A|]. split; [exact B0|]. rewrite C0. cbn [negb andb]. now rewrite Z.eqb_refl.
Qed.

(** * The end of a process *)
Lemma orphans_other L S l pid cs : forall h o0 h' o, Good L (Some pid) None (after S o0) l h -> obeys S o0 -> quiet o0 -> pid <> INIT ->
  (forall c p, In c cs -> get c (h_procs h) = Some p -> p_par p = pid) -> NoDup cs ->
  orphans pid (h, o0) cs = Some (h', o) ->
  (forall x, ~ In x cs -> match get x (h_procs h), get x (h_procs h') with Some p, Some p' => pkin p p' | None, None => True | _, _ => False end) /\
  (forall y, In y o -> In y o0 \/ exists c s, y = OQueue (DPr c) (mkInfo s (SiUser pid))).
Proof.
  induction cs as [|c cs IH]; intros h o0 h' o GD OB QU NI CH ND; cbn [orphans].
  { intros [= <- <-]. split; [intros x _; destruct (get x (h_procs h)); [apply pkin_refl|exact Logic.I]|auto]. }
  inversion ND as [|? ? NI' ND']; subst. destruct (orphan pid (h, o0) c) as [[h1 o1]|] eqn:OR; [|discriminate]. cbn [obind]. intros E.
  destruct (orphan_good L S l h o0 pid c h1 o1 GD OB QU NI ltac:(intros; eapply CH; [left; reflexivity|assumption]) OR) as (G1 & B1 & Q1 & OK & C1).
  assert (K : (forall x, x <> c -> match get x (h_procs h), get x (h_procs h1) with Some p, Some p' => pkin p p' | None, None => True | _, _ => False end) /\
              (forall y, In y o1 -> In y o0 \/ exists c s, y = OQueue (DPr c) (mkInfo s (SiUser pid)))).
  { unfold orphan in OR. destruct (get c (h_procs h)) as [p|] eqn:P.
    2:{ injection OR as <- <-. split; [intros x _; destruct (get x (h_procs h)); [apply pkin_refl|exact Logic.I]|auto]. }
    assert (FIN : forall h2 o2, kin h h2 -> (match get c (h_procs h2) with None => Some (h2, o0 ++ o2) | Some p => Some (put_proc h2 c (set_par p INIT), o0 ++ o2) end) = Some (h1, o1) ->
      (forall x, x <> c -> match get x (h_procs h), get x (h_procs h1) with Some p, Some p' => pkin p p' | None, None => True | _, _ => False end) /\ o1 = o0 ++ o2).
    { intros h2 o2 K. destruct (kin_get _ _ _ _ K P) as (p2 & P2 & K2). rewrite P2. intros [= <- <-]. split; [|reflexivity].
      intros x NE. rewrite get_put_proc. destruct (Z.eqb_spec x c); [contradiction|]. destruct K as (_ & _ & _ & K). apply K. }
    destruct (p_pdeath p) as [s|] eqn:PDE.
    - destruct (signal_run h None c None (mkInfo s (SiUser pid))) as [[h2 o2]|] eqn:SR; [|discriminate OR]. cbn [obind] in OR.
      destruct (g_proc _ _ _ _ _ _ GD c p P) as [_ _ _ DE _]. specialize (DE s PDE).
      destruct (signal_run_good _ _ _ _ _ _ None c None (mkInfo s (SiUser pid)) h2 o2 GD DE ltac:(discriminate) SR) as (_ & _ & K & _).
      destruct (FIN _ _ K OR) as [F ->]. split; [exact F|]. intros y IN. apply in_app_or in IN as [IN|IN]; [auto|]. right. destruct (signal_run_obs _ _ _ _ _ _ _ SR) as [-> | ->]; [destruct IN|].
      destruct IN as [<-|[]]. eauto.
    - cbn [obind] in OR. destruct (FIN _ [] (kin_refl h) OR) as [F ->]. split; [exact F|]. intros y IN. rewrite app_nil_r in IN. auto. }
  destruct K as [K1 K2]. destruct (IH h1 o1 h' o) as [I1 I2]; auto.
  { intros x p IN P1. assert (NE : x <> c) by (intros ->; contradiction). specialize (K1 x NE). rewrite P1 in K1.
    destruct (get x (h_procs h)) as [p0|] eqn:P0; [|contradiction]. destruct K1 as (K1 & _). rewrite K1. eapply CH; [right; exact IN|exact P0]. }
  split.
  - intros x NX. assert (x <> c) by (intros ->; apply NX; left; reflexivity). specialize (K1 x ltac:(assumption)). specialize (I1 x ltac:(intros Y; apply NX; right; exact Y)).
    destruct (get x (h_procs h)), (get x (h_procs h1)), (get x (h_procs h')); try contradiction; auto. eapply pkin_trans; eauto.
  - intros y IN. destruct (I2 y IN) as [X|X]; [apply K2; exact X|auto].
Qed.

Lemma end_law L cu S l h pid s h' o p r : Good L None cu S l h -> get pid (h_procs h) = Some p -> p_st p = PRun r ->
  (forall q x, cu = Some (q, x) -> q = pid) -> end_process h pid s = Some (h', o) ->
  (forall z q, get z (h_procs h') = Some q -> p_par q <> pid) /\
  ((exists rp, run_of h (p_par p) = Some rp /\ forall es, p_exs p = Some es -> sa_h (act_of rp es) <> HIgn) ->
     exists q, get pid (h_procs h') = Some q /\ p_st q = PZom s /\ p_par q = p_par p /\ p_exs q = p_exs p) /\
  (~ (exists rp, run_of h (p_par p) = Some rp /\ forall es, p_exs p = Some es -> sa_h (act_of rp es) <> HIgn) -> get pid (h_procs h') = None /\ In (OFreed pid) o) /\
  (forall rp es, run_of h (p_par p) = Some rp -> p_exs p = Some es ->
     (In (OQueue (DPr (p_par p)) (exit_info es pid s)) o <-> ~ discards rp es /\ shas (n_pend rp) es = false)).
Proof.
  intros GD P R CU E. assert (RR : run_of h pid = Some r) by (apply run_of_get; eauto).
  destruct (end_good _ _ _ _ _ _ _ _ _ _ GD RR CU E) as (_ & _ & GF & _ & _ & _ & RN). unfold end_process in E.
  assert (GD0 : Good L None cu S l (set_cur h None)) by (apply good_cur; exact GD).
  destruct (notify_parent (set_cur h None) pid s) as [[h1 o1]|] eqn:NP; [|discriminate E]. cbn [obind] in E.
  destruct (notify_good _ _ _ _ _ _ _ _ _ _ _ GD0 P NP) as (A1 & A2 & A3 & A4 & A5).
  destruct (kin_get _ _ _ _ A3 P) as (p1 & P1 & (E1 & E2 & E3 & E4 & E5 & E6)). rewrite P1 in E. cbn [obind] in E.
  rewrite R in E6. destruct (p_st p1) as [r1|] eqn:R1; [|contradiction].
  destruct (g_proc _ _ _ _ _ _ GD pid p P) as [[PG _] _ _ _ _].
  set (p2 := set_pst p1 (PZom s)) in *. set (h2 := put_proc h1 pid p2) in *.
  assert (G2 : Good L (Some pid) None (note (after S o1) (ODied pid s)) (lnote l (ODied pid s)) h2).
  { eapply good_zombie; eauto. rewrite E1, E4. exact A5. }
  assert (P2 : get pid (h_procs h2) = Some p2) by (unfold h2; rewrite get_put_proc, Z.eqb_refl; reflexivity).
  destruct (has_reaper h2 p2) as [reaped|] eqn:HR; [|discriminate E]. cbn [obind] in E.
  set (cs := children h2 pid) in *. assert (SO2 := g_sorted _ _ _ _ _ _ G2).
  destruct (orphans pid (h2, []) cs) as [[h3 o2]|] eqn:OR; [|discriminate E]. cbn [obind] in E.
  assert (NI : pid <> INIT) by (unfold INIT; lia).
  assert (CHP : forall c p, In c cs -> get c (h_procs h2) = Some p -> p_par p = pid).
  { intros c q IN Q. apply children_in in IN as (q' & Q' & X); [congruence|exact SO2]. }
  destruct (orphans_other L (note (after S o1) (ODied pid s)) (lnote l (ODied pid s)) pid cs h2 [] h3 o2 G2 Logic.I quiet_nil NI CHP (children_nodup _ _ SO2) OR) as (B1 & B2).
  assert (PN : p_par p2 <> pid). { cbn. destruct (g_par _ _ _ _ _ _ A2 pid p1 P1) as [->|(X & _)]; [auto|lia]. }
  assert (NC : ~ In pid cs). { intros IN. assert (X := CHP pid p2 IN P2). contradiction. }
  specialize (B1 pid NC). rewrite P2 in B1. destruct (get pid (h_procs h3)) as [q3|] eqn:Q3; [|contradiction]. destruct B1 as (K1 & _ & _ & K4 & _ & K6). cbn [p2 p_st set_pst] in K6.
  destruct (p_st q3) as [|s3] eqn:QS; [contradiction|]. subst s3. cbn [p2 p_par p_exs set_pst] in K1, K4. rewrite E1 in K1. rewrite E4 in K4.
  unfold free_zombies in E. set (fz := fun c => match get c (h_procs h3) with Some p => is_zombie p | None => false end) in *. injection E as <- <-.
  assert (NF : existsb (Z.eqb pid) (filter fz cs) = false).
  { destruct (existsb (Z.eqb pid) (filter fz cs)) eqn:X; [|reflexivity]. exfalso. apply existsb_exists in X as (y & IN & Y). apply Z.eqb_eq in Y. subst y. apply filter_In in IN as [IN _]. contradiction. }
  (* the parent *)
  assert (HRV : reaped = true <-> exists rp, run_of h (p_par p) = Some rp /\ forall es, p_exs p = Some es -> sa_h (act_of rp es) <> HIgn).
  { unfold has_reaper in HR. cbn [p2 p_par p_exs set_pst] in HR, PN. rewrite E1 in HR, PN. rewrite E4 in HR. destruct (Z.eqb_spec (p_par p) INIT) as [EI|].
    - injection HR as <-. split; [discriminate|]. intros (rp & X & _). rewrite EI in X. apply run_of_get in X as (y & Y & _). rewrite (good_no_init _ _ _ _ _ _ GD) in Y. discriminate Y.
    - destruct (g_par _ _ _ _ _ _ GD pid p P) as [X|(_ & [(rp & RP)|X])]; [contradiction| |discriminate X].
      destruct (kin_run (set_cur h None) h1 (p_par p) rp A3 RP) as (rp' & RP' & (KA & _)). pose proof RP' as RQ. apply run_of_get in RQ as (pp & PP & RQ).
      unfold h2 in HR. rewrite get_put_proc in HR. destruct (Z.eqb_spec (p_par p) pid); [contradiction|]. rewrite PP in HR. rewrite RQ in HR.
      destruct (p_exs p) as [es|].
      + injection HR as <-. assert (AE : act_of rp' es = act_of rp es) by (unfold act_of; now rewrite KA). rewrite AE. unfold is_ignore. split.
        * intros X. exists rp. split; [exact RP|]. intros es' [= <-]. destruct (sa_h (act_of rp es)); [discriminate X|discriminate|discriminate].
        * intros (rp0 & X & Y). assert (rp0 = rp) by congruence. subst rp0. specialize (Y es eq_refl). destruct (sa_h (act_of rp es)); [contradiction|reflexivity|reflexivity].
      + injection HR as <-. split; [|auto]. intros _. exists rp. split; [exact RP|]. discriminate. }
  split; [|split; [|split]].
  - intros z q Q EQ. destruct (g_par _ _ _ _ _ _ GF z q Q) as [X|(_ & [(rr & RR')|X])]; [congruence| |discriminate X]. rewrite EQ in RR'. congruence.
  - intros X. apply HRV in X. subst reaped. exists q3. rewrite app_nil_r. rewrite fold_del_get, NF. auto.
  - intros X. destruct reaped; [exfalso; apply X, HRV; reflexivity|]. split.
    + rewrite fold_del_get. rewrite existsb_app, NF. cbn. now rewrite Z.eqb_refl.
    + apply in_or_app. right. right. apply in_or_app. right. apply in_map. apply in_or_app. right. left. reflexivity.
  - intros rp es RP EX. assert (O1 : In (OQueue (DPr (p_par p)) (exit_info es pid s)) o1 <-> ~ discards rp es /\ shas (n_pend rp) es = false).
    { unfold notify_parent in NP. change (h_procs (set_cur h None)) with (h_procs h) in NP. rewrite P in NP. cbn [obind] in NP. rewrite EX in NP. destruct (Z.eqb_spec (p_par p) INIT) as [EI|].
      { exfalso. rewrite EI in RP. apply run_of_get in RP as (y & Y & _). rewrite (good_no_init _ _ _ _ _ _ GD) in Y. discriminate Y. }
      pose proof RP as RQ. apply run_of_get in RQ as (pp & PP & RQ). rewrite PP, RQ in NP. destruct (signal_run (set_cur h None) (Some pid) (p_par p) None (exit_info es pid s)) as [[hh oo]|] eqn:SR; [|discriminate NP].
      cbn [obind] in NP. injection NP as _ <-. destruct (signal_run_law _ _ _ _ _ _ _ SR) as [_ LW]. destruct (LW rp RP) as [L1 L2].
      assert (SI : si_sig (exit_info es pid s) = es) by (destruct s; reflexivity). rewrite SI in L1, L2. split.
      - intros IN. split.
        + intros D. rewrite (L1 (or_introl D)) in IN. destruct IN.
        + destruct (shas (n_pend rp) es) eqn:X; [|reflexivity]. rewrite (L1 (or_intror eq_refl)) in IN. destruct IN.
      - intros [A B]. rewrite (L2 A B). left. reflexivity. }
    rewrite <- O1. split; [|intros IN; apply in_or_app; auto]. intros IN. apply in_app_or in IN as [IN|IN]; [exact IN|]. exfalso. destruct IN as [X|IN]; [discriminate X|].
    apply in_app_or in IN as [IN|IN].
    + destruct (B2 _ IN) as [[]|(c0 & s0 & X)]. injection X as _ X. destruct s; discriminate X.
    + apply in_map_iff in IN as (z & X & _). discriminate X.
Qed.

Lemma exit_law xs h o pid tid code io h' o' p : steps host_new xs = Some (h, o) -> h_cur h = Some (pid, tid, MApp) -> get pid (h_procs h) = Some p ->
  step h (PCall (ExitGroup code) io) = Some (h', o') ->
  h_cur h' = None /\ run_of h' pid = None /\ In (ODied pid (Exited (Z.land code 255))) o' /\
  (forall z q, get z (h_procs h') = Some q -> p_par q <> pid) /\
  ((exists rp, run_of h (p_par p) = Some rp /\ forall es, p_exs p = Some es -> sa_h (act_of rp es) <> HIgn) ->
     exists q, get pid (h_procs h') = Some q /\ p_st q = PZom (Exited (Z.land code 255)) /\ p_par q = p_par p) /\
  (~ (exists rp, run_of h (p_par p) = Some rp /\ forall es, p_exs p = Some es -> sa_h (act_of rp es) <> HIgn) -> get pid (h_procs h') = None) /\
  (forall rp es, run_of h (p_par p) = Some rp -> p_exs p = Some es ->
     (In (OQueue (DPr (p_par p)) (mkInfo es (CldExited pid (Z.land code 255)))) o' <-> ~ discards rp es /\ shas (n_pend rp) es = false)).
Proof.
  intros XS HC P E. destruct (at_app _ _ _ _ _ XS HC) as [GD (t & T & ST)]. apply thr_of_get in T as (r & R & T). pose proof R as R0. apply run_of_get in R0 as (p0 & P0 & R0). assert (p0 = p) by congruence. subst p0.
  unfold step in E. rewrite HC in E. unfold do_call in E. cbn [handle obind] in E. rewrite R in E. cbn [obind] in E. rewrite T in E. cbn [obind] in E.
  destruct (end_process h pid (Exited (Z.land code 255))) as [[h2 o2]|] eqn:EE; [|discriminate E]. cbn [obind] in E. injection E as <- <-.
  assert (CU : forall q x, Some (pid, tid) = Some (q, x) -> q = pid) by (intros q x [= -> _]; reflexivity).
  destruct (end_good _ _ _ _ _ _ _ _ _ _ GD R CU EE) as (_ & _ & _ & A & _ & B & C). destruct (end_law _ _ _ _ _ _ _ _ _ _ _ GD P R0 CU EE) as (D1 & D2 & D3 & D4).
  split; [exact A|]. split; [exact C|]. split; [right; exact B|]. split; [exact D1|]. split.
  { intros X. destruct (D2 X) as (q & Q & QS & QP & _). eauto. }
  split; [intros X; apply (D3 X)|]. intros rp es RP EX. rewrite <- (D4 rp es RP EX). cbn [exit_info In app]. split; [intros [X|X]; [discriminate X|exact X]|auto].
Qed.

(** * Ancestry *)
Lemma good_at xs h o : steps host_new xs = Some (h, o) -> exists cu, Good noL None cu (after nothing o) (lafter nobody o) h.
Proof. intros XS. assert (TP := top_of _ _ _ XS). unfold Top in TP. destruct (h_cur h) as [[[p t] m]|]; [exists (Some (p, t)); apply TP|exists None; exact TP]. Qed.

Lemma parents xs h o z par st : steps host_new xs = Some (h, o) -> snd (lafter nobody o) z = Some (par, st) ->
  (par = INIT /\ st = None) \/ (par < z /\ exists q, snd (lafter nobody o) par = Some (q, None)).
Proof.
  intros XS E. destruct (good_at _ _ _ XS) as (cu & GD). rewrite (g_life _ _ _ _ _ _ GD) in E. destruct (get z (h_procs h)) as [p|] eqn:P; [|discriminate E]. cbn [is_ex] in E. injection E as <- <-.
  destruct (Z.eq_dec (p_par p) INIT) as [EI|NI].
  - left. split; [exact EI|]. unfold st_of. destruct (p_st p) eqn:PS; [reflexivity|]. exfalso. apply (g_zpar _ _ _ _ _ _ GD eq_refl z p P); [unfold is_zombie; now rewrite PS|exact EI].
  - right. destruct (g_par _ _ _ _ _ _ GD z p P) as [X|(LT & [(r & R)|X])]; [contradiction| |discriminate X]. split; [exact LT|].
    rewrite (g_life _ _ _ _ _ _ GD). apply run_of_get in R as (q & Q & R). rewrite Q. unfold st_of. rewrite R. eexists. reflexivity.
Qed.

Lemma getppid_law xs h o pid tid io h' o' : steps host_new xs = Some (h, o) -> h_cur h = Some (pid, tid, MApp) -> step h (PCall Getppid io) = Some (h', o') ->
  exists par, snd (lafter nobody o) pid = Some (par, None) /\ completes h' pid tid Getppid par /\ h_procs h' = h_procs h.
Proof.
  intros XS HC E. destruct (at_app _ _ _ _ _ XS HC) as [GD (t & T & ST)]. apply thr_of_get in T as (r & R & T). apply run_of_get in R as (p & P & R).
  exists (p_par p). split; [rewrite (g_life _ _ _ _ _ _ GD), P; unfold st_of; rewrite R; reflexivity|].
  assert (HD : handle h pid tid Getppid io = Some (h, [], RDone (p_par p) false)) by (cbn [handle]; rewrite P; reflexivity).
  destruct (call_law _ _ _ _ _ _ _ _ _ _ _ _ _ XS HC HD E) as [-> _]. unfold completes. auto.
Qed.

(** * Traces *)
Lemma traces_obey xs h o : steps host_new xs = Some (h, o) -> obeys nothing o.
Proof. intros XS. apply (runs_good noL _ _ _ XS (fits_noL o)). Qed.
Lemma traces_live xs h o : steps host_new xs = Some (h, o) -> lobeys nobody o.
Proof. intros XS. apply (runs_good noL _ _ _ XS (fits_noL o)). Qed.

Lemma pending_exact xs h o pid r : steps host_new xs = Some (h, o) -> run_of h pid = Some r ->
  (forall s, shas (n_pend r) s = true <-> exists i, after nothing o (DPr pid) s = Some i) /\
  (forall tid t s, get tid (n_thr r) = Some t -> (shas (t_pend t) s = true <-> exists i, after nothing o (DTh pid tid) s = Some i)).
Proof.
  intros XS R. destruct (good_at _ _ _ XS) as (cu & GD). destruct (g_pend _ _ _ _ _ _ GD pid r R) as [A B]. split.
  - intros s. rewrite A. unfold pend_at. destruct (shas (n_pend r) s); split; try discriminate; eauto. intros (i & X); discriminate X.
  - intros tid t s T. rewrite (B tid t T s). unfold pend_at. destruct (shas (t_pend t) s); split; try discriminate; eauto. intros (i & X); discriminate X.
Qed.
