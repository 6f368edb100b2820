(** Every step of the model of futexes is a step of the queue. *)
From Verif Require Import Base FMap TimeModel FutexModel FutexSpec FutexProofs.
From Coq Require Import Lia Sorted.

(** * Blocking *)

Lemma create_inv s L pa : Inv s L -> get pa (tab s) = None ->
  Inv (mkSt (now s) (sq s) (nobj s + 1) (mm s) (thrs s) (put pa (nobj s) (tab s))
         (put (nobj s) [] (objs s))) L.
Proof.
  intros I T. set (s' := mkSt _ _ _ _ _ _ _).
  assert (LS : forall o, lst o s' = if o =? nobj s then [] else lst o s).
  { intros o. unfold lst, s'. cbn [objs]. rewrite get_put. change (eqb o (nobj s)) with (o =? nobj s).
    now destruct (o =? nobj s). }
  constructor; try (first [exact (i_sort _ _ I)|exact (i_lt _ _ I)|exact (i_wait _ _ I)]).
  - intros q e H. destruct (i_ent _ _ I _ _ H) as (t & w & pa' & G & W & M & P & T' & Q).
    exists t, w, pa'. rewrite LS. pose proof (i_tab _ _ I _ _ T') as B.
    destruct (Z.eqb_spec (w_obj w) (nobj s)); [lia|]. repeat split; try assumption; try apply M.
    unfold s'. cbn [tab]. rewrite get_put. change (eqb pa' pa) with (pa' =? pa).
    destruct (Z.eqb_spec pa' pa) as [->|]; [congruence|assumption].
  - intros o q tid b. rewrite LS. destruct (o =? nobj s); [discriminate|]. apply (i_lst _ _ I).
  - intros o. rewrite LS. destruct (o =? nobj s); [constructor|apply (i_nd _ _ I)].
  - intros pa' o. unfold s'. cbn [tab nobj]. rewrite get_put. change (eqb pa' pa) with (pa' =? pa).
    destruct (pa' =? pa); intros X; [injection X as <-; lia|]. apply (i_tab _ _ I) in X. lia.
  - intros pa1 pa2 o. unfold s'. cbn [tab]. rewrite !get_put. change (eqb pa1 pa) with (pa1 =? pa).
    change (eqb pa2 pa) with (pa2 =? pa).
    destruct (Z.eqb_spec pa1 pa) as [->|], (Z.eqb_spec pa2 pa) as [->|]; intros X Y.
    + reflexivity.
    + injection X as <-. apply (i_tab _ _ I) in Y. lia.
    + injection Y as <-. apply (i_tab _ _ I) in X. lia.
    + apply (i_inj _ _ I _ _ _ X Y).
Qed.

Lemma sorted_snoc (l : list Z) x : StronglySorted Z.lt l -> (forall y, In y l -> y < x) ->
  StronglySorted Z.lt (l ++ [x]).
Proof.
  induction l as [|a l IH]; intros H B; [constructor; constructor|].
  inversion H as [|? ? S1 F1]; subst. cbn [app]. constructor; [apply IH; [assumption|cbn in B; auto]|].
  rewrite Forall_forall in *. intros y Y. apply in_app_iff in Y. destruct Y as [Y|[<-|[]]]; [auto|].
  apply B. now left.
Qed.

Lemma add_inv s L tid t va pa o dl ptr :
  Inv s L -> get tid (thrs s) = Some t -> t_wait t = None ->
  physical_address (t_pid t) va = Some pa -> get pa (tab s) = Some o ->
  ptr = (match dl with Some _ => true | None => false end) ->
  let w := mkWt va ptr o (sq s) dl false in
  let s2 := set_thrs (put tid (set_wait (Some w) t) (thrs s)) (set_sq (sq s + 1) s) in
  Inv (set_objs (put o (put (sq s) (tid, false) (lst o s)) (objs s2)) s2)
      (L ++ [(sq s, mkEnt tid (t_pid t) va dl false false)]).
Proof.
  intros I G NW P T EP w s2. set (s' := set_objs _ s2).
  assert (LS : forall x, lst x s' = if x =? o then put (sq s) (tid, false) (lst o s) else lst x s).
  { intros x. unfold s'. now rewrite lst_put. }
  assert (GT : forall x, get x (thrs s') = if x =? tid then Some (set_wait (Some w) t) else get x (thrs s)).
  { intros x. unfold s', s2. cbn [thrs set_objs set_thrs]. now rewrite get_put. }
  assert (NT : forall q e, In (q, e) L -> e_tid e <> tid).
  { intros q e H E. destruct (i_ent _ _ I _ _ H) as (t' & w' & pa' & G' & W' & _). congruence. }
  constructor; try (first [exact (i_tab _ _ I)|exact (i_inj _ _ I)]).
  - rewrite map_app. cbn [map fst]. apply sorted_snoc; [apply (i_sort _ _ I)|].
    intros y Y. apply in_map_iff in Y. destruct Y as ([q e] & <- & Y). apply (i_lt _ _ I _ _ Y).
  - intros q e H. apply in_app_iff in H. change (sq s') with (sq s + 1). destruct H as [H|[H|[]]].
    + apply (i_lt _ _ I) in H. lia.
    + injection H as <- _. lia.
  - intros q e H. apply in_app_iff in H. destruct H as [H|[H|[]]].
    + destruct (i_ent _ _ I _ _ H) as (t' & w' & pa' & G' & W' & M & P' & T' & Q).
      exists t', w', pa'. rewrite GT, LS. destruct (Z.eqb_spec (e_tid e) tid) as [E|]; [now apply NT in H|].
      repeat split; try assumption; try apply M.
      destruct (Z.eqb_spec (w_obj w') o) as [EO|]; [|assumption]. rewrite get_put.
      change (eqb q (sq s)) with (q =? sq s). pose proof (i_lt _ _ I _ _ H).
      destruct (Z.eqb_spec q (sq s)); [lia|now rewrite <- EO].
    + injection H as <- <-. exists (set_wait (Some w) t), w, pa. cbn [e_tid e_pid e_va e_woken].
      rewrite GT, LS, Z.eqb_refl. cbn [w_obj w]. rewrite Z.eqb_refl, get_put_same.
      repeat split; try assumption. 
  - intros x t0 w0. rewrite GT. destruct (Z.eqb_spec x tid) as [->|N].
    + intros X Y. injection X as <-. injection Y as <-. eexists. split; [apply in_app_iff; right; left; reflexivity|reflexivity].
    + intros X Y. destruct (i_wait _ _ I _ _ _ X Y) as (e & H & E). exists e. split; [apply in_app_iff; auto|assumption].
  - intros x q k b. rewrite LS, GT. destruct (Z.eqb_spec x o) as [->|N].
    + rewrite get_put. change (eqb q (sq s)) with (q =? sq s). destruct (Z.eqb_spec q (sq s)) as [->|].
      * intros X. injection X as <- <-. rewrite Z.eqb_refl. eexists _, w. auto.
      * intros X. destruct (i_lst _ _ I _ _ _ _ X) as (t0 & w0 & G0 & W0 & S0 & O0).
        destruct (Z.eqb_spec k tid) as [->|]; [congruence|eauto 6].
    + intros X. destruct (i_lst _ _ I _ _ _ _ X) as (t0 & w0 & G0 & W0 & S0 & O0).
      destruct (Z.eqb_spec k tid) as [->|]; [congruence|eauto 6].
  - intros x. rewrite LS. destruct (x =? o); [apply nodup_put|]; apply (i_nd _ _ I).
Qed.

Lemma tabdel_inv s L pa o : Inv s L -> get pa (tab s) = Some o -> lst o s = [] ->
  Inv (set_tab (del pa (tab s)) s) L.
Proof.
  intros I T N. constructor; try (first [exact (i_sort _ _ I)|exact (i_lt _ _ I)|exact (i_wait _ _ I)
    |exact (i_lst _ _ I)|exact (i_nd _ _ I)]).
  - intros q e H. destruct (i_ent _ _ I _ _ H) as (t & w & pa' & G & W & M & P & T' & Q).
    exists t, w, pa'. repeat split; try assumption; try apply M. cbn [tab set_tab]. rewrite get_del.
    change (eqb pa' pa) with (pa' =? pa). destruct (Z.eqb_spec pa' pa) as [->|]; [|assumption].
    assert (w_obj w = o) by congruence. rewrite H0, N in Q. discriminate.
  - intros pa' x. cbn [tab set_tab nobj]. rewrite get_del. change (eqb pa' pa) with (pa' =? pa).
    destruct (pa' =? pa); [discriminate|]. apply (i_tab _ _ I).
  - intros p1 p2 x. cbn [tab set_tab]. rewrite !get_del. change (eqb p1 pa) with (p1 =? pa).
    change (eqb p2 pa) with (p2 =? pa). destruct (p1 =? pa); [discriminate|]. destruct (p2 =? pa); [discriminate|].
    apply (i_inj _ _ I).
Qed.

(** * Steps *)

Definition sim (x : option (st * out)) (y : option (sp * out)) : Prop :=
  match x, y with
  | Some (s, a), Some (p, b) => a = b /\ exists L, R s p L
  | None, None => True
  | _, _ => False
  end.

Lemma sim_same s p L a : R s p L -> sim (Some (s, a)) (Some (p, a)).
Proof. intros H. split; [reflexivity|eauto]. Qed.

Lemma wait_first_ok s p L tid t va val ts abs : R s p L -> get tid (thrs s) = Some t -> t_wait t = None ->
  sim (wait_first tid t va val ts abs s)
      (sp_wait p tid (mkSt' (t_pid t) (t_sig t) (t_ctid t)) va val ts abs).
Proof.
  intros H G NW. unfold wait_first, sp_wait. cbn [h_pid h_sig].
  assert (BODY : forall (tm : option Z) ptr, ptr = (match tm with Some _ => true | None => false end) ->
    ptr = (match ts with TNull => false | _ => true end) ->
    sim match mm s (t_pid t) va with
    | None => Some (s, err EFAULT)
    | Some v =>
      if negb (v =? val) then Some (s, err EAGAIN)
      else
        do pa <- physical_address (t_pid t) va;
        let '(o, s1) :=
          match get pa (tab s) with
          | Some o => (o, s)
          | None => (nobj s, mkSt (now s) (sq s) (nobj s + 1) (mm s) (thrs s)
                               (put pa (nobj s) (tab s)) (put (nobj s) [] (objs s)))
          end in
        do dl <- deadline abs tm (now s);
        if t_sig t then Some (s1, Ret (- EINTR) true)
        else
          let w := mkWt va (match ts with TNull => false | _ => true end) o (sq s1) dl false in
          let s2 := set_sq (sq s1 + 1) s1 in
          let s3 := set_thrs (put tid (set_wait (Some w) t) (thrs s2)) s2 in
          Some (set_objs (put o (put (w_seq w) (tid, false) (lst o s3)) (objs s3)) s3, Block)
    end
    match p_mem p (t_pid t) va with
    | None => Some (p, err EFAULT)
    | Some v =>
      let dl := match tm with Some d => Some (if abs then d else p_now p + d) | None => None end in
      if negb (v =? val) then Some (p, err EAGAIN)
      else if negb (nameable (t_pid t) va) then None
      else if match dl with Some d => EMUTIME_MAX <? d | None => false end then None
      else if t_sig t then Some (p, Ret (- EINTR) true)
      else Some (with_q (p_q p ++ [mkEnt tid (t_pid t) va
                          (match dl with Some d => Some (Z.max d (p_now p)) | None => None end)
                          false false]) p, Block)
    end).
  { intros tm ptr EP EP2. rewrite (r_mem _ _ _ H). destruct (p_mem p (t_pid t) va) as [v|]; [|eapply sim_same; eassumption].
    destruct (negb (v =? val)); [eapply sim_same; eassumption|].
    pose proof (phys_eq (t_pid t) va) as PE. destruct (nameable (t_pid t) va); rewrite PE; cbn [negb obind]; [|exact Logic.I].
    set (pa := t_pid t * B48 + va) in *.
    assert (C : exists o s1, match get pa (tab s) with
          | Some o => (o, s)
          | None => (nobj s, mkSt (now s) (sq s) (nobj s + 1) (mm s) (thrs s)
                               (put pa (nobj s) (tab s)) (put (nobj s) [] (objs s)))
          end = (o, s1) /\ R s1 p L /\ get pa (tab s1) = Some o /\ thrs s1 = thrs s).
    { destruct (get pa (tab s)) as [o|] eqn:T; [eauto 8|].
      eexists _, _. split; [reflexivity|]. split; [|split; [cbn [tab]; apply get_put_same|reflexivity]].
      destruct H. constructor; try assumption. apply create_inv; assumption. }
    destruct C as (o & s1 & -> & H1 & T1 & E1). cbv zeta.
    assert (DL : deadline abs tm (now s) =
      if match tm with Some d => EMUTIME_MAX <? (if abs then d else p_now p + d) | None => false end
      then None else Some (match tm with Some d => Some (Z.max (if abs then d else p_now p + d) (p_now p)) | None => None end)).
    { unfold deadline. destruct tm as [d|]; [|reflexivity]. rewrite emu_add_eq, (r_now _ _ _ H).
      destruct abs; [rewrite Z.add_0_l|]; destruct (_ <? _); reflexivity. }
    rewrite DL. destruct tm as [d|].
    - destruct (EMUTIME_MAX <? _); [exact Logic.I|]. cbn [obind].
      destruct (t_sig t) eqn:SG; [eapply sim_same; eassumption|]. split; [reflexivity|].
      exists (L ++ [(sq s1, mkEnt tid (t_pid t) va (Some (Z.max (if abs then d else p_now p + d) (p_now p))) false false)]).
      pose proof (add_inv s1 L tid t va pa o (Some (Z.max (if abs then d else p_now p + d) (p_now p))) true
        (r_inv _ _ _ H1) ltac:(now rewrite E1) NW PE T1 eq_refl) as A. cbv zeta in A.
      rewrite <- EP2, EP. cbn [w_seq].
      constructor; try (first [exact (r_now _ _ _ H1)|exact (r_mem _ _ _ H1)|exact (r_nd2 _ _ _ H1)]).
      + intros k. cbn [thrs set_objs set_thrs set_sq p_thr with_q]. rewrite get_put, <- (r_thr _ _ _ H1).
        change (eqb k tid) with (k =? tid). destruct (Z.eqb_spec k tid) as [->|]; [|reflexivity]. rewrite E1, G. reflexivity.
      + cbn [thrs set_objs set_thrs set_sq]. apply nodup_put, (r_nd1 _ _ _ H1).
      + cbn [p_q with_q]. rewrite map_app, (r_q _ _ _ H1). reflexivity.
      + exact A.
    - cbn [obind].
      destruct (t_sig t) eqn:SG; [eapply sim_same; eassumption|]. split; [reflexivity|].
      exists (L ++ [(sq s1, mkEnt tid (t_pid t) va None false false)]).
      pose proof (add_inv s1 L tid t va pa o None false
        (r_inv _ _ _ H1) ltac:(now rewrite E1) NW PE T1 eq_refl) as A. cbv zeta in A.
      rewrite <- EP2, EP. cbn [w_seq].
      constructor; try (first [exact (r_now _ _ _ H1)|exact (r_mem _ _ _ H1)|exact (r_nd2 _ _ _ H1)]).
      + intros k. cbn [thrs set_objs set_thrs set_sq p_thr with_q]. rewrite get_put, <- (r_thr _ _ _ H1).
        change (eqb k tid) with (k =? tid). destruct (Z.eqb_spec k tid) as [->|]; [|reflexivity]. rewrite E1, G. reflexivity.
      + cbn [thrs set_objs set_thrs set_sq]. apply nodup_put, (r_nd1 _ _ _ H1).
      + cbn [p_q with_q]. rewrite map_app, (r_q _ _ _ H1). reflexivity.
      + exact A. }
  destruct ts as [|[x|]]; cbn [read_timeout].
  - apply (BODY None false eq_refl eq_refl).
  - rewrite length_of_eq. destruct (sim_try_from_timespec x) as [d|]; [|eapply sim_same; eassumption].
    apply (BODY (Some d) true eq_refl eq_refl).
  - eapply sim_same; eassumption.
Qed.

Lemma wake_ok s p L pid va n : R s p L ->
  sim (do (s1, k) <- wake_helper pid va n s; Some (s1, Ret k false)) (sp_wake p pid va n).
Proof.
  intros H. unfold sp_wake. pose proof (phys_eq pid va) as PE. destruct (nameable pid va).
  - destruct (wake_helper_ok _ _ _ _ _ n (r_inv _ _ _ H) PE) as (s' & L' & E & S0 & I' & M).
    rewrite E. cbn [obind]. rewrite (r_q _ _ _ H) in *. destruct (wake_first pid va n (map snd L)) as [q k].
    cbn [fst snd] in *. split; [reflexivity|]. exists L'. rewrite <- M. eapply same_R; eassumption.
  - unfold wake_helper. rewrite PE. exact Logic.I.
Qed.

Lemma leave_map tid L : map snd (drop tid L) = leave tid (map snd L).
Proof. unfold drop, leave. apply (filter_snd (fun e => negb (is_tid tid e))). Qed.

Lemma resume_ok s p L tid rd : R s p L -> sim (resume tid rd s) (sp_step p (Resume tid rd)).
Proof.
  intros H. unfold resume. cbn [sp_step].
  destruct (get tid (thrs s)) as [t|] eqn:G.
  2: { rewrite (R_none _ _ _ _ H G). eapply sim_same; eassumption. }
  rewrite (R_get _ _ _ _ _ H G). destruct (t_wait t) as [w|] eqn:W.
  2: { assert (F : find (is_tid tid) (p_q p) = None).
       { pose proof (R_waits _ _ _ _ _ H G) as X. rewrite W in X.
         destruct (find (is_tid tid) (p_q p)) as [e|] eqn:F; [|reflexivity].
         apply find_some in F. assert (existsb (is_tid tid) (p_q p) = true) by (apply existsb_exists; eauto).
         congruence. }
       rewrite F. eapply sim_same; eassumption. }
  destruct (R_find _ _ _ _ _ _ H G W) as (e & F & IN & E & M). rewrite F.
  destruct M as (M1 & M2 & M3 & M4 & M5 & M6). rewrite M5.
  destruct (w_sched w); [|eapply sim_same; eassumption].
  (* the state after the listener is removed and the thread continues *)
  assert (RL : forall s1, thrs s1 = thrs s -> now s1 = now s -> mm s1 = mm s ->
    Inv (set_thrs (put tid (set_wait None t) (thrs s1)) s1) (drop tid L) ->
    R (set_thrs (put tid (set_wait None t) (thrs s1)) s1) (with_q (leave tid (p_q p)) p) (drop tid L)).
  { intros s1 E1 E2 E3 I1. constructor.
    - cbn [now set_thrs with_q p_now]. rewrite E2. apply (r_now _ _ _ H).
    - intros x a. cbn [mm set_thrs with_q p_mem]. rewrite E3. apply (r_mem _ _ _ H).
    - intros k. cbn [thrs set_thrs with_q p_thr]. rewrite get_put, E1, <- (r_thr _ _ _ H).
      change (eqb k tid) with (k =? tid). destruct (Z.eqb_spec k tid) as [->|]; [|reflexivity]. now rewrite G.
    - cbn [thrs set_thrs]. rewrite E1. apply nodup_put, (r_nd1 _ _ _ H).
    - apply (r_nd2 _ _ _ H).
    - cbn [p_q with_q]. now rewrite leave_map, (r_q _ _ _ H).
    - exact I1. }
  assert (I0 : Inv (set_thrs (put tid (set_wait None t) (thrs (cancel w s))) (cancel w s)) (drop tid L)).
  { apply (leave_inv s L tid t w); [apply (r_inv _ _ _ H)|assumption|assumption| |].
    - intros k N. cbn [thrs cancel set_objs]. apply get_put_other. assumption.
    - intros t'. cbn [thrs cancel set_objs]. rewrite get_put_same. intros X. now injection X as <-. }
  assert (R0 := RL (cancel w s) eq_refl eq_refl eq_refl I0).
  (* the result, once the timeout could be read *)
  assert (BODY : forall tm : option Z,
    (match tm with Some _ => true | None => false end) = (match w_dl w with Some _ => true | None => false end) ->
    sim (do (s1, r) <-
       match mm (cancel w s) (t_pid t) (w_va w) with
       | None => Some (cancel w s, err EFAULT)
       | Some _ =>
         do pa <- physical_address (t_pid t) (w_va w);
         do o <- get pa (tab (cancel w s));
         let r := if (match tm with Some _ => true | None => false end) && expired w (cancel w s)
                  then err ETIMEDOUT else if t_sig t then err EINTR else Ret 0 false in
         let s1 := if Z.of_nat (length (lst o (cancel w s))) =? 0
                   then set_tab (del pa (tab (cancel w s))) (cancel w s) else cancel w s in
         Some (s1, r)
       end; Some (set_thrs (put tid (set_wait None t) (thrs s1)) s1, r))
      (Some (with_q (leave tid (p_q p)) p,
         match p_mem p (e_pid e) (e_va e) with
         | None => err EFAULT
         | Some _ => if match e_dl e with Some d => d <=? p_now p | None => false end
                     then err ETIMEDOUT else if t_sig t then err EINTR else Ret 0 false
         end))).
  { intros tm ETM. change (mm (cancel w s)) with (mm s). rewrite (r_mem _ _ _ H), M2, M3.
    destruct (p_mem p (t_pid t) (w_va w)) as [v|]; [|cbn [obind]; split; [reflexivity|eauto]].
    destruct (i_ent _ _ (r_inv _ _ _ H) _ _ IN) as (t' & w' & pa & G' & W' & _ & P & T & Q).
    rewrite E in G'. assert (t' = t) by congruence. subst t'. assert (w' = w) by congruence. subst w'.
    rewrite M2, M3 in P. rewrite P. cbn [obind]. change (tab (cancel w s)) with (tab s). rewrite T. cbn [obind].
    cbv zeta.
    assert (EX : match tm with Some _ => true | None => false end && expired w (cancel w s) =
                 match e_dl e with Some d => d <=? p_now p | None => false end).
    { rewrite ETM, M4. unfold expired. change (now (cancel w s)) with (now s). rewrite (r_now _ _ _ H).
      destruct (w_dl w); reflexivity. }
    rewrite EX. split; [reflexivity|]. exists (drop tid L). apply RL.
    - now destruct (_ =? 0).
    - now destruct (_ =? 0).
    - now destruct (_ =? 0).
    - destruct (Z.eqb_spec (Z.of_nat (length (lst (w_obj w) (cancel w s)))) 0) as [Z0|]; [|exact I0].
      assert (N0 : lst (w_obj w) (cancel w s) = []).
      { destruct (lst (w_obj w) (cancel w s)); [reflexivity|cbn [length] in Z0; lia]. }
      pose proof (tabdel_inv _ _ pa (w_obj w) I0 T N0) as I1. exact I1. }
  unfold wait_again, result. cbn [h_sig]. rewrite M6, M4.
  destruct (w_dl w) as [d|] eqn:DL; cbn [read_timeout].
  - destruct rd as [x|]; [|cbn [obind]; split; [reflexivity|eauto]].
    rewrite length_of_eq. destruct (sim_try_from_timespec x) as [y|]; [|cbn [obind]; split; [reflexivity|eauto]].
    specialize (BODY (Some y) eq_refl). rewrite M4 in BODY. exact BODY.
  - specialize (BODY None eq_refl). rewrite M4 in BODY. exact BODY.
Qed.

Lemma get_filter {V} (f : Z * V -> bool) (m : fmap Z V) k : NoDup (keys m) ->
  get k (filter f m) = match get k m with Some v => if f (k, v) then Some v else None | None => None end.
Proof.
  induction m as [|[x v] m IH]; intros N; [reflexivity|]. cbn [keys map fst] in N. inversion N as [|? ? N1 N2]; subst.
  cbn [filter get]. change (eqb k x) with (k =? x). destruct (Z.eqb_spec k x) as [->|D].
  - destruct (f (x, v)) eqn:F; cbn [get]; [change (eqb x x) with (x =? x); now rewrite Z.eqb_refl|].
    rewrite IH by assumption. destruct (get x m) eqn:G; [|reflexivity]. destruct N1. now apply get_keys in G.
  - destruct (f (x, v)); cbn [get]; [change (eqb k x) with (k =? x); destruct (Z.eqb_spec k x); [contradiction|]|]; now apply IH.
Qed.

Lemma nodup_filter {V} (f : Z * V -> bool) (m : fmap Z V) : NoDup (keys m) -> NoDup (keys (filter f m)).
Proof.
  induction m as [|[x v] m IH]; intros N; [constructor|]. cbn [keys map fst] in N. inversion N as [|? ? N1 N2]; subst.
  cbn [filter]. destruct (f (x, v)); [|auto]. cbn [keys map fst]. constructor; [|auto].
  intros X. apply N1. unfold keys in *. apply in_map_iff in X. destruct X as (y & <- & Y). apply in_map. now apply filter_In in Y.
Qed.

Definition gone (l : fmap Z thr) (x : Z * ent) : bool := mem (e_tid (snd x)) l.

Lemma kill_fold l : forall s L, Inv s L -> NoDup (keys (thrs s)) -> NoDup (keys l) ->
  (forall k t, In (k, t) l -> get k (thrs s) = Some t) ->
  let s' := fold_right kill_one s l in
  Inv s' (filter (fun x => negb (gone l x)) L) /\ NoDup (keys (thrs s')) /\
  now s' = now s /\ mm s' = mm s /\
  (forall k, get k (thrs s') = if mem k l then None else get k (thrs s)).
Proof.
  induction l as [|[k t] l IH]; intros s L I N NL HG.
  - cbn [fold_right]. assert (E : filter (fun x => negb (gone [] x)) L = L).
    { clear. induction L as [|x L IHL]; [reflexivity|]. cbn [filter]. unfold gone at 1, mem. cbn [get negb]. now rewrite IHL. }
    rewrite E. auto 7.
  - cbn [keys map fst] in NL. inversion NL as [|? ? N1 N2]; subst.
    destruct (IH s L I N N2) as (I' & N' & E1 & E2 & G'); [intros; apply HG; now right|].
    cbv zeta in *. cbn [fold_right]. set (s1 := fold_right kill_one s l) in *.
    assert (NM : mem k l = false).
    { destruct (mem k l) eqn:X; [|reflexivity]. apply mem_iff in X. contradiction. }
    assert (Gk : get k (thrs s1) = Some t).
    { rewrite G', NM. apply HG. now left. }
    assert (MM : forall x, mem x ((k, t) :: l) = (x =? k) || mem x l).
    { intros x. unfold mem. cbn [get]. change (eqb x k) with (x =? k). now destruct (x =? k). }
    unfold kill_one. cbn [fst snd].
    assert (GD : forall s2 x, thrs s2 = thrs s1 -> get x (thrs (set_thrs (del k (thrs s2)) s2)) =
      if mem x ((k, t) :: l) then None else get x (thrs s)).
    { intros s2 x ->. cbn [thrs set_thrs]. rewrite get_del, MM, G'. change (eqb x k) with (x =? k).
      now destruct (x =? k). }
    destruct (t_wait t) as [w|] eqn:W.
    + pose proof (leave_inv s1 _ k t w (del k (thrs (cancel w s1))) I' Gk W) as I2.
      split; [|split; [|split; [|split]]].
      * assert (E : filter (fun x => negb (gone ((k, t) :: l) x)) L =
                    drop k (filter (fun x => negb (gone l x)) L)).
        { clear -MM. induction L as [|x L IHL]; [reflexivity|]. cbn [filter].
          assert (GE : gone ((k, t) :: l) x = (e_tid (snd x) =? k) || gone l x) by apply MM.
          rewrite GE. unfold drop in *. destruct (gone l x); cbn [orb negb filter].
          - rewrite orb_true_r. cbn. exact IHL.
          - rewrite orb_false_r. unfold is_tid at 1. destruct (e_tid (snd x) =? k); cbn; [exact IHL|]. f_equal. exact IHL. }
        rewrite E. apply I2.
        -- intros x D. cbn [thrs cancel set_objs]. now apply get_del_other.
        -- intros t'. cbn [thrs cancel set_objs]. rewrite get_del_same. discriminate.
      * cbn [thrs set_thrs]. apply nodup_del. exact N'.
      * exact E1.
      * exact E2.
      * intros x. apply GD. reflexivity.
    + split; [|split; [|split; [|split]]].
      * assert (E : filter (fun x => negb (gone ((k, t) :: l) x)) L = filter (fun x => negb (gone l x)) L).
        { apply filter_ext_in. intros [q e] IN. f_equal. unfold gone. cbn [snd]. rewrite MM.
          destruct (Z.eqb_spec (e_tid e) k) as [E|]; [|reflexivity]. 
          destruct (i_ent _ _ I _ _ IN) as (t0 & w0 & pa0 & G0 & W0 & _).
          rewrite E in G0. assert (t0 = t); [|congruence]. specialize (HG k t (or_introl eq_refl)). congruence. }
        rewrite E. apply thrs_inv; [exact I'| |].
        -- intros x t0 w0 X Y. exists t0. rewrite get_del_other; [auto|]. intros ->. congruence.
        -- intros x t0 w0 X Y. rewrite get_del in X. change (eqb x k) with (x =? k) in X.
           destruct (x =? k); [discriminate|eauto].
      * cbn [thrs set_thrs]. apply nodup_del. exact N'.
      * exact E1.
      * exact E2.
      * intros x. apply GD. reflexivity.
Qed.

Lemma kill_ok s p L pid : R s p L -> sim (step s (Kill pid)) (sp_step p (Kill pid)).
Proof.
  intros H. cbn [step sp_step]. split; [reflexivity|]. unfold kill.
  set (f := fun x : Z * thr => t_pid (snd x) =? pid).
  pose proof (r_nd1 _ _ _ H) as N.
  destruct (kill_fold (filter f (thrs s)) s L (r_inv _ _ _ H) N (nodup_filter _ _ N)) as (I' & N' & E1 & E2 & G').
  { intros k t X. apply filter_In in X. apply in_get; [assumption|tauto]. }
  cbv zeta in *. set (s' := fold_right kill_one s (filter f (thrs s))) in *.
  exists (filter (fun x => negb (gone (filter f (thrs s)) x)) L). constructor.
  - rewrite E1. apply (r_now _ _ _ H).
  - intros. rewrite E2. apply (r_mem _ _ _ H).
  - intros k. rewrite G'. cbn [p_thr]. rewrite get_filter by apply (r_nd2 _ _ _ H). rewrite <- (r_thr _ _ _ H).
    unfold mem. rewrite get_filter by assumption. destruct (get k (thrs s)) as [t|]; [|reflexivity].
    unfold f. cbn [snd option_map h_pid]. destruct (t_pid t =? pid); reflexivity.
  - exact N'.
  - cbn [p_thr]. apply nodup_filter, (r_nd2 _ _ _ H).
  - cbn [p_q]. rewrite (r_q _ _ _ H). rewrite <- (filter_snd (fun e => negb (e_pid e =? pid))). f_equal.
    apply filter_ext_in. intros [q e] IN. f_equal. unfold gone. cbn [snd].
    destruct (i_ent _ _ (r_inv _ _ _ H) _ _ IN) as (t0 & w0 & pa0 & G0 & W0 & M & _).
    unfold mem. rewrite get_filter by assumption. rewrite G0. unfold f. cbn [snd].
    destruct M as (_ & <- & _). now destruct (e_pid e =? pid).
  - exact I'.
Qed.

Lemma others_eq s p L pid k : R s p L ->
  others pid (del k (thrs s)) = existsb (fun x => h_pid (snd x) =? pid) (del k (p_thr p)).
Proof.
  intros H. unfold others. apply eq_iff_eq_true. rewrite !existsb_exists. split.
  - intros ([j t] & IN & E). apply in_del in IN. destruct IN as [IN D]. cbn [fst snd] in *.
    apply in_get in IN; [|apply (r_nd1 _ _ _ H)]. apply (R_get _ _ _ _ _ H) in IN. apply get_in in IN.
    eexists. split; [apply in_del; split; [exact IN|exact D]|]. exact E.
  - intros ([j h] & IN & E). apply in_del in IN. destruct IN as [IN D]. cbn [fst snd] in *.
    apply in_get in IN; [|apply (r_nd2 _ _ _ H)]. rewrite <- (r_thr _ _ _ H) in IN.
    destruct (get j (thrs s)) as [t|] eqn:G; [|discriminate]. cbn [option_map] in IN. injection IN as <-.
    apply get_in in G. eexists. split; [apply in_del; split; [exact G|exact D]|]. exact E.
Qed.

Lemma exit_ok s p L tid : R s p L -> sim (step s (Exit tid)) (sp_step p (Exit tid)).
Proof.
  intros H. cbn [step sp_step]. destruct (get tid (thrs s)) as [t|] eqn:G.
  2: { rewrite (R_none _ _ _ _ H G). eapply sim_same; eassumption. }
  rewrite (R_get _ _ _ _ _ H G), (R_waits _ _ _ _ _ H G). destruct (t_wait t) as [w|] eqn:W;
    [eapply sim_same; eassumption|].
  unfold exit_thread. cbn [h_ctid h_pid p_thr]. cbv zeta.
  change (thrs (set_thrs (del tid (thrs s)) s)) with (del tid (thrs s)).
  rewrite (others_eq _ _ _ _ _ H).
  assert (R1 : R (set_thrs (del tid (thrs s)) s) (mkSp (p_now p) (p_mem p) (del tid (p_thr p)) (p_q p)) L).
  { constructor.
    - apply (r_now _ _ _ H).
    - apply (r_mem _ _ _ H).
    - intros k. cbn [thrs set_thrs p_thr]. rewrite !get_del, <- (r_thr _ _ _ H). change (eqb k tid) with (k =? tid).
      now destruct (k =? tid).
    - cbn [thrs set_thrs]. apply nodup_del, (r_nd1 _ _ _ H).
    - apply nodup_del, (r_nd2 _ _ _ H).
    - apply (r_q _ _ _ H).
    - apply thrs_inv; [apply (r_inv _ _ _ H)| |].
      + intros x t0 w0 X Y. exists t0. rewrite get_del_other; [auto|]. intros ->. congruence.
      + intros x t0 w0 X Y. rewrite get_del in X. change (eqb x tid) with (x =? tid) in X.
        destruct (x =? tid); [discriminate|eauto]. }
  destruct ((t_ctid t =? 0) || _); [cbn [obind]; eapply sim_same; eassumption|].
  change (mm (set_thrs (del tid (thrs s)) s)) with (mm s).
  rewrite (r_mem _ _ _ H). destruct (p_mem p (t_pid t) (t_ctid t)) as [v|]; [|exact Logic.I]. cbn [assert_then].
  unfold sp_wake. pose proof (phys_eq (t_pid t) (t_ctid t)) as PE.
  destruct (nameable (t_pid t) (t_ctid t)); rewrite PE; cbn [obind]; [|exact Logic.I].
  set (s2 := set_mm _ _). cbn [p_q].
  set (p2 := mkSp (p_now p) (fun x a => if (x =? t_pid t) && (a =? t_ctid t) then Some 0 else p_mem p x a)
               (del tid (p_thr p)) (p_q p)).
  assert (R2 : R s2 p2 L).
  { destruct R1 as [A1 A2 A3 A4 A5 A6 A7]. constructor; try assumption.
    - intros x a. unfold s2, p2. cbn [mm set_mm p_mem]. now rewrite (r_mem _ _ _ H).
    - eapply inv_ext; [exact A7|reflexivity..|]. cbn. lia. }
  destruct (get _ (tab s2)) as [o|] eqn:T.
  - destruct (futex_wake_ok _ _ _ _ _ _ 1 (r_inv _ _ _ R2) PE T) as (L' & S0 & I' & M).
    cbn [obind]. pose proof (same_R _ _ _ _ L' R2 S0 I') as R3. rewrite M in R3.
    change (p_q p) with (p_q p2). rewrite (r_q _ _ _ R2).
    destruct (wake_first (t_pid t) (t_ctid t) 1 (map snd L)) as [q k]. split; [reflexivity|].
    exists L'. exact R3.
  - cbn [obind]. rewrite (r_q _ _ _ H), wake_first_none; [|now rewrite <- filter_snd, (no_entry _ _ _ _ _ (r_inv _ _ _ R2) PE T)].
    split; [reflexivity|]. exists L. destruct R2; constructor; try assumption; reflexivity.
Qed.

Lemma map_noop s p L tid (c : ent -> bool) (f : ent -> ent) : R s p L ->
  (forall t w, get tid (thrs s) = Some t -> t_wait t = Some w -> False) ->
  map (fun e => if is_tid tid e && c e then f e else e) (p_q p) = p_q p.
Proof.
  intros H X. rewrite (r_q _ _ _ H). rewrite <- (map_id (map snd L)) at 2. apply map_ext_in. intros e IN.
  apply in_map_iff in IN. destruct IN as ([q e'] & EE & IN). cbn in EE. subst e'. unfold is_tid.
  destruct (Z.eqb_spec (e_tid e) tid) as [E|]; [|reflexivity].
  destruct (i_ent _ _ (r_inv _ _ _ H) _ _ IN) as (t0 & w0 & pa0 & G0 & W0 & M & _). rewrite E in G0.
  destruct (X _ _ G0 W0).
Qed.

Lemma schedule_R s p L tid t w : R s p L -> get tid (thrs s) = Some t -> t_wait t = Some w ->
  R (schedule tid (w_seq w) s)
    (with_q (map (fun e => if is_tid tid e then soon e else e) (p_q p)) p) (upd_tid tid soon L).
Proof.
  intros H G W. replace (map (fun e => if is_tid tid e then soon e else e) (p_q p)) with (map snd (upd_tid tid soon L)).
  - eapply same_R; [eassumption|apply schedule_same|]. eapply schedule_inv; [apply (r_inv _ _ _ H)|eassumption|eassumption].
  - rewrite (r_q _ _ _ H). unfold upd_tid. rewrite !map_map. apply map_ext. intros [q e]. cbn. now destruct (is_tid tid e).
Qed.

Lemma with_q_same s p L : R s p L -> R s (with_q (p_q p) p) L.
Proof. intros []. now constructor. Qed.

Lemma sigwakes_ok s p L tid : R s p L -> sim (step s (SigWakes tid)) (sp_step p (SigWakes tid)).
Proof.
  intros H. cbn [step sp_step].
  assert (NO : (forall t w, get tid (thrs s) = Some t -> t_wait t = Some w -> False) ->
    sim (Some (s, Nothing)) (Some (with_q (map (fun e => if is_tid tid e then soon e else e) (p_q p)) p, Nothing))).
  { intros X. split; [reflexivity|]. exists L. pose proof (map_noop _ _ _ _ (fun _ => true) soon H X) as E.
    replace (map (fun e => if is_tid tid e then soon e else e) (p_q p)) with (p_q p); [now apply with_q_same|].
    rewrite <- E at 1. apply map_ext. intros e. now rewrite andb_true_r. }
  destruct (get tid (thrs s)) as [t|] eqn:G; [|apply NO; congruence].
  destruct (t_wait t) as [w|] eqn:W; [|apply NO; intros; congruence].
  split; [reflexivity|]. eexists. eapply schedule_R; eassumption.
Qed.

Lemma timer_ok s p L tid : R s p L -> sim (step s (TimerFires tid)) (sp_step p (TimerFires tid)).
Proof.
  intros H. cbn [step sp_step].
  set (c := fun e => match e_dl e with Some d => d <=? p_now p | None => false end).
  change (sim match get tid (thrs s) with
    | Some t => match t_wait t with
                | Some w => Some (if expired w s then schedule tid (w_seq w) s else s, Nothing)
                | None => Some (s, Nothing)
                end
    | None => Some (s, Nothing)
    end (Some (with_q (map (fun e => if is_tid tid e && c e then soon e else e) (p_q p)) p, Nothing))).
  assert (NO : (forall t w, get tid (thrs s) = Some t -> t_wait t = Some w -> False) ->
    sim (Some (s, Nothing)) (Some (with_q (map (fun e => if is_tid tid e && c e then soon e else e) (p_q p)) p, Nothing))).
  { intros X. split; [reflexivity|]. exists L. rewrite (map_noop _ _ _ _ c soon H X). now apply with_q_same. }
  destruct (get tid (thrs s)) as [t|] eqn:G; [|apply NO; congruence].
  destruct (t_wait t) as [w|] eqn:W; [|apply NO; intros; congruence].
  destruct (R_find _ _ _ _ _ _ H G W) as (e & F & IN & E & M). destruct M as (_ & _ & _ & M4 & _).
  assert (C : forall e', In e' (p_q p) -> is_tid tid e' && c e' = is_tid tid e' && expired w s).
  { intros e' IN'. rewrite (r_q _ _ _ H) in IN'. apply in_map_iff in IN'. destruct IN' as ([q e''] & EE & IN').
    cbn in EE. subst e''. unfold is_tid. destruct (Z.eqb_spec (e_tid e') tid) as [E'|]; [|reflexivity]. cbn [andb].
    destruct (inv_tid _ _ _ _ _ _ (r_inv _ _ _ H) IN IN' ltac:(congruence)) as [_ <-].
    unfold c, expired. rewrite M4, (r_now _ _ _ H). reflexivity. }
  split; [reflexivity|]. destruct (expired w s).
  - eexists. replace (map (fun e0 => if is_tid tid e0 && c e0 then soon e0 else e0) (p_q p))
      with (map (fun e0 => if is_tid tid e0 then soon e0 else e0) (p_q p)); [eapply schedule_R; eassumption|].
    apply map_ext_in. intros e' IN'. now rewrite C, andb_true_r.
  - exists L. replace (map (fun e0 => if is_tid tid e0 && c e0 then soon e0 else e0) (p_q p)) with (p_q p);
      [now apply with_q_same|].
    rewrite <- (map_id (p_q p)) at 1. apply map_ext_in. intros e' IN'. now rewrite C, andb_false_r.
Qed.

Lemma may_pass_eq s p L t : R s p L -> may_pass t s = sp_may_pass t p.
Proof.
  intros H. unfold may_pass, sp_may_pass. rewrite (r_now _ _ _ H). f_equal.
  apply eq_iff_eq_true. rewrite !forallb_forall. split.
  - intros X e IN. rewrite (r_q _ _ _ H) in IN. apply in_map_iff in IN. destruct IN as ([q e'] & EE & IN).
    cbn in EE. subst e'. destruct (i_ent _ _ (r_inv _ _ _ H) _ _ IN) as (t0 & w0 & pa0 & G0 & W0 & M & _).
    apply get_in in G0. specialize (X _ G0). cbn [snd] in X. rewrite W0 in X.
    destruct M as (_ & _ & _ & -> & -> & _). exact X.
  - intros X [k t0] IN. cbn [snd]. apply in_get in IN; [|apply (r_nd1 _ _ _ H)].
    destruct (t_wait t0) as [w0|] eqn:W0; [|reflexivity].
    destruct (R_find _ _ _ _ _ _ H IN W0) as (e & F & _ & _ & M). apply find_some in F.
    specialize (X _ (proj1 F)). destruct M as (_ & _ & _ & M4 & M5 & _). rewrite M4, M5 in X. exact X.
Qed.

Lemma upd_R s p L tid f g : R s p L ->
  (forall t, t_wait (f t) = t_wait t /\ t_pid (f t) = t_pid t) ->
  (forall t, mkSt' (t_pid (f t)) (t_sig (f t)) (t_ctid (f t)) = g (mkSt' (t_pid t) (t_sig t) (t_ctid t))) ->
  R (upd tid f s) (sp_upd tid g p) L.
Proof.
  intros H F G. unfold upd, sp_upd. destruct (get tid (thrs s)) as [t|] eqn:GT.
  2: { rewrite (R_none _ _ _ _ H GT). exact H. }
  rewrite (R_get _ _ _ _ _ H GT). constructor.
  - apply (r_now _ _ _ H).
  - apply (r_mem _ _ _ H).
  - intros k. cbn [thrs set_thrs p_thr]. rewrite !get_put, <- (r_thr _ _ _ H). change (eqb k tid) with (k =? tid).
    destruct (k =? tid); [cbn [option_map]; now rewrite G|reflexivity].
  - cbn [thrs set_thrs]. apply nodup_put, (r_nd1 _ _ _ H).
  - cbn [p_thr]. apply nodup_put, (r_nd2 _ _ _ H).
  - apply (r_q _ _ _ H).
  - apply thrs_inv; [apply (r_inv _ _ _ H)| |].
    + intros k t0 w0 X Y. rewrite get_put. change (eqb k tid) with (k =? tid). destruct (Z.eqb_spec k tid) as [->|]; [|eauto].
      assert (t0 = t) by congruence. subst t0. exists (f t). destruct (F t) as [-> ->]. auto.
    + intros k t0 w0 X Y. rewrite get_put in X. change (eqb k tid) with (k =? tid) in X.
      destruct (Z.eqb_spec k tid) as [->|]; [|eauto]. injection X as <-. exists t. destruct (F t) as [E _]. rewrite E in Y. auto.
Qed.

Lemma step_ok s p L o : R s p L -> sim (step s o) (sp_step p o).
Proof.
  intros H. destruct o; try (now apply (resume_ok _ _ _ _ _ H)); try (now apply (kill_ok _ _ _ _ H));
    try (now apply (exit_ok _ _ _ _ H)); try (now apply (sigwakes_ok _ _ _ _ H)); try (now apply (timer_ok _ _ _ _ H));
    cbn [step sp_step].
  - (* Spawn *)
    unfold mem. destruct (get tid (thrs s)) as [t|] eqn:G.
    + rewrite (R_get _ _ _ _ _ H G). eapply sim_same; eassumption.
    + rewrite (R_none _ _ _ _ H G). split; [reflexivity|]. exists L. constructor.
      * apply (r_now _ _ _ H).
      * apply (r_mem _ _ _ H).
      * intros k. cbn [thrs set_thrs p_thr]. rewrite !get_put, <- (r_thr _ _ _ H).
        change (eqb k tid) with (k =? tid). now destruct (k =? tid).
      * cbn [thrs set_thrs]. apply nodup_put, (r_nd1 _ _ _ H).
      * cbn [p_thr]. apply nodup_put, (r_nd2 _ _ _ H).
      * apply (r_q _ _ _ H).
      * apply thrs_inv; [apply (r_inv _ _ _ H)| |].
        -- intros k t0 w0 X Y. exists t0. rewrite get_put_other; [auto|]. intros ->. congruence.
        -- intros k t0 w0 X Y. rewrite get_put in X. change (eqb k tid) with (k =? tid) in X.
           destruct (k =? tid); [injection X as <-; discriminate|eauto].
  - (* SetTid *)
    split; [reflexivity|]. exists L. apply upd_R; [assumption|auto|reflexivity].
  - (* Futex *)
    destruct (get tid (thrs s)) as [t|] eqn:G.
    2: { rewrite (R_none _ _ _ _ H G). eapply sim_same; eassumption. }
    rewrite (R_get _ _ _ _ _ H G), (R_waits _ _ _ _ _ H G). destruct (t_wait t) as [w|] eqn:W;
      [eapply sim_same; eassumption|].
    unfold futex. change (Z.lor 128 256) with POSSIBLE_OPTIONS. cbn [h_pid].
    unfold FUTEX_WAIT, FUTEX_WAKE, FUTEX_WAIT_BITSET, FUTEX_WAKE_BITSET, MATCH_ANY.
    destruct (Z.ldiff opn POSSIBLE_OPTIONS =? 0); [eapply wait_first_ok; eassumption|].
    destruct (Z.ldiff opn POSSIBLE_OPTIONS =? 1); [eapply wake_ok; eassumption|].
    destruct (val3 =? U32_MAX).
    + rewrite !andb_true_r. destruct (Z.ldiff opn POSSIBLE_OPTIONS =? 9); [eapply wait_first_ok; eassumption|].
      destruct (Z.ldiff opn POSSIBLE_OPTIONS =? 10); [eapply wake_ok; eassumption|]. eapply sim_same; eassumption.
    + rewrite !andb_false_r. eapply sim_same; eassumption.
  - (* SetSig *)
    split; [reflexivity|]. exists L. apply upd_R; [assumption|auto|reflexivity].
  - (* Store *)
    split; [reflexivity|]. exists L. destruct H as [A1 A2 A3 A4 A5 A6 A7]. constructor; try assumption.
    + intros x a. cbn [mm set_mm p_mem]. now rewrite A2.
    + eapply inv_ext; [exact A7|reflexivity..|]. cbn. lia.
  - (* Advance *)
    rewrite (may_pass_eq _ _ _ _ H). split; [reflexivity|]. exists L. destruct (sp_may_pass t p); [|exact H].
    destruct H as [A1 A2 A3 A4 A5 A6 A7]. constructor; try assumption; [reflexivity|].
    eapply inv_ext; [exact A7|reflexivity..|]. cbn. lia.
  - (* Tick *)
    split; [reflexivity|]. exists L. destruct H as [A1 A2 A3 A4 A5 A6 A7]. constructor; try assumption.
    eapply inv_ext; [exact A7|reflexivity..|]. cbn. lia.
Qed.

Lemma init_R t0 : R (init t0) (sp_init t0) [].
Proof.
  constructor; try reflexivity; try constructor; cbn; try contradiction; try discriminate.
  - constructor.
  - intros o. constructor.
Qed.

Lemma run_ok ops : forall s p L, R s p L ->
  match run s ops, sp_run p ops with
  | Some (s', a), Some (p', b) => a = b /\ exists L', R s' p' L'
  | None, None => True
  | _, _ => False
  end.
Proof.
  induction ops as [|o ops IH]; intros s p L H; cbn [run sp_run]; [split; [reflexivity|eauto]|].
  pose proof (step_ok _ _ _ o H) as X. unfold sim in X.
  destruct (step s o) as [[s1 a]|], (sp_step p o) as [[p1 b]|]; cbn [obind]; try contradiction; [|exact Logic.I].
  destruct X as (-> & L1 & H1). specialize (IH _ _ _ H1).
  destruct (run s1 ops) as [[s2 xs]|], (sp_run p1 ops) as [[p2 ys]|]; cbn [obind]; try contradiction; [|exact Logic.I].
  destruct IH as (-> & L2 & H2). split; [reflexivity|eauto].
Qed.

Theorem refines t0 ops : option_map snd (run (init t0) ops) = option_map snd (sp_run (sp_init t0) ops).
Proof.
  pose proof (run_ok ops _ _ _ (init_R t0)) as X.
  destruct (run (init t0) ops) as [[s a]|], (sp_run (sp_init t0) ops) as [[p b]|]; try contradiction; [|reflexivity].
  destruct X as [-> _]. reflexivity.
Qed.
