(** The model of futexes behaves as the queue of FutexSpec. *)
From Verif Require Import Base FMap TimeModel FutexModel FutexSpec.
From Coq Require Import Lia Sorted.

(** * Addresses *)

Definition B48 : Z := 281474976710656.
Lemma lor_high x va : 0 <= va < B48 -> Z.lor (x * B48) va = x * B48 + va.
Proof.
  intros V. assert (E : Z.land (x * B48) va = 0).
  { change B48 with (2 ^ 48). rewrite <- Z.shiftl_mul_pow2 by lia.
    apply Z.bits_inj'. intros n Hn. rewrite Z.land_spec, Z.bits_0, Z.shiftl_spec by lia.
    destruct (Z.lt_ge_cases n 48) as [L|G].
    - rewrite Z.testbit_neg_r by lia. reflexivity.
    - rewrite (Z.bits_above_log2 va n), andb_false_r; [reflexivity|lia|].
      destruct (Z.eq_dec va 0) as [->|NZ]; [cbn; lia|].
      apply Z.log2_lt_pow2; [lia|]. eapply Z.lt_le_trans; [apply V|].
      change B48 with (2 ^ 48). apply Z.pow_le_mono_r; lia. }
  rewrite <- Z.lxor_lor by exact E. symmetry. now apply Z.add_nocarry_lxor.
Qed.

Lemma phys_eq pid va :
  physical_address pid va = if nameable pid va then Some (pid * B48 + va) else None.
Proof.
  unfold physical_address, VADDR_BITS, assert_then, nameable. rewrite Z.shiftl_mul_pow2 by lia.
  rewrite !Z.shiftr_div_pow2 by lia. change (2 ^ 48) with B48. change 281474976710656 with B48.
  change (U64_MAX + 1) with (65536 * B48). rewrite Zmult_mod_distr_r.
  rewrite Z_div_mult by (unfold B48; lia).
  destruct (Z.eqb_spec (pid mod 65536) pid) as [E|N].
  - pose proof (Z.mod_pos_bound pid 65536 ltac:(lia)) as B.
    destruct (Z.leb_spec 0 pid); [|lia]. destruct (Z.ltb_spec pid 65536); [|lia]. cbn [andb].
    destruct (Z.eqb_spec (va / B48) 0) as [E2|N2].
    + pose proof (Z.div_mod va B48 ltac:(unfold B48; lia)) as D.
      pose proof (Z.mod_pos_bound va B48 ltac:(unfold B48; lia)).
      destruct (Z.leb_spec 0 va); [|lia]. destruct (Z.ltb_spec va B48); [|lia]. cbn [andb].
      rewrite E, lor_high by lia. reflexivity.
    + destruct (Z.leb_spec 0 va); [|reflexivity]. destruct (Z.ltb_spec va B48); [|reflexivity].
      rewrite Z.div_small in N2 by lia. contradiction.
  - destruct (Z.leb_spec 0 pid); [|reflexivity]. destruct (Z.ltb_spec pid 65536); [|reflexivity].
    rewrite Z.mod_small in N by lia. contradiction.
Qed.

Lemma phys_inj p a p' a' x :
  physical_address p a = Some x -> physical_address p' a' = Some x -> p = p' /\ a = a'.
Proof.
  rewrite !phys_eq. unfold nameable. change 281474976710656 with B48.
  destruct (Z.leb_spec 0 p); [|discriminate]. destruct (Z.ltb_spec p 65536); [|discriminate].
  destruct (Z.leb_spec 0 a); [|discriminate]. destruct (Z.ltb_spec a B48); [|discriminate].
  destruct (Z.leb_spec 0 p'); [|discriminate]. destruct (Z.ltb_spec p' 65536); [|discriminate].
  destruct (Z.leb_spec 0 a'); [|discriminate]. destruct (Z.ltb_spec a' B48); [|discriminate].
  cbn [andb]. intros X Y. injection X as <-. injection Y as Y. unfold B48 in *. lia.
Qed.

Lemma length_of_eq t : length_of t = sim_try_from_timespec t.
Proof.
  unfold length_of, sim_try_from_timespec, sim_try_from_duration. rewrite Z.gtb_ltb.
  destruct (Z.leb_spec 0 (tv_sec t)), (Z.ltb_spec (tv_sec t) 0); try lia; [|reflexivity].
  destruct (Z.leb_spec 0 (tv_nsec t)), (Z.ltb_spec (tv_nsec t) 0); try lia; [|reflexivity].
  destruct (Z.ltb_spec (tv_nsec t) 1000000000), (Z.ltb_spec 999999999 (tv_nsec t)); try lia;
    [|reflexivity]. cbn [andb orb]. cbv zeta. rewrite Z.gtb_ltb.
  destruct (Z.leb_spec (tv_sec t * 1000000000 + tv_nsec t) SIMTIME_MAX),
    (Z.ltb_spec SIMTIME_MAX (tv_sec t * 1000000000 + tv_nsec t)); try lia; reflexivity.
Qed.

Lemma emu_add_eq a b : emu_checked_add a b = if EMUTIME_MAX <? a + b then None else Some (a + b).
Proof.
  unfold emu_checked_add, u64_checked_add, from_c_emutime, EMUTIME_INVALID, EMUTIME_MAX.
  destruct (Z.leb_spec (a + b) U64_MAX); cbn [obind].
  - rewrite Z.gtb_ltb. destruct (Z.ltb_spec (U64_MAX - 1) (a + b)); [now rewrite orb_true_r|].
    destruct (Z.eqb_spec (a + b) U64_MAX); [lia|reflexivity].
  - destruct (Z.ltb_spec (U64_MAX - 1) (a + b)); [reflexivity|lia].
Qed.

(** * Insertion sort *)

Lemma insert_in q l x : In x (insert q l) <-> x = q \/ In x l.
Proof.
  induction l as [|y l IH]; cbn [insert].
  - cbn. intuition.
  - destruct (q <=? y); cbn [In]; [intuition|]. rewrite IH. cbn. intuition.
Qed.
Lemma isort_in l x : In x (isort l) <-> In x l.
Proof.
  induction l as [|y l IH]; [reflexivity|]. cbn [isort fold_right]. fold (isort l).
  rewrite insert_in, IH. cbn. intuition.
Qed.
Lemma insert_sorted q l : StronglySorted Z.lt l -> ~ In q l -> StronglySorted Z.lt (insert q l).
Proof.
  induction l as [|y l IH]; intros H N; cbn [insert].
  - constructor; constructor.
  - inversion H as [|? ? H1 H2]; subst. destruct (Z.leb_spec q y) as [A|A].
    + constructor; [assumption|]. assert (q < y) by (cbn in N; lia). constructor; [assumption|].
      eapply Forall_impl; [|apply H2]. cbn. lia.
    + constructor; [apply IH; [assumption|cbn in N; tauto]|].
      apply Forall_forall. intros x Hx. apply insert_in in Hx. rewrite Forall_forall in H2.
      destruct Hx as [->|Hx]; [lia|auto].
Qed.
Lemma isort_sorted l : NoDup l -> StronglySorted Z.lt (isort l).
Proof.
  induction l as [|y l IH]; intros H; [constructor|]. inversion H; subst.
  cbn [isort fold_right]. fold (isort l). apply insert_sorted; [auto|]. now rewrite isort_in.
Qed.

Lemma sorted_ext (l l' : list Z) :
  StronglySorted Z.lt l -> StronglySorted Z.lt l' -> (forall x, In x l <-> In x l') -> l = l'.
Proof.
  revert l'. induction l as [|a l IH]; intros l' H H' E.
  - destruct l' as [|b l']; [reflexivity|]. destruct (proj2 (E b)). now left.
  - destruct l' as [|b l']; [destruct (proj1 (E a)); now left|].
    inversion H as [|? ? S1 F1]; inversion H' as [|? ? S2 F2]; subst.
    rewrite Forall_forall in F1, F2.
    assert (a = b).
    { destruct (proj1 (E a)) as [->|I1]; [now left|reflexivity|].
      destruct (proj2 (E b)) as [->|I2]; [now left|reflexivity|].
      specialize (F1 _ I2). specialize (F2 _ I1). lia. }
    subst b. f_equal. apply IH; [assumption|assumption|]. intros x. split; intros X.
    + destruct (proj1 (E x)) as [<-|Y]; [now right| |assumption]. specialize (F1 _ X). lia.
    + destruct (proj2 (E x)) as [<-|Y]; [now right| |assumption]. specialize (F2 _ X). lia.
Qed.

Lemma sorted_filter {A} (f : Z * A -> bool) (L : list (Z * A)) :
  StronglySorted Z.lt (map fst L) -> StronglySorted Z.lt (map fst (filter f L)).
Proof.
  induction L as [|x L IH]; intros H; [constructor|]. cbn [map] in H. inversion H as [|? ? S1 F1]; subst.
  cbn [filter]. destruct (f x); [|auto]. cbn [map]. constructor; [auto|].
  rewrite Forall_forall in *. intros y Y. apply F1. apply in_map_iff in Y. destruct Y as (z & <- & Z).
  apply filter_In in Z. apply in_map. tauto.
Qed.

(** * The invariant *)

Definition wmatch (q : Z) (t : thr) (w : wt) (e : ent) : Prop :=
  w_seq w = q /\ e_pid e = t_pid t /\ e_va e = w_va w /\ e_dl e = w_dl w /\
  e_soon e = w_sched w /\ w_ptr w = (match w_dl w with Some _ => true | None => false end).

Record Inv (s : st) (L : list (Z * ent)) : Prop := {
  i_sort : StronglySorted Z.lt (map fst L);
  i_lt : forall q e, In (q, e) L -> q < sq s;
  i_ent : forall q e, In (q, e) L -> exists t w pa,
    get (e_tid e) (thrs s) = Some t /\ t_wait t = Some w /\ wmatch q t w e /\
    physical_address (e_pid e) (e_va e) = Some pa /\ get pa (tab s) = Some (w_obj w) /\
    get q (lst (w_obj w) s) = Some (e_tid e, e_woken e);
  i_wait : forall tid t w, get tid (thrs s) = Some t -> t_wait t = Some w ->
    exists e, In (w_seq w, e) L /\ e_tid e = tid;
  i_lst : forall o q tid b, get q (lst o s) = Some (tid, b) -> exists t w,
    get tid (thrs s) = Some t /\ t_wait t = Some w /\ w_seq w = q /\ w_obj w = o;
  i_nd : forall o, NoDup (keys (lst o s));
  i_tab : forall pa o, get pa (tab s) = Some o -> o < nobj s;
  i_inj : forall pa pa' o, get pa (tab s) = Some o -> get pa' (tab s) = Some o -> pa = pa' }.

Lemma sorted_nodup {A} (L : list (Z * A)) q e e' :
  StronglySorted Z.lt (map fst L) -> In (q, e) L -> In (q, e') L -> e = e'.
Proof.
  induction L as [|[x a] L IH]; intros H I I'; [destruct I|]. cbn [map] in H.
  inversion H as [|? ? S1 F1]; subst. rewrite Forall_forall in F1. cbn [fst] in F1.
  destruct I as [I|I], I' as [I'|I'].
  - congruence.
  - injection I as -> ->. specialize (F1 _ (in_map fst _ _ I')). cbn in F1. lia.
  - injection I' as -> ->. specialize (F1 _ (in_map fst _ _ I)). cbn in F1. lia.
  - auto.
Qed.

Lemma inv_tid s L q e q' e' : Inv s L -> In (q, e) L -> In (q', e') L -> e_tid e = e_tid e' ->
  q = q' /\ e = e'.
Proof.
  intros I A B E. destruct (i_ent _ _ I _ _ A) as (t & w & pa & G & W & M & _).
  destruct (i_ent _ _ I _ _ B) as (t' & w' & pa' & G' & W' & M' & _).
  rewrite E in G. assert (t = t') by congruence. subst t'. assert (w = w') by congruence. subst w'.
  destruct M as (<- & _), M' as (<- & _). split; [reflexivity|].
  eapply sorted_nodup; [apply (i_sort _ _ I)|eassumption|eassumption].
Qed.

Definition upd_tid (tid : Z) (f : ent -> ent) (L : list (Z * ent)) : list (Z * ent) :=
  map (fun x => if is_tid tid (snd x) then (fst x, f (snd x)) else x) L.

Lemma upd_fst tid f L : map fst (upd_tid tid f L) = map fst L.
Proof.
  unfold upd_tid. rewrite map_map. apply map_ext. intros [q e]. cbn.
  now destruct (is_tid tid e).
Qed.
Lemma upd_in tid f L q e : In (q, e) (upd_tid tid f L) ->
  exists e0, In (q, e0) L /\ e = if is_tid tid e0 then f e0 else e0.
Proof.
  unfold upd_tid. intros H. apply in_map_iff in H. destruct H as ([q0 e0] & E & H). cbn in E.
  exists e0. destruct (is_tid tid e0); injection E as <- <-; auto.
Qed.
Lemma in_upd tid f L q e : In (q, e) L -> In (q, if is_tid tid e then f e else e) (upd_tid tid f L).
Proof.
  unfold upd_tid. intros H. apply in_map_iff. exists (q, e). cbn. destruct (is_tid tid e); auto.
Qed.

Lemma lst_put o l o' s : lst o' (set_objs (put o l (objs s)) s) = if o' =? o then l else lst o' s.
Proof. unfold lst. cbn [objs set_objs]. rewrite get_put. change (eqb o' o) with (o' =? o). now destruct (o' =? o). Qed.

(** A thread that waits is about to resume. *)
Lemma schedule_inv s L tid t w : Inv s L -> get tid (thrs s) = Some t -> t_wait t = Some w ->
  Inv (schedule tid (w_seq w) s) (upd_tid tid soon L).
Proof.
  intros I G W. unfold schedule. rewrite G, W, Z.eqb_refl.
  set (s' := set_thrs _ s). assert (LS : forall o, lst o s' = lst o s) by reflexivity.
  assert (GT : forall x, get x (thrs s') = if x =? tid then Some (set_wait (Some (set_sched w)) t) else get x (thrs s)).
  { intros x. unfold s'. cbn [thrs set_thrs]. rewrite get_put. reflexivity. }
  constructor; try (first [exact (i_tab _ _ I)|exact (i_inj _ _ I)|exact (i_nd _ _ I)]).
  - rewrite upd_fst. apply (i_sort _ _ I).
  - intros q e H. apply upd_in in H. destruct H as (e0 & H & _). apply (i_lt _ _ I _ _ H).
  - intros q e H. apply upd_in in H. destruct H as (e0 & H & ->).
    destruct (i_ent _ _ I _ _ H) as (t0 & w0 & pa & G0 & W0 & M & P & T & Q).
    unfold is_tid. destruct (Z.eqb_spec (e_tid e0) tid) as [E|N].
    + rewrite E in G0. assert (t0 = t) by congruence. subst t0. assert (w0 = w) by congruence. subst w0.
      exists (set_wait (Some (set_sched w)) t), (set_sched w), pa. cbn [soon e_tid e_pid e_va e_woken].
      rewrite GT, E, Z.eqb_refl. repeat split; try assumption; try apply M; [].
      rewrite <- E. exact Q.
    + exists t0, w0, pa. rewrite GT. destruct (Z.eqb_spec (e_tid e0) tid); [contradiction|].
      repeat split; try assumption; apply M.
  - intros x t0 w0. rewrite GT. destruct (Z.eqb_spec x tid) as [->|N].
    + intros X Y. injection X as <-. injection Y as <-. destruct (i_wait _ _ I _ _ _ G W) as (e & H & E).
      exists (soon e). split; [|exact E]. cbn [w_seq set_sched].
      apply (in_upd tid soon) in H. unfold is_tid in H. rewrite E, Z.eqb_refl in H. exact H.
    + intros X Y. destruct (i_wait _ _ I _ _ _ X Y) as (e & H & E). exists e. split; [|exact E].
      apply (in_upd tid soon) in H. unfold is_tid in H. rewrite E in H.
      destruct (Z.eqb_spec x tid); [contradiction|exact H].
  - intros o q x b H. rewrite LS in H. destruct (i_lst _ _ I _ _ _ _ H) as (t0 & w0 & G0 & W0 & S0 & O0).
    rewrite GT. destruct (Z.eqb_spec x tid) as [->|N]; [|eauto 6].
    assert (t0 = t) by congruence. subst t0. assert (w0 = w) by congruence. subst w0.
    eexists _, _. split; [reflexivity|]. split; [reflexivity|]. split; assumption.
Qed.

(** The flag of a listener is set. *)
Definition marked (e : ent) : ent := mkEnt (e_tid e) (e_pid e) (e_va e) (e_dl e) true (e_soon e).

Lemma flag_inv s L q e t w : Inv s L -> In (q, e) L ->
  get (e_tid e) (thrs s) = Some t -> t_wait t = Some w ->
  Inv (set_objs (put (w_obj w) (put q (e_tid e, true) (lst (w_obj w) s)) (objs s)) s)
      (upd_tid (e_tid e) marked L).
Proof.
  intros I IN G W.
  destruct (i_ent _ _ I _ _ IN) as (t1 & w1 & pa & G1 & W1 & M & P & T & Q).
  assert (t1 = t) by congruence. subst t1. assert (w1 = w) by congruence. subst w1.
  set (s' := set_objs _ s).
  constructor; try (first [exact (i_tab _ _ I)|exact (i_inj _ _ I)]).
  - rewrite upd_fst. apply (i_sort _ _ I).
  - intros q0 e0 H. apply upd_in in H. destruct H as (e1 & H & _). apply (i_lt _ _ I _ _ H).
  - intros q0 e0 H. apply upd_in in H. destruct H as (e1 & H & ->).
    destruct (i_ent _ _ I _ _ H) as (t0 & w0 & pa0 & G0 & W0 & M0 & P0 & T0 & Q0).
    unfold is_tid. destruct (Z.eqb_spec (e_tid e1) (e_tid e)) as [E|N].
    + destruct (inv_tid _ _ _ _ _ _ I H IN E) as [-> ->].
      assert (t0 = t) by congruence. subst t0. assert (w0 = w) by congruence. subst w0.
      exists t, w, pa0. unfold s'. rewrite lst_put, Z.eqb_refl, get_put_same.
      cbn [marked e_tid e_pid e_va e_woken]. repeat split; try assumption; apply M.
    + exists t0, w0, pa0. unfold s'. rewrite lst_put. repeat split; try assumption; try apply M0.
      destruct (Z.eqb_spec (w_obj w0) (w_obj w)) as [EO|NO]; [|assumption].
      rewrite get_put. change (eqb q0 q) with (q0 =? q). destruct (Z.eqb_spec q0 q) as [->|]; [|now rewrite <- EO].
      destruct N. now rewrite (sorted_nodup _ _ _ _ (i_sort _ _ I) H IN).
  - intros x t0 w0 X Y. destruct (i_wait _ _ I _ _ _ X Y) as (e1 & H & E).
    eexists. split; [apply (in_upd (e_tid e) marked); exact H|]. now destruct (is_tid (e_tid e) e1).
  - intros o q0 x b. unfold s'. rewrite lst_put. destruct (Z.eqb_spec o (w_obj w)) as [->|N].
    + rewrite get_put. change (eqb q0 q) with (q0 =? q). destruct (Z.eqb_spec q0 q) as [->|].
      * intros X. injection X as <- <-. exists t, w. repeat split; try assumption; apply M.
      * apply (i_lst _ _ I).
    + apply (i_lst _ _ I).
  - intros o. unfold s'. rewrite lst_put. destruct (o =? w_obj w); [apply nodup_put|]; apply (i_nd _ _ I).
Qed.

(** A thread leaves the queue. *)
Definition drop (tid : Z) (L : list (Z * ent)) : list (Z * ent) :=
  filter (fun x => negb (is_tid tid (snd x))) L.

Lemma drop_in tid L q e : In (q, e) (drop tid L) <-> In (q, e) L /\ e_tid e <> tid.
Proof.
  unfold drop. rewrite filter_In. unfold is_tid. cbn [snd]. destruct (Z.eqb_spec (e_tid e) tid); cbn; intuition congruence.
Qed.

(** The condition of a thread is cancelled and the thread either continues or ends. *)
Lemma leave_inv s L tid t w (x : fmap Z thr) :
  Inv s L -> get tid (thrs s) = Some t -> t_wait t = Some w ->
  (forall k, k <> tid -> get k x = get k (thrs s)) ->
  (forall t', get tid x = Some t' -> t_wait t' = None) ->
  Inv (set_thrs x (cancel w s)) (drop tid L).
Proof.
  intros I G W GX NX.
  destruct (i_wait _ _ I _ _ _ G W) as (e & IN & ET).
  set (s' := set_thrs x (cancel w s)).
  assert (LS : forall o, lst o s' = if o =? w_obj w then del (w_seq w) (lst o s) else lst o s).
  { intros o. unfold s'. change (lst o (set_thrs x (cancel w s))) with (lst o (cancel w s)).
    unfold cancel. rewrite lst_put. destruct (Z.eqb_spec o (w_obj w)) as [->|]; reflexivity. }
  constructor; try (first [exact (i_tab _ _ I)|exact (i_inj _ _ I)]).
  - apply sorted_filter, (i_sort _ _ I).
  - intros q0 e0 H. apply drop_in in H. apply (i_lt _ _ I _ _ (proj1 H)).
  - intros q0 e0 H. apply drop_in in H. destruct H as [H N].
    destruct (i_ent _ _ I _ _ H) as (t0 & w0 & pa0 & G0 & W0 & M0 & P0 & T0 & Q0).
    exists t0, w0, pa0. change (thrs s') with x. rewrite GX by assumption. rewrite LS.
    repeat split; try assumption; try apply M0.
    destruct (w_obj w0 =? w_obj w); [|assumption]. rewrite get_del. change (eqb q0 (w_seq w)) with (q0 =? w_seq w).
    destruct (Z.eqb_spec q0 (w_seq w)) as [->|]; [|assumption].
    destruct N. rewrite <- ET. now rewrite (sorted_nodup _ _ _ _ (i_sort _ _ I) H IN).
  - intros k t0 w0 X Y. change (thrs s') with x in X. destruct (Z.eq_dec k tid) as [->|N].
    + rewrite (NX _ X) in Y. discriminate.
    + rewrite GX in X by assumption. destruct (i_wait _ _ I _ _ _ X Y) as (e1 & H & E).
      exists e1. split; [|assumption]. apply drop_in. split; [assumption|congruence].
  - intros o q0 k b. rewrite LS. intros H.
    assert (H' : get q0 (lst o s) = Some (k, b) /\ (o = w_obj w -> q0 <> w_seq w)).
    { destruct (Z.eqb_spec o (w_obj w)) as [->|N]; [|now split].
      rewrite get_del in H. change (eqb q0 (w_seq w)) with (q0 =? w_seq w) in H.
      destruct (Z.eqb_spec q0 (w_seq w)); [discriminate|now split]. }
    destruct H' as [H1 H2]. destruct (i_lst _ _ I _ _ _ _ H1) as (t0 & w0 & G0 & W0 & S0 & O0).
    exists t0, w0. change (thrs s') with x. rewrite GX; [auto|]. intros ->.
    assert (t0 = t) by congruence. subst t0. assert (w0 = w) by congruence. subst w0.
    apply H2; congruence.
  - intros o. rewrite LS. destruct (o =? w_obj w); [apply nodup_del|]; apply (i_nd _ _ I).
Qed.

(** Threads that do not wait come, go and change. *)
Lemma thrs_inv s L (x : fmap Z thr) :
  Inv s L ->
  (forall k t w, get k (thrs s) = Some t -> t_wait t = Some w ->
     exists t', get k x = Some t' /\ t_wait t' = Some w /\ t_pid t' = t_pid t) ->
  (forall k t' w, get k x = Some t' -> t_wait t' = Some w ->
     exists t, get k (thrs s) = Some t /\ t_wait t = Some w) ->
  Inv (set_thrs x s) L.
Proof.
  intros I F B. constructor; try (first [exact (i_tab _ _ I)|exact (i_inj _ _ I)|exact (i_sort _ _ I)|exact (i_lt _ _ I)|exact (i_nd _ _ I)]).
  - intros q e H. destruct (i_ent _ _ I _ _ H) as (t0 & w0 & pa0 & G0 & W0 & M0 & P0 & T0 & Q0).
    destruct (F _ _ _ G0 W0) as (t' & G' & W' & E'). exists t', w0, pa0.
    repeat split; try assumption; try apply M0. rewrite E'. apply M0.
  - intros k t w X Y. destruct (B _ _ _ X Y) as (t0 & X0 & Y0). apply (i_wait _ _ I _ _ _ X0 Y0).
  - intros o q k b H. destruct (i_lst _ _ I _ _ _ _ H) as (t0 & w0 & G0 & W0 & S0 & O0).
    destruct (F _ _ _ G0 W0) as (t' & G' & W' & E'). exists t', w0. auto.
Qed.

(** Other parts of the state do not matter. *)
Lemma inv_ext s s' L : Inv s L -> thrs s' = thrs s -> tab s' = tab s -> objs s' = objs s ->
  nobj s' = nobj s -> sq s <= sq s' -> Inv s' L.
Proof.
  intros I E1 E2 E3 E4 E5. destruct s, s'. cbn in *. subst.
  constructor; try (first [exact (i_tab _ _ I)|exact (i_inj _ _ I)|exact (i_sort _ _ I)|exact (i_ent _ _ I)
    |exact (i_nd _ _ I)|exact (i_wait _ _ I)|exact (i_lst _ _ I)]).
  intros q e H. pose proof (i_lt _ _ I _ _ H). cbn in *. lia.
Qed.

(** * Waking *)

(** What does not change when threads are woken. *)
Definition same (s s' : st) : Prop :=
  now s' = now s /\ mm s' = mm s /\ sq s' = sq s /\ nobj s' = nobj s /\ tab s' = tab s /\
  (NoDup (keys (thrs s)) -> NoDup (keys (thrs s'))) /\
  (forall k, option_map (fun t => mkSt' (t_pid t) (t_sig t) (t_ctid t)) (get k (thrs s')) =
             option_map (fun t => mkSt' (t_pid t) (t_sig t) (t_ctid t)) (get k (thrs s))).

Lemma same_refl s : same s s.
Proof. repeat split; auto. Qed.
Lemma same_trans a b c : same a b -> same b c -> same a c.
Proof.
  intros (A1 & A2 & A3 & A4 & A5 & A6 & A7) (B1 & B2 & B3 & B4 & B5 & B6 & B7).
  repeat split; try congruence; auto.
Qed.
Lemma schedule_same tid q s : same s (schedule tid q s).
Proof.
  unfold schedule. destruct (get tid (thrs s)) as [t|] eqn:G; [|apply same_refl].
  destruct (t_wait t) as [w|]; [|apply same_refl]. destruct (w_seq w =? q); [|apply same_refl].
  repeat split; auto.
  - intros H. cbn [thrs set_thrs]. now apply nodup_put.
  - intros k. cbn [thrs set_thrs]. rewrite get_put. change (eqb k tid) with (k =? tid).
    destruct (Z.eqb_spec k tid) as [->|]; [|reflexivity]. rewrite G. reflexivity.
Qed.

Definition awake (e : ent) : ent := mkEnt (e_tid e) (e_pid e) (e_va e) (e_dl e) true true.

Lemma upd_mid s tid f L1 q e L2 : Inv s (L1 ++ (q, e) :: L2) -> e_tid e = tid ->
  upd_tid tid f (L1 ++ (q, e) :: L2) = L1 ++ (q, f e) :: L2.
Proof.
  intros I E. unfold upd_tid. rewrite map_app. cbn [map snd fst]. unfold is_tid at 2.
  rewrite E, Z.eqb_refl.
  assert (ID : forall M, (forall x, In x M -> e_tid (snd x) <> tid) ->
    map (fun x : Z * ent => if is_tid tid (snd x) then (fst x, f (snd x)) else x) M = M).
  { intros M HM. rewrite <- (map_id M) at 2. apply map_ext_in. intros x X. unfold is_tid.
    destruct (Z.eqb_spec (e_tid (snd x)) tid) as [B|]; [|reflexivity]. now apply HM in X. }
  assert (NDup : NoDup (map fst (L1 ++ (q, e) :: L2))).
  { pose proof (i_sort _ _ I) as S0. induction S0 as [|a l S1 IH F]; constructor; [|assumption].
    rewrite Forall_forall in F. intros X. specialize (F _ X). lia. }
  rewrite map_app in NDup. cbn [map fst] in NDup. apply NoDup_remove_2 in NDup. rewrite in_app_iff in NDup.
  rewrite !ID; [reflexivity| |].
  - intros [q' e'] X Y. cbn in Y. assert (QE : q' = q /\ e' = e).
    { apply (inv_tid _ _ q' e' q e I); [rewrite in_app_iff; cbn; tauto|rewrite in_app_iff; cbn; tauto|congruence]. }
    destruct QE as [-> _]. apply NDup. right. apply (in_map fst) in X. exact X.
  - intros [q' e'] X Y. cbn in Y. assert (QE : q' = q /\ e' = e).
    { apply (inv_tid _ _ q' e' q e I); [rewrite in_app_iff; cbn; tauto|rewrite in_app_iff; cbn; tauto|congruence]. }
    destruct QE as [-> _]. apply NDup. left. apply (in_map fst) in X. exact X.
Qed.

Lemma wake_first_zero pid va n q : n <= 0 -> wake_first pid va n q = (q, 0).
Proof.
  intros N. induction q as [|e q IH]; [reflexivity|]. cbn [wake_first].
  destruct (Z.ltb_spec 0 n); [lia|]. rewrite andb_false_r, IH. reflexivity.
Qed.

Lemma wake_loop_ok pid va pa o n :
  physical_address pid va = Some pa ->
  forall L2 L1 s k, Inv s (L1 ++ L2) -> get pa (tab s) = Some o ->
  exists s' L', wake_loop (map fst (filter (fun x => here pid va (snd x)) L2)) o n k s =
    (s', k + snd (wake_first pid va (n - k) (map snd L2))) /\
    same s s' /\ Inv s' (L1 ++ L') /\ map snd L' = fst (wake_first pid va (n - k) (map snd L2)).
Proof.
  intros PA. induction L2 as [|[q e] L2 IH]; intros L1 s k I T.
  - cbn [filter map wake_loop wake_first fst snd]. exists s, []. rewrite Z.add_0_r.
    split; [reflexivity|]. split; [apply same_refl|]. split; [assumption|reflexivity].
  - assert (IH' : forall s k, Inv s ((L1 ++ [(q, e)]) ++ L2) -> get pa (tab s) = Some o ->
      wake_first pid va (n - k) (map snd ((q, e) :: L2)) =
        (let '(r, j) := wake_first pid va (n - k) (map snd L2) in (e :: r, j)) ->
      exists s' L', wake_loop (map fst (filter (fun x => here pid va (snd x)) L2)) o n k s =
        (s', k + snd (wake_first pid va (n - k) (map snd ((q, e) :: L2)))) /\
        same s s' /\ Inv s' (L1 ++ L') /\
        map snd L' = fst (wake_first pid va (n - k) (map snd ((q, e) :: L2)))).
    { intros s0 k0 I0 T0 ->. destruct (IH _ _ k0 I0 T0) as (s' & L' & E & S0 & I' & M).
      exists s', ((q, e) :: L'). rewrite <- app_assoc in I'. cbn [app] in I'.
      destruct (wake_first pid va (n - k0) (map snd L2)) as [r j]. cbn [fst snd map] in *.
      split; [assumption|]. split; [assumption|]. split; [assumption|]. now rewrite M. }
    assert (AS : (L1 ++ [(q, e)]) ++ L2 = L1 ++ (q, e) :: L2) by now rewrite <- app_assoc.
    cbn [filter snd]. destruct (here pid va e) eqn:H.
    + cbn [map fst wake_loop].
      assert (IN : In (q, e) (L1 ++ (q, e) :: L2)) by (rewrite in_app_iff; cbn; tauto).
      destruct (i_ent _ _ I _ _ IN) as (t & w & pa' & G & W & M & P & T' & Q).
      pose proof H as HH. unfold here in H. apply andb_true_iff in H. destruct H as [HP HV].
      apply Z.eqb_eq in HP. apply Z.eqb_eq in HV. rewrite HP, HV in P.
      assert (pa' = pa) by congruence. subst pa'. assert (O : w_obj w = o) by congruence.
      rewrite O in Q. rewrite Q.
      destruct (Z.ltb_spec k n) as [KN|KN].
      * destruct (e_woken e) eqn:WK.
        -- apply IH'; [now rewrite AS|assumption|]. cbn [map snd wake_first]. rewrite WK. cbn [negb].
           now rewrite andb_false_r.
        -- assert (SQ : w_seq w = q) by apply M.
           pose proof (schedule_inv _ _ _ _ _ I G W) as I1. rewrite SQ in I1.
           pose proof (schedule_same (e_tid e) q s) as S1.
           set (s1 := schedule (e_tid e) q s) in *.
           rewrite (upd_mid s (e_tid e) soon L1 q e L2 I eq_refl) in I1.
           assert (G1 : exists t1 w1, get (e_tid e) (thrs s1) = Some t1 /\ t_wait t1 = Some w1 /\ w_obj w1 = o).
           { exists (set_wait (Some (set_sched w)) t), (set_sched w). unfold s1, schedule.
             rewrite G, W, SQ, Z.eqb_refl. cbn [thrs set_thrs]. rewrite get_put_same. auto. }
           destruct G1 as (t1 & w1 & G1 & W1 & O1).
           assert (IN1 : In (q, soon e) (L1 ++ (q, soon e) :: L2)) by (rewrite in_app_iff; cbn; tauto).
           pose proof (flag_inv s1 _ q (soon e) t1 w1 I1 IN1 G1 W1) as I2.
           rewrite (upd_mid s1 (e_tid (soon e)) marked L1 q (soon e) L2 I1 eq_refl) in I2. rewrite O1 in I2.
           change (marked (soon e)) with (awake e) in I2. change (e_tid (soon e)) with (e_tid e) in I2.
           cbv zeta. set (s2 := set_objs _ s1) in *.
           assert (S2 : same s s2).
           { eapply same_trans; [exact S1|]. repeat split; auto. }
           assert (AS2 : (L1 ++ [(q, awake e)]) ++ L2 = L1 ++ (q, awake e) :: L2) by now rewrite <- app_assoc.
           rewrite <- AS2 in I2.
           assert (T2 : get pa (tab s2) = Some o).
           { destruct S2 as (_ & _ & _ & _ & E & _). now rewrite E. }
           destruct (IH _ _ (k + 1) I2 T2) as (s' & L' & E & S0 & I' & MM).
           exists s', ((q, awake e) :: L'). rewrite E.
           replace (n - (k + 1)) with (n - k - 1) in * by lia.
           cbn [map snd wake_first]. rewrite WK, HH. cbn [negb andb].
           destruct (Z.ltb_spec 0 (n - k)); [|lia].
           destruct (wake_first pid va (n - k - 1) (map snd L2)) as [r j]. cbn [fst snd] in *.
           split; [f_equal; lia|]. split; [eapply same_trans; eassumption|].
           rewrite <- app_assoc in I'. split; [exact I'|]. cbn [map snd]. rewrite MM. reflexivity.
      * rewrite wake_first_zero by lia. exists s, ((q, e) :: L2). cbn [snd fst]. rewrite Z.add_0_r.
        split; [reflexivity|]. split; [apply same_refl|]. split; [assumption|reflexivity].
    + apply IH'; [now rewrite AS|assumption|]. cbn [map snd wake_first]. now rewrite H.
Qed.

Lemma wake_keys s L pid va pa o : Inv s L -> physical_address pid va = Some pa -> get pa (tab s) = Some o ->
  isort (keys (lst o s)) = map fst (filter (fun x => here pid va (snd x)) L).
Proof.
  intros I P T. apply sorted_ext.
  - apply isort_sorted, (i_nd _ _ I).
  - apply sorted_filter, (i_sort _ _ I).
  - intros q. rewrite isort_in, in_map_iff. split.
    + intros H. apply keys_get in H. destruct H as ([tid b] & H).
      destruct (i_lst _ _ I _ _ _ _ H) as (t & w & G & W & S0 & O).
      destruct (i_wait _ _ I _ _ _ G W) as (e & IN & E). exists (q, e). split; [reflexivity|].
      rewrite S0 in IN. apply filter_In. split; [assumption|]. cbn [snd].
      destruct (i_ent _ _ I _ _ IN) as (t' & w' & pa' & G' & W' & M & P' & T' & Q').
      rewrite E in G'. assert (t' = t) by congruence. subst t'. assert (w' = w) by congruence. subst w'.
      rewrite O in T'. rewrite (i_inj _ _ I _ _ _ T T') in P.
      destruct (phys_inj _ _ _ _ _ P P') as [-> ->]. unfold here. now rewrite !Z.eqb_refl.
    + intros ([q' e] & E & H). cbn in E. subst q'. apply filter_In in H. destruct H as [IN H]. cbn [snd] in H.
      destruct (i_ent _ _ I _ _ IN) as (t' & w' & pa' & G' & W' & M & P' & T' & Q').
      unfold here in H. apply andb_true_iff in H. destruct H as [HP HV].
      apply Z.eqb_eq in HP. apply Z.eqb_eq in HV. rewrite HP, HV in P'.
      assert (pa' = pa) by congruence. subst pa'. assert (w_obj w' = o) by congruence.
      rewrite H in Q'. now apply get_keys in Q'.
Qed.

Lemma no_entry s L pid va pa : Inv s L -> physical_address pid va = Some pa -> get pa (tab s) = None ->
  filter (fun x => here pid va (snd x)) L = [].
Proof.
  intros I P T. destruct (filter _ L) as [|[q e] r] eqn:F; [reflexivity|].
  assert (H : In (q, e) (filter (fun x => here pid va (snd x)) L)) by (rewrite F; now left).
  apply filter_In in H. destruct H as [IN H]. cbn [snd] in H.
  destruct (i_ent _ _ I _ _ IN) as (t' & w' & pa' & G' & W' & M & P' & T' & Q').
  unfold here in H. apply andb_true_iff in H. destruct H as [HP HV].
  apply Z.eqb_eq in HP. apply Z.eqb_eq in HV. rewrite HP, HV in P'. congruence.
Qed.

Lemma wake_first_none pid va n q : filter (here pid va) q = [] -> wake_first pid va n q = (q, 0).
Proof.
  induction q as [|e q IH]; intros F; [reflexivity|]. cbn [filter wake_first] in *.
  destruct (here pid va e); [discriminate|]. cbn [andb]. now rewrite IH.
Qed.

Lemma filter_snd {A B} (f : B -> bool) (L : list (A * B)) :
  map snd (filter (fun x => f (snd x)) L) = filter f (map snd L).
Proof. induction L as [|[a b] L IH]; [reflexivity|]. cbn. destruct (f b); cbn; now rewrite IH. Qed.

(** FUTEX_WAKE and the wake at the exit of a thread. *)
Lemma wake_helper_ok s L pid va pa n : Inv s L -> physical_address pid va = Some pa ->
  exists s' L', wake_helper pid va n s = Some (s', snd (wake_first pid va n (map snd L))) /\
    same s s' /\ Inv s' L' /\ map snd L' = fst (wake_first pid va n (map snd L)).
Proof.
  intros I P. unfold wake_helper. rewrite P. cbn [obind].
  destruct (get pa (tab s)) as [o|] eqn:T.
  - destruct (Z.eqb_spec n 0) as [->|N].
    + exists s, L. rewrite wake_first_zero by lia. cbn. auto using same_refl.
    + unfold futex_wake. rewrite (wake_keys _ _ _ _ _ _ I P T).
      destruct (wake_loop_ok pid va pa o n P L [] s 0 I T) as (s' & L' & E & S0 & I' & M).
      rewrite Z.sub_0_r, Z.add_0_l in *. rewrite E. exists s', L'. auto.
  - exists s, L. rewrite wake_first_none.
    + cbn. auto using same_refl.
    + rewrite <- filter_snd, (no_entry _ _ _ _ _ I P T). reflexivity.
Qed.

Lemma futex_wake_ok s L pid va pa o n : Inv s L -> physical_address pid va = Some pa ->
  get pa (tab s) = Some o -> exists L', same s (fst (futex_wake o n s)) /\ Inv (fst (futex_wake o n s)) L' /\
    map snd L' = fst (wake_first pid va n (map snd L)).
Proof.
  intros I P T. unfold futex_wake. rewrite (wake_keys _ _ _ _ _ _ I P T).
  destruct (wake_loop_ok pid va pa o n P L [] s 0 I T) as (s' & L' & E & S0 & I' & M).
  rewrite Z.sub_0_r in *. rewrite E. cbn [fst]. eauto.
Qed.

(** * The relation *)

Record R (s : st) (p : sp) (L : list (Z * ent)) : Prop := {
  r_now : now s = p_now p;
  r_mem : forall x a, mm s x a = p_mem p x a;
  r_thr : forall k, option_map (fun t => mkSt' (t_pid t) (t_sig t) (t_ctid t)) (get k (thrs s)) =
                    get k (p_thr p);
  r_nd1 : NoDup (keys (thrs s));
  r_nd2 : NoDup (keys (p_thr p));
  r_q : p_q p = map snd L;
  r_inv : Inv s L }.

Lemma same_R s s' p L L' : R s p L -> same s s' -> Inv s' L' -> R s' (with_q (map snd L') p) L'.
Proof.
  intros H (A1 & A2 & A3 & A4 & A5 & A6 & A7) I. constructor; cbn [p_now p_mem p_thr p_q with_q].
  - rewrite A1. apply (r_now _ _ _ H).
  - intros. rewrite A2. apply (r_mem _ _ _ H).
  - intros. rewrite A7. apply (r_thr _ _ _ H).
  - apply A6, (r_nd1 _ _ _ H).
  - apply (r_nd2 _ _ _ H).
  - reflexivity.
  - exact I.
Qed.

Lemma R_get s p L k t : R s p L -> get k (thrs s) = Some t ->
  get k (p_thr p) = Some (mkSt' (t_pid t) (t_sig t) (t_ctid t)).
Proof. intros H G. rewrite <- (r_thr _ _ _ H), G. reflexivity. Qed.
Lemma R_none s p L k : R s p L -> get k (thrs s) = None -> get k (p_thr p) = None.
Proof. intros H G. rewrite <- (r_thr _ _ _ H), G. reflexivity. Qed.

Lemma R_find s p L k t w : R s p L -> get k (thrs s) = Some t -> t_wait t = Some w ->
  exists e, find (is_tid k) (p_q p) = Some e /\ In (w_seq w, e) L /\ e_tid e = k /\ wmatch (w_seq w) t w e.
Proof.
  intros H G W. pose proof (r_inv _ _ _ H) as I. destruct (i_wait _ _ I _ _ _ G W) as (e & IN & E).
  rewrite (r_q _ _ _ H). destruct (find (is_tid k) (map snd L)) as [e'|] eqn:F.
  - pose proof (find_some _ _ F) as [IN' T']. apply in_map_iff in IN'. destruct IN' as ([q' e''] & X & IN').
    cbn in X. subst e''. unfold is_tid in T'. apply Z.eqb_eq in T'.
    destruct (inv_tid _ _ _ _ _ _ I IN IN') as [<- <-]; [congruence|].
    exists e. repeat split; try assumption.
    all: destruct (i_ent _ _ I _ _ IN) as (t' & w' & pa' & G' & W' & M & _);
      rewrite E in G'; assert (t' = t) by congruence; subst t'; assert (w' = w) by congruence; subst w'; apply M.
  - apply (find_none _ _ F e) in IN || (pose proof (find_none _ _ F e (in_map snd _ _ IN)) as X).
    unfold is_tid in X. rewrite E, Z.eqb_refl in X. discriminate.
Qed.

Lemma R_waits s p L k t : R s p L -> get k (thrs s) = Some t ->
  existsb (is_tid k) (p_q p) = match t_wait t with Some _ => true | None => false end.
Proof.
  intros H G. destruct (t_wait t) as [w|] eqn:W.
  - destruct (R_find _ _ _ _ _ _ H G W) as (e & F & IN & E & _). apply existsb_exists. exists e.
    split; [apply (find_some _ _ F)|]. unfold is_tid. now rewrite E, Z.eqb_refl.
  - destruct (existsb (is_tid k) (p_q p)) eqn:X; [|reflexivity]. apply existsb_exists in X.
    destruct X as (e & IN & T). rewrite (r_q _ _ _ H) in IN. apply in_map_iff in IN.
    destruct IN as ([q e'] & X & IN). cbn in X. subst e'. unfold is_tid in T. apply Z.eqb_eq in T.
    destruct (i_ent _ _ (r_inv _ _ _ H) _ _ IN) as (t' & w' & pa' & G' & W' & _).
    rewrite T in G'. congruence.
Qed.
