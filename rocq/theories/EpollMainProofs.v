(** Proofs about epoll: registration, waits and the theorems. *)
From Verif Require Import Base FMap EpollModel EpollSpec EpollEntryProofs EpollProofs.
#[local] Arguments eqb : simpl never.
#[local] Arguments get : simpl never.
#[local] Arguments put : simpl never.
#[local] Arguments del : simpl never.

Lemma nodup_snoc {A} (l : list A) a : NoDup l -> ~ In a l -> NoDup (l ++ [a]).
Proof.
  intros N I. apply NoDup_Add with (l := l) (a := a); [|auto].
  rewrite <- (app_nil_r l) at 1. apply Add_app.
Qed.
Lemma nodup_app_l {A} (a b : list A) : NoDup (a ++ b) -> NoDup a.
Proof.
  induction a as [|x a IH]; [constructor|]. cbn. intros N. inversion N as [|? ? NI N']. constructor; [|auto].
  intros I. apply NI. apply in_app_iff. now left.
Qed.
Lemma nodup_app_r {A} (a b : list A) : NoDup (a ++ b) -> NoDup b.
Proof. induction a as [|x a IH]; [auto|]. cbn. intros N. inversion N. auto. Qed.

Section Main.
Context (legacy : Z -> bool).
Notation winv := (winv legacy).
Notation reg_at := (reg_at legacy).

(** ** Registration *)
Lemma stay_refl p : stay p p.
Proof. intros k e q e' X Y Z W. congruence. Qed.
Lemma grow_refl p : grow p p.
Proof. split; [lia|auto]. Qed.

(** Operations that change nothing. *)
Lemma idle_ok h w o x n : winv h w -> (forall f, file_state ((o, x, n) :: h) f = file_state h f) ->
  (forall k, registered ((o, x, n) :: h) k = registered h k) ->
  (forall k b, reported ((o, x, n) :: h) k b = reported h k b) ->
  (forall k b, edge_reported ((o, x, n) :: h) k b = edge_reported h k b) ->
  (forall f, adds ((o, x, n) :: h) f = adds h f) -> n = [] -> winv ((o, x, n) :: h) w.
Proof.
  intros [WF WR WH WK WL WE WA WB WT] F R P E A ->. constructor; auto.
  - intros f. rewrite F. apply WF.
  - intros k. specialize (WR k). unfold EpollProofs.reg_at in *. rewrite R.
    destruct (get k (monitoring (ep w))), (registered h k) as [[i d]|]; auto. apply (ok_ext legacy h); auto.
  - intros k i d. rewrite R. apply WE.
  - intros f. rewrite A. apply WA.
Qed.

(** Other descriptors do not notice a registration. *)
Lemma reg_other h w w' c k i d n k' : k' <> k -> get k' (monitoring (ep w')) = get k' (monitoring (ep w)) ->
  reg_at h w k' -> reg_at ((Ctl c k i d, Ok, n) :: h) w' k'.
Proof.
  intros N G R. unfold EpollProofs.reg_at in *. rewrite G. cbn [registered].
  destruct (eqb_ok k k') as [X|_]; [congruence|].
  destruct (get k' (monitoring (ep w))), (registered h k') as [[i' d']|]; auto.
  apply (ok_ext legacy h); auto; intros b; cbn [reported edge_reported]; (destruct (eqb_ok k k') as [X|_]; [congruence|reflexivity]).
Qed.

Lemma ctl_ok h w c k i d w' x n : winv h w -> ctl legacy w c k i d = Some (w', x, n) ->
  winv ((Ctl c k i d, match x with None => Ok | Some e => Err e end, n) :: h) w' /\
  tells (readable (ep w)) n (readable (ep w')) /\ grow (ep w) (ep w') /\ stay (ep w) (ep w') /\
  pri_counter (ep w) - 1 <= pri_counter (ep w').
Proof.
  intros WI E. unfold ctl in E. destruct (ctl_edit legacy w c k i d) as [w1|e] eqn:CE.
  2:{ injection E as <- <- <-. split; [apply idle_ok; auto; now destruct c|]. split; [apply tells_nil|].
      split; [apply grow_refl|]. split; [apply stay_refl|lia]. }
  pose proof WI as [WF WR WH WK WL WE WA WB WT].
  assert (CASES : (c <> Del /\ (c = Add \/ registered h k <> None) /\ exists e1, w1 = {| files := files w; ep := set_monitoring (ep w) (put k e1 (monitoring (ep w))); listeners := listeners w |} /\
        priority e1 = match get k (monitoring (ep w)) with Some e => priority e | None => None end /\
        data e1 = d /\ interest_of e1 = i /\ is_legacy e1 = legacy (snd k) /\ collected e1 = st_empty /\
        state e1 = file_state h (snd k) /\ st_closed (file_state h (snd k)) = false) \/
     (c = Del /\ exists e, get k (monitoring (ep w)) = Some e /\ w1 = {| files := files w;
                 ep := {| pri_counter := pri_counter (ep w); monitoring := del k (monitoring (ep w));
                          ready := match priority e with Some pri => heap_remove pri (ready (ep w)) | None => ready (ep w) end;
                          readable := readable (ep w) |};
                 listeners := drop_listener k (listeners w) |})).
  { unfold ctl_edit in CE. pose proof (WR k) as RK. unfold EpollProofs.reg_at in RK. rewrite (WF (snd k)) in CE.
    destruct c.
    - left. split; [discriminate|]. split; [now left|]. destruct (st_closed (file_state h (snd k))) eqn:CS; [discriminate|].
      destruct (get k (monitoring (ep w))) eqn:G; [discriminate|]. injection CE as <-. eexists. split; [reflexivity|]. cbn. tauto.
    - left. split; [discriminate|]. destruct (get k (monitoring (ep w))) as [e|] eqn:G; [|discriminate]. injection CE as <-.
      destruct (registered h k) as [[i0 d0]|]; [|contradiction]. split; [right; discriminate|].
      eexists. split; [reflexivity|]. cbn. repeat (split; [reflexivity || apply (eo_legacy _ _ _ _ _ _ RK)|]). apply (eo_fclosed _ _ _ _ _ _ RK).
    - right. split; [reflexivity|]. destruct (get k (monitoring (ep w))) as [e|] eqn:G; [|discriminate]. injection CE as <-.
      exists e. split; reflexivity. }
  clear CE. destruct CASES as [(NC & CR & e1 & -> & P1 & D1 & I1 & L1 & C1 & S1 & F1)|(-> & e & GE & ->)].
  - cbn [ep] in E. set (p1 := set_monitoring (ep w) (put k e1 (monitoring (ep w)))) in *.
    assert (H1 : heap_ok p1 (Some k)).
    { destruct WH as [HI HP HK HL HR]. constructor; auto.
      - intros q k'. change (ready p1) with (ready (ep w)). change (monitoring p1) with (put k e1 (monitoring (ep w))). rewrite HI.
        destruct (eqb_ok k' k) as [->|N]; [|rewrite get_put_other by exact N; reflexivity].
        rewrite get_put_same. split; intros (e2 & X & Y).
        + exists e1. split; [reflexivity|]. rewrite P1, X. exact Y.
        + injection X as <-. rewrite P1 in Y. destruct (get k (monitoring (ep w))) as [e2|]; [|discriminate]. exists e2. auto.
      - intros k' e2 N X. change (monitoring p1) with (put k e1 (monitoring (ep w))) in X.
        rewrite get_put_other in X by congruence. apply (HR k'); [discriminate|exact X]. }
    destruct (refresh_ready p1 k) as [p2|] eqn:RR; [|discriminate E]. ob_in E.
    destruct (refresh_ready_ok _ _ _ H1 RR) as (H2 & GO & GK & GR & RE & CT).
    assert (G1 : get k (monitoring p1) = Some e1) by apply get_put_same.
    rewrite G1 in GK. destruct GK as (e2 & G2 & S2 & Q2).
    unfold refresh_listener in E. cbn [ep set_ep] in E. rewrite G2 in E. cbn [ep files listeners] in E.
    destruct (refresh_state p2) as [p3 n3] eqn:RS. injection E as <- <- <-.
    destruct (refresh_state_ok _ _ _ RS H2) as (H3 & M3 & R3 & C3 & B3 & T3).
    assert (GO3 : forall k', k' <> k -> get k' (monitoring p3) = get k' (monitoring (ep w))).
    { intros k' N. rewrite M3, GO by exact N. apply get_put_other. exact N. }
    assert (G3 : get k (monitoring p3) = Some e2) by (rewrite M3; exact G2).
    assert (I2 : interest_of e2 = i /\ is_legacy e2 = legacy (snd k)).
    { assert (X : interest_of (set_priority e2 None) = interest_of (set_priority e1 None)) by now rewrite S2.
      assert (Y : is_legacy (set_priority e2 None) = is_legacy (set_priority e1 None)) by now rewrite S2.
      cbn in X, Y. split; congruence. }
    destruct I2 as (I2 & L2). cbn [ep set_ep].
    split; [|split; [exact (eq_ind _ (fun r => tells r n3 _) T3 _ RE)|split; [|split]]].
    + constructor; cbn [files ep listeners set_ep]; auto.
      * intros k'. destruct (eqb_ok k' k) as [->|N].
        -- unfold EpollProofs.reg_at. cbn [ep set_ep registered]. rewrite G3, keqb_refl.
           assert (OK : entry_ok legacy ((Ctl c k i d, Ok, n3) :: h) k e2 i d).
           { apply (ok_cong legacy _ _ e1); [symmetry; exact S2|]. apply ok_registered; assumption. }
           destruct c; [exact OK|exact OK|congruence].
        -- apply (reg_other h w); [exact N|cbn [ep set_ep]; now apply GO3|apply WR].
      * rewrite map_app. cbn [map l_key]. apply nodup_snoc; [now apply nodup_map_filter|]. intros X. apply in_map_iff in X. destruct X as (l & X & Y). apply drop_in in Y. tauto.
      * intros l X. apply in_app_iff in X. destruct X as [X|[<-|[]]]; [|cbn; congruence].
        apply drop_in in X. destruct X as (X & N). rewrite GO3 by exact N. now apply WL.
      * intros k' i' d' R. cbn [registered] in R. destruct (eqb_ok k k') as [->|N].
        -- assert (i' = i) as -> by (destruct c; congruence). eexists. split; [apply in_app_iff; right; left; reflexivity|].
           constructor; cbn; auto.
           ++ intros b W. rewrite on_union. unfold listener_state. rewrite L2, I2. destruct (legacy (snd k')); [now destruct b|].
              rewrite on_union, on_state, W. reflexivity.
           ++ apply orb_true_r.
           ++ intros LG. unfold listener_state. rewrite L2, LG. reflexivity.
           ++ unfold listener_signals. now rewrite I2.
        -- destruct (WE k' i' d' R) as (l & LI & HE). exists l. split; [|exact HE]. apply in_app_iff. left. apply drop_in.
           split; [exact LI|]. rewrite (hr_key _ _ _ _ HE). congruence.
      * intros f. rewrite filter_app, app_length. specialize (WA f).
        assert (SL : forall l, l_key l = k -> sel f l = match f with Some f => f =? snd k | None => true end).
        { intros l X. unfold sel. rewrite X. reflexivity. }
        assert (DL := drop_len k (listeners w) f).
        assert (NL : length (filter (sel f) [{| l_key := k; l_mask := st_union (listener_state e2) st_closed_only; l_grew := listener_signals e2 |}]) =
                     if match f with Some f => f =? snd k | None => true end then 1%nat else 0%nat).
        { cbn [filter]. rewrite SL by reflexivity. now destruct (match f with Some f => f =? snd k | None => true end). }
        rewrite NL. clear NL. destruct CR as [->|CR].
        -- cbn [adds]. clear - DL WA. destruct (match f with Some f => f =? snd k | None => true end); lia.
        -- assert (AD : adds h f <= adds ((Ctl c k i d, Ok, n3) :: h) f).
           { cbn [adds]. clear. destruct c; try apply Z.le_refl. destruct (match f with Some f => f =? snd k | None => true end); lia. }
           destruct (match f with Some f => f =? snd k | None => true end) eqn:SE; [|clear - DL WA AD; lia].
           destruct (registered h k) as [[i0 d0]|] eqn:RG; [|congruence].
           destruct (WE k i0 d0 RG) as (l & LI & HE).
           pose proof (drop_len_lt k (listeners w) f l LI (hr_key _ _ _ _ HE) (SL l (hr_key _ _ _ _ HE))) as DL2. clear - DL2 WA AD. lia.
      * cbn [told]. rewrite WT. change (readable (ep w)) with (readable p1). rewrite <- RE. apply T3.
    + apply (grow_trans _ p2); [exact GR|]. apply grow_eq; assumption.
    + intros k' e3 q e4 X Y Z W. destruct (eqb_ok k' k) as [->|N].
      * rewrite G3 in Z. injection Z as <-. apply Q2; [now rewrite P1, X|]. now rewrite <- (ready_cong _ _ S2).
      * rewrite GO3 in Z by exact N. congruence.
    + rewrite C3. change (pri_counter (ep w)) with (pri_counter p1). exact CT.
  - cbn [ep] in E.
    set (p1 := {| pri_counter := pri_counter (ep w); monitoring := del k (monitoring (ep w));
                  ready := match priority e with Some pri => heap_remove pri (ready (ep w)) | None => ready (ep w) end;
                  readable := readable (ep w) |}) in *.
    assert (GD : get k (monitoring p1) = None) by apply get_del_same.
    unfold refresh_ready in E. rewrite GD in E. ob_in E. unfold refresh_listener in E. cbn [ep set_ep] in E. rewrite GD in E.
    cbn [ep set_ep files listeners] in E.
    assert (RI : forall y, In y (ready p1) <-> In y (ready (ep w)) /\ snd y <> k).
    { intros [q y]. destruct WH as [HI HP HK HL HR]. unfold p1. cbn [ready snd]. destruct (priority e) as [q0|] eqn:PE.
      - rewrite heap_remove_in. cbn. split; intros (X & N); (split; [exact X|]).
        + intros ->. apply HI in X. destruct X as (e2 & X & Y). rewrite GE in X. injection X as <-. congruence.
        + intros ->. assert (Y : In (q0, k) (ready (ep w))) by (apply HI; eauto).
          pose proof (nodup_map_inj fst _ _ _ HP X Y eq_refl). congruence.
      - split; [|tauto]. intros X. split; [exact X|]. intros ->. apply HI in X. destruct X as (e2 & X & Y). congruence. }
    assert (GO : forall k', k' <> k -> get k' (monitoring p1) = get k' (monitoring (ep w))) by (intros; now apply get_del_other).
    assert (H1 : heap_ok p1 None).
    { destruct WH as [HI HP HK HL HR]. constructor.
      - intros q k'. rewrite RI, HI. cbn [snd]. destruct (eqb_ok k' k) as [->|N].
        + rewrite GD. split; [tauto|]. intros (e2 & X & _). discriminate.
        + rewrite GO by exact N. tauto.
      - unfold p1. cbn. destruct (priority e); [now apply nodup_map_filter|exact HP].
      - unfold p1. cbn. destruct (priority e); [now apply nodup_map_filter|exact HK].
      - intros y X. apply RI in X. now apply HL.
      - intros k' e2 _ X. destruct (eqb_ok k' k) as [->|N]; [congruence|]. rewrite GO in X by exact N. apply (HR k'); [discriminate|exact X]. }
    destruct (refresh_state p1) as [p3 n3] eqn:RS. injection E as <- <- <-.
    destruct (refresh_state_ok _ _ _ RS H1) as (H3 & M3 & R3 & C3 & B3 & T3). cbn [ep set_ep].
    split; [|split; [exact T3|split; [|split]]].
    + constructor; cbn [files ep listeners set_ep]; auto.
      * intros k'. destruct (eqb_ok k' k) as [->|N].
        -- unfold EpollProofs.reg_at. cbn [ep set_ep registered]. rewrite M3, GD, keqb_refl. exact Logic.I.
        -- apply (reg_other h w); [exact N|cbn [ep set_ep]; rewrite M3; now apply GO|apply WR].
      * now apply nodup_map_filter.
      * intros l X. apply drop_in in X. destruct X as (X & N). rewrite M3, GO by exact N. now apply WL.
      * intros k' i' d' R. cbn [registered] in R. destruct (eqb_ok k k') as [->|N]; [discriminate|].
        destruct (WE k' i' d' R) as (l & LI & HE). exists l. split; [|exact HE]. apply drop_in.
        split; [exact LI|]. rewrite (hr_key _ _ _ _ HE). congruence.
      * intros f. specialize (WA f). pose proof (drop_len k (listeners w) f) as DL. cbn [adds]. clear - WA DL. lia.
      * cbn [told]. rewrite WT. apply T3.
    + split; [rewrite C3; apply Z.le_refl|]. intros y X. rewrite R3 in X. apply RI in X. tauto.
    + intros k' e3 q e4 X Y Z W. rewrite M3 in Z. destruct (eqb_ok k' k) as [->|N]; [congruence|].
      rewrite GO in Z by exact N. congruence.
    + rewrite C3. change (pri_counter p1) with (pri_counter (ep w)). clear. lia.
Qed.
Lemma ctl_some h w c k i d : winv h w -> 1 <= pri_counter (ep w) -> exists w' x n, ctl legacy w c k i d = Some (w', x, n).
Proof.
  intros WI C. unfold ctl. destruct (ctl_edit legacy w c k i d) as [w1|e] eqn:CE; [|eauto].
  destruct (refresh_ready_some (ep w1) k) as (p & ->).
  - unfold ctl_edit in CE. destruct c; repeat match type of CE with context [if ?b then _ else _] => destruct b | context [match ?b with _ => _ end] => destruct b end;
      try discriminate; injection CE as <-; exact C.
  - ob. destruct (refresh_state _). eauto.
Qed.

(** ** Waits *)
Lemma pop_max_ok l x r : pop_max l = Some (x, r) -> Permutation l (x :: r) /\ forall y, In y r -> fst y <= fst x.
Proof.
  revert x r. induction l as [|a l IH]; intros x r E; [discriminate|]. cbn in E.
  destruct (pop_max l) as [[y r']|] eqn:P.
  - destruct (IH y r' eq_refl) as (PM & MX). destruct (Z.ltb_spec (fst a) (fst y)).
    + injection E as <- <-. split.
      * rewrite PM. apply perm_swap.
      * intros z [<-|I]; [lia|auto].
    + injection E as <- <-. split; [reflexivity|]. intros z I. apply (Permutation_in z PM) in I. destruct I as [<-|I]; [lia|].
      apply MX in I. lia.
  - injection E as <- <-. destruct l; [|cbn in P; destruct (pop_max l) as [[]|]; [destruct (_ <? _)|]; discriminate].
    split; [reflexivity|contradiction].
Qed.
Lemma pop_max_some l : l <> [] -> exists x r, pop_max l = Some (x, r).
Proof.
  destruct l as [|a l]; [congruence|]. intros _. cbn. destruct (pop_max l) as [[y r]|]; [destruct (_ <? _)|]; eauto.
Qed.

Lemma entry_ready_events e : entry_ready e = true -> ev_is_empty (ready_events e) = false.
Proof.
  unfold entry_ready. intros RD. destruct (is_legacy e); repeat match type of RD with context [if ?c then _ else _] => destruct c end; try discriminate;
    destruct (ev_is_empty (ready_events e)); try reflexivity; try discriminate. now rewrite andb_false_r in RD.
Qed.
Lemma collect_priority e p : entry_collect (set_priority e p) =
  (set_priority (fst (entry_collect e)) p, snd (entry_collect e)).
Proof.
  unfold entry_collect. change (ready_events (set_priority e p)) with (ready_events e).
  destruct (ev_is_empty (ready_events e)); reflexivity.
Qed.

Record cinv (p0 p : epoll) (events : list report) (keep popped : list (Z * key)) : Prop := {
  ci_perm : Permutation (ready p0) (popped ++ ready p);
  ci_keys : map snd popped = map fst events;
  ci_order : forall x y, In x popped -> In y (ready p) -> fst y < fst x;
  ci_other : forall k, ~ In k (map fst events) -> get k (monitoring p) = get k (monitoring p0);
  ci_event : forall k r, In (k, r) events -> exists e0 e1, get k (monitoring p0) = Some e0 /\ entry_ready e0 = true /\
    snd (entry_collect e0) = Some r /\ get k (monitoring p) = Some e1 /\
    set_priority e1 None = set_priority (fst (entry_collect e0)) None /\
    (forall q, In (q, k) keep <-> priority e1 = Some q) /\ (entry_ready e1 = true <-> priority e1 <> None);
  ci_keep : forall y, In y keep -> In (snd y) (map fst events) /\ pri_counter p < fst y <= pri_counter p0;
  ci_kpri : NoDup (map fst keep);
  ci_kkey : NoDup (map snd keep);
  ci_count : pri_counter p = pri_counter p0 - Z.of_nat (length keep);
  ci_klen : (length keep <= length events)%nat;
  ci_readable : readable p = readable p0 }.

Lemma cinv_nodup p0 p events keep popped : heap_ok p0 None -> cinv p0 p events keep popped ->
  NoDup (map fst events) /\ (forall y, In y (ready p) -> ~ In (snd y) (map fst events)).
Proof.
  intros H C. pose proof (ho_key _ _ H) as N. rewrite (Permutation_map snd (ci_perm _ _ _ _ _ C)), map_app, (ci_keys _ _ _ _ _ C) in N.
  split; [now apply nodup_app_l in N|]. intros y I J.
  apply (in_map snd) in I. revert N I J. clear. generalize (map fst events) (map snd (ready p)) (snd y). intros a b z N I J.
  induction a as [|c a IH]; [contradiction|]. cbn in N. inversion N as [|? ? NI N']. destruct J as [->|J]; [|auto].
  apply NI. apply in_app_iff. now right.
Qed.

Lemma collect_step p0 p events keep popped x rest e : heap_ok p0 None -> cinv p0 p events keep popped ->
  pop_max (ready p) = Some (x, rest) -> get (snd x) (monitoring p) = Some e ->
  entry_ready e = true /\ exists r, snd (entry_collect e) = Some r /\
  (entry_ready (fst (entry_collect e)) = true -> 
     cinv p0 {| pri_counter := pri_counter p - 1; monitoring := put (snd x) (set_priority (fst (entry_collect e)) (Some (pri_counter p))) (monitoring p);
                ready := rest; readable := readable p |} (events ++ [(snd x, r)]) (keep ++ [(pri_counter p, snd x)]) (popped ++ [x])) /\
  (entry_ready (fst (entry_collect e)) = false -> 
     cinv p0 {| pri_counter := pri_counter p; monitoring := put (snd x) (set_priority (fst (entry_collect e)) None) (monitoring p);
                ready := rest; readable := readable p |} (events ++ [(snd x, r)]) keep (popped ++ [x])).
Proof.
  intros H C PM G. pose proof (cinv_nodup _ _ _ _ _ H C) as (ND & DJ).
  destruct C as [CP CK CO CT CE CKP CN1 CN2 CC CL CR].
  destruct (pop_max_ok _ _ _ PM) as (PX & MX).
  assert (XI : In x (ready p)) by (apply (Permutation_in x (Permutation_sym PX)); now left).
  assert (XN : ~ In (snd x) (map fst events)) by now apply DJ.
  assert (X0 : In x (ready p0)).
  { apply (Permutation_in x (Permutation_sym CP)). apply in_app_iff. now right. }
  pose proof G as G0. rewrite (CT _ XN) in G0.
  assert (RD : entry_ready e = true).
  { apply (ho_ready _ _ H _ _ ltac:(discriminate) G0). destruct x as [q k]. apply (ho_in _ _ H) in X0. destruct X0 as (e2 & A & B).
    cbn in G0. rewrite G0 in A. injection A as <-. congruence. }
  split; [exact RD|].
  assert (SE : snd (entry_collect e) = Some (ready_events e, data e)).
  { unfold entry_collect. now rewrite (entry_ready_events e RD). }
  exists (ready_events e, data e). split; [exact SE|].
  assert (PRIS : NoDup (map fst (x :: rest))).
  { pose proof (ho_pri _ _ H) as N. rewrite (Permutation_map fst CP), map_app in N. apply nodup_app_r in N.
    now rewrite (Permutation_map fst PX) in N. }
  assert (STRICT : forall y, In y rest -> fst y < fst x).
  { intros y I. specialize (MX y I). cbn in PRIS. inversion PRIS as [|? ? NI _]. destruct (Z.eq_dec (fst y) (fst x)) as [Q|Q]; [|lia].
    exfalso. apply NI. rewrite <- Q. now apply in_map. }
  assert (KN : ~ In (snd x) (map snd keep)).
  { intros I. apply in_map_iff in I. destruct I as (y & Y & I). apply CKP in I. rewrite Y in I. tauto. }
  assert (LOW : pri_counter p <= pri_counter p0) by lia.
  assert (P3 : Permutation (ready p0) ((popped ++ [x]) ++ rest)).
  { rewrite CP, PX. rewrite <- app_assoc. reflexivity. }
  assert (K3 : map snd (popped ++ [x]) = map fst (events ++ [(snd x, (ready_events e, data e))])).
  { rewrite !map_app, CK. reflexivity. }
  assert (O3 : forall a y, In a (popped ++ [x]) -> In y rest -> fst y < fst a).
  { intros a y A I. apply in_app_iff in A. destruct A as [A|[<-|[]]]; [|auto]. apply CO; [exact A|].
    apply (Permutation_in y (Permutation_sym PX)). now right. }
  assert (T3 : forall e' k, ~ In k (map fst (events ++ [(snd x, (ready_events e, data e))])) ->
    get k (put (snd x) e' (monitoring p)) = get k (monitoring p0)).
  { intros e' k N. rewrite map_app, in_app_iff in N. cbn in N. rewrite get_put_other by (intros ->; tauto). apply CT. tauto. }
  split; intros R1.
  - constructor; cbn [ready monitoring pri_counter readable]; auto.
    + intros k r I. apply in_app_iff in I. destruct I as [I|[I|[]]].
      * destruct (CE k r I) as (e0 & e1 & A1 & A2 & A3 & A4 & A5 & A6 & A7). exists e0, e1.
        assert (N : k <> snd x) by (intros ->; apply XN; now apply (in_map fst) in I).
        rewrite get_put_other by exact N. repeat (split; [assumption|]). split; [|exact A7].
        intros q. rewrite in_app_iff, A6. cbn. split; [intros [X|[X|[]]]; [exact X|congruence]|auto].
      * injection I as <- <-. exists e. eexists. split; [exact G0|]. split; [exact RD|]. split; [exact SE|].
        split; [apply get_put_same|]. split; [reflexivity|]. cbn [priority set_priority]. split.
        -- intros q. rewrite in_app_iff. cbn. split; [intros [X|[X|[]]]; [|congruence]|intros X; injection X as <-; auto].
           exfalso. apply KN. now apply (in_map snd) in X.
        -- rewrite ready_set_priority, R1. split; [discriminate|reflexivity].
    + intros y I. rewrite map_app, in_app_iff. apply in_app_iff in I. destruct I as [I|[<-|[]]]; cbn; [|split; [auto|lia]].
      apply CKP in I. split; [tauto|lia].
    + rewrite map_app. cbn [map fst]. apply nodup_snoc; [exact CN1|]. intros I. apply in_map_iff in I. destruct I as (y & Y & I). apply CKP in I. lia.
    + rewrite map_app. cbn [map snd]. apply nodup_snoc; [exact CN2|exact KN].
    + rewrite app_length. cbn. lia.
    + rewrite !app_length. cbn. lia.
  - constructor; cbn [ready monitoring pri_counter readable]; auto.
    + intros k r I. apply in_app_iff in I. destruct I as [I|[I|[]]].
      * destruct (CE k r I) as (e0 & e1 & A1 & A2 & A3 & A4 & A5 & A6 & A7). exists e0, e1.
        assert (N : k <> snd x) by (intros ->; apply XN; now apply (in_map fst) in I).
        rewrite get_put_other by exact N. auto 10.
      * injection I as <- <-. exists e. eexists. split; [exact G0|]. split; [exact RD|]. split; [exact SE|].
        split; [apply get_put_same|]. split; [reflexivity|]. cbn [priority set_priority]. split.
        -- intros q. split; [intros X; exfalso; apply KN; now apply (in_map snd) in X|discriminate].
        -- rewrite ready_set_priority, R1. split; [discriminate|congruence].
    + intros y I. rewrite map_app, in_app_iff. apply CKP in I. tauto.
    + rewrite app_length. cbn. lia.
Qed.

Lemma collect_ok fuel : forall p0 p max events keep popped p' events' keep', heap_ok p0 None -> cinv p0 p events keep popped ->
  collect fuel p max events keep = Some (p', events', keep') -> Z.of_nat (length events) <= max ->
  exists popped', cinv p0 p' events' keep' popped' /\ (ready p' = [] \/ Z.of_nat (length events') = max) /\
    Z.of_nat (length events') <= max.
Proof.
  induction fuel as [|fuel IH]; intros p0 p max events keep popped p' events' keep' H C E LE; cbn [collect] in E.
  - destruct (ready p) eqn:RP; [injection E as <- <- <-; eauto 10|].
    destruct (Z.ltb_spec (Z.of_nat (length events)) max); [discriminate|]. injection E as <- <- <-. exists popped.
    split; [exact C|]. split; [right; lia|lia].
  - destruct (ready p) as [|y0 l0] eqn:RP; [injection E as <- <- <-; eauto 10|].
    destruct (Z.ltb_spec (Z.of_nat (length events)) max).
    2:{ injection E as <- <- <-. exists popped. split; [exact C|]. split; [right; lia|lia]. }
    rewrite <- RP in E. clear RP y0 l0.
    destruct (pop_max (ready p)) as [[x rest]|] eqn:PM; [|discriminate]. ob_in E.
    destruct (get (snd x) (monitoring p)) as [e|] eqn:G; [|discriminate]. ob_in E.
    destruct (collect_step _ _ _ _ _ _ _ _ H C PM G) as (RD & r & SE & K1 & K2).
    unfold assert_then in E. rewrite ready_set_priority, RD in E. rewrite collect_priority in E. cbn [fst snd] in E. rewrite SE in E. ob_in E.
    rewrite ready_set_priority in E. destruct (entry_ready (fst (entry_collect e))) eqn:RE.
    + unfold take_pri, assert_then in E. destruct (1 <=? pri_counter p); [|discriminate]. ob_in E.
      eapply IH; [exact H|exact (K1 eq_refl)|exact E|]. rewrite app_length. cbn. lia.
    + eapply IH; [exact H|exact (K2 eq_refl)|exact E|]. rewrite app_length. cbn. lia.
Qed.
Lemma collect_some fuel : forall p0 p max events keep popped, heap_ok p0 None -> cinv p0 p events keep popped ->
  (length (ready p) <= fuel)%nat -> Z.min (Z.of_nat (length (ready p))) (max - Z.of_nat (length events)) <= pri_counter p ->
  exists y, collect fuel p max events keep = Some y.
Proof.
  induction fuel as [|fuel IH]; intros p0 p max events keep popped H C LF LC; cbn [collect].
  - destruct (ready p) eqn:RP; [eauto|]. cbn in LF. lia.
  - destruct (ready p) as [|y0 l0] eqn:RP; [eauto|].
    destruct (Z.ltb_spec (Z.of_nat (length events)) max); [|eauto].
    rewrite <- RP in *. assert (NE : ready p <> []) by congruence. clear RP y0 l0.
    destruct (pop_max_some _ NE) as (x & rest & PM). rewrite PM. ob.
    destruct (pop_max_ok _ _ _ PM) as (PX & MX). pose proof (Permutation_length PX) as LP. cbn [length] in LP.
    assert (GE : exists e, get (snd x) (monitoring p) = Some e).
    { assert (XI : In x (ready p)) by (apply (Permutation_in x (Permutation_sym PX)); now left).
      pose proof (cinv_nodup _ _ _ _ _ H C) as (ND & DJ). rewrite (ci_other _ _ _ _ _ C) by now apply DJ.
      assert (X0 : In x (ready p0)).
      { apply (Permutation_in x (Permutation_sym (ci_perm _ _ _ _ _ C))). apply in_app_iff. now right. }
      destruct x as [q k]. apply (ho_in _ _ H) in X0. destruct X0 as (e & A & _). cbn. eauto. }
    destruct GE as (e & G). rewrite G. ob.
    destruct (collect_step _ _ _ _ _ _ _ _ H C PM G) as (RD & r & SE & K1 & K2).
    rewrite assert_true by (rewrite ready_set_priority; exact RD). rewrite collect_priority. cbn [fst snd]. rewrite SE. ob.
    rewrite ready_set_priority. destruct (entry_ready (fst (entry_collect e))) eqn:RE.
    + unfold take_pri. rewrite assert_true by lia. ob.
      eapply IH; [exact H|exact (K1 eq_refl)|cbn; lia|]. cbn [ready pri_counter]. rewrite app_length. cbn. lia.
    + eapply IH; [exact H|exact (K2 eq_refl)|cbn; lia|]. cbn [ready pri_counter]. rewrite app_length. cbn. lia.
Qed.

Definition ahead (p : epoll) (q : Z) : Z := Z.of_nat (length (filter (fun y => q <? fst y) (ready p))).

Lemma nodup_incl_filter_length (l l' : list (Z * key)) (g : Z * key -> bool) : NoDup (map fst l') ->
  (forall y, In y l' -> g y = true -> In y l) -> (length (filter g l') <= length (filter g l))%nat.
Proof.
  intros N I. apply NoDup_incl_length.
  - apply (nodup_map_filter fst g) in N. now apply NoDup_map_inv in N.
  - intros y Y. apply filter_In in Y. apply filter_In. split; [apply I; tauto|tauto].
Qed.
Lemma grow_ahead p p' q : heap_ok p' None -> grow p p' -> pri_counter p < q -> ahead p' q <= ahead p q.
Proof.
  intros H (C & G) L. unfold ahead. apply inj_le. apply nodup_incl_filter_length; [apply (ho_pri _ _ H)|].
  intros y I Y. apply G in I. destruct I as [I|I]; [exact I|lia].
Qed.

Lemma reports_in l k es d b : NoDup (map fst l) -> In (k, (es, d)) l -> reports l k b = has es b.
Proof.
  intros N I. unfold reports. destruct (has es b) eqn:Q.
  - apply existsb_exists. exists (k, (es, d)). split; [exact I|]. cbn. now rewrite keqb_refl.
  - destruct (existsb _ l) eqn:X; [|reflexivity]. apply existsb_exists in X. destruct X as ([k' [es' d']] & J & Y). cbn in Y.
    destruct (eqb_ok k' k) as [->|NE]; [|discriminate]. pose proof (nodup_map_inj fst l _ _ N I J eq_refl) as E. injection E as <- <-. cbn in Y. congruence.
Qed.
Lemma reports_out l k b : ~ In k (map fst l) -> reports l k b = false.
Proof.
  intros N. unfold reports. destruct (existsb _ l) eqn:X; [|reflexivity]. apply existsb_exists in X.
  destruct X as ([k' r] & J & Y). cbn in Y. destruct (eqb_ok k' k) as [->|NE]; [|discriminate]. exfalso. apply N. now apply (in_map fst) in J.
Qed.

(** The ready set and the events due. *)
Lemma ready_set h w k : winv h w ->
  (ready_key legacy h k <-> exists e q, get k (monitoring (ep w)) = Some e /\ priority e = Some q /\ In (q, k) (ready (ep w))).
Proof.
  intros WI. pose proof (wi_reg _ _ _ WI k) as R. unfold EpollProofs.reg_at in R. pose proof (wi_heap _ _ _ WI) as H. split.
  - intros RK. assert (RG : registered h k <> None).
    { destruct RK as (b & D). unfold due in D. destruct (registered h k); congruence. }
    destruct (registered h k) as [[i d]|] eqn:Q; [|congruence].
    destruct (get k (monitoring (ep w))) as [e|] eqn:G; [|contradiction].
    apply (ready_due legacy h k e i d Q R) in RK. apply (ho_ready _ _ H k e ltac:(discriminate) G) in RK.
    destruct (priority e) as [q|] eqn:P; [|congruence]. exists e, q. split; [reflexivity|]. split; [exact P|]. apply (ho_in _ _ H). eauto.
  - intros (e & q & G & P & I). rewrite G in R. destruct (registered h k) as [[i d]|] eqn:Q; [|contradiction].
    apply (ready_due legacy h k e i d Q R). apply (ho_ready _ _ H k e ltac:(discriminate) G). congruence.
Qed.

Lemma wait_ok h w m w' l n : winv h w -> 0 < m -> wait w m = Some (w', inl l, n) ->
  winv ((Wait m, Events l, n) :: h) w' /\ tells (readable (ep w)) n (readable (ep w')) /\ good_wait legacy h m l /\
  (forall k e q, get k (monitoring (ep w)) = Some e -> priority e = Some q -> ~ In k (map fst l) ->
     get k (monitoring (ep w')) = Some e /\ ahead (ep w') q + m <= ahead (ep w) q) /\
  pri_counter (ep w) - Z.min m (adds h None) <= pri_counter (ep w') <= pri_counter (ep w).
Proof.
  intros WI M E. unfold wait in E. destruct (Z.leb_spec m 0); [lia|].
  pose proof (wi_heap _ _ _ WI) as WH.
  assert (LR : Z.of_nat (length (ready (ep w))) <= adds h None).
  { pose proof (wi_adds _ _ _ WI None) as A. assert (FE : forall ls, filter (sel None) ls = ls) by (induction ls as [|a ls IH]; [reflexivity|cbn; now rewrite IH]).
    rewrite FE in A. rewrite <- (map_length snd). rewrite <- (map_length l_key) in A.
    enough (length (map snd (ready (ep w))) <= length (map l_key (listeners w)))%nat by lia.
    apply NoDup_incl_length; [apply (ho_key _ _ WH)|]. intros k I. apply in_map_iff in I. destruct I as ([q y] & <- & I).
    apply (ho_in _ _ WH) in I. destruct I as (e & G & _). pose proof (wi_reg _ _ _ WI y) as R. unfold EpollProofs.reg_at in R. rewrite G in R.
    destruct (registered h y) as [[i d]|] eqn:Q; [|contradiction]. destruct (wi_hears _ _ _ WI y i d Q) as (ls & LI & HE).
    cbn. rewrite <- (hr_key _ _ _ _ HE). now apply in_map. }
  unfold has_ready in E. destruct (ready (ep w)) as [|y0 l0] eqn:RP.
  - injection E as <- <- <-. split.
    + destruct WI as [WF WR WH' WK WL WE WA WB WT]. constructor; auto.
      * intros k. specialize (WR k). unfold EpollProofs.reg_at in *. cbn [registered].
        destruct (get k (monitoring (ep w))), (registered h k) as [[i d]|]; auto. now apply ok_uncollected.
    + split; [apply tells_nil|]. split; [|split; [|cbn in LR; lia]].
      * constructor; [constructor|cbn; lia|contradiction|]. intros _ k RK. apply (ready_set h w k WI) in RK.
        destruct RK as (e & q & _ & _ & I). rewrite RP in I. contradiction.
      * intros k e q G P _. exfalso. assert (I : In (q, k) (ready (ep w))) by (apply (ho_in _ _ WH); eauto). rewrite RP in I. contradiction.
  - rewrite <- RP in *. clear RP y0 l0.
    destruct (collect (length (ready (ep w))) (ep w) m [] []) as [[[p ev] keep]|] eqn:CL; [|discriminate]. ob_in E.
    set (p1 := {| pri_counter := pri_counter p; monitoring := monitoring p; ready := keep ++ ready p; readable := readable p |}) in *.
    destruct (refresh_state p1) as [p3 n3] eqn:RS. injection E as <- <- <-.
    assert (C0 : cinv (ep w) (ep w) [] [] []).
    { constructor; cbn; auto; try constructor; try contradiction; try lia. }
    destruct (collect_ok _ _ _ _ _ _ _ _ _ _ WH C0 CL ltac:(cbn; lia)) as (popped & C & FULL & LE).
    pose proof (cinv_nodup _ _ _ _ _ WH C) as (ND & DJ).
    destruct C as [CP CK CO CT CE CKP CN1 CN2 CC CLN CR].
    assert (PIN : forall y, In y (ready (ep w)) -> ~ In (snd y) (map fst ev) -> In y (ready p)).
    { intros y I N. apply (Permutation_in y CP) in I. apply in_app_iff in I. destruct I as [I|I]; [|exact I].
      exfalso. apply N. rewrite <- CK. now apply in_map. }
    assert (RIN : forall y, In y (ready p) -> In y (ready (ep w))).
    { intros y I. apply (Permutation_in y (Permutation_sym CP)). apply in_app_iff. now right. }
    assert (H1 : heap_ok p1 None).
    { constructor; cbn [ready monitoring pri_counter p1].
      - intros q k. rewrite in_app_iff. destruct (in_dec (fun a b : key => match eqb_ok a b with ReflectT _ x => left x | ReflectF _ x => right x end) k (map fst ev)) as [I|N].
        + apply in_map_iff in I. destruct I as ([k' r] & Q & I). cbn in Q. subst k'.
          destruct (CE k r I) as (e0 & e1 & A1 & A2 & A3 & A4 & A5 & A6 & A7). rewrite A4. split.
          * intros [X|X]; [apply A6 in X; eauto|]. exfalso. apply (DJ _ X). cbn. now apply (in_map fst) in I.
          * intros (e2 & X & Y). injection X as <-. left. now apply A6.
        + rewrite CT by exact N. rewrite <- (ho_in _ _ WH). split.
          * intros [X|X]; [|auto]. exfalso. apply N. now apply CKP in X.
          * intros X. right. now apply PIN.
      - rewrite map_app. pose proof (ho_pri _ _ WH) as NP. rewrite (Permutation_map fst CP), map_app in NP. apply nodup_app_r in NP.
        clear - CN1 NP CKP RIN WH. revert CN1 CKP. induction keep as [|a keep IH]; intros CN1 CKP; [exact NP|]. cbn in *. inversion CN1 as [|? ? NI N'].
        constructor; [|apply IH; auto]. intros I. apply in_app_iff in I. destruct I as [I|I]; [contradiction|].
        apply in_map_iff in I. destruct I as (y & Q & I). apply RIN in I. apply (ho_low _ _ WH) in I.
        destruct (CKP a (or_introl eq_refl)) as (_ & B). lia.
      - rewrite map_app. pose proof (ho_key _ _ WH) as NP. rewrite (Permutation_map snd CP), map_app in NP. apply nodup_app_r in NP.
        clear - CN2 NP CKP DJ. revert CN2 CKP. induction keep as [|a keep IH]; intros CN2 CKP; [exact NP|]. cbn in *. inversion CN2 as [|? ? NI N'].
        constructor; [|apply IH; auto]. intros I. apply in_app_iff in I. destruct I as [I|I]; [contradiction|].
        apply in_map_iff in I. destruct I as (y & Q & I). apply (DJ y I). rewrite Q. apply (CKP a). now left.
      - intros y I. apply in_app_iff in I. destruct I as [I|I]; [apply CKP in I; lia|]. apply RIN in I. apply (ho_low _ _ WH) in I. lia.
      - intros k e _ G. destruct (in_dec (fun a b : key => match eqb_ok a b with ReflectT _ x => left x | ReflectF _ x => right x end) k (map fst ev)) as [I|N].
        + apply in_map_iff in I. destruct I as ([k' r] & Q & I). cbn in Q. subst k'.
          destruct (CE k r I) as (e0 & e1 & A1 & A2 & A3 & A4 & A5 & A6 & A7). rewrite A4 in G. injection G as <-. exact A7.
        + rewrite CT in G by exact N. exact (ho_ready _ _ WH k e ltac:(discriminate) G). }
    destruct (refresh_state_ok _ _ _ RS H1) as (H3 & M3 & R3 & C3 & B3 & T3).
    change (monitoring p1) with (monitoring p) in M3. change (ready p1) with (keep ++ ready p) in R3.
    change (pri_counter p1) with (pri_counter p) in C3. change (readable p1) with (readable p) in T3. rewrite CR in T3.
    assert (LEN : Z.of_nat (length ev) <= Z.of_nat (length (ready (ep w)))).
    { rewrite (Permutation_length CP), app_length. assert (CKL : length ev = length popped) by (transitivity (length (map fst ev)); [symmetry; apply map_length|]; rewrite <- CK; apply map_length). lia. }
    (* each report *)
    assert (REP : forall k es d, In (k, (es, d)) ev -> exists e0 i, get k (monitoring (ep w)) = Some e0 /\ registered h k = Some (i, d) /\
              entry_ok legacy h k e0 i d /\ entry_ready e0 = true /\ es = ready_events e0).
    { intros k es d I. destruct (CE k _ I) as (e0 & e1 & A1 & A2 & A3 & A4 & A5 & A6 & A7).
      pose proof (wi_reg _ _ _ WI k) as R. unfold EpollProofs.reg_at in R. rewrite A1 in R.
      destruct (registered h k) as [[i d0]|] eqn:Q; [|contradiction].
      assert (SE : snd (entry_collect e0) = Some (ready_events e0, data e0)).
      { unfold entry_collect. now rewrite (entry_ready_events e0 A2). }
      rewrite SE in A3. injection A3 as <- <-. pose proof (eo_data _ _ _ _ _ _ R) as D. rewrite D. exists e0, i. auto. }
    cbn [ep set_ep]. split; [|split; [exact T3|split; [|split]]].
    + destruct WI as [WF WR WH' WK WL WE WA WB WT].
      assert (RR : forall k, reg_at ((Wait m, Events ev, n3) :: h) (set_ep w p3) k).
      { intros k. unfold EpollProofs.reg_at. cbn [ep set_ep registered]. rewrite M3.
        destruct (in_dec (fun a b : key => match eqb_ok a b with ReflectT _ x => left x | ReflectF _ x => right x end) k (map fst ev)) as [I|N].
        - apply in_map_iff in I. destruct I as ([k' [es d]] & Q & I). cbn in Q. subst k'.
          destruct (REP k es d I) as (e0 & i & B1 & B2 & B3' & B4 & B5).
          destruct (CE k _ I) as (e0' & e1 & A1 & A2 & A3 & A4 & A5 & A6 & A7). rewrite B1 in A1. injection A1 as <-.
          rewrite A4, B2. apply (ok_cong legacy _ _ (fst (entry_collect e0))); [symmetry; exact A5|].
          apply (ok_collected legacy h m ev n3 k e0 i d B2 B3' B4). intros b. rewrite (reports_in ev k es d b ND I). now rewrite B5.
        - rewrite CT by exact N. specialize (WR k). unfold EpollProofs.reg_at in WR.
          destruct (get k (monitoring (ep w))), (registered h k) as [[i d]|]; auto.
          apply ok_uncollected; [exact WR|]. intros b. now apply reports_out. }
      constructor; cbn [files ep listeners set_ep]; auto.
      * intros ls I. specialize (WL ls I). specialize (WR (l_key ls)). specialize (RR (l_key ls)). unfold EpollProofs.reg_at in *. cbn [ep set_ep registered] in RR.
        destruct (get (l_key ls) (monitoring (ep w))); [|congruence]. destruct (registered h (l_key ls)) as [[i d]|]; [|contradiction].
        destruct (get (l_key ls) (monitoring p3)); [discriminate|contradiction].
      * cbn [told]. rewrite WT. apply T3.
    + constructor; [exact ND|exact LE| |].
      * intros k es d I. destruct (REP k es d I) as (e0 & i & B1 & B2 & B3' & B4 & B5). split; [|split; [|eauto]].
        -- intros b. rewrite B5. now apply (ready_events_due legacy h k e0 i d).
        -- now apply (ready_due legacy h k e0 i d).
      * intros L k RK. apply (ready_set h w k WI) in RK. destruct RK as (e & q & G & P & I).
        destruct (in_dec (fun a b : key => match eqb_ok a b with ReflectT _ x => left x | ReflectF _ x => right x end) k (map fst ev)) as [J|N]; [exact J|].
        exfalso. apply PIN in I; [|exact N]. destruct FULL as [F|F]; [rewrite F in I; contradiction|lia].
    + intros k e q G P N. rewrite M3, CT by exact N. split; [exact G|].
      assert (I : In (q, k) (ready (ep w))) by (apply (ho_in _ _ WH); eauto).
      pose proof (PIN _ I N) as IP. destruct FULL as [F|F]; [rewrite F in IP; contradiction|].
      unfold ahead. rewrite R3. rewrite filter_app, app_length.
      assert (K0 : filter (fun y => q <? fst y) keep = []).
      { apply (ho_low _ _ WH) in I. cbn in I. clear - CKP I. induction keep as [|a keep IH]; [reflexivity|]. cbn.
        destruct (CKP a (or_introl eq_refl)) as (_ & B). destruct (Z.ltb_spec q (fst a)); [lia|]. apply IH. intros y J. apply CKP. now right. }
      rewrite K0. cbn [length]. 
      assert (AP : filter (fun y => q <? fst y) popped = popped).
      { assert (X : forall x, In x popped -> q < fst x) by (intros x X; exact (CO x (q, k) X IP)). clear - X. induction popped as [|a l IH]; [reflexivity|]. cbn.
        destruct (Z.ltb_spec q (fst a)); [|specialize (X a (or_introl eq_refl)); lia]. f_equal. apply IH. intros x J. apply X. now right. }
      assert (PL : length (filter (fun y => q <? fst y) (ready (ep w))) = length (filter (fun y => q <? fst y) (popped ++ ready p))).
      { clear - CP. induction CP; cbn; try reflexivity; try congruence.
        - destruct (q <? fst x); cbn; congruence.
        - destruct (q <? fst x), (q <? fst y); reflexivity. }
      rewrite PL, filter_app, app_length, AP. assert (CKL : length ev = length popped) by (transitivity (length (map fst ev)); [symmetry; apply map_length|]; rewrite <- CK; apply map_length). clear - F CKL. lia.
    + rewrite C3, CC. lia.
Qed.
Lemma wait_some h w m : winv h w -> Z.min (Z.max m 0) (adds h None) <= pri_counter (ep w) -> exists w' x n, wait w m = Some (w', x, n).
Proof.
  intros WI C. unfold wait. destruct (Z.leb_spec m 0); [eauto|]. destruct (has_ready (ep w)); [|eauto].
  pose proof (wi_heap _ _ _ WI) as WH.
  assert (LR : Z.of_nat (length (ready (ep w))) <= adds h None).
  { pose proof (wi_adds _ _ _ WI None) as A. assert (FE : forall ls, filter (sel None) ls = ls) by (induction ls as [|a ls IH]; [reflexivity|cbn; now rewrite IH]).
    rewrite FE in A. rewrite <- (map_length snd). rewrite <- (map_length l_key) in A.
    enough (length (map snd (ready (ep w))) <= length (map l_key (listeners w)))%nat by lia.
    apply NoDup_incl_length; [apply (ho_key _ _ WH)|]. intros k I. apply in_map_iff in I. destruct I as ([q y] & <- & I).
    apply (ho_in _ _ WH) in I. destruct I as (e & G & _). pose proof (wi_reg _ _ _ WI y) as R. unfold EpollProofs.reg_at in R. rewrite G in R.
    destruct (registered h y) as [[i d]|] eqn:Q; [|contradiction]. destruct (wi_hears _ _ _ WI y i d Q) as (ls & LI & HE).
    cbn. rewrite <- (hr_key _ _ _ _ HE). now apply in_map. }
  destruct (collect_some (length (ready (ep w))) (ep w) (ep w) m [] [] []) as ([[p ev] keep] & ->); auto.
  - constructor; cbn; auto; try constructor; try contradiction; try lia.
  - cbn [length]. lia.
  - ob. destruct (refresh_state _). eauto.
Qed.

(** ** All histories *)
Lemma winv_new : winv [] world_new.
Proof.
  constructor; cbn; try reflexivity; try contradiction; try discriminate; try constructor; cbn; try contradiction; try discriminate; try constructor; try contradiction.
  - intros (e & X & _). discriminate.
Qed.
Lemma bad_wait_ok h w m n : winv h w -> n = [] -> winv ((Wait m, Err EINVAL, n) :: h) w.
Proof. intros WI N. apply idle_ok; auto. Qed.

Lemma step_ok h w o w' x n : winv h w -> step legacy w o = Some (w', x, n) ->
  winv ((o, x, n) :: h) w' /\ tells (readable (ep w)) n (readable (ep w')) /\
  pri_counter (ep w) - need h o <= pri_counter (ep w').
Proof.
  intros WI E. destruct o as [c k i d|f s g|m]; cbn [step] in E.
  - destruct (ctl legacy w c k i d) as [[[w1 e] n1]|] eqn:C; [|discriminate]. ob_in E. injection E as <- <- <-.
    destruct (ctl_ok _ _ _ _ _ _ _ _ _ WI C) as (A & B & _ & _ & D). auto.
  - destruct (change w f s g) as [[w1 n1]|] eqn:C; [|discriminate]. ob_in E. injection E as <- <- <-.
    destruct (change_ok _ _ _ _ _ _ _ _ WI C) as (A & B & _ & _ & D). auto.
  - destruct (wait w m) as [[[w1 r] n1]|] eqn:C; [|discriminate]. ob_in E.
    destruct r as [l|e]; injection E as <- <- <-.
    + destruct (Z.lt_ge_cases 0 m) as [M|M].
      * destruct (wait_ok _ _ _ _ _ _ WI M C) as (A & B & _ & _ & D & _). cbn [need]. rewrite Z.max_l by lia. auto.
      * unfold wait in C. destruct (Z.leb_spec m 0); [discriminate|lia].
    + unfold wait in C. destruct (Z.leb_spec m 0) as [M|M].
      * injection C as <- <- <-. split; [now apply bad_wait_ok|]. split; [apply tells_nil|]. cbn [need]. rewrite Z.max_r by lia.
        assert (0 <= adds h None); [|lia]. clear. induction h as [|[[[[] | |] []] ?] h IH]; cbn; lia.
      * destruct (has_ready (ep w)); [|discriminate]. destruct (collect _ _ _ _ _) as [[[? ?] ?]|]; [|discriminate]. ob_in C.
        destruct (refresh_state _). discriminate.
Qed.
Lemma runs_winv h w : runs legacy h w -> winv h w.
Proof.
  induction 1 as [|h w o x n w' R IH E]; [exact winv_new|]. now apply (step_ok h w o w' x n).
Qed.
Lemma exec_runs l : forall w h w' h', runs legacy h w -> exec legacy w l h = Some (w', h') -> runs legacy h' w'.
Proof.
  induction l as [|o l IH]; intros w h w' h' R E; cbn in E; [now injection E as <- <-|].
  destruct (step legacy w o) as [[[w1 x] n]|] eqn:S; [|discriminate]. ob_in E. cbn [fst snd] in E. eapply IH; [|exact E].
  econstructor; eauto.
Qed.

Theorem waits_main h m l n w : runs legacy ((Wait m, Events l, n) :: h) w -> good_wait legacy h m l.
Proof.
  intros R. inversion R as [|? w0 ? ? ? ? R0 E]. subst. cbn in E.
  destruct (wait w0 m) as [[[w1 r] n1]|] eqn:C; [|discriminate]. ob_in E.
  assert (0 < m). { unfold wait in C. destruct (Z.leb_spec m 0); [injection C as <- <- <-; discriminate|lia]. }
  destruct r as [l'|e]; [|discriminate]. injection E as -> -> ->.
  now apply (wait_ok _ _ _ _ _ _ (runs_winv _ _ R0) H C).
Qed.

Theorem readable_main h w : runs legacy h w -> (readable (ep w) = true <-> exists k b, due legacy h k b = true).
Proof.
  intros R. apply runs_winv in R. rewrite (wi_readable _ _ _ R). split.
  - unfold has_ready. destruct (ready (ep w)) as [|[q k] l] eqn:RP; [discriminate|]. intros _. exists k.
    apply (ready_set h w k R). assert (I : In (q, k) (ready (ep w))) by (rewrite RP; now left).
    pose proof I as J. apply (ho_in _ _ (wi_heap _ _ _ R)) in J. destruct J as (e & G & P). exists e, q. auto.
  - intros (k & b & D). assert (RK : ready_key legacy h k) by now exists b. apply (ready_set h w k R) in RK.
    destruct RK as (e & q & _ & _ & I). unfold has_ready. destruct (ready (ep w)); [contradiction|reflexivity].
Qed.

Theorem told_main h w : runs legacy h w -> readable (ep w) = told h /\
  match h with (_, _, n) :: h0 => alternates (told h0) n | [] => True end.
Proof.
  intros R. split; [symmetry; apply (wi_told _ _ _ (runs_winv _ _ R))|]. destruct R as [|h w o x n w' R E]; [exact Logic.I|].
  pose proof (runs_winv _ _ R) as WI. rewrite (wi_told _ _ _ WI). now apply (step_ok h w o w' x n WI E).
Qed.

Theorem ctl_main h c k i d x n w : runs legacy ((Ctl c k i d, x, n) :: h) w -> x = ctl_result h c k.
Proof.
  intros R. inversion R as [|? w0 ? ? ? ? R0 E]. subst. cbn in E. pose proof (runs_winv _ _ R0) as WI.
  destruct (ctl legacy w0 c k i d) as [[[w1 e] n1]|] eqn:C; [|discriminate]. ob_in E. injection E as _ <- _.
  pose proof (wi_reg _ _ _ WI k) as RK. unfold EpollProofs.reg_at in RK. unfold ctl, ctl_edit in C. rewrite (wi_files _ _ _ WI (snd k)) in C.
  unfold ctl_result.
  destruct c; [destruct (st_closed (file_state h (snd k))); [now injection C as _ <- _|]| |];
    (destruct (get k (monitoring (ep w0))) as [e0|]; destruct (registered h k) as [[i0 d0]|]; try contradiction);
    try (injection C as _ <- _; reflexivity); cbn [ep] in C;
    (destruct (refresh_ready _ _) as [p|]; [|discriminate C]); ob_in C; destruct (refresh_state _); injection C as _ <- _; reflexivity.
Qed.

Lemma counter_main h w : runs legacy h w -> U64_MAX - used h <= pri_counter (ep w).
Proof.
  induction 1 as [|h w o x n w' R IH E]; [cbn; lia|]. cbn [used].
  destruct (step_ok h w o w' x n (runs_winv _ _ R) E) as (_ & _ & D). lia.
Qed.
Theorem no_panic_main h w o : runs legacy h w -> need h o + used h <= U64_MAX -> step legacy w o <> None.
Proof.
  intros R C. pose proof (counter_main h w R) as P. apply runs_winv in R. destruct o as [c k i d|f s g|m]; cbn [step need] in *.
  - destruct (ctl_some h w c k i d R) as (w' & x & n & ->); [lia|]. discriminate.
  - destruct (change_some legacy h w f s g R) as (w' & n & ->); [lia|]. discriminate.
  - destruct (wait_some h w m R) as (w' & x & n & ->); [lia|]. discriminate.
Qed.

(** Two reports of an event by an edge-triggered registration have an edge between them. *)
Lemma edge_between h2 h1 k b x : reports_at x k b -> edge_reported (h2 ++ x :: h1) k b = false ->
  exists a y c, h2 = a ++ y :: c /\ is_edge (c ++ x :: h1) y k b.
Proof.
  intros RA. induction h2 as [|y h2 IH]; intros E.
  - destruct x as [[[] []] n]; cbn in RA; try contradiction. cbn in E. rewrite RA in E. discriminate.
  - cbn [app edge_reported] in E. destruct y as [[o r] n].
    assert (NEXT : edge_reported (h2 ++ x :: h1) k b = false -> exists a y c, (o, r, n) :: h2 = a ++ y :: c /\ is_edge (c ++ x :: h1) y k b).
    { intros X. destruct (IH X) as (a & z & c & -> & Y). exists ((o, r, n) :: a), z, c. auto. }
    destruct o as [c k' i d|f s g|m].
    + destruct r; auto. destruct (eqb_ok k' k) as [->|N]; [|auto]. exists [], (Ctl c k i d, Ok, n), h2. split; [reflexivity|]. reflexivity.
    + destruct (Z.eqb_spec f (snd k)) as [->|N]; [|auto]. cbn [andb] in E.
      destruct (xorb (on s b) (on (file_state (h2 ++ x :: h1) (snd k)) b) || match b with IN => g && st_readable s | _ => false end) eqn:Q; [|auto].
      exists [], (Change (snd k) s g, r, n), h2. split; [reflexivity|]. cbn. split; [reflexivity|].
      apply orb_true_iff in Q. destruct Q as [Q|Q].
      * left. intros X. rewrite X, xorb_nilpotent in Q. discriminate.
      * right. destruct b; try discriminate. apply andb_true_iff in Q. tauto.
    + destruct r; auto. apply orb_false_iff in E. apply NEXT. tauto.
Qed.
Theorem edge_main h1 x h2 y k b w i d : runs legacy (y :: h2 ++ x :: h1) w -> reports_at x k b -> reports_at y k b ->
  registered (h2 ++ x :: h1) k = Some (i, d) -> et i = true ->
  exists a z c, h2 = a ++ z :: c /\ is_edge (c ++ x :: h1) z k b.
Proof.
  intros R RX RY RG ET. apply edge_between; [exact RX|]. destruct y as [[[] []] n]; cbn in RY; try contradiction.
  pose proof (waits_main _ _ _ _ _ R) as GW. unfold reports in RY. apply existsb_exists in RY. destruct RY as ([k' [es d']] & I & Q). cbn in Q.
  destruct (eqb_ok k' k) as [->|N]; [|discriminate]. cbn in Q. destruct (gw_report _ _ _ _ GW k es d' I) as (D & _).
  rewrite D in Q. unfold due in Q. rewrite RG, ET in Q. rewrite !andb_true_iff in Q. destruct Q as ((((_ & _) & Q) & _) & _).
  now apply negb_true_iff in Q.
Qed.

(** Two reports of an event by a one-shot registration have a registration between them. *)
Lemma reg_between h2 h1 k b x : reports_at x k b -> reported (h2 ++ x :: h1) k b = false -> Exists (fun z => registers z k) h2.
Proof.
  intros RA. induction h2 as [|y h2 IH]; intros E.
  - destruct x as [[[] []] n]; cbn in RA; try contradiction. cbn in E. rewrite RA in E. discriminate.
  - cbn [app reported] in E. destruct y as [[o r] n]. destruct o as [c k' i d|f s g|m]; destruct r; try (right; now apply IH).
    + destruct (eqb_ok k' k) as [->|N]; [left; reflexivity|right; now apply IH].
    + apply orb_false_iff in E. right. apply IH. tauto.
Qed.
Theorem oneshot_main h1 x h2 y k b w i d : runs legacy (y :: h2 ++ x :: h1) w -> reports_at x k b -> reports_at y k b ->
  registered (h2 ++ x :: h1) k = Some (i, d) -> oneshot i = true -> Exists (fun z => registers z k) h2.
Proof.
  intros R RX RY RG ET. apply (reg_between h2 h1 k b x RX). destruct y as [[[] []] n]; cbn in RY; try contradiction.
  pose proof (waits_main _ _ _ _ _ R) as GW. unfold reports in RY. apply existsb_exists in RY. destruct RY as ([k' [es d']] & I & Q). cbn in Q.
  destruct (eqb_ok k' k) as [->|N]; [|discriminate]. cbn in Q. destruct (gw_report _ _ _ _ GW k es d' I) as (D & _).
  rewrite D in Q. unfold due in Q. rewrite RG, ET in Q. rewrite !andb_true_iff in Q. destruct Q as (((_ & _) & Q) & _).
  now apply negb_true_iff in Q.
Qed.

(** ** Fairness *)
Lemma runs_split h2 h1 w : runs legacy (h2 ++ h1) w -> exists w1, runs legacy h1 w1.
Proof.
  revert w. induction h2 as [|x h2 IH]; intros w R; [eauto|]. cbn in R. inversion R. subst. eauto.
Qed.
Lemma fair_step h2 : forall h1 w k w1 e1 q, runs legacy (h2 ++ h1) w -> runs legacy h1 w1 ->
  (forall a b, h2 = a ++ b -> ready_key legacy (b ++ h1) k) ->
  (forall wx, runs legacy h1 wx -> wx = w1) ->
  get k (monitoring (ep w1)) = Some e1 -> priority e1 = Some q ->
  Exists (fun x => exists b, reports_at x k b) h2 \/
  exists e, get k (monitoring (ep w)) = Some e /\ priority e = Some q /\ ahead (ep w) q + room h2 <= ahead (ep w1) q.
Proof.
  induction h2 as [|x h2 IH]; intros h1 w k w1 e1 q R R1 RK UN G1 P1.
  - cbn in R. rewrite (UN w R). right. exists e1. split; [exact G1|]. split; [exact P1|]. cbn. lia.
  - cbn [app] in R. inversion R as [|? w0 o r n ? R0 E Q1 Q2]. subst.
    destruct (IH h1 w0 k w1 e1 q R0 R1) as [X|(e & G & P & A)]; auto.
    { intros a b ->. apply (RK ((o, r, n) :: a) b). reflexivity. }
    pose proof (runs_winv _ _ R0) as WI. pose proof (runs_winv _ _ R) as WI'.
    assert (QL : pri_counter (ep w0) < q).
    { assert (I : In (q, k) (ready (ep w0))) by (apply (ho_in _ _ (wi_heap _ _ _ WI)); eauto). exact (ho_low _ _ (wi_heap _ _ _ WI) _ I). }
    pose proof (RK [] _ eq_refl) as RN. apply (ready_set _ w k WI') in RN. destruct RN as (e' & q' & G' & P' & I').
    assert (RD' : entry_ready e' = true).
    { apply (ho_ready _ _ (wi_heap _ _ _ WI') k e' ltac:(discriminate) G'). congruence. }
    assert (MOVE : grow (ep w0) (ep w) -> stay (ep w0) (ep w) -> room ((o, r, n) :: h2) = room h2 ->
      exists e, get k (monitoring (ep w)) = Some e /\ priority e = Some q /\ ahead (ep w) q + room ((o, r, n) :: h2) <= ahead (ep w1) q).
    { intros GR ST RM. exists e'. split; [exact G'|]. split; [exact (ST k e q e' G P G' RD')|].
      rewrite RM. pose proof (grow_ahead _ _ q (wi_heap _ _ _ WI') GR QL). lia. }
    destruct o as [c k' i d|f s g|m]; cbn [step] in E.
    + destruct (ctl legacy w0 c k' i d) as [[[w2 z] n2]|] eqn:C; [|discriminate]. ob_in E. injection E as -> <- <-.
      destruct (ctl_ok _ _ _ _ _ _ _ _ _ WI C) as (_ & _ & GR & ST & _). right. now apply MOVE.
    + destruct (change w0 f s g) as [[w2 n2]|] eqn:C; [|discriminate]. ob_in E. injection E as -> <- <-.
      destruct (change_ok _ _ _ _ _ _ _ _ WI C) as (_ & _ & GR & ST & _). right. now apply MOVE.
    + destruct (wait w0 m) as [[[w2 z] n2]|] eqn:C; [|discriminate]. ob_in E.
      destruct z as [l|er]; injection E as -> <- <-.
      * assert (M : 0 < m). { unfold wait in C. destruct (Z.leb_spec m 0); [discriminate|lia]. }
        destruct (wait_ok _ _ _ _ _ _ WI M C) as (_ & _ & GW & F & _).
        destruct (in_dec (fun a b : key => match eqb_ok a b with ReflectT _ x => left x | ReflectF _ x => right x end) k (map fst l)) as [I|N].
        -- left. left. apply in_map_iff in I. destruct I as ([k' [es d]] & Q & I). cbn in Q. subst k'.
           destruct (gw_report _ _ _ _ GW k es d I) as (D & (b & B) & _). exists b. cbn.
           rewrite (reports_in l k es d b (gw_nodup _ _ _ _ GW) I). rewrite D. exact B.
        -- right. destruct (F k e q G P N) as (GE & AH). exists e. split; [exact GE|]. split; [exact P|]. cbn [room]. lia.
      * right. assert (w = w0) as ->.
        { unfold wait in C. destruct (Z.leb_spec m 0); [now injection C|]. destruct (has_ready (ep w0)); [|discriminate].
          destruct (collect _ _ _ _ _) as [[[? ?] ?]|]; [|discriminate]. ob_in C. destruct (refresh_state _). discriminate. }
        apply MOVE; [apply grow_refl|apply stay_refl|reflexivity].
Qed.
Lemma runs_fun h w : runs legacy h w -> forall w', runs legacy h w' -> w' = w.
Proof.
  induction 1 as [|h w o x n w1 R IH E]; intros w' R'; inversion R' as [|? w0 ? ? ? ? R0 E0]; [reflexivity|]. subst.
  rewrite (IH w0 R0) in E0. rewrite E in E0. now injection E0.
Qed.
Theorem fair_main h2 h1 w k ks : runs legacy (h2 ++ h1) w ->
  (forall a b, h2 = a ++ b -> ready_key legacy (b ++ h1) k) ->
  (forall k', ready_key legacy h1 k' -> In k' ks) -> Z.of_nat (length ks) <= room h2 ->
  Exists (fun x => exists b, reports_at x k b) h2.
Proof.
  intros R RK KS RM. destruct (runs_split _ _ _ R) as (w1 & R1). pose proof (runs_winv _ _ R1) as WI.
  assert (RK1 : ready_key legacy h1 k) by (apply (RK h2 []); now rewrite app_nil_r).
  apply (ready_set _ _ _ WI) in RK1. destruct RK1 as (e & q & G & P & I).
  destruct (fair_step h2 h1 w k w1 e q R R1 RK (runs_fun _ _ R1) G P) as [X|(e' & G' & P' & A)]; [exact X|].
  exfalso. assert (L : ahead (ep w1) q < Z.of_nat (length ks)).
  { unfold ahead.
    assert (N : NoDup ((q, k) :: filter (fun y => q <? fst y) (ready (ep w1)))).
    { constructor.
      - intros X. apply filter_In in X. cbn in X. lia.
      - pose proof (ho_pri _ _ (wi_heap _ _ _ WI)) as N. apply (nodup_map_filter fst (fun y => q <? fst y)) in N. now apply NoDup_map_inv in N. }
    assert (NK : NoDup (map snd ((q, k) :: filter (fun y => q <? fst y) (ready (ep w1))))).
    { cbn. constructor; [|apply nodup_map_filter; apply (ho_key _ _ (wi_heap _ _ _ WI))].
      intros X. apply in_map_iff in X. destruct X as (y & Y & X). apply filter_In in X. destruct X as (X & Z).
      pose proof (nodup_map_inj snd _ _ _ (ho_key _ _ (wi_heap _ _ _ WI)) X I Y) as ->. cbn in Z. lia. }
    assert (INC : incl (map snd ((q, k) :: filter (fun y => q <? fst y) (ready (ep w1)))) ks).
    { intros z J. apply KS. apply (ready_set _ _ _ WI). apply in_map_iff in J. destruct J as ([q' z'] & <- & J). cbn [snd].
      assert (J' : In (q', z') (ready (ep w1))) by (destruct J as [J|J]; [injection J as <- <-; exact I|now apply filter_In in J]).
      pose proof J' as Y. apply (ho_in _ _ (wi_heap _ _ _ WI)) in Y. destruct Y as (e2 & G2 & P2). exists e2, q'. auto. }
    pose proof (NoDup_incl_length NK INC) as LL. cbn [map length] in LL. rewrite map_length in LL. lia. }
  assert (0 <= ahead (ep w) q) by (unfold ahead; lia). lia.
Qed.
End Main.
